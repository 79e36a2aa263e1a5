(** bwt_file as a sequence of system calls on a file system that other processes use too, and the
    program examples/bwt.cpp.

    M_File.v describes one uninterrupted call by the answers of the operating system.  Here the
    files are explicit, a call is a process that makes one step per system call, and several
    processes are interleaved.  What the call computes between reading the input and creating the
    output is [bwt_file_gen] of M_File.v.  Simplified: a failing fopen or malloc is possible at any
    time; a read does not fail; files are not removed or renamed while they are open. *)
From Verif Require Import Base M_Induce M_Flbwt M_File.
Open Scope Z_scope.

(** a file system: the content of every file *)
Definition path := nat.
Definition fsys := path -> option (list Z).
Definition fset (F : fsys) (p : path) (c : list Z) : fsys := fun q => if Nat.eqb q p then Some c else F q.
(** write(fd, x) at offset pos: overwrites, extends, and fills a hole with zeros *)
Definition write_at (c : list Z) (pos : nat) (x : list Z) : list Z :=
  firstn pos c ++ repeat 0 (pos - length c) ++ x ++ skipn (pos + length x) c.

(** one call bwt_file(in, out); the memory it finds and the std::sort it uses *)
Record job := mkjob { j_in : path; j_out : path; j_env : env; j_srt : sorter }.

(** where the call is *)
Inductive pst :=
| AtOpen                            (* src/flbwt.cpp:30 fopen(input, "r") *)
| AtSize                            (* :37-39 fseek, ftell, rewind *)
| AtRead (n : Z) (got : list Z)     (* :41-59 malloc, fread, fclose, bwt_string; fread has read [got] so far *)
| AtCreate (out : list Z)           (* :65 fopen(output, "wb"); out: what will be written *)
| AtWrite (pos : nat) (todo : list Z) (* :81-97 fwrite; the stream writes in pieces, the last ones in fclose (:100) *)
| Finished (r : res unit).          (* returned, or threw *)

Section Step.
(** [full]: the output device may run out of space *)
Context (hts : Z) (full : bool).

Inductive step (j : job) : fsys * pst -> fsys * pst -> Prop :=
| st_open F c : F (j_in j) = Some c -> step j (F, AtOpen) (F, AtSize)
| st_open_fails F : step j (F, AtOpen) (F, Finished (Err InvalidArgument))
| st_size F c : F (j_in j) = Some c -> step j (F, AtSize) (F, AtRead (Z.of_nat (length c)) [])
| st_malloc_fails F n : step j (F, AtRead n []) (F, Finished (Err RuntimeError))
| st_read F n got c x y : F (j_in j) = Some c -> skipn (length got) c = x ++ y -> x <> [] -> Z.of_nat (length got + length x) <= n ->
    step j (F, AtRead n got) (F, AtRead n (got ++ x))  (* the next bytes of what the file contains at this moment *)
| st_read_done F n got c : F (j_in j) = Some c -> Z.of_nat (length got) = n \/ (length c <= length got)%nat -> (* all bytes, or the end of the file *)
    step j (F, AtRead n got)
      (F, match bwt_file_gen hts (j_env j) (j_srt j) (mkio true n got true true None) with
          | (Ok tt, Some out) => AtCreate out
          | (r, _) => Finished r
          end)
| st_create F out : step j (F, AtCreate out) (fset F (j_out j) [], AtWrite 0 out)
| st_create_fails F out : step j (F, AtCreate out) (F, Finished (Err InvalidArgument))
| st_write F c pos x y : F (j_out j) = Some c -> x <> [] ->
    step j (F, AtWrite pos (x ++ y)) (fset F (j_out j) (write_at c pos x), AtWrite (pos + length x) y)
| st_full F pos todo : full = true -> step j (F, AtWrite pos todo) (F, Finished (Ok tt))
| st_close F pos : step j (F, AtWrite pos []) (F, Finished (Ok tt)).

(** several calls at once: any one of them makes the next step *)
Inductive sys_step : fsys * list (job * pst) -> fsys * list (job * pst) -> Prop :=
| sys_one F F' a j s s' b : step j (F, s) (F', s') -> sys_step (F, a ++ (j, s) :: b) (F', a ++ (j, s') :: b).
(** the states in which the system can be found, by a crash or by an observer, and the number of steps *)
Inductive run : nat -> fsys * list (job * pst) -> fsys * list (job * pst) -> Prop :=
| run_0 x : run 0 x x
| run_S k x y z : run k x y -> sys_step y z -> run (S k) x z.
End Step.
Definition start (jobs : list job) : list (job * pst) := map (fun j => (j, AtOpen)) jobs.

(** * examples/bwt.cpp *)
(** how a process ends; an exception that leaves main, or undefined behaviour, ends it abnormally *)
Inductive status := Exit (code : Z) | Abnormal (e : err).
(** examples/bwt.cpp:5-19; second component: what happens to the output file, as for bwt_file *)
Definition main (hts : Z) (E : env) (srt : sorter) (argc : Z) (f : io) : status * option (list Z) :=
  if negb (argc =? 3) then (Exit (-1), None) else
  match bwt_file_gen hts E srt f with
  | (Ok _, out) => (Exit 0, out)
  | (Err e, out) => (Abnormal e, out)
  end.

(** Model of flbwt::bwt_file (src/flbwt.cpp:27-108).  The operating system's answers are the
    record [io]; the observable effects are the exception thrown and what happens to the
    output file. *)
From Verif Require Import Base M_Induce M_Flbwt.
Open Scope Z_scope.

Record io := mkio {
  in_open : bool;            (* fopen(input, "r") succeeds *)
  in_tell : Z;               (* ftell after seeking to the end; -1 on failure (pipe) *)
  in_data : list Z;          (* the bytes fread can deliver *)
  malloc_ok : bool;          (* malloc returns a block *)
  out_open : bool;           (* fopen(output, "wb") succeeds *)
  out_limit : option nat     (* the output device accepts at most that many bytes *) }.

(** fread(T, 1, n, fp): at most n bytes, stored at T[0..] *)
Definition fread (T : arr Z) (n : Z) (data : list Z) : res (arr Z * Z) :=
  let l := firstn (Z.to_nat (Z.min n (Z.of_nat (length data)))) data in
  T <- ablit T 0 l ;; Ok (T, Z.of_nat (length l)).

(** fwrite(p, 1, len, fp) with p = a + off; the return value is not used by the code *)
Definition fwrite (lim : option nat) (out : list Z) (a : arr Z) (off len : Z) : res (list Z) :=
  l <- aslice a off (off + len) ;;
  Ok (match lim with None => out ++ l | Some k => firstn k (out ++ l) end).

(** src/flbwt.cpp:72-81 the eight rank bytes *)
Definition rank_bytes (last : Z) : list Z :=
  [ u8 (Z.shiftr (Z.land 18374686479671623680 last) 56);
    u8 (Z.shiftr (Z.land 71776119061217280 last) 48);
    u8 (Z.shiftr (Z.land 280375465082880 last) 40);
    u8 (Z.shiftr (Z.land 1095216660480 last) 32);
    u8 (Z.shiftr (Z.land 4278190080 last) 24);
    u8 (Z.shiftr (Z.land 16711680 last) 16);
    u8 (Z.shiftr (Z.land 65280 last) 8);
    u8 (Z.land 255 last) ].

(** src/flbwt.cpp:69-97 writing the result *)
Definition write_result (lim : option nat) (n : Z) (B : option bwt_result) : res (list Z) :=
  match B with
  | None => Ok []
  | Some B =>
    rank <- ablit (anew 8) 0 (rank_bytes (r_last B)) ;;
    out <- fwrite lim [] rank 0 8 ;;
    if r_last B =? 0 then fwrite lim out (r_BWT B) 1 n
    else if r_last B =? n then fwrite lim out (r_BWT B) 0 n
    else
      out <- fwrite lim out (r_BWT B) 0 (r_last B) ;;
      fwrite lim out (r_BWT B) (r_last B + 1) (u64 (n - r_last B))
  end.

(** src/flbwt.cpp:27-108 bwt_file.  First component: Ok for a normal return, Err for the
    exception thrown (or for undefined behaviour).  Second component: None if the output file
    was neither created nor truncated, otherwise its content.  [fclose], [free] and [delete]
    have no observable effect here. *)
Definition bwt_file_gen (hts : Z) (E : env) (srt : sorter) (f : io) : res unit * option (list Z) :=
  if negb (in_open f) then (Err InvalidArgument, None) else
  let n := u64 (in_tell f) in
  if negb (malloc_ok f) then (Err RuntimeError, None) else
  let T := anew (u64 (n + 1)) in
  match fread T n (in_data f) with
  | Err e => (Err e, None)
  | Ok (T, k) =>
    if k <=? 0 then (Err RuntimeError, None) else
    match aset T n 0 with
    | Err e => (Err e, None)
    | Ok T =>
      match bwt_string_gen hts E srt (Some T) n true with
      | Err e => (Err e, None)
      | Ok (_, B) =>
        if negb (out_open f) then (Err InvalidArgument, None) else
        match write_result (out_limit f) n B with
        | Err e => (Err e, Some [])
        | Ok out => (Ok tt, Some out)
        end
      end
    end
  end.
Definition bwt_file := bwt_file_gen 67777.

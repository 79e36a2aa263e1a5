(** Conditions on a set of concurrent bwt_file calls, used by the statements of C45. *)
From Verif Require Import Base M_Induce M_Flbwt M_File M_Fs Spec BlockSpec.
Open Scope Z_scope.

(** no call writes a file another call reads or writes; a call may write the file it reads *)
Definition independent (jobs : list job) : Prop := forall i k a b, i <> k -> nth_error jobs i = Some a -> nth_error jobs k = Some b ->
  j_out a <> j_out b /\ j_out a <> j_in b.
(** every input file that exists is empty or within the limits of C02 *)
Definition valid_jobs (hts : Z) (F0 : fsys) (jobs : list job) : Prop := forall j, In j jobs -> std_sort (j_srt j) /\
  forall c, F0 (j_in j) = Some c -> c = [] \/
    (Forall is_byte c /\ 3 <= Z.of_nat (length c) <= 2 ^ 58 /\ ((forall i, fresh_byte (j_env j) i = Some 0) \/ ~ unwritten_length hts c)).

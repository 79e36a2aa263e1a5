(** The example text, and concrete executions used as counterexamples (by computation). *)
From Verif Require Import Base M_PackedArray M_HashTable M_Sais M_Induce M_Flbwt M_File Spec Histories P_Sorter.
Open Scope Z_scope.

(** the text used in most examples: three S* substrings, two of them equal *)
Definition ex_text : list Z := [98; 97; 99; 98; 97; 99; 98; 97; 97; 255; 0; 98].
Definition ex_env : env := mkenv (fun _ => None) (fun _ => 12345678901234567) (fun _ k => k).
Definition ex_block : arr Z := of_list (ex_text ++ [0]).
Lemma ex_at : string_at ex_block 0 (ex_text ++ [0]).
Proof. intros i Hi. do 13 (destruct i as [|i]; [vm_compute; reflexivity|]). cbn in Hi. lia. Qed.
Lemma ex_safe : safe_lengths ex_text.
Proof.
  split; [|vm_compute; discriminate]. intros i Hi. vm_compute in Hi.
  repeat (destruct Hi as [<-|Hi]; [vm_compute; discriminate|]). destruct Hi.
Qed.
Lemma ex_bytes : Forall is_byte ex_text.
Proof. unfold is_byte. repeat constructor; lia. Qed.

(** 255 times 'a': the head string has length 256 *)
Definition bad_text : list Z := repeat 97 255.
Definition bad_block : arr Z := of_list (bad_text ++ [0]).
Definition env_fresh (x : option Z) : env := mkenv (fun _ => x) (fun _ => 0) (fun _ _ => 0).
Definition row0 (x : res (option (arr Z) * option bwt_result)) : res (option Z) :=
  match x with Ok (_, Some r) => Ok (av (r_BWT r) 0) | Ok (_, None) => Err NullDeref | Err e => Err e end.
Lemma fresh_matters :
  row0 (bwt_string (env_fresh (Some 0)) isort (Some bad_block) 255 true) = Ok (Some 97) /\
  row0 (bwt_string (env_fresh (Some 1)) isort (Some bad_block) 255 true) = Ok (Some 0) /\
  row0 (bwt_string (env_fresh (Some 255)) isort (Some bad_block) 255 true) = Err OutOfBounds /\
  row0 (bwt_string (env_fresh None) isort (Some bad_block) 255 true) = Err Uninit.
Proof. split; [vm_compute; reflexivity|split; [vm_compute; reflexivity|split; vm_compute; reflexivity]]. Qed.
Lemma terminator_matters :
  match bwt_string ex_env isort (Some (of_list [98; 97; 98; 98; 97; 98; 255])) 6 true,
        bwt_string ex_env isort (Some (of_list [98; 97; 98; 98; 97; 98; 0])) 6 true with
  | Ok (_, Some r1), Ok (_, Some r2) => r_last r1 = 4 /\ r_last r2 = 5 /\ row_of [98; 97; 98; 98; 97; 98] 0 = 5
  | _, _ => False
  end.
Proof. vm_compute. auto. Qed.

(** the row of the terminator, BWT[last], is not part of the transform: it is left unwritten or holds an unrelated byte *)
Definition row_last (l : list Z) : res (option Z) :=
  match bwt_string ex_env isort (Some (of_list (l ++ [0]))) (Z.of_nat (length l)) false with
  | Ok (_, Some r) => Ok (av (r_BWT r) (r_last r)) | Ok (_, None) => Err NullDeref | Err e => Err e end.
Lemma last_matters :
  row_last [97; 98; 97; 98] = Ok None /\ row_last [97; 98; 99] = Ok None /\
  row_last [99; 98; 97] = Ok (Some 100) /\ row_last [98; 97; 98; 98; 97; 98] = Ok (Some 99).
Proof. split; [vm_compute; reflexivity|split; [vm_compute; reflexivity|split; vm_compute; reflexivity]]. Qed.

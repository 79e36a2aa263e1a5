(** Model of the split integer cells of include/sais40bit.hpp, sais48bit.hpp, sais56bit.hpp.
    [U] holds signed [uw]-bit integers, [L] unsigned 32-bit, [M] unsigned 16-bit. *)
From Verif Require Import Base.
Open Scope Z_scope.

(** include/sais40bit.hpp:14-18 (uw = 8), include/sais48bit.hpp:14-18 (uw = 16) *)
Definition set_2part (uw : Z) (L U : arr Z) (index value : Z) : res (arr Z * arr Z) :=
  U' <- aset U index (swrap uw (Z.shiftr value 32)) ;;
  L' <- aset L index (wrap 32 (Z.land value 4294967295)) ;;
  Ok (L', U').

(** include/sais40bit.hpp:20-23, include/sais48bit.hpp:20-23 *)
Definition get_2part (L U : arr Z) (index : Z) : res Z :=
  u <- aget U index ;;
  l <- aget L index ;;
  Ok (Z.lor (swrap 64 (Z.shiftl u 32)) l).

(** include/sais56bit.hpp:14-19 *)
Definition set_3part (L M U : arr Z) (index value : Z) : res (arr Z * arr Z * arr Z) :=
  U' <- aset U index (swrap 8 (Z.shiftr value 48)) ;;
  M' <- aset M index (wrap 16 (Z.shiftr value 32)) ;;
  L' <- aset L index (wrap 32 (Z.land value 4294967295)) ;;
  Ok (L', M', U').

(** include/sais56bit.hpp:21-24 *)
Definition get_3part (L M U : arr Z) (index : Z) : res Z :=
  u <- aget U index ;;
  m <- aget M index ;;
  l <- aget L index ;;
  Ok (Z.lor (Z.lor (swrap 64 (Z.shiftl u 48)) (swrap 64 (Z.shiftl m 32))) l).

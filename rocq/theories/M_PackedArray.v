(** Model of src/packed_array.cpp, include/packed_array.hpp, include/utility.hpp
    and of the static function get2 of src/sais*bit.cpp. *)
From Verif Require Import Base.
Open Scope Z_scope.

(** include/utility.hpp:14-17  position_of_msb: 64 - __builtin_clzl(n).
    __builtin_clzl(0) is undefined.  For 0 < n < 2^64, clzl(n) = 63 - floor(log2 n)
    (LP64: unsigned long has 64 bits). *)
Definition position_of_msb (n : Z) : res Z :=
  if n =? 0 then Err BadBuiltin else Ok (64 - (63 - Z.log2 n)).

Definition ones64 : Z := 2 ^ 64 - 1.

(** include/packed_array.hpp:8-10  BIT_MASK(uint64_t, cnt):
    (uint64_t)(-(cnt != 0)) & (((uint64_t)-1) >> (64 - cnt)).
    For cnt = 0 the shift is by 64, whose result C++ leaves undefined ([big_shift]). *)
Definition bit_mask (E : env) (cnt : Z) : Z :=
  Z.land (if cnt =? 0 then 0 else ones64) (shr64 E ones64 (64 - cnt)).

(** include/packed_array.hpp:17-75 class PackedArray (fields arr, length, integer_bits;
    arr_length is the allocated length of arr). *)
Record packed := mkpacked { pa_arr : arr Z; pa_len : Z; pa_bits : Z }.

(** src/packed_array.cpp:6-16 constructor *)
Definition pa_new (length integer_bits : Z) : packed :=
  let bits_required := u64 (length * integer_bits) in
  let arr_length := bits_required / 64 + 1 in
  mkpacked (anew arr_length) length integer_bits.

(** reading a word of memory obtained by malloc: never written words hold
    arbitrary content [fresh_word] *)
Definition rdw (E : env) (a : arr Z) (i : Z) : res Z :=
  if inb a i then Ok (match av a i with Some v => v | None => u64 (fresh_word E i) end)
  else Err OutOfBounds.

(** src/packed_array.cpp:28-53 set_value *)
Definition pa_set (E : env) (p : packed) (index value : Z) : res packed :=
  let bits := pa_bits p in
  let arr_index := u64 (bits * index) / 64 in
  let bit_index := 63 - u64 (bits * index) mod 64 in
  let bitmask1 := bit_mask E (bit_index + 1) in
  if bits <=? bit_index + 1 then
    let bitmask2 := bit_mask E (bit_index + 1 - bits) in
    let bitmask1 := Z.land bitmask1 (not64 bitmask2) in
    let shift := bit_index + 1 - bits in
    w <- rdw E (pa_arr p) arr_index ;;
    a <- aset (pa_arr p) arr_index (Z.lor (Z.land w (not64 bitmask1)) (shl64 E value shift)) ;;
    Ok (mkpacked a (pa_len p) bits)
  else
    let wfp := bit_index + 1 in
    let wsp := bits - wfp in
    w <- rdw E (pa_arr p) arr_index ;;
    a <- aset (pa_arr p) arr_index (Z.lor (Z.land w (not64 bitmask1)) (shr64 E value wsp)) ;;
    let bitmask2 := shl64 E ones64 (64 - wsp) in
    w2 <- rdw E a (arr_index + 1) ;;
    a <- aset a (arr_index + 1) (Z.lor (Z.land w2 (not64 bitmask2)) (shl64 E value (64 - wsp))) ;;
    Ok (mkpacked a (pa_len p) bits).

(** src/sais32bit.cpp:9-35 get2 (identical text in sais40/48/56/64bit.cpp) *)
Definition get2 (E : env) (B : arr Z) (i d : Z) : res Z :=
  let arr_index := u64 (d * i) / 64 in
  let bit_index := 63 - u64 (d * i) mod 64 in
  if d <=? bit_index + 1 then
    let bitmask1 := bit_mask E d in
    let shift := bit_index + 1 - d in
    w <- rdw E B arr_index ;;
    Ok (Z.land (shr64 E w shift) bitmask1)
  else
    let bitmask1 := bit_mask E (bit_index + 1) in
    let shift := d - bit_index - 1 in
    w <- rdw E B arr_index ;;
    w2 <- rdw E B (arr_index + 1) ;;
    Ok (Z.lor (shl64 E (Z.land w bitmask1) shift) (shr64 E w2 (64 - shift))).

(** src/packed_array.cpp:55-81 get_value: the same code on the object's own array *)
Definition pa_get (E : env) (p : packed) (index : Z) : res Z :=
  get2 E (pa_arr p) index (pa_bits p).

(** The same functions with a log of the amounts of all shifts executed, in program order, including the shift inside the
    BIT_MASK macro (include/packed_array.hpp:8-10). That the first components are [pa_set] and [get2] is proved
    (C29_log). *)
Definition bit_mask_log (E : env) (cnt : Z) : Z * list Z := (bit_mask E cnt, [64 - cnt]).
Definition shl_log (E : env) (x k : Z) : Z * list Z := (shl64 E x k, [k]).
Definition shr_log (E : env) (x k : Z) : Z * list Z := (shr64 E x k, [k]).
(** src/packed_array.cpp:28-53 set_value *)
Definition pa_set_log (E : env) (p : packed) (index value : Z) : res (packed * list Z) :=
  let bits := pa_bits p in
  let arr_index := u64 (bits * index) / 64 in
  let bit_index := 63 - u64 (bits * index) mod 64 in
  let '(bitmask1, l1) := bit_mask_log E (bit_index + 1) in
  if bits <=? bit_index + 1 then
    let '(bitmask2, l2) := bit_mask_log E (bit_index + 1 - bits) in
    let bitmask1 := Z.land bitmask1 (not64 bitmask2) in
    let shift := bit_index + 1 - bits in
    w <- rdw E (pa_arr p) arr_index ;;
    let '(x, l3) := shl_log E value shift in
    a <- aset (pa_arr p) arr_index (Z.lor (Z.land w (not64 bitmask1)) x) ;;
    Ok (mkpacked a (pa_len p) bits, l1 ++ l2 ++ l3)
  else
    let wfp := bit_index + 1 in
    let wsp := bits - wfp in
    w <- rdw E (pa_arr p) arr_index ;;
    let '(x, l2) := shr_log E value wsp in
    a <- aset (pa_arr p) arr_index (Z.lor (Z.land w (not64 bitmask1)) x) ;;
    let '(bitmask2, l3) := shl_log E ones64 (64 - wsp) in
    w2 <- rdw E a (arr_index + 1) ;;
    let '(x2, l4) := shl_log E value (64 - wsp) in
    a <- aset a (arr_index + 1) (Z.lor (Z.land w2 (not64 bitmask2)) x2) ;;
    Ok (mkpacked a (pa_len p) bits, l1 ++ l2 ++ l3 ++ l4).
(** src/packed_array.cpp:55-81 get_value, src/sais32bit.cpp:9-35 get2 *)
Definition get2_log (E : env) (B : arr Z) (i d : Z) : res (Z * list Z) :=
  let arr_index := u64 (d * i) / 64 in
  let bit_index := 63 - u64 (d * i) mod 64 in
  if d <=? bit_index + 1 then
    let '(bitmask1, l1) := bit_mask_log E d in
    let shift := bit_index + 1 - d in
    w <- rdw E B arr_index ;;
    let '(x, l2) := shr_log E w shift in
    Ok (Z.land x bitmask1, l1 ++ l2)
  else
    let '(bitmask1, l1) := bit_mask_log E (bit_index + 1) in
    let shift := d - bit_index - 1 in
    w <- rdw E B arr_index ;;
    let '(x, l2) := shl_log E (Z.land w bitmask1) shift in
    w2 <- rdw E B (arr_index + 1) ;;
    let '(x2, l3) := shr_log E w2 (64 - shift) in
    Ok (Z.lor x x2, l1 ++ l2 ++ l3).

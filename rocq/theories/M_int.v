(** Models of the integer support code: support/big.rs (256-bit integers) and the non-trivial
    parts of support/int_traits.rs.  Methods that only forward to the primitive method of the
    same name in [core] (checked_add, wrapping_*, rotate_left, overflowing_*, leading_zeros,
    ilog2, abs_diff) are not modelled: they are the primitive operations. *)
From Coq Require Import ZArith Bool.
From Verif Require Import Base Spec Format Ieee.
Open Scope Z_scope.

(** ** 256-bit integers: big.rs *)
(** big.rs 13-18 and 31-36: two structs with the same fields (u256 and i256). *)
Record u256 := U256 { lo : Z; hi : Z }.
Record i256 := I256 { ilo : Z; ihi : Z }.

(** big.rs 10 *)
Definition U128_LO_MASK : Z := 2 ^ 64 - 1.
(** big.rs 46-70 (the constants of [MinInt]); [u128::MAX << 1] shifts the top bit out. *)
Definition U256_ZERO := U256 0 0.
Definition U256_ONE := U256 1 0.
Definition U256_MIN := U256 0 0.
Definition U256_MAX := U256 (2 ^ 128 - 1) (2 ^ 128 - 1).
Definition I256_ZERO := I256 0 0.
Definition I256_ONE := I256 1 0.
Definition I256_MIN := I256 0 (Z.shiftl 1 127 mod 2 ^ 128).
Definition I256_MAX := I256 (2 ^ 128 - 1) (Z.shiftl (2 ^ 128 - 1) 1 mod 2 ^ 128).

(** big.rs 24-27, 39-43 *)
Definition u256_signed (a : u256) : i256 := I256 (lo a) (hi a).
Definition i256_unsigned (a : i256) : u256 := U256 (ilo a) (ihi a).

(** big.rs 72-101 (macro impl_common, for u256 and i256) *)
Definition u256_or (a b : u256) : u256 := U256 (Z.lor (lo a) (lo b)) (Z.lor (hi a) (hi b)).
Definition i256_or (a b : i256) : i256 := I256 (Z.lor (ilo a) (ilo b)) (Z.lor (ihi a) (ihi b)).
Definition u256_not (a : u256) : u256 := U256 (unot 128 (lo a)) (unot 128 (hi a)).
Definition i256_not (a : i256) : i256 := I256 (unot 128 (ilo a)) (unot 128 (ihi a)).
Definition u256_shl (a : u256) (n : Z) : option u256 := None.   (* unimplemented!() *)
Definition i256_shl (a : i256) (n : Z) : option i256 := None.   (* unimplemented!() *)

(** big.rs 106-115 *)
Definition u256_add (a b : u256) : u256 :=
  let l := wadd 128 (lo a) (lo b) in
  let carry := if 2 ^ 128 <=? lo a + lo b then 1 else 0 in
  U256 l (wadd 128 (wadd 128 (hi a) carry) (hi b)).

(** big.rs 117-146; the debug assertion is the first test. *)
Definition u256_shr (a : u256) (rhs : Z) : option u256 :=
  if 256 <=? rhs then None
  else if rhs =? 0 then Some a
  else
    let* l :=
      (if rhs <? 128 then
         let* l := ushr 128 (lo a) rhs in
         let* d := usub 32 128 rhs in
         let* h := ushl 128 (hi a) d in
         Some (Z.lor l h)
       else
         let* d := usub 32 rhs 128 in
         ushr 128 (hi a) d) in
    let* h := (if rhs <? 128 then ushr 128 (hi a) rhs else Some 0) in
    Some (U256 l h).

(** big.rs 12, 30: derived [PartialOrd], lexicographic in field order ([lo] first). *)
Definition lex (a b a' b' : Z) : comparison :=
  match a ?= a' with Eq => b ?= b' | c => c end.
Definition u256_cmp (a b : u256) : comparison := lex (lo a) (hi a) (lo b) (hi b).
Definition i256_cmp (a b : i256) : comparison := lex (ilo a) (ihi a) (ilo b) (ihi b).

(** big.rs 148-190: [HInt for u128] *)
Definition u128_widen (a : Z) : u256 := U256 a 0.
Definition u128_zero_widen (a : Z) : u256 := u128_widen a.
Definition u128_zero_widen_mul (a rhs : Z) : option u256 :=
  let l0 := Z.land a U128_LO_MASK in
  let l1 := Z.land rhs U128_LO_MASK in
  let* h0 := ushr 128 a 64 in
  let* h1 := ushr 128 rhs 64 in
  let p_ll := wmul 128 l0 l1 in
  let p_lh := wmul 128 l0 h1 in
  let p_hl := wmul 128 h0 l1 in
  let p_hh := wmul 128 h0 h1 in
  let* t0 := ushr 128 p_ll 64 in
  let* s0 := uadd 128 p_hl t0 in
  let* t1 := ushl 128 s0 64 in
  let* s1 := uadd 128 (Z.land p_ll U128_LO_MASK) t1 in
  let* t2 := ushr 128 s1 64 in
  let* s2 := uadd 128 p_lh t2 in
  let* t3 := ushl 128 s2 64 in
  let* l := uadd 128 (Z.land p_ll U128_LO_MASK) t3 in
  let* t4 := ushr 128 s0 64 in
  let* t5 := ushr 128 s2 64 in
  let* h := uadd 128 p_hh t4 in
  let* h := uadd 128 h t5 in
  Some (U256 l h).
Definition u128_widen_mul (a rhs : Z) : option u256 := u128_zero_widen_mul a rhs.
Definition u128_widen_hi (a : Z) : option u256 := u256_shl (u128_widen a) 128.

(** big.rs 192-219: [HInt for i128]; [a] is a signed value. *)
Definition i128_zero_widen (a : Z) : i256 := u256_signed (u128_zero_widen (to_u 128 a)).
Definition i128_widen (a : Z) : i256 :=
  let ret := u256_signed (u128_zero_widen (to_u 128 a)) in
  if a <? 0 then I256 (ilo ret) (2 ^ 128 - 1) else ret.
Definition i128_zero_widen_mul (a rhs : Z) : option i256 :=
  let* p := u128_zero_widen_mul (to_u 128 a) (to_u 128 rhs) in Some (u256_signed p).
Definition i128_widen_mul (a rhs : Z) : option i256 := None.  (* unimplemented!() *)
Definition i128_widen_hi (a : Z) : option i256 := i256_shl (i128_widen a) 128.

(** big.rs 221-239: [DInt] *)
Definition u256_lo (a : u256) : Z := lo a.
Definition u256_hi (a : u256) : Z := hi a.
Definition i256_lo (a : i256) : Z := to_i 128 (ilo a).
Definition i256_hi (a : i256) : Z := to_i 128 (ihi a).
(** int_traits.rs 256-260 at u256 *)
Definition u256_from_lo_hi (l h : Z) : option u256 :=
  let* t := u128_widen_hi h in Some (u256_or (u128_zero_widen l) t).

(** ** Primitive integer types: a width and a signedness (int_traits.rs 242-247). *)
Record ity := Ity { iw : Z; isg : bool }.
Definition imin (t : ity) : Z := if isg t then - 2 ^ (iw t - 1) else 0.
Definition imax (t : ity) : Z := if isg t then 2 ^ (iw t - 1) - 1 else 2 ^ iw t - 1.
Definition ival (t : ity) (a : Z) : Prop := imin t <= a <= imax t.
(** Rust's [as] between integer types *)
Definition as_ (t : ity) (a : Z) : Z := if isg t then to_i (iw t) a else to_u (iw t) a.
Definition unsigned_of (t : ity) : ity := Ity (iw t) false.
Definition signed_of (t : ity) : ity := Ity (iw t) true.
Definition double (t : ity) : ity := Ity (2 * iw t) (isg t).

(** int_traits.rs 176-178, 182-184, 188-190 and 216-230 *)
Definition int_signed (t : ity) (a : Z) : Z := as_ (signed_of t) a.
Definition int_unsigned (t : ity) (a : Z) : Z := as_ (unsigned_of t) a.
Definition from_unsigned (t : ity) (a : Z) : Z := as_ t a.
(** [abs]: line 184-186 (unsigned: unimplemented), 224-226 (signed: primitive, overflows on MIN) *)
Definition int_abs (t : ity) (a : Z) : option Z :=
  if isg t then chk (iw t) (Z.abs a) else None.
(** line 105-107 [logical_shr]; [wrapping_shr] reduces the amount modulo the width. *)
Definition logical_shr (t : ity) (a n : Z) : Z :=
  from_unsigned t (Z.shiftr (int_unsigned t a) (n mod iw t)).

(** int_traits.rs 288-303 (macro impl_d_int): [t] is the half type *)
Definition d_lo (t : ity) (x : Z) : Z := as_ t x.
Definition d_hi (t : ity) (x : Z) : Z := as_ t (Z.shiftr x (iw t)).
(** int_traits.rs 305-328 (macro impl_h_int) *)
Definition h_widen (t : ity) (a : Z) : Z := as_ (double t) a.
Definition h_zero_widen (t : ity) (a : Z) : Z := as_ (double t) (as_ (unsigned_of t) a).
Definition wrapping_mul_d (t : ity) (a b : Z) : Z := as_ (double t) (a * b).
Definition h_zero_widen_mul (t : ity) (a b : Z) : Z := wrapping_mul_d t (h_zero_widen t a) (h_zero_widen t b).
Definition h_widen_mul (t : ity) (a b : Z) : Z := wrapping_mul_d t (h_widen t a) (h_widen t b).
Definition h_widen_hi (t : ity) (a : Z) : Z := as_ (double t) (Z.shiftl (as_ (double t) a) (iw t)).
(** int_traits.rs 256-260 *)
Definition d_from_lo_hi (t : ity) (l h : Z) : Z := Z.lor (h_zero_widen t l) (h_widen_hi t h).

(** int_traits.rs 377-397 (macro cast_into): exact and lossy casts to [t] *)
Definition int_cast (t : ity) (a : Z) : option Z :=
  if (imin t <=? a) && (a <=? imax t) then Some (as_ t a) else None.
Definition int_cast_lossy (t : ity) (a : Z) : Z := as_ t a.
(** int_traits.rs 399-423 (macro cast_into_float): from the signed type of width [w] to [F].
    The assertion compares [self as F as ty] with [self]; float-to-int [as] saturates. *)
Definition cast_float (F : fmt) (w : Z) (n : Z) : option Z :=
  let f := of_int F n in
  if to_intZ F (- 2 ^ (w - 1)) (2 ^ (w - 1) - 1) f =? n then Some f else None.

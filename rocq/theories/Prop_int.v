(** C23, C24, C39, C41, C42: integer support types and traits.
    Source: libm/src/math/support/big.rs, libm/src/math/support/int_traits.rs. *)
From Coq Require Import ZArith Reals Lia Lra Bool.
From Flocq Require Import Core.
From Verif Require Import Base Spec SpecFun Format Ieee P_real M_int P_int.
Open Scope Z_scope.

(** Specification side: [uvalid]/[ivalid] say that both limbs are u128 values, [uval]/[ival256] are the
    integers a pattern stands for (unsigned / two's complement).  For primitive types: *)
Definition in_type (signed : bool) (w a : Z) : Prop :=
  if signed then - 2 ^ (w - 1) <= a < 2 ^ (w - 1) else 0 <= a < 2 ^ w.
Lemma in_type_ival t a : in_type (isg t) (iw t) a <-> ival t a.
Proof. unfold in_type, ival, imin, imax. destruct (isg t); lia. Qed.

(** ** C23 *)
Theorem C23_widen_mul : forall a b, 0 <= a < 2 ^ 128 -> 0 <= b < 2 ^ 128 ->
  exists p, u128_widen_mul a b = Some p /\ uvalid p /\ uval p = a * b.
Proof. exact widen_mul_ok. Qed.
Print Assumptions C23_widen_mul.
Example C23_widen_mul_ex : u128_widen_mul (2 ^ 128 - 1) (2 ^ 128 - 1) = Some (U256 1 (2 ^ 128 - 2)).
Proof. reflexivity. Qed.

Theorem C23_zero_widen_mul : forall a b, 0 <= a < 2 ^ 128 -> 0 <= b < 2 ^ 128 ->
  exists p, u128_zero_widen_mul a b = Some p /\ uvalid p /\ uval p = a * b.
Proof. exact widen_mul_ok. Qed.
Print Assumptions C23_zero_widen_mul.

Theorem C23_add : forall a b, uvalid a -> uvalid b ->
  uvalid (u256_add a b) /\ uval (u256_add a b) = (uval a + uval b) mod 2 ^ 256.
Proof. exact u256_add_ok. Qed.
Print Assumptions C23_add.
Example C23_add_ex : u256_add (U256 (2 ^ 128 - 1) 5) (U256 1 7) = U256 0 13.
Proof. reflexivity. Qed.

Theorem C23_not : forall a, uvalid a ->
  uvalid (u256_not a) /\ uval (u256_not a) = 2 ^ 256 - 1 - uval a.
Proof. exact u256_not_ok. Qed.
Print Assumptions C23_not.
Theorem C23_not_signed : forall a, ivalid a ->
  ivalid (i256_not a) /\ ival256 (i256_not a) = -1 - ival256 a.
Proof. exact i256_not_ok. Qed.
Print Assumptions C23_not_signed.
Example C23_not_ex : u256_not (U256 0 0) = U256 (2 ^ 128 - 1) (2 ^ 128 - 1).
Proof. reflexivity. Qed.

Theorem C23_or : forall a b, uvalid a -> uvalid b ->
  uvalid (u256_or a b) /\ uval (u256_or a b) = Z.lor (uval a) (uval b).
Proof. exact u256_or_ok. Qed.
Print Assumptions C23_or.

Theorem C23_shr : forall a n, uvalid a -> 0 <= n < 256 ->
  exists r, u256_shr a n = Some r /\ uvalid r /\ uval r = uval a / 2 ^ n.
Proof. exact u256_shr_ok. Qed.
Print Assumptions C23_shr.
Theorem C23_shr_panics : forall a n, 256 <= n -> u256_shr a n = None.
Proof. exact u256_shr_panics. Qed.
Print Assumptions C23_shr_panics.
Example C23_shr_ex : u256_shr (U256 0 3) 127 = Some (U256 6 0) /\ u256_shr (U256 0 3) 129 = Some (U256 1 0).
Proof. split; reflexivity. Qed.

Theorem C23_split : forall a, uvalid a ->
  u256_lo a = uval a mod 2 ^ 128 /\ u256_hi a = uval a / 2 ^ 128.
Proof. exact u256_split. Qed.
Print Assumptions C23_split.
Theorem C23_split_signed : forall a, ivalid a ->
  i256_hi a = ival256 a / 2 ^ 128 /\ i256_lo a mod 2 ^ 128 = ival256 a mod 2 ^ 128 /\
  - 2 ^ 127 <= i256_lo a < 2 ^ 127.
Proof. exact i256_split. Qed.
Print Assumptions C23_split_signed.
Theorem C23_widen : forall a, 0 <= a < 2 ^ 128 -> uvalid (u128_widen a) /\ uval (u128_widen a) = a.
Proof. exact u128_widen_ok. Qed.
Print Assumptions C23_widen.
Theorem C23_widen_signed : forall a, - 2 ^ 127 <= a < 2 ^ 127 ->
  ivalid (i128_widen a) /\ ival256 (i128_widen a) = a.
Proof. exact i128_widen_ok. Qed.
Print Assumptions C23_widen_signed.
Theorem C23_zero_widen_signed : forall a, - 2 ^ 127 <= a < 2 ^ 127 ->
  ivalid (i128_zero_widen a) /\ ival256 (i128_zero_widen a) = a mod 2 ^ 128.
Proof. exact i128_zero_widen_ok. Qed.
Print Assumptions C23_zero_widen_signed.
Example C23_widen_ex : i128_widen (-2) = I256 (2 ^ 128 - 2) (2 ^ 128 - 1).
Proof. reflexivity. Qed.

(** ** C24 (violated by the code) *)
(** Full statements that fail: [forall a, ivalid a -> ival256 a <= ival256 I256_MAX] and
    [forall a b, u256_cmp a b = (uval a ?= uval b)], likewise for i256. *)
Theorem C24_i256_max_refuted : ~ (forall a, ivalid a -> ival256 a <= ival256 I256_MAX).
Proof. intros H. destruct i256_max_wrong as (a & A & B). specialize (H a A). lia. Qed.
Print Assumptions C24_i256_max_refuted.
Theorem C24_u256_order_refuted :
  ~ (forall a b, uvalid a -> uvalid b -> u256_cmp a b = (uval a ?= uval b)).
Proof.
  intros H. destruct u256_order_wrong as (a & b & A & B & C & D). rewrite (H a b A B) in C.
  apply -> Z.compare_lt_iff in C. lia.
Qed.
Print Assumptions C24_u256_order_refuted.
Theorem C24_i256_order_refuted :
  ~ (forall a b, ivalid a -> ivalid b -> i256_cmp a b = (ival256 a ?= ival256 b)).
Proof.
  intros H. destruct i256_order_wrong as (a & b & A & B & C & D). rewrite (H a b A B) in C.
  apply -> Z.compare_lt_iff in C. lia.
Qed.
Print Assumptions C24_i256_order_refuted.
(** What does hold: the other constants, equality, and the order of values sharing their high limb. *)
Theorem C24_constants_partial :
  uval U256_MIN = 0 /\ uval U256_MAX = 2 ^ 256 - 1 /\ uval U256_ZERO = 0 /\ uval U256_ONE = 1
  /\ ival256 I256_MIN = - 2 ^ 255 /\ ival256 I256_ZERO = 0 /\ ival256 I256_ONE = 1.
Proof. exact u256_consts. Qed.
Print Assumptions C24_constants_partial.
Theorem C24_order_partial : forall a b, uvalid a -> uvalid b ->
  (u256_cmp a b = Eq <-> uval a = uval b) /\ (hi a = hi b -> u256_cmp a b = (uval a ?= uval b)).
Proof. intros a b A B. split; [exact (u256_eq_iff a b A B)|exact (u256_order_same_hi a b A B)]. Qed.
Print Assumptions C24_order_partial.
Example C24_ex : u256_cmp (U256 0 1) (U256 1 0) = Lt /\ ival256 I256_MAX = - 2 ^ 128 - 1.
Proof. split; reflexivity. Qed.

(** ** C39: the primitive integer types (any width above one bit, signed or not) *)
Theorem C39_cast : forall t a, ity_ok t ->
  (in_type (isg t) (iw t) a -> int_cast t a = Some a) /\
  (~ in_type (isg t) (iw t) a -> int_cast t a = None).
Proof. intros t a Ht. rewrite in_type_ival. exact (int_cast_ok t a Ht). Qed.
Print Assumptions C39_cast.
Theorem C39_cast_lossy : forall t a, ity_ok t ->
  in_type (isg t) (iw t) (int_cast_lossy t a) /\ int_cast_lossy t a mod 2 ^ iw t = a mod 2 ^ iw t.
Proof. intros t a Ht. rewrite in_type_ival. exact (int_cast_lossy_ok t a Ht). Qed.
Print Assumptions C39_cast_lossy.
Theorem C39_widen : forall t a, ity_ok t -> in_type (isg t) (iw t) a -> h_widen t a = a.
Proof. intros t a Ht. rewrite in_type_ival. exact (widen_ok t a Ht). Qed.
Print Assumptions C39_widen.
Theorem C39_zero_widen : forall t a, ity_ok t -> in_type (isg t) (iw t) a ->
  h_zero_widen t a = a mod 2 ^ iw t.
Proof. intros t a Ht. rewrite in_type_ival. exact (zero_widen_ok t a Ht). Qed.
Print Assumptions C39_zero_widen.
Theorem C39_widen_mul : forall t a b, ity_ok t -> in_type (isg t) (iw t) a -> in_type (isg t) (iw t) b ->
  h_widen_mul t a b = a * b.
Proof. intros t a b Ht. rewrite !in_type_ival. exact (widen_mul_prim_ok t a b Ht). Qed.
Print Assumptions C39_widen_mul.
Theorem C39_zero_widen_mul : forall t a b, ity_ok t -> in_type (isg t) (iw t) a -> in_type (isg t) (iw t) b ->
  in_type (isg t) (2 * iw t) (h_zero_widen_mul t a b) /\
  h_zero_widen_mul t a b mod 2 ^ (2 * iw t) = (a mod 2 ^ iw t) * (b mod 2 ^ iw t).
Proof.
  intros t a b Ht. rewrite !in_type_ival. intros A B. destruct (zero_widen_mul_ok t a b Ht A B) as (C & D & _).
  apply in_type_ival in C. split; assumption.
Qed.
Print Assumptions C39_zero_widen_mul.
Theorem C39_widen_hi : forall t a, ity_ok t -> in_type (isg t) (iw t) a -> h_widen_hi t a = a * 2 ^ iw t.
Proof. intros t a Ht. rewrite in_type_ival. exact (widen_hi_ok t a Ht). Qed.
Print Assumptions C39_widen_hi.
Theorem C39_lo_hi : forall t x, ity_ok t -> in_type (isg t) (2 * iw t) x ->
  in_type (isg t) (iw t) (d_lo t x) /\ in_type (isg t) (iw t) (d_hi t x) /\
  d_hi t x = x / 2 ^ iw t /\ d_lo t x mod 2 ^ iw t = x mod 2 ^ iw t /\
  d_from_lo_hi t (d_lo t x) (d_hi t x) = x.
Proof.
  intros t x Ht Hx. rewrite !in_type_ival. apply lo_hi_ok; [exact Ht|]. now apply in_type_ival.
Qed.
Print Assumptions C39_lo_hi.
Theorem C39_logical_shr : forall t a n, ity_ok t -> in_type (isg t) (iw t) a -> 0 <= n < iw t ->
  in_type (isg t) (iw t) (logical_shr t a n) /\
  logical_shr t a n mod 2 ^ iw t = (a mod 2 ^ iw t) / 2 ^ n.
Proof. intros t a n Ht. rewrite !in_type_ival. exact (logical_shr_ok t a n Ht). Qed.
Print Assumptions C39_logical_shr.
Theorem C39_sign_conversion : forall t a, ity_ok t -> in_type (isg t) (iw t) a ->
  in_type true (iw t) (int_signed t a) /\ in_type false (iw t) (int_unsigned t a) /\
  int_signed t a mod 2 ^ iw t = a mod 2 ^ iw t /\ int_unsigned t a = a mod 2 ^ iw t /\
  from_unsigned t (int_unsigned t a) = a.
Proof.
  intros t a Ht. rewrite in_type_ival. intros Ha. destruct (sign_conv_ok t a Ht Ha) as (A & B & C).
  split; [now apply (in_type_ival (signed_of t))|]. split; [now apply (in_type_ival (unsigned_of t))|].
  split; [|split; [reflexivity|assumption]].
  apply (as_spec (signed_of t) a Ht).
Qed.
Print Assumptions C39_sign_conversion.
Theorem C39_abs : forall t a, ity_ok t -> isg t = true -> in_type true (iw t) a ->
  (a <> - 2 ^ (iw t - 1) -> int_abs t a = Some (Z.abs a)) /\ (a = - 2 ^ (iw t - 1) -> int_abs t a = None).
Proof.
  intros t a Ht S Ha. assert (H : ival t a) by (apply in_type_ival; now rewrite S).
  pose proof (int_abs_ok t a Ht S H) as G. unfold imin in G. now rewrite S in G.
Qed.
Print Assumptions C39_abs.
Example C39_ex : int_cast (Ity 8 true) 200 = None /\ int_cast_lossy (Ity 8 true) 200 = -56 /\
  logical_shr (Ity 32 true) (-1) 31 = 1 /\ h_widen_mul (Ity 32 true) (- 2 ^ 31) (- 2 ^ 31) = 2 ^ 62 /\
  d_from_lo_hi (Ity 32 true) (-1) (-2) = -4294967297.
Proof. repeat split. Qed.

(** ** C41: halves and widening at 128 bits (violated by the code) *)
(** Full statement that fails: as C39_widen_hi / C39_lo_hi for the 128-bit half types. *)
Theorem C41_widen_hi_refuted : ~ (exists a r, u128_widen_hi a = Some r).
Proof. intros (a & r & H). discriminate. Qed.
Print Assumptions C41_widen_hi_refuted.
Theorem C41_from_lo_hi_refuted : ~ (exists a b r, u256_from_lo_hi a b = Some r).
Proof. intros (a & b & r & H). discriminate. Qed.
Print Assumptions C41_from_lo_hi_refuted.
Theorem C41_i128_widen_mul_refuted : ~ (exists a b r, i128_widen_mul a b = Some r).
Proof. intros (a & b & r & H). discriminate. Qed.
Print Assumptions C41_i128_widen_mul_refuted.
(** What holds: the halves of a 256-bit value read off by [lo]/[hi] determine it. *)
Theorem C41_lo_hi_partial : forall a, uvalid a -> uval a = u256_hi a * 2 ^ 128 + u256_lo a.
Proof. intros a A. reflexivity. Qed.
Print Assumptions C41_lo_hi_partial.

(** ** C42: exact integer to float conversion *)
(** Full statement that fails (at the extreme values of the integer type): the checked conversion succeeds
    exactly when the integer is representable. *)
Theorem C42_cast_float_partial : forall F w n, 1 < w -> - 2 ^ (w - 1) < n < 2 ^ (w - 1) - 1 ->
  (forall f, cast_float F w n = Some f -> isbits F f /\ finite F f = true /\ val F f = IZR n) /\
  (rnd F (IZR n) = IZR n -> (Rabs (IZR n) < bpow radix2 (bias F + 1))%R -> exists f, cast_float F w n = Some f).
Proof. exact cast_float_ok. Qed.
Print Assumptions C42_cast_float_partial.
Theorem C42_cast_float_refuted :
  ~ (forall n f, - 2 ^ 31 <= n < 2 ^ 31 -> cast_float f32 32 n = Some f -> val f32 f = IZR n).
Proof. intros H. destruct cast_float_wrong as (n & f & A & B & _ & C). apply C. now apply H. Qed.
Print Assumptions C42_cast_float_refuted.
Example C42_ex : cast_float f32 32 16777217 = None /\ cast_float f32 32 16777216 = Some 0x4b800000.
Proof. split; vm_compute; reflexivity. Qed.

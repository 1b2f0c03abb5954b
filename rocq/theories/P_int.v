(** Integer support: proofs. *)
From Coq Require Import ZArith Reals Lia Lra Bool Psatz.
From Flocq Require Import Core Binary.
From Verif Require Import Base Spec SpecFun Format P_format Ieee P_ieee P_real M_basic P_round P_round2 P_minmax M_int.
Open Scope Z_scope.

(** ** What the 256-bit patterns mean *)
Definition uvalid (a : u256) : Prop := 0 <= lo a < 2 ^ 128 /\ 0 <= hi a < 2 ^ 128.
Definition uval (a : u256) : Z := hi a * 2 ^ 128 + lo a.
Definition ivalid (a : i256) : Prop := 0 <= ilo a < 2 ^ 128 /\ 0 <= ihi a < 2 ^ 128.
Definition ival256 (a : i256) : Z :=
  ihi a * 2 ^ 128 + ilo a - (if 2 ^ 127 <=? ihi a then 2 ^ 256 else 0).

Ltac pows := change (2 ^ 256) with (2 ^ 128 * 2 ^ 128) in *; change (2 ^ 128) with (2 * 2 ^ 127) in *.

Lemma u256_add_ok a b : uvalid a -> uvalid b ->
  uvalid (u256_add a b) /\ uval (u256_add a b) = (uval a + uval b) mod 2 ^ 256.
Proof.
  intros [A1 A2] [B1 B2]. unfold u256_add, wadd, uval. cbn [lo hi].
  split.
  - split; cbn [lo hi]; apply Z.mod_pos_bound; reflexivity.
  - rewrite Z.add_mod_idemp_l by discriminate.
    set (c := if 2 ^ 128 <=? lo a + lo b then 1 else 0).
    assert (Hl : (lo a + lo b) mod 2 ^ 128 = lo a + lo b - c * 2 ^ 128).
    { unfold c. destruct (Z.leb_spec (2 ^ 128) (lo a + lo b)).
      - symmetry. apply Z.mod_unique with 1; [left|]; lia.
      - rewrite Z.mod_small; lia. }
    assert (Hc : 0 <= c <= 1) by (unfold c; destruct (_ <=? _); lia).
    pose proof (Z.mod_pos_bound (lo a + lo b) (2 ^ 128) eq_refl) as ML.
    pose proof (Z.div_mod (hi a + c + hi b) (2 ^ 128)) as D.
    pose proof (Z.mod_pos_bound (hi a + c + hi b) (2 ^ 128) eq_refl) as MH.
    set (q := (hi a + c + hi b) / 2 ^ 128) in *. set (m := (hi a + c + hi b) mod 2 ^ 128) in *.
    assert (D' : hi a + c + hi b = 2 ^ 128 * q + m) by (apply D; discriminate).
    apply Z.mod_unique_pos with q.
    + change (2 ^ 256) with (2 ^ 128 * 2 ^ 128). nia.
    + change (2 ^ 256) with (2 ^ 128 * 2 ^ 128). rewrite Hl. clearbody c q m. nia.
Qed.

Lemma unot_range w a : 0 <= a < 2 ^ w -> 0 <= unot w a < 2 ^ w.
Proof. unfold unot. lia. Qed.
Lemma u256_not_ok a : uvalid a -> uvalid (u256_not a) /\ uval (u256_not a) = 2 ^ 256 - 1 - uval a.
Proof.
  intros [A1 A2]. split.
  - split; cbn [u256_not lo hi]; now apply unot_range.
  - unfold uval, u256_not, unot. cbn [lo hi]. change (2 ^ 256) with (2 ^ 128 * 2 ^ 128). ring.
Qed.
Lemma i256_not_ok a : ivalid a -> ivalid (i256_not a) /\ ival256 (i256_not a) = -1 - ival256 a.
Proof.
  intros [A1 A2]. split.
  - split; cbn [i256_not ilo ihi]; now apply unot_range.
  - unfold ival256, i256_not, unot. cbn [ilo ihi].
    change (2 ^ 256) with (2 ^ 128 * 2 ^ 128).
    destruct (Z.leb_spec (2 ^ 127) (ihi a)); destruct (Z.leb_spec (2 ^ 127) (2 ^ 128 - 1 - ihi a)); lia.
Qed.

(** bits of two limbs *)
Lemma limb_lor n a b : 0 <= n -> 0 <= b < 2 ^ n -> a * 2 ^ n + b = Z.lor (Z.shiftl a n) b.
Proof. intros Hn Hb. rewrite Z.shiftl_mul_pow2, lor_disjoint by lia. reflexivity. Qed.
Lemma lor_range n a b : 0 <= n -> 0 <= a < 2 ^ n -> 0 <= b < 2 ^ n -> 0 <= Z.lor a b < 2 ^ n.
Proof.
  intros Hn Ha Hb. split; [apply Z.lor_nonneg; lia|].
  destruct (Z.eq_dec (Z.lor a b) 0) as [E|E]; [rewrite E; lia|].
  assert (0 <= Z.lor a b) by (apply Z.lor_nonneg; lia).
  apply Z.log2_lt_pow2; [lia|]. rewrite Z.log2_lor by lia.
  assert (G : forall c, 0 <= c < 2 ^ n -> c = 0 \/ Z.log2 c < n).
  { intros c Hc. destruct (Z.eq_dec c 0); [tauto|right]. apply Z.log2_lt_pow2; lia. }
  assert (0 < n).
  { destruct (Z.eq_dec n 0) as [->|]; [|lia]. change (2 ^ 0) with 1 in *. assert (a = 0) by lia. assert (b = 0) by lia.
    subst. now elim E. }
  destruct (G a Ha) as [->|]; destruct (G b Hb) as [->|]; simpl Z.log2; lia.
Qed.
Lemma u256_or_ok a b : uvalid a -> uvalid b ->
  uvalid (u256_or a b) /\ uval (u256_or a b) = Z.lor (uval a) (uval b).
Proof.
  intros [A1 A2] [B1 B2].
  assert (L : 0 <= Z.lor (lo a) (lo b) < 2 ^ 128) by (apply lor_range; lia).
  split.
  - split; cbn [u256_or lo hi]; apply lor_range; lia.
  - unfold uval, u256_or. cbn [lo hi]. rewrite !limb_lor by lia. rewrite Z.shiftl_lor.
    rewrite <- !Z.lor_assoc. f_equal. rewrite (Z.lor_comm (lo a)), (Z.lor_comm (lo a)).
    rewrite !Z.lor_assoc. do 2 f_equal. 
Qed.

Lemma u256_shr_ok a n : uvalid a -> 0 <= n < 256 ->
  exists r, u256_shr a n = Some r /\ uvalid r /\ uval r = uval a / 2 ^ n.
Proof.
  intros [A1 A2] Hn. unfold u256_shr.
  rewrite (proj2 (Z.leb_gt _ _)) by lia.
  destruct (Z.eqb_spec n 0) as [->|Hn0].
  { exists a. split; [reflexivity|]. split; [split; assumption|]. now rewrite Z.div_1_r. }
  destruct (Z.ltb_spec n 128) as [L|L].
  - rewrite !ushr_ok by lia. cbn [bind]. rewrite usub_ok by lia. cbn [bind].
    rewrite ushl_ok by lia. cbn [bind]. eexists; split; [reflexivity|].
    assert (P1 : 0 < 2 ^ n) by (apply pow2_pos; lia).
    assert (P2 : 0 < 2 ^ (128 - n)) by (apply pow2_pos; lia).
    assert (PP : 2 ^ 128 = 2 ^ (128 - n) * 2 ^ n) by (rewrite <- pow2_split by lia; f_equal; lia).
    assert (EL : (hi a * 2 ^ (128 - n)) mod 2 ^ 128 = (hi a mod 2 ^ n) * 2 ^ (128 - n)).
    { rewrite PP. rewrite (Z.mul_comm (2 ^ (128 - n)) (2 ^ n)).
      apply Z.mul_mod_distr_r; lia. }
    rewrite EL. rewrite Z.lor_comm.
    pose proof (Z.mod_pos_bound (hi a) (2 ^ n) P1) as MB.
    pose proof (Z.div_mod (hi a) (2 ^ n)) as DM.
    assert (LB : 0 <= lo a / 2 ^ n < 2 ^ (128 - n)).
    { split; [apply Z.div_pos; lia|apply Z.div_lt_upper_bound; lia]. }
    rewrite lor_disjoint by lia.
    assert (HB : 0 <= hi a / 2 ^ n < 2 ^ 128).
    { split; [apply Z.div_pos; lia|apply Z.div_lt_upper_bound; nia]. }
    split.
    + split; cbn [lo hi]; [|exact HB]. split; [nia|].
      rewrite PP. nia.
    + unfold uval. cbn [lo hi].
      rewrite PP at 2. replace (hi a * (2 ^ (128 - n) * 2 ^ n) + lo a) with (lo a + (hi a * 2 ^ (128 - n)) * 2 ^ n) by ring.
      rewrite Z.div_add by lia. rewrite PP.
      assert (hi a = 2 ^ n * (hi a / 2 ^ n) + hi a mod 2 ^ n) by lia. nia.
  - rewrite usub_ok by lia. cbn [bind]. rewrite ushr_ok by lia. cbn [bind].
    eexists; split; [reflexivity|].
    assert (P1 : 0 < 2 ^ (n - 128)) by (apply pow2_pos; lia).
    split.
    + split; cbn [lo hi]; [|lia]. split; [apply Z.div_pos; lia|apply Z.div_lt_upper_bound; nia].
    + unfold uval. cbn [lo hi]. rewrite Z.mul_0_l, Z.add_0_l.
      replace (2 ^ n) with (2 ^ 128 * 2 ^ (n - 128)) by (rewrite <- pow2_split by lia; f_equal; lia).
      rewrite <- Z.div_div by lia. f_equal.
      apply Z.div_unique with (lo a); [left; lia|lia].
Qed.
Lemma u256_shr_panics a n : 256 <= n -> u256_shr a n = None.
Proof. intros H. unfold u256_shr. now rewrite (proj2 (Z.leb_le _ _)) by lia. Qed.

Lemma widen_mul_ok a b : 0 <= a < 2 ^ 128 -> 0 <= b < 2 ^ 128 ->
  exists p, u128_widen_mul a b = Some p /\ uvalid p /\ uval p = a * b.
Proof.
  intros Ha Hb. unfold u128_widen_mul, u128_zero_widen_mul, U128_LO_MASK.
  change (2 ^ 128) with (2 ^ 64 * 2 ^ 64) in Ha, Hb.
  rewrite !land_pow2m1 by lia. rewrite !ushr_ok by lia. cbn [bind].
  set (B := 2 ^ 64) in *. assert (B0 : B = 18446744073709551616) by reflexivity.
  set (l0 := a mod B) in *. set (h0 := a / B) in *. set (l1 := b mod B) in *. set (h1 := b / B) in *.
  assert (Ea : a = B * h0 + l0) by (apply Z.div_mod; lia).
  assert (Eb : b = B * h1 + l1) by (apply Z.div_mod; lia).
  assert (L0 : 0 <= l0 < B) by (apply Z.mod_pos_bound; lia).
  assert (L1 : 0 <= l1 < B) by (apply Z.mod_pos_bound; lia).
  assert (H0 : 0 <= h0 < B) by (split; [apply Z.div_pos; lia|apply Z.div_lt_upper_bound; lia]).
  assert (H1 : 0 <= h1 < B) by (split; [apply Z.div_pos; lia|apply Z.div_lt_upper_bound; lia]).
  clearbody l0 h0 l1 h1.
  assert (BB : forall x y, 0 <= x < B -> 0 <= y < B -> 0 <= x * y <= (B - 1) * (B - 1)) by (intros; nia).
  assert (P128 : 2 ^ 128 = B * B) by reflexivity.
  assert (M : forall x y, 0 <= x < B -> 0 <= y < B -> wmul 128 x y = x * y).
  { intros x y Hx Hy. unfold wmul. apply Z.mod_small. specialize (BB x y Hx Hy). rewrite P128. nia. }
  rewrite !M by assumption.
  pose proof (BB l0 l1 L0 L1) as Q1. pose proof (BB l0 h1 L0 H1) as Q2.
  pose proof (BB h0 l1 H0 L1) as Q3. pose proof (BB h0 h1 H0 H1) as Q4.
  assert (Eab : a * b = (h0 * h1) * (B * B) + (l0 * h1 + h0 * l1) * B + l0 * l1) by (rewrite Ea, Eb; ring).
  set (pll := l0 * l1) in *. set (plh := l0 * h1) in *. set (phl := h0 * l1) in *. set (phh := h0 * h1) in *.
  clearbody pll plh phl phh. clear M BB Ea Eb L0 L1 H0 H1.
  assert (D1 : pll = B * (pll / B) + pll mod B) by (apply Z.div_mod; lia).
  assert (R1 : 0 <= pll mod B < B) by (apply Z.mod_pos_bound; lia).
  set (t0 := pll / B) in *. set (r0 := pll mod B) in *. clearbody t0 r0.
  assert (T0 : 0 <= t0 <= B - 2) by (split; nia).
  rewrite uadd_ok by (rewrite P128; nia). cbn [bind].
  rewrite ushl_ok by lia. cbn [bind]. fold B.
  set (s0 := phl + t0) in *.
  assert (S0 : 0 <= s0 <= (B - 1) * (B - 1) + (B - 2)) by (unfold s0; lia).
  assert (D2 : s0 = B * (s0 / B) + s0 mod B) by (apply Z.div_mod; lia).
  assert (R2 : 0 <= s0 mod B < B) by (apply Z.mod_pos_bound; lia).
  assert (SH : (s0 * B) mod 2 ^ 128 = (s0 mod B) * B) by (rewrite P128; apply Z.mul_mod_distr_r; lia).
  rewrite SH.
  rewrite uadd_ok by (rewrite P128; nia). cbn [bind].
  rewrite ushr_ok by lia. cbn [bind]. fold B.
  assert (E1 : (r0 + s0 mod B * B) / B = s0 mod B).
  { rewrite Z.div_add by lia. rewrite Z.div_small by lia. lia. }
  rewrite E1.
  set (u0 := s0 / B) in *. set (v0 := s0 mod B) in *. clearbody u0 v0.
  assert (U0 : 0 <= u0 <= B - 2) by nia.
  rewrite uadd_ok by (rewrite P128; nia). cbn [bind].
  set (s2 := plh + v0) in *.
  assert (S2 : 0 <= s2 <= (B - 1) * (B - 1) + (B - 1)) by (unfold s2; lia).
  rewrite ushl_ok by lia. cbn [bind]. fold B.
  assert (D3 : s2 = B * (s2 / B) + s2 mod B) by (apply Z.div_mod; lia).
  assert (R3 : 0 <= s2 mod B < B) by (apply Z.mod_pos_bound; lia).
  assert (SH2 : (s2 * B) mod 2 ^ 128 = (s2 mod B) * B) by (rewrite P128; apply Z.mul_mod_distr_r; lia).
  rewrite SH2. rewrite uadd_ok by (rewrite P128; nia). cbn [bind].
  rewrite !ushr_ok by lia. cbn [bind]. fold B.
  assert (E0 : s0 / B = u0).
  { symmetry. apply Z.div_unique with v0; [left; lia|lia]. }
  rewrite E0.
  set (u2 := s2 / B) in *. set (v2 := s2 mod B) in *. clearbody u2 v2.
  assert (U2 : 0 <= u2 <= B - 1) by nia.
  (* the high limb: bounded because the product is *)
  assert (HI : phh + u0 + u2 < B * B).
  { assert (T : (phh + u0 + u2) * (B * B) + (r0 + v2 * B) = phh * (B * B) + (plh + phl) * B + pll).
    { unfold s0 in D2. unfold s2 in D3. nia. }
    assert (a * b < (B * B) * (B * B)) by nia.
    assert (0 <= r0 + v2 * B) by nia. nia. }
  rewrite uadd_ok by (rewrite P128; lia). cbn [bind]. rewrite uadd_ok by (rewrite P128; lia). cbn [bind].
  eexists; split; [reflexivity|]. split.
  - split; cbn [lo hi]; rewrite P128; [nia|nia].
  - unfold uval. cbn [lo hi]. rewrite P128, Eab. unfold s0 in D2. unfold s2 in D3. nia.
Qed.

Lemma i128_range a : - 2 ^ 127 <= a < 2 ^ 127 -> to_u 128 a = if a <? 0 then a + 2 ^ 128 else a.
Proof.
  intros H. unfold to_u. destruct (Z.ltb_spec a 0).
  - symmetry. apply Z.mod_unique with (-1); [left|]; lia.
  - apply Z.mod_small. lia.
Qed.
Lemma i128_widen_ok a : - 2 ^ 127 <= a < 2 ^ 127 -> ivalid (i128_widen a) /\ ival256 (i128_widen a) = a.
Proof.
  intros H. unfold i128_widen, u256_signed, u128_zero_widen, u128_widen. cbn [lo hi ilo ihi].
  pose proof (i128_range a H) as E.
  destruct (Z.ltb_spec a 0); unfold ivalid, ival256; cbn [ilo ihi]; rewrite E.
  - split; [lia|]. change (2 ^ 127 <=? 2 ^ 128 - 1) with true. cbv iota. change (2 ^ 256) with (2 ^ 128 * 2 ^ 128). lia.
  - split; [lia|]. change (2 ^ 127 <=? 0) with false. cbv iota. lia.
Qed.
Lemma i128_zero_widen_ok a : - 2 ^ 127 <= a < 2 ^ 127 ->
  ivalid (i128_zero_widen a) /\ ival256 (i128_zero_widen a) = a mod 2 ^ 128.
Proof.
  intros H. unfold i128_zero_widen, u256_signed, u128_zero_widen, u128_widen, ivalid, ival256. cbn [lo hi ilo ihi].
  unfold to_u. pose proof (Z.mod_pos_bound a (2 ^ 128) eq_refl).
  change (2 ^ 127 <=? 0) with false. cbv iota. lia.
Qed.
Lemma u128_widen_ok a : 0 <= a < 2 ^ 128 -> uvalid (u128_widen a) /\ uval (u128_widen a) = a.
Proof. intros H. unfold uvalid, uval, u128_widen. cbn [lo hi]. lia. Qed.
Lemma u256_split a : uvalid a ->
  u256_lo a = uval a mod 2 ^ 128 /\ u256_hi a = uval a / 2 ^ 128.
Proof.
  intros [A1 A2]. unfold uval, u256_lo, u256_hi. split.
  - apply Z.mod_unique with (hi a); [left; lia|lia].
  - apply Z.div_unique with (lo a); [left; lia|lia].
Qed.
Lemma to_i_eq w a : 0 < w -> 0 <= a < 2 ^ w -> to_i w a = if 2 ^ (w - 1) <=? a then a - 2 ^ w else a.
Proof.
  intros Hw Ha. unfold to_i. rewrite Z.mod_small by lia. cbv zeta.
  destruct (Z.ltb_spec a (2 ^ (w - 1))); destruct (Z.leb_spec (2 ^ (w - 1)) a); lia.
Qed.
(** signed halves: the high half keeps the sign, the low half is the low bits reinterpreted *)
Lemma i256_split a : ivalid a ->
  i256_hi a = ival256 a / 2 ^ 128 /\ i256_lo a mod 2 ^ 128 = ival256 a mod 2 ^ 128 /\
  - 2 ^ 127 <= i256_lo a < 2 ^ 127.
Proof.
  intros [A1 A2]. unfold i256_hi, i256_lo, ival256.
  rewrite !to_i_eq by lia. change (128 - 1) with 127. change (2 ^ 256) with (2 ^ 128 * 2 ^ 128).
  split; [|split].
  - destruct (Z.leb_spec (2 ^ 127) (ihi a)).
    + apply Z.div_unique with (ilo a); [left; lia|lia].
    + apply Z.div_unique with (ilo a); [left; lia|lia].
  - transitivity (ilo a).
    + destruct (Z.leb_spec (2 ^ 127) (ilo a)).
      * symmetry. apply Z.mod_unique with (-1); [left|]; lia.
      * apply Z.mod_small; lia.
    + destruct (Z.leb_spec (2 ^ 127) (ihi a)).
      * apply Z.mod_unique with (ihi a - 2 ^ 128); [left|]; lia.
      * apply Z.mod_unique with (ihi a); [left|]; lia.
  - destruct (Z.leb_spec (2 ^ 127) (ilo a)); lia.
Qed.

(** ** Constants and ordering *)
Lemma u256_consts : uval U256_MIN = 0 /\ uval U256_MAX = 2 ^ 256 - 1 /\ uval U256_ZERO = 0 /\ uval U256_ONE = 1
  /\ ival256 I256_MIN = - 2 ^ 255 /\ ival256 I256_ZERO = 0 /\ ival256 I256_ONE = 1.
Proof. repeat split. Qed.
Lemma i256_max_wrong : exists a, ivalid a /\ ival256 I256_MAX < ival256 a.
Proof. exists (I256 0 0). split; [|vm_compute; reflexivity]. unfold ivalid; cbn; lia. Qed.
Lemma i256_max_val : ival256 I256_MAX = - 2 ^ 128 - 1.
Proof. reflexivity. Qed.
Lemma u256_order_wrong : exists a b, uvalid a /\ uvalid b /\ u256_cmp a b = Lt /\ uval b < uval a.
Proof.
  exists (U256 0 1), (U256 1 0). repeat split; try (cbn; lia).
Qed.
Lemma i256_order_wrong : exists a b, ivalid a /\ ivalid b /\ i256_cmp a b = Lt /\ ival256 b < ival256 a.
Proof. exists (I256 0 1), (I256 1 0). repeat split; try (cbn; lia). Qed.
(** The derived order is the integer order when the high limbs agree. *)
Lemma u256_order_same_hi a b : uvalid a -> uvalid b -> hi a = hi b -> u256_cmp a b = (uval a ?= uval b).
Proof.
  intros A B E. unfold u256_cmp, lex, uval. rewrite E.
  destruct (Z.compare_spec (lo a) (lo b)) as [C|C|C].
  - rewrite C, !Z.compare_refl. reflexivity.
  - symmetry. apply Z.compare_lt_iff. lia.
  - symmetry. apply Z.compare_gt_iff. lia.
Qed.
Lemma u256_eq_iff a b : uvalid a -> uvalid b -> (u256_cmp a b = Eq <-> uval a = uval b).
Proof.
  intros [A1 A2] [B1 B2]. unfold u256_cmp, lex, uval. split.
  - destruct (Z.compare_spec (lo a) (lo b)) as [C|C|C]; try discriminate.
    intros H. apply Z.compare_eq in H. lia.
  - intros H. assert (hi a = hi b /\ lo a = lo b) as [E1 E2] by lia. rewrite E1, E2, !Z.compare_refl. reflexivity.
Qed.

(** ** Primitive integers *)
Definition ity_ok (t : ity) : Prop := 1 < iw t.
Lemma pw t : ity_ok t -> 2 ^ iw t = 2 * 2 ^ (iw t - 1) /\ 0 < 2 ^ (iw t - 1).
Proof.
  intros H. unfold ity_ok in H. split; [|apply pow2_pos; lia].
  rewrite <- Z.pow_succ_r by lia. f_equal; lia.
Qed.
(** [as_] gives the unique representative *)
Lemma as_spec t a : ity_ok t -> ival t (as_ t a) /\ as_ t a mod 2 ^ iw t = a mod 2 ^ iw t.
Proof.
  intros Ht. destruct (pw t Ht) as [P1 P2].
  unfold as_, ival, imin, imax. pose proof (Z.mod_pos_bound a (2 ^ iw t)) as B.
  destruct (isg t).
  - unfold to_i. cbv zeta. destruct (Z.ltb_spec (a mod 2 ^ iw t) (2 ^ (iw t - 1))).
    + split; [lia|]. apply Z.mod_mod. lia.
    + split; [lia|]. symmetry. apply Z.mod_unique_pos with (-1); [lia|lia].
  - unfold to_u. split; [lia|]. apply Z.mod_mod. lia.
Qed.
Lemma as_id t a : ity_ok t -> ival t a -> as_ t a = a.
Proof.
  intros Ht Ha. destruct (pw t Ht) as [P1 P2]. destruct (as_spec t a Ht) as [B E].
  unfold ival, imin, imax in *.
  assert (D : (as_ t a - a) mod 2 ^ iw t = 0).
  { rewrite Zminus_mod, E, Z.sub_diag. apply Z.mod_0_l. lia. }
  apply Z.mod_divide in D; [|lia]. destruct D as [k D].
  destruct (isg t); (assert (k = 0) by nia); nia.
Qed.
Lemma as_unique t a b : ity_ok t -> ival t b -> b mod 2 ^ iw t = a mod 2 ^ iw t -> as_ t a = b.
Proof.
  intros Ht Hb E. rewrite <- (as_id t b Ht Hb) . unfold as_, to_i, to_u. now rewrite E.
Qed.
Lemma double_ok t : ity_ok t -> ity_ok (double t).
Proof. unfold ity_ok, double. cbn [iw]. lia. Qed.
Lemma pw2 t : ity_ok t -> 2 ^ iw (double t) = 2 ^ iw t * 2 ^ iw t /\ 2 ^ (iw (double t) - 1) = 2 ^ (iw t - 1) * 2 ^ iw t.
Proof.
  intros H. unfold ity_ok in H. unfold double. cbn [iw].
  split; rewrite <- pow2_split by lia; f_equal; lia.
Qed.

Lemma int_cast_ok t a : ity_ok t ->
  (ival t a -> int_cast t a = Some a) /\ (~ ival t a -> int_cast t a = None).
Proof.
  intros Ht. unfold int_cast, ival. split; intros H.
  - rewrite !(proj2 (Z.leb_le _ _)) by lia. cbn [andb]. f_equal. apply as_id; assumption.
  - destruct (Z.leb_spec (imin t) a); destruct (Z.leb_spec a (imax t)); cbn [andb]; try reflexivity. lia.
Qed.
Lemma int_cast_lossy_ok t a : ity_ok t ->
  ival t (int_cast_lossy t a) /\ int_cast_lossy t a mod 2 ^ iw t = a mod 2 ^ iw t.
Proof. apply as_spec. Qed.

Lemma widen_ok t a : ity_ok t -> ival t a -> h_widen t a = a.
Proof.
  intros Ht Ha. unfold h_widen. apply as_id; [now apply double_ok|].
  destruct (pw t Ht) as [P1 P2]. destruct (pw2 t Ht) as [Q1 Q2].
  unfold ival, imin, imax in *. rewrite Q1, Q2. cbn [isg double]. destruct (isg t); nia.
Qed.
Lemma zero_widen_ok t a : ity_ok t -> ival t a -> h_zero_widen t a = a mod 2 ^ iw t.
Proof.
  intros Ht Ha. unfold h_zero_widen. destruct (pw t Ht) as [P1 P2]. destruct (pw2 t Ht) as [Q1 Q2].
  assert (E : as_ (unsigned_of t) a = a mod 2 ^ iw t) by reflexivity. rewrite E.
  pose proof (Z.mod_pos_bound a (2 ^ iw t)).
  apply as_id; [now apply double_ok|].
  unfold ival, imin, imax in *. rewrite Q1, Q2. cbn [isg double].
  assert (2 <= 2 ^ (iw t - 1)) by (change 2 with (2 ^ 1) at 1; apply Z.pow_le_mono_r; unfold ity_ok in Ht; lia).
  destruct (isg t); nia.
Qed.
Lemma widen_mul_prim_ok t a b : ity_ok t -> ival t a -> ival t b -> h_widen_mul t a b = a * b.
Proof.
  intros Ht Ha Hb. unfold h_widen_mul, wrapping_mul_d. rewrite !widen_ok by assumption.
  apply as_id; [now apply double_ok|].
  destruct (pw t Ht) as [P1 P2]. destruct (pw2 t Ht) as [Q1 Q2].
  unfold ival, imin, imax in *. rewrite Q1, Q2. cbn [isg double].
  assert (2 <= 2 ^ (iw t - 1)) by (change 2 with (2 ^ 1) at 1; apply Z.pow_le_mono_r; unfold ity_ok in Ht; lia).
  destruct (isg t).
  - set (h := 2 ^ (iw t - 1)) in *. rewrite P1.
    assert (Z.abs (a * b) <= h * h) by (rewrite Z.abs_mul; apply Z.mul_le_mono_nonneg; lia).
    split; nia.
  - nia.
Qed.
(** signed operands: the product of the unsigned readings, reduced to the double type *)
Lemma zero_widen_mul_ok t a b : ity_ok t -> ival t a -> ival t b ->
  ival (double t) (h_zero_widen_mul t a b) /\
  h_zero_widen_mul t a b mod 2 ^ iw (double t) = (a mod 2 ^ iw t) * (b mod 2 ^ iw t) /\
  (isg t = false -> h_zero_widen_mul t a b = a * b).
Proof.
  intros Ht Ha Hb. unfold h_zero_widen_mul, wrapping_mul_d. rewrite !zero_widen_ok by assumption.
  destruct (pw t Ht) as [P1 P2]. destruct (pw2 t Ht) as [Q1 Q2].
  destruct (as_spec (double t) (a mod 2 ^ iw t * (b mod 2 ^ iw t)) (double_ok t Ht)) as [E1 E2].
  pose proof (Z.mod_pos_bound a (2 ^ iw t)). pose proof (Z.mod_pos_bound b (2 ^ iw t)).
  split; [assumption|]. split.
  - rewrite E2. apply Z.mod_small. rewrite Q1. nia.
  - intros S. unfold ival, imin, imax in Ha, Hb. rewrite S in *.
    rewrite !(Z.mod_small _ (2 ^ iw t)) by lia. apply as_id; [now apply double_ok|].
    unfold ival, imin, imax. cbn [isg double]. rewrite S, Q1. nia.
Qed.
Lemma widen_hi_ok t a : ity_ok t -> ival t a -> h_widen_hi t a = a * 2 ^ iw t.
Proof.
  intros Ht Ha. unfold h_widen_hi. rewrite (widen_ok t a Ht Ha : as_ (double t) a = a).
  assert (0 <= iw t) by (unfold ity_ok in Ht; lia). rewrite Z.shiftl_mul_pow2 by lia.
  apply as_id; [now apply double_ok|].
  destruct (pw t Ht) as [P1 P2]. destruct (pw2 t Ht) as [Q1 Q2].
  unfold ival, imin, imax in *. rewrite Q1, Q2. cbn [isg double]. destruct (isg t); nia.
Qed.
Lemma lo_hi_ok t x : ity_ok t -> ival (double t) x ->
  ival t (d_lo t x) /\ ival t (d_hi t x) /\
  d_hi t x = x / 2 ^ iw t /\ d_lo t x mod 2 ^ iw t = x mod 2 ^ iw t /\
  d_from_lo_hi t (d_lo t x) (d_hi t x) = x.
Proof.
  intros Ht Hx. destruct (pw t Ht) as [P1 P2]. destruct (pw2 t Ht) as [Q1 Q2].
  assert (W : 0 <= iw t) by (unfold ity_ok in Ht; lia).
  destruct (as_spec t x Ht) as [A1 A2].
  assert (Eh : d_hi t x = x / 2 ^ iw t).
  { unfold d_hi. rewrite Z.shiftr_div_pow2 by lia. apply as_id; [assumption|].
    unfold ival, imin, imax in *. rewrite Q1, Q2 in Hx. cbn [isg double] in Hx.
    destruct (isg t).
    - split.
      + apply Z.div_le_lower_bound; lia.
      + apply Z.lt_succ_r. apply Z.div_lt_upper_bound; lia.
    - split; [apply Z.div_pos; lia|]. apply Z.lt_succ_r. apply Z.div_lt_upper_bound; lia. }
  assert (Ih : ival t (d_hi t x)) by (unfold d_hi; apply as_spec; assumption).
  split; [exact A1|]. split; [exact Ih|]. split; [exact Eh|]. split; [exact A2|].
  unfold d_from_lo_hi. rewrite zero_widen_ok, widen_hi_ok by assumption.
  unfold d_lo. rewrite A2, Eh. rewrite Z.lor_comm. rewrite lor_disjoint.
  - pose proof (Z.div_mod x (2 ^ iw t)). lia.
  - exact W.
  - apply Z.mod_pos_bound. lia.
Qed.
Lemma logical_shr_ok t a n : ity_ok t -> ival t a -> 0 <= n < iw t ->
  ival t (logical_shr t a n) /\
  logical_shr t a n mod 2 ^ iw t = (a mod 2 ^ iw t) / 2 ^ n.
Proof.
  intros Ht Ha Hn. destruct (pw t Ht) as [P1 P2]. unfold logical_shr, from_unsigned.
  rewrite (Z.mod_small n) by lia. rewrite Z.shiftr_div_pow2 by lia.
  change (int_unsigned t a) with (a mod 2 ^ iw t).
  destruct (as_spec t ((a mod 2 ^ iw t) / 2 ^ n) Ht) as [A B]. split; [exact A|].
  rewrite B. pose proof (Z.mod_pos_bound a (2 ^ iw t)). pose proof (pow2_pos n).
  apply Z.mod_small. split; [apply Z.div_pos; lia|].
  apply Z.div_lt_upper_bound; nia.
Qed.
Lemma sign_conv_ok t a : ity_ok t -> ival t a ->
  ival (signed_of t) (int_signed t a) /\ ival (unsigned_of t) (int_unsigned t a) /\
  from_unsigned t (int_unsigned t a) = a.
Proof.
  intros Ht Ha. split; [apply as_spec; exact Ht|]. split; [apply as_spec; exact Ht|].
  unfold from_unsigned, int_unsigned. apply as_unique; try assumption.
  symmetry. apply (as_spec (unsigned_of t) a Ht).
Qed.
Lemma int_abs_ok t a : ity_ok t -> isg t = true -> ival t a ->
  (a <> imin t -> int_abs t a = Some (Z.abs a)) /\ (a = imin t -> int_abs t a = None).
Proof.
  intros Ht S Ha. unfold int_abs. rewrite S. unfold ival, imin, imax in *. rewrite S in *.
  destruct (pw t Ht) as [P1 P2]. split; intros H.
  - apply chk_ok. lia.
  - unfold chk. destruct (in_i _ _) eqn:E; [|reflexivity]. apply in_i_spec in E. lia.
Qed.

(** ** Integer to float *)
Lemma to_intZ_inf F l h s : to_intZ F l h (infinity F s) = if s then l else h.
Proof. unfold to_intZ. destruct (infinity_fields F s) as (A & B & C & _). rewrite dec_isinf, C by assumption. reflexivity. Qed.
Lemma rnd_int F n : exists k, rnd F (IZR n) = IZR k.
Proof.
  destruct (Z.le_gt_cases (Z.abs n) (2 ^ (mw F + 1))) as [H|H].
  - exists n. apply repr_rnd, repr_IZR. assumption.
  - pose proof (fmt_facts F). pose proof (bias_facts F).
    destruct (repr_grid F (rnd F (IZR n)) (mw F)) as (k & Hk).
    + apply rnd_repr.
    + intros _. 
      assert (B : repr F (bpow radix2 (mw F))) by (apply repr_bpow; unfold emin; lia).
      assert (L : (bpow radix2 (mw F) <= Rabs (IZR n))%R).
      { rewrite <- abs_IZR, <- IZR_pow2 by lia. apply IZR_le.
        assert (2 ^ mw F <= 2 ^ (mw F + 1)) by (apply Z.pow_le_mono_r; lia). lia. }
      destruct (Rle_lt_dec 0 (IZR n)) as [P|P].
      * rewrite Rabs_pos_eq in L by assumption. rewrite Rabs_pos_eq by now apply rnd_nonneg.
        rewrite <- (repr_rnd F _ B). now apply rnd_le.
      * rewrite Rabs_left in L by assumption. 
        assert (Q : (bpow radix2 (mw F) <= - rnd F (IZR n))%R).
        { rewrite <- rnd_opp. rewrite <- (repr_rnd F _ B). now apply rnd_le. }
        rewrite <- Rabs_Ropp. rewrite Rabs_pos_eq; [assumption|].
        pose proof (bpow_ge_0 radix2 (mw F)). lra.
    + exists k. rewrite Hk, Z.sub_diag. simpl. ring.
Qed.
Lemma cast_float_ok F w n : 1 < w -> - 2 ^ (w - 1) < n < 2 ^ (w - 1) - 1 ->
  (forall f, cast_float F w n = Some f -> isbits F f /\ finite F f = true /\ val F f = IZR n) /\
  (rnd F (IZR n) = IZR n -> (Rabs (IZR n) < bpow radix2 (bias F + 1))%R -> exists f, cast_float F w n = Some f).
Proof.
  intros Hw Hn. unfold cast_float. pose proof (of_int_spec F n) as [Hb H].
  set (f := of_int F n) in *. set (l := - 2 ^ (w - 1)) in *. set (h := 2 ^ (w - 1) - 1) in *.
  assert (Cl : forall k, clampZ l h k = n <-> k = n).
  { intros k. unfold clampZ. destruct (Z.ltb_spec k l); [lia|]. destruct (Z.ltb_spec h k); lia. }
  assert (Fin : finite F f = true -> forall k, val F f = IZR k -> to_intZ F l h f = clampZ l h k).
  { intros Hf k Hk. destruct (to_intZ_spec F l h f Hb Hf) as [E|[Z0 E]].
    - rewrite E, Hk, Ztrunc_IZR. reflexivity.
    - rewrite E. rewrite (iszero_val F f Z0) in Hk. apply eq_IZR in Hk. subst k.
      assert (L0 : 0 < 2 ^ (w - 1)) by (apply pow2_pos; lia).
      unfold clampZ. destruct (Z.ltb_spec 0 l); [lia|]. destruct (Z.ltb_spec h 0); lia. }
  destruct (rnd_int F n) as (k & Hk).
  split.
  - intros g. destruct (Z.eqb_spec (to_intZ F l h f) n) as [E|E]; [|discriminate].
    intros G. injection G as <-. split; [assumption|].
    destruct (Rlt_bool _ _).
    + destruct H as (H1 & H2 & _). split; [assumption|]. rewrite Hk in H2.
      rewrite (Fin H1 k H2) in E. apply (proj1 (Cl k)) in E. rewrite H2, E. reflexivity.
    + exfalso. rewrite H in E. rewrite to_intZ_inf in E. destruct (Rlt_bool _ _); lia.
  - intros E L. rewrite Rlt_bool_true in H by (rewrite E; assumption).
    destruct H as (H1 & H2 & _). rewrite E in H2. exists f.
    rewrite (Fin H1 n H2), (proj2 (Cl n) eq_refl), Z.eqb_refl. reflexivity.
Qed.
(** i32::MAX converts to 2^31 (inexact) without tripping the assertion. *)
Lemma cast_float_wrong : exists n f, - 2 ^ 31 <= n < 2 ^ 31 /\ cast_float f32 32 n = Some f /\
  finite f32 f = true /\ val f32 f <> IZR n.
Proof.
  exists (2 ^ 31 - 1), 0x4f000000. split; [lia|]. split; [vm_compute; reflexivity|]. split; [reflexivity|].
  unfold val, mag_of. change (signbit f32 0x4f000000) with false. change (expf f32 0x4f000000) with 158.
  change (sigf f32 0x4f000000) with 0. change (bias f32) with 127. change (mw f32) with 23. cbn [sval Z.eqb].
  change (158 - 127 - 23) with 8. change (bpow radix2 8) with (IZR 256). rewrite <- mult_IZR.
  apply IZR_neq. discriminate.
Qed.

(** The double-precision kernel [k_tan] below 0.6743: the tangent and the corrected reciprocal. *)
From Coq Require Import ZArith Reals Lia Lra Bool List Psatz.
From Flocq Require Import Core Sterbenz.
From Verif Require Import Base Spec SpecAcc Format P_format Ieee P_ieee P_real P_neg P_lit P_err P_apx P_poly P_poly2 P_poly3 P_taylor P_acc P_kerf P_kerf2 P_tanf2 P_cbrt3 P_elem P_red64 P_ksc P_ker64 P_tan64a P_tan64 P_tan64r M_basic M_elib M_trig.
Import ListNotations.
Open Scope R_scope.
Open Scope fl_scope.

(** ** From the product form to the tangent *)
Lemma tan_pre a X Y P r e k c : bpow radix2 (-100) <= Rabs X <= 0.67435 -> Rabs Y <= 9 / 4 * u * Rabs X -> Rabs (X + Y - r) <= / 18446744073709551616 * Rabs X -> 0.999 <= P <= 1.22 ->
  Rabs (a - (X * P + Y * (1 + X * X))) <= e * u * Rabs X -> Rabs (X * P * cos X - sin X) <= 0.0201 * u * Rabs X -> Rabs (X * P * sin X - X * X * cos X) <= k -> 0 <= k ->
  0 < c <= cos r -> Rabs (a - tan r) <= (e + (0.022 + 9 / 4 * k) / c) * u * Rabs X.
Proof.
  intros HX HY HR HP HA H1 H2 HK HC. pose proof (tan_total a X Y P r e k HX HY HR HP HA H1 H2) as H. pose proof (Rabs_pos X) as PX. set (C := cos r) in *. set (S := sin r) in *.
  assert (E : a - tan r = (a * C - S) / C) by (unfold tan; fold C S; field; lra). rewrite E. unfold Rdiv at 1. rewrite Rabs_mult, (Rabs_pos_eq (/ C)) by (left; apply Rinv_0_lt_compat; lra).
  apply Rmult_le_reg_r with C; [lra|]. rewrite Rmult_assoc, Rinv_l, Rmult_1_r by lra. eapply Rle_trans; [exact H|].
  assert (L : 0.022 + 9 / 4 * k <= (0.022 + 9 / 4 * k) / c * C). { set (g := 0.022 + 9 / 4 * k) in *. assert (0 <= g) by (unfold g; lra). clearbody g. replace g with (g / c * c) at 1 by (field; lra). apply Rmult_le_compat_l; [|lra]. apply Rmult_le_pos; [assumption|left; apply Rinv_0_lt_compat; lra]. }
  set (G := (0.022 + 9 / 4 * k) / c) in *. clearbody G. replace ((e + G) * u * Rabs X * C) with ((e * C + G * C) * (u * Rabs X)) by ring. replace ((e * C + 0.022 + 9 / 4 * k) * u * Rabs X) with ((e * C + (0.022 + 9 / 4 * k)) * (u * Rabs X)) by ring.
  apply Rmult_le_compat_r; [lra|]. lra.
Qed.
Lemma cos_ge r b : Rabs r <= b -> b <= 2 -> 1 - b * b / 2 <= cos r.
Proof. intros H B. pose proof (cos_quad r ltac:(lra)) as [Q _]. assert (r * r <= b * b). { replace (r * r) with (Rabs r * Rabs r) by (rewrite <- Rabs_mult, Rabs_pos_eq; [reflexivity|nra]). pose proof (Rabs_pos r). nra. } lra. Qed.
(** what the small branch knows about its argument *)
Definition arg (x y : Z) (r b : R) : Prop := isbits f64 x /\ finite f64 x = true /\ isbits f64 y /\ finite f64 y = true /\ bpow radix2 (-100) <= Rabs (val f64 x) <= b /\ Rabs (val f64 y) <= 9 / 4 * u * Rabs (val f64 x) /\
  Rabs (val f64 x + val f64 y - r) <= / 18446744073709551616 * Rabs (val f64 x).
Lemma arg_le x y r b b' : b <= b' -> arg x y r b -> arg x y r b'.
Proof. unfold arg. intros L H. decompose [and] H. repeat (split; [assumption|]). split; [split; lra|]. split; assumption. Qed.
Lemma arg_r x y r b : arg x y r b -> Rabs r <= 1.0000001 * b.
Proof.
  intros (_ & _ & _ & _ & [_ H] & HY & HR). pose proof (Rabs_pos (val f64 x)). pose proof (Rabs_triang_inv r (val f64 x)) as T. assert (Q : Rabs (r - val f64 x) <= 3 * u * Rabs (val f64 x)).
  { replace (r - val f64 x) with (- (val f64 x + val f64 y - r) + val f64 y) by ring. eapply Rle_trans; [apply Rabs_triang|]. rewrite Rabs_Ropp. lra. } lra.
Qed.
Lemma pre_gen x y r b e n kb c : arg x y r b -> b <= 0.674341 -> tanRP x y e -> (0 < n)%nat -> (0 <= kb)%Z -> b * b <= IZR (2 * Z.of_nat n) * bpow radix2 (-7) -> pieces3 tan64K (2 ^ 193) (2 ^ 193) n (- cc 1000) (cc kb) = true -> 0.001 <= IZR kb / 1000000 ->
  0 < c <= 1 - 1.000001 * (b * b) / 2 -> Rabs (val f64 x + val f64 (tanR x y) - tan r) <= (e + (0.022 + 9 / 4 * ((IZR kb / 1000000 + / 1000000) * (b * b))) / c) * u * Rabs (val f64 x).
Proof.
  intros A Hb (_ & _ & HR) Hn Hk HB CH K0 Hc. pose proof (arg_r _ _ _ _ A) as RR. destruct A as (Bx & Fx & By & Fy & HX & HY & HE). set (X := val f64 x) in *. set (Y := val f64 y) in *. pose proof (Rabs_pos X) as PX.
  assert (Zb : 0 <= X * X <= b * b). { split; [nra|]. replace (X * X) with (Rabs X * Rabs X) by (rewrite <- Rabs_mult, Rabs_pos_eq; [reflexivity|nra]). apply Rmult_le_compat; lra. }
  assert (b * b <= 0.45474) by (assert (0 <= b) by lra; nra).
  pose proof (tan64_tail X _ n kb Hk ltac:(lra) ltac:(lra) Hn CH eq_refl K0) as TT. pose proof (tan64_P (X * X) ltac:(lra)) as PB.
  apply (tan_pre _ X Y (peval k_tan_poly (X * X))); try assumption; [split; lra|lra|apply tan64_poly_err; lra| | |].
  - eapply Rle_trans; [exact TT|]. apply Rmult_le_compat_l; lra.
  - apply Rmult_le_pos; lra.
  - split; [lra|]. pose proof (cos_ge r _ RR ltac:(lra)) as Q. lra.
Qed.
Lemma b7 : bpow radix2 (-7) = / 128. Proof. reflexivity. Qed.
Ltac pre_fin H := eapply Rle_trans; [exact H|]; apply Rmult_le_compat_r; [apply Rabs_pos|]; apply Rmult_le_compat_r; [lra|]; lra.
Lemma pre3 x y r : arg x y r 0.67434 -> Rabs (val f64 x + val f64 (tanR x y) - tan r) <= 1.4335 * u * Rabs (val f64 x).
Proof. intros A. pose proof A as (Bx & Fx & By & Fy & HX & HY & HE). pose proof (pre_gen x y r _ _ 30 335000 0.7726 A ltac:(lra) (tanR_3 x y Bx Fx By Fy HY (proj1 HX) ltac:(lra)) ltac:(lia) ltac:(lia) ltac:(rewrite b7; change (IZR (2 * Z.of_nat 30)) with 60; lra) tan64_chkK3 ltac:(lra) ltac:(lra)) as H. pre_fin H. Qed.
Lemma pre2 x y r : arg x y r 0.6 -> Rabs (val f64 x + val f64 (tanR x y) - tan r) <= 0.9836 * u * Rabs (val f64 x).
Proof. intros A. pose proof A as (Bx & Fx & By & Fy & HX & HY & HE). pose proof (pre_gen x y r _ _ 24 270000 0.8199 A ltac:(lra) (tanR_2 x y Bx Fx By Fy HY (proj1 HX) ltac:(lra)) ltac:(lia) ltac:(lia) ltac:(rewrite b7; change (IZR (2 * Z.of_nat 24)) with 48; lra) tan64_chkK2 ltac:(lra) ltac:(lra)) as H. pre_fin H. Qed.
Lemma pre1 x y r : arg x y r 0.47 -> Rabs (val f64 x + val f64 (tanR x y) - tan r) <= 0.482 * u * Rabs (val f64 x).
Proof. intros A. pose proof A as (Bx & Fx & By & Fy & HX & HY & HE). pose proof (pre_gen x y r _ _ 15 160000 0.8895 A ltac:(lra) (tanR_1 x y Bx Fx By Fy HY (proj1 HX) ltac:(lra)) ltac:(lia) ltac:(lia) ltac:(rewrite b7; change (IZR (2 * Z.of_nat 15)) with 30; lra) tan64_chkK1 ltac:(lra) ltac:(lra)) as H. pre_fin H. Qed.
Lemma pre0 x y r : arg x y r 0.43 -> Rabs (val f64 x + val f64 (tanR x y) - tan r) <= 0.42 * u * Rabs (val f64 x).
Proof. intros A. pose proof A as (Bx & Fx & By & Fy & HX & HY & HE). pose proof (pre_gen x y r _ _ 15 160000 0.9075 A ltac:(lra) (tanR_0 x y Bx Fx By Fy HY (proj1 HX) ltac:(lra)) ltac:(lia) ltac:(lia) ltac:(rewrite b7; change (IZR (2 * Z.of_nat 15)) with 30; lra) tan64_chkK1 ltac:(lra) ltac:(lra)) as H. pre_fin H. Qed.
(** the tangent is the argument times a known factor *)
Lemma tan_fac x y r : arg x y r 0.67434 -> exists p, tan r = val f64 x * p /\ 1 + 0.333 * (val f64 x * val f64 x) - 0.00011 <= p <= 1.23 /\ 0.999 <= p.
Proof.
  intros A. pose proof (arg_r _ _ _ _ A) as RR. destruct A as (Bx & Fx & By & Fy & HX & HY & HE). set (X := val f64 x) in *. set (Y := val f64 y) in *. pose proof (Rabs_pos X) as PX. pose proof (bpow_gt_0 radix2 (-100)) as B0.
  assert (Zb : 0 <= X * X <= 0.4548). { split; [nra|]. destruct HX as [_ HX]. apply Rabs_le_inv in HX. nra. }
  pose proof (tan64_tail X _ 30 335000 ltac:(lia) ltac:(lra) ltac:(rewrite b7; change (IZR (2 * Z.of_nat 30)) with 60; lra) ltac:(lia) tan64_chkK3 eq_refl ltac:(lra)) as TT. pose proof (tan64_P (X * X) ltac:(lra)) as PB.
  assert (P1 : 0.999 <= peval k_tan_poly (X * X) <= 1.22) by lra.
  pose proof (tan_pre (X * peval k_tan_poly (X * X) + Y * (1 + X * X)) X Y (peval k_tan_poly (X * X)) r 0 _ 0.7726 ltac:(split; lra) HY HE P1 ltac:(rewrite Rminus_eq_0, Rabs_R0; lra) (tan64_poly_err X ltac:(lra)) TT ltac:(apply Rmult_le_pos; lra) ltac:(split; [lra|]; pose proof (cos_ge r _ RR ltac:(lra)); lra)) as H.
  assert (X <> 0) by (intros E; rewrite E, Rabs_R0 in HX; lra).
  assert (Q : Rabs (X * peval k_tan_poly (X * X) - tan r) <= 10 * u * Rabs X).
  { replace (X * peval k_tan_poly (X * X) - tan r) with ((X * peval k_tan_poly (X * X) + Y * (1 + X * X) - tan r) + - (Y * (1 + X * X))) by ring. eapply Rle_trans; [apply Rabs_triang|]. rewrite Rabs_Ropp, Rabs_mult, (Rabs_pos_eq (1 + X * X)) by lra.
    assert (Rabs Y * (1 + X * X) <= 9 / 4 * u * Rabs X * 1.5) by (pose proof (Rabs_pos Y); apply Rmult_le_compat; lra).
    assert ((0 + (0.022 + 9 / 4 * ((335000 / 1000000 + / 1000000) * (X * X))) / 0.7726) * u * Rabs X <= 2 * u * Rabs X) by (apply Rmult_le_compat_r; [lra|]; apply Rmult_le_compat_r; lra). lra. }
  exists (tan r / X). split; [field; assumption|]. assert (K : Rabs (peval k_tan_poly (X * X) - tan r / X) <= 10 * u).
  { apply Rmult_le_reg_r with (Rabs X); [lra|]. rewrite <- Rabs_mult. replace ((peval k_tan_poly (X * X) - tan r / X) * X) with (X * peval k_tan_poly (X * X) - tan r) by (field; assumption). exact Q. }
  apply Rabs_le_inv in K. lra.
Qed.

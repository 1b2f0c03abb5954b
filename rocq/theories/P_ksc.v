(** The polynomials of [k_sin] and [k_cos], and faithful rounding between 1/2 and 1 from an absolute error. *)
From Coq Require Import ZArith Reals Lia Lra Bool List Psatz.
From Flocq Require Import Core.
From Verif Require Import Base Spec SpecAcc Format P_format Ieee P_ieee P_real P_neg P_lit P_err P_apx P_poly P_poly2 P_poly3 P_taylor P_acc P_kerf P_kerf2 P_red64 M_basic M_elib M_trig.
Import ListNotations.
Open Scope R_scope.
Open Scope fl_scope.

(** ** From an absolute error to faithful rounding, between 1/2 and 1 *)
Lemma near_half a v : / 2 <= v <= 1 -> / 2 <= a -> Rabs (a - v) < bpow radix2 (-54) -> rnd f64 a = below f64 v \/ rnd f64 a = above f64 v.
Proof.
  intros V A H. pose proof (fmt_valid_exp f64) as VE. set (fexp := FLT_exp (1 - bias f64 - mw f64) (mw f64 + 1)). change (Valid_exp fexp) in VE.
  set (d := below f64 v). set (w := above f64 v). set (r := rnd f64 a).
  assert (Gd : repr f64 d) by (apply generic_format_round; [exact VE|typeclasses eauto]). assert (Gw : repr f64 w) by (apply generic_format_round; [exact VE|typeclasses eauto]). assert (Gr : repr f64 r) by apply rnd_repr.
  assert (Hh : repr f64 (/ 2)) by (apply (repr_bpow f64 (-1)); cbn; lia).
  assert (Ld : d <= v) by (apply (round_DN_pt radix2 fexp v)). assert (Lw : v <= w) by (apply (round_UP_pt radix2 fexp v)).
  assert (Pd : / 2 <= d) by (apply (round_DN_pt radix2 fexp v); [exact Hh|lra]).
  assert (Pr : / 2 <= r) by (rewrite <- (repr_rnd f64 (/ 2) Hh); apply rnd_le; exact A).
  assert (GRID : forall t, repr f64 t -> / 2 <= t -> exists n, t = IZR n * bpow radix2 (-53)).
  { intros t Ht Lt. apply (repr_grid f64 t (-1) Ht). intros _. rewrite Rabs_pos_eq by lra. exact Lt. }
  assert (STEP : forall s t, repr f64 s -> repr f64 t -> / 2 <= s -> s < t -> s + bpow radix2 (-53) <= t).
  { intros s t Hs Ht L1 L2. destruct (GRID s Hs L1) as (n & ->). destruct (GRID t Ht ltac:(lra)) as (k & ->). pose proof (bpow_gt_0 radix2 (-53)) as P. apply Rmult_lt_reg_r in L2; [|exact P]. apply lt_IZR in L2. assert (n + 1 <= k)%Z as L3 by lia. apply IZR_le in L3. rewrite plus_IZR in L3. assert ((IZR n + 1) * bpow radix2 (-53) <= IZR k * bpow radix2 (-53)) by (apply Rmult_le_compat_r; lra). lra. }
  assert (HB : bpow radix2 (-53) = 2 * bpow radix2 (-54)) by (change (-53)%Z with (1 + -54)%Z; rewrite bpow_plus; reflexivity).
  set (b := bpow radix2 (-54)) in *. rewrite HB in STEP. clearbody b. apply Rabs_def2 in H.
  assert (RD : d <= r). { apply Rnot_lt_le. intros L. pose proof (STEP r d Gr Gd Pr L) as S. pose proof (rnd_nearest f64 a d Gd) as N. fold r in N. destruct (Rle_lt_dec a d) as [Q | Q].
    - rewrite (Rabs_pos_eq (d - a)) in N by lra. apply Rabs_le_inv in N. lra.
    - assert (d <= r) by (rewrite <- (repr_rnd f64 d Gd); apply rnd_le; lra). lra. }
  assert (RW : r <= w). { apply Rnot_lt_le. intros L. pose proof (STEP w r Gw Gr ltac:(lra) L) as S. pose proof (rnd_nearest f64 a w Gw) as N. fold r in N. destruct (Rle_lt_dec w a) as [Q | Q].
    - rewrite (Rabs_left1 (w - a)) in N by lra. apply Rabs_le_inv in N. lra.
    - assert (r <= w) by (rewrite <- (repr_rnd f64 w Gw); apply rnd_le; lra). lra. }
  destruct (Rle_lt_dec r d) as [E | E]; [left; lra|]. right. apply Rle_antisym; [exact RW|]. destruct (Rle_lt_dec v r) as [Q | Q].
  - apply (round_UP_pt radix2 fexp v); [exact Gr|exact Q].
  - exfalso. assert (r <= d) by (apply (round_DN_pt radix2 fexp v); [exact Gr|lra]). lra.
Qed.
Lemma near_half_abs a v : / 2 <= Rabs v <= 1 -> Rabs (a - v) < bpow radix2 (-54) -> (/ 2 <= Rabs v - bpow radix2 (-54)) -> rnd f64 a = below f64 v \/ rnd f64 a = above f64 v.
Proof.
  intros V H L. destruct (Rle_lt_dec 0 v) as [S | S].
  - rewrite (Rabs_pos_eq v) in * by lra. apply near_half; [lra| |exact H]. apply Rabs_def2 in H. lra.
  - rewrite (Rabs_left v) in * by lra. destruct (near_half (- a) (- v)) as [E | E]; [lra|apply Rabs_def2 in H; lra|replace (- a - - v) with (- (a - v)) by ring; now rewrite Rabs_Ropp| |]; rewrite rnd_opp in E.
    + right. unfold below in E. rewrite round_DN_opp in E. unfold above. lra.
    + left. unfold above in E. rewrite round_UP_opp in E. unfold below. lra.
Qed.
(** ** The polynomials *)
Definition k_sin_poly : poly := [(1, 1)%Z; litq f64 rs_k_sin_S1; litq f64 rs_k_sin_S2; litq f64 rs_k_sin_S3; litq f64 rs_k_sin_S4; litq f64 rs_k_sin_S5; litq f64 rs_k_sin_S6].
Definition k_cos_poly : poly := [(1, 1)%Z; (-1, 2)%Z; litq f64 rs_k_cos_C1; litq f64 rs_k_cos_C2; litq f64 rs_k_cos_C3; litq f64 rs_k_cos_C4; litq f64 rs_k_cos_C5; litq f64 rs_k_cos_C6].
(** [n] millionths of 2^-53 *)
Definition uu (n : Z) : Z := (n * 2 ^ 147 / 1000000)%Z.
Definition h190 : Z := (2 ^ 190)%Z.
Lemma sin64_poly : pieces3 (map iq (psub k_sin_poly (tsin 9))) h190 h190 317 (- uu 43000) (uu 43000) = true. Proof. vm_compute. reflexivity. Qed.
Lemma cos64_poly : pieces3 (map iq (psub k_cos_poly (tcos 9))) h190 h190 317 (- uu 9000) (uu 9000) = true. Proof. vm_compute. reflexivity. Qed.
Lemma h190_ok z : 0 <= z <= 0.618 -> fxr (h190 - h190) <= z <= fxr (h190 + (2 * Z.of_nat 317 - 1) * h190).
Proof.
  intros [H1 H2]. replace (h190 - h190)%Z with 0%Z by lia. rewrite fxr_0. split; [exact H1|]. eapply Rle_trans; [exact H2|]. unfold fxr. pose proof SC_pos. apply Rmult_le_reg_r with (IZR SC); [assumption|].
  match goal with |- _ <= ?a / _ * _ => replace (a / IZR SC * IZR SC) with a by (field; lra) end. apply Rmult_le_reg_l with 1000; [lra|].
  replace (1000 * (0.618 * IZR SC)) with (IZR (618 * SC)) by (rewrite mult_IZR; lra). rewrite <- mult_IZR. apply IZR_le. vm_compute. discriminate.
Qed.
Lemma uu_le n : (0 <= n)%Z -> fxr (uu n) <= IZR n / 1000000 * u.
Proof.
  intros H. unfold fxr, uu. pose proof (fdiv_le (n * 2 ^ 147) 1000000 ltac:(lia)) as K. rewrite fdv_eq, mult_IZR in K. pose proof SC_pos. apply Rmult_le_reg_r with (IZR SC); [assumption|].
  match goal with |- ?a / _ * _ <= _ => replace (a / IZR SC * IZR SC) with a by (field; lra) end. eapply Rle_trans; [exact K|]. right. replace (IZR SC) with (IZR (2 ^ 147) * 9007199254740992) by (rewrite <- mult_IZR; f_equal). field.
Qed.
Lemma sin64_poly_err Y : Rabs Y <= 0.786 -> Rabs (Y * peval k_sin_poly (Y * Y) - sin Y) <= 0.0431 * u * Rabs Y.
Proof.
  intros H. assert (Z : 0 <= Y * Y <= 0.618) by (apply Rabs_le_inv in H; nra).
  pose proof (pieces3_ok _ _ h190 _ _ 317 (PB_poly (psub k_sin_poly (tsin 9)) ltac:(vm_compute; reflexivity)) ltac:(vm_compute; discriminate) h190 (Y * Y) ltac:(lia) sin64_poly (h190_ok _ Z)) as P.
  rewrite psub_ok in P by (vm_compute; reflexivity). pose proof (sin_taylor Y 4 ltac:(lra)) as T. change (2 * 4 + 1)%nat with 9%nat in T. change (2 * 4 + 2)%nat with 10%nat in T.
  replace (IZR (fz (4 * 4 + 5))) with 51090942171709440000 in T by (vm_compute; reflexivity).
  assert (P10 : 0 <= (Y * Y) ^ 10 <= 0.0082). { split; [apply pow_le; lra|]. eapply Rle_trans; [apply (pow_incr (Y * Y) 0.618 10); lra|]. lra. }
  pose proof (Rabs_pos Y). rewrite fxr_opp in P. pose proof (uu_le 43000 ltac:(lia)) as U.
  set (p := peval k_sin_poly (Y * Y)) in *. set (t := peval (tsin 9) (Y * Y)) in *. set (q := (Y * Y) ^ 10) in *. set (g := fxr (uu 43000)) in *. clearbody p t q g.
  replace (Y * p - sin Y) with (Y * (p - t) + - (sin Y - Y * t)) by ring. eapply Rle_trans; [apply Rabs_triang|]. rewrite Rabs_Ropp, Rabs_mult.
  assert (E : Rabs (p - t) <= 0.043 * u) by (apply Rabs_le; lra).
  assert (E2 : Rabs Y * Rabs (p - t) <= Rabs Y * (0.043 * u)) by (apply Rmult_le_compat_l; assumption).
  assert (E3 : Rabs Y * (q / 51090942171709440000) <= Rabs Y * (0.0001 * u)) by (apply Rmult_le_compat_l; lra). lra.
Qed.
Lemma cos64_poly_err Y : Rabs Y <= 0.786 -> Rabs (peval k_cos_poly (Y * Y) - cos Y) <= 0.0091 * u.
Proof.
  intros H. assert (Z : 0 <= Y * Y <= 0.618) by (apply Rabs_le_inv in H; nra).
  pose proof (pieces3_ok _ _ h190 _ _ 317 (PB_poly (psub k_cos_poly (tcos 9)) ltac:(vm_compute; reflexivity)) ltac:(vm_compute; discriminate) h190 (Y * Y) ltac:(lia) cos64_poly (h190_ok _ Z)) as P.
  rewrite psub_ok in P by (vm_compute; reflexivity). pose proof (cos_taylor Y 4 ltac:(lra)) as T. change (2 * 4 + 1)%nat with 9%nat in T. change (2 * 4 + 2)%nat with 10%nat in T.
  replace (IZR (fz (4 * 4 + 4))) with 2432902008176640000 in T by (vm_compute; reflexivity).
  assert (P10 : 0 <= (Y * Y) ^ 10 <= 0.0082). { split; [apply pow_le; lra|]. eapply Rle_trans; [apply (pow_incr (Y * Y) 0.618 10); lra|]. lra. }
  rewrite fxr_opp in P. pose proof (uu_le 9000 ltac:(lia)) as U.
  set (p := peval k_cos_poly (Y * Y)) in *. set (t := peval (tcos 9) (Y * Y)) in *. set (q := (Y * Y) ^ 10) in *. set (g := fxr (uu 9000)) in *. clearbody p t q g.
  apply Rabs_le_inv in T. apply Rabs_le. lra.
Qed.

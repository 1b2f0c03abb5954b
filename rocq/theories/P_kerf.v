(** The kernels [k_sinf], [k_cosf] and [k_tanf] on the reduced range. *)
From Coq Require Import ZArith Reals Lia Lra Bool List Psatz.
From Flocq Require Import Core.
From Verif Require Import Base Spec SpecAcc Format P_format Ieee P_ieee P_real P_neg P_lit P_err P_apx P_poly P_poly2 P_poly3 P_taylor P_acc M_basic M_elib M_trig.
Import ListNotations.
Open Scope R_scope.

Lemma faithful_cvt A v : isbits f64 A -> finite f64 A = true -> v <> 0 -> Rabs v <= bpow radix2 100 -> Rabs (val f64 A - v) <= 15 / 8 * bpow radix2 (-26) * Rabs v -> faithful f32 v (fcvt f64 f32 A).
Proof.
  intros B Fa V M H. pose proof (fcvt_finite f64 f32 A Fa) as RT.
  destruct (rounds_fin f32 _ _ _ RT) as [Fr Er].
  - replace (val f64 A) with ((val f64 A - v) + v) by ring. eapply Rle_trans; [apply Rabs_triang|]. 
    apply Rle_trans with (bpow radix2 101); [|apply bpow_le; vm_compute; discriminate]. replace (bpow radix2 101) with (2 * bpow radix2 100) by (change 101%Z with (1 + 100)%Z; rewrite bpow_plus; reflexivity).
    pose proof (Rabs_pos v). assert (bpow radix2 (-26) <= / 4) by (apply (bpow_le radix2 (-26) (-2)); lia). pose proof (bpow_gt_0 radix2 (-26)). nra.
  - split; [exact (proj1 RT)|]. split; [exact Fr|]. rewrite Er. apply near; [vm_compute; discriminate|exact V|]. exact H.
Qed.
Lemma scal_abs Y : bpow radix2 (-100) <= Rabs Y <= 1 -> scal f64 (Rabs Y) 1.
Proof.
  intros [H1 H2]. pose proof (bpow_gt_0 radix2 (-100)). split; [lra|]. split; [discriminate|].
  replace (fxr 1) with (bpow radix2 (-200)) by (unfold fxr, SC; change (bpow radix2 (-200)) with (/ IZR (2 ^ 200)); lra).
  apply Rle_trans with (bpow radix2 (-100) * bpow radix2 (-200)); [rewrite <- bpow_plus; apply bpow_le; vm_compute; discriminate|].
  apply Rmult_le_compat_r; [apply bpow_ge_0|exact H1].
Qed.
Definition sgn (Y : R) : R := Y / Rabs Y.
Lemma sgn_ok Y : Y <> 0 -> Rabs Y * sgn Y = Y /\ -1 <= sgn Y <= 1.
Proof.
  intros H. pose proof (Rabs_pos_lt Y H). split; [unfold sgn; field; lra|]. unfold sgn. destruct (Rle_lt_dec 0 Y).
  - rewrite Rabs_pos_eq in * by lra. replace (Y / Y) with 1 by (field; lra). lra.
  - rewrite Rabs_left in * by lra. replace (Y / - Y) with (-1) by (field; lra). lra.
Qed.
Lemma fxr_one : fxr SC = 1. Proof. unfold fxr. field. pose proof SC_pos. lra. Qed.
Lemma AP_sgn y : isbits f64 y -> finite f64 y = true -> val f64 y <> 0 -> AP f64 (Rabs (val f64 y)) y (sgn (val f64 y)) (-SC, SC, 0)%Z.
Proof.
  intros B Fy N. destruct (sgn_ok _ N) as [E L]. split; [now split|]. rewrite fxr_opp, fxr_one, fxr_0. split; [exact L|]. rewrite E. replace (val f64 y - val f64 y) with 0 by ring. rewrite Rabs_R0. lra.
Qed.
Lemma AP_var F y l h : isbits F y -> finite F y = true -> fxr l <= val F y <= fxr h -> AP F 1 y (val F y) (l, h, 0%Z).
Proof. intros B Fy L. split; [now split|]. split; [exact L|]. rewrite fxr_0, Rmult_1_l. replace (val F y - val F y) with 0 by ring. rewrite Rabs_R0. lra. Qed.
Definition c7855 : Z := (7855 * SC / 10000)%Z.
Lemma c7855_ok : 0.78549 <= fxr c7855 <= 0.7855.
Proof.
  unfold fxr. pose proof SC_pos. split.
  - apply Rmult_le_reg_r with (IZR SC); [assumption|]. replace (IZR c7855 / IZR SC * IZR SC) with (IZR c7855) by (field; lra). apply Rmult_le_reg_l with 100000; [lra|].
    replace (100000 * (0.78549 * IZR SC)) with (IZR (78549 * SC)) by (rewrite mult_IZR; lra). rewrite <- mult_IZR. apply IZR_le. vm_compute. discriminate.
  - apply Rmult_le_reg_r with (IZR SC); [assumption|]. replace (IZR c7855 / IZR SC * IZR SC) with (IZR c7855) by (field; lra). apply Rmult_le_reg_l with 100000; [lra|].
    replace (100000 * (0.7855 * IZR SC)) with (IZR (78550 * SC)) by (rewrite mult_IZR; lra). rewrite <- mult_IZR. apply IZR_le. vm_compute. discriminate.
Qed.

(** the polynomials of the kernels *)
Definition k_sinf_poly : poly := [(1, 1)%Z; litq f64 rs_k_sinf_S1; litq f64 rs_k_sinf_S2; litq f64 rs_k_sinf_S3; litq f64 rs_k_sinf_S4].
Definition k_cosf_poly : poly := [(1, 1)%Z; litq f64 rs_k_cosf_C0; litq f64 rs_k_cosf_C1; litq f64 rs_k_cosf_C2; litq f64 rs_k_cosf_C3].
Definition w617 : Z := (2 ^ 190)%Z.
Definition e33 : Z := (2 ^ 167)%Z.
Lemma sinf_poly : pcheck3 (psub k_sinf_poly (tsin 9)) (2 ^ 192) 79 (- e33) e33 = true. Proof. vm_compute. reflexivity. Qed.
Lemma cosf_poly : pcheck3 (psub k_cosf_poly (tcos 9)) (2 ^ 192) 79 (- e33) e33 = true. Proof. vm_compute. reflexivity. Qed.
Lemma w617_ok z : 0 <= z <= 0.61700 -> fxr 0 <= z <= fxr (0 + Z.of_nat 632 * w617).
Proof.
  intros [H1 H2]. rewrite fxr_0. split; [exact H1|]. eapply Rle_trans; [exact H2|]. unfold fxr. pose proof SC_pos. apply Rmult_le_reg_r with (IZR SC); [assumption|].
  replace (IZR (0 + Z.of_nat 632 * w617) / IZR SC * IZR SC) with (IZR (0 + Z.of_nat 632 * w617)) by (field; lra). apply Rmult_le_reg_l with 100000; [lra|].
  replace (100000 * (0.61700 * IZR SC)) with (IZR (61700 * SC)) by (rewrite mult_IZR; lra). rewrite <- mult_IZR. apply IZR_le. vm_compute. discriminate.
Qed.
Lemma sq_617 Y : Rabs Y <= 0.78549 -> 0 <= Y * Y <= 0.61700.
Proof. intros H. apply Rabs_le_inv in H. nra. Qed.
Lemma fxr_small z n : (z <= 2 ^ n)%Z -> (0 <= n <= 200)%Z -> fxr z <= bpow radix2 (n - 200).
Proof. intros H N. replace (n - 200)%Z with (- (200 - n))%Z by lia. rewrite <- fxr_pow by lia. apply fxr_le. now replace (200 - (200 - n))%Z with n by lia. Qed.
Lemma pow_10 z : 0 <= z <= 0.61700 -> 0 <= z ^ 10 <= 1.
Proof. intros H. split; [apply pow_le; lra|]. rewrite <- (pow1 10). apply pow_incr. lra. Qed.
Lemma sin_poly_err Y : Rabs Y <= 0.78549 -> Rabs (Y * peval k_sinf_poly (Y * Y) - sin Y) <= bpow radix2 (-32) * Rabs Y.
Proof.
  intros H. pose proof (sq_617 Y H) as Z. pose proof (pcheck3_ok _ _ _ _ _ (0 + Z.of_nat 632 * w617)%Z (Y * Y) sinf_poly ltac:(lia) ltac:(vm_compute; reflexivity) (w617_ok _ Z)) as P.
  rewrite psub_ok in P by (vm_compute; reflexivity). pose proof (sin_taylor Y 4 ltac:(lra)) as T. change (2 * 4 + 1)%nat with 9%nat in T. change (2 * 4 + 2)%nat with 10%nat in T.
  replace (IZR (fz (4 * 4 + 5))) with 51090942171709440000 in T by (vm_compute; reflexivity). pose proof (pow_10 _ Z). pose proof (Rabs_pos Y).
  set (p := peval k_sinf_poly (Y * Y)) in *. set (t := peval (tsin 9) (Y * Y)) in *. rewrite fxr_opp in P.
  replace (Y * p - sin Y) with (Y * (p - t) + - (sin Y - Y * t)) by ring. eapply Rle_trans; [apply Rabs_triang|]. rewrite Rabs_Ropp, Rabs_mult.
  assert (Rabs (p - t) <= fxr e33) by (apply Rabs_le; lra). assert (fxr e33 <= bpow radix2 (-33)) by (apply (fxr_small e33 167); [vm_compute; discriminate|lia]).
  replace (bpow radix2 (-32)) with (2 * bpow radix2 (-33)) by (change (-32)%Z with (1 + -33)%Z; rewrite bpow_plus; reflexivity).
  assert ((Y * Y) ^ 10 / 51090942171709440000 <= bpow radix2 (-33)) by (change (bpow radix2 (-33)) with (/ 8589934592); lra). nra.
Qed.
Lemma cos_poly_err Y : Rabs Y <= 0.78549 -> Rabs (peval k_cosf_poly (Y * Y) - cos Y) <= bpow radix2 (-32).
Proof.
  intros H. pose proof (sq_617 Y H) as Z. pose proof (pcheck3_ok _ _ _ _ _ (0 + Z.of_nat 632 * w617)%Z (Y * Y) cosf_poly ltac:(lia) ltac:(vm_compute; reflexivity) (w617_ok _ Z)) as P.
  rewrite psub_ok in P by (vm_compute; reflexivity). pose proof (cos_taylor Y 4 ltac:(lra)) as T. change (2 * 4 + 1)%nat with 9%nat in T. change (2 * 4 + 2)%nat with 10%nat in T.
  replace (IZR (fz (4 * 4 + 4))) with 2432902008176640000 in T by (vm_compute; reflexivity). pose proof (pow_10 _ Z).
  set (p := peval k_cosf_poly (Y * Y)) in *. set (t := peval (tcos 9) (Y * Y)) in *. rewrite fxr_opp in P.
  replace (p - cos Y) with ((p - t) + - (cos Y - t)) by ring. eapply Rle_trans; [apply Rabs_triang|]. rewrite Rabs_Ropp.
  assert (Rabs (p - t) <= fxr e33) by (apply Rabs_le; lra). assert (fxr e33 <= bpow radix2 (-33)) by (apply (fxr_small e33 167); [vm_compute; discriminate|lia]).
  replace (bpow radix2 (-32)) with (2 * bpow radix2 (-33)) by (change (-32)%Z with (1 + -33)%Z; rewrite bpow_plus; reflexivity).
  assert ((Y * Y) ^ 10 / 2432902008176640000 <= bpow radix2 (-33)) by (change (bpow radix2 (-33)) with (/ 8589934592); lra). lra.
Qed.
Lemma k_sinf_acc y : isbits f64 y -> finite f64 y = true -> bpow radix2 (-100) <= Rabs (val f64 y) <= 0.78549 ->
  exists a, rs_k_sinf y = fcvt f64 f32 a /\ isbits f64 a /\ finite f64 a = true /\ Rabs (val f64 a - sin (val f64 y)) <= bpow radix2 (-31) * Rabs (val f64 y).
Proof.
  intros B Fy H. assert (N : val f64 y <> 0) by (intros E; rewrite E, Rabs_R0 in H; pose proof (bpow_gt_0 radix2 (-100)); lra).
  pose proof (scal_abs (val f64 y) ltac:(lra)) as HS. pose proof (AP_sgn y B Fy N) as A1. pose proof c7855_ok as C.
  assert (A2 : AP f64 1 y (val f64 y) (- c7855, c7855, 0)%Z). { apply AP_var; try assumption. rewrite fxr_opp. destruct H as [_ H]. apply Rabs_le_inv in H. lra. }
  unfold rs_k_sinf. cbv zeta.
  match goal with |- exists a, fcvt f64 f32 ?e = _ /\ _ => apx f64 (Rabs (val f64 y)) e K; exists e end.
  split; [reflexivity|]. split; [exact (AP_bits _ _ _ _ _ K)|]. split; [exact (AP_fin _ _ _ _ _ K)|]. apply AP_err in K. revert K.
  match goal with |- Rabs (val f64 ?e - _) <= _ -> _ => generalize (val f64 e) end. intros V K. set (Y := val f64 y) in *.
  destruct (sgn_ok Y N) as [E _]. match type of K with Rabs (V - ?t) <= _ => replace t with (Y * peval k_sinf_poly (Y * Y)) in K end.
  2:{ unfold peval, k_sinf_poly. cbn [fst snd]. rewrite <- E at 1. change (litq f64 rs_k_sinf_S1) with (-6004799494138999, 36028797018963968)%Z. change (litq f64 rs_k_sinf_S2) with (4803837326982066, 576460752303423488)%Z.
    change (litq f64 rs_k_sinf_S3) with (-7319422646282100, 36893488147419103232)%Z. change (litq f64 rs_k_sinf_S4) with (6418431544608423, 2361183241434822606848)%Z. cbn [fst snd]. field. }
  pose proof (sin_poly_err Y ltac:(lra)) as P. pose proof (Rabs_pos Y).
  match type of K with _ <= _ * fxr ?b => assert (fxr b <= bpow radix2 (-32)) by (apply (fxr_small b 168); [vm_compute; discriminate|lia]) end.
  replace (V - sin Y) with ((V - Y * peval k_sinf_poly (Y * Y)) + (Y * peval k_sinf_poly (Y * Y) - sin Y)) by ring. eapply Rle_trans; [apply Rabs_triang|].
  replace (bpow radix2 (-31)) with (2 * bpow radix2 (-32)) by (change (-31)%Z with (1 + -32)%Z; rewrite bpow_plus; reflexivity). nra.
Qed.

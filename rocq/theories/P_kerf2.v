(** The cosine kernel, the parity of the kernels, and what an accurate reduction gives. *)
From Coq Require Import ZArith Reals Lia Lra Bool List Psatz.
From Flocq Require Import Core.
From Verif Require Import Base Spec SpecAcc Format P_format Ieee P_ieee P_real P_neg P_lit P_err P_apx P_poly P_taylor P_acc M_basic M_elib M_trig P_kerf P_sym P_sym3 P_medf.
Import ListNotations.
Open Scope R_scope.

Lemma k_cosf_acc y : isbits f64 y -> finite f64 y = true -> Rabs (val f64 y) <= 0.78549 ->
  exists a, rs_k_cosf y = fcvt f64 f32 a /\ isbits f64 a /\ finite f64 a = true /\ Rabs (val f64 a - cos (val f64 y)) <= bpow radix2 (-31).
Proof.
  intros B Fy H. pose proof c7855_ok as C.
  assert (A2 : AP f64 1 y (val f64 y) (- c7855, c7855, 0)%Z). { apply AP_var; try assumption. rewrite fxr_opp. apply Rabs_le_inv in H. lra. }
  unfold rs_k_cosf. cbv zeta.
  match goal with |- exists a, fcvt f64 f32 ?e = _ /\ _ => apx f64 1%R e K; exists e end.
  split; [reflexivity|]. split; [exact (AP_bits _ _ _ _ _ K)|]. split; [exact (AP_fin _ _ _ _ _ K)|]. apply AP_err in K. revert K.
  match goal with |- Rabs (val f64 ?e - _) <= _ -> _ => generalize (val f64 e) end. intros V K. set (Y := val f64 y) in *.
  match type of K with Rabs (V - ?t) <= _ => replace t with (peval k_cosf_poly (Y * Y)) in K end.
  2:{ unfold peval, k_cosf_poly. cbn [fst snd].
    match goal with |- context [litq f64 rs_k_cosf_C0] => let v := eval vm_compute in (litq f64 rs_k_cosf_C0) in change (litq f64 rs_k_cosf_C0) with v end.
    match goal with |- context [litq f64 rs_k_cosf_C1] => let v := eval vm_compute in (litq f64 rs_k_cosf_C1) in change (litq f64 rs_k_cosf_C1) with v end.
    match goal with |- context [litq f64 rs_k_cosf_C2] => let v := eval vm_compute in (litq f64 rs_k_cosf_C2) in change (litq f64 rs_k_cosf_C2) with v end.
    match goal with |- context [litq f64 rs_k_cosf_C3] => let v := eval vm_compute in (litq f64 rs_k_cosf_C3) in change (litq f64 rs_k_cosf_C3) with v end.
    cbn [fst snd]. field. }
  pose proof (cos_poly_err Y ltac:(lra)) as P. rewrite Rmult_1_l in K.
  match type of K with _ <= fxr ?b => assert (fxr b <= bpow radix2 (-32)) by (apply (fxr_small b 168); [vm_compute; discriminate|lia]) end.
  replace (V - cos Y) with ((V - peval k_cosf_poly (Y * Y)) + (peval k_cosf_poly (Y * Y) - cos Y)) by ring. eapply Rle_trans; [apply Rabs_triang|].
  replace (bpow radix2 (-31)) with (2 * bpow radix2 (-32)) by (change (-31)%Z with (1 + -32)%Z; rewrite bpow_plus; reflexivity). lra.
Qed.

(** parity *)
Lemma c_rel z c : ((0 <=? c)%Z && (c <? 2 ^ 64)%Z)%bool = true -> rel f64 z false c c.
Proof. intros H. apply andb_prop in H as [H1 H2]. apply Z.leb_le in H1. apply Z.ltb_lt in H2. apply rel_refl. split; assumption. Qed.
Lemma k_cosf_even y : isbits f64 y -> rel f32 true false (rs_k_cosf y) (rs_k_cosf (fneg f64 y)).
Proof.
  intros B. pose proof (rel_fneg f64 true y B) as R. pose proof (rel_square _ _ _ _ _ R) as RZ. unfold rs_k_cosf. cbv zeta.
  set (z := fmul f64 y y) in *. set (z' := fmul f64 (fneg f64 y) (fneg f64 y)) in *. apply rel_fcvt.
  assert (RW : rel f64 true false (fmul f64 z z) (fmul f64 z' z')) by exact (rel_square _ _ _ _ _ RZ).
  repeat first [exact RZ | exact RW | apply (rel_fadd f64 true false) | apply (rel_fmul f64 true false false) | apply c_rel; reflexivity].
Qed.
Lemma k_sinf_weak_odd y : isbits f64 y -> rel f32 false true (rs_k_sinf y) (rs_k_sinf (fneg f64 y)).
Proof.
  intros B. pose proof (rel_fneg f64 false y B) as R. pose proof (rel_weaken _ _ _ _ _ (rel_square _ _ _ _ _ R)) as RZ. unfold rs_k_sinf. cbv zeta.
  set (z := fmul f64 y y) in *. set (z' := fmul f64 (fneg f64 y) (fneg f64 y)) in *. apply rel_fcvt.
  assert (RW : rel f64 false false (fmul f64 z z) (fmul f64 z' z')) by exact (rel_weaken _ _ _ _ _ (rel_square _ _ _ _ _ RZ)).
  assert (RS : rel f64 false true (fmul f64 z y) (fmul f64 z' (fneg f64 y))) by exact (rel_fmul f64 false false true _ _ _ _ RZ R).
  apply (rel_fadd f64 false true).
  - apply (rel_fadd f64 false true); [exact R|]. apply (rel_fmul f64 false true false); [exact RS|].
    apply (rel_fadd f64 false false); [apply c_rel; reflexivity|]. apply (rel_fmul f64 false false false); [exact RZ|apply c_rel; reflexivity].
  - apply (rel_fmul f64 false true false); [apply (rel_fmul f64 false true false); [exact RS|exact RW]|].
    apply (rel_fadd f64 false false); [apply c_rel; reflexivity|]. apply (rel_fmul f64 false false false); [exact RZ|apply c_rel; reflexivity].
Qed.

(** sine of a small number *)
Lemma sin_low Y : 0 <= Y <= 1 -> Y - Y * Y * Y / 6 <= sin Y.
Proof. intros [H1 H2]. pose proof (sin_bound Y 0 H1 ltac:(pose proof PI2_1; pose proof PI2_3_2; lra)) as [S _]. unfold sin_approx, sin_term in S. cbn in S. lra. Qed.
Lemma sin_low_abs r : Rabs r <= 1 -> Rabs r - Rabs r * Rabs r * Rabs r / 6 <= Rabs (sin r).
Proof.
  intros H. destruct (Rle_lt_dec 0 r) as [L | L].
  - rewrite (Rabs_pos_eq r) in * by lra. eapply Rle_trans; [apply sin_low; lra|apply Rle_abs].
  - rewrite (Rabs_left r) in * by lra. eapply Rle_trans; [apply sin_low; lra|]. rewrite sin_neg. rewrite <- (Rabs_Ropp (sin r)). apply Rle_abs.
Qed.
Lemma sin_lip_lt a b : a < b -> Rabs (sin b - sin a) <= b - a.
Proof.
  intros H. destruct (MVT_cor2 sin cos a b H) as (c & E & _); [intros c _; apply derivable_pt_lim_sin|]. rewrite E, Rabs_mult, (Rabs_pos_eq (b - a)) by lra.
  pose proof (COS_bound c). assert (Rabs (cos c) <= 1) by (apply Rabs_le; lra). nra.
Qed.
Lemma sin_lip a b : Rabs (sin a - sin b) <= Rabs (a - b).
Proof.
  destruct (Rtotal_order a b) as [H | [-> | H]].
  - rewrite <- Rabs_Ropp, Ropp_minus_distr, <- (Rabs_Ropp (a - b)), Ropp_minus_distr, (Rabs_pos_eq (b - a)) by lra. now apply sin_lip_lt.
  - replace (sin b - sin b) with 0 by ring. rewrite Rabs_R0. apply Rabs_pos.
  - rewrite (Rabs_pos_eq (a - b)) by lra. now apply sin_lip_lt.
Qed.
Lemma cos_lip a b : Rabs (cos a - cos b) <= Rabs (a - b).
Proof. rewrite !cos_sin. replace (a - b) with ((PI / 2 + a) - (PI / 2 + b)) by ring. apply sin_lip. Qed.
Lemma cos_low r : Rabs r <= 0.785399 -> 1 / 2 <= cos r.
Proof.
  intros H. pose proof (cos_bound r 0) as L. apply Rabs_le_inv in H. pose proof PI2_1. destruct (L ltac:(lra) ltac:(lra)) as [S _].
  unfold cos_approx, cos_term in S. cbn in S. nra.
Qed.
Lemma sin_rel r : Rabs r <= 0.785399 -> 0.89 * Rabs r <= Rabs (sin r).
Proof. intros H. pose proof (sin_low_abs r ltac:(lra)) as L. pose proof (Rabs_pos r). set (t := Rabs r) in *. assert (t * t <= 0.62) by nra. assert (t * t * t <= 0.62 * t) by nra. lra. Qed.

Lemma faithful_neg F v a : faithful F v a -> faithful F (- v) (fneg F a).
Proof.
  intros (B & Fa & H). split; [apply fneg_fields, B|]. split; [rewrite fneg_finite by assumption; exact Fa|]. rewrite fneg_val by assumption.
  unfold below, above in *. rewrite round_DN_opp, round_UP_opp. destruct H as [-> | ->]; [right | left]; reflexivity.
Qed.
(** the kernels at a reduced argument *)
Lemma red_small X n y : red_ok X n y -> bpow radix2 (-100) <= Rabs (val f64 y) <= 0.78549.
Proof.
  intros (_ & _ & E1 & E2 & L). set (r := X - IZR n * (PI / 2)) in *. set (Y := val f64 y) in *.
  assert (P49 : bpow radix2 (-40) <= / 1000000000) by (apply Rle_trans with (bpow radix2 (-30)); [apply bpow_le; lia|change (bpow radix2 (-30)) with (/ 1073741824); lra]).
  split.
  - apply Rle_trans with (Rabs r - Rabs (Y - r)).
    + change (bpow radix2 (-26)) with (/ 67108864) in E1. change (bpow radix2 (-70)) with (/ 1180591620717411303424) in L.
      assert (bpow radix2 (-100) <= / 2361183241434822606848) by (change (/ 2361183241434822606848) with (bpow radix2 (-71)); apply bpow_le; lia). lra.
    + rewrite <- (Rabs_Ropp (Y - r)), Ropp_minus_distr. pose proof (Rabs_triang_inv r (r - Y)) as T. replace (r - (r - Y)) with Y in T by ring. lra.
  - replace Y with ((Y - r) + r) by ring. eapply Rle_trans; [apply Rabs_triang|]. lra.
Qed.
Lemma red_sin X n y : red_ok X n y -> faithful f32 (sin (X - IZR n * (PI / 2))) (rs_k_sinf y) /\ val f32 (rs_k_sinf y) <> 0.
Proof.
  intros H. pose proof (red_small X n y H) as S. destruct H as (B & Fy & E1 & E2 & L). destruct (k_sinf_acc y B Fy S) as (a & -> & Ba & Fa & Ea).
  set (r := X - IZR n * (PI / 2)) in *. set (Y := val f64 y) in *. pose proof (sin_rel r (proj2 L)) as SR.
  assert (ER : Rabs (val f64 a - sin r) <= 15 / 8 * bpow radix2 (-26) * Rabs (sin r)).
  { replace (val f64 a - sin r) with ((val f64 a - sin Y) + (sin Y - sin r)) by ring. eapply Rle_trans; [apply Rabs_triang|]. pose proof (sin_lip Y r) as LP.
    assert (Rabs Y <= Rabs r + Rabs (Y - r)) by (replace Y with (r + (Y - r)) at 1 by ring; apply Rabs_triang).
    change (bpow radix2 (-26)) with (/ 67108864) in *. change (bpow radix2 (-31)) with (/ 2147483648) in *. change (bpow radix2 (-40)) with (/ 1099511627776) in *. pose proof (Rabs_pos r).
    destruct (Rle_lt_dec (Rabs r) (/ 1024)) as [Q | Q].
    - pose proof (sin_low_abs r ltac:(lra)) as L3. set (t := Rabs r) in *. assert (t * t <= / 1048576) by nra. assert (t * t * t <= / 1048576 * t) by nra. lra.
    - lra. }
  assert (V : sin r <> 0). { intros E0. rewrite E0, Rabs_R0 in SR. pose proof (bpow_gt_0 radix2 (-70)). lra. }
  assert (M : Rabs (sin r) <= bpow radix2 100). { apply Rle_trans with 1; [pose proof (SIN_bound r); apply Rabs_le; lra|apply (bpow_le radix2 0 100); lia]. }
  assert (FA := faithful_cvt a (sin r) Ba Fa V M ER). split; [exact FA|].
  (* far above the smallest floats *)
  destruct FA as (_ & _ & D).
  assert (G : forall v, bpow radix2 (-80) <= v -> bpow radix2 (-80) <= below f32 v /\ bpow radix2 (-80) <= above f32 v).
  { intros v Hv. assert (GF : generic_format radix2 (FLT_exp (1 - bias f32 - mw f32) (mw f32 + 1)) (bpow radix2 (-80))) by (apply generic_format_bpow; vm_compute; discriminate).
    assert (VE : Valid_exp (FLT_exp (1 - bias f32 - mw f32) (mw f32 + 1))) by apply fmt_valid_exp.
    split; apply round_ge_generic; try typeclasses eauto; assumption. }
  assert (SL : bpow radix2 (-80) <= Rabs (sin r)). { eapply Rle_trans; [|exact SR]. change (bpow radix2 (-70)) with (/ 1180591620717411303424) in L. change (bpow radix2 (-80)) with (/ 1208925819614629174706176). lra. }
  pose proof (bpow_gt_0 radix2 (-80)) as B40. destruct (Rle_lt_dec 0 (sin r)) as [Q | Q].
  - rewrite Rabs_pos_eq in SL by exact Q. destruct (G _ SL). destruct D as [-> | ->]; lra.
  - rewrite Rabs_left in SL by exact Q. destruct (G _ SL) as [G1 G2]. unfold below, above in *. rewrite round_DN_opp in G1. rewrite round_UP_opp in G2. destruct D as [-> | ->]; lra.
Qed.
Lemma red_sin_odd X n y : red_ok X n y -> rs_k_sinf (fneg f64 y) = fneg f32 (rs_k_sinf y).
Proof.
  intros H. destruct (red_sin X n y H) as [(_ & Fr & _) N]. pose proof (proj1 H) as B.
  exact (rel_eq f32 true _ _ (rel_strict _ _ _ _ (k_sinf_weak_odd y B) (fun _ => N)) (finite_not_nan _ _ Fr)).
Qed.
Lemma red_cos X n y : red_ok X n y -> faithful f32 (cos (X - IZR n * (PI / 2))) (rs_k_cosf y).
Proof.
  intros H. pose proof (red_small X n y H) as S. destruct H as (B & Fy & E1 & E2 & L). destruct (k_cosf_acc y B Fy (proj2 S)) as (a & -> & Ba & Fa & Ea).
  set (r := X - IZR n * (PI / 2)) in *. set (Y := val f64 y) in *. pose proof (cos_low r (proj2 L)) as SR.
  apply faithful_cvt; [exact Ba|exact Fa|lra| |].
  - apply Rle_trans with 1; [pose proof (COS_bound r); apply Rabs_le; lra|apply (bpow_le radix2 0 100); lia].
  - replace (val f64 a - cos r) with ((val f64 a - cos Y) + (cos Y - cos r)) by ring. eapply Rle_trans; [apply Rabs_triang|]. pose proof (cos_lip Y r) as LP.
    rewrite (Rabs_pos_eq (cos r)) by lra.
    change (bpow radix2 (-26)) with (/ 67108864) in *. change (bpow radix2 (-31)) with (/ 2147483648) in *. change (bpow radix2 (-40)) with (/ 1099511627776) in *. lra.
Qed.
Lemma red_cos_even X n y : red_ok X n y -> rs_k_cosf (fneg f64 y) = rs_k_cosf y.
Proof.
  intros H. destruct (red_cos X n y H) as (_ & Fr & _). exact (rel_eq f32 false _ _ (k_cosf_even y (proj1 H)) (finite_not_nan _ _ Fr)).
Qed.
(** quadrants *)
Lemma quad X n : let r := X - IZR n * (PI / 2) in
  match (n mod 4)%Z with
  | 0%Z => sin X = sin r /\ cos X = cos r
  | 1%Z => sin X = cos r /\ cos X = - sin r
  | 2%Z => sin X = - sin r /\ cos X = - cos r
  | _ => sin X = - cos r /\ cos X = sin r
  end.
Proof.
  intros r. assert (P : forall (k : Z) x, sin (x + IZR k * (2 * PI)) = sin x /\ cos (x + IZR k * (2 * PI)) = cos x).
  { assert (PN : forall (k : nat) x, sin (x + INR k * (2 * PI)) = sin x /\ cos (x + INR k * (2 * PI)) = cos x).
    { intros k x. replace (x + INR k * (2 * PI)) with (x + 2 * INR k * PI) by ring. split; [apply sin_period|apply cos_period]. }
    intros k x. destruct (Z_le_gt_dec 0 k) as [L | L].
    - rewrite <- (Z2Nat.id k L), <- INR_IZR_INZ. apply PN.
    - destruct (PN (Z.to_nat (- k)) (x + IZR k * (2 * PI))) as [S C]. rewrite INR_IZR_INZ, Z2Nat.id, opp_IZR in S, C by lia.
      replace (x + IZR k * (2 * PI) + - IZR k * (2 * PI)) with x in S, C by ring. now rewrite S, C. }
  pose proof (Z.div_mod n 4 ltac:(lia)) as E. pose proof (Z.mod_pos_bound n 4 ltac:(lia)) as R.
  set (k := (n / 4)%Z) in *. set (m := (n mod 4)%Z) in *.
  assert (EX : X = (r + IZR m * (PI / 2)) + IZR k * (2 * PI)) by (unfold r; rewrite E at 1; rewrite plus_IZR, mult_IZR; field).
  destruct (P k (r + IZR m * (PI / 2))) as [S C]. rewrite <- EX in S, C. clearbody m r k.
  assert (D : (m = 0 \/ m = 1 \/ m = 2 \/ m = 3)%Z) by lia. destruct D as [-> | [-> | [-> | ->]]]; rewrite S, C.
  - now replace (r + 0 * (PI / 2)) with r by ring.
  - replace (r + 1 * (PI / 2)) with (PI / 2 + r) by ring. rewrite sin_plus, cos_plus, sin_PI2, cos_PI2. split; ring.
  - replace (r + 2 * (PI / 2)) with (r + PI) by field. rewrite neg_sin, neg_cos. split; ring.
  - replace (r + 3 * (PI / 2)) with ((PI / 2 + r) + PI) by field. rewrite neg_sin, neg_cos, sin_plus, cos_plus, sin_PI2, cos_PI2. split; ring.
Qed.

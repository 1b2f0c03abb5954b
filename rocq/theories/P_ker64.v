(** The double-precision kernels [k_sin] and [k_cos] on the reduced range: the last rounding starts from less than half an ulp of error. *)
From Coq Require Import ZArith Reals Lia Lra Bool List Psatz.
From Flocq Require Import Core.
From Verif Require Import Base Spec SpecAcc Format P_format Ieee P_ieee P_real P_neg P_lit P_err P_apx P_poly P_poly2 P_taylor P_acc P_kerf P_kerf2 P_red64 P_ksc M_basic M_elib M_trig.
Import ListNotations.
Open Scope R_scope.
Open Scope fl_scope.

(** ** [k_sin] *)
Definition cc (n : Z) : Z := (n * SC / 1000000)%Z.
Lemma cc_ok n : IZR (n - 1) / 1000000 <= fxr (cc n).
Proof.
  unfold fxr, cc. pose proof SC_pos. apply Rmult_le_reg_r with (IZR SC); [assumption|]. match goal with |- _ <= ?a / _ * _ => replace (a / IZR SC * IZR SC) with a by (field; lra) end.
  pose proof (Z.div_mod (n * SC) 1000000 ltac:(lia)) as D. pose proof (Z.mod_pos_bound (n * SC) 1000000 ltac:(lia)) as M.
  assert (L : ((n - 1) * SC <= 1000000 * (n * SC / 1000000))%Z) by (assert (1000000 <= SC)%Z by (vm_compute; discriminate); lia). apply IZR_le in L. rewrite !mult_IZR in L. lra.
Qed.
Lemma uu_ge n : (1 <= n)%Z -> IZR (n - 1) / 1000000 * u <= fxr (uu n).
Proof.
  intros Hn. unfold fxr, uu. pose proof SC_pos. apply Rmult_le_reg_r with (IZR SC); [assumption|]. match goal with |- _ <= ?a / _ * _ => replace (a / IZR SC * IZR SC) with a by (field; lra) end.
  pose proof (Z.div_mod (n * 2 ^ 147) 1000000 ltac:(lia)) as D. pose proof (Z.mod_pos_bound (n * 2 ^ 147) 1000000 ltac:(lia)) as M. set (k := (n * 2 ^ 147 / 1000000)%Z) in *. clearbody k.
  assert (L : ((n - 1) * 2 ^ 147 <= 1000000 * k)%Z) by lia. apply IZR_le in L. rewrite !mult_IZR in L.
  replace (IZR SC) with (IZR (2 ^ 147) * 9007199254740992) by (rewrite <- mult_IZR; f_equal). replace (IZR (n - 1) / 1000000 * u * (IZR (2 ^ 147) * 9007199254740992)) with (IZR (n - 1) * IZR (2 ^ 147) / 1000000) by field. lra.
Qed.
Lemma fxr_uu z n : (0 <= n)%Z -> (z <=? uu n)%Z = true -> fxr z <= IZR n / 1000000 * u.
Proof. intros Hn H. apply Z.leb_le, fxr_le in H. pose proof (uu_le n Hn). lra. Qed.
Ltac openlit c := let v := eval vm_compute in (litq f64 c) in change (litq f64 c) with v.
Section KSin.
Variables x y : Z.
Hypotheses (Bx : isbits f64 x) (Fx : finite f64 x = true) (By : isbits f64 y) (Fy : finite f64 y = true).
Let X := val f64 x.
Let Y := val f64 y.
Hypothesis HY : Rabs Y <= 9 / 4 * u * Rabs X.
Hypothesis HL : bpow radix2 (-100) <= Rabs X.
Lemma X_nz : X <> 0. Proof. intros E. rewrite E, Rabs_R0 in HL. pose proof (bpow_gt_0 radix2 (-100)). lra. Qed.
Lemma AP_y : AP f64 (Rabs X) y (Y / Rabs X) (- uu 2251000, uu 2251000, 0)%Z.
Proof.
  pose proof (Rabs_pos_lt X X_nz) as P. split; [now split|]. rewrite fxr_opp, fxr_0. pose proof (uu_ge 2251000 ltac:(lia)) as U. change (IZR (2251000 - 1)) with 2250999 in U.
  assert (E : Rabs X * (Y / Rabs X) = Y) by (field; lra). split.
  - assert (Q : Rabs (Y / Rabs X) <= 9 / 4 * u). { unfold Rdiv. rewrite Rabs_mult, (Rabs_pos_eq (/ Rabs X)) by (left; now apply Rinv_0_lt_compat). apply Rmult_le_reg_r with (Rabs X); [exact P|]. rewrite Rmult_assoc, Rinv_l, Rmult_1_r by lra. exact HY. }
    apply Rabs_le_inv in Q. lra.
  - change (val f64 y) with Y. rewrite E. replace (Y - Y) with 0 by ring. rewrite Rabs_R0. lra.
Qed.
Definition sinA : Z := let z := x *: x in let w := z *: z in
  let r := (rs_k_sin_S2 +: (z *: (rs_k_sin_S3 +: (z *: rs_k_sin_S4)))) +: ((z *: w) *: (rs_k_sin_S5 +: (z *: rs_k_sin_S6))) in let v := z *: x in
  ((z *: ((0x3fe0000000000000 *: y) -: (v *: r))) -: y) -: (v *: rs_k_sin_S1).
Definition sinB : Z := let z := x *: x in let w := z *: z in
  let r := (rs_k_sin_S2 +: (z *: (rs_k_sin_S3 +: (z *: rs_k_sin_S4)))) +: ((z *: w) *: (rs_k_sin_S5 +: (z *: rs_k_sin_S6))) in let v := z *: x in
  v *: (rs_k_sin_S1 +: (z *: r)).
Lemma k_sin_A : rs_k_sin x y 1 = x -: sinA.
Proof. unfold rs_k_sin, sinA. cbv zeta. change (1 =? 0)%Z with false. cbv iota. reflexivity. Qed.
Lemma k_sin_B : rs_k_sin x y 0 = x +: sinB.
Proof. unfold rs_k_sin, sinB. cbv zeta. change (0 =? 0)%Z with true. cbv iota. reflexivity. Qed.
Ltac sin_end K n := split; [exact (AP_bits _ _ _ _ _ K)|]; split; [exact (AP_fin _ _ _ _ _ K)|]; apply AP_err in K;
  match type of K with Rabs (?V - ?t) <= _ * fxr ?b => assert (FB : fxr b <= IZR n / 1000000 * u) by (apply fxr_uu; [lia|vm_compute; reflexivity]) end.
Lemma sin_close V t s g e P W : Rabs (V - t) <= s * g -> g <= e * u -> P - t = W -> 0 <= s -> Rabs (P - V - W) <= e * u * s.
Proof. intros H G <- S. replace (P - V - (P - t)) with (- (V - t)) by ring. rewrite Rabs_Ropp. assert (s * g <= s * (e * u)) by (apply Rmult_le_compat_l; assumption). lra. Qed.
Lemma sin_close2 V t s g e P W : Rabs (V - t) <= s * g -> g <= e * u -> P + t = W -> 0 <= s -> Rabs (P + V - W) <= e * u * s.
Proof. intros H G <- S. replace (P + V - (P + t)) with (V - t) by ring. assert (s * g <= s * (e * u)) by (apply Rmult_le_compat_l; assumption). lra. Qed.
Definition sinP (e : R) : Prop :=
  (isbits f64 sinA /\ finite f64 sinA = true /\ Rabs (X - val f64 sinA - (X * peval k_sin_poly (X * X) + Y * (1 - X * X / 2))) <= e * u * Rabs X) /\
  (isbits f64 sinB /\ finite f64 sinB = true /\ Rabs (X + val f64 sinB - X * peval k_sin_poly (X * X)) <= e * u * Rabs X).
Ltac sin_id := unfold peval, k_sin_poly; openlit rs_k_sin_S1; openlit rs_k_sin_S2; openlit rs_k_sin_S3; openlit rs_k_sin_S4; openlit rs_k_sin_S5; openlit rs_k_sin_S6; cbn [fst snd];
  destruct (sgn_ok X X_nz) as [E _]; pose proof (Rabs_pos_lt X X_nz); assert (EY : Rabs X * (Y / Rabs X) = Y) by (field; lra);
  set (q := Y / Rabs X) in *; set (g := sgn X) in *; set (s := Rabs X) in *; clearbody q g s; rewrite <- ?EY; clear EY; clearbody X; try rewrite <- E; field.
Lemma k_sin_big : Rabs X <= 0.785500 -> sinP (444000 / 1000000).
Proof.
  intros HU. assert (A1 : AP f64 1 x X (- cc 785501, cc 785501, 0)%Z). { apply AP_var; try assumption. rewrite fxr_opp. pose proof (cc_ok 785501) as C. change (IZR (785501 - 1)) with 785500 in C. apply Rabs_le_inv in HU. fold X. lra. }
  pose proof (scal_abs X ltac:(lra)) as HS. pose proof (AP_sgn x Bx Fx X_nz) as A0. pose proof AP_y as A3. fold X in A0, A1.
  unfold sinP, sinA, sinB. cbv zeta.
  apx f64 1%R (x *: x) Kz. set (z := x *: x) in *. clearbody z.
  apx f64 1%R (z *: z) Kw. set (w := z *: z) in *. clearbody w.
  apx f64 1%R ((rs_k_sin_S2 +: (z *: (rs_k_sin_S3 +: (z *: rs_k_sin_S4)))) +: ((z *: w) *: (rs_k_sin_S5 +: (z *: rs_k_sin_S6)))) Kr.
  set (r := (rs_k_sin_S2 +: (z *: (rs_k_sin_S3 +: (z *: rs_k_sin_S4)))) +: ((z *: w) *: (rs_k_sin_S5 +: (z *: rs_k_sin_S6)))) in *. clearbody r.
  apx f64 (Rabs X) (z *: x) Kv. set (v := z *: x) in *. clearbody v.
  split.
  - apx f64 (Rabs X) (((z *: ((0x3fe0000000000000 *: y) -: (v *: r))) -: y) -: (v *: rs_k_sin_S1)) K. set (A := ((z *: ((0x3fe0000000000000 *: y) -: (v *: r))) -: y) -: (v *: rs_k_sin_S1)) in *. clearbody A.
    sin_end K 444000%Z. eapply sin_close; [exact K|exact FB| |apply Rabs_pos]. sin_id.
  - apx f64 (Rabs X) (v *: (rs_k_sin_S1 +: (z *: r))) K. set (A := v *: (rs_k_sin_S1 +: (z *: r))) in *. clearbody A.
    sin_end K 444000%Z. eapply sin_close2; [exact K|exact FB| |apply Rabs_pos]. sin_id.
Qed.
Lemma k_sin_small : Rabs X <= 0.530000 -> sinP (222000 / 1000000).
Proof.
  intros HU. assert (A1 : AP f64 1 x X (- cc 530001, cc 530001, 0)%Z). { apply AP_var; try assumption. rewrite fxr_opp. pose proof (cc_ok 530001) as C. change (IZR (530001 - 1)) with 530000 in C. apply Rabs_le_inv in HU. fold X. lra. }
  pose proof (scal_abs X ltac:(lra)) as HS. pose proof (AP_sgn x Bx Fx X_nz) as A0. pose proof AP_y as A3. fold X in A0, A1.
  unfold sinP, sinA, sinB. cbv zeta.
  apx f64 1%R (x *: x) Kz. set (z := x *: x) in *. clearbody z.
  apx f64 1%R (z *: z) Kw. set (w := z *: z) in *. clearbody w.
  apx f64 1%R ((rs_k_sin_S2 +: (z *: (rs_k_sin_S3 +: (z *: rs_k_sin_S4)))) +: ((z *: w) *: (rs_k_sin_S5 +: (z *: rs_k_sin_S6)))) Kr.
  set (r := (rs_k_sin_S2 +: (z *: (rs_k_sin_S3 +: (z *: rs_k_sin_S4)))) +: ((z *: w) *: (rs_k_sin_S5 +: (z *: rs_k_sin_S6)))) in *. clearbody r.
  apx f64 (Rabs X) (z *: x) Kv. set (v := z *: x) in *. clearbody v.
  split.
  - apx f64 (Rabs X) (((z *: ((0x3fe0000000000000 *: y) -: (v *: r))) -: y) -: (v *: rs_k_sin_S1)) K. set (A := ((z *: ((0x3fe0000000000000 *: y) -: (v *: r))) -: y) -: (v *: rs_k_sin_S1)) in *. clearbody A.
    sin_end K 222000%Z. eapply sin_close; [exact K|exact FB| |apply Rabs_pos]. sin_id.
  - apx f64 (Rabs X) (v *: (rs_k_sin_S1 +: (z *: r))) K. set (A := v *: (rs_k_sin_S1 +: (z *: r))) in *. clearbody A.
    sin_end K 222000%Z. eapply sin_close2; [exact K|exact FB| |apply Rabs_pos]. sin_id.
Qed.
End KSin.
(** ** Adding the low part *)
Lemma cos_quad a : Rabs a <= 2 -> 1 - a * a / 2 <= cos a <= 1 - a * a / 2 + (a * a) * (a * a) / 24.
Proof.
  intros H. pose proof (cos_taylor a 0 H) as T. apply Rabs_le_inv in H. destruct (pre_cos_bound a 0 ltac:(lra) ltac:(lra)) as [L U]. unfold cos_approx in *. cbn [sum_f_R0 mult plus] in L, U. unfold cos_term in *. cbn in L, U. split; lra.
Qed.
Lemma sin_cub a : Rabs a <= 2 -> Rabs (sin a - a) <= Rabs a * (a * a) / 6.
Proof.
  assert (POS : forall a, 0 <= a <= 2 -> Rabs (sin a - a) <= Rabs a * (a * a) / 6).
  { clear a. intros a H. rewrite (Rabs_pos_eq a) by lra. destruct (pre_sin_bound a 0 ltac:(lra) ltac:(lra)) as [L U]. unfold sin_approx in *. cbn [sum_f_R0 mult plus] in L, U. unfold sin_term in *. cbn in L, U.
    assert (Q : sin a <= a). { destruct (Req_dec a 0) as [-> | N]; [rewrite sin_0; lra|]. left. apply sin_lt_x. lra. } apply Rabs_le. lra. }
  intros H. destruct (Rle_lt_dec 0 a) as [L | L]; [rewrite (Rabs_pos_eq a) in H by lra; apply POS; lra|].
  rewrite (Rabs_left a) in H by lra. specialize (POS (- a) ltac:(lra)). rewrite sin_neg, Rabs_Ropp in POS. replace (- sin a - - a) with (- (sin a - a)) in POS by ring. rewrite Rabs_Ropp in POS. replace (- a * - a) with (a * a) in POS by ring. exact POS.
Qed.
Lemma sin_add X Y : Rabs X <= 0.786 -> Rabs Y <= 1 -> Rabs (sin X + Y * (1 - X * X / 2) - sin (X + Y)) <= Y * Y + Rabs Y * (X * X * (X * X) / 24).
Proof.
  intros HX HY. rewrite sin_plus. pose proof (cos_quad X ltac:(lra)) as CX. pose proof (cos_quad Y ltac:(lra)) as CY. pose proof (sin_cub Y ltac:(lra)) as SY. pose proof (SIN_bound X) as SX. pose proof (COS_bound X) as BX. pose proof (Rabs_pos Y) as PY.
  replace (sin X + Y * (1 - X * X / 2) - (sin X * cos Y + cos X * sin Y)) with (sin X * (1 - cos Y) - cos X * (sin Y - Y) - Y * (cos X - (1 - X * X / 2))) by ring.
  assert (E1 : Rabs (sin X * (1 - cos Y)) <= Y * Y / 2). { rewrite Rabs_mult. assert (Rabs (sin X) <= 1) by (apply Rabs_le; lra). assert (0 <= 1 - cos Y <= Y * Y / 2) by (pose proof (COS_bound Y); lra). rewrite (Rabs_pos_eq (1 - cos Y)) by lra. pose proof (Rabs_pos (sin X)). nra. }
  assert (E2 : Rabs (cos X * (sin Y - Y)) <= Y * Y / 6). { rewrite Rabs_mult. assert (Rabs (cos X) <= 1) by (apply Rabs_le; lra). assert (Rabs Y * (Y * Y) <= 1 * (Y * Y)) by (apply Rmult_le_compat_r; [nra|exact HY]). pose proof (Rabs_pos (cos X)). pose proof (Rabs_pos (sin Y - Y)). nra. }
  assert (E3 : Rabs (Y * (cos X - (1 - X * X / 2))) <= Rabs Y * (X * X * (X * X) / 24)). { rewrite Rabs_mult. apply Rmult_le_compat_l; [exact PY|]. apply Rabs_le. assert (0 <= X * X * (X * X)) by (apply Rmult_le_pos; nra). lra. }
  apply Rabs_le_inv in E1, E2, E3. apply Rabs_le. assert (0 <= Y * Y) by nra. lra.
Qed.
(** the error before the last rounding *)
Lemma sin_total a X Y P r e : Rabs X <= 0.78542 -> Rabs Y <= 9 / 4 * u * Rabs X -> Rabs (X + Y - r) <= / 18446744073709551616 * Rabs X ->
  Rabs (a - (X * P + Y * (1 - X * X / 2))) <= e * u * Rabs X -> Rabs (X * P - sin X) <= 0.0431 * u * Rabs X ->
  Rabs (a - sin r) <= (e + 0.0437 + 3 / 32 * (X * X * (X * X))) * u * Rabs X.
Proof.
  intros HX HY HR HA HP. pose proof (Rabs_pos X) as PX. pose proof (Rabs_pos Y) as PY. pose proof (sin_add X Y ltac:(lra) ltac:(lra)) as S. pose proof (sin_lip (X + Y) r) as L.
  set (Q := X * X * (X * X)) in *. assert (Q0 : 0 <= Q) by (apply Rmult_le_pos; nra).
  assert (YY : Y * Y <= / 1000000000 * u * Rabs X). { replace (Y * Y) with (Rabs Y * Rabs Y) by (rewrite <- Rabs_mult, Rabs_pos_eq; [reflexivity|nra]). apply Rle_trans with (Rabs Y * (/ 10000000000 )); [apply Rmult_le_compat_l; lra|lra]. }
  assert (YQ : Rabs Y * (Q / 24) <= 9 / 4 * u * Rabs X * (Q / 24)) by (apply Rmult_le_compat_r; lra).
  replace (a - sin r) with ((a - (X * P + Y * (1 - X * X / 2))) + (X * P - sin X) + (sin X + Y * (1 - X * X / 2) - sin (X + Y)) + (sin (X + Y) - sin r)) by ring.
  revert S L HA HP HR YY YQ. generalize (sin X + Y * (1 - X * X / 2) - sin (X + Y)) (sin (X + Y) - sin r) (a - (X * P + Y * (1 - X * X / 2))) (X * P - sin X) (X + Y - r). intros t1 t2 t3 t4 t5 S L HA HP HR YY YQ.
  pose proof (Rabs_triang (t3 + t4 + t1) t2). pose proof (Rabs_triang (t3 + t4) t1). pose proof (Rabs_triang t3 t4). set (xx := Rabs X) in *. clearbody xx.
  replace ((e + 0.0437 + 3 / 32 * Q) * u * xx) with (e * u * xx + 0.0437 * u * xx + 9 / 4 * u * xx * (Q / 24)) by field. lra.
Qed.
Lemma sin_round y a X r e : isbits f64 y -> rounds_to f64 a (e) y -> Rabs a <= 1 -> bpow radix2 (-100) <= Rabs X -> Rabs X <= 0.78542 -> Rabs (X - r) <= / 1000000 * Rabs X ->
  (0.53 <= Rabs X -> Rabs (a - sin r) <= 0.53 * u * Rabs X) -> (Rabs X <= 0.53 -> Rabs (a - sin r) <= 0.28 * u * Rabs X) -> faithful f64 (sin r) y.
Proof.
  intros By RT A1 XL XU XR E1 E2. destruct (rounds_fin f64 _ _ _ RT) as [Fr Er]. { eapply Rle_trans; [exact A1|]. change 1 with (bpow radix2 0). apply bpow_le. vm_compute. discriminate. }
  split; [exact By|]. split; [exact Fr|]. rewrite Er. pose proof (bpow_gt_0 radix2 (-100)) as B0. pose proof (Rabs_triang_inv X (X - r)) as T1. replace (X - (X - r)) with r in T1 by ring. pose proof (Rabs_triang_inv r X) as T2. rewrite (Rabs_minus_sym r X) in T2.
  assert (RB : 0.99999 * Rabs X <= Rabs r <= 1.00001 * Rabs X) by lra. pose proof (sin_low_abs r ltac:(lra)) as SL.
  destruct (Rle_lt_dec 0.53 (Rabs X)) as [S | S].
  - apply near_half_abs.
    + split; [|apply Rabs_le; pose proof (SIN_bound r); lra]. assert (Rabs r * Rabs r <= 0.62) by nra. assert (Rabs r * Rabs r * Rabs r <= 0.62 * Rabs r) by (apply Rmult_le_compat_r; lra).
      destruct (Rle_lt_dec (Rabs r) 0.57); [|lra]. assert (Rabs r * Rabs r <= 0.325) by nra. assert (Rabs r * Rabs r * Rabs r <= 0.325 * Rabs r) by (apply Rmult_le_compat_r; lra). lra.
    + eapply Rle_lt_trans; [exact (E1 S)|]. change (bpow radix2 (-54)) with (/ 18014398509481984). lra.
    + change (bpow radix2 (-54)) with (/ 18014398509481984). assert (Rabs r * Rabs r <= 0.62) by nra. assert (Rabs r * Rabs r * Rabs r <= 0.62 * Rabs r) by (apply Rmult_le_compat_r; lra).
      destruct (Rle_lt_dec (Rabs r) 0.57); [|lra]. assert (Rabs r * Rabs r <= 0.325) by nra. assert (Rabs r * Rabs r * Rabs r <= 0.325 * Rabs r) by (apply Rmult_le_compat_r; lra). lra.
  - assert (Rabs r * Rabs r <= 0.3) by nra. assert (Rabs r * Rabs r * Rabs r <= 0.3 * Rabs r) by (apply Rmult_le_compat_r; lra).
    apply near; [vm_compute; discriminate| |].
    + intros E. rewrite E, Rabs_R0 in SL. lra.
    + change (- pr f64 - 2)%Z with (-55)%Z. change (bpow radix2 (-55)) with (/ 36028797018963968). specialize (E2 ltac:(lra)). lra.
Qed.
Lemma sin1 a T : Rabs (a - T) <= 0.53 * u * 0.78542 -> -0.8 <= T <= 0.8 -> Rabs a <= 1.
Proof. intros H L. apply Rabs_le_inv in H. apply Rabs_le. lra. Qed.
Lemma sin_up r : Rabs r <= 0.79 -> -0.8 <= sin r <= 0.8.
Proof. intros H. pose proof (sin_lip r 0) as L. rewrite sin_0, !Rminus_0_r in L. assert (Q : Rabs (sin r) <= 0.79) by lra. apply Rabs_le_inv in Q. lra. Qed.
Theorem k_sin_tail_ok x y r : isbits f64 x -> finite f64 x = true -> isbits f64 y -> finite f64 y = true -> bpow radix2 (-100) <= Rabs (val f64 x) <= 0.78542 -> Rabs (val f64 y) <= 9 / 4 * u * Rabs (val f64 x) ->
  Rabs (val f64 x + val f64 y - r) <= / 18446744073709551616 * Rabs (val f64 x) -> faithful f64 (sin r) (rs_k_sin x y 1).
Proof.
  intros Bx Fx By Fy [HL HU] HY HR. pose proof (bpow_gt_0 radix2 (-100)) as B0. rewrite k_sin_A.
  assert (ACC : isbits f64 (sinA x y) /\ finite f64 (sinA x y) = true /\ forall e, sinP x y e -> Rabs (val f64 x - val f64 (sinA x y) - sin r) <= (e + 0.0437 + 3 / 32 * (val f64 x * val f64 x * (val f64 x * val f64 x))) * u * Rabs (val f64 x)).
  { destruct (k_sin_big x y Bx Fx By Fy HY HL ltac:(lra)) as ((BA & FA & _) & _). split; [exact BA|]. split; [exact FA|]. intros e ((_ & _ & EA) & _). apply (sin_total _ (val f64 x) (val f64 y) (peval k_sin_poly (val f64 x * val f64 x)) r e HU HY HR EA). apply sin64_poly_err. lra. }
  destruct ACC as (BA & FA & ACC). pose proof (k_sin_big x y Bx Fx By Fy HY HL ltac:(lra)) as KB. pose proof (ACC _ KB) as E1. pose proof (fun H => ACC _ (k_sin_small x y Bx Fx By Fy HY HL H)) as E2. clear ACC KB.
  pose proof (fsub_spec f64 x (sinA x y) Fx FA) as RT. set (X := val f64 x) in *. set (Y := val f64 y) in *. pose proof (Rabs_pos Y) as PY.
  assert (Q : 0 <= X * X * (X * X) <= 0.3807). { assert (0 <= X * X <= 0.617) by (apply Rabs_le_inv in HU; nra). nra. }
  assert (XR : Rabs (X - r) <= / 1000000 * Rabs X). { replace (X - r) with ((X + Y - r) - Y) by ring. eapply Rle_trans; [apply Rabs_triang|]. rewrite Rabs_Ropp. lra. }
  assert (RU : Rabs r <= 0.79) by (pose proof (Rabs_triang_inv r X) as T; rewrite (Rabs_minus_sym r X) in T; lra).
  assert (E1' : Rabs (X - val f64 (sinA x y) - sin r) <= 0.53 * u * Rabs X). { eapply Rle_trans; [exact E1|]. apply Rmult_le_compat_r; [lra|]. apply Rmult_le_compat_r; [lra|]. lra. }
  eapply (sin_round _ _ X r); [apply fsub_isbits|exact RT| |exact HL|exact HU|exact XR|intros _; exact E1'|].
  - eapply sin1; [eapply Rle_trans; [exact E1'|apply Rmult_le_compat_l; [lra|exact HU]]|]. apply sin_up. exact RU.
  - intros S. eapply Rle_trans; [exact (E2 ltac:(lra))|]. apply Rmult_le_compat_r; [lra|]. apply Rmult_le_compat_r; [lra|]. assert (0 <= X * X <= 0.281) by (apply Rabs_le_inv in S; nra). assert (X * X * (X * X) <= 0.08) by nra. lra.
Qed.
Theorem k_sin_head_ok x : isbits f64 x -> finite f64 x = true -> bpow radix2 (-100) <= Rabs (val f64 x) <= 0.78542 -> faithful f64 (sin (val f64 x)) (rs_k_sin x 0 0).
Proof.
  intros Bx Fx [HL HU]. pose proof (bpow_gt_0 radix2 (-100)) as B0. rewrite k_sin_B. assert (B2 : isbits f64 0) by (split; [lia|reflexivity]). assert (F2 : finite f64 0 = true) by reflexivity.
  assert (V2 : val f64 0 = 0) by apply zero64. assert (HY : Rabs (val f64 0) <= 9 / 4 * u * Rabs (val f64 x)) by (rewrite V2, Rabs_R0; lra).
  assert (ACC : isbits f64 (sinB x) /\ finite f64 (sinB x) = true /\ forall e, sinP x 0 e -> Rabs (val f64 x + val f64 (sinB x) - sin (val f64 x)) <= (e + 0.0431) * u * Rabs (val f64 x)).
  { destruct (k_sin_big x 0 Bx Fx B2 F2 HY HL ltac:(lra)) as (_ & (BA & FA & _)). split; [exact BA|]. split; [exact FA|]. intros e (_ & (_ & _ & EA)). pose proof (sin64_poly_err (val f64 x) ltac:(lra)) as EP.
    revert EA EP. generalize (val f64 x * peval k_sin_poly (val f64 x * val f64 x)). intros P EA EP. replace (val f64 x + val f64 (sinB x) - sin (val f64 x)) with ((val f64 x + val f64 (sinB x) - P) + (P - sin (val f64 x))) by ring. eapply Rle_trans; [apply Rabs_triang|]. lra. }
  destruct ACC as (BA & FA & ACC). pose proof (ACC _ (k_sin_big x 0 Bx Fx B2 F2 HY HL ltac:(lra))) as E1. pose proof (fun H => ACC _ (k_sin_small x 0 Bx Fx B2 F2 HY HL H)) as E2. clear ACC.
  pose proof (fadd_spec f64 x (sinB x) Fx FA) as RT. set (X := val f64 x) in *.
  assert (E1' : Rabs (X + val f64 (sinB x) - sin X) <= 0.53 * u * Rabs X) by (eapply Rle_trans; [exact E1|]; apply Rmult_le_compat_r; lra).
  eapply (sin_round _ _ X X); [apply fadd_isbits|exact RT| |exact HL|exact HU| |intros _; exact E1'|].
  - eapply sin1; [eapply Rle_trans; [exact E1'|apply Rmult_le_compat_l; [lra|exact HU]]|]. apply sin_up. lra.
  - replace (X - X) with 0 by ring. rewrite Rabs_R0. lra.
  - intros S. eapply Rle_trans; [exact (E2 ltac:(lra))|]. apply Rmult_le_compat_r; lra.
Qed.

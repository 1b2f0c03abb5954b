(** The kernel [k_cos] in double precision. *)
From Coq Require Import ZArith Reals Lia Lra Bool List Psatz.
From Flocq Require Import Core Mult_error.
From Verif Require Import Base Spec SpecAcc Format P_format Ieee P_ieee P_real P_neg P_lit P_err P_apx P_poly P_poly2 P_taylor P_acc P_kerf P_kerf2 P_red64 P_ksc P_ker64 M_basic M_elib M_trig.
Import ListNotations.
Open Scope R_scope.
Open Scope fl_scope.

Definition cosZ (x y z : Z) : Z := let w := z *: z in
  let r := (z *: (rs_k_cos_C1 +: (z *: (rs_k_cos_C2 +: (z *: rs_k_cos_C3))))) +: ((w *: w) *: (rs_k_cos_C4 +: (z *: (rs_k_cos_C5 +: (z *: rs_k_cos_C6))))) in (z *: r) -: (x *: y).
Definition cosF (x y z : Z) : Z := let hz := 0x3fe0000000000000 *: z in let w := 0x3ff0000000000000 -: hz in w +: (((0x3ff0000000000000 -: w) -: hz) +: cosZ x y z).
Lemma k_cos_eq x y : rs_k_cos x y = cosF x y (x *: x).
Proof. unfold rs_k_cos, cosF, cosZ. cbv zeta. reflexivity. Qed.
Lemma cosZ_ok x y z : isbits f64 x -> finite f64 x = true -> isbits f64 y -> finite f64 y = true -> isbits f64 z -> finite f64 z = true -> Rabs (val f64 x) <= 0.78542 -> Rabs (val f64 y) <= 1.77 * u -> 0 <= val f64 z <= 0.617 ->
  isbits f64 (cosZ x y z) /\ finite f64 (cosZ x y z) = true /\ Rabs (val f64 (cosZ x y z) - (peval k_cos_poly (val f64 z) - 1 + val f64 z / 2 - val f64 x * val f64 y)) <= 0.0801 * u /\ Rabs (val f64 (cosZ x y z)) <= 0.0160.
Proof.
  intros Bx Fx By Fy Bz Fz HX HY HZ.
  assert (A1 : AP f64 1 x (val f64 x) (- cc 785421, cc 785421, 0)%Z). { apply AP_var; try assumption. rewrite fxr_opp. pose proof (cc_ok 785421) as C. change (IZR (785421 - 1)) with 785420 in C. apply Rabs_le_inv in HX. lra. }
  assert (A2 : AP f64 1 y (val f64 y) (- uu 1770001, uu 1770001, 0)%Z). { apply AP_var; try assumption. rewrite fxr_opp. pose proof (uu_ge 1770001 ltac:(lia)) as C. change (IZR (1770001 - 1)) with 1770000 in C. apply Rabs_le_inv in HY. lra. }
  assert (A3 : AP f64 1 z (val f64 z) (0, cc 617001, 0)%Z). { apply AP_var; try assumption. rewrite fxr_0. pose proof (cc_ok 617001) as C. change (IZR (617001 - 1)) with 617000 in C. lra. }
  unfold cosZ. cbv zeta.
  apx f64 1%R (z *: z) Kw. set (w := z *: z) in *. clearbody w.
  match goal with |- isbits f64 ?e /\ _ => apx f64 1%R e K; set (A := e) in *; clearbody A end.
  split; [exact (AP_bits _ _ _ _ _ K)|]. split; [exact (AP_fin _ _ _ _ _ K)|]. pose proof (AP_ev f64 1 _ _ _ Rlt_0_1 K) as KM. apply AP_err in K. rewrite Rmult_1_l in K, KM. set (X := val f64 x) in *. set (Y := val f64 y) in *. set (Z := val f64 z) in *. split.
  - match type of K with Rabs (_ - ?t) <= _ => replace (peval k_cos_poly Z - 1 + Z / 2 - X * Y) with t end.
    + rewrite ?Rmult_1_l in *. eapply Rle_trans; [exact K|]. match goal with |- fxr ?b <= _ => assert (FB : fxr b <= 80100 / 1000000 * u) by (apply fxr_uu; [lia|vm_compute; reflexivity]) end. lra.
    + unfold peval, k_cos_poly. openlit rs_k_cos_C1; openlit rs_k_cos_C2; openlit rs_k_cos_C3; openlit rs_k_cos_C4; openlit rs_k_cos_C5; openlit rs_k_cos_C6. cbn [fst snd]. field.
  - eapply Rle_trans; [exact KM|]. rewrite <- fxr_add. match goal with |- fxr ?b <= _ => assert (FB : fxr b <= fxr (cc 16000)) by (apply fxr_le; vm_compute; discriminate) end. eapply Rle_trans; [exact FB|].
    unfold fxr, cc. pose proof (fdiv_le (16000 * SC) 1000000 ltac:(lia)) as F. rewrite fdv_eq, mult_IZR in F. pose proof SC_pos. apply Rmult_le_reg_r with (IZR SC); [assumption|]. match goal with |- ?a / _ * _ <= _ => replace (a / IZR SC * IZR SC) with a by (field; lra) end. lra.
Qed.
(** rounding below one *)
Lemma rnd_one a : Rabs a <= 1 -> Rabs (rnd f64 a - a) <= bpow radix2 (-54).
Proof.
  intros H. assert (LT : Rabs a < 1 \/ Rabs a = 1) by lra. destruct LT as [L | E].
  - unfold rnd. eapply Rle_trans; [apply error_le_half_ulp; apply fmt_valid_exp|]. assert (U : ulp radix2 (fexpF f64) a <= bpow radix2 (-53)).
    { pose proof (fmt_valid_exp f64) as VE. assert (ME : Monotone_exp (fexpF f64)) by apply FLT_exp_monotone. apply Rle_trans with (ulp radix2 (fexpF f64) (bpow radix2 (-1))).
      - destruct (Rle_lt_dec (Rabs a) (bpow radix2 (-1))) as [Q | Q]; [apply (ulp_le radix2 (fexpF f64) a (bpow radix2 (-1))); rewrite (Rabs_pos_eq (bpow radix2 (-1))) by apply bpow_ge_0; exact Q|]. right. rewrite !ulp_neq_0. 2:{ pose proof (bpow_gt_0 radix2 (-1)). lra. } 2:{ intros E. rewrite E, Rabs_R0 in Q. pose proof (bpow_gt_0 radix2 (-1)). lra. }
        f_equal. unfold cexp. f_equal. rewrite mag_bpow. apply mag_unique. split; [left; exact Q|]. exact L.
      - rewrite ulp_bpow. apply bpow_le. vm_compute. discriminate. }
    unfold rnd, fexpF in *. apply Rle_trans with (/ 2 * bpow radix2 (-53)); [apply Rmult_le_compat_l; [lra|exact U]|]. right. change (-53)%Z with (1 + -54)%Z. rewrite bpow_plus. change (bpow radix2 1) with 2. field.
  - assert (R : repr f64 a). { destruct (Rle_lt_dec 0 a); [rewrite Rabs_pos_eq in E by lra|rewrite Rabs_left in E by lra; replace a with (- - a) by ring; apply repr_opp; replace (- a) with 1 by lra]; [rewrite E|]; apply (repr_bpow f64 0); cbn; lia. }
    rewrite (repr_rnd _ _ R). replace (a - a) with 0 by ring. rewrite Rabs_R0. apply bpow_ge_0.
Qed.
Lemma cos_sq a b : Rabs (cos a - cos b) <= Rabs (a * a - b * b) / 2.
Proof.
  rewrite form2. assert (S : forall t, Rabs (sin t) <= Rabs t) by (intros t; pose proof (sin_lip t 0) as L; now rewrite sin_0, !Rminus_0_r in L).
  rewrite !Rabs_mult. replace (Rabs (-2)) with 2 by (rewrite Rabs_left; lra). replace (a * a - b * b) with (4 * (((a - b) / 2) * ((a + b) / 2))) by field. rewrite !Rabs_mult, (Rabs_pos_eq 4) by lra.
  pose proof (S ((a - b) / 2)) as S1. pose proof (S ((a + b) / 2)) as S2. pose proof (Rabs_pos (sin ((a - b) / 2))). pose proof (Rabs_pos (sin ((a + b) / 2))).
  assert (Rabs (sin ((a - b) / 2)) * Rabs (sin ((a + b) / 2)) <= Rabs ((a - b) / 2) * Rabs ((a + b) / 2)) by (apply Rmult_le_compat; assumption). lra.
Qed.
Lemma cos_add X Y : Rabs X <= 0.786 -> Rabs Y <= 1 -> Rabs (cos X - X * Y - cos (X + Y)) <= Y * Y + Rabs Y * (Rabs X * (X * X) / 6).
Proof.
  intros HX HY. rewrite cos_plus. pose proof (cos_quad Y ltac:(lra)) as CY. pose proof (sin_cub Y ltac:(lra)) as SY. pose proof (sin_cub X ltac:(lra)) as SX. pose proof (SIN_bound X) as BX. pose proof (COS_bound X) as DX. pose proof (Rabs_pos Y) as PY.
  replace (cos X - X * Y - (cos X * cos Y - sin X * sin Y)) with (cos X * (1 - cos Y) + sin X * (sin Y - Y) + Y * (sin X - X)) by ring.
  assert (E1 : Rabs (cos X * (1 - cos Y)) <= Y * Y / 2). { rewrite Rabs_mult. assert (Rabs (cos X) <= 1) by (apply Rabs_le; lra). assert (0 <= 1 - cos Y <= Y * Y / 2) by (pose proof (COS_bound Y); lra). rewrite (Rabs_pos_eq (1 - cos Y)) by lra. pose proof (Rabs_pos (cos X)). nra. }
  assert (E2 : Rabs (sin X * (sin Y - Y)) <= Y * Y / 6). { rewrite Rabs_mult. assert (Rabs (sin X) <= 1) by (apply Rabs_le; lra). assert (Rabs Y * (Y * Y) <= 1 * (Y * Y)) by (apply Rmult_le_compat_r; [nra|exact HY]). pose proof (Rabs_pos (sin X)). pose proof (Rabs_pos (sin Y - Y)). nra. }
  assert (E3 : Rabs (Y * (sin X - X)) <= Rabs Y * (Rabs X * (X * X) / 6)) by (rewrite Rabs_mult; apply Rmult_le_compat_l; assumption).
  apply Rabs_le_inv in E1, E2, E3. apply Rabs_le. assert (0 <= Y * Y) by nra. lra.
Qed.
(** all errors before the last rounding *)
Lemma cos_total v E w c d hz Z P X Y r : Rabs X <= 0.78542 -> Rabs Y <= 9 / 4 * u * Rabs X -> Rabs (X + Y - r) <= / 18446744073709551616 * Rabs X ->
  v = w + c -> Rabs (c - (d + E)) <= u * (Rabs (d + E)) + / 1000000 * u -> d = 1 - hz - w -> hz = Z / 2 -> Rabs d <= u -> Rabs E <= 0.0160 ->
  Rabs (E - (P - 1 + Z / 2 - X * Y)) <= 0.0801 * u -> Rabs (P - cos X) <= 0.0091 * u + u / 4 -> Rabs (v - cos r) < u / 2.
Proof.
  intros HX HY HR -> HC HD Hh D1 E1 EE HP. pose proof (Rabs_pos X) as PX. pose proof (Rabs_pos Y) as PY. pose proof (cos_add X Y ltac:(lra) ltac:(lra)) as S. pose proof (cos_lip (X + Y) r) as L.
  assert (YY : Y * Y <= / 1000000000 * u). { replace (Y * Y) with (Rabs Y * Rabs Y) by (rewrite <- Rabs_mult, Rabs_pos_eq; [reflexivity|nra]). apply Rle_trans with (Rabs Y * (/ 10000000000)); [apply Rmult_le_compat_l; lra|lra]. }
  assert (XX : X * X <= 0.616885) by (apply Rabs_le_inv in HX; nra). assert (X0 : 0 <= X * X) by nra.
  assert (XC : Rabs X * (X * X) / 6 <= 0.080753). { assert (Rabs X * (X * X) <= 0.78542 * 0.616885) by (apply Rmult_le_compat; lra). lra. }
  assert (YQ : Rabs Y * (Rabs X * (X * X) / 6) <= 1.767195 * u * 0.080753). { apply Rmult_le_compat; [lra| |lra|exact XC]. assert (0 <= Rabs X * (X * X)) by (apply Rmult_le_pos; lra). lra. }
  assert (DE : Rabs (d + E) <= 0.0161) by (eapply Rle_trans; [apply Rabs_triang|lra]).
  replace (w + c - cos r) with ((c - (d + E)) + (E - (P - 1 + Z / 2 - X * Y)) + (P - cos X) + (cos X - X * Y - cos (X + Y)) + (cos (X + Y) - cos r)) by (rewrite HD, Hh; field).
  revert HC EE HP S L DE HR. generalize (c - (d + E)). generalize (E - (P - 1 + Z / 2 - X * Y)) (P - cos X) (cos X - X * Y - cos (X + Y)) (cos (X + Y) - cos r) (d + E) (X + Y - r). intros t2 t3 t4 t5 t6 t7 t1 HC EE HP S L DE HR.
  pose proof (Rabs_triang (t1 + t2 + t3 + t4) t5). pose proof (Rabs_triang (t1 + t2 + t3) t4). pose proof (Rabs_triang (t1 + t2) t3). pose proof (Rabs_triang t1 t2).
  clear - HX HC EE HP S L DE HR YY YQ H H0 H1 H2. set (q := Rabs Y * (Rabs X * (X * X) / 6)) in *. set (p := Y * Y) in *. set (x := Rabs X) in *. clearbody p q x. lra.
Qed.
Theorem k_cos_ok x y r : isbits f64 x -> finite f64 x = true -> isbits f64 y -> finite f64 y = true -> bpow radix2 (-100) <= Rabs (val f64 x) <= 0.78542 -> Rabs (val f64 y) <= 9 / 4 * u * Rabs (val f64 x) ->
  Rabs (val f64 x + val f64 y - r) <= / 18446744073709551616 * Rabs (val f64 x) -> faithful f64 (cos r) (rs_k_cos x y).
Proof.
  intros Bx Fx By Fy [HL HU] HY HR. rewrite k_cos_eq. set (X := val f64 x) in *. set (Y := val f64 y) in *. pose proof (Rabs_pos X) as PX. pose proof (Rabs_pos Y) as PY.
  assert (XX : 0 <= X * X <= 0.616885) by (apply Rabs_le_inv in HU; nra).
  destruct (mul64 x x 1 Fx Fx) as [Fz Ez]; [fold X; rewrite Rabs_pos_eq; lra|apply big1000; lra|]. fold X in Ez.
  assert (Bz : isbits f64 (x *: x)) by apply fmul_isbits. set (z := x *: x) in *. clearbody z. set (Z := val f64 z) in *.
  assert (ZX : Rabs (Z - X * X) <= bpow radix2 (-54)) by (rewrite Ez; apply rnd_one; rewrite Rabs_pos_eq; lra).
  assert (HZ : 0 <= Z <= 0.617). { split; [rewrite Ez; apply rnd_nonneg; lra|]. change (bpow radix2 (-54)) with (/ 18014398509481984) in ZX. apply Rabs_le_inv in ZX. lra. }
  destruct (cosZ_ok x y z Bx Fx By Fy Bz Fz HU ltac:(fold Y; lra) HZ) as (BE & FE & EE & ME). unfold cosF. cbv zeta. set (e := cosZ x y z) in *. clearbody e. fold X Y Z in EE.
  assert (VH : val f64 0x3fe0000000000000 = / 2) by (assert (val f64 0x3fe0000000000000 = 1 / 2)%R as -> by lit; lra).
  destruct (mul64 0x3fe0000000000000 z 1 ltac:(reflexivity) Fz) as [Fh Eh]; [rewrite VH, Rabs_pos_eq; fold Z; lra|apply big1000; lra|]. fold Z in Eh. rewrite VH in Eh.
  assert (ZL : bpow radix2 (-200) <= Z).
  { rewrite Ez, <- (repr_rnd f64 (bpow radix2 (-200))) by (apply repr_bpow; cbn; lia). apply rnd_le. replace (X * X) with (Rabs X * Rabs X) by (rewrite <- Rabs_mult, Rabs_pos_eq; lra). change (-200)%Z with (-100 + -100)%Z. rewrite bpow_plus. pose proof (bpow_ge_0 radix2 (-100)). apply Rmult_le_compat; assumption. }
  assert (RH : rnd f64 (/ 2 * Z) = Z / 2).
  { rewrite repr_rnd; [field|]. rewrite Rmult_comm. change (/ 2) with (bpow radix2 (-1)). apply mult_bpow_exact_FLT; [apply (repr_val f64 z Fz)|]. change (1 - bias f64 - mw f64 + (mw f64 + 1))%Z with (-1021)%Z.
    assert (mag radix2 Z > -200)%Z. { apply Z.lt_gt. apply (mag_gt_bpow radix2). rewrite Rabs_pos_eq by lra. exact ZL. } lia. }
  rewrite RH in Eh. assert (Bh : isbits f64 (0x3fe0000000000000 *: z)) by apply fmul_isbits. set (hz := 0x3fe0000000000000 *: z) in *. clearbody hz. clear RH VH.
  assert (B1 : isbits f64 0x3ff0000000000000) by (split; [lia|reflexivity]). assert (F1 : finite f64 0x3ff0000000000000 = true) by reflexivity. assert (V1 : val f64 0x3ff0000000000000 = 1) by apply one64.
  destruct (two_sub 0x3ff0000000000000 hz B1 F1 Fh) as (Fs & Fd & Ed & Es); [rewrite V1, Rabs_R1; lra|rewrite Eh, Rabs_pos_eq; lra|left; rewrite V1, Eh, Rabs_R1, Rabs_pos_eq; lra|].
  set (w := 0x3ff0000000000000 -: hz) in *. assert (Bd : isbits f64 ((0x3ff0000000000000 -: w) -: hz)) by apply fsub_isbits. set (d := (0x3ff0000000000000 -: w) -: hz) in *. rewrite V1 in Ed, Es.
  assert (Ew : Rabs (val f64 w - (1 - val f64 hz)) <= bpow radix2 (-54)) by (rewrite Es; apply rnd_one; rewrite Eh, Rabs_pos_eq; lra).
  assert (HD : Rabs (val f64 d) <= u). { rewrite Ed, Rabs_minus_sym. eapply Rle_trans; [exact Ew|]. change (bpow radix2 (-54)) with (/ 18014398509481984). lra. }
  assert (HDE : Rabs (val f64 d + val f64 e) <= 0.02) by (eapply Rle_trans; [apply Rabs_triang|lra]).
  destruct (add64 d e 1 Fd FE ltac:(lra) ltac:(apply big1000; lra)) as [Fc Ec]. pose proof (rnd64_err (val f64 d + val f64 e)) as Rc. rewrite <- Ec in Rc. pose proof tiny200 as T2.
  clearbody w d. pose proof (fadd_spec f64 w (d +: e) Fs Fc) as RT. set (c := d +: e) in *. clearbody c.
  assert (TOT : Rabs (val f64 w + val f64 c - cos r) < u / 2).
  { apply (cos_total _ (val f64 e) (val f64 w) (val f64 c) (val f64 d) (val f64 hz) Z (peval k_cos_poly Z) X Y r); try assumption; try reflexivity.
    - eapply Rle_trans; [exact Rc|]. apply Rplus_le_compat_l. lra.
    - assert (SZ : sqrt Z * sqrt Z = Z) by (apply sqrt_sqrt; lra). assert (S0 : 0 <= sqrt Z) by apply sqrt_pos. assert (SU : Rabs (sqrt Z) <= 0.786) by (rewrite Rabs_pos_eq by exact S0; apply Rsqr_incr_0_var; [unfold Rsqr; lra|lra]).
      pose proof (cos64_poly_err (sqrt Z) SU) as P1. rewrite SZ in P1. pose proof (cos_sq (sqrt Z) X) as P2. rewrite SZ in P2. change (bpow radix2 (-54)) with (/ 18014398509481984) in ZX.
      replace (peval k_cos_poly Z - cos X) with ((peval k_cos_poly Z - cos (sqrt Z)) + (cos (sqrt Z) - cos X)) by ring. eapply Rle_trans; [apply Rabs_triang|]. lra. }
  assert (XR : Rabs (X - r) <= / 1000000 * Rabs X). { replace (X - r) with ((X + Y - r) - Y) by ring. eapply Rle_trans; [apply Rabs_triang|]. rewrite Rabs_Ropp. lra. }
  assert (RU : Rabs r <= 0.786) by (pose proof (Rabs_triang_inv r X) as T; rewrite (Rabs_minus_sym r X) in T; lra).
  assert (CL : 0.69 <= cos r <= 1). { pose proof (COS_bound r). split; [|lra]. pose proof (cos_quad r ltac:(lra)) as [Q _]. assert (r * r <= 0.618) by (clear - RU; apply Rabs_le_inv in RU; nra). lra. }
  destruct (rounds_fin f64 _ _ _ RT) as [Fr Er]. { apply Rle_trans with 2; [apply Rabs_def2 in TOT; apply Rabs_le; lra|]. change 2 with (bpow radix2 1). apply bpow_le. vm_compute. discriminate. }
  split; [apply fadd_isbits|]. split; [exact Fr|]. rewrite Er. assert (HB : bpow radix2 (-54) = u / 2) by (change (bpow radix2 (-54)) with (/ 18014398509481984); lra).
  apply near_half_abs; [rewrite Rabs_pos_eq; lra|rewrite HB; exact TOT|rewrite HB, Rabs_pos_eq; lra].
Qed.

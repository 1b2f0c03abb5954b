(** [tanf] is faithfully rounded. *)
From Coq Require Import ZArith Reals Lia Lra Bool List Psatz.
From Flocq Require Import Core.
From Verif Require Import Base Spec SpecFun SpecAcc Format P_format Ieee P_ieee P_real P_lit P_neg M_basic M_elib M_rempio2 M_trig
  P_elem P_elem2 P_tot P_sym P_err P_poly P_acc P_kerf P_kerf2 P_medf P_smallf P_rplf P_trigf P_poly2 P_tanf.
Open Scope R_scope.
(** relative error of the tangent, reduction included *)
Lemma tan_num (Y r c cr t s d : R) : 0 <= Y <= 0.78549 -> 0 <= r <= 0.785399 -> 0 <= d -> Y <= r + d -> r <= Y + d -> d <= 3 / 2 * / 67108864 * r -> d <= / 1099511627776 ->
  1 / 2 <= cr <= 1 -> cr - / 1099511627776 <= c <= cr + / 1099511627776 -> 1 - r * r / 2 <= cr ->
  0 <= t <= 24 / 1000000000 * (1 - Y * Y / 6) -> (r <= / 100 -> t <= / 2147483648) -> r - r * r * r / 6 <= s -> 0.89 * r <= s ->
  Y * (t + / 1000000000000 + / 35184372088832) * cr + d <= 26 / 1000000000 * s * c.
Proof.
  intros HY HR D0 D1 D1' D2 D3 HC HC2 HC3 T1 T2 S1 S2.
  set (k := / 1000000000000 + / 35184372088832). assert (K : 0 <= k <= 1.1 / 1000000000000) by (unfold k; lra).
  replace (Y * (t + / 1000000000000 + / 35184372088832) * cr) with (Y * t * cr + k * Y * cr) by (unfold k; ring).
  assert (N1 : k * Y * cr <= 1.2 / 1000000000000 * r).
  { assert (Y * cr <= 1.01 * r * 1) by (apply Rmult_le_compat; lra). assert (0 <= Y * cr) by (apply Rmult_le_pos; lra). assert (k * (Y * cr) <= 1.1 / 1000000000000 * (1.01 * r * 1)) by (apply Rmult_le_compat; lra). lra. }
  assert (S0 : 0 <= s) by lra.
  assert (SC : s * cr - / 1000000000000 * s <= s * c) by (assert (s * (cr - / 1000000000000) <= s * c) by (apply Rmult_le_compat_l; lra); lra).
  destruct (Rle_lt_dec r (/ 100)) as [Q | Q].
  - specialize (T2 Q). assert (N2 : Y * t * cr <= 1.01 * r * / 2147483648) by (assert (Y * t <= 1.01 * r * / 2147483648) by (apply Rmult_le_compat; lra); assert (0 <= Y * t) by (apply Rmult_le_pos; lra); assert (Y * t * cr <= Y * t * 1) by (apply Rmult_le_compat_l; lra); lra).
    assert (R2 : r * r <= / 100 * / 100) by (apply Rmult_le_compat; lra). assert (R3 : r * r * r <= / 100 * / 100 * r) by (apply Rmult_le_compat_r; lra). assert (SS : 0.99998 * r <= s) by lra. assert (CC : 0.9999 <= c) by lra.
    assert (0.99998 * r * 0.9999 <= s * c) by (apply Rmult_le_compat; lra). lra.
  - assert (N2 : Y * t <= Y * (24 / 1000000000 * (1 - Y * Y / 6))) by (apply Rmult_le_compat_l; lra). replace (Y * (24 / 1000000000 * (1 - Y * Y / 6))) with (24 / 1000000000 * (Y - Y * Y * Y / 6)) in N2 by field.
    (* Y - Y^3/6 <= s + d *)
    assert (N3 : Y - Y * Y * Y / 6 <= s + d).
    { assert (G : (Y - Y * Y * Y / 6) - (r - r * r * r / 6) = (Y - r) * (1 - (Y * Y + Y * r + r * r) / 6)) by field.
      assert (Q1 : 0 <= Y * Y <= 1) by (clear -HY; nra). assert (Q2 : 0 <= r * r <= 1) by (clear -HR; nra). assert (Q3 : 0 <= Y * r <= 1) by (clear -HY HR; nra). set (w := 1 - (Y * Y + Y * r + r * r) / 6) in *. assert (W : 0 <= w <= 1) by (unfold w; lra). assert ((Y - r) * w <= d) by (clear -W D1 D0; destruct (Rle_lt_dec Y r); nra). lra. }
    assert (0 <= Y - Y * Y * Y / 6) by (clear -HY; assert (Y * Y <= 1) by nra; nra).
    assert (N4 : Y * t * cr <= 24 / 1000000000 * (s + d) * cr) by (apply Rmult_le_compat_r; lra). assert (N5 : d * cr <= d * 1) by (apply Rmult_le_compat_l; lra).
    assert (s * / 2 <= s * cr) by (apply Rmult_le_compat_l; lra). lra.
Qed.
Lemma tan_rel_err (V Y r : R) : Rabs Y <= 0.78549 -> Rabs (V - Y * peval k_tanf_poly (Y * Y)) <= bpow radix2 (-45) * Rabs Y ->
  Rabs (Y - r) <= 3 / 2 * bpow radix2 (-26) * Rabs r -> Rabs (Y - r) <= bpow radix2 (-40) -> Rabs r <= 0.785399 ->
  Rabs (V * cos r - sin r) <= 26 / 1000000000 * Rabs (sin r).
Proof.
  intros HY HV E1 E2 HR. destruct (tan_poly_err Y HY) as [TP _]. pose proof (sq_617 Y HY) as ZY.
  change (bpow radix2 (-26)) with (/ 67108864) in E1. change (bpow radix2 (-40)) with (/ 1099511627776) in E2. change (bpow radix2 (-45)) with (/ 35184372088832) in HV.
  pose proof (Rabs_pos Y) as PY. pose proof (Rabs_pos r) as Pr.
  assert (AYr : Rabs Y <= Rabs r + Rabs (Y - r)) by (replace Y with (r + (Y - r)) at 1 by ring; apply Rabs_triang).
  assert (ArY : Rabs r <= Rabs Y + Rabs (Y - r)) by (replace r with (Y + - (Y - r)) at 1 by ring; eapply Rle_trans; [apply Rabs_triang|rewrite Rabs_Ropp; lra]).
  pose proof (cos_low r HR) as CL. pose proof (COS_bound r) as [_ CU].
  assert (CY : Rabs (cos Y - cos r) <= / 1099511627776) by (pose proof (cos_lip Y r); lra). apply Rabs_le_inv in CY.
  assert (D1 : Rabs (V * cos Y - sin Y) <= Rabs Y * (Rabs (tanP (Y * Y)) + / 1000000000000 + / 35184372088832)).
  { replace (V * cos Y - sin Y) with ((V - Y * peval k_tanf_poly (Y * Y)) * cos Y + (Y * peval k_tanf_poly (Y * Y) * cos Y - sin Y)) by ring.
    eapply Rle_trans; [apply Rabs_triang|]. rewrite Rabs_mult. assert (Rabs (cos Y) <= 1) by (pose proof (COS_bound Y); apply Rabs_le; lra). pose proof (Rabs_pos (V - Y * peval k_tanf_poly (Y * Y))).
    set (q := Rabs (V - Y * peval k_tanf_poly (Y * Y))) in *. assert (q * Rabs (cos Y) <= q * 1) by (apply Rmult_le_compat_l; lra). lra. }
  assert (D2 : Rabs (sin Y * cos r - cos Y * sin r) <= Rabs (Y - r)).
  { rewrite <- sin_minus. pose proof (sin_lip (Y - r) 0) as L. rewrite sin_0, !Rminus_0_r in L. exact L. }
  assert (D3 : Rabs (V * cos r - sin r) * cos Y <= Rabs (V * cos Y - sin Y) * cos r + Rabs (Y - r)).
  { rewrite <- (Rabs_pos_eq (cos Y)) at 1 by lra. rewrite <- Rabs_mult. replace ((V * cos r - sin r) * cos Y) with ((V * cos Y - sin Y) * cos r + (sin Y * cos r - cos Y * sin r)) by ring.
    eapply Rle_trans; [apply Rabs_triang|]. rewrite Rabs_mult, (Rabs_pos_eq (cos r)) by lra. lra. }
  assert (C2 : 1 - Rabs r * Rabs r / 2 <= cos r).
  { replace (cos r) with (cos (2 * (r / 2))) by (f_equal; field). rewrite cos_2a_sin. pose proof (sin_lip (r / 2) 0) as L. rewrite sin_0, !Rminus_0_r in L. unfold Rdiv in L at 2. rewrite Rabs_mult, (Rabs_pos_eq (/ 2)) in L by lra.
    assert (SQ : sin (r / 2) * sin (r / 2) = Rabs (sin (r / 2)) * Rabs (sin (r / 2))) by (rewrite <- Rabs_mult; symmetry; apply Rabs_pos_eq; apply Rle_0_sqr).
    pose proof (Rabs_pos (sin (r / 2))). assert (Rabs (sin (r / 2)) * Rabs (sin (r / 2)) <= Rabs r * / 2 * (Rabs r * / 2)) by (apply Rmult_le_compat; lra). lra. }
  assert (YY : Y * Y = Rabs Y * Rabs Y) by (rewrite <- Rabs_mult; symmetry; apply Rabs_pos_eq; apply ZY).
  apply (Rmult_le_reg_r (cos Y)); [lra|]. eapply Rle_trans; [exact D3|]. eapply Rle_trans; [apply Rplus_le_compat_r, Rmult_le_compat_r; [lra|exact D1]|].
  apply (tan_num (Rabs Y) (Rabs r) (cos Y) (cos r) (Rabs (tanP (Y * Y))) (Rabs (sin r)) (Rabs (Y - r))); try lra; try (split; lra).
  - split; [apply Rabs_pos|]. rewrite <- YY. apply tanP_err. exact ZY.
  - intros Q. apply tanP_small. split; [apply ZY|]. rewrite YY. assert (Rabs Y <= 0.0101) by lra. nra.
  - apply sin_low_abs. lra.
  - apply sin_rel. exact HR.
Qed.

Lemma tan_quad X n : let r := X - IZR n * (PI / 2) in cos r <> 0 -> sin r <> 0 -> tan X = if (n mod 2 =? 0)%Z then sin r / cos r else - (cos r / sin r).
Proof.
  intros r C S. pose proof (quad X n) as Q. cbv zeta in Q. fold r in Q. unfold tan. pose proof (Z.mod_pos_bound n 4 ltac:(lia)) as R. assert (M : (n mod 2 = (n mod 4) mod 2)%Z) by (rewrite <- Znumtheory.Zmod_div_mod; try lia; exists 2%Z; reflexivity).
  rewrite M. set (m := (n mod 4)%Z) in *. clearbody m. assert (D : (m = 0 \/ m = 1 \/ m = 2 \/ m = 3)%Z) by lia. destruct D as [-> | [-> | [-> | ->]]]; destruct Q as [-> ->].
  - change (0 mod 2 =? 0)%Z with true. reflexivity.
  - change (1 mod 2 =? 0)%Z with false. cbv iota. field. exact S.
  - change (2 mod 2 =? 0)%Z with true. cbv iota. field. exact C.
  - change (3 mod 2 =? 0)%Z with false. cbv iota. field. exact S.
Qed.
(** division in double precision *)
Lemma div64 a b m : finite f64 a = true -> finite f64 b = true -> val f64 b <> 0 -> Rabs (val f64 a / val f64 b) <= m -> m <= bpow radix2 1000 -> finite f64 (fdiv f64 a b) = true /\ val f64 (fdiv f64 a b) = rnd f64 (val f64 a / val f64 b).
Proof. intros Fa Fb N H M. apply (rounds_fin f64 _ _ _ (fdiv_spec f64 a b Fa Fb N)). eapply Rle_trans; [exact H|]. eapply Rle_trans; [exact M|]. apply bpow_le. vm_compute. discriminate. Qed.
Lemma red_tan X n y odd : red_ok X n y -> odd = negb (n mod 2 =? 0)%Z -> faithful f32 (tan X) (rs_k_tanf y odd).
Proof.
  intros H EO. pose proof (red_small X n y H) as S. destruct H as (B & Fy & E1 & E2 & L). destruct (k_tanf_acc y B Fy S) as (a & EK & Ba & Fa & Ea). rewrite k_tanf_body_eq, <- EK.
  cbv zeta in E1, E2, L. pose proof (tan_quad X n) as TQ. cbv zeta in TQ. set (r := X - IZR n * (PI / 2)) in *.
  pose proof (tan_rel_err _ _ r (proj2 S) Ea E1 E2 (proj2 L)) as T. pose proof (cos_low r (proj2 L)) as C. pose proof (COS_bound r) as [_ C1]. pose proof (sin_rel r (proj2 L)) as SR. pose proof (SIN_bound r) as SB.
  assert (SP : bpow radix2 (-71) <= Rabs (sin r)). { eapply Rle_trans; [|exact SR]. change (bpow radix2 (-70)) with (/ 1180591620717411303424) in L. change (bpow radix2 (-71)) with (/ 2361183241434822606848). lra. }
  pose proof (bpow_gt_0 radix2 (-71)) as B71. assert (SN : sin r <> 0) by (intros E; rewrite E, Rabs_R0 in SP; lra). specialize (TQ ltac:(lra) SN).
  set (V := val f64 a) in *. set (s := sin r) in *. set (c := cos r) in *. assert (S1 : Rabs s <= 1) by (apply Rabs_le; lra).
  assert (IS : / Rabs s <= bpow radix2 71) by (replace (bpow radix2 71) with (/ bpow radix2 (-71)) by (rewrite <- bpow_opp; reflexivity); apply Rinv_le; assumption).
  assert (M71 : bpow radix2 71 <= bpow radix2 100) by (apply bpow_le; lia). rewrite EO, TQ. destruct (Z.eqb_spec (n mod 2) 0) as [Q | Q]; cbn [negb].
  - apply faithful_cvt; [exact Ba|exact Fa| | |].
    + intros E. apply SN. replace s with (s / c * c) by (field; lra). rewrite E. ring.
    + unfold Rdiv. rewrite Rabs_mult, (Rabs_pos_eq (/ c)) by (apply Rlt_le, Rinv_0_lt_compat; lra). assert (/ c <= 2) by (replace 2 with (/ (/ 2)) by field; apply Rinv_le; lra).
      assert (0 < / c) by (apply Rinv_0_lt_compat; lra). pose proof (Rabs_pos s). apply Rle_trans with (1 * 2); [apply Rmult_le_compat; lra|]. rewrite Rmult_1_l. change 2 with (bpow radix2 1). apply bpow_le. lia.
    + fold V. replace (V - s / c) with ((V * c - s) / c) by (field; lra). unfold Rdiv. rewrite !Rabs_mult. change (bpow radix2 (-26)) with (/ 67108864). pose proof (Rabs_pos (/ c)). pose proof (Rabs_pos s).
      assert (Rabs (V * c - s) * Rabs (/ c) <= 26 / 1000000000 * Rabs s * Rabs (/ c)) by (apply Rmult_le_compat_r; lra). assert (0 <= Rabs s * Rabs (/ c)) by (apply Rmult_le_pos; lra). lra.
  - (* -1 / V *)
    assert (VC : (1 - 26 / 1000000000) * Rabs s <= Rabs (V * c)). { pose proof (Rabs_triang_inv s (s - V * c)) as TI. replace (s - (s - V * c)) with (V * c) in TI by ring. rewrite (Rabs_minus_sym s) in TI. lra. }
    rewrite Rabs_mult, (Rabs_pos_eq c) in VC by lra. pose proof (Rabs_pos V) as PV.
    assert (VL : (1 - 26 / 1000000000) * Rabs s <= Rabs V) by nra. assert (PVs : 0 < Rabs V) by nra. assert (VN : V <> 0) by (intros E; rewrite E, Rabs_R0 in PVs; lra).
    assert (VU : Rabs V <= 3). { assert (Rabs (V * c) <= 1.1). { replace (V * c) with ((V * c - s) + s) by ring. eapply Rle_trans; [apply Rabs_triang|]. lra. } rewrite Rabs_mult, (Rabs_pos_eq c) in H by lra. nra. }
    assert (IV : / Rabs V <= 2 * / Rabs s). { replace (2 * / Rabs s) with (/ (Rabs s / 2)) by (field; lra). apply Rinv_le; lra. }
    assert (EM1 : val f64 0xbff0000000000000 = -1) by (assert (val f64 0xbff0000000000000 = (-1 / 1)) as -> by lit; field).
    destruct (div64 0xbff0000000000000 a (bpow radix2 72) ltac:(vm_compute; reflexivity) Fa VN) as [FD ED].
    { rewrite EM1. fold V. unfold Rdiv. rewrite Rabs_mult, (Rabs_left (-1)), Rabs_inv by (exact VN || lra). replace (bpow radix2 72) with (2 * bpow radix2 71) by (change 2 with (bpow radix2 1); rewrite <- bpow_plus; reflexivity). lra. }
    { apply bpow_le. lia. }
    rewrite EM1 in ED. fold V in ED. set (t := -1 / V) in *.
    assert (TT : Rabs (t - - (c / s)) <= 26 / 1000000000 * / Rabs V).
    { replace (t - - (c / s)) with ((V * c - s) * / V * / s) by (unfold t; field; auto). rewrite !Rabs_mult, !Rabs_inv by assumption. pose proof (Rinv_0_lt_compat _ PVs).
      assert (0 < Rabs s) by lra. assert (I := Rinv_0_lt_compat _ H0). apply Rle_trans with (26 / 1000000000 * Rabs s * / Rabs V * / Rabs s).
      - apply Rmult_le_compat_r; [lra|]. apply Rmult_le_compat_r; [lra|]. exact T.
      - right. field. split; lra. }
    assert (W : / Rabs V <= (1 + 27 / 1000000000) * (c * / Rabs s)).
    { assert (0 < Rabs s) by lra. apply (Rmult_le_reg_r (Rabs V * Rabs s)); [nra|]. replace (/ Rabs V * (Rabs V * Rabs s)) with (Rabs s) by (field; lra).
      replace ((1 + 27 / 1000000000) * (c * / Rabs s) * (Rabs V * Rabs s)) with ((1 + 27 / 1000000000) * (Rabs V * c)) by (field; lra).
      lra. }
    assert (CS : Rabs (- (c / s)) = c * / Rabs s) by (rewrite Rabs_Ropp; unfold Rdiv; rewrite Rabs_mult, Rabs_inv, (Rabs_pos_eq c) by (exact SN || lra); reflexivity).
    assert (CS0 : 1 / 2 <= c * / Rabs s). { assert (1 <= / Rabs s) by (rewrite <- Rinv_1; apply Rinv_le; lra). nra. }
    apply faithful_cvt; [apply fdiv_isbits|exact FD| | |].
    + intros E. rewrite E, Rabs_R0 in CS. lra.
    + rewrite CS. assert (c * / Rabs s <= 1 * / Rabs s) by (apply Rmult_le_compat_r; [apply Rlt_le, Rinv_0_lt_compat; lra|lra]). lra.
    + rewrite ED, CS. replace (rnd f64 t - - (c / s)) with ((rnd f64 t - t) + (t - - (c / s))) by ring. eapply Rle_trans; [apply Rabs_triang|]. pose proof (rnd64_err t) as RE. pose proof tiny200 as TY.
      assert (Rabs t <= 2 * (c * / Rabs s)). { unfold t, Rdiv. rewrite Rabs_mult, (Rabs_left (-1)), Rabs_inv by (exact VN || lra). lra. }
      change (bpow radix2 (-26)) with (/ 67108864). lra.
Qed.
(** the dispatch *)
Lemma kT : rs_tanf_T1_PIO2 = 0x3ff921fb54442d18%Z /\ rs_tanf_T2_PIO2 = 0x400921fb54442d18%Z /\ rs_tanf_T3_PIO2 = 0x4012d97c7f3321d2%Z /\ rs_tanf_T4_PIO2 = 0x401921fb54442d18%Z.
Proof. vm_compute. auto. Qed.
Lemma tan_near X : Rabs X <= / 4096 -> X <> 0 -> tan X <> 0 /\ Rabs (X - tan X) <= 15 / 8 * bpow radix2 (-26) * Rabs (tan X).
Proof.
  intros H N. assert (P : 0 < Rabs X) by (apply Rabs_pos_lt; exact N).
  (* X (1 - X^2/2) <= X cos X <= sin X <= X *)
  assert (G : forall x, 0 < x <= / 4096 -> 0 <= tan x - x <= 26 / 1000000000 * x).
  { intros x Hx. pose proof (sin_low x ltac:(lra)) as S1. pose proof (sin_lt_x x ltac:(lra)) as S2. pose proof (COS_bound x) as [_ C1].
    assert (C2 : 1 - x * x / 2 <= cos x). { replace (cos x) with (cos (2 * (x / 2))) by (f_equal; field). rewrite cos_2a_sin. pose proof (sin_low (x / 2) ltac:(lra)). pose proof (sin_lt_x (x / 2) ltac:(lra)). assert (0 <= sin (x / 2)) by nra. assert (sin (x / 2) * sin (x / 2) <= x / 2 * (x / 2)) by (apply Rmult_le_compat; lra). lra. }
    pose proof (cos_bound x 0) as CB. pose proof PI2_1. pose proof PI2_3_2. destruct (CB ltac:(lra) ltac:(lra)) as [_ C3]. unfold cos_approx, cos_term in C3. cbn in C3.
    assert (X2 : 0 <= x * x <= / 4096 * / 4096) by (split; [nra|apply Rmult_le_compat; lra]). assert (C0 : 0.999 <= cos x) by lra.
    unfold tan. split.
    - apply Rmult_le_reg_r with (cos x); [lra|]. replace ((sin x / cos x - x) * cos x) with (sin x - x * cos x) by (field; lra). set (q := x * x) in *. assert (C4 : cos x <= 1 - q / 2 + q * q / 24) by (unfold q; lra).
      assert (x * cos x <= x * (1 - q / 2 + q * q / 24)) by (apply Rmult_le_compat_l; lra). replace (x * x * x) with (x * q) in S1 by (unfold q; ring). assert (0 <= x * q) by (apply Rmult_le_pos; lra). assert (x * (q * q) <= x * q) by (apply Rmult_le_compat_l; [lra|nra]). lra.
    - apply Rmult_le_reg_r with (cos x); [lra|]. replace ((sin x / cos x - x) * cos x) with (sin x - x * cos x) by (field; lra).
      pose proof (sin_bound x 0 ltac:(lra) ltac:(lra)) as [_ S3]. unfold sin_approx, sin_term in S3. cbn in S3. set (q := x * x) in *.
      assert (S4 : sin x <= x * (1 - q / 6 + q * q / 120)) by (unfold q; lra). assert (x * (1 - q / 2) <= x * cos x) by (apply Rmult_le_compat_l; lra). assert (26 / 1000000000 * x * 0.999 <= 26 / 1000000000 * x * cos x) by (apply Rmult_le_compat_l; lra).
      assert (x * q <= x * (/ 4096 * / 4096)) by (apply Rmult_le_compat_l; lra). assert (x * (q * q) <= x * (/ 4096 * / 4096 * q)) by (apply Rmult_le_compat_l; [lra|apply Rmult_le_compat_r; lra]). lra. }
  change (bpow radix2 (-26)) with (/ 67108864). destruct (Rle_lt_dec 0 X) as [Q | Q].
  - rewrite (Rabs_pos_eq X) in * by exact Q. destruct (G X ltac:(lra)) as [G1 G2]. split; [lra|]. rewrite (Rabs_pos_eq (tan X)) by lra. rewrite Rabs_left1 by lra. lra.
  - rewrite (Rabs_left X) in * by exact Q. destruct (G (- X) ltac:(lra)) as [G1 G2]. rewrite tan_neg in G1, G2. split; [lra|]. rewrite (Rabs_left (tan X)) by lra. rewrite Rabs_pos_eq by lra. lra.
Qed.
Lemma land1 n : Z.land n 1 = (n mod 2)%Z.
Proof. change 1%Z with (Z.ones 1). rewrite Z.land_ones by lia. reflexivity. Qed.
Theorem tanf_faithful : faithful_fn f32 rs_tanf tan.
Proof.
  intros x B F. assert (A : (0 <= a32 x < 0x7f800000)%Z) by (split; [unfold a32; apply Z.mod_pos_bound; lia|rewrite (fin32 x B) in F; lia]).
  unfold rs_tanf. cbv zeta. destruct kT as (-> & -> & -> & ->). rewrite !(sgb _ B), !land_a32.
  destruct (Z.leb_spec (a32 x) 0x3f490fda).
  { destruct (Z.ltb_spec (a32 x) 0x39800000) as [T | T].
    - exists x. split; [reflexivity|]. destruct (tiny_val x B T) as [_ V]. destruct (Req_dec (val f32 x) 0) as [Z0 | NZ].
      + rewrite Z0, tan_0. now apply faithful_0.
      + destruct (tan_near _ V NZ) as [S1 S2]. now apply faithful_exact.
    - eexists. split; [reflexivity|]. apply (red_tan _ 0); [apply red_0; [exact B|lia]|reflexivity]. }
  destruct (Z.leb_spec (a32 x) 0x407b53d1).
  { destruct (Z.leb_spec (a32 x) 0x4016cbe3).
    - eexists. split; [reflexivity|]. apply (red_tan _ _ _ _ (red_1 x B ltac:(lia))). destruct (signbit f32 x); reflexivity.
    - eexists. split; [reflexivity|]. apply (red_tan _ _ _ _ (red_2 x B ltac:(lia))). destruct (signbit f32 x); reflexivity. }
  destruct (Z.leb_spec (a32 x) 0x40e231d5).
  { destruct (Z.leb_spec (a32 x) 0x40afeddf).
    - eexists. split; [reflexivity|]. apply (red_tan _ _ _ _ (red_3 x B ltac:(lia))). destruct (signbit f32 x); reflexivity.
    - eexists. split; [reflexivity|]. apply (red_tan _ _ _ _ (red_4 x B ltac:(lia))). destruct (signbit f32 x); reflexivity. }
  rewrite (proj2 (Z.leb_gt 0x7f800000 (a32 x))) by lia. destruct (Z_lt_le_dec (a32 x) 0x4dc90fdb).
  - destruct (rem_pio2f_medium true x B ltac:(lia)) as (n & y & E & R & _). unfold rs_rem_pio2f. rewrite E. cbn [bind]. eexists. split; [reflexivity|]. apply (red_tan _ _ _ _ R). rewrite land1. reflexivity.
  - destruct (rem_pio2f_large true x B ltac:(lia)) as (n & y & n' & E & M & R & _). unfold rs_rem_pio2f. rewrite E. cbn [bind]. eexists. split; [reflexivity|]. apply (red_tan _ _ _ _ R). rewrite land1.
    do 2 f_equal. change 8%Z with (2 * 4)%Z in M. rewrite !Z.rem_mul_r in M by lia. pose proof (Z.mod_pos_bound n 2 ltac:(lia)). pose proof (Z.mod_pos_bound n' 2 ltac:(lia)). lia.
Qed.

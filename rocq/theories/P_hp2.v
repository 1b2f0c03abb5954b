(** hypot: the last step (scaling back, or the sum when one argument is negligible), for any format. *)
From Coq Require Import ZArith Reals Lia Lra Bool List Psatz.
From Flocq Require Import Core Mult_error.
From Verif Require Import Base Spec SpecFun3 SpecHypot2 Format P_format Ieee P_ieee P_real P_neg P_lit P_err P_apx P_hy1.
Open Scope R_scope.
Local Opaque fadd fsub fmul fdiv of_int.

Lemma sqrt_near S a d : 0 < S -> 0 <= d <= / 100 -> Rabs (a - S) <= d * S -> Rabs (sqrt a - sqrt S) <= 51 / 100 * d * sqrt S.
Proof.
  intros S0 D H. apply Rabs_le_inv in H. assert (a0 : 0 < a) by nra. pose proof (sqrt_sqrt S ltac:(lra)) as E1. pose proof (sqrt_sqrt a ltac:(lra)) as E2.
  pose proof (sqrt_lt_R0 S S0) as P1. pose proof (sqrt_lt_R0 a a0) as P2. set (s := sqrt S) in *. set (w := sqrt a) in *. clearbody s w. subst S a. assert (ss : 0 < s * s) by nra.
  apply Rabs_le. split.
  - destruct (Rle_lt_dec (- (51 / 100 * d * s)) (w - s)) as [C | C]; [exact C|exfalso].
    assert (w * w < (s - 51 / 100 * d * s) * (s - 51 / 100 * d * s)) by (apply Rmult_le_0_lt_compat; lra).
    assert (X : s * s * (1 - d) < s * s * ((1 - 51 / 100 * d) * (1 - 51 / 100 * d))) by lra. apply Rmult_lt_reg_l in X; [nra|lra].
  - destruct (Rle_lt_dec (w - s) (51 / 100 * d * s)) as [C | C]; [exact C|exfalso].
    assert (DS : 0 <= d * s) by nra.
    assert ((s + 51 / 100 * d * s) * (s + 51 / 100 * d * s) < w * w) by (apply Rmult_le_0_lt_compat; lra).
    assert (X : s * s * ((1 + 51 / 100 * d) * (1 + 51 / 100 * d)) < s * s * (1 + d)) by lra. apply Rmult_lt_reg_l in X; [nra|lra].
Qed.
Lemma hyp_bd A B : 0 <= A -> 0 <= B -> A <= sqrt (A * A + B * B) <= A + B.
Proof.
  intros HA HB. split.
  - rewrite <- (sqrt_square A HA) at 1. apply sqrt_le_1_alt. nra.
  - rewrite <- (sqrt_square (A + B)) by lra. apply sqrt_le_1_alt. nra.
Qed.
(** the conclusion of the specification, for a magnitude [h] *)
Definition hres (F : fmt) (c h : R) (r : Z) : Prop :=
  isbits F r /\ ((finite F r = true /\ Rabs (val F r - h) <= c * bpow radix2 (- mw F) * h + bpow radix2 (1 - bias F - mw F - 1)) \/
    (r = infinity F false /\ (1 - c * bpow radix2 (- mw F)) * bpow radix2 (bias F + 1) <= h)).
Section G.
Variable F : fmt.
Hypothesis MW : (23 <= mw F)%Z.
Hypothesis UB : (emin F + pr F + 7 <= bias F)%Z.
Let p := bpow radix2 (- pr F).
Lemma eps_p : bpow radix2 (- mw F) = 2 * p.
Proof. unfold p. replace (- mw F)%Z with (1 + - pr F)%Z by (unfold pr; lia). now rewrite bpow_plus. Qed.
Lemma emin_e : (1 - bias F - mw F - 1 = emin F - 1)%Z.
Proof. unfold emin. lia. Qed.
Lemma hres_of v sz r h k c : 0 <= h -> 0 <= k -> k + / 50 <= 2 * c -> 2 * c <= 8 -> rounds_to F v sz r -> 0 <= v -> Rabs (rnd F v - h) <= k * p * h + bpow radix2 (emin F - 1) -> hres F c h r.
Proof.
  intros H0 HK HC HC8 [B R] V0 E. split; [exact B|]. rewrite eps_p, emin_e. replace (c * (2 * p)) with (2 * c * p) by ring. pose proof (re_p F MW) as P. fold p in P.
  set (d := 2 * c * p). assert (KD : k * p + / 50 * p <= d) by (unfold d; nra). assert (D0 : 0 <= d <= / 10) by (unfold d; nra). set (u := bpow radix2 (emin F - 1)) in *. assert (U0 : 0 < u) by apply bpow_gt_0.
  assert (KH : k * p * h + / 50 * p * h <= d * h) by (rewrite <- Rmult_plus_distr_r; apply Rmult_le_compat_r; lra). assert (PH : 0 <= p * h) by (apply Rmult_le_pos; lra).
  destruct (Rlt_dec (Rabs (rnd F v)) (bpow radix2 (bias F + 1))) as [L | L].
  - rewrite Rlt_bool_true in R by exact L. destruct R as (G & V & _). left. split; [exact G|]. rewrite V. lra.
  - right. rewrite Rlt_bool_false in R by lra. split; [rewrite Rlt_bool_false in R by lra; exact R|].
    set (M := bpow radix2 (bias F + 1)) in *. assert (0 < M) by apply bpow_gt_0.
    assert (UM : u <= / 200 * p * M). { apply Rle_trans with (bpow radix2 (-9 + - pr F + (bias F + 1))); [apply bpow_le; lia|]. rewrite !bpow_plus. fold p. change (bpow radix2 (-9)) with (/ 512). unfold M. rewrite bpow_plus. assert (0 < p * (bpow radix2 (bias F) * bpow radix2 1)) by (apply Rmult_lt_0_compat; [lra|rewrite <- bpow_plus; apply bpow_gt_0]). lra. }
    assert (LE : M <= h + k * p * h + u). { apply Rnot_lt_le in L. replace (rnd F v) with ((rnd F v - h) + h) in L by ring. pose proof (Rabs_triang (rnd F v - h) h) as T. rewrite (Rabs_pos_eq h H0) in T. lra. }
    assert (HM : M / 2 <= h). { assert (p * M <= / 16777216 * M) by (apply Rmult_le_compat_r; lra). assert (d * h <= / 10 * h) by (apply Rmult_le_compat_r; lra). lra. }
    assert (p * M <= p * (2 * h)) by (apply Rmult_le_compat_l; lra).
    assert (LE2 : M <= (1 + d) * h) by lra. assert (0 <= d * d * h) by (apply Rmult_le_pos; [nra|lra]).
    assert (M * (1 - d) <= (1 + d) * h * (1 - d)) by (apply Rmult_le_compat_r; lra). lra.
Qed.
(** a negligible second argument *)
Lemma add_far a b c : isbits F a -> finite F a = true -> finite F b = true -> 0 <= val F a -> 0 <= val F b -> val F b <= / 2 * p * val F a -> 9 / 10 <= c <= 4 -> hres F c (sqrt (val F a * val F a + val F b * val F b)) (fadd F a b).
Proof.
  intros BA FA FB A0 B0 L C. set (A := val F a) in *. set (B := val F b) in *. pose proof (hyp_bd A B A0 B0) as [H1 H2]. set (h := sqrt (A * A + B * B)) in *. pose proof (re_p F MW) as P. fold p in P.
  apply (hres_of (A + B) _ _ h (16 / 10) c ltac:(lra) ltac:(lra) ltac:(lra) ltac:(lra) (fadd_spec F a b FA FB) ltac:(lra)).
  pose proof (rndF_abs F (A + B)) as Q. fold p in Q. rewrite (Rabs_pos_eq (A + B)) in Q by lra.
  assert (PA : p * A <= p * h) by (apply Rmult_le_compat_l; lra). assert (0 <= p * A) by (apply Rmult_le_pos; lra). assert (p * B <= / 100 * (p * A)). { apply Rle_trans with (p * (/ 100 * A)); [apply Rmult_le_compat_l; [lra|]|lra]. assert (p * A <= / 16777216 * A) by (apply Rmult_le_compat_r; lra). lra. }
  replace (rnd F (A + B) - h) with ((rnd F (A + B) - (A + B)) + (A + B - h)) by ring. eapply Rle_trans; [apply Rabs_triang|]. rewrite (Rabs_pos_eq (A + B - h)) by lra. lra.
Qed.
(** scaling back by a power of two *)
Lemma scale_back z q e h k c : finite F z = true -> val F z = bpow radix2 e -> finite F q = true -> 0 <= val F q -> 0 <= h -> 0 <= k -> k + / 50 <= 2 * c -> 2 * c <= 8 -> Rabs (val F q - h) <= k * p * h -> hres F c (bpow radix2 e * h) (fmul F z q).
Proof.
  intros FZ VZ FQ Q0 H0 K C C8 E. pose proof (fmt_facts F). assert (PG : Prec_gt_0 (pr F)) by (unfold Prec_gt_0, pr; lia).
  pose proof (bpow_gt_0 radix2 e) as E0. pose proof (fmul_spec F z q FZ FQ) as RT. rewrite VZ in RT. set (t := bpow radix2 e * val F q) in *.
  assert (T0 : 0 <= t) by (apply Rmult_le_pos; lra).
  assert (TE : Rabs (t - bpow radix2 e * h) <= k * p * (bpow radix2 e * h)). { unfold t. replace (bpow radix2 e * val F q - bpow radix2 e * h) with (bpow radix2 e * (val F q - h)) by ring. rewrite Rabs_mult, (Rabs_pos_eq (bpow radix2 e)) by lra. replace (k * p * (bpow radix2 e * h)) with (bpow radix2 e * (k * p * h)) by ring. apply Rmult_le_compat_l; [lra|exact E]. }
  refine (hres_of t _ _ (bpow radix2 e * h) k c _ K C C8 RT T0 _); [apply Rmult_le_pos; lra|].
  assert (RE : Rabs (rnd F t - t) <= bpow radix2 (emin F - 1)).
  { destruct (Rlt_le_dec t (bpow radix2 (emin F + pr F - 1))) as [S | S].
    - unfold rnd. eapply Rle_trans; [apply error_le_half_ulp; now apply FLT_exp_valid|]. rewrite ulp_FLT_small; [|exact PG|rewrite Rabs_pos_eq by exact T0; eapply Rlt_le_trans; [exact S|apply bpow_le; unfold emin, pr; lia]].
      replace (emin F - 1)%Z with (-1 + (1 - bias F - mw F))%Z by (unfold emin; lia). rewrite (bpow_plus radix2 (-1)). change (bpow radix2 (-1)) with (/ 2). lra.
    - rewrite (repr_rnd F t). { rewrite Rminus_diag_eq, Rabs_R0 by reflexivity. apply bpow_ge_0. }
      assert (Q1 : val F q <> 0). { intros Z. unfold t in S. rewrite Z, Rmult_0_r in S. pose proof (bpow_gt_0 radix2 (emin F + pr F - 1)). lra. }
      unfold repr, t. rewrite Rmult_comm. apply mult_bpow_exact_FLT; [exact (repr_val F q FQ)|].
      assert (MG : (emin F + pr F <= mag radix2 t)%Z) by (apply mag_ge_bpow; rewrite Rabs_pos_eq by exact T0; exact S).
      unfold t in MG. rewrite Rmult_comm, mag_mult_bpow in MG by exact Q1. unfold emin, pr in MG. lia. }
  replace (rnd F t - bpow radix2 e * h) with ((rnd F t - t) + (t - bpow radix2 e * h)) by ring. eapply Rle_trans; [apply Rabs_triang|]. lra.
Qed.
End G.

Section H.
Variable F : fmt.
Hypothesis MW : (23 <= mw F)%Z.
Let p := bpow radix2 (- pr F).
Let fx := FLT_exp (1 - bias F - mw F) (mw F + 1).
Lemma ulp_le_bp v k : 0 < v -> v < bpow radix2 k -> (emin F + pr F <= k)%Z -> ulp radix2 fx v <= bpow radix2 (k - pr F).
Proof.
  intros V0 V1 K. rewrite ulp_neq_0 by lra. apply bpow_le. unfold cexp, fx, FLT_exp. pose proof (mag_le_bpow radix2 v k ltac:(lra) ltac:(rewrite Rabs_pos_eq by lra; exact V1)). unfold emin, pr in *. lia.
Qed.
(** the rounded square root of the rounded square, even of a slightly smaller number, gives the number back *)
Lemma sqrt_rnd_sq dl x v : 0 <= dl <= / 1000 * p -> repr F x -> 0 < x -> bpow radix2 (emin F + pr F) <= x * x -> bpow radix2 (emin F + pr F) <= x -> rnd F (x * x * (1 - dl)) <= v -> x <= rnd F (R_sqrt.sqrt v).
Proof.
  intros DL RX X0 XL XN HV. pose proof (fmt_facts F) as FF. assert (PG : Prec_gt_0 (mw F + 1)) by (unfold Prec_gt_0; lia). pose proof (re_p F MW) as P. fold p in P.
  set (g := mag radix2 x). set (G := bpow radix2 (g - 1)).
  assert (GX : G <= x < 2 * G). { pose proof (bpow_mag_le radix2 x ltac:(lra)) as L. pose proof (bpow_mag_gt radix2 x) as U. rewrite Rabs_pos_eq in L, U by lra. fold g in L, U. fold G in L. split; [exact L|]. unfold G. change 2 with (bpow radix2 1). rewrite <- bpow_plus. replace (1 + (g - 1))%Z with (g : Z) by lia. exact U. }
  assert (G0 : 0 < G) by apply bpow_gt_0.
  assert (V0 : 0 <= v). { eapply Rle_trans; [|exact HV]. rewrite <- (rnd_0 F). apply rnd_le. apply Rmult_le_pos; [nra|]. pose proof (re_p F MW) as P1. fold p in P1. lra. }
  assert (SV : forall w, 0 <= w -> w * w < v -> w < R_sqrt.sqrt v). { intros w W0 W. rewrite <- (sqrt_square w W0). apply sqrt_lt_1_alt. split; [nra|exact W]. }
  assert (gk : (emin F + pr F < g)%Z). { apply (lt_bpow radix2). eapply Rle_lt_trans; [exact XN|]. pose proof (bpow_mag_gt radix2 x) as U. rewrite Rabs_pos_eq in U by lra. exact U. }
  destruct (Req_dec x G) as [E | NE].
  - (* a power of two *)
    assert (RS : repr F (x * x)). { unfold repr. rewrite E. unfold G. rewrite <- bpow_plus. apply generic_format_bpow. unfold FLT_exp. 
      assert ((emin F + pr F <= g - 1 + (g - 1)))%Z. { apply (le_bpow radix2). rewrite (bpow_plus radix2 (g - 1)). fold G. rewrite <- E. exact XL. } unfold emin, pr in *. lia. }
    assert (HV2 : x * x <= rnd F (x * x * (1 - dl))).
    { unfold rnd. apply round_N_ge_midp; [now apply FLT_exp_valid|exact RS|]. fold fx. assert (GE : x * x = bpow radix2 (g - 1 + (g - 1))) by (rewrite bpow_plus; fold G; rewrite E; reflexivity).
      assert (PB : pred radix2 fx (x * x) = x * x - p * (x * x)). { rewrite GE. unfold fx. rewrite pred_bpow by (now apply FLT_exp_valid). f_equal. unfold FLT_exp. assert ((emin F + pr F <= g - 1 + (g - 1)))%Z. { apply (le_bpow radix2). rewrite <- GE. exact XL. } rewrite Z.max_l by (unfold emin, pr in *; lia). unfold p. rewrite <- bpow_plus. f_equal. unfold pr. lia. }
      rewrite PB. assert (0 < x * x) by nra. assert (dl * (x * x) <= / 1000 * p * (x * x)) by (apply Rmult_le_compat_r; lra). assert (0 < p * (x * x)) by (apply Rmult_lt_0_compat; lra). lra. }
    rewrite <- (repr_rnd F x RX) at 1. apply rnd_le. rewrite <- (sqrt_square x) at 1 by lra. apply sqrt_le_1_alt. lra.
  - assert (PR : pred radix2 fx x = x - 2 * p * G).
    { rewrite pred_eq_pos by lra. unfold pred_pos. fold g. fold G. rewrite Req_bool_false by exact NE. rewrite ulp_neq_0 by lra. f_equal. unfold cexp, fx, FLT_exp. fold g. rewrite Z.max_l by (unfold emin, pr in *; lia). unfold p, G. change 2 with (bpow radix2 1). rewrite <- !bpow_plus. f_equal. unfold pr. lia. }
    assert (LT : x - p * G < R_sqrt.sqrt v).
    { assert (pG : 0 < p * G <= / 1000 * G) by (split; [apply Rmult_lt_0_compat; lra|apply Rmult_le_compat_r; lra]).
      apply SV; [lra|]. eapply Rlt_le_trans; [|exact HV].
      set (y := x * x * (1 - dl)) in *. assert (DX : 0 <= dl * (x * x) <= / 200 * (p * (G * G))). { assert (x * x <= 4 * (G * G)) by nra. assert (0 < G * G) by nra. split; [apply Rmult_le_pos; nra|]. apply Rle_trans with (/ 1000 * p * (4 * (G * G))); [apply Rmult_le_compat; nra|nra]. }
      assert (YX : y = x * x - dl * (x * x)) by (unfold y; ring). assert (Y0 : 0 < y) by (unfold y; apply Rmult_lt_0_compat; nra).
      assert (HU : Rabs (rnd F y - y) <= / 2 * ulp radix2 fx y) by (apply error_le_half_ulp; now apply FLT_exp_valid).
      assert (GG : bpow radix2 (2 * g - 2) = G * G) by (unfold G; rewrite <- bpow_plus; f_equal; lia).
      assert (kk : (emin F + pr F < 2 * g)%Z). { apply (lt_bpow radix2). eapply Rle_lt_trans; [exact XL|]. replace (2 * g)%Z with (2 + (2 * g - 2))%Z by lia. rewrite bpow_plus, GG. change (bpow radix2 2) with 4. nra. }
      assert (XP : G * G <= x * G) by nra. set (c := p * G) in *.
      assert (PC : p * (G * G) = c * G) by (unfold c; ring). assert (cG : 0 < c * G) by (apply Rmult_lt_0_compat; lra). assert (cc : c * c <= / 1000 * (c * G)) by nra.
      destruct (Rlt_le_dec (x * x) (2 * (G * G))) as [C | C].
      + assert (U1 : ulp radix2 fx y <= bpow radix2 (2 * g - 1 - pr F)).
        { apply ulp_le_bp; [exact Y0| |lia]. replace (2 * g - 1)%Z with (1 + (2 * g - 2))%Z by lia. rewrite bpow_plus, GG. change (bpow radix2 1) with 2. lra. }
        replace (2 * g - 1 - pr F)%Z with (1 + (- pr F + (2 * g - 2)))%Z in U1 by lia. rewrite !(bpow_plus radix2 1), (bpow_plus radix2 (- pr F)), GG in U1. fold p in U1. change (bpow radix2 1) with 2 in U1. rewrite PC in U1.
        apply Rabs_le_inv in HU. assert (c * G <= c * x) by (apply Rmult_le_compat_l; lra). rewrite PC in DX. replace ((x - c) * (x - c)) with (x * x - 2 * (c * x) + c * c) by ring. lra.
      + assert (U1 : ulp radix2 fx y <= bpow radix2 (2 * g - pr F)).
        { apply ulp_le_bp; [exact Y0| |lia]. replace (2 * g)%Z with (2 + (2 * g - 2))%Z by lia. rewrite bpow_plus, GG. change (bpow radix2 2) with 4. assert (x * x < 4 * (G * G)) by nra. lra. }
        replace (2 * g - pr F)%Z with (2 + (- pr F + (2 * g - 2)))%Z in U1 by lia. rewrite !(bpow_plus radix2 2), (bpow_plus radix2 (- pr F)), GG in U1. fold p in U1. change (bpow radix2 2) with 4 in U1. rewrite PC in U1.
        assert (X14 : 14 / 10 * G <= x) by nra.
        apply Rabs_le_inv in HU. assert (c * (14 / 10 * G) <= c * x) by (apply Rmult_le_compat_l; lra). rewrite PC in DX. replace ((x - c) * (x - c)) with (x * x - 2 * (c * x) + c * c) by ring. lra. }
    unfold rnd. apply round_N_ge_midp; [now apply FLT_exp_valid|exact RX|]. fold fx. rewrite PR. lra.
Qed.
End H.
Lemma fin_val F v sz r : rounds_to F v sz r -> finite F r = true -> val F r = rnd F v.
Proof.
  intros [_ H] G. destruct (Rlt_bool _ _); [exact (proj1 (proj2 H))|]. rewrite H in G. destruct (infinity_fields F (Rlt_bool v 0)) as (_ & _ & _ & E & _). congruence.
Qed.
Lemma add_ge F a b : finite F a = true -> finite F b = true -> 0 <= val F b -> finite F (fadd F a b) = true -> val F a <= val F (fadd F a b).
Proof. intros FA FB B0 G. rewrite (fin_val F _ _ _ (fadd_spec F a b FA FB) G). rewrite <- (repr_rnd F (val F a) (repr_val F a FA)) at 1. apply rnd_le. lra. Qed.

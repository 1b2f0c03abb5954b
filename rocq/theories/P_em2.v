(** expm1: from the reduced argument to the result. [AB F y Y k]: the float y is within k half-ulps of one (k * 2^-pr) of Y. *)
From Coq Require Import ZArith Reals Lia Lra Bool List Psatz.
From Flocq Require Import Core Mult_error Sterbenz.
From Verif Require Import Base Spec SpecLog2 Format P_format Ieee P_ieee P_real P_neg P_lit P_err P_apx P_hy1 P_hy2.
Open Scope R_scope.
Local Opaque fadd fsub fmul fdiv of_int.

Definition AB (F : fmt) (y : Z) (Y k : R) : Prop := isbits F y /\ finite F y = true /\ Rabs (val F y - Y) <= k * bpow radix2 (- pr F).
Section G.
Variable F : fmt.
Hypothesis MW : (23 <= mw F)%Z.
Hypothesis MB : (pr F + 101 <= 1 - emin F)%Z.
Hypothesis BB : (90 <= bias F)%Z.
Let p := bpow radix2 (- pr F).
Lemma ab_p : 0 < p <= / 16777216. Proof. exact (re_p F MW). Qed.
Lemma ab_rnd v sz y Y k : rounds_to F v sz y -> Rabs Y <= 8 -> 0 <= k <= 16 -> Rabs (v - Y) <= k * p -> AB F y Y (k + Rabs Y + / 10000).
Proof.
  intros RT HY HK H. pose proof ab_p as P. assert (KP : 0 <= k * p <= / 100000) by (split; [apply Rmult_le_pos; lra|apply Rle_trans with (16 * p); [apply Rmult_le_compat_r; lra|lra]]).
  assert (VV : Rabs v <= Rabs Y + k * p). { replace v with ((v - Y) + Y) by ring. eapply Rle_trans; [apply Rabs_triang|]. lra. }
  destruct (rounds_fin F _ _ _ RT) as [G V]. { apply Rle_trans with (bpow radix2 4); [change (bpow radix2 4) with 16; lra|apply bpow_le; lia]. }
  split; [exact (proj1 RT)|]. split; [exact G|]. rewrite V. fold p. pose proof (rndF_abs F v) as Q. fold p in Q.
  assert (T : bpow radix2 (emin F - 1) <= / 1048576 * p). { apply Rle_trans with (bpow radix2 (-20 + - pr F)); [apply bpow_le; lia|]. rewrite bpow_plus. change (bpow radix2 (-20)) with (/ 1048576). fold p. lra. }
  assert (PV : p * Rabs v <= p * Rabs Y + / 100000 * p). { apply Rle_trans with (p * (Rabs Y + k * p)); [apply Rmult_le_compat_l; lra|]. rewrite Rmult_plus_distr_l. assert (p * (k * p) <= p * / 100000) by (apply Rmult_le_compat_l; lra). lra. }
  replace (rnd F v - Y) with ((rnd F v - v) + (v - Y)) by ring. eapply Rle_trans; [apply Rabs_triang|]. lra.
Qed.
Lemma ab_weak y Y k k' : AB F y Y k -> k <= k' -> AB F y Y k'.
Proof. intros (A & B & C) H. split; [exact A|]. split; [exact B|]. fold p in C |- *. pose proof ab_p. eapply Rle_trans; [exact C|]. apply Rmult_le_compat_r; lra. Qed.
Lemma ab_val y : isbits F y -> finite F y = true -> AB F y (val F y) 0.
Proof. intros A B. split; [exact A|]. split; [exact B|]. rewrite Rminus_diag_eq, Rabs_R0 by reflexivity. lra. Qed.
Lemma ab_add x y X Y k l : AB F x X k -> AB F y Y l -> Rabs (X + Y) <= 8 -> 0 <= k <= 8 -> 0 <= l <= 8 -> AB F (fadd F x y) (X + Y) (k + l + Rabs (X + Y) + / 10000).
Proof.
  intros (A1 & B1 & C1) (A2 & B2 & C2) H K L. fold p in C1, C2. apply (ab_rnd _ _ _ _ _ (fadd_spec F x y B1 B2) H); [lra|]. replace (val F x + val F y - (X + Y)) with ((val F x - X) + (val F y - Y)) by ring. eapply Rle_trans; [apply Rabs_triang|]. lra.
Qed.
Lemma ab_sub x y X Y k l : AB F x X k -> AB F y Y l -> Rabs (X - Y) <= 8 -> 0 <= k <= 8 -> 0 <= l <= 8 -> AB F (fsub F x y) (X - Y) (k + l + Rabs (X - Y) + / 10000).
Proof.
  intros (A1 & B1 & C1) (A2 & B2 & C2) H K L. fold p in C1, C2. apply (ab_rnd _ _ _ _ _ (fsub_spec F x y B1 B2) H); [lra|]. replace (val F x - val F y - (X - Y)) with ((val F x - X) - (val F y - Y)) by ring. unfold Rminus at 1. eapply Rle_trans; [apply Rabs_triang|]. rewrite Rabs_Ropp. lra.
Qed.
(** multiplication by a number of size at most one *)
Lemma ab_mulc c x X k : finite F c = true -> 0 <= val F c <= 1 -> AB F x X k -> Rabs X <= 8 -> 0 <= k <= 8 -> AB F (fmul F c x) (val F c * X) (val F c * k + val F c * Rabs X + / 10000) /\ AB F (fmul F x c) (val F c * X) (val F c * k + val F c * Rabs X + / 10000).
Proof.
  intros Fc Vc (A1 & B1 & C1) H K. fold p in C1. pose proof (Rabs_pos X). assert (HX : Rabs (val F c * X) = val F c * Rabs X) by (rewrite Rabs_mult, (Rabs_pos_eq (val F c)) by lra; reflexivity). assert (Rabs (val F c * X) <= 8) by (rewrite HX; nra). assert (CK : 0 <= val F c * k <= 16) by nra.
  assert (Q : Rabs (val F c * val F x - val F c * X) <= val F c * k * p). { rewrite <- Rmult_minus_distr_l, Rabs_mult, (Rabs_pos_eq (val F c)) by lra. rewrite Rmult_assoc. apply Rmult_le_compat_l; lra. }
  rewrite <- HX. split.
  - exact (ab_rnd _ _ _ _ _ (fmul_spec F c x Fc B1) H1 CK Q).
  - pose proof (fmul_spec F x c B1 Fc) as RT. rewrite Rmult_comm in RT. exact (ab_rnd _ _ _ _ _ RT H1 CK Q).
Qed.
(** multiplication by 2^e, e >= 0, is exact *)
Lemma ab_sc c x e : finite F c = true -> finite F x = true -> (Rabs (val F c) = bpow radix2 e)%R -> (0 <= e)%Z -> Rabs (val F c * val F x) < bpow radix2 (bias F + 1) ->
  (isbits F (fmul F c x) /\ finite F (fmul F c x) = true /\ val F (fmul F c x) = val F c * val F x) /\ (isbits F (fmul F x c) /\ finite F (fmul F x c) = true /\ val F (fmul F x c) = val F c * val F x).
Proof.
  intros Fc Fx Vc He HO. pose proof (fmt_facts F) as FF.
  assert (R : rnd F (val F c * val F x) = val F c * val F x).
  { apply repr_rnd. assert (Q : repr F (bpow radix2 e * val F x)).
    { unfold repr. destruct (Req_dec (val F x) 0) as [Z0 | Z0]; [rewrite Z0, Rmult_0_r; apply generic_format_0|]. rewrite Rmult_comm. apply mult_bpow_pos_exact_FLT; [exact (repr_val F x Fx)|exact He]. }
    destruct (Rle_lt_dec 0 (val F c)) as [S | S]; [rewrite Rabs_pos_eq in Vc by exact S; rewrite Vc; exact Q|]. rewrite Rabs_left in Vc by exact S. replace (val F c * val F x) with (- (bpow radix2 e * val F x)) by (rewrite <- Vc; ring). apply repr_opp. exact Q. }
  assert (GO : forall sz y, rounds_to F (val F c * val F x) sz y -> isbits F y /\ finite F y = true /\ val F y = val F c * val F x).
  { intros sz y [A B]. rewrite R, Rlt_bool_true in B by exact HO. split; [exact A|]. tauto. }
  split; [apply (GO _ _ (fmul_spec F c x Fc Fx))|]. pose proof (fmul_spec F x c Fx Fc) as RT. rewrite Rmult_comm in RT. exact (GO _ _ RT).
Qed.
Lemma ab_big c x X k e : finite F c = true -> Rabs (val F c) = bpow radix2 e -> (0 <= e <= 2)%Z -> AB F x X k -> Rabs X <= 8 -> 0 <= k <= 8 -> AB F (fmul F c x) (val F c * X) (bpow radix2 e * k).
Proof.
  intros Fc Vc He (A & B & C) HX K. fold p in C. pose proof ab_p as P. assert (bpow radix2 e <= 4) by (change 4 with (bpow radix2 2); apply bpow_le; lia). pose proof (bpow_gt_0 radix2 e).
  destruct (ab_sc c x e Fc B Vc ltac:(lia)) as [(A1 & B1 & V1) _].
  { rewrite Rabs_mult, Vc. apply Rle_lt_trans with (bpow radix2 6); [|apply bpow_lt; lia]. change (bpow radix2 6) with 64. assert (k * p <= 8 * p) by (apply Rmult_le_compat_r; lra). assert (Rabs (val F x) <= 9). { replace (val F x) with ((val F x - X) + X) by ring. eapply Rle_trans; [apply Rabs_triang|]. lra. } pose proof (Rabs_pos (val F x)). nra. }
  split; [exact A1|]. split; [exact B1|]. rewrite V1, <- Rmult_minus_distr_l, Rabs_mult, Vc. fold p. rewrite Rmult_assoc. apply Rmult_le_compat_l; lra.
Qed.
(** the bound claimed of expm1: two machine epsilons *)
Lemma ab_rel y Y k : AB F y Y k -> k <= 4 * Rabs Y -> rel_err F 2 Y y.
Proof.
  intros (A & B & C) H. split; [exact A|]. split; [exact B|]. eapply Rle_trans; [exact C|]. fold p. pose proof ab_p. replace (bpow radix2 (- mw F)) with (2 * p); [|unfold p, pr; replace (- mw F)%Z with (1 + - (mw F + 1))%Z by ring; rewrite bpow_plus; reflexivity].
  replace (2 * (2 * p) * Rabs Y) with (4 * Rabs Y * p) by ring. apply Rmult_le_compat_r; lra.
Qed.

(** x is the reduced argument, E the computed value of x - (exp r - 1) with r close to x, h = 1/2, o = 1, w = 2 *)
Variables x E h o : Z.
Variable r D : R.
Hypothesis Fx : isbits F x /\ finite F x = true.
Hypothesis HE : AB F E D (2 / 5).
Hypothesis HD : val F x - D = exp r - 1.
Hypothesis DB : - (8 / 100) <= D <= 8 / 100.
Hypothesis RB : 7062 / 10000 <= exp r <= 1416 / 1000.
Hypothesis Fh : isbits F h /\ finite F h = true /\ val F h = / 2.
Hypothesis Fo : isbits F o /\ finite F o = true /\ val F o = 1.
Let M := exp r - 1.
Lemma em_M : -2938 / 10000 <= M <= 416 / 1000. Proof. unfold M. lra. Qed.
Lemma em_absM : Rabs M <= 416 / 1000. Proof. apply Rabs_le. pose proof em_M. lra. Qed.
Lemma em_v : AB F (fsub F x E) M (2 / 5 + Rabs M + / 10000).
Proof.
  pose proof em_absM. pose proof (ab_sub x E _ _ 0 (2 / 5) (ab_val x (proj1 Fx) (proj2 Fx)) HE) as Q. rewrite HD in Q. fold M in Q. eapply ab_weak; [apply Q; lra|]. lra.
Qed.
Lemma ab_o : AB F o 1 0. Proof. destruct Fo as (A & B & <-). now apply ab_val. Qed.
Lemma ab_h : AB F h (/ 2) 0. Proof. destruct Fh as (A & B & <-). now apply ab_val. Qed.
Lemma em_m1 : rel_err F 2 (exp r / 2 - 1) (fsub F (fmul F h (fsub F x E)) h).
Proof.
  pose proof em_absM as HM. pose proof em_M as HM2. pose proof (Rabs_pos M) as H0. destruct (ab_mulc h _ _ _ (proj1 (proj2 Fh)) ltac:(rewrite (proj2 (proj2 Fh)); lra) em_v ltac:(lra) ltac:(lra)) as [Q _]. rewrite (proj2 (proj2 Fh)) in Q.
  assert (Y : exp r / 2 - 1 = / 2 * M - / 2) by (unfold M; lra). rewrite Y. assert (AY : Rabs (/ 2 * M - / 2) = / 2 - / 2 * M) by (rewrite Rabs_left1; lra).
  pose proof (ab_sub _ _ _ _ _ _ Q ab_h ltac:(rewrite AY; lra) ltac:(lra) ltac:(lra)) as Q2. apply (ab_rel _ _ _ Q2). rewrite AY. 
  destruct (Rle_lt_dec 0 M) as [S | S]; [rewrite (Rabs_pos_eq M) by lra; lra|rewrite (Rabs_left M) by lra; lra].
Qed.
Lemma em_1a m2 : finite F m2 = true -> val F m2 = -2 -> -/2 <= val F x <= - / 4 -> rel_err F 2 (2 * exp r - 1) (fmul F m2 (fsub F E (fadd F x h))).
Proof.
  intros F2 V2 HX. pose proof em_M as HM.
  assert (XH : AB F (fadd F x h) (val F x + / 2) 0).
  { destruct Fx as [Bx Gx]. destruct Fh as (Bh & Gh & Vh). assert (R : rnd F (val F x + val F h) = val F x + val F h).
    { apply repr_rnd. unfold repr. pose proof (fmt_facts F). assert (PG : Prec_gt_0 (mw F + 1)) by (unfold Prec_gt_0; lia). replace (val F x + val F h) with (val F h - - val F x) by ring.
      apply sterbenz; [apply FLT_exp_valid; exact PG|apply FLT_exp_monotone|apply (repr_val F h Gh)|apply generic_format_opp, (repr_val F x Gx)|rewrite Vh; lra]. }
    pose proof (fadd_spec F x h Gx Gh) as RT. destruct (rounds_fin F _ _ _ RT) as [G V]. { apply Rle_trans with (bpow radix2 3); [change (bpow radix2 3) with 8; apply Rabs_le; lra|apply bpow_le; lia]. }
    split; [exact (proj1 RT)|]. split; [exact G|]. rewrite V, R, Vh, Rminus_diag_eq, Rabs_R0 by reflexivity. lra. }
  assert (Y : D - (val F x + / 2) = - (M + / 2)) by (unfold M; lra). pose proof (ab_sub _ _ _ _ _ _ HE XH) as Q. rewrite Y in Q. rewrite Rabs_Ropp, (Rabs_pos_eq (M + / 2)) in Q by lra. specialize (Q ltac:(lra) ltac:(lra) ltac:(lra)).
  pose proof (ab_big m2 _ _ _ 1 F2 ltac:(rewrite V2, Rabs_left by lra; change (bpow radix2 1) with 2; lra) ltac:(lia) Q ltac:(rewrite Rabs_Ropp, (Rabs_pos_eq (M + / 2)) by lra; lra) ltac:(lra)) as Q2. rewrite V2 in Q2. change (bpow radix2 1) with 2 in Q2.
  replace (2 * exp r - 1) with (-2 * - (M + / 2)) by (unfold M; lra). apply (ab_rel _ _ _ Q2). rewrite Rabs_pos_eq by lra. lra.
Qed.
Lemma em_1b w : finite F w = true -> val F w = 2 -> -3 / 10 <= M -> -251 / 1000 <= M -> rel_err F 2 (2 * exp r - 1) (fadd F o (fmul F w (fsub F x E))).
Proof.
  intros Fw Vw _ HX. pose proof em_M as HM. pose proof em_absM as HA. pose proof (Rabs_pos M) as H0.
  pose proof (ab_big w _ _ _ 1 Fw ltac:(rewrite Vw, Rabs_pos_eq by lra; reflexivity) ltac:(lia) em_v ltac:(lra) ltac:(lra)) as Q. rewrite Vw in Q. change (bpow radix2 1) with 2 in Q.
  assert (AY : Rabs (1 + 2 * M) = 1 + 2 * M) by (rewrite Rabs_pos_eq; lra).
  pose proof (ab_add _ _ _ _ _ _ ab_o Q ltac:(rewrite AY; lra) ltac:(lra) ltac:(lra)) as Q2. replace (2 * exp r - 1) with (1 + 2 * M) by (unfold M; lra). apply (ab_rel _ _ _ Q2). rewrite AY.
  destruct (Rle_lt_dec 0 M) as [S | S]; [rewrite (Rabs_pos_eq M) by lra; lra|rewrite (Rabs_left M) by lra; lra].
Qed.
Lemma em_y : AB F (fadd F (fsub F x E) o) (exp r) (2 / 5 + Rabs M + exp r + / 2000).
Proof.
  pose proof em_absM as HA. pose proof (Rabs_pos M) as H0. pose proof (ab_add _ _ _ _ _ _ em_v ab_o) as Q. replace (M + 1) with (exp r) in Q by (unfold M; ring). rewrite (Rabs_pos_eq (exp r)) in Q by lra. eapply ab_weak; [apply Q; lra|]. lra.
Qed.
Lemma em_lo t q : finite F t = true -> val F t = q -> 0 <= q <= / 4 -> rel_err F 2 (q * exp r - 1) (fsub F (fmul F (fadd F (fsub F x E) o) t) o).
Proof.
  intros Ft Vt Hq. pose proof em_absM as HA. pose proof (Rabs_pos M) as H0. destruct (ab_mulc t _ _ _ Ft ltac:(lra) em_y ltac:(rewrite Rabs_pos_eq by lra; lra) ltac:(lra)) as [_ Q]. rewrite Vt, (Rabs_pos_eq (exp r)) in Q by lra.
  assert (U : 0 <= q * exp r <= 354 / 1000) by nra. assert (AY : Rabs (q * exp r - 1) = 1 - q * exp r) by (rewrite Rabs_left1; lra).
  assert (U2 : 0 <= q * (2 / 5 + Rabs M + exp r + / 2000) + q * exp r <= 94 / 100) by nra.
  pose proof (ab_sub _ _ _ _ _ _ Q ab_o ltac:(rewrite AY; lra) ltac:(lra) ltac:(lra)) as Q2. apply (ab_rel _ _ _ Q2). rewrite AY. lra.
Qed.
(** the exact product by a power of two, then the subtraction of one *)
Lemma em_hi y q : isbits F y -> finite F y = true -> val F y = q * val F (fadd F (fsub F x E) o) -> IZR (2 ^ 50) <= q -> rel_err F 2 (q * exp r - 1) (fsub F y o).
Proof.
  intros By Gy Vy Hq. destruct em_y as (_ & _ & C). fold p in C. set (v := val F (fadd F (fsub F x E) o)) in *. pose proof ab_p as P. pose proof em_absM as HA. pose proof (Rabs_pos M) as H0. change (IZR (2 ^ 50)) with 1125899906842624 in Hq.
  assert (PK : (2 / 5 + Rabs M + exp r + / 2000) * p <= 3 * p) by (apply Rmult_le_compat_r; lra). assert (VB : 7 / 10 <= v <= 15 / 10) by (apply Rabs_le_inv in C; lra).
  destruct (Fo) as (Bo & Go & Vo). pose proof (fsub_spec F y o Gy Go) as RT. rewrite Vo, Vy in RT.
  assert (QV : q * v <= q * (15 / 10)) by (apply Rmult_le_compat_l; lra). assert (QV2 : q * (7 / 10) <= q * v) by (apply Rmult_le_compat_l; lra).
  assert (NO : Rabs (rnd F (q * v - 1)) < bpow radix2 (bias F + 1)).
  { assert (Z0 : 0 <= rnd F (q * v - 1)) by (rewrite <- (rnd_0 F); apply rnd_le; lra). rewrite Rabs_pos_eq by exact Z0. apply Rle_lt_trans with (val F y); [|pose proof (val_lt_max F y Gy) as L; eapply Rle_lt_trans; [apply Rle_abs|exact L]]. rewrite <- (repr_rnd F (val F y) (repr_val F y Gy)), Vy. apply rnd_le. lra. }
  destruct RT as [B1 RT]. rewrite Rlt_bool_true in RT by exact NO. destruct RT as (G1 & V1 & _). split; [exact B1|]. split; [exact G1|]. rewrite V1.
  pose proof (rndF_abs F (q * v - 1)) as R. fold p in R. rewrite (Rabs_pos_eq (q * v - 1)) in R by lra.
  assert (T : bpow radix2 (emin F - 1) <= / 1048576 * p). { apply Rle_trans with (bpow radix2 (-20 + - pr F)); [apply bpow_le; lia|]. rewrite bpow_plus. change (bpow radix2 (-20)) with (/ 1048576). fold p. lra. }
  assert (QE : q * (7062 / 10000) <= q * exp r) by (apply Rmult_le_compat_l; lra). rewrite (Rabs_pos_eq (q * exp r - 1)) by lra.
  replace (bpow radix2 (- mw F)) with (2 * p); [|unfold p, pr; replace (- mw F)%Z with (1 + - (mw F + 1))%Z by ring; rewrite bpow_plus; reflexivity].
  replace (rnd F (q * v - 1) - (q * exp r - 1)) with ((rnd F (q * v - 1) - (q * v - 1)) + q * (v - exp r)) by ring. eapply Rle_trans; [apply Rabs_triang|]. rewrite Rabs_mult, (Rabs_pos_eq q) by lra.
  assert (W : q * Rabs (v - exp r) <= q * ((2 / 5 + Rabs M + exp r + / 2000) * p)) by (apply Rmult_le_compat_l; lra).
  assert (PV : p * (q * v - 1) <= p * (q * (exp r + 3 * p))). { apply Rmult_le_compat_l; [lra|]. assert (q * v <= q * (exp r + 3 * p)); [|lra]. apply Rmult_le_compat_l; [lra|]. apply Rabs_le_inv in C. lra. }
  assert (MX : Rabs M <= 2 * exp r - 99 / 100). { unfold M. apply Rabs_le. lra. }
  assert (PQ : 0 <= p * q) by nra. assert (PQ1 : p * 1125899906842624 <= p * q) by nra. assert (PQP : p * q * p <= p * q * / 16777216) by (apply Rmult_le_compat_l; lra).
  assert (PQM : p * q * Rabs M <= p * q * (2 * exp r - 99 / 100)) by (apply Rmult_le_compat_l; lra). lra.
Qed.
Lemma em_mid W k w y n : AB F w W k -> 0 <= k <= 8 -> 0 <= W <= 2 -> k <= 4 * W -> val F y = bpow radix2 n * val F w -> isbits F y -> finite F y = true -> rel_err F 2 (bpow radix2 n * W) y.
Proof.
  intros (A & B & C) K HW L V By Gy. split; [exact By|]. split; [exact Gy|]. pose proof (bpow_gt_0 radix2 n). pose proof ab_p as P. fold p in C. rewrite V, <- Rmult_minus_distr_l, !Rabs_mult, (Rabs_pos_eq (bpow radix2 n)), (Rabs_pos_eq W) by lra.
  replace (bpow radix2 (- mw F)) with (2 * p); [|unfold p, pr; replace (- mw F)%Z with (1 + - (mw F + 1))%Z by ring; rewrite bpow_plus; reflexivity].
  replace (2 * (2 * p) * (bpow radix2 n * W)) with (bpow radix2 n * (4 * W * p)) by ring. apply Rmult_le_compat_l; [lra|]. eapply Rle_trans; [exact C|]. apply Rmult_le_compat_r; lra.
Qed.
Lemma em_w1 u f : AB F f (1 - u) 0 -> 0 <= u <= / 4 -> AB F (fadd F (fsub F x E) f) (exp r - u) (4 * (exp r - u)).
Proof.
  intros Hf Hu. pose proof em_absM as HA. pose proof (Rabs_pos M) as H0. pose proof (ab_add _ _ _ _ _ _ em_v Hf) as Q. replace (M + (1 - u)) with (exp r - u) in Q by (unfold M; ring). rewrite (Rabs_pos_eq (exp r - u)) in Q by lra. eapply ab_weak; [apply Q; lra|].
  assert (MX : Rabs M <= 2 * exp r - 99 / 100) by (unfold M; apply Rabs_le; lra). lra.
Qed.
Lemma em_w2 u f : AB F f u 0 -> 0 <= u <= / 1000 -> AB F (fadd F (fsub F x (fadd F E f)) o) (exp r - u) (4 * (exp r - u)).
Proof.
  intros Hf Hu. pose proof em_absM as HA. pose proof (Rabs_pos M) as H0. assert (DU : Rabs (D + u) <= 81 / 1000) by (apply Rabs_le; lra). pose proof (ab_add _ _ _ _ _ _ HE Hf ltac:(lra) ltac:(lra) ltac:(lra)) as Q.
  assert (Y : val F x - (D + u) = M - u) by (unfold M; lra). assert (MU : Rabs (M - u) <= 417 / 1000) by (pose proof em_M; apply Rabs_le; lra). pose proof (Rabs_pos (D + u)) as H1. pose proof (Rabs_pos (M - u)) as H2.
  pose proof (ab_sub _ _ _ _ _ _ (ab_val x (proj1 Fx) (proj2 Fx)) Q) as Q2. rewrite Y in Q2. specialize (Q2 ltac:(lra) ltac:(lra) ltac:(lra)).
  pose proof (ab_add _ _ _ _ _ _ Q2 ab_o) as Q3. replace (M - u + 1) with (exp r - u) in Q3 by (unfold M; ring). rewrite (Rabs_pos_eq (exp r - u)) in Q3 by lra. eapply ab_weak; [apply Q3; lra|]. lra.
Qed.
End G.

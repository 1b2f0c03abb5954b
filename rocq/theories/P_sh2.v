(** More formulas of the hyperbolic functions over any format: exp-based cosh, small tanh, tiny arguments, signs. *)
From Coq Require Import ZArith Reals Lia Lra Bool List Psatz.
From Flocq Require Import Core Mult_error Sterbenz.
From Verif Require Import Base Spec SpecLog2 Format P_format Ieee P_ieee P_real P_neg P_lit P_err P_apx P_poly P_powt P_taylor P_expa1 P_hy1 P_hy2 P_sh1.
Import ListNotations.
Open Scope R_scope.
Local Opaque fadd fsub fmul fdiv of_int.

Lemma exp_2 X : Rabs X <= / 4000 -> Rabs (exp X - (1 + X + X * X / 2)) <= Rabs X * Rabs X * Rabs X / 3.
Proof.
  intros H. pose proof (exp_taylor X 2 ltac:(lra)) as T2. assert (P2 : peval (texp 2) X = 1 + X + X * X / 2). { cbn [texp seq map peval fst snd]. change (fz 0) with 1%Z. change (fz 1) with 1%Z. change (fz 2) with 2%Z. unfold Rdiv. rewrite Rinv_1. ring. } rewrite P2 in T2. change (fz 3) with 6%Z in T2. cbn [pow] in T2. lra.
Qed.
Lemma sinh_tiny X : Rabs X <= / 4000 -> Rabs (sinh X - X) <= Rabs X * Rabs X * Rabs X / 3 /\ Rabs (cosh X - 1) <= 6 / 10 * (Rabs X * Rabs X).
Proof.
  intros H. pose proof (exp_2 X H) as A. pose proof (exp_2 (- X) ltac:(rewrite Rabs_Ropp; exact H)) as B. rewrite Rabs_Ropp in B. unfold sinh, cosh. apply Rabs_le_inv in A. apply Rabs_le_inv in B. pose proof (Rabs_pos X). assert (E : Rabs X * Rabs X = X * X) by (rewrite <- Rabs_mult, Rabs_pos_eq; nra). assert (0 <= Rabs X * Rabs X) by nra. assert (Rabs X * Rabs X * Rabs X <= Rabs X * Rabs X * / 4000) by (apply Rmult_le_compat_l; lra). split; apply Rabs_le; lra.
Qed.
Lemma tanh_eq X : let S := 1 - exp (- (2 * X)) in tanh X = S / (2 - S).
Proof.
  intros S. unfold S, tanh, sinh, cosh. replace (- (2 * X)) with (- X + - X) by ring. rewrite exp_plus, exp_Ropp. pose proof (exp_pos X). field. assert (0 < exp X * exp X) by nra. repeat split; lra.
Qed.
Lemma tanh_eq2 X : let T := exp (2 * X) - 1 in tanh X = T / (T + 2).
Proof. intros T. unfold T, tanh, sinh, cosh. replace (2 * X) with (X + X) by ring. rewrite exp_plus, exp_Ropp. pose proof (exp_pos X). assert (0 < exp X * exp X) by nra. field. repeat split; lra. Qed.
Lemma sinh_eq X : let T := exp X - 1 in sinh X = / 2 * (T + T / (T + 1)).
Proof. intros T. unfold T, sinh. rewrite exp_Ropp. pose proof (exp_pos X). field. lra. Qed.
Lemma cosh_eq X : let T := exp X - 1 in cosh X = 1 + T * T / (2 * (1 + T)).
Proof. intros T. unfold T, cosh. rewrite exp_Ropp. pose proof (exp_pos X). field. lra. Qed.
Lemma cosh_eq2 X : cosh X = / 2 * (exp X + 1 / exp X).
Proof. unfold cosh. rewrite exp_Ropp. field. pose proof (exp_pos X). lra. Qed.
Lemma sinh_odd X : sinh (- X) = - sinh X. Proof. unfold sinh. rewrite Ropp_involutive. field. Qed.
Lemma cosh_even X : cosh (Rabs X) = cosh X. Proof. unfold Rabs. destruct (Rcase_abs X); [|reflexivity]. unfold cosh. rewrite Ropp_involutive. f_equal. ring. Qed.
Lemma tanh_odd X : tanh (- X) = - tanh X. Proof. unfold tanh. rewrite sinh_odd. unfold cosh. rewrite Ropp_involutive, (Rplus_comm (exp (- X))). unfold Rdiv. ring. Qed.
(** x/(1+2x) <= tanh x <= x/(1-x) *)
Lemma tanh_b X : 0 <= X <= / 4 -> X - 2 * (X * X) <= tanh X <= X + 2 * (X * X).
Proof.
  intros H. rewrite tanh_eq. cbv zeta. set (e := exp (- (2 * X))). assert (E1 : 1 - 2 * X <= e) by (unfold e; pose proof (exp_ineq1_le (- (2 * X))); lra). assert (E2 : e * (1 + 2 * X) <= 1). { unfold e. rewrite exp_Ropp. pose proof (exp_ineq1_le (2 * X)) as I. pose proof (exp_pos (2 * X)) as P. apply Rmult_le_reg_l with (exp (2 * X)); [exact P|]. rewrite <- Rmult_assoc, Rinv_r by lra. lra. }
  assert (E3 : 0 < e) by (unfold e; apply exp_pos). replace (2 - (1 - e)) with (1 + e) by ring. assert (EQ : 1 - e = (1 - e) / (1 + e) * (1 + e)) by (field; lra). set (q := (1 - e) / (1 + e)) in *. split; nra.
Qed.

Section G.
Set Default Proof Using "All".
Variable F : fmt.
Hypothesis MW : (23 <= mw F)%Z.
Hypothesis MB : (pr F + 101 <= 1 - emin F)%Z.
Hypothesis BB : (90 <= bias F)%Z.
Hypothesis PR : (pr F <= 53)%Z.
Let p := bpow radix2 (- pr F).
Let sl := / 1000.
Let ps : 0 < p <= / 16777216 := re_p F MW.

(** exact multiplication by one half in absolute value *)
Lemma half_mul c v : finite F c = true -> Rabs (val F c) = / 2 -> finite F v = true -> bpow radix2 (-80) <= Rabs (val F v) -> isbits F (fmul F c v) /\ finite F (fmul F c v) = true /\ val F (fmul F c v) = val F c * val F v.
Proof.
  intros Fc Vc Fv L. pose proof (fmul_spec F c v Fc Fv) as RT.
  assert (Q : repr F (/ 2 * val F v)). { unfold repr. rewrite Rmult_comm. change (/ 2) with (bpow radix2 (-1)). apply mult_bpow_exact_FLT; [exact (repr_val F v Fv)|]. assert (M : (-81 < mag radix2 (val F v))%Z). { apply mag_gt_bpow. eapply Rle_trans; [|exact L]. apply bpow_le. lia. } unfold emin in MB |- *. unfold pr in *. lia. }
  assert (R : rnd F (val F c * val F v) = val F c * val F v). { apply repr_rnd. destruct (Rle_lt_dec 0 (val F c)) as [S | S]; [rewrite Rabs_pos_eq in Vc by exact S; rewrite Vc; exact Q|]. rewrite Rabs_left in Vc by exact S. replace (val F c * val F v) with (- (/ 2 * val F v)) by (rewrite <- Vc; ring). apply repr_opp. exact Q. }
  destruct RT as [A B]. rewrite R, Rlt_bool_true in B; [tauto|]. rewrite Rabs_mult, Vc. pose proof (val_lt_max F v Fv). pose proof (Rabs_pos (val F v)). lra.
Qed.
(** the final multiplication by plus or minus one half *)
Lemma half_rel c v V k q : finite F c = true -> Rabs (val F c) = / 2 -> / 4294967296 <= V -> 0 <= k <= 8 -> k <= 2 * q -> RE F v V k -> rel_err F q (val F c * V) (fmul F c v).
Proof.
  intros Fc Vc LV K KQ HR. pose proof (re_bd F MW v V k ltac:(lra) ltac:(lra) HR) as (B1 & Q1 & X0). destruct HR as (A & B & C). fold p in B1, Q1, C.
  destruct (half_mul c v Fc Vc B) as (B2 & G2 & V2). { rewrite Rabs_pos_eq by lra. apply Rle_trans with (bpow radix2 (-33)); [apply bpow_le; lia|]. change (bpow radix2 (-33)) with (/ 8589934592). assert (k * p * V <= / 1000000 * V) by (apply Rmult_le_compat_r; lra). lra. }
  split; [exact B2|]. split; [exact G2|]. rewrite V2, <- Rmult_minus_distr_l, !Rabs_mult, Vc, (Rabs_pos_eq V), (re_eps F) by lra. fold p. assert (k * p * V <= 2 * q * p * V) by (apply Rmult_le_compat_r; [lra|]; apply Rmult_le_compat_r; lra). lra.
Qed.
Lemma tiny_sinh x q : 1 <= q -> isbits F x -> finite F x = true -> Rabs (val F x) <= / 4000 -> Rabs (val F x) * Rabs (val F x) <= 2 * p -> rel_err F q (sinh (val F x)) x.
Proof.
  intros Q B G L H. split; [exact B|]. split; [exact G|]. set (X := val F x) in *. destruct (sinh_tiny X L) as [A _]. rewrite <- Rabs_Ropp, Ropp_minus_distr. pose proof (Rabs_pos X). assert (C : Rabs X * Rabs X * Rabs X <= 2 * p * Rabs X) by (apply Rmult_le_compat_r; lra). rewrite (re_eps F). fold p.
  assert (D : 9 / 10 * Rabs X <= Rabs (sinh X)). { replace X with (sinh X - (sinh X - X)) at 1 by ring. unfold Rminus at 1. eapply Rle_trans; [apply Rmult_le_compat_l; [lra|apply Rabs_triang]|]. rewrite Rabs_Ropp. assert (2 * p * Rabs X <= / 1000 * Rabs X) by (apply Rmult_le_compat_r; lra). assert (Rabs X <= Rabs (sinh X) + Rabs (sinh X - X)). { replace X with (sinh X - (sinh X - X)) at 1 by ring. unfold Rminus at 1. eapply Rle_trans; [apply Rabs_triang|]. rewrite Rabs_Ropp. lra. } lra. }
  eapply Rle_trans; [exact A|]. assert (p * (9 / 10 * Rabs X) <= p * Rabs (sinh X)) by (apply Rmult_le_compat_l; lra). assert (0 <= p * Rabs (sinh X)) by (apply Rmult_le_pos; [lra|apply Rabs_pos]). replace (q * (2 * p) * Rabs (sinh X)) with (2 * q * (p * Rabs (sinh X))) by ring. assert (2 * 1 * (p * Rabs (sinh X)) <= 2 * q * (p * Rabs (sinh X))) by (apply Rmult_le_compat_r; lra). lra.
Qed.
Variables o w : Z.
Hypothesis Fo : isbits F o /\ finite F o = true /\ val F o = 1.
Hypothesis Fw : isbits F w /\ finite F w = true /\ val F w = 2.
Lemma tiny_cosh X q : 1 <= q -> Rabs X <= / 4000 -> Rabs X * Rabs X <= 2 * p -> rel_err F q (cosh X) o.
Proof.
  intros Q L H. destruct Fo as (B & G & V). split; [exact B|]. split; [exact G|]. rewrite V. destruct (sinh_tiny X L) as [_ A]. rewrite <- Rabs_Ropp, Ropp_minus_distr. rewrite (re_eps F). fold p. pose proof (Rabs_pos X). assert (0 <= Rabs X * Rabs X) by nra. assert (C := A). apply Rabs_le_inv in C. rewrite (Rabs_pos_eq (cosh X)) by lra. assert (2 * p * (cosh X) <= q * (2 * p) * cosh X) by (apply Rmult_le_compat_r; [lra|]; nra). assert (2 * p * (99 / 100) <= 2 * p * cosh X) by (apply Rmult_le_compat_l; lra). lra.
Qed.
(** half (t + 1/t) *)
Lemma ch_mid t E : RE F t E 4 -> Rabs (val F t - E) <= 21 / 10 * p * E -> 19 / 10 <= E <= 1180591620717411303424 -> RE F (fadd F t (fdiv F o t)) (E + 1 / E) 4.
Proof.
  intros HT C' TB. destruct (t_d F MW MB BB PR o w Fo Fw t E HT ltac:(lra)) as (C & D & PB & H0). pose proof (t_self F MW MB BB PR o w Fo Fw t E HT) as R0. set (h := val F t) in *. assert (HB : 189 / 100 <= h <= 1190591620717411303424) by lra.
  pose proof (re_div F MW MB BB o t 1 h 0 0 ltac:(lra) H0) as R1. set (q := 1 / h) in *. assert (EQ : q * h = 1) by (unfold q; field; lra). assert (Q0 : 0 < q) by (unfold q; apply Rdiv_lt_0_compat; lra). assert (QL : / 1190591620717411303424 <= q). { unfold q, Rdiv. rewrite Rmult_1_l. apply Rinv_le; lra. } assert (QU : q <= 5292 / 10000) by nra.
  specialize (R1 ltac:(apply inr_b; lra) ltac:(lra) ltac:(lra) (re_o F MW MB BB PR o w Fo Fw) R0).
  pose proof (re_add F MW MB BB t _ h q 0 (0 + 0 + 1 + / 1000) (3 / 10) H0 Q0 ltac:(apply inr_b; lra) ltac:(lra) R0 R1 ltac:(nra)) as R2. assert (E0 : 0 < 1 / E) by (apply Rdiv_lt_0_compat; lra).
  apply (re_weak F _ _ (3 / 10 + 1 + / 1000 + 21 / 10 + sl)); [lra|unfold sl; lra|]. apply (re_tr F MW MB BB PR _ (h + q)); [lra|lra|lra|exact R2|]. unfold q. apply g_exp; [lra|lra|pose proof ps; lra|exact C'].
Qed.
(** -t/(t+2) with t = exp(-2x) - 1 *)
Lemma th_small t X : rel_err F 2 (exp (- (2 * X)) - 1) t -> bpow radix2 (emin F + mw F) <= X <= 25542 / 100000 -> exp (- (2 * X)) >= 5999 / 10000 -> rel_err F 4 (tanh X) (fdiv F (Format.fneg F t) (fadd F t w)).
Proof.
  intros (A & B & C) XB EB. set (S := 1 - exp (- (2 * X))) in *. rewrite tanh_eq. fold S. pose proof ps as P. pose proof (bpow_gt_0 radix2 (emin F + mw F)) as MN.
  assert (X0 : 0 < X) by lra. assert (S0 : 0 < S). { assert (exp (- (2 * X)) < exp 0) by (apply exp_increasing; lra). rewrite exp_0 in H. unfold S. lra. } assert (S4 : S <= 4001 / 10000) by (unfold S; lra).
  set (h := - val F t). assert (C' : Rabs (h - S) <= 4 * p * S). { rewrite (re_eps F) in C. fold p in C. replace (exp (- (2 * X)) - 1) with (- S) in C by (unfold S; ring). rewrite Rabs_Ropp, (Rabs_pos_eq S) in C by lra. unfold h. replace (- val F t - S) with (- (val F t - - S)) by ring. rewrite Rabs_Ropp. lra. }
  destruct (pert S h (4 * p) S0 ltac:(lra) C') as [HB H0]. destruct (fneg_fields F t A) as (NB & _). assert (NF : finite F (Format.fneg F t) = true) by (rewrite fneg_finite by exact A; exact B). assert (NV : val F (Format.fneg F t) = h) by (rewrite fneg_val by exact A; reflexivity).
  pose proof (fadd_spec F t w B (proj1 (proj2 Fw))) as RT. rewrite (proj2 (proj2 Fw)) in RT. replace (val F t + 2) with (2 - h) in RT by (unfold h; ring).
  pose proof (re_fin F MW MB BB _ _ _ (2 - h) 0 RT ltac:(apply inr_b; lra) ltac:(lra) ltac:(rewrite Rminus_diag_eq, Rabs_R0 by reflexivity; lra)) as RD. apply (re_weak F _ _ _ (1001 / 1000)) in RD; [|lra|lra].
  assert (GP : 0 < S / (2 - S)) by (apply Rdiv_lt_0_compat; lra).
  destruct (Rle_lt_dec (/ 1048576) S) as [L | L].
  - pose proof (re_exact F _ NB NF) as RN. rewrite NV in RN. assert (QB : / 4194304 <= h / (2 - h) <= 1). { assert (/ 2 <= / (2 - h) <= 1) by (split; [apply Rinv_le; lra|rewrite <- Rinv_1; apply Rinv_le; lra]). unfold Rdiv. nra. }
    pose proof (re_div F MW MB BB _ _ h (2 - h) 0 (1001 / 1000) H0 ltac:(lra) ltac:(apply inr_b; lra) ltac:(lra) ltac:(lra) RN RD) as RQ.
    assert (W : 2 / (2 - h) <= 12515 / 10000). { apply Rmult_le_reg_r with (2 - h); [lra|]. unfold Rdiv at 1. rewrite Rmult_assoc, Rinv_l by lra. lra. } assert (W0 : 0 < 2 / (2 - h)) by (apply Rdiv_lt_0_compat; lra).
    apply (re_rel F MW MB BB PR _ _ (0 + 1001 / 1000 + 1 + / 1000 + 5006 / 1000 + sl)); [lra|unfold sl; lra|]. apply (re_tr F MW MB BB PR _ (h / (2 - h))); [lra|lra|lra|exact RQ|]. eapply Rle_trans; [apply (g_tanh2 S h (4 * p)); lra|]. apply Rmult_le_compat_r; [lra|]. assert (p * (2 / (2 - h)) <= p * (12515 / 10000)) by (apply Rmult_le_compat_l; lra). fold p. lra.
  - destruct RD as (DB & DF & DV). fold p in DV. set (d := val F (fadd F t w)) in *. assert (D1 : 1001 / 1000 * p * (2 - h) <= / 1000000 * 2) by nra. assert (D2 : 19999 / 10000 <= d <= 20001 / 10000) by (apply Rabs_le_inv in DV; lra).
    pose proof (fdiv_spec F _ _ NF DF ltac:(fold d; lra)) as RQ. rewrite NV in RQ. fold d in RQ. set (a := h / d) in *. set (b := h / (2 - h)). set (g := S / (2 - S)) in *. assert (A0 : 0 < a) by (unfold a; apply Rdiv_lt_0_compat; lra). assert (B0 : 0 < b) by (unfold b; apply Rdiv_lt_0_compat; lra).
    assert (AB : Rabs (a - b) <= 1002 / 1000 * p * b). { replace (a - b) with (b * ((2 - h - d) * / d)) by (unfold a, b; field; lra). rewrite Rabs_mult, (Rabs_pos_eq b) by lra. rewrite (Rmult_comm _ b). apply Rmult_le_compat_l; [lra|]. rewrite Rabs_mult. assert (/ d <= 50003 / 100000) by (replace (50003 / 100000) with (/ (100000 / 50003)) by field; apply Rinv_le; lra). assert (0 < / d) by (apply Rinv_0_lt_compat; lra). rewrite (Rabs_pos_eq (/ d)) by lra. rewrite <- Rabs_Ropp, Ropp_minus_distr. pose proof (Rabs_pos (d - (2 - h))). apply Rle_trans with (1001 / 1000 * p * 2 * (50003 / 100000)); [apply Rmult_le_compat; nra|nra]. }
    assert (BG : Rabs (b - g) <= 4001 / 1000 * p * g). { eapply Rle_trans; [apply (g_tanh2 S h (4 * p)); lra|]. fold g. apply Rmult_le_compat_r; [lra|]. assert (2 / (2 - h) <= 10001 / 10000). { apply Rmult_le_reg_r with (2 - h); [lra|]. unfold Rdiv at 1. rewrite Rmult_assoc, Rinv_l by lra. lra. } assert (p * (2 / (2 - h)) <= p * (10001 / 10000)) by (apply Rmult_le_compat_l; lra). lra. }
    assert (BG2 : b <= 1001 / 1000 * g). { apply Rabs_le_inv in BG. assert (4001 / 1000 * p * g <= / 1000 * g) by (apply Rmult_le_compat_r; lra). lra. } assert (AG2 : a <= 1002 / 1000 * g). { apply Rabs_le_inv in AB. assert (1002 / 1000 * p * b <= / 100000 * b) by (apply Rmult_le_compat_r; lra). lra. }
    assert (GU : g <= / 1000). { unfold g. apply Rmult_le_reg_r with (2 - S); [lra|]. unfold Rdiv at 1. rewrite Rmult_assoc, Rinv_l by lra. lra. }
    assert (XS : X <= / 1000). { destruct (Rle_lt_dec X (/ 1000)) as [q | q]; [exact q|]. exfalso. assert (exp (- (2 * X)) < exp (- (2 * / 1000))) by (apply exp_increasing; lra). pose proof (exp_ineq1_le (2 * / 1000)) as I. rewrite (exp_Ropp (2 * / 1000)) in H. assert (J : / exp (2 * / 1000) <= / (501 / 500)) by (apply Rinv_le; lra). replace (/ (501 / 500)) with (500 / 501) in J by field. unfold S in L. lra. }
    assert (GX : X <= 101 / 100 * g). { pose proof (tanh_b X ltac:(lra)) as TB. rewrite tanh_eq in TB. fold S in TB. cbv zeta in TB. fold g in TB. nra. }
    assert (T0 : bpow radix2 (emin F - 1) <= p * (101 / 100 * g)). { replace (emin F - 1)%Z with (- pr F + (emin F + mw F))%Z by (unfold pr; lia). rewrite bpow_plus. fold p. apply Rmult_le_compat_l; lra. }
    pose proof (rndF_abs F a) as RA. fold p in RA. rewrite (Rabs_pos_eq a) in RA by lra. destruct (rounds_fin F _ _ _ RQ) as [G V]. { rewrite Rabs_pos_eq by lra. apply Rle_trans with (bpow radix2 0); [change (bpow radix2 0) with 1; lra|apply bpow_le; lia]. }
    split; [exact (proj1 RQ)|]. split; [exact G|]. rewrite V, (re_eps F), (Rabs_pos_eq g) by lra. fold p. replace (rnd F a - g) with ((rnd F a - a) + ((a - b) + (b - g))) by ring. eapply Rle_trans; [apply Rabs_triang|]. pose proof (Rabs_triang (a - b) (b - g)). assert (p * a <= p * (1002 / 1000 * g)) by (apply Rmult_le_compat_l; lra). assert (p * b <= p * (1001 / 1000 * g)) by (apply Rmult_le_compat_l; lra). assert (0 <= p * g) by (apply Rmult_le_pos; lra). lra.
Qed.
Lemma tiny_tanh x : isbits F x -> finite F x = true -> 0 <= val F x <= bpow radix2 (emin F + mw F) -> rel_err F 4 (tanh (val F x)) x.
Proof.
  intros B G H. split; [exact B|]. split; [exact G|]. set (X := val F x) in *. pose proof ps as P. assert (XP : X <= p * / 1048576). { destruct H as [_ H]. eapply Rle_trans; [exact H|]. change (/ 1048576) with (bpow radix2 (-20)). unfold p. rewrite <- bpow_plus. apply bpow_le. unfold emin, pr in *. lia. }
  pose proof (tanh_b X ltac:(lra)) as TB. assert (XX : X * X <= X * (p * / 1048576)) by (apply Rmult_le_compat_l; lra). assert (0 <= X * X) by nra. assert (X * p <= X * / 16777216) by (apply Rmult_le_compat_l; lra). rewrite (Rabs_pos_eq (tanh X)) by nra. rewrite (re_eps F). fold p. assert (p * (X - 2 * (X * X)) <= p * tanh X) by (apply Rmult_le_compat_l; lra). assert (0 <= p * X) by (apply Rmult_le_pos; lra). assert (p * (X * X) <= / 16777216 * (X * X)) by (apply Rmult_le_compat_r; lra). apply Rabs_le. split; nra.
Qed.
Lemma one_tanh X r : isbits F r -> finite F r = true -> val F r = 1 -> 2 <= p * exp (2 * X) -> rel_err F 4 (tanh X) r.
Proof.
  intros B G V H. split; [exact B|]. split; [exact G|]. rewrite V, tanh_eq2. cbv zeta. pose proof ps as P. set (E := exp (2 * X)) in *. assert (EB : 33554432 <= E). { destruct (Rle_lt_dec 33554432 E) as [q | q]; [exact q|]. exfalso. assert (0 < E) by apply exp_pos. assert (p * E <= / 16777216 * E) by (apply Rmult_le_compat_r; lra). lra. }
  replace (E - 1 + 2) with (E + 1) by ring. replace (1 - (E - 1) / (E + 1)) with (2 * / (E + 1)) by (field; lra). assert (I : 0 < / (E + 1)) by (apply Rinv_0_lt_compat; lra). assert (J : (E + 1) * / (E + 1) = 1) by (apply Rinv_r; lra). replace ((E - 1) / (E + 1)) with (1 - 2 * / (E + 1)) by (field; lra). assert (/ (E + 1) <= / 33554432) by (apply Rinv_le; lra). rewrite !Rabs_pos_eq by lra. rewrite (re_eps F). fold p.
  assert (2 * / (E + 1) <= p). { apply Rle_trans with (p * E * / (E + 1)); [apply Rmult_le_compat_r; lra|]. rewrite Rmult_assoc. assert (E * / (E + 1) <= 1) by lra. nra. } nra.
Qed.
End G.

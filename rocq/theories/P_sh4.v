(** The branches of sinh, cosh and tanh over any format, in terms of the argument. *)
From Coq Require Import ZArith Reals Lia Lra Bool List Psatz.
From Flocq Require Import Core Mult_error Sterbenz.
From Verif Require Import Base Spec SpecExp SpecLog2 Format P_format Ieee P_ieee P_real P_neg P_lit P_err P_apx P_poly P_powt P_taylor P_expa1 P_expa7 P_expa9 P_expa11 P_hy1 P_hy2 P_em2 P_sh1 P_sh2 P_sh3.
Import ListNotations.
Open Scope R_scope.
Local Opaque fadd fsub fmul fdiv of_int.

Ltac tay v n := let T := fresh "T" in pose proof (exp_taylor v n ltac:(apply Rabs_le; lra)) as T; cbn [texp seq map peval fst snd pow] in T;
  repeat match type of T with context [fz ?k] => let z := eval vm_compute in (fz k) in change (fz k) with z in T end; first [rewrite (Rabs_pos_eq v) in T by lra | rewrite (Rabs_left1 v) in T by lra]; apply Rabs_le_inv in T; lra.
Lemma e_1 : 27 / 10 <= exp 1 <= 2719 / 1000. Proof. tay 1 8%nat. Qed.
Lemma e_th0 : 17319 / 10000 <= exp (5493 / 10000). Proof. tay (5493 / 10000) 8%nat. Qed.
Lemma e_tm0 : 166 / 100 <= exp (5108 / 10000). Proof. tay (5108 / 10000) 8%nat. Qed.
Lemma e_ts0 : 5999 / 10000 <= exp (- (51084 / 100000)). Proof. tay (- (51084 / 100000)) 8%nat. Qed.
Lemma e_th X : 5493 / 10000 <= X -> 2999 / 1000 <= exp (2 * X).
Proof. intros H. apply Rle_trans with (exp (5493 / 10000 + 5493 / 10000)); [|apply exp_mono; lra]. rewrite exp_plus. pose proof e_th0. nra. Qed.
Lemma e_tm X : 2554 / 10000 <= X -> 166 / 100 <= exp (2 * X).
Proof. intros H. apply Rle_trans with (exp (5108 / 10000)); [exact e_tm0|apply exp_mono; lra]. Qed.
Lemma e_ts X : X <= 25542 / 100000 -> exp (- (2 * X)) >= 5999 / 10000.
Proof. intros H. apply Rle_ge. apply Rle_trans with (exp (- (51084 / 100000))); [exact e_ts0|apply exp_mono; lra]. Qed.
Lemma e_pw k X : IZR k * ln 2 <= X -> bpow radix2 k <= exp X.
Proof. intros H. rewrite <- exp_ln2. now apply exp_mono. Qed.
Lemma e_pu k X : X <= IZR k * ln 2 -> exp X <= bpow radix2 k.
Proof. intros H. rewrite <- exp_ln2. now apply exp_mono. Qed.
Lemma ln2_lo : 6931471805599 / 10000000000000 <= ln 2 <= 69314718055995 / 100000000000000.
Proof. pose proof ln2_b as L. apply Rabs_le_inv in L. change (2 ^ 86)%Z with 77371252455336267181195264%Z in L. lra. Qed.
Lemma e_sh k d X : Rabs d <= / 4000 -> X = IZR k * ln 2 + d -> Rabs (exp X - bpow radix2 k * (1 + d + d * d / 2)) <= bpow radix2 k * (Rabs d * Rabs d * Rabs d / 3).
Proof. intros D ->. rewrite exp_plus, exp_ln2, <- Rmult_minus_distr_l, Rabs_mult, (Rabs_pos_eq (bpow _ _)) by apply bpow_ge_0. apply Rmult_le_compat_l; [apply bpow_ge_0|]. now apply exp_2. Qed.
Lemma e_below k d X : 0 <= d <= / 4000 -> X <= IZR k * ln 2 - d -> exp X <= bpow radix2 k * (1 - d + d * d).
Proof.
  intros D H. apply Rle_trans with (exp (IZR k * ln 2 - d)); [now apply exp_mono|]. pose proof (e_sh k (- d) (IZR k * ln 2 - d) ltac:(rewrite Rabs_Ropp, Rabs_pos_eq; lra) ltac:(ring)) as E. rewrite Rabs_Ropp, (Rabs_pos_eq d) in E by lra. apply Rabs_le_inv in E. pose proof (bpow_gt_0 radix2 k). set (b := bpow radix2 k) in *.
  assert (b * (d * d * d / 3) <= b * (d * d / 2)) by (apply Rmult_le_compat_l; [lra|nra]). lra.
Qed.
Lemma e_above k d X : 0 <= d -> IZR k * ln 2 + d <= X -> bpow radix2 k * (1 + d) <= exp X.
Proof. intros D H. apply Rle_trans with (exp (IZR k * ln 2 + d)); [|now apply exp_mono]. rewrite exp_plus, exp_ln2. apply Rmult_le_compat_l; [apply bpow_ge_0|]. apply exp_ineq1_le. Qed.

Section G.
Set Default Proof Using "All".
Variable F : fmt.
Hypothesis MW : (23 <= mw F)%Z.
Hypothesis MB : (pr F + 101 <= 1 - emin F)%Z.
Hypothesis BB : (90 <= bias F)%Z.
Hypothesis PR : (pr F <= 53)%Z.
Let p := bpow radix2 (- pr F).
Let ps : 0 < p <= / 16777216 := re_p F MW.
Lemma p53 : / 9007199254740992 <= p.
Proof. change (/ 9007199254740992) with (bpow radix2 (-53)). apply bpow_le. lia. Qed.
Lemma rel_neg c v r : rel_err F c v r -> rel_err F c (- v) (Format.fneg F r).
Proof.
  intros (B & G & C). split; [exact (proj1 (fneg_fields F r B))|]. split; [now rewrite fneg_finite|]. rewrite fneg_val, Rabs_Ropp by exact B. replace (- val F r - - v) with (- (val F r - v)) by ring. now rewrite Rabs_Ropp.
Qed.
Variables o w : Z.
Hypothesis Fo : isbits F o /\ finite F o = true /\ val F o = 1.
Hypothesis Fw : isbits F w /\ finite F w = true /\ val F w = 2.
Variable M : R.
Hypothesis HM : M = bpow radix2 (bias F + 1).

(** the sums and quotients of sinh *)
Lemma sinh_small t h X : rel_err F 2 (exp X - 1) t -> finite F h = true -> Rabs (val F h) = / 2 -> / 67108864 <= X <= 1 ->
  rel_err F 4 (val F h * 2 * sinh X) (fmul F h (fsub F (fmul F w t) (fdiv F (fmul F t t) (fadd F t o)))).
Proof.
  intros HT Fh Vh XB. pose proof (exp_ineq1_le X) as E1. assert (E2 : exp X <= 2719 / 1000) by (apply Rle_trans with (exp 1); [apply exp_mono; lra|apply e_1]). set (T := exp X - 1) in *.
  assert (HT4 : RE F t T 4). { replace 4 with (2 * 2) by ring. apply rel_re; try assumption. unfold T; lra. }
  assert (TB : / 67108864 <= T <= 1719 / 1000) by (unfold T; lra). pose proof (sh_small F MW MB BB PR o w Fo Fw t T HT4 ltac:(lra)) as R.
  replace (val F h * 2 * sinh X) with (val F h * (T + T / (T + 1))) by (rewrite (sinh_eq X); cbv zeta; fold T; field; lra).
  apply (half_rel F MW MB BB PR) with (k := 13 / 2); try assumption; try lra. assert (0 < T / (T + 1)) by (apply Rdiv_lt_0_compat; lra). lra.
Qed.
Lemma sinh_mid t h X : rel_err F 2 (exp X - 1) t -> finite F h = true -> Rabs (val F h) = / 2 -> 1 <= X -> exp X <= (1 - / 100000) * M ->
  rel_err F 4 (val F h * 2 * sinh X) (fmul F h (fadd F t (fdiv F t (fadd F t o)))).
Proof.
  intros HT Fh Vh XB XU. assert (E2 : 27 / 10 <= exp X) by (apply Rle_trans with (exp 1); [apply e_1|apply exp_mono; lra]). set (T := exp X - 1) in *.
  assert (HT4 : RE F t T 4). { replace 4 with (2 * 2) by ring. apply rel_re; try assumption. unfold T; lra. }
  assert (TB : 17 / 10 <= T <= (1 - / 100000) * bpow radix2 (bias F + 1)) by (rewrite <- HM; unfold T; lra).
  replace (val F h * 2 * sinh X) with (val F h * (T + T / (T + 1))) by (rewrite (sinh_eq X); cbv zeta; fold T; field; lra). assert (QB : 0 < T / (T + 1)) by (apply Rdiv_lt_0_compat; lra).
  assert (R : RE F (fadd F t (fdiv F t (fadd F t o))) (T + T / (T + 1)) 6).
  { destruct (Rle_lt_dec T 1180591620717411303424) as [C | C]; [apply (sh_mid F MW MB BB PR o w Fo Fw t T HT4); lra|].
    destruct (big_one F MW MB BB PR o w Fo Fw t T HT4 ltac:(lra)) as [G1 V1]. apply (big_add F MW MB BB PR o w Fo Fw t T HT4); try assumption; try lra. split; [lra|]. apply Rmult_le_reg_r with (T + 1); [lra|]. unfold Rdiv. rewrite Rmult_assoc, Rinv_l; lra. }
  apply (half_rel F MW MB BB PR) with (k := 6); try assumption; lra.
Qed.
Lemma cosh_small t X : rel_err F 2 (exp X - 1) t -> / 67108864 <= X -> exp X <= 2 ->
  rel_err F 3 (cosh X) (fadd F o (fdiv F (fmul F t t) (fmul F w (fadd F o t)))).
Proof.
  intros HT XB E2. pose proof (exp_ineq1_le X) as E1. set (T := exp X - 1) in *.
  assert (HT4 : RE F t T 4). { replace 4 with (2 * 2) by ring. apply rel_re; try assumption. unfold T; lra. }
  assert (TB : / 67108864 <= T <= 1) by (unfold T; lra). pose proof (ch_small F MW MB BB PR o w Fo Fw t T HT4 ltac:(lra)) as R.
  rewrite (cosh_eq X). cbv zeta. fold T. assert (0 <= T * T / (2 * (1 + T))) by (apply Rmult_le_pos; [nra|left; apply Rinv_0_lt_compat; lra]). apply (re_rel F MW MB BB PR) with (k := 4); try assumption; lra.
Qed.
Lemma cosh_mid t h X : within_eps F (exp X) t -> finite F h = true -> val F h = / 2 -> 19 / 10 <= exp X -> exp X <= (1 - / 100000) * M ->
  rel_err F 3 (cosh X) (fmul F h (fadd F t (fdiv F o t))).
Proof.
  intros (A & B & C) Fh Vh EL EU. set (E := exp X) in *. pose proof ps as P. rewrite (re_eps F), (Rabs_pos_eq E) in C by lra. fold p in C.
  assert (T0 : bpow radix2 (1 - bias F - mw F - 1) <= / 1000 * p). { apply Rle_trans with (bpow radix2 (-20 + - pr F)); [apply bpow_le; unfold emin in MB; lia|]. rewrite bpow_plus. change (bpow radix2 (-20)) with (/ 1048576). fold p. lra. }
  assert (PE : p * (19 / 10) <= p * E) by (apply Rmult_le_compat_l; lra). assert (C' : Rabs (val F t - E) <= 21 / 10 * p * E) by lra. assert (HT : RE F t E 4) by (split; [exact A|]; split; [exact B|]; fold p; lra).
  assert (I : 0 < 1 / E <= 1). { unfold Rdiv. rewrite Rmult_1_l. apply inv01. lra. }
  assert (R : RE F (fadd F t (fdiv F o t)) (E + 1 / E) 6).
  { destruct (Rle_lt_dec E 1180591620717411303424) as [D | D].
    - destruct (ch_mid F MW MB BB PR o w Fo Fw t E HT C' ltac:(lra)) as (R1 & R2 & R3). split; [exact R1|]. split; [exact R2|]. eapply Rle_trans; [exact R3|]. fold p. apply Rmult_le_compat_r; lra.
    - rewrite HM in EU. destruct (big_inv F MW MB BB PR o w Fo Fw t E HT ltac:(lra)) as [G1 V1]. apply (big_add F MW MB BB PR o w Fo Fw t E HT); try assumption; try lra. }
  replace (cosh X) with (val F h * (E + 1 / E)) by (rewrite (cosh_eq2 X), Vh; reflexivity). apply (half_rel F MW MB BB PR) with (k := 6); try assumption; try lra. rewrite Vh. apply Rabs_pos_eq. lra.
Qed.
(** half the exponential is the hyperbolic sine and cosine of large arguments *)
Lemma half_exp X : 1152921504606846976 <= exp X -> 0 < exp (- X) <= / 1152921504606846976.
Proof. intros H. split; [apply exp_pos|]. rewrite exp_Ropp. apply Rinv_le; lra. Qed.
Lemma big_sinh r X : RE F r (exp X / 2) 3 -> 1152921504606846976 <= exp X -> RE F r (sinh X) 4 /\ RE F r (cosh X) 4.
Proof.
  intros R H. pose proof (half_exp X H) as I. pose proof p53 as Q. unfold sinh, cosh. set (E := exp X) in *. set (I0 := exp (- X)) in *. assert (PB : p * 1 <= p * ((E - I0) / 2)) by (apply Rmult_le_compat_l; lra). assert (PB2 : p * 1 <= p * ((E + I0) / 2)) by (apply Rmult_le_compat_l; lra).
  split.
  - destruct (re_tr F MW MB BB PR r (E / 2) ((E - I0) / 2) 3 (/ 100) ltac:(lra) ltac:(lra) ltac:(lra) R) as (R1 & R2 & R3). { fold p. replace (E / 2 - (E - I0) / 2) with (I0 / 2) by field. rewrite Rabs_pos_eq by lra. lra. } split; [exact R1|]. split; [exact R2|]. eapply Rle_trans; [exact R3|]. fold p. apply Rmult_le_compat_r; [lra|]. apply Rmult_le_compat_r; lra.
  - destruct (re_tr F MW MB BB PR r (E / 2) ((E + I0) / 2) 3 (/ 100) ltac:(lra) ltac:(lra) ltac:(lra) R) as (R1 & R2 & R3). { fold p. replace (E / 2 - (E + I0) / 2) with (- (I0 / 2)) by field. rewrite Rabs_Ropp, Rabs_pos_eq by lra. lra. } split; [exact R1|]. split; [exact R2|]. eapply Rle_trans; [exact R3|]. fold p. apply Rmult_le_compat_r; [lra|]. apply Rmult_le_compat_r; lra.
Qed.
Lemma lt_big X : 1152921504606846976 <= exp X -> (1 + 4 * p) * (exp X / 2) < M -> sinh X < M /\ cosh X < M.
Proof. intros H L. pose proof (half_exp X H) as I. pose proof p53 as Q. unfold sinh, cosh. set (E := exp X) in *. assert (p * (1152921504606846976 / 2) <= p * (E / 2)) by (apply Rmult_le_compat_l; lra). split; lra. Qed.
Lemma ge_big X : (1 + 4 * p) * M <= exp X / 2 -> M <= sinh X /\ M <= cosh X.
Proof.
  intros H. pose proof p53 as Q. assert (MM : 1152921504606846976 <= M). { rewrite HM. change 1152921504606846976 with (bpow radix2 60). apply bpow_le. lia. } assert (p * 1152921504606846976 <= p * M) by (apply Rmult_le_compat_l; lra). pose proof (half_exp X ltac:(lra)) as I. unfold sinh, cosh. split; lra.
Qed.
(** tanh *)
Lemma tanh_big t X : rel_err F 2 (exp (2 * X) - 1) t -> 5493 / 10000 <= X -> exp (2 * X) <= 1180591620717411303424 -> rel_err F 4 (tanh X) (fsub F o (fdiv F w (fadd F t w))).
Proof.
  intros HT XB EU. pose proof (e_th X XB) as E1. set (T := exp (2 * X) - 1) in *. assert (HT4 : RE F t T 4). { replace 4 with (2 * 2) by ring. apply rel_re; try assumption. unfold T; lra. }
  assert (TB : 1999 / 1000 <= T <= 1180591620717411303424) by (unfold T; lra). rewrite (tanh_eq2 X). cbv zeta. fold T. apply (re_rel F MW MB BB PR) with (k := 52 / 10); [left; apply Rdiv_lt_0_compat; lra|lra|]. exact (th_big F MW MB BB PR o w Fo Fw t T HT4 TB).
Qed.
Lemma tanh_mid t X : rel_err F 2 (exp (2 * X) - 1) t -> 2554 / 10000 <= X -> exp (2 * X) <= 4 -> rel_err F 4 (tanh X) (fdiv F t (fadd F t w)).
Proof.
  intros HT XB EU. pose proof (e_tm X XB) as E1. set (T := exp (2 * X) - 1) in *. assert (HT4 : RE F t T 4). { replace 4 with (2 * 2) by ring. apply rel_re; try assumption. unfold T; lra. }
  assert (TB : 66 / 100 <= T <= 3) by (unfold T; lra). rewrite (tanh_eq2 X). cbv zeta. fold T. apply (re_rel F MW MB BB PR) with (k := 52 / 10); [left; apply Rdiv_lt_0_compat; lra|lra|]. exact (th_mid F MW MB BB PR o w Fo Fw t T HT4 TB).
Qed.
(** 1 - 0/x and 1 + 0/x *)
Lemma one_zero z x : finite F z = true -> val F z = 0 -> finite F x = true -> val F x <> 0 -> (isbits F (fsub F o (fdiv F z x)) /\ finite F (fsub F o (fdiv F z x)) = true /\ val F (fsub F o (fdiv F z x)) = 1) /\ (isbits F (fadd F o (fdiv F z x)) /\ finite F (fadd F o (fdiv F z x)) = true /\ val F (fadd F o (fdiv F z x)) = 1).
Proof.
  intros Fz Vz Fx Nx. pose proof (fdiv_spec F z x Fz Fx Nx) as RT. rewrite Vz in RT. replace (0 / val F x) with 0 in RT by (unfold Rdiv; ring). destruct (rounds_fin F _ _ _ RT) as [G V]. { rewrite Rabs_R0. apply bpow_ge_0. } rewrite rnd_0 in V. destruct Fo as (_ & Go & Vo).
  assert (R1 : rnd F 1 = 1) by (rewrite <- Vo; apply repr_rnd, repr_val; exact Go). assert (BM : Rabs 1 <= bpow radix2 (bias F)) by (rewrite Rabs_R1; change 1 with (bpow radix2 0); apply bpow_le; lia).
  split.
  - pose proof (fsub_spec F o _ Go G) as S. rewrite V, Vo, Rminus_0_r in S. destruct (rounds_fin F _ _ _ S) as [G2 V2]; [exact BM|]. split; [exact (proj1 S)|]. split; [exact G2|]. now rewrite V2.
  - pose proof (fadd_spec F o _ Go G) as S. rewrite V, Vo, Rplus_0_r in S. destruct (rounds_fin F _ _ _ S) as [G2 V2]; [exact BM|]. split; [exact (proj1 S)|]. split; [exact G2|]. now rewrite V2.
Qed.
End G.

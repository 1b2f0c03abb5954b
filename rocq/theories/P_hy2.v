(** Relative errors: exact scalings and differences, logarithms. *)
From Coq Require Import ZArith Reals Lia Lra Bool List Psatz.
From Flocq Require Import Core Sterbenz Mult_error.
From Verif Require Import Base Spec SpecFun2 SpecFun3 SpecLog SpecLog1p SpecLog2 Format P_format Ieee P_ieee P_real P_neg P_lit P_err P_scalbn P_apx P_hy1.
Open Scope R_scope.
Local Opaque fadd fsub fmul fdiv of_int.

Lemma lnq a b : 0 < a -> 0 < b -> ln a - ln b <= (a - b) / b.
Proof.
  intros A B. assert (Q : 0 < a / b) by (apply Rdiv_lt_0_compat; assumption). assert (E : ln a = ln (a / b) + ln b). { rewrite <- ln_mult by assumption. f_equal. field. lra. }
  pose proof (exp_ineq1_le (ln (a / b))) as I. rewrite exp_ln in I by exact Q. replace ((a - b) / b) with (a / b - 1) by (field; lra). lra.
Qed.

Section C.
Variable F : fmt.
Hypothesis MW : (23 <= mw F)%Z.
Hypothesis MB : (pr F + 101 <= 1 - emin F)%Z.
Hypothesis BB : (90 <= bias F)%Z.
Let p := bpow radix2 (- pr F).
Let sl := / 1000.

Lemma re_eps : bpow radix2 (- mw F) = 2 * p.
Proof. unfold p, pr. replace (- mw F)%Z with (1 + - (mw F + 1))%Z by lia. rewrite bpow_plus. reflexivity. Qed.
(** multiplication by a power of two *)
Lemma re_scale c x V k e : finite F c = true -> val F c = bpow radix2 e -> (-2 <= e <= 2)%Z -> inr V -> inr (bpow radix2 e * V) -> 0 <= k <= 8 -> RE F x V k -> RE F (fmul F c x) (bpow radix2 e * V) k.
Proof.
  intros Fc Vc He I I2 K HX. pose proof (re_p F MW) as P. fold p in P. pose proof (re_bd F MW x V k (inr_pos V I) ltac:(lra) HX) as (B1 & Q1 & X0). fold p in B1, Q1. destruct HX as (A & G & C). fold p in C.
  pose proof (fmul_spec F c x Fc G) as RT. rewrite Vc in RT. set (v := val F x) in *. pose proof (bpow_gt_0 radix2 e) as E0. pose proof (inr_pos _ I) as V0. pose proof (bpow_gt_0 radix2 (-80)) as L0.
  assert (R : rnd F (bpow radix2 e * v) = bpow radix2 e * v).
  { apply repr_rnd. unfold repr. rewrite Rmult_comm. apply mult_bpow_exact_FLT; [exact (repr_val F x G)|]. assert (M : (-81 < mag radix2 v)%Z). { apply mag_gt_bpow. rewrite Rabs_pos_eq by lra. change (-81)%Z with (-1 + -80)%Z. rewrite bpow_plus. change (bpow radix2 (-1)) with (/ 2). destruct I. nra. } unfold emin in MB |- *. unfold pr in *. lia. }
  assert (S : Rabs (bpow radix2 e * v - bpow radix2 e * V) <= k * p * (bpow radix2 e * V)). { rewrite <- Rmult_minus_distr_l, Rabs_mult, (Rabs_pos_eq (bpow radix2 e)) by lra. replace (k * p * (bpow radix2 e * V)) with (bpow radix2 e * (k * p * V)) by ring. apply Rmult_le_compat_l; lra. }
  destruct (re_round F MW MB BB _ _ k I2 ltac:(lra) S) as [_ OV]. destruct (rounds_fin F _ _ _ RT OV) as [G1 V1]. split; [exact (proj1 RT)|]. split; [exact G1|]. rewrite V1, R. exact S.
Qed.
(** an exact difference *)
Lemma re_sterbenz x y : finite F x = true -> finite F y = true -> 0 < val F y -> val F y / 2 <= val F x <= 2 * val F y -> val F y <= 4 -> isbits F (fsub F x y) /\ finite F (fsub F x y) = true /\ val F (fsub F x y) = val F x - val F y.
Proof.
  intros Fx Fy P H M. assert (R : rnd F (val F x - val F y) = val F x - val F y). { apply repr_rnd. unfold repr. pose proof (fmt_facts F). assert (PG : Prec_gt_0 (mw F + 1)) by (unfold Prec_gt_0; lia). apply sterbenz; [apply FLT_exp_valid; exact PG|apply FLT_exp_monotone|apply (repr_val F x Fx)|apply (repr_val F y Fy)|exact H]. }
  pose proof (fsub_spec F x y Fx Fy) as RT. destruct (rounds_fin F _ _ _ RT) as [G V]. { apply Rle_trans with (bpow radix2 3); [change (bpow radix2 3) with 8; apply Rabs_le; lra|apply bpow_le; lia]. } split; [exact (proj1 RT)|]. split; [exact G|]. rewrite V. exact R.
Qed.
(** logarithms *)
Lemma re_l1 l1 w W k : log1p_like F l1 -> 0 < W -> 0 <= k <= 8 -> RE F w W k -> exists r, l1 w = Some r /\ RE F r (ln (1 + W)) (k + 2 + sl).
Proof.
  intros HL W0 K HX. pose proof (re_p F MW) as P. fold p in P. pose proof (re_bd F MW w W k W0 ltac:(lra) HX) as (B1 & Q1 & X0). pose proof (pk F MW k k ltac:(lra) ltac:(lra)) as P2. fold p in B1, Q1, P2.
  destruct (HL w (proj1 HX) (proj1 (proj2 HX)) ltac:(lra)) as (r & E & Rb & Rf & RE1). exists r. split; [exact E|]. split; [exact Rb|]. split; [exact Rf|]. fold p. rewrite re_eps in RE1. set (v := val F w) in *. set (d := k * p) in *.
  replace ((k + 2 + sl) * p * ln (1 + W)) with ((d + 2 * p + sl * p) * ln (1 + W)) by (unfold d; ring).
  pose proof (lnq (1 + v) (1 + W) ltac:(lra) ltac:(lra)) as U. pose proof (lnq (1 + W) (1 + v) ltac:(lra) ltac:(lra)) as L. pose proof (lnq 1 (1 + W) ltac:(lra) ltac:(lra)) as Z. rewrite ln_1 in Z.
  set (l := ln (1 + W)) in *. set (m := ln (1 + v)) in *. set (g := W / (1 + W)) in *. assert (G : 0 < g) by (unfold g; apply Rdiv_lt_0_compat; lra). assert (EW : W = g * (1 + W)) by (unfold g; field; lra).
  assert (GL : g <= l). { replace ((1 - (1 + W)) / (1 + W)) with (- g) in Z by (unfold g; field; lra). lra. }
  assert (U1 : (1 + v - (1 + W)) / (1 + W) <= d * g). { replace (d * g) with (d * W / (1 + W)) by (unfold g; field; lra). apply Rmult_le_compat_r; [left; apply Rinv_0_lt_compat; lra|lra]. }
  assert (L1 : (1 + W - (1 + v)) / (1 + v) <= (d + / 20000 * p) * g).
  { apply Rmult_le_reg_r with (1 + v); [lra|]. unfold Rdiv. rewrite Rmult_assoc, Rinv_l, Rmult_1_r by lra. assert (V1 : (1 - d) * (1 + W) <= 1 + v) by nra. assert (0 <= p * d <= / 1000000 * p) by nra. assert (0 <= (d + / 20000 * p) * g) by (apply Rmult_le_pos; lra).
    apply Rle_trans with ((d + / 20000 * p) * g * ((1 - d) * (1 + W))); [|apply Rmult_le_compat_l; lra]. replace ((d + / 20000 * p) * g * ((1 - d) * (1 + W))) with ((d + / 20000 * p) * (1 - d) * (g * (1 + W))) by ring. rewrite <- EW.
    apply Rle_trans with (d * W); [lra|]. apply Rmult_le_compat_r; [lra|]. nra. }
  assert (D1 : Rabs (m - l) <= (d + / 20000 * p) * l). { assert (d * g <= d * l) by (apply Rmult_le_compat_l; lra). assert ((d + / 20000 * p) * g <= (d + / 20000 * p) * l) by (apply Rmult_le_compat_l; lra). assert (0 <= p * l) by (apply Rmult_le_pos; lra). apply Rabs_le. lra. }
  assert (M0 : 0 <= m). { unfold m. rewrite <- ln_1. destruct (Rle_lt_or_eq_dec 1 (1 + v)) as [q | q]; [lra|left; apply ln_increasing; lra|rewrite <- q; lra]. }
  rewrite (Rabs_pos_eq m M0) in RE1. apply Rabs_le_inv in D1. assert (ML : m <= l + / 10000 * l). { assert ((d + / 20000 * p) * l <= / 10000 * l) by (apply Rmult_le_compat_r; lra). lra. }
  assert (PM : p * m <= p * (l + / 10000 * l)) by (apply Rmult_le_compat_l; lra). replace (val F r - l) with ((val F r - m) + (m - l)) by ring. eapply Rle_trans; [apply Rabs_triang|]. assert (0 <= p * l) by (apply Rmult_le_pos; lra).
  assert (Rabs (m - l) <= (d + / 20000 * p) * l) by (apply Rabs_le; lra). unfold sl. lra.
Qed.
Lemma re_lg lg a A k K : log_like F lg ln -> 3 / 2 <= A -> 0 <= k <= 8 -> RE F a A k -> k + 2 * ln A <= K * ln A -> exists r, lg a = Some r /\ RE F r (ln A) (K + sl).
Proof.
  intros HL A1 K1 HX HK. pose proof (re_p F MW) as P. fold p in P. pose proof (re_bd F MW a A k ltac:(lra) ltac:(lra) HX) as (B1 & Q1 & X0). pose proof (pk F MW k k ltac:(lra) ltac:(lra)) as P2. fold p in B1, Q1, P2.
  destruct (HL a (proj1 HX) (proj1 (proj2 HX)) X0) as (r & E & Rb & Rf & RE1). exists r. split; [exact E|]. split; [exact Rb|]. split; [exact Rf|]. fold p. rewrite re_eps in RE1. set (v := val F a) in *. set (d := k * p) in *.
  pose proof (lnq v A X0 ltac:(lra)) as U. pose proof (lnq A v ltac:(lra) X0) as L. pose proof (lnq 1 A ltac:(lra) ltac:(lra)) as Z. rewrite ln_1 in Z. set (l := ln A) in *. set (m := ln v) in *.
  assert (L0 : / 3 <= l). { assert (/ A <= / (3 / 2)) by (apply Rinv_le; lra). replace ((1 - A) / A) with (/ A - 1) in Z by (field; lra). lra. }
  assert (U1 : (v - A) / A <= d). { apply Rmult_le_reg_r with A; [lra|]. unfold Rdiv. rewrite Rmult_assoc, Rinv_l, Rmult_1_r by lra. lra. }
  assert (L1 : (A - v) / v <= d + / 20000 * p). { apply Rmult_le_reg_r with v; [lra|]. unfold Rdiv. rewrite Rmult_assoc, Rinv_l, Rmult_1_r by lra. assert (0 <= p * d <= / 1000000 * p) by nra. apply Rle_trans with ((d + / 20000 * p) * ((1 - d) * A)); [|apply Rmult_le_compat_l; nra]. apply Rle_trans with (d * A); [lra|]. rewrite <- Rmult_assoc. apply Rmult_le_compat_r; [lra|]. nra. }
  assert (D1 : Rabs (m - l) <= d + / 20000 * p) by (apply Rabs_le; lra). assert (D2 := D1). apply Rabs_le_inv in D2. assert (M0 : 0 <= m) by lra.
  rewrite (Rabs_pos_eq m M0) in RE1. assert (ML : m <= l + / 10000 * l) by lra.
  assert (PM : p * m <= p * (l + / 10000 * l)) by (apply Rmult_le_compat_l; lra). replace (val F r - l) with ((val F r - m) + (m - l)) by ring. eapply Rle_trans; [apply Rabs_triang|].
  assert (PK : p * (k + 2 * l) <= p * (K * l)) by (apply Rmult_le_compat_l; lra). assert (p * / 3 <= p * l) by (apply Rmult_le_compat_l; lra). unfold d in *. unfold sl. lra.
Qed.
End C.

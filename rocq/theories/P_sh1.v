(** The formulas of sinh, cosh and tanh over any format, given an accurate t = exp x - 1 (or exp x). *)
From Coq Require Import ZArith Reals Lia Lra Bool List Psatz.
From Flocq Require Import Core Mult_error Sterbenz.
From Verif Require Import Base Spec SpecLog2 Format P_format Ieee P_ieee P_real P_neg P_lit P_err P_apx P_hy1 P_hy2.
Open Scope R_scope.
Local Opaque fadd fsub fmul fdiv of_int.

(** perturbing T in T + T/(T+1), T^2/(2(T+1)), T + 1/T, T/(T+2), T/(2-T) *)
Lemma pert T h d : 0 < T -> 0 <= d <= / 1000 -> Rabs (h - T) <= d * T -> 999 / 1000 * T <= h <= 1001 / 1000 * T /\ 0 < h.
Proof. intros T0 D H. apply Rabs_le_inv in H. assert (d * T <= / 1000 * T) by (apply Rmult_le_compat_r; lra). lra. Qed.
Lemma inv01 a : 1 <= a -> 0 < / a <= 1.
Proof. intros H. split; [apply Rinv_0_lt_compat; lra|]. rewrite <- Rinv_1. apply Rinv_le; lra. Qed.
Lemma g_sinh T h d : 0 < T -> 0 <= d <= / 1000 -> Rabs (h - T) <= d * T -> Rabs (h + h / (h + 1) - (T + T / (T + 1))) <= d * (T + T / (T + 1)).
Proof.
  intros T0 D H. destruct (pert T h d T0 D H) as [P1 P2]. replace (h + h / (h + 1) - (T + T / (T + 1))) with ((h - T) * (1 + / (T + 1) * / (h + 1))) by (field; lra). pose proof (inv01 (h + 1) ltac:(lra)). pose proof (inv01 (T + 1) ltac:(lra)).
  assert (0 <= / (T + 1) * / (h + 1) <= / (T + 1)) by nra. rewrite Rabs_mult, (Rabs_pos_eq (1 + _)) by lra. replace (d * (T + T / (T + 1))) with (d * T * (1 + / (T + 1))) by (unfold Rdiv; ring). apply Rmult_le_compat; [apply Rabs_pos|lra|exact H|lra].
Qed.
Lemma g_cosh T h d : 0 < T -> 0 <= d <= / 1000 -> Rabs (h - T) <= d * T -> Rabs (h * h / (2 * (1 + h)) - T * T / (2 * (1 + T))) <= 201 / 100 * d * (T * T / (2 * (1 + T))).
Proof.
  intros T0 D H. destruct (pert T h d T0 D H) as [P1 P2]. replace (h * h / (2 * (1 + h)) - T * T / (2 * (1 + T))) with ((h - T) * ((h + T + h * T) * / (1 + h) * / (2 * (1 + T)))) by (field; lra).
  pose proof (inv01 (1 + h) ltac:(lra)) as I. assert (I2 : 0 < / (2 * (1 + T))) by (apply Rinv_0_lt_compat; lra).
  assert (Q : 0 <= (h + T + h * T) * / (1 + h) <= 201 / 100 * T).
  { split; [apply Rmult_le_pos; nra|]. apply Rmult_le_reg_r with (1 + h); [lra|]. rewrite Rmult_assoc, Rinv_l, Rmult_1_r by lra. nra. }
  rewrite Rabs_mult, (Rabs_pos_eq (_ * / (2 * (1 + T)))) by (apply Rmult_le_pos; lra). replace (201 / 100 * d * (T * T / (2 * (1 + T)))) with (d * T * (201 / 100 * T * / (2 * (1 + T)))) by (unfold Rdiv; ring).
  apply Rmult_le_compat; [apply Rabs_pos|apply Rmult_le_pos; lra|exact H|apply Rmult_le_compat_r; lra].
Qed.
Lemma g_exp T h d : 1 <= T -> 1 <= h -> 0 <= d <= / 1000 -> Rabs (h - T) <= d * T -> Rabs (h + 1 / h - (T + 1 / T)) <= d * (T + 1 / T).
Proof.
  intros T0 H0 D H. destruct (pert T h d ltac:(lra) D H) as [P1 P2]. replace (h + 1 / h - (T + 1 / T)) with ((h - T) * (1 - / h * / T)) by (field; lra). pose proof (inv01 h H0). pose proof (inv01 T T0). assert (0 <= / h * / T <= 1) by nra.
  rewrite Rabs_mult, (Rabs_pos_eq (1 - _)) by lra. apply Rle_trans with (d * T * 1); [apply Rmult_le_compat; [apply Rabs_pos|lra|exact H|lra]|]. unfold Rdiv. rewrite Rmult_1_l, Rmult_1_r, Rmult_plus_distr_l. assert (0 <= d * / T) by (apply Rmult_le_pos; lra). lra.
Qed.
Lemma g_tanh T h d : 0 < T -> 0 <= d <= / 1000 -> Rabs (h - T) <= d * T -> Rabs (h / (h + 2) - T / (T + 2)) <= d * (2 / (h + 2)) * (T / (T + 2)).
Proof.
  intros T0 D H. destruct (pert T h d T0 D H) as [P1 P2]. replace (h / (h + 2) - T / (T + 2)) with ((h - T) * (2 / (h + 2) * / (T + 2))) by (field; lra). assert (0 < / (h + 2)) by (apply Rinv_0_lt_compat; lra). assert (0 < / (T + 2)) by (apply Rinv_0_lt_compat; lra). assert (N : 0 <= 2 / (h + 2) * / (T + 2)) by (unfold Rdiv; nra).
  rewrite Rabs_mult, (Rabs_pos_eq _ N). replace (d * (2 / (h + 2)) * (T / (T + 2))) with (d * T * (2 / (h + 2) * / (T + 2))) by (unfold Rdiv; ring). apply Rmult_le_compat_r; assumption.
Qed.
Lemma g_tanh2 T h d : 0 < T <= 1 -> 0 <= d <= / 1000 -> Rabs (h - T) <= d * T -> Rabs (h / (2 - h) - T / (2 - T)) <= d * (2 / (2 - h)) * (T / (2 - T)).
Proof.
  intros T0 D H. destruct (pert T h d ltac:(lra) D H) as [P1 P2]. replace (h / (2 - h) - T / (2 - T)) with ((h - T) * (2 / (2 - h) * / (2 - T))) by (field; lra). assert (0 < / (2 - h)) by (apply Rinv_0_lt_compat; lra). assert (0 < / (2 - T)) by (apply Rinv_0_lt_compat; lra). assert (N : 0 <= 2 / (2 - h) * / (2 - T)) by (unfold Rdiv; nra).
  rewrite Rabs_mult, (Rabs_pos_eq _ N). replace (d * (2 / (2 - h)) * (T / (2 - T))) with (d * T * (2 / (2 - h) * / (2 - T))) by (unfold Rdiv; ring). apply Rmult_le_compat_r; assumption.
Qed.

Lemma inr_b V : / 1208925819614629174706176 <= V <= 1208925819614629174706176 -> inr V.
Proof. intros H. unfold inr. change (bpow radix2 (-80)) with (/ 1208925819614629174706176). change (bpow radix2 80) with 1208925819614629174706176. exact H. Qed.

Section G.
Set Default Proof Using "All".
Variable F : fmt.
Hypothesis MW : (23 <= mw F)%Z.
Hypothesis MB : (pr F + 101 <= 1 - emin F)%Z.
Hypothesis BB : (90 <= bias F)%Z.
Hypothesis PR : (pr F <= 53)%Z.
Let p := bpow radix2 (- pr F).
Let sl := / 1000.
Lemma sh_p : 0 < p <= / 16777216. Proof. exact (re_p F MW). Qed.

(** from the exact value of the float t to the exact value of the function *)
Lemma re_tr r A B k1 k2 : 0 < B -> 0 <= k1 <= 16 -> 0 <= k2 <= 16 -> RE F r A k1 -> Rabs (A - B) <= k2 * p * B -> RE F r B (k1 + k2 + sl).
Proof.
  intros B0 K1 K2 (R1 & R2 & R3) H. split; [exact R1|]. split; [exact R2|]. fold p in R3 |- *. pose proof sh_p as P. pose proof (pk F MW k1 k2 K1 K2) as Q. fold p in Q. assert (KP : 0 <= k2 * p <= / 100000) by (split; [apply Rmult_le_pos; lra|apply Rle_trans with (16 * p); [apply Rmult_le_compat_r; lra|lra]]).
  assert (A <= B + k2 * p * B) by (apply Rabs_le_inv in H; lra). assert (0 <= k1 * p) by (apply Rmult_le_pos; lra). assert (k1 * p * A <= k1 * p * (B + k2 * p * B)) by (apply Rmult_le_compat_l; lra).
  replace (val F r - B) with ((val F r - A) + (A - B)) by ring. eapply Rle_trans; [apply Rabs_triang|]. assert (k1 * p * (k2 * p) * B <= / 60000 * p * B) by (apply Rmult_le_compat_r; lra). assert (0 <= p * B) by (apply Rmult_le_pos; lra). unfold sl. lra.
Qed.
Lemma re_rel r V k c : 0 <= V -> k <= 2 * c -> RE F r V k -> rel_err F c V r.
Proof.
  intros V0 K (R1 & R2 & R3). split; [exact R1|]. split; [exact R2|]. rewrite (re_eps F), (Rabs_pos_eq V) by exact V0. fold p in R3 |- *. pose proof sh_p. eapply Rle_trans; [exact R3|]. apply Rmult_le_compat_r; [exact V0|]. replace (c * (2 * p)) with (2 * c * p) by ring. apply Rmult_le_compat_r; lra.
Qed.
Lemma rel_re r V c : 0 < V -> rel_err F c V r -> RE F r V (2 * c).
Proof. intros V0 (R1 & R2 & R3). split; [exact R1|]. split; [exact R2|]. rewrite (re_eps F), (Rabs_pos_eq V) in R3 by lra. fold p in R3 |- *. replace (2 * c * p * V) with (c * (2 * p) * V) by ring. exact R3. Qed.
Variables o w : Z.
Hypothesis Fo : isbits F o /\ finite F o = true /\ val F o = 1.
Hypothesis Fw : isbits F w /\ finite F w = true /\ val F w = 2.
Lemma re_o : RE F o 1 0. Proof. destruct Fo as (A & B & <-). now apply re_exact. Qed.
Lemma re_w : RE F w 2 0. Proof. destruct Fw as (A & B & <-). now apply re_exact. Qed.

Section T.
Variables (t : Z) (T : R).
Hypothesis HT : RE F t T 4.
Let h := val F t.
Lemma t_self : RE F t h 0. Proof. destruct HT as (A & B & _). now apply re_exact. Qed.
Lemma t_d : 0 < T -> Rabs (h - T) <= 4 * p * T /\ 0 <= 4 * p <= / 1000 /\ 999 / 1000 * T <= h <= 1001 / 1000 * T /\ 0 < h.
Proof. intros T0. destruct HT as (_ & _ & C). fold h p in C. pose proof sh_p. assert (0 <= 4 * p <= / 1000) by lra. destruct (pert T h (4 * p) T0 ltac:(lra) C). tauto. Qed.

Lemma sh_small : / 1073741824 <= T <= 1719 / 1000 -> RE F (fsub F (fmul F w t) (fdiv F (fmul F t t) (fadd F t o))) (T + T / (T + 1)) (13 / 2).
Proof.
  intros TB. destruct (t_d ltac:(lra)) as (C & D & PB & H0). pose proof t_self as R0.
  assert (HB : / 1100000000 <= h <= 1721 / 1000) by lra. assert (H2 : / 1210000000000000000 <= h * h <= 3) by nra.
  pose proof (re_scale F MW MB BB w t h 0 1 (proj1 (proj2 Fw)) (proj2 (proj2 Fw)) ltac:(lia) ltac:(apply inr_b; lra) ltac:(change (bpow radix2 1) with 2; apply inr_b; lra) ltac:(lra) R0) as R1. change (bpow radix2 1) with 2 in R1.
  pose proof (re_mul F MW MB BB t t h h 0 0 H0 H0 ltac:(apply inr_b; lra) ltac:(lra) ltac:(lra) R0 R0) as R2.
  pose proof (re_add F MW MB BB t o h 1 0 0 0 H0 ltac:(lra) ltac:(apply inr_b; lra) ltac:(lra) R0 re_o ltac:(lra)) as R3.
  set (q := h / (h + 1)). assert (QB : 0 < q <= 63251 / 100000). { unfold q. split; [apply Rdiv_lt_0_compat; lra|]. apply Rmult_le_reg_r with (h + 1); [lra|]. unfold Rdiv at 1. rewrite Rmult_assoc, Rinv_l, Rmult_1_r by lra. lra. }
  assert (E : h * h / (h + 1) = h * q) by (unfold q, Rdiv; ring).
  assert (LQ : / 1210000000000000000 <= 3 * (h * q)). { assert (/ 3 <= / (h + 1)) by (apply Rinv_le; lra). rewrite <- E. unfold Rdiv. assert (h * h * / 3 <= h * h * / (h + 1)) by (apply Rmult_le_compat_l; lra). lra. }
  assert (HQ : 0 < h * q <= 63251 / 100000 * h) by nra.
  pose proof (re_div F MW MB BB _ _ (h * h) (h + 1) (0 + 0 + 1 + / 1000) (0 + 1 + / 1000) ltac:(lra) ltac:(lra) ltac:(rewrite E; apply inr_b; lra) ltac:(lra) ltac:(lra) R2 R3) as R4. rewrite E in R4.
  pose proof (re_sub F MW MB BB _ _ (2 * h) (h * q) 0 (0 + 0 + 1 + / 1000 + (0 + 1 + / 1000) + 1 + / 1000) (14 / 10) ltac:(lra) ltac:(lra) ltac:(apply inr_b; lra) ltac:(lra) R1 R4) as R5.
  assert (R6 : 0 * (2 * h) + (0 + 0 + 1 + / 1000 + (0 + 1 + / 1000) + 1 + / 1000) * (h * q) <= 14 / 10 * (2 * h - h * q)) by lra. specialize (R5 R6).
  assert (E2 : 2 * h - h * q = h + h / (h + 1)) by (unfold q; field; lra). rewrite E2 in R5.
  assert (GT : 0 < T / (T + 1)) by (apply Rdiv_lt_0_compat; lra).
  apply (re_weak F _ _ (14 / 10 + 1 + / 1000 + 4 + sl)); [lra|unfold sl; lra|]. apply (re_tr _ (h + h / (h + 1))); [lra|lra|lra|exact R5|]. apply g_sinh; lra.
Qed.
Lemma sh_mid : 17 / 10 <= T <= 1180591620717411303424 -> RE F (fadd F t (fdiv F t (fadd F t o))) (T + T / (T + 1)) 6.
Proof.
  intros TB. destruct (t_d ltac:(lra)) as (C & D & PB & H0). pose proof t_self as R0. assert (HB : 169 / 100 <= h <= 1190591620717411303424) by lra.
  pose proof (re_add F MW MB BB t o h 1 0 0 0 H0 ltac:(lra) ltac:(apply inr_b; lra) ltac:(lra) R0 re_o ltac:(lra)) as R3.
  set (q := h / (h + 1)). assert (EQ : h = q * h + q) by (unfold q; field; lra). assert (Q0 : 0 < q) by (unfold q; apply Rdiv_lt_0_compat; lra). assert (QB : q <= 1 /\ / 2 <= q) by (split; nra).
  pose proof (re_div F MW MB BB _ _ h (h + 1) 0 (0 + 1 + / 1000) H0 ltac:(lra) ltac:(fold q; apply inr_b; lra) ltac:(lra) ltac:(lra) R0 R3) as R4. fold q in R4.
  pose proof (re_add F MW MB BB _ _ h q 0 (0 + (0 + 1 + / 1000) + 1 + / 1000) (6 / 10) H0 ltac:(lra) ltac:(apply inr_b; lra) ltac:(lra) R0 R4) as R5. assert (QH : q <= 6 / 10 * h * / 1) by (rewrite Rinv_1; nra).
  assert (R6 : 0 * h + (0 + (0 + 1 + / 1000) + 1 + / 1000) * q <= 6 / 10 * (h + q)) by nra. specialize (R5 R6). unfold q in R5.
  assert (GT : 0 < T / (T + 1)) by (apply Rdiv_lt_0_compat; lra).
  apply (re_weak F _ _ (6 / 10 + 1 + / 1000 + 4 + sl)); [lra|unfold sl; lra|]. apply (re_tr _ (h + h / (h + 1))); [lra|lra|lra|exact R5|]. apply g_sinh; lra.
Qed.
(** a huge t plus a number of size about one *)
Lemma big_add s S : 1152921504606846976 <= T <= (1 - / 100000) * bpow radix2 (bias F + 1) -> finite F s = true -> 0 <= val F s <= 2 -> 0 <= S <= 2 -> RE F (fadd F t s) (T + S) 6.
Proof.
  intros TB Fs SB S2. destruct (t_d ltac:(lra)) as (C & D & PB & H0). destruct HT as (A1 & A2 & _). pose proof sh_p as P. set (b := val F s) in *.
  pose proof (fadd_spec F t s A2 Fs) as RT. fold h b in RT. pose proof (rndF_abs F (h + b)) as Q. fold p in Q. rewrite (Rabs_pos_eq (h + b)) in Q by lra.
  assert (T0 : bpow radix2 (emin F - 1) <= / 1048576 * p). { apply Rle_trans with (bpow radix2 (-20 + - pr F)); [apply bpow_le; lia|]. rewrite bpow_plus. change (bpow radix2 (-20)) with (/ 1048576). fold p. lra. }
  assert (PT : 128 <= p * T). { apply Rle_trans with (bpow radix2 (-53) * 1152921504606846976); [change (bpow radix2 (-53)) with (/ 9007199254740992); lra|]. apply Rmult_le_compat; [apply bpow_ge_0|lra|apply bpow_le; lia|lra]. }
  assert (PH : p * (h + b) <= / 16777216 * (h + b)) by (apply Rmult_le_compat_r; lra). pose proof (bpow_ge_0 radix2 (bias F + 1)) as B0. assert (H3 : h <= T + 4 * p * T) by (apply Rabs_le_inv in C; lra). assert (P4 : 4 * p * T <= 4 * / 16777216 * T) by (apply Rmult_le_compat_r; lra).
  assert (RB : Rabs (rnd F (h + b)) < bpow radix2 (bias F + 1)). { apply Rabs_le_inv in Q. apply Rabs_def1; lra. }
  destruct RT as [RT1 RT2]. rewrite Rlt_bool_true in RT2 by exact RB. destruct RT2 as (G & V & _). split; [exact RT1|]. split; [exact G|]. rewrite V. fold p.
  assert (PH2 : p * (h + b) <= p * (T + / 1000 * T)). { apply Rmult_le_compat_l; lra. }
  replace (rnd F (h + b) - (T + S)) with ((rnd F (h + b) - (h + b)) + ((h - T) + (b - S))) by ring. eapply Rle_trans; [apply Rabs_triang|]. assert (Rabs (h - T + (b - S)) <= 4 * p * T + 2). { eapply Rle_trans; [apply Rabs_triang|]. assert (Rabs (b - S) <= 2) by (apply Rabs_le; lra). lra. }
  assert (0 <= p * S) by (apply Rmult_le_pos; lra). lra.
Qed.
(** a finite quotient between zero and two *)
Lemma big_one : 1152921504606846976 <= T <= (1 - / 100000) * bpow radix2 (bias F + 1) -> finite F (fdiv F t (fadd F t o)) = true /\ 0 <= val F (fdiv F t (fadd F t o)) <= 2.
Proof.
  intros TB. destruct (t_d ltac:(lra)) as (C & D & PB & H0). pose proof sh_p as P.
  destruct (big_add o 1 TB (proj1 (proj2 Fo)) ltac:(rewrite (proj2 (proj2 Fo)); lra) ltac:(lra)) as (B1 & G1 & V1). fold p in V1. set (y := val F (fadd F t o)) in *. assert (6 * p * (T + 1) <= 6 * / 16777216 * (T + 1)) by (apply Rmult_le_compat_r; lra). assert (YB : 99 / 100 * T <= y) by (apply Rabs_le_inv in V1; lra).
  pose proof (fdiv_spec F t (fadd F t o) (proj1 (proj2 HT)) G1 ltac:(fold y; lra)) as RT. fold h y in RT. assert (QB : 0 <= h / y <= 2). { assert (0 < / y) by (apply Rinv_0_lt_compat; lra). split; [apply Rmult_le_pos; lra|]. apply Rmult_le_reg_r with y; [lra|]. unfold Rdiv. rewrite Rmult_assoc, Rinv_l, Rmult_1_r by lra. lra. }
  destruct (rounds_fin F _ _ _ RT) as [G V]. { rewrite Rabs_pos_eq by lra. apply Rle_trans with (bpow radix2 1); [change (bpow radix2 1) with 2; lra|apply bpow_le; lia]. }
  split; [exact G|]. rewrite V. split; [rewrite <- (rnd_0 F); apply rnd_le; lra|]. rewrite <- (proj2 (proj2 Fw)), <- (repr_rnd F (val F w) (repr_val F w (proj1 (proj2 Fw)))). apply rnd_le. rewrite (proj2 (proj2 Fw)). lra.
Qed.
Lemma big_inv : 1152921504606846976 <= T <= (1 - / 100000) * bpow radix2 (bias F + 1) -> finite F (fdiv F o t) = true /\ 0 <= val F (fdiv F o t) <= 2.
Proof.
  intros TB. destruct (t_d ltac:(lra)) as (C & D & PB & H0). 
  pose proof (fdiv_spec F o t (proj1 (proj2 Fo)) (proj1 (proj2 HT)) ltac:(fold h; lra)) as RT. fold h in RT. rewrite (proj2 (proj2 Fo)) in RT. assert (QB : 0 <= 1 / h <= 2). { unfold Rdiv. rewrite Rmult_1_l. pose proof (inv01 h ltac:(lra)). lra. }
  destruct (rounds_fin F _ _ _ RT) as [G V]. { rewrite Rabs_pos_eq by lra. apply Rle_trans with (bpow radix2 1); [change (bpow radix2 1) with 2; lra|apply bpow_le; lia]. }
  split; [exact G|]. rewrite V. split; [rewrite <- (rnd_0 F); apply rnd_le; lra|]. rewrite <- (proj2 (proj2 Fw)), <- (repr_rnd F (val F w) (repr_val F w (proj1 (proj2 Fw)))). apply rnd_le. rewrite (proj2 (proj2 Fw)). lra.
Qed.
(** 1 + t^2 / (2 (1 + t)) *)
Lemma ch_small : / 1073741824 <= T <= 101 / 100 -> RE F (fadd F o (fdiv F (fmul F t t) (fmul F w (fadd F o t)))) (1 + T * T / (2 * (1 + T))) 4.
Proof.
  intros TB. destruct (t_d ltac:(lra)) as (C & D & PB & H0). pose proof t_self as R0. pose proof sh_p as P.
  assert (HB : / 1100000000 <= h <= 102 / 100) by lra. assert (H2 : / 1210000000000000000 <= h * h <= 2) by nra.
  pose proof (re_mul F MW MB BB t t h h 0 0 H0 H0 ltac:(apply inr_b; lra) ltac:(lra) ltac:(lra) R0 R0) as R2.
  pose proof (re_add F MW MB BB o t 1 h 0 0 0 ltac:(lra) H0 ltac:(apply inr_b; lra) ltac:(lra) re_o R0 ltac:(lra)) as R3.
  pose proof (re_scale F MW MB BB w _ (1 + h) (0 + 1 + / 1000) 1 (proj1 (proj2 Fw)) (proj2 (proj2 Fw)) ltac:(lia) ltac:(apply inr_b; lra) ltac:(change (bpow radix2 1) with 2; apply inr_b; lra) ltac:(lra) R3) as R1. change (bpow radix2 1) with 2 in R1.
  set (q := h * h / (2 * (1 + h))). assert (EQ : h * h = q * (2 * (1 + h))) by (unfold q; field; lra). assert (Q0 : 0 < q) by (unfold q; apply Rdiv_lt_0_compat; lra). assert (QB : q <= 258 / 1000) by nra. assert (QL : / 5210000000000000000 <= q) by nra.
  pose proof (re_div F MW MB BB _ _ (h * h) (2 * (1 + h)) (0 + 0 + 1 + / 1000) (0 + 1 + / 1000) ltac:(lra) ltac:(lra) ltac:(fold q; apply inr_b; lra) ltac:(lra) ltac:(lra) R2 R1) as R4. fold q in R4.
  pose proof (re_add F MW MB BB _ _ 1 q 0 (0 + 0 + 1 + / 1000 + (0 + 1 + / 1000) + 1 + / 1000) (62 / 100) ltac:(lra) ltac:(lra) ltac:(apply inr_b; lra) ltac:(lra) re_o R4 ltac:(lra)) as R5.
  set (Q := T * T / (2 * (1 + T))). assert (EQ2 : T * T = Q * (2 * (1 + T))) by (unfold Q; field; lra). assert (Q1 : 0 < Q) by (unfold Q; apply Rdiv_lt_0_compat; nra). assert (QB2 : Q <= 254 / 1000) by nra.
  apply (re_weak F _ _ (62 / 100 + 1 + / 1000 + 2 + sl)); [lra|unfold sl; lra|]. apply (re_tr _ (1 + q)); [lra|lra|lra|exact R5|]. pose proof (g_cosh T h (4 * p) ltac:(lra) ltac:(lra) C) as GC. fold q Q in GC. replace (1 + q - (1 + Q)) with (q - Q) by ring. eapply Rle_trans; [exact GC|]. assert (0 <= p * Q) by (apply Rmult_le_pos; lra). assert (p * Q <= p * (254 / 1000)) by (apply Rmult_le_compat_l; lra). lra.
Qed.
(** 1 - 2 / (t + 2) *)
Lemma th_big : 1999 / 1000 <= T <= 1180591620717411303424 -> RE F (fsub F o (fdiv F w (fadd F t w))) (T / (T + 2)) (52 / 10).
Proof.
  intros TB. destruct (t_d ltac:(lra)) as (C & D & PB & H0). pose proof t_self as R0. pose proof sh_p as P. assert (HB : 1997 / 1000 <= h <= 1190591620717411303424) by lra.
  pose proof (re_add F MW MB BB t w h 2 0 0 0 H0 ltac:(lra) ltac:(apply inr_b; lra) ltac:(lra) R0 re_w ltac:(lra)) as R3.
  set (q := 2 / (h + 2)). assert (EQ : 2 = q * (h + 2)) by (unfold q; field; lra). assert (Q0 : 0 < q) by (unfold q; apply Rdiv_lt_0_compat; lra). assert (QB : q <= 5004 / 10000) by nra. assert (QL : / 1190591620717411303424 <= q). { unfold q. apply Rmult_le_reg_r with (h + 2); [lra|]. unfold Rdiv. rewrite Rmult_assoc, Rinv_l by lra. lra. }
  pose proof (re_div F MW MB BB _ _ 2 (h + 2) 0 (0 + 1 + / 1000) ltac:(lra) ltac:(lra) ltac:(fold q; apply inr_b; lra) ltac:(lra) ltac:(lra) re_w R3) as R4. fold q in R4.
  pose proof (re_sub F MW MB BB _ _ 1 q 0 (0 + (0 + 1 + / 1000) + 1 + / 1000) (201 / 100) ltac:(lra) Q0 ltac:(apply inr_b; lra) ltac:(lra) re_o R4 ltac:(lra)) as R5.
  replace (1 - q) with (h / (h + 2)) in R5 by (unfold q; field; lra). assert (GT : 0 < T / (T + 2)) by (apply Rdiv_lt_0_compat; lra).
  apply (re_weak F _ _ (201 / 100 + 1 + / 1000 + 21 / 10 + sl)); [lra|unfold sl; lra|]. apply (re_tr _ (h / (h + 2))); [lra|lra|lra|exact R5|]. pose proof (g_tanh T h (4 * p) ltac:(lra) ltac:(lra) C) as GC. fold q in GC. eapply Rle_trans; [exact GC|]. apply Rmult_le_compat_r; [lra|]. assert (p * q <= p * (5004 / 10000)) by (apply Rmult_le_compat_l; lra). lra.
Qed.
(** t / (t + 2) *)
Lemma th_mid : 66 / 100 <= T <= 3 -> RE F (fdiv F t (fadd F t w)) (T / (T + 2)) (52 / 10).
Proof.
  intros TB. destruct (t_d ltac:(lra)) as (C & D & PB & H0). pose proof t_self as R0. pose proof sh_p as P. assert (HB : 659 / 1000 <= h <= 31 / 10) by lra.
  pose proof (re_add F MW MB BB t w h 2 0 0 0 H0 ltac:(lra) ltac:(apply inr_b; lra) ltac:(lra) R0 re_w ltac:(lra)) as R3.
  set (q := h / (h + 2)). assert (EQ : h = q * (h + 2)) by (unfold q; field; lra). assert (Q0 : 0 < q) by (unfold q; apply Rdiv_lt_0_compat; lra). assert (QB : / 8 <= q <= 1) by nra.
  pose proof (re_div F MW MB BB _ _ h (h + 2) 0 (0 + 1 + / 1000) H0 ltac:(lra) ltac:(fold q; apply inr_b; lra) ltac:(lra) ltac:(lra) R0 R3) as R4. fold q in R4.
  assert (GT : 0 < T / (T + 2)) by (apply Rdiv_lt_0_compat; lra). assert (W0 : 0 < 2 / (h + 2)) by (apply Rdiv_lt_0_compat; lra). assert (W : 2 / (h + 2) <= 753 / 1000). { apply Rmult_le_reg_r with (h + 2); [lra|]. unfold Rdiv at 1. rewrite Rmult_assoc, Rinv_l by lra. lra. }
  apply (re_weak F _ _ (0 + (0 + 1 + / 1000) + 1 + / 1000 + 3012 / 1000 + sl)); [lra|unfold sl; lra|]. apply (re_tr _ q); [lra|lra|lra|exact R4|]. pose proof (g_tanh T h (4 * p) ltac:(lra) ltac:(lra) C) as GC. fold q in GC. eapply Rle_trans; [exact GC|]. apply Rmult_le_compat_r; [lra|]. assert (p * (2 / (h + 2)) <= p * (753 / 1000)) by (apply Rmult_le_compat_l; lra). lra.
Qed.
(** exp: t + 1/t *)
End T.
End G.

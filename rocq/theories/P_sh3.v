(** k_expo2: half the exponential of a large number as exp(x - K ln 2) 2^e 2^e with K = 2e + 1. *)
From Coq Require Import ZArith Reals Lia Lra Bool List Psatz.
From Flocq Require Import Core Mult_error Sterbenz.
From Verif Require Import Base Spec SpecExp SpecLog2 Format P_format Ieee P_ieee P_real P_neg P_lit P_err P_apx P_expa7 P_expa11 P_hy1 P_hy2 P_em2 P_sh1 P_sh2.
Open Scope R_scope.
Local Opaque fadd fsub fmul fdiv of_int.

Section G.
Variable F : fmt.
Hypothesis MW : (23 <= mw F)%Z.
Hypothesis MB : (pr F + 101 <= 1 - emin F)%Z.
Hypothesis BB : (90 <= bias F)%Z.
Let p := bpow radix2 (- pr F).
Let ps : 0 < p <= / 16777216 := re_p F MW.
Variable f : Z -> option Z.
Hypothesis FE : exp_like F f exp.
Variables kl sc K e : Z.
Hypothesis Fk : finite F kl = true.
Hypothesis Fs : finite F sc = true.
Hypothesis Vs : val F sc = bpow radix2 e.
Hypothesis He : (0 <= e)%Z.
Hypothesis HK : (K = 2 * e + 1)%Z.
Let k := val F kl.
Hypothesis Hk : Rabs (k - IZR K * ln 2) <= 52 / 100 * p.
Hypothesis Hk0 : 0 < k <= bpow radix2 (bias F).
Hypothesis HI : fmul F (infinity F false) sc = infinity F false.
Set Default Proof Using "All".

Lemma ov_mul v : finite F v = true -> bpow radix2 (bias F + 1) <= bpow radix2 e * val F v -> fmul F v sc = infinity F false.
Proof.
  intros Fv H. pose proof (bpow_gt_0 radix2 (bias F + 1)) as B0. pose proof (bpow_gt_0 radix2 e) as E0. assert (V0 : 0 < val F v) by (apply Rmult_lt_reg_l with (bpow radix2 e); lra).
  assert (Q : rnd F (val F v * bpow radix2 e) = val F v * bpow radix2 e). { apply repr_rnd. unfold repr. apply mult_bpow_pos_exact_FLT; [exact (repr_val F v Fv)|exact He]. }
  destruct (fmul_spec F v sc Fv Fs) as [_ S]. rewrite Vs, Q in S. rewrite Rlt_bool_false in S by (rewrite Rabs_pos_eq; nra). rewrite Rlt_bool_false in S by nra. exact S.
Qed.
(** x - k is exact *)
Lemma sub_ex x : isbits F x -> finite F x = true -> k / 2 <= val F x <= 2 * k -> isbits F (fsub F x kl) /\ finite F (fsub F x kl) = true /\ val F (fsub F x kl) = val F x - k /\ rnd F (val F x - k) = val F x - k.
Proof.
  intros B G H. assert (R : rnd F (val F x - k) = val F x - k). { apply repr_rnd. unfold repr. pose proof (fmt_facts F). assert (PG : Prec_gt_0 (mw F + 1)) by (unfold Prec_gt_0; lia). apply sterbenz; [apply FLT_exp_valid; exact PG|apply FLT_exp_monotone|apply (repr_val F x G)|apply (repr_val F kl Fk)|exact H]. }
  pose proof (fsub_spec F x kl G Fk) as RT. fold k in RT. destruct (rounds_fin F _ _ _ RT) as [G1 V1]. { apply Rle_trans with k; [apply Rabs_le; lra|lra]. } split; [exact (proj1 RT)|]. split; [exact G1|]. rewrite V1, R. split; reflexivity.
Qed.
Lemma exp_shift X : exists n, Rabs n <= 53 / 100 * p /\ exp (X - k) * (bpow radix2 e * bpow radix2 e) = exp X / 2 * (1 + n).
Proof.
  pose proof ps as P. set (y := IZR K * ln 2 - k). assert (Y : Rabs y <= 52 / 100 * p) by (unfold y; rewrite <- Rabs_Ropp, Ropp_minus_distr; exact Hk). exists (exp y - 1). split.
  - pose proof (exp_2 y ltac:(lra)) as E. pose proof (Rabs_pos y). assert (0 <= Rabs y * Rabs y <= / 1000 * p) by nra. assert (Rabs y * Rabs y * Rabs y <= Rabs y * Rabs y * 1) by (apply Rmult_le_compat_l; lra). assert (Rabs y * Rabs y = y * y) by (rewrite <- Rabs_mult, Rabs_pos_eq; nra). apply Rabs_le_inv in E. apply Rabs_le_inv in Y. apply Rabs_le. lra.
  - replace (X - k) with (X + y - IZR K * ln 2) by (unfold y; ring). unfold Rminus at 1. rewrite !exp_plus, exp_Ropp, exp_ln2. replace K with (e + e + 1)%Z by lia. rewrite !bpow_plus. change (bpow radix2 1) with 2. pose proof (bpow_gt_0 radix2 e). field. lra.
Qed.
Lemma expo2_fin x : isbits F x -> finite F x = true -> k / 2 <= val F x <= k -> bpow radix2 (emin F + mw F + 2) <= exp (val F x - k) -> (1 + 4 * p) * (exp (val F x) / 2) < bpow radix2 (bias F + 1) ->
  exists v, f (fsub F x kl) = Some v /\ RE F (fmul F (fmul F v sc) sc) (exp (val F x) / 2) 3.
Proof.
  intros B G H L U. set (X := val F x) in *. destruct (sub_ex x B G ltac:(fold X; lra)) as (B1 & G1 & V1 & _). fold X in V1. destruct (exp_shift X) as (n & N & EQ). pose proof ps as P. set (ed := exp (X - k)) in *. pose proof (exp_pos X) as EX. pose proof (bpow_gt_0 radix2 e) as E0. set (b := bpow radix2 e) in *.
  assert (ED : 0 < ed <= 1). { unfold ed. split; [apply exp_pos|]. rewrite <- exp_0. apply exp_mono. lra. }
  destruct (FE (fsub F x kl) B1 G1) as [FE1 _]. rewrite V1 in FE1. fold ed in FE1. destruct FE1 as (v & Ev & Bv & Gv & Cv). { apply Rle_lt_trans with (bpow radix2 0); [change (bpow radix2 0) with 1; lra|apply bpow_lt; lia]. }
  exists v. split; [exact Ev|]. rewrite (re_eps F), (Rabs_pos_eq ed) in Cv by lra. fold p in Cv. replace (1 - bias F - mw F - 1)%Z with (emin F - 1)%Z in Cv by (unfold emin; lia).
  assert (T0 : bpow radix2 (emin F - 1) <= / 4 * p * ed). { replace (emin F - 1)%Z with (-2 + - pr F + (emin F + mw F + 2))%Z by (unfold pr; lia). rewrite !bpow_plus in *. change (bpow radix2 (-2)) with (/ 4). fold p. apply Rmult_le_compat_l; [lra|]. exact L. }
  assert (CV : Rabs (val F v - ed) <= 225 / 100 * p * ed) by lra. set (W := exp X / 2) in *. assert (W0 : 0 < W) by (unfold W; lra).
  assert (BE : 0 < b * b) by nra. assert (CW : Rabs (val F v * (b * b) - ed * (b * b)) <= 225 / 100 * p * (ed * (b * b))). { rewrite <- Rmult_minus_distr_r, Rabs_mult, (Rabs_pos_eq (b * b)) by lra. replace (225 / 100 * p * (ed * (b * b))) with (225 / 100 * p * ed * (b * b)) by ring. apply Rmult_le_compat_r; lra. } rewrite EQ in CW.
  assert (N2 := N). apply Rabs_le_inv in N2. assert (NW : Rabs (W * (1 + n) - W) <= 53 / 100 * p * W). { replace (W * (1 + n) - W) with (n * W) by ring. rewrite Rabs_mult, (Rabs_pos_eq W) by lra. apply Rmult_le_compat_r; lra. }
  assert (PW : 0 <= p * W) by (apply Rmult_le_pos; lra). assert (PN : p * (W * (1 + n)) <= p * (W * (101 / 100))). { apply Rmult_le_compat_l; [lra|]. apply Rmult_le_compat_l; lra. }
  assert (FIN : Rabs (val F v * (b * b) - W) <= 3 * p * W). { replace (val F v * (b * b) - W) with ((val F v * (b * b) - W * (1 + n)) + (W * (1 + n) - W)) by ring. eapply Rle_trans; [apply Rabs_triang|]. lra. }
  assert (FI := FIN). apply Rabs_le_inv in FI. assert (PV : 0 < val F v) by (apply Rabs_le_inv in CV; nra). assert (B1' : 1 <= b) by (unfold b; change 1 with (bpow radix2 0); apply bpow_le; exact He).
  destruct (ab_sc F sc v e Fs Gv ltac:(rewrite Vs, Rabs_pos_eq by apply bpow_ge_0; reflexivity) He) as [_ (B2 & G2 & V2)]. { rewrite Vs, Rabs_pos_eq by (apply Rmult_le_pos; [apply bpow_ge_0|lra]). fold b. apply Rle_lt_trans with (val F v * (b * b)); [|lra]. replace (val F v * (b * b)) with (b * val F v * b) by ring. assert (0 <= b * val F v) by nra. nra. }
  destruct (ab_sc F sc (fmul F v sc) e Fs G2 ltac:(rewrite Vs, Rabs_pos_eq by apply bpow_ge_0; reflexivity) He) as [_ (B3 & G3 & V3)]. { rewrite V2, Vs. fold b. replace (b * (b * val F v)) with (val F v * (b * b)) by ring. rewrite Rabs_pos_eq by nra. lra. }
  split; [exact B3|]. split; [exact G3|]. rewrite V3, V2, Vs. fold b p. replace (b * (b * val F v)) with (val F v * (b * b)) by ring. exact FIN.
Qed.
Lemma expo2_inf x1 x : isbits F x1 -> finite F x1 = true -> k / 2 <= val F x1 <= 2 * k -> bpow radix2 (emin F + mw F + 2) <= exp (val F x1 - k) -> (1 + 4 * p) * bpow radix2 (bias F + 1) <= exp (val F x1) / 2 ->
  isbits F x -> finite F x = true -> val F x1 <= val F x -> exists v, f (fsub F x kl) = Some v /\ fmul F (fmul F v sc) sc = infinity F false.
Proof.
  intros B1 G1 H1 L1 U1 B G HX. destruct (sub_ex x1 B1 G1 H1) as (_ & _ & _ & R1). set (X1 := val F x1) in *. set (X := val F x) in *. destruct (exp_shift X1) as (n & N & EQ). pose proof ps as P.
  pose proof (fsub_spec F x kl G Fk) as RT. fold k X in RT. assert (UB : rnd F (X - k) <= X). { unfold X at 2. rewrite <- (repr_rnd F (val F x) (repr_val F x G)). apply rnd_le. fold X. lra. } assert (LB : X1 - k <= rnd F (X - k)) by (rewrite <- R1; apply rnd_le; lra). pose proof (val_lt_max F x G) as MX. fold X in MX. pose proof (val_lt_max F kl Fk) as MK. fold k in MK.
  destruct RT as [Bd RT]. rewrite Rlt_bool_true in RT. 2:{ rewrite (Rabs_pos_eq X) in MX by lra. rewrite (Rabs_pos_eq k) in MK by lra. apply Rabs_def1; lra. } destruct RT as (Gd & Vd & _). rewrite <- Vd in LB. set (d := fsub F x kl) in *.
  assert (ED : exp (X1 - k) <= exp (val F d)) by (apply exp_mono; exact LB). set (b := bpow radix2 e) in *. assert (B1' : 1 <= b) by (unfold b; change 1 with (bpow radix2 0); apply bpow_le; exact He). pose proof (bpow_gt_0 radix2 (bias F + 1)) as M0. set (M := bpow radix2 (bias F + 1)) in *.
  destruct (FE d Bd Gd) as [F1 F2]. destruct (Rlt_le_dec (exp (val F d)) M) as [C | C].
  - destruct (F1 C) as (v & Ev & Bv & Gv & Cv). exists v. split; [exact Ev|]. set (ed := exp (val F d)) in *. rewrite (re_eps F), (Rabs_pos_eq ed) in Cv by (left; apply exp_pos). fold p in Cv. replace (1 - bias F - mw F - 1)%Z with (emin F - 1)%Z in Cv by (unfold emin; lia).
    assert (T0 : bpow radix2 (emin F - 1) <= / 4 * p * ed). { replace (emin F - 1)%Z with (-2 + - pr F + (emin F + mw F + 2))%Z by (unfold pr; lia). rewrite !bpow_plus in *. change (bpow radix2 (-2)) with (/ 4). fold p. apply Rmult_le_compat_l; [lra|]. lra. }
    assert (EP : 0 < ed) by (unfold ed; apply exp_pos). apply Rabs_le_inv in Cv. assert (LV : (1 - 225 / 100 * p) * ed <= val F v) by lra. apply Rabs_le_inv in N.
    assert (BE : 0 < b * b) by nra. assert (LE : (1 + 4 * p) * (1 - 53 / 100 * p) * M <= ed * (b * b)). { apply Rle_trans with (exp (X1 - k) * (b * b)); [|apply Rmult_le_compat_r; lra]. rewrite EQ. apply Rle_trans with ((1 + 4 * p) * M * (1 + n)); [|apply Rmult_le_compat_r; lra]. replace ((1 + 4 * p) * (1 - 53 / 100 * p) * M) with ((1 + 4 * p) * M * (1 - 53 / 100 * p)) by ring. apply Rmult_le_compat_l; [nra|lra]. }
    assert (Z0 : 1 <= (1 + 4 * p) * (1 - 53 / 100 * p) * (1 - 225 / 100 * p)). { assert (0 <= p * p <= / 16777216 * p) by nra. nra. }
    assert (LL : M <= b * (b * val F v)). { replace (b * (b * val F v)) with (val F v * (b * b)) by ring. apply Rle_trans with ((1 - 225 / 100 * p) * ed * (b * b)); [|apply Rmult_le_compat_r; lra]. apply Rle_trans with ((1 - 225 / 100 * p) * ((1 + 4 * p) * (1 - 53 / 100 * p) * M)); [|rewrite (Rmult_assoc (1 - 225 / 100 * p) ed (b * b)); apply Rmult_le_compat_l; lra]. replace ((1 - 225 / 100 * p) * ((1 + 4 * p) * (1 - 53 / 100 * p) * M)) with ((1 + 4 * p) * (1 - 53 / 100 * p) * (1 - 225 / 100 * p) * M) by ring. nra. }
    assert (V0 : 0 < val F v) by (assert (0 < (1 - 225 / 100 * p) * ed) by (apply Rmult_lt_0_compat; lra); lra).
    destruct (Rlt_le_dec (b * val F v) M) as [C2 | C2].
    + destruct (ab_sc F sc v e Fs Gv ltac:(rewrite Vs, Rabs_pos_eq by apply bpow_ge_0; reflexivity) He) as [_ (B2 & G2 & V2)]. { rewrite Vs, Rabs_pos_eq by (apply Rmult_le_pos; [apply bpow_ge_0|lra]). exact C2. } apply ov_mul; [exact G2|]. rewrite V2, Vs. exact LL.
    + rewrite (ov_mul v Gv C2). exact HI.
  - exists (infinity F false). split; [exact (F2 C)|]. rewrite HI. exact HI.
Qed.
End G.

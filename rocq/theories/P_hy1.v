(** A calculus of relative errors for positive quantities: [RE F x V k] says that the float [x]
    is within k half-ulps (k * 2^-pr) of the positive real [V]. *)
From Coq Require Import ZArith Reals Lia Lra Bool List Psatz.
From Flocq Require Import Core.
From Verif Require Import Base Spec SpecFun2 SpecFun3 SpecLog SpecLog1p SpecLog2 Format P_format Ieee P_ieee P_real P_neg P_lit P_err P_scalbn P_apx.
Open Scope R_scope.
Local Opaque fadd fsub fmul fdiv of_int.

Definition RE (F : fmt) (x : Z) (V k : R) : Prop :=
  isbits F x /\ finite F x = true /\ Rabs (val F x - V) <= k * bpow radix2 (- pr F) * V.

Section C.
Variable F : fmt.
Hypothesis MW : (23 <= mw F)%Z.
Hypothesis MB : (pr F + 101 <= 1 - emin F)%Z.
Hypothesis BB : (90 <= bias F)%Z.
Let p := bpow radix2 (- pr F).
Let sl := / 1000.
Lemma re_p : 0 < p <= / 16777216.
Proof. split; [apply bpow_gt_0|]. apply Rle_trans with (bpow radix2 (-24)); [apply bpow_le; unfold pr; lia|]. change (bpow radix2 (-24)) with (/ 16777216). lra. Qed.
Definition inr (V : R) : Prop := bpow radix2 (-80) <= V <= bpow radix2 80.
Lemma inr_pos V : inr V -> 0 < V.
Proof. intros [H _]. pose proof (bpow_gt_0 radix2 (-80)). lra. Qed.

(** one rounding of a quantity with relative error k *)
Lemma re_round a V k : inr V -> 0 <= k <= 20 -> Rabs (a - V) <= k * p * V -> Rabs (rnd F a - V) <= (k + 1 + / 2000) * p * V /\ Rabs a <= bpow radix2 (bias F).
Proof.
  intros HV K H. pose proof re_p as P. pose proof (inr_pos V HV) as V0.
  assert (KP : 0 <= k * p <= / 100000) by (split; [apply Rmult_le_pos; lra|apply Rle_trans with (20 * p); [apply Rmult_le_compat_r; lra|lra]]).
  assert (KV : 0 <= k * p * V <= / 100000 * V) by (split; [apply Rmult_le_pos; lra|apply Rmult_le_compat_r; lra]).
  assert (A : 0 <= a <= V + k * p * V) by (apply Rabs_le_inv in H; lra).
  assert (T : bpow radix2 (emin F - 1) <= / 1048576 * p * V).
  { apply Rle_trans with (bpow radix2 (-20 + - pr F + -80)); [apply bpow_le; lia|]. rewrite !bpow_plus. change (bpow radix2 (-20)) with (/ 1048576). fold p. apply Rmult_le_compat_l; [lra|exact (proj1 HV)]. }
  pose proof (rndF_abs F a) as Q. fold p in Q. rewrite (Rabs_pos_eq a) in Q by lra.
  assert (PA : p * a <= p * V + / 100000 * (p * V)). { apply Rle_trans with (p * (V + / 100000 * V)); [apply Rmult_le_compat_l; lra|lra]. }
  split.
  - replace (rnd F a - V) with ((rnd F a - a) + (a - V)) by ring. eapply Rle_trans; [apply Rabs_triang|]. assert (0 <= p * V) by (apply Rmult_le_pos; lra). nra.
  - rewrite Rabs_pos_eq by lra. apply Rle_trans with (bpow radix2 (1 + 80)); [rewrite bpow_plus; change (bpow radix2 1) with 2; destruct HV; lra|apply bpow_le; lia].
Qed.
Lemma re_fin r sz y V k : rounds_to F r sz y -> inr V -> 0 <= k <= 20 -> Rabs (r - V) <= k * p * V -> RE F y V (k + 1 + / 2000).
Proof. intros RT HV K H. destruct (re_round r V k HV K H) as [A B]. destruct (rounds_fin F _ _ _ RT B) as [G V1]. split; [exact (proj1 RT)|]. split; [exact G|]. rewrite V1. exact A. Qed.

Lemma re_weak x V k k' : 0 < V -> k <= k' -> RE F x V k -> RE F x V k'.
Proof. intros V0 L (A & B & C). split; [exact A|]. split; [exact B|]. eapply Rle_trans; [exact C|]. apply Rmult_le_compat_r; [lra|]. apply Rmult_le_compat_r; [apply bpow_ge_0|exact L]. Qed.
Lemma re_exact x : isbits F x -> finite F x = true -> RE F x (val F x) 0.
Proof. intros A B. split; [exact A|]. split; [exact B|]. rewrite Rminus_diag_eq, Rabs_R0 by reflexivity. lra. Qed.
Lemma re_bd x V k : 0 < V -> 0 <= k <= 16 -> RE F x V k -> V - k * p * V <= val F x <= V + k * p * V /\ 0 <= k * p <= / 1000000 /\ 0 < val F x.
Proof. intros V0 K (_ & _ & C). fold p in C. apply Rabs_le_inv in C. pose proof re_p as P. assert (0 <= k * p <= / 1000000) by (split; [apply Rmult_le_pos; lra|apply Rle_trans with (16 * p); [apply Rmult_le_compat_r; lra|lra]]). split; [lra|]. split; [lra|]. nra. Qed.

Lemma pk k1 k2 : 0 <= k1 <= 16 -> 0 <= k2 <= 16 -> 0 <= k1 * p * (k2 * p) <= / 60000 * p.
Proof.
  intros A B. pose proof re_p as P. assert (K : 0 <= k1 * k2 <= 256) by (split; [apply Rmult_le_pos; lra|replace 256 with (16 * 16) by lra; apply Rmult_le_compat; lra]). assert (PP : 0 <= p * p <= / 16777216 * p) by nra.
  replace (k1 * p * (k2 * p)) with (k1 * k2 * (p * p)) by ring. split; [apply Rmult_le_pos; lra|]. apply Rle_trans with (256 * (p * p)); [apply Rmult_le_compat_r; lra|lra].
Qed.
Lemma re_mul x y V W k1 k2 : 0 < V -> 0 < W -> inr (V * W) -> 0 <= k1 <= 8 -> 0 <= k2 <= 8 -> RE F x V k1 -> RE F y W k2 -> RE F (fmul F x y) (V * W) (k1 + k2 + 1 + sl).
Proof.
  intros V0 W0 I K1 K2 HX HY. pose proof (re_bd x V k1 V0 ltac:(lra) HX) as (B1 & Q1 & X0). pose proof (re_bd y W k2 W0 ltac:(lra) HY) as (B2 & Q2 & Y0). pose proof (pk k1 k2 ltac:(lra) ltac:(lra)) as P2. pose proof re_p as P.
  pose proof (fmul_spec F x y (proj1 (proj2 HX)) (proj1 (proj2 HY))) as RT. pose proof (inr_pos _ I) as VW.
  apply (re_weak _ _ (k1 + k2 + / 2000 + 1 + / 2000)); [exact VW|unfold sl; lra|]. apply (re_fin _ _ _ _ (k1 + k2 + / 2000) RT I ltac:(lra)).
  set (d1 := k1 * p) in *. set (d2 := k2 * p) in *. set (vx := val F x) in *. set (vy := val F y) in *.
  replace ((k1 + k2 + / 2000) * p * (V * W)) with ((d1 + d2 + / 2000 * p) * (V * W)) by (unfold d1, d2; ring).
  assert (U : vx * vy <= (V + d1 * V) * (W + d2 * W)) by (apply Rmult_le_compat; lra).
  assert (L : (V - d1 * V) * (W - d2 * W) <= vx * vy) by (apply Rmult_le_compat; nra).
  assert (D : 0 <= d1 * d2 * (V * W) <= / 60000 * p * (V * W)) by (split; [apply Rmult_le_pos; lra|apply Rmult_le_compat_r; lra]). apply Rabs_le. assert (0 <= p * (V * W)) by (apply Rmult_le_pos; lra). split; lra.
Qed.
Lemma re_div x y V W k1 k2 : 0 < V -> 0 < W -> inr (V / W) -> 0 <= k1 <= 8 -> 0 <= k2 <= 8 -> RE F x V k1 -> RE F y W k2 -> RE F (fdiv F x y) (V / W) (k1 + k2 + 1 + sl).
Proof.
  intros V0 W0 I K1 K2 HX HY. pose proof (re_bd x V k1 V0 ltac:(lra) HX) as (B1 & Q1 & X0). pose proof (re_bd y W k2 W0 ltac:(lra) HY) as (B2 & Q2 & Y0). pose proof (pk k1 k2 ltac:(lra) ltac:(lra)) as P2. pose proof (pk k2 k2 ltac:(lra) ltac:(lra)) as P3. pose proof re_p as P.
  pose proof (fdiv_spec F x y (proj1 (proj2 HX)) (proj1 (proj2 HY)) (Rgt_not_eq _ _ Y0)) as RT. pose proof (inr_pos _ I) as VW.
  apply (re_weak _ _ (k1 + k2 + / 2000 + 1 + / 2000)); [exact VW|unfold sl; lra|]. apply (re_fin _ _ _ _ (k1 + k2 + / 2000) RT I ltac:(lra)).
  set (d1 := k1 * p) in *. set (d2 := k2 * p) in *. set (vx := val F x) in *. set (vy := val F y) in *.
  replace ((k1 + k2 + / 2000) * p * (V / W)) with ((d1 + d2 + / 2000 * p) * (V / W)) by (unfold d1, d2; ring). set (D := d1 + d2 + / 2000 * p).
  assert (DD : 0 <= D <= / 10000) by (unfold D; lra).
  set (q := V / W) in *. assert (EV : V = q * W) by (unfold q; field; lra).
  assert (E : vx = vx / vy * vy) by (field; lra). set (z := vx / vy) in *.
  apply Rabs_le. split.
  - destruct (Rle_lt_dec (- (D * q)) (z - q)) as [C | C]; [exact C|]. exfalso. assert (z * vy < (q - D * q) * vy) by (apply Rmult_lt_compat_r; lra). assert ((q - D * q) * vy <= (q - D * q) * (W + d2 * W)) by (apply Rmult_le_compat_l; nra).
    assert (0 < q * W) by lra. assert (X : q * W * (1 - d1) < q * W * ((1 - D) * (1 + d2))) by (rewrite EV in B1; nra). apply Rmult_lt_reg_l in X; [|lra]. assert (0 <= D * d2) by (apply Rmult_le_pos; lra). unfold D in X, H2. nra.
  - destruct (Rle_lt_dec (z - q) (D * q)) as [C | C]; [exact C|]. exfalso. assert ((q + D * q) * vy < z * vy) by (apply Rmult_lt_compat_r; lra). assert ((q + D * q) * (W - d2 * W) <= (q + D * q) * vy) by (apply Rmult_le_compat_l; nra).
    assert (0 < q * W) by lra. assert (X : q * W * ((1 + D) * (1 - d2)) < q * W * (1 + d1)) by (rewrite EV in B1; nra). apply Rmult_lt_reg_l in X; [|lra]. unfold D in X. assert (0 <= p * d2 <= / 1000000 * p) by (split; [apply Rmult_le_pos; lra|rewrite (Rmult_comm p); apply Rmult_le_compat_r; lra]). nra.
Qed.
Lemma re_add x y V W k1 k2 K : 0 < V -> 0 < W -> inr (V + W) -> 0 <= K <= 16 -> RE F x V k1 -> RE F y W k2 -> k1 * V + k2 * W <= K * (V + W) -> RE F (fadd F x y) (V + W) (K + 1 + sl).
Proof.
  intros V0 W0 I K1 HX HY HK. pose proof re_p as P.
  pose proof (fadd_spec F x y (proj1 (proj2 HX)) (proj1 (proj2 HY))) as RT. 
  apply (re_weak _ _ (K + 1 + / 2000)); [lra|unfold sl; lra|]. apply (re_fin _ _ _ _ K RT I ltac:(lra)).
  destruct HX as (_ & _ & HX), HY as (_ & _ & HY). fold p in HX, HY. replace (val F x + val F y - (V + W)) with ((val F x - V) + (val F y - W)) by ring. eapply Rle_trans; [apply Rabs_triang|].
  apply Rle_trans with (p * (k1 * V + k2 * W)); [lra|]. apply Rle_trans with (p * (K * (V + W))); [apply Rmult_le_compat_l; lra|lra].
Qed.
Lemma re_sub x y V W k1 k2 K : 0 < V -> 0 < W -> inr (V - W) -> 0 <= K <= 16 -> RE F x V k1 -> RE F y W k2 -> k1 * V + k2 * W <= K * (V - W) -> RE F (fsub F x y) (V - W) (K + 1 + sl).
Proof.
  intros V0 W0 I K1 HX HY HK. pose proof re_p as P. pose proof (inr_pos _ I) as VW.
  pose proof (fsub_spec F x y (proj1 (proj2 HX)) (proj1 (proj2 HY))) as RT. 
  apply (re_weak _ _ (K + 1 + / 2000)); [lra|unfold sl; lra|]. apply (re_fin _ _ _ _ K RT I ltac:(lra)).
  destruct HX as (_ & _ & HX), HY as (_ & _ & HY). fold p in HX, HY. replace (val F x - val F y - (V - W)) with ((val F x - V) + - (val F y - W)) by ring. eapply Rle_trans; [apply Rabs_triang|]. rewrite Rabs_Ropp.
  apply Rle_trans with (p * (k1 * V + k2 * W)); [lra|]. apply Rle_trans with (p * (K * (V - W))); [apply Rmult_le_compat_l; lra|lra].
Qed.
Lemma re_sqrt sq x V k : (forall x, isbits F x -> exists r, sq x = Some r /\ sqrt_spec F x r) -> 0 < V -> inr (sqrt V) -> 0 <= k <= 8 -> RE F x V k -> exists r, sq x = Some r /\ RE F r (sqrt V) (k / 2 + 1 + sl).
Proof.
  intros HS V0 I K HX. pose proof (re_bd x V k V0 ltac:(lra) HX) as (B1 & Q1 & X0). pose proof re_p as P. pose proof (pk k k ltac:(lra) ltac:(lra)) as P2. destruct HX as (A & G & C).
  destruct (HS x A) as (r & E & _ & S & _). exists r. split; [exact E|].
  assert (NZ : iszero F x = false). { destruct (iszero F x) eqn:Z; [|reflexivity]. exfalso. pose proof (iszero_eq F x A Z) as E'. rewrite E', val_zero in X0. lra. }
  specialize (S G NZ (val_pos_sign F x X0)).
  pose proof (inr_pos _ I) as S0. apply (re_weak _ _ (k / 2 + / 2000 + 1 + / 2000)); [exact S0|unfold sl; lra|]. apply (re_fin _ _ _ _ (k / 2 + / 2000) S I ltac:(lra)).
  set (d := k * p) in *. replace ((k / 2 + / 2000) * p * sqrt V) with ((d / 2 + / 2000 * p) * sqrt V) by (unfold d; field). set (D := d / 2 + / 2000 * p).
  assert (DD : 0 <= D <= / 10000) by (unfold D; lra). set (v := val F x) in *. pose proof (sqrt_sqrt V ltac:(lra)) as SS. pose proof (sqrt_sqrt v ltac:(lra)) as Sv. pose proof (sqrt_pos v) as sp. set (a := sqrt V) in *. set (b := sqrt v) in *.
  assert (aa : 0 < a * a) by lra. assert (D2 : 0 <= D * D <= / 10000 * D) by nra.
  apply Rabs_le. split.
  - destruct (Rle_lt_dec (- (D * a)) (b - a)) as [CC | CC]; [exact CC|]. exfalso. assert (b * b < (a - D * a) * (a - D * a)) by (apply Rmult_le_0_lt_compat; lra).
    assert (X : a * a * (1 - d) < a * a * ((1 - D) * (1 - D))) by (rewrite <- SS in B1; nra). apply Rmult_lt_reg_l in X; [|lra]. unfold D in X. unfold D in D2. unfold D in DD.
    assert (Y : (d / 2 + / 2000 * p) * (d / 2 + / 2000 * p) <= / 50000 * p + / 2000 * p). { assert (0 <= d * p <= / 1000000 * p) by (split; [apply Rmult_le_pos; lra|apply Rmult_le_compat_r; lra]). assert (0 <= p * p <= p) by nra. nra. }
    lra.
  - destruct (Rle_lt_dec (b - a) (D * a)) as [CC | CC]; [exact CC|]. exfalso. assert ((a + D * a) * (a + D * a) < b * b) by (apply Rmult_le_0_lt_compat; nra).
    assert (X : a * a * ((1 + D) * (1 + D)) < a * a * (1 + d)) by (rewrite <- SS in B1; nra). apply Rmult_lt_reg_l in X; [|lra]. unfold D in X, D2. lra.
Qed.
End C.

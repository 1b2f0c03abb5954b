(** rem_pio2_large with prec = 1: the two numbers returned are accurate (rem_pio2_large.rs 397-447). *)
From Coq Require Import ZArith Reals Lia Lra Bool List Psatz.
From Flocq Require Import Core Sterbenz.
From Verif Require Import Base Spec SpecFun Format P_format Ieee M_basic M_scalbn M_elib M_rempio2 P_ieee P_real P_elem2 P_ival P_err P_cf P_fx P_rpl P_rpl2 P_rpl3 P_rpl4 P_pitab P_medf P_neg P_elem P_rem P_tot P_rplf P_red64.
Import ListNotations.
Open Scope Z_scope.
Open Scope fl_scope.
Notation u := (/ 9007199254740992)%R.

(** ** The two-part sum *)
Lemma p53a : IZR (2 ^ (mw f64 + 1)) = (2 * bpow radix2 52)%R.
Proof. change (IZR (2 ^ (mw f64 + 1))) with 9007199254740992%R. change (bpow radix2 52) with 4503599627370496%R. lra. Qed.
Lemma p53b : IZR (2 ^ (mw f64 + 1)) = (/ 262144 * bpow radix2 71)%R.
Proof. change (IZR (2 ^ (mw f64 + 1))) with 9007199254740992%R. change (bpow radix2 71) with 2361183241434822606848%R. lra. Qed.
Section Two.
Variable fq : list Z.
Variables jz b : Z.
Variable m : Z -> Z.
Hypothesis Hjz : 4 <= jz <= 11.
Hypothesis Hb : -120 <= b <= 100.
Hypothesis Lq : Z.of_nat (length fq) = 20.
Hypothesis Hm : forall t, 0 <= t <= jz -> 0 <= m t < 2 ^ 50.
Hypothesis Hf : forall t, 0 <= t <= jz -> fx (nz fq t) (m t) (b - 24 * t - 23).
Definition G (t : Z) : R := (IZR (m t) * bpow radix2 (b - 24 * t - 23))%R.
Fixpoint ts (n : nat) : R := match n with O => 0%R | S k => (ts k + G (jz - Z.of_nat k))%R end.
Fixpoint us (n : nat) : R := match n with O => 0%R | S k => (us k + ts (S k))%R end.
Let B := bpow radix2 b.
Lemma B_pos : (bpow radix2 (-120) <= B)%R. Proof. apply bpow_le. lia. Qed.
Lemma G_range t : 0 <= t <= jz -> (0 <= G t <= bpow radix2 (27 - 24 * t) * B)%R.
Proof.
  intros Ht. unfold G. pose proof (Hm t Ht). split; [apply Rmult_le_pos; [apply IZR_le; lia|apply bpow_ge_0]|].
  unfold B. rewrite <- bpow_plus. replace (27 - 24 * t + b) with (50 + (b - 24 * t - 23)) by lia. rewrite (bpow_plus radix2 50). apply Rmult_le_compat_r; [apply bpow_ge_0|]. change (bpow radix2 50) with (IZR (2 ^ 50)). apply IZR_le. lia.
Qed.
Lemma ts_range n : Z.of_nat n <= jz + 1 -> (0 <= ts n <= bpow radix2 (28 - 24 * (jz + 1 - Z.of_nat n)) * B)%R.
Proof.
  induction n as [|n IH]; intros Hn; cbn [ts].
  - split; [lra|]. apply Rmult_le_pos; apply bpow_ge_0.
  - specialize (IH ltac:(lia)). pose proof (G_range (jz - Z.of_nat n) ltac:(lia)) as GR. split; [lra|].
    replace (28 - 24 * (jz + 1 - Z.of_nat n)) with (-23 + (27 - 24 * (jz - Z.of_nat n))) in IH by lia. rewrite bpow_plus in IH.
    replace (28 - 24 * (jz + 1 - Z.of_nat (S n))) with (1 + (27 - 24 * (jz - Z.of_nat n))) by lia. rewrite bpow_plus. change (bpow radix2 1) with 2%R. change (bpow radix2 (-23)) with (/ 8388608)%R in IH.
    set (w := bpow radix2 (27 - 24 * (jz - Z.of_nat n))) in *. assert (0 <= w * B)%R by (apply Rmult_le_pos; apply bpow_ge_0). lra.
Qed.
Lemma us_range n : Z.of_nat n <= jz + 1 -> (0 <= us n <= IZR (Z.of_nat n) * ts n)%R.
Proof.
  induction n as [|n IH]; intros Hn; cbn [us]; [cbn [ts Z.of_nat]; lra|]. specialize (IH ltac:(lia)). pose proof (ts_range n ltac:(lia)) as T0. pose proof (ts_range (S n) Hn) as T1. cbn [ts] in *. pose proof (G_range (jz - Z.of_nat n) ltac:(lia)) as GR.
  replace (Z.of_nat (S n)) with (Z.of_nat n + 1) by lia. rewrite plus_IZR. assert (0 <= IZR (Z.of_nat n))%R by (apply (IZR_le 0); lia). nra.
Qed.
Lemma len12 n : Z.of_nat n <= jz + 1 -> (0 <= IZR (Z.of_nat n) <= 12)%R. Proof. intros H. split; [apply (IZR_le 0); lia|apply (IZR_le _ 12); lia]. Qed.
Lemma B_top : (B <= bpow radix2 100)%R. Proof. apply bpow_le. lia. Qed.
(** the first component *)
Lemma sum_ok : exists y, rpl_sum fq 0 jz = Some y /\ isbits f64 y /\ finite f64 y = true /\
  (Rabs (val f64 y - ts (Z.to_nat (jz + 1))) <= 1.00001 * u * us (Z.to_nat (jz + 1)) + 24 * bpow radix2 (-200))%R.
Proof.
  unfold rpl_sum.
  fordn (fun (i r : Z) => isbits f64 r /\ finite f64 r = true /\ (Rabs (val f64 r - ts (Z.to_nat (jz - i))) <= 1.00001 * u * us (Z.to_nat (jz - i)) + 2 * IZR (jz - i) * bpow radix2 (-200))%R) as (s & E & B1 & F1 & E1); [lia| | |exists s].
  - replace (jz - jz) with 0 by lia. cbn [Z.to_nat ts us]. destruct (fx_zero 0) as (A1 & A2 & A3). split; [exact A1|]. split; [exact A2|]. rewrite A3. replace (0 * bpow radix2 0 - 0)%R with 0%R by ring. rewrite Rabs_R0. lra.
  - intros i r Hi (Br & Fr & Er). rewrite arr_get_ok by lia. cbn [bind]. eexists; split; [reflexivity|].
    destruct (Hf i Hi) as (Bg & Fg & Vg). fold (G i) in Vg.
    replace (Z.to_nat (jz - (i - 1))) with (S (Z.to_nat (jz - i))) by lia. cbn [us ts]. rewrite Z2Nat.id by lia. replace (jz - (jz - i)) with i by lia. replace (jz - (i - 1)) with (jz - i + 1) by lia. rewrite plus_IZR.
    pose proof (G_range i Hi) as GR. pose proof (ts_range (Z.to_nat (jz - i)) ltac:(lia)) as TR. pose proof (us_range (Z.to_nat (jz - i)) ltac:(lia)) as UR. rewrite Z2Nat.id in UR by lia.
    assert (L : (0 <= IZR (jz - i) <= 12)%R) by (split; [apply (IZR_le 0); lia|apply (IZR_le _ 12); lia]).
    assert (GT : (G i <= bpow radix2 130)%R). { eapply Rle_trans; [exact (proj2 GR)|]. unfold B. rewrite <- bpow_plus. apply bpow_le. lia. }
    assert (TT : (ts (Z.to_nat (jz - i)) <= bpow radix2 130)%R). { eapply Rle_trans; [exact (proj2 TR)|]. unfold B. rewrite <- bpow_plus. apply bpow_le. rewrite Z2Nat.id by lia. lia. }
    pose proof tiny180 as [T0 T1]. rewrite b180 in T1. set (t := bpow radix2 (-200)) in *. set (T := ts (Z.to_nat (jz - i))) in *. set (U := us (Z.to_nat (jz - i))) in *. set (g := G i) in *. set (N := IZR (jz - i)) in *.
    assert (UB : (U <= 12 * T)%R) by nra.
    destruct (absle _ _ _ Er) as [A1 _]. rewrite (Rabs_pos_eq T) in A1 by lra.
    assert (Nt : (0 <= N * t <= 12 * t)%R) by nra.
    assert (B30 : (0 < bpow radix2 130)%R) by apply bpow_gt_0.
    destruct (add64 r (nz fq i) (4 * bpow radix2 130 + 1) Fr Fg) as [F2 E2].
    { rewrite Vg. eapply Rle_trans; [apply Rabs_triang|]. rewrite (Rabs_pos_eq g) by lra. lra. }
    { apply Rle_trans with (bpow radix2 133); [|apply bpow_le; lia]. replace (bpow radix2 133) with (8 * bpow radix2 130)%R by (change 133 with (3 + 130); rewrite bpow_plus; reflexivity). assert (1 <= bpow radix2 130)%R by (change 1%R with (bpow radix2 0); apply bpow_le; lia). lra. }
    split; [apply fadd_isbits|]. split; [exact F2|]. pose proof (rnd64_err (val f64 r + val f64 (nz fq i))) as RE. rewrite <- E2, Vg in RE. fold t in RE.
    set (v := val f64 (r +: nz fq i)) in *. set (R0 := val f64 r) in *.
    assert (A2 : (Rabs (R0 + g) <= (1 + 14 * u) * (T + g) + 25 * t)%R) by (eapply Rle_trans; [apply Rabs_triang|]; rewrite (Rabs_pos_eq g) by lra; lra).
    assert (A3 : (Rabs (v - (T + g)) <= Rabs (v - (R0 + g)) + Rabs (R0 - T))%R) by (replace (v - (T + g))%R with ((v - (R0 + g)) + (R0 - T))%R by ring; apply Rabs_triang).
    clearbody v R0 g T U N t. pose proof (proj1 TR) as TR0. pose proof (proj1 GR) as GR0. pose proof (proj1 UR) as UR0. revert A1 A2 A3 RE Er UB Nt T0 T1 TR0 GR0 UR0 L. clear. generalize (Rabs (R0 + g)) (Rabs (v - (T + g))) (Rabs (v - (R0 + g))) (Rabs (R0 - T)) (Rabs R0). intros.
    lra.
  - split; [exact E|]. split; [exact B1|]. split; [exact F1|]. replace (jz - (0 - 1)) with (jz + 1) in E1 by lia. eapply Rle_trans; [exact E1|]. apply Rplus_le_compat_l. assert (IZR (jz + 1) <= 12)%R by (apply (IZR_le _ 12); lia). pose proof (bpow_gt_0 radix2 (-200)). nra.
Qed.
(** ** the second component *)
Let J := Z.to_nat (jz + 1).
Definition SS (t : Z) : R := ts (Z.to_nat (jz + 1 - t)).
Lemma SS_step t : 0 <= t <= jz -> SS t = (G t + SS (t + 1))%R.
Proof.
  intros H. unfold SS. replace (Z.to_nat (jz + 1 - t)) with (S (Z.to_nat (jz + 1 - (t + 1)))) by lia. cbn [ts]. rewrite Z2Nat.id by lia. replace (jz - (jz + 1 - (t + 1))) with t by lia. ring.
Qed.
Lemma SS_range t : 0 <= t <= jz + 1 -> (0 <= SS t <= bpow radix2 (28 - 24 * t) * B)%R.
Proof.
  intros H. unfold SS. pose proof (ts_range (Z.to_nat (jz + 1 - t)) ltac:(lia)) as R. rewrite Z2Nat.id in R by lia. replace (jz + 1 - (jz + 1 - t)) with t in R by lia. exact R.
Qed.
Lemma us_top : (us J <= SS 0 + SS 1 + / 100000 * B)%R.
Proof.
  unfold J. replace (Z.to_nat (jz + 1)) with (S (S (Z.to_nat (jz - 1)))) by lia. cbn [us]. unfold SS. replace (Z.to_nat (jz + 1 - 0)) with (S (S (Z.to_nat (jz - 1)))) by lia. replace (Z.to_nat (jz + 1 - 1)) with (S (Z.to_nat (jz - 1))) by lia.
  pose proof (us_range (Z.to_nat (jz - 1)) ltac:(lia)) as U. pose proof (ts_range (Z.to_nat (jz - 1)) ltac:(lia)) as T. rewrite Z2Nat.id in U, T by lia. replace (28 - 24 * (jz + 1 - (jz - 1))) with (-20) in T by lia. change (bpow radix2 (-20)) with (/ 1048576)%R in T.
  assert (0 <= IZR (jz - 1) <= 10)%R by (split; [apply (IZR_le 0); lia|apply (IZR_le _ 10); lia]). cbn [ts] in *.
  set (a := ts (Z.to_nat (jz - 1))) in *. set (N := IZR (jz - 1)) in *. assert (N * a <= 10 * a)%R by nra. lra.
Qed.
Hypothesis G0 : (3 / 2 * B <= G 0)%R.
Hypothesis Hcase : (G 0 <= 1.58 * B /\ SS 1 <= 1.9 * B)%R \/ (3.1 * B <= G 0 /\ SS 1 <= 3 * B)%R.
Lemma fin_add a c M : finite f64 a = true -> finite f64 c = true -> (Rabs (val f64 a + val f64 c) <= M)%R -> (M <= bpow radix2 200)%R -> finite f64 (a +: c) = true /\ val f64 (a +: c) = rnd f64 (val f64 a + val f64 c).
Proof. intros Fa Fc H1 H2. apply (add64 a c M Fa Fc H1). eapply Rle_trans; [exact H2|apply bpow_le; lia]. Qed.
Section Second.
Variable y : Z.
Hypothesis By : isbits f64 y.
Hypothesis Fy : finite f64 y = true.
Let Y := val f64 y.
Let c := (SS 0 - Y)%R.
Hypothesis Hy : (Rabs (Y - SS 0) <= 1.00001 * u * us J + 24 * bpow radix2 (-200))%R.
Lemma c_bound : (Rabs c <= 2.001 * u * SS 0)%R.
Proof.
  unfold c. rewrite Rabs_minus_sym. eapply Rle_trans; [exact Hy|]. pose proof us_top as U. pose proof (SS_step 0 ltac:(lia)) as E. change (0 + 1) with 1 in E. pose proof B_pos as BP. pose proof (SS_range 1 ltac:(lia)) as R1. pose proof (proj1 R1) as R10.
  assert (T0 : (24 * bpow radix2 (-200) <= / 1000000 * u * B)%R).
  { apply Rle_trans with (/ 1000000 * u * bpow radix2 (-120))%R; [|apply Rmult_le_compat_l; [lra|exact BP]]. change (-120) with (80 + -200). rewrite bpow_plus. change (bpow radix2 80) with 1208925819614629174706176%R. pose proof (bpow_gt_0 radix2 (-200)). lra. }
  pose proof (bpow_gt_0 radix2 b) as B0. fold B in B0. pose proof (proj1 (us_range J ltac:(unfold J; lia))) as U0.
  assert (HB : (B <= SS 0)%R) by lra. assert (S1 : (SS 1 <= SS 0)%R) by lra. clear - U T0 HB S1 B0 U0. revert U T0 HB S1 B0 U0. generalize (bpow radix2 (-200)) (us J) (SS 0) (SS 1) B. intros. lra.
Qed.
Lemma c_small : (Rabs c <= / 15000000 * B)%R.
Proof.
  eapply Rle_trans; [exact c_bound|]. pose proof (SS_range 0 ltac:(lia)) as R. change (28 - 24 * 0) with 28 in R. change (bpow radix2 28) with 268435456%R in R. destruct R as [R1 R2]. revert R1 R2. generalize (SS 0) B. intros. lra.
Qed.
Lemma Y_grid : exists k, Y = (IZR k * bpow radix2 (b - 52))%R.
Proof.
  apply (repr_grid f64 Y b); [apply repr_val; exact Fy|]. intros _. fold B. pose proof c_small as C. pose proof (SS_step 0 ltac:(lia)) as E. change (0 + 1) with 1 in E. pose proof (proj1 (SS_range 1 ltac:(lia))) as R1. pose proof (bpow_gt_0 radix2 b) as B0. fold B in B0.
  apply Rabs_le_inv in C. unfold c in C. rewrite Rabs_pos_eq by lra. lra.
Qed.
Lemma int_le k e M v : v = (IZR k * bpow radix2 e)%R -> (Rabs v <= IZR M * bpow radix2 e)%R -> Z.abs k <= M.
Proof.
  intros -> H. rewrite Rabs_mult, (Rabs_pos_eq (bpow _ _)) in H by apply bpow_ge_0. apply Rmult_le_reg_r in H; [|apply bpow_gt_0]. apply le_IZR. rewrite abs_IZR. exact H.
Qed.
Lemma ex1 : repr f64 (c - SS 1).
Proof.
  pose proof (SS_step 0 ltac:(lia)) as E. change (0 + 1) with 1 in E. replace (c - SS 1)%R with (G 0 - Y)%R by (unfold c; lra).
  pose proof c_small as C. apply Rabs_le_inv in C. unfold c in C. pose proof (proj1 (SS_range 1 ltac:(lia))) as R1. pose proof (bpow_gt_0 radix2 b) as B0. fold B in B0. destruct Hcase as [[C1 C2] | [C1 C2]].
  - destruct Y_grid as [k Hk].
    assert (E0 : (G 0 - Y = IZR (m 0 * 2 ^ 29 - k) * bpow radix2 (b - 52))%R).
    { rewrite Hk, minus_IZR, mult_IZR. unfold G. replace (b - 24 * 0 - 23) with (29 + (b - 52)) by lia. rewrite bpow_plus. change (bpow radix2 29) with (IZR (2 ^ 29)). ring. }
    rewrite E0. apply repr_int; [|cbn; lia]. apply (int_le _ (b - 52) _ _ E0). rewrite p53a. rewrite Rmult_assoc, <- bpow_plus. replace (52 + (b - 52)) with b by lia. fold B. apply Rabs_le. lra.
  - apply repr_opp in R1 || idtac. rewrite <- (Ropp_involutive (G 0 - Y)). apply repr_opp. replace (- (G 0 - Y))%R with (Y - G 0)%R by ring.
    apply sterbenz; [apply fmt_valid_exp|apply FLT_exp_monotone|apply repr_val; exact Fy| |lra]. destruct (Hf 0 ltac:(lia)) as (_ & F0 & V0). fold (G 0) in V0. rewrite <- V0. apply repr_val. exact F0.
Qed.
Lemma ex2 : repr f64 (c - SS 2).
Proof.
  pose proof (SS_step 0 ltac:(lia)) as E. change (0 + 1) with 1 in E. pose proof (SS_step 1 ltac:(lia)) as E1. change (1 + 1) with 2 in E1.
  destruct Y_grid as [k Hk].
  assert (E0 : (c - SS 2 = IZR (m 0 * 2 ^ 29 + m 1 * 2 ^ 5 - k) * bpow radix2 (b - 52))%R).
  { unfold c. rewrite E, E1, Hk, minus_IZR, plus_IZR, !mult_IZR. unfold G. replace (b - 24 * 0 - 23) with (29 + (b - 52)) by lia. replace (b - 24 * 1 - 23) with (5 + (b - 52)) by lia. rewrite !bpow_plus. change (bpow radix2 29) with (IZR (2 ^ 29)). change (bpow radix2 5) with (IZR (2 ^ 5)). ring. }
  rewrite E0. apply repr_int; [|cbn; lia]. apply (int_le _ (b - 52) _ _ E0). rewrite p53a. rewrite Rmult_assoc, <- bpow_plus. replace (52 + (b - 52)) with b by lia. fold B.
  pose proof c_small as C. pose proof (SS_range 2 ltac:(lia)) as R. change (28 - 24 * 2) with (-20) in R. change (bpow radix2 (-20)) with (/ 1048576)%R in R. apply Rabs_le_inv in C. apply Rabs_le. lra.
Qed.
Lemma ex3 : repr f64 (c - SS 3).
Proof.
  pose proof (SS_step 0 ltac:(lia)) as E. change (0 + 1) with 1 in E. pose proof (SS_step 1 ltac:(lia)) as E1. change (1 + 1) with 2 in E1. pose proof (SS_step 2 ltac:(lia)) as E2. change (2 + 1) with 3 in E2.
  destruct Y_grid as [k Hk].
  assert (E0 : (c - SS 3 = IZR (m 0 * 2 ^ 48 + m 1 * 2 ^ 24 + m 2 - k * 2 ^ 19) * bpow radix2 (b - 71))%R).
  { unfold c. rewrite E, E1, E2, Hk, minus_IZR, !plus_IZR, !mult_IZR. unfold G. replace (b - 24 * 0 - 23) with (48 + (b - 71)) by lia. replace (b - 24 * 1 - 23) with (24 + (b - 71)) by lia. replace (b - 24 * 2 - 23) with (b - 71) by lia. replace (b - 52) with (19 + (b - 71)) by lia. rewrite !bpow_plus. change (bpow radix2 48) with (IZR (2 ^ 48)). change (bpow radix2 24) with (IZR (2 ^ 24)). change (bpow radix2 19) with (IZR (2 ^ 19)). ring. }
  rewrite E0. apply repr_int; [|cbn; lia]. apply (int_le _ (b - 71) _ _ E0). rewrite p53b. rewrite Rmult_assoc, <- bpow_plus. replace (71 + (b - 71)) with b by lia. fold B.
  pose proof c_small as C. pose proof (SS_range 3 ltac:(lia)) as R. change (28 - 24 * 3) with (-44) in R. change (bpow radix2 (-44)) with (/ 17592186044416)%R in R. apply Rabs_le_inv in C. apply Rabs_le. lra.
Qed.
Lemma tau_B : (24 * bpow radix2 (-200) <= / 1000000 * u * B)%R.
Proof.
  apply Rle_trans with (/ 1000000 * u * bpow radix2 (-120))%R; [|apply Rmult_le_compat_l; [lra|exact B_pos]]. change (-120) with (80 + -200). rewrite bpow_plus. change (bpow radix2 80) with 1208925819614629174706176%R. pose proof (bpow_gt_0 radix2 (-200)). lra.
Qed.
Lemma B_SS : (0 < B <= SS 0)%R.
Proof. pose proof (SS_step 0 ltac:(lia)) as E. change (0 + 1) with 1 in E. pose proof (proj1 (SS_range 1 ltac:(lia))). pose proof (bpow_gt_0 radix2 b) as B0. fold B in B0. lra. Qed.
Lemma SS_top : (SS 0 <= bpow radix2 128)%R.
Proof. eapply Rle_trans; [exact (proj2 (SS_range 0 ltac:(lia)))|]. unfold B. rewrite <- bpow_plus. apply bpow_le. lia. Qed.
Lemma SS_mono t : 0 <= t <= jz -> (SS (t + 1) <= SS t)%R.
Proof. intros H. rewrite (SS_step t H). pose proof (G_range t H). lra. Qed.
Lemma step_err (S bb w g s t e N : R) : (Rabs c <= 2.001 * u * S)%R -> (0 < bb <= S)%R -> (0 <= s <= / 100000000000000000000 * bb)%R -> (0 < t)%R -> (24 * t <= / 1000000 * u * bb)%R -> (0 <= N <= 12)%R ->
  (Rabs (w - (c - (g + s))) <= N * (3 * u * u * S + 2 * t))%R -> (Rabs (e - (w + g)) <= u * Rabs (w + g) + t)%R -> (Rabs (e - (c - s)) <= (N + 1) * (3 * u * u * S + 2 * t))%R.
Proof.
  intros HC HB Hs Ht1 Ht2 HN Hw He. set (z := (3 * u * u * S + 2 * t)%R) in *. assert (Nz : (0 <= N * z <= 12 * z)%R) by (assert (0 <= z)%R by (unfold z; nra); nra).
  assert (A1 : (Rabs (w + g) <= Rabs c + s + N * z)%R).
  { replace (w + g)%R with (c + - s + (w - (c - (g + s))))%R by ring. eapply Rle_trans; [apply abs3|]. rewrite Rabs_Ropp, (Rabs_pos_eq s) by lra. lra. }
  assert (A2 : (Rabs (e - (c - s)) <= Rabs (e - (w + g)) + Rabs (w - (c - (g + s))))%R) by (replace (e - (c - s))%R with ((e - (w + g)) + (w - (c - (g + s))))%R by ring; apply Rabs_triang).
  replace ((N + 1) * z)%R with (N * z + z)%R by ring. set (q := (N * z)%R) in *. clearbody q.
  assert (A3 : (u * Rabs (w + g) + t <= z)%R); [|lra]. unfold z in *. clear z.
  revert A1 HC HB Hs Ht1 Ht2 Nz. generalize (Rabs (w + g)) (Rabs c). clear. intros. lra.
Qed.
Lemma second_ok : exists w, for_incl 1 jz (fun i fw => let* v := arr_get fq i in Some (fw +: v)) (nz fq 0 -: y) = Some w /\ isbits f64 w /\ finite f64 w = true /\ (Rabs (val f64 w - c) <= / 500000 * u * SS 0)%R.
Proof.
  pose proof c_bound as CB. pose proof B_SS as HB. pose proof SS_top as ST. pose proof tau_B as TB. pose proof (bpow_gt_0 radix2 (-200)) as T0.
  assert (P128 : (1 <= bpow radix2 128)%R) by (change 1%R with (bpow radix2 0); apply bpow_le; lia). assert (P130 : (4 * bpow radix2 128 <= bpow radix2 200)%R) by (change 4%R with (bpow radix2 2); rewrite <- bpow_plus; apply bpow_le; lia).
  forup (fun (i w : Z) => isbits f64 w /\ finite f64 w = true /\ (i <= 3 -> val f64 w = (c - SS i)%R) /\ (Rabs (val f64 w - (c - SS i)) <= IZR (i - 1) * (3 * u * u * SS 0 + 2 * bpow radix2 (-200)))%R) as (s & E & B1 & F1 & _ & E1); [lia| | |exists s].
  - destruct (Hf 0 ltac:(lia)) as (Bg & Fg & Vg). fold (G 0) in Vg. pose proof (SS_step 0 ltac:(lia)) as E0. change (0 + 1) with 1 in E0.
    assert (EV : (G 0 - Y = c - SS 1)%R) by (unfold c; lra).
    pose proof (proj1 (SS_range 1 ltac:(lia))) as S10. pose proof (SS_mono 0 ltac:(lia)) as SM. change (0 + 1) with 1 in SM.
    destruct (sub64 (nz fq 0) y (4 * bpow radix2 128) Fg Fy) as [F2 E2].
    { rewrite Vg. fold Y. rewrite EV. unfold Rminus. eapply Rle_trans; [apply Rabs_triang|]. rewrite Rabs_Ropp, (Rabs_pos_eq (SS 1)) by exact S10. clear - CB HB ST SM S10. revert CB HB ST SM S10. generalize (Rabs c) (SS 0) (SS 1) (bpow radix2 128) B. intros. lra. }
    { eapply Rle_trans; [exact P130|apply bpow_le; lia]. }
    rewrite Vg in E2. fold Y in E2. rewrite EV, (repr_rnd f64 _ ex1) in E2.
    split; [apply fsub_isbits|]. split; [exact F2|]. split; [intros _; exact E2|]. rewrite E2. rewrite Rminus_eq_0, Rabs_R0. change (IZR (1 - 1)) with 0%R. rewrite Rmult_0_l. lra.
  - intros i w Hi (Bw & Fw & Ex & Er). rewrite arr_get_ok by lia. cbn [bind]. eexists; split; [reflexivity|].
    destruct (Hf i ltac:(lia)) as (Bg & Fg & Vg). fold (G i) in Vg. pose proof (SS_step i ltac:(lia)) as E0.
    pose proof (SS_mono i ltac:(lia)) as SM. pose proof (proj1 (SS_range (i + 1) ltac:(lia))) as S10.
    assert (SL : (SS (i + 1) <= / 1000 * B)%R). { eapply Rle_trans; [exact (proj2 (SS_range (i + 1) ltac:(lia)))|]. apply Rmult_le_compat_r; [lra|]. apply Rle_trans with (bpow radix2 (-20)); [apply bpow_le; lia|]. change (bpow radix2 (-20)) with (/ 1048576)%R. lra. }
    assert (LN : (0 <= IZR (i - 1) <= 12)%R) by (split; [apply (IZR_le 0); lia|apply (IZR_le _ 12); lia]).
    replace (i + 1 - 1) with (i - 1 + 1) by lia. rewrite plus_IZR. set (N := IZR (i - 1)) in *. set (t := bpow radix2 (-200)) in *.
    destruct (fin_add w (nz fq i) (4 * bpow radix2 128) Fw Fg) as [F2 E2].
    { rewrite Vg. replace (val f64 w + G i)%R with (c + - SS (i + 1) + (val f64 w - (c - SS i)))%R by (rewrite E0; ring). eapply Rle_trans; [apply abs3|]. rewrite Rabs_Ropp, (Rabs_pos_eq (SS (i + 1))) by exact S10.
      clear - CB HB ST SL S10 Er T0 TB LN P128. assert (ZZ : (N * (3 * u * u * SS 0 + 2 * t) <= 12 * (3 * u * u * SS 0 + 2 * t))%R) by (apply Rmult_le_compat_r; lra). revert CB HB ST SL S10 Er T0 TB ZZ P128. generalize (N * (3 * u * u * SS 0 + 2 * t))%R (Rabs (val f64 w - (c - SS i))) (Rabs c) (SS 0) (SS (i + 1)) (bpow radix2 128) B t. intros. lra. }
    { exact P130. }
    split; [apply fadd_isbits|]. split; [exact F2|].
    destruct (Z.le_gt_cases i 2) as [L2 | L2].
    + specialize (Ex ltac:(lia)). assert (EV : (val f64 w + val f64 (nz fq i) = c - SS (i + 1))%R) by (rewrite Ex, Vg, E0; ring).
      rewrite EV in E2. assert (RR : repr f64 (c - SS (i + 1))) by (assert (D : i = 1 \/ i = 2) by lia; destruct D as [-> | ->]; [exact ex2|exact ex3]). rewrite (repr_rnd f64 _ RR) in E2.
      split; [intros _; exact E2|]. rewrite E2, Rminus_eq_0, Rabs_R0. apply Rmult_le_pos; lra.
    + split; [lia|]. pose proof (rnd64_err (val f64 w + val f64 (nz fq i))) as RE. rewrite <- E2, Vg in RE. fold t in RE. rewrite E0 in Er.
      apply (step_err (SS 0) B (val f64 w) (G i)); try assumption. split; [exact S10|]. eapply Rle_trans; [exact (proj2 (SS_range (i + 1) ltac:(lia)))|]. apply Rmult_le_compat_r; [lra|]. apply Rle_trans with (bpow radix2 (-68)); [apply bpow_le; lia|]. change (bpow radix2 (-68)) with (/ 295147905179352825856)%R. lra.
  - split; [exact E|]. split; [exact B1|]. split; [exact F1|]. replace (jz + 1 - 1) with jz in E1 by lia.
    assert (EZ : SS (jz + 1) = 0%R) by (unfold SS; replace (jz + 1 - (jz + 1)) with 0 by lia; reflexivity). rewrite EZ, Rminus_0_r in E1. eapply Rle_trans; [exact E1|].
    assert (LN : (0 <= IZR jz <= 12)%R) by (split; [apply (IZR_le 0); lia|apply (IZR_le _ 12); lia]). set (t := bpow radix2 (-200)) in *.
    assert (ZZ : (IZR jz * (3 * u * u * SS 0 + 2 * t) <= 12 * (3 * u * u * SS 0 + 2 * t))%R) by (apply Rmult_le_compat_r; lra). eapply Rle_trans; [exact ZZ|]. clear - HB TB T0. revert HB TB T0. generalize (SS 0) B t. intros. lra.
Qed.
End Second.
Theorem two_parts : exists y w, rpl_sum fq 0 jz = Some y /\ for_incl 1 jz (fun i fw => let* v := arr_get fq i in Some (fw +: v)) (nz fq 0 -: y) = Some w /\
  isbits f64 y /\ finite f64 y = true /\ isbits f64 w /\ finite f64 w = true /\
  (Rabs (val f64 y - SS 0) <= 2.001 * u * SS 0)%R /\ (Rabs (val f64 y + val f64 w - SS 0) <= / 500000 * u * SS 0)%R.
Proof.
  destruct sum_ok as (y & E & By & Fy & Ey). assert (ES : ts (Z.to_nat (jz + 1)) = SS 0) by (unfold SS; f_equal; lia). rewrite ES in Ey. fold J in Ey.
  destruct (second_ok y Fy Ey) as (w & E2 & Bw & Fw & Ew). exists y, w. repeat (split; [assumption|]). split.
  - rewrite Rabs_minus_sym. apply (c_bound y Ey).
  - replace (val f64 y + val f64 w - SS 0)%R with (val f64 w - (SS 0 - val f64 y))%R by ring. exact Ew.
Qed.
End Two.

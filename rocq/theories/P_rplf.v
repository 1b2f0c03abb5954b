(** rem_pio2_large with prec = 0: the value returned is accurate. *)
From Coq Require Import ZArith Reals Lia Lra Bool List Psatz.
From Flocq Require Import Core.
From Verif Require Import Base Spec SpecFun Format P_format Ieee M_basic M_scalbn M_elib M_rempio2 P_ieee P_elem2 P_ival P_err P_cf P_fx P_rpl P_rpl2 P_rpl3 P_rpl4 P_pitab P_medf P_neg P_elem P_rem P_tot.
Import ListNotations.
Open Scope Z_scope.
Open Scope fl_scope.

(** approximation of a nonnegative number *)
Definition t52 : R := (/ 4503599627370496)%R.
Definition okv (c : Z) (f : Z) (s : R) : Prop :=
  isbits f64 f /\ finite f64 f = true /\ (s = 0%R \/ (bpow radix2 (-600) <= s)%R) /\ (s <= bpow radix2 10)%R /\ (Rabs (val f64 f - s) <= IZR c * t52 * s)%R.
Lemma okv_add c d f g s t : 0 <= c <= d -> d <= 100 -> okv c f s -> okv d g t -> (s + t <= bpow radix2 10)%R -> okv (d + 1) (fadd f64 f g) (s + t).
Proof.
  intros Hc Hd (Bf & Ff & Sf & _ & Ef) (Bg & Fg & Sg & _ & Eg) U. pose proof (bpow_gt_0 radix2 (-600)) as P6. assert (0 <= s)%R by lra. assert (0 <= t)%R by lra.
  assert (DC : (IZR c * t52 * s <= IZR d * t52 * s)%R) by (apply Rmult_le_compat_r; [assumption|]; apply Rmult_le_compat_r; [unfold t52; lra|apply IZR_le; lia]).
  set (D := (IZR d * t52)%R) in *. assert (D0 : (0 <= D <= / 1000000)%R). { assert (0 <= IZR d <= 100)%R by (split; apply IZR_le; lia). unfold D, t52. lra. }
  assert (E : (Rabs ((val f64 f + val f64 g) - (s + t)) <= D * (s + t))%R).
  { replace ((val f64 f + val f64 g) - (s + t))%R with ((val f64 f - s) + (val f64 g - t))%R by ring. eapply Rle_trans; [apply Rabs_triang|]. lra. }
  assert (E' := E). apply Rabs_le_inv in E'.
  assert (B : (Rabs (val f64 f + val f64 g) <= 2 * (s + t))%R) by (apply Rabs_le; nra).
  destruct (add64 f g (2 * bpow radix2 10) Ff Fg) as [Fh Eh]; [lra|apply big1000; change (bpow radix2 10) with 1024%R; lra|].
  split; [apply fadd_isbits|]. split; [exact Fh|]. split; [lra|]. split; [exact U|]. rewrite Eh.
  assert (R1 : (Rabs (rnd f64 (val f64 f + val f64 g) - (val f64 f + val f64 g)) <= bpow radix2 (-53) * Rabs (val f64 f + val f64 g))%R).
  { destruct (Req_dec (s + t) 0) as [Z0 | NZ].
    - assert (val f64 f + val f64 g = 0)%R as -> by (rewrite Z0 in E'; lra). rewrite rnd_0. replace (0 - 0)%R with 0%R by ring. rewrite Rabs_R0. lra.
    - apply rnd64_rel. assert (bpow radix2 (-600) <= s + t)%R by lra. apply Rle_trans with (bpow radix2 (-601)); [apply bpow_le; lia|].
      replace (bpow radix2 (-600)) with (2 * bpow radix2 (-601))%R in H1 by (change (-600) with (1 + -601); rewrite bpow_plus; reflexivity). rewrite Rabs_pos_eq by nra. nra. }
  rewrite plus_IZR. replace ((IZR d + 1) * t52 * (s + t))%R with (D * (s + t) + t52 * (s + t))%R by (unfold D; ring).
  replace (rnd f64 (val f64 f + val f64 g) - (s + t))%R with ((rnd f64 (val f64 f + val f64 g) - (val f64 f + val f64 g)) + ((val f64 f + val f64 g) - (s + t)))%R by ring.
  eapply Rle_trans; [apply Rabs_triang|]. replace t52 with (2 * bpow radix2 (-53))%R by (unfold t52; change (bpow radix2 (-53)) with (/ 9007199254740992)%R; lra).
  pose proof (bpow_gt_0 radix2 (-53)). nra.
Qed.
Lemma okv_mono c d f s : c <= d -> okv c f s -> okv d f s.
Proof.
  intros H (A & B & C & D & E). repeat (split; [assumption|]). eapply Rle_trans; [exact E|]. pose proof (bpow_gt_0 radix2 (-600)). apply Rmult_le_compat_r; [lra|]. apply Rmult_le_compat_r; [unfold t52; lra|now apply IZR_le].
Qed.
Lemma okv_0 c : 0 <= c -> okv c 0 0%R.
Proof.
  intros H. destruct (fx_zero 0) as (A & B & C). split; [exact A|]. split; [exact B|]. split; [left; reflexivity|]. split; [apply bpow_ge_0|]. rewrite C. replace (0 * bpow radix2 0 - 0)%R with 0%R by ring. rewrite Rabs_R0, Rmult_0_r. lra.
Qed.
Definition pm (k : nat) : Z := nth k [6588397; 1328173; 3181873; 13001355] 0.
Definition pe (k : nat) : Z := nth k [-22; -44; -69; -95] 0.
Lemma pio2_fx k : (k <= 3)%nat -> fx (nz PIO2 (Z.of_nat k)) (pm k) (pe k).
Proof.
  intros H. assert (D : (k = 0 \/ k = 1 \/ k = 2 \/ k = 3)%nat) by lia. destruct D as [-> | [-> | [-> | ->]]]; cbn [pm pe nth].
  - fxlit 6588397 (2 ^ 22).
  - fxlit 1328173 (2 ^ 44).
  - fxlit 3181873 (2 ^ 69).
  - fxlit 13001355 (2 ^ 95).
Qed.
Definition ptv (k : nat) : R := (IZR (pm k) * bpow radix2 (pe k))%R.
Lemma ptv_range k : (0 <= ptv k <= 2)%R.
Proof.
  unfold ptv. destruct k as [|[|[|[|k]]]]; cbn [pm pe nth].
  - change (bpow radix2 (-22)) with (/ 4194304)%R. lra.
  - change (bpow radix2 (-44)) with (/ 17592186044416)%R. lra.
  - change (bpow radix2 (-69)) with (/ 590295810358705651712)%R. lra.
  - change (bpow radix2 (-95)) with (/ 39614081257132168796771975168)%R. lra.
  - destruct k; cbn [nth]; change (bpow radix2 0) with 1%R; lra.
Qed.
Section Sum.
Variable q : list Z.
Variables jz g : Z.
Variable d : Z -> Z.
Hypothesis Hjz : 3 <= jz <= 11.
Hypothesis Hg : -400 <= g <= 0.
Hypothesis Lq : Z.of_nat (length q) = 20.
Hypothesis Hd : forall i, 0 <= i <= jz -> 0 <= d i < 2 ^ 24.
Hypothesis Hq : forall i, 0 <= i <= jz -> fx (nz q i) (d i) (g + 24 * i).
Definition qr (i : Z) : R := (IZR (d i) * bpow radix2 (g + 24 * i))%R.
Hypothesis Hone : forall i, 0 <= i <= jz -> (qr i <= 1)%R.
Lemma qr_pos i : 0 <= i <= jz -> (0 <= qr i)%R.
Proof. intros H. unfold qr. apply Rmult_le_pos; [apply IZR_le; apply Hd; lia|apply bpow_ge_0]. Qed.
Lemma prod_ok k i : (k <= 3)%nat -> 0 <= i <= jz -> okv 0 (fmul f64 (nz PIO2 (Z.of_nat k)) (nz q i)) (ptv k * qr i).
Proof.
  intros Hk Hi. pose proof (Hd i Hi) as D. assert (PM : 0 < pm k < 2 ^ 24 /\ -95 <= pe k <= 0). { assert (DD : (k = 0 \/ k = 1 \/ k = 2 \/ k = 3)%nat) by lia. destruct DD as [-> | [-> | [-> | ->]]]; cbn; lia. }
  assert (P48 : 0 <= pm k * d i <= 2 ^ 48) by (change (2 ^ 48) with (2 ^ 24 * 2 ^ 24); split; [apply Z.mul_nonneg_nonneg; lia|apply Z.mul_le_mono_nonneg; lia]).
  destruct (fx_mul _ _ _ _ _ _ (pio2_fx k Hk) (Hq i Hi)) as (A & B & C); [lia|lia|]. split; [exact A|]. split; [exact B|].
  assert (E : (IZR (pm k * d i) * bpow radix2 (pe k + (g + 24 * i)) = ptv k * qr i)%R) by (unfold ptv, qr; rewrite mult_IZR, bpow_plus; ring).
  split; [|split].
  - rewrite <- E. destruct (Z.eq_dec (d i) 0) as [-> | N]; [left; rewrite Z.mul_0_r; ring|right]. apply Rle_trans with (1 * bpow radix2 (pe k + (g + 24 * i)))%R.
    + rewrite Rmult_1_l. apply bpow_le. lia.
    + apply Rmult_le_compat_r; [apply bpow_ge_0|]. apply IZR_le. assert (0 < pm k * d i) by (apply Z.mul_pos_pos; lia). lia.
  - pose proof (ptv_range k). pose proof (qr_pos i Hi). pose proof (Hone i Hi). change (bpow radix2 10) with 1024%R. nra.
  - rewrite C, E. replace (ptv k * qr i - ptv k * qr i)%R with 0%R by ring. rewrite Rabs_R0. lra.
Qed.
Fixpoint gs (t : Z) (n : nat) : R := match n with O => 0%R | S m => (gs t m + ptv m * qr (jz - t + Z.of_nat m))%R end.
Lemma gs_range t n : 0 <= t <= jz -> (n <= 4)%nat -> Z.of_nat n <= t + 1 -> (0 <= gs t n <= 2 * INR n)%R.
Proof.
  intros Ht Hn Hm. induction n as [|n IH]; [cbn; lra|]. specialize (IH ltac:(lia) ltac:(lia)). rewrite S_INR. cbn [gs].
  pose proof (ptv_range n). pose proof (qr_pos (jz - t + Z.of_nat n) ltac:(lia)). pose proof (Hone (jz - t + Z.of_nat n) ltac:(lia)). nra.
Qed.
Lemma INR_le4 n : (n <= 4)%nat -> (INR n <= 4)%R.
Proof. intros H. apply le_INR in H. change (INR 4) with (1 + 1 + 1 + 1)%R in H. lra. Qed.
Definition cnt (t : Z) : nat := Z.to_nat (Z.min 3 t + 1).
Lemma rpl_fq_val : exists fq, rpl_fq q jz 3 = Some fq /\ Z.of_nat (length fq) = 20 /\ forall t, 0 <= t <= jz -> okv 4 (nz fq t) (gs t (cnt t)).
Proof.
  unfold rpl_fq.
  fordn (fun (i : Z) (fq : list Z) => Z.of_nat (length fq) = 20 /\ forall t, 0 <= t < jz - i -> okv 4 (nz fq t) (gs t (cnt t))) as (s & E & H1 & H2); [lia|split; [rewrite repeat_length; reflexivity|intros; lia]| |exists s; split; [exact E|split; [exact H1|intros t Ht; apply H2; lia]]].
  intros i fq Hi (L & HF). rewrite usub_ok by lia. cbn [bind].
  match goal with |- context [run _ ?st _] =>
    destruct (run_rule (fun s : Z * Z => exists n, fst s = Z.of_nat n /\ (n <= cnt (jz - i))%nat /\ okv (Z.of_nat n) (snd s) (gs (jz - i) n)) (fun s => 4 - fst s) (fun r => okv 4 r (gs (jz - i) (cnt (jz - i)))) st) with (p := 25%positive) (s := (0, 0)) as (r & E & Hr) end.
  - intros [k w] (n & Hk & Hn & Ho). cbn [fst snd] in *. subst k. unfold cnt in Hn.
    destruct (Z.leb_spec (Z.of_nat n) 3), (Z.leb_spec (Z.of_nat n) (jz - i)); cbn [andb].
    2,3,4: eexists; (split; [reflexivity|]); cbv iota; replace (cnt (jz - i)) with n by (unfold cnt; lia); apply (okv_mono (Z.of_nat n)); [lia|exact Ho].
    assert (LP : Z.of_nat (length PIO2) = 8) by reflexivity.
    rewrite arr_get_ok by lia. cbn [bind]. rewrite uadd_ok by (p31; lia). cbn [bind]. rewrite arr_get_ok by lia. cbn [bind]. rewrite uadd_ok by (p31; lia). cbn [bind].
    eexists; split; [reflexivity|]. cbv iota. cbn [fst snd]. split; [|lia]. exists (S n). split; [lia|]. split; [unfold cnt; lia|].
    replace (Z.of_nat (S n)) with (Z.of_nat n + 1) by lia. cbn [gs]. replace (jz - (jz - i) + Z.of_nat n) with (i + Z.of_nat n) by lia.
    apply (okv_add (Z.of_nat n)); [lia|lia|exact Ho|apply (okv_mono 0); [lia|apply prod_ok; lia]|].
    pose proof (gs_range (jz - i) n ltac:(lia) ltac:(lia) ltac:(lia)). pose proof (INR_le4 n ltac:(lia)). pose proof (ptv_range n). pose proof (qr_pos (i + Z.of_nat n) ltac:(lia)). pose proof (Hone (i + Z.of_nat n) ltac:(lia)). change (bpow radix2 10) with 1024%R. nra.
  - exists 0%nat. cbn [fst snd gs]. split; [reflexivity|]. split; [lia|]. apply okv_0. lia.
  - cbn [fst]. lia.
  - rewrite E. cbn [bind]. destruct (arr_set_ok fq (jz - i) r ltac:(lia)) as (f' & -> & L' & K'). eexists; split; [reflexivity|]. split; [lia|].
    intros t Ht. rewrite K' by lia. destruct (Z.eqb_spec t (jz - i)) as [-> | N]; [exact Hr|apply HF; lia].
Qed.
(** sum of the last n of the terms *)
Fixpoint ss (n : nat) : R := match n with O => 0%R | S m => (ss m + gs (jz - Z.of_nat m) (cnt (jz - Z.of_nat m)))%R end.
Lemma ss_range n : Z.of_nat n <= jz + 1 -> (0 <= ss n <= 8 * INR n)%R.
Proof.
  intros H. induction n as [|n IH]; [cbn; lra|]. specialize (IH ltac:(lia)). rewrite S_INR. cbn [ss].
  pose proof (gs_range (jz - Z.of_nat n) (cnt (jz - Z.of_nat n)) ltac:(lia) ltac:(unfold cnt; lia) ltac:(unfold cnt; lia)). pose proof (INR_le4 (cnt (jz - Z.of_nat n)) ltac:(unfold cnt; lia)). lra.
Qed.
Lemma rpl_sum_val fq : Z.of_nat (length fq) = 20 -> (forall t, 0 <= t <= jz -> okv 4 (nz fq t) (gs t (cnt t))) -> exists r, rpl_sum fq 0 jz = Some r /\ okv 20 r (ss (Z.to_nat (jz + 1))).
Proof.
  intros L HF. unfold rpl_sum. fordn (fun (i r : Z) => okv (4 + (jz - i)) r (ss (Z.to_nat (jz - i)))) as (s & E & H1); [lia| | |exists s; split; [exact E|]].
  - replace (jz - jz) with 0 by lia. cbn [Z.to_nat ss]. apply okv_0. lia.
  - intros i r Hi Ho. rewrite arr_get_ok by lia. cbn [bind]. eexists; split; [reflexivity|].
    replace (4 + (jz - (i - 1))) with (4 + (jz - i) + 1) by lia. replace (Z.to_nat (jz - (i - 1))) with (S (Z.to_nat (jz - i))) by lia. cbn [ss]. rewrite Z2Nat.id by lia. replace (jz - (jz - i)) with i by lia.
    apply (okv_add (4 + (jz - i))); [lia|lia|exact Ho|apply (okv_mono 4); [lia|apply HF; lia]|].
    pose proof (ss_range (Z.to_nat (jz - i)) ltac:(lia)) as S1. pose proof (gs_range i (cnt i) ltac:(lia) ltac:(unfold cnt; lia) ltac:(unfold cnt; lia)). pose proof (INR_le4 (cnt i) ltac:(unfold cnt; lia)).
    rewrite INR_IZR_INZ, Z2Nat.id in S1 by lia. assert (IZR (jz - i) <= 11)%R by (apply IZR_le; lia). change (bpow radix2 10) with 1024%R. lra.
  - replace (jz - (0 - 1)) with (jz + 1) in H1 by lia. eapply okv_mono; [|exact H1]. lia.
Qed.
(** the exact value *)
Fixpoint vs (n : nat) : R := match n with O => 0%R | S m => (vs m + qr (Z.of_nat m))%R end.
Lemma vs_le n i : (i < n)%nat -> Z.of_nat n <= jz + 1 -> (qr (Z.of_nat i) <= vs n)%R /\ (0 <= vs n)%R.
Proof.
  intros Hi Hn. assert (P : forall m, Z.of_nat m <= jz + 1 -> (0 <= vs m)%R). { induction m as [|m IH]; intros Hm; cbn [vs]; [lra|]. specialize (IH ltac:(lia)). pose proof (qr_pos (Z.of_nat m) ltac:(lia)). lra. }
  split; [|apply P; exact Hn]. induction n as [|n IH]; [lia|]. cbn [vs]. pose proof (qr_pos (Z.of_nat n) ltac:(lia)). destruct (Nat.eq_dec i n) as [-> | N]; [pose proof (P n ltac:(lia)); lra|]. specialize (IH ltac:(lia) ltac:(lia)). lra.
Qed.
End Sum.
Definition P4 : R := (ptv 0 + ptv 1 + ptv 2 + ptv 3)%R.
Lemma ss_vs jz g d : 3 <= jz <= 11 -> ss jz g d (Z.to_nat (jz + 1)) = (P4 * vs g d (Z.to_nat (jz + 1)) - ((ptv 1 + ptv 2 + ptv 3) * qr g d 0 + (ptv 2 + ptv 3) * qr g d 1 + ptv 3 * qr g d 2))%R.
Proof.
  intros H. unfold P4. assert (D : jz = 3 \/ jz = 4 \/ jz = 5 \/ jz = 6 \/ jz = 7 \/ jz = 8 \/ jz = 9 \/ jz = 10 \/ jz = 11) by lia.
  repeat (destruct D as [-> | D]); [..|subst jz];
  cbv -[ptv qr Rplus Rmult Rminus IZR]; ring.
Qed.
Lemma vs_Iv g iq n : vs g (nz iq) n = (IZR (Iv iq n) * bpow radix2 g)%R.
Proof.
  induction n as [|n IH]; cbn [vs Iv]; [ring|]. rewrite IH, plus_IZR, mult_IZR, pw2 by lia. unfold qr. rewrite (bpow_plus radix2 g). ring.
Qed.
Lemma P4_PI : (0 <= PI / 2 - P4 <= bpow radix2 (-93))%R /\ (1.57 <= P4 <= 1.58)%R.
Proof.
  pose proof PI_lo_hi as HP. unfold P4, ptv. cbn [pm pe nth]. change (bpow radix2 (-22)) with (/ 4194304)%R. change (bpow radix2 (-44)) with (/ 17592186044416)%R. change (bpow radix2 (-69)) with (/ 590295810358705651712)%R. change (bpow radix2 (-95)) with (/ 39614081257132168796771975168)%R. change (bpow radix2 (-93)) with (/ 9903520314283042199192993792)%R. lra.
Qed.
(** the terms left out are small *)
Lemma miss jz g d : 3 <= jz -> (forall i, 0 <= i <= jz -> 0 <= d i < 2 ^ 24) ->
  (0 <= (ptv 1 + ptv 2 + ptv 3) * qr g d 0 + (ptv 2 + ptv 3) * qr g d 1 + ptv 3 * qr g d 2 <= bpow radix2 (-60) * bpow radix2 (g + 24 * jz))%R.
Proof.
  intros Hz Hd. assert (Q : forall i, 0 <= i <= 2 -> (0 <= qr g d i <= bpow radix2 (24 * (i - 2)) * bpow radix2 (g + 24 * jz))%R).
  { intros i Hi. unfold qr. pose proof (Hd i ltac:(lia)) as D. split; [apply Rmult_le_pos; [apply IZR_le; lia|apply bpow_ge_0]|].
    rewrite <- bpow_plus. apply Rle_trans with (bpow radix2 (24 + (g + 24 * i))); [|apply bpow_le; lia]. rewrite (bpow_plus radix2 24). apply Rmult_le_compat_r; [apply bpow_ge_0|]. change (bpow radix2 24) with (IZR (2 ^ 24)). apply IZR_le. lia. }
  pose proof (Q 0 ltac:(lia)) as Q0. pose proof (Q 1 ltac:(lia)) as Q1. pose proof (Q 2 ltac:(lia)) as Q2. clear Q.
  change (bpow radix2 (24 * (0 - 2))) with (/ 281474976710656)%R in Q0. change (bpow radix2 (24 * (1 - 2))) with (/ 16777216)%R in Q1. change (bpow radix2 (24 * (2 - 2))) with 1%R in Q2.
  set (B := bpow radix2 (g + 24 * jz)) in *. unfold ptv. cbn [pm pe nth]. change (bpow radix2 (-44)) with (/ 17592186044416)%R. change (bpow radix2 (-69)) with (/ 590295810358705651712)%R. change (bpow radix2 (-95)) with (/ 39614081257132168796771975168)%R. change (bpow radix2 (-60)) with (/ 1152921504606846976)%R. lra.
Qed.

Lemma acc_bound (sg V S T D A N M p : R) : (sg = 1 \/ sg = -1)%R -> (A * (2 / PI) - N = sg * V + D)%R -> (0 <= D <= bpow radix2 (-45) * V)%R ->
  S = (P4 * V - M)%R -> (0 <= M <= bpow radix2 (-60) * V)%R -> (Rabs (T - S) <= 20 * t52 * S)%R -> (p <= V <= / 2)%R -> (0 < p)%R ->
  let r := (A - N * (PI / 2))%R in
  (Rabs (sg * T - r) <= 3 / 2 * bpow radix2 (-26) * Rabs r)%R /\ (Rabs (sg * T - r) <= bpow radix2 (-40))%R /\ (p <= Rabs r <= 0.785399)%R.
Proof.
  intros Hs HA HD HS HM HT HV Hp r. pose proof PI_lo_hi as HP. destruct P4_PI as [H4 H4'].
  assert (Er : r = ((sg * V + D) * (PI / 2))%R) by (rewrite <- HA; unfold r; field; lra).
  change (bpow radix2 (-45)) with (/ 35184372088832)%R in HD. change (bpow radix2 (-60)) with (/ 1152921504606846976)%R in HM. unfold t52 in HT. change (bpow radix2 (-26)) with (/ 67108864)%R. change (bpow radix2 (-40)) with (/ 1099511627776)%R.
  assert (B93 : (bpow radix2 (-93) <= / 1152921504606846976)%R) by (change (/ 1152921504606846976)%R with (bpow radix2 (-60)); apply bpow_le; lia).
  assert (SB : (0 <= S <= 1.58 * V)%R) by (rewrite HS; nra).
  assert (HT' : (Rabs (T - S) <= / 100000000000000 * V)%R) by lra. clear HT. apply Rabs_le_inv in HT'.
  assert (DP : (0 <= D * (PI / 2) <= / 20000000000000 * V)%R) by nra.
  assert (PV : (0 <= PI / 2 * V - P4 * V <= / 1152921504606846976 * V)%R) by nra.
  assert (ET : (Rabs (sg * T - r) <= / 10000000000000 * V)%R).
  { rewrite Er. destruct Hs as [-> | ->]; apply Rabs_le; lra. }
  assert (RB : (1.5707963 * V <= Rabs r <= 1.570796327 * V)%R).
  { assert (1.57079632 * V <= PI / 2 * V <= 1.5707963268 * V)%R by nra. rewrite Er. destruct Hs as [-> | ->]; [rewrite Rabs_pos_eq by nra|rewrite Rabs_left1 by nra]; lra. }
  split; [lra|]. split; [lra|]. lra.
Qed.
Lemma okv_neg f s : isbits f64 f -> finite f64 f = true -> s = val f64 f -> isbits f64 (fneg f64 f) /\ finite f64 (fneg f64 f) = true /\ val f64 (fneg f64 f) = (- s)%R.
Proof. intros B F ->. split; [apply (fneg_fields f64 f B)|]. split; [rewrite fneg_finite; assumption|now apply fneg_val]. Qed.
Lemma rpl_acc b e0 X n ih z iq q jz jz' q1 iq' q' fq y' : -3 <= e0 <= 1000 -> (forall j, 0 <= X j < 2 ^ 24) ->
  rpl_post b (jv_of e0) 3 (q0_of e0) X (n, ih, z, iq, q, jz) -> rpl_chop z jz (q0_of e0) iq = Some (jz', q1, iq') -> rpl_back q iq' jz' q1 = Some q' -> rpl_fq q' jz' 3 = Some fq ->
  rpl_out fq [0] jz' ih 0 = Some y' -> exists N, N mod 8 = n mod 8 /\ red_ok (argR (jv_of e0) (q0_of e0) X) N (nz y' 0).
Proof.
  intros He HX Post Ch Ba Fq Out. pose proof (jv_range e0 He) as (J1 & J2 & J3). set (jv := jv_of e0) in *. set (q0 := q0_of e0) in *.
  destruct (rpl_val b jv 3 q0 X ltac:(lia) ltac:(lia) ltac:(lia) ltac:(lia) HX n ih z iq q jz Post) as (N & Zi & Hmod & Fz & HZ & Dg & Lq & Hjz & NZ & Hih & Q1 & Q3 & Q2 & HD).
  exists N. split; [exact Hmod|]. set (Q := Zi * 2 ^ (24 * jz) + Iv iq (Z.to_nat jz)) in *.
  assert (Q0 : 0 < Q) by (assert (0 < 2 ^ (24 * 3)) by lia; lia).
  destruct (rpl_chop_ok z Zi q0 jz iq ltac:(lia) ltac:(lia) Fz HZ Dg Q0) as (j2 & p2 & i2 & E2 & Hj2 & Eq2 & Dg2 & Nz2 & EI & C1 & C2).
  rewrite E2 in Ch. injection Ch as -> -> ->. fold Q in EI.
  assert (Hj3 : 3 <= jz'). { destruct (Z.eq_dec Zi 0) as [Z0 | Z0]; [|specialize (C1 Z0); lia]. destruct NZ as [NZ | (i & Hi & NZ)]; [contradiction|]. specialize (C2 Z0 i ltac:(lia) NZ). lia. }
  destruct (rpl_back_ok q iq' jz' q1 Lq ltac:(lia) Dg2 ltac:(lia)) as (q3 & E3 & L3 & F3). rewrite E3 in Ba. injection Ba as ->.
  set (g := q1 - 24 * jz') in *.
  assert (F3' : forall i, 0 <= i <= jz' -> fx (nz q' i) (nz iq' i) (g + 24 * i)) by (intros i Hi; replace (g + 24 * i) with (q1 - 24 * (jz' - i)) by (unfold g; lia); apply F3; exact Hi).
  assert (Hd : forall i, 0 <= i <= jz' -> 0 <= nz iq' i < 2 ^ 24) by (intros i Hi; apply (proj2 Dg2); lia).
  assert (EV : vs g (nz iq') (Z.to_nat (jz' + 1)) = (IZR Q * bpow radix2 (q0 - 24 * jz))%R) by (rewrite vs_Iv, EI, Eq2; reflexivity).
  set (V := (IZR Q * bpow radix2 (q0 - 24 * jz))%R) in *.
  assert (V2 : (V <= / 2)%R).
  { assert (IQ : (2 * IZR Q <= bpow radix2 (24 * jz - q0))%R) by (rewrite <- pw2 by lia; rewrite <- mult_IZR; apply IZR_le; exact Q2).
    unfold V. apply Rmult_le_reg_r with (2 * bpow radix2 (24 * jz - q0))%R; [pose proof (bpow_gt_0 radix2 (24 * jz - q0)); lra|].
    replace (IZR Q * bpow radix2 (q0 - 24 * jz) * (2 * bpow radix2 (24 * jz - q0)))%R with (2 * IZR Q * (bpow radix2 (q0 - 24 * jz) * bpow radix2 (24 * jz - q0)))%R by ring.
    rewrite <- bpow_plus. replace (q0 - 24 * jz + (24 * jz - q0)) with 0 by lia. change (bpow radix2 0) with 1%R. lra. }
  assert (VL : forall k, 0 <= k -> 2 ^ k <= Q -> (bpow radix2 (k + (q0 - 24 * jz)) <= V)%R).
  { intros k Hk HQ. unfold V. rewrite bpow_plus. apply Rmult_le_compat_r; [apply bpow_ge_0|]. rewrite <- pw2 by lia. apply IZR_le. exact HQ. }
  assert (Hone : forall i, 0 <= i <= jz' -> (qr g (nz iq') i <= 1)%R).
  { assert (P : forall i, 0 <= i <= jz' -> (qr g (nz iq') i <= vs g (nz iq') (Z.to_nat (jz' + 1)))%R); [|intros i Hi; specialize (P i Hi); rewrite EV in P; lra].
    intros i Hi. pose proof (vs_le [] jz' g (nz iq') Hd (Z.to_nat (jz' + 1)) (Z.to_nat i) ltac:(lia) ltac:(lia)) as [P _]. rewrite Z2Nat.id in P by lia. exact P. }
  destruct (rpl_fq_val q' jz' g (nz iq') ltac:(lia) ltac:(lia) L3 Hd F3' Hone) as (fq2 & E4 & L4 & O4). rewrite E4 in Fq. injection Fq as ->.
  destruct (rpl_sum_val [] jz' g (nz iq') ltac:(lia) Hd Hone fq L4 O4) as (w & E5 & (Bw & Fw & _ & _ & Ew)).
  unfold rpl_out in Out. change (0 =? 0) with true in Out. cbv iota in Out. rewrite E5 in Out. cbn [bind] in Out.
  destruct (arr_set_ok [0] 0 (if ih =? 0 then w else fneg f64 w) ltac:(cbn; lia)) as (y2 & E6 & L6 & K6). rewrite E6 in Out. injection Out as ->.
  rewrite (K6 0) by (cbn; lia). change (0 =? 0) with true. cbv iota.
  rewrite (ss_vs jz' g (nz iq') ltac:(lia)), EV in Ew. pose proof (miss jz' g (nz iq') ltac:(lia) Hd) as MS. set (M := ((ptv 1 + ptv 2 + ptv 3) * qr g (nz iq') 0 + (ptv 2 + ptv 3) * qr g (nz iq') 1 + ptv 3 * qr g (nz iq') 2)%R) in *.
  assert (BV : (bpow radix2 (g + 24 * jz') <= V)%R).
  { pose proof (vs_le [] jz' g (nz iq') Hd (Z.to_nat (jz' + 1)) (Z.to_nat jz') ltac:(lia) ltac:(lia)) as [P _]. rewrite Z2Nat.id, EV in P by lia. eapply Rle_trans; [|exact P]. unfold qr.
    rewrite <- (Rmult_1_l (bpow radix2 (g + 24 * jz'))) at 1. apply Rmult_le_compat_r; [apply bpow_ge_0|]. apply IZR_le. pose proof (Hd jz' ltac:(lia)). lia. }
  assert (MS' : (0 <= M <= bpow radix2 (-60) * V)%R) by (split; [exact (proj1 MS)|eapply Rle_trans; [exact (proj2 MS)|apply Rmult_le_compat_l; [apply bpow_ge_0|exact BV]]]). clear MS.
  set (sg := (if 0 <? ih then -1 else 1)%R).
  assert (HD' : (argR jv q0 X * (2 / PI) - IZR N = sg * V + (argR jv q0 X * (2 / PI) - IZR N - (if 0 <? ih then - V else V)))%R) by (unfold sg; destruct (0 <? ih); ring).
  assert (DB : (bpow radix2 (27 - 24 * jz + q0) <= bpow radix2 (-45) * V)%R).
  { replace (27 - 24 * jz + q0) with (-45 + (72 + (q0 - 24 * jz))) by lia. rewrite bpow_plus. apply Rmult_le_compat_l; [apply bpow_ge_0|]. apply VL; [lia|exact Q3]. }
  destruct (acc_bound sg V _ (val f64 w) _ (argR jv q0 X) (IZR N) M (bpow radix2 (-70)) ltac:(unfold sg; destruct (0 <? ih); [right|left]; reflexivity) HD' (conj (proj1 HD) (Rle_trans _ _ _ (proj2 HD) DB)) eq_refl MS' Ew) as (R1 & R2 & R3).
  - split; [|exact V2]. eapply Rle_trans; [|apply (VL (24 * (jz - 3) + 31)); [lia|exact Q1]]. apply bpow_le. lia.
  - apply bpow_gt_0.
  - unfold red_ok. cbv zeta. destruct (Z.eqb_spec ih 0) as [I0 | I0].
    + assert (Es : sg = 1%R) by (unfold sg; rewrite I0; reflexivity). rewrite Es, Rmult_1_l in *. auto.
    + assert (Es : sg = (-1)%R) by (unfold sg; assert (0 <? ih = true) as -> by lia; reflexivity).
      destruct (okv_neg w _ Bw Fw eq_refl) as (B' & F' & V'). rewrite V'. rewrite Es in *. replace (-1 * val f64 w)%R with (- val f64 w)%R in * by ring. auto.
Qed.

Lemma red_ok_neg X n y : red_ok X n y -> red_ok (- X) (- n) (fneg f64 y).
Proof.
  intros (B & F & E1 & E2 & E3). destruct (okv_neg y _ B F eq_refl) as (B' & F' & V'). unfold red_ok. cbv zeta. rewrite V', opp_IZR.
  replace (- X - - IZR n * (PI / 2))%R with (- (X - IZR n * (PI / 2)))%R by ring. replace (- val f64 y - - (X - IZR n * (PI / 2)))%R with (- (val f64 y - (X - IZR n * (PI / 2))))%R by ring. rewrite !Rabs_Ropp. auto.
Qed.
(** arguments of 2^28 pi/2 and more *)
Theorem rem_pio2f_large b x : isbits f32 x -> 0x4dc90fdb <= a32 x < 0x7f800000 -> exists n y n', rs_rem_pio2f_gen b x = Some (n, y) /\ n' mod 8 = n mod 8 /\ red_ok (val f32 x) n' y /\ -8 < n < 8.
Proof.
  intros B Ha. unfold rs_rem_pio2f_gen. cbv zeta. rewrite land_a32.
  destruct (Z.ltb_spec (a32 x) 0x4dc90fdb); [lia|]. destruct (Z.leb_spec 0x7f800000 (a32 x)); [lia|].
  destruct (dec32 x B) as (MM & HM & FX & VX & SG & HMA); [lia|].
  assert (Sx : Z.shiftr x 31 =? 0 = negb (signbit f32 x)) by (rewrite (sg32 x B); destruct (signbit f32 x); reflexivity).
  set (a := a32 x) in *. rewrite Z.shiftr_div_pow2 by lia.
  assert (D := Z.div_mod a (2 ^ 23) ltac:(lia)). assert (Dm := Z.mod_pos_bound a (2 ^ 23) ltac:(lia)).
  set (e := a / 2 ^ 23) in *. set (m := a mod 2 ^ 23) in *. clearbody e m.
  assert (He : 155 <= e <= 254) by lia.
  rewrite usub_ok by lia. cbn [bind]. change (0x7f + 23) with 150.
  rewrite to_i_small by (p31; lia). set (e0 := e - 150) in *.
  assert (Es : to_u 32 (shli 32 e0 23) = e0 * 2 ^ 23).
  { unfold shli. rewrite Z.shiftl_mul_pow2 by lia. rewrite to_i_small by (p31; unfold e0; lia). apply to_u_small. unfold e0. lia. }
  rewrite Es, usub_ok by (unfold e0; lia). cbn [bind].
  replace (a - e0 * 2 ^ 23) with (150 * 2 ^ 23 + m) by (unfold e0; lia).
  pose proof (piece32 m Dm) as F0. set (t := fcvt f32 f64 (150 * 2 ^ 23 + m)) in *. clearbody t.
  set (X := fun j => if j =? 0 then 2 ^ 23 + m else 0).
  assert (HX : forall j, 0 <= X j < 2 ^ 24) by (intros j; unfold X; destruct (j =? 0); lia).
  destruct (rem_pio2_large_ok b [t] X [0] e0 0)
    as (n & ih & z & iq & q & jz & jz' & q1 & iq' & q' & fq & y' & Po & Ch & Ba & Fq & Out & Ly & ->).
  - cbn. lia.
  - unfold e0; lia.
  - auto.
  - cbn. lia.
  - intros j Hj. cbn [length] in Hj. assert (j = 0) as -> by lia. exact F0.
  - exact HX.
  - intros j Hj. cbn [length] in Hj. unfold X. destruct (Z.eqb_spec j 0); lia.
  - intros N. unfold Xt, X. change (0 =? 0) with true. change (1 =? 0) with false. change (2 =? 0) with false. cbv iota.
    pose proof (reduction_gap32 b e0 (2 ^ 23 + m) N ltac:(unfold e0; lia) ltac:(lia)) as G. pose proof (jv_range e0 ltac:(unfold e0; lia)).
    rewrite 2!Z.add_0_r, <- Z.mul_assoc. change (24 * (0 + 5)) with 120. change (Z.to_nat (0 + 3)) with 3%nat.
    assert (2 ^ 80 <= 2 ^ (90 - q0_of e0)) by (apply Z.pow_le_mono_r; lia). lia.
  - cbn [bind]. rewrite arr_get_ok by (rewrite Ly; cbn; lia). cbn [bind].
    destruct (rpl_acc b e0 X n ih z iq q jz jz' q1 iq' q' fq y' ltac:(unfold e0; lia) HX Po Ch Ba Fq Out) as (N & HN & RO).
    change 7 with (2 ^ 3 - 1). rewrite land_pow2m1 by lia. pose proof (Z.mod_pos_bound n (2 ^ 3) ltac:(lia)) as Rn. change (2 ^ 3) with 8 in *.
    assert (EA : argR (jv_of e0) (q0_of e0) X = Rabs (val f32 x)).
    { unfold argR, Xt, X. change (0 =? 0) with true. change (1 =? 0) with false. change (2 =? 0) with false. cbv iota. rewrite Z.mul_0_l, !Z.add_0_r.
      unfold q0_of. replace (e0 - 24 * (jv_of e0 + 1) + 24 * (jv_of e0 + 1) - 48) with (e0 + -48) by lia. rewrite VX, Rabs_mult, (Rabs_pos_eq (bpow _ _)) by apply bpow_ge_0. rewrite <- abs_IZR.
      replace (Z.abs MM) with (2 ^ 23 + m) by lia. rewrite mult_IZR, bpow_plus. change (IZR (2 ^ 48)) with (bpow radix2 48).
      replace (IZR (2 ^ 23 + m) * bpow radix2 48 * (bpow radix2 e0 * bpow radix2 (-48)))%R with (IZR (2 ^ 23 + m) * bpow radix2 e0 * (bpow radix2 48 * bpow radix2 (-48)))%R by ring.
      rewrite <- (bpow_plus radix2 48). change (bpow radix2 (48 + -48)) with 1%R. ring. }
    rewrite EA in RO. rewrite Sx. rewrite negb_involutive. destruct (signbit f32 x) eqn:S.
    + unfold sneg. rewrite chk_ok by (p31; lia). cbn [bind]. eexists _, _, (- N). split; [reflexivity|]. split; [|split; [|lia]].
      * pose proof (Z.div_mod n 8 ltac:(lia)). rewrite <- (Z.mod_unique (- N) 8 (- (N / 8) + (if n mod 8 =? 0 then 0 else -1)) ((- (n mod 8)) mod 8)); [reflexivity|left; apply Z.mod_pos_bound; lia|].
        pose proof (Z.div_mod N 8 ltac:(lia)). destruct (Z.eqb_spec (n mod 8) 0) as [E|E]; [rewrite E; change ((- 0) mod 8) with 0; lia|]. rewrite (Z.mod_opp_l_nz (n mod 8) 8) by (rewrite ?Z.mod_mod; lia). rewrite Z.mod_mod by lia. lia.
      * replace (val f32 x) with (- Rabs (val f32 x))%R; [apply red_ok_neg; exact RO|]. rewrite Rabs_left1; [ring|]. rewrite VX. assert (MM < 0) by (destruct (Z.ltb_spec MM 0); [assumption|congruence]). rewrite <- (Rmult_0_l (bpow radix2 (e - 150))). apply Rmult_le_compat_r; [apply bpow_ge_0|apply (IZR_le MM 0); lia].
    + cbn [bind]. eexists _, _, N. split; [reflexivity|]. split; [rewrite Z.mod_mod by lia; exact HN|]. split; [|lia].
      replace (val f32 x) with (Rabs (val f32 x)); [exact RO|]. rewrite VX. apply Rabs_pos_eq. assert (0 <= MM) by (destruct (Z.ltb_spec MM 0); [congruence|assumption]). apply Rmult_le_pos; [apply (IZR_le 0); assumption|apply bpow_ge_0].
Qed.

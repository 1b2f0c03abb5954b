(** The large arguments of the f64 reduction (rem_pio2.rs 168-189, rem_pio2_large.rs with prec = 1). *)
From Coq Require Import ZArith Reals Lia Lra Bool List Psatz.
From Flocq Require Import Core.
From Verif Require Import Base Spec SpecFun Format P_format Ieee M_basic M_scalbn M_elib M_rempio2 P_ieee P_real P_elem2 P_ival P_err P_cf P_fx P_rpl P_rpl2 P_rpl3 P_rpl4 P_pitab P_medf P_neg P_elem P_rem P_tot P_rplf P_red64 P_red64b P_red64c P_rpl5.
Import ListNotations.
Open Scope Z_scope.
Open Scope fl_scope.
Notation u := (/ 9007199254740992)%R.

(** The first five pieces of pi/2 as integers times 2^(-24 k - 23) *)
Definition c5 (k : nat) : Z := nth k [13176794; 10625384; 12727492; 13001355; 8444956] 0.
Lemma fx_down x m e k m' e' : fx x m e -> 0 <= k -> m' = m * 2 ^ k -> e' = e - k -> fx x m' e'.
Proof. intros H Hk -> ->. apply fx_shift; [exact Hk|]. replace (e - k + k) with e by lia. exact H. Qed.
Lemma pio2_fx5 k : (k <= 4)%nat -> fx (nz PIO2 (Z.of_nat k)) (c5 k) (-24 * Z.of_nat k - 23).
Proof.
  intros H. assert (D : (k = 0 \/ k = 1 \/ k = 2 \/ k = 3 \/ k = 4)%nat) by lia. destruct D as [-> | [-> | [-> | [-> | ->]]]]; cbn [c5 nth].
  - apply (fx_down _ 6588397 (-22) 1); [fxlit 6588397 (2 ^ 22)|lia|reflexivity|reflexivity].
  - apply (fx_down _ 1328173 (-44) 3); [fxlit 1328173 (2 ^ 44)|lia|reflexivity|reflexivity].
  - apply (fx_down _ 3181873 (-69) 2); [fxlit 3181873 (2 ^ 69)|lia|reflexivity|reflexivity].
  - fxlit 13001355 (2 ^ 95).
  - apply (fx_down _ 2111239 (-117) 2); [fxlit 2111239 (2 ^ 117)|lia|reflexivity|reflexivity].
Qed.
Lemma c5_range k : 0 <= c5 k < 2 ^ 24.
Proof. unfold c5. do 5 (destruct k as [|k]; [cbn; lia|]). destruct k; cbn; lia. Qed.
Section Fq.
Variable q : list Z.
Variables jz g : Z.
Variable d : Z -> Z.
Hypothesis Hjz : 4 <= jz <= 11.
Hypothesis Hg : -450 <= g <= 0.
Hypothesis Lq : Z.of_nat (length q) = 20.
Hypothesis Hd : forall i, 0 <= i <= jz -> 0 <= d i < 2 ^ 24.
Hypothesis Hq : forall i, 0 <= i <= jz -> fx (nz q i) (d i) (g + 24 * i).
Fixpoint gm (t : Z) (n : nat) : Z := match n with O => 0 | S k => gm t k + c5 k * d (jz - t + Z.of_nat k) end.
Definition cn (t : Z) : nat := Z.to_nat (Z.min 4 t + 1).
Lemma gm_range t n : 0 <= t <= jz -> Z.of_nat n <= t + 1 -> (n <= 5)%nat -> 0 <= gm t n <= Z.of_nat n * 2 ^ 48.
Proof.
  intros Ht. induction n as [|n IH]; intros Hn Hm; cbn [gm]; [lia|]. specialize (IH ltac:(lia) ltac:(lia)). pose proof (c5_range n) as C. pose proof (Hd (jz - t + Z.of_nat n) ltac:(lia)) as D.
  assert (0 <= c5 n * d (jz - t + Z.of_nat n) <= 2 ^ 48) by (change (2 ^ 48) with (2 ^ 24 * 2 ^ 24); split; [apply Z.mul_nonneg_nonneg; lia|apply Z.mul_le_mono_nonneg; lia]). lia.
Qed.
Lemma gm_top t : 0 <= t <= jz -> 0 <= gm t (cn t) < 2 ^ 50.
Proof.
  intros Ht. assert (N : (cn t <= 5)%nat /\ Z.of_nat (cn t) <= t + 1) by (unfold cn; lia). destruct N as [N1 N2]. split; [apply gm_range; lia|].
  assert (G : forall n, (n <= 5)%nat -> Z.of_nat n <= t + 1 -> gm t n <= (2 ^ 24 - 1) * (fix s k := match k with O => 0 | S j => s j + c5 j end) n).
  { induction n as [|n IH]; intros Hn Hm; cbn [gm]; [lia|]. specialize (IH ltac:(lia) ltac:(lia)). pose proof (c5_range n) as C. pose proof (Hd (jz - t + Z.of_nat n) ltac:(lia)) as D.
    assert (c5 n * d (jz - t + Z.of_nat n) <= c5 n * (2 ^ 24 - 1)) by (apply Z.mul_le_mono_nonneg_l; lia). rewrite Z.mul_add_distr_l. lia. }
  specialize (G (cn t) N1 N2). assert (D : (cn t = 0 \/ cn t = 1 \/ cn t = 2 \/ cn t = 3 \/ cn t = 4 \/ cn t = 5)%nat) by lia. eapply Z.le_lt_trans; [exact G|].
  repeat (destruct D as [-> | D]; [vm_compute; reflexivity|]). rewrite D. vm_compute. reflexivity.
Qed.
Lemma fq_val : exists fq, rpl_fq q jz 4 = Some fq /\ Z.of_nat (length fq) = 20 /\ forall t, 0 <= t <= jz -> fx (nz fq t) (gm t (cn t)) (g + 24 * jz - 24 * t - 23).
Proof.
  unfold rpl_fq.
  fordn (fun (i : Z) (fq : list Z) => Z.of_nat (length fq) = 20 /\ forall t, 0 <= t < jz - i -> fx (nz fq t) (gm t (cn t)) (g + 24 * jz - 24 * t - 23)) as (s & E & H1 & H2); [lia|split; [rewrite repeat_length; reflexivity|intros; lia]| |exists s; split; [exact E|split; [exact H1|intros t Ht; apply H2; lia]]].
  intros i fq Hi (L & HF). rewrite usub_ok by lia. cbn [bind].
  match goal with |- context [run _ ?st _] =>
    destruct (run_rule (fun s : Z * Z => exists n, fst s = Z.of_nat n /\ (n <= cn (jz - i))%nat /\ fx (snd s) (gm (jz - i) n) (g + 24 * i - 23)) (fun s => 5 - fst s) (fun r => fx r (gm (jz - i) (cn (jz - i))) (g + 24 * i - 23)) st) with (p := 25%positive) (s := (0, 0)) as (r & E & Hr) end.
  - intros [k w] (n & Hk & Hn & Ho). cbn [fst snd] in *. subst k. unfold cn in Hn.
    destruct (Z.leb_spec (Z.of_nat n) 4), (Z.leb_spec (Z.of_nat n) (jz - i)); cbn [andb].
    2,3,4: eexists; (split; [reflexivity|]); cbv iota; replace (cn (jz - i)) with n by (unfold cn; lia); exact Ho.
    assert (LP : Z.of_nat (length PIO2) = 8) by reflexivity.
    rewrite arr_get_ok by lia. cbn [bind]. rewrite uadd_ok by (p31; lia). cbn [bind]. rewrite arr_get_ok by lia. cbn [bind]. rewrite uadd_ok by (p31; lia). cbn [bind].
    eexists; split; [reflexivity|]. cbv iota. cbn [fst snd]. split; [|lia]. exists (S n). split; [lia|]. split; [unfold cn; lia|].
    pose proof (gm_range (jz - i) (S n) ltac:(lia) ltac:(lia) ltac:(lia)) as GR. cbn [gm] in *. replace (jz - (jz - i) + Z.of_nat n) with (i + Z.of_nat n) in * by lia.
    apply fx_add; [exact Ho| |lia|lia]. pose proof (c5_range n) as C. pose proof (Hd (i + Z.of_nat n) ltac:(lia)) as D.
    apply (fx_cast _ (c5 n * d (i + Z.of_nat n)) ((-24 * Z.of_nat n - 23) + (g + 24 * (i + Z.of_nat n)))); [|reflexivity|lia].
    apply fx_mul; [apply pio2_fx5; lia|apply Hq; lia| |lia]. assert (0 <= c5 n * d (i + Z.of_nat n) <= 2 ^ 48) by (change (2 ^ 48) with (2 ^ 24 * 2 ^ 24); split; [apply Z.mul_nonneg_nonneg; lia|apply Z.mul_le_mono_nonneg; lia]). lia.
  - exists 0%nat. cbn [fst snd gm]. split; [reflexivity|]. split; [lia|]. apply fx_zero.
  - cbn [fst]. lia.
  - rewrite E. cbn [bind]. destruct (arr_set_ok fq (jz - i) r ltac:(lia)) as (f' & -> & L' & K'). eexists; split; [reflexivity|]. split; [lia|].
    intros t Ht. rewrite K' by lia. destruct (Z.eqb_spec t (jz - i)) as [-> | N]; [replace (g + 24 * jz - 24 * (jz - i) - 23) with (g + 24 * i - 23) by lia; exact Hr|apply HF; lia].
Qed.
End Fq.
(** ** The real value of the sum *)
Definition pt (k : nat) : R := (IZR (c5 k) * bpow radix2 (-24 * Z.of_nat k - 23))%R.
Fixpoint gr (jz g : Z) (d : Z -> Z) (t : Z) (n : nat) : R := match n with O => 0%R | S k => (gr jz g d t k + pt k * qr g d (jz - t + Z.of_nat k))%R end.
Lemma gm_gr jz g d t n : (IZR (gm jz d t n) * bpow radix2 (g + 24 * jz - 24 * t - 23) = gr jz g d t n)%R.
Proof.
  induction n as [|n IH]; cbn [gm gr]; [ring|]. rewrite plus_IZR, Rmult_plus_distr_r, IH. f_equal. unfold pt, qr. rewrite mult_IZR.
  replace (g + 24 * jz - 24 * t - 23) with ((-24 * Z.of_nat n - 23) + (g + 24 * (jz - t + Z.of_nat n))) by lia. rewrite bpow_plus. ring.
Qed.
Definition P5 : R := (pt 0 + pt 1 + pt 2 + pt 3 + pt 4)%R.
Definition M5 g d : R := ((pt 1 + pt 2 + pt 3 + pt 4) * qr g d 0 + (pt 2 + pt 3 + pt 4) * qr g d 1 + (pt 3 + pt 4) * qr g d 2 + pt 4 * qr g d 3)%R.
Fixpoint tr (jz g : Z) (d : Z -> Z) (n : nat) : R := match n with O => 0%R | S k => (tr jz g d k + gr jz g d (jz - Z.of_nat k) (cn (jz - Z.of_nat k)))%R end.
Lemma ts_tr jz g d n : ts jz (g + 24 * jz) (fun t => gm jz d t (cn t)) n = tr jz g d n.
Proof. induction n as [|n IH]; cbn [ts tr]; [reflexivity|]. rewrite IH. unfold G. rewrite gm_gr. reflexivity. Qed.
Lemma tr_vs jz g d : 4 <= jz <= 11 -> tr jz g d (Z.to_nat (jz + 1)) = (P5 * vs g d (Z.to_nat (jz + 1)) - M5 g d)%R.
Proof.
  intros H. unfold P5, M5. assert (D : jz = 4 \/ jz = 5 \/ jz = 6 \/ jz = 7 \/ jz = 8 \/ jz = 9 \/ jz = 10 \/ jz = 11) by lia.
  repeat (destruct D as [-> | D]); [..|subst jz]; cbv -[pt qr Rplus Rmult Rminus IZR]; ring.
Qed.
Lemma pt_vals : pt 0 = (13176794 / 8388608)%R /\ pt 1 = (10625384 / 140737488355328)%R /\ pt 2 = (12727492 / 2361183241434822606848)%R /\ pt 3 = (13001355 / 39614081257132168796771975168)%R /\ pt 4 = (8444956 / 664613997892457936451903530140172288)%R.
Proof. unfold pt. cbn [c5 nth Z.of_nat Pos.of_succ_nat Pos.succ]. repeat split. Qed.
Lemma P5_PI : (0 <= PI / 2 - P5 <= 1.3e-36)%R /\ (1.57 <= P5 <= 1.58)%R.
Proof.
  pose proof PI_lo_hi as HP. unfold P5. destruct pt_vals as (-> & -> & -> & -> & ->). lra.
Qed.
Lemma miss5 jz g d : 4 <= jz -> (forall i, 0 <= i <= jz -> 0 <= d i < 2 ^ 24) -> (0 <= M5 g d <= bpow radix2 (-90) * bpow radix2 (g + 24 * jz))%R.
Proof.
  intros Hz Hd. assert (Q : forall i, 0 <= i <= 3 -> (0 <= qr g d i <= bpow radix2 (24 * (i - 3)) * bpow radix2 (g + 24 * jz))%R).
  { intros i Hi. unfold qr. pose proof (Hd i ltac:(lia)) as D. split; [apply Rmult_le_pos; [apply IZR_le; lia|apply bpow_ge_0]|].
    rewrite <- bpow_plus. apply Rle_trans with (bpow radix2 (24 + (g + 24 * i))); [|apply bpow_le; lia]. rewrite (bpow_plus radix2 24). apply Rmult_le_compat_r; [apply bpow_ge_0|]. change (bpow radix2 24) with (IZR (2 ^ 24)). apply IZR_le. lia. }
  pose proof (Q 0 ltac:(lia)) as Q0. pose proof (Q 1 ltac:(lia)) as Q1. pose proof (Q 2 ltac:(lia)) as Q2. pose proof (Q 3 ltac:(lia)) as Q3. clear Q.
  change (bpow radix2 (24 * (0 - 3))) with (/ 4722366482869645213696)%R in Q0. change (bpow radix2 (24 * (1 - 3))) with (/ 281474976710656)%R in Q1. change (bpow radix2 (24 * (2 - 3))) with (/ 16777216)%R in Q2. change (bpow radix2 (24 * (3 - 3))) with 1%R in Q3.
  change (bpow radix2 (-90)) with (/ 1237940039285380274899124224)%R.
  set (B := bpow radix2 (g + 24 * jz)) in *. unfold M5. destruct pt_vals as (_ & -> & -> & -> & ->). clearbody B. revert Q0 Q1 Q2 Q3. generalize (qr g d 0) (qr g d 1) (qr g d 2) (qr g d 3). intros. lra.
Qed.

(** ** Accuracy *)
Lemma acc5 (sg V S Y W D A N M : R) : (sg = 1 \/ sg = -1)%R -> (A * (2 / PI) - N = sg * V + D)%R -> (0 <= D <= bpow radix2 (-69) * V)%R ->
  S = (P5 * V - M)%R -> (0 <= M <= bpow radix2 (-90) * V)%R -> (Rabs (Y - S) <= 2.001 * u * S)%R -> (Rabs (Y + W - S) <= / 500000 * u * S)%R -> (bpow radix2 (-93) <= V <= / 2)%R ->
  let r := (A - N * (PI / 2))%R in
  (Rabs (sg * Y + sg * W - r) <= bpow radix2 (-64) * Rabs Y)%R /\ (Rabs W <= 9 / 4 * u * Rabs Y)%R /\ (bpow radix2 (-95) <= Rabs Y <= 0.78542)%R.
Proof.
  intros Hs HA HD HS HM HY HW HV r. pose proof PI_lo_hi as HP. destruct P5_PI as [H5 H5'].
  assert (Er : r = ((sg * V + D) * (PI / 2))%R) by (rewrite <- HA; unfold r; field; lra).
  change (bpow radix2 (-69)) with (/ 590295810358705651712)%R in HD. change (bpow radix2 (-90)) with (/ 1237940039285380274899124224)%R in HM. rewrite b64, b95. change (bpow radix2 (-93)) with (/ 9903520314283042199192993792)%R in HV.
  set (q := (PI / 2)%R) in *. assert (Q : (1.57079632679 <= q <= 1.5707963268)%R) by (unfold q; lra).
  assert (SB : (1.5 * V <= S <= 1.570796327 * V)%R) by (rewrite HS; nra).
  assert (DP : (0 <= D * q <= / 370000000000000000000 * V)%R).
  { assert (0 <= D * q <= D * 1.5708)%R by (split; [apply Rmult_le_pos; lra|apply Rmult_le_compat_l; lra]). lra. }
  assert (PV : (0 <= q * V - P5 * V <= 1.3e-36 * V)%R) by nra.
  clearbody q. apply Rabs_le_inv in HY. apply Rabs_le_inv in HW. assert (V0 : (0 < V)%R) by lra.
  assert (YP : (0 <= Y)%R) by lra. rewrite (Rabs_pos_eq Y) by exact YP.
  split; [|split; [|lra]].
  - rewrite Er. destruct Hs as [-> | ->]; apply Rabs_le; lra.
  - apply Rabs_le. lra.
Qed.
Definition hide (P : Prop) : Prop := P.
Lemma rpl_acc5 b e0 X n ih z iq q jz jz' q1 iq' q' fq y' : -3 <= e0 <= 1000 -> (forall j, 0 <= X j < 2 ^ 24) ->
  rpl_post b (jv_of e0) 4 (q0_of e0) X (n, ih, z, iq, q, jz) -> rpl_chop z jz (q0_of e0) iq = Some (jz', q1, iq') -> rpl_back q iq' jz' q1 = Some q' -> rpl_fq q' jz' 4 = Some fq ->
  rpl_out fq (repeat 0 3) jz' ih 1 = Some y' -> exists N, N mod 8 = n mod 8 /\ red64 (argR (jv_of e0) (q0_of e0) X) N (nz y' 0) (nz y' 1).
Proof.
  intros He HX Post Ch Ba Fq Out. pose proof (jv_range e0 He) as (J1 & J2 & J3). set (jv := jv_of e0) in *. set (q0 := q0_of e0) in *.
  destruct (rpl_val b jv 4 q0 X ltac:(lia) ltac:(lia) ltac:(lia) ltac:(lia) HX n ih z iq q jz Post) as (N & Zi & Hmod & Fz & HZ & Dg & Lq & Hjz & NZ & Hih & Q1 & Q3 & Q2 & HD).
  exists N. split; [exact Hmod|]. set (Q := Zi * 2 ^ (24 * jz) + Iv iq (Z.to_nat jz)) in *.
  assert (Q0 : 0 < Q) by (clear - Q3; change (2 ^ (24 * 4)) with 79228162514264337593543950336 in Q3; lia).
  change (hide (2 ^ (24 * (jz - 4) + 31) <= Q)) in Q1. change (hide (2 ^ (24 * 4) <= Q)) in Q3. change (hide (2 * Q <= 2 ^ (24 * jz - q0))) in Q2.
  destruct (rpl_chop_ok z Zi q0 jz iq ltac:(lia) ltac:(lia) Fz HZ Dg Q0) as (j2 & p2 & i2 & E2 & Hj2 & Eq2 & Dg2 & Nz2 & EI & C1 & C2).
  change (hide (0 <= Zi <= 2 ^ (- Z.min q0 0) /\ (0 <= q0 -> Zi = 0))) in HZ.
  rewrite E2 in Ch. injection Ch as -> -> ->. fold Q in EI. clearbody Q.
  assert (Hj3 : 4 <= jz'). { destruct (Z.eq_dec Zi 0) as [Z0 | Z0]; [|specialize (C1 Z0); lia]. destruct NZ as [NZ | (i & Hi & NZ)]; [contradiction|]. specialize (C2 Z0 i ltac:(lia) NZ). lia. }
  destruct (rpl_back_ok q iq' jz' q1 Lq ltac:(lia) Dg2 ltac:(lia)) as (q3 & E3 & L3 & F3). rewrite E3 in Ba. injection Ba as ->.
  set (g := q1 - 24 * jz') in *.
  assert (F3' : forall i, 0 <= i <= jz' -> fx (nz q' i) (nz iq' i) (g + 24 * i)) by (intros i Hi; replace (g + 24 * i) with (q1 - 24 * (jz' - i)) by (unfold g; lia); apply F3; exact Hi).
  assert (Hd : forall i, 0 <= i <= jz' -> 0 <= nz iq' i < 2 ^ 24) by (intros i Hi; apply (proj2 Dg2); lia).
  assert (EV : vs g (nz iq') (Z.to_nat (jz' + 1)) = (IZR Q * bpow radix2 (q0 - 24 * jz))%R) by (rewrite vs_Iv, EI, Eq2; reflexivity).
  pose proof (vs_Iv g iq' (Z.to_nat (jz' + 1))) as EV2. rewrite EV in EV2. pose proof (dig_Iv iq' (jz' + 1) (jz' + 1) Dg2 ltac:(lia)) as IR. change (hide (0 <= Iv iq' (Z.to_nat (jz' + 1)) < 2 ^ (24 * (jz' + 1)))) in IR.
  set (V := (IZR Q * bpow radix2 (q0 - 24 * jz))%R) in *.
  assert (V2 : (V <= / 2)%R).
  { assert (IQ : (2 * IZR Q <= bpow radix2 (24 * jz - q0))%R) by (rewrite <- pw2 by lia; rewrite <- mult_IZR; apply IZR_le; exact Q2).
    unfold V. apply Rmult_le_reg_r with (2 * bpow radix2 (24 * jz - q0))%R; [pose proof (bpow_gt_0 radix2 (24 * jz - q0)); lra|].
    replace (IZR Q * bpow radix2 (q0 - 24 * jz) * (2 * bpow radix2 (24 * jz - q0)))%R with (2 * IZR Q * (bpow radix2 (q0 - 24 * jz) * bpow radix2 (24 * jz - q0)))%R by ring.
    rewrite <- bpow_plus. replace (q0 - 24 * jz + (24 * jz - q0)) with 0 by lia. change (bpow radix2 0) with 1%R. lra. }
  assert (VL : forall k, 0 <= k -> 2 ^ k <= Q -> (bpow radix2 (k + (q0 - 24 * jz)) <= V)%R).
  { intros k Hk HQ. unfold V. rewrite bpow_plus. apply Rmult_le_compat_r; [apply bpow_ge_0|]. rewrite <- pw2 by lia. apply IZR_le. exact HQ. }
  assert (V93 : (bpow radix2 (-92) <= V)%R) by (eapply Rle_trans; [|apply (VL (24 * (jz - 4) + 31)); [lia|exact Q1]]; apply bpow_le; lia).
  assert (BV : (bpow radix2 (g + 24 * jz') <= V)%R).
  { pose proof (vs_le [] jz' g (nz iq') Hd (Z.to_nat (jz' + 1)) (Z.to_nat jz') ltac:(lia) ltac:(lia)) as [P _]. rewrite Z2Nat.id, EV in P by lia. eapply Rle_trans; [|exact P]. unfold qr.
    rewrite <- (Rmult_1_l (bpow radix2 (g + 24 * jz'))) at 1. apply Rmult_le_compat_r; [apply bpow_ge_0|]. apply IZR_le. pose proof (Hd jz' ltac:(lia)). lia. }
  assert (Hq1 : -120 <= q1).
  { assert (L : (bpow radix2 (-92) < bpow radix2 (24 + q1))%R).
    { eapply Rle_lt_trans; [exact V93|]. rewrite EV2. replace (24 + q1) with (24 * (jz' + 1) + g) by (unfold g; lia). rewrite bpow_plus. apply Rmult_lt_compat_r; [apply bpow_gt_0|]. rewrite <- pw2 by lia. apply IZR_lt. exact (proj2 IR). }
    apply lt_bpow in L. lia. }
  assert (Eb : g + 24 * jz' = q1) by (unfold g; lia).
  destruct (fq_val q' jz' g (nz iq') ltac:(lia) ltac:(lia) L3 Hd F3') as (fq2 & E4 & L4 & O4). rewrite E4 in Fq. injection Fq as ->.
  pose proof (gm_top q' jz' (nz iq') Hd) as GT.
  set (m := fun t => gm jz' (nz iq') t (cn t)) in *.
  assert (EG0 : G q1 m 0 = (IZR (nz iq' jz') * (13176794 / 8388608) * bpow radix2 q1)%R).
  { unfold G. change (m 0) with (0 + 13176794 * nz iq' (jz' - 0 + 0)). replace (jz' - 0 + 0) with jz' by lia. rewrite Z.add_0_l, mult_IZR. replace (q1 - 24 * 0 - 23) with (-23 + q1) by lia. rewrite bpow_plus. change (bpow radix2 (-23)) with (/ 8388608)%R. field. }
  pose proof (Hd jz' ltac:(lia)) as Dt. assert (Dt1 : 1 <= nz iq' jz') by lia.
  assert (SS2 : (0 <= SS jz' q1 m 2 <= bpow radix2 (28 - 24 * 2) * bpow radix2 q1)%R) by (apply (SS_range fq jz' q1 m); [lia|exact GT|lia]).
  assert (ES1 : SS jz' q1 m 1 = (G q1 m 1 + SS jz' q1 m 2)%R) by exact (SS_step fq jz' q1 m ltac:(lia) 1 ltac:(lia)).
  assert (EG1 : (G q1 m 1 <= (1.570797 + 7.54979e-8 * IZR (nz iq' jz')) * bpow radix2 q1)%R).
  { unfold G. change (m 1) with (0 + 13176794 * nz iq' (jz' - 1 + 0) + 10625384 * nz iq' (jz' - 1 + 1)). replace (jz' - 1 + 1) with jz' by lia. replace (jz' - 1 + 0) with (jz' - 1) by lia. rewrite Z.add_0_l, plus_IZR, !mult_IZR. replace (q1 - 24 * 1 - 23) with (-47 + q1) by lia. rewrite bpow_plus. change (bpow radix2 (-47)) with (/ 140737488355328)%R.
    rewrite <- Rmult_assoc. apply Rmult_le_compat_r; [apply bpow_ge_0|]. pose proof (Hd (jz' - 1) ltac:(lia)) as D1. assert (IZR (nz iq' (jz' - 1)) <= 16777216)%R by (apply (IZR_le _ 16777216); lia). assert (1 <= IZR (nz iq' jz'))%R by (apply (IZR_le 1); lia). lra. }
  change (bpow radix2 (28 - 24 * 2)) with (/ 1048576)%R in SS2. pose proof (bpow_gt_0 radix2 q1) as B0.
  assert (TD : (1 <= IZR (nz iq' jz') <= 16777216)%R) by (split; [apply (IZR_le 1); lia|apply (IZR_le _ 16777216); lia]).
  assert (Hq2 : q1 <= 0) by (rewrite Eb in BV; apply (le_bpow radix2); eapply Rle_trans; [exact BV|]; change (bpow radix2 0) with 1%R; lra).
  destruct (two_parts fq jz' q1 m) as (y & w & E5 & E6 & By & Fy & Bw & Fw & Ey & Ew); [lia|lia|exact L4|exact GT|intros t Ht; rewrite <- Eb; apply O4; exact Ht| | |].
  { rewrite EG0. set (k := IZR (nz iq' jz')) in *. set (B := bpow radix2 q1) in *. assert (1 * B <= k * B)%R by (apply Rmult_le_compat_r; lra). lra. }
  { rewrite ES1, EG0. set (k := IZR (nz iq' jz')) in *. set (B := bpow radix2 q1) in *. destruct (Z.eq_dec (nz iq' jz') 1) as [D1 | D1].
    - left. assert (K1 : k = 1%R) by (unfold k; rewrite D1; reflexivity). rewrite K1 in *. clearbody B k. split; lra.
    - right. assert (K2 : (2 <= k)%R) by (apply (IZR_le 2); lia). assert (2 * B <= k * B)%R by (apply Rmult_le_compat_r; lra). assert (k * B <= 16777216 * B)%R by (apply Rmult_le_compat_r; lra). split; [lra|]. rewrite Rmult_plus_distr_r, Rmult_assoc in EG1. lra. }
  unfold rpl_out in Out. change (1 =? 0) with false in Out. change ((1 =? 1) || (1 =? 2)) with true in Out. cbv iota in Out. rewrite E5 in Out. cbn [bind] in Out.
  destruct (arr_set_ok (repeat 0 3) 0 (if ih =? 0 then y else fneg f64 y) ltac:(cbn; lia)) as (y2 & K2 & L6 & K6). rewrite K2 in Out. cbn [bind] in Out.
  rewrite arr_get_ok in Out by lia. cbn [bind] in Out. rewrite E6 in Out. cbn [bind] in Out.
  destruct (arr_set_ok y2 1 (if ih =? 0 then w else fneg f64 w) ltac:(rewrite L6; cbn; lia)) as (y3 & K3 & L7 & K7). rewrite K3 in Out. injection Out as ->.
  rewrite (K7 0), (K7 1), (K6 0) by lia. change (0 =? 1) with false. change (0 =? 0) with true. change (1 =? 1) with true. cbv iota.
  assert (ESS : SS jz' q1 m 0 = (P5 * V - M5 g (nz iq'))%R).
  { unfold SS. replace (jz' + 1 - 0) with (jz' + 1) by lia. rewrite <- Eb. unfold m. rewrite ts_tr, tr_vs by lia. rewrite EV. reflexivity. }
  pose proof (miss5 jz' g (nz iq') ltac:(lia) Hd) as MS.
  assert (MS' : (0 <= M5 g (nz iq') <= bpow radix2 (-90) * V)%R) by (split; [exact (proj1 MS)|eapply Rle_trans; [exact (proj2 MS)|apply Rmult_le_compat_l; [apply bpow_ge_0|exact BV]]]). clear MS.
  set (sg := (if 0 <? ih then -1 else 1)%R).
  assert (HD' : (argR jv q0 X * (2 / PI) - IZR N = sg * V + (argR jv q0 X * (2 / PI) - IZR N - (if 0 <? ih then - V else V)))%R) by (unfold sg; destruct (0 <? ih); ring).
  assert (DB : (bpow radix2 (27 - 24 * jz + q0) <= bpow radix2 (-69) * V)%R).
  { replace (27 - 24 * jz + q0) with (-69 + (96 + (q0 - 24 * jz))) by lia. rewrite bpow_plus. apply Rmult_le_compat_l; [apply bpow_ge_0|]. apply VL; [lia|exact Q3]. }
  destruct (acc5 sg V _ (val f64 y) (val f64 w) _ (argR jv q0 X) (IZR N) (M5 g (nz iq')) ltac:(unfold sg; destruct (0 <? ih); [right|left]; reflexivity) HD' (conj (proj1 HD) (Rle_trans _ _ _ (proj2 HD) DB)) ESS MS' Ey Ew) as (R1 & R2 & R3).
  { split; [|exact V2]. eapply Rle_trans; [|exact V93]. apply bpow_le. lia. }
  unfold red64. cbv zeta. destruct (Z.eqb_spec ih 0) as [I0 | I0].
  - assert (Es : sg = 1%R) by (unfold sg; rewrite I0; reflexivity). rewrite Es, !Rmult_1_l in *. repeat (split; [assumption|]). exact R3.
  - assert (Es : sg = (-1)%R) by (unfold sg; assert (0 <? ih = true) as -> by lia; reflexivity).
    destruct (okv_neg y _ By Fy eq_refl) as (B' & F' & V'). destruct (okv_neg w _ Bw Fw eq_refl) as (Bw' & Fw' & Vw'). rewrite V', Vw', !Rabs_Ropp. rewrite Es in *. replace (-1 * val f64 y)%R with (- val f64 y)%R in * by ring. replace (-1 * val f64 w)%R with (- val f64 w)%R in * by ring. repeat (split; [assumption|]). exact R3.
Qed.
Lemma red64_neg X n y0 y1 : red64 X n y0 y1 -> red64 (- X) (- n) (fneg f64 y0) (fneg f64 y1).
Proof.
  intros (B & F & B1 & F1 & E1 & E2 & E3). destruct (okv_neg y0 _ B F eq_refl) as (B' & F' & V'). destruct (okv_neg y1 _ B1 F1 eq_refl) as (B1' & F1' & V1'). unfold red64. cbv zeta. rewrite V', V1', opp_IZR, !Rabs_Ropp.
  replace (- val f64 y0 + - val f64 y1 - (- X - - IZR n * (PI / 2)))%R with (- (val f64 y0 + val f64 y1 - (X - IZR n * (PI / 2))))%R by ring. rewrite Rabs_Ropp. repeat (split; [assumption|]). exact E3.
Qed.
Theorem rem_pio2_huge_red b x : isbits f64 x -> 0x413921fb <= a64 x / 2 ^ 32 < 0x7ff00000 ->
  exists n y0 y1 n', rs_rem_pio2_huge b x (a64 x / 2 ^ 32) (to_i 32 (Z.shiftr x 63)) = Some (n, y0, y1) /\ red64 (val f64 x) n' y0 y1 /\ n' mod 8 = n mod 8 /\ -7 <= n <= 7.
Proof.
  intros B Hix. pose proof (Z.div_mod (a64 x) (2 ^ 32) ltac:(lia)) as DM. pose proof (Z.mod_pos_bound (a64 x) (2 ^ 32) ltac:(lia)) as MB.
  destruct (dec64 x B ltac:(lia)) as (MM & HMM & FX & HS & HMA).
  assert (ES : to_i 32 (Z.shiftr x 63) =? 0 = negb (signbit f64 x)) by (rewrite (sg64 x B); destruct (signbit f64 x); reflexivity).
  assert (E52 : a64 x / 2 ^ 32 / 2 ^ 20 = a64 x / 2 ^ 52) by (rewrite Z.div_div by lia; reflexivity).
  assert (EMM : Z.abs MM = 2 ^ 52 + sigf f64 x).
  { rewrite HMA. pose proof (magz64 x B) as E. pose proof (fields_range f64 x) as [R1 _]. change (2 ^ mw f64) with (2 ^ 52) in R1. rewrite <- (Z.div_unique (a64 x) (2 ^ 52) (expf f64 x) (sigf f64 x)) by lia. lia. }
  unfold rs_rem_pio2_huge.
  pose proof (pieces64 x B) as F0. set (ui := Z.lor (Z.land x (Z.shiftr (unot 64 1) 12)) (shlu 64 (0x3ff + 23) 52)) in *. clearbody ui. cbv zeta. rewrite ES. clear ES.
  assert (RM : 2 ^ 52 <= 2 ^ 52 + sigf f64 x < 2 ^ 53) by (pose proof (Z.mod_pos_bound x (2 ^ 52) ltac:(lia)) as R; change (x mod 2 ^ 52) with (sigf f64 x) in R; lia).
  set (M := 2 ^ 52 + sigf f64 x) in *. clearbody M.
  set (X0 := M / 2 ^ 29). set (X1 := M mod 2 ^ 29 / 2 ^ 5). set (X2 := M mod 2 ^ 29 mod 2 ^ 5 * 2 ^ 19).
  assert (D0 := Z.div_mod M (2 ^ 29) ltac:(lia)). assert (D0b := Z.mod_pos_bound M (2 ^ 29) ltac:(lia)). fold X0 in D0.
  assert (D1 := Z.div_mod (M mod 2 ^ 29) (2 ^ 5) ltac:(lia)). assert (D1b := Z.mod_pos_bound (M mod 2 ^ 29) (2 ^ 5) ltac:(lia)). fold X1 in D1.
  assert (R0 : 0 <= X0 < 2 ^ 24) by lia. assert (R1 : 0 <= X1 < 2 ^ 24) by lia. assert (R2 : 0 <= X2 < 2 ^ 24) by (unfold X2; lia).
  assert (T0 : to_i32 f64 ui = X0) by (apply fx_trunc; [lia|lia|exact F0|fold X0; lia]). rewrite T0.
  assert (F1 : fx (of_int f64 X0) X0 0) by (apply fx_int; lia).
  assert (F2 : fx ((ui -: of_int f64 X0) *: x1p24) (M mod 2 ^ 29) (- 5)).
  { apply (fx_cast _ (M mod 2 ^ 29 * 1) (-29 + 24)); [|lia|lia]. apply fx_mul; [|exact fx_x1p24|lia|lia].
    apply (fx_cast _ (M - X0 * 2 ^ 29) (-29)); [|lia|lia]. apply fx_sub; [exact F0|apply fx_shift; [lia|exact F1]|lia|lia]. }
  set (z1 := (ui -: of_int f64 X0) *: x1p24) in *. clearbody z1.
  assert (T1 : to_i32 f64 z1 = X1) by (apply fx_trunc; [lia|lia|exact F2|fold X1; lia]). rewrite T1.
  assert (F3 : fx (of_int f64 X1) X1 0) by (apply fx_int; lia).
  assert (F4 : fx ((z1 -: of_int f64 X1) *: x1p24) X2 0).
  { apply fx_shift; [lia|]. apply (fx_cast _ (M mod 2 ^ 29 mod 2 ^ 5 * 1) (- 5 + 24)); [|lia|lia]. apply fx_mul; [|exact fx_x1p24|lia|lia].
    apply (fx_cast _ (M mod 2 ^ 29 - X1 * 2 ^ 5) (-5)); [|lia|lia]. apply fx_sub; [exact F2|apply fx_shift; [lia|exact F3]|lia|lia]. }
  set (z2 := (z1 -: of_int f64 X1) *: x1p24) in *. clearbody z2.
  rewrite (fx_eq0 _ _ _ F4), (fx_eq0 _ _ _ F3).
  set (i := if X2 =? 0 then if X1 =? 0 then 0 else 1 else 2).
  assert (Hi : 0 <= i <= 2) by (unfold i; destruct (X2 =? 0), (X1 =? 0); lia).
  rewrite to_i_small by (p31; lia). rewrite Z.shiftr_div_pow2 by lia. rewrite E52 in *. clear E52.
  assert (E20 : 0x413 <= a64 x / 2 ^ 52 <= 0x7fe) by (split; [apply Z.div_le_lower_bound; lia|apply Z.lt_succ_r, Z.div_lt_upper_bound; lia]).
  set (e := a64 x / 2 ^ 52) in *. rewrite ssub_ok32 by lia. cbn [bind]. set (e0 := e - (0x3ff + 23)).
  set (X := fun j => if j =? 0 then X0 else if j =? 1 then X1 else if j =? 2 then X2 else 0).
  assert (HX : forall j, 0 <= X j < 2 ^ 24) by (intros j; unfold X; destruct (j =? 0), (j =? 1), (j =? 2); lia).
  assert (EX : Xt X = M * 2 ^ 19).
  { unfold Xt. change (X 0) with X0. change (X 1) with X1. change (X 2) with X2. unfold X2. lia. }
  assert (EL : Z.of_nat (length (firstn (Z.to_nat (i + 1)) [of_int f64 X0; of_int f64 X1; z2])) = i + 1) by (rewrite firstn_length; cbn [length]; lia).
  assert (Enz : forall j, 0 <= j < i + 1 -> fx (nz (firstn (Z.to_nat (i + 1)) [of_int f64 X0; of_int f64 X1; z2]) j) (X j) 0).
  { intros j Hj. unfold nz. rewrite nth_firstn_lt by lia. assert (j = 0 \/ j = 1 \/ j = 2) as [-> | [-> | ->]] by lia; assumption. }
  destruct (rem_pio2_large_ok b (firstn (Z.to_nat (i + 1)) [of_int f64 X0; of_int f64 X1; z2]) X (repeat 0 3) e0 1)
    as (n & ih & z & iq & q & jz & jz' & q1 & iq' & q' & fq & y' & Po & Ch & Ba & Fq & Out & Ly & ->).
  - lia.
  - lia.
  - auto.
  - cbn. lia.
  - intros j Hj. apply Enz. lia.
  - exact HX.
  - intros j Hj. rewrite EL in Hj. unfold X, i in *. destruct (Z.eqb_spec X2 0), (Z.eqb_spec X1 0), (Z.eqb_spec j 0), (Z.eqb_spec j 1), (Z.eqb_spec j 2); lia.
  - intros N. rewrite EX. pose proof (reduction_gap64 b e0 M N ltac:(lia) ltac:(lia)) as GP. pose proof (jv_range e0 ltac:(lia)).
    rewrite <- Z.mul_assoc. change (24 * (1 + 5)) with 144. change (Z.to_nat (1 + 3)) with 4%nat.
    assert (2 ^ 80 <= 2 ^ (82 - q0_of e0)) by (apply Z.pow_le_mono_r; lia). lia.
  - cbn [bind]. rewrite !arr_get_ok by (rewrite Ly; cbn; lia). cbn [bind].
    destruct (rpl_acc5 b e0 X n ih z iq q jz jz' q1 iq' q' fq y' ltac:(lia) HX Po Ch Ba Fq Out) as (N & HN & RO).
    change 7 with (2 ^ 3 - 1) at 1 2. rewrite !land_pow2m1 by lia. pose proof (Z.mod_pos_bound n (2 ^ 3) ltac:(lia)) as Rn. change (2 ^ 3) with 8 in *.
    assert (EA : argR (jv_of e0) (q0_of e0) X = Rabs (val f64 x)).
    { unfold argR. rewrite EX. destruct FX as (_ & _ & VX). unfold q0_of. replace (e0 - 24 * (jv_of e0 + 1) + 24 * (jv_of e0 + 1) - 48) with (-19 + (e - 1075)) by lia. rewrite VX, Rabs_mult, (Rabs_pos_eq (bpow _ _)) by apply bpow_ge_0. rewrite <- abs_IZR, EMM.
      rewrite mult_IZR, bpow_plus. change (IZR (2 ^ 19)) with (bpow radix2 19). rewrite Rmult_assoc, <- (Rmult_assoc (bpow radix2 19)), <- (bpow_plus radix2 19). change (bpow radix2 (19 + -19)) with 1%R. ring. }
    rewrite EA in RO. destruct FX as (_ & _ & VX). destruct (signbit f64 x) eqn:S; cbn [negb].
    + unfold sneg. rewrite chk_ok by (p31; lia). cbn [bind]. do 3 eexists. exists (- N). split; [reflexivity|]. split; [|split; [|lia]].
      * replace (val f64 x) with (- Rabs (val f64 x))%R; [apply red64_neg; exact RO|]. rewrite Rabs_left1; [ring|]. rewrite VX. apply Z.ltb_lt in HS. rewrite <- (Rmult_0_l (bpow radix2 (e - 1075))). apply Rmult_le_compat_r; [apply bpow_ge_0|apply (IZR_le MM 0); lia].
      * pose proof (Z.div_mod n 8 ltac:(lia)). rewrite <- (Z.mod_unique (- N) 8 (- (N / 8) + (if n mod 8 =? 0 then 0 else -1)) ((- (n mod 8)) mod 8)); [reflexivity|left; apply Z.mod_pos_bound; lia|].
        pose proof (Z.div_mod N 8 ltac:(lia)). destruct (Z.eqb_spec (n mod 8) 0) as [E|E]; [rewrite E; change ((- 0) mod 8) with 0; lia|]. rewrite (Z.mod_opp_l_nz (n mod 8) 8) by (rewrite ?Z.mod_mod; lia). rewrite Z.mod_mod by lia. lia.
    + do 3 eexists. exists N. split; [reflexivity|]. split; [|split; [rewrite Z.mod_mod by lia; exact HN|lia]].
      replace (val f64 x) with (Rabs (val f64 x)); [exact RO|]. rewrite VX. apply Rabs_pos_eq. apply Z.ltb_ge in HS. apply Rmult_le_pos; [apply (IZR_le 0); lia|apply bpow_ge_0].
Qed.
(** the whole function *)
Theorem rem_pio2_red b x : isbits f64 x -> 0x3fe921fc <= a64 x / 2 ^ 32 < 0x7ff00000 ->
  exists n y0 y1 n', rs_rem_pio2_gen b x = Some (n, y0, y1) /\ red64 (val f64 x) n' y0 y1 /\ n' mod 8 = n mod 8 /\ Z.abs n <= 1048577.
Proof.
  intros B H. destruct (Z.lt_ge_cases (a64 x / 2 ^ 32) 0x413921fb) as [L | L].
  - destruct (rem_pio2_short_red b x B ltac:(lia)) as (n & y0 & y1 & E & R & N). exists n, y0, y1, n. auto.
  - destruct (rem_pio2_huge_red b x B ltac:(lia)) as (n & y0 & y1 & n' & E & R & M & N). exists n, y0, y1, n'. split; [|split; [exact R|split; [exact M|lia]]].
    unfold rs_rem_pio2_gen. cbv zeta. rewrite (ix64 x B).
    destruct (Z.leb_spec (a64 x / 2 ^ 32) 0x400f6a7a); [lia|]. destruct (Z.leb_spec (a64 x / 2 ^ 32) 0x401c463b); [lia|]. destruct (Z.ltb_spec (a64 x / 2 ^ 32) 0x413921fb); [lia|]. destruct (Z.leb_spec 0x7ff00000 (a64 x / 2 ^ 32)); [lia|]. exact E.
Qed.

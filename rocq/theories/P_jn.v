(** The loop of [jn] and [jnf] which determines the number of terms of the continued fraction ends. *)
From Coq Require Import ZArith Reals Bool List Lia Lra Psatz.
From Flocq Require Import Core.
From Verif Require Import Base Spec Format Ieee P_format P_ieee P_real P_neg P_err P_elem2.
Open Scope R_scope.

Section Q.
Variable F : fmt.
(** the bound of the loop is below 2^M *)
Variable M : Z.
Hypothesis HM : (2 <= M <= 40)%Z.
Let c := bpow radix2 (M - mw F - 1).
Hypothesis Hc : 2 * IZR M * c <= / 10.

Lemma c_pos : 0 < c. Proof. apply bpow_gt_0. Qed.
Lemma rnd_low t : Rabs t < bpow radix2 (M + 1) -> Rabs (rnd F t - t) <= c.
Proof.
  intros H. unfold rnd. pose proof (fmt_facts F) as HF. pose proof (bias_facts F) as HB. pose proof (fmt_valid_exp F) as V.
  destruct (Req_dec t 0) as [-> | N]; [rewrite round_0, Rminus_0_r, Rabs_R0 by apply valid_rnd_N; apply bpow_ge_0|].
  eapply Rle_trans; [apply error_le_half_ulp; exact V|]. rewrite ulp_neq_0 by exact N. replace c with (/ 2 * bpow radix2 (M - mw F)).
  - apply Rmult_le_compat_l; [lra|]. apply bpow_le. unfold cexp, FLT_exp. pose proof (mag_le_bpow radix2 t _ N H). lia.
  - replace (bpow radix2 (M - mw F)) with (bpow radix2 (1 + (M - mw F - 1))) by (f_equal; lia). rewrite bpow_plus. change (bpow radix2 1) with 2. fold c. lra.
Qed.
Lemma same_binade a b t : repr F a -> repr F b -> t = 2 * b - a -> 0 < a -> a <= b -> b <= t -> mag radix2 t = mag radix2 a :> Z -> repr F t.
Proof.
  intros Ra Rb Et P1 P2 P3 E.
  assert (Eb : mag radix2 b = mag radix2 a :> Z). { pose proof (mag_le radix2 a b P1 P2). pose proof (mag_le radix2 b t ltac:(lra) P3). lia. }
  unfold repr, generic_format in Ra, Rb. set (e := cexp radix2 (fexpF F) a) in *.
  assert (Ce : cexp radix2 (fexpF F) b = e) by (unfold e, cexp; now rewrite Eb). rewrite Ce in Rb.
  set (ma := Ztrunc _) in Ra. set (mb := Ztrunc _) in Rb.
  assert (Ft : t = F2R (Float radix2 (2 * mb - ma) e)). { rewrite Et, Ra, Rb. unfold F2R; cbn [Fnum Fexp]. rewrite minus_IZR, mult_IZR. ring. }
  rewrite Ft. apply generic_format_F2R. intros _. rewrite <- Ft. unfold e, cexp. rewrite E. apply Z.le_refl.
Qed.
Definition gap (q0 q1 : R) : Prop := 1 - IZR (mag radix2 q0 + mag radix2 q1) * c <= q1 - q0.
Lemma mag_lt q : 0 < q -> q < bpow radix2 M -> (mag radix2 q <= M)%Z.
Proof. intros P H. apply mag_le_bpow; [lra|]. rewrite Rabs_pos_eq by lra. exact H. Qed.
Lemma gap_low q0 q1 : 0 < q0 -> q0 < bpow radix2 M -> 0 < q1 -> q1 < bpow radix2 M -> gap q0 q1 -> 9 / 10 <= q1 - q0.
Proof.
  intros P0 L0 P1 L1 G. unfold gap in G. pose proof (mag_lt q0 P0 L0) as A. pose proof (mag_lt q1 P1 L1) as B.
  assert (IZR (mag radix2 q0 + mag radix2 q1) <= 2 * IZR M). { rewrite <- (mult_IZR 2). apply IZR_le. lia. } pose proof c_pos. nra.
Qed.
Lemma gap_step q0 q1 q2 : repr F q0 -> repr F q1 -> 0 < q0 -> q0 <= q1 -> q1 < bpow radix2 M -> gap q0 q1 -> rnd F (2 * q1 - q0) <= q2 -> gap q1 q2.
Proof.
  intros R0 R1 P0 L L1 G H. pose proof (gap_low q0 q1 P0 ltac:(lra) ltac:(lra) L1 G) as D. set (t := 2 * q1 - q0) in *. pose proof c_pos as Cp.
  assert (T1 : q1 <= t) by (unfold t; lra). assert (T2 : t < bpow radix2 (M + 1)). { rewrite bpow_plus. change (bpow radix2 1) with 2. unfold t. lra. }
  destruct (Z.eq_dec (mag radix2 t) (mag radix2 q0)) as [E|E].
  - pose proof (same_binade q0 q1 t R0 R1 eq_refl P0 L T1 E) as Rt. rewrite (repr_rnd F t Rt) in H.
    unfold gap in *. assert (IZR (mag radix2 q0 + mag radix2 q1) <= IZR (mag radix2 q1 + mag radix2 q2)).
    { apply IZR_le. pose proof (mag_le radix2 q0 q2 P0 ltac:(lra)). lia. } unfold t in H. nra.
  - assert (K : (mag radix2 q0 + 1 <= mag radix2 t)%Z) by (pose proof (mag_le radix2 q0 t P0 ltac:(lra)); lia).
    pose proof (rnd_low t ltac:(rewrite Rabs_pos_eq by lra; exact T2)) as ER. apply Rabs_le_inv in ER.
    assert (K2 : (mag radix2 t <= mag radix2 q2)%Z).
    { assert (W : bpow radix2 (mag radix2 t - 1) <= q2).
      { eapply Rle_trans; [|exact H]. rewrite <- (repr_rnd F (bpow radix2 (mag radix2 t - 1))).
        - apply rnd_le. pose proof (bpow_mag_le radix2 t ltac:(lra)) as W. rewrite Rabs_pos_eq in W by lra. exact W.
        - apply repr_bpow. pose proof (fmt_facts F). pose proof (bias_facts F). unfold emin.
          assert (0 <= mag radix2 t - 1)%Z; [|lia]. assert (1 <= mag radix2 t)%Z; [|lia]. apply mag_ge_bpow. cbn. rewrite Rabs_pos_eq by lra.
          destruct (Rle_lt_dec 1 t); [assumption|]. exfalso. unfold t in *. lra. }
      assert (0 < q2) by (pose proof (bpow_gt_0 radix2 (mag radix2 t - 1)); lra).
      assert (mag radix2 t - 1 + 1 <= mag radix2 q2)%Z; [|lia]. replace (mag radix2 t - 1 + 1)%Z with (mag radix2 t - 1 + 1)%Z by lia. apply mag_ge_bpow. replace (mag radix2 t - 1 + 1 - 1)%Z with (mag radix2 t - 1)%Z by lia. rewrite Rabs_pos_eq by lra. exact W. }
    unfold gap in *. assert (IZR (mag radix2 q0 + mag radix2 q1) + 1 <= IZR (mag radix2 q1 + mag radix2 q2)).
    { rewrite <- plus_IZR. apply IZR_le. lia. } unfold t in *. nra.
Qed.

(** The loop *)
Variables B : Z.
Variable K : Z.
Hypothesis FB : finite F B = true.
Hypothesis VB : 1 <= val F B < bpow radix2 M.
Hypothesis HK : (2 <= K < 2 ^ 30 * 2)%Z /\ (K <= 2 ^ (mw F + 1))%Z.
Hypothesis KB : val F B <= 9 / 10 * (IZR K - 2).
(** the quotients are below 2^E *)
Variable E : Z.
Hypothesis HE : (2 <= E)%Z /\ (2 * E + 2 <= bias F)%Z.
Hypothesis HF : IZR K * bpow radix2 (E + 1) * bpow radix2 M <= bpow radix2 (bias F - 2).

Variable h : Z.
Hypothesis Fh : finite F h = true.
Hypothesis Vh : 0 <= val F h <= bpow radix2 (E + 1).
Definition stepq (s : Z * Z * Z * Z) : option (ctl (Z * Z * Z * Z) Z) :=
  let '(k, z, q0, q1) := s in
  if flt F q1 B then
    let* k := sadd 32 k 1 in
    let z := fadd F z h in
    let tmp := fsub F (fmul F z q1) q0 in
    let q0 := q1 in
    let q1 := tmp in
    Some (Cont (k, z, q0, q1))
  else Some (Ret k).
Definition inv (s : Z * Z * Z * Z) : Prop :=
  let '(k, z, q0, q1) := s in
  (1 <= k <= K)%Z /\
  (finite F z = true /\ 2 <= val F z <= IZR k * bpow radix2 (E + 1) /\ finite F q0 = true /\ finite F q1 = true /\
   ((val F B <= val F q1) \/ (2 <= val F q0 /\ val F q0 <= val F q1 /\ gap (val F q0) (val F q1) /\ 9 / 10 * IZR k <= val F q1))).
Lemma repr2v v : repr F v -> repr F (2 * v).
Proof. intros H. rewrite Rmult_comm. change 2 with (bpow radix2 1). apply repr_scale; [exact H|lia]. Qed.
Lemma flt_fin a b : finite F a = true -> finite F b = true -> flt F a b = true -> val F a < val F b.
Proof. intros Fa Fb H. apply flt_spec in H. destruct H as (_ & _ & H). now rewrite Fa, Fb in H. Qed.
Lemma inv_step s : inv s -> exists c0, stepq s = Some c0 /\ match c0 with Cont s' => inv s' /\ (0 <= K + 1 - fst (fst (fst s')) < K + 1 - fst (fst (fst s)))%Z | Ret k => (1 <= k <= K)%Z end.
Proof.
  destruct s as [[[k z] q0] q1]. intros (Hk & Fz & Vz & F0 & F1 & D). unfold stepq. destruct (flt F q1 B) eqn:EL; [|exists (Ret k); split; [reflexivity|exact Hk]].
  pose proof (flt_fin q1 B F1 FB EL) as L. destruct D as [D|(Q0 & Q1 & G & LK)]; [lra|].
  assert (K1 : (k + 2 <= K)%Z). { apply le_IZR. rewrite plus_IZR. lra. }
  rewrite (P_elem2.sadd_ok 32 k 1) by (change (2 ^ (32 - 1))%Z with (2 ^ 30 * 2)%Z; lia). cbn [bind]. eexists; split; [reflexivity|].
  pose proof (bpow_gt_0 radix2 (E + 1)) as B62. pose proof (bpow_gt_0 radix2 M) as BM. pose proof (fmt_facts F) as FF. pose proof (bias_facts F) as BF.
  assert (Kp : 1 <= IZR k /\ IZR k + 1 <= IZR K). { rewrite <- plus_IZR. split; apply IZR_le; lia. }
  assert (ZB : rnd F (val F z + val F h) <= IZR (k + 1) * bpow radix2 (E + 1)).
  { rewrite <- (repr_rnd F (IZR (k + 1) * bpow radix2 (E + 1))).
    - apply rnd_le. rewrite plus_IZR. lra.
    - apply repr_int; [rewrite Z.abs_eq; lia|]. unfold emin. lia. }
  set (W := bpow radix2 (E + 1)) in *. set (T := bpow radix2 M) in *. assert (M2 : 2 <= T). { unfold T. change 2 with (bpow radix2 1). apply bpow_le. lia. }
  assert (WK : IZR (k + 1) * W <= IZR K * W). { rewrite plus_IZR. nra. }
  assert (WT : IZR K * W * 2 <= IZR K * W * T) by (apply Rmult_le_compat_l; nra).
  assert (BB : bpow radix2 (bias F - 2) * 2 <= bpow radix2 (bias F)). { change 2 with (bpow radix2 1). rewrite <- bpow_plus. apply bpow_le. lia. }
  pose proof (bpow_gt_0 radix2 (bias F - 2)) as BG.
  destruct (rounds_fin F _ _ _ (fadd_spec F z h Fz Fh)) as [Fz' Ez].
  { rewrite Rabs_pos_eq by lra. nra. }
  assert (Z2 : 2 <= rnd F (val F z + val F h)). { rewrite <- (repr_rnd F 2); [apply rnd_le; lra|]. change 2 with (bpow radix2 1). apply repr_bpow. unfold emin. lia. }
  rewrite <- Ez in ZB, Z2. set (z' := fadd F z h) in *. clearbody z'.
  assert (PL : 2 * val F q1 <= val F z' * val F q1 <= bpow radix2 (bias F - 2)).
  { split; [nra|]. apply Rle_trans with (IZR K * W * T); [|exact HF]. apply Rmult_le_compat; lra. }
  destruct (rounds_fin F _ _ _ (fmul_spec F z' q1 Fz' F1)) as [Fp Ep]. { rewrite Rabs_pos_eq; lra. }
  assert (P2 : 2 * val F q1 <= val F (fmul F z' q1) <= bpow radix2 (bias F - 2)).
  { rewrite Ep. split; [rewrite <- (repr_rnd F (2 * val F q1)) by (apply repr2v, repr_val, F1)|rewrite <- (repr_rnd F (bpow radix2 (bias F - 2))) by (apply repr_bpow; unfold emin; lia)]; apply rnd_le; lra. }
  set (p := fmul F z' q1) in *. clearbody p.
  destruct (rounds_fin F _ _ _ (fsub_spec F p q0 Fp F0)) as [Fs Es]. { rewrite Rabs_pos_eq; lra. }
  assert (S2 : rnd F (2 * val F q1 - val F q0) <= val F (fsub F p q0)). { rewrite Es. apply rnd_le. lra. }
  set (s := fsub F p q0) in *. clearbody s.
  pose proof (gap_step (val F q0) (val F q1) (val F s) (repr_val F q0 F0) (repr_val F q1 F1) ltac:(lra) Q1 ltac:(unfold T in *; lra) G S2) as G2.
  assert (S1 : val F q1 <= val F s). { eapply Rle_trans; [|exact S2]. rewrite <- (repr_rnd F (val F q1)) at 1 by (apply repr_val, F1). apply rnd_le. lra. }
  cbn [fst]. split; [|lia]. split; [lia|]. split; [exact Fz'|]. split; [split; [exact Z2|exact ZB]|]. split; [exact F1|]. split; [exact Fs|].
  destruct (Rle_lt_dec (val F B) (val F s)) as [Bs|Bs]; [left; exact Bs|right]. split; [lra|]. split; [exact S1|]. split; [exact G2|].
  pose proof (gap_low (val F q1) (val F s) ltac:(lra) ltac:(unfold T in *; lra) ltac:(lra) ltac:(unfold T in *; lra) G2). rewrite plus_IZR. lra.
Qed.
(** The start: [w >= 2], z = w + h, q0 = w, q1 = w z - 1 *)
Lemma inv_start w one : finite F w = true -> 2 <= val F w <= bpow radix2 E -> val F h <= bpow radix2 E -> finite F one = true -> val F one = 1 ->
  inv (1%Z, fadd F w h, w, fsub F (fmul F w (fadd F w h)) one).
Proof.
  intros Fw Vw Vh' F1 V1. pose proof (fmt_facts F) as FF. pose proof (bias_facts F) as BF.
  assert (E62 : bpow radix2 E * 2 = bpow radix2 (E + 1)) by (change 2 with (bpow radix2 1); rewrite <- bpow_plus; f_equal; lia).
  pose proof (bpow_gt_0 radix2 E) as B61. pose proof (bpow_gt_0 radix2 M) as BM.
  assert (HF2 : IZR 2 * bpow radix2 (E + 1) <= IZR K * bpow radix2 (E + 1)) by (apply Rmult_le_compat_r; [apply bpow_ge_0|apply IZR_le; lia]).
  assert (H1 : forall v, 2 <= v -> 2 <= rnd F v). { intros v Hv. rewrite <- (repr_rnd F 2); [apply rnd_le; lra|]. change 2 with (bpow radix2 1). apply repr_bpow. unfold emin. lia. }
  assert (HT : forall e v, (0 <= e)%Z -> v <= bpow radix2 e -> rnd F v <= bpow radix2 e). { intros e v He Hv. rewrite <- (repr_rnd F (bpow radix2 e)) by (apply repr_bpow; unfold emin; lia). apply rnd_le; lra. }
  assert (BE : bpow radix2 (2 * E + 2) <= bpow radix2 (bias F)) by (apply bpow_le; lia).
  assert (B62 : bpow radix2 (E + 1) <= bpow radix2 (2 * E + 2)) by (apply bpow_le; lia).
  destruct (rounds_fin F _ _ _ (fadd_spec F w h Fw Fh)) as [Fz Ez]. { rewrite Rabs_pos_eq by lra. lra. }
  pose proof (H1 (val F w + val F h) ltac:(lra)) as Z2. pose proof (HT (E + 1)%Z (val F w + val F h) ltac:(lia) ltac:(lra)) as Z3. rewrite <- Ez in Z2, Z3.
  set (z := fadd F w h) in *. clearbody z.
  assert (PL : 2 * val F w <= val F w * val F z <= bpow radix2 (2 * E + 2)). { split; [nra|]. replace (bpow radix2 (2 * E + 2)) with (bpow radix2 (E + 1) * bpow radix2 (E + 1)) by (rewrite <- bpow_plus; f_equal; lia). apply Rmult_le_compat; lra. }
  destruct (rounds_fin F _ _ _ (fmul_spec F w z Fw Fz)) as [Fp Ep]. { rewrite Rabs_pos_eq; lra. }
  assert (P2 : 2 * val F w <= val F (fmul F w z) <= bpow radix2 (2 * E + 2)).
  { rewrite Ep. split; [|apply HT; [lia|lra]]. rewrite <- (repr_rnd F (2 * val F w)) by (apply repr2v, repr_val, Fw). apply rnd_le; lra. }
  set (p := fmul F w z) in *. clearbody p.
  destruct (rounds_fin F _ _ _ (fsub_spec F p one Fp F1)) as [Fs Es]. { rewrite Rabs_pos_eq; lra. }
  assert (S2 : rnd F (2 * val F w - 1) <= val F (fsub F p one)). { rewrite Es. apply rnd_le. lra. }
  set (s := fsub F p one) in *. clearbody s.
  assert (S1 : val F w <= val F s). { eapply Rle_trans; [|exact S2]. rewrite <- (repr_rnd F (val F w)) at 1 by (apply repr_val, Fw). apply rnd_le. lra. }
  split; [lia|]. split; [exact Fz|]. split; [split; [exact Z2|lra]|]. split; [exact Fw|]. split; [exact Fs|].
  destruct (Rle_lt_dec (val F B) (val F s)) as [Bs|Bs]; [left; exact Bs|right]. split; [lra|]. split; [exact S1|].
  assert (LW : val F w < bpow radix2 M) by lra.
  pose proof (rnd_low (2 * val F w - 1)) as RL. rewrite Rabs_pos_eq in RL by lra. replace (bpow radix2 (M + 1)) with (2 * bpow radix2 M) in RL by (rewrite bpow_plus; change (bpow radix2 1) with 2; ring).
  specialize (RL ltac:(lra)). apply Rabs_le_inv in RL. split; [|lra].
  assert (MW : (2 <= mag radix2 (val F w))%Z). { apply mag_ge_bpow. change (bpow radix2 (2 - 1)) with 2. rewrite Rabs_pos_eq; lra. }
  pose proof (mag_le radix2 (val F w) (val F s) ltac:(lra) S1) as MS. unfold gap.
  assert (4 <= IZR (mag radix2 (val F w) + mag radix2 (val F s))) by (apply IZR_le; lia). pose proof c_pos. nra.
Qed.
(** The loop returns a number of terms between 1 and [K]. *)
Lemma loop_q w one p : finite F w = true -> 2 <= val F w <= bpow radix2 E -> val F h <= bpow radix2 E -> finite F one = true -> val F one = 1 -> (K < Zpos p)%Z ->
  exists k, run p stepq (1%Z, fadd F w h, w, fsub F (fmul F w (fadd F w h)) one) = Some k /\ (1 <= k <= K)%Z.
Proof.
  intros Fw Vw Vh' F1 V1 HP.
  apply (run_rule inv (fun s => K + 1 - fst (fst (fst s)))%Z (fun k => (1 <= k <= K)%Z) stepq inv_step p); [now apply inv_start|cbn; lia].
Qed.
End Q.

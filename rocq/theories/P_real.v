(** Facts about the set of representable numbers and the rounding function of the specification. *)
From Coq Require Import ZArith Reals Lia Lra Bool.
From Flocq Require Import Core.
From Verif Require Import Base Spec Format P_format Ieee P_ieee.
Open Scope Z_scope.

Definition emin (F : fmt) : Z := 1 - bias F - mw F.
Notation fexpF F := (FLT_exp (1 - bias F - mw F) (mw F + 1)).
Definition repr (F : fmt) (r : R) : Prop := generic_format radix2 (fexpF F) r.

Lemma IZR_pow2 n : 0 <= n -> IZR (2 ^ n) = bpow radix2 n.
Proof. intros H. change (2 ^ n) with (Zpower radix2 n). now rewrite IZR_Zpower. Qed.
Lemma bpow2_1 : bpow radix2 1 = 2%R. Proof. reflexivity. Qed.
Lemma bpow2_m1 : bpow radix2 (-1) = (1 / 2)%R. Proof. simpl. unfold Z.pow_pos; simpl. lra. Qed.
Lemma bpow_succ2 e : bpow radix2 (e + 1) = (2 * bpow radix2 e)%R.
Proof. rewrite bpow_plus, bpow2_1. ring. Qed.
Lemma bpow_double e : (bpow radix2 e = 2 * bpow radix2 (e - 1))%R.
Proof. rewrite <- bpow_succ2. f_equal; lia. Qed.
Lemma bpow_half e : (bpow radix2 (e - 1) = bpow radix2 e / 2)%R.
Proof. rewrite (bpow_double e). lra. Qed.

Lemma repr_rnd F r : repr F r -> rnd F r = r.
Proof. intros H. unfold rnd. apply round_generic; [apply valid_rnd_N|exact H]. Qed.
Lemma rnd_repr F r : repr F (rnd F r).
Proof. unfold rnd, repr. apply generic_format_round; [apply fmt_valid_exp|apply valid_rnd_N]. Qed.
Lemma repr_val F x : finite F x = true -> repr F (val F x).
Proof. exact (generic_val F x). Qed.
Lemma repr_0 F : repr F 0. Proof. apply generic_format_0. Qed.
Lemma repr_opp F r : repr F r -> repr F (- r). Proof. apply generic_format_opp. Qed.
Lemma repr_sval F s r : repr F r -> repr F (sval s r).
Proof. destruct s; simpl; [apply repr_opp|tauto]. Qed.

Lemma repr_bpow F e : emin F <= e -> repr F (bpow radix2 e).
Proof.
  intros He. apply generic_format_bpow. unfold FLT_exp. pose proof (fmt_facts F). unfold emin in He. lia.
Qed.
Lemma repr_int F n e : Z.abs n <= 2 ^ (mw F + 1) -> emin F <= e -> repr F (IZR n * bpow radix2 e).
Proof.
  intros Hn He. pose proof (fmt_facts F) as HF.
  destruct (Z.eq_dec (Z.abs n) (2 ^ (mw F + 1))) as [E|E].
  - assert (D : n = 2 ^ (mw F + 1) \/ n = - 2 ^ (mw F + 1)) by lia.
    assert (P : repr F (bpow radix2 (mw F + 1 + e))) by (apply repr_bpow; lia).
    destruct D as [-> | ->]; [|rewrite opp_IZR]; rewrite IZR_pow2 by lia.
    + rewrite <- bpow_plus. exact P.
    + rewrite Ropp_mult_distr_l_reverse, <- bpow_plus. apply repr_opp. exact P.
  - apply generic_format_FLT.
    apply (FLT_spec radix2 (1 - bias F - mw F) (mw F + 1) _ (Float radix2 n e)); simpl.
    + reflexivity.
    + apply Z.le_neq. split; assumption.
    + exact He.
Qed.
Lemma repr_IZR F n : Z.abs n <= 2 ^ (mw F + 1) -> repr F (IZR n).
Proof.
  intros H. rewrite <- (Rmult_1_r (IZR n)). change 1%R with (bpow radix2 0). apply repr_int; [assumption|].
  pose proof (bias_facts F). pose proof (fmt_facts F). unfold emin. lia.
Qed.

(** A representable number is a multiple of the quantum of its binade (or a smaller one). *)
Lemma repr_grid F v j : repr F v -> (v <> 0 -> bpow radix2 j <= Rabs v)%R ->
  exists n, v = (IZR n * bpow radix2 (j - mw F))%R.
Proof.
  intros Hv Hj. unfold repr in Hv.
  destruct (Req_dec v 0) as [->|Hv0]; [exists 0; now rewrite Rmult_0_l|].
  specialize (Hj Hv0). rewrite Hv. unfold F2R; simpl.
  set (M := Ztrunc _). set (c := cexp radix2 _ v).
  assert (Hc : j - mw F <= c).
  { unfold c, cexp, FLT_exp. assert (j < mag radix2 v).
    { apply Z.lt_le_trans with (mag radix2 (bpow radix2 j)).
      - rewrite mag_bpow. lia.
      - apply mag_le_abs; [apply Rgt_not_eq, bpow_gt_0|].
        rewrite (Rabs_pos_eq (bpow radix2 j)) by apply bpow_ge_0. exact Hj. }
    lia. }
  exists (M * 2 ^ (c - (j - mw F))). rewrite mult_IZR, IZR_pow2 by lia.
  rewrite Rmult_assoc, <- bpow_plus. do 2 f_equal. lia.
Qed.
(** Every representable number is a multiple of the smallest subnormal. *)
Lemma repr_grid_min F v : repr F v -> exists n, v = (IZR n * bpow radix2 (emin F))%R.
Proof.
  intros Hv. unfold repr in Hv. rewrite Hv. unfold F2R; simpl.
  set (M := Ztrunc _). set (c := cexp radix2 _ v).
  assert (Hc : emin F <= c) by (apply Z.le_max_r).
  exists (M * 2 ^ (c - emin F)). rewrite mult_IZR, IZR_pow2 by lia.
  rewrite Rmult_assoc, <- bpow_plus. do 2 f_equal. lia.
Qed.

Lemma mult_lt_gap a b d : (0 < d)%R -> (IZR a * d < IZR b * d)%R -> (IZR a * d <= IZR b * d - d)%R.
Proof.
  intros Hd H. apply Rmult_lt_reg_r in H; [|exact Hd]. apply lt_IZR in H.
  assert (IZR a <= IZR b - 1)%R by (rewrite <- minus_IZR; apply IZR_le; lia). nra.
Qed.

(** Rounding inside one binade (or in the subnormal range). *)
Lemma rnd_scaled F w e : (bpow radix2 (e + mw F) <= Rabs w < bpow radix2 (e + mw F + 1))%R -> emin F <= e ->
  rnd F w = (IZR (ZnearestE (w * bpow radix2 (- e))) * bpow radix2 e)%R.
Proof.
  intros Hw He. unfold rnd, round, F2R, scaled_mantissa; cbn [Fnum Fexp].
  assert (Ec : cexp radix2 (fexpF F) w = e).
  { unfold cexp, FLT_exp. rewrite (mag_unique radix2 w (e + mw F + 1)).
    - unfold emin in He. lia.
    - replace (e + mw F + 1 - 1) with (e + mw F) by lia. exact Hw. }
  rewrite Ec. reflexivity.
Qed.
Lemma rnd_scaled_sub F w : (Rabs w < bpow radix2 (emin F + mw F + 1))%R ->
  rnd F w = (IZR (ZnearestE (w * bpow radix2 (- emin F))) * bpow radix2 (emin F))%R.
Proof.
  intros Hw. unfold rnd, round, F2R, scaled_mantissa; cbn [Fnum Fexp].
  destruct (Req_dec w 0) as [->|H0].
  { rewrite !Rmult_0_l. 
    replace (ZnearestE 0) with 0. 2:{ symmetry. apply (Zrnd_IZR ZnearestE 0). }
    ring. }
  assert (Ec : cexp radix2 (fexpF F) w = emin F).
  { unfold cexp, FLT_exp. assert (mag radix2 w <= emin F + mw F + 1).
    { apply mag_le_bpow; assumption. } unfold emin in *. lia. }
  rewrite Ec. reflexivity.
Qed.

(** Distance property. *)
Lemma rnd_nearest F w g : repr F g -> (Rabs (rnd F w - w) <= Rabs (g - w))%R.
Proof.
  intros Hg. destruct (round_N_pt radix2 (fexpF F) (fun x => negb (Z.even x)) w) as [_ H].
  apply H. exact Hg.
Qed.
Lemma rnd_lt F w B d : (0 < d)%R -> repr F B -> repr F (B - 2 * d) -> (w < B - d)%R -> (rnd F w < B)%R.
Proof.
  intros Hd HB HB2 Hw.
  assert (L : (rnd F w <= B)%R) by (rewrite <- (repr_rnd F B HB); apply rnd_le; lra).
  destruct (Req_dec (rnd F w) B) as [E|E]; [exfalso|lra].
  destruct (Rle_lt_dec (B - 2 * d) w) as [G|G].
  - pose proof (rnd_nearest F w _ HB2) as N. rewrite E in N.
    rewrite Rabs_pos_eq in N by lra. rewrite Rabs_left1 in N by lra. lra.
  - assert (rnd F w <= B - 2 * d)%R by (rewrite <- (repr_rnd F _ HB2); apply rnd_le; lra). lra.
Qed.

Lemma rnd_sval F s r : rnd F (sval s r) = sval s (rnd F r).
Proof. destruct s; simpl; [apply rnd_opp|reflexivity]. Qed.
Lemma rnd_nonneg F r : (0 <= r)%R -> (0 <= rnd F r)%R.
Proof. intros H. rewrite <- (rnd_0 F). now apply rnd_le. Qed.

(** No overflow below a representable bound. *)
Lemma rnd_bounded F r b : repr F b -> (Rabs r <= b)%R -> (Rabs (rnd F r) <= b)%R.
Proof.
  intros Hb H. apply Rabs_le. apply Rabs_le_inv in H.
  split; [rewrite <- (repr_rnd F (- b)) by now apply repr_opp|rewrite <- (repr_rnd F b) by assumption];
    apply rnd_le; lra.
Qed.
Lemma rounds_to_bounded F r sz y b : rounds_to F r sz y -> repr F b ->
  (Rabs r <= b < bpow radix2 (bias F + 1))%R ->
  isbits F y /\ finite F y = true /\ val F y = rnd F r /\
  signbit F y = match Rcompare r 0 with Lt => true | Gt => false | Eq => sz end.
Proof.
  intros [Hy H] Hb [L1 L2]. split; [assumption|].
  rewrite Rlt_bool_true in H; [assumption|].
  eapply Rle_lt_trans; [|exact L2]. now apply rnd_bounded.
Qed.

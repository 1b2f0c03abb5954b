(** The order of floating-point data is the order of their sign-magnitude bit patterns. *)
From Coq Require Import ZArith Reals Lia Lra Bool.
From Flocq Require Import Core.
From Verif Require Import Base Spec Format P_format Ieee P_ieee P_real.
Open Scope Z_scope.

Definition magz (F : fmt) (x : Z) : Z := expf F x * 2 ^ mw F + sigf F x.
Definition key (F : fmt) (x : Z) : Z := if signbit F x then - magz F x else magz F x.

Lemma magz_range F x : 0 <= magz F x < 2 ^ ew F * 2 ^ mw F.
Proof. unfold magz. pose proof (fields_range F x). pose proof (pow_mw_ge F). nia. Qed.
Lemma bits_magz F x : isbits F x -> x = (if signbit F x then 2 ^ (mw F + ew F) else 0) + magz F x.
Proof. intros H. rewrite (fields_split F x H) at 1. unfold mkbits, magz. lia. Qed.
Lemma magz_fields F (s : bool) M : 0 <= M < 2 ^ ew F * 2 ^ mw F ->
  let x := (if s then 2 ^ (mw F + ew F) else 0) + M in
  isbits F x /\ signbit F x = s /\ magz F x = M /\ expf F x = M / 2 ^ mw F /\ sigf F x = M mod 2 ^ mw F.
Proof.
  intros HM. cbv zeta. pose proof (pow_mw_ge F) as Hm. pose proof (fmt_facts F).
  pose proof (Z.div_mod M (2 ^ mw F)) as D. pose proof (Z.mod_pos_bound M (2 ^ mw F)) as B.
  assert (Q : 0 <= M / 2 ^ mw F < 2 ^ ew F).
  { split; [apply Z.div_pos; lia|apply Z.div_lt_upper_bound; lia]. }
  assert (E : (if s then 2 ^ (mw F + ew F) else 0) + M = mkbits F s (M / 2 ^ mw F) (M mod 2 ^ mw F)).
  { unfold mkbits. lia. }
  rewrite E. destruct (mkbits_fields F s (M / 2 ^ mw F) (M mod 2 ^ mw F)) as (E1 & E2 & E3); try lia.
  split; [apply mkbits_range; lia|]. unfold magz. rewrite E1, E2, E3. repeat split; lia.
Qed.

Lemma mag_of_lt_exp F e m : 0 <= e -> 0 <= m < 2 ^ mw F ->
  (mag_of F e m < bpow radix2 (Z.max e 1 + (if e =? 0 then 0 else 1) - bias F))%R.
Proof.
  intros He Hm. pose proof (fmt_facts F). unfold mag_of.
  assert (E2 : 2 ^ (mw F + 1) = 2 * 2 ^ mw F) by (rewrite Z.add_1_r, Z.pow_succ_r; lia).
  destruct (Z.eqb_spec e 0) as [->|Hne].
  - apply Rlt_le_trans with (IZR (2 ^ mw F) * bpow radix2 (1 - bias F - mw F))%R.
    + apply Rmult_lt_compat_r; [apply bpow_gt_0|apply IZR_lt; lia].
    + rewrite IZR_pow2, <- bpow_plus by lia. apply bpow_le. lia.
  - apply Rlt_le_trans with (IZR (2 ^ (mw F + 1)) * bpow radix2 (e - bias F - mw F))%R.
    + apply Rmult_lt_compat_r; [apply bpow_gt_0|apply IZR_lt; lia].
    + rewrite IZR_pow2, <- bpow_plus by lia. apply bpow_le. lia.
Qed.
Lemma mag_of_ge_exp F e m : 0 < e -> 0 <= m -> (bpow radix2 (e - bias F) <= mag_of F e m)%R.
Proof.
  intros He Hm. pose proof (fmt_facts F). unfold mag_of. rewrite (proj2 (Z.eqb_neq e 0)) by lia.
  apply Rle_trans with (IZR (2 ^ mw F) * bpow radix2 (e - bias F - mw F))%R.
  - rewrite IZR_pow2, <- bpow_plus by lia. apply bpow_le. lia.
  - apply Rmult_le_compat_r; [apply bpow_ge_0|apply IZR_le; lia].
Qed.

Lemma mag_of_mono F e m e' m' : 0 <= e -> 0 <= m < 2 ^ mw F -> 0 <= e' -> 0 <= m' < 2 ^ mw F ->
  e * 2 ^ mw F + m < e' * 2 ^ mw F + m' -> (mag_of F e m < mag_of F e' m')%R.
Proof.
  intros He Hm He' Hm' H.
  assert (D : e < e' \/ (e = e' /\ m < m')) by nia.
  destruct D as [D|[-> D]].
  - eapply Rlt_le_trans; [apply mag_of_lt_exp; assumption|].
    eapply Rle_trans; [|apply mag_of_ge_exp; lia].
    apply bpow_le. destruct (Z.eqb_spec e 0); lia.
  - unfold mag_of. destruct (e' =? 0); (apply Rmult_lt_compat_r; [apply bpow_gt_0|apply IZR_lt; lia]).
Qed.

Lemma fields_inj F e m e' m' : 0 <= m < 2 ^ mw F -> 0 <= m' < 2 ^ mw F ->
  e * 2 ^ mw F + m = e' * 2 ^ mw F + m' -> e = e' /\ m = m'.
Proof.
  intros Hm Hm' T. pose proof (pow_mw_ge F).
  destruct (Z.lt_trichotomy e e') as [L|[->|L]]; [exfalso|lia|exfalso].
  - assert (e * 2 ^ mw F + 2 ^ mw F <= e' * 2 ^ mw F) by nia. lia.
  - assert (e' * 2 ^ mw F + 2 ^ mw F <= e * 2 ^ mw F) by nia. lia.
Qed.
Lemma magz_lt_val F x y : magz F x < magz F y <->
  (mag_of F (expf F x) (sigf F x) < mag_of F (expf F y) (sigf F y))%R.
Proof.
  pose proof (fields_range F x). pose proof (fields_range F y).
  split; intros L.
  - apply mag_of_mono; try lia. exact L.
  - destruct (Z.lt_trichotomy (magz F x) (magz F y)) as [T|[T|T]]; [exact T| |].
    + assert (expf F x = expf F y /\ sigf F x = sigf F y) as [E1 E2].
      { apply (fields_inj F); try lia. exact T. }
      rewrite E1, E2 in L. lra.
    + assert (mag_of F (expf F y) (sigf F y) < mag_of F (expf F x) (sigf F x))%R.
      { apply mag_of_mono; try lia. exact T. }
      lra.
Qed.

Lemma key_val_lt F x y : key F x < key F y <-> (val F x < val F y)%R.
Proof.
  pose proof (magz_lt_val F x y) as A. pose proof (magz_lt_val F y x) as B.
  pose proof (magz_range F x). pose proof (magz_range F y).
  unfold key, val.
  set (a := mag_of F (expf F x) (sigf F x)) in *. set (b := mag_of F (expf F y) (sigf F y)) in *.
  assert (Za : (0 <= a)%R) by (apply mag_of_nonneg; apply fields_range).
  assert (Zb : (0 <= b)%R) by (apply mag_of_nonneg; apply fields_range).
  assert (Pa : 0 < magz F x <-> (0 < a)%R).
  { assert (Z0 : magz F 0 = 0) by (unfold magz, expf, sigf; rewrite Z.div_0_l, !Z.mod_0_l by (apply Z.pow_nonzero; pose proof (fmt_facts F); lia); reflexivity).
    pose proof (magz_lt_val F 0 x) as C. rewrite Z0 in C. rewrite C. fold a.
    assert (Em : mag_of F (expf F 0) (sigf F 0) = 0%R).
    { unfold expf, sigf. rewrite Z.div_0_l, !Z.mod_0_l by (apply Z.pow_nonzero; pose proof (fmt_facts F); lia).
      unfold mag_of. simpl. ring. }
    rewrite Em. tauto. }
  assert (Pb : 0 < magz F y <-> (0 < b)%R).
  { assert (Z0 : magz F 0 = 0) by (unfold magz, expf, sigf; rewrite Z.div_0_l, !Z.mod_0_l by (apply Z.pow_nonzero; pose proof (fmt_facts F); lia); reflexivity).
    pose proof (magz_lt_val F 0 y) as C. rewrite Z0 in C. rewrite C. fold b.
    assert (Em : mag_of F (expf F 0) (sigf F 0) = 0%R).
    { unfold expf, sigf. rewrite Z.div_0_l, !Z.mod_0_l by (apply Z.pow_nonzero; pose proof (fmt_facts F); lia).
      unfold mag_of. simpl. ring. }
    rewrite Em. tauto. }
  destruct (signbit F x), (signbit F y); simpl.
  - split; intros L; [assert (magz F y < magz F x) by lia; apply B in H1; lra|].
    assert (b < a)%R by lra. apply B in H1. lia.
  - split; intros L.
    + assert (D : 0 < magz F x \/ 0 < magz F y) by lia. rewrite Pa, Pb in D. destruct D; lra.
    + assert (D : (0 < a)%R \/ (0 < b)%R) by (destruct (Req_dec a 0); [right|left]; lra).
      rewrite <- Pa, <- Pb in D. lia.
  - split; intros L; exfalso; [lia|lra].
  - rewrite A. tauto.
Qed.

Lemma lexi F e m e' m' : 0 <= m < 2 ^ mw F -> 0 <= m' < 2 ^ mw F ->
  (e * 2 ^ mw F + m < e' * 2 ^ mw F + m' <-> e < e' \/ (e = e' /\ m < m')).
Proof.
  intros Hm Hm'. split; intros T.
  - destruct (Z.lt_trichotomy e e') as [L|[->|L]]; [tauto|lia|exfalso].
    assert (e' * 2 ^ mw F + 2 ^ mw F <= e * 2 ^ mw F) by nia. lia.
  - destruct T as [T|[-> T]]; [|lia].
    assert (e * 2 ^ mw F + 2 ^ mw F <= e' * 2 ^ mw F) by nia. lia.
Qed.
Lemma finite_magz F x : finite F x = true <-> magz F x < (2 ^ ew F - 1) * 2 ^ mw F.
Proof.
  rewrite finite_iff. unfold magz. pose proof (fields_range F x). pose proof (pow_mw_ge F).
  pose proof (lexi F (expf F x) (sigf F x) (2 ^ ew F - 1) 0). lia.
Qed.
Lemma inf_magz F x : isinf F x = true <-> magz F x = (2 ^ ew F - 1) * 2 ^ mw F.
Proof.
  unfold isinf, magz. rewrite andb_true_iff, !Z.eqb_eq.
  pose proof (fields_range F x). pose proof (pow_mw_ge F).
  pose proof (fields_inj F (expf F x) (sigf F x) (2 ^ ew F - 1) 0).
  split; [intros [-> ->]|]; lia.
Qed.
Lemma nan_magz F x : isnan F x = true <-> (2 ^ ew F - 1) * 2 ^ mw F < magz F x.
Proof.
  unfold isnan, magz. rewrite andb_true_iff, negb_true_iff, Z.eqb_eq, Z.eqb_neq.
  pose proof (fields_range F x). pose proof (pow_mw_ge F).
  pose proof (lexi F (2 ^ ew F - 1) 0 (expf F x) (sigf F x)). lia.
Qed.
Lemma zero_magz F x : iszero F x = true <-> magz F x = 0.
Proof.
  unfold iszero, magz. rewrite andb_true_iff, !Z.eqb_eq.
  pose proof (fields_range F x). pose proof (pow_mw_ge F).
  pose proof (fields_inj F (expf F x) (sigf F x) 0 0). split; [intros [-> ->]|]; lia.
Qed.

(** Main result. *)
Lemma key_lt F x y : isnan F x = false -> isnan F y = false -> (key F x < key F y <-> lt_bits F x y).
Proof.
  intros Nx Ny. unfold lt_bits. rewrite Nx, Ny.
  pose proof (magz_range F x). pose proof (magz_range F y).
  destruct (class_cases F x) as [(X1&X2&X3)|[(X1&X2&X3)|(X1&X2&X3)]]; [| |congruence];
  (destruct (class_cases F y) as [(Y1&Y2&Y3)|[(Y1&Y2&Y3)|(Y1&Y2&Y3)]]; [| |congruence]); rewrite X1, Y1.
  - rewrite key_val_lt. tauto.
  - apply finite_magz in X1. apply inf_magz in Y2. unfold key.
    destruct (signbit F x), (signbit F y); split; intros; try lia; try tauto; intuition congruence.
  - apply finite_magz in Y1. apply inf_magz in X2. unfold key.
    destruct (signbit F x), (signbit F y); split; intros; try lia; try tauto; intuition congruence.
  - apply inf_magz in X2. apply inf_magz in Y2. unfold key. rewrite X2, Y2.
    pose proof (bias_facts F). pose proof (pow_mw_ge F).
    assert (0 < (2 ^ ew F - 1) * 2 ^ mw F) by nia.
    destruct (signbit F x), (signbit F y); split; intros; try lia; intuition congruence.
Qed.
Lemma key_eq F x y : isnan F x = false -> isnan F y = false -> (key F x = key F y <-> eq_bits F x y).
Proof.
  intros Nx Ny. pose proof (key_lt F x y Nx Ny) as A. pose proof (key_lt F y x Ny Nx) as B.
  rewrite <- fcmp_eq. rewrite <- fcmp_lt in A. rewrite <- fcmp_gt in B.
  assert (N : fcmp F x y <> None).
  { intros E. apply fcmp_none in E. rewrite Nx, Ny in E. discriminate. }
  destruct (fcmp F x y) as [[]|]; [| | |now elim N].
  - split; [reflexivity|intros _].
    destruct (Z.lt_trichotomy (key F x) (key F y)) as [L|[L|L]]; [apply A in L|exact L|apply B in L]; discriminate.
  - assert (key F x < key F y) by now apply A. split; [lia|discriminate].
  - assert (key F y < key F x) by now apply B. split; [lia|discriminate].
Qed.

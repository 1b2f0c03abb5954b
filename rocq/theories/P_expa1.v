(** The exponential function against its Taylor polynomials, and bounds for the logarithm of two. *)
From Coq Require Import ZArith Reals Lia Lra Bool List Psatz.
From Flocq Require Import Core.
From Verif Require Import Base Spec P_apx P_poly P_poly2 P_poly3 P_taylor.
Import ListNotations.
Open Scope R_scope.

Definition texp (n : nat) : poly := map (fun i => (1%Z, fz i)) (seq 0 (S n)).
Definition eterm (x : R) (i : nat) : R := / INR (fact i) * x ^ i.
Lemma texp_sum x n : sum_f_R0 (eterm x) n = peval (texp n) x.
Proof.
  induction n as [|n IH].
  - cbn. unfold eterm. cbn. field.
  - cbn [sum_f_R0]. rewrite IH. unfold texp. rewrite (seq_S (S n) 0), map_app. cbn [map]. rewrite peval_snoc, map_length, seq_length. cbn [fst snd plus]. unfold eterm. rewrite fz_ok. unfold Rdiv. ring.
Qed.
Lemma eterm_S x i : eterm x (S i) = eterm x i * (x / INR (S i)).
Proof. unfold eterm. rewrite fact_simpl, mult_INR. cbn [pow]. field. split; [apply not_0_INR; discriminate|apply INR_fact_neq_0]. Qed.
Lemma eterm_dec x n j : Rabs x <= 1 -> Rabs (eterm x (S n + j)) <= Rabs (eterm x (S n)) * (/ 2) ^ j.
Proof.
  intros H. induction j as [|j IH]; [rewrite Nat.add_0_r; cbn [pow]; lra|].
  replace (S n + S j)%nat with (S (S n + j)) by lia. rewrite eterm_S, Rabs_mult. cbn [pow].
  assert (D : Rabs (x / INR (S (S n + j))) <= / 2).
  { unfold Rdiv. rewrite Rabs_mult. assert (2 <= INR (S (S n + j))) by (apply (le_INR 2); lia).
    rewrite (Rabs_pos_eq (/ _)) by (left; apply Rinv_0_lt_compat; lra). assert (/ INR (S (S n + j)) <= / 2) by (apply Rinv_le; lra). assert (0 < / INR (S (S n + j))) by (apply Rinv_0_lt_compat; lra). pose proof (Rabs_pos x). nra. }
  pose proof (Rabs_pos (eterm x (S n + j))). pose proof (Rabs_pos (x / INR (S (S n + j)))). nra.
Qed.
Lemma esum_near x n j : Rabs x <= 1 -> Rabs (sum_f_R0 (eterm x) (n + j) - sum_f_R0 (eterm x) n) <= Rabs (eterm x (S n)) * (2 * (1 - (/ 2) ^ j)).
Proof.
  intros H. induction j as [|j IH]; [rewrite Nat.add_0_r; unfold Rminus at 1; rewrite Rplus_opp_r, Rabs_R0; cbn [pow]; lra|].
  replace (n + S j)%nat with (S (n + j)) by lia. cbn [sum_f_R0]. replace (S (n + j)) with (S n + j)%nat by lia.
  set (a := sum_f_R0 _ (n + j)) in *. set (b := sum_f_R0 _ n) in *. replace (a + eterm x (S n + j) - b) with ((a - b) + eterm x (S n + j)) by ring.
  eapply Rle_trans; [apply Rabs_triang|]. pose proof (eterm_dec x n j H). cbn [pow]. nra.
Qed.
Lemma exp_taylor x n : Rabs x <= 1 -> Rabs (exp x - peval (texp n) x) <= 2 * (Rabs x ^ S n / IZR (fz (S n))).
Proof.
  intros H. rewrite <- texp_sum. set (s := sum_f_R0 (eterm x) n).
  assert (B : Rabs (eterm x (S n)) = Rabs x ^ S n / IZR (fz (S n))).
  { unfold eterm. rewrite Rabs_mult, RPow_abs, (Rabs_pos_eq (/ _)) by (left; apply Rinv_0_lt_compat, INR_fact_lt_0). rewrite fz_ok. unfold Rdiv. ring. }
  rewrite <- B. apply le_epsilon. intros e He. unfold exp. destruct (exist_exp x) as [l Hl]. cbn [proj1_sig]. destruct (Hl e He) as [N HN].
  specialize (HN (n + N)%nat ltac:(lia)). unfold R_dist in HN. pose proof (esum_near x n N H) as K. fold s in K.
  assert (0 <= (/ 2) ^ N) by (apply pow_le; lra). pose proof (Rabs_pos (eterm x (S n))).
  replace (l - s) with ((sum_f_R0 (eterm x) (n + N) - s) - (sum_f_R0 (fun i => / INR (fact i) * x ^ i) (n + N) - l)) by (unfold eterm; ring).
  eapply Rle_trans; [apply Rabs_triang|]. rewrite Rabs_Ropp. nra.
Qed.
(** ln 2 *)
Lemma exp_fxr z m i r : (0 <= z <= SC)%Z -> horner (map iq (texp m)) (z, z) = i -> pok (texp m) = true -> cdiv (2 * SC) (fz (S m)) = r -> inI (fst i - r, snd i + r)%Z (exp (fxr z)).
Proof.
  intros Hz <- Hp <-. assert (A : 0 <= fxr z <= 1). { pose proof SC_pos. unfold fxr. split; [apply Rmult_le_pos; [apply (IZR_le 0); lia|left; now apply Rinv_0_lt_compat]|]. apply Rmult_le_reg_r with (IZR SC); [assumption|]. unfold Rdiv. rewrite Rmult_assoc, Rinv_l by lra. rewrite Rmult_1_l, Rmult_1_r. apply IZR_le. lia. }
  assert (Iz : inI (z, z) (fxr z)) by (unfold inI; cbn [fst snd]; lra). pose proof (horner_ok _ _ _ Hp Iz) as H.
  pose proof (exp_taylor (fxr z) m) as T. rewrite (Rabs_pos_eq (fxr z)) in T by lra. specialize (T ltac:(lra)).
  assert (F : (0 < fz (S m))%Z). { clear. generalize (S m) as k. induction k as [|k IH]; [reflexivity|]. cbn [fz]. nia. }
  pose proof (cdiv_ge (2 * SC) (fz (S m)) F) as C. rewrite mult_IZR in C.
  assert (G : 2 * (fxr z ^ S m / IZR (fz (S m))) <= fxr (cdiv (2 * SC) (fz (S m)))).
  { assert (P : fxr z ^ S m <= 1) by (rewrite <- (pow1 (S m)); apply pow_incr; lra). assert (0 < IZR (fz (S m))) by (apply (IZR_lt 0); exact F). pose proof SC_pos.
    apply Rle_trans with (2 * (1 / IZR (fz (S m)))). { apply Rmult_le_compat_l; [lra|]. apply Rmult_le_compat_r; [left; now apply Rinv_0_lt_compat|exact P]. }
    unfold fxr. apply Rmult_le_reg_r with (IZR SC); [assumption|]. replace (IZR (cdiv (2 * SC) (fz (S m))) / IZR SC * IZR SC) with (IZR (cdiv (2 * SC) (fz (S m)))) by (field; lra). unfold Rdiv in *. lra. }
  unfold inI in *. cbn [fst snd] in *. rewrite fxr_sub, fxr_add. apply Rabs_le_inv in T. lra.
Qed.
Definition echk (z : Z) (m : nat) (a b : Z) : bool :=
  let i := horner (map iq (texp m)) (z, z) in let r := cdiv (2 * SC) (fz (S m)) in ((0 <=? z) && (z <=? SC) && pok (texp m) && (a <=? fst i - r) && (snd i + r <=? b))%Z.
Lemma echk_ok z m a b : echk z m a b = true -> fxr a <= exp (fxr z) <= fxr b.
Proof.
  unfold echk. cbv zeta. rewrite !andb_true_iff, !Z.leb_le. intros ((((H1 & H2) & H3) & H4) & H5). destruct (exp_fxr z m _ _ (conj H1 H2) eq_refl H3 eq_refl) as [A B]. cbn [fst snd] in A, B.
  apply fxr_le in H4. apply fxr_le in H5. lra.
Qed.
Lemma lnle a b : 0 < a -> a <= b -> ln a <= ln b.
Proof. intros A [B | ->]; [left; now apply ln_increasing|lra]. Qed.
Definition l2n : Z := 1113844574712631719546256151097547306333272293549090750737802.
Lemma l2_lo : echk (l2n - 2 ^ 60) 40 0 (2 * SC) = true. Proof. vm_compute. reflexivity. Qed.
Lemma l2_hi : echk (l2n + 2 ^ 60) 40 (2 * SC) (3 * SC) = true. Proof. vm_compute. reflexivity. Qed.
Lemma ln2_in : fxr (l2n - 2 ^ 60) <= ln 2 <= fxr (l2n + 2 ^ 60).
Proof.
  assert (E2 : 2 = fxr (2 * SC)). { unfold fxr. rewrite mult_IZR. field. pose proof SC_pos. lra. }
  pose proof (echk_ok _ _ _ _ l2_lo) as [_ A]. pose proof (echk_ok _ _ _ _ l2_hi) as [B _]. rewrite <- E2 in A, B. split.
  - rewrite <- (ln_exp (fxr _)). apply lnle; [apply exp_pos|exact A].
  - rewrite <- (ln_exp (fxr (l2n + 2 ^ 60))). apply lnle; [lra|exact B].
Qed.

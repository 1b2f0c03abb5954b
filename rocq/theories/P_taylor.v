(** Sine and cosine between polynomials in the square of the argument. *)
From Coq Require Import ZArith Reals Lia Lra Bool List Psatz.
From Flocq Require Import Core.
From Verif Require Import Base Spec P_apx P_poly.
Import ListNotations.
Open Scope R_scope.

Fixpoint fz (n : nat) : Z := match n with O => 1%Z | S m => (Z.of_nat n * fz m)%Z end.
Lemma fz_ok n : INR (fact n) = IZR (fz n).
Proof. induction n as [|n IH]; [reflexivity|]. cbn [fz]. rewrite fact_simpl, mult_INR, IH, mult_IZR, INR_IZR_INZ. reflexivity. Qed.
Definition tsin (n : nat) : poly := map (fun i => (if Nat.even i then 1%Z else (-1)%Z, fz (2 * i + 1))) (seq 0 (S n)).
Definition tcos (n : nat) : poly := map (fun i => (if Nat.even i then 1%Z else (-1)%Z, fz (2 * i))) (seq 0 (S n)).
Lemma peval_snoc c q z : peval (c ++ [q]) z = peval c z + z ^ length c * (IZR (fst q) / IZR (snd q)).
Proof. induction c as [|p c IH]; cbn [app peval length pow]; [ring|]. rewrite IH. ring. Qed.
Lemma m1 i : (-1) ^ i = IZR (if Nat.even i then 1 else -1).
Proof. destruct (Nat.even i) eqn:E.
  - apply Nat.even_spec in E as [k ->]. now rewrite pow_1_even.
  - assert (O : Nat.odd i = true) by (unfold Nat.odd; now rewrite E). apply Nat.odd_spec in O as [k ->]. replace (2 * k + 1)%nat with (S (2 * k)) by lia. now rewrite pow_1_odd.
Qed.
Lemma tsin_sum a n : sum_f_R0 (sin_term a) n = a * peval (tsin n) (a * a).
Proof.
  induction n as [|n IH].
  - cbn [sum_f_R0]. unfold sin_term, tsin. cbn. lra.
  - cbn [sum_f_R0]. rewrite IH. unfold tsin. rewrite (seq_S (S n) 0), map_app. cbn [map]. rewrite peval_snoc. rewrite map_length, seq_length. cbn [fst snd plus]. unfold sin_term. rewrite m1, fz_ok.
    replace (a ^ (2 * S n + 1)) with (a * (a * a) ^ S n). { rewrite Rmult_plus_distr_l. unfold Rdiv. ring. }
    rewrite pow_add, pow_1, pow_mult, Rmult_comm. f_equal. f_equal. ring.
Qed.
Lemma tcos_sum a n : sum_f_R0 (cos_term a) n = peval (tcos n) (a * a).
Proof.
  induction n as [|n IH].
  - cbn [sum_f_R0]. unfold cos_term, tcos. cbn. lra.
  - cbn [sum_f_R0]. rewrite IH. unfold tcos. rewrite (seq_S (S n) 0), map_app. cbn [map]. rewrite peval_snoc. rewrite map_length, seq_length. cbn [fst snd plus]. unfold cos_term. rewrite m1, fz_ok.
    replace (a ^ (2 * S n)) with ((a * a) ^ S n). { unfold Rdiv. ring. }
    rewrite pow_mult. f_equal. ring.
Qed.
(** the remainder is at most the first term left out *)
Lemma tsin_next a n : a * peval (tsin (S n)) (a * a) = a * peval (tsin n) (a * a) + (-1) ^ S n * (a ^ (2 * S n + 1) / INR (fact (2 * S n + 1))).
Proof. rewrite <- !tsin_sum. reflexivity. Qed.
Lemma sin_taylor a n : Rabs a <= 4 -> Rabs (sin a - a * peval (tsin (2 * n + 1)) (a * a)) <= Rabs a * ((a * a) ^ (2 * n + 2) / IZR (fz (4 * n + 5))).
Proof.
  assert (POS : forall a, 0 <= a <= 4 -> Rabs (sin a - a * peval (tsin (2 * n + 1)) (a * a)) <= Rabs a * ((a * a) ^ (2 * n + 2) / IZR (fz (4 * n + 5)))).
  { clear a. intros a Ha. destruct (pre_sin_bound a n (proj1 Ha) (proj2 Ha)) as [L U]. unfold sin_approx in *. rewrite tsin_sum in L.
    replace (2 * (n + 1))%nat with (S (2 * n + 1)) in U by lia. cbn [sum_f_R0] in U. rewrite tsin_sum in U.
    rewrite (Rabs_pos_eq a) by lra. set (P := a * peval _ _) in *. unfold sin_term in U. rewrite m1 in U. replace (Nat.even (S (2 * n + 1))) with true in U by (symmetry; apply Nat.even_spec; exists (S n); lia).
    rewrite fz_ok in U. replace (2 * S (2 * n + 1) + 1)%nat with (4 * n + 5)%nat in U by lia.
    replace (a ^ (4 * n + 5)) with (a * (a * a) ^ (2 * n + 2)) in U.
    2:{ replace (4 * n + 5)%nat with (S (2 * (2 * n + 2))) by lia. cbn [pow]. rewrite pow_mult. f_equal. f_equal. ring. }
    unfold Rdiv in *. apply Rabs_le. assert (0 <= a * (a * a) ^ (2 * n + 2) * / IZR (fz (4 * n + 5))). 2: lra.
    apply Rmult_le_pos; [apply Rmult_le_pos; [lra|apply pow_le; nra]|]. left. apply Rinv_0_lt_compat. rewrite <- fz_ok. apply INR_fact_lt_0. }
  intros H. destruct (Rle_lt_dec 0 a) as [L | L]; [rewrite (Rabs_pos_eq a) in H by lra; apply POS; lra|].
  rewrite (Rabs_left a) in H by lra. specialize (POS (- a) ltac:(lra)). rewrite sin_neg in POS. replace (- a * - a) with (a * a) in POS by ring. rewrite Rabs_Ropp in POS.
  replace (- sin a - - a * peval (tsin (2 * n + 1)) (a * a)) with (- (sin a - a * peval (tsin (2 * n + 1)) (a * a))) in POS by ring. now rewrite Rabs_Ropp in POS.
Qed.
Lemma cos_taylor a n : Rabs a <= 2 -> Rabs (cos a - peval (tcos (2 * n + 1)) (a * a)) <= (a * a) ^ (2 * n + 2) / IZR (fz (4 * n + 4)).
Proof.
  intros H. apply Rabs_le_inv in H. destruct (pre_cos_bound a n ltac:(lra) ltac:(lra)) as [L U]. unfold cos_approx in *. rewrite tcos_sum in L.
  replace (2 * (n + 1))%nat with (S (2 * n + 1)) in U by lia. cbn [sum_f_R0] in U. rewrite tcos_sum in U.
  set (P := peval _ _) in *. unfold cos_term in U. rewrite m1 in U. replace (Nat.even (S (2 * n + 1))) with true in U by (symmetry; apply Nat.even_spec; exists (S n); lia).
  rewrite fz_ok in U. replace (2 * S (2 * n + 1))%nat with (4 * n + 4)%nat in U by lia.
  replace (a ^ (4 * n + 4)) with ((a * a) ^ (2 * n + 2)) in U.
  2:{ replace (4 * n + 4)%nat with (2 * (2 * n + 2))%nat by lia. rewrite pow_mult. f_equal. ring. }
  unfold Rdiv in *. apply Rabs_le. assert (0 <= (a * a) ^ (2 * n + 2) * / IZR (fz (4 * n + 4))). 2: lra.
  apply Rmult_le_pos; [apply pow_le; nra|]. left. apply Rinv_0_lt_compat. rewrite <- fz_ok. apply INR_fact_lt_0.
Qed.

(** The rational approximation of the exponential function used by exp and expf. *)
From Coq Require Import ZArith Reals Lia Lra Bool List Psatz.
From Flocq Require Import Core.
From Verif Require Import Base Spec P_apx P_poly P_poly2 P_poly3 P_taylor P_expa1.
Import ListNotations.
Open Scope R_scope.

Definition ng (q : Z * Z) : Z * Z := (- fst q, snd q)%Z.
(** r - r^2 P(r^2) *)
Definition cp64 : poly := [(0, 1); (1, 1); ng (litq f64 0x3fc555555555553e); (0, 1); ng (litq f64 0xbf66c16c16bebd93); (0, 1); ng (litq f64 0x3f11566aaf25de2c); (0, 1);
  ng (litq f64 0xbebbbd41c5d26bf1); (0, 1); ng (litq f64 0x3e66376972bea4d0)]%Z.
Definition cp32 : poly := [(0, 1); (1, 1); ng (litq f32 0x3e2aaa8f); (0, 1); ng (litq f32 0xbb355215)]%Z.
(** 2 (1 + r - T(r)) + c(r) (T(r) - 1) *)
Definition num (c : poly) (m : nat) : list iv :=
  ladd (lmul (map iq [(2, 1)%Z]) (map iq (psub [(1, 1); (1, 1)]%Z (texp m)))) (lmul (map iq c) (map iq (psub (texp m) [(1, 1)]%Z))).
Definition nok (c : poly) (m : nat) : bool := pok c && pok (texp m) && pok (psub [(1, 1); (1, 1)]%Z (texp m)) && pok (psub (texp m) [(1, 1)]%Z).
Lemma num_PB c m : nok c m = true -> Pol (num c m) (fun r => 2 * (1 + r - peval (texp m) r) + peval c r * (peval (texp m) r - 1)).
Proof.
  unfold nok. rewrite !andb_true_iff. intros (((Hc & Ht) & H1) & H2). eapply PB_ext; [apply PB_add; apply PB_mul; apply PB_poly; (assumption || reflexivity)|].
  intros z. cbv beta. rewrite !psub_ok by (assumption || reflexivity). cbn [peval fst snd]. unfold Rdiv. rewrite Rinv_1. ring.
Qed.
(** half width of the pieces that cover [-0.3475, 0.3475] *)
Definition hw (n : Z) : Z := (SC * 3475 / 10000 / n + 1)%Z.
Definition cover (p : list iv) (n : Z) (B : Z) : bool := (0 <? n)%Z && (0 <? hw n)%Z && pieces3 p (- (n - 1) * hw n) (hw n) (Z.to_nat n) (- B) B.
Lemma cover_ok p f n B r : Pol p f -> cover p n B = true -> Rabs r <= 3475 / 10000 -> Rabs (f r) <= fxr B.
Proof.
  intros P H Hr. unfold cover in H. rewrite !andb_true_iff, !Z.ltb_lt in H. destruct H as [[H1 H2] H]. apply Rabs_le. rewrite <- fxr_opp.
  apply (pieces3_ok p f (hw n) _ _ (Z.to_nat n) P ltac:(lia) _ r ltac:(lia) H). rewrite Z2Nat.id by lia.
  replace (- (n - 1) * hw n - hw n)%Z with (- (n * hw n))%Z by ring. replace (- (n - 1) * hw n + (2 * n - 1) * hw n)%Z with (n * hw n)%Z by ring. rewrite fxr_opp. apply Rabs_le_inv in Hr.
  assert (K : 3475 / 10000 <= fxr (n * hw n)); [|lra].
  assert (K : (SC * 3475 <= 10000 * (n * hw n))%Z).
  { unfold hw. pose proof (Z.div_mod (SC * 3475) 10000 ltac:(lia)). pose proof (Z.mod_pos_bound (SC * 3475) 10000 ltac:(lia)).
    set (q := (SC * 3475 / 10000)%Z) in *. pose proof (Z.div_mod q n ltac:(lia)). pose proof (Z.mod_pos_bound q n H1). nia. }
  unfold fxr. pose proof SC_pos. apply IZR_le in K. rewrite !mult_IZR in K. rewrite mult_IZR. apply Rmult_le_reg_r with (IZR SC * 10000); [lra|].
  replace (3475 / 10000 * (IZR SC * 10000)) with (IZR SC * 3475) by field. replace (IZR n * IZR (hw n) / IZR SC * (IZR SC * 10000)) with (10000 * (IZR n * IZR (hw n))) by (field; lra). exact K.
Qed.
Lemma pow_small r k : Rabs r <= 3475 / 10000 -> Rabs r ^ k <= (3475 / 10000) ^ k.
Proof. intros H. apply pow_incr. split; [apply Rabs_pos|exact H]. Qed.
Definition rat (c : poly) (r : R) : R := r * peval c r / (2 - peval c r).
Lemma rat_err c m B E r : nok c m = true -> cover (num c m) 40 B = true -> cover (map iq c) 10 (2 * SC / 5) = true ->
  fxr B / (16 / 10) + 2 * ((3475 / 10000) ^ S m / IZR (fz (S m))) <= E -> Rabs r <= 3475 / 10000 ->
  Rabs (1 + r + rat c r - exp r) <= E /\ Rabs (peval c r) <= 2 / 5.
Proof.
  intros Hn C1 C2 HE Hr. pose proof (cover_ok _ _ _ _ r (num_PB c m Hn) C1 Hr) as N. cbv beta in N.
  assert (Pc : pok c = true) by (unfold nok in Hn; rewrite !andb_true_iff in Hn; tauto). pose proof (cover_ok _ _ _ _ r (PB_poly c Pc) C2 Hr) as C.
  assert (C' : Rabs (peval c r) <= 2 / 5). { eapply Rle_trans; [exact C|]. change (2 * SC / 5)%Z with (fdv (2 * SC) 5). pose proof (fxr_q 2 5 eq_refl) as [Q _]. exact Q. }
  split; [|exact C']. pose proof (exp_taylor r m ltac:(lra)) as T. set (t := peval (texp m) r) in *. set (k := peval c r) in *. unfold rat. fold k.
  apply Rabs_le_inv in C'. assert (D : / (2 - k) <= / (16 / 10)) by (apply Rinv_le; lra). assert (0 < / (2 - k)) by (apply Rinv_0_lt_compat; lra).
  replace (1 + r + r * k / (2 - k) - exp r) with ((2 * (1 + r - t) + k * (t - 1)) * / (2 - k) - (exp r - t)) by (field; lra).
  eapply Rle_trans; [apply Rabs_triang|]. rewrite Rabs_Ropp, Rabs_mult, (Rabs_pos_eq (/ _)) by lra. eapply Rle_trans; [|exact HE].
  apply Rplus_le_compat.
  - unfold Rdiv. apply Rmult_le_compat; [apply Rabs_pos|lra|exact N|exact D].
  - eapply Rle_trans; [exact T|]. apply Rmult_le_compat_l; [lra|]. apply Rmult_le_compat_r; [|now apply pow_small]. left. apply Rinv_0_lt_compat. rewrite <- fz_ok. apply INR_fact_lt_0.
Qed.
Lemma c64a : cover (num cp64 14) 40 (2 ^ 142) = true. Proof. vm_compute. reflexivity. Qed.
Lemma c64b : cover (map iq cp64) 10 (2 * SC / 5) = true. Proof. vm_compute. reflexivity. Qed.
Lemma c32a : cover (num cp32 9) 40 (2 ^ 172) = true. Proof. vm_compute. reflexivity. Qed.
Lemma c32b : cover (map iq cp32) 10 (2 * SC / 5) = true. Proof. vm_compute. reflexivity. Qed.
Lemma fxr2 k : (0 <= k <= 200)%Z -> fxr (2 ^ (200 - k)) = / IZR (2 ^ k).
Proof. intros H. rewrite fxr_pow by exact H. rewrite bpow_opp. f_equal. destruct k; try lia; reflexivity. Qed.
Lemma rat64 r : Rabs r <= 3475 / 10000 -> Rabs (1 + r + rat cp64 r - exp r) <= / IZR (2 ^ 58) /\ Rabs (peval cp64 r) <= 2 / 5.
Proof.
  apply (rat_err cp64 14 (2 ^ 142) _ r ltac:(vm_compute; reflexivity) c64a c64b). change 142%Z with (200 - 58)%Z. rewrite fxr2 by lia.
  change (fz 15) with 1307674368000%Z. change (2 ^ 58)%Z with 288230376151711744%Z. lra.
Qed.
Lemma rat32 r : Rabs r <= 3475 / 10000 -> Rabs (1 + r + rat cp32 r - exp r) <= 24 / 10000000000 /\ Rabs (peval cp32 r) <= 2 / 5.
Proof.
  apply (rat_err cp32 9 (2 ^ 172) _ r ltac:(vm_compute; reflexivity) c32a c32b). change 172%Z with (200 - 28)%Z. rewrite fxr2 by lia.
  change (fz 10) with 3628800%Z. change (2 ^ 28)%Z with 268435456%Z. lra.
Qed.

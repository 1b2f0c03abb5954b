(** The rational approximation used by expm1 and expm1f: with q(x) = 1 + x^2/2 Q1 + ..., t = 3 - q x/2 and
    e = x^2/2 (q - t)/(6 - x t), the number x - (x e - x^2/2) is close to exp x - 1, relative to x. *)
From Coq Require Import ZArith Reals Lia Lra Bool List Psatz.
From Flocq Require Import Core.
From Verif Require Import Base Spec P_apx P_poly P_poly2 P_poly3 P_taylor P_expa1 P_expa2.
Import ListNotations.
Open Scope R_scope.

Definition hf (k : Z) (q : Z * Z) : Z * Z := (fst q, snd q * 2 ^ k)%Z.
Definition qp64 : poly := [(1, 1); (0, 1); hf 1 (litq f64 0xbfa11111111110f4); (0, 1); hf 2 (litq f64 0x3f5a01a019fe5585); (0, 1); hf 3 (litq f64 0xbf14ce199eaadbb7); (0, 1);
  hf 4 (litq f64 0x3ed0cfca86e65239); (0, 1); hf 5 (litq f64 0xbe8afdb76e09c32d)]%Z.
Definition qp32 : poly := [(1, 1); (0, 1); hf 1 (litq f32 0xbd088868); (0, 1); hf 2 (litq f32 0x3acf3010)]%Z.
(** 3 - q x/2 *)
Definition tpl (c : poly) : poly := psub [(3, 1)]%Z ((0, 1)%Z :: map (hf 1) c).
(** 6 - x t *)
Definition d6 (c : poly) : poly := psub [(6, 1)]%Z ((0, 1)%Z :: tpl c).
(** the Taylor polynomial of (exp x - 1 - x - x^2/2) / x^3 *)
Definition tau (m : nat) : poly := skipn 3 (texp m).
Definition numE (c : poly) (m : nat) : list iv := ladd (lmul (map iq (tau m)) (map iq (d6 c))) (lmul (map iq [(1, 2)%Z]) (map iq (psub c (tpl c)))).
Definition eok (c : poly) (m : nat) : bool := pok c && pok (map (hf 1) c) && pok (tpl c) && pok (d6 c) && pok (tau m) && pok (psub c (tpl c)) && (3 <=? m)%nat.
Lemma hf_ok c z : peval (map (hf 1) c) z = peval c z / 2.
Proof. induction c as [|q c IH]; cbn [map peval]; [lra|]. rewrite IH. unfold hf. cbn [fst snd]. rewrite mult_IZR. change (IZR (2 ^ 1)) with 2. unfold Rdiv. rewrite Rinv_mult. ring. Qed.
Lemma pev_cons0 c z : peval ((0, 1)%Z :: c) z = z * peval c z.
Proof. cbn [peval fst snd]. unfold Rdiv. ring. Qed.
Lemma tpl_ok c z : pok (map (hf 1) c) = true -> peval (tpl c) z = 3 - z * (peval c z / 2).
Proof. intros H. unfold tpl. rewrite psub_ok; [|reflexivity|cbn; exact H]. rewrite pev_cons0, hf_ok. cbn [peval fst snd]. lra. Qed.
Lemma d6_ok c z : pok (map (hf 1) c) = true -> pok (tpl c) = true -> peval (d6 c) z = 6 - z * (3 - z * (peval c z / 2)).
Proof. intros H H2. unfold d6. rewrite psub_ok; [|reflexivity|cbn; exact H2]. rewrite pev_cons0, tpl_ok by exact H. cbn [peval fst snd]. lra. Qed.
Definition tE (c : poly) (x : R) : R := 3 - x * (peval c x / 2).
Definition eE (c : poly) (x : R) : R := x * (x / 2) * ((peval c x - tE c x) / (6 - x * tE c x)).
Lemma numE_PB c m : eok c m = true -> Pol (numE c m) (fun x => peval (tau m) x * (6 - x * tE c x) + (peval c x - tE c x) / 2).
Proof.
  unfold eok. rewrite !andb_true_iff. intros ((((((H1 & H2) & H3) & H4) & H5) & H6) & _). eapply PB_ext; [apply PB_add; apply PB_mul; apply PB_poly; (assumption || reflexivity)|].
  intros z. cbv beta. rewrite psub_ok, tpl_ok, d6_ok by assumption. unfold tE. cbn [peval fst snd]. unfold Rdiv. lra.
Qed.
Lemma tau_ok m x : (3 <= m)%nat -> peval (texp m) x = 1 + x + x * x / 2 + x * x * x * peval (tau m) x.
Proof.
  intros H. unfold tau, texp. destruct m as [|[|[|m]]]; try lia. cbn [seq map skipn]. cbn [peval fst snd].
  change (fz 0) with 1%Z. change (fz 1) with 1%Z. change (fz 2) with 2%Z. unfold Rdiv. rewrite Rinv_1. ring.
Qed.
Lemma eE_err c m np B E x : eok c m = true -> cover (numE c m) np B = true -> cover (map iq c) 2 (11 * SC / 10) = true ->
  fxr B * ((3475 / 10000) ^ 2 / (48 / 10)) + 2 * ((3475 / 10000) ^ m / IZR (fz (S m))) <= E -> Rabs x <= 3475 / 10000 ->
  Rabs (x - (x * eE c x - x * (x / 2)) - (exp x - 1)) <= E * Rabs x /\ Rabs (peval c x) <= 11 / 10 /\ 48 / 10 <= 6 - x * tE c x.
Proof.
  intros Hn C1 C2 HE Hr. pose proof (cover_ok _ _ _ _ x (numE_PB c m Hn) C1 Hr) as N. cbv beta in N.
  unfold eok in Hn. rewrite !andb_true_iff in Hn. destruct Hn as ((((((H1 & H2) & H3) & H4) & H5) & H6) & H7). apply Nat.leb_le in H7. pose proof (cover_ok _ _ _ _ x (PB_poly c H1) C2 Hr) as C.
  assert (C' : Rabs (peval c x) <= 11 / 10). { eapply Rle_trans; [exact C|]. change (11 * SC / 10)%Z with (fdv (11 * SC) 10). pose proof (fxr_q 11 10 eq_refl) as [Q _]. exact Q. }
  assert (D : 48 / 10 <= 6 - x * tE c x). { unfold tE. apply Rabs_le_inv in C'. pose proof (Rabs_le_inv _ _ Hr). assert (0 <= x * x <= 121 / 1000) by nra. assert (- (134 / 1000) <= x * x * peval c x) by nra. nra. }
  split; [|split; assumption].
  pose proof (exp_taylor x m ltac:(lra)) as T. rewrite tau_ok in T by exact H7. unfold eE. set (k := peval c x) in *. set (t := tE c x) in *. set (u := peval (tau m) x) in *. set (n := u * (6 - x * t) + (k - t) / 2) in *.
  replace (x - (x * (x * (x / 2) * ((k - t) / (6 - x * t))) - x * (x / 2)) - (exp x - 1)) with (- (x * (x * x) * n * / (6 - x * t)) - (exp x - (1 + x + x * x / 2 + x * x * x * u))) by (unfold n; field; lra).
  eapply Rle_trans; [apply Rabs_triang|]. rewrite !Rabs_Ropp, !Rabs_mult. pose proof (Rabs_pos x) as X0. set (ax := Rabs x) in *.
  assert (I : / (6 - x * t) <= / (48 / 10)) by (apply Rinv_le; lra). assert (I0 : 0 < / (6 - x * t)) by (apply Rinv_0_lt_compat; lra). rewrite (Rabs_pos_eq (/ _)) by lra.
  apply Rle_trans with (ax * (fxr B * ((3475 / 10000) ^ 2 / (48 / 10))) + ax * (2 * ((3475 / 10000) ^ m / IZR (fz (S m))))); [|nra].
  apply Rplus_le_compat.
  - replace (ax * (ax * ax) * Rabs n * / (6 - x * t)) with (ax * (Rabs n * (ax * ax * / (6 - x * t)))) by ring. apply Rmult_le_compat_l; [exact X0|].
    assert (ax * ax <= (3475 / 10000) ^ 2) by nra. apply Rmult_le_compat; [apply Rabs_pos|apply Rmult_le_pos; nra|exact N|]. unfold Rdiv. apply Rmult_le_compat; nra.
  - eapply Rle_trans; [exact T|]. fold ax. cbn [pow]. unfold Rdiv. assert (0 < / IZR (fz (S m))) by (apply Rinv_0_lt_compat; rewrite <- fz_ok; apply INR_fact_lt_0).
    pose proof (pow_small x m Hr) as PS. fold ax in PS. replace (2 * (ax * ax ^ m * / IZR (fz (S m)))) with (ax * (2 * (ax ^ m * / IZR (fz (S m))))) by ring. apply Rmult_le_compat_l; [exact X0|].
    apply Rmult_le_compat_l; [lra|]. apply Rmult_le_compat_r; lra.
Qed.
Lemma e64a : cover (numE qp64 15) 10 (2 ^ 142) = true. Proof. vm_compute. reflexivity. Qed.
Lemma e64b : cover (map iq qp64) 2 (11 * SC / 10) = true. Proof. vm_compute. reflexivity. Qed.
Lemma e32a : cover (numE qp32 9) 6 (2 ^ 171) = true. Proof. vm_compute. reflexivity. Qed.
Lemma e32b : cover (map iq qp32) 2 (11 * SC / 10) = true. Proof. vm_compute. reflexivity. Qed.
Lemma eE64 x : Rabs x <= 3475 / 10000 -> Rabs (x - (x * eE qp64 x - x * (x / 2)) - (exp x - 1)) <= / IZR (2 ^ 58) * Rabs x /\ Rabs (peval qp64 x) <= 11 / 10 /\ 48 / 10 <= 6 - x * tE qp64 x.
Proof.
  apply (eE_err qp64 15 10 (2 ^ 142) _ x ltac:(vm_compute; reflexivity) e64a e64b). change 142%Z with (200 - 58)%Z. rewrite fxr2 by lia.
  change (fz 16) with 20922789888000%Z. change (2 ^ 58)%Z with 288230376151711744%Z. lra.
Qed.
Lemma eE32 x : Rabs x <= 3475 / 10000 -> Rabs (x - (x * eE qp32 x - x * (x / 2)) - (exp x - 1)) <= / IZR (2 ^ 33) * Rabs x /\ Rabs (peval qp32 x) <= 11 / 10 /\ 48 / 10 <= 6 - x * tE qp32 x.
Proof.
  apply (eE_err qp32 9 6 (2 ^ 171) _ x ltac:(vm_compute; reflexivity) e32a e32b). change 171%Z with (200 - 29)%Z. rewrite fxr2 by lia.
  change (fz 10) with 3628800%Z. change (2 ^ 29)%Z with 536870912%Z. change (2 ^ 33)%Z with 8589934592%Z. lra.
Qed.

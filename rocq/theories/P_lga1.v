(** The logarithm against the series of the inverse hyperbolic tangent. *)
From Coq Require Import ZArith Reals Lia Lra Bool List Psatz.
From Flocq Require Import Core.
From Verif Require Import Base Spec P_apx P_poly P_poly2 P_poly3 P_taylor P_expa1 P_expa2.
Import ListNotations.
Open Scope R_scope.

Fixpoint ts (n : nat) (t : R) : R := match n with O => 2 * t | S m => ts m t + 2 / INR (2 * n + 1) * t ^ (2 * n + 1) end.
Fixpoint ds (n : nat) (t : R) : R := match n with O => 2 | S m => ds m t + 2 * (t * t) ^ n end.
Lemma ts_d n t : derivable_pt_lim (ts n) t (ds n t).
Proof.
  induction n as [|n IH].
  - cbn [ts ds]. assert (H : derivable_pt_lim (fun t => 2 * t) t (2 * 1)) by (apply (derivable_pt_lim_scal (fun t => t)), derivable_pt_lim_id). now rewrite Rmult_1_r in H.
  - change (derivable_pt_lim (fun t => ts n t + 2 / INR (2 * S n + 1) * t ^ (2 * S n + 1)%nat) t (ds n t + 2 * (t * t) ^ S n)).
    apply (derivable_pt_lim_plus (ts n) (fun t => 2 / INR (2 * S n + 1) * t ^ (2 * S n + 1)%nat)); [exact IH|].
    replace (2 * (t * t) ^ S n) with (2 / INR (2 * S n + 1) * (INR (2 * S n + 1) * t ^ Nat.pred (2 * S n + 1)%nat)).
    + apply (derivable_pt_lim_scal (fun t => t ^ (2 * S n + 1)%nat)), derivable_pt_lim_pow.
    + replace (Nat.pred (2 * S n + 1)%nat) with (2 * S n)%nat by lia. rewrite pow_mult. replace (t ^ 2) with (t * t) by ring. field. apply not_0_INR. lia.
Qed.
Lemma ds_sum n t : ds n t * (1 - t * t) = 2 - 2 * (t * t) ^ S n.
Proof. induction n as [|n IH]; [cbn [ds pow]; ring|]. cbn [ds]. rewrite Rmult_plus_distr_r, IH. cbn [pow]. ring. Qed.
Lemma ts_0 n : ts n 0 = 0.
Proof. induction n as [|n IH]; [cbn; ring|]. cbn [ts]. rewrite IH, pow_i by lia. ring. Qed.
Definition ath (t : R) : R := ln (1 + t) - ln (1 - t).
Lemma ath_d t : -1 < t < 1 -> derivable_pt_lim ath t (2 / (1 - t * t)).
Proof.
  intros H. replace (2 / (1 - t * t)) with (/ (1 + t) * (0 + 1) - / (1 - t) * (0 - 1)) by (field; nra).
  apply (derivable_pt_lim_minus (fun t => ln (1 + t)) (fun t => ln (1 - t))).
  - apply (derivable_pt_lim_comp (fun t => 1 + t) ln); [apply (derivable_pt_lim_plus (fun _ => 1) (fun t => t)); [apply derivable_pt_lim_const|apply derivable_pt_lim_id]|apply derivable_pt_lim_ln; lra].
  - apply (derivable_pt_lim_comp (fun t => 1 - t) ln); [apply (derivable_pt_lim_minus (fun _ => 1) (fun t => t)); [apply derivable_pt_lim_const|apply derivable_pt_lim_id]|apply derivable_pt_lim_ln; lra].
Qed.
Lemma ath_pos s n : 0 <= s < 1 -> Rabs (ath s - ts n s) <= s * (2 * (s * s) ^ S n / (1 - s * s)).
Proof.
  intros [[H | <-] H1].
  - destruct (MVT_cor2 (fun t => ath t - ts n t) (fun t => 2 / (1 - t * t) - ds n t) 0 s H) as (c & E & Hc).
    { intros c Hc. apply (derivable_pt_lim_minus ath (ts n)); [apply ath_d; lra|apply ts_d]. }
    assert (A0 : ath 0 = 0) by (unfold ath; rewrite Rplus_0_r, Rminus_0_r; ring). rewrite A0, ts_0, !Rminus_0_r in E. rewrite E, Rmult_comm, Rabs_mult, (Rabs_pos_eq s) by lra.
    apply Rmult_le_compat_l; [lra|]. assert (Q : 0 <= c * c <= s * s) by nra. assert (0 < 1 - s * s) by nra. assert (0 < 1 - c * c) by nra.
    replace (2 / (1 - c * c) - ds n c) with (2 * (c * c) ^ S n / (1 - c * c)). 2:{ pose proof (ds_sum n c) as D. apply (Rmult_eq_reg_r (1 - c * c)); [|lra]. rewrite Rmult_minus_distr_r, D. field. lra. }
    assert (P : 0 <= (c * c) ^ S n <= (s * s) ^ S n) by (split; [apply pow_le; lra|apply pow_incr; lra]).
    rewrite Rabs_pos_eq. { unfold Rdiv. apply Rmult_le_compat; [lra|left; now apply Rinv_0_lt_compat|lra|apply Rinv_le; lra]. }
    apply Rmult_le_pos; [lra|left; now apply Rinv_0_lt_compat].
  - unfold ath. rewrite Rplus_0_r, Rminus_0_r, ts_0, Rmult_0_l. replace (ln 1 - ln 1 - 0) with 0 by ring. rewrite Rabs_R0. lra.
Qed.
Lemma ts_opp n t : ts n (- t) = - ts n t.
Proof.
  induction n as [|n IH]; [cbn; ring|]. cbn [ts]. rewrite IH. replace (2 * S n + 1)%nat with (S (2 * S n)) by lia. rewrite <- !tech_pow_Rmult, !pow_mult. replace ((- t) ^ 2) with (t ^ 2) by ring. ring.
Qed.
Lemma ath_near s n : Rabs s < 1 -> Rabs (ath s - ts n s) <= Rabs s * (2 * (s * s) ^ S n / (1 - s * s)).
Proof.
  intros H. destruct (Rle_lt_dec 0 s) as [L | L].
  - rewrite (Rabs_pos_eq s) in * by exact L. apply ath_pos. lra.
  - rewrite (Rabs_left s) in * by exact L. pose proof (ath_pos (- s) n ltac:(lra)) as K. rewrite ts_opp in K. replace (- s * - s) with (s * s) in K by ring.
    replace (ath s - ts n s) with (- (ath (- s) - - ts n s)) by (unfold ath, Rminus; rewrite Ropp_involutive; ring). now rewrite Rabs_Ropp.
Qed.
(** the same sum as a polynomial in the square *)
Definition lgs (n : nat) : poly := (0, 1)%Z :: map (fun i => (2, 2 * Z.of_nat i + 1)%Z) (seq 1 n).
Lemma lt_sum n t : ts n t = t * (2 + peval (lgs n) (t * t)).
Proof.
  induction n as [|n IH].
  - cbn. field.
  - cbn [ts]. rewrite IH. unfold lgs. rewrite (seq_S n 1), map_app. cbn [map]. rewrite app_comm_cons, peval_snoc. cbn [length]. rewrite map_length, seq_length. cbn [fst snd].
    replace (2 * Z.of_nat (1 + n) + 1)%Z with (Z.of_nat (2 * S n + 1)%nat) by lia. rewrite <- INR_IZR_INZ. replace (2 * S n + 1)%nat with (S (2 * S n)) by lia. rewrite <- (tech_pow_Rmult t (2 * S n)), pow_mult. replace (t ^ 2) with (t * t) by ring.
    unfold Rdiv. ring.
Qed.
(** ln (1 + f) through s = f / (2 + f) *)
Lemma ln_ath f : -1 < f -> ln (1 + f) = ath (f / (2 + f)).
Proof.
  intros H. unfold ath. assert (D : 0 < 2 + f) by lra.
  replace (1 + f / (2 + f)) with (2 * (1 + f) * / (2 + f)) by (field; lra). replace (1 - f / (2 + f)) with (2 * / (2 + f)) by (field; lra).
  rewrite !ln_mult; try lra; try (apply Rinv_0_lt_compat; lra).
Qed.
(** bound of a polynomial on [0, 0.02956], which contains the square of f / (2 + f) *)
Definition zh (n : Z) : Z := (SC * 2956 / 100000 / (2 * n) + 1)%Z.
Definition zcov (c : poly) (n : Z) (B : Z) : bool := (0 <? n)%Z && pcheck3 c (zh n) (Z.to_nat n) (- B) B.
Lemma zcov_ok c n B z : zcov c n B = true -> 0 <= z <= 2956 / 100000 -> Rabs (peval c z) <= fxr B.
Proof.
  unfold zcov. rewrite andb_true_iff, Z.ltb_lt. intros [N H] Hz. apply Rabs_le. rewrite <- fxr_opp.
  apply (pcheck3_ok c (zh n) (Z.to_nat n) _ _ (2 * n * zh n) z H ltac:(lia)); [rewrite Z2Nat.id by lia; apply Z.eqb_refl|]. rewrite fxr_0. split; [lra|].
  assert (K : (SC * 2956 <= 100000 * (2 * n * zh n))%Z).
  { unfold zh. pose proof (Z.div_mod (SC * 2956) 100000 ltac:(lia)). pose proof (Z.mod_pos_bound (SC * 2956) 100000 ltac:(lia)).
    set (q := (SC * 2956 / 100000)%Z) in *. pose proof (Z.div_mod q (2 * n) ltac:(lia)). pose proof (Z.mod_pos_bound q (2 * n) ltac:(lia)). nia. }
  unfold fxr. pose proof SC_pos. apply IZR_le in K. rewrite (mult_IZR SC), (mult_IZR 100000) in K. apply Rle_trans with (2956 / 100000); [lra|]. apply Rmult_le_reg_r with (IZR SC * 100000); [lra|].
  replace (2956 / 100000 * (IZR SC * 100000)) with (IZR SC * 2956) by field. replace (IZR (2 * n * zh n) / IZR SC * (IZR SC * 100000)) with (100000 * IZR (2 * n * zh n)) by (field; lra). exact K.
Qed.
Lemma log_err c m n B f : pok c = true -> pok (lgs m) = true -> zcov (psub c (lgs m)) n B = true -> -2931 / 10000 <= f <= 4143 / 10000 ->
  let s := f / (2 + f) in Rabs (s * (2 + peval c (s * s)) - ln (1 + f)) <= Rabs s * (fxr B + 3 * (2956 / 100000) ^ S m) /\ Rabs s <= 1719 / 10000.
Proof.
  intros Pc Pl Hc Hf s. assert (S1 : s * (2 + f) = f) by (unfold s; field; lra). assert (Sb : -1718 / 10000 <= s <= 1717 / 10000) by nra.
  assert (Sa : Rabs s <= 1719 / 10000) by (apply Rabs_le; lra). split; [|exact Sa]. rewrite (ln_ath f) by lra. fold s.
  assert (Z : 0 <= s * s <= 2956 / 100000) by nra. pose proof (zcov_ok _ _ _ _ Hc Z) as K. rewrite psub_ok in K by assumption.
  pose proof (ath_near s m ltac:(lra)) as A. rewrite lt_sum in A. set (p := peval c (s * s)) in *. set (q := peval (lgs m) (s * s)) in *.
  replace (s * (2 + p) - ath s) with (s * (p - q) - (ath s - s * (2 + q))) by ring. eapply Rle_trans; [apply Rabs_triang|]. rewrite Rabs_Ropp, Rabs_mult, (Rmult_plus_distr_l (Rabs s)). apply Rplus_le_compat; [apply Rmult_le_compat_l; [apply Rabs_pos|exact K]|].
  eapply Rle_trans; [exact A|]. apply Rmult_le_compat_l; [apply Rabs_pos|]. assert (P : 0 <= (s * s) ^ S m <= (2956 / 100000) ^ S m) by (split; [apply pow_le; lra|apply pow_incr; lra]).
  assert (D : / (1 - s * s) <= / (97 / 100)) by (apply Rinv_le; lra). assert (0 < / (1 - s * s)) by (apply Rinv_0_lt_compat; lra).
  unfold Rdiv. apply Rle_trans with (2 * (2956 / 100000) ^ S m * / (97 / 100)); [apply Rmult_le_compat; lra|]. replace (/ (97 / 100)) with (100 / 97) by lra. lra.
Qed.

(** From a small relative error to faithful rounding. *)
From Coq Require Import ZArith Reals Lia Lra Bool List Psatz.
From Flocq Require Import Core.
From Verif Require Import Base Spec SpecAcc Format P_format Ieee P_ieee P_real P_neg P_err P_apx.
Open Scope R_scope.
Section Near.
Variable F : fmt.
Hypothesis HM : (3 <= mw F)%Z.
Let fexp := FLT_exp (1 - bias F - mw F) (mw F + 1).
Lemma vexp : Valid_exp fexp. Proof. apply fmt_valid_exp. Qed.
Local Existing Instance vexp.
Lemma pg : Prec_gt_0 (mw F + 1). Proof. unfold Prec_gt_0. pose proof (fmt_facts F). lia. Qed.
Lemma ulp_ge x : bpow radix2 (- pr F) * Rabs x <= ulp radix2 fexp x.
Proof. unfold pr, fexp. pose proof pg. rewrite Rmult_comm. left. now apply ulp_FLT_gt. Qed.
Lemma mono_fexp : Monotone_exp fexp. Proof. apply FLT_exp_monotone. Qed.
Local Existing Instance mono_fexp.
Lemma near_pos a v : 0 < v -> Rabs (a - v) <= 15 / 8 * bpow radix2 (- pr F - 2) * v -> rnd F a = below F v \/ rnd F a = above F v.
Proof.
  intros V H. unfold below, above, rnd. fold fexp. set (d := round radix2 fexp Zfloor v). set (u := round radix2 fexp Zceil v). set (r := round radix2 fexp ZnearestE a).
  assert (Gd : generic_format radix2 fexp d) by (apply generic_format_round; typeclasses eauto).
  assert (Gu : generic_format radix2 fexp u) by (apply generic_format_round; typeclasses eauto).
  assert (Gr : generic_format radix2 fexp r) by (apply generic_format_round; typeclasses eauto).
  assert (Ld : d <= v) by (apply round_DN_pt; typeclasses eauto). assert (Lu : v <= u) by (apply round_UP_pt; typeclasses eauto).
  assert (Pd : 0 <= d) by (apply round_ge_generic; [typeclasses eauto|typeclasses eauto|apply generic_format_0|lra]).
  assert (NN : forall g, generic_format radix2 fexp g -> Rabs (r - a) <= Rabs (g - a)) by (intros g Gg; apply (round_N_pt radix2 fexp); exact Gg).
  pose proof (bpow_gt_0 radix2 (- pr F - 2)) as B0. set (t := bpow radix2 (- pr F - 2)) in *.
  assert (T4 : bpow radix2 (- pr F) = 4 * t) by (unfold t; replace (- pr F)%Z with (- pr F - 2 + 2)%Z at 1 by lia; rewrite bpow_plus; cbn; lra).
  assert (TS : t <= / 64). { apply Rle_trans with (bpow radix2 (-6)); [apply bpow_le; unfold pr; lia|cbn; lra]. }
  apply Rabs_le_inv in H.
  assert (A0 : 0 < a) by nra.
  assert (R0 : 0 <= r) by (apply round_ge_generic; [typeclasses eauto|typeclasses eauto|apply generic_format_0|lra]).
  (* r >= d *)
  assert (RD : d <= r).
  { apply Rnot_lt_le. intros L. assert (0 < d) by lra. assert (r <= pred radix2 fexp d) by (apply pred_ge_gt; [typeclasses eauto|exact Gr|exact Gd|exact L]).
    pose proof (pred_plus_ulp radix2 fexp d ltac:(lra) Gd) as E. set (p := pred radix2 fexp d) in *.
    assert (0 <= p) by (apply pred_ge_0; [typeclasses eauto|lra|exact Gd]).
    pose proof (ulp_ge p) as U. rewrite (Rabs_pos_eq p) in U by lra. set (w := ulp radix2 fexp p) in *. rewrite T4 in U.
    pose proof (NN d Gd) as N. assert (a < d). { apply Rnot_le_lt. intros Q. assert (d <= r) by (apply round_ge_generic; [typeclasses eauto|typeclasses eauto|exact Gd|lra]). lra. }
    rewrite (Rabs_pos_eq (d - a)) in N by lra. assert (d - a >= w / 2). { apply Rabs_le_inv in N. lra. }
    assert (W0 : 0 < w). { assert (0 <= w) by nra. destruct (Req_dec w 0); [|lra]. exfalso. nra. }
    assert (K1 : v * (1 - 15 / 8 * t) <= d - w / 2) by lra. assert (K2 : d * (1 - 15 / 8 * t) <= v * (1 - 15 / 8 * t)) by (apply Rmult_le_compat_r; lra).
    assert (K3 : w * (1 - 15 / 4 * t) <= 15 / 4 * t * p) by nra. nra. }
  assert (RU : r <= u).
  { apply Rnot_lt_le. intros L. assert (succ radix2 fexp u <= r) by (apply succ_le_lt; [typeclasses eauto|exact Gu|exact Gr|exact L]).
    rewrite succ_eq_pos in H0 by lra. pose proof (ulp_ge u) as U. rewrite (Rabs_pos_eq u) in U by lra. set (w := ulp radix2 fexp u) in *. rewrite T4 in U.
    pose proof (NN u Gu) as N. assert (u < a). { apply Rnot_le_lt. intros Q. assert (r <= u) by (apply round_le_generic; [typeclasses eauto|typeclasses eauto|exact Gu|lra]). lra. }
    rewrite (Rabs_left (u - a)) in N by lra. assert (a - u >= w / 2). { apply Rabs_le_inv in N. lra. }
    assert (15 / 8 * t * v <= 15 / 8 * t * u) by (apply Rmult_le_compat_l; lra). assert (0 < t * u) by nra. lra. }
  destruct (Rle_lt_dec r d) as [E | E]; [left; lra|]. right.
  (* nothing of the format strictly between d and u *)
  apply Rle_antisym; [exact RU|]. destruct (Rle_lt_dec v r) as [Q | Q].
  - apply (round_UP_pt radix2 fexp v). exact Gr. exact Q.
  - exfalso. assert (r <= d). { apply (round_DN_pt radix2 fexp v). exact Gr. lra. } lra.
Qed.
Lemma near a v : v <> 0 -> Rabs (a - v) <= 15 / 8 * bpow radix2 (- pr F - 2) * Rabs v -> rnd F a = below F v \/ rnd F a = above F v.
Proof.
  intros V H. destruct (Rle_lt_dec 0 v) as [L | L].
  - apply near_pos; [lra|]. rewrite (Rabs_pos_eq v) in H by lra. exact H.
  - rewrite (Rabs_left v) in H by lra. destruct (near_pos (- a) (- v)) as [E | E]; [lra| | |].
    + replace (- a - - v) with (- (a - v)) by ring. now rewrite Rabs_Ropp.
    + right. rewrite rnd_opp in E. unfold below in E. rewrite round_DN_opp in E. unfold above. lra.
    + left. rewrite rnd_opp in E. unfold above in E. rewrite round_UP_opp in E. unfold below. lra.
Qed.
End Near.

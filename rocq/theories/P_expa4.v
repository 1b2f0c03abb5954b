(** The kernel of exp: 1 + r + r c / (2 - c). *)
From Coq Require Import ZArith Reals Lia Lra Bool List Psatz.
From Flocq Require Import Core.
From Verif Require Import Base Spec Format P_format Ieee P_ieee P_real P_apx P_poly P_powt P_expa1 P_expa2 P_expa3 M_exp P_err.
Import ListNotations.
Open Scope R_scope.


Definition ec64 (x : Z) : Z := let xx := fmul f64 x x in fsub f64 x (fmul f64 xx (fadd f64 rs_exp_P1 (fmul f64 xx (fadd f64 rs_exp_P2 (fmul f64 xx (fadd f64 rs_exp_P3 (fmul f64 xx (fadd f64 rs_exp_P4 (fmul f64 xx rs_exp_P5))))))))).
Definition ew64 (x hi lo : Z) : Z := fadd f64 (fsub f64 (fdiv f64 (fmul f64 x (ec64 x)) (fsub f64 0x4000000000000000 (ec64 x))) lo) hi.
Definition ex64 : Z := (SC * 36 / 100 / 2 ^ 53)%Z.
Definition el64 : Z := (SC / 2 ^ 70)%Z.
Definition pl64 : Z := (SC / 2 ^ 22)%Z.
Definition q4 (n : Z) : Z := (n * SC / 10000)%Z.

Lemma rnd_half F v e : Rabs v < bpow radix2 e -> (emin F <= e - pr F)%Z -> Rabs (rnd F v - v) <= bpow radix2 (e - pr F - 1).
Proof.
  intros H HE. pose proof (fmt_facts F). assert (PG : Prec_gt_0 (pr F)) by (unfold Prec_gt_0, pr; lia).
  unfold rnd. change (1 - bias F - mw F)%Z with (emin F). change (mw F + 1)%Z with (pr F).
  eapply Rle_trans; [apply error_le_half_ulp; apply FLT_exp_valid; exact PG|].
  replace (bpow radix2 (e - pr F - 1)) with (/ 2 * bpow radix2 (e - pr F)) by (unfold Zminus; rewrite (bpow_plus radix2 _ (-1)); cbn; lra).
  apply Rmult_le_compat_l; [lra|]. destruct (Req_dec v 0) as [-> | N].
  - rewrite ulp_FLT_small; [apply bpow_le; lia|exact PG|rewrite Rabs_R0; apply bpow_gt_0].
  - rewrite ulp_neq_0 by exact N. apply bpow_le. unfold cexp, FLT_exp. pose proof (mag_le_bpow radix2 v e N H). lia.
Qed.
(** the piece of an approximate kernel value: the result is within [eps] of the exponential, relatively *)
Definition near (F : fmt) (r : R) (y : Z) : Prop := isbits F y /\ finite F y = true /\ 7 / 10 <= val F y <= 15 / 10 /\ Rabs (val F y - exp r) <= bpow radix2 (- mw F) * exp r.
Lemma near_i F one w r D h L : (8 <= ew F)%Z -> (10 <= mw F)%Z -> finite F one = true -> val F one = 1 -> isbits F w /\ finite F w = true -> Rabs (val F w - (exp r - 1)) <= D -> L <= exp r -> 
  (emin F <= h - pr F)%Z -> (h <= 1)%Z -> exp r + D < bpow radix2 h -> D + bpow radix2 (h - pr F - 1) <= bpow radix2 (- mw F) * L -> 706 / 1000 <= L -> exp r <= 142 / 100 -> D <= 1 / 10000 -> near F r (fadd F one w).
Proof.
  intros EW MW Fo Vo [Bw Fw] E HL HE Hh U C L7 U15 D4. pose proof (fadd_spec F one w Fo Fw) as RT. rewrite Vo in RT.
  assert (A : Rabs (1 + val F w) < bpow radix2 h). { apply Rabs_le_inv in E. apply Rabs_def1; [lra|]. pose proof (exp_pos r). lra. }
  assert (B1 : bpow radix2 h <= 2) by (change 2 with (bpow radix2 1); now apply bpow_le).
  destruct (rounds_fin F _ _ _ RT) as [Fy Vy]. { apply Rlt_le. eapply Rlt_le_trans; [exact A|]. apply bpow_le. unfold bias. assert (2 ^ 7 <= 2 ^ (ew F - 1))%Z by (apply Z.pow_le_mono_r; lia). lia. }
  pose proof (rnd_half F (1 + val F w) h A HE) as Q. rewrite <- Vy in Q.
  assert (G : Rabs (val F (fadd F one w) - exp r) <= bpow radix2 (- mw F) * exp r).
  { replace (val F (fadd F one w) - exp r) with ((val F (fadd F one w) - (1 + val F w)) + (val F w - (exp r - 1))) by ring. eapply Rle_trans; [apply Rabs_triang|].
    pose proof (bpow_gt_0 radix2 (- mw F)). apply Rle_trans with (bpow radix2 (- mw F) * L); [lra|]. apply Rmult_le_compat_l; lra. }
  split; [exact (proj1 RT)|]. split; [exact Fy|]. split; [|exact G].
  assert (P : bpow radix2 (h - pr F - 1) <= 1 / 1000). { apply Rle_trans with (bpow radix2 (-10)); [apply bpow_le; unfold pr; pose proof (fmt_facts F); lia|]. change (bpow radix2 (-10)) with (/ 1024). lra. }
  apply Rabs_le_inv in Q. apply Rabs_le_inv in E. lra.
Qed.
Lemma e3475 : echk (q4 3475) 20 (14 * SC / 10) (1416 * SC / 1000) = true. Proof. vm_compute. reflexivity. Qed.
Lemma q4_le n r : r <= fxr (q4 n) -> r <= IZR n / 10000.
Proof. intros H. eapply Rle_trans; [exact H|]. unfold q4. pose proof (fxr_q n 10000 eq_refl) as [Q _]. rewrite fdv_eq in Q. exact Q. Qed.
Lemma q4_ge n r : fxr (q4 n) <= r -> IZR n / 10000 - 1 / 1000000 <= r.
Proof.
  intros H. eapply Rle_trans; [|exact H]. unfold q4. unfold fxr. pose proof SC_pos as S. assert (S1 : 1000000 <= IZR SC) by (apply IZR_le; vm_compute; discriminate).
  apply Rmult_le_reg_r with (IZR SC); [assumption|]. replace (IZR (n * SC / 10000) / IZR SC * IZR SC) with (IZR (n * SC / 10000)) by (field; lra).
  assert (K : (n * SC <= 10000 * (n * SC / 10000) + 10000)%Z) by (pose proof (Z.div_mod (n * SC) 10000 ltac:(lia)); pose proof (Z.mod_pos_bound (n * SC) 10000 ltac:(lia)); lia).
  apply IZR_le in K. rewrite plus_IZR, !mult_IZR in K. lra.
Qed.
Lemma exp_hi r : r <= fxr (q4 3475) -> exp r <= 1416 / 1000.
Proof.
  intros H. pose proof (echk_ok _ _ _ _ e3475) as [_ K]. apply Rle_trans with (exp (fxr (q4 3475))). { destruct H as [H | ->]; [left; now apply exp_increasing|lra]. }
  eapply Rle_trans; [exact K|]. pose proof (fxr_q 1416 1000 eq_refl) as [Q _]. rewrite fdv_eq in Q. exact Q.
Qed.
Lemma exp_lo r : - fxr (q4 3475) <= r -> 7062 / 10000 <= exp r.
Proof.
  intros H. pose proof (exp_hi (- r) ltac:(lra)) as K. rewrite exp_Ropp in K. pose proof (exp_pos r) as P.
  assert (/ exp r * exp r = 1) by (apply Rinv_l; lra). assert (0 < / exp r) by (now apply Rinv_0_lt_compat). nra.
Qed.
Lemma exp_neg r : r <= - (4 / 10000) -> exp r <= 9997 / 10000.
Proof.
  intros H. pose proof (exp_ineq1_le (- r)) as K. rewrite exp_Ropp in K. pose proof (exp_pos r) as P.
  assert (/ exp r * exp r = 1) by (apply Rinv_l; lra). assert (0 < / exp r) by (now apply Rinv_0_lt_compat). nra.
Qed.

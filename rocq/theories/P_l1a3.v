(** log1p is accurate: all branches. *)
From Coq Require Import ZArith Reals Lia Lra Bool List Psatz.
From Flocq Require Import Core.
From Verif Require Import Base Spec SpecFun2 SpecLog SpecLog1p Format P_format Ieee P_ieee P_real P_neg P_lit P_err P_scalbn P_elem P_elem2 P_dom P_gam6 P_exp P_log P_apx P_expa5 P_lga3 P_lga5 P_lga7 P_l1a1 P_l1c1 P_l1a2 M_sqrt M_elib M_log.
Import ListNotations.
Open Scope R_scope.
Local Opaque fadd fsub fmul fdiv of_int rs_log1p_1.

(** a tiny x is its own logarithm *)
Lemma l1_self F x : (4 <= mw F)%Z -> isbits F x -> finite F x = true -> Rabs (val F x) <= bpow radix2 (- mw F - 1) -> rel_eps F (ln (1 + val F x)) x.
Proof.
  intros M B G H. split; [exact B|]. split; [exact G|]. set (X := val F x) in *. set (p := bpow radix2 (- mw F)). assert (P : 0 < p <= / 16). { split; [apply bpow_gt_0|]. apply Rle_trans with (bpow radix2 (-4)); [apply bpow_le; lia|]. change (bpow radix2 (-4)) with (/ 16). lra. }
  assert (E : bpow radix2 (- mw F - 1) = p / 2). { unfold Zminus. rewrite bpow_plus. change (bpow radix2 (-(1))) with (/ 2). fold p. lra. } rewrite E in H.
  pose proof (Rabs_pos X) as X0. assert (I : forall t, 0 < t -> ln t <= t - 1). { intros z T. pose proof (exp_ineq1_le (ln z)). rewrite exp_ln in H0 by exact T. lra. }
  assert (HX := H). apply Rabs_le_inv in HX. pose proof (I (1 + X) ltac:(lra)) as A. pose proof (I (/ (1 + X)) ltac:(apply Rinv_0_lt_compat; lra)) as Bq. rewrite ln_Rinv in Bq by lra.
  assert (C : / (1 + X) - 1 = - X + X * X * / (1 + X)) by (field; lra). assert (D : / (1 + X) <= 16 / 15) by (replace (16 / 15) with (/ (15 / 16)) by lra; apply Rinv_le; lra). assert (D0 : 0 < / (1 + X)) by (apply Rinv_0_lt_compat; lra).
  assert (Q : X * X = Rabs X * Rabs X) by (rewrite <- Rabs_mult; symmetry; apply Rabs_pos_eq; nra).
  set (L := ln (1 + X)) in *. assert (L1 : 0 <= X - L <= 16 / 15 * (Rabs X * Rabs X)). { split; [lra|]. rewrite <- Q. assert (0 <= X * X) by nra. nra. }
  rewrite (Rabs_pos_eq (X - L)) by lra. pose proof (Rabs_triang_inv X (X - L)) as T. replace (X - (X - L)) with L in T by ring. rewrite (Rabs_pos_eq (X - L)) in T by lra.
  assert (X1 : Rabs X * Rabs X <= p / 2 * Rabs X) by (apply Rmult_le_compat_r; lra). assert (P1 : p / 2 * Rabs X <= / 32 * Rabs X) by (apply Rmult_le_compat_r; lra).
  apply Rle_trans with (p * (29 / 30 * Rabs X)); [|apply Rmult_le_compat_l; lra]. assert (0 <= p * Rabs X) by (apply Rmult_le_pos; lra). lra.
Qed.
Lemma log1p_within : log1p_like f64 rs_log1p.
Proof.
  intros x B G H1. set (X := val f64 x) in *. destruct (bits64 x B) as [EB RB]. pose proof (fin64 x B) as FI. rewrite G in FI. symmetry in FI. apply Z.ltb_lt in FI.
  unfold rs_log1p. cbv zeta. rewrite (hw64 x B). set (h := (a64 x / 2 ^ 32)%Z).
  assert (Rh : (0 <= h < 0x7ff00000)%Z) by (unfold h; split; [apply Z.div_pos; lia|apply Z.div_lt_upper_bound; lia]).
  assert (HA : (h * 2 ^ 32 <= a64 x < (h + 1) * 2 ^ 32)%Z). { unfold h. pose proof (Z.div_mod (a64 x) (2 ^ 32) ltac:(lia)). pose proof (Z.mod_pos_bound (a64 x) (2 ^ 32) ltac:(lia)). lia. }
  assert (SG : if signbit f64 x then X <= 0 else 0 <= X) by (destruct (signbit f64 x) eqn:S; [now apply val_sign_nonpos|now apply val_sign_nonneg]).
  assert (SH : Z.shiftr (bs (signbit f64 x) * 2 ^ 31 + h) 31 = bs (signbit f64 x)) by (apply shr31; lia). rewrite SH.
  (* below -1 is excluded *)
  assert (NB : signbit f64 x = true -> (h < 0x3ff00000)%Z).
  { intros S. rewrite S in SG. destruct (Z_lt_le_dec h 0x3ff00000) as [C | C]; [exact C|]. exfalso. pose proof (a64_ge x 0x3ff0000000000000 B G ltac:(lia)) as [Q _]. specialize (Q ltac:(apply Z.leb_le; lia)). rewrite (proj2 o64) in Q. fold X in Q. rewrite Rabs_left1 in Q by lra. lra. }
  (* a small argument *)
  assert (SM : (h < 0x3ca00000)%Z -> rel_eps f64 (ln (1 + X)) x).
  { intros C. apply l1_self; [vm_compute; discriminate|exact B|exact G|]. pose proof (a64_ge x 0x3ca0000000000000 B G ltac:(lia)) as [_ Q]. specialize (Q ltac:(apply Z.leb_gt; lia)).
    rewrite (val_lit f64 (0x3ca0000000000000 - 1) (2 ^ 53 - 1) (2 ^ 106)) in Q by (vm_compute; reflexivity). change (2 ^ 53 - 1)%Z with 9007199254740991%Z in Q. change (2 ^ 106)%Z with 81129638414606681695789005144064%Z in Q. change (bpow radix2 (- mw f64 - 1)) with (/ 9007199254740992). fold X in Q |- *. lra. }
  (* k = 0 *)
  assert (K0 : (0x3ca00000 <= h)%Z -> -2930 / 10000 <= X <= 41425 / 100000 -> exists r, rs_log1p_1 x x 0 0 = Some r /\ rel_eps f64 (ln (1 + X)) r).
  { intros C R. rewrite log1p_0_eq. eexists. split; [reflexivity|]. unfold l1res.
    replace (fadd f64 (fmul f64 (of_int f64 0) rs_log_LN2_LO) 0) with 0%Z by (vm_compute; reflexivity). replace (fmul f64 (of_int f64 0) rs_log_LN2_HI) with 0%Z by (vm_compute; reflexivity).
    assert (V0 : val f64 0 = 0) by exact (val_zero f64 false).
    apply (log_k0 x 0 0 B G ltac:(split; vm_compute; (reflexivity || discriminate)) eq_refl V0 eq_refl V0); [|exact R].
    pose proof (a64_ge x 0x3ca0000000000000 B G ltac:(lia)) as [Q _]. specialize (Q ltac:(apply Z.leb_le; lia)). eapply Rle_trans; [|exact Q]. rewrite (val_lit f64 0x3ca0000000000000 1 (2 ^ 53)) by (vm_compute; reflexivity). change (2 ^ 53)%Z with 9007199254740992%Z. change (bpow radix2 (-60)) with (/ 1152921504606846976). lra. }
  assert (S1 : forall s, (0 <= s < 2 ^ 31)%Z -> forall b, shlu 32 (bs b * 2 ^ 31 + s) 1 = (2 * s)%Z).
  { intros s Hs b. unfold shlu. rewrite Z.shiftl_mul_pow2 by lia. symmetry. apply (Z.mod_unique _ _ (bs b)); [lia|]. change (2 ^ 1)%Z with 2%Z. destruct b; cbn [bs]; lia. }
  rewrite S1 by lia.
  destruct (signbit f64 x) eqn:S; cbn [bs]; rewrite ?Z.mul_0_l, ?Z.mul_1_l, ?Z.add_0_l.
  - specialize (NB eq_refl). change (0 <? 1)%Z with true. rewrite orb_true_r.
    destruct (Z.leb_spec 0xbff00000 (2 ^ 31 + h)); [lia|]. destruct (Z.ltb_spec (2 * h) 0x79400000); [exists x; split; [reflexivity|apply SM; lia]|].
    destruct (Z.leb_spec (2 ^ 31 + h) 0xbfd2bec4) as [L | L].
    + apply K0; [lia|]. split; [|lra]. pose proof (a64_ge x 0x3fd2bec500000000 B G ltac:(lia)) as [_ Q]. specialize (Q ltac:(apply Z.leb_gt; lia)). fold X in Q. rewrite Rabs_left1 in Q by lra.
      rewrite (val_lit f64 (0x3fd2bec500000000 - 1) 0x12bec4ffffffff 0x40000000000000) in Q by (vm_compute; reflexivity). lra.
    + apply log1p_1_ok; try assumption. left. pose proof (a64_ge x 0x3fd2bec500000000 B G ltac:(lia)) as [Q _]. specialize (Q ltac:(apply Z.leb_le; lia)). fold X in Q |- *. rewrite Rabs_left1 in Q by lra.
      rewrite (val_lit f64 0x3fd2bec500000000 0x12bec5 0x400000) in Q by (vm_compute; reflexivity). lra.
  - change (0 <? 0)%Z with false. rewrite orb_false_r.
    destruct (Z.ltb_spec h 0x3fda827a) as [L | L].
    + destruct (Z.leb_spec 0xbff00000 h); [lia|]. destruct (Z.ltb_spec (2 * h) 0x79400000); [exists x; split; [reflexivity|apply SM; lia]|]. destruct (Z.leb_spec h 0xbfd2bec4); [|lia].
      apply K0; [lia|]. split; [lra|]. pose proof (a64_ge x 0x3fda827a00000000 B G ltac:(lia)) as [_ Q]. specialize (Q ltac:(apply Z.leb_gt; lia)). fold X in Q. rewrite Rabs_pos_eq in Q by lra.
      rewrite (val_lit f64 (0x3fda827a00000000 - 1) 0x1a8279ffffffff 0x40000000000000) in Q by (vm_compute; reflexivity). lra.
    + destruct (Z.leb_spec 0x7ff00000 h); [lia|]. apply log1p_1_ok; try assumption. right. pose proof (a64_ge x 0x3fda827a00000000 B G ltac:(lia)) as [Q _]. specialize (Q ltac:(apply Z.leb_le; lia)). fold X in Q |- *. rewrite Rabs_pos_eq in Q by lra.
      rewrite (val_lit f64 0x3fda827a00000000 0x1a827a 0x400000) in Q by (vm_compute; reflexivity). lra.
Qed.

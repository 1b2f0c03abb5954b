(** acosh below its domain. *)
From Coq Require Import ZArith Reals Lia Lra Psatz Bool List.
From Flocq Require Import Core.
From Verif Require Import Base Spec SpecElem SpecAnnexF SpecFun3 Format P_format Ieee P_ieee P_real P_key P_neg M_scalbn M_sqrt P_scalbn M_elib
  SpecFun Prop_sqrt Prop_scale M_exp M_log P_elem P_elem2 P_ival P_ival2 P_tot P_exp P_log P_lit P_nan P_round2 P_fmaf P_dom.
Open Scope Z_scope.

Lemma repr_double F r : repr F r -> repr F (2 * r).
Proof.
  unfold repr. intros H. assert (Pp : Prec_gt_0 (mw F + 1)) by (unfold Prec_gt_0; pose proof (fmt_facts F); lia).
  apply FLT_format_generic in H; [|exact Pp]. destruct H as [f E M L]. apply generic_format_FLT. exists (Float radix2 (Fnum f) (Fexp f + 1)).
  - rewrite E. unfold F2R. cbn [Fnum Fexp]. rewrite bpow_succ2. ring.
  - exact M.
  - cbn [Fexp]. lia.
Qed.
Section Small.
Variable F : fmt.
Hypothesis Hmw : 20 <= mw F.
Hypothesis Hb : 10 <= bias F.
Lemma rnd_err w : (Rabs w <= 16)%R -> (Rabs (rnd F w - w) <= / 1024)%R.
Proof.
  intros H. unfold rnd. eapply Rle_trans; [apply error_le_half_ulp; apply FLT_exp_valid; unfold Prec_gt_0; lia|].
  assert (U : (ulp radix2 (FLT_exp (1 - bias F - mw F) (mw F + 1)) w <= bpow radix2 (-15))%R).
  { eapply Rle_trans; [apply (ulp_le radix2 _ w 16%R); rewrite (Rabs_pos_eq 16) by lra; exact H|].
    change 16%R with (bpow radix2 4). rewrite ulp_bpow. apply bpow_le. unfold FLT_exp. lia. }
  change (bpow radix2 (-15)) with (/ 32768)%R in U. lra.
Qed.
Lemma rounds_small r sz y : rounds_to F r sz y -> (Rabs r <= 16)%R -> finite F y = true /\ val F y = rnd F r /\ (Rabs (val F y - r) <= / 1024)%R.
Proof.
  intros [_ H] L. pose proof (rnd_err r L) as E. rewrite Rlt_bool_true in H.
  - destruct H as (Fy & V & _). rewrite V. auto.
  - apply Rle_lt_trans with 17%R.
    + replace (rnd F r) with ((rnd F r - r) + r)%R by ring. eapply Rle_trans; [apply Rabs_triang|]. lra.
    + apply Rlt_le_trans with (bpow radix2 5); [simpl; lra|]. apply bpow_le. lia.
Qed.
Lemma acosh_small x one two s z : finite F x = true -> (-2 < val F x < 1)%R -> finite F one = true -> val F one = 1%R -> finite F two = true -> val F two = 2%R ->
  let y := fsub F x one in
  sqrt_spec F (fadd F (fmul F y y) (fmul F two y)) s -> z = fadd F y s ->
  isnan F z = true \/ (finite F z = true /\ (val F z < -1)%R).
Proof.
  intros Fx Vx F1 V1 F2 V2 y SQ ->.
  assert (Y : finite F y = true /\ (-3 <= val F y < 0)%R).
  { pose proof (fsub_spec F x one Fx F1) as Q. fold y in Q. rewrite V1 in Q. destruct (rounds_small _ _ _ Q) as (Fy & V & _).
    - apply Rabs_le. lra.
    - split; [exact Fy|]. rewrite V. split.
      + assert (R3 : repr F (-3)) by (replace (-3)%R with (IZR (-3)) by reflexivity; apply repr_IZR; pose proof (Z.pow_le_mono_r 2 20 (mw F + 1)); lia).
        rewrite <- (repr_rnd F (-3) R3). apply rnd_le. lra.
      + rewrite <- V1. apply rnd_diff_neg; try (now apply repr_val). lra. }
  destruct Y as [Fy Y]. set (Yv := val F y) in *.
  pose proof (fmul_spec F y y Fy Fy) as QP. fold Yv in QP. destruct (rounds_small _ _ _ QP) as (Fp & Vp & Ep). { apply Rabs_le. nra. }
  pose proof (fmul_spec F two y F2 Fy) as QD. rewrite V2 in QD. fold Yv in QD. destruct (rounds_small _ _ _ QD) as (Fd & Vd & _). { apply Rabs_le. nra. }
  assert (RY : repr F Yv) by now apply repr_val.
  rewrite (repr_rnd F (2 * Yv)) in Vd by now apply repr_double.
  set (p := fmul F y y) in *. set (d := fmul F two y) in *.
  apply Rabs_le_inv in Ep.
  pose proof (fadd_spec F p d Fp Fd) as QT. rewrite Vd in QT. destruct (rounds_small _ _ _ QT) as (Ft & Vt & Et). { apply Rabs_le. nra. }
  set (t := fadd F p d) in *. apply Rabs_le_inv in Et.
  destruct SQ as (Bs & S1 & S2 & _ & S4).
  assert (NEG : (val F t < 0)%R -> isnan F (fadd F y s) = true).
  { intros N. apply fadd_nan. apply orb_true_iff. right. apply S4. right. split; [now apply val_neg_sign|].
    destruct (iszero F t) eqn:Z0; [|reflexivity]. apply iszero_val in Z0. lra. }
  destruct (Rle_or_lt (- Yv) 1) as [C1|C1].
  - left. apply NEG. assert (P1 : (val F p <= - Yv)%R). { rewrite Vp. rewrite <- (repr_rnd F (- Yv)) by now apply repr_opp. apply rnd_le. nra. }
    rewrite Vt. apply Rle_lt_trans with (rnd F Yv); [apply rnd_le; lra|]. rewrite repr_rnd by assumption. lra.
  - destruct (Rle_or_lt (- Yv) (7 / 4)) as [C2|C2].
    + left. apply NEG. assert (val F p + 2 * Yv <= - (1 / 4))%R by nra. lra.
    + destruct (Rlt_or_le (val F t) 0) as [N|N]; [left; now apply NEG|].
      assert (SV : finite F s = true /\ (val F s <= - Yv - 1 - 3 / 16)%R).
      { destruct (iszero F t) eqn:Z0.
        - rewrite (S2 eq_refl). split; [exact Ft|]. rewrite (iszero_val F t Z0). lra.
        - assert (Tp : signbit F t = false).
          { destruct (Rle_lt_or_eq_dec _ _ N) as [L|L]; [now apply val_pos_sign|]. exfalso. symmetry in L. apply val_eq_0 in L; [congruence|unfold t; apply fadd_isbits|exact Ft]. }
          specialize (S1 Ft eq_refl Tp).
          assert (SQ : (R_sqrt.sqrt (val F t) <= - Yv - 1 - 1 / 5)%R).
          { rewrite <- (sqrt_square (- Yv - 1 - 1 / 5)) by lra. apply sqrt_le_1_alt. nra. }
          pose proof (sqrt_pos (val F t)). destruct (rounds_small _ _ _ S1) as (Fs & Vs & Es). { apply Rabs_le. lra. }
          apply Rabs_le_inv in Es. split; [exact Fs|]. lra. }
      destruct SV as [Fs SV].
      assert (SL : (0 <= val F s)%R).
      { destruct (iszero F t) eqn:Z0; [rewrite (S2 eq_refl), (iszero_val F t Z0); lra|].
        assert (Tp : signbit F t = false).
        { destruct (Rle_lt_or_eq_dec _ _ N) as [L|L]; [now apply val_pos_sign|]. exfalso. symmetry in L. apply val_eq_0 in L; [congruence|unfold t; apply fadd_isbits|exact Ft]. }
        specialize (S1 Ft eq_refl Tp). pose proof (sqrt_pos (val F t)). destruct S1 as [_ S1].
        destruct (Rlt_bool_spec (Rabs (rnd F (R_sqrt.sqrt (val F t)))) (bpow radix2 (bias F + 1))).
        - destruct S1 as (_ & -> & _). now apply rnd_nonneg.
        - rewrite S1 in Fs. destruct (infinity_fields F (Rlt_bool (R_sqrt.sqrt (val F t)) 0)) as (_ & _ & _ & Q & _). congruence. }
      right. pose proof (fadd_spec F y s Fy Fs) as QZ. fold Yv in QZ. destruct (rounds_small _ _ _ QZ) as (Fz & Vz & Ez). { apply Rabs_le. lra. }
      apply Rabs_le_inv in Ez. split; [exact Fz|lra].
Qed.
End Small.
Lemma acoshf_dom : nan_where f32 rs_acoshf (fun v => v < 1 /\ (-2 < v \/ v <= -4096))%R.
Proof.
  intros x B Fx [H1 [H2|H2]].
  - assert (R : a32 x < 0x40000000).
    { assert (K : (Rabs (val f32 x) < val f32 0x40000000)%R) by (rewrite two32; apply Rabs_lt; lra).
      destruct (val_a32 x B) as (B' & E' & F' & V'). rewrite <- V' in K. apply vlt32 in K; [|assumption]. rewrite E' in K. change (key f32 0x40000000) with 0x40000000 in K.
      destruct (bits32 x B) as [_ R]. destruct (pos32 (a32 x) R) as (_ & _ & S'). now rewrite S' in K. }
    unfold to_nan, rs_acoshf. words32 x B. nwalk.
    match goal with |- context[M_sqrt.sqrtf ?a] => destruct (C20_sqrtf a ltac:(bitsok)) as (s & -> & SQ) end. nwalk.
    apply log1pf_below; [bitsok|].
    destruct (acosh_small f32 ltac:(cbn; lia) ltac:(vm_compute; discriminate) x 0x3f800000 0x40000000 s _ Fx (conj H2 H1) eq_refl one32 eq_refl two32 SQ eq_refl) as [N|D];
      [left; exact N|right; right; exact D].
  - destruct (neg32 x B Fx ltac:(lra)) as [S R].
    assert (A : 0x45800000 <= a32 x).
    { assert (E : val f32 0xc5800000 = (-4096)%R) by (replace (-4096)%R with (-4096 / 1)%R by lra; lit).
      destruct (Z_lt_le_dec (a32 x) 0x45800000) as [L|L]; [|exact L]. exfalso.
      assert (K : key f32 0xc5800000 < key f32 x) by (rewrite (key32 x B), S; change (key f32 0xc5800000) with (- 0x45800000); lia). apply key_val_lt in K. lra. }
    unfold to_nan, rs_acoshf. words32 x B. nwalk. destruct (logf_dom x B Fx ltac:(lra)) as (r & -> & Br & Nr). nwalk.
Qed.
Lemma acosh_dom : nan_where f64 rs_acosh (fun v => v < 1 /\ (-2 < v \/ v <= -67108864))%R.
Proof.
  intros x B Fx [H1 [H2|H2]].
  - assert (R : a64 x < 0x4000000000000000).
    { assert (K : (Rabs (val f64 x) < val f64 0x4000000000000000)%R) by (rewrite two64; apply Rabs_lt; lra).
      destruct (val_a64 x B) as (B' & E' & F' & V'). rewrite <- V' in K. apply vlt64 in K; [|assumption]. rewrite E' in K. change (key f64 0x4000000000000000) with 0x4000000000000000 in K.
      destruct (bits64 x B) as [_ R]. destruct (pos64 (a64 x) R) as (_ & _ & S'). now rewrite S' in K. }
    unfold to_nan, rs_acosh. rewrite (ex64 x B). pose proof (ex64_le x). nwalk.
    match goal with |- context[M_sqrt.sqrt ?a] => destruct (C20_sqrt a ltac:(bitsok)) as (s & -> & SQ) end. nwalk.
    apply log1p_below; [bitsok|].
    destruct (acosh_small f64 ltac:(cbn; lia) ltac:(vm_compute; discriminate) x 0x3ff0000000000000 0x4000000000000000 s _ Fx (conj H2 H1) eq_refl one64 eq_refl two64 SQ eq_refl) as [N|D];
      [left; exact N|right; right; exact D].
  - destruct (neg64 x B Fx ltac:(lra)) as [S R].
    assert (A : 0x4190000000000000 <= a64 x).
    { assert (E : val f64 0xc190000000000000 = (-67108864)%R) by (replace (-67108864)%R with (-67108864 / 1)%R by lra; lit).
      destruct (Z_lt_le_dec (a64 x) 0x4190000000000000) as [L|L]; [|exact L]. exfalso.
      assert (K : key f64 0xc190000000000000 < key f64 x) by (rewrite (key64 x B), S; change (key f64 0xc190000000000000) with (- 0x4190000000000000); lia). apply key_val_lt in K. lra. }
    unfold to_nan, rs_acosh. rewrite (ex64 x B). pose proof (ex64_le x). nwalk. destruct (log_dom x B Fx ltac:(lra)) as (r & -> & Br & Nr). nwalk.
Qed.

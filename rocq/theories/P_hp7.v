(** hypotf is never below either argument: all branches. *)
From Coq Require Import ZArith Reals Lia Lra Bool List Psatz.
From Flocq Require Import Core Mult_error.
From Verif Require Import Base Spec SpecFun3 SpecHypot2 Format P_format Ieee P_ieee P_real P_neg P_lit P_err P_apx P_key M_sqrt Prop_sqrt M_elib M_pow P_elem P_elem2 P_dom Prop_hypot P_hy1 P_hp1 P_hp2 P_hp3 P_hp4 P_hp5 P_hp6.
Open Scope R_scope.
Local Opaque fadd fsub fmul fdiv of_int M_sqrt.sqrt M_sqrt.sqrtf fcvt.

Lemma hypotf_ordge a b : (0 <= b <= a)%Z -> (a < 0x7f800000)%Z -> exists r, rs_hypotf a b = Some r /\ (finite f32 r = true -> val f32 a <= val f32 r).
Proof.
  intros Hb Ha. destruct (pv f32 w32' a ltac:(change (top f32) with 0x7f800000%Z; lia)) as (BA & FA & _). destruct (pv f32 w32' b ltac:(change (top f32) with 0x7f800000%Z; lia)) as (BB & FB & _).
  destruct (pos_mono f32 w32' a b Hb Ha) as [B0 BA']. 
  assert (GP := ge_pow f32 w32'). assert (LP := le_pow f32 w32'). change (2 ^ ew f32 - 1)%Z with 255%Z in GP, LP. change (bias f32) with 127%Z in GP, LP. change (mw f32) with 23%Z in GP, LP. change (top f32) with 0x7f800000%Z in GP.
  unfold rs_hypotf. rewrite !land_a32. unfold a32. rewrite !Z.mod_small by lia.
  destruct (Z.ltb_spec a b); try lia.
  destruct (Z.eqb_spec b 0x7f800000); [lia|]. destruct (Z.leb_spec 0x7f800000 a); [lia|]. cbn [orb].
  destruct (Z.eqb_spec b 0) as [-> | NB]; cbn [bind].
  { eexists. split; [reflexivity|]. intros G. now apply add_ge. }
  rewrite usub_ok by lia. cbn [bind].
  destruct (Z.leb_spec 0xc800000 (a - b)) as [FR | NR].
  { eexists. split; [reflexivity|]. intros G. now apply add_ge. }
  assert (CORE : forall z x y e, finite f32 z = true -> val f32 z = bpow radix2 (- e) -> isbits f32 x -> isbits f32 y -> finite f32 x = true -> finite f32 y = true -> val f32 x = bpow radix2 e * val f32 a -> val f32 y = bpow radix2 e * val f32 b -> bpow radix2 (-60) <= bpow radix2 e * val f32 b -> bpow radix2 e * val f32 a <= bpow radix2 60 ->
    exists r, (let* v2 := M_sqrt.sqrtf (fcvt f64 f32 (fadd f64 (fmul f64 (fcvt f32 f64 x) (fcvt f32 f64 x)) (fmul f64 (fcvt f32 f64 y) (fcvt f32 f64 y)))) in Some (fmul f32 z v2)) = Some r /\ (finite f32 r = true -> val f32 a <= val f32 r)).
  { intros z x y e FZ VZ Bx By Fx Fy Vx Vy YL XU. pose proof (bpow_gt_0 radix2 e) as E0.
    destruct (hsumf_ge x y Bx By Fx Fy) as (q & Eq & Fq & Q0). { rewrite Vx, Vy. split; [exact YL|]. apply Rmult_le_compat_l; lra. } { now rewrite Vx. }
    rewrite Eq. cbn [bind]. eexists. split; [reflexivity|]. intros G. rewrite (fin_val f32 _ _ _ (fmul_spec f32 z q FZ Fq) G), VZ.
    rewrite <- (repr_rnd f32 (val f32 a) (repr_val f32 a FA)) at 1. apply rnd_le. rewrite Vx in Q0. apply Rle_trans with (bpow radix2 (- e) * (bpow radix2 e * val f32 a)); [|apply Rmult_le_compat_l; [apply bpow_ge_0|exact Q0]].
    rewrite <- Rmult_assoc, <- bpow_plus. replace (- e + e)%Z with 0%Z by lia. cbn [bpow]. lra. }
  destruct (Z.leb_spec 0x5d800000 a) as [C1 | C1].
  - pose proof (GP 162%Z b ltac:(lia) ltac:(lia)) as LB. pose proof (val_lt_max f32 a FA) as UA. rewrite Rabs_pos_eq in UA by lra. change (bias f32 + 1)%Z with 128%Z in UA.
    assert (T : forall v, bpow radix2 (162 - 127) <= v -> v < bpow radix2 128 -> bpow radix2 (-60) <= bpow radix2 (-90) * v /\ bpow radix2 (-90) * v <= bpow radix2 60 /\ bpow radix2 (emin f32 + pr f32 - 1) <= bpow radix2 (-90) * v /\ bpow radix2 (-90) * v < bpow radix2 (bias f32 + 1)).
    { intros v L1 L2. pose proof (bpow_gt_0 radix2 (-90)). assert (bpow radix2 (-90 + (162 - 127)) <= bpow radix2 (-90) * v) by (rewrite bpow_plus; apply Rmult_le_compat_l; lra).
      assert (bpow radix2 (-90) * v <= bpow radix2 (-90 + 128)) by (rewrite bpow_plus; apply Rmult_le_compat_l; lra).
      repeat split. 1, 3: eapply Rle_trans; [|eassumption]; apply bpow_le; vm_compute; discriminate.
      - eapply Rle_trans; [eassumption|]; apply bpow_le; vm_compute; discriminate.
      - eapply Rle_lt_trans; [eassumption|]; apply bpow_lt; vm_compute; reflexivity. }
    destruct (T (val f32 b) LB ltac:(lra)) as (T1 & _ & T2 & T3). destruct (T (val f32 a) ltac:(lra) UA) as (_ & T4 & T5 & T6).
    pose proof (bpow_gt_0 radix2 (162 - 127)).
    destruct (sc_ex f32 w32' 0x12800000 a (-90) eq_refl m90 FA ltac:(lra) (or_intror T5) T6) as (Bx & Fx & Vx). destruct (sc_ex f32 w32' 0x12800000 b (-90) eq_refl m90 FB ltac:(lra) (or_intror T2) T3) as (By & Fy & Vy).
    exact (CORE 0x6c800000%Z _ _ (-90)%Z eq_refl p90 Bx By Fx Fy Vx Vy T1 T4).
  - destruct (Z.ltb_spec b 0x21800000) as [C2 | C2].
    + pose proof (LP 93%Z a ltac:(lia) ltac:(lia)) as UA.
      assert (LB : bpow radix2 (-149) <= val f32 b). { destruct (pos_mono f32 w32' b 1 ltac:(lia) ltac:(change (top f32) with 0x7f800000%Z; lia)) as [_ K]. eapply Rle_trans; [|exact K]. right. unfold val, mag_of. replace (signbit f32 1) with false by reflexivity. replace (expf f32 1) with 0%Z by reflexivity. replace (sigf f32 1) with 1%Z by reflexivity. change (0 =? 0)%Z with true. cbn [sval]. change (1 - bias f32 - mw f32)%Z with (-149)%Z. lra. }
      pose proof (bpow_gt_0 radix2 90). pose proof (bpow_gt_0 radix2 (-149)).
      assert (L1 : bpow radix2 (-60) <= bpow radix2 90 * val f32 b). { apply Rle_trans with (bpow radix2 (90 + -149)); [apply bpow_le; lia|]. rewrite bpow_plus. apply Rmult_le_compat_l; lra. }
      assert (L2 : bpow radix2 90 * val f32 a <= bpow radix2 60). { apply Rle_trans with (bpow radix2 (90 + (93 - 127))); [|apply bpow_le; lia]. rewrite bpow_plus. apply Rmult_le_compat_l; lra. }
      assert (L3 : bpow radix2 60 < bpow radix2 (bias f32 + 1)) by (apply bpow_lt; vm_compute; reflexivity).
      assert (L4 : bpow radix2 90 * val f32 b <= bpow radix2 90 * val f32 a) by (apply Rmult_le_compat_l; lra).
      destruct (sc_ex f32 w32' 0x6c800000 a 90 eq_refl p90 FA ltac:(lra) (or_introl (Pos2Z.is_nonneg _)) ltac:(lra)) as (Bx & Fx & Vx). destruct (sc_ex f32 w32' 0x6c800000 b 90 eq_refl p90 FB ltac:(lra) (or_introl (Pos2Z.is_nonneg _)) ltac:(lra)) as (By & Fy & Vy).
      exact (CORE 0x12800000%Z _ _ 90%Z eq_refl m90 Bx By Fx Fy Vx Vy L1 L2).
    + pose proof (GP 67%Z b ltac:(lia) ltac:(lia)) as LB. pose proof (LP 187%Z a ltac:(lia) ltac:(lia)) as UA.
      apply (CORE 0x3f800000%Z a b 0%Z eq_refl one32v BA BB FA FB); cbn [bpow]; try lra; rewrite Rmult_1_l; [exact LB|exact UA].
Qed.

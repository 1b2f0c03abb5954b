(** expm1f is accurate up to its overflow threshold. *)
From Coq Require Import ZArith Reals Lia Lra Bool List Psatz.
From Flocq Require Import Core.
From Verif Require Import Base Spec SpecFun SpecFun2 SpecExp SpecLog2 SpecExpm1 Format P_format Ieee P_ieee P_real P_neg P_lit P_err P_scalbn P_apx P_poly P_powt P_powt8 P_taylor P_expa1 P_expa4 P_expa5 P_expa7 P_expa8 P_expa9 P_expa10 P_expa11 P_em1 P_em2 P_em3 P_em4 P_em6 P_em7 P_em8 P_expa6 P_expa12 P_elem P_elem2 P_dom P_tot P_gam6 P_exp P_gam4 M_sqrt M_elib M_exp.
Import ListNotations.
Open Scope R_scope.
Local Opaque fadd fsub fmul fdiv of_int rs_expm1f_2.

Lemma expm1f_1_ok x : isbits f32 x -> finite f32 x = true -> -20 <= val f32 x <= 90851 / 1024 ->
  exists z, rs_expm1f_1 x 0x7f000000 (a32 x) (signbit f32 x) = Some z /\ rel_err f32 2 (exp (val f32 x) - 1) z.
Proof.
  intros B Fx H. set (X := val f32 x) in *. pose proof ln2_b as LB. apply Rabs_le_inv in LB. change (2 ^ 86)%Z with 77371252455336267181195264%Z in LB. pose proof ln2_c as LC.
  assert (G1 := a32_ge x 0x3eb17219 B Fx ltac:(split; [discriminate|reflexivity])). assert (G2 := a32_ge x 0x3f851592 B Fx ltac:(split; [discriminate|reflexivity])). assert (G3 := a32_ge x 0x33000000 B Fx ltac:(split; [discriminate|reflexivity])).
  change (0x3eb17219 - 1)%Z with 0x3eb17218%Z in G1. change (0x3f851592 - 1)%Z with 0x3f851591%Z in G2. change (0x33000000 - 1)%Z with 0x32ffffff%Z in G3.
  rewrite w1, w2 in G1. rewrite w4 in G2. rewrite (val_lit f32 0x3f851591 8721809 8388608) in G2 by (vm_compute; reflexivity). rewrite (val_lit f32 0x33000000 1 33554432) in G3 by (vm_compute; reflexivity). rewrite (val_lit f32 0x32ffffff 16777215 562949953421312) in G3 by (vm_compute; reflexivity). fold X in G1, G2, G3.
  assert (L1 : forall n, (n <? a32 x)%Z = (n + 1 <=? a32 x)%Z). { intros n. destruct (Z.ltb_spec n (a32 x)), (Z.leb_spec (n + 1) (a32 x)); try reflexivity; lia. }
  assert (L2 : forall n, (a32 x <? n)%Z = negb (n <=? a32 x)%Z). { intros n. now rewrite Z.leb_antisym, negb_involutive. }
  unfold rs_expm1f_1. rewrite !L1, !L2. change (0x3eb17218 + 1)%Z with 0x3eb17219%Z.
  destruct (0x3eb17219 <=? a32 x)%Z.
  - destruct G1 as [G1 _]. specialize (G1 eq_refl). assert (N : X <> 0) by (intros E; rewrite E, Rabs_R0 in G1; lra). pose proof (sgn_val f32 x B Fx N) as S. fold X in S.
    assert (RED : forall k hi, (Z.abs k <= 151)%Z -> k <> 0%Z -> Rabs (X - IZR k * ln 2) <= 3472 / 10000 -> isbits f32 hi -> finite f32 hi = true -> val f32 hi = X - IZR k * val f32 rs_expm1f_LN2_HI ->
      let lo := fmul f32 (of_int f32 k) rs_expm1f_LN2_LO in exists z, rs_expm1f_2 (fsub f32 hi lo) 0x7f000000 k (fsub f32 (fsub f32 hi (fsub f32 hi lo)) lo) = Some z /\ rel_err f32 2 (exp X - 1) z).
    { intros k hi Hk Nk Hr Bh Fh Vh lo. destruct (em_redf x k hi lo B Fx Hk Hr Bh Fh Vh eq_refl) as (D & P1 & P2 & P3 & P4 & P5 & P6). cbv zeta in P2, P3, P6. fold X in P3, P5, P6.
      pose proof (emf_2_ok _ _ k _ D P1 P2 P3 P4 P5 P6 ltac:(lra) Nk) as Q. replace (X - IZR k * ln 2 + IZR k * ln 2) with X in Q by ring. apply Q. clear Q. apply Rabs_le_inv in Hr.
      assert (K0 : (-100 <= k)%Z). { destruct (Z.leb_spec (-100) k) as [K2 | K2]; [exact K2|exfalso]. assert (K3 : IZR k <= -101) by (apply IZR_le; lia). assert (IZR k * ln 2 <= -101 * ln 2) by (apply Rmult_le_compat_r; lra). lra. }
      destruct (Z.leb_spec k 127) as [K | K]; [left; lia|right].
      assert (K2 : (k <= 128)%Z). { destruct (Z.leb_spec k 128) as [K2 | K2]; [exact K2|exfalso]. assert (K3 : 129 <= IZR k) by (apply IZR_le; lia). assert (129 * ln 2 <= IZR k * ln 2) by (apply Rmult_le_compat_r; lra). lra. }
      assert (k = 128)%Z as -> by lia. split; [reflexivity|]. assert (R1 : X - IZR 128 * ln 2 <= - (115 / 100000)) by lra. apply Rle_trans with (exp (- (115 / 100000))); [now apply exp_mono|].
      pose proof (exp_taylor (- (115 / 100000)) 1 ltac:(apply Rabs_le; lra)) as T1. assert (P0 : forall z, peval (texp 1) z = 1 + z). { intros z. cbn [texp seq map peval fst snd]. change (fz 0) with 1%Z. change (fz 1) with 1%Z. unfold Rdiv. rewrite Rinv_1. ring. } rewrite P0 in T1. change (fz 2) with 2%Z in T1. cbn [pow] in T1. rewrite Rabs_Ropp, (Rabs_pos_eq (115 / 100000)) in T1 by lra. apply Rabs_le_inv in T1. lra. }
    assert (EXA : forall k, (Z.abs k <= 151)%Z -> Rabs (X - IZR k * ln 2) <= 3472 / 10000 -> let hi := fsub f32 x (fmul f32 (of_int f32 k) rs_expm1f_LN2_HI) in isbits f32 hi /\ finite f32 hi = true /\ val f32 hi = X - IZR k * val f32 rs_expm1f_LN2_HI).
    { intros k Hk Hr. destruct lhm32 as [Fh Vh]. apply (red_exact f32 x rs_expm1f_LN2_HI k 90851 (-17) 151 ltac:(vm_compute; discriminate) ltac:(vm_compute; reflexivity) Fx Fh Vh ltac:(lia) ltac:(vm_compute; reflexivity) ltac:(split; vm_compute; discriminate) ltac:(vm_compute; discriminate)); [fold X; lra|]. fold X.
      assert (VH : val f32 rs_expm1f_LN2_HI = 90851 / 131072) by (rewrite Vh; change (bpow radix2 (-17)) with (/ 131072); lra). pose proof (kmul k 151 _ _ Hk ln2_e) as KL. pose proof (kR _ _ Hk) as KK. change (2 ^ 40)%Z with 1099511627776%Z in KL. rewrite VH.
      rewrite !Rmult_minus_distr_l in KL. apply Rabs_le_inv in KL. apply Rabs_le_inv in Hr. apply Rabs_def1; lra. }
    destruct (0x3f851592 <=? a32 x)%Z; cbn [negb]; cbv zeta.
    + destruct G2 as [G2 _]. specialize (G2 eq_refl). destruct (kbigf x B Fx) as [K1 K2]. { fold X. split; [lra|]. apply Rabs_le. lra. } fold X in K2. unfold khalff in K1, K2.
      change rs_expm1f_INV_LN2 with rs_expf_INV_LN2. set (k := to_i32 f32 (fadd f32 (fmul f32 rs_expf_INV_LN2 x) (if signbit f32 x then 0xbf000000 else 0x3f000000))) in *.
      assert (Nk : k <> 0%Z). { intros E. rewrite E in K2. rewrite Rmult_0_l, Rminus_0_r in K2. lra. }
      destruct (EXA k K1 ltac:(lra)) as (Bh & Fh & Vh). exact (RED k _ K1 Nk ltac:(lra) Bh Fh Vh).
    + destruct G2 as [_ G2]. specialize (G2 eq_refl).
      destruct (signbit f32 x) eqn:SB.
      * cbn [negb]. assert (R1 : Rabs (X - IZR (-1) * ln 2) <= 3472 / 10000) by (rewrite Rabs_left in G1, G2 by exact S; apply Rabs_le; lra).
        destruct (EXA (-1)%Z ltac:(lia) R1) as (Bh & Fh & Vh).
        (* the same exact value by an addition *)
        assert (AD : isbits f32 (fadd f32 x rs_expm1f_LN2_HI) /\ finite f32 (fadd f32 x rs_expm1f_LN2_HI) = true /\ val f32 (fadd f32 x rs_expm1f_LN2_HI) = X - IZR (-1) * val f32 rs_expm1f_LN2_HI).
        { destruct lhm32 as [Fc Vc]. pose proof (fadd_spec f32 x rs_expm1f_LN2_HI Fx Fc) as RT. fold X in RT. assert (E : X + val f32 rs_expm1f_LN2_HI = X - IZR (-1) * val f32 rs_expm1f_LN2_HI) by ring. rewrite E, <- Vh in RT.
          destruct (rounds_fin f32 _ _ _ RT) as [G V]. { rewrite Vh, Vc. rewrite Rabs_left in G1, G2 by exact S. apply Rle_trans with (bpow radix2 3); [change (bpow radix2 3) with 8; change (bpow radix2 (-17)) with (/ 131072); apply Rabs_le; lra|apply bpow_le; vm_compute; discriminate]. }
          split; [exact (proj1 RT)|]. split; [exact G|]. rewrite V, (repr_rnd f32 _ (repr_val f32 _ Fh)). exact Vh. }
        destruct AD as (B3 & F3 & V3). pose proof (RED (-1)%Z _ ltac:(lia) ltac:(lia) R1 B3 F3 V3) as Q. cbv zeta in Q.
        replace (fmul f32 (of_int f32 (-1)) rs_expm1f_LN2_LO) with (Format.fneg f32 rs_expm1f_LN2_LO) in Q by (vm_compute; reflexivity). exact Q.
      * cbn [negb]. assert (R1 : Rabs (X - IZR 1 * ln 2) <= 3472 / 10000) by (rewrite Rabs_pos_eq in G1, G2 by lra; apply Rabs_le; lra).
        destruct (EXA 1%Z ltac:(lia) R1) as (Bh & Fh & Vh). pose proof (RED 1%Z _ ltac:(lia) ltac:(lia) R1 Bh Fh Vh) as Q. cbv zeta in Q.
        replace (fmul f32 (of_int f32 1) rs_expm1f_LN2_LO) with rs_expm1f_LN2_LO in Q by (vm_compute; reflexivity). replace (fmul f32 (of_int f32 1) rs_expm1f_LN2_HI) with rs_expm1f_LN2_HI in Q by (vm_compute; reflexivity). exact Q.
  - destruct G1 as [_ G1]. specialize (G1 eq_refl). cbv zeta. destruct (0x33000000 <=? a32 x)%Z; cbn [negb].
    + destruct G3 as [G3 _]. specialize (G3 eq_refl). rewrite expm1f_2_eq. cbn [Z.eqb]. eexists. split; [reflexivity|]. apply em_k0f; try assumption; [|fold X; lra]. fold X. change (bpow radix2 (-26)) with (/ 67108864). lra.
    + destruct G3 as [_ G3]. specialize (G3 eq_refl). exists x. split; [reflexivity|]. apply em_self; [vm_compute; discriminate|exact B|exact Fx|]. fold X. change (bpow radix2 (- mw f32)) with (/ 8388608). lra.
Qed.
Lemma expm1f_within : expm1_upto f32 2 (90851 / 1024) rs_expm1f.
Proof.
  intros x B Fx U. set (X := val f32 x) in *. pose proof ln2_b as LB. apply Rabs_le_inv in LB. change (2 ^ 86)%Z with 77371252455336267181195264%Z in LB.
  assert (G0 := a32_ge x 0x4195b844 B Fx ltac:(split; [discriminate|reflexivity])). change (0x4195b844 - 1)%Z with 0x4195b843%Z in G0.
  rewrite (val_lit f32 0x4195b844 2453009 131072) in G0 by (vm_compute; reflexivity). rewrite (val_lit f32 0x4195b843 9812035 524288) in G0 by (vm_compute; reflexivity). fold X in G0.
  assert (SG : if signbit f32 x then X <= 0 else 0 <= X) by (destruct (signbit f32 x) eqn:S; [now apply val_sign_nonpos|now apply val_sign_nonneg]).
  assert (NN : (0x7f800000 <? a32 x)%Z = false). { pose proof Fx as G. rewrite (fin32 x B) in G. apply Z.ltb_lt in G. apply Z.ltb_ge. lia. }
  unfold rs_expm1f. cbv zeta. rewrite land_a32, (sg32 x B), bs0, NN, negb_involutive. rewrite fgtR by (assumption || reflexivity). change rs_expm1f_O_THRESHOLD with 0x42b17180%Z. rewrite (val_lit f32 0x42b17180 90851 1024) by (vm_compute; reflexivity). fold X. rewrite Rlt_bool_false by exact U.
  destruct (0x4195b844 <=? a32 x)%Z.
  - destruct G0 as [G0 _]. specialize (G0 eq_refl). destruct (signbit f32 x) eqn:S.
    + eexists. split; [reflexivity|]. apply em_neg; [vm_compute; discriminate|split; vm_compute; (reflexivity || discriminate)|reflexivity|rewrite (val_lit f32 0xbf800000 (-1) 1) by (vm_compute; reflexivity); lra|]. change (- mw f32)%Z with (-23)%Z. rewrite <- exp_ln2. apply exp_mono. rewrite Rabs_left1 in G0 by exact SG. lra.
    + rewrite <- S. apply expm1f_1_ok; try assumption. fold X. lra.
  - destruct G0 as [_ G0]. specialize (G0 eq_refl). apply Rabs_le_inv in G0. apply expm1f_1_ok; try assumption. fold X. lra.
Qed.
(** 0x42b17181 is above the threshold in the source, but its exponential is below 2^128 *)
Lemma expm1f_early : rs_expm1f 0x42b17181 = Some (infinity f32 false) /\ exp (val f32 0x42b17181) < bpow radix2 128.
Proof.
  split; [vm_compute; reflexivity|]. rewrite (val_lit f32 0x42b17181 11628929 131072) by (vm_compute; reflexivity). pose proof ln2_b as LB. apply Rabs_le_inv in LB. change (2 ^ 86)%Z with 77371252455336267181195264%Z in LB. rewrite <- exp_ln2. apply exp_increasing. lra.
Qed.
Lemma expm1f_not c : ~ expm1_like f32 c rs_expm1f.
Proof.
  intros H. destruct expm1f_early as [E L]. destruct (H 0x42b17181%Z ltac:(split; vm_compute; (reflexivity || discriminate)) eq_refl) as [[r [R1 (_ & R2 & _)]] _]; [exact L|]. rewrite E in R1. injection R1 as <-. discriminate R2.
Qed.
Lemma expm1f_over x : isbits f32 x -> finite f32 x = true -> 90851 / 1024 < val f32 x -> rs_expm1f x = Some (infinity f32 false).
Proof.
  intros B Fx U. set (X := val f32 x) in *.
  assert (G0 := a32_ge x 0x4195b844 B Fx ltac:(split; [discriminate|reflexivity])). change (0x4195b844 - 1)%Z with 0x4195b843%Z in G0.
  rewrite (val_lit f32 0x4195b843 9812035 524288) in G0 by (vm_compute; reflexivity). fold X in G0.
  assert (SG : signbit f32 x = false). { destruct (signbit f32 x) eqn:S; [|reflexivity]. assert (X <= 0) by (now apply val_sign_nonpos). lra. }
  assert (NN : (0x7f800000 <? a32 x)%Z = false). { pose proof Fx as G. rewrite (fin32 x B) in G. apply Z.ltb_lt in G. apply Z.ltb_ge. lia. }
  unfold rs_expm1f. cbv zeta. rewrite land_a32, (sg32 x B), bs0, NN, negb_involutive. rewrite fgtR by (assumption || reflexivity). change rs_expm1f_O_THRESHOLD with 0x42b17180%Z. rewrite (val_lit f32 0x42b17180 90851 1024) by (vm_compute; reflexivity). fold X. rewrite Rlt_bool_true by exact U. rewrite SG.
  destruct (0x4195b844 <=? a32 x)%Z.
  - f_equal. apply over_mul; [exact Fx|reflexivity|exact w13|fold X; lra].
  - destruct G0 as [_ G0]. specialize (G0 eq_refl). rewrite Rabs_pos_eq in G0 by lra. lra.
Qed.

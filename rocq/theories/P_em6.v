(** expm1 is accurate. *)
From Coq Require Import ZArith Reals Lia Lra Bool List Psatz.
From Flocq Require Import Core.
From Verif Require Import Base Spec SpecFun SpecFun2 SpecExp SpecLog2 SpecExpm1 Format P_format Ieee P_ieee P_real P_neg P_lit P_err P_scalbn P_apx P_poly P_powt P_powt8 P_taylor P_expa1 P_expa4 P_expa5 P_expa7 P_expa8 P_expa9 P_expa10 P_expa11 P_em1 P_em2 P_em3 P_em4 P_em5 P_elem P_elem2 P_dom P_tot P_gam6 P_exp P_gam4 M_sqrt M_elib M_exp.
Import ListNotations.
Open Scope R_scope.
Local Opaque fadd fsub fmul fdiv of_int rs_expm1_2.

(** a tiny x *)
Lemma em_self F x : (4 <= mw F)%Z -> isbits F x -> finite F x = true -> Rabs (val F x) <= bpow radix2 (- mw F) -> rel_err F 2 (exp (val F x) - 1) x.
Proof.
  intros M B G H. split; [exact B|]. split; [exact G|]. set (X := val F x) in *. set (p := bpow radix2 (- mw F)) in *. assert (P : 0 < p <= / 16). { split; [apply bpow_gt_0|]. apply Rle_trans with (bpow radix2 (-4)); [apply bpow_le; lia|]. change (bpow radix2 (-4)) with (/ 16). lra. }
  pose proof (expm1_lo X ltac:(lra)) as LO. pose proof (exp_taylor X 1 ltac:(lra)) as T1. assert (P1 : peval (texp 1) X = 1 + X). { cbn [texp seq map peval fst snd]. change (fz 0) with 1%Z. change (fz 1) with 1%Z. unfold Rdiv. rewrite Rinv_1. ring. } rewrite P1 in T1. change (fz 2) with 2%Z in T1. cbn [pow] in T1.
  rewrite <- Rabs_Ropp in T1. replace (- (exp X - (1 + X))) with (X - (exp X - 1)) in T1 by ring. pose proof (Rabs_pos X). assert (Rabs X * Rabs X <= p * Rabs X) by (apply Rmult_le_compat_r; lra). assert (p * (65 / 100 * Rabs X) <= p * Rabs (exp X - 1)) by (apply Rmult_le_compat_l; lra). assert (0 <= p * Rabs X) by (apply Rmult_le_pos; lra). lra.
Qed.
(** far below zero *)
Lemma em_neg F x : (4 <= mw F)%Z -> isbits F x -> finite F x = true -> val F x = -1 -> forall X, exp X <= bpow radix2 (- mw F) -> rel_err F 2 (exp X - 1) x.
Proof.
  intros M B G V X H. split; [exact B|]. split; [exact G|]. rewrite V. set (p := bpow radix2 (- mw F)) in *. assert (P : 0 < p <= / 16). { split; [apply bpow_gt_0|]. apply Rle_trans with (bpow radix2 (-4)); [apply bpow_le; lia|]. change (bpow radix2 (-4)) with (/ 16). lra. }
  pose proof (exp_pos X). replace (-1 - (exp X - 1)) with (- exp X) by ring. rewrite Rabs_Ropp, (Rabs_pos_eq (exp X)), (Rabs_left (exp X - 1)) by lra. nra.
Qed.
Lemma expm1_1_ok x : isbits f64 x -> finite f64 x = true -> -40 <= val f64 x <= 6243314768165359 / 8796093022208 ->
  exists z, rs_expm1_1 x (a64 x / 2 ^ 32) (bs (signbit f64 x)) = Some z /\ rel_err f64 2 (exp (val f64 x) - 1) z.
Proof.
  intros B Fx H. set (X := val f64 x) in *. pose proof ln2_b as LB. apply Rabs_le_inv in LB. change (2 ^ 86)%Z with 77371252455336267181195264%Z in LB. pose proof ln2_c as LC.
  assert (G1 := a64_ge x 0x3fd62e4300000000 B Fx ltac:(split; [discriminate|reflexivity])). assert (G2 := a64_ge x 0x3ff0a2b200000000 B Fx ltac:(split; [discriminate|reflexivity])). assert (G3 := a64_ge x 0x3c90000000000000 B Fx ltac:(split; [discriminate|reflexivity])).
  change (0x3fd62e4300000000 - 1)%Z with 0x3fd62e42ffffffff%Z in G1. change (0x3ff0a2b200000000 - 1)%Z with 0x3ff0a2b1ffffffff%Z in G2. change (0x3c90000000000000 - 1)%Z with 0x3c8fffffffffffff%Z in G3.
  rewrite v1, v2 in G1. rewrite v3, v4 in G2. rewrite (val_lit f64 0x3c90000000000000 1 (2 ^ 54)) in G3 by (vm_compute; reflexivity). rewrite (val_lit f64 0x3c8fffffffffffff (2 ^ 53 - 1) (2 ^ 107)) in G3 by (vm_compute; reflexivity). fold X in G1, G2, G3.
  assert (L1 : forall n, (n <? a64 x / 2 ^ 32)%Z = (n + 1 <=? a64 x / 2 ^ 32)%Z). { intros n. destruct (Z.ltb_spec n (a64 x / 2 ^ 32)), (Z.leb_spec (n + 1) (a64 x / 2 ^ 32)); try reflexivity; lia. }
  assert (L2 : forall n, (a64 x / 2 ^ 32 <? n)%Z = negb (n <=? a64 x / 2 ^ 32)%Z). { intros n. now rewrite Z.leb_antisym, negb_involutive. }
  unfold rs_expm1_1. rewrite bs0, negb_involutive. rewrite !L1, !L2. rewrite !hi_le by discriminate. change ((0x3fd62e42 + 1) * 2 ^ 32)%Z with 0x3fd62e4300000000%Z. change (0x3ff0a2b2 * 2 ^ 32)%Z with 0x3ff0a2b200000000%Z. change (0x3c900000 * 2 ^ 32)%Z with 0x3c90000000000000%Z.
  destruct (0x3fd62e4300000000 <=? a64 x)%Z.
  - destruct G1 as [G1 _]. specialize (G1 eq_refl). assert (N : X <> 0) by (intros E; rewrite E, Rabs_R0 in G1; lra). pose proof (sgn_val f64 x B Fx N) as S. fold X in S.
    assert (RED : forall k hi, (Z.abs k <= 1077)%Z -> k <> 0%Z -> Rabs (X - IZR k * ln 2) <= 3472 / 10000 -> isbits f64 hi -> finite f64 hi = true -> val f64 hi = X - IZR k * val f64 rs_exp_LN2HI ->
      let lo := fmul f64 (of_int f64 k) rs_exp_LN2LO in exists z, rs_expm1_2 (fsub f64 hi lo) k (fsub f64 (fsub f64 hi (fsub f64 hi lo)) lo) = Some z /\ rel_err f64 2 (exp X - 1) z).
    { intros k hi Hk Nk Hr Bh Fh Vh lo. destruct (em_red x k hi lo B Fx Hk Hr Bh Fh Vh eq_refl) as (D & P1 & P2 & P3 & P4 & P5 & P6). cbv zeta in P2, P3, P6. fold X in P3, P5, P6.
      pose proof (em_2_ok _ _ k _ D P1 P2 P3 P4 P5 P6 ltac:(lra) Nk) as Q. replace (X - IZR k * ln 2 + IZR k * ln 2) with X in Q by ring. apply Q. clear Q. apply Rabs_le_inv in Hr.
      assert (K0 : (-100 <= k)%Z). { destruct (Z.leb_spec (-100) k) as [K2 | K2]; [exact K2|exfalso]. assert (K3 : IZR k <= -101) by (apply IZR_le; lia). assert (IZR k * ln 2 <= -101 * ln 2) by (apply Rmult_le_compat_r; lra). lra. }
      destruct (Z.leb_spec k 1023) as [K | K]; [left; lia|right].
      assert (K2 : (k <= 1024)%Z). { destruct (Z.leb_spec k 1024) as [K2 | K2]; [exact K2|exfalso]. assert (K3 : 1025 <= IZR k) by (apply IZR_le; lia). assert (1025 * ln 2 <= IZR k * ln 2) by (apply Rmult_le_compat_r; lra). lra. }
      assert (k = 1024)%Z as -> by lia. split; [reflexivity|]. change (2 ^ 52)%Z with 4503599627370496%Z.
      assert (R1 : X - IZR 1024 * ln 2 <= - / 2251799813685248) by lra. apply Rle_trans with (exp (- / 2251799813685248)); [now apply exp_mono|].
      pose proof (exp_taylor (- / 2251799813685248) 1 ltac:(apply Rabs_le; lra)) as T1. assert (P0 : forall z, peval (texp 1) z = 1 + z). { intros z. cbn [texp seq map peval fst snd]. change (fz 0) with 1%Z. change (fz 1) with 1%Z. unfold Rdiv. rewrite Rinv_1. ring. } rewrite P0 in T1. change (fz 2) with 2%Z in T1. cbn [pow] in T1. rewrite Rabs_Ropp, (Rabs_pos_eq (/ 2251799813685248)) in T1 by lra. apply Rabs_le_inv in T1. lra. }
    assert (EXA : forall k, (Z.abs k <= 1077)%Z -> Rabs (X - IZR k * ln 2) <= 3472 / 10000 -> let hi := fsub f64 x (fmul f64 (of_int f64 k) rs_exp_LN2HI) in isbits f64 hi /\ finite f64 hi = true /\ val f64 hi = X - IZR k * val f64 rs_exp_LN2HI).
    { intros k Hk Hr. destruct lhi64 as [Fh Vh]. apply (red_exact f64 x rs_exp_LN2HI k 2977044471 (-32) 1077 ltac:(vm_compute; discriminate) ltac:(vm_compute; reflexivity) Fx Fh Vh ltac:(lia) ltac:(vm_compute; reflexivity) ltac:(split; vm_compute; discriminate) ltac:(vm_compute; discriminate)); [fold X; lra|]. fold X.
      assert (VH : val f64 rs_exp_LN2HI = 2977044471 / 4294967296) by (rewrite Vh; change (bpow radix2 (-32)) with (/ 4294967296); lra). pose proof (kmul k 1077 _ _ Hk ln2_b) as KL. pose proof (kR _ _ Hk) as KK. change (2 ^ 86)%Z with 77371252455336267181195264%Z in KL. rewrite VH.
      rewrite !Rmult_minus_distr_l in KL. apply Rabs_le_inv in KL. apply Rabs_le_inv in Hr. apply Rabs_def1; lra. }
    destruct (0x3ff0a2b200000000 <=? a64 x)%Z; cbn [negb]; cbv zeta.
    + destruct G2 as [G2 _]. specialize (G2 eq_refl). destruct (kbig x B Fx) as [K1 K2]. { fold X. split; [lra|]. apply Rabs_le. lra. } fold X in K2. unfold khalf in K1, K2.
      change rs_expm1_INVLN2 with rs_exp_INVLN2. set (k := to_i32 f64 (fadd f64 (fmul f64 rs_exp_INVLN2 x) (if signbit f64 x then 0xbfe0000000000000 else 0x3fe0000000000000))) in *.
      assert (Nk : k <> 0%Z). { intros E. rewrite E in K2. rewrite Rmult_0_l, Rminus_0_r in K2. lra. }
      destruct (EXA k K1 ltac:(lra)) as (Bh & Fh & Vh). exact (RED k _ K1 Nk ltac:(lra) Bh Fh Vh).
    + destruct G2 as [_ G2]. specialize (G2 eq_refl).
      destruct (signbit f64 x) eqn:SB.
      * cbn [negb]. assert (R1 : Rabs (X - IZR (-1) * ln 2) <= 3472 / 10000) by (rewrite Rabs_left in G1, G2 by exact S; apply Rabs_le; lra).
        destruct (EXA (-1)%Z ltac:(lia) R1) as (Bh & Fh & Vh).
        (* the same exact value by an addition *)
        assert (AD : isbits f64 (fadd f64 x rs_exp_LN2HI) /\ finite f64 (fadd f64 x rs_exp_LN2HI) = true /\ val f64 (fadd f64 x rs_exp_LN2HI) = X - IZR (-1) * val f64 rs_exp_LN2HI).
        { destruct lhi64 as [Fc Vc]. pose proof (fadd_spec f64 x rs_exp_LN2HI Fx Fc) as RT. fold X in RT. assert (E : X + val f64 rs_exp_LN2HI = X - IZR (-1) * val f64 rs_exp_LN2HI) by ring. rewrite E, <- Vh in RT.
          destruct (rounds_fin f64 _ _ _ RT) as [G V]. { rewrite Vh, Vc. rewrite Rabs_left in G1, G2 by exact S. apply Rle_trans with (bpow radix2 3); [change (bpow radix2 3) with 8; change (bpow radix2 (-32)) with (/ 4294967296); apply Rabs_le; lra|apply bpow_le; vm_compute; discriminate]. }
          split; [exact (proj1 RT)|]. split; [exact G|]. rewrite V, (repr_rnd f64 _ (repr_val f64 _ Fh)). exact Vh. }
        destruct AD as (B3 & F3 & V3). pose proof (RED (-1)%Z _ ltac:(lia) ltac:(lia) R1 B3 F3 V3) as Q. cbv zeta in Q.
        replace (fmul f64 (of_int f64 (-1)) rs_exp_LN2LO) with (Format.fneg f64 rs_expm1_LN2_LO) in Q by (vm_compute; reflexivity). exact Q.
      * cbn [negb]. assert (R1 : Rabs (X - IZR 1 * ln 2) <= 3472 / 10000) by (rewrite Rabs_pos_eq in G1, G2 by lra; apply Rabs_le; lra).
        destruct (EXA 1%Z ltac:(lia) R1) as (Bh & Fh & Vh). pose proof (RED 1%Z _ ltac:(lia) ltac:(lia) R1 Bh Fh Vh) as Q. cbv zeta in Q.
        replace (fmul f64 (of_int f64 1) rs_exp_LN2LO) with rs_expm1_LN2_LO in Q by (vm_compute; reflexivity). replace (fmul f64 (of_int f64 1) rs_exp_LN2HI) with rs_expm1_LN2_HI in Q by (vm_compute; reflexivity). exact Q.
  - destruct G1 as [_ G1]. specialize (G1 eq_refl). cbv zeta. destruct (0x3c90000000000000 <=? a64 x)%Z; cbn [negb].
    + destruct G3 as [G3 _]. specialize (G3 eq_refl). rewrite expm1_2_eq. cbn [Z.eqb]. eexists. split; [reflexivity|]. apply em_k0; try assumption; [|fold X; lra]. fold X. eapply Rle_trans; [|exact G3]. change (2 ^ 54)%Z with 18014398509481984%Z. change (bpow radix2 (-60)) with (/ 1152921504606846976). lra.
    + destruct G3 as [_ G3]. specialize (G3 eq_refl). exists x. split; [reflexivity|]. apply em_self; [vm_compute; discriminate|exact B|exact Fx|]. fold X. eapply Rle_trans; [exact G3|]. change (2 ^ 53 - 1)%Z with 9007199254740991%Z. change (2 ^ 107)%Z with 162259276829213363391578010288128%Z. change (bpow radix2 (- mw f64)) with (/ 4503599627370496). lra.
Qed.
Lemma expm1_within : expm1_like f64 2 rs_expm1.
Proof.
  intros x B Fx. set (X := val f64 x) in *. pose proof ln2_b as LB. apply Rabs_le_inv in LB. change (2 ^ 86)%Z with 77371252455336267181195264%Z in LB.
  assert (G0 := a64_ge x 0x4043687a00000000 B Fx ltac:(split; [discriminate|reflexivity])). change (0x4043687a00000000 - 1)%Z with 0x40436879ffffffff%Z in G0.
  rewrite (val_lit f64 0x4043687a00000000 0x9b43d 0x4000) in G0 by (vm_compute; reflexivity). rewrite (val_lit f64 0x40436879ffffffff 0x136879ffffffff 0x800000000000) in G0 by (vm_compute; reflexivity). fold X in G0.
  assert (SG : if signbit f64 x then X <= 0 else 0 <= X) by (destruct (signbit f64 x) eqn:S; [now apply val_sign_nonpos|now apply val_sign_nonneg]).
  assert (RW : rs_expm1 x = if (0x4043687a00000000 <=? a64 x)%Z then if signbit f64 x then Some 0xbff0000000000000%Z else if Rlt_bool (6243314768165359 / 8796093022208) X then Some (fmul f64 x 0x7fe0000000000000) else rs_expm1_1 x (a64 x / 2 ^ 32) (bs (signbit f64 x)) else rs_expm1_1 x (a64 x / 2 ^ 32) (bs (signbit f64 x))).
  { unfold rs_expm1. cbv zeta. words64 x B. rewrite negb_involutive. rewrite hi_le by discriminate. change (0x4043687a * 2 ^ 32)%Z with 0x4043687a00000000%Z. rewrite is_nan_eq, (finite_not_nan f64 x Fx) by assumption. rewrite fgtR by (assumption || reflexivity). change rs_expm1_O_THRESHOLD with 0x40862e42fefa39ef%Z. rewrite v6. reflexivity. }
  rewrite RW. clear RW.
  destruct (Rle_lt_dec X (6243314768165359 / 8796093022208)) as [U | U].
  - assert (E1 : exp X < bpow radix2 (bias f64 + 1)). { change (bias f64 + 1)%Z with 1024%Z. rewrite <- exp_ln2. apply exp_increasing. lra. }
    split; [intros _|lra]. rewrite Rlt_bool_false by exact U.
    destruct (0x4043687a00000000 <=? a64 x)%Z.
    + destruct G0 as [G0 _]. specialize (G0 eq_refl). destruct (signbit f64 x) eqn:S.
      * eexists. split; [reflexivity|]. apply em_neg; [vm_compute; discriminate|split; vm_compute; (reflexivity || discriminate)|reflexivity|rewrite (val_lit f64 0xbff0000000000000 (-1) 1) by (vm_compute; reflexivity); lra|]. change (- mw f64)%Z with (-52)%Z. rewrite <- exp_ln2. apply exp_mono. rewrite Rabs_left1 in G0 by exact SG. lra.
      * rewrite <- S. apply expm1_1_ok; try assumption. fold X. lra.
    + destruct G0 as [_ G0]. specialize (G0 eq_refl). apply Rabs_le_inv in G0. apply expm1_1_ok; try assumption. fold X. lra.
  - pose proof (P_expa11.big64 x B Fx U) as U2. fold X in U2. assert (E1 : bpow radix2 (bias f64 + 1) <= exp X). { change (bias f64 + 1)%Z with 1024%Z. rewrite <- exp_ln2. apply exp_mono. lra. }
    split; [lra|intros _]. destruct (signbit f64 x) eqn:S; [lra|]. rewrite Rlt_bool_true by exact U. destruct (0x4043687a00000000 <=? a64 x)%Z.
    + f_equal. apply over_mul; [exact Fx|reflexivity|exact v13|fold X; lra].
    + destruct G0 as [_ G0]. specialize (G0 eq_refl). rewrite Rabs_pos_eq in G0 by lra. lra.
Qed.

(** Proofs about the software fma: operand decoding, special values, main theorem. *)
From Coq Require Import ZArith Reals Lia Lra Bool.
From Flocq Require Import Core.
From Verif Require Import Base Spec SpecFun2 Format P_format Ieee P_ieee P_real P_key P_round P_round2 P_bits P_trait
  P_neg P_fmod P_remquo M_basic M_scalbn P_scalbn P_near M_fma P_fma P_fma2 P_fma3.
Open Scope Z_scope.

(** ** infinities and NaNs in products and sums *)
Lemma fmul_inf_zero F x y : isinf F x = true -> iszero F y = true -> isnan F (fmul F x y) = true.
Proof. intros Hx Hy. unfold fmul. rewrite (dec_isinf F x Hx), (dec_iszero F y Hy). rewrite nan_enc. reflexivity. Qed.
Lemma fmul_zero_inf F x y : iszero F x = true -> isinf F y = true -> isnan F (fmul F x y) = true.
Proof. intros Hx Hy. unfold fmul. rewrite (dec_isinf F y Hy), (dec_iszero F x Hx). rewrite nan_enc. reflexivity. Qed.
Lemma fadd_inf_r F x y : finite F x = true -> isinf F y = true -> fadd F x y = infinity F (signbit F y).
Proof.
  intros Hx Hy. unfold fadd. rewrite (dec_isinf F y Hy). rewrite <- finite_dec in Hx.
  rewrite <- enc_inf. destruct (dec F x); try discriminate Hx; reflexivity.
Qed.
Lemma fadd_inf_inf F x y : isinf F x = true -> isinf F y = true ->
  (signbit F x = signbit F y -> fadd F x y = infinity F (signbit F x)) /\
  (signbit F x <> signbit F y -> isnan F (fadd F x y) = true).
Proof.
  intros Hx Hy. unfold fadd. rewrite (dec_isinf F x Hx), (dec_isinf F y Hy). cbn [Binary.Bplus].
  destruct (signbit F x), (signbit F y); cbn [Bool.eqb]; split; intros H; try congruence; try (now rewrite <- enc_inf); rewrite nan_enc; reflexivity.
Qed.
Lemma iszero_false_val F x : finite F x = true -> iszero F x = false -> val F x <> 0%R.
Proof.
  intros Hx Hz K. assert (M : mag_of F (expf F x) (sigf F x) = 0%R).
  { unfold val in K. destruct (signbit F x); cbn [sval] in K; lra. }
  unfold mag_of in M. unfold iszero in Hz. pose proof (fields_range F x). pose proof (pow_mw_ge F).
  destruct (Z.eqb_spec (expf F x) 0); apply Rmult_integral in M; destruct M as [M|M];
    try (apply eq_IZR in M); try (rewrite M in Hz; discriminate Hz); try lia;
    match type of M with bpow _ ?e = _ => pose proof (bpow_gt_0 radix2 e); lra end.
Qed.
Lemma fmul_inf_r F x y : isinf F y = true -> isnan F x = false -> iszero F x = false ->
  fmul F x y = infinity F (xorb (signbit F x) (signbit F y)).
Proof.
  intros Hy Nx Zx. unfold fmul. rewrite (dec_isinf F y Hy).
  rewrite <- (sign_dec F x). rewrite <- nan_dec in Nx.
  assert (Z' : Binary.is_finite _ _ (dec F x) = true -> Binary.B2R _ _ (dec F x) = 0%R -> False).
  { intros Hf Hv. rewrite finite_dec in Hf. rewrite B2R_dec in Hv by assumption. now apply (iszero_false_val F x). }
  destruct (dec F x) as [s|s|s pl Hp|s m e Hb]; try discriminate Nx.
  - exfalso. apply Z'; reflexivity.
  - simpl. rewrite <- enc_inf. reflexivity.
  - simpl. rewrite <- enc_inf. reflexivity.
Qed.
Lemma isinf_not_finite F x : isinf F x = true -> finite F x = false.
Proof. destruct (class_cases F x) as [H|[H|H]]; intuition congruence. Qed.
Lemma isnan_not_finite F x : isnan F x = true -> finite F x = false.
Proof. destruct (class_cases F x) as [H|[H|H]]; intuition congruence. Qed.
Lemma isinf_not_nan F x : isinf F x = true -> isnan F x = false.
Proof. destruct (class_cases F x) as [H|[H|H]]; intuition congruence. Qed.

(** the unfused expression treats infinities and NaNs as fma should *)
Lemma mul_add_special F x y z : isbits F x -> isbits F y -> isbits F z ->
  (finite F x = true -> finite F y = true -> isinf F z = true -> finite F (fmul F x y) = true) ->
  fma_special F x y z (fadd F (fmul F x y) z).
Proof.
  intros Bx By Bz HF.
  assert (NN : isnan F (fmul F x y) = true -> isnan F (fadd F (fmul F x y) z) = true).
  { intros H. apply fadd_nan. now rewrite H. }
  assert (PI : prodinf F x y -> fmul F x y = infinity F (xorb (signbit F x) (signbit F y))).
  { intros [(A & B & C)|(A & B & C)]; [now apply fmul_inf_l|now apply fmul_inf_r]. }
  assert (PI' : prodinf F x y -> isinf F (fmul F x y) = true /\ signbit F (fmul F x y) = xorb (signbit F x) (signbit F y)).
  { intros H. rewrite (PI H). destruct (infinity_fields F (xorb (signbit F x) (signbit F y))) as (A & B & C & D). tauto. }
  split; [apply fadd_isbits|]. split.
  { intros [H|[H|H]]; [apply NN, fmul_nan; now rewrite H|apply NN, fmul_nan; rewrite H; apply orb_true_r|apply fadd_nan; rewrite H; apply orb_true_r]. }
  split; [intros; now apply NN, fmul_inf_zero|]. split; [intros; now apply NN, fmul_zero_inf|].
  split. { intros H Fz. destruct (PI' H) as [I S]. rewrite <- S. now apply fadd_inf_l. }
  split. { intros H Iz Sz. destruct (PI' H) as [I S]. destruct (fadd_inf_inf F _ z I Iz) as [G _].
    rewrite G by congruence. rewrite S, <- Sz. symmetry. now apply isinf_eq. }
  split. { intros H Iz Sz. destruct (PI' H) as [I S]. destruct (fadd_inf_inf F _ z I Iz) as [_ G]. apply G. congruence. }
  intros Fx Fy Iz. rewrite fadd_inf_r by auto. symmetry. now apply isinf_eq.
Qed.

Section Fma.
Variable F : fmt.
Notation w := (width F).
Hypothesis HC : fma_fmt F.
Let C1 : ew F <= mw F. Proof. apply HC. Qed.
Let C2 : w <= bias F. Proof. apply HC. Qed.
Let HW : w = mw F + ew F + 1. Proof. unfold width. lia. Qed.

Lemma ZIN_eq : to_i 32 (ZERO_INF_NAN F) = bias F - mw F.
Proof.
  pose proof (fmt_facts F). pose proof (bias_facts F). unfold ZERO_INF_NAN, EXP_UNBIAS, SIG_BITS. rewrite EXP_SAT_eq, EXP_BIAS_eq.
  rewrite to_i32_small by lia. lia.
Qed.
Lemma normal_sig s : 0 <= s < 2 ^ mw F -> ushl w (Z.lor s (IMPLICIT_BIT F)) 1 = Some ((2 ^ mw F + s) * 2) /\
  2 ^ (mw F + 1) <= (2 ^ mw F + s) * 2 < 2 ^ (mw F + 2).
Proof.
  intros Hs. pose proof (fmt_facts F). rewrite IMPLICIT_BIT_eq.
  assert (P1 : 2 ^ (mw F + 1) = 2 * 2 ^ mw F) by (rewrite <- Z.pow_succ_r by lia; f_equal; lia).
  assert (P2 : 2 ^ (mw F + 2) = 2 * 2 ^ (mw F + 1)) by (rewrite <- Z.pow_succ_r by lia; f_equal; lia).
  assert (P3 : 2 ^ (mw F + 2) <= 2 ^ w) by (apply Z.pow_le_mono_r; lia).
  replace (Z.lor s (2 ^ mw F)) with (2 ^ mw F + s).
  2:{ rewrite Z.lor_comm. replace (2 ^ mw F) with (1 * 2 ^ mw F) at 2 by lia. rewrite lor_disjoint by lia. lia. }
  rewrite ushl_ok by lia. change (2 ^ 1) with 2. rewrite Z.mod_small by lia. split; [reflexivity|lia].
Qed.

Lemma from_float_ok x : isbits F x -> exists m e, from_float F x = Some (m, e, signbit F x) /\
  - 2 ^ 17 <= e <= 2 ^ 17 /\
  ((finite F x = true /\ iszero F x = false /\ e < bias F - mw F /\ normal_form F x m e /\ exists c, m = c * 2) \/
   (iszero F x = true /\ bias F - mw F < e) \/
   (finite F x = false /\ e = bias F - mw F)).
Proof.
  intros Bx. pose proof (fmt_facts F) as HF. pose proof (bias_facts F) as HB. pose proof (fields_range F x) as HR.
  unfold from_float. rewrite ex_ok by assumption. cbn [bind]. rewrite to_i32_small by lia. rewrite is_sign_negative_eq by assumption.
  change (BITS F) with w. unfold EXP_UNBIAS, SIG_BITS. rewrite EXP_BIAS_eq. rewrite (to_i32_small (bias F + mw F + 1)) by lia.
  rewrite SIG_MASK_eq. unfold ssub.
  destruct (Z.eqb_spec (expf F x) 0) as [E0|E0].
  - assert (Fx : finite F x = true) by (apply finite_iff; lia).
    replace (w - 1 + bias F) with (bias F + (w - 1)) by lia. rewrite pow2f_parts by lia. cbn [bind].
    destruct (scale_up F x (w - 1) ltac:(lia) Fx) as (B1 & S1 & V1).
    assert (VX : val F x = sval (signbit F x) (IZR (sigf F x) * bpow radix2 (1 - bias F - mw F))).
    { unfold val, mag_of. now rewrite E0. }
    assert (V2 : finite F (fmul F x (pow2f F (w - 1))) = true /\ val F (fmul F x (pow2f F (w - 1))) = (val F x * bpow radix2 (w - 1))%R).
    { destruct V1 as [V1|[_ V1]]; [exact V1|exfalso]. revert V1. apply Rlt_not_le. rewrite VX, Rabs_mult, (Rabs_pos_eq (bpow _ (w - 1))) by apply bpow_ge_0.
      assert (A : (Rabs (sval (signbit F x) (IZR (sigf F x) * bpow radix2 (1 - bias F - mw F))) < bpow radix2 (1 - bias F))%R).
      { assert (0 <= IZR (sigf F x) * bpow radix2 (1 - bias F - mw F))%R by (apply Rmult_le_pos; [apply IZR_le; lia|apply bpow_ge_0]).
        assert (IZR (sigf F x) * bpow radix2 (1 - bias F - mw F) < bpow radix2 (1 - bias F))%R.
        { replace (1 - bias F) with (mw F + (1 - bias F - mw F)) at 2 by lia. rewrite (bpow_plus _ (mw F)). apply Rmult_lt_compat_r; [apply bpow_gt_0|].
          rewrite <- IZR_pow2 by lia. apply IZR_lt. lia. }
        destruct (signbit F x); cbn [sval]; rewrite ?Rabs_Ropp, Rabs_pos_eq; assumption. }
      apply Rlt_le_trans with (bpow radix2 (1 - bias F) * bpow radix2 (w - 1))%R; [apply Rmult_lt_compat_r; [apply bpow_gt_0|exact A]|].
      rewrite bp_split. apply bpow_le. lia. }
    clear V1. destruct V2 as [F2 V2]. set (y := fmul F x (pow2f F (w - 1))) in *. pose proof (fields_range F y) as RY.
    rewrite ex_ok by assumption. cbn [bind]. rewrite to_i32_small by lia. rewrite to_i32_small by lia.
    destruct (normal_sig (sigf F y) ltac:(lia)) as [N1 N2].
    destruct (Z.eqb_spec (sigf F x) 0) as [Z0|Z0].
    + assert (Zx : iszero F x = true) by (unfold iszero; now rewrite E0, Z0).
      assert (VY : val F y = 0%R) by (rewrite V2, iszero_val by assumption; ring).
      assert (Zy : iszero F y = true) by (destruct (iszero F y) eqn:Q; [reflexivity|]; exfalso; now apply (iszero_false_val F y)).
      assert (EY : expf F y = 0) by (unfold iszero in Zy; apply andb_true_iff in Zy; now apply Z.eqb_eq).
      rewrite EY. cbn [Z.eqb bind]. rewrite EXP_BITS_eq, Z.shiftl_mul_pow2, Z.mul_1_l by lia.
      rewrite chk_ok by lia. cbn [bind]. rewrite land_pow2m1 by lia. fold (sigf F y). rewrite N1. cbn [bind]. do 2 eexists. split; [reflexivity|]. split; [lia|].
      right. left. split; [assumption|lia].
    + assert (EY : expf F y <> 0).
      { intros EY. assert (A : (Rabs (val F y) < bpow radix2 (1 - bias F))%R).
        { unfold val. rewrite EY. pose proof (mag_of_lt_exp F 0 (sigf F y) ltac:(lia) ltac:(lia)) as G. cbn [Z.eqb] in G.
          pose proof (mag_of_nonneg F 0 (sigf F y) ltac:(lia)).
          destruct (signbit F y); cbn [sval]; rewrite ?Rabs_Ropp, Rabs_pos_eq; try assumption; eapply Rlt_le_trans; try exact G; apply bpow_le; lia. }
        revert A. apply Rle_not_lt. rewrite V2, Rabs_mult, (Rabs_pos_eq (bpow _ (w - 1))) by apply bpow_ge_0.
        assert (A : (bpow radix2 (1 - bias F - mw F) <= Rabs (val F x))%R).
        { rewrite VX. assert (1 * bpow radix2 (1 - bias F - mw F) <= IZR (sigf F x) * bpow radix2 (1 - bias F - mw F))%R.
          { apply Rmult_le_compat_r; [apply bpow_ge_0|apply IZR_le; lia]. }
          pose proof (bpow_gt_0 radix2 (1 - bias F - mw F)). destruct (signbit F x); cbn [sval]; rewrite ?Rabs_Ropp, Rabs_pos_eq; lra. }
        apply Rle_trans with (bpow radix2 (1 - bias F - mw F) * bpow radix2 (w - 1))%R; [|apply Rmult_le_compat_r; [apply bpow_ge_0|exact A]].
        rewrite bp_split. apply bpow_le. lia. }
      rewrite (proj2 (Z.eqb_neq _ _)) by exact EY. rewrite chk_ok by lia. cbn [bind]. rewrite chk_ok by lia. cbn [bind].
      rewrite land_pow2m1 by lia. fold (sigf F y). rewrite N1. cbn [bind]. do 2 eexists. split; [reflexivity|]. split; [lia|]. left.
      assert (LY : (Rabs (val F y) < bpow radix2 (w - bias F))%R).
      { rewrite V2, VX, Rabs_mult, (Rabs_pos_eq (bpow _ (w - 1))) by apply bpow_ge_0.
        replace (w - bias F) with (1 - bias F + (w - 1)) by lia. rewrite (bpow_plus _ (1 - bias F)). apply Rmult_lt_compat_r; [apply bpow_gt_0|].
        assert (0 <= IZR (sigf F x) * bpow radix2 (1 - bias F - mw F))%R by (apply Rmult_le_pos; [apply IZR_le; lia|apply bpow_ge_0]).
        assert (IZR (sigf F x) * bpow radix2 (1 - bias F - mw F) < bpow radix2 (1 - bias F))%R.
        { replace (1 - bias F) with (mw F + (1 - bias F - mw F)) at 2 by lia. rewrite (bpow_plus _ (mw F)). apply Rmult_lt_compat_r; [apply bpow_gt_0|].
          rewrite <- IZR_pow2 by lia. apply IZR_lt. lia. }
        destruct (signbit F x); cbn [sval]; rewrite ?Rabs_Ropp, Rabs_pos_eq; assumption. }
      assert (EYB : expf F y < w).
      { pose proof (mag_of_ge_exp F (expf F y) (sigf F y) ltac:(lia) ltac:(lia)) as G.
        assert (bpow radix2 (expf F y - bias F) < bpow radix2 (w - bias F))%R.
        { apply Rle_lt_trans with (2 := LY). unfold val. pose proof (mag_of_nonneg F (expf F y) (sigf F y) ltac:(lia)).
          destruct (signbit F y); cbn [sval]; rewrite ?Rabs_Ropp, Rabs_pos_eq; assumption. }
        apply lt_bpow in H. lia. }
      split; [assumption|]. split; [unfold iszero; rewrite (proj2 (Z.eqb_neq (sigf F x) 0)) by assumption; apply andb_false_r|].
      split; [lia|]. split; [|now eexists]. split; [exact N2|].
      assert (VX2 : val F x = (val F y * bpow radix2 (1 - w))%R).
      { rewrite V2, Rmult_assoc, bp_split. replace (w - 1 + (1 - w)) with 0 by lia. cbn [bpow]. ring. }
      rewrite VX2. unfold val. rewrite S1, <- sval_scale. f_equal. unfold mag_of. rewrite (proj2 (Z.eqb_neq _ _)) by exact EY.
      rewrite mult_IZR, !Rmult_assoc. f_equal. change 2%R with (bpow radix2 1). rewrite !bp_split. f_equal. lia.
  - cbn [bind]. rewrite chk_ok by lia. cbn [bind]. rewrite land_pow2m1 by lia. fold (sigf F x).
    destruct (normal_sig (sigf F x) ltac:(lia)) as [N1 N2]. rewrite N1. cbn [bind]. do 2 eexists. split; [reflexivity|]. split; [lia|].
    destruct (finite F x) eqn:Fx.
    + pose proof (proj1 (finite_iff F x) Fx). left. split; [reflexivity|].
      split; [unfold iszero; now rewrite (proj2 (Z.eqb_neq (expf F x) 0))|]. split; [lia|]. split; [|now eexists]. split; [exact N2|].
      unfold val. f_equal. unfold mag_of. rewrite (proj2 (Z.eqb_neq _ _)) by exact E0.
      rewrite mult_IZR, !Rmult_assoc. f_equal. change 2%R with (bpow radix2 1). rewrite !bp_split. f_equal. lia.
    + right. right. split; [reflexivity|]. unfold finite in Fx. apply Z.ltb_ge in Fx. lia.
Qed.

(** ** dropping the bits the alignment forgets *)
Lemma align_drop P P' nzm nze e0 : 0 <= P -> 0 <= P' -> - 2 ^ 18 <= e0 <= 2 ^ 18 -> - 2 ^ 18 <= nze <= 2 ^ 18 ->
  let D := nze - e0 - w in 0 < D < w -> P / 2 ^ D = P' / 2 ^ D ->
  fma_align F nzm nze (P / 2 ^ w) (P mod 2 ^ w) e0 = fma_align F nzm nze (P' / 2 ^ w) (P' mod 2 ^ w) e0.
Proof.
  intros HP HP' He0 Hze D HD EP. pose proof (fmt_facts F) as HF.
  unfold fma_align. change (BITS F) with w. rewrite to_i32_small by lia. unfold ssub.
  rewrite (chk_ok 32 (nze - e0)) by lia. cbn [bind].
  rewrite (proj2 (Z.ltb_lt 0 (nze - e0))) by lia. rewrite (proj2 (Z.ltb_ge (nze - e0) w)) by lia.
  rewrite (chk_ok 32 (nze - e0 - w)), (chk_ok 32 (nze - w)) by lia. cbn [bind]. fold D.
  rewrite (proj2 (Z.eqb_neq D 0)) by lia. rewrite (proj2 (Z.ltb_lt D w)) by lia.
  destruct (shifted_prod F HC P D HP HD) as (a & b & c & rhi & -> & -> & E3 & -> & -> & E4 & E5).
  destruct (shifted_prod F HC P' D HP' HD) as (a' & b' & c' & rhi' & -> & -> & E3' & -> & -> & E4' & E5').
  cbn [bind]. rewrite E3, E3'. cbn [bind]. rewrite E4, E5, E4', E5', EP. reflexivity.
Qed.

Lemma lost_dec P D : {lost F P D} + {~ lost F P D}.
Proof.
  unfold lost. destruct (Z_lt_dec 0 D); [|right; tauto]. destruct (Z_lt_dec D w); [|right; tauto].
  destruct (Z.eq_dec (P mod 2 ^ D) 0); [right; tauto|]. destruct (Z.eq_dec ((P / 2 ^ D) mod 2 ^ D) 0); [left|right]; tauto.
Qed.

Definition sum_sz (x y z : Z) : bool :=
  let s := xorb (signbit F x) (signbit F y) in if Bool.eqb s (signbit F z) then s else false.

(** the sum the code rounds *)
Lemma fma_core P nzm nze e0 neg nzneg sz0 : 2 ^ (2 * mw F + 2) <= P < 2 ^ (2 * mw F + 4) -> (exists c, P = c * 2 ^ 1) ->
  2 ^ (mw F + 1) <= nzm < 2 ^ (mw F + 2) -> - 2 ^ 18 <= e0 <= 2 ^ 18 -> - 2 ^ 18 <= nze <= 2 ^ 18 ->
  exists P' zhi zlo rhi rlo e' rhi' rlo' neg' fl,
    0 <= P - P' /\ (P' = P \/ (lost F P (nze - e0 - w) /\ P - P' < 2 ^ (nze - e0 - w))) /\
    fma_align F nzm nze (P / 2 ^ w) (P mod 2 ^ w) e0 = Some (zhi, zlo, rhi, rlo, e') /\
    fma_add F zhi zlo rhi rlo neg nzneg = Some (rhi', rlo', neg', fl) /\
    let V := (sval neg (IZR P' * bpow radix2 e0) + sval nzneg (IZR nzm * bpow radix2 nze))%R in
    ((V = 0%R /\ fma_shift F rhi' rlo' e' fl = Some None) \/
     exists I e r, fma_shift F rhi' rlo' e' fl = Some (Some (I, e)) /\ fma_pack F I e neg' = Some r /\ rounds_to F V sz0 r).
Proof.
  intros HP Hev Hz He0 Hze. pose proof (fmt_facts F) as HF. set (D := nze - e0 - w).
  assert (PP0 : 0 < 2 ^ (2 * mw F + 2)) by (apply pow2_pos; lia).
  assert (exists P', 0 <= P - P' /\ (P' = P \/ (lost F P D /\ P - P' < 2 ^ D)) /\ ~ lost F P' D /\
    2 ^ (2 * mw F + 2) <= P' < 2 ^ (2 * mw F + 4) /\ (exists c, P' = c * 2 ^ 1) /\
    fma_align F nzm nze (P / 2 ^ w) (P mod 2 ^ w) e0 = fma_align F nzm nze (P' / 2 ^ w) (P' mod 2 ^ w) e0) as (P' & A1 & A2 & A3 & A4 & A5 & A6).
  { destruct (lost_dec P D) as [L|L].
    2:{ exists P. split; [lia|]. split; [now left|]. split; [assumption|]. split; [assumption|]. split; [assumption|reflexivity]. }
    pose proof L as (LD & L1 & L2). pose proof (pow2_pos D ltac:(lia)) as PD.
    pose proof (Z.div_mod P (2 ^ D) ltac:(lia)) as ED. pose proof (Z.mod_pos_bound P (2 ^ D) PD) as BD.
    set (q := P / 2 ^ D) in *. exists (q * 2 ^ D).
    assert (Q1 : (q * 2 ^ D) mod 2 ^ D = 0) by (apply Z.mod_mul; lia).
    assert (Q2 : (q * 2 ^ D) / 2 ^ D = q) by (apply Z.div_mul; lia).
    split; [lia|]. split; [right; split; [exact L|lia]|]. split; [intros (_ & X & _); congruence|].
    assert (P2 : 2 ^ (2 * mw F + 2) = 2 ^ (2 * mw F + 2 - D) * 2 ^ D) by (rewrite <- pow2_split by lia; f_equal; lia).
    assert (GE : 2 ^ (2 * mw F + 2) <= q * 2 ^ D).
    { rewrite P2. apply Z.mul_le_mono_nonneg_r; [lia|]. apply Z.lt_succ_r. apply (Z.mul_lt_mono_pos_r (2 ^ D)); lia. }
    split; [lia|]. split.
    { exists (q * 2 ^ (D - 1)). rewrite <- Z.mul_assoc, <- pow2_split by lia. do 2 f_equal. lia. }
    apply align_drop; try lia. fold D. now rewrite Q2. }
  destruct (fma_sum_ok F HC P' nzm nze e0 neg nzneg A4 A5 Hz He0 Hze A3) as (zhi & zlo & rhi & rlo & e' & rhi' & rlo' & neg' & fl & B1 & B2 & B3).
  exists P', zhi, zlo, rhi, rlo, e', rhi', rlo', neg', fl. split; [exact A1|]. split; [exact A2|]. rewrite A6.
  split; [exact B1|]. split; [exact B2|]. cbv zeta. destruct B3 as [B3|(I & e & g & S & B3 & B4 & B5 & B6 & B7 & B8 & B9)]; [now left|right].
  destruct (fma_pack_ok F HC I g S e neg' sz0 B4 B5 B6 B7 B9) as (r & R1 & R2).
  exists I, e, r. split; [exact B3|]. split; [exact R1|]. now rewrite B8.
Qed.

Lemma rounds_to_nz r sz sz' y : r <> 0%R -> rounds_to F r sz y -> rounds_to F r sz' y.
Proof.
  intros N [A B]. split; [assumption|]. destruct (Rlt_bool _ _); [|assumption].
  destruct (Rcompare_spec r 0) as [C|C|C]; [exact B|congruence|exact B].
Qed.

Lemma sz_and x y z : xorb (signbit F x) (signbit F y) && signbit F z = sum_sz x y z.
Proof. unfold sum_sz. destruct (signbit F x), (signbit F y), (signbit F z); reflexivity. Qed.

(** the products of significands *)
Lemma prod_bounds m n : 2 ^ (mw F + 1) <= m < 2 ^ (mw F + 2) -> 2 ^ (mw F + 1) <= n < 2 ^ (mw F + 2) ->
  2 ^ (2 * mw F + 2) <= m * n < 2 ^ (2 * mw F + 4).
Proof.
  intros Hm Hn. pose proof (fmt_facts F). pose proof (pow2_pos (mw F + 1) ltac:(lia)).
  replace (2 * mw F + 2) with (mw F + 1 + (mw F + 1)) by lia. replace (2 * mw F + 4) with (mw F + 2 + (mw F + 2)) by lia.
  rewrite (pow2_split (mw F + 1)), (pow2_split (mw F + 2)) by lia. split; [apply Z.mul_le_mono_nonneg; lia|apply Z.mul_lt_mono_nonneg; lia].
Qed.

Definition fma_close (x y z r : Z) : Prop :=
  finite F x = true -> finite F y = true -> finite F z = true ->
  exists V, (Rabs (V - (val F x * val F y + val F z)) <= Rabs (val F z) * bpow radix2 (- (w + mw F + 1)))%R /\
    rounds_to F V (sum_sz x y z) r.
Lemma close_exact x y z r : fma_finite F x y z r -> fma_close x y z r.
Proof.
  intros H Fx Fy Fz. exists (val F x * val F y + val F z)%R. split; [|now apply H].
  rewrite Rminus_diag_eq, Rabs_R0 by reflexivity. apply Rmult_le_pos; [apply Rabs_pos|apply bpow_ge_0].
Qed.

Theorem fma_round_ok x y z : isbits F x -> isbits F y -> isbits F z ->
  exists r, fma_round F x y z = Some r /\ fma_special F x y z r /\
    (~ fma_lost_bits F x y z -> fma_finite F x y z r) /\ fma_close x y z r.
Proof.
  intros Bx By Bz. pose proof (fmt_facts F) as HF. pose proof (bias_facts F) as HB.
  destruct (from_float_ok x Bx) as (mx & ex & Ex & Rx & Cx).
  destruct (from_float_ok y By) as (my & ey & Ey & Ry & Cy).
  destruct (from_float_ok z Bz) as (mz & ez & Ez & Rz & Cz).
  unfold fma_round. rewrite Ex, Ey, Ez. cbn [bind]. unfold is_zero_nan_inf, norm_is_zero. rewrite ZIN_eq.
  assert (NS : forall q r, fma_special F x y z r -> q = Some r -> fma_finite F x y z r ->
    exists r, q = Some r /\ fma_special F x y z r /\ (~ fma_lost_bits F x y z -> fma_finite F x y z r) /\ fma_close x y z r).
  { intros q r H1 H2 H3. exists r. split; [exact H2|]. split; [exact H1|]. split; [intros _; exact H3|now apply close_exact]. }
  destruct ((bias F - mw F <=? ex) || (bias F - mw F <=? ey)) eqn:G1.
  - (* a zero or non-finite factor *)
    assert (K : finite F x = true -> finite F y = true -> (val F x * val F y = 0)%R).
    { intros Fx Fy. apply orb_true_iff in G1. destruct G1 as [G|G]; apply Z.leb_le in G.
      - destruct Cx as [C|[C|C]]; [lia|rewrite iszero_val by tauto; ring|destruct C; congruence].
      - destruct Cy as [C|[C|C]]; [lia|rewrite (iszero_val F y) by tauto; ring|destruct C; congruence]. }
    assert (KP : finite F x = true -> finite F y = true -> finite F (fmul F x y) = true /\ val F (fmul F x y) = 0%R /\
      signbit F (fmul F x y) = xorb (signbit F x) (signbit F y)).
    { intros Fx Fy. pose proof (fmul_spec F x y Fx Fy) as H. rewrite (K Fx Fy) in H.
      destruct (rounds_to_exact F _ _ _ H) as (H1 & H2 & H3); [apply rnd_0|rewrite Rabs_R0; apply bpow_gt_0|].
      rewrite Rcompare_Eq in H3 by reflexivity. tauto. }
    apply (NS _ (fadd F (fmul F x y) z)); [|reflexivity|].
    { apply mul_add_special; try assumption. intros Fx Fy _. now apply KP. }
    intros Fx Fy Fz. cbv zeta. destruct (KP Fx Fy) as (K1 & K2 & K3). pose proof (fadd_spec F _ z K1 Fz) as H.
    rewrite K2, K3, sz_and in H. now rewrite (K Fx Fy).
  - apply orb_false_iff in G1 as [Gx Gy]. apply Z.leb_gt in Gx, Gy.
    destruct Cx as [(Fx & Zx & _ & Nx & Evx)|[C|C]]; [|lia|lia].
    destruct Cy as [(Fy & Zy & _ & Ny & Evy)|[C|C]]; [|lia|lia].
    pose proof (iszero_false_val F x Fx Zx) as VX. pose proof (iszero_false_val F y Fy Zy) as VY.
    assert (SP : forall r, isbits F r -> (isnan F z = true -> isnan F r = true) -> (isinf F z = true -> r = z) -> fma_special F x y z r).
    { intros r Br H1 H2. split; [assumption|]. split.
      { intros [H|[H|H]]; [apply isnan_not_finite in H; congruence|apply isnan_not_finite in H; congruence|auto]. }
      assert (NI : ~ prodinf F x y) by (intros [(H & _)|(H & _)]; apply isinf_not_finite in H; congruence).
      split; [intros H; apply isinf_not_finite in H; congruence|]. split; [intros _ H; apply isinf_not_finite in H; congruence|].
      split; [tauto|]. split; [tauto|]. split; [tauto|]. auto. }
    destruct (Z.leb_spec (bias F - mw F) ez) as [Gz|Gz].
    + destruct Cz as [C|[(Zz & Gz2)|(Fz & Gz2)]]; [lia| |].
      * rewrite (proj2 (Z.ltb_lt _ _)) by lia. pose proof (iszero_finite F z Zz) as Fz.
        apply (NS _ (fmul F x y)); [|reflexivity|].
        { apply SP; [apply fmul_isbits| |].
          - intros H. apply isnan_not_finite in H. congruence.
          - intros H. apply isinf_not_finite in H. congruence. }
        intros _ _ _. cbv zeta. rewrite (iszero_val F z Zz), Rplus_0_r.
        apply rounds_to_nz with (xorb (signbit F x) (signbit F y)); [now apply Rmult_integral_contrapositive_currified|now apply fmul_spec].
      * rewrite (proj2 (Z.ltb_ge _ _)) by lia.
        apply (NS _ z); [|reflexivity|]; [now apply SP|]. intros _ _ H. congruence.
    + destruct Cz as [(Fz & Zz & _ & Nz & Evz)|[C|C]]; [|lia|lia].
      unfold sadd. rewrite chk_ok by lia. cbn [bind]. set (neg := xorb (signbit F x) (signbit F y)).
      destruct Nx as [Mx Vx]. destruct Ny as [My Vy]. destruct Nz as [Mz Vz].
      pose proof (prod_bounds mx my Mx My) as MP.
      destruct (fma_core (mx * my) mz ez (ex + ey) neg (signbit F z) (sum_sz x y z) MP) as
        (P' & zhi & zlo & rhi & rlo & e' & rhi' & rlo' & neg' & fl & A1 & A2 & A3 & A4 & A5); [|exact Mz|lia|lia|].
      { destruct Evx as (c & ->). exists (c * my). ring. }
      change (BITS F) with w. rewrite A3. cbn [bind]. rewrite A4. cbn [bind]. cbv zeta in A5.
      assert (VP : (val F x * val F y = sval neg (IZR (mx * my) * bpow radix2 (ex + ey)))%R).
      { rewrite Vx, Vy, mult_IZR, bpow_plus. unfold neg. destruct (signbit F x), (signbit F y); cbn [sval xorb]; ring. }
      assert (NF : forall r, rounds_to F (sval neg (IZR P' * bpow radix2 (ex + ey)) + sval (signbit F z) (IZR mz * bpow radix2 ez)) (sum_sz x y z) r ->
        (~ fma_lost_bits F x y z -> fma_finite F x y z r) /\ fma_close x y z r).
      { intros r H. split.
        - intros NL _ _ _. cbv zeta. fold neg. rewrite VP, Vz. destruct A2 as [->|[L _]]; [exact H|]. exfalso. apply NL.
          split; [assumption|]. split; [assumption|]. split; [assumption|]. exists mx, ex, my, ey, mz, ez.
          split; [now split|]. split; [now split|]. split; [now split|]. exact L.
        - intros _ _ _. eexists. split; [|exact H]. rewrite VP, Vz.
          assert (MPos : (0 < IZR mz)%R) by (apply IZR_lt; pose proof (pow2_pos (mw F + 1)); lia).
          pose proof (bpow_gt_0 radix2 ez) as EZ.
          replace (Rabs (sval (signbit F z) (IZR mz * bpow radix2 ez))) with (IZR mz * bpow radix2 ez)%R
            by (destruct (signbit F z); cbn [sval]; rewrite ?Rabs_Ropp, Rabs_pos_eq; try reflexivity; apply Rmult_le_pos; lra).
          destruct A2 as [->|[L LT]].
          + rewrite Rminus_diag_eq, Rabs_R0 by reflexivity. repeat apply Rmult_le_pos; try lra; apply bpow_ge_0.
          + assert (ED : (Rabs (sval neg (IZR P' * bpow radix2 (ex + ey)) + sval (signbit F z) (IZR mz * bpow radix2 ez) -
              (sval neg (IZR (mx * my) * bpow radix2 (ex + ey)) + sval (signbit F z) (IZR mz * bpow radix2 ez)))
              = IZR (mx * my - P') * bpow radix2 (ex + ey))%R).
            { assert (0 <= IZR (mx * my - P') * bpow radix2 (ex + ey))%R by (apply Rmult_le_pos; [apply IZR_le; lia|apply bpow_ge_0]).
              rewrite minus_IZR in *. destruct neg; cbn [sval].
              - rewrite Rabs_pos_eq; [ring|]. lra.
              - rewrite Rabs_left1; [ring|]. lra. }
            rewrite ED. destruct L as (LD & _).
            apply Rle_trans with (IZR (2 ^ (ez - (ex + ey) - w)) * bpow radix2 (ex + ey))%R.
            { apply Rmult_le_compat_r; [apply bpow_ge_0|]. apply IZR_le. lia. }
            rewrite IZR_pow2 by lia. rewrite bp_split.
            apply Rle_trans with (IZR (2 ^ (mw F + 1)) * bpow radix2 ez * bpow radix2 (- (w + mw F + 1)))%R.
            { rewrite IZR_pow2 by lia. rewrite !bp_split. apply bpow_le. lia. }
            apply Rmult_le_compat_r; [apply bpow_ge_0|]. apply Rmult_le_compat_r; [lra|]. apply IZR_le. lia. }
      destruct A5 as [[A5 A6]|(I & e & r & A5 & A6 & A7)].
      * rewrite A6. cbn [bind]. exists (fadd F (fmul F x y) z). split; [reflexivity|].
        split. { apply SP; [apply fadd_isbits| |].
          - intros H. apply isnan_not_finite in H. congruence.
          - intros H. apply isinf_not_finite in H. congruence. }
        apply NF. rewrite A5.
        (* not lost: the truncated sum cannot vanish when bits were dropped *)
        assert (EP : P' = mx * my).
        { destruct A2 as [A2|[(LD & _) A2]]; [exact A2|exfalso].
          assert (Q : (IZR P' * bpow radix2 (ex + ey) < IZR mz * bpow radix2 ez)%R).
          { apply Rle_lt_trans with (IZR (mx * my) * bpow radix2 (ex + ey))%R; [apply Rmult_le_compat_r; [apply bpow_ge_0|apply IZR_le; lia]|].
            apply Rlt_le_trans with (bpow radix2 (2 * mw F + 4) * bpow radix2 (ex + ey))%R.
            { apply Rmult_lt_compat_r; [apply bpow_gt_0|]. rewrite <- IZR_pow2 by lia. apply IZR_lt. lia. }
            apply Rle_trans with (bpow radix2 (mw F + 1) * bpow radix2 ez)%R.
            { rewrite !bp_split. apply bpow_le. pose proof (fma_ew4 F HC). lia. }
            apply Rmult_le_compat_r; [apply bpow_ge_0|]. rewrite <- IZR_pow2 by lia. apply IZR_le. lia. }
          assert (0 <= IZR P' * bpow radix2 (ex + ey))%R.
          { apply Rmult_le_pos; [|apply bpow_ge_0]. apply IZR_le.
            assert (2 ^ (ez - (ex + ey) - w) <= 2 ^ (2 * mw F + 2)) by (apply Z.pow_le_mono_r; lia). lia. }
          destruct neg, (signbit F z); cbn [sval] in A5; lra. }
        rewrite EP, <- VP, <- Vz in A5.
        assert (PX : rnd F (val F x * val F y) = (val F x * val F y)%R).
        { replace (val F x * val F y)%R with (- val F z)%R by lra. apply repr_rnd, repr_opp. now apply repr_val. }
        pose proof (fmul_spec F x y Fx Fy) as H1.
        destruct (rounds_to_exact F _ _ _ H1 PX) as (H2 & H3 & H4).
        { replace (val F x * val F y)%R with (- val F z)%R by lra. rewrite Rabs_Ropp. now apply val_lt_emax. }
        pose proof (fadd_spec F _ z H2 Fz) as H5. rewrite H3, A5 in H5.
        rewrite H4 in H5. rewrite <- (sign_from_xorb _ _ (xorb_sign_mul F x y)) in H5. now rewrite sz_and in H5.
      * rewrite A5. cbn [bind]. rewrite A6. exists r. split; [reflexivity|]. destruct (NF r A7) as [N1 N2].
        split; [|split; assumption]. apply SP; [apply A7| |].
        -- intros H. apply isnan_not_finite in H. congruence.
        -- intros H. apply isinf_not_finite in H. congruence.
Qed.
End Fma.

(** Properties of the primitive operations in terms of the specification vocabulary. *)
From Coq Require Import ZArith Reals Lia Lra Bool.
From Flocq Require Import Core Binary Bits.
From Flocq Require Import BinarySingleNaN.
From Verif Require Import Base Spec Format P_format Ieee.
Open Scope Z_scope.

Lemma val_sign_nonneg F x : signbit F x = false -> (0 <= val F x)%R.
Proof. intros H. unfold val. rewrite H. apply mag_of_nonneg. apply fields_range. Qed.
Lemma val_sign_nonpos F x : signbit F x = true -> (val F x <= 0)%R.
Proof.
  intros H. unfold val. rewrite H. simpl.
  pose proof (mag_of_nonneg F (expf F x) (sigf F x) (proj1 (proj1 (fields_range F x)))). lra.
Qed.
Lemma val_pos_sign F x : (0 < val F x)%R -> signbit F x = false.
Proof. intros H. destruct (signbit F x) eqn:E; [|reflexivity]. apply val_sign_nonpos in E. lra. Qed.
Lemma val_neg_sign F x : (val F x < 0)%R -> signbit F x = true.
Proof. intros H. destruct (signbit F x) eqn:E; [reflexivity|]. apply val_sign_nonneg in E. lra. Qed.

Lemma rnd_0 F : rnd F 0 = 0%R.
Proof. unfold rnd. apply round_0. apply valid_rnd_N. Qed.
Lemma rnd_opp F r : rnd F (- r) = (- rnd F r)%R.
Proof. unfold rnd. apply round_NE_opp. Qed.
Lemma rnd_le F a b : (a <= b)%R -> (rnd F a <= rnd F b)%R.
Proof. intros H. unfold rnd. apply round_le; [apply fmt_valid_exp|apply valid_rnd_N|exact H]. Qed.

Lemma dec_nan F x : isnan F x = true -> exists s pl H, dec F x = Binary.B754_nan _ _ s pl H.
Proof.
  rewrite <- nan_dec. destruct (dec F x); try discriminate. intros _. eauto.
Qed.
Lemma dec_isinf F x : isinf F x = true -> dec F x = Binary.B754_infinity _ _ (signbit F x).
Proof.
  intros H. rewrite <- sign_dec.
  destruct (class_cases F x) as [K|[K|K]]; try intuition congruence.
  destruct K as (K1 & _ & K3). rewrite <- finite_dec in K1. rewrite <- nan_dec in K3.
  destruct (dec F x); try discriminate; reflexivity.
Qed.
Lemma dec_iszero F x : iszero F x = true -> dec F x = Binary.B754_zero _ _ (signbit F x).
Proof.
  intros H. unfold iszero in H. rewrite andb_true_iff, !Z.eqb_eq in H. destruct H as [H1 H2].
  apply (Binary.B2FF_inj (prec F) (emax F)). rewrite B2FF_dec, aux_eq. cbv zeta. rewrite H1, H2. reflexivity.
Qed.
Lemma iszero_val F x : iszero F x = true -> val F x = 0%R.
Proof.
  intros H. unfold iszero in H. rewrite andb_true_iff, !Z.eqb_eq in H. destruct H as [H1 H2].
  unfold val, mag_of. rewrite H1, H2. simpl. rewrite Rmult_0_l. destruct (signbit F x); simpl; lra.
Qed.
Lemma iszero_finite F x : iszero F x = true -> finite F x = true.
Proof.
  intros H. unfold iszero in H. rewrite andb_true_iff, !Z.eqb_eq in H. destruct H as [H1 H2].
  unfold finite. rewrite H1. pose proof (bias_facts F). apply Z.ltb_lt. lia.
Qed.

Lemma fsub_spec F x y : finite F x = true -> finite F y = true ->
  rounds_to F (val F x - val F y) (signbit F x && negb (signbit F y)) (fsub F x y).
Proof.
  intros Hx Hy. destruct (fin2 F x y Hx Hy) as (Vx & Vy & Fx & Fy).
  split; [apply enc_range|].
  pose proof (Binary.Bminus_correct (prec F) (emax F) (fmt_prec F) (fmt_emax F) (fun _ _ => qnan F) mode_NE _ _ Fx Fy) as H.
  rewrite Vx, Vy, round_eq, !sign_dec in H. rewrite <- emax_eq.
  unfold fsub. destruct (Rlt_bool (Rabs (rnd F (val F x - val F y))) (bpow radix2 (emax F))) eqn:E.
  - destruct H as (H1 & H2 & H3).
    rewrite finite_enc, val_enc, sign_enc by assumption.
    rewrite H3. split; [assumption|]. split; [assumption|]. destruct (Rcompare _ 0); reflexivity.
  - destruct H as [H1 H2]. rewrite (overflow_inf _ _ _ H1). f_equal.
    assert (N : (val F x - val F y <> 0)%R).
    { intros E0. rewrite E0, rnd_0, Rabs_R0, Rlt_bool_true in E; [discriminate|apply bpow_gt_0]. }
    apply (f_equal negb) in H2. rewrite negb_involutive in H2. symmetry in H2.
    destruct (signbit F x) eqn:Sx.
    + apply val_sign_nonpos in Sx. apply val_sign_nonneg in H2.
      symmetry. apply Rlt_bool_true. lra.
    + apply val_sign_nonneg in Sx. apply val_sign_nonpos in H2.
      symmetry. apply Rlt_bool_false. lra.
Qed.

Lemma xorb_sign_mul F x y : (val F x * val F y <> 0)%R ->
  Rlt_bool (val F x * val F y) 0 = xorb (signbit F x) (signbit F y).
Proof.
  intros N.
  assert (Nx : val F x <> 0%R) by (intros E; apply N; rewrite E; ring).
  assert (Ny : val F y <> 0%R) by (intros E; apply N; rewrite E; ring).
  destruct (signbit F x) eqn:Sx; [apply val_sign_nonpos in Sx|apply val_sign_nonneg in Sx];
  (destruct (signbit F y) eqn:Sy; [apply val_sign_nonpos in Sy|apply val_sign_nonneg in Sy]); simpl.
  - apply Rlt_bool_false. nra.
  - apply Rlt_bool_true. nra.
  - apply Rlt_bool_true. nra.
  - apply Rlt_bool_false. nra.
Qed.

Lemma sign_from_xorb r (b : bool) : ((r <> 0)%R -> Rlt_bool r 0 = b) ->
  b = match Rcompare r 0 with Lt => true | Gt => false | Eq => b end.
Proof.
  intros H. destruct (Rcompare_spec r 0) as [L|E|G]; [| reflexivity |].
  - rewrite <- H by lra. now apply Rlt_bool_true.
  - rewrite <- H by lra. apply Rlt_bool_false. lra.
Qed.

Lemma fmul_spec F x y : finite F x = true -> finite F y = true ->
  rounds_to F (val F x * val F y) (xorb (signbit F x) (signbit F y)) (fmul F x y).
Proof.
  intros Hx Hy. destruct (fin2 F x y Hx Hy) as (Vx & Vy & Fx & Fy).
  split; [apply enc_range|].
  pose proof (Binary.Bmult_correct (prec F) (emax F) (fmt_prec F) (fmt_emax F) (fun _ _ => qnan F) mode_NE (dec F x) (dec F y)) as H.
  rewrite Vx, Vy, round_eq, !sign_dec in H. rewrite <- emax_eq.
  unfold fmul. destruct (Rlt_bool (Rabs (rnd F (val F x * val F y))) (bpow radix2 (emax F))) eqn:E.
  - destruct H as (H1 & H2 & H3). rewrite Fx, Fy in H2. simpl in H2.
    rewrite finite_enc, val_enc, sign_enc by assumption.
    rewrite H3 by (destruct (Binary.Bmult _ _ _ _ _ _ _ _); simpl in *; congruence).
    split; [assumption|]. split; [assumption|].
    apply sign_from_xorb. apply xorb_sign_mul.
  - rewrite (overflow_inf _ _ _ H). f_equal. symmetry. apply xorb_sign_mul.
    intros E0. rewrite E0, rnd_0, Rabs_R0, Rlt_bool_true in E; [discriminate|apply bpow_gt_0].
Qed.

Lemma xorb_sign_div F x y : (val F y <> 0)%R -> (val F x / val F y <> 0)%R ->
  Rlt_bool (val F x / val F y) 0 = xorb (signbit F x) (signbit F y).
Proof.
  intros Ny N.
  assert (Nx : val F x <> 0%R) by (intros E; apply N; rewrite E; unfold Rdiv; ring).
  assert (Ex : val F x = (val F x / val F y * val F y)%R) by (field; exact Ny).
  destruct (signbit F x) eqn:Sx; [apply val_sign_nonpos in Sx|apply val_sign_nonneg in Sx];
  (destruct (signbit F y) eqn:Sy; [apply val_sign_nonpos in Sy|apply val_sign_nonneg in Sy]); simpl.
  - apply Rlt_bool_false. nra.
  - apply Rlt_bool_true. nra.
  - apply Rlt_bool_true. nra.
  - apply Rlt_bool_false. nra.
Qed.

Lemma fdiv_spec F x y : finite F x = true -> finite F y = true -> (val F y <> 0)%R ->
  rounds_to F (val F x / val F y) (xorb (signbit F x) (signbit F y)) (fdiv F x y).
Proof.
  intros Hx Hy Hy0. destruct (fin2 F x y Hx Hy) as (Vx & Vy & Fx & Fy).
  split; [apply enc_range|].
  rewrite <- Vy in Hy0.
  pose proof (Binary.Bdiv_correct (prec F) (emax F) (fmt_prec F) (fmt_emax F) (fun _ _ => qnan F) mode_NE (dec F x) (dec F y) Hy0) as H.
  rewrite Vx, Vy, round_eq, !sign_dec in H. rewrite Vy in Hy0. rewrite <- emax_eq.
  unfold fdiv. destruct (Rlt_bool (Rabs (rnd F (val F x / val F y))) (bpow radix2 (emax F))) eqn:E.
  - destruct H as (H1 & H2 & H3). rewrite Fx in H2. simpl in H2.
    rewrite finite_enc, val_enc, sign_enc by assumption.
    rewrite H3 by (destruct (Binary.Bdiv _ _ _ _ _ _ _ _); simpl in *; congruence).
    split; [assumption|]. split; [assumption|].
    apply sign_from_xorb. now apply xorb_sign_div.
  - rewrite (overflow_inf _ _ _ H). f_equal. symmetry. apply xorb_sign_div; [exact Hy0|].
    intros E0. rewrite E0, rnd_0, Rabs_R0, Rlt_bool_true in E; [discriminate|apply bpow_gt_0].
Qed.

Lemma of_int_spec F n : rounds_to F (IZR n) false (of_int F n).
Proof.
  split; [apply enc_range|].
  pose proof (Binary.binary_normalize_correct (prec F) (emax F) (fmt_prec F) (fmt_emax F) mode_NE n 0 false) as H.
  assert (E1 : F2R (Float radix2 n 0) = IZR n) by (unfold F2R; simpl; ring).
  rewrite E1, round_eq in H. rewrite <- emax_eq.
  unfold of_int. destruct (Rlt_bool (Rabs (rnd F (IZR n))) (bpow radix2 (emax F))).
  - destruct H as (H1 & H2 & H3).
    rewrite finite_enc, val_enc, sign_enc by assumption. tauto.
  - now rewrite (overflow_inf _ _ _ H).
Qed.

(** Conversion between formats. *)
Lemma fcvt_finite F G x : finite F x = true ->
  rounds_to G (val F x) (signbit F x) (fcvt F G x).
Proof.
  intros Hf. rewrite <- (B2R_dec F x Hf). rewrite <- sign_dec. rewrite <- finite_dec in Hf.
  unfold fcvt. destruct (dec F x) as [s|s|s pl Hp|s m e Hb]; try discriminate Hf.
  - simpl Binary.B2R. simpl Binary.Bsign. split; [apply enc_range|]. rewrite rnd_0, Rabs_R0, Rlt_bool_true by apply bpow_gt_0.
    rewrite finite_enc, sign_enc, val_enc by reflexivity. simpl.
    rewrite Rcompare_Eq by reflexivity. tauto.
  - split; [apply enc_range|].
    pose proof (Binary.binary_normalize_correct (prec G) (emax G) (fmt_prec G) (fmt_emax G) mode_NE (cond_Zopp s (Zpos m)) e s) as H.
    rewrite round_eq in H. rewrite <- emax_eq. simpl Binary.B2R. simpl Binary.Bsign.
    destruct (Rlt_bool _ (bpow radix2 (emax G))).
    + destruct H as (H1 & H2 & H3).
      rewrite finite_enc, val_enc, sign_enc by assumption. tauto.
    + now rewrite (overflow_inf _ _ _ H).
Qed.
Lemma fcvt_nan F G x : isnan F x = true -> isnan G (fcvt F G x) = true.
Proof.
  intros H. destruct (dec_nan F x H) as (s & pl & Hp & E). unfold fcvt. rewrite E.
  rewrite nan_enc. reflexivity.
Qed.
Lemma fcvt_inf F G x : isinf F x = true -> fcvt F G x = infinity G (signbit F x).
Proof. intros H. unfold fcvt. rewrite (dec_isinf F x H). apply enc_inf. Qed.
Lemma fcvt_isbits F G x : isbits G (fcvt F G x).
Proof. unfold fcvt. destruct (dec F x); apply enc_range. Qed.

(** A result that is exactly representable comes out exactly. *)
Lemma rounds_to_exact F r sz y : rounds_to F r sz y ->
  rnd F r = r -> (Rabs r < bpow radix2 (bias F + 1))%R ->
  finite F y = true /\ val F y = r /\
  signbit F y = match Rcompare r 0 with Lt => true | Gt => false | Eq => sz end.
Proof.
  intros [Hb H] E L. rewrite E in H. rewrite Rlt_bool_true in H by exact L. exact H.
Qed.

(** [rounds_to] determines the pattern. *)
Lemma val_sign_inj F x y : isbits F x -> isbits F y -> finite F x = true -> finite F y = true ->
  val F x = val F y -> signbit F x = signbit F y -> x = y.
Proof.
  intros Bx By Hx Hy V S.
  rewrite <- (enc_dec F x Bx), <- (enc_dec F y By). f_equal.
  apply (Binary.B2R_Bsign_inj (prec F) (emax F)).
  - now rewrite finite_dec.
  - now rewrite finite_dec.
  - now rewrite !B2R_dec.
  - now rewrite !sign_dec.
Qed.
Lemma rounds_to_fun F r sz x y : rounds_to F r sz x -> rounds_to F r sz y -> x = y.
Proof.
  intros [Bx Hx] [By Hy].
  destruct (Rlt_bool _ _); [|congruence].
  destruct Hx as (X1 & X2 & X3). destruct Hy as (Y1 & Y2 & Y3).
  apply (val_sign_inj F); congruence.
Qed.

Lemma rounds_to_not_nan F r sz y : rounds_to F r sz y -> isnan F y = false.
Proof.
  intros [_ H]. destruct (Rlt_bool _ _).
  - destruct H as [H _]. now apply finite_not_nan.
  - rewrite H. apply infinity_fields.
Qed.

(** NaN propagation. *)
Lemma fadd_isbits F x y : isbits F (fadd F x y). Proof. apply enc_range. Qed.
Lemma fsub_isbits F x y : isbits F (fsub F x y). Proof. apply enc_range. Qed.
Lemma fmul_isbits F x y : isbits F (fmul F x y). Proof. apply enc_range. Qed.
Lemma fdiv_isbits F x y : isbits F (fdiv F x y). Proof. apply enc_range. Qed.
Lemma of_int_isbits F x : isbits F (of_int F x). Proof. apply enc_range. Qed.

Ltac nan_tac F x y :=
  intros H; rewrite nan_enc;
  rewrite <- (nan_dec F x), <- (nan_dec F y) in H;
  destruct (dec F x), (dec F y); simpl in H; try discriminate H; reflexivity.
Lemma fadd_nan F x y : isnan F x || isnan F y = true -> isnan F (fadd F x y) = true.
Proof. unfold fadd. nan_tac F x y. Qed.
Lemma fsub_nan F x y : isnan F x || isnan F y = true -> isnan F (fsub F x y) = true.
Proof. unfold fsub. nan_tac F x y. Qed.
Lemma fmul_nan F x y : isnan F x || isnan F y = true -> isnan F (fmul F x y) = true.
Proof. unfold fmul. nan_tac F x y. Qed.
Lemma fdiv_nan F x y : isnan F x || isnan F y = true -> isnan F (fdiv F x y) = true.
Proof. unfold fdiv. nan_tac F x y. Qed.

(** Infinities. *)
Lemma fmul_inf_l F x y : isinf F x = true -> isnan F y = false -> iszero F y = false ->
  fmul F x y = infinity F (xorb (signbit F x) (signbit F y)).
Proof.
  intros Hx Ny Zy. unfold fmul. rewrite (dec_isinf F x Hx).
  rewrite <- (sign_dec F y). rewrite <- nan_dec in Ny.
  assert (Z' : Binary.is_finite _ _ (dec F y) = true -> Binary.B2R _ _ (dec F y) = 0%R -> False).
  { intros Hf Hv. rewrite finite_dec in Hf. rewrite B2R_dec in Hv by assumption.
    assert (K : (mag_of F (expf F y) (sigf F y) = 0)%R).
    { unfold val in Hv. destruct (signbit F y); simpl in Hv; lra. }
    unfold mag_of in K. unfold iszero in Zy. pose proof (fields_range F y). pose proof (pow_mw_ge F).
    destruct (Z.eqb_spec (expf F y) 0); apply Rmult_integral in K; destruct K as [K|K];
      try (apply eq_IZR in K); try (rewrite K in Zy; discriminate Zy); try lia;
      match type of K with bpow _ ?e = _ => pose proof (bpow_gt_0 radix2 e); lra end. }
  destruct (dec F y) as [s|s|s pl Hp|s m e Hb]; try discriminate Ny.
  - exfalso. apply Z'; reflexivity.
  - simpl. rewrite <- enc_inf. reflexivity.
  - simpl. rewrite <- enc_inf. reflexivity.
Qed.

Lemma fadd_inf_l F x y : isinf F x = true -> finite F y = true -> fadd F x y = infinity F (signbit F x).
Proof.
  intros Hx Hy. unfold fadd. rewrite (dec_isinf F x Hx). rewrite <- finite_dec in Hy.
  rewrite <- enc_inf. destruct (dec F y); try discriminate Hy; reflexivity.
Qed.
Lemma fsub_inf_l F x y : isinf F x = true -> finite F y = true -> fsub F x y = infinity F (signbit F x).
Proof.
  intros Hx Hy. unfold fsub. rewrite (dec_isinf F x Hx). rewrite <- finite_dec in Hy.
  rewrite <- enc_inf. destruct (dec F y); try discriminate Hy; reflexivity.
Qed.
Lemma fsub_inf_r F x y : finite F x = true -> isinf F y = true -> fsub F x y = infinity F (negb (signbit F y)).
Proof.
  intros Hx Hy. unfold fsub. rewrite (dec_isinf F y Hy). rewrite <- finite_dec in Hx.
  rewrite <- enc_inf. destruct (dec F x); try discriminate Hx; reflexivity.
Qed.

(** ** Multiplication by one keeps non-NaN operands *)
Lemma ONE_fields F : isbits F (ONE F) /\ finite F (ONE F) = true /\ val F (ONE F) = 1%R /\
  signbit F (ONE F) = false.
Proof.
  pose proof (bias_facts F). pose proof (pow_mw_ge F). pose proof (fmt_facts F).
  rewrite ONE_eq. destruct (mkbits_fields F false (bias F) 0) as (E1 & E2 & E3); try lia.
  split; [apply mkbits_range; lia|]. split; [unfold finite; rewrite E2; apply Z.ltb_lt; lia|].
  split; [|exact E1].
  rewrite val_mkbits by lia. unfold mag_of. rewrite (proj2 (Z.eqb_neq _ _)) by lia. simpl.
  rewrite Z.add_0_r. replace (bias F - bias F - mw F) with (- mw F) by lia.
  change 2 with (radix_val radix2). rewrite IZR_Zpower by lia. rewrite <- bpow_plus.
  now rewrite Z.add_opp_diag_r.
Qed.

Lemma fmul_one_r F x : isbits F x -> isnan F x = false -> fmul F x (ONE F) = x.
Proof.
  intros Bx Nx. destruct (ONE_fields F) as (B1 & F1 & V1 & S1).
  destruct (class_cases F x) as [K|[K|K]]; [| |intuition congruence].
  - destruct K as (Fx & _ & _).
    pose proof (fmul_spec F x (ONE F) Fx F1) as H. rewrite V1, S1, Rmult_1_r, xorb_false_r in H.
    pose proof (rounds_to_exact F _ _ _ H (rnd_val F x Fx) (val_lt_emax F x Fx)) as (H1 & H2 & H3).
    apply (val_sign_inj F); try assumption.
    + apply enc_range.
    + rewrite H3. symmetry. apply sign_from_xorb. intros N.
      destruct (signbit F x) eqn:Sx; [apply val_sign_nonpos in Sx|apply val_sign_nonneg in Sx].
      * apply Rlt_bool_true. lra.
      * apply Rlt_bool_false. lra.
  - destruct K as (_ & Ix & _).
    rewrite fmul_inf_l; try assumption.
    + rewrite S1, xorb_false_r. symmetry. now apply isinf_eq.
    + now apply finite_not_nan.
    + destruct (iszero F (ONE F)) eqn:E; [|reflexivity]. apply iszero_val in E. lra.
Qed.

(** ** Comparisons *)
Lemma fcmp_finite F x y : finite F x = true -> finite F y = true ->
  fcmp F x y = Some (Rcompare (val F x) (val F y)).
Proof.
  intros Hx Hy. destruct (fin2 F x y Hx Hy) as (Vx & Vy & Fx & Fy).
  unfold fcmp. rewrite Binary.Bcompare_correct by assumption. now rewrite Vx, Vy.
Qed.
Lemma fcmp_nan F x y : isnan F x || isnan F y = true -> fcmp F x y = None.
Proof.
  intros H. rewrite <- (nan_dec F x), <- (nan_dec F y) in H. unfold fcmp.
  destruct (dec F x), (dec F y); simpl in H; try discriminate H; reflexivity.
Qed.
Lemma fcmp_inf_l F x y : isinf F x = true -> finite F y = true ->
  fcmp F x y = Some (if signbit F x then Lt else Gt).
Proof.
  intros Hx Hy. unfold fcmp. rewrite (dec_isinf F x Hx). rewrite <- finite_dec in Hy.
  destruct (dec F y); try discriminate Hy; destruct (signbit F x); reflexivity.
Qed.
Lemma fcmp_inf_r F x y : finite F x = true -> isinf F y = true ->
  fcmp F x y = Some (if signbit F y then Gt else Lt).
Proof.
  intros Hx Hy. unfold fcmp. rewrite (dec_isinf F y Hy). rewrite <- finite_dec in Hx.
  destruct (dec F x) as [[]|s| |[]]; try discriminate Hx; destruct (signbit F y); reflexivity.
Qed.
Lemma fcmp_inf_inf F x y : isinf F x = true -> isinf F y = true ->
  fcmp F x y = Some (if signbit F x then (if signbit F y then Eq else Lt)
                     else (if signbit F y then Gt else Eq)).
Proof.
  intros Hx Hy. unfold fcmp. rewrite (dec_isinf F x Hx), (dec_isinf F y Hy).
  destruct (signbit F x), (signbit F y); reflexivity.
Qed.

(** The comparison of the hardware is the ordering of the specification. *)
Lemma fcmp_lt F x y : fcmp F x y = Some Lt <-> lt_bits F x y.
Proof.
  unfold lt_bits.
  destruct (class_cases F x) as [(X1&X2&X3)|[(X1&X2&X3)|(X1&X2&X3)]].
  - rewrite X1, X3. destruct (class_cases F y) as [(Y1&Y2&Y3)|[(Y1&Y2&Y3)|(Y1&Y2&Y3)]].
    + rewrite Y1, Y3, fcmp_finite by assumption. split.
      * intros E. injection E as E. apply Rcompare_Lt_inv in E. auto.
      * intros (_ & _ & E). rewrite Rcompare_Lt by exact E. reflexivity.
    + rewrite Y1, Y3, fcmp_inf_r by assumption. destruct (signbit F y); intuition congruence.
    + rewrite Y3, fcmp_nan by (rewrite Y3, orb_true_r; reflexivity). intuition congruence.
  - rewrite X1, X3. destruct (class_cases F y) as [(Y1&Y2&Y3)|[(Y1&Y2&Y3)|(Y1&Y2&Y3)]].
    + rewrite Y1, Y3, fcmp_inf_l by assumption. destruct (signbit F x); intuition congruence.
    + rewrite Y1, Y3, fcmp_inf_inf by assumption. destruct (signbit F x), (signbit F y); intuition congruence.
    + rewrite Y3, fcmp_nan by (rewrite Y3, orb_true_r; reflexivity). intuition congruence.
  - rewrite X3, fcmp_nan by (rewrite X3; reflexivity). intuition congruence.
Qed.
Lemma fcmp_eq F x y : fcmp F x y = Some Eq <-> eq_bits F x y.
Proof.
  unfold eq_bits.
  destruct (class_cases F x) as [(X1&X2&X3)|[(X1&X2&X3)|(X1&X2&X3)]].
  - rewrite X1, X3. destruct (class_cases F y) as [(Y1&Y2&Y3)|[(Y1&Y2&Y3)|(Y1&Y2&Y3)]].
    + rewrite Y1, Y3, fcmp_finite by assumption. split.
      * intros E. injection E as E. apply Rcompare_Eq_inv in E. auto.
      * intros (_ & _ & _ & E). rewrite Rcompare_Eq by exact E. reflexivity.
    + rewrite Y1, Y3, fcmp_inf_r by assumption. destruct (signbit F y); intuition congruence.
    + rewrite Y3, fcmp_nan by (rewrite Y3, orb_true_r; reflexivity). intuition congruence.
  - rewrite X1, X3. destruct (class_cases F y) as [(Y1&Y2&Y3)|[(Y1&Y2&Y3)|(Y1&Y2&Y3)]].
    + rewrite Y1, Y3, fcmp_inf_l by assumption. destruct (signbit F x); intuition congruence.
    + rewrite Y1, Y3, fcmp_inf_inf by assumption. destruct (signbit F x), (signbit F y); intuition congruence.
    + rewrite Y3, fcmp_nan by (rewrite Y3, orb_true_r; reflexivity). intuition congruence.
  - rewrite X3, fcmp_nan by (rewrite X3; reflexivity). intuition congruence.
Qed.
Lemma fcmp_swap F x y : fcmp F y x = match fcmp F x y with Some c => Some (CompOpp c) | None => None end.
Proof. unfold fcmp. apply Binary.Bcompare_swap. Qed.
Lemma fcmp_gt F x y : fcmp F x y = Some Gt <-> lt_bits F y x.
Proof.
  rewrite <- fcmp_lt, (fcmp_swap F x y). destruct (fcmp F x y) as [[]|]; simpl; intuition congruence.
Qed.
Lemma fcmp_none F x y : fcmp F x y = None <-> isnan F x || isnan F y = true.
Proof.
  split; [|apply fcmp_nan]. intros H.
  destruct (class_cases F x) as [(X1&X2&X3)|[(X1&X2&X3)|(X1&X2&X3)]]; rewrite X3;
  (destruct (class_cases F y) as [(Y1&Y2&Y3)|[(Y1&Y2&Y3)|(Y1&Y2&Y3)]]; rewrite Y3); try reflexivity; exfalso.
  - rewrite fcmp_finite in H by assumption; discriminate.
  - rewrite fcmp_inf_r in H by assumption; discriminate.
  - rewrite fcmp_inf_l in H by assumption; discriminate.
  - rewrite fcmp_inf_inf in H by assumption; discriminate.
Qed.
Lemma flt_spec F x y : flt F x y = true <-> lt_bits F x y.
Proof. rewrite <- fcmp_lt. unfold flt. destruct (fcmp F x y) as [[]|]; intuition congruence. Qed.
Lemma fgt_spec F x y : fgt F x y = true <-> lt_bits F y x.
Proof. rewrite <- fcmp_gt. unfold fgt. destruct (fcmp F x y) as [[]|]; intuition congruence. Qed.
Lemma feq_spec F x y : feq F x y = true <-> eq_bits F x y.
Proof. rewrite <- fcmp_eq. unfold feq. destruct (fcmp F x y) as [[]|]; intuition congruence. Qed.
Lemma fle_spec F x y : fle F x y = true <-> lt_bits F x y \/ eq_bits F x y.
Proof. rewrite <- fcmp_lt, <- fcmp_eq. unfold fle. destruct (fcmp F x y) as [[]|]; intuition congruence. Qed.

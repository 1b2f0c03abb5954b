(** Minimum / maximum families, fdim, and the i586 floor / ceil. *)
From Coq Require Import ZArith Reals Lia Lra Bool.
From Flocq Require Import Core Binary.
From Verif Require Import Base Spec Format P_format Ieee P_ieee P_real SpecFun M_basic P_round P_round2.
Open Scope Z_scope.

Lemma eq_bits_cases F x y : isbits F x -> isbits F y -> eq_bits F x y ->
  x = y \/ (iszero F x = true /\ iszero F y = true /\ signbit F x <> signbit F y).
Proof.
  intros Hx Hy (N1 & N2 & H).
  destruct (class_cases F x) as [(X1&X2&X3)|[(X1&X2&X3)|(X1&X2&X3)]]; [| |congruence].
  - rewrite X1 in H. destruct H as [Y1 V].
    destruct (bool_dec (signbit F x) (signbit F y)) as [E|E].
    + left. now apply (val_sign_inj F).
    + right. assert (Z : (val F x = 0)%R).
      { destruct (signbit F x) eqn:Sx; destruct (signbit F y) eqn:Sy; try congruence.
        - pose proof (val_sign_nonpos F x Sx). pose proof (val_sign_nonneg F y Sy). lra.
        - pose proof (val_sign_nonneg F x Sx). pose proof (val_sign_nonpos F y Sy). lra. }
      split; [apply val_eq_0; assumption|]. split; [|assumption]. apply val_eq_0; try assumption. congruence.
  - rewrite X1 in H. destruct H as [Y1 S]. left.
    destruct (class_cases F y) as [(Y1'&Y2&Y3)|[(Y1'&Y2&Y3)|(Y1'&Y2&Y3)]]; try congruence.
    rewrite (isinf_eq F x), (isinf_eq F y) by assumption. now rewrite S.
Qed.

Lemma lt_bits_asym F x y : lt_bits F x y -> lt_bits F y x -> False.
Proof. rewrite <- !fcmp_lt. rewrite (fcmp_swap F x y). destruct (fcmp F x y) as [[]|]; simpl; congruence. Qed.
Lemma lt_eq_excl F x y : lt_bits F x y -> eq_bits F x y -> False.
Proof. rewrite <- fcmp_lt, <- fcmp_eq. congruence. Qed.
Lemma tricho F x y : isnan F x = false -> isnan F y = false ->
  lt_bits F x y \/ eq_bits F x y \/ lt_bits F y x.
Proof.
  intros Nx Ny. rewrite <- fcmp_lt, <- fcmp_eq, <- fcmp_gt.
  destruct (fcmp F x y) as [[]|] eqn:E; auto.
  apply fcmp_none in E. rewrite Nx, Ny in E. discriminate.
Qed.
Lemma zero_eq F x y : iszero F x = true -> iszero F y = true -> eq_bits F x y.
Proof.
  intros Hx Hy. pose proof (iszero_finite F x Hx) as Fx. pose proof (iszero_finite F y Hy) as Fy.
  unfold eq_bits. rewrite !finite_not_nan, Fx by assumption. split; [reflexivity|]. split; [reflexivity|].
  split; [assumption|]. now rewrite !iszero_val.
Qed.
Lemma below_asym F x y : below F x y -> below F y x -> False.
Proof.
  intros [A|A] [B|B].
  - eapply lt_bits_asym; eauto.
  - eapply lt_eq_excl; [exact A|]. apply zero_eq; tauto.
  - eapply lt_eq_excl; [exact B|]. apply zero_eq; tauto.
  - intuition congruence.
Qed.
Lemma below_total F x y : isbits F x -> isbits F y -> isnan F x = false -> isnan F y = false ->
  below F x y \/ x = y \/ below F y x.
Proof.
  intros Hx Hy Nx Ny. destruct (tricho F x y Nx Ny) as [H|[H|H]]; [left; left; exact H| |right; right; left; exact H].
  destruct (eq_bits_cases F x y Hx Hy H) as [E|(Z1 & Z2 & S)]; [auto|].
  destruct (signbit F x) eqn:Sx; destruct (signbit F y) eqn:Sy; try congruence.
  - left. right. auto.
  - right. right. right. auto.
Qed.

Lemma flt_iff F x y : flt F x y = true -> lt_bits F x y. Proof. apply flt_spec. Qed.
Lemma flt_false F x y : flt F x y = false -> ~ lt_bits F x y.
Proof. intros H C. apply flt_spec in C. congruence. Qed.
Lemma lt_not_nan F x y : lt_bits F x y -> isnan F x = false /\ isnan F y = false.
Proof. intros (A & B & _). auto. Qed.
Lemma below_not_nan F x y : below F x y -> isnan F x = false /\ isnan F y = false.
Proof.
  intros [H|(H1 & H2 & _)]; [now apply lt_not_nan|].
  split; apply finite_not_nan; now apply iszero_finite.
Qed.
Lemma eq_not_nan F x y : eq_bits F x y -> isnan F x = false /\ isnan F y = false.
Proof. intros (A & B & _). auto. Qed.

Lemma neg_zero_iff F x : isbits F x -> (x =? NEG_ZERO F) = iszero F x && signbit F x.
Proof.
  intros Hx. destruct (zero_fields F true) as (Z1 & Z2 & Z3 & Z4).
  rewrite NEG_ZERO_eq. destruct (Z.eqb_spec x (zero F true)) as [E|E].
  - rewrite E, Z2, Z3. reflexivity.
  - destruct (iszero F x) eqn:Ez; [|reflexivity]. destruct (signbit F x) eqn:Es; [|reflexivity].
    exfalso. apply E. rewrite <- Es. now apply iszero_eq.
Qed.

Lemma canon F r (P : Z -> Prop) : isbits F r -> (isnan F r = false -> P r) ->
  (isnan F r = true -> forall q, isbits F q -> isnan F q = true -> P q) -> P (fmul F r (ONE F)).
Proof.
  intros Hr H1 H2. destruct (isnan F r) eqn:N.
  - apply H2; [reflexivity|apply fmul_isbits|]. apply fmul_nan. now rewrite N.
  - rewrite fmul_one_r by assumption. now apply H1.
Qed.

Ltac lt_tac := repeat match goal with
  | H : lt_bits ?F ?x ?y, K : lt_bits ?F ?y ?x |- _ => destruct (lt_bits_asym F x y H K)
  | H : lt_bits ?F ?x ?y, K : eq_bits ?F ?x ?y |- _ => destruct (lt_eq_excl F x y H K)
  | H : below ?F ?x ?y, K : below ?F ?y ?x |- _ => destruct (below_asym F x y H K)
  end.

Lemma fmin_ok F x y : isbits F x -> isbits F y -> minmax_num F true x y (fmin F x y).
Proof.
  intros Hx Hy. unfold fmin. rewrite is_nan_eq by assumption.
  set (b := isnan F y || flt F x y).
  apply (canon F (if b then x else y) (minmax_num F true x y)); [destruct b; assumption| |].
  - intros N. unfold b in *. split; [destruct (isnan F y || flt F x y); assumption|].
    destruct (isnan F y) eqn:Ny; cbn [orb] in *; [rewrite N|];
      (repeat split; intros; try congruence; try (apply lt_not_nan in H; intuition congruence);
       try (apply eq_not_nan in H; intuition congruence)).
    + unfold flt. rewrite fcmp_nan by now rewrite H. reflexivity.
    + apply flt_spec in H. now rewrite H.
    + destruct (flt F x y) eqn:L; [|reflexivity]. apply flt_iff in L. lt_tac.
    + destruct (flt F x y); auto.
  - intros N q Hq Nq. unfold b in *.
    destruct (isnan F y) eqn:Ny; cbn [orb] in *.
    + split; [assumption|]. repeat split; intros; try congruence; try (apply lt_not_nan in H; intuition congruence);
       try (apply eq_not_nan in H; intuition congruence).
    + destruct (flt F x y) eqn:L; [|congruence]. apply flt_iff in L. apply lt_not_nan in L. intuition congruence.
Qed.

Lemma fmax_ok F x y : isbits F x -> isbits F y -> minmax_num F false x y (fmax F x y).
Proof.
  intros Hx Hy. unfold fmax. rewrite is_nan_eq by assumption.
  set (b := isnan F x || flt F x y).
  apply (canon F (if b then y else x) (minmax_num F false x y)); [destruct b; assumption| |].
  - intros N. unfold b in *. split; [destruct (isnan F x || flt F x y); assumption|].
    destruct (isnan F x) eqn:Nx; cbn [orb] in *; [rewrite N|];
      (repeat split; intros; try congruence; try (apply lt_not_nan in H; intuition congruence);
       try (apply eq_not_nan in H; intuition congruence)).
    + unfold flt. rewrite fcmp_nan by now rewrite Nx, H0. reflexivity.
    + apply flt_spec in H. now rewrite H.
    + destruct (flt F x y) eqn:L; [|reflexivity]. apply flt_iff in L. lt_tac.
    + destruct (flt F x y); auto.
  - intros N q Hq Nq. unfold b in *.
    destruct (isnan F x) eqn:Nx; cbn [orb] in *.
    + split; [assumption|]. repeat split; intros; try congruence; try (apply lt_not_nan in H; intuition congruence);
       try (apply eq_not_nan in H; intuition congruence).
    + destruct (flt F x y) eqn:L; [|congruence]. apply flt_iff in L. apply lt_not_nan in L. intuition congruence.
Qed.

(** The test used by fminimum and fminimum_num decides [below] on numbers, up to equal operands. *)
Lemma below_test F x y : isbits F x -> isbits F y -> isnan F x = false -> isnan F y = false ->
  let b := flt F x y || ((x =? NEG_ZERO F) && is_sign_positive F y) in
  (below F x y -> b = true) /\ (below F y x -> b = false).
Proof.
  intros Hx Hy Nx Ny. cbv zeta. rewrite neg_zero_iff, is_sign_positive_eq by assumption. split.
  - intros [H|(Z1 & Z2 & S1 & S2)].
    + apply flt_spec in H. now rewrite H.
    + rewrite Z1, S1, S2. now rewrite orb_true_r.
  - intros H. destruct (flt F x y) eqn:L.
    { apply flt_iff in L. exfalso. eapply below_asym; [left; exact L|exact H]. }
    cbn [orb]. destruct (iszero F x) eqn:Zx; [|reflexivity]. destruct (signbit F x) eqn:Sx; [|reflexivity].
    destruct (signbit F y) eqn:Sy; [reflexivity|]. cbn [andb negb]. exfalso.
    destruct H as [H|(Z1 & Z2 & S1 & S2)]; [|congruence].
    destruct H as (_ & _ & H). pose proof (iszero_finite F x Zx) as Fx.
    destruct (finite F y) eqn:Fy.
    + rewrite Fx in H. rewrite (iszero_val F x Zx) in H. pose proof (val_sign_nonneg F y Sy). lra.
    + destruct H as [H _]. congruence.
Qed.

Lemma fminimum_ok F x y : isbits F x -> isbits F y -> minmax_prop F true x y (fminimum F x y).
Proof.
  intros Hx Hy. unfold fminimum. rewrite !is_nan_eq by assumption.
  destruct (isnan F x) eqn:Nx; [|destruct (isnan F y) eqn:Ny].
  - split; [apply fmul_isbits|]. split; [intros _; apply fmul_nan; now rewrite Nx|].
    split; [|split]; try (intros H; apply below_not_nan in H; intuition congruence). congruence.
  - split; [apply fmul_isbits|]. split; [intros _; apply fmul_nan; now rewrite Ny|].
    split; [|split]; try (intros H; apply below_not_nan in H; intuition congruence). congruence.
  - destruct (below_test F x y Hx Hy Nx Ny) as [B1 B2].
    set (b := flt F x y || ((x =? NEG_ZERO F) && is_sign_positive F y)) in *.
    rewrite fmul_one_r by (destruct b; assumption).
    split; [destruct b; assumption|]. split; [intros [C|C]; congruence|].
    split; [intros H; now rewrite (B1 H)|]. split; [intros H; now rewrite (B2 H)|].
    intros _ ->. destruct b; reflexivity.
Qed.

Lemma fmaximum_ok F x y : isbits F x -> isbits F y -> minmax_prop F false x y (fmaximum F x y).
Proof.
  intros Hx Hy. unfold fmaximum. rewrite !is_nan_eq by assumption.
  destruct (isnan F x) eqn:Nx; [|destruct (isnan F y) eqn:Ny].
  - split; [apply fmul_isbits|]. split; [intros _; apply fmul_nan; now rewrite Nx|].
    split; [|split]; try (intros H; apply below_not_nan in H; intuition congruence). congruence.
  - split; [apply fmul_isbits|]. split; [intros _; apply fmul_nan; now rewrite Ny|].
    split; [|split]; try (intros H; apply below_not_nan in H; intuition congruence). congruence.
  - destruct (below_test F y x Hy Hx Ny Nx) as [B1 B2].
    assert (EG : fgt F x y = flt F y x).
    { unfold fgt, flt. rewrite (fcmp_swap F x y). destruct (fcmp F x y) as [[]|]; reflexivity. }
    rewrite EG.
    set (b := flt F y x || ((y =? NEG_ZERO F) && is_sign_positive F x)) in *.
    rewrite fmul_one_r by (destruct b; assumption).
    split; [destruct b; assumption|]. split; [intros [C|C]; congruence|].
    split; [intros H; now rewrite (B2 H)|]. split; [intros H; now rewrite (B1 H)|].
    intros _ ->. destruct b; reflexivity.
Qed.

Lemma flt_nan F x y : isnan F x || isnan F y = true -> flt F x y = false.
Proof. intros H. unfold flt. now rewrite fcmp_nan. Qed.
Lemma nan_not_negzero F x : isbits F x -> isnan F x = true -> (x =? NEG_ZERO F) = false.
Proof.
  intros Hx N. rewrite neg_zero_iff by assumption. destruct (iszero F x) eqn:Z; [|reflexivity].
  apply iszero_finite in Z. apply finite_not_nan in Z. congruence.
Qed.

Lemma fminimum_num_ok F x y : isbits F x -> isbits F y -> minmax_ord F true x y (fminimum_num F x y).
Proof.
  intros Hx Hy. unfold fminimum_num. rewrite !is_nan_eq by assumption.
  destruct (isnan F y) eqn:Ny; cbn [orb].
  { split; [apply fmul_isbits|]. repeat split; intros; try congruence;
     try (apply below_not_nan in H; intuition congruence).
    - apply fmul_nan. now rewrite H.
    - now apply fmul_one_r. }
  destruct (isnan F x) eqn:Nx.
  { rewrite flt_nan by now rewrite Nx. rewrite nan_not_negzero by assumption. cbn [orb andb].
    rewrite fmul_one_r by assumption.
    split; [assumption|]. repeat split; intros; try congruence;
     try (apply below_not_nan in H; intuition congruence). }
  destruct (below_test F x y Hx Hy Nx Ny) as [B1 B2].
  set (b := flt F x y || ((x =? NEG_ZERO F) && is_sign_positive F y)) in *.
  rewrite fmul_one_r by (destruct b; assumption).
  split; [destruct b; assumption|]. split; [congruence|]. split; [congruence|]. split; [congruence|].
  split; [intros H; now rewrite (B1 H)|]. split; [intros H; now rewrite (B2 H)|].
  intros _ ->. destruct b; reflexivity.
Qed.

(** fmaximum_num is right except for (-0.0, NaN with a clear sign bit). *)
Lemma fmaximum_num_ok F x y : isbits F x -> isbits F y ->
  ~ (x = zero F true /\ isnan F y = true /\ signbit F y = false) ->
  minmax_ord F false x y (fmaximum_num F x y).
Proof.
  intros Hx Hy Hbad. unfold fmaximum_num. rewrite !is_nan_eq by assumption.
  destruct (isnan F x) eqn:Nx; cbn [orb].
  { split; [apply fmul_isbits|]. repeat split; intros; try congruence;
     try (apply below_not_nan in H; intuition congruence).
    - apply fmul_nan. now rewrite H0.
    - now apply fmul_one_r. }
  destruct (isnan F y) eqn:Ny.
  { rewrite flt_nan by now rewrite Ny, orb_true_r. cbn [orb].
    assert (E : (x =? NEG_ZERO F) && is_sign_positive F y = false).
    { rewrite NEG_ZERO_eq, is_sign_positive_eq by assumption.
      destruct (Z.eqb_spec x (zero F true)); [|reflexivity].
      destruct (signbit F y) eqn:Sy; [reflexivity|]. exfalso. auto. }
    rewrite E. rewrite fmul_one_r by assumption.
    split; [assumption|]. repeat split; intros; try congruence;
     try (apply below_not_nan in H; intuition congruence). }
  destruct (below_test F x y Hx Hy Nx Ny) as [B1 B2].
  set (b := flt F x y || ((x =? NEG_ZERO F) && is_sign_positive F y)) in *.
  rewrite fmul_one_r by (destruct b; assumption).
  split; [destruct b; assumption|]. split; [congruence|]. split; [congruence|]. split; [congruence|].
  split; [intros H; now rewrite (B1 H)|]. split; [intros H; now rewrite (B2 H)|].
  intros _ ->. destruct b; reflexivity.
Qed.

(** ** fdim *)
Lemma fdim_ok F x y : isbits F x -> isbits F y ->
  let r := fdim F x y in
  isbits F r /\
  (isnan F x = true \/ isnan F y = true -> isnan F r = true) /\
  (lt_bits F x y \/ eq_bits F x y -> r = zero F false) /\
  (lt_bits F y x -> finite F x = true -> finite F y = true ->
     rounds_to F (val F x - val F y) false r) /\
  (lt_bits F y x -> finite F x = false \/ finite F y = false -> r = infinity F false).
Proof.
  intros Hx Hy. cbv zeta. unfold fdim.
  destruct (fle F x y) eqn:L.
  - apply fle_spec in L. rewrite (ZERO_eq F). split; [apply zero_fields|].
    assert (isnan F x = false /\ isnan F y = false).
    { destruct L as [L|L]; [apply lt_not_nan in L|apply eq_not_nan in L]; exact L. }
    split; [intros [C|C]; intuition congruence|]. split; [reflexivity|].
    split; intros G; exfalso; (destruct L as [L|L]; [eapply lt_bits_asym; eauto|]);
      apply fcmp_gt in G; apply fcmp_eq in L; congruence.
  - split; [apply fsub_isbits|]. split; [intros C; apply fsub_nan; apply orb_true_iff; exact C|].
    split; [intros G; apply fle_spec in G; congruence|]. split.
    + intros G Fx Fy. pose proof (fsub_spec F x y Fx Fy) as S. destruct S as [S1 S2]. split; [assumption|].
      destruct (Rlt_bool _ _); [|exact S2]. destruct S2 as (A & B & C). split; [assumption|]. split; [assumption|].
      rewrite C. destruct G as (_ & _ & G). rewrite Fx, Fy in G. rewrite Rcompare_Gt by lra. reflexivity.
    + intros G Hinf. pose proof (lt_not_nan _ _ _ G) as [Ny Nx]. destruct G as (_ & _ & G).
      destruct (class_cases F x) as [(X1&X2&X3)|[(X1&X2&X3)|(X1&X2&X3)]]; [| |congruence];
      (destruct (class_cases F y) as [(Y1&Y2&Y3)|[(Y1&Y2&Y3)|(Y1&Y2&Y3)]]; [| |congruence]); rewrite ?X1, ?Y1 in G.
      * destruct Hinf; congruence.
      * rewrite fsub_inf_r by assumption. destruct G as [G _]. now rewrite G.
      * rewrite fsub_inf_l by assumption. now rewrite G.
      * destruct G as [G1 G2]. destruct G2 as [G2|G2]; [congruence|].
        unfold fsub. rewrite (dec_isinf F x X2), (dec_isinf F y Y2), G1, G2. apply enc_inf.
Qed.

(** ** Conversion to integers *)
Lemma to_intZ_spec F lo hi x : isbits F x -> finite F x = true ->
  to_intZ F lo hi x = clampZ lo hi (Ztrunc (val F x)) \/ (iszero F x = true /\ to_intZ F lo hi x = 0).
Proof.
  intros Hx Hf. rewrite <- B2R_dec by assumption. rewrite <- finite_dec in Hf.
  unfold to_intZ.
  destruct (dec F x) as [s|s|s pl Hp|s m e Hb] eqn:E; try discriminate Hf.
  - right. split; [|reflexivity]. 
    apply val_eq_0; [assumption|rewrite <- finite_dec, E; reflexivity|].
    rewrite <- B2R_dec by (rewrite <- finite_dec, E; reflexivity). rewrite E. reflexivity.
  - left. f_equal. simpl Binary.B2R.
    rewrite F2R_cond. 
    set (a := if 0 <=? e then Z.pos m * 2 ^ e else Z.pos m / 2 ^ (- e)).
    assert (Ea : Zfloor (IZR (Z.pos m) * bpow radix2 e) = a).
    { unfold a. destruct (Z.leb_spec 0 e).
      - rewrite <- IZR_pow2, <- mult_IZR by lia. apply Zfloor_IZR.
      - replace (bpow radix2 e) with (/ IZR (2 ^ (- e)))%R.
        + apply Zfloor_div. apply Z.pow_nonzero; lia.
        + rewrite IZR_pow2 by lia. rewrite <- bpow_opp. f_equal; lia. }
    assert (P : (0 <= IZR (Z.pos m) * bpow radix2 e)%R).
    { apply Rmult_le_pos; [apply IZR_le; lia|apply bpow_ge_0]. }
    rewrite Ztrunc_sval, Ztrunc_floor by exact P. rewrite Ea. destruct s; reflexivity.
Qed.

(** ** i586 *)
Lemma abs_small x : isbits f64 x -> (fabs f64 x <? 0x4330000000000000) = (expf f64 x <? 1023 + 52).
Proof.
  intros Hx. rewrite fabs_eq by assumption. unfold with_sign, mkbits.
  pose proof (fields_range f64 x) as Hr. cbn [mw ew f64] in *.
  change 0x4330000000000000 with (1075 * 2 ^ 52).
  apply eq_true_iff_eq. rewrite !Z.ltb_lt. lia.
Qed.

Lemma i586_trunc x : isbits f64 x -> expf f64 x < 1023 + 52 ->
  let t := of_int f64 (to_i64 f64 x) in
  isbits f64 t /\ finite f64 t = true /\ val f64 t = IZR (Ztrunc (val f64 x)) /\
  signbit f64 t = (Ztrunc (val f64 x) <? 0).
Proof.
  intros Hx He. cbv zeta.
  assert (Hf : finite f64 x = true) by (apply finite_iff; cbn [ew f64]; lia).
  pose proof (mag_lt_binade f64 x He) as Hb. cbn [mw f64] in Hb.
  set (n := Ztrunc (val f64 x)).
  assert (Hn : Z.abs n <= 2 ^ 52).
  { unfold n. pose proof (Ztrunc_abs (val f64 x)) as K. rewrite <- K.
    rewrite Ztrunc_floor by apply Rabs_pos.
    apply Z.lt_le_incl. apply lt_IZR. eapply Rle_lt_trans; [apply Zfloor_lb|].
    rewrite IZR_pow2 by lia. exact Hb. }
  assert (E : to_i64 f64 x = n).
  { destruct (to_intZ_spec f64 (- 2 ^ 63) (2 ^ 63 - 1) x Hx Hf) as [K|[K1 K2]].
    - unfold to_i64. rewrite K. fold n. unfold clampZ.
      rewrite (proj2 (Z.ltb_ge _ _)), (proj2 (Z.ltb_ge _ _)) by lia. reflexivity.
    - unfold to_i64. rewrite K2. unfold n. rewrite (iszero_val _ _ K1). now rewrite Ztrunc_IZR. }
  rewrite E. split; [apply of_int_isbits|].
  destruct (rounds_to_exact f64 _ _ _ (of_int_spec f64 n)) as (C1 & C2 & C3).
  - apply repr_rnd. apply repr_IZR. cbn [mw f64]. lia.
  - rewrite <- abs_IZR. apply Rle_lt_trans with (IZR (2 ^ 52)); [apply IZR_le; exact Hn|].
    rewrite IZR_pow2 by lia. apply bpow_lt. unfold bias; cbn [ew f64]. lia.
  - split; [assumption|]. split; [assumption|]. rewrite C3.
    destruct (Rcompare_spec (IZR n) 0) as [L|L|L].
    + apply lt_IZR in L. symmetry. now apply Z.ltb_lt.
    + apply eq_IZR in L. symmetry. apply Z.ltb_ge. lia.
    + apply lt_IZR in L. symmetry. apply Z.ltb_ge. lia.
Qed.

Lemma i586_small x : isbits f64 x -> expf f64 x < 1023 + 52 ->
  finite f64 x = true /\ (Rabs (val f64 x) < IZR (2 ^ 52))%R.
Proof.
  intros Hx He. split; [apply finite_iff; cbn [ew f64]; lia|].
  rewrite IZR_pow2 by lia. exact (mag_lt_binade f64 x He).
Qed.

(** Adding or subtracting one to an integer below 2^53. *)
Lemma int_step n d y sz : (d = 1 \/ d = -1) -> Z.abs n <= 2 ^ 52 ->
  rounds_to f64 (IZR n + IZR d) sz y ->
  isbits f64 y /\ finite f64 y = true /\ val f64 y = IZR (n + d) /\
  (n + d <> 0 -> signbit f64 y = (n + d <? 0)).
Proof.
  intros Hd Hn H. rewrite <- plus_IZR in H. split; [apply H|].
  destruct (rounds_to_exact f64 _ _ _ H) as (C1 & C2 & C3).
  - apply repr_rnd. apply repr_IZR. cbn [mw f64]. lia.
  - rewrite <- abs_IZR. apply Rle_lt_trans with (IZR (2 ^ 53)); [apply IZR_le; lia|].
    rewrite IZR_pow2 by lia. apply bpow_lt. unfold bias; cbn [ew f64]. lia.
  - split; [assumption|]. split; [assumption|]. intros N. rewrite C3.
    destruct (Rcompare_spec (IZR (n + d)) 0) as [L|L|L].
    + apply lt_IZR in L. symmetry. now apply Z.ltb_lt.
    + apply eq_IZR in L. lia.
    + apply lt_IZR in L. symmetry. apply Z.ltb_ge. lia.
Qed.

Lemma Ztrunc_bound52 x : (Rabs (val f64 x) < IZR (2 ^ 52))%R -> Z.abs (Ztrunc (val f64 x)) <= 2 ^ 52.
Proof.
  intros Hb. rewrite <- Ztrunc_abs. rewrite Ztrunc_floor by apply Rabs_pos.
  apply Z.lt_le_incl. apply lt_IZR. eapply Rle_lt_trans; [apply Zfloor_lb|exact Hb].
Qed.

(** What the i586 versions return: the right integer, but a zero result is always +0. *)
Definition i586_spec (Q : R -> Z) (x r : Z) : Prop :=
  isbits f64 r /\
  (finite f64 x = true -> finite f64 r = true /\ val f64 r = IZR (Q (val f64 x))) /\
  (finite f64 x = false -> r = x) /\
  (iszero f64 r = true -> signbit f64 r = false).

Lemma nonzero_of_val x n : isbits f64 x -> finite f64 x = true -> val f64 x = IZR n ->
  iszero f64 x = true -> n = 0.
Proof. intros _ _ V Z. rewrite (iszero_val _ _ Z) in V. now apply eq_IZR. Qed.

Lemma i586_floor_ok x : isbits f64 x -> i586_spec Zfloor x (i586_floor x).
Proof.
  intros Hx. unfold i586_floor. rewrite abs_small by assumption.
  destruct (Z.ltb_spec (expf f64 x) (1023 + 52)) as [He|He].
  - destruct (i586_small x Hx He) as [Hf Hb].
    destruct (i586_trunc x Hx He) as (T1 & T2 & T3 & T4).
    set (t := of_int f64 (to_i64 f64 x)) in *. set (v := val f64 x) in *.
    pose proof (Ztrunc_bound52 x Hb) as Hn. fold v in Hn. set (n := Ztrunc v) in *.
    destruct (ONE_fields f64) as (O1 & O2 & O3 & O4).
    unfold fgt. rewrite fcmp_finite by assumption. rewrite T3. fold v.
    destruct (Rcompare_spec (IZR n) v) as [L|L|L].
    + assert (En : Zfloor v = n).
      { unfold n, Ztrunc in L |- *. destruct (Rlt_bool_spec v 0); [|reflexivity].
        pose proof (Zceil_ub v). lra. }
      split; [assumption|]. split; [intros _; split; [assumption|]; rewrite T3; fold v; now rewrite En|].
      split; [congruence|]. intros Z. pose proof (nonzero_of_val t n T1 T2 T3 Z). rewrite T4.
      apply Z.ltb_ge. lia.
    + assert (En : Zfloor v = n) by (rewrite <- L; apply Zfloor_IZR).
      split; [assumption|]. split; [intros _; split; [assumption|]; rewrite T3; fold v; now rewrite En|].
      split; [congruence|]. intros Z. pose proof (nonzero_of_val t n T1 T2 T3 Z). rewrite T4.
      apply Z.ltb_ge. lia.
    + assert (Vneg : (v < 0)%R).
      { unfold n, Ztrunc in L. destruct (Rlt_bool_spec v 0); [assumption|]. pose proof (Zfloor_lb v). lra. }
      assert (Enc : n = Zceil v) by (unfold n, Ztrunc; now rewrite Rlt_bool_true).
      assert (En : Zfloor v = n - 1).
      { rewrite Enc. assert (Hne : IZR (Zfloor v) <> v).
        { intros E. rewrite <- E in Enc at 1. rewrite Zceil_IZR in Enc. rewrite Enc, E in L. lra. }
        pose proof (Zceil_floor_neq v Hne). lia. }
      pose proof (fsub_spec f64 t (ONE f64) T2 O2) as S. rewrite T3, O3 in S. fold n in S.
      replace (IZR n - 1)%R with (IZR n + IZR (-1))%R in S by (simpl; lra).
      destruct (int_step n (-1) _ _ (or_intror eq_refl) Hn S) as (S1 & S2 & S3 & S4).
      assert (n <= 0). { rewrite Enc. apply Zceil_glb. simpl; lra. }
      split; [assumption|]. split; [intros _; split; [assumption|]; rewrite S3; f_equal; fold v; lia|].
      split; [congruence|]. intros Z. pose proof (nonzero_of_val _ (n + -1) S1 S2 S3 Z). lia.
  - split; [assumption|]. split; [|split; [reflexivity|intros Z; exfalso; unfold iszero in Z; rewrite andb_true_iff, !Z.eqb_eq in Z; lia]].
    intros Hf. split; [assumption|]. rewrite (zone_big f64 x Hf) by (unfold bias; cbn [mw ew f64]; lia).
    now rewrite Zfloor_IZR.
Qed.

Lemma i586_ceil_ok x : isbits f64 x -> i586_spec Zceil x (i586_ceil x).
Proof.
  intros Hx. unfold i586_ceil. rewrite abs_small by assumption.
  destruct (Z.ltb_spec (expf f64 x) (1023 + 52)) as [He|He].
  - destruct (i586_small x Hx He) as [Hf Hb].
    destruct (i586_trunc x Hx He) as (T1 & T2 & T3 & T4).
    set (t := of_int f64 (to_i64 f64 x)) in *. set (v := val f64 x) in *.
    pose proof (Ztrunc_bound52 x Hb) as Hn. fold v in Hn. set (n := Ztrunc v) in *.
    destruct (ONE_fields f64) as (O1 & O2 & O3 & O4).
    unfold flt. rewrite fcmp_finite by assumption. rewrite T3. fold v.
    destruct (Rcompare_spec (IZR n) v) as [L|L|L].
    + assert (Vpos : (0 <= v)%R).
      { destruct (Rle_lt_dec 0 v); [assumption|].
        assert (n = Zceil v) by (unfold n, Ztrunc; now rewrite Rlt_bool_true).
        pose proof (Zceil_ub v). rewrite H in L. lra. }
      assert (Enc : n = Zfloor v) by (unfold n, Ztrunc; now rewrite Rlt_bool_false).
      assert (En : Zceil v = n + 1).
      { rewrite Enc. apply Zceil_floor_neq. rewrite <- Enc. lra. }
      pose proof (fadd_spec f64 t (ONE f64) T2 O2) as S. rewrite T3, O3 in S. fold n in S.
      destruct (int_step n 1 _ _ (or_introl eq_refl) Hn S) as (S1 & S2 & S3 & S4).
      assert (0 <= n). { rewrite Enc. apply Zfloor_lub. simpl; lra. }
      split; [assumption|]. split; [intros _; split; [assumption|]; rewrite S3; f_equal; fold v; lia|].
      split; [congruence|]. intros Z. pose proof (nonzero_of_val _ (n + 1) S1 S2 S3 Z). lia.
    + assert (En : Zceil v = n) by (rewrite <- L; apply Zceil_IZR).
      split; [assumption|]. split; [intros _; split; [assumption|]; rewrite T3; fold v; now rewrite En|].
      split; [congruence|]. intros Z. pose proof (nonzero_of_val t n T1 T2 T3 Z). rewrite T4.
      apply Z.ltb_ge. lia.
    + assert (En : Zceil v = n).
      { unfold n, Ztrunc in L |- *. destruct (Rlt_bool_spec v 0); [reflexivity|].
        pose proof (Zfloor_lb v). lra. }
      split; [assumption|]. split; [intros _; split; [assumption|]; rewrite T3; fold v; now rewrite En|].
      split; [congruence|]. intros Z. pose proof (nonzero_of_val t n T1 T2 T3 Z). rewrite T4.
      apply Z.ltb_ge. lia.
  - split; [assumption|]. split; [|split; [reflexivity|intros Z; exfalso; unfold iszero in Z; rewrite andb_true_iff, !Z.eqb_eq in Z; lia]].
    intros Hf. split; [assumption|]. rewrite (zone_big f64 x Hf) by (unfold bias; cbn [mw ew f64]; lia).
    now rewrite Zceil_IZR.
Qed.

(** Agreement with the generic functions whenever the result is not a negative zero. *)
Lemma i586_agree Q x r g : isbits f64 x -> i586_spec Q x r -> rounded_by f64 Q x g ->
  (finite f64 x = true -> Q (val f64 x) = 0 -> signbit f64 x = false) -> r = g.
Proof.
  intros Hx (R1 & R2 & R3 & R4) (G1 & G2 & G3) H.
  destruct (finite f64 x) eqn:Hf; [|rewrite R3, G3 by reflexivity; reflexivity].
  destruct (R2 eq_refl) as [R5 R6]. destruct (G2 eq_refl) as (G5 & G6 & G7).
  apply (val_sign_inj f64); try assumption; [congruence|].
  destruct (Z.eq_dec (Q (val f64 x)) 0) as [E|E].
  - specialize (H eq_refl E). rewrite G7, H. rewrite E in R6.
    apply val_eq_0 in R6; try assumption.
    now apply R4.
  - assert (Vr : val f64 r <> 0%R) by (rewrite R6; now apply not_0_IZR).
    destruct (signbit f64 r) eqn:S1; destruct (signbit f64 g) eqn:S2; try reflexivity; exfalso.
    + pose proof (val_sign_nonpos _ _ S1). pose proof (val_sign_nonneg _ _ S2). rewrite G6 in *. rewrite R6 in *. lra.
    + pose proof (val_sign_nonneg _ _ S1). pose proof (val_sign_nonpos _ _ S2). rewrite G6 in *. rewrite R6 in *. lra.
Qed.

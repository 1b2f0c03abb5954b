(** C21 and C22: fused multiply-add. *)
From Coq Require Import ZArith Reals Lia Lra Bool.
From Flocq Require Import Core.
From Verif Require Import Base Spec SpecFun2 Format P_format Ieee P_ieee P_real M_basic M_scalbn P_scalbn M_fma P_fma P_fma2 P_fma3 P_fma4 P_fmaf.
Open Scope Z_scope.

(** ** tools for the counterexamples *)
Lemma rnd_int F n j e N : 0 <= j -> emin F <= e + j -> 0 <= n ->
  2 ^ (mw F + j) <= n \/ emin F = e + j -> n < 2 ^ (mw F + 1 + j) -> Z.abs (2 * (n - N * 2 ^ j)) < 2 ^ j ->
  rnd F (IZR n * bpow radix2 e) = (IZR N * bpow radix2 (e + j))%R.
Proof.
  intros Hj He Hn L1 L2 H. pose proof (fmt_facts F) as HF.
  assert (P : (0 < bpow radix2 e)%R) by apply bpow_gt_0.
  assert (EN : ZnearestE (IZR n * bpow radix2 e * bpow radix2 (- (e + j))) = N).
  { rewrite Rmult_assoc, bp_split. replace (e + - (e + j)) with (- j) by lia. apply Znearest_imp.
    pose proof (bpow_gt_0 radix2 j) as PJ. rewrite bpow_opp. apply Rmult_lt_reg_r with (1 := PJ).
    rewrite <- (Rabs_pos_eq (bpow radix2 j)) at 2 by lra. rewrite <- Rabs_mult, Rmult_minus_distr_r, Rmult_assoc, Rinv_l, Rmult_1_r by lra.
    rewrite <- IZR_pow2 by lia. rewrite <- mult_IZR, <- minus_IZR, <- abs_IZR.
    apply Rmult_lt_reg_l with 2%R; [lra|]. replace (2 * (/ 2 * IZR (2 ^ j)))%R with (IZR (2 ^ j)) by field.
    rewrite <- mult_IZR. apply IZR_lt. rewrite Z.abs_mul in H. exact H. }
  assert (U : (IZR n * bpow radix2 e < bpow radix2 (e + j + mw F + 1))%R).
  { replace (e + j + mw F + 1) with (mw F + 1 + j + e) by lia. rewrite bpow_plus. apply Rmult_lt_compat_r; [exact P|].
    rewrite <- IZR_pow2 by lia. now apply IZR_lt. }
  assert (A : Rabs (IZR n * bpow radix2 e) = (IZR n * bpow radix2 e)%R).
  { apply Rabs_pos_eq, Rmult_le_pos; [now apply IZR_le|lra]. }
  destruct L1 as [L1|L1].
  - rewrite (rnd_scaled F _ (e + j)); [now rewrite EN| |exact He]. rewrite A. split; [|exact U].
    replace (e + j + mw F) with (mw F + j + e) by lia. rewrite bpow_plus. apply Rmult_le_compat_r; [lra|].
    rewrite <- IZR_pow2 by lia. now apply IZR_le.
  - rewrite rnd_scaled_sub; rewrite L1; [now rewrite EN|]. rewrite A. exact U.
Qed.
Lemma val_pos F x e m : signbit F x = false -> expf F x = e -> sigf F x = m ->
  val F x = (IZR (if e =? 0 then m else 2 ^ mw F + m) * bpow radix2 ((if e =? 0 then 1 else e) - bias F - mw F))%R.
Proof. intros S <- <-. unfold val, mag_of. rewrite S. cbn [sval]. destruct (expf F x =? 0); reflexivity. Qed.
(** a finite result that is not the rounding *)
Lemma not_rounded F r sz y n e N : rnd F r = (IZR N * bpow radix2 e)%R -> val F y = (IZR n * bpow radix2 e)%R -> N <> n ->
  finite F y = true -> ~ rounds_to F r sz y.
Proof.
  intros E V D Fy [_ H]. pose proof (bpow_gt_0 radix2 e).
  destruct (Rlt_bool _ _).
  - destruct H as (_ & H & _). rewrite V, E in H. apply Rmult_eq_reg_r in H; [|lra]. apply eq_IZR in H. lia.
  - subst y. destruct (infinity_fields F (Rlt_bool r 0)) as (_ & _ & _ & K & _). congruence.
Qed.

Lemma fma_fmt64 : fma_fmt f64. Proof. repeat split; vm_compute; discriminate. Qed.
Lemma fma_fmt128 : fma_fmt f128. Proof. repeat split; vm_compute; discriminate. Qed.
Lemma near_weak F x y z r : fma_close F x y z r -> fma_near F (Rabs (val F z) * bpow radix2 (- (width F + mw F + 1))) x y z r.
Proof. exact (fun H => H). Qed.

(** ** C21: fma and fmaf128 *)
(** No panic, special operands as in IEEE 754, correct rounding of [x * y + z] outside [fma_lost_bits]. What is
    missing for the full property ([fma_spec] without side condition) is false: see [C21_fma_refuted]. *)
Theorem C21_fma_partial : forall x y z, isbits f64 x -> isbits f64 y -> isbits f64 z ->
  exists r, fma x y z = Some r /\ fma_special f64 x y z r /\ (~ fma_lost_bits f64 x y z -> fma_finite f64 x y z r).
Proof.
  intros x y z Bx By Bz. destruct (fma_round_ok f64 fma_fmt64 x y z Bx By Bz) as (r & A & B & C & _). now exists r.
Qed.
Print Assumptions C21_fma_partial.
Theorem C21_fmaf128_partial : forall x y z, isbits f128 x -> isbits f128 y -> isbits f128 z ->
  exists r, fmaf128 x y z = Some r /\ fma_special f128 x y z r /\ (~ fma_lost_bits f128 x y z -> fma_finite f128 x y z r).
Proof.
  intros x y z Bx By Bz. destruct (fma_round_ok f128 fma_fmt128 x y z Bx By Bz) as (r & A & B & C & _). now exists r.
Qed.
Print Assumptions C21_fmaf128_partial.
(** In every case the result is the correct rounding of a value within [|z| * 2^-117] ([|z| * 2^-241]) of the sum. *)
Theorem C21_fma_near : forall x y z, isbits f64 x -> isbits f64 y -> isbits f64 z ->
  exists r, fma x y z = Some r /\ fma_near f64 (Rabs (val f64 z) * bpow radix2 (-117)) x y z r.
Proof.
  intros x y z Bx By Bz. destruct (fma_round_ok f64 fma_fmt64 x y z Bx By Bz) as (r & A & _ & _ & D). exists r. split; [exact A|].
  exact (near_weak f64 x y z r D).
Qed.
Print Assumptions C21_fma_near.
Theorem C21_fmaf128_near : forall x y z, isbits f128 x -> isbits f128 y -> isbits f128 z ->
  exists r, fmaf128 x y z = Some r /\ fma_near f128 (Rabs (val f128 z) * bpow radix2 (-241)) x y z r.
Proof.
  intros x y z Bx By Bz. destruct (fma_round_ok f128 fma_fmt128 x y z Bx By Bz) as (r & A & _ & _ & D). exists r. split; [exact A|].
  exact (near_weak f128 x y z r D).
Qed.
Print Assumptions C21_fmaf128_near.

Definition wit_a64 := mkbits f64 false 1023 (7547586347992027 - 2 ^ 52).
Definition wit_b64 := mkbits f64 false 1023 (6291595113611347 - 2 ^ 52).
Definition wit_z64 := mkbits f64 false 1037 0.
Theorem C21_fma_refuted : exists x y z r, isbits f64 x /\ isbits f64 y /\ isbits f64 z /\
  fma x y z = Some r /\ ~ fma_finite f64 x y z r.
Proof.
  exists wit_a64, wit_b64, wit_z64, (wit_z64 + 643560148024).
  split; [split; vm_compute; congruence|]. split; [split; vm_compute; congruence|]. split; [split; vm_compute; congruence|].
  split; [vm_compute; reflexivity|]. intros H. specialize (H eq_refl eq_refl eq_refl). cbv zeta in H. revert H.
  apply (not_rounded f64 _ _ _ (2 ^ 52 + 643560148024) (-38) (2 ^ 52 + 643560148025)); [|rewrite (val_pos f64 _ 1037 643560148024) by (vm_compute; reflexivity); reflexivity|lia|reflexivity].
  rewrite (val_pos f64 wit_a64 1023 (7547586347992027 - 2 ^ 52)), (val_pos f64 wit_b64 1023 (6291595113611347 - 2 ^ 52)), (val_pos f64 wit_z64 1037 0) by (vm_compute; reflexivity).
  change (if 1023 =? 0 then 7547586347992027 - 2 ^ 52 else 2 ^ mw f64 + (7547586347992027 - 2 ^ 52)) with 7547586347992027.
  change (if 1023 =? 0 then 6291595113611347 - 2 ^ 52 else 2 ^ mw f64 + (6291595113611347 - 2 ^ 52)) with 6291595113611347.
  change ((if 1023 =? 0 then 1 else 1023) - bias f64 - mw f64) with (-52).
  change (if 1037 =? 0 then 0 else 2 ^ mw f64 + 0) with (2 ^ 52).
  change ((if 1037 =? 0 then 1 else 1037) - bias f64 - mw f64) with (-38).
  replace (IZR 7547586347992027 * bpow radix2 (-52) * (IZR 6291595113611347 * bpow radix2 (-52)) + IZR (2 ^ 52) * bpow radix2 (-38))%R
    with (IZR (7547586347992027 * 6291595113611347 + 2 ^ 118) * bpow radix2 (-104))%R.
  - apply (rnd_int f64 _ 66 (-104)); vm_compute; try congruence. left; congruence.
  - rewrite plus_IZR, mult_IZR. replace (-104) with (-52 + -52) by lia. rewrite bpow_plus.
    replace (IZR (2 ^ 118)) with (IZR (2 ^ 52) * bpow radix2 66)%R by (rewrite !IZR_pow2, bp_split by lia; reflexivity).
    replace (-38) with (66 + (-52 + -52)) by lia. rewrite (bpow_plus _ 66), (bpow_plus _ (-52)). ring.
Qed.
Print Assumptions C21_fma_refuted.
Definition wit_a128 := mkbits f128 false 16383 (5359996271402150262020256572394681 - 2 ^ 112).
Definition wit_b128 := mkbits f128 false 16383 (7158096788981576556844081846942089 - 2 ^ 112).
Definition wit_z128 := mkbits f128 false 16401 0.
Theorem C21_fmaf128_refuted : exists x y z r, isbits f128 x /\ isbits f128 y /\ isbits f128 z /\
  fmaf128 x y z = Some r /\ ~ fma_finite f128 x y z r.
Proof.
  exists wit_a128, wit_b128, wit_z128, (wit_z128 + 28187893224122943851920603854).
  split; [split; vm_compute; congruence|]. split; [split; vm_compute; congruence|]. split; [split; vm_compute; congruence|].
  split; [vm_compute; reflexivity|]. intros H. specialize (H eq_refl eq_refl eq_refl). cbv zeta in H. revert H.
  apply (not_rounded f128 _ _ _ (2 ^ 112 + 28187893224122943851920603854) (-94) (2 ^ 112 + 28187893224122943851920603855)); [|rewrite (val_pos f128 _ 16401 28187893224122943851920603854) by (vm_compute; reflexivity); reflexivity|lia|reflexivity].
  rewrite (val_pos f128 wit_a128 16383 (5359996271402150262020256572394681 - 2 ^ 112)), (val_pos f128 wit_b128 16383 (7158096788981576556844081846942089 - 2 ^ 112)), (val_pos f128 wit_z128 16401 0) by (vm_compute; reflexivity).
  change (if 16383 =? 0 then 5359996271402150262020256572394681 - 2 ^ 112 else 2 ^ mw f128 + (5359996271402150262020256572394681 - 2 ^ 112)) with 5359996271402150262020256572394681.
  change (if 16383 =? 0 then 7158096788981576556844081846942089 - 2 ^ 112 else 2 ^ mw f128 + (7158096788981576556844081846942089 - 2 ^ 112)) with 7158096788981576556844081846942089.
  change ((if 16383 =? 0 then 1 else 16383) - bias f128 - mw f128) with (-112).
  change (if 16401 =? 0 then 0 else 2 ^ mw f128 + 0) with (2 ^ 112).
  change ((if 16401 =? 0 then 1 else 16401) - bias f128 - mw f128) with (-94).
  replace (IZR 5359996271402150262020256572394681 * bpow radix2 (-112) * (IZR 7158096788981576556844081846942089 * bpow radix2 (-112)) + IZR (2 ^ 112) * bpow radix2 (-94))%R
    with (IZR (5359996271402150262020256572394681 * 7158096788981576556844081846942089 + 2 ^ 242) * bpow radix2 (-224))%R.
  - apply (rnd_int f128 _ 130 (-224)); vm_compute; try congruence. left; congruence.
  - rewrite plus_IZR, mult_IZR. replace (-224) with (-112 + -112) by lia. rewrite bpow_plus.
    replace (IZR (2 ^ 242)) with (IZR (2 ^ 112) * bpow radix2 130)%R by (rewrite !IZR_pow2, bp_split by lia; reflexivity).
    replace (-94) with (130 + (-112 + -112)) by lia. rewrite (bpow_plus _ 130), (bpow_plus _ (-112)). ring.
Qed.
Print Assumptions C21_fmaf128_refuted.
(** 3 * 5 + 1 = 16; 0.1 * 10 - 1 is the rounding error of 0.1, not zero; inf * 0 + 1 is a NaN; (-0) * 1 + (-0) = -0 *)
Example C21_ex1 : fma 0x4008000000000000 0x4014000000000000 0x3ff0000000000000 = Some 0x4030000000000000. Proof. vm_compute. reflexivity. Qed.
Example C21_ex2 : fma 0x3fb999999999999a 0x4024000000000000 0xbff0000000000000 = Some 0x3c90000000000000. Proof. vm_compute. reflexivity. Qed.
Example C21_ex3 : fma 0x7ff0000000000000 0 0x3ff0000000000000 = Some 0x7ff8000000000000. Proof. vm_compute. reflexivity. Qed.
Example C21_ex4 : fma 0x8000000000000000 0x3ff0000000000000 0x8000000000000000 = Some 0x8000000000000000. Proof. vm_compute. reflexivity. Qed.
(** the side condition is not always false: these operands satisfy it *)
Example C21_ex5 : ~ fma_lost_bits f64 0 0 0.
Proof.
  intros (_ & _ & _ & mx & ex & my & ey & mz & ez & (H & V) & _).
  rewrite (iszero_val f64 0) in V by reflexivity. change (signbit f64 0) with false in V. cbn [sval] in V.
  pose proof (bpow_gt_0 radix2 ex). assert (0 < IZR mx)%R by (apply IZR_lt; change (mw f64) with 52 in H; lia).
  pose proof (Rmult_lt_0_compat _ _ H1 H0). lra.
Qed.

(** ** C22: fmaf *)
(** No panic, special operands as in IEEE 754, correct rounding of [x * y + z] in [fmaf_region]. What is missing
    for the full property is false: see [C22_fmaf_refuted]. *)
Theorem C22_fmaf_partial : forall x y z, isbits f32 x -> isbits f32 y -> isbits f32 z ->
  exists r, fmaf x y z = Some r /\ fma_special f32 x y z r /\ (fmaf_region x y z -> fma_finite f32 x y z r).
Proof.
  intros x y z Bx By Bz. destruct (fmaf_ok x y z Bx By Bz) as (r & A & B & C & _). now exists r.
Qed.
Print Assumptions C22_fmaf_partial.
(** In every case the result is the correct rounding of a value with relative distance at most [2^-51] from the sum. *)
Theorem C22_fmaf_near : forall x y z, isbits f32 x -> isbits f32 y -> isbits f32 z ->
  exists r, fmaf x y z = Some r /\ fma_near f32 (Rabs (val f32 x * val f32 y + val f32 z) * bpow radix2 (-51)) x y z r.
Proof.
  intros x y z Bx By Bz. destruct (fmaf_ok x y z Bx By Bz) as (r & A & _ & _ & D). exists r. split; [exact A|exact D].
Qed.
Print Assumptions C22_fmaf_near.
Definition wit_x32 := mkbits f32 false 52 1.
Definition wit_y32 := mkbits f32 false 51 (2 ^ 23 - 2).
Definition wit_z32 := 2 ^ 22 + 1.
Theorem C22_fmaf_refuted : exists x y z r, isbits f32 x /\ isbits f32 y /\ isbits f32 z /\
  fmaf x y z = Some r /\ ~ fma_finite f32 x y z r.
Proof.
  exists wit_x32, wit_y32, wit_z32, (wit_z32 + 1).
  split; [split; vm_compute; congruence|]. split; [split; vm_compute; congruence|]. split; [split; vm_compute; congruence|].
  split; [vm_compute; reflexivity|]. intros H. specialize (H eq_refl eq_refl eq_refl). cbv zeta in H. revert H.
  apply (not_rounded f32 _ _ _ (2 ^ 22 + 2) (-149) (2 ^ 22 + 1)); [|rewrite (val_pos f32 _ 0 (2 ^ 22 + 2)) by (vm_compute; reflexivity); reflexivity|lia|reflexivity].
  rewrite (val_pos f32 wit_x32 52 1), (val_pos f32 wit_y32 51 (2 ^ 23 - 2)), (val_pos f32 wit_z32 0 (2 ^ 22 + 1)) by (vm_compute; reflexivity).
  change (if 52 =? 0 then 1 else 2 ^ mw f32 + 1) with (2 ^ 23 + 1).
  change (if 51 =? 0 then 2 ^ 23 - 2 else 2 ^ mw f32 + (2 ^ 23 - 2)) with (2 ^ 24 - 2).
  change ((if 52 =? 0 then 1 else 52) - bias f32 - mw f32) with (-98).
  change ((if 51 =? 0 then 1 else 51) - bias f32 - mw f32) with (-99).
  change (if 0 =? 0 then 2 ^ 22 + 1 else 2 ^ mw f32 + (2 ^ 22 + 1)) with (2 ^ 22 + 1).
  change ((if 0 =? 0 then 1 else 0) - bias f32 - mw f32) with (-149).
  replace (IZR (2 ^ 23 + 1) * bpow radix2 (-98) * (IZR (2 ^ 24 - 2) * bpow radix2 (-99)) + IZR (2 ^ 22 + 1) * bpow radix2 (-149))%R
    with (IZR ((2 ^ 23 + 1) * (2 ^ 24 - 2) + (2 ^ 22 + 1) * 2 ^ 48) * bpow radix2 (-197))%R.
  - apply (rnd_int f32 _ 48 (-197)); vm_compute; try congruence. right; congruence.
  - rewrite plus_IZR, !mult_IZR. replace (-197) with (-98 + -99) by lia. rewrite bpow_plus.
    rewrite (IZR_pow2 48) by lia. replace (-149) with (48 + (-98 + -99)) by lia. rewrite (bpow_plus _ 48), (bpow_plus _ (-98)). ring.
Qed.
Print Assumptions C22_fmaf_refuted.
(** the case of the unit test at fma_wide.rs 99-104; 3 * 5 + 1 = 16; the region of the partial theorem is inhabited *)
Example C22_ex1 : fmaf 1266679807 1300234242 1115553792 = Some 1501560833. Proof. vm_compute. reflexivity. Qed.
Example C22_ex2 : fmaf 0x40400000 0x40a00000 0x3f800000 = Some 0x41800000. Proof. vm_compute. reflexivity. Qed.
Example C22_ex3 : fmaf_region 0x3f800000 0x3f800000 0.
Proof.
  left. rewrite (val_pos f32 0x3f800000 127 0), (iszero_val f32 0) by (vm_compute; reflexivity).
  change (if 127 =? 0 then 0 else 2 ^ mw f32 + 0) with (2 ^ 23). change ((if 127 =? 0 then 1 else 127) - bias f32 - mw f32) with (-23).
  rewrite IZR_pow2, bp_split by lia. change (23 + -23) with 0. replace (bpow radix2 0 * bpow radix2 0 + 0)%R with (bpow radix2 0) by (cbn [bpow]; ring).
  rewrite Rabs_pos_eq by apply bpow_ge_0. apply bpow_le. lia.
Qed.

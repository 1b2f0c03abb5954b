(** hypot and hypotf: all branches. *)
From Coq Require Import ZArith Reals Lia Lra Bool List Psatz.
From Flocq Require Import Core Mult_error.
From Verif Require Import Base Spec SpecFun3 SpecHypot2 Format P_format Ieee P_ieee P_real P_neg P_lit P_err P_apx P_key M_sqrt Prop_sqrt M_elib M_pow P_elem P_elem2 P_dom Prop_hypot P_hy1 P_hp1 P_hp2 P_hp3 P_hp4.
Open Scope R_scope.
Local Opaque fadd fsub fmul fdiv of_int M_sqrt.sqrt M_sqrt.sqrtf rs_hypot_sq fcvt.

Lemma hscale k A B : 0 < k -> R_sqrt.sqrt (k * A * (k * A) + k * B * (k * B)) = k * R_sqrt.sqrt (A * A + B * B).
Proof.
  intros K. replace (k * A * (k * A) + k * B * (k * B)) with (k * k * (A * A + B * B)) by ring. rewrite sqrt_mult_alt by nra. rewrite sqrt_square by lra. reflexivity.
Qed.
Lemma hscale_back e A B : bpow radix2 (- e) * R_sqrt.sqrt (bpow radix2 e * A * (bpow radix2 e * A) + bpow radix2 e * B * (bpow radix2 e * B)) = R_sqrt.sqrt (A * A + B * B).
Proof. rewrite hscale by apply bpow_gt_0. rewrite <- Rmult_assoc, <- bpow_plus. replace (- e + e)%Z with 0%Z by lia. cbn [bpow]. lra. Qed.

Lemma w64' : (23 <= mw f64)%Z. Proof. cbn; lia. Qed.
Lemma u64' : (emin f64 + pr f64 + 7 <= bias f64)%Z. Proof. vm_compute. discriminate. Qed.
Lemma w32' : (23 <= mw f32)%Z. Proof. cbn; lia. Qed.
Lemma u32' : (emin f32 + pr f32 + 7 <= bias f32)%Z. Proof. vm_compute. discriminate. Qed.
Lemma p700 : val f64 0x6bb0000000000000 = bpow radix2 700. Proof. exact (pow_val f64 w64' 1723 ltac:(vm_compute; split; [discriminate|reflexivity])). Qed.
Lemma m700 : val f64 0x1430000000000000 = bpow radix2 (-700). Proof. exact (pow_val f64 w64' 323 ltac:(vm_compute; split; [discriminate|reflexivity])). Qed.
Lemma one64v : val f64 0x3ff0000000000000 = bpow radix2 0. Proof. exact (pow_val f64 w64' 1023 ltac:(vm_compute; split; [discriminate|reflexivity])). Qed.
Lemma p90 : val f32 0x6c800000 = bpow radix2 90. Proof. exact (pow_val f32 w32' 217 ltac:(vm_compute; split; [discriminate|reflexivity])). Qed.
Lemma m90 : val f32 0x12800000 = bpow radix2 (-90). Proof. exact (pow_val f32 w32' 37 ltac:(vm_compute; split; [discriminate|reflexivity])). Qed.
Lemma one32v : val f32 0x3f800000 = bpow radix2 0. Proof. exact (pow_val f32 w32' 127 ltac:(vm_compute; split; [discriminate|reflexivity])). Qed.

(** the result when the second argument is zero *)
Lemma hres_zero F c a : isbits F a -> finite F a = true -> 0 <= val F a -> 0 <= c -> hres F c (R_sqrt.sqrt (val F a * val F a + 0 * 0)) a.
Proof.
  intros B G V C. split; [exact B|]. left. split; [exact G|]. rewrite Rmult_0_r, Rplus_0_r, sqrt_square by exact V. rewrite Rminus_diag_eq, Rabs_R0 by reflexivity.
  apply Rplus_le_le_0_compat; [|apply bpow_ge_0]. apply Rmult_le_pos; [apply Rmult_le_pos; [exact C|apply bpow_ge_0]|exact V].
Qed.
Lemma hypot_ordacc a b : (0 <= b <= a)%Z -> (a < 0x7ff0000000000000)%Z -> exists r, rs_hypot a b = Some r /\ hres f64 (9 / 10) (R_sqrt.sqrt (val f64 a * val f64 a + val f64 b * val f64 b)) r /\ (finite f64 r = true -> val f64 a <= val f64 r).
Proof.
  intros Hb Ha. destruct (pv f64 w64' a ltac:(change (top f64) with 0x7ff0000000000000%Z; lia)) as (BA & FA & _). destruct (pv f64 w64' b ltac:(change (top f64) with 0x7ff0000000000000%Z; lia)) as (BB & FB & _).
  destruct (pos_mono f64 w64' a b Hb Ha) as [B0 BA']. 
  assert (GP := ge_pow f64 w64'). assert (LP := le_pow f64 w64'). change (2 ^ ew f64 - 1)%Z with 2047%Z in GP, LP. change (bias f64) with 1023%Z in GP, LP. change (mw f64) with 52%Z in GP, LP. change (top f64) with 0x7ff0000000000000%Z in GP.
  unfold rs_hypot. rewrite !land_a64. unfold a64. rewrite !Z.mod_small by lia.
  destruct (Z.ltb_spec a b); try lia.
  destruct (ovf64 a) as [E1 R1]; [lia|]. destruct (ovf64 b) as [E2 R2]; [lia|]. rewrite E1, E2.
  pose proof (Z.div_mod a (2 ^ 52) ltac:(lia)) as D1. pose proof (Z.mod_pos_bound a (2 ^ 52) ltac:(lia)) as M1.
  pose proof (Z.div_mod b (2 ^ 52) ltac:(lia)) as D2. pose proof (Z.mod_pos_bound b (2 ^ 52) ltac:(lia)) as M2.
  set (ea := (a / 2 ^ 52)%Z) in *. set (eb := (b / 2 ^ 52)%Z) in *. clearbody ea eb.
  destruct (Z.eqb_spec eb 2047); [lia|]. destruct (Z.eqb_spec ea 2047); [lia|]. cbn [orb].
  destruct (Z.eqb_spec b 0) as [-> | NB].
  { exists a. split; [reflexivity|]. split; [|lra]. replace (val f64 0) with 0 by (symmetry; exact (val_zero f64 false)). apply hres_zero; try assumption; lra. }
  rewrite ssub_ok by (change (2 ^ (64 - 1))%Z with (2 ^ 63)%Z; lia). cbn [bind].
  destruct (Z.ltb_spec 64 (ea - eb)) as [FR | NR].
  { eexists. split; [reflexivity|]. split; [|intros G; now apply add_ge]. apply (add_far f64 w64' u64'); try assumption; try lra.
    pose proof (far f64 w64' a b 64 ltac:(lia) ltac:(lia) ltac:(change (top f64) with 0x7ff0000000000000%Z; change (mw f64) with 52%Z; lia)) as L.
    change (bpow radix2 (- pr f64)) with (/ 9007199254740992). change (bpow radix2 (- (64))) with (/ 18446744073709551616) in L. lra. }
  assert (CORE : forall z x y e, finite f64 z = true -> val f64 z = bpow radix2 (- e) -> isbits f64 x -> isbits f64 y -> finite f64 x = true -> finite f64 y = true -> val f64 x = bpow radix2 e * val f64 a -> val f64 y = bpow radix2 e * val f64 b -> bpow radix2 (-450) <= bpow radix2 e * val f64 b -> bpow radix2 e * val f64 a <= bpow radix2 511 ->
    exists r, (let '(hx, lx) := rs_hypot_sq x in let '(hy, ly) := rs_hypot_sq y in let* v1 := M_sqrt.sqrt (((ly +: lx) +: hy) +: hx)%fl in Some (z *: v1)%fl) = Some r /\ hres f64 (9 / 10) (R_sqrt.sqrt (val f64 a * val f64 a + val f64 b * val f64 b)) r /\ (finite f64 r = true -> val f64 a <= val f64 r)).
  { intros z x y e FZ VZ Bx By Fx Fy Vx Vy YL XU. pose proof (bpow_gt_0 radix2 e) as E0.
    destruct (hsum_ok x y Bx By Fx Fy) as (q & Eq & Fq & Q0 & Rq). { rewrite Vx, Vy. split; [exact YL|]. apply Rmult_le_compat_l; lra. } { now rewrite Vx. }
    destruct (rs_hypot_sq x) as [hx lx]. destruct (rs_hypot_sq y) as [hy ly]. rewrite Eq. cbn [bind]. eexists. split; [reflexivity|].
    rewrite Vx in Q0. split.
    - rewrite <- (hscale_back e). rewrite Vx, Vy in Rq. refine (scale_back f64 w64' u64' z q (- e) _ (177 / 100) (9 / 10) FZ VZ Fq _ _ _ _ _ Rq); [eapply Rle_trans; [|exact Q0]; apply Rmult_le_pos; lra|apply sqrt_pos|lra|lra|lra].
    - intros G. rewrite (fin_val f64 _ _ _ (fmul_spec f64 z q FZ Fq) G), VZ. rewrite <- (repr_rnd f64 (val f64 a) (repr_val f64 a FA)) at 1. apply rnd_le. apply Rle_trans with (bpow radix2 (- e) * (bpow radix2 e * val f64 a)); [|apply Rmult_le_compat_l; [apply bpow_ge_0|exact Q0]].
      rewrite <- Rmult_assoc, <- bpow_plus. replace (- e + e)%Z with 0%Z by lia. cbn [bpow]. lra. }
  destruct (Z.ltb_spec 1533 ea) as [C1 | C1].
  - pose proof (GP 1470%Z b ltac:(lia) ltac:(lia)) as LB. pose proof (val_lt_max f64 a FA) as UA. rewrite Rabs_pos_eq in UA by lra. change (bias f64 + 1)%Z with 1024%Z in UA.
    assert (T : forall v, bpow radix2 (1470 - 1023) <= v -> v < bpow radix2 1024 -> bpow radix2 (-450) <= bpow radix2 (-700) * v /\ bpow radix2 (-700) * v <= bpow radix2 511 /\ bpow radix2 (emin f64 + pr f64 - 1) <= bpow radix2 (-700) * v /\ bpow radix2 (-700) * v < bpow radix2 (bias f64 + 1)).
    { intros v L1 L2. pose proof (bpow_gt_0 radix2 (-700)). assert (bpow radix2 (-700 + (1470 - 1023)) <= bpow radix2 (-700) * v) by (rewrite bpow_plus; apply Rmult_le_compat_l; lra).
      assert (bpow radix2 (-700) * v <= bpow radix2 (-700 + 1024)) by (rewrite bpow_plus; apply Rmult_le_compat_l; lra).
      repeat split. 1, 3: eapply Rle_trans; [|eassumption]; apply bpow_le; vm_compute; discriminate.
      - eapply Rle_trans; [eassumption|]; apply bpow_le; vm_compute; discriminate.
      - eapply Rle_lt_trans; [eassumption|]; apply bpow_lt; vm_compute; reflexivity. }
    destruct (T (val f64 b) LB ltac:(lra)) as (T1 & _ & T2 & T3). destruct (T (val f64 a) ltac:(lra) UA) as (_ & T4 & T5 & T6).
    pose proof (bpow_gt_0 radix2 (1470 - 1023)).
    destruct (sc_ex f64 w64' 0x1430000000000000 a (-700) eq_refl m700 FA ltac:(lra) (or_intror T5) T6) as (Bx & Fx & Vx). destruct (sc_ex f64 w64' 0x1430000000000000 b (-700) eq_refl m700 FB ltac:(lra) (or_intror T2) T3) as (By & Fy & Vy).
    exact (CORE 0x6bb0000000000000%Z _ _ (-700)%Z eq_refl p700 Bx By Fx Fy Vx Vy T1 T4).
  - destruct (Z.ltb_spec eb 573) as [C2 | C2].
    + pose proof (LP 637%Z a ltac:(lia) ltac:(lia)) as UA.
      assert (LB : bpow radix2 (-1074) <= val f64 b). { destruct (pos_mono f64 w64' b 1 ltac:(lia) ltac:(change (top f64) with 0x7ff0000000000000%Z; lia)) as [_ K]. eapply Rle_trans; [|exact K]. right. unfold val, mag_of. replace (signbit f64 1) with false by reflexivity. replace (expf f64 1) with 0%Z by reflexivity. replace (sigf f64 1) with 1%Z by reflexivity. change (0 =? 0)%Z with true. cbn [sval]. change (1 - bias f64 - mw f64)%Z with (-1074)%Z. lra. }
      pose proof (bpow_gt_0 radix2 700). pose proof (bpow_gt_0 radix2 (-1074)).
      assert (L1 : bpow radix2 (-450) <= bpow radix2 700 * val f64 b). { apply Rle_trans with (bpow radix2 (700 + -1074)); [apply bpow_le; lia|]. rewrite bpow_plus. apply Rmult_le_compat_l; lra. }
      assert (L2 : bpow radix2 700 * val f64 a <= bpow radix2 511). { apply Rle_trans with (bpow radix2 (700 + (637 - 1023))); [|apply bpow_le; lia]. rewrite bpow_plus. apply Rmult_le_compat_l; lra. }
      assert (L3 : bpow radix2 511 < bpow radix2 (bias f64 + 1)) by (apply bpow_lt; vm_compute; reflexivity).
      assert (L4 : bpow radix2 700 * val f64 b <= bpow radix2 700 * val f64 a) by (apply Rmult_le_compat_l; lra).
      destruct (sc_ex f64 w64' 0x6bb0000000000000 a 700 eq_refl p700 FA ltac:(lra) (or_introl (Pos2Z.is_nonneg _)) ltac:(lra)) as (Bx & Fx & Vx). destruct (sc_ex f64 w64' 0x6bb0000000000000 b 700 eq_refl p700 FB ltac:(lra) (or_introl (Pos2Z.is_nonneg _)) ltac:(lra)) as (By & Fy & Vy).
      exact (CORE 0x1430000000000000%Z _ _ 700%Z eq_refl m700 Bx By Fx Fy Vx Vy L1 L2).
    + pose proof (GP 573%Z b ltac:(lia) ltac:(lia)) as LB. pose proof (LP 1534%Z a ltac:(lia) ltac:(lia)) as UA.
      apply (CORE 0x3ff0000000000000%Z a b 0%Z eq_refl one64v BA BB FA FB); cbn [bpow]; try lra; rewrite Rmult_1_l; [exact LB|exact UA].
Qed.

Lemma hypotf_ordacc a b : (0 <= b <= a)%Z -> (a < 0x7f800000)%Z -> exists r, rs_hypotf a b = Some r /\ hres f32 (9 / 10) (R_sqrt.sqrt (val f32 a * val f32 a + val f32 b * val f32 b)) r.
Proof.
  intros Hb Ha. destruct (pv f32 w32' a ltac:(change (top f32) with 0x7f800000%Z; lia)) as (BA & FA & _). destruct (pv f32 w32' b ltac:(change (top f32) with 0x7f800000%Z; lia)) as (BB & FB & _).
  destruct (pos_mono f32 w32' a b Hb Ha) as [B0 BA']. 
  assert (GP := ge_pow f32 w32'). assert (LP := le_pow f32 w32'). change (2 ^ ew f32 - 1)%Z with 255%Z in GP, LP. change (bias f32) with 127%Z in GP, LP. change (mw f32) with 23%Z in GP, LP. change (top f32) with 0x7f800000%Z in GP.
  unfold rs_hypotf. rewrite !land_a32. unfold a32. rewrite !Z.mod_small by lia.
  destruct (Z.ltb_spec a b); try lia.
  destruct (Z.eqb_spec b 0x7f800000); [lia|]. destruct (Z.leb_spec 0x7f800000 a); [lia|]. cbn [orb].
  destruct (Z.eqb_spec b 0) as [-> | NB]; cbn [bind].
  { eexists. split; [reflexivity|]. apply (add_far f32 w32' u32'); try assumption; try lra. replace (val f32 0) with 0 by (symmetry; exact (val_zero f32 false)). pose proof (bpow_gt_0 radix2 (- pr f32)). assert (0 <= bpow radix2 (- pr f32) * val f32 a) by (apply Rmult_le_pos; lra). lra. }
  rewrite usub_ok by lia. cbn [bind].
  destruct (Z.leb_spec 0xc800000 (a - b)) as [FR | NR].
  { eexists. split; [reflexivity|]. apply (add_far f32 w32' u32'); try assumption; try lra.
    pose proof (far f32 w32' a b 25 ltac:(lia) ltac:(lia) ltac:(change (top f32) with 0x7f800000%Z; change (mw f32) with 23%Z; lia)) as L.
    change (bpow radix2 (- pr f32)) with (/ 16777216). change (bpow radix2 (- (25))) with (/ 33554432) in L. lra. }
  assert (CORE : forall z x y e, finite f32 z = true -> val f32 z = bpow radix2 (- e) -> finite f32 x = true -> finite f32 y = true -> val f32 x = bpow radix2 e * val f32 a -> val f32 y = bpow radix2 e * val f32 b -> bpow radix2 (-60) <= bpow radix2 e * val f32 b -> bpow radix2 e * val f32 a <= bpow radix2 60 ->
    exists r, (let* v2 := M_sqrt.sqrtf (fcvt f64 f32 (fadd f64 (fmul f64 (fcvt f32 f64 x) (fcvt f32 f64 x)) (fmul f64 (fcvt f32 f64 y) (fcvt f32 f64 y)))) in Some (fmul f32 z v2)) = Some r /\ hres f32 (9 / 10) (R_sqrt.sqrt (val f32 a * val f32 a + val f32 b * val f32 b)) r).
  { intros z x y e FZ VZ Fx Fy Vx Vy YL XU. pose proof (bpow_gt_0 radix2 e) as E0.
    destruct (hsumf_ok x y Fx Fy) as (q & Eq & Fq & Q0 & Rq). { rewrite Vx, Vy. split; [exact YL|]. apply Rmult_le_compat_l; lra. } { now rewrite Vx. }
    rewrite Eq. cbn [bind]. eexists. split; [reflexivity|].
    rewrite <- (hscale_back e). rewrite Vx, Vy in Rq. refine (scale_back f32 w32' u32' z q (- e) _ (16 / 10) (9 / 10) FZ VZ Fq Q0 _ _ _ _ Rq); [apply sqrt_pos|lra|lra|lra]. }
  destruct (Z.leb_spec 0x5d800000 a) as [C1 | C1].
  - pose proof (GP 162%Z b ltac:(lia) ltac:(lia)) as LB. pose proof (val_lt_max f32 a FA) as UA. rewrite Rabs_pos_eq in UA by lra. change (bias f32 + 1)%Z with 128%Z in UA.
    assert (T : forall v, bpow radix2 (162 - 127) <= v -> v < bpow radix2 128 -> bpow radix2 (-60) <= bpow radix2 (-90) * v /\ bpow radix2 (-90) * v <= bpow radix2 60 /\ bpow radix2 (emin f32 + pr f32 - 1) <= bpow radix2 (-90) * v /\ bpow radix2 (-90) * v < bpow radix2 (bias f32 + 1)).
    { intros v L1 L2. pose proof (bpow_gt_0 radix2 (-90)). assert (bpow radix2 (-90 + (162 - 127)) <= bpow radix2 (-90) * v) by (rewrite bpow_plus; apply Rmult_le_compat_l; lra).
      assert (bpow radix2 (-90) * v <= bpow radix2 (-90 + 128)) by (rewrite bpow_plus; apply Rmult_le_compat_l; lra).
      repeat split. 1, 3: eapply Rle_trans; [|eassumption]; apply bpow_le; vm_compute; discriminate.
      - eapply Rle_trans; [eassumption|]; apply bpow_le; vm_compute; discriminate.
      - eapply Rle_lt_trans; [eassumption|]; apply bpow_lt; vm_compute; reflexivity. }
    destruct (T (val f32 b) LB ltac:(lra)) as (T1 & _ & T2 & T3). destruct (T (val f32 a) ltac:(lra) UA) as (_ & T4 & T5 & T6).
    pose proof (bpow_gt_0 radix2 (162 - 127)).
    destruct (sc_ex f32 w32' 0x12800000 a (-90) eq_refl m90 FA ltac:(lra) (or_intror T5) T6) as (Bx & Fx & Vx). destruct (sc_ex f32 w32' 0x12800000 b (-90) eq_refl m90 FB ltac:(lra) (or_intror T2) T3) as (By & Fy & Vy).
    exact (CORE 0x6c800000%Z _ _ (-90)%Z eq_refl p90 Fx Fy Vx Vy T1 T4).
  - destruct (Z.ltb_spec b 0x21800000) as [C2 | C2].
    + pose proof (LP 93%Z a ltac:(lia) ltac:(lia)) as UA.
      assert (LB : bpow radix2 (-149) <= val f32 b). { destruct (pos_mono f32 w32' b 1 ltac:(lia) ltac:(change (top f32) with 0x7f800000%Z; lia)) as [_ K]. eapply Rle_trans; [|exact K]. right. unfold val, mag_of. replace (signbit f32 1) with false by reflexivity. replace (expf f32 1) with 0%Z by reflexivity. replace (sigf f32 1) with 1%Z by reflexivity. change (0 =? 0)%Z with true. cbn [sval]. change (1 - bias f32 - mw f32)%Z with (-149)%Z. lra. }
      pose proof (bpow_gt_0 radix2 90). pose proof (bpow_gt_0 radix2 (-149)).
      assert (L1 : bpow radix2 (-60) <= bpow radix2 90 * val f32 b). { apply Rle_trans with (bpow radix2 (90 + -149)); [apply bpow_le; lia|]. rewrite bpow_plus. apply Rmult_le_compat_l; lra. }
      assert (L2 : bpow radix2 90 * val f32 a <= bpow radix2 60). { apply Rle_trans with (bpow radix2 (90 + (93 - 127))); [|apply bpow_le; lia]. rewrite bpow_plus. apply Rmult_le_compat_l; lra. }
      assert (L3 : bpow radix2 60 < bpow radix2 (bias f32 + 1)) by (apply bpow_lt; vm_compute; reflexivity).
      assert (L4 : bpow radix2 90 * val f32 b <= bpow radix2 90 * val f32 a) by (apply Rmult_le_compat_l; lra).
      destruct (sc_ex f32 w32' 0x6c800000 a 90 eq_refl p90 FA ltac:(lra) (or_introl (Pos2Z.is_nonneg _)) ltac:(lra)) as (Bx & Fx & Vx). destruct (sc_ex f32 w32' 0x6c800000 b 90 eq_refl p90 FB ltac:(lra) (or_introl (Pos2Z.is_nonneg _)) ltac:(lra)) as (By & Fy & Vy).
      exact (CORE 0x12800000%Z _ _ 90%Z eq_refl m90 Fx Fy Vx Vy L1 L2).
    + pose proof (GP 67%Z b ltac:(lia) ltac:(lia)) as LB. pose proof (LP 187%Z a ltac:(lia) ltac:(lia)) as UA.
      apply (CORE 0x3f800000%Z a b 0%Z eq_refl one32v FA FB); cbn [bpow]; try lra; rewrite Rmult_1_l; [exact LB|exact UA].
Qed.

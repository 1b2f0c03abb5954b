(** exp2f at integers. *)
From Coq Require Import ZArith Reals Lia Lra Bool List Psatz.
From Flocq Require Import Core.
From Verif Require Import Base Spec SpecFun SpecFun2 Ieee M_scalbn M_elib M_sqrt M_exp P_format P_ieee P_lit P_elem P_elem2 P_exp P_err P_scalbn P_tot P_sym3 P_gam6 P_apx P_expa12 P_l2c2.
Open Scope Z_scope.
Local Opaque fadd fsub fmul fdiv of_int fcvt.

Lemma pow64 e : 0 < e < 2047 -> isbits f64 (e * 2 ^ 52) /\ finite f64 (e * 2 ^ 52) = true /\ signbit f64 (e * 2 ^ 52) = false /\ iszero f64 (e * 2 ^ 52) = false /\ val f64 (e * 2 ^ 52) = bpow radix2 (e - 1023).
Proof.
  intros H. assert (E : e * 2 ^ 52 = mkbits f64 false e 0) by (unfold mkbits; change (mw f64) with 52; cbv match; lia). rewrite E.
  destruct (mkbits_fields f64 false e 0) as (S & X & M); [change (2 ^ ew f64) with 2048; lia|split; vm_compute; congruence|].
  split; [rewrite <- E; unfold isbits; change (2 ^ width f64) with (2 ^ 64); lia|].
  split; [unfold finite; rewrite X; change (2 ^ ew f64 - 1) with 2047; apply Z.ltb_lt; lia|].
  split; [exact S|]. split; [unfold iszero; rewrite X; destruct (Z.eqb_spec e 0); [lia|reflexivity]|].
  rewrite val_mkbits; [|change (2 ^ ew f64) with 2048; lia|split; vm_compute; congruence]. unfold mag_of, sval. destruct (Z.eqb_spec e 0); [lia|].
  change (mw f64) with 52. change (bias f64) with 1023. rewrite Z.add_0_r. change (IZR (2 ^ 52)) with (bpow radix2 52). rewrite <- bpow_plus. f_equal. lia.
Qed.
Lemma cvt_pow n : -1022 <= n <= 1023 -> rounds_to f32 (bpow radix2 n) false (fcvt f64 f32 ((1023 + n) * 2 ^ 52)).
Proof.
  intros H. destruct (pow64 (1023 + n) ltac:(lia)) as (B & G & S & _ & V).
  pose proof (fcvt_finite f64 f32 _ G) as R. rewrite S, V in R. replace (1023 + n - 1023) with n in R by lia. exact R.
Qed.
Lemma rnd_tiny32 n : n <= -150 -> rnd f32 (bpow radix2 n) = 0%R.
Proof.
  intros H. pose proof (cvt_pow (-150) ltac:(lia)) as R.
  assert (E0 : fcvt f64 f32 ((1023 + -150) * 2 ^ 52) = 0) by (vm_compute; reflexivity). rewrite E0 in R.
  destruct R as (_ & R). rewrite Rlt_bool_true in R.
  - destruct R as (_ & R & _). change (val f32 0) with (val f32 (zero f32 false)) in R. rewrite val_zero in R.
    apply Rle_antisym.
    + rewrite R. unfold rnd. apply round_le; [typeclasses eauto..|]. now apply bpow_le.
    + rewrite <- (rnd_0 f32). unfold rnd. apply round_le; [typeclasses eauto..|]. apply bpow_ge_0.
  - apply Rle_lt_trans with (bpow radix2 0); [|apply bpow_lt; vm_compute; reflexivity].
    rewrite Rabs_pos_eq.
    + unfold rnd. apply round_le_generic; [typeclasses eauto..| |apply bpow_le; lia].
      apply generic_format_bpow. vm_compute. discriminate.
    + rewrite <- (rnd_0 f32). unfold rnd. apply round_le; [typeclasses eauto..|]. apply bpow_ge_0.
Qed.
Lemma redux_addf x n : isbits f32 x -> finite f32 x = true -> val f32 x = IZR n -> n <> 0 -> -200 <= n <= 200 ->
  (x +' 0x49400000)%fl = 0x49400000 + 16 * n /\ ((0x49400000 + 16 * n) -' 0x49400000)%fl = x.
Proof.
  intros B G V NZ H.
  set (y := mkbits f32 false 146 (2 ^ 22 + 16 * n)).
  assert (Y : y = 0x49400000 + 16 * n) by (unfold y, mkbits; change (mw f32) with 23; change (ew f32) with 8; change (2 ^ 22) with 4194304; change (146 * 2 ^ 23) with 1224736768; cbv match; change 0x49400000 with 1228931072; lia).
  assert (Ry : 0 <= 2 ^ 22 + 16 * n < 2 ^ mw f32) by (change (mw f32) with 23; lia).
  destruct (mkbits_fields f32 false 146 (2 ^ 22 + 16 * n) ltac:(vm_compute; split; congruence) Ry) as (Sy & Ey & My).
  fold y in Sy, Ey, My. assert (By : isbits f32 y) by (rewrite Y; unfold isbits; change (2 ^ width f32) with (2 ^ 32); lia).
  assert (Vy : val f32 y = (IZR n + 786432)%R).
  { unfold y. rewrite val_mkbits; [|vm_compute; split; congruence|exact Ry]. unfold mag_of, sval. cbn [Z.eqb].
    change (mw f32) with 23. change (bias f32) with 127. change (146 - 127 - 23) with (-4).
    change (bpow radix2 (-4)) with (/ 16)%R. rewrite !plus_IZR, mult_IZR. change (IZR (2 ^ 23)) with 8388608%R. change (IZR (2 ^ 22)) with 4194304%R. lra. }
  assert (Fy : finite f32 y = true) by (unfold finite; rewrite Ey; reflexivity).
  assert (Zy : iszero f32 y = false) by (unfold iszero; rewrite Ey; reflexivity).
  assert (Vr : val f32 0x49400000 = 786432%R) by (rewrite (val_lit f32 0x49400000 786432 1) by (vm_compute; reflexivity); lra).
  rewrite <- Y. split.
  - pose proof (fadd_spec f32 x 0x49400000 G ltac:(vm_compute; reflexivity)) as S. rewrite Vr, V, <- Vy in S.
    exact (rounds_to_fun _ _ _ _ _ S (rounds_to_self f32 y By Fy Zy _)).
  - pose proof (fsub_spec f32 y 0x49400000 Fy ltac:(vm_compute; reflexivity)) as S. rewrite Vr, Vy in S.
    replace (IZR n + 786432 - 786432)%R with (val f32 x) in S by (rewrite V; lra).
    apply (rounds_to_fun _ _ _ _ _ S). apply rounds_to_self; [exact B|exact G|]. 
    destruct (iszero f32 x) eqn:K; [|reflexivity]. exfalso. apply NZ. apply eq_IZR. rewrite <- V.
    rewrite (iszero_eq f32 x B K). apply val_zero.
Qed.


Lemma exp2f_1_int x n : isbits f32 x -> finite f32 x = true -> val f32 x = IZR n -> n <> 0 -> -200 <= n <= 200 ->
  exists r, rs_exp2f_1 x 0x49400000 0x3f317218 0x3e75fdf0 0x3d6359a4 0x3c1d964e = Some r /\ rounds_to f32 (bpow radix2 n) false r.
Proof.
  intros B G V NZ H. destruct (redux_addf x n B G V NZ H) as [E1 E2].
  unfold rs_exp2f_1. cbv zeta. rewrite E1, E2, (fsub_self f32 x G). rewrite uadd_ok by lia. cbn [bind].
  assert (D : (0x49400000 + 16 * n + 8) / 16 = 0x4940000 + n) by (symmetry; apply (Z.div_unique _ 16 _ 8); lia).
  assert (M : Z.land (0x49400000 + 16 * n + 8) 15 = 8).
  { change 15 with (2 ^ 4 - 1). rewrite land_pow2m1 by lia. symmetry. apply (Z.mod_unique _ 16 (0x4940000 + n) 8); lia. }
  rewrite D, M, uadd_ok by lia. cbn [bind].
  assert (U : shlu 64 (1023 + (0x4940000 + n)) 52 = (1023 + n) * 2 ^ 52).
  { unfold shlu. rewrite Z.shiftl_mul_pow2 by lia. symmetry. apply (Z.mod_unique _ _ 0x4940); lia. }
  rewrite U. replace (tab_get rs_exp2f_EXP2FT 8) with (Some 0x3ff0000000000000) by (vm_compute; reflexivity). cbn [bind].
  match goal with |- exists r, Some (fcvt f64 f32 (fmul f64 ?t _)) = _ /\ _ => replace t with 0x3ff0000000000000 by (vm_compute; reflexivity) end.
  destruct (pow64 (1023 + n) ltac:(lia)) as (Bu & Gu & Su & Zu & Vu).
  pose proof (fmul_spec f64 0x3ff0000000000000 ((1023 + n) * 2 ^ 52) eq_refl Gu) as R. rewrite one64, Rmult_1_l in R.
  rewrite (rounds_to_fun _ _ _ _ _ R (rounds_to_self _ _ Bu Gu Zu _)).
  eexists. split; [reflexivity|]. apply cvt_pow. lia.
Qed.

Lemma cut32 x n c k : isbits f32 x -> finite f32 x = true -> val f32 x = IZR n -> 0 <= c < 0x7f800000 ->
  (IZR (k - 1) < val f32 c)%R -> (val f32 (c - 1) < IZR k)%R ->
  if c <=? a32 x then k <= Z.abs n else Z.abs n < k.
Proof.
  intros B G V H K1 K2. destruct (a32_ge x c B G H) as [H1 H2]. rewrite V, <- abs_IZR in H1, H2. destruct (c <=? a32 x).
  - specialize (H1 eq_refl). assert (IZR (k - 1) < IZR (Z.abs n))%R as L by lra. apply lt_IZR in L. lia.
  - specialize (H2 eq_refl). apply lt_IZR. lra.
Qed.

Lemma exp2f_int x n : isbits f32 x -> finite f32 x = true -> val f32 x = IZR n ->
  exists r, rs_exp2f x = Some r /\ rounds_to f32 (bpow radix2 n) false r.
Proof.
  intros B G V. unfold rs_exp2f. cbv zeta.
  replace (0x4b400000 /' of_int f32 rs_exp2f_TBLSIZE)%fl with 0x49400000 by (vm_compute; reflexivity).
  rewrite land_a32.
  assert (G' := G). rewrite (fin32 x B) in G'. apply Z.ltb_lt in G'.
  destruct (bits32 x B) as [EB RB].
  assert (C1 := cut32 x n 0x43000000 128 B G V ltac:(lia)).
  rewrite (val_lit f32 0x43000000 128 1), (val_lit f32 (0x43000000 - 1) (2 ^ 24 - 1) (2 ^ 17)) in C1 by (vm_compute; reflexivity).
  change (2 ^ 24 - 1) with 16777215 in C1. change (2 ^ 17) with 131072 in C1. change (128 - 1) with 127 in C1. specialize (C1 ltac:(lra) ltac:(lra)).
  assert (C2 := cut32 x n 0x33000001 1 B G V ltac:(lia)).
  rewrite (val_lit f32 0x33000001 (2 ^ 23 + 1) (2 ^ 48)), (val_lit f32 (0x33000001 - 1) 1 (2 ^ 25)) in C2 by (vm_compute; reflexivity).
  change (2 ^ 23 + 1) with 8388609 in C2. change (2 ^ 48) with 281474976710656 in C2. change (2 ^ 25) with 33554432 in C2. change (1 - 1) with 0 in C2. specialize (C2 ltac:(lra) ltac:(lra)).
  assert (C3 := cut32 x n 0x43160000 150 B G V ltac:(lia)).
  rewrite (val_lit f32 0x43160000 150 1), (val_lit f32 (0x43160000 - 1) (0x960000 - 1) (2 ^ 16)) in C3 by (vm_compute; reflexivity).
  change (0x960000 - 1) with 9830399 in C3. change (2 ^ 16) with 65536 in C3. change (150 - 1) with 149 in C3. specialize (C3 ltac:(lra) ltac:(lra)).
  assert (SG : (if signbit f32 x then n <= 0 else 0 <= n)).
  { destruct (signbit f32 x) eqn:S; apply le_IZR; rewrite <- V; [now apply val_sign_nonpos|now apply val_sign_nonneg]. }
  assert (Z0 : n <= -150 -> rounds_to f32 (bpow radix2 n) false 0).
  { intros N. split; [split; vm_compute; congruence|]. rewrite (rnd_tiny32 n N), Rabs_R0, Rlt_bool_true by apply bpow_gt_0.
    split; [reflexivity|]. split; [exact (val_zero f32 false)|]. rewrite Rcompare_Gt by apply bpow_gt_0. reflexivity. }
  destruct (Z.ltb_spec 0x42fc0000 (a32 x)) as [K0|K0].
  - destruct (Z.ltb_spec 0x7f800000 (a32 x)); [lia|].
    destruct (Z.leb_spec 0x33000001 (a32 x)); [|lia].
    destruct (signbit f32 x) eqn:S; cbn [bs] in EB.
    + destruct (Z.ltb_spec x 0x80000000); [lia|]. rewrite andb_false_r. destruct (Z.leb_spec 0x80000000 x); [|lia].
      destruct (Z.leb_spec 0xc3160000 x).
      * destruct (Z.leb_spec 0x43160000 (a32 x)); [|lia]. exists 0. split; [reflexivity|]. apply Z0. lia.
      * destruct (Z.leb_spec 0x43160000 (a32 x)); [lia|]. apply exp2f_1_int; try assumption; lia.
    + destruct (Z.ltb_spec x 0x80000000); [|lia]. destruct (Z.leb_spec 0x80000000 x); [lia|].
      destruct (Z.leb_spec 0x43000000 x); cbn [andb].
      * destruct (Z.leb_spec 0x43000000 (a32 x)); [|lia].
        exists (fmul f32 x 0x7f000000). split; [reflexivity|].
        pose proof (fmul_spec f32 x 0x7f000000 G eq_refl) as R.
        assert (N : 128 <= n) by lia. apply IZR_le in N.
        assert (Vt : val f32 0x7f000000 = bpow radix2 127).
        { change 0x7f000000 with (mkbits f32 false 254 0). rewrite val_mkbits; [|split; vm_compute; congruence..]. unfold mag_of, sval. cbn [Z.eqb].
          change (mw f32) with 23. change (bias f32) with 127. rewrite Z.add_0_r. change (IZR (2 ^ 23)) with (bpow radix2 23). rewrite <- bpow_plus. reflexivity. }
        assert (Big : (bpow radix2 128 <= val f32 x * bpow radix2 127)%R).
        { change 128 with (1 + 127). rewrite bpow_plus. apply Rmult_le_compat_r; [apply bpow_ge_0|]. rewrite V. change (bpow radix2 1) with 2%R. lra. }
        assert (I : fmul f32 x 0x7f000000 = infinity f32 false).
        { rewrite Vt in R. pose proof (bpow_gt_0 radix2 128) as P.
          assert (A : (bpow radix2 (bias f32 + 1) <= Rabs (val f32 x * bpow radix2 127))%R) by (rewrite Rabs_pos_eq by lra; exact Big).
          rewrite (rounds_to_fun _ _ _ _ _ R (rounds_inf f32 _ _ A)).
          rewrite Rlt_bool_false by lra. reflexivity. }
        assert (A : (bpow radix2 (bias f32 + 1) <= Rabs (bpow radix2 n))%R) by (rewrite Rabs_pos_eq by apply bpow_ge_0; apply bpow_le; change (bias f32) with 127; lia).
        rewrite I. pose proof (rounds_inf f32 (bpow radix2 n) false A) as Q. rewrite Rlt_bool_false in Q by apply bpow_ge_0. exact Q.
      * destruct (Z.leb_spec 0x43000000 (a32 x)); [lia|]. apply exp2f_1_int; try assumption; lia.
  - destruct (Z.leb_spec 0x43000000 (a32 x)); [lia|].
    destruct (Z.leb_spec (a32 x) 0x33000000); destruct (Z.leb_spec 0x33000001 (a32 x)); try lia.
    + assert (n = 0) by lia. subst n.
      assert (Zx : iszero f32 x = true) by now apply val_eq_0.
      exists 0x3f800000. split.
      * rewrite (iszero_eq f32 x B Zx). destruct (signbit f32 x); vm_compute; reflexivity.
      * change (bpow radix2 0) with 1%R. rewrite <- one32. apply rounds_to_self; try reflexivity. split; vm_compute; congruence.
    + apply exp2f_1_int; try assumption; lia.
Qed.

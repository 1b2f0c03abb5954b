(** exp2 at integers, continued: all branches. *)
From Coq Require Import ZArith Reals Lia Lra Bool List Psatz.
From Flocq Require Import Core.
From Verif Require Import Base Spec SpecFun SpecFun2 Ieee M_scalbn M_elib M_sqrt M_exp P_format P_ieee P_lit P_elem P_elem2 P_exp P_err P_scalbn P_tot P_sym3 P_gam6 P_apx P_l2c2.
Open Scope Z_scope.
Local Opaque fadd fsub fmul fdiv of_int rs_exp2_1.

Lemma cut64 x n c k : isbits f64 x -> finite f64 x = true -> val f64 x = IZR n -> 0 <= c < 0x7ff0000000000000 ->
  (IZR (k - 1) < val f64 c)%R -> (val f64 (c - 1) < IZR k)%R ->
  if c <=? a64 x then k <= Z.abs n else Z.abs n < k.
Proof.
  intros B G V H K1 K2. destruct (a64_ge x c B G H) as [H1 H2]. rewrite V, <- abs_IZR in H1, H2. destruct (c <=? a64 x).
  - specialize (H1 eq_refl). assert (IZR (k - 1) < IZR (Z.abs n))%R as L by lra. apply lt_IZR in L. lia.
  - specialize (H2 eq_refl). apply lt_IZR. lra.
Qed.
Lemma hi_le x c : (c <=? a64 x / 2 ^ 32) = (c * 2 ^ 32 <=? a64 x).
Proof.
  apply eq_true_iff_eq. rewrite !Z.leb_le. split; intros H; [now apply hi_ge|]. apply Z.div_le_lower_bound; lia.
Qed.
Lemma bpow_inf n : 1024 <= n -> (bpow radix2 1024 <= Rabs (bpow radix2 n))%R.
Proof. intros H. rewrite Rabs_pos_eq by apply bpow_ge_0. now apply bpow_le. Qed.

Lemma exp2_int x n : isbits f64 x -> finite f64 x = true -> val f64 x = IZR n ->
  exists r, rs_exp2 x = Some r /\ rounds_to f64 (bpow radix2 n) false r.
Proof.
  intros B G V. unfold rs_exp2. cbv zeta.
  replace (0x4338000000000000 /: of_int f64 rs_exp2_TBLSIZE)%fl with 0x42b8000000000000 by (vm_compute; reflexivity).
  rewrite (ix64' x B), (sg64 x B).
  assert (G' := G). rewrite (fin64 x B) in G'. apply Z.ltb_lt in G'.
  replace (a64 x / 2 ^ 32 <? 0x3c900000) with (negb (0x3c900000 <=? a64 x / 2 ^ 32)) by (rewrite Z.ltb_antisym; reflexivity).
  rewrite !hi_le. change (0x408ff000 * 2 ^ 32) with 0x408ff00000000000. change (0x40900000 * 2 ^ 32) with 0x4090000000000000.
  change (0x7ff00000 * 2 ^ 32) with 0x7ff0000000000000. change (0x3c900000 * 2 ^ 32) with 0x3c90000000000000.
  rewrite (proj2 (Z.leb_gt 0x7ff0000000000000 (a64 x)) G').
  assert (C1 := cut64 x n 0x4090000000000000 1024 B G V ltac:(lia)).
  rewrite (val_lit f64 0x4090000000000000 1024 1), (val_lit f64 (0x4090000000000000 - 1) (2 ^ 53 - 1) (2 ^ 43)) in C1 by (vm_compute; reflexivity).
  change (2 ^ 53 - 1) with 9007199254740991 in C1. change (2 ^ 43) with 8796093022208 in C1. change (1024 - 1) with 1023 in C1. specialize (C1 ltac:(lra) ltac:(lra)).
  assert (C2 := cut64 x n 0x3c90000000000000 1 B G V ltac:(lia)).
  rewrite (val_lit f64 0x3c90000000000000 1 (2 ^ 54)), (val_lit f64 (0x3c90000000000000 - 1) (2 ^ 53 - 1) (2 ^ 107)) in C2 by (vm_compute; reflexivity).
  change (2 ^ 53 - 1) with 9007199254740991 in C2. change (2 ^ 54) with 18014398509481984 in C2. change (2 ^ 107) with 162259276829213363391578010288128 in C2. change (1 - 1) with 0 in C2. specialize (C2 ltac:(lra) ltac:(lra)).
  assert (SG : (if signbit f64 x then n <= 0 else 0 <= n)).
  { destruct (signbit f64 x) eqn:S; apply le_IZR; rewrite <- V; [now apply val_sign_nonpos|now apply val_sign_nonneg]. }
  assert (Vm : val f64 0xc090cc0000000000 = (-1075)%R) by (rewrite (val_lit f64 0xc090cc0000000000 (-1075) 1) by (vm_compute; reflexivity); lra).
  assert (NN : isnan f64 x = false) by now apply finite_not_nan.
  assert (FL : fle f64 x 0xc090cc0000000000 = (n <=? -1075)).
  { apply eq_true_iff_eq. rewrite Z.leb_le, fle_spec. unfold lt_bits, eq_bits. rewrite G, NN, Vm, V.
    change (finite f64 0xc090cc0000000000) with true. change (isnan f64 0xc090cc0000000000) with false. cbv match. split.
    - intros H. apply le_IZR. lra.
    - intros H. apply IZR_le in H. destruct (Req_dec (IZR n) (-1075)) as [E|E]; [right; auto|left]. repeat split. lra. }
  rewrite FL.
  assert (Z0 : n <= -1075 -> rounds_to f64 (bpow radix2 n) false 0).
  { intros N. split; [split; vm_compute; congruence|]. rewrite (rnd_tiny n N), Rabs_R0, Rlt_bool_true by apply bpow_gt_0.
    split; [reflexivity|]. split; [exact (val_zero f64 false)|]. rewrite Rcompare_Gt by apply bpow_gt_0. reflexivity. }
  destruct (0x408ff00000000000 <=? a64 x) eqn:K0.
  - apply Z.leb_le in K0. replace (0x3c90000000000000 <=? a64 x) with true in C2 by (symmetry; apply Z.leb_le; lia).
    destruct (0x4090000000000000 <=? a64 x) eqn:K1; cbn [andb].
    + destruct (signbit f64 x) eqn:S; cbn [bs Z.eqb negb].
      * destruct (Z.leb_spec n (-1075)); [exists 0; auto|]. apply exp2_1_int; try assumption; lia.
      * exists (fmul f64 x 0x7fe0000000000000). split; [reflexivity|].
        pose proof (fmul_spec f64 x 0x7fe0000000000000 G eq_refl) as R.
        assert (N : 1024 <= n) by lia. apply IZR_le in N.
        assert (Vt : val f64 0x7fe0000000000000 = bpow radix2 1023).
        { change 0x7fe0000000000000 with (mkbits f64 false 2046 0). rewrite val_mkbits; [|split; vm_compute; congruence..]. unfold mag_of, sval. cbn [Z.eqb].
          change (mw f64) with 52. change (bias f64) with 1023. rewrite Z.add_0_r. change (IZR (2 ^ 52)) with (bpow radix2 52). rewrite <- bpow_plus. reflexivity. }
        assert (Big : (bpow radix2 1024 <= val f64 x * bpow radix2 1023)%R).
        { change 1024 with (1 + 1023). rewrite bpow_plus. apply Rmult_le_compat_r; [apply bpow_ge_0|]. rewrite V. change (bpow radix2 1) with 2%R. lra. }
        assert (I : fmul f64 x 0x7fe0000000000000 = infinity f64 false).
        { rewrite Vt in R. pose proof (bpow_gt_0 radix2 1024) as P. assert (A : (bpow radix2 (bias f64 + 1) <= Rabs (val f64 x * bpow radix2 1023))%R) by (rewrite Rabs_pos_eq by lra; exact Big). rewrite (rounds_to_fun _ _ _ _ _ R (rounds_inf f64 _ _ A)).
          rewrite Rlt_bool_false by lra. reflexivity. }
        rewrite I. pose proof (rounds_inf f64 (bpow radix2 n) false (bpow_inf n ltac:(lia))) as Q. rewrite Rlt_bool_false in Q by apply bpow_ge_0. exact Q.
    + destruct (signbit f64 x) eqn:S; cbn [bs Z.eqb negb].
      * destruct (Z.leb_spec n (-1075)); [exists 0; auto|]. apply exp2_1_int; try assumption; lia.
      * apply exp2_1_int; try assumption; lia.
  - destruct (0x3c90000000000000 <=? a64 x) eqn:K2; cbn [negb].
    + apply exp2_1_int; try assumption; [lia|].
      replace (0x4090000000000000 <=? a64 x) with false in C1 by (symmetry; apply Z.leb_gt; apply Z.leb_gt in K0; lia). lia.
    + assert (n = 0) by lia. subst n.
      assert (Zx : iszero f64 x = true) by now apply val_eq_0.
      exists 0x3ff0000000000000. split.
      * rewrite (iszero_eq f64 x B Zx). destruct (signbit f64 x); vm_compute; reflexivity.
      * change (bpow radix2 0) with 1%R. rewrite <- one64. apply rounds_to_self; try reflexivity. split; vm_compute; congruence.
Qed.

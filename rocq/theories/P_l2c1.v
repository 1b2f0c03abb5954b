(** log2 and log2f of a power of two. *)
From Coq Require Import ZArith Reals Lia Lra Bool List Psatz.
From Flocq Require Import Core.
From Verif Require Import Base Spec SpecFun2 SpecLog SpecLog2 Format P_format Ieee P_ieee P_real P_neg P_lit P_err P_scalbn P_elem P_elem2 P_dom P_ival P_ival2 P_gam4 P_gam6 P_exp P_log P_apx P_poly P_poly2 P_poly3 P_powt P_powt8 P_taylor P_expa1 P_expa2 P_expa3 P_expa4 P_expa5 P_expa6 P_expa7 P_expa8 P_expa9 P_expa10 P_expa12 P_lga1 P_lga2 P_lga3 P_lga4 P_lga5 P_lga6 P_lga7 P_lgb3 P_lgb4 P_lgb5 P_lgb6 P_lgb7 P_powt12 P_l2a1 P_l2a2 P_l2a3 P_l2a4 P_l2a5 P_l2a6 P_l2a8 P_l2b2 P_l2b3 P_l2b5 P_l2a7 P_l2b6 P_l2b7 M_sqrt M_elib M_log.
Import ListNotations.
Open Scope R_scope.
Local Opaque fadd fsub fmul fdiv of_int.

Lemma log2_red x : isbits f64 x -> finite f64 x = true -> 0 < val f64 x -> (x = 0x3ff0000000000000%Z /\ rs_log2 x = Some 0%Z) \/
  exists x' k, (2 ^ 52 <= x' < 0x7ff0000000000000)%Z /\ (-54 <= k <= 0)%Z /\ val f64 x = val f64 x' * bpow radix2 k /\ (k <> 0%Z -> val f64 x' < bpow radix2 (-900)) /\ rs_log2 x = rs_log2_1 x' (to_u 32 (Z.shiftr x' 32)) k.
Proof.
  intros B Fx P. pose proof (val_pos_sign f64 x P) as S. pose proof (pos64_eq x B S) as A. pose proof (fin64 x B) as FI. rewrite Fx, A in FI. symmetry in FI. 
  destruct (bits64 x B) as [_ R]. rewrite A in R. assert (X0 : (0 < x)%Z). { destruct (Z.eq_dec x 0) as [-> | N]; [|lia]. rewrite (val_zero f64 false : val f64 0 = 0) in P. lra. }
  assert (XI : (x < 0x7ff0000000000000)%Z) by (apply Z.ltb_lt; exact FI). 
  assert (HX : to_u 32 (Z.shiftr x 32) = (x / 2 ^ 32)%Z) by (rewrite hw64, S, A by exact B; cbn [bs]; lia).
  assert (HM : (0 <= x / 2 ^ 32 < 2 ^ 31)%Z) by (split; [apply Z.div_pos; lia|apply Z.div_lt_upper_bound; lia]).
  unfold rs_log2. rewrite shl1_64, A by exact B. replace (2 * x =? 0)%Z with false by (symmetry; apply Z.eqb_neq; lia).
  assert (SH : Z.shiftr (to_u 32 (Z.shiftr x 32)) 31 = 0%Z) by (rewrite HX, Z.shiftr_div_pow2 by lia; apply Z.div_small; lia). rewrite SH. change (0 <? 0)%Z with false. rewrite orb_false_r.
  destruct (Z.ltb_spec (to_u 32 (Z.shiftr x 32)) 0x100000) as [L | L]; rewrite HX in L.
  - assert (XS : (x < 2 ^ 52)%Z) by (pose proof (Z.div_mod x (2 ^ 32) ltac:(lia)); pose proof (Z.mod_pos_bound x (2 ^ 32) ltac:(lia)); lia).
    rewrite ssub_ok by lia. cbn [bind]. change (0 - 54)%Z with (-54)%Z.
    assert (XV : bpow radix2 (-1074) <= val f64 x < bpow radix2 (-1022)).
    { assert (VX : val f64 x = IZR x * bpow radix2 (-1074)). { unfold val. rewrite S. unfold sval, mag_of, expf, sigf. change (mw f64) with 52%Z. rewrite Z.div_small, Z.mod_0_l, Z.mod_small by (lia || (vm_compute; discriminate)). reflexivity. }
      rewrite VX. split; [rewrite <- (Rmult_1_l (bpow radix2 (-1074))) at 1; apply Rmult_le_compat_r; [apply bpow_ge_0|apply (IZR_le 1); lia]|].
      change (bpow radix2 (-1022)) with (bpow radix2 (52 + -1074)). rewrite bpow_plus. apply Rmult_lt_compat_r; [apply bpow_gt_0|]. change (bpow radix2 52) with (IZR (2 ^ 52)). now apply IZR_lt. }
    destruct x54 as [F54 V54]. pose proof (fmul_spec f64 x 0x4350000000000000 Fx F54) as RT. rewrite V54 in RT.
    assert (BB : bpow radix2 (-1020) <= val f64 x * bpow radix2 54 < bpow radix2 (-968)).
    { change (bpow radix2 (-1020)) with (bpow radix2 (-1074 + 54)). change (bpow radix2 (-968)) with (bpow radix2 (-1022 + 54)). rewrite !bpow_plus. split; [apply Rmult_le_compat_r; [apply bpow_ge_0|lra]|apply Rmult_lt_compat_r; [apply bpow_gt_0|lra]]. }
    assert (AB : Rabs (val f64 x * bpow radix2 54) = val f64 x * bpow radix2 54) by (apply Rabs_pos_eq; pose proof (bpow_gt_0 radix2 (-1020)); lra).
    destruct (rounds_fin f64 _ _ _ RT) as [Fm Vm]. { rewrite AB. apply Rlt_le, Rlt_le_trans with (1 := proj2 BB). apply bpow_le. vm_compute. discriminate. }
    rewrite (repr_rnd f64 (val f64 x * bpow radix2 54)) in Vm. 2:{ apply repr_scale; [now apply repr_val|lia]. }
    set (x' := fmul f64 x 0x4350000000000000) in *. pose proof (proj1 RT) as Bm.
    assert (P' : 0 < val f64 x') by (rewrite Vm; pose proof (bpow_gt_0 radix2 (-1020)); lra). pose proof (val_pos_sign f64 x' P') as S'. pose proof (pos64_eq x' Bm S') as A'. pose proof (fin64 x' Bm) as FI'. rewrite Fm, A' in FI'. symmetry in FI'. apply Z.ltb_lt in FI'.
    assert (XN : (2 ^ 52 <= x')%Z).
    { destruct (Z_lt_le_dec x' (2 ^ 52)) as [C | C]; [|exact C]. exfalso. pose proof (a64_ge x' (2 ^ 52) Bm Fm ltac:(lia)) as [_ Q]. rewrite A' in Q. specialize (Q ltac:(apply Z.leb_gt; exact C)). rewrite Rabs_pos_eq in Q by lra. rewrite Vm in Q.
      assert (QQ : val f64 (2 ^ 52 - 1) < bpow radix2 (-1022)). { change (val f64 (2 ^ 52 - 1)) with (IZR (2 ^ 52 - 1) * bpow radix2 (-1074)). change (bpow radix2 (-1022)) with (bpow radix2 (52 + -1074)). rewrite bpow_plus. apply Rmult_lt_compat_r; [apply bpow_gt_0|]. change (bpow radix2 52) with (IZR (2 ^ 52)). apply IZR_lt. lia. }
      assert (bpow radix2 (-1022) <= bpow radix2 (-1020)) by (apply bpow_le; lia). lra. }
    right. exists x', (-54)%Z. split; [lia|]. split; [lia|]. split; [rewrite Vm, Rmult_assoc, <- bpow_plus; change (bpow radix2 (54 + -54)) with 1; ring|]. split; [|reflexivity].
    intros _. rewrite Vm. apply Rlt_le_trans with (1 := proj2 BB). apply bpow_le. lia.
  - assert (XN : (2 ^ 52 <= x)%Z) by (pose proof (Z.div_mod x (2 ^ 32) ltac:(lia)); pose proof (Z.mod_pos_bound x (2 ^ 32) ltac:(lia)); lia).
    replace (0x7ff00000 <=? to_u 32 (Z.shiftr x 32))%Z with false. 2:{ symmetry. apply Z.leb_gt. rewrite HX. apply Z.div_lt_upper_bound; lia. }
    destruct ((to_u 32 (Z.shiftr x 32) =? 0x3ff00000)%Z && (shlu 64 x 32 =? 0)%Z) eqn:E1.
    + apply andb_prop in E1 as [E1 E2]. apply Z.eqb_eq in E1, E2. rewrite HX in E1. assert (x = 0x3ff0000000000000)%Z as ->.
      { unfold shlu in E2. rewrite Z.shiftl_mul_pow2 in E2 by lia. pose proof (Z.div_mod x (2 ^ 32) ltac:(lia)) as D. replace (x * 2 ^ 32)%Z with ((x mod 2 ^ 32) * 2 ^ 32 + (x / 2 ^ 32) * 2 ^ 64)%Z in E2 by lia. rewrite Z.mod_add in E2 by lia. pose proof (Z.mod_pos_bound x (2 ^ 32) ltac:(lia)). rewrite Z.mod_small in E2 by lia. lia. }
      left. now split.
    + right. exists x, 0%Z. split; [lia|]. split; [lia|]. split; [cbn; ring|]. split; [lia|reflexivity].
Qed.
Lemma log2f_red x : isbits f32 x -> finite f32 x = true -> 0 < val f32 x -> (x = 0x3f800000%Z /\ rs_log2f x = Some 0%Z) \/
  exists x' k, (2 ^ 23 <= x' < 0x7f800000)%Z /\ (-25 <= k <= 0)%Z /\ val f32 x = val f32 x' * bpow radix2 k /\ rs_log2f x = rs_log2f_1 x' k.
Proof.
  intros B Fx P. pose proof (val_pos_sign f32 x P) as S. pose proof (pos32_eq x B S) as A. pose proof (fin32 x B) as FI. rewrite Fx, A in FI. symmetry in FI. 
  destruct (bits32 x B) as [_ R]. rewrite A in R. assert (X0 : (0 < x)%Z). { destruct (Z.eq_dec x 0) as [-> | N]; [|lia]. rewrite (val_zero f32 false : val f32 0 = 0) in P. lra. }
  assert (XI : (x < 0x7f800000)%Z) by (apply Z.ltb_lt; exact FI). 
  unfold rs_log2f. cbv zeta. rewrite shl1_32, A by exact B. replace (2 * x =? 0)%Z with false by (symmetry; apply Z.eqb_neq; lia).
  assert (SH : Z.shiftr x 31 = 0%Z) by (rewrite Z.shiftr_div_pow2 by lia; apply Z.div_small; lia). rewrite SH. change (0 <? 0)%Z with false. rewrite orb_false_r.
  destruct (Z.ltb_spec x 0x800000) as [L | L].
  - rewrite ssub_ok by lia. cbn [bind]. change (0 - 25)%Z with (-25)%Z.
    assert (XV : bpow radix2 (-149) <= val f32 x < bpow radix2 (-126)).
    { assert (VX : val f32 x = IZR x * bpow radix2 (-149)). { unfold val. rewrite S. unfold sval, mag_of, expf, sigf. change (mw f32) with 23%Z. rewrite Z.div_small, Z.mod_0_l, Z.mod_small by (lia || (vm_compute; discriminate)). reflexivity. }
      rewrite VX. split; [rewrite <- (Rmult_1_l (bpow radix2 (-149))) at 1; apply Rmult_le_compat_r; [apply bpow_ge_0|apply (IZR_le 1); lia]|].
      change (bpow radix2 (-126)) with (bpow radix2 (23 + -149)). rewrite bpow_plus. apply Rmult_lt_compat_r; [apply bpow_gt_0|]. change (bpow radix2 23) with (IZR (2 ^ 23)). now apply IZR_lt. }
    destruct x25 as [F54 V54]. pose proof (fmul_spec f32 x 0x4c000000 Fx F54) as RT. rewrite V54 in RT.
    assert (BB : bpow radix2 (-124) <= val f32 x * bpow radix2 25 < bpow radix2 (-101)).
    { change (bpow radix2 (-124)) with (bpow radix2 (-149 + 25)). change (bpow radix2 (-101)) with (bpow radix2 (-126 + 25)). rewrite !bpow_plus. split; [apply Rmult_le_compat_r; [apply bpow_ge_0|lra]|apply Rmult_lt_compat_r; [apply bpow_gt_0|lra]]. }
    assert (AB : Rabs (val f32 x * bpow radix2 25) = val f32 x * bpow radix2 25) by (apply Rabs_pos_eq; pose proof (bpow_gt_0 radix2 (-124)); lra).
    destruct (rounds_fin f32 _ _ _ RT) as [Fm Vm]. { rewrite AB. apply Rlt_le, Rlt_le_trans with (1 := proj2 BB). apply bpow_le. vm_compute. discriminate. }
    rewrite (repr_rnd f32 (val f32 x * bpow radix2 25)) in Vm. 2:{ apply repr_scale; [now apply repr_val|lia]. }
    set (x' := fmul f32 x 0x4c000000) in *. pose proof (proj1 RT) as Bm.
    assert (P' : 0 < val f32 x') by (rewrite Vm; pose proof (bpow_gt_0 radix2 (-124)); lra). pose proof (val_pos_sign f32 x' P') as S'. pose proof (pos32_eq x' Bm S') as A'. pose proof (fin32 x' Bm) as FI'. rewrite Fm, A' in FI'. symmetry in FI'. apply Z.ltb_lt in FI'.
    assert (XN : (2 ^ 23 <= x')%Z).
    { destruct (Z_lt_le_dec x' (2 ^ 23)) as [C | C]; [|exact C]. exfalso. pose proof (a32_ge x' (2 ^ 23) Bm Fm ltac:(lia)) as [_ Q]. rewrite A' in Q. specialize (Q ltac:(apply Z.leb_gt; exact C)). rewrite Rabs_pos_eq in Q by lra. rewrite Vm in Q.
      assert (QQ : val f32 (2 ^ 23 - 1) < bpow radix2 (-126)). { change (val f32 (2 ^ 23 - 1)) with (IZR (2 ^ 23 - 1) * bpow radix2 (-149)). change (bpow radix2 (-126)) with (bpow radix2 (23 + -149)). rewrite bpow_plus. apply Rmult_lt_compat_r; [apply bpow_gt_0|]. change (bpow radix2 23) with (IZR (2 ^ 23)). apply IZR_lt. lia. }
      assert (bpow radix2 (-126) <= bpow radix2 (-124)) by (apply bpow_le; lia). lra. }
    right. exists x', (-25)%Z. split; [lia|]. split; [lia|]. split; [rewrite Vm, Rmult_assoc, <- bpow_plus; change (bpow radix2 (25 + -25)) with 1; ring|reflexivity].
  - replace (0x7f800000 <=? x)%Z with false by (symmetry; apply Z.leb_gt; lia).
    destruct (Z.eqb_spec x 0x3f800000) as [-> | E1].
    + left. now split.
    + right. exists x, 0%Z. split; [lia|]. split; [lia|]. split; [cbn; ring|reflexivity].
Qed.

Lemma two_zero64 y vh vl : finite f64 y = true -> Rabs (val f64 y) <= 1100 -> finite f64 vh = true -> val f64 vh = 0 -> finite f64 vl = true -> val f64 vl = 0 -> isbits f64 (two64 y vh vl) /\ finite f64 (two64 y vh vl) = true /\ val f64 (two64 y vh vl) = val f64 y.
Proof.
  intros Fy LY Fh Vh Fl Vl. assert (BG : forall v, Rabs v <= 4096 -> Rabs v <= bpow radix2 (bias f64)). { intros v Hv. apply Rle_trans with (bpow radix2 12); [exact Hv|apply bpow_le; vm_compute; discriminate]. }
  assert (Z0 : Rabs 0 <= 4096) by (rewrite Rabs_R0; lra).
  destruct (add_zero f64 y vh Fy Fh Vh ltac:(apply BG; lra)) as (Bw & Fw & Vw). unfold two64. set (w := fadd f64 y vh) in *.
  pose proof (fsub_spec f64 y w Fy Fw) as RD. rewrite Vw in RD. unfold Rminus in RD. rewrite Rplus_opp_r in RD. destruct (rounds_fin f64 _ _ _ RD (BG _ Z0)) as [Fd Vd]. rewrite (repr_rnd f64 0 (repr_0 f64)) in Vd. set (d := fsub f64 y w) in *.
  destruct (add_zero f64 d vh Fd Fh Vh ltac:(rewrite Vd; now apply BG)) as (Be & Fe & Ve). rewrite Vd in Ve. set (e := fadd f64 d vh) in *.
  destruct (add_zero f64 vl e Fl Fe Ve ltac:(rewrite Vl; now apply BG)) as (Bl & Fl' & Vl'). rewrite Vl in Vl'. set (l := fadd f64 vl e) in *.
  pose proof (fadd_spec f64 l w Fl' Fw) as RR. rewrite Vl', Vw, Rplus_0_l in RR. destruct (rounds_fin f64 _ _ _ RR ltac:(apply BG; lra)) as [Fr Vr]. rewrite (repr_rnd f64 _ (repr_val f64 y Fy)) in Vr. split; [exact (proj1 RR)|]. now split.
Qed.
Lemma two_zero32 y vh vl : finite f32 y = true -> Rabs (val f32 y) <= 1100 -> finite f32 vh = true -> val f32 vh = 0 -> finite f32 vl = true -> val f32 vl = 0 -> isbits f32 (two32 y vh vl) /\ finite f32 (two32 y vh vl) = true /\ val f32 (two32 y vh vl) = val f32 y.
Proof.
  intros Fy LY Fh Vh Fl Vl. assert (BG : forall v, Rabs v <= 4096 -> Rabs v <= bpow radix2 (bias f32)). { intros v Hv. apply Rle_trans with (bpow radix2 12); [exact Hv|apply bpow_le; vm_compute; discriminate]. }
  destruct (add_zero f32 vl vh Fl Fh Vh ltac:(rewrite Vl; apply BG; rewrite Rabs_R0; lra)) as (Bw & Fw & Vw). unfold two32. set (w := fadd f32 vl vh) in *. rewrite Vl in Vw.
  pose proof (fadd_spec f32 w y Fw Fy) as RR. rewrite Vw, Rplus_0_l in RR. destruct (rounds_fin f32 _ _ _ RR ltac:(apply BG; lra)) as [Fr Vr]. rewrite (repr_rnd f32 _ (repr_val f32 y Fy)) in Vr. split; [exact (proj1 RR)|]. now split.
Qed.
Lemma zero_cases64 f : isbits f64 f -> finite f64 f = true -> val f64 f = 0 -> f = 0%Z \/ f = 0x8000000000000000%Z.
Proof.
  intros Bf Ff Z. pose proof (val_eq_0 f64 f Bf Ff Z) as I. unfold iszero in I. apply andb_prop in I as [I1 I2]. apply Z.eqb_eq in I1, I2. unfold expf, sigf in I1, I2. destruct Bf as [Bf1 Bf2]. change (mw f64) with 52%Z in *. change (ew f64) with 11%Z in *. change (2 ^ 52)%Z with 4503599627370496%Z in *. change (2 ^ 11)%Z with 2048%Z in *.
  assert (QB : (f < 18446744073709551616)%Z) by exact Bf2. pose proof (Z.div_mod f 4503599627370496 ltac:(lia)). pose proof (Z.div_mod (f / 4503599627370496) 2048 ltac:(lia)). assert (0 <= f / 4503599627370496 / 2048 < 2)%Z by (rewrite Z.div_div by lia; split; [apply Z.div_pos; lia|apply Z.div_lt_upper_bound; lia]). lia.
Qed.
Lemma zero_cases32 f : isbits f32 f -> finite f32 f = true -> val f32 f = 0 -> f = 0%Z \/ f = 0x80000000%Z.
Proof.
  intros Bf Ff Z. pose proof (val_eq_0 f32 f Bf Ff Z) as I. unfold iszero in I. apply andb_prop in I as [I1 I2]. apply Z.eqb_eq in I1, I2. unfold expf, sigf in I1, I2. destruct Bf as [Bf1 Bf2]. change (mw f32) with 23%Z in *. change (ew f32) with 8%Z in *. change (2 ^ 23)%Z with 8388608%Z in *. change (2 ^ 8)%Z with 256%Z in *.
  assert (QB : (f < 4294967296)%Z) by exact Bf2. pose proof (Z.div_mod f 8388608 ltac:(lia)). pose proof (Z.div_mod (f / 8388608) 256 ltac:(lia)). assert (0 <= f / 8388608 / 256 < 2)%Z by (rewrite Z.div_div by lia; split; [apply Z.div_pos; lia|apply Z.div_lt_upper_bound; lia]). lia.
Qed.
Lemma vz64 f : isbits f64 f -> finite f64 f = true -> val f64 f = 0 -> (finite f64 (vh2 f) = true /\ val f64 (vh2 f) = 0) /\ finite f64 (vl2 f) = true /\ val f64 (vl2 f) = 0.
Proof.
  intros B Fi V. destruct (zero_cases64 f B Fi V) as [-> | ->].
  - assert (E1 : vh2 0 = 0%Z) by (vm_compute; reflexivity). assert (E2 : vl2 0 = 0%Z) by (vm_compute; reflexivity). rewrite E1, E2. repeat split; exact (val_zero f64 false).
  - assert (E1 : vh2 0x8000000000000000 = 0x8000000000000000%Z) by (vm_compute; reflexivity). assert (E2 : vl2 0x8000000000000000 = 0%Z) by (vm_compute; reflexivity). rewrite E1, E2. repeat split; [exact (val_zero f64 true)|exact (val_zero f64 false)].
Qed.
Lemma vz32 f : isbits f32 f -> finite f32 f = true -> val f32 f = 0 -> (finite f32 (vh2f f) = true /\ val f32 (vh2f f) = 0) /\ finite f32 (vl2f f) = true /\ val f32 (vl2f f) = 0.
Proof.
  intros B Fi V. destruct (zero_cases32 f B Fi V) as [-> | ->].
  - assert (E1 : vh2f 0 = 0%Z) by (vm_compute; reflexivity). assert (E2 : vl2f 0 = 0%Z \/ vl2f 0 = 0x80000000%Z) by (vm_compute; auto). rewrite E1. split; [split; [reflexivity|exact (val_zero f32 false)]|]. destruct E2 as [-> | ->]; split; try reflexivity; [exact (val_zero f32 false)|exact (val_zero f32 true)].
  - assert (E1 : vh2f 0x80000000 = 0x80000000%Z) by (vm_compute; reflexivity). assert (E2 : vl2f 0x80000000 = 0%Z \/ vl2f 0x80000000 = 0x80000000%Z) by (vm_compute; auto). rewrite E1. split; [split; [reflexivity|exact (val_zero f32 true)]|]. destruct E2 as [-> | ->]; split; try reflexivity; [exact (val_zero f32 false)|exact (val_zero f32 true)].
Qed.
(** 1 + F is a power of two only for F = 0 *)
Lemma pow_eq n k F : bpow radix2 n = (1 + F) * bpow radix2 k -> -2930 / 10000 <= F <= 41425 / 100000 -> n = k /\ F = 0.
Proof.
  intros V Rf. assert (E : bpow radix2 (n - k) = 1 + F). { unfold Zminus. rewrite bpow_plus, V, Rmult_assoc, <- bpow_plus. replace (k + - k)%Z with 0%Z by ring. cbn. ring. }
  assert (NK : n = k). { assert (-1 < n - k)%Z by (apply (lt_bpow radix2); change (bpow radix2 (-1)) with (/ 2); lra). assert (n - k < 1)%Z by (apply (lt_bpow radix2); change (bpow radix2 1) with 2; lra). lia. }
  split; [exact NK|]. subst n. rewrite Z.sub_diag in E. cbn in E. lra.
Qed.
Lemma log2_pow x n : isbits f64 x -> finite f64 x = true -> val f64 x = bpow radix2 n -> exists r, rs_log2 x = Some r /\ isbits f64 r /\ finite f64 r = true /\ val f64 r = IZR n.
Proof.
  intros B Fx V. destruct (log2_red x B Fx ltac:(rewrite V; apply bpow_gt_0)) as [(-> & ->) | (x' & k & H & Hk & Vx & HS & ->)].
  - exists 0%Z. split; [reflexivity|]. split; [split; vm_compute; (reflexivity || discriminate)|]. split; [reflexivity|]. rewrite (val_zero f64 false : val f64 0 = 0). rewrite (proj2 o64) in V. apply (bpow_inj radix2 0) in V. now subst n.
  - destruct (nx64_eq x' H) as (NE & NR & NK & HH). destruct (red_log64 x' H) as (Bf & Ff & Vx' & Lo & Rf & Rq). set (hx := to_u 32 (Z.shiftr x' 32)) in *. set (f := fsub f64 (nx64 x' hx) 0x3ff0000000000000) in *. cbv zeta in *.
    rewrite V, Vx', Rmult_assoc, <- bpow_plus in Vx. destruct (pow_eq _ _ _ Vx Rf) as [En Ef]. 
    exists (l2res f (k + nk64 hx)). split; [apply log2_1_eq; [lia|lia|now apply sub_bits]|]. unfold l2res. destruct (vz64 f Bf Ff Ef) as ((F1 & V1) & F2 & V2).
    destruct (of_int_small f64 (k + nk64 hx) ltac:(vm_compute; discriminate) ltac:(vm_compute; reflexivity) ltac:(lia)) as (Bk & Fk & Vk).
    destruct (two_zero64 (of_int f64 (k + nk64 hx)) (vh2 f) (vl2 f) Fk) as (R1 & R2 & R3); try assumption. { rewrite Vk, <- abs_IZR. apply IZR_le. lia. }
    split; [exact R1|]. split; [exact R2|]. rewrite R3, Vk, En. f_equal. lia.
Qed.
Lemma log2f_pow x n : isbits f32 x -> finite f32 x = true -> val f32 x = bpow radix2 n -> exists r, rs_log2f x = Some r /\ isbits f32 r /\ finite f32 r = true /\ val f32 r = IZR n.
Proof.
  intros B Fx V. destruct (log2f_red x B Fx ltac:(rewrite V; apply bpow_gt_0)) as [(-> & ->) | (x' & k & H & Hk & Vx & ->)].
  - exists 0%Z. split; [reflexivity|]. split; [split; vm_compute; (reflexivity || discriminate)|]. split; [reflexivity|]. rewrite (val_zero f32 false : val f32 0 = 0). rewrite (proj2 o32) in V. apply (bpow_inj radix2 0) in V. now subst n.
  - destruct (nx32_eq x' H) as (NE & NR & NK). destruct (red_log32 x' H) as (Bf & Ff & Vx' & Lo & Rf & Rq). set (f := fsub f32 (nx32 x') 0x3f800000) in *. cbv zeta in *.
    rewrite V, Vx', Rmult_assoc, <- bpow_plus in Vx. destruct (pow_eq _ _ _ Vx Rf) as [En Ef]. 
    exists (l2resf f (k + nk32 x')). split; [apply log2f_1_eq; [lia|lia|now apply sub_bitsf]|]. unfold l2resf. destruct (vz32 f Bf Ff Ef) as ((F1 & V1) & F2 & V2).
    destruct (of_int_small f32 (k + nk32 x') ltac:(vm_compute; discriminate) ltac:(vm_compute; reflexivity) ltac:(lia)) as (Bk & Fk & Vk).
    destruct (two_zero32 (of_int f32 (k + nk32 x')) (vh2f f) (vl2f f) Fk) as (R1 & R2 & R3); try assumption. { rewrite Vk, <- abs_IZR. apply IZR_le. lia. }
    split; [exact R1|]. split; [exact R2|]. rewrite R3, Vk, En. f_equal. lia.
Qed.

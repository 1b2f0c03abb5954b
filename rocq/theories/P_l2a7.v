(** log2 is accurate. *)
From Coq Require Import ZArith Reals Lia Lra Bool List Psatz.
From Flocq Require Import Core.
From Verif Require Import Base Spec SpecFun2 SpecLog Format P_format Ieee P_ieee P_real P_neg P_lit P_err P_scalbn P_elem P_elem2 P_dom P_ival P_ival2 P_gam4 P_gam6 P_exp P_log P_apx P_poly P_poly2 P_poly3 P_powt P_powt8 P_taylor P_expa1 P_expa2 P_expa3 P_expa4 P_expa5 P_expa7 P_expa8 P_expa9 P_expa10 P_lga1 P_lga2 P_lga3 P_lga4 P_lga5 P_lga6 P_lga7 P_tan64o P_l2a1 P_l2a2 P_l2a3 P_l2a4 P_l2a5 P_l2a6 M_sqrt M_elib M_log.
Import ListNotations.
Open Scope R_scope.
Local Opaque fadd fsub fmul fdiv of_int.

Lemma mask_trc a : isbits f64 a -> Z.land a 0xffffffff00000000 = trc 32 a.
Proof. intros [H1 H2]. rewrite land_mask32 by (split; [exact H1|exact H2]). unfold trc. lia. Qed.
Definition l2res (f k : Z) : Z := two64 (of_int f64 k) (vh2 f) (vl2 f).
Lemma log2_1_eq x hx k : (0 <= hx < 0x7ff00000)%Z -> (-100 <= k <= 100)%Z -> isbits f64 (fsub f64 (fsub f64 (nx64 x hx) 0x3ff0000000000000) (lh64 (fsub f64 (nx64 x hx) 0x3ff0000000000000))) -> rs_log2_1 x hx k = Some (l2res (fsub f64 (nx64 x hx) 0x3ff0000000000000) (k + nk64 hx)).
Proof.
  intros Hx Hk Hb. unfold rs_log2_1. rewrite uadd_ok by lia. cbn [bind]. pose proof (shr_range (hx + 0x95f62) 20 32 ltac:(lia) ltac:(lia) ltac:(lia)) as R. change (32 - 20)%Z with 12%Z in R.
  rewrite to_i32_small by lia. rewrite ssub_ok by lia. cbn [bind]. rewrite sadd_ok by lia. cbn [bind]. pose proof (land_range (hx + 0x95f62) 20 0xfffff eq_refl ltac:(lia)). rewrite uadd_ok by lia. cbn [bind].
  apply mask_trc in Hb. unfold l2res, two64, vh2, vl2, lo64, ld64, hi64. rewrite <- Hb. reflexivity.
Qed.
Lemma sub_bits f : isbits f64 f -> finite f64 f = true -> (val f64 f <> 0 -> bpow radix2 (-60) <= Rabs (val f64 f)) -> -2930 / 10000 <= val f64 f <= 41425 / 100000 -> isbits f64 (fsub f64 f (lh64 f)).
Proof.
  intros Bf Ff Lo Hf. assert (S1 : Rabs (val f64 f) <= 1) by (apply Rabs_le; lra).
  destruct (half_exact f64 0x3fe0000000000000 f ltac:(vm_compute; discriminate) ltac:(vm_compute; reflexivity) ltac:(vm_compute; discriminate) eq_refl) as (Bm & Fm & Vm). { rewrite (val_lit f64 0x3fe0000000000000 1 2) by (vm_compute; reflexivity). lra. } { exact Ff. } { exact Lo. } { exact S1. }
  pose proof (fmul_spec f64 _ f Fm Ff) as RT. change (fmul f64 (fmul f64 0x3fe0000000000000 f) f) with (lh64 f) in RT. destruct (rounds_fin f64 _ _ _ RT) as [Fl _].
  { rewrite Vm. apply Rle_trans with (bpow radix2 0); [|apply bpow_le; vm_compute; discriminate]. change (bpow radix2 0) with 1. apply Rabs_le. nra. }
  exact (proj1 (fsub_spec f64 f (lh64 f) Ff Fl)).
Qed.
Lemma log2_1_ok x k : (2 ^ 52 <= x < 0x7ff0000000000000)%Z -> (-54 <= k <= 0)%Z -> (k = 0%Z -> x <> 0x3ff0000000000000%Z) -> (k <> 0%Z -> val f64 x < bpow radix2 (-900)) ->
  exists r, rs_log2_1 x (to_u 32 (Z.shiftr x 32)) k = Some r /\ rel_eps f64 (ln (val f64 x * bpow radix2 k) / ln 2) r.
Proof.
  intros H Hk HN HS. set (hx := to_u 32 (Z.shiftr x 32)). destruct (nx64_eq x H) as (NE & NR & NK & HH). destruct (red_log64 x H) as (Bf & Ff & Vx & Lo & Rf & Rq). fold hx in NE, NR, NK, HH, Bf, Ff, Vx, Lo, Rf, Rq.
  exists (l2res (fsub f64 (nx64 x hx) 0x3ff0000000000000) (k + nk64 hx)). split; [apply log2_1_eq; [lia|lia|now apply sub_bits]|]. set (f := fsub f64 (nx64 x hx) 0x3ff0000000000000) in *. set (F := val f64 f) in *.
  assert (EL : ln (val f64 x * bpow radix2 k) = IZR (k + nk64 hx) * ln 2 + ln (1 + F)).
  { rewrite Vx, Rmult_assoc, <- bpow_plus, ln_split by lra. do 3 f_equal. lia. }
  assert (NS : k <> 0%Z -> (nk64 hx < -800)%Z).
  { intros NZ. specialize (HS NZ). rewrite Vx in HS. destruct (Z_lt_le_dec (nk64 hx) (-800)) as [L | L]; [exact L|]. assert (bpow radix2 (-800) <= bpow radix2 (nk64 hx)) by (apply bpow_le; lia).
    assert (bpow radix2 (-900) <= bpow radix2 (-801)) by (apply bpow_le; lia). change (bpow radix2 (-801)) with (bpow radix2 (-1 + -800)) in H1. rewrite bpow_plus in H1. change (bpow radix2 (-1)) with (/ 2) in H1. pose proof (bpow_gt_0 radix2 (-800)). nra. }
  destruct (Z.eq_dec (k + nk64 hx) 0) as [Z | Z].
  - assert (k = 0)%Z as -> by (destruct (Z.eq_dec k 0); [assumption|specialize (NS n); lia]). assert (K0 : nk64 hx = 0%Z) by lia.
    assert (F0 : F <> 0). { intros E0. apply (HN eq_refl). rewrite E0, K0 in Vx. destruct (pos64 x ltac:(lia)) as (Bx & Ax & Sx). apply (val_sign_inj f64); [exact Bx|split; vm_compute; (reflexivity || discriminate)| |reflexivity|rewrite Vx, (proj2 o64); cbn; lra|exact Sx].
      rewrite (fin64 x Bx), Ax. apply Z.ltb_lt. lia. }
    rewrite EL, Z, Rmult_0_l, Rplus_0_l. unfold l2res. change (of_int f64 0) with 0%Z. apply (log2_k0 f 0 Bf Ff eq_refl); [exact (val_zero f64 false)|exact (Lo F0)|exact Rf].
  - rewrite EL. pose proof ln2_c as LN. replace ((IZR (k + nk64 hx) * ln 2 + ln (1 + F)) / ln 2) with (IZR (k + nk64 hx) + ln (1 + F) / ln 2) by (field; lra).
    apply (log2_kn f (k + nk64 hx) Bf Ff Lo Rf Rq). destruct (Z.eq_dec k 0) as [-> | NZ]; [lia|]. specialize (NS NZ). lia.
Qed.
Lemma log2_within : log_like f64 rs_log2 (fun x => ln x / ln 2).
Proof.
  intros x B Fx P. pose proof (val_pos_sign f64 x P) as S. pose proof (pos64_eq x B S) as A. pose proof (fin64 x B) as FI. rewrite Fx, A in FI. symmetry in FI. 
  destruct (bits64 x B) as [_ R]. rewrite A in R. assert (X0 : (0 < x)%Z). { destruct (Z.eq_dec x 0) as [-> | N]; [|lia]. rewrite (val_zero f64 false : val f64 0 = 0) in P. lra. }
  assert (XI : (x < 0x7ff0000000000000)%Z) by (apply Z.ltb_lt; exact FI). 
  assert (HX : to_u 32 (Z.shiftr x 32) = (x / 2 ^ 32)%Z) by (rewrite hw64, S, A by exact B; cbn [bs]; lia).
  assert (HM : (0 <= x / 2 ^ 32 < 2 ^ 31)%Z) by (split; [apply Z.div_pos; lia|apply Z.div_lt_upper_bound; lia]).
  unfold rs_log2. rewrite shl1_64, A by exact B. replace (2 * x =? 0)%Z with false by (symmetry; apply Z.eqb_neq; lia).
  assert (SH : Z.shiftr (to_u 32 (Z.shiftr x 32)) 31 = 0%Z) by (rewrite HX, Z.shiftr_div_pow2 by lia; apply Z.div_small; lia). rewrite SH. change (0 <? 0)%Z with false. rewrite orb_false_r.
  destruct (Z.ltb_spec (to_u 32 (Z.shiftr x 32)) 0x100000) as [L | L]; rewrite HX in L.
  - assert (XS : (x < 2 ^ 52)%Z) by (pose proof (Z.div_mod x (2 ^ 32) ltac:(lia)); pose proof (Z.mod_pos_bound x (2 ^ 32) ltac:(lia)); lia).
    rewrite ssub_ok by lia. cbn [bind]. change (0 - 54)%Z with (-54)%Z.
    assert (XV : bpow radix2 (-1074) <= val f64 x < bpow radix2 (-1022)).
    { assert (VX : val f64 x = IZR x * bpow radix2 (-1074)). { unfold val. rewrite S. unfold sval, mag_of, expf, sigf. change (mw f64) with 52%Z. rewrite Z.div_small, Z.mod_0_l, Z.mod_small by (lia || (vm_compute; discriminate)). reflexivity. }
      rewrite VX. split; [rewrite <- (Rmult_1_l (bpow radix2 (-1074))) at 1; apply Rmult_le_compat_r; [apply bpow_ge_0|apply (IZR_le 1); lia]|].
      change (bpow radix2 (-1022)) with (bpow radix2 (52 + -1074)). rewrite bpow_plus. apply Rmult_lt_compat_r; [apply bpow_gt_0|]. change (bpow radix2 52) with (IZR (2 ^ 52)). now apply IZR_lt. }
    destruct x54 as [F54 V54]. pose proof (fmul_spec f64 x 0x4350000000000000 Fx F54) as RT. rewrite V54 in RT.
    assert (BB : bpow radix2 (-1020) <= val f64 x * bpow radix2 54 < bpow radix2 (-968)).
    { change (bpow radix2 (-1020)) with (bpow radix2 (-1074 + 54)). change (bpow radix2 (-968)) with (bpow radix2 (-1022 + 54)). rewrite !bpow_plus. split; [apply Rmult_le_compat_r; [apply bpow_ge_0|lra]|apply Rmult_lt_compat_r; [apply bpow_gt_0|lra]]. }
    assert (AB : Rabs (val f64 x * bpow radix2 54) = val f64 x * bpow radix2 54) by (apply Rabs_pos_eq; pose proof (bpow_gt_0 radix2 (-1020)); lra).
    destruct (rounds_fin f64 _ _ _ RT) as [Fm Vm]. { rewrite AB. apply Rlt_le, Rlt_le_trans with (1 := proj2 BB). apply bpow_le. vm_compute. discriminate. }
    rewrite (repr_rnd f64 (val f64 x * bpow radix2 54)) in Vm. 2:{ apply repr_scale; [now apply repr_val|lia]. }
    set (x' := fmul f64 x 0x4350000000000000) in *. pose proof (proj1 RT) as Bm.
    assert (P' : 0 < val f64 x') by (rewrite Vm; pose proof (bpow_gt_0 radix2 (-1020)); lra). pose proof (val_pos_sign f64 x' P') as S'. pose proof (pos64_eq x' Bm S') as A'. pose proof (fin64 x' Bm) as FI'. rewrite Fm, A' in FI'. symmetry in FI'. apply Z.ltb_lt in FI'.
    assert (XN : (2 ^ 52 <= x')%Z).
    { destruct (Z_lt_le_dec x' (2 ^ 52)) as [C | C]; [|exact C]. exfalso. pose proof (a64_ge x' (2 ^ 52) Bm Fm ltac:(lia)) as [_ Q]. rewrite A' in Q. specialize (Q ltac:(apply Z.leb_gt; exact C)). rewrite Rabs_pos_eq in Q by lra. rewrite Vm in Q.
      assert (QQ : val f64 (2 ^ 52 - 1) < bpow radix2 (-1022)). { change (val f64 (2 ^ 52 - 1)) with (IZR (2 ^ 52 - 1) * bpow radix2 (-1074)). change (bpow radix2 (-1022)) with (bpow radix2 (52 + -1074)). rewrite bpow_plus. apply Rmult_lt_compat_r; [apply bpow_gt_0|]. change (bpow radix2 52) with (IZR (2 ^ 52)). apply IZR_lt. lia. }
      assert (bpow radix2 (-1022) <= bpow radix2 (-1020)) by (apply bpow_le; lia). lra. }
    replace (val f64 x) with (val f64 x' * bpow radix2 (-54)). 2:{ rewrite Vm, Rmult_assoc, <- bpow_plus. change (bpow radix2 (54 + -54)) with 1. ring. }
    apply log2_1_ok; [lia|lia|lia|]. intros _. rewrite Vm. apply Rlt_le_trans with (1 := proj2 BB). apply bpow_le. lia.
  - assert (XN : (2 ^ 52 <= x)%Z) by (pose proof (Z.div_mod x (2 ^ 32) ltac:(lia)); pose proof (Z.mod_pos_bound x (2 ^ 32) ltac:(lia)); lia).
    replace (0x7ff00000 <=? to_u 32 (Z.shiftr x 32))%Z with false. 2:{ symmetry. apply Z.leb_gt. rewrite HX. apply Z.div_lt_upper_bound; lia. }
    destruct ((to_u 32 (Z.shiftr x 32) =? 0x3ff00000)%Z && (shlu 64 x 32 =? 0)%Z) eqn:E1.
    + apply andb_prop in E1 as [E1 E2]. apply Z.eqb_eq in E1, E2. rewrite HX in E1. assert (x = 0x3ff0000000000000)%Z as ->.
      { unfold shlu in E2. rewrite Z.shiftl_mul_pow2 in E2 by lia. pose proof (Z.div_mod x (2 ^ 32) ltac:(lia)) as D. replace (x * 2 ^ 32)%Z with ((x mod 2 ^ 32) * 2 ^ 32 + (x / 2 ^ 32) * 2 ^ 64)%Z in E2 by lia. rewrite Z.mod_add in E2 by lia. pose proof (Z.mod_pos_bound x (2 ^ 32) ltac:(lia)). rewrite Z.mod_small in E2 by lia. lia. }
      exists 0%Z. split; [reflexivity|]. rewrite (proj2 o64), ln_1. unfold Rdiv. rewrite Rmult_0_l. split; [split; vm_compute; (reflexivity || discriminate)|]. split; [reflexivity|]. rewrite (val_zero f64 false : val f64 0 = 0). unfold Rminus. rewrite Rplus_opp_r, Rabs_R0. lra.
    + replace (val f64 x) with (val f64 x * bpow radix2 0) by (cbn; ring). apply log2_1_ok; [lia|lia| |lia]. intros _ ->. vm_compute in E1. discriminate.
Qed.

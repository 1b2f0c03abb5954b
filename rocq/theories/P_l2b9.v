(** log10f is accurate. *)
From Coq Require Import ZArith Reals Lia Lra Bool List Psatz.
From Flocq Require Import Core.
From Verif Require Import Base Spec SpecFun2 SpecLog SpecLog2 Format P_format Ieee P_ieee P_real P_neg P_lit P_err P_scalbn P_elem P_elem2 P_dom P_ival P_ival2 P_gam4 P_gam6 P_exp P_log P_apx P_poly P_poly2 P_poly3 P_powt P_powt8 P_taylor P_expa1 P_expa2 P_expa3 P_expa4 P_expa5 P_expa6 P_expa7 P_expa8 P_expa9 P_expa10 P_expa12 P_lga1 P_lga2 P_lga3 P_lga4 P_lga5 P_lga6 P_lga7 P_lgb3 P_lgb4 P_lgb5 P_lgb6 P_lgb7 P_powt12 P_l2a1 P_l2a2 P_l2a3 P_l2a4 P_l2a5 P_l2a6 P_l2a8 P_l2b2 P_l2b3 P_l2b5 P_l2b6 P_l2b7 P_l2b8 M_sqrt M_elib M_log.
Import ListNotations.
Open Scope R_scope.
Local Opaque fadd fsub fmul fdiv of_int.

Definition l10resf (f k : Z) : Z := two32 (y10f k) (vh10f f) (vl10f (dl10f k) f).
Lemma log10f_1_eq x k : (0 <= x < 0x7f800000)%Z -> (-100 <= k <= 100)%Z -> isbits f32 (fsub f32 (fsub f32 (nx32 x) 0x3f800000) (lh32 (fsub f32 (nx32 x) 0x3f800000))) -> rs_log10f_1 x k = Some (l10resf (fsub f32 (nx32 x) 0x3f800000) (k + nk32 x)).
Proof.
  intros Hx Hk Hb. unfold rs_log10f_1. rewrite uadd_ok by lia. cbn [bind]. pose proof (shr_range (x + 0x4afb0d) 23 32 ltac:(lia) ltac:(lia) ltac:(lia)) as R. change (32 - 23)%Z with 9%Z in R.
  rewrite to_i32_small by lia. rewrite ssub_ok by lia. cbn [bind]. rewrite sadd_ok by lia. cbn [bind]. pose proof (land_range (x + 0x4afb0d) 23 0x7fffff eq_refl ltac:(lia)). rewrite uadd_ok by lia. cbn [bind].
  apply mask_trcf in Hb. unfold l10resf, two32, vh10f, vl10f, dl10f, y10f, lo32, ld32, hi32. rewrite <- Hb. reflexivity.
Qed.
Lemma log10f_1_ok x k : (2 ^ 23 <= x < 0x7f800000)%Z -> (-25 <= k <= 0)%Z -> (k = 0%Z -> x <> 0x3f800000%Z) -> (k <> 0%Z -> bpow radix2 (-124) <= val f32 x < bpow radix2 (-100)) ->
  exists r, rs_log10f_1 x k = Some r /\ rel_err f32 (3 / 2) (ln (val f32 x * bpow radix2 k) / ln 10) r.
Proof.
  intros H Hk HN HS. destruct (nx32_eq x H) as (NE & NR & NK). destruct (red_log32 x H) as (Bf & Ff & Vx & Lo & Rf & Rq).
  exists (l10resf (fsub f32 (nx32 x) 0x3f800000) (k + nk32 x)). split; [apply log10f_1_eq; [lia|lia|now apply sub_bitsf]|]. set (f := fsub f32 (nx32 x) 0x3f800000) in *. set (F := val f32 f) in *.
  assert (EL : ln (val f32 x * bpow radix2 k) = IZR (k + nk32 x) * ln 2 + ln (1 + F)).
  { rewrite Vx, Rmult_assoc, <- bpow_plus, ln_split by lra. do 3 f_equal. lia. }
  assert (NS : k <> 0%Z -> (-126 <= nk32 x < -90)%Z).
  { intros NZ. specialize (HS NZ). rewrite Vx in HS. split.
    - destruct (Z_lt_le_dec (nk32 x) (-126)) as [L | L]; [|exact L]. assert (bpow radix2 (nk32 x) <= bpow radix2 (-127)) by (apply bpow_le; lia).
      change (bpow radix2 (-124)) with (bpow radix2 (3 + -127)) in HS. rewrite bpow_plus in HS. change (bpow radix2 3) with 8 in HS. pose proof (bpow_gt_0 radix2 (-127)). pose proof (bpow_gt_0 radix2 (nk32 x)). nra.
    - destruct (Z_lt_le_dec (nk32 x) (-90)) as [L | L]; [exact L|]. assert (bpow radix2 (-90) <= bpow radix2 (nk32 x)) by (apply bpow_le; lia).
      assert (HB : bpow radix2 (-100) <= bpow radix2 (-91)) by (apply bpow_le; lia). change (bpow radix2 (-91)) with (bpow radix2 (-1 + -90)) in HB. rewrite bpow_plus in HB. change (bpow radix2 (-1)) with (/ 2) in HB. pose proof (bpow_gt_0 radix2 (-90)). nra. }
  destruct (Z.eq_dec (k + nk32 x) 0) as [Z | Z].
  - assert (k = 0)%Z as -> by (destruct (Z.eq_dec k 0); [assumption|specialize (NS n); lia]). assert (K0 : nk32 x = 0%Z) by lia.
    assert (F0 : F <> 0). { intros E0. apply (HN eq_refl). rewrite E0, K0 in Vx. destruct (pos32 x ltac:(lia)) as (Bx & Ax & Sx). apply (val_sign_inj f32); [exact Bx|split; vm_compute; (reflexivity || discriminate)| |reflexivity|rewrite Vx, (proj2 o32); cbn; lra|exact Sx].
      rewrite (fin32 x Bx), Ax. apply Z.ltb_lt. lia. }
    rewrite EL, Z, Rmult_0_l, Rplus_0_l. unfold l10resf. assert (EY : y10f 0 = 0%Z) by (vm_compute; reflexivity). assert (ED : dl10f 0 = 0%Z) by (vm_compute; reflexivity). rewrite EY, ED. apply (log10_k0f f 0 Bf Ff eq_refl); [exact (val_zero f32 false)|exact (Lo F0)|exact Rf].
  - rewrite EL. destruct ln10_b as (_ & _ & LN). replace ((IZR (k + nk32 x) * ln 2 + ln (1 + F)) / ln 10) with (IZR (k + nk32 x) * ln 2 / ln 10 + ln (1 + F) / ln 10) by (field; lra).
    apply (log10_knf f (k + nk32 x) Bf Ff Lo Rf Rq). destruct (Z.eq_dec k 0) as [-> | NZ]; [lia|]. specialize (NS NZ). lia.
Qed.
Lemma log10f_within : log_near f32 (3 / 2) rs_log10f (fun x => ln x / ln 10).
Proof.
  intros x B Fx P. pose proof (val_pos_sign f32 x P) as S. pose proof (pos32_eq x B S) as A. pose proof (fin32 x B) as FI. rewrite Fx, A in FI. symmetry in FI. 
  destruct (bits32 x B) as [_ R]. rewrite A in R. assert (X0 : (0 < x)%Z). { destruct (Z.eq_dec x 0) as [-> | N]; [|lia]. rewrite (val_zero f32 false : val f32 0 = 0) in P. lra. }
  assert (XI : (x < 0x7f800000)%Z) by (apply Z.ltb_lt; exact FI). 
  unfold rs_log10f. cbv zeta. rewrite shl1_32, A by exact B. replace (2 * x =? 0)%Z with false by (symmetry; apply Z.eqb_neq; lia).
  assert (SH : Z.shiftr x 31 = 0%Z) by (rewrite Z.shiftr_div_pow2 by lia; apply Z.div_small; lia). rewrite SH. change (0 <? 0)%Z with false. rewrite orb_false_r.
  destruct (Z.ltb_spec x 0x800000) as [L | L].
  - rewrite ssub_ok by lia. cbn [bind]. change (0 - 25)%Z with (-25)%Z.
    assert (XV : bpow radix2 (-149) <= val f32 x < bpow radix2 (-126)).
    { assert (VX : val f32 x = IZR x * bpow radix2 (-149)). { unfold val. rewrite S. unfold sval, mag_of, expf, sigf. change (mw f32) with 23%Z. rewrite Z.div_small, Z.mod_0_l, Z.mod_small by (lia || (vm_compute; discriminate)). reflexivity. }
      rewrite VX. split; [rewrite <- (Rmult_1_l (bpow radix2 (-149))) at 1; apply Rmult_le_compat_r; [apply bpow_ge_0|apply (IZR_le 1); lia]|].
      change (bpow radix2 (-126)) with (bpow radix2 (23 + -149)). rewrite bpow_plus. apply Rmult_lt_compat_r; [apply bpow_gt_0|]. change (bpow radix2 23) with (IZR (2 ^ 23)). now apply IZR_lt. }
    destruct x25 as [F54 V54]. pose proof (fmul_spec f32 x 0x4c000000 Fx F54) as RT. rewrite V54 in RT.
    assert (BB : bpow radix2 (-124) <= val f32 x * bpow radix2 25 < bpow radix2 (-101)).
    { change (bpow radix2 (-124)) with (bpow radix2 (-149 + 25)). change (bpow radix2 (-101)) with (bpow radix2 (-126 + 25)). rewrite !bpow_plus. split; [apply Rmult_le_compat_r; [apply bpow_ge_0|lra]|apply Rmult_lt_compat_r; [apply bpow_gt_0|lra]]. }
    assert (AB : Rabs (val f32 x * bpow radix2 25) = val f32 x * bpow radix2 25) by (apply Rabs_pos_eq; pose proof (bpow_gt_0 radix2 (-124)); lra).
    destruct (rounds_fin f32 _ _ _ RT) as [Fm Vm]. { rewrite AB. apply Rlt_le, Rlt_le_trans with (1 := proj2 BB). apply bpow_le. vm_compute. discriminate. }
    rewrite (repr_rnd f32 (val f32 x * bpow radix2 25)) in Vm. 2:{ apply repr_scale; [now apply repr_val|lia]. }
    set (x' := fmul f32 x 0x4c000000) in *. pose proof (proj1 RT) as Bm.
    assert (P' : 0 < val f32 x') by (rewrite Vm; pose proof (bpow_gt_0 radix2 (-124)); lra). pose proof (val_pos_sign f32 x' P') as S'. pose proof (pos32_eq x' Bm S') as A'. pose proof (fin32 x' Bm) as FI'. rewrite Fm, A' in FI'. symmetry in FI'. apply Z.ltb_lt in FI'.
    assert (XN : (2 ^ 23 <= x')%Z).
    { destruct (Z_lt_le_dec x' (2 ^ 23)) as [C | C]; [|exact C]. exfalso. pose proof (a32_ge x' (2 ^ 23) Bm Fm ltac:(lia)) as [_ Q]. rewrite A' in Q. specialize (Q ltac:(apply Z.leb_gt; exact C)). rewrite Rabs_pos_eq in Q by lra. rewrite Vm in Q.
      assert (QQ : val f32 (2 ^ 23 - 1) < bpow radix2 (-126)). { change (val f32 (2 ^ 23 - 1)) with (IZR (2 ^ 23 - 1) * bpow radix2 (-149)). change (bpow radix2 (-126)) with (bpow radix2 (23 + -149)). rewrite bpow_plus. apply Rmult_lt_compat_r; [apply bpow_gt_0|]. change (bpow radix2 23) with (IZR (2 ^ 23)). apply IZR_lt. lia. }
      assert (bpow radix2 (-126) <= bpow radix2 (-124)) by (apply bpow_le; lia). lra. }
    replace (val f32 x) with (val f32 x' * bpow radix2 (-25)). 2:{ rewrite Vm, Rmult_assoc, <- bpow_plus. change (bpow radix2 (25 + -25)) with 1. ring. }
    apply log10f_1_ok; [lia|lia|lia|]. intros _. rewrite Vm. split; [apply BB|]. apply Rlt_le_trans with (1 := proj2 BB). apply bpow_le. lia.
  - replace (0x7f800000 <=? x)%Z with false by (symmetry; apply Z.leb_gt; lia).
    destruct (Z.eqb_spec x 0x3f800000) as [-> | E1].
    + exists 0%Z. split; [reflexivity|]. rewrite (proj2 o32), ln_1. unfold Rdiv. rewrite Rmult_0_l. split; [split; vm_compute; (reflexivity || discriminate)|]. split; [reflexivity|]. rewrite (val_zero f32 false : val f32 0 = 0). unfold Rminus. rewrite Rplus_opp_r, Rabs_R0. lra.
    + replace (val f32 x) with (val f32 x * bpow radix2 0) by (cbn; ring). apply log10f_1_ok; [lia|lia| |lia]. intros _. exact E1.
Qed.

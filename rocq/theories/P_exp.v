(** The exponentials never panic. *)
From Coq Require Import ZArith Reals Lia Lra Bool List.
From Flocq Require Import Core.
From Verif Require Import Base Spec SpecElem Format P_format Ieee P_ieee P_real P_key P_neg M_scalbn M_sqrt P_scalbn M_elib Prop_scale SpecFun M_exp P_elem P_elem2 P_ival P_ival2 P_tot.
Open Scope Z_scope.

Lemma scalbn64_tot x n : isbits f64 x -> - 2 ^ 31 <= n < 2 ^ 31 -> exists r, scalbn f64 x n = Some r /\ isbits f64 r.
Proof. intros B H. destruct (C15_scalbn x n B H) as (r & E & K & _). now exists r. Qed.
Lemma scalbn32_tot x n : isbits f32 x -> - 2 ^ 31 <= n < 2 ^ 31 -> exists r, scalbn f32 x n = Some r /\ isbits f32 r.
Proof. intros B H. destruct (C15_scalbnf x n B H) as (r & E & K & _). now exists r. Qed.
Lemma to_i32_range F x : - 2 ^ 31 <= to_i32 F x < 2 ^ 31.
Proof.
  unfold to_i32, to_intZ. destruct (dec F x) as [s|s|s pl e|s m e Hb]; try lia.
  - destruct s; lia.
  - unfold clampZ. cbv zeta. zdec.
Qed.

(** ** expf, exp *)
Lemma expf_2_tot x k hi lo : - 2 ^ 31 <= k < 2 ^ 31 -> exists r, rs_expf_2 x k hi lo = Some r /\ isbits f32 r.
Proof. intros Hk. unfold rs_expf_2. walk. apply scalbn32_tot; [bitsok|exact Hk]. Qed.
Lemma expf_1_tot x c hx b : isbits f32 x -> exists r, rs_expf_1 x c hx (bs b) = Some r /\ isbits f32 r.
Proof.
  intros B. unfold rs_expf_1. rewrite tou1. walk.
  - replace (tab_get rs_expf_HALF (bs b)) with (Some (if b then 0xbf000000 else 0x3f000000)) by (destruct b; reflexivity).
    walk. apply expf_2_tot. apply to_i32_range.
  - destruct b; unfold bs; rewrite ssub_ok by lia; walk; rewrite ssub_ok by lia; walk; apply expf_2_tot; lia.
  - apply expf_2_tot; lia.
Qed.
Lemma expf_tot : total1 f32 f32 rs_expf.
Proof. intros x B. unfold rs_expf. words32 x B. walk; apply expf_1_tot; assumption. Qed.
Lemma exp_2_tot x k hi lo : - 2 ^ 31 <= k < 2 ^ 31 -> exists r, rs_exp_2 x hi lo k = Some r /\ isbits f64 r.
Proof. intros Hk. unfold rs_exp_2. walk. apply scalbn64_tot; [bitsok|exact Hk]. Qed.
Lemma exp_1_tot x c hx b : isbits f64 x -> exists r, rs_exp_1 x c (bs b) hx = Some r /\ isbits f64 r.
Proof.
  intros B. unfold rs_exp_1. rewrite tou1. walk.
  - replace (tab_get rs_exp_HALF (bs b)) with (Some (if b then 0xbfe0000000000000 else 0x3fe0000000000000)) by (destruct b; reflexivity).
    walk. apply exp_2_tot. apply to_i32_range.
  - destruct b; unfold bs; rewrite ssub_ok by lia; walk; rewrite ssub_ok by lia; walk; apply exp_2_tot; lia.
  - apply exp_2_tot; lia.
Qed.
Lemma exp_tot : total1 f64 f64 rs_exp.
Proof. intros x B. unfold rs_exp. words64 x B. walk; apply exp_1_tot; assumption. Qed.

(** ** expm1f, expm1 *)
Lemma expm1f_2_tot x c1 k c : -1000 <= k <= 1000 -> isbits f32 x -> exists r, rs_expm1f_2 x c1 k c = Some r /\ isbits f32 r.
Proof.
  intros Hk B. cbv beta delta [rs_expm1f_2]. absw; rewrite ?sadd_ok by lia; absw; rewrite ?ssub_ok by lia; absw.
Qed.
Lemma expm1_2_tot x k c : -2000 <= k <= 2000 -> isbits f64 x -> exists r, rs_expm1_2 x k c = Some r /\ isbits f64 r.
Proof.
  intros Hk B. cbv beta delta [rs_expm1_2]. absw; rewrite ?sadd_ok by lia; absw; rewrite ?ssub_ok by lia; absw.
Qed.
Lemma expm1f_1_tot x c s : isbits f32 x -> IN f32 (0xc195b844, 0x42b17218) x -> exists r, rs_expm1f_1 x c (a32 x) s = Some r /\ isbits f32 r.
Proof.
  intros B I. unfold rs_expm1f_1. walk; try (apply expm1f_2_tot; [lia|bitsok]).
  assert (J : IN f32 (0xbf000000, 0x3f000000) (if s then 0xbf000000 else 0x3f000000)) by (destruct s; inconst).
  ivl f32 ((rs_expm1f_INV_LN2 *' x) +' (if s then 0xbf000000 else 0x3f000000))%fl K.
  eapply iti32_ok in K; [|icomp]. cbn [fst snd] in K. apply expm1f_2_tot; [lia|bitsok].
Qed.
Lemma fgt_nogt F x c : finite F x = true -> finite F c = true -> fgt F x c = false -> (val F x <= val F c)%R.
Proof.
  intros Fx Fc H. unfold fgt in H. rewrite fcmp_finite in H by assumption. destruct (Rcompare_spec (val F x) (val F c)); try lra; try discriminate.
Qed.
Lemma IN_le F lo hi c x : IN F (lo, hi) x -> fgt F x c = false -> finite F c = true -> IN F (lo, c) x.
Proof. intros (B & Fx & L1 & L2) G Fc. split; [exact B|]. split; [exact Fx|]. cbn [fst snd] in *. pose proof (fgt_nogt F x c Fx Fc G). lra. Qed.
Lemma IN_inf F lo hi x : fin2b F (lo, hi) = true -> isinf F x = true -> IN F (lo, hi) x -> False.
Proof. intros _ I (_ & Fx & _). rewrite (finite_not_inf F x Fx) in I. discriminate. Qed.
Lemma pos32_eq x : isbits f32 x -> signbit f32 x = false -> a32 x = x.
Proof. intros B S. destruct (bits32 x B) as [E _]. rewrite S in E. cbn [bs] in E. lia. Qed.
Lemma pos64_eq x : isbits f64 x -> signbit f64 x = false -> a64 x = x.
Proof. intros B S. destruct (bits64 x B) as [E _]. rewrite S in E. cbn [bs] in E. lia. Qed.
Lemma expm1f_tot : total1 f32 f32 rs_expm1f.
Proof.
  intros x B. unfold rs_expm1f. words32 x B. walk; rewrite ?negb_involutive in *.
  - apply expm1f_1_tot; [assumption|]. rewrite Z.leb_le, Z.ltb_ge in *.
    assert (N : a32 x <> 0x7f800000).
    { intros E. rewrite (pos32_eq x B) in E by assumption. subst x. vm_compute in Heqb2. discriminate. }
    assert (I : IN f32 (0, 0x7f7fffff) x) by (apply IN_pos32; try assumption; lia).
    pose proof (IN_le _ _ _ _ _ I Heqb2 eq_refl) as J. inw J.
  - apply expm1f_1_tot; [assumption|]. rewrite Z.leb_gt in *. destruct (bits32 x B) as [_ R]. destruct (signbit f32 x) eqn:S.
    + assert (J : IN f32 (fneg f32 0x4195b844, fneg f32 0) x) by (apply IN_neg32; try assumption; lia). inw J.
    + assert (J : IN f32 (0, 0x4195b844) x) by (apply IN_pos32; try assumption; lia). inw J.
Qed.
Lemma expm1_1_tot x b : isbits f64 x -> IN f64 (0xc0862e42fefa39ef, 0x40862e42fefa39ef) x -> exists r, rs_expm1_1 x (a64 x / 2 ^ 32) (bs b) = Some r /\ isbits f64 r.
Proof.
  intros B I. unfold rs_expm1_1. rewrite !bs0, negb_involutive. walk; try (apply expm1_2_tot; [lia|bitsok]).
  assert (J : IN f64 (0xbfe0000000000000, 0x3fe0000000000000) (if b then 0xbfe0000000000000 else 0x3fe0000000000000)) by (destruct b; inconst).
  ivl f64 ((rs_expm1_INVLN2 *: x) +: (if b then 0xbfe0000000000000 else 0x3fe0000000000000))%fl K.
  eapply iti32_ok in K; [|icomp]. cbn [fst snd] in K. apply expm1_2_tot; [lia|bitsok].
Qed.
Lemma hi_lo64 x : isbits f64 x -> a64 x / 2 ^ 32 * 2 ^ 32 <= a64 x < (a64 x / 2 ^ 32 + 1) * 2 ^ 32.
Proof. intros B. pose proof (Z.div_mod (a64 x) (2 ^ 32)). pose proof (Z.mod_pos_bound (a64 x) (2 ^ 32)). lia. Qed.
Lemma expm1_tot : total1 f64 f64 rs_expm1.
Proof.
  intros x B. unfold rs_expm1. words64 x B. pose proof (hi_lo64 x B) as HL. walk; rewrite ?negb_involutive in *.
  - apply expm1_1_tot; [assumption|]. rewrite Z.leb_le, is_nan_eq, nan64, Z.ltb_ge in * by assumption.
    assert (N : a64 x <> 0x7ff0000000000000).
    { intros E. rewrite (pos64_eq x B) in E by assumption. subst x. vm_compute in Heqb2. discriminate. }
    assert (I : IN f64 (0, 0x7fefffffffffffff) x) by (apply IN_pos64; try assumption; lia).
    pose proof (IN_le _ _ _ _ _ I Heqb2 eq_refl) as J. inw J.
  - apply expm1_1_tot; [assumption|]. rewrite Z.leb_gt in *. destruct (bits64 x B) as [_ R]. destruct (signbit f64 x) eqn:S.
    + assert (J : IN f64 (fneg f64 0x40862e42fefa39ef, fneg f64 0) x) by (apply IN_neg64; try assumption; lia). inw J.
    + assert (J : IN f64 (0, 0x40862e42fefa39ef) x) by (apply IN_pos64; try assumption; lia). inw J.
Qed.

(** ** exp2f, exp2 *)
Lemma exp2f_1_tot x p1 p2 p3 p4 redux : IN f32 (0xc3160000, 0x43000000) x -> redux = 0x49400000 ->
  exists r, rs_exp2f_1 x redux p1 p2 p3 p4 = Some r /\ isbits f32 r.
Proof.
  intros I ->. cbv beta delta [rs_exp2f_1]. 
  ivl f32 (x +' 0x49400000)%fl K. apply IN_bitsb in K; [|vm_compute; reflexivity]. revert K. generalize (x +' 0x49400000)%fl. intros u K.
  absw. rewrite uadd_ok by lia. absw.
  pose proof (Z.div_mod (u + 8) 16). pose proof (Z.mod_pos_bound (u + 8) 16). rewrite uadd_ok by lia. absw.
  destruct (tab_get_ok rs_exp2f_EXP2FT (Z.land (u + 8) 15)) as (v & -> & _).
  { change 15 with (2 ^ 4 - 1). exact (land_low (u + 8) 4 ltac:(lia)). }
  absw.
Qed.
Lemma exp2f_tot : total1 f32 f32 rs_exp2f.
Proof.
  intros x B. unfold rs_exp2f. words32 x B. destruct (bits32 x B) as [E R].
  assert (RD : (0x4b400000 /' (of_int f32 rs_exp2f_TBLSIZE))%fl = 0x49400000) by (vm_compute; reflexivity).
  walk; (apply exp2f_1_tot; [|exact RD]); clear RD;
    rewrite ?andb_false_iff, ?Z.leb_gt, ?Z.leb_le, ?Z.ltb_lt, ?Z.ltb_ge in *; destruct (signbit f32 x) eqn:S; unfold bs in E; try lia.
  - assert (J : IN f32 (fneg f32 0x43160000, fneg f32 0) x) by (apply IN_neg32; try assumption; lia). inw J.
  - assert (J : IN f32 (0, 0x43000000) x) by (apply IN_pos32; try assumption; lia). inw J.
  - assert (J : IN f32 (fneg f32 0x42fc0000, fneg f32 0) x) by (apply IN_neg32; try assumption; lia). inw J.
  - assert (J : IN f32 (0, 0x42fc0000) x) by (apply IN_pos32; try assumption; lia). inw J.
Qed.
Lemma umul_ok w a b : a * b < 2 ^ w -> umul w a b = Some (a * b).
Proof. intros H. unfold umul. zdec; reflexivity. Qed.
Lemma to_i_range w a : 0 < w -> - 2 ^ (w - 1) <= to_i w a < 2 ^ (w - 1).
Proof.
  intros H. unfold to_i. cbv zeta. pose proof (Z.mod_pos_bound a (2 ^ w)). pose proof (Z.pow_pos_nonneg 2 (w - 1)).
  assert (2 ^ w = 2 * 2 ^ (w - 1)) by (rewrite <- Z.pow_succ_r by lia; f_equal; lia). zdec.
Qed.
Lemma exp2_1_tot x p1 p2 p3 p4 p5 redux : exists r, rs_exp2_1 x redux p1 p2 p3 p4 p5 = Some r /\ isbits f64 r.
Proof.
  cbv beta delta [rs_exp2_1]. absw.
  match goal with |- context[wadd 32 ?a ?b] => set (i := wadd 32 a b) end.
  assert (Hi : 0 <= i < 2 ^ 32) by (apply Z.mod_pos_bound; lia). clearbody i.
  pose proof (Z.div_mod i 256). pose proof (Z.mod_pos_bound i 256).
  rewrite umul_ok by lia. absw. rewrite umul_ok by lia. absw.
  assert (L : Z.of_nat (length rs_exp2_TBL) = 512) by (vm_compute; reflexivity).
  destruct (tab_get_ok rs_exp2_TBL (2 * (i mod 256))) as (v & -> & _); [lia|]. absw.
  rewrite uadd_ok by lia. absw.
  destruct (tab_get_ok rs_exp2_TBL (2 * (i mod 256) + 1)) as (w & -> & _); [lia|]. absw.
  apply scalbn64_tot; [assumption|].
  pose proof (to_i_range 32 (i / 256 * 256) ltac:(lia)). pose proof (Z.quot_rem' (to_i 32 (i / 256 * 256)) 256).
  change (2 ^ (32 - 1)) with (2 ^ 31) in *.
  pose proof (Z.rem_bound_abs (to_i 32 (i / 256 * 256)) 256 ltac:(lia)). lia.
Qed.
Lemma exp2_tot : total1 f64 f64 rs_exp2.
Proof. intros x B. unfold rs_exp2. walk; apply exp2_1_tot. Qed.

(** ** hyperbolic functions *)
Ltac call lem := match goal with |- exists r, bind (?f ?a) _ = Some r /\ _ => destruct (lem a ltac:(bitsok)) as (? & -> & ?) end.
Ltac tailcall lem := match goal with |- exists r, ?f ?a = Some r /\ _ => apply (lem a ltac:(bitsok)) end.
Lemma a32_bits x : isbits f32 x -> isbits f32 (a32 x).
Proof. intros B. destruct (bits32 x B) as [_ R]. apply pos32. lia. Qed.
Lemma a64_bits x : isbits f64 x -> isbits f64 (a64 x).
Proof. intros B. destruct (bits64 x B) as [_ R]. apply pos64. lia. Qed.
Lemma k_expo2f_tot : total1 f32 f32 rs_k_expo2f.
Proof. intros x B. unfold rs_k_expo2f. call expf_tot. walk. Qed.
Lemma k_expo2_tot : total1 f64 f64 rs_k_expo2.
Proof. intros x B. unfold rs_k_expo2. call exp_tot. walk. Qed.
Lemma expo2_tot : total1 f64 f64 rs_expo2.
Proof. intros x B. unfold rs_expo2. rewrite sadd_ok by (unfold rs_expo2_K; vm_compute; split; [discriminate|reflexivity]). walk. call exp_tot. walk. Qed.
Lemma sinhf_tot : total1 f32 f32 rs_sinhf.
Proof. intros x B. unfold rs_sinhf. words32 x B. pose proof (a32_bits x B). walk; try call expm1f_tot; try call k_expo2f_tot; walk. Qed.
Lemma coshf_tot : total1 f32 f32 rs_coshf.
Proof. intros x B. unfold rs_coshf. words32 x B. pose proof (a32_bits x B). walk; try call expm1f_tot; try call expf_tot; try tailcall k_expo2f_tot; walk. Qed.
Lemma tanhf_tot : total1 f32 f32 rs_tanhf.
Proof. intros x B. unfold rs_tanhf. words32 x B. pose proof (a32_bits x B). walk; try call expm1f_tot; walk. Qed.
Lemma sinh_tot : total1 f64 f64 rs_sinh.
Proof. intros x B. unfold rs_sinh. words64 x B. pose proof (a64_bits x B). walk; try call expm1_tot; try call expo2_tot; walk. Qed.
Lemma cosh_tot : total1 f64 f64 rs_cosh.
Proof. intros x B. unfold rs_cosh. words64 x B. pose proof (a64_bits x B). walk; try call expm1_tot; try call exp_tot; try tailcall k_expo2_tot; walk. Qed.
Lemma tanh_tot : total1 f64 f64 rs_tanh.
Proof. intros x B. unfold rs_tanh. words64 x B. pose proof (a64_bits x B). walk; try call expm1_tot; walk. Qed.

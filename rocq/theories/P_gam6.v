(** tgamma and tgammaf return for every argument and satisfy [tgamma_spec]. *)
From Coq Require Import ZArith Reals Lia Lra Bool List Psatz.
From Flocq Require Import Core.
From Verif Require Import Base Spec SpecFun SpecAcc Format P_format Ieee P_ieee P_real P_neg P_round P_elem P_elem2 P_tot P_lit P_err P_log P_exp P_ival P_ival2 P_dom P_bessel P_sym P_sym3 P_trigf P_fmaf P_powt8 P_powt11 P_gam P_gam2 P_gam3 P_gam4 SpecGamma Prop_cbrt M_basic M_elib M_exp M_log M_pow M_trig M_gamma.
Import ListNotations.
Open Scope Z_scope.
Open Scope fl_scope.

Lemma tgamma_inf : rs_tgamma (infinity f64 false) = Some (infinity f64 false). Proof. vm_compute; reflexivity. Qed.
Lemma tgamma_ninf : exists y, rs_tgamma (infinity f64 true) = Some y /\ isbits f64 y /\ isnan f64 y = true. Proof. eexists. split; [vm_compute; reflexivity|]. split; [vm_compute; split; [discriminate|reflexivity]|vm_compute; reflexivity]. Qed.
Lemma tgamma_zero s : rs_tgamma (zero f64 s) = Some (infinity f64 s). Proof. destruct s; vm_compute; reflexivity. Qed.
Lemma nan00 : isnan f64 (0 /: 0) = true. Proof. vm_compute. reflexivity. Qed.
Lemma tgamma_fact n : (n < 23)%nat -> rs_tgamma (of_int f64 (Z.of_nat n + 1)) = Some (of_int f64 (factZ n)).
Proof. intros H. do 23 (destruct n as [|n]; [vm_compute; reflexivity|]). lia. Qed.
Lemma tgammaf_fact n : (n < 23)%nat -> rs_tgammaf (of_int f32 (Z.of_nat n + 1)) = Some (of_int f32 (factZ n)).
Proof. intros H. do 23 (destruct n as [|n]; [vm_compute; reflexivity|]). lia. Qed.
Lemma len_fact : of_int f64 (Z.of_nat (length rs_tgamma_FACT)) = 0x4037000000000000. Proof. vm_compute. reflexivity. Qed.
Local Opaque fadd fsub fmul fdiv of_int fcvt rs_log rs_exp rs_pow rs_tgamma_sinpi.

Lemma tgamma_s_bits x : isbits f64 (rs_tgamma_s x).
Proof. unfold rs_tgamma_s. cbv zeta. destruct (flt f64 x 0x4020000000000000); apply fdiv_isbits. Qed.
Local Opaque rs_tgamma_s.
Lemma tgamma_1_tot x ix : isbits f64 x -> finite f64 x = true -> (bpow radix2 (-70) <= Rabs (val f64 x))%R -> exists y, rs_tgamma_1 x ix (signbit f64 x) = Some y /\ isbits f64 y.
Proof.
  intros B G L. unfold rs_tgamma_1. cbv zeta. destruct (0x40670000 <=? ix).
  - destruct (signbit f64 x).
    + destruct (floor_ok f64 x B) as (v & -> & _). cbn [bind]. destruct (floor_ok f64 (x *: 0x3fe0000000000000) ltac:(bitsok)) as (v' & -> & _). cbn [bind]. destruct (feq _ _ _); [exists 0|exists (fneg f64 0)]; (split; [reflexivity|bitsok]).
    + exists (x *: 0x7fe0000000000000). split; [reflexivity|bitsok].
  - set (a := if signbit f64 x then fneg f64 x else x). pose proof (fneg_isbits f64 x B) as NB. pose proof (fneg_finite f64 x B) as NF. pose proof (fneg_val f64 x B) as NV. rewrite G in NF.
    assert (V0 : val f64 x <> 0%R) by (intros E; rewrite E, Rabs_R0 in L; pose proof (bpow_gt_0 radix2 (-70)); lra).
    assert (A : isbits f64 a /\ finite f64 a = true /\ val f64 a = Rabs (val f64 x)).
    { unfold a. destruct (signbit f64 x) eqn:S; (split; [assumption|]; split; [assumption|]).
      - rewrite NV. destruct (Rtotal_order (val f64 x) 0) as [T|[T|T]]; [now rewrite Rabs_left|contradiction|apply val_pos_sign in T; congruence].
      - destruct (Rtotal_order (val f64 x) 0) as [T|[T|T]]; [apply val_neg_sign in T; congruence|contradiction|now rewrite Rabs_pos_eq by lra]. }
    destruct A as (BA & GA & VA). clearbody a. destruct (exp_tot (fneg f64 (a +: rs_tgamma_GMHALF)) ltac:(bitsok)) as (e & -> & Be). cbn [bind].
    pose proof (tgamma_s_bits a) as Bs. destruct (sinpi64 a BA GA ltac:(rewrite VA; exact L)) as (t & _ & ET & Bt & _). rewrite ET.
    destruct (flt f64 x 0); cbn [bind].
    + destruct (pow_tot (a +: rs_tgamma_GMHALF) (0x3fe0000000000000 *: fneg f64 (a -: 0x3fe0000000000000)) ltac:(bitsok) ltac:(bitsok)) as (p & -> & Bp). cbn [bind]. eexists. split; [reflexivity|bitsok].
    + destruct (pow_tot (a +: rs_tgamma_GMHALF) (0x3fe0000000000000 *: (a -: 0x3fe0000000000000)) ltac:(bitsok) ltac:(bitsok)) as (p & -> & Bp). cbn [bind]. eexists. split; [reflexivity|bitsok].
Qed.
Lemma hi_le c x : 0 <= c -> (c <=? a64 x / 2 ^ 32) = (c * 2 ^ 32 <=? a64 x).
Proof.
  intros Hc. pose proof (Z.div_mod (a64 x) (2 ^ 32) ltac:(lia)). pose proof (Z.mod_pos_bound (a64 x) (2 ^ 32) ltac:(lia)).
  destruct (Z.leb_spec c (a64 x / 2 ^ 32)); symmetry; [apply Z.leb_le|apply Z.leb_gt]; nia.
Qed.
(** the order of the patterns is that of the magnitudes *)
Lemma a64_ge x c : isbits f64 x -> finite f64 x = true -> 0 <= c < 0x7ff0000000000000 -> ((c <=? a64 x) = true -> val f64 c <= Rabs (val f64 x))%R /\ ((c <=? a64 x) = false -> Rabs (val f64 x) <= val f64 (c - 1))%R.
Proof.
  intros B G H. destruct (val_a64 x B) as (B1 & B2 & B3 & B4). rewrite <- B4. assert (R : 0 <= a64 x < 2 ^ 63) by (destruct (bits64 x B); lia).
  destruct (pos64 (a64 x) R) as (_ & _ & S). rewrite fin64 in G by assumption. apply Z.ltb_lt in G. split; intros C.
  - apply Z.leb_le in C. destruct (IN_pos64 c 0x7fefffffffffffff (a64 x) B1 S ltac:(lia) ltac:(lia) ltac:(lia)) as (_ & _ & K & _). exact K.
  - apply Z.leb_gt in C. destruct (IN_pos64 0 (c - 1) (a64 x) B1 S ltac:(lia) ltac:(lia) ltac:(lia)) as (_ & _ & _ & K). exact K.
Qed.
Lemma even_half r : Z.even (Zfloor r) = Req_bool (IZR (Zfloor r) / 2) (IZR (Zfloor (r / 2))).
Proof.
  pose proof (Zfloor_lb r) as L. pose proof (Zfloor_ub r) as U. set (f := Zfloor r) in *. destruct (Z.even f) eqn:E; symmetry.
  - apply Z.even_spec in E. destruct E as [k E]. rewrite E in *. rewrite mult_IZR in *. replace (Zfloor (r / 2)) with k; [apply Req_bool_true; field|]. symmetry. apply Zfloor_imp. rewrite plus_IZR. lra.
  - assert (O : Z.odd f = true) by (rewrite <- Z.negb_even, E; reflexivity). apply Z.odd_spec in O. destruct O as [k O]. apply Req_bool_false. intros H. assert (K : f = 2 * Zfloor (r / 2)) by (apply eq_IZR; rewrite mult_IZR; lra). lia.
Qed.
Lemma half64 x : finite f64 x = true -> (1 <= Rabs (val f64 x))%R -> finite f64 (x *: 0x3fe0000000000000) = true /\ val f64 (x *: 0x3fe0000000000000) = (val f64 x / 2)%R.
Proof.
  intros G L. assert (VH : val f64 0x3fe0000000000000 = (1 / 2)%R) by lit. pose proof (fmul_spec f64 x 0x3fe0000000000000 G ltac:(reflexivity)) as S. rewrite VH in S. replace (val f64 x * (1 / 2))%R with (val f64 x / 2)%R in S by field.
  pose proof (val_lt_max f64 x G) as M. apply exact in S; [tauto| |].
  - destruct (repr_grid f64 (val f64 x) 0 (repr_val f64 x G) ltac:(intros _; exact L)) as (n & E). change (0 - mw f64) with (-52) in E.
    destruct (repr_float f64 _ (repr_val f64 x G)) as (m & e & E' & A & C). destruct (Z_le_gt_dec (emin f64 + 1) e) as [D|D].
    + rewrite E'. replace (IZR m * bpow radix2 e / 2)%R with (IZR m * bpow radix2 (e - 1))%R by (rewrite bpow_half; field). apply repr_int; lia.
    + exfalso. rewrite E', Rabs_mult, (Rabs_pos_eq (bpow radix2 e)) in L by apply bpow_ge_0. rewrite <- abs_IZR in L.
      assert (Q : (IZR (Z.abs m) * bpow radix2 e <= bpow radix2 53 * bpow radix2 (emin f64))%R). { apply Rmult_le_compat; [apply IZR_le; lia|apply bpow_ge_0| |apply bpow_le; lia]. change (bpow radix2 53) with (IZR (2 ^ 53)). apply IZR_le. cbn [mw f64] in A. lia. }
      rewrite <- bpow_plus in Q. assert (bpow radix2 (53 + emin f64) < 1)%R by (change 1%R with (bpow radix2 0); apply bpow_lt; cbn; lia). lra.
  - replace (val f64 x / 2)%R with (val f64 x * / 2)%R by field. rewrite Rabs_mult, (Rabs_pos_eq (/ 2)) by lra. pose proof (Rabs_pos (val f64 x)). lra.
Qed.
Lemma int_half v r : rounded_by f64 Zfloor v r -> finite f64 v = true -> (val f64 v <= -184)%R -> finite f64 (r *: 0x3fe0000000000000) = true /\ val f64 (r *: 0x3fe0000000000000) = (IZR (Zfloor (val f64 v)) / 2)%R.
Proof.
  intros (_ & H & _) G L. destruct (H G) as (H1 & H2 & _). rewrite <- H2. apply half64; [exact H1|]. rewrite H2. assert (Zfloor (val f64 v) <= -184) by (apply le_IZR; pose proof (Zfloor_lb (val f64 v)); change (IZR (-184)) with (-184)%R; lra).
  rewrite Rabs_left1; [|apply IZR_le; lia]. apply IZR_le in H0. change (IZR (-184)) with (-184)%R in H0. lra.
Qed.
Lemma tgamma_ok : tgamma_spec f64 rs_tgamma.
Proof.
  intros x B. destruct (class_cases f64 x) as [(G & NI & NN)|[(G & I & NN)|(G & NI & NN)]].
  - destruct (iszero f64 x) eqn:Z.
    + pose proof (iszero_eq f64 x B Z) as E. pose proof (iszero_val f64 x Z) as V. exists (infinity f64 (signbit f64 x)). split; [rewrite E at 1; apply tgamma_zero|]. split; [apply infinity_fields|].
      split; [congruence|]. split; [congruence|]. split; [auto|]. rewrite V. split; [intros; lra|]. split; [|split; intros; lra]. intros _ n Hn E'. apply eq_IZR in E'. lia.
    + assert (V0 : val f64 x <> 0%R) by (intros E; apply (val_eq_0 f64 x B G) in E; congruence).
      assert (SG : if signbit f64 x then (val f64 x < 0)%R else (0 < val f64 x)%R).
      { destruct (signbit f64 x) eqn:S; destruct (Rtotal_order (val f64 x) 0) as [T|[T|T]]; try contradiction; try assumption; [apply val_pos_sign in T|apply val_neg_sign in T]; congruence. }
      pose proof (a64_ge x 0x3c90000000000000 B G ltac:(lia)) as [T1 T2]. pose proof (a64_ge x 0x4067000000000000 B G ltac:(lia)) as [U1 U2].
      assert (W1 : val f64 0x3c90000000000000 = (1 / 18014398509481984)%R) by lit. assert (W2 : val f64 (0x3c90000000000000 - 1) = (9007199254740991 / 162259276829213363391578010288128)%R) by lit.
      assert (W3 : val f64 0x4067000000000000 = (184 / 1)%R) by lit. assert (W4 : val f64 (0x4067000000000000 - 1) = (6473924464345087 / 35184372088832)%R) by lit.
      rewrite W1 in T1. rewrite W2 in T2. rewrite W3 in U1. rewrite W4 in U2.
      (* the factorials *)
      assert (FC : forall n : nat, (n < 23)%nat -> val f64 x = IZR (Z.of_nat n + 1) -> rs_tgamma x = Some (of_int f64 (factZ n))).
      { intros n Hn E. destruct (of_int_small f64 (Z.of_nat n + 1) ltac:(cbn; lia) ltac:(cbn; lia) ltac:(lia)) as (O1 & O2 & O3). rewrite <- tgamma_fact by assumption. f_equal.
        apply (bits_of_val f64); try assumption; [now rewrite O3|]. rewrite O3. intros K. apply eq_IZR in K. lia. }
      destruct (floor_ok f64 x B) as (v & Ev & HV). pose proof HV as (Bv & HV1 & _). destruct (HV1 G) as (Gv & Vv & _).
      assert (M : exists y, rs_tgamma x = Some y /\ isbits f64 y /\
        (val f64 x < 0 -> is_integer (val f64 x) -> isnan f64 y = true)%R /\ (184 <= val f64 x -> y = infinity f64 false)%R /\
        (val f64 x <= -184 -> ~ is_integer (val f64 x) -> y = zero f64 (negb (Z.even (Zfloor (val f64 x)))))%R).
      { unfold rs_tgamma. cbv zeta. rewrite ix64, sgb64 by assumption. rewrite hi_le by lia. pose proof G as G'. rewrite fin64 in G' by assumption. apply Z.ltb_lt in G'.
        replace (0x7ff00000 * 2 ^ 32 <=? a64 x) with false by (symmetry; apply Z.leb_gt; lia).
        assert (Q : (a64 x / 2 ^ 32 <? 0x3c900000) = negb (0x3c90000000000000 <=? a64 x)). { change 0x3c90000000000000 with (0x3c900000 * 2 ^ 32). rewrite <- hi_le by lia. apply Z.ltb_antisym. } rewrite Q.
        destruct (0x3c90000000000000 <=? a64 x); cbn [negb].
        2:{ exists (0x3ff0000000000000 /: x). specialize (T2 eq_refl). split; [reflexivity|]. split; [bitsok|]. assert (AX : (Rabs (val f64 x) < 1)%R) by lra. pose proof (Rabs_pos_lt _ V0) as AP.
            split; [intros _ II; exfalso; apply (not_int (val f64 x)); [lra|exact II]|]. apply Rabs_def2 in AX. split; intros; lra. }
        specialize (T1 eq_refl). assert (LB : (bpow radix2 (-70) <= Rabs (val f64 x))%R) by (change (bpow radix2 (-70)) with (/ 1180591620717411303424)%R; lra).
        rewrite Ev. cbn [bind]. rewrite feqR, Vv by assumption.
        destruct (tgamma_1_tot x (a64 x / 2 ^ 32) B G LB) as (y & Ey & By).
        (* the general branch *)
        assert (GB : (0 < val f64 x)%R \/ ~ is_integer (val f64 x) -> exists y, rs_tgamma_1 x (a64 x / 2 ^ 32) (signbit f64 x) = Some y /\ isbits f64 y /\
          (val f64 x < 0 -> is_integer (val f64 x) -> isnan f64 y = true)%R /\ (184 <= val f64 x -> y = infinity f64 false)%R /\
          (val f64 x <= -184 -> ~ is_integer (val f64 x) -> y = zero f64 (negb (Z.even (Zfloor (val f64 x)))))%R).
        { intros PN. exists y. split; [exact Ey|]. split; [exact By|]. split; [intros L0 II; destruct PN; [lra|contradiction]|].
          unfold rs_tgamma_1 in Ey. cbv zeta in Ey. rewrite hi_le in Ey by lia. change (0x40670000 * 2 ^ 32) with 0x4067000000000000 in Ey. destruct (0x4067000000000000 <=? a64 x) eqn:Q2.
          2:{ specialize (U2 eq_refl). apply Rabs_le_inv in U2. split; intros; lra. }
          specialize (U1 eq_refl). split.
          - intros L1. destruct (signbit f64 x); [lra|]. injection Ey as <-. assert (VM : val f64 0x7fe0000000000000 = bpow radix2 1023). { change (bpow radix2 1023) with (IZR (2 ^ 1023)). replace (IZR (2 ^ 1023)) with (IZR (2 ^ 1023) / 1)%R by field. lit. }
            destruct (fmul_spec f64 x 0x7fe0000000000000 G ltac:(reflexivity)) as [_ S]. rewrite VM in S.
            assert (LL : (bpow radix2 1024 <= val f64 x * bpow radix2 1023)%R). { change 1024 with (1 + 1023). rewrite bpow_plus. apply Rmult_le_compat_r; [apply bpow_ge_0|]. change (bpow radix2 1) with 2%R. lra. }
            assert (RR : (bpow radix2 1024 <= rnd f64 (val f64 x * bpow radix2 1023))%R) by (rewrite <- (repr_rnd f64 (bpow radix2 1024)) by (apply repr_bpow; cbn; lia); now apply rnd_le).
            pose proof (bpow_gt_0 radix2 1024) as PP. rewrite Rlt_bool_false in S by (rewrite Rabs_pos_eq by lra; exact RR). rewrite Rlt_bool_false in S by lra. exact S.
          - intros L1 NI1. destruct (signbit f64 x); [|lra]. rewrite Ev in Ey. cbn [bind] in Ey. destruct (half64 x G ltac:(lra)) as [H1 H2]. destruct (floor_ok f64 (x *: 0x3fe0000000000000) ltac:(bitsok)) as (w & Ew & (Bw & HW & _)). destruct (HW H1) as (Gw & Vw & _). rewrite Ew in Ey. cbn [bind] in Ey.
            destruct (int_half x v HV G L1) as [I1 I2]. rewrite feqR, I2, Vw, H2 in Ey by assumption. rewrite <- even_half in Ey. destruct (Z.even _); injection Ey as <-; reflexivity. }
        destruct (Req_bool_spec (val f64 x) (IZR (Zfloor (val f64 x)))) as [EI|NEI].
        - destruct (signbit f64 x) eqn:SX.
          + exists (0 /: 0). split; [reflexivity|]. split; [bitsok|]. split; [intros _ _; apply nan00|]. split; [intros; lra|]. intros _ NI1. exfalso. apply NI1. now exists (Zfloor (val f64 x)).
          + destruct (fle f64 x (of_int f64 (Z.of_nat (length rs_tgamma_FACT)))) eqn:LE; [|apply GB; now left].
            rewrite len_fact in LE. rewrite fleR in LE by first [assumption|reflexivity]. destruct (Rle_bool_spec (val f64 x) (val f64 0x4037000000000000)) as [LE'|]; [|discriminate]. assert (W5 : val f64 0x4037000000000000 = (23 / 1)%R) by lit. rewrite W5 in LE'.
            set (k := Zfloor (val f64 x)) in *. assert (K : 0 < k <= 23). { split; [apply lt_IZR; rewrite <- EI; exact SG|apply le_IZR; rewrite <- EI; lra]. }
            assert (TU : to_u64 f64 x = k). { unfold to_u64. rewrite to_intZ_finite by first [lia|assumption]. rewrite EI, Ztrunc_IZR. unfold clampZ. destruct (Z.ltb_spec k 0); [lia|]. destruct (Z.ltb_spec (2 ^ 64 - 1) k); lia. }
            rewrite TU, usub_ok by lia. cbn [bind]. destruct (tab_get_ok rs_tgamma_FACT (k - 1) ltac:(cbn; lia)) as (z & -> & Hz). exists z. split; [reflexivity|].
            split. { revert z Hz. apply Forall_forall. unfold rs_tgamma_FACT. repeat (constructor; [vm_compute; split; [discriminate|reflexivity]|]). constructor. }
            split; [intros; lra|]. split; intros; lra.
        - apply GB. right. intros [n E]. apply NEI. rewrite E, Zfloor_IZR. reflexivity. }
      destruct M as (y & E & By & M1 & M2 & M3). exists y. split; [exact E|]. split; [exact By|]. split; [congruence|]. split; [congruence|]. split; [congruence|]. split; [auto|]. split; [|auto].
      intros _ n Hn V. rewrite (FC n Hn V) in E. injection E as <-. apply of_int_spec.
  - pose proof (isinf_eq f64 x B I) as E. destruct (signbit f64 x).
    + destruct tgamma_ninf as (y & Ey & By & Ny). exists y. rewrite E. split; [exact Ey|]. split; [exact By|]. rewrite <- E. split; [auto|]. split; [auto|]. split; [intros Z; apply iszero_finite in Z; congruence|]. repeat (split; [congruence|]). congruence.
    + exists (infinity f64 false). split; [rewrite E at 1; apply tgamma_inf|]. split; [apply infinity_fields|]. split; [congruence|]. split; [auto|]. split; [intros Z; apply iszero_finite in Z; congruence|]. repeat (split; [congruence|]). congruence.
  - exists (x +: 0x7ff0000000000000). split.
    + unfold rs_tgamma. cbv zeta. rewrite ix64 by assumption. rewrite fin64 in G by assumption. apply Z.ltb_ge in G. assert (L : 0x7ff00000 <= a64 x / 2 ^ 32) by (apply Z.div_le_lower_bound; lia). apply Z.leb_le in L. now rewrite L.
    + split; [apply fadd_isbits|]. split; [intros _; apply fadd_nan; now rewrite NN|]. split; [congruence|]. split; [intros Z; apply iszero_finite in Z; congruence|]. repeat (split; [congruence|]). congruence.
Qed.
(** tgammaf *)
Lemma inf_cvt s : fcvt f64 f32 (infinity f64 s) = infinity f32 s. Proof. rewrite fcvt_inf by apply infinity_fields. f_equal. apply infinity_fields. Qed.
Lemma zero_cvt s : fcvt f64 f32 (zero f64 s) = zero f32 s. Proof. destruct s; vm_compute; reflexivity. Qed.
Lemma tgammaf_ok : tgamma_spec f32 rs_tgammaf.
Proof.
  intros x B. destruct (widen_class x B) as (BX & CN & CI & CF & CZ & CS). cbv zeta in *. destruct (tgamma_ok (fcvt f32 f64 x) BX) as (y & E & By & H1 & H2 & H3 & H4 & H5 & H6 & H7).
  exists (fcvt f64 f32 y). split; [unfold rs_tgammaf; rewrite E; reflexivity|]. split; [apply fcvt_isbits|].
  assert (VX : finite f32 x = true -> val f64 (fcvt f32 f64 x) = val f32 x) by (intros G; apply (widen_ok x B G)).
  rewrite CN in H1. rewrite CI in H2. rewrite CZ in H3. rewrite CF in H4, H5, H6, H7.
  split; [intros N; apply fcvt_nan; auto|]. split.
  { intros I. specialize (H2 I). rewrite CS in H2 by (now apply P_fma4.isinf_not_nan). destruct (signbit f32 x); [now apply fcvt_nan|]. rewrite H2. apply inf_cvt. }
  split. { intros Z. rewrite (H3 Z), CS by (apply finite_not_nan, iszero_finite, Z). apply inf_cvt. }
  split. { intros G. rewrite <- (VX G). intros L I. apply fcvt_nan. auto. }
  split. { intros G n Hn V. assert (V' := V). destruct (of_int_small f32 (Z.of_nat n + 1) ltac:(cbn; lia) ltac:(cbn; lia) ltac:(lia)) as (O1 & O2 & O3).
    assert (x = of_int f32 (Z.of_nat n + 1)) as EX. { apply (bits_of_val f32); try assumption; [now rewrite O3|]. rewrite O3. intros K. apply eq_IZR in K. lia. }
    pose proof (tgammaf_fact n Hn) as TF. rewrite <- EX in TF. unfold rs_tgammaf in TF. rewrite E in TF. cbn [bind] in TF. injection TF as ->. apply of_int_spec. }
  split. { intros G. rewrite <- (VX G). intros L. rewrite (H6 G L). apply inf_cvt. }
  intros G. rewrite <- (VX G). intros L NI. rewrite (H7 G L NI). apply zero_cvt.
Qed.

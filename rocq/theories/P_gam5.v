(** lgamma_r and lgammaf_r satisfy [lgamma_spec]. *)
From Coq Require Import ZArith Reals Lia Lra Bool List Psatz.
From Flocq Require Import Core.
From Verif Require Import Base Spec SpecFun SpecAcc Format P_format Ieee P_ieee P_real P_neg P_round P_elem P_elem2 P_tot P_lit P_err P_log P_exp P_ival P_ival2 P_dom P_bessel P_sym P_sym3 P_trigf P_powt8 P_gam P_gam2 P_gam3 P_gam4 SpecGamma Prop_cbrt M_basic M_elib M_log M_trig M_gamma.
Open Scope Z_scope.
Open Scope fl_scope.

Lemma lgamma_r_inf s : rs_lgamma_r (infinity f64 s) = Some (infinity f64 false, 1). Proof. destruct s; vm_compute; reflexivity. Qed.
Lemma lgamma_r_zero s : rs_lgamma_r (zero f64 s) = Some (infinity f64 false, if s then -1 else 1). Proof. destruct s; vm_compute; reflexivity. Qed.
Lemma lgamma_r_one : rs_lgamma_r 0x3ff0000000000000 = Some (zero f64 false, 1). Proof. vm_compute; reflexivity. Qed.
Lemma lgamma_r_two : rs_lgamma_r 0x4000000000000000 = Some (zero f64 false, 1). Proof. vm_compute; reflexivity. Qed.
Lemma lgammaf_r_inf s : rs_lgammaf_r (infinity f32 s) = Some (infinity f32 false, 1). Proof. destruct s; vm_compute; reflexivity. Qed.
Lemma lgammaf_r_zero s : rs_lgammaf_r (zero f32 s) = Some (infinity f32 false, if s then -1 else 1). Proof. destruct s; vm_compute; reflexivity. Qed.
Lemma lgammaf_r_one : rs_lgammaf_r 0x3f800000 = Some (zero f32 false, 1). Proof. vm_compute; reflexivity. Qed.
Lemma lgammaf_r_two : rs_lgammaf_r 0x40000000 = Some (zero f32 false, 1). Proof. vm_compute; reflexivity. Qed.
Lemma recip0_64 : 0x3ff0000000000000 /: (zero f64 false) = infinity f64 false. Proof. vm_compute; reflexivity. Qed.
Lemma recip0_32 : 0x3f800000 /' (zero f32 false) = infinity f32 false. Proof. vm_compute; reflexivity. Qed.
Local Opaque fadd fsub fmul fdiv of_int fcvt rs_log rs_logf.

(** a finite argument that is not zero *)
Lemma lgamma_r_fin x : isbits f64 x -> finite f64 x = true -> iszero f64 x = false ->
  exists y s, rs_lgamma_r x = Some (y, s) /\ isbits f64 y /\ (val f64 x < 0 -> is_integer (val f64 x) -> y = infinity f64 false /\ s = 1%Z)%R /\
    (0 < val f64 x \/ ~ is_integer (val f64 x) -> s = gamma_sgn (val f64 x))%R /\ (s = 1 \/ s = -1).
Proof.
  intros B G NZ. unfold rs_lgamma_r. cbv zeta. rewrite ix64, sgb64 by assumption. pose proof G as G'. rewrite fin64 in G' by assumption. apply Z.ltb_lt in G'.
  assert (V0 : val f64 x <> 0%R) by (intros E; apply (val_eq_0 f64 x B G) in E; congruence).
  pose proof (fneg_val f64 x B) as NV. pose proof (fneg_finite f64 x B) as NF. pose proof (fneg_isbits f64 x B) as NB. rewrite G in NF.
  assert (SG : if signbit f64 x then (val f64 x < 0)%R else (0 < val f64 x)%R).
  { destruct (signbit f64 x) eqn:S; destruct (Rtotal_order (val f64 x) 0) as [T|[T|T]]; try contradiction; try assumption; [apply val_pos_sign in T|apply val_neg_sign in T]; congruence. }
  destruct (0x7ff00000 <=? a64 x / 2 ^ 32) eqn:E1. { apply Z.leb_le in E1. pose proof (Z.div_mod (a64 x) (2 ^ 32) ltac:(lia)). pose proof (Z.mod_pos_bound (a64 x) (2 ^ 32) ltac:(lia)). lia. }
  destruct (a64 x / 2 ^ 32 <? 0x3b900000) eqn:E2.
  - apply Z.ltb_lt in E2. pose proof (small64 x B G E2) as SM. pose proof (Rabs_pos_lt _ V0) as AP. destruct (signbit f64 x).
    + destruct (log_tot (fneg f64 x) NB) as (r & -> & Br). cbn [bind]. exists (fneg f64 r), (-1). split; [reflexivity|]. split; [now apply fneg_isbits|]. split; [intros _ I; exfalso; apply (not_int (val f64 x)); [lra|exact I]|].
      split; [|auto]. intros _. rewrite sgn_neg by assumption. rewrite floor_m1; [reflexivity|]. rewrite Rabs_left in SM by assumption. lra.
    + destruct (log_tot x B) as (r & -> & Br). cbn [bind]. exists (fneg f64 r), 1. split; [reflexivity|]. split; [now apply fneg_isbits|]. split; [intros; lra|]. split; [|auto]. intros _. now rewrite sgn_pos.
  - apply Z.ltb_ge in E2. pose proof (big64 x B G E2) as LB. destruct (signbit f64 x) eqn:SX.
    + rewrite Rabs_left in LB by assumption. destruct (sinpi64 (fneg f64 x) NB NF ltac:(rewrite NV; exact LB)) as (t & -> & _ & Bt & Gt & T1 & T2 & T3). cbn [bind].
      rewrite feqR, fgtR, val0 by first [exact Gt|reflexivity]. rewrite (fsub_self f64 _ NF), recip0_64.
      destruct (Req_bool_spec (val f64 t) 0) as [Z|NZt].
      * exists (infinity f64 false), 1. split; [reflexivity|]. split; [apply infinity_fields|]. split; [auto|]. split; [|auto]. intros [P|NI]; [lra|]. exfalso.
        assert (NI' : ~ is_integer (val f64 (fneg f64 x))). { intros [n E]. apply NI. exists (- n). rewrite opp_IZR, <- E, NV. ring. }
        destruct (m2_nint f64 (fneg f64 x) NI') as [M1 M2]. destruct (Z.even _); [specialize (T3 (M2 eq_refl))|specialize (T2 (M1 eq_refl))]; lra.
      * assert (NI : ~ is_integer (val f64 x)). { intros [n E]. apply NZt, T1, m2_int. exists (- n). rewrite NV, E, opp_IZR. reflexivity. }
        assert (NI' : ~ is_integer (val f64 (fneg f64 x))). { intros [n E]. apply NI. exists (- n). rewrite opp_IZR, <- E, NV. ring. }
        destruct (m2_nint f64 (fneg f64 x) NI') as [M1 M2]. rewrite NV, Ropp_involutive in M1, M2.
        assert (S : (if Rlt_bool 0 (val f64 t) then -1 else 1) = gamma_sgn (val f64 x)).
        { rewrite sgn_neg by assumption. destruct (Z.even _); [specialize (T3 (M2 eq_refl)); rewrite Rlt_bool_false by lra|specialize (T2 (M1 eq_refl)); rewrite Rlt_bool_true by lra]; reflexivity. }
        destruct (Rlt_bool 0 (val f64 t)).
        -- destruct (log_tot (rs_lgamma_r_PI /: (t *: fneg f64 x)) ltac:(bitsok)) as (nadj & -> & Bn). cbn [bind]. destruct (lgamma_r_1_tot (fneg f64 x) x nadj (a64 x / 2 ^ 32) true (-1) NB Bn) as ([y s] & -> & By & Es). cbn [fst snd] in *. subst s.
           exists y, (-1). split; [reflexivity|]. split; [exact By|]. split; [intros _ I; contradiction|]. auto.
        -- destruct (log_tot (rs_lgamma_r_PI /: (fneg f64 t *: fneg f64 x)) ltac:(bitsok)) as (nadj & -> & Bn). cbn [bind]. destruct (lgamma_r_1_tot (fneg f64 x) x nadj (a64 x / 2 ^ 32) true 1 NB Bn) as ([y s] & -> & By & Es). cbn [fst snd] in *. subst s.
           exists y, 1. split; [reflexivity|]. split; [exact By|]. split; [intros _ I; contradiction|]. auto.
    + destruct (lgamma_r_1_tot x x 0 (a64 x / 2 ^ 32) false 1 B ltac:(bitsok)) as ([y s] & -> & By & Es). cbn [fst snd] in *. subst s.
      exists y, 1. split; [reflexivity|]. split; [exact By|]. split; [intros; lra|]. split; [|auto]. intros _. now rewrite sgn_pos.
Qed.
Lemma lgamma_r_ok : lgamma_spec f64 rs_lgamma_r.
Proof.
  intros x B. destruct (class_cases f64 x) as [(G & NI & NN)|[(G & I & NN)|(G & NI & NN)]].
  - destruct (iszero f64 x) eqn:Z.
    + pose proof (iszero_eq f64 x B Z) as E. exists (infinity f64 false), (if signbit f64 x then -1 else 1). split; [rewrite E at 1; apply lgamma_r_zero|]. split; [apply infinity_fields|].
      pose proof (iszero_val f64 x Z) as V. split; [destruct (signbit f64 x); auto|]. split; [congruence|]. split; [congruence|]. split; [auto|]. rewrite V. split; [intros; lra|]. split; [intros; lra|].
      intros _ [H|H]; [lra|]. exfalso. apply H. now exists 0.
    + destruct (lgamma_r_fin x B G Z) as (y & s & E & By & H1 & H2 & H3). exists y, s. split; [exact E|]. split; [exact By|]. split; [exact H3|]. split; [congruence|]. split; [congruence|]. split; [congruence|]. split; [auto|]. split; [|auto].
      intros _ [V|V].
      * assert (C : val f64 0x3ff0000000000000 = 1%R) by (replace 1%R with (1 / 1)%R by field; lit). assert (BC : isbits f64 0x3ff0000000000000) by (vm_compute; split; [discriminate|reflexivity]). assert (x = 0x3ff0000000000000) by (apply (bits_of_val f64 x 0x3ff0000000000000); [exact B|exact BC|exact G|reflexivity|rewrite C; exact V|rewrite C; lra]). subst x. rewrite lgamma_r_one in E. congruence.
      * assert (C : val f64 0x4000000000000000 = 2%R) by (replace 2%R with (2 / 1)%R by field; lit). assert (BC : isbits f64 0x4000000000000000) by (vm_compute; split; [discriminate|reflexivity]). assert (x = 0x4000000000000000) by (apply (bits_of_val f64 x 0x4000000000000000); [exact B|exact BC|exact G|reflexivity|rewrite C; exact V|rewrite C; lra]). subst x. rewrite lgamma_r_two in E. congruence.
  - pose proof (isinf_eq f64 x B I) as E. exists (infinity f64 false), 1. split; [rewrite E at 1; apply lgamma_r_inf|]. split; [apply infinity_fields|]. split; [auto|]. split; [congruence|]. split; [auto|]. split; [intros Z; apply iszero_finite in Z; congruence|]. repeat (split; [congruence|]). congruence.
  - exists (x *: x), 1. split.
    + unfold rs_lgamma_r. cbv zeta. rewrite ix64 by assumption. rewrite fin64 in G by assumption. apply Z.ltb_ge in G. assert (L : 0x7ff00000 <= a64 x / 2 ^ 32) by (apply Z.div_le_lower_bound; lia). apply Z.leb_le in L. now rewrite L.
    + split; [apply fmul_isbits|]. split; [auto|]. split; [intros _; apply fmul_nan; now rewrite NN|]. split; [congruence|]. split; [intros Z; apply iszero_finite in Z; congruence|]. repeat (split; [congruence|]). congruence.
Qed.
(** the same for f32 *)
Lemma lgammaf_r_fin x : isbits f32 x -> finite f32 x = true -> iszero f32 x = false ->
  exists y s, rs_lgammaf_r x = Some (y, s) /\ isbits f32 y /\ (val f32 x < 0 -> is_integer (val f32 x) -> y = infinity f32 false /\ s = 1%Z)%R /\
    (0 < val f32 x \/ ~ is_integer (val f32 x) -> s = gamma_sgn (val f32 x))%R /\ (s = 1 \/ s = -1).
Proof.
  intros B G NZ. unfold rs_lgammaf_r. cbv zeta. rewrite land_a32, sgb by assumption. pose proof G as G'. rewrite fin32 in G' by assumption. apply Z.ltb_lt in G'.
  assert (V0 : val f32 x <> 0%R) by (intros E; apply (val_eq_0 f32 x B G) in E; congruence).
  pose proof (fneg_val f32 x B) as NV. pose proof (fneg_finite f32 x B) as NF. pose proof (fneg_isbits f32 x B) as NB. rewrite G in NF.
  assert (SG : if signbit f32 x then (val f32 x < 0)%R else (0 < val f32 x)%R).
  { destruct (signbit f32 x) eqn:S; destruct (Rtotal_order (val f32 x) 0) as [T|[T|T]]; try contradiction; try assumption; [apply val_pos_sign in T|apply val_neg_sign in T]; congruence. }
  destruct (0x7f800000 <=? a32 x) eqn:E1. { apply Z.leb_le in E1. lia. }
  destruct (a32 x <? 0x35000000) eqn:E2.
  - apply Z.ltb_lt in E2. pose proof (small32 x B G E2) as SM. pose proof (Rabs_pos_lt _ V0) as AP. destruct (signbit f32 x).
    + destruct (logf_tot (fneg f32 x) NB) as (r & -> & Br). cbn [bind]. exists (fneg f32 r), (-1). split; [reflexivity|]. split; [now apply fneg_isbits|]. split; [intros _ I; exfalso; apply (not_int (val f32 x)); [lra|exact I]|].
      split; [|auto]. intros _. rewrite sgn_neg by assumption. rewrite floor_m1; [reflexivity|]. rewrite Rabs_left in SM by assumption. lra.
    + destruct (logf_tot x B) as (r & -> & Br). cbn [bind]. exists (fneg f32 r), 1. split; [reflexivity|]. split; [now apply fneg_isbits|]. split; [intros; lra|]. split; [|auto]. intros _. now rewrite sgn_pos.
  - apply Z.ltb_ge in E2. pose proof (big32 x B G E2) as LB. destruct (signbit f32 x) eqn:SX.
    + rewrite Rabs_left in LB by assumption. destruct (sinpi32 (fneg f32 x) NB NF ltac:(rewrite NV; exact LB)) as (t & -> & Bt & Gt & T1 & T2 & T3). cbn [bind].
      rewrite feqR, fgtR, val0 by first [exact Gt|reflexivity]. rewrite (fsub_self f32 _ NF), recip0_32.
      destruct (Req_bool_spec (val f32 t) 0) as [Z|NZt].
      * exists (infinity f32 false), 1. split; [reflexivity|]. split; [apply infinity_fields|]. split; [auto|]. split; [|auto]. intros [P|NI]; [lra|]. exfalso.
        assert (NI' : ~ is_integer (val f32 (fneg f32 x))). { intros [n E]. apply NI. exists (- n). rewrite opp_IZR, <- E, NV. ring. }
        destruct (m2_nint f32 (fneg f32 x) NI') as [M1 M2]. destruct (Z.even _); [specialize (T3 (M2 eq_refl))|specialize (T2 (M1 eq_refl))]; lra.
      * assert (NI : ~ is_integer (val f32 x)). { intros [n E]. apply NZt, T1, m2_int. exists (- n). rewrite NV, E, opp_IZR. reflexivity. }
        assert (NI' : ~ is_integer (val f32 (fneg f32 x))). { intros [n E]. apply NI. exists (- n). rewrite opp_IZR, <- E, NV. ring. }
        destruct (m2_nint f32 (fneg f32 x) NI') as [M1 M2]. rewrite NV, Ropp_involutive in M1, M2.
        assert (S : (if Rlt_bool 0 (val f32 t) then -1 else 1) = gamma_sgn (val f32 x)).
        { rewrite sgn_neg by assumption. destruct (Z.even _); [specialize (T3 (M2 eq_refl)); rewrite Rlt_bool_false by lra|specialize (T2 (M1 eq_refl)); rewrite Rlt_bool_true by lra]; reflexivity. }
        destruct (Rlt_bool 0 (val f32 t)).
        -- destruct (logf_tot (rs_lgammaf_r_PI /' (t *' fneg f32 x)) ltac:(bitsok)) as (nadj & -> & Bn). cbn [bind]. destruct (lgammaf_r_1_tot (fneg f32 x) nadj (a32 x) true (-1) NB Bn) as ([y s] & -> & By & Es). cbn [fst snd] in *. subst s.
           exists y, (-1). split; [reflexivity|]. split; [exact By|]. split; [intros _ I; contradiction|]. auto.
        -- destruct (logf_tot (rs_lgammaf_r_PI /' (fneg f32 t *' fneg f32 x)) ltac:(bitsok)) as (nadj & -> & Bn). cbn [bind]. destruct (lgammaf_r_1_tot (fneg f32 x) nadj (a32 x) true 1 NB Bn) as ([y s] & -> & By & Es). cbn [fst snd] in *. subst s.
           exists y, 1. split; [reflexivity|]. split; [exact By|]. split; [intros _ I; contradiction|]. auto.
    + destruct (lgammaf_r_1_tot x 0 (a32 x) false 1 B ltac:(bitsok)) as ([y s] & -> & By & Es). cbn [fst snd] in *. subst s.
      exists y, 1. split; [reflexivity|]. split; [exact By|]. split; [intros; lra|]. split; [|auto]. intros _. now rewrite sgn_pos.
Qed.
Lemma lgammaf_r_ok : lgamma_spec f32 rs_lgammaf_r.
Proof.
  intros x B. destruct (class_cases f32 x) as [(G & NI & NN)|[(G & I & NN)|(G & NI & NN)]].
  - destruct (iszero f32 x) eqn:Z.
    + pose proof (iszero_eq f32 x B Z) as E. exists (infinity f32 false), (if signbit f32 x then -1 else 1). split; [rewrite E at 1; apply lgammaf_r_zero|]. split; [apply infinity_fields|].
      pose proof (iszero_val f32 x Z) as V. split; [destruct (signbit f32 x); auto|]. split; [congruence|]. split; [congruence|]. split; [auto|]. rewrite V. split; [intros; lra|]. split; [intros; lra|].
      intros _ [H|H]; [lra|]. exfalso. apply H. now exists 0.
    + destruct (lgammaf_r_fin x B G Z) as (y & s & E & By & H1 & H2 & H3). exists y, s. split; [exact E|]. split; [exact By|]. split; [exact H3|]. split; [congruence|]. split; [congruence|]. split; [congruence|]. split; [auto|]. split; [|auto].
      intros _ [V|V].
      * assert (C : val f32 0x3f800000 = 1%R) by (replace 1%R with (1 / 1)%R by field; lit). assert (BC : isbits f32 0x3f800000) by (vm_compute; split; [discriminate|reflexivity]). assert (x = 0x3f800000) by (apply (bits_of_val f32 x 0x3f800000); [exact B|exact BC|exact G|reflexivity|rewrite C; exact V|rewrite C; lra]). subst x. rewrite lgammaf_r_one in E. congruence.
      * assert (C : val f32 0x40000000 = 2%R) by (replace 2%R with (2 / 1)%R by field; lit). assert (BC : isbits f32 0x40000000) by (vm_compute; split; [discriminate|reflexivity]). assert (x = 0x40000000) by (apply (bits_of_val f32 x 0x40000000); [exact B|exact BC|exact G|reflexivity|rewrite C; exact V|rewrite C; lra]). subst x. rewrite lgammaf_r_two in E. congruence.
  - pose proof (isinf_eq f32 x B I) as E. exists (infinity f32 false), 1. split; [rewrite E at 1; apply lgammaf_r_inf|]. split; [apply infinity_fields|]. split; [auto|]. split; [congruence|]. split; [auto|]. split; [intros Z; apply iszero_finite in Z; congruence|]. repeat (split; [congruence|]). congruence.
  - exists (x *' x), 1. split.
    + unfold rs_lgammaf_r. cbv zeta. rewrite land_a32 by assumption. rewrite fin32 in G by assumption. apply Z.ltb_ge in G. assert (L : 0x7f800000 <= a32 x) by lia. apply Z.leb_le in L. now rewrite L.
    + split; [apply fmul_isbits|]. split; [auto|]. split; [intros _; apply fmul_nan; now rewrite NN|]. split; [congruence|]. split; [intros Z; apply iszero_finite in Z; congruence|]. repeat (split; [congruence|]). congruence.
Qed.

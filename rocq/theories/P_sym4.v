(** Odd and even elementary functions: Bessel functions and cube roots. *)
From Coq Require Import ZArith Reals Lia Lra Bool List.
From Flocq Require Import Core.
From Verif Require Import Base Spec SpecFun SpecSym Format P_format Ieee P_ieee P_real P_neg M_basic M_elib M_scalbn M_sqrt M_exp M_log M_atrig M_erf M_pow M_bessel
  P_lit P_dom P_elem P_elem2 P_ival P_ival2 P_tot P_exp P_log P_nan P_atrig P_erf P_sym P_sym2 P_sym3 P_bessel.
Import ListNotations.
Open Scope Z_scope.
Open Scope fl_scope.

Lemma even_pos F f : total1 F F f -> (forall x r, isbits F x -> isnan F x = false -> signbit F x = false -> f x = Some r -> exists r', f (fneg F x) = Some r' /\ rel F true false r r') -> even_core F f.
Proof.
  intros T H x r B N E. destruct (signbit F x) eqn:S; [|now apply H].
  pose proof (fneg_bits F x B) as B'. destruct (T _ B') as (q & Eq & _). exists q. split; [exact Eq|].
  destruct (H (fneg F x) q B') as (r' & E' & R); [now rewrite nan_fneg|now rewrite sign_fneg, S by exact B|exact Eq|].
  rewrite fneg_invol in E'. rewrite E in E'. injection E' as <-. now apply rel_sym in R.
Qed.
Lemma j0_even : even_core f64 rs_j0.
Proof.
  apply even_pos; [exact j0_tot|]. start64 rs_j0 x B Nx. rewrite ?(fabs_fneg64 x B). intros S.
  repeat first [progress sif].
  all: try (apply some_rel; sym).
  intros E. apply (same_rel f64 true _ _); [|exact E].
  destruct (j0_common_tot (a64 x / 2 ^ 32) (fabs f64 x) false) as (q & E' & Bq); [now apply fabs_isbits|]. rewrite E in E'. now injection E' as <-.
Qed.
Lemma j0f_even : even_core f32 rs_j0f.
Proof.
  apply even_pos; [exact j0f_tot|]. start32 rs_j0f x B Nx. rewrite ?(fabs_fneg32 x B). intros S.
  repeat first [progress sif].
  all: try (apply some_rel; sym).
  intros E. apply (same_rel f32 true _ _); [|exact E].
  destruct (j0f_common_tot (a32 x) (fabs f32 x) false) as (q & E' & Bq); [now apply fabs_isbits|]. rewrite E in E'. now injection E' as <-.
Qed.

(** *** Formulas built from nonnegative numbers *)
Definition pos F x := isnan F x = true \/ signbit F x = false.
Lemma rounds_pos F r sz y : rounds_to F r sz y -> (0 <= r)%R -> (r = 0%R -> sz = false) -> signbit F y = false.
Proof.
  intros [_ H] R Z. destruct (Rlt_bool (Rabs _) _).
  - destruct H as (_ & _ & ->). destruct (Rcompare_spec r 0); [lra|auto|reflexivity].
  - rewrite H, Rlt_bool_false by lra. apply infinity_fields.
Qed.
Lemma infinity_sign F s : signbit F (infinity F s) = s. Proof. apply infinity_fields. Qed.
Ltac poscase F x y H G := let N := fresh "N" in destruct (isnan F x || isnan F y) eqn:N; [left|let NA := fresh "NA" in let NB := fresh "NB" in apply orb_false_elim in N as [NA NB]; destruct H as [H | H]; [congruence|]; destruct G as [G | G]; [congruence|]].
Lemma pos_fadd F x y : pos F x -> pos F y -> pos F (fadd F x y).
Proof.
  intros H G. poscase F x y H G; [now apply fadd_nan|]. right.
  destruct (fin_or_inf F x NA) as [Fx | Ix], (fin_or_inf F y NB) as [Fy | Iy].
  - eapply rounds_pos; [now apply fadd_spec| |now rewrite H]. pose proof (val_sign_nonneg F x H). pose proof (val_sign_nonneg F y G). lra.
  - rewrite fadd_inf_r by assumption. now rewrite infinity_sign.
  - rewrite fadd_inf_l by assumption. now rewrite infinity_sign.
  - pose proof (fadd_inf_inf F x y Ix Iy) as E. rewrite H, G in E. cbn [Bool.eqb] in E. now rewrite E, infinity_sign.
Qed.
Lemma pos_fmul F x y : isbits F x -> isbits F y -> pos F x -> pos F y -> pos F (fmul F x y).
Proof.
  intros Bx By H G. poscase F x y H G; [now apply fmul_nan|].
  destruct (fin_or_inf F x NA) as [Fx | Ix], (fin_or_inf F y NB) as [Fy | Iy].
  - right. now apply fmul_pos.
  - destruct (iszero F x) eqn:Z; [left; now apply P_fma4.fmul_zero_inf|]. right. rewrite P_fma4.fmul_inf_r by auto. now rewrite infinity_sign, H, G.
  - destruct (iszero F y) eqn:Z; [left; now apply P_fma4.fmul_inf_zero|]. right. rewrite fmul_inf_l by auto. now rewrite infinity_sign, H, G.
  - right. assert (Z : iszero F y = false). { destruct (iszero F y) eqn:Z; [|reflexivity]. apply iszero_finite in Z. rewrite (finite_not_inf F y Z) in Iy. discriminate. }
    rewrite fmul_inf_l by auto. now rewrite infinity_sign, H, G.
Qed.

Lemma pos_fdiv F x y : isbits F x -> isbits F y -> pos F x -> pos F y -> pos F (fdiv F x y).
Proof.
  intros Bx By H G. poscase F x y H G; [now apply fdiv_nan|].
  destruct (fin_or_inf F x NA) as [Fx | Ix], (fin_or_inf F y NB) as [Fy | Iy].
  - destruct (iszero F y) eqn:ZY.
    + destruct (iszero F x) eqn:ZX; [left|right].
      * unfold fdiv. rewrite (dec_iszero F x ZX), (dec_iszero F y ZY), nan_enc. reflexivity.
      * rewrite (fdiv_zero F x y) by auto. now rewrite infinity_sign, H, G.
    + assert (Vy : val F y <> 0%R) by (intros E; rewrite (val_eq_0 F y By Fy E) in ZY; discriminate).
      right. eapply rounds_pos; [now apply fdiv_spec| |now rewrite H, G]. pose proof (val_sign_nonneg F x H). pose proof (val_sign_nonneg F y G).
      apply Rle_mult_inv_pos; lra.
  - right. rewrite fdiv_inf_r by assumption. rewrite H, G. apply zero_fields.
  - right. rewrite fdiv_inf_l by assumption. now rewrite H, G, infinity_sign.
  - left. unfold fdiv. rewrite (dec_isinf F x Ix), (dec_isinf F y Iy), nan_enc. reflexivity.
Qed.
Lemma pos_fcvt F G x : pos F x -> pos G (fcvt F G x).
Proof.
  intros [H | H]; [left; now apply fcvt_nan|]. destruct (isnan F x) eqn:N; [left; now apply fcvt_nan|]. right.
  destruct (fin_or_inf F x N) as [Fx | Ix].
  - eapply rounds_pos; [now apply fcvt_finite|now apply val_sign_nonneg|now rewrite H].
  - rewrite fcvt_inf by assumption. now rewrite infinity_sign.
Qed.
(** [pr s x x']: [x] is nonnegative and [x'] is [x] or its opposite, sign of zero included *)
Definition pr F s x x' := rel F true s x x' /\ pos F x.
Lemma pr_add F s x x' y y' : pr F s x x' -> pr F s y y' -> pr F s (fadd F x y) (fadd F x' y').
Proof.
  intros [Rx Px] [Ry Py]. split; [|now apply pos_fadd].
  destruct (isnan F x || isnan F y) eqn:N.
  { pose proof (rel_nan _ _ _ _ _ Rx) as Nx. pose proof (rel_nan _ _ _ _ _ Ry) as Ny.
    apply rel_both_nan; [apply fadd_isbits|apply fadd_isbits|now apply fadd_nan|apply fadd_nan; now rewrite Nx, Ny]. }
  apply orb_false_elim in N as [NA NB]. destruct Px as [Px | Px]; [congruence|]. destruct Py as [Py | Py]; [congruence|].
  assert (W : rel F false s (fadd F x y) (fadd F x' y')) by (apply (rel_weaken F (true && negb s)); exact (rel_fadd F true s x x' y y' Rx Ry)).
  destruct (fin_or_inf F x NA) as [Fx | Ix], (fin_or_inf F y NB) as [Fy | Iy].
  - apply (rel_fadd_strict F true); auto. intros _. split; [reflexivity|congruence].
  - apply rel_strict; [exact W|]. rewrite fadd_inf_r by assumption. intros E. destruct (infinity_fields F (signbit F y)) as (_ & _ & _ & E' & _). congruence.
  - apply rel_strict; [exact W|]. rewrite fadd_inf_l by assumption. intros E. destruct (infinity_fields F (signbit F x)) as (_ & _ & _ & E' & _). congruence.
  - apply rel_strict; [exact W|]. pose proof (fadd_inf_inf F x y Ix Iy) as H. rewrite Px, Py in H. cbn [Bool.eqb] in H. rewrite H. intros E.
    destruct (infinity_fields F false) as (_ & _ & _ & E' & _). congruence.
Qed.
Lemma pr_mul F s t x x' y y' : pr F s x x' -> pr F t y y' -> pr F (xorb s t) (fmul F x y) (fmul F x' y').
Proof. intros [Rx Px] [Ry Py]. split; [now apply rel_fmul|]. destruct Rx as (Bx & _). destruct Ry as (By & _). now apply pos_fmul. Qed.
Lemma pr_div F s t x x' y y' : pr F s x x' -> pr F t y y' -> pr F (xorb s t) (fdiv F x y) (fdiv F x' y').
Proof. intros [Rx Px] [Ry Py]. split; [now apply rel_fdiv|]. destruct Rx as (Bx & _). destruct Ry as (By & _). now apply pos_fdiv. Qed.
Lemma pr_cvt F G s x x' : pr F s x x' -> pr G s (fcvt F G x) (fcvt F G x').
Proof. intros [Rx Px]. split; [now apply rel_fcvt|now apply pos_fcvt]. Qed.
Lemma pr_neg F x : isbits F x -> pos F x -> pr F true x (fneg F x).
Proof. intros B P. split; [now apply rel_fneg|exact P]. Qed.

(** *** cbrtf *)
Lemma cbrtf_step t t' v v' : pr f64 true t t' -> pr f64 true v v' ->
  pr f64 true ((t *: ((v +: v) +: ((t *: t) *: t))) /: ((v +: ((t *: t) *: t)) +: ((t *: t) *: t))) ((t' *: ((v' +: v') +: ((t' *: t') *: t'))) /: ((v' +: ((t' *: t') *: t')) +: ((t' *: t') *: t'))).
Proof.
  intros T V. assert (R : pr f64 true ((t *: t) *: t) ((t' *: t') *: t')) by (apply (pr_mul f64 false true); [apply (pr_mul f64 true true)|]; assumption).
  apply (pr_div f64 false true); [apply (pr_mul f64 true true); [exact T|apply pr_add; [now apply pr_add|exact R]]|apply pr_add; [now apply pr_add|exact R]].
Qed.
Lemma lor_sign h : 0 <= h < 2 ^ 31 -> Z.lor 0x80000000 h = fneg f32 h /\ Z.lor 0 h = h.
Proof.
  intros H. split; [|apply Z.lor_0_l]. unfold fneg. change (SIGN_MASK f32) with 0x80000000. rewrite Z.lxor_comm. symmetry. rewrite <- Z.lxor_lor; [reflexivity|].
  apply Z.bits_inj'. intros n Hn. rewrite Z.land_spec, Z.bits_0. change 0x80000000 with (2 ^ 31). rewrite Z.pow2_bits_eqb by lia.
  destruct (Z.eqb_spec 31 n) as [<- | ]; [|reflexivity]. cbn [andb]. destruct (Z.eq_dec h 0) as [-> | ]; [apply Z.bits_0|]. apply Z.bits_above_log2; [lia|]. apply Z.log2_lt_pow2; lia.
Qed.
Lemma cbrtf_1_odd x ui ui' h r : isbits f32 x -> signbit f32 x = false -> 0 <= h < 2 ^ 31 -> Z.land ui 0x80000000 = 0 -> Z.land ui' 0x80000000 = 0x80000000 ->
  rs_cbrtf_1 x ui h = Some r -> exists r', rs_cbrtf_1 (fneg f32 x) ui' h = Some r' /\ rel f32 true true r r'.
Proof.
  intros B S H U U'. unfold rs_cbrtf_1. cbv zeta. rewrite U, U'. destruct (lor_sign h H) as [-> ->]. apply some_rel.
  assert (Bh : isbits f32 h) by (unfold isbits, width; cbn [mw ew f32]; lia).
  assert (Sh : signbit f32 h = false).
  { destruct (bits32 h Bh) as [E _]. unfold a32 in E. rewrite Z.mod_small in E by lia. destruct (signbit f32 h); [cbn [bs] in E; lia|reflexivity]. }
  apply rel_fcvt. apply cbrtf_step; [apply cbrtf_step|]; apply pr_cvt, pr_neg; try assumption; now right.
Qed.
Lemma land_sign32 u : isbits f32 u -> Z.land u 0x80000000 = bs (signbit f32 u) * 2 ^ 31.
Proof.
  intros B. destruct (bits32 u B) as [E R]. set (b := signbit f32 u) in *. clearbody b. rewrite E.
  replace (bs b * 2 ^ 31 + a32 u) with (Z.lor (Z.shiftl (bs b) 31) (a32 u)).
  2:{ rewrite <- Z.shiftl_mul_pow2 by lia. rewrite Z.add_nocarry_lxor, Z.lxor_lor; [reflexivity| |]; apply Z.bits_inj'; intros n Hn; rewrite Z.land_spec, Z.bits_0, Z.shiftl_spec by lia;
      destruct (Z.lt_ge_cases n 31); try (rewrite Z.testbit_neg_r by lia; reflexivity);
      replace (Z.testbit (a32 u) n) with false; try apply andb_false_r; symmetry; destruct (Z.eq_dec (a32 u) 0) as [-> | ]; try apply Z.bits_0; apply Z.bits_above_log2; try lia; apply Z.log2_lt_pow2; try lia;
      apply Z.lt_le_trans with (2 ^ 31); try lia; apply Z.pow_le_mono_r; lia. }
  change 0x80000000 with (2 ^ 31). apply Z.bits_inj'. intros n Hn. rewrite <- Z.shiftl_mul_pow2 by lia. rewrite Z.land_spec, Z.lor_spec, Z.pow2_bits_eqb, !Z.shiftl_spec by lia.
  destruct (Z.eqb_spec 31 n) as [<- | N].
  - rewrite andb_true_r. replace (Z.testbit (a32 u) 31) with false; [apply orb_false_r|]. symmetry. destruct (Z.eq_dec (a32 u) 0) as [-> | ]; [apply Z.bits_0|]. apply Z.bits_above_log2; [lia|]. apply Z.log2_lt_pow2; lia.
  - rewrite andb_false_r. symmetry. destruct (Z.lt_ge_cases n 31); [apply Z.testbit_neg_r; lia|]. destruct b; [|apply Z.bits_0]. apply Z.bits_above_log2; [cbn; lia|]. cbn [bs]. cbn. lia.
Qed.
Lemma cbrtf_1_tot x ui h : exists r, rs_cbrtf_1 x ui h = Some r /\ isbits f32 r.
Proof. eexists. split; [reflexivity|apply fcvt_isbits]. Qed.
Lemma third_ok a : 0 <= a < 2 ^ 31 -> 0 <= a / 3 <= 715827882.
Proof. intros H. split; [apply Z.div_pos; lia|]. apply Z.lt_succ_r. apply Z.div_lt_upper_bound; lia. Qed.
Lemma cbrtf_tot : total1 f32 f32 rs_cbrtf.
Proof.
  intros x B. unfold rs_cbrtf. cbv zeta. words32 x B. pose proof (bits32 x B) as [_ R]. pose proof (third_ok _ R).
  pose proof (bits32 (x *' 0x4b800000) (fmul_isbits f32 _ _)) as [_ R']. rewrite ?land_a32. pose proof (third_ok _ R').
  unfold rs_cbrtf_B1, rs_cbrtf_B2. rewrite !uadd_ok by lia. walk; apply cbrtf_1_tot.
Qed.
Lemma cbrtf_odd : odd_core f32 rs_cbrtf.
Proof.
  apply odd_pos; [exact cbrtf_tot|]. start32 rs_cbrtf x B Nx. intros S.
  pose proof (bits32 x B) as [_ R]. pose proof (third_ok _ R) as T.
  assert (P : rel f32 true true (x *' 0x4b800000) (fneg f32 x *' 0x4b800000)) by sym.
  rewrite ?land_a32. unfold rs_cbrtf_B1, rs_cbrtf_B2.
  repeat sif.
  - apply some_rel. refine (proj1 (pr_add f32 true _ _ _ _ _ _)); apply pr_neg; auto; now right.
  - someok.
  - zb. assert (I : IN f32 (0, 0x800000) x) by (apply IN_pos32; [exact B|exact S|lia|lia|lia]).
    ivl f32 (x *' 0x4b800000) K. apply IN_fin in K. apply finite_not_nan in K.
    pose proof (rel_eq _ _ _ _ P K) as E. cbn [xorb] in E. rewrite E. pose proof (fmul_isbits f32 x 0x4b800000) as Bm.
    rewrite (a32_fneg _ Bm). pose proof (bits32 _ Bm) as [_ R']. pose proof (third_ok _ R').
    rewrite uadd_ok by lia. cbn [bind]. apply cbrtf_1_odd; try assumption; [lia| |].
    + rewrite land_sign32 by exact Bm. destruct (pos_fmul f32 x 0x4b800000) as [Q | Q]; [exact B|isb|now right|right; vm_compute; reflexivity|rewrite Q in K; discriminate|]. rewrite Q. reflexivity.
    + rewrite land_sign32 by (apply fneg_bits; exact Bm). rewrite sign_fneg by exact Bm.
      destruct (pos_fmul f32 x 0x4b800000) as [Q | Q]; [exact B|isb|now right|right; vm_compute; reflexivity|rewrite Q in K; discriminate|]. rewrite Q. reflexivity.
  - rewrite uadd_ok by lia. cbn [bind]. apply cbrtf_1_odd; try assumption; [lia| |].
    + rewrite land_sign32, S by exact B. reflexivity.
    + rewrite land_sign32, sign_fneg, S by assumption. reflexivity.
Qed.

(** Odd and even elementary functions whose result is a correction added to the argument. *)
From Coq Require Import ZArith Reals Lia Lra Bool List.
From Flocq Require Import Core.
From Verif Require Import Base Spec SpecFun SpecSym Format P_format Ieee P_ieee P_real P_neg M_basic M_elib M_scalbn M_sqrt M_exp M_log M_atrig M_erf M_pow M_bessel
  P_lit P_dom P_elem P_elem2 P_ival P_ival2 P_tot P_exp P_log P_nan P_atrig P_erf P_sym P_sym2.
Import ListNotations.
Open Scope Z_scope.
Open Scope fl_scope.

Lemma rel_fin F z s x x' : rel F z s x x' -> finite F x = true -> finite F x' = true /\ val F x' = sval s (val F x) /\ (z = true -> signbit F x' = xorb s (signbit F x)).
Proof.
  intros (B & B' & [[A _] | [(A & _) | (_ & A)]]) Fx; [| |exact A].
  - rewrite (finite_not_nan F x Fx) in A. discriminate.
  - rewrite (finite_not_inf F x Fx) in A. discriminate.
Qed.
(** addition and subtraction keep the sign of zero when the exact result is not zero, or when the two operands agree in sign *)
Lemma rel_fadd_strict F z s x x' y y' : rel F z s x x' -> rel F z s y y' -> finite F x = true -> finite F y = true ->
  ((val F x + val F y)%R = 0%R -> z = true /\ signbit F x = signbit F y) -> rel F true s (fadd F x y) (fadd F x' y').
Proof.
  intros Rx Ry Fx Fy H. destruct (rel_fin _ _ _ _ _ Rx Fx) as (A2 & A3 & A4). destruct (rel_fin _ _ _ _ _ Ry Fy) as (C2 & C3 & C4).
  eapply rounds_rel; [now apply fadd_spec|rewrite <- sval_add, <- A3, <- C3; now apply fadd_spec|].
  intros _ E. destruct (H E) as [Z S]. rewrite A4, C4, S by exact Z. now destruct s, (signbit F y).
Qed.
Lemma rel_fsub_strict F z s x x' y y' : rel F z s x x' -> rel F z s y y' -> finite F x = true -> finite F y = true ->
  ((val F x - val F y)%R = 0%R -> z = true /\ signbit F x = negb (signbit F y)) -> rel F true s (fsub F x y) (fsub F x' y').
Proof.
  intros Rx Ry Fx Fy H. destruct (rel_fin _ _ _ _ _ Rx Fx) as (A2 & A3 & A4). destruct (rel_fin _ _ _ _ _ Ry Fy) as (C2 & C3 & C4).
  eapply rounds_rel; [now apply fsub_spec|rewrite <- sval_sub, <- A3, <- C3; now apply fsub_spec|].
  intros _ E. destruct (H E) as [Z S]. rewrite A4, C4, S by exact Z. now destruct s, (signbit F y).
Qed.
Lemma rnd_twice F r : (Rabs (rnd F r) <= 2 * Rabs r)%R.
Proof.
  assert (H : (Rabs (rnd F r - r) <= Rabs (0 - r))%R).
  { unfold rnd. apply round_N_pt; [apply fmt_valid_exp|apply generic_format_0]. }
  replace (0 - r)%R with (- r)%R in H by ring. rewrite Rabs_Ropp in H.
  replace (rnd F r) with ((rnd F r - r) + r)%R by ring. eapply Rle_trans; [apply Rabs_triang|]. lra.
Qed.
(** a product by a factor smaller than one half is smaller than the argument *)
Lemma half_mul F x y : finite F x = true -> finite F y = true -> val F x <> 0%R -> (Rabs (val F y) < / 2)%R ->
  finite F (fmul F x y) = true /\ (Rabs (val F (fmul F x y)) < Rabs (val F x))%R.
Proof.
  intros Fx Fy Nx Hy. destruct (fmul_spec F x y Fx Fy) as [_ H].
  assert (L : (Rabs (rnd F (val F x * val F y)) < Rabs (val F x))%R).
  { eapply Rle_lt_trans; [apply rnd_twice|]. rewrite Rabs_mult. pose proof (Rabs_pos_lt _ Nx). nra. }
  rewrite Rlt_bool_true in H by (eapply Rlt_trans; [exact L|now apply val_lt_emax]).
  destruct H as (H1 & H2 & _). rewrite H2. now split.
Qed.
Lemma rel_xpxy F x x' y y' : rel F true true x x' -> rel F true false y y' -> finite F x = true -> val F x <> 0%R -> finite F y = true -> (Rabs (val F y) < / 2)%R ->
  rel F true true (fadd F x (fmul F x y)) (fadd F x' (fmul F x' y')).
Proof.
  intros Rx Ry Fx Nx Fy Hy. destruct (half_mul F x y Fx Fy Nx Hy) as [G L].
  apply (rel_fadd_strict F true); [exact Rx|apply (rel_fmul F true true false x x' y y' Rx Ry)|exact Fx|exact G|].
  intros E. exfalso. replace (val F (fmul F x y)) with (- val F x)%R in L by lra. rewrite Rabs_Ropp in L. lra.
Qed.
Lemma rel_xmxy F x x' y y' : rel F true true x x' -> rel F true false y y' -> finite F x = true -> val F x <> 0%R -> finite F y = true -> (Rabs (val F y) < / 2)%R ->
  rel F true true (fsub F x (fmul F x y)) (fsub F x' (fmul F x' y')).
Proof.
  intros Rx Ry Fx Nx Fy Hy. destruct (half_mul F x y Fx Fy Nx Hy) as [G L].
  apply (rel_fsub_strict F true); [exact Rx|apply (rel_fmul F true true false x x' y y' Rx Ry)|exact Fx|exact G|].
  intros E. exfalso. replace (val F (fmul F x y)) with (val F x)%R in L by lra. lra.
Qed.
Lemma fneg_invol F x : fneg F (fneg F x) = x.
Proof. unfold fneg. now rewrite Z.lxor_assoc, Z.lxor_nilpotent, Z.lxor_0_r. Qed.
Lemma nan_fneg F x : isbits F x -> isnan F (fneg F x) = isnan F x.
Proof. intros B. pose proof (rel_nan _ _ _ _ _ (rel_fneg F true x B)). congruence. Qed.
(** it is enough to look at positive arguments *)
Lemma odd_pos F f : total1 F F f -> (forall x r, isbits F x -> isnan F x = false -> signbit F x = false -> f x = Some r -> exists r', f (fneg F x) = Some r' /\ rel F true true r r') -> odd_core F f.
Proof.
  intros T H x r B N E. destruct (signbit F x) eqn:S; [|now apply H].
  pose proof (fneg_bits F x B) as B'. destruct (T _ B') as (q & Eq & _). exists q. split; [exact Eq|].
  destruct (H (fneg F x) q B') as (r' & E' & R); [now rewrite nan_fneg|now rewrite sign_fneg, S by exact B|exact Eq|].
  rewrite fneg_invol in E'. rewrite E in E'. injection E' as <-. now apply rel_sym in R.
Qed.
Lemma IN_fin F p x : IN F p x -> finite F x = true. Proof. intros (_ & H & _). exact H. Qed.
Lemma half64 : val f64 0x3fdc000000000000 = (7 / 16)%R. Proof. lit. Qed.
Lemma mhalf64 : val f64 0xbfdc000000000000 = (-7 / 16)%R. Proof. lit. Qed.
Lemma half32 : val f32 0x3ee00000 = (7 / 16)%R. Proof. lit. Qed.
Lemma mhalf32 : val f32 0xbee00000 = (-7 / 16)%R. Proof. lit. Qed.
Lemma IN_half64 y : IN f64 (0xbfdc000000000000, 0x3fdc000000000000) y -> finite f64 y = true /\ (Rabs (val f64 y) < / 2)%R.
Proof. intros (_ & H & L). cbn [fst snd] in L. rewrite half64, mhalf64 in L. split; [exact H|]. apply Rabs_def1; lra. Qed.
Lemma IN_half32 y : IN f32 (0xbee00000, 0x3ee00000) y -> finite f32 y = true /\ (Rabs (val f32 y) < / 2)%R.
Proof. intros (_ & H & L). cbn [fst snd] in L. rewrite half32, mhalf32 in L. split; [exact H|]. apply Rabs_def1; lra. Qed.
Lemma IN_nz F lo hi x : IN F (lo, hi) x -> finite F lo && flt F 0 lo = true -> val F x <> 0%R.
Proof.
  intros (_ & _ & L & _) H. cbn [fst] in L. apply andb_prop in H as [H1 H2]. apply flt_spec in H2 as (_ & _ & H2). destruct (zero_ok F) as (_ & Z1 & Z2). rewrite Z1, Z2, H1 in H2. lra.
Qed.
Ltac strict F IX := 
  apply some_rel; first [apply (rel_xpxy F)|apply (rel_xmxy F)]; [sym|sym|exact (IN_fin _ _ _ IX)|apply (IN_nz _ _ _ _ IX); vm_compute; reflexivity| |];
  lazymatch F with f64 => apply IN_half64 | f32 => apply IN_half32 end;
  lazymatch goal with |- IN _ _ ?e => let K := fresh "K" in ivl F e K; inw K end.
Lemma fabs64 x : fabs f64 x = a64 x.
Proof. unfold fabs. change (unot (BITS f64) (SIGN_MASK f64)) with 0x7fffffffffffffff. apply land_a64. Qed.
Lemma fabs32 x : fabs f32 x = a32 x.
Proof. unfold fabs. change (unot (BITS f32) (SIGN_MASK f32)) with 0x7fffffff. apply land_a32. Qed.
Lemma fabs_fneg64 x : isbits f64 x -> fabs f64 (fneg f64 x) = fabs f64 x.
Proof. intros B. now rewrite !fabs64, a64_fneg. Qed.
Lemma fabs_fneg32 x : isbits f32 x -> fabs f32 (fneg f32 x) = fabs f32 x.
Proof. intros B. now rewrite !fabs32, a32_fneg. Qed.
Lemma erf_erfc2_fneg ix x : isbits f64 x -> rs_erf_erfc2 ix (fneg f64 x) = rs_erf_erfc2 ix x.
Proof. intros B. unfold rs_erf_erfc2, rs_erf_erfc1. now rewrite (fabs_fneg64 x B). Qed.
Lemma erff_erfc2_fneg ix x : isbits f32 x -> rs_erff_erfc2 ix (fneg f32 x) = rs_erff_erfc2 ix x.
Proof. intros B. unfold rs_erff_erfc2, rs_erff_erfc1. now rewrite (fabs_fneg32 x B). Qed.
Lemma fmul_pos F x y : finite F x = true -> finite F y = true -> signbit F x = false -> signbit F y = false -> signbit F (fmul F x y) = false.
Proof.
  intros Fx Fy Sx Sy. destruct (fmul_spec F x y Fx Fy) as [_ H]. pose proof (val_sign_nonneg F x Sx). pose proof (val_sign_nonneg F y Sy).
  assert (0 <= val F x * val F y)%R by nra. destruct (Rlt_bool (Rabs _) _).
  - destruct H as (_ & _ & H). rewrite H, Sx, Sy. destruct (Rcompare_spec (val F x * val F y) 0); [lra|reflexivity|reflexivity].
  - rewrite H, Rlt_bool_false by lra. apply infinity_fields.
Qed.
(** two products of a nonnegative number by positive constants add up symmetrically *)
Lemma rel_sum_pos F a b x x' : rel F true true x x' -> isbits F a -> isbits F b -> finite F a = true -> finite F b = true -> signbit F a = false -> signbit F b = false -> signbit F x = false -> finite F x = true ->
  finite F (fmul F a x) = true -> finite F (fmul F b x) = true -> rel F true true (fadd F (fmul F a x) (fmul F b x)) (fadd F (fmul F a x') (fmul F b x')).
Proof.
  intros R Ba Bb Fa Fb Sa Sb Sx Fx P1 P2.
  apply (rel_fadd_strict F true true); [exact (rel_fmul F true false true a a x x' (rel_refl F true a Ba) R)|exact (rel_fmul F true false true b b x x' (rel_refl F true b Bb) R)|exact P1|exact P2|].
  intros _. split; [reflexivity|]. now rewrite !fmul_pos.
Qed.
Lemma isinf64 x : isbits f64 x -> isnan f64 x = false -> signbit f64 x = false -> 0x7ff00000 <= a64 x / 2 ^ 32 -> x = 0x7ff0000000000000.
Proof.
  intros B N S H. destruct (bits64 x B) as [E L]. rewrite S in E. cbn [bs] in E. rewrite (nan64 x B) in N. apply Z.ltb_ge in N. pose proof (Z.mul_div_le (a64 x) (2 ^ 32)). lia.
Qed.
Lemma isinf32 x : isbits f32 x -> isnan f32 x = false -> signbit f32 x = false -> 0x7f800000 <= a32 x -> x = 0x7f800000.
Proof.
  intros B N S H. destruct (bits32 x B) as [E L]. rewrite S in E. cbn [bs] in E. rewrite (nan32 x B) in N. apply Z.ltb_ge in N. lia.
Qed.
Lemma hi_lt x c : a64 x / 2 ^ 32 < c -> a64 x <= c * 2 ^ 32 - 1.
Proof. intros H. pose proof (Z.mul_succ_div_gt (a64 x) (2 ^ 32)). nia. Qed.
Lemma hi_ge x c : c <= a64 x / 2 ^ 32 -> c * 2 ^ 32 <= a64 x.
Proof. intros H. pose proof (Z.mul_div_le (a64 x) (2 ^ 32)). nia. Qed.
Ltac zb := repeat match goal with H : (_ <? _) = true |- _ => apply Z.ltb_lt in H | H : (_ <? _) = false |- _ => apply Z.ltb_ge in H
  | H : (_ <=? _) = true |- _ => apply Z.leb_le in H | H : (_ <=? _) = false |- _ => apply Z.leb_gt in H end.
Ltac hi64 := zb; repeat match goal with H : a64 _ / 2 ^ 32 < _ |- _ => apply hi_lt in H | H : _ <= a64 _ / 2 ^ 32 |- _ => apply hi_ge in H end.
Ltac conc := lazymatch goal with |- Some ?a = Some ?r -> exists r', Some ?b = Some r' /\ rel ?F ?z ?s ?r r' =>
  apply some_rel; let a' := eval vm_compute in a in let b' := eval vm_compute in b in
  replace a with a' by (vm_compute; reflexivity); replace b with b' by (vm_compute; reflexivity); apply relc; [isb|vm_compute; reflexivity] end.
Ltac tiny F S I := apply some_rel; 
  lazymatch goal with |- rel _ _ _ (fmul _ _ (fadd _ (fmul _ ?a ?x) (fmul _ ?b ?x))) (fmul _ _ (fadd _ (fmul _ ?a ?x') (fmul _ ?b ?x'))) =>
    let K := fresh "K" in let L := fresh "L" in
    assert (K : finite F (fmul F a x) = true) by (let M := fresh in ivl F (fmul F a x) M; exact (IN_fin _ _ _ M));
    assert (L : finite F (fmul F b x) = true) by (let M := fresh in ivl F (fmul F b x) M; exact (IN_fin _ _ _ M));
    let R := fresh "R" in
    assert (R : rel F true true (fadd F (fmul F a x) (fmul F b x)) (fadd F (fmul F a x') (fmul F b x'))) by
      (apply rel_sum_pos; [sym|isb|isb|vm_compute; reflexivity|vm_compute; reflexivity|vm_compute; reflexivity|vm_compute; reflexivity|exact S|exact (IN_fin _ _ _ I)|exact K|exact L]);
    sym end.
Lemma erf_odd : odd_core f64 rs_erf.
Proof.
  apply odd_pos; [exact erf_tot|]. start64 rs_erf x B Nx. rewrite (erf_erfc2_fneg _ x B). intros S. rewrite S; cbn [negb bs]. change (1 =? 0) with false; change (0 =? 0) with true; cbn [negb].
  repeat first [progress sif|sbind].
  all: try someok.
  - zb. rewrite (isinf64 x B Nx S) by assumption. conc.
  - hi64. assert (I : IN f64 (0, 0x3e30000000000000) x) by (apply IN_pos64; [exact B|exact S|lia|pose proof (bits64 x B); lia|lia]).
    tiny f64 S I.
  - hi64. assert (I : IN f64 (0x3e30000000000000, 0x3feb000000000000) x) by (apply IN_pos64; [exact B|exact S|lia|lia|lia]).
    strict f64 I.
Qed.
Lemma erff_odd : odd_core f32 rs_erff.
Proof.
  apply odd_pos; [exact erff_tot|]. start32 rs_erff x B Nx. rewrite (erff_erfc2_fneg _ x B). intros S. rewrite S; cbn [negb bs]. change (1 =? 0) with false; change (0 =? 0) with true; cbn [negb].
  repeat first [progress sif|sbind].
  all: try someok.
  - zb. rewrite (isinf32 x B Nx S) by assumption. conc.
  - zb. assert (I : IN f32 (0, 0x31800000) x) by (apply IN_pos32; [exact B|exact S|lia|pose proof (bits32 x B); lia|lia]).
    tiny f32 S I.
  - zb. assert (I : IN f32 (0x31800000, 0x3f580000) x) by (apply IN_pos32; [exact B|exact S|lia|lia|lia]).
    strict f32 I.
Qed.
Lemma fin_or_inf F x : isnan F x = false -> finite F x = true \/ isinf F x = true.
Proof. intros N. destruct (class_cases F x) as [(H & _) | [(_ & H & _) | (_ & _ & H)]]; [now left|now right|congruence]. Qed.
Lemma sub_self_nan F x : (F = f64 \/ F = f32) -> isbits F x -> isnan F x = false -> isnan F (fdiv F 0 (fsub F x x)) = true.
Proof.
  intros HF B N. destruct (fin_or_inf F x N) as [Fx | I].
  - rewrite (fsub_self F x Fx). destruct HF as [-> | ->]; vm_compute; reflexivity.
  - apply fdiv_nan. pose proof (fsub_inf_inf F x x I I) as H. destruct (signbit F x); cbn [Bool.eqb negb] in H; rewrite H; apply orb_true_r.
Qed.
Lemma fneg_some F a r : isbits F a -> Some a = Some r -> exists r', Some (fneg F a) = Some r' /\ rel F true true r r'.
Proof. intros B. apply some_rel. now apply rel_fneg. Qed.
Lemma dom_rel F x x' r : (F = f64 \/ F = f32) -> isbits F x -> isbits F x' -> isnan F x = false -> isnan F x' = false ->
  Some (fdiv F 0 (fsub F x x)) = Some r -> exists r', Some (fdiv F 0 (fsub F x' x')) = Some r' /\ rel F true true r r'.
Proof. intros HF B B' N N'. apply some_rel. apply rel_both_nan; [apply fdiv_isbits|apply fdiv_isbits|now apply sub_self_nan|now apply sub_self_nan]. Qed.
Lemma lw_fneg x : isbits f64 x -> get_low_word (fneg f64 x) = get_low_word x.
Proof. intros B. destruct (lw64 x B) as [E _]. destruct (lw64 _ (fneg_bits f64 x B)) as [E' _]. rewrite a64_fneg in E' by exact B. lia. Qed.
Lemma asin_odd : odd_core f64 rs_asin.
Proof.
  apply odd_pos; [exact asin_tot|]. start64 rs_asin x B Nx. rewrite ?(fabs_fneg64 x B), ?(lw_fneg x B). intros S. rewrite S; cbn [negb bs]. rewrite ?Z.eqb_refl. change (1 =? 0) with false; cbn [negb].
  pose proof (nan_fneg f64 x B) as Nx'. rewrite Nx in Nx'.
  repeat first [progress sif|sbind].
  all: try someok.
  - zb. rewrite usub_ok in Heqo by (pose proof (a64_hi x B); lia). injection Heqo as <-. destruct (lw64 x B) as [L L'].
    rewrite lor_eq0 in Heqb0 by lia. apply andb_prop in Heqb0 as [H1 H2]. apply Z.eqb_eq in H1. apply Z.eqb_eq in H2.
    assert (E : x = 0x3ff0000000000000) by (destruct (bits64 x B) as [E _]; rewrite S in E; cbn [bs] in E; lia). rewrite E. conc.
  - apply dom_rel; auto.
  - hi64. destruct (Z.eq_dec (a64 x) 0) as [E | E].
    + assert (E0 : x = 0) by (destruct (bits64 x B) as [E0 _]; rewrite S in E0; cbn [bs] in E0; lia). rewrite E0. conc.
    + assert (I : IN f64 (1, 0x3fe0000000000000) x) by (apply IN_pos64; [exact B|exact S|lia|pose proof (bits64 x B); lia|lia]).
      unfold rs_asin_comp_r. cbv zeta. strict f64 I.
  - apply fneg_some. lazymatch goal with |- isbits _ (if ?b then _ else _) => destruct b end; isb.
Qed.
Lemma asinf_odd : odd_core f32 rs_asinf.
Proof.
  apply odd_pos; [exact asinf_tot|]. start32 rs_asinf x B Nx. rewrite ?(fabs_fneg32 x B). intros S. rewrite S; cbn [negb bs]. rewrite ?Z.eqb_refl. change (1 =? 0) with false; cbn [negb].
  pose proof (nan_fneg f32 x B) as Nx'. rewrite Nx in Nx'.
  repeat first [progress sif|sbind].
  all: try someok.
  - zb. apply Z.eqb_eq in Heqb0. assert (E : x = 0x3f800000) by (destruct (bits32 x B) as [E _]; rewrite S in E; cbn [bs] in E; lia). rewrite E. conc.
  - apply dom_rel; auto.
  - zb. destruct (Z.eq_dec (a32 x) 0) as [E | E].
    + assert (E0 : x = 0) by (destruct (bits32 x B) as [E0 _]; rewrite S in E0; cbn [bs] in E0; lia). rewrite E0. conc.
    + assert (I : IN f32 (1, 0x3f000000) x) by (apply IN_pos32; [exact B|exact S|lia|pose proof (bits32 x B); lia|lia]).
      unfold rs_asinf_r. cbv zeta. strict f32 I.
Qed.
Ltac gif := lazymatch goal with |- context [if ?b then _ else _] => destruct b end; cbv beta iota.
Lemma atan_1_sign y id r : 0 <= id -> rs_atan_1 y 0 id = Some r -> exists r', rs_atan_1 y 1 id = Some r' /\ rel f64 true true r r'.
Proof.
  intros H. unfold rs_atan_1. replace (id <? 0) with false by (symmetry; apply Z.ltb_ge; exact H). cbv zeta. change (1 =? 0) with false. change (0 =? 0) with true. cbn [negb].
  sbind. sbind. apply fneg_some. isb.
Qed.
Lemma atanf_1_sign y id r : 0 <= id -> rs_atanf_1 y false id = Some r -> exists r', rs_atanf_1 y true id = Some r' /\ rel f32 true true r r'.
Proof.
  intros H. unfold rs_atanf_1. replace (id <? 0) with false by (symmetry; apply Z.ltb_ge; exact H). cbv zeta.
  sbind. sbind. apply fneg_some. isb.
Qed.
Lemma atan_odd : odd_core f64 rs_atan.
Proof.
  apply odd_pos; [exact atan_tot|]. start64 rs_atan x B Nx. rewrite ?(fabs_fneg64 x B), (is_nan_eq f64 x B), (is_nan_eq f64 (fneg f64 x) B'), (nan_fneg f64 x B), Nx. intros S. rewrite S; cbn [negb bs]. rewrite ?Z.eqb_refl. change (1 =? 0) with false; cbn [negb].
  repeat first [progress sif|sbind].
  all: try someok.
  - hi64. assert (I : IN f64 (0x3e40000000000000, 0x3fdc000000000000) x) by (apply IN_pos64; [exact B|exact S|lia|lia|lia]).
    unfold rs_atan_1. change (-1 <? 0) with true. cbv zeta iota. cbn [nth rs_atan_AT]. strict f64 I.
  - gif; gif; apply atan_1_sign; lia.
Qed.
Lemma atanf_odd : odd_core f32 rs_atanf.
Proof.
  apply odd_pos; [exact atanf_tot|]. start32 rs_atanf x B Nx. rewrite ?(fabs_fneg32 x B), (is_nan_eq f32 x B), (is_nan_eq f32 (fneg f32 x) B'), (nan_fneg f32 x B), Nx. intros S. rewrite S; cbn [negb bs]. rewrite ?Z.eqb_refl. change (1 =? 0) with false; cbn [negb].
  repeat first [progress sif|sbind].
  all: try someok.
  - zb. assert (I : IN f32 (0x39800000, 0x3ee00000) x) by (apply IN_pos32; [exact B|exact S|lia|lia|lia]).
    unfold rs_atanf_1. change (-1 <? 0) with true. cbv zeta iota. cbn [nth rs_atanf_A_T]. strict f32 I.
  - gif; gif; apply atanf_1_sign; lia.
Qed.

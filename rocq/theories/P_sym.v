(** Sign symmetry of the IEEE operations: [rel F z s x y] says that [y] is [x] ([s = false]) or its negation ([s = true]), where
    NaNs are not distinguished and, when [z = false], neither are the two zeros. *)
From Coq Require Import ZArith Reals Lia Lra Bool.
From Flocq Require Import Core.
From Flocq Require Binary Bits.
From Verif Require Import Base Spec SpecFun Format P_format Ieee P_ieee P_real P_neg M_basic.
From Verif Require P_fma4.
Open Scope Z_scope.

Definition rel (F : fmt) (z s : bool) (x y : Z) : Prop :=
  isbits F x /\ isbits F y /\
  ((isnan F x = true /\ isnan F y = true) \/
   (isinf F x = true /\ isinf F y = true /\ signbit F y = xorb s (signbit F x)) \/
   (finite F x = true /\ finite F y = true /\ val F y = sval s (val F x) /\ (z = true -> signbit F y = xorb s (signbit F x)))).

Lemma sval_0 s : sval s 0 = 0%R. Proof. destruct s; cbn; lra. Qed.
Lemma sval_eq0 s r : sval s r = 0%R -> r = 0%R. Proof. destruct s; cbn; lra. Qed.
Lemma sval_sval s t r : sval s (sval t r) = sval (xorb s t) r. Proof. destruct s, t; cbn; lra. Qed.
Lemma sval_mul s t a b : (sval s a * sval t b = sval (xorb s t) (a * b))%R. Proof. destruct s, t; cbn; lra. Qed.
Lemma sval_add s a b : (sval s a + sval s b = sval s (a + b))%R. Proof. destruct s; cbn; lra. Qed.
Lemma sval_sub s a b : (sval s a - sval s b = sval s (a - b))%R. Proof. destruct s; cbn; lra. Qed.
Lemma rnd_sval F s r : rnd F (sval s r) = sval s (rnd F r). Proof. destruct s; cbn; [apply rnd_opp|reflexivity]. Qed.
Lemma abs_sval s r : Rabs (sval s r) = Rabs r. Proof. destruct s; cbn; [apply Rabs_Ropp|reflexivity]. Qed.
Lemma cmp_sval s r : r <> 0%R -> Rcompare (sval s r) 0 = if s then CompOpp (Rcompare r 0) else Rcompare r 0.
Proof. intros H. destruct s; cbn; [|reflexivity]. rewrite <- Ropp_0 at 1. rewrite Rcompare_opp. apply Rcompare_sym. Qed.

Lemma fin_sign F s x y : isbits F x -> finite F x = true -> val F x <> 0%R -> val F y = sval s (val F x) -> signbit F y = xorb s (signbit F x).
Proof.
  intros B Fx N E. destruct (Rtotal_order (val F x) 0) as [H | [H | H]]; [|contradiction|].
  - rewrite (val_neg_sign F x H). destruct s; cbn in *; [apply val_pos_sign|apply val_neg_sign]; lra.
  - rewrite (val_pos_sign F x) by lra. destruct s; cbn in *; [apply val_neg_sign|apply val_pos_sign]; lra.
Qed.
Lemma fin_zero F s x y : isbits F x -> isbits F y -> finite F x = true -> finite F y = true -> val F y = sval s (val F x) -> iszero F y = iszero F x.
Proof.
  intros Bx By Fx Fy E. destruct (iszero F x) eqn:Z.
  - apply val_eq_0; [exact By|exact Fy|]. rewrite E, (iszero_val F x Z). apply sval_0.
  - destruct (iszero F y) eqn:Z'; [|reflexivity]. rewrite (iszero_val F y Z') in E. symmetry in E. apply sval_eq0 in E.
    rewrite (val_eq_0 F x Bx Fx E) in Z. discriminate.
Qed.

(** ** Basic facts *)
Lemma rel_weaken F z s x y : rel F z s x y -> rel F false s x y.
Proof. intros (B & B' & H). split; [exact B|split; [exact B'|]]. destruct H as [H | [H | (H1 & H2 & H3 & _)]]; auto. right; right. repeat split; auto. discriminate. Qed.
Lemma rel_refl F z x : isbits F x -> rel F z false x x.
Proof. intros B. split; [exact B|split; [exact B|]]. destruct (class_cases F x) as [(H & _ & _) | [(_ & H & _) | (_ & _ & H)]]; rewrite H, xorb_false_l; cbn [sval]; tauto. Qed.
Lemma rel_fneg F z x : isbits F x -> rel F z true x (fneg F x).
Proof.
  intros B. destruct (fneg_fields F x B) as (B' & S & _). split; [exact B|split; [exact B'|]].
  rewrite fneg_nan, fneg_inf, fneg_finite, fneg_val, S by exact B.
  destruct (class_cases F x) as [(H & _ & _) | [(_ & H & _) | (_ & _ & H)]]; rewrite H; cbn [sval]; try (replace (xorb true (signbit F x)) with (negb (signbit F x)) by now destruct (signbit F x)); tauto.
Qed.
Lemma rel_fneg2 F z s x y : rel F z s x y -> rel F z (negb s) x (fneg F y).
Proof.
  intros (B & B' & H). destruct (fneg_fields F y B') as (B2 & S & _). split; [exact B|split; [exact B2|]].
  rewrite fneg_nan, fneg_inf, fneg_finite, fneg_val, S by exact B'.
  destruct H as [H | [(H1 & H2 & ->) | (H1 & H2 & H3 & H4)]]; [tauto| |].
  - right; left. repeat split; auto. now destruct s, (signbit F x).
  - right; right. repeat split; auto; [rewrite H3; destruct s; cbn; lra|]. intros Z. rewrite H4 by exact Z. now destruct s, (signbit F x).
Qed.
Lemma rel_sym F z s x y : rel F z s x y -> rel F z s y x.
Proof.
  intros (B & B' & H). split; [exact B'|split; [exact B|]]. destruct H as [H | [(H1 & H2 & H3) | (H1 & H2 & H3 & H4)]]; [tauto| |].
  - right; left. repeat split; auto. rewrite H3. now destruct s, (signbit F x).
  - right; right. repeat split; auto; [rewrite H3, sval_sval; now rewrite xorb_nilpotent|]. intros Z. rewrite H4 by exact Z. now destruct s, (signbit F x).
Qed.
Lemma rel_fneg1 F z s x y : rel F z s x y -> rel F z (negb s) (fneg F x) y.
Proof. intros H. apply rel_sym, rel_fneg2, rel_sym, H. Qed.
Lemma rel_fneg12 F z s x y : rel F z s x y -> rel F z s (fneg F x) (fneg F y).
Proof. intros H. rewrite <- (negb_involutive s). apply rel_fneg1, rel_fneg2, H. Qed.
(** The strict relation determines the pattern. *)
Lemma rel_eq F s x y : rel F true s x y -> isnan F x = false -> y = if s then fneg F x else x.
Proof.
  intros (B & B' & H) N. assert (E : forall x y, isbits F x -> isbits F y -> isnan F x = false -> rel F true false x y -> x = y).
  { clear. intros x y B B' N (_ & _ & [[H _] | [(H1 & H2 & H3) | (H1 & H2 & H3 & H4)]]); [congruence| |].
    - cbn in H3. rewrite <- (enc_dec F x B), <- (enc_dec F y B'), (dec_isinf F x H1), (dec_isinf F y H2). rewrite H3. now destruct (signbit F x).
    - cbn in *. apply (val_sign_inj F); auto. rewrite H4 by reflexivity. now destruct (signbit F x). }
  destruct s.
  - symmetry. apply E; [apply fneg_fields, B|exact B'|now rewrite fneg_nan|]. apply (rel_fneg1 F true true). split; [exact B|split; [exact B'|exact H]].
  - symmetry. apply E; [exact B|exact B'|exact N|split; [exact B|split; [exact B'|exact H]]].
Qed.
Lemma rel_nan F z s x y : rel F z s x y -> isnan F y = isnan F x.
Proof.
  intros (_ & _ & [[-> ->] | [(H1 & H2 & _) | (H1 & H2 & _)]]); [reflexivity| |].
  - destruct (class_cases F x) as [A | [A | A]], (class_cases F y) as [C | [C | C]]; intuition congruence.
  - now rewrite (finite_not_nan F x H1), (finite_not_nan F y H2).
Qed.
Lemma rel_strict F s x y : rel F false s x y -> (finite F x = true -> val F x <> 0%R) -> rel F true s x y.
Proof.
  intros (B & B' & H) N. split; [exact B|split; [exact B'|]]. destruct H as [H | [H | (H1 & H2 & H3 & _)]]; auto.
  right; right. repeat split; auto. intros _. apply fin_sign; auto.
Qed.
Lemma rel_bits F z s x y : rel F z s x y -> isbits F x /\ isbits F y.
Proof. intros (A & B & _). auto. Qed.

(** ** Operations *)
Lemma rounds_rel F z s r sz sz' y y' : rounds_to F r sz y -> rounds_to F (sval s r) sz' y' -> (z = true -> r = 0%R -> sz' = xorb s sz) -> rel F z s y y'.
Proof.
  intros [B H] [B' H'] Hz. split; [exact B|split; [exact B'|]]. rewrite rnd_sval, abs_sval in H'.
  destruct (Rlt_bool (Rabs (rnd F r)) _) eqn:E.
  - right; right. destruct H as (H1 & H2 & H3), H' as (H1' & H2' & H3'). split; [exact H1|split; [exact H1'|split]].
    + rewrite H2', H2. reflexivity.
    + intros Z. rewrite H3, H3'. destruct (Req_dec r 0) as [E0 | E0].
      * rewrite E0, sval_0, Rcompare_Eq by reflexivity. auto.
      * rewrite cmp_sval by exact E0. destruct (Rcompare_spec r 0); [|contradiction|]; destruct s; reflexivity.
  - right; left. subst y y'. destruct (infinity_fields F (Rlt_bool r 0)) as (_ & A & C & _). destruct (infinity_fields F (Rlt_bool (sval s r) 0)) as (_ & A' & C' & _).
    rewrite A, A', C, C'. split; [reflexivity|split; [reflexivity|]].
    assert (r <> 0%R) by (intros ->; rewrite rnd_0, Rabs_R0, Rlt_bool_true in E; [discriminate|apply bpow_gt_0]).
    unfold Rlt_bool. rewrite cmp_sval by assumption. destruct (Rcompare_spec r 0); [|contradiction|]; destruct s; reflexivity.
Qed.
Lemma rel_both_nan F z s x y : isbits F x -> isbits F y -> isnan F x = true -> isnan F y = true -> rel F z s x y.
Proof. intros. split; [assumption|split; [assumption|auto]]. Qed.
Lemma rel_infs F z s a b : b = xorb s a -> rel F z s (infinity F a) (infinity F b).
Proof.
  intros ->. destruct (infinity_fields F a) as (A1 & A2 & A3 & _). destruct (infinity_fields F (xorb s a)) as (B1 & B2 & B3 & _).
  split; [exact A1|split; [exact B1|]]. right; left. rewrite A3, B3. auto.
Qed.
Lemma rel_zeros F z s a b : b = xorb s a -> rel F z s (zero F a) (zero F b).
Proof.
  intros ->. destruct (zero_fields F a) as (A1 & A2 & A3 & A4). destruct (zero_fields F (xorb s a)) as (B1 & B2 & B3 & B4).
  split; [exact A1|split; [exact B1|]]. right; right. rewrite A3, B3. rewrite (iszero_val F _ A2), (iszero_val F _ B2), sval_0. auto.
Qed.
(** In either relation a nonzero finite number has the related sign. *)
Lemma rel_signs F z s x y : rel F z s x y -> isnan F x = false -> iszero F x = false -> signbit F y = xorb s (signbit F x).
Proof.
  intros (B & B' & [[H _] | [(_ & _ & H) | (H1 & H2 & H3 & _)]]) N Z; [congruence|exact H|].
  apply fin_sign; auto. intros E. rewrite (val_eq_0 F x B H1 E) in Z. discriminate.
Qed.
Lemma rel_iszero F z s x y : rel F z s x y -> iszero F y = iszero F x.
Proof.
  intros (B & B' & [[H H'] | [(H & H' & _) | (H1 & H2 & H3 & _)]]).
  - destruct (iszero F x) eqn:Z, (iszero F y) eqn:Z'; auto; [apply iszero_finite, finite_not_nan in Z|apply iszero_finite, finite_not_nan in Z']; congruence.
  - destruct (iszero F x) eqn:Z, (iszero F y) eqn:Z'; auto; [apply iszero_finite, finite_not_inf in Z|apply iszero_finite, finite_not_inf in Z']; congruence.
  - now apply (fin_zero F s).
Qed.

Lemma rel_fmul F z s t x x' y y' : rel F z s x x' -> rel F z t y y' -> rel F z (xorb s t) (fmul F x y) (fmul F x' y').
Proof.
  intros Rx Ry. pose proof (rel_iszero _ _ _ _ _ Rx) as Zx. pose proof (rel_iszero _ _ _ _ _ Ry) as Zy.
  pose proof (rel_nan _ _ _ _ _ Rx) as Nx. pose proof (rel_nan _ _ _ _ _ Ry) as Ny.
  pose proof (rel_signs _ _ _ _ _ Rx) as Sx. pose proof (rel_signs _ _ _ _ _ Ry) as Sy.
  destruct (isnan F x || isnan F y) eqn:N.
  { apply rel_both_nan; [apply fmul_isbits|apply fmul_isbits|now apply fmul_nan|apply fmul_nan; now rewrite Nx, Ny]. }
  apply orb_false_elim in N as [N1 N2]. rewrite N1 in Nx. rewrite N2 in Ny. specialize (Sx N1). specialize (Sy N2).
  destruct Rx as (Bx & Bx' & [[A _] | [(A1 & A2 & A3) | (A1 & A2 & A3 & A4)]]); [congruence| |].
  - destruct (iszero F y) eqn:ZY.
    + apply rel_both_nan; [apply fmul_isbits|apply fmul_isbits|..]; apply P_fma4.fmul_inf_zero; auto.
    + rewrite !fmul_inf_l by auto. apply rel_infs. rewrite A3, Sy by reflexivity. now destruct s, t, (signbit F x), (signbit F y).
  - destruct Ry as (By & By' & [[A _] | [(C1 & C2 & C3) | (C1 & C2 & C3 & C4)]]); [congruence| |].
    + destruct (iszero F x) eqn:ZX.
      * apply rel_both_nan; [apply fmul_isbits|apply fmul_isbits|..]; apply P_fma4.fmul_zero_inf; auto.
      * rewrite !P_fma4.fmul_inf_r by auto. apply rel_infs. rewrite C3, Sx by reflexivity. now destruct s, t, (signbit F x), (signbit F y).
    + eapply rounds_rel; [now apply fmul_spec|rewrite <- sval_mul, <- A3, <- C3; now apply fmul_spec|].
      intros E _. rewrite A4, C4 by exact E. now destruct s, t, (signbit F x), (signbit F y).
Qed.
Lemma rel_square F z s x x' : rel F z s x x' -> rel F true false (fmul F x x) (fmul F x' x').
Proof.
  intros Rx. pose proof Rx as Rx0. destruct Rx as (Bx & Bx' & [[A A'] | [(A1 & A2 & A3) | (A1 & A2 & A3 & A4)]]).
  - apply rel_both_nan; [apply fmul_isbits|apply fmul_isbits|..]; apply fmul_nan; now rewrite ?A, ?A'.
  - rewrite <- (xorb_nilpotent s). apply rel_fmul; (split; [exact Bx|split; [exact Bx'|auto]]).
  - eapply rounds_rel; [now apply fmul_spec| |].
    + replace (sval false (val F x * val F x))%R with (val F x' * val F x')%R by (rewrite A3, sval_mul, xorb_nilpotent; reflexivity). now apply fmul_spec.
    + intros _ _. now rewrite !xorb_nilpotent.
Qed.
Lemma fadd_inf_inf F x y : isinf F x = true -> isinf F y = true ->
  if Bool.eqb (signbit F x) (signbit F y) then fadd F x y = infinity F (signbit F x) else isnan F (fadd F x y) = true.
Proof. intros A B. unfold fadd. rewrite (dec_isinf F x A), (dec_isinf F y B). destruct (signbit F x), (signbit F y); cbn [Bool.eqb]; first [rewrite <- enc_inf; reflexivity|rewrite nan_enc; reflexivity]. Qed.
Lemma fsub_inf_inf F x y : isinf F x = true -> isinf F y = true ->
  if Bool.eqb (signbit F x) (negb (signbit F y)) then fsub F x y = infinity F (signbit F x) else isnan F (fsub F x y) = true.
Proof. intros A B. unfold fsub. rewrite (dec_isinf F x A), (dec_isinf F y B). destruct (signbit F x), (signbit F y); cbn [Bool.eqb negb]; first [rewrite <- enc_inf; reflexivity|rewrite nan_enc; reflexivity]. Qed.
Lemma fadd_inf_r F x y : finite F x = true -> isinf F y = true -> fadd F x y = infinity F (signbit F y).
Proof.
  intros Hx Hy. unfold fadd. rewrite (dec_isinf F y Hy). rewrite <- finite_dec in Hx.
  rewrite <- enc_inf. destruct (dec F x); try discriminate Hx; reflexivity.
Qed.
Lemma rel_fadd F z s x x' y y' : rel F z s x x' -> rel F z s y y' -> rel F (z && negb s) s (fadd F x y) (fadd F x' y').
Proof.
  intros Rx Ry. pose proof (rel_nan _ _ _ _ _ Rx) as Nx. pose proof (rel_nan _ _ _ _ _ Ry) as Ny.
  destruct (isnan F x || isnan F y) eqn:N.
  { apply rel_both_nan; [apply fadd_isbits|apply fadd_isbits|now apply fadd_nan|apply fadd_nan; now rewrite Nx, Ny]. }
  apply orb_false_elim in N as [N1 N2]. rewrite N1 in Nx. rewrite N2 in Ny.
  destruct Rx as (Bx & Bx' & [[A _] | [(A1 & A2 & A3) | (A1 & A2 & A3 & A4)]]); [congruence| |];
  destruct Ry as (By & By' & [[A _] | [(C1 & C2 & C3) | (C1 & C2 & C3 & C4)]]); try congruence.
  - pose proof (fadd_inf_inf F x y A1 C1) as I1. pose proof (fadd_inf_inf F x' y' A2 C2) as I2.
    replace (Bool.eqb (signbit F x') (signbit F y')) with (Bool.eqb (signbit F x) (signbit F y)) in I2 by (rewrite A3, C3; now destruct s, (signbit F x), (signbit F y)).
    destruct (Bool.eqb (signbit F x) (signbit F y)); [rewrite I1, I2; now apply rel_infs|apply rel_both_nan; auto using fadd_isbits].
  - rewrite !fadd_inf_l by auto. now apply rel_infs.
  - rewrite !fadd_inf_r by auto. now apply rel_infs.
  - eapply rounds_rel; [now apply fadd_spec|rewrite <- sval_add, <- A3, <- C3; now apply fadd_spec|].
    intros E _. apply andb_prop in E as [E1 E2]. rewrite A4, C4 by exact E1. destruct s; [discriminate|]. now destruct (signbit F x), (signbit F y).
Qed.
Lemma rel_fsub F z s x x' y y' : rel F z s x x' -> rel F z s y y' -> rel F (z && negb s) s (fsub F x y) (fsub F x' y').
Proof.
  intros Rx Ry. pose proof (rel_nan _ _ _ _ _ Rx) as Nx. pose proof (rel_nan _ _ _ _ _ Ry) as Ny.
  destruct (isnan F x || isnan F y) eqn:N.
  { apply rel_both_nan; [apply fsub_isbits|apply fsub_isbits|now apply fsub_nan|apply fsub_nan; now rewrite Nx, Ny]. }
  apply orb_false_elim in N as [N1 N2]. rewrite N1 in Nx. rewrite N2 in Ny.
  destruct Rx as (Bx & Bx' & [[A _] | [(A1 & A2 & A3) | (A1 & A2 & A3 & A4)]]); [congruence| |];
  destruct Ry as (By & By' & [[A _] | [(C1 & C2 & C3) | (C1 & C2 & C3 & C4)]]); try congruence.
  - pose proof (fsub_inf_inf F x y A1 C1) as I1. pose proof (fsub_inf_inf F x' y' A2 C2) as I2.
    replace (Bool.eqb (signbit F x') (negb (signbit F y'))) with (Bool.eqb (signbit F x) (negb (signbit F y))) in I2 by (rewrite A3, C3; now destruct s, (signbit F x), (signbit F y)).
    destruct (Bool.eqb (signbit F x) (negb (signbit F y))); [rewrite I1, I2; now apply rel_infs|apply rel_both_nan; auto using fsub_isbits].
  - rewrite !fsub_inf_l by auto. now apply rel_infs.
  - rewrite !fsub_inf_r by auto. apply rel_infs. rewrite C3. now destruct s, (signbit F y).
  - eapply rounds_rel; [now apply fsub_spec|rewrite <- sval_sub, <- A3, <- C3; now apply fsub_spec|].
    intros E _. apply andb_prop in E as [E1 E2]. rewrite A4, C4 by exact E1. destruct s; [discriminate|]. now destruct (signbit F x), (signbit F y).
Qed.
Lemma fdiv_zero F x y : isbits F x -> isnan F x = false -> iszero F x = false -> iszero F y = true -> fdiv F x y = infinity F (xorb (signbit F x) (signbit F y)).
Proof.
  intros B N Z Zy. unfold fdiv. rewrite (dec_iszero F y Zy). destruct (dec F x) as [a|a|a p H|a m e H] eqn:E.
  - exfalso. assert (iszero F x = true); [|congruence]. apply val_eq_0; [exact B|rewrite <- finite_dec, E; reflexivity|]. rewrite <- B2R_dec by (rewrite <- finite_dec, E; reflexivity). now rewrite E.
  - rewrite <- (sign_dec F x), E, <- enc_inf. reflexivity.
  - rewrite <- nan_dec, E in N. discriminate.
  - rewrite <- (sign_dec F x), E, <- enc_inf. reflexivity.
Qed.
Lemma fdiv_inf_l F x y : isinf F x = true -> finite F y = true -> fdiv F x y = infinity F (xorb (signbit F x) (signbit F y)).
Proof.
  intros Hx Hy. unfold fdiv. rewrite (dec_isinf F x Hx), <- (sign_dec F y). rewrite <- finite_dec in Hy.
  rewrite <- enc_inf. destruct (dec F y); try discriminate Hy; reflexivity.
Qed.
Lemma fdiv_inf_r F x y : finite F x = true -> isinf F y = true -> fdiv F x y = zero F (xorb (signbit F x) (signbit F y)).
Proof.
  intros Hx Hy. unfold fdiv. rewrite (dec_isinf F y Hy), <- (sign_dec F x). rewrite <- finite_dec in Hx.
  rewrite <- enc_zero. destruct (dec F x); try discriminate Hx; reflexivity.
Qed.
(** Division needs the sign of the divisor. *)
Lemma rel_fdiv F z s t x x' y y' : rel F z s x x' -> rel F true t y y' -> rel F z (xorb s t) (fdiv F x y) (fdiv F x' y').
Proof.
  intros Rx Ry. pose proof (rel_iszero _ _ _ _ _ Rx) as Zx. pose proof (rel_iszero _ _ _ _ _ Ry) as Zy.
  pose proof (rel_nan _ _ _ _ _ Rx) as Nx. pose proof (rel_nan _ _ _ _ _ Ry) as Ny.
  pose proof (rel_signs _ _ _ _ _ Rx) as Sx.
  destruct (isnan F x || isnan F y) eqn:N.
  { apply rel_both_nan; [apply fdiv_isbits|apply fdiv_isbits|now apply fdiv_nan|apply fdiv_nan; now rewrite Nx, Ny]. }
  apply orb_false_elim in N as [N1 N2]. rewrite N1 in Nx. rewrite N2 in Ny. specialize (Sx N1).
  destruct Rx as (Bx & Bx' & [[A _] | [(A1 & A2 & A3) | (A1 & A2 & A3 & A4)]]); [congruence| |];
  destruct Ry as (By & By' & [[A _] | [(C1 & C2 & C3) | (C1 & C2 & C3 & C4)]]); try congruence.
  - apply rel_both_nan; [apply fdiv_isbits|apply fdiv_isbits|..]; unfold fdiv; rewrite ?(dec_isinf F x A1), ?(dec_isinf F x' A2), ?(dec_isinf F y C1), ?(dec_isinf F y' C2), nan_enc; reflexivity.
  - rewrite !fdiv_inf_l by auto. apply rel_infs. rewrite A3, C4 by reflexivity. now destruct s, t, (signbit F x), (signbit F y).
  - rewrite !fdiv_inf_r by auto.
    assert (G : forall a b, (z = true -> b = xorb s a) -> rel F z (xorb s t) (zero F (xorb a (signbit F y))) (zero F (xorb b (signbit F y')))).
    { intros a b Hab. destruct z; [apply rel_zeros; rewrite Hab, C3 by reflexivity; now destruct s, t, a, (signbit F y)|].
      destruct (zero_fields F (xorb a (signbit F y))) as (Q1 & Q2 & _ & Q3). destruct (zero_fields F (xorb b (signbit F y'))) as (U1 & U2 & _ & U3).
      split; [exact Q1|split; [exact U1|]]. right; right. split; [exact Q3|split; [exact U3|split; [|discriminate]]]. rewrite (iszero_val F _ Q2), (iszero_val F _ U2), sval_0. reflexivity. }
    apply G. exact A4.
  - specialize (C4 eq_refl). destruct (iszero F y) eqn:ZY.
    + destruct (iszero F x) eqn:ZX.
      * apply rel_both_nan; [apply fdiv_isbits|apply fdiv_isbits|..]; unfold fdiv; rewrite ?(dec_iszero F x ZX), ?(dec_iszero F x' Zx), ?(dec_iszero F y ZY), ?(dec_iszero F y' Zy), nan_enc; reflexivity.
      * rewrite (fdiv_zero F x y) by auto. rewrite (fdiv_zero F x' y') by auto. apply rel_infs. rewrite C4, Sx by reflexivity. now destruct s, t, (signbit F x), (signbit F y).
    + assert (Vy : val F y <> 0%R) by (intros E; rewrite (val_eq_0 F y By C1 E) in ZY; discriminate).
      assert (Vy' : val F y' <> 0%R) by (intros E; rewrite (val_eq_0 F y' By' C2 E) in Zy; discriminate).
      eapply rounds_rel; [now apply fdiv_spec| |].
      * replace (sval (xorb s t) (val F x / val F y))%R with (val F x' / val F y')%R by (rewrite A3, C3; destruct s, t; cbn; field; exact Vy). now apply fdiv_spec.
      * intros E _. rewrite A4, C4 by exact E. now destruct s, t, (signbit F x), (signbit F y).
Qed.
Lemma rel_fcvt F G z s x x' : rel F z s x x' -> rel G z s (fcvt F G x) (fcvt F G x').
Proof.
  intros (B & B' & [[A A'] | [(A1 & A2 & A3) | (A1 & A2 & A3 & A4)]]).
  - apply rel_both_nan; [apply fcvt_isbits|apply fcvt_isbits|now apply fcvt_nan|now apply fcvt_nan].
  - rewrite !fcvt_inf by assumption. now apply rel_infs.
  - eapply rounds_rel; [now apply fcvt_finite|rewrite <- A3; now apply fcvt_finite|]. intros E _. now apply A4.
Qed.

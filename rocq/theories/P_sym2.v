(** Odd and even elementary functions: tactics, and the functions that work on the absolute value. *)
From Coq Require Import ZArith Reals Lia Lra Bool List.
From Flocq Require Import Core.
From Verif Require Import Base Spec SpecFun SpecSym Format P_format Ieee P_ieee P_real P_neg M_basic M_elib M_scalbn M_sqrt M_exp M_log M_atrig M_erf M_pow M_bessel
  P_elem P_elem2 P_ival P_tot P_exp P_log P_nan P_atrig P_erf P_sym.
Import ListNotations.
Open Scope Z_scope.
Open Scope fl_scope.

Definition odd_core F (f : Z -> option Z) := forall x r, isbits F x -> isnan F x = false -> f x = Some r -> exists r', f (fneg F x) = Some r' /\ rel F true true r r'.
Definition even_core F (f : Z -> option Z) := forall x r, isbits F x -> isnan F x = false -> f x = Some r -> exists r', f (fneg F x) = Some r' /\ rel F true false r r'.
Lemma opposite_fneg F x : isbits F x -> opposite F x = fneg F x.
Proof. intros B. symmetry. now apply fneg_eq. Qed.
Lemma odd_intro F f : total1 F F f -> odd_core F f -> odd_fn F f.
Proof.
  intros T O x B N. destruct (T x B) as (r & E & Br). destruct (O x r B N E) as (r' & E' & R). exists r, r'. rewrite opposite_fneg by exact B. split; [exact E|split; [exact E'|]].
  destruct (isnan F r) eqn:Nr; [left; split; [reflexivity|]|right; split; [reflexivity|]].
  - now rewrite (rel_nan _ _ _ _ _ R).
  - rewrite opposite_fneg by exact Br. apply (rel_eq F true r r' R Nr).
Qed.
Lemma even_intro F f : total1 F F f -> even_core F f -> even_fn F f.
Proof.
  intros T O x B N. destruct (T x B) as (r & E & Br). destruct (O x r B N E) as (r' & E' & R). exists r, r'. rewrite opposite_fneg by exact B. split; [exact E|split; [exact E'|]].
  destruct (isnan F r) eqn:Nr; [left; split; [reflexivity|]|right].
  - now rewrite (rel_nan _ _ _ _ _ R).
  - apply (rel_eq F false r r' R Nr).
Qed.
Lemma rw F z s x y : rel F z s x y -> rel F false s x y. Proof. apply rel_weaken. Qed.
Lemma sign_fneg F x : isbits F x -> signbit F (fneg F x) = negb (signbit F x).
Proof. intros B. apply fneg_fields, B. Qed.
Lemma fneg_bits F x : isbits F x -> isbits F (fneg F x). Proof. intros B. apply fneg_fields, B. Qed.

Lemma relc F a b : isbits F a -> b = fneg F a -> rel F true true a b.
Proof. intros B ->. now apply rel_fneg. Qed.
Lemma tot_bits F G f x r : total1 F G f -> isbits F x -> f x = Some r -> isbits G r.
Proof. intros T B E. destruct (T x B) as (q & E' & Bq). congruence. Qed.
Ltac isb0 := match goal with
  | E : rs_expm1f _ = Some ?z |- isbits _ ?z => apply (tot_bits _ _ _ _ _ expm1f_tot) with (2 := E)
  | E : rs_expm1 _ = Some ?z |- isbits _ ?z => apply (tot_bits _ _ _ _ _ expm1_tot) with (2 := E)
  | E : rs_k_expo2f _ = Some ?z |- isbits _ ?z => apply (tot_bits _ _ _ _ _ k_expo2f_tot) with (2 := E)
  | E : rs_k_expo2 _ = Some ?z |- isbits _ ?z => apply (tot_bits _ _ _ _ _ k_expo2_tot) with (2 := E)
  | E : rs_expo2 _ = Some ?z |- isbits _ ?z => apply (tot_bits _ _ _ _ _ expo2_tot) with (2 := E)
  | E : rs_expf _ = Some ?z |- isbits _ ?z => apply (tot_bits _ _ _ _ _ expf_tot) with (2 := E)
  | E : rs_exp _ = Some ?z |- isbits _ ?z => apply (tot_bits _ _ _ _ _ exp_tot) with (2 := E)
  | E : rs_logf _ = Some ?z |- isbits _ ?z => apply (tot_bits _ _ _ _ _ logf_tot) with (2 := E)
  | E : rs_log _ = Some ?z |- isbits _ ?z => apply (tot_bits _ _ _ _ _ log_tot) with (2 := E)
  | E : rs_log1pf _ = Some ?z |- isbits _ ?z => apply (tot_bits _ _ _ _ _ log1pf_tot) with (2 := E)
  | E : rs_log1p _ = Some ?z |- isbits _ ?z => apply (tot_bits _ _ _ _ _ log1p_tot) with (2 := E)
  | E : M_sqrt.sqrt _ = Some ?z |- isbits _ ?z => apply (tot_bits _ _ _ _ _ sqrt_total) with (2 := E)
  | E : M_sqrt.sqrtf _ = Some ?z |- isbits _ ?z => apply (tot_bits _ _ _ _ _ sqrtf_total) with (2 := E)
  end.
Ltac isb := lazymatch goal with
  | |- isbits _ (fadd _ _ _) => apply fadd_isbits
  | |- isbits _ (fsub _ _ _) => apply fsub_isbits
  | |- isbits _ (fmul _ _ _) => apply fmul_isbits
  | |- isbits _ (fdiv _ _ _) => apply fdiv_isbits
  | |- isbits _ (fcvt _ _ _) => apply fcvt_isbits
  | |- isbits _ (of_int _ _) => apply of_int_isbits
  | |- isbits _ (fneg _ _) => apply fneg_bits; isb
  | |- isbits _ (a32 _) => apply a32_bits; isb
  | |- isbits _ (a64 _) => apply a64_bits; isb
  | |- isbits _ (Zpos _) => vm_compute; split; [discriminate|reflexivity]
  | |- isbits _ Z0 => vm_compute; split; [discriminate|reflexivity]
  | |- isbits _ ?c => first [is_var c; first [assumption|isb0; isb]|is_const c; vm_compute; split; [discriminate|reflexivity]]
  end.
(** [symb a b]: a proof that [a] and [b] are related, built from the leaves *)
Ltac zz p := lazymatch type of p with rel _ ?z _ _ _ => z end.
Ltac ss p := lazymatch type of p with rel _ _ ?s _ _ => s end.
Ltac wk p := lazymatch zz p with false => p | true => constr:(rw _ _ _ _ _ p) end.
Ltac xb a b := let r := eval cbv in (xorb a b) in r.
Ltac symF F a b :=
  match goal with
  | _ => let _ := match goal with _ => constr_eq a b end in constr:(rel_refl F true a ltac:(isb))
  | H : rel F ?z ?s a b |- _ => H
  | _ => lazymatch a with fneg F ?a1 => let _ := match goal with _ => constr_eq a1 b end in constr:(rel_sym F true true b a (rel_fneg F true b ltac:(isb))) end
  | _ =>
  lazymatch b with
  | Zpos _ => constr:(relc F a b ltac:(isb) ltac:(vm_compute; reflexivity))
  | fneg F ?b1 =>
      match goal with
      | _ => let _ := match goal with _ => constr_eq a b1 end in constr:(rel_fneg F true a ltac:(isb))
      | _ => lazymatch a with fneg F ?a1 => let p := symF F a1 b1 in constr:(rel_fneg12 F _ _ a1 b1 p) end
      end
  | fmul F ?b1 ?b2 => lazymatch a with fmul F ?a1 ?a2 =>
      match goal with
      | _ => let _ := match goal with _ => constr_eq a1 a2 end in let _ := match goal with _ => constr_eq b1 b2 end in let p := symF F a1 b1 in constr:(rel_square F _ _ a1 b1 p)
      | _ =>
      let p := symF F a1 b1 in let q := symF F a2 b2 in let s1 := ss p in let s2 := ss q in let s := xb s1 s2 in let z1 := zz p in let z2 := zz q in
      lazymatch constr:((z1, z2)) with
      | (true, true) => constr:(rel_fmul F true s1 s2 a1 b1 a2 b2 p q : rel F true s a b)
      | _ => let p := wk p in let q := wk q in constr:(rel_fmul F false s1 s2 a1 b1 a2 b2 p q : rel F false s a b)
      end end end
  | fdiv F ?b1 ?b2 => lazymatch a with fdiv F ?a1 ?a2 =>
      let p := symF F a1 b1 in let q := symF F a2 b2 in let s1 := ss p in let s2 := ss q in let s := xb s1 s2 in let z := zz p in
      constr:(rel_fdiv F z s1 s2 a1 b1 a2 b2 p q : rel F z s a b) end
  | fadd F ?b1 ?b2 => lazymatch a with fadd F ?a1 ?a2 =>
      let p := symF F a1 b1 in let q := symF F a2 b2 in let s := ss p in let z1 := zz p in let z2 := zz q in
      lazymatch constr:((s, z1, z2)) with
      | (false, true, true) => constr:(rel_fadd F true false a1 b1 a2 b2 p q : rel F true false a b)
      | _ => let p := wk p in let q := wk q in constr:(rel_fadd F false s a1 b1 a2 b2 p q : rel F false s a b)
      end end
  | fsub F ?b1 ?b2 => lazymatch a with fsub F ?a1 ?a2 =>
      let p := symF F a1 b1 in let q := symF F a2 b2 in let s := ss p in let z1 := zz p in let z2 := zz q in
      lazymatch constr:((s, z1, z2)) with
      | (false, true, true) => constr:(rel_fsub F true false a1 b1 a2 b2 p q : rel F true false a b)
      | _ => let p := wk p in let q := wk q in constr:(rel_fsub F false s a1 b1 a2 b2 p q : rel F false s a b)
      end end
  | fcvt ?G F ?b1 => lazymatch a with fcvt G F ?a1 => let p := symF G a1 b1 in constr:(rel_fcvt G F _ _ a1 b1 p) end
  end end.
Ltac sym := lazymatch goal with |- rel ?F true ?s ?a ?b => let p := symF F a b in exact p | |- rel ?F false ?s ?a ?b => let p := symF F a b in let p := wk p in exact p end.

Lemma some_rel F z s a b r : rel F z s a b -> Some a = Some r -> exists r', Some b = Some r' /\ rel F z s r r'.
Proof. intros H E. injection E as <-. now exists b. Qed.
Lemma same_rel F z a r : isbits F r -> a = Some r -> exists r', a = Some r' /\ rel F z false r r'.
Proof. intros B E. exists r. split; [exact E|]. now apply rel_refl. Qed.
Ltac someok := lazymatch goal with
  | |- Some _ = Some _ -> _ => apply some_rel; sym
  | |- ?a = Some ?r -> _ => let E := fresh "E" in intros E; apply (same_rel _ true a r); [isb|exact E] end.
Lemma none_some {A P} (r : A) : None = Some r -> P.
Proof. discriminate. Qed.
Ltac sbind := lazymatch goal with |- bind ?f _ = Some _ -> _ => lazymatch f with bind _ _ => rewrite !bind_assoc; sbind | Some _ => cbn [bind] | (if ?b then _ else _) => destruct b eqn:? | _ => destruct f as [?|] eqn:?; cbn [bind]; [|apply none_some] end end.
Ltac sif := lazymatch goal with |- (if ?b then _ else _) = Some _ -> _ => destruct b eqn:? end.
Lemma tou_hi x : isbits f64 x -> to_u 32 (a64 x / 2 ^ 32) = a64 x / 2 ^ 32.
Proof. intros B. apply Z.mod_small. pose proof (a64_hi x B). lia. Qed.
Ltac start64 f x B Nx := intros x r B Nx; unfold f; pose proof (fneg_bits f64 x B) as B'; words64 x B; words64 (fneg f64 x) B'; rewrite ?(ex64 x B), ?(ex64 (fneg f64 x) B'); rewrite ?(a64_fneg x B), ?(sign_fneg f64 x B), ?(tou_hi x B); cbv zeta.
Ltac start32 f x B Nx := intros x r B Nx; unfold f; pose proof (fneg_bits f32 x B) as B'; words32 x B; words32 (fneg f32 x) B'; rewrite ?(a32_fneg x B), ?(sign_fneg f32 x B); cbv zeta.




Ltac auto32 f := let x := fresh "x" in let B := fresh "B" in let Nx := fresh "N" in start32 f x B Nx; destruct (signbit f32 x) eqn:?; cbn [negb bs]; repeat first [progress sif|sbind]; someok.
Ltac auto64 f := let x := fresh "x" in let B := fresh "B" in let Nx := fresh "N" in start64 f x B Nx; destruct (signbit f64 x) eqn:?; cbn [negb bs]; repeat first [progress sif|sbind]; someok.
Lemma sinhf_odd : odd_core f32 rs_sinhf.
Proof. auto32 rs_sinhf. Qed.
Lemma sinh_odd : odd_core f64 rs_sinh.
Proof. auto64 rs_sinh. Qed.
Lemma tanhf_odd : odd_core f32 rs_tanhf.
Proof. auto32 rs_tanhf. Qed.
Lemma tanh_odd : odd_core f64 rs_tanh.
Proof. auto64 rs_tanh. Qed.
Lemma asinhf_odd : odd_core f32 rs_asinhf.
Proof. auto32 rs_asinhf. Qed.
Lemma atanhf_odd : odd_core f32 rs_atanhf.
Proof. auto32 rs_atanhf. Qed.
Lemma asinh_odd : odd_core f64 rs_asinh.
Proof. auto64 rs_asinh. Qed.
Lemma atanh_odd : odd_core f64 rs_atanh.
Proof. auto64 rs_atanh. Qed.
Lemma coshf_even : even_core f32 rs_coshf.
Proof. auto32 rs_coshf. Qed.
Lemma cosh_even : even_core f64 rs_cosh.
Proof. auto64 rs_cosh. Qed.

(** Division in the running error analysis. *)
From Coq Require Import ZArith Reals Lia Lra Bool List Psatz.
From Flocq Require Import Core.
From Verif Require Import Base Spec Ieee P_ieee P_apx P_poly P_powt.
Import ListNotations.
Open Scope R_scope.

Definition bdiv (F : fmt) (un : Z) (a b : bnd) : bnd := let '(l1, h1, e1) := a in let '(l, h, e) := b in
  let l2 := (SC * SC / h)%Z in let h2 := cdiv (SC * SC) l in let e2 := cdiv (cdiv (SC * SC) l * cdiv (e * cdiv (SC * SC) (l - e)) SC) SC in let mi := cdiv (SC * SC) (l - e) in
  let p1 := (l1 * l2)%Z in let p2 := (l1 * h2)%Z in let p3 := (h1 * l2)%Z in let p4 := (h1 * h2)%Z in let m1 := mg a in
  (fdv (min4 p1 p2 p3 p4) SC, cdiv (max4 p1 p2 p3 p4) SC, cdiv (e1 * mi + m1 * e2) SC + cdiv (cdiv ((m1 + e1) * mi) SC) (2 ^ pr F) + un)%Z.
Definition dok (a b : bnd) : bool := let '(l, h, e) := b in
  ((0 <? l) && (l <=? h) && (0 <=? e) && (e <? l) && (0 <=? ber a) && (cdiv ((mg a + ber a) * cdiv (SC * SC) (l - e)) SC <=? cap))%Z.
Lemma fxr_lt0 l : (0 < l)%Z -> 0 < fxr l.
Proof. intros H. unfold fxr. apply Rdiv_lt_0_compat; [now apply (IZR_lt 0)|apply SC_pos]. Qed.
Lemma AP_div F (HF : (8 <= ew F)%Z) s un (HS : scal F s un) x y a b ba bb c : AP F s x a ba -> AP F 1 y b bb -> dok ba bb = true -> bdiv F un ba bb = c -> AP F s (fdiv F x y) (a / b) c.
Proof.
  intros Hx Hy C <-. pose proof (AP_fin _ _ _ _ _ Hx) as Fx. pose proof (AP_mag _ _ _ _ _ Hx) as Mx. pose proof (proj1 HS) as S. pose proof (AP_ev _ _ _ _ _ (proj1 S) Hx) as Vx.
  destruct ba as [[l1 h1] e1], bb as [[l h] e]. unfold bdiv, dok in *. rewrite !andb_true_iff, !Z.ltb_lt, !Z.leb_le in C. destruct C as (((((C1 & C2) & C3) & C4) & C5) & C6).
  set (m1 := mg (l1, h1, e1)) in *. change (ber (l1, h1, e1)) with e1 in *. clearbody m1.
  destruct Hx as (_ & Lx & Ex). destruct Hy as ((B & Fy) & H1 & H2). rewrite !Rmult_1_l in H2. set (w := val F y) in *. 
  pose proof (fxr_lt0 l C1) as FL. pose proof (fxr_lt0 (l - e) ltac:(lia)) as FD. assert (FE : 0 <= fxr e) by now apply fxr_pos. assert (G1 : 0 <= fxr e1) by now apply fxr_pos.
  assert (W : fxr (l - e) <= w) by (rewrite fxr_sub; apply Rabs_le_inv in H2; lra).
  pose proof (fxr_inv_up l C1) as IU. pose proof (fxr_inv_up (l - e) ltac:(lia)) as IU2. pose proof (fxr_inv_dn h ltac:(lia)) as ID.
  set (i1 := cdiv (SC * SC) l) in *. set (mi := cdiv (SC * SC) (l - e)) in *. set (i0 := (SC * SC / h)%Z) in *. set (e2 := cdiv (i1 * cdiv (e * mi) SC) SC).
  assert (R1 : fxr i0 <= / b <= fxr i1).
  { split; [apply Rle_trans with (/ fxr h); [exact ID|apply Rinv_le; lra]|apply Rle_trans with (/ fxr l); [apply Rinv_le; lra|exact IU]]. }
  assert (Wi : 0 < / w <= fxr mi). { split; [apply Rinv_0_lt_compat; lra|apply Rle_trans with (/ fxr (l - e)); [apply Rinv_le; lra|exact IU2]]. }
  assert (0 < / b) by (apply Rinv_0_lt_compat; lra).
  assert (ER : Rabs (/ w - / b) <= fxr e2).
  { replace (/ w - / b) with (- (w - b) * / w * / b) by (field; lra). rewrite !Rabs_mult, Rabs_Ropp, (Rabs_pos_eq (/ w)), (Rabs_pos_eq (/ b)) by lra.
    pose proof (fxr_mul_up e mi) as Q1. pose proof (fxr_mul_up i1 (cdiv (e * mi) SC)) as Q2. fold e2 in Q2.
    eapply Rle_trans; [|exact Q2]. rewrite (Rmult_comm (fxr _)). apply Rmult_le_compat; try lra; [apply Rmult_le_pos; [apply Rabs_pos|lra]|].
    eapply Rle_trans; [|exact Q1]. apply Rmult_le_compat; try lra; apply Rabs_pos. }
  rewrite <- fxr_add in Vx. assert (K1 : 0 <= fxr m1) by (eapply Rle_trans; [apply Rabs_pos|exact Mx]).
  apply (round_step F HF s un HS _ (val F x / w) _ _ _ _ _ _ (fdiv_spec F x y Fx Fy ltac:(fold w; lra))); [now apply (mul_range a (/ b))| | |exact C6].
  - unfold Rdiv. replace (val F x * / w - s * (a * / b)) with ((val F x - s * a) * / w + s * (a * (/ w - / b))) by ring.
    eapply Rle_trans; [apply Rabs_triang|]. rewrite !Rabs_mult, (Rabs_pos_eq s), (Rabs_pos_eq (/ w)) by lra.
    assert (T1 : Rabs (val F x - s * a) * / w <= s * (fxr e1 * fxr mi)).
    { rewrite <- Rmult_assoc. apply Rmult_le_compat; try apply Rabs_pos; lra. }
    assert (T2 : Rabs a * Rabs (/ w - / b) <= fxr m1 * fxr e2) by (apply Rmult_le_compat; try apply Rabs_pos; assumption).
    assert (T3 : fxr e1 * fxr mi + fxr m1 * fxr e2 <= fxr (cdiv (e1 * mi + m1 * e2) SC)).
    { unfold fxr. pose proof (cdiv_ge (e1 * mi + m1 * e2) SC eq_refl) as L. rewrite plus_IZR, !mult_IZR in L. pose proof SC_pos.
      replace (IZR e1 / IZR SC * (IZR mi / IZR SC) + IZR m1 / IZR SC * (IZR e2 / IZR SC)) with (((IZR e1 * IZR mi + IZR m1 * IZR e2) / IZR SC) / IZR SC) by (field; lra).
      apply Rmult_le_compat_r; [left; now apply Rinv_0_lt_compat|exact L]. }
    fold e2. nra.
  - unfold Rdiv. rewrite Rabs_mult, (Rabs_pos_eq (/ w)) by lra. pose proof (fxr_mul_up (m1 + e1) mi).
    apply Rle_trans with (s * fxr (m1 + e1) * fxr mi); [apply Rmult_le_compat; try apply Rabs_pos; lra|]. rewrite Rmult_assoc. apply Rmult_le_compat_l; lra.
Qed.
Ltac apy_go :=
  first [apx_hyp |
  lazymatch goal with
  | |- AP ?F ?s (fadd ?F ?a ?b) _ _ => eapply (AP_add F); [apx_ew|apx_s|apy_go|apy_go|vmr|vmr]
  | |- AP ?F ?s (fsub ?F ?a ?b) _ _ => eapply (AP_sub F); [apx_ew|apx_s|apy_go|apy_go|vmr|vmr]
  | |- AP ?F 1 (fmul ?F ?a ?b) _ _ => eapply (AP_mul F); [apx_ew|apx_s|apy_go|apy_go|vmr|vmr]
  | |- AP ?F ?s (fmul ?F ?a ?b) _ _ => first [eapply (AP_mul F); [apx_ew|apx_s|apy_go|apy_go|vmr|vmr] | eapply (AP_mulc F); [apx_ew|apx_s|apy_go|apy_go|vmr|vmr]]
  | |- AP ?F ?s (fdiv ?F ?a ?b) _ _ => eapply (AP_div F); [apx_ew|apx_s|apy_go|apy_go|vmr|vmr]
  | |- AP ?F ?s (Format.fneg ?F ?a) _ _ => eapply (AP_neg F); [apy_go|vmr]
  | |- AP ?F 1 ?c _ _ => eapply (AP_const F); [vmr|vmr|vmr|vmr]
  end].
(** [apy F s e K]: K bounds the error of [e] *)
Ltac apy F s e K := let r := fresh "r" in let b := fresh "b" in evar (r : R); evar (b : bnd); assert (K : AP F s e r b);
  [subst r b; apy_go | let r' := eval unfold r in r in let b' := eval unfold b in b in change r with r' in K; change b with b' in K; clear r b].

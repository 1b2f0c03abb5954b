(** Tactics walking through the models of the elementary functions. *)
From Coq Require Import ZArith Reals Lia Lra Bool List.
From Flocq Require Import Core.
From Verif Require Import Base Spec SpecElem Format P_format Ieee P_ieee P_real P_key P_neg M_scalbn M_sqrt P_scalbn M_elib P_elem P_elem2 P_ival P_ival2.
Open Scope Z_scope.

(** [f] never panics and returns a pattern of the format. *)
Definition total1 (F G : fmt) (f : Z -> option Z) : Prop := forall x, isbits F x -> exists r, f x = Some r /\ isbits G r.

Lemma bind_assoc {A B C} (m : option A) (f : A -> option B) (g : B -> option C) : bind (bind m f) g = bind m (fun a => bind (f a) g).
Proof. now destruct m. Qed.
Lemma fneg_isbits F x : isbits F x -> isbits F (fneg F x).
Proof. intros H. now apply fneg_fields. Qed.
Ltac bitsok := lazymatch goal with
  | |- isbits _ (fadd _ _ _) => apply fadd_isbits
  | |- isbits _ (fsub _ _ _) => apply fsub_isbits
  | |- isbits _ (fmul _ _ _) => apply fmul_isbits
  | |- isbits _ (fdiv _ _ _) => apply fdiv_isbits
  | |- isbits _ (fcvt _ _ _) => apply fcvt_isbits
  | |- isbits _ (of_int _ _) => apply of_int_isbits
  | |- isbits _ (fneg _ _) => apply fneg_isbits; bitsok
  | |- isbits _ (if ?c then _ else _) => destruct c; bitsok
  | |- isbits _ (let x := _ in _) => cbv zeta; bitsok
  | |- isbits _ (Zpos _) => vm_compute; split; [discriminate|reflexivity]
  | |- isbits _ Z0 => vm_compute; split; [discriminate|reflexivity]
  | |- isbits _ ?c => first [assumption | is_const c; vm_compute; split; [discriminate|reflexivity]
     | unfold isbits, width in *; cbn [mw ew f32 f64] in *; lia ]
  end.
Ltac walk1 := lazymatch goal with
  | |- exists r, Some ?t = Some r /\ isbits _ r => exists t; split; [reflexivity | bitsok]
  | |- exists r, (if ?c then _ else _) = Some r /\ _ => destruct c eqn:?
  | |- exists r, bind (Some ?a) ?f = Some r /\ _ => change (bind (Some a) f) with (f a); cbv beta
  | |- exists r, bind (if ?c then _ else _) _ = Some r /\ _ => destruct c eqn:?
  | |- exists r, bind (bind _ _) _ = Some r /\ _ => rewrite bind_assoc
  | |- exists r, (let '(_, _) := (if ?c then _ else _) in _) = Some r /\ _ => destruct c eqn:?
  | |- exists r, (let '(_, _) := (let '(_, _) := (if ?c then _ else _) in _) in _) = Some r /\ _ => destruct c eqn:?
  end.
(** abstract the results of float operations instead of copying them *)
Ltac gen F v := let y := fresh "y" in let H := fresh "By" in assert (H : isbits F v) by bitsok; revert H; generalize v; intros y H.
Ltac intros_let := lazymatch goal with |- exists r, (let x := ?v in @?k x) = Some r /\ @?P r => change (exists r, (k v) = Some r /\ P r); cbv beta end.
Ltac absw := repeat (cbv beta; match goal with
  | |- exists r, (let x := ?v in _) = Some r /\ _ => first
      [ lazymatch v with
        | fadd ?F _ _ => gen F v | fsub ?F _ _ => gen F v | fmul ?F _ _ => gen F v | fdiv ?F _ _ => gen F v | fcvt _ ?F _ => gen F v
        | of_int ?F _ => gen F v end; intros_let
      | intros_let ]
  | _ => walk1 end).
Ltac walk := repeat (cbv zeta beta; walk1).

Lemma tab_get_ok l i : 0 <= i < Z.of_nat (length l) -> exists v, tab_get l i = Some v /\ List.In v l.
Proof.
  intros H. unfold tab_get. destruct (nth_error l (Z.to_nat i)) eqn:E.
  - exists z. split; [reflexivity|]. now apply nth_error_In in E.
  - apply nth_error_None in E. lia.
Qed.
Lemma land_low a n : 0 <= n -> 0 <= Z.land a (2 ^ n - 1) < 2 ^ n.
Proof. intros H. rewrite land_pow2m1 by assumption. apply Z.mod_pos_bound. apply Z.pow_pos_nonneg; lia. Qed.
(** other spellings of the words of a pattern *)
Lemma ix64' x : isbits f64 x -> Z.land (Z.shiftr x 32) 0x7fffffff = a64 x / 2 ^ 32.
Proof.
  intros H. rewrite <- (ix64 x H). unfold to_u. change 0x7fffffff with (2 ^ 31 - 1). rewrite !land_pow2m1 by lia.
  assert (E : (Z.shiftr x 32) mod 2 ^ 32 = Z.shiftr x 32).
  { apply Z.mod_small. unfold isbits, width in H. cbn [mw ew f64] in H. change (2 ^ (52 + 11 + 1)) with (2 ^ 32 * 2 ^ 32) in H.
    rewrite Z.shiftr_div_pow2 by lia. split; [apply Z.div_pos; lia|apply Z.div_lt_upper_bound; lia]. }
  now rewrite E.
Qed.
Lemma ix64'' x : isbits f64 x -> to_u 32 (Z.land (Z.shiftr x 32) 0x7fffffff) = a64 x / 2 ^ 32.
Proof. intros H. rewrite ix64' by assumption. apply Z.mod_small. pose proof (a64_hi x H). lia. Qed.
Lemma unot_half x : Z.land x (unot 64 1 / 2) = a64 x.
Proof. change (unot 64 1 / 2) with 0x7fffffffffffffff. apply land_a64. Qed.
Lemma unot_half' x : Z.land x (unot 64 0 / 2) = a64 x.
Proof. change (unot 64 0 / 2) with 0x7fffffffffffffff. apply land_a64. Qed.
Lemma hi_a64 x : isbits f64 x -> to_u 32 (Z.shiftr (a64 x) 32) = a64 x / 2 ^ 32.
Proof. intros H. rewrite Z.shiftr_div_pow2 by lia. apply Z.mod_small. pose proof (a64_hi x H). lia. Qed.
Lemma hi_a64' x : Z.shiftr (a64 x) 32 = a64 x / 2 ^ 32.
Proof. now rewrite Z.shiftr_div_pow2 by lia. Qed.
Lemma ghw x : get_high_word x = to_u 32 (Z.shiftr x 32).
Proof. reflexivity. Qed.
Lemma tou1 b : to_u 64 (bs b) = bs b. Proof. now destruct b. Qed.
Lemma toi1 b : to_i 32 (bs b) = bs b. Proof. now destruct b. Qed.
Lemma bs0 b : (bs b =? 0) = negb b. Proof. now destruct b. Qed.
Lemma fcmp_nan_l F x y : isnan F x = true -> fcmp F x y = None.
Proof. intros H. apply fcmp_nan. now rewrite H. Qed.
Lemma cmp_nan F x y : isnan F x = true -> flt F x y = false /\ fle F x y = false /\ fgt F x y = false /\ fge F x y = false /\ feq F x y = false /\ fne F x y = true.
Proof. intros H. unfold fne, flt, fle, fgt, fge, feq. rewrite (fcmp_nan_l F x y H). repeat split. Qed.

Ltac words64 x B := rewrite ?(ix64 x B), ?(ix64'' x B), ?(ix64' x B), ?unot_half, ?unot_half', ?land_a64, ?(hi_a64 x B), ?hi_a64', ?(sg64 x B),
   ?ghw, ?(ix64 x B), ?(hw64 x B), ?(shr31 _ _ (a64_hi x B)), ?toi1, ?tou1, ?bs0.
Ltac words32 x B := rewrite ?land_a32, ?(sg32 x B), ?toi1, ?tou1, ?bs0.

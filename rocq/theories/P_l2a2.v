(** The common kernel of log2 and log10, f64. *)
From Coq Require Import ZArith Reals Lia Lra Bool List Psatz.
From Flocq Require Import Core.
From Verif Require Import Base Spec SpecFun2 Format P_format Ieee P_ieee P_real P_neg P_lit P_err P_scalbn P_apx P_poly P_poly2 P_poly3 P_powt P_powt8 P_taylor P_expa1 P_expa2 P_expa3 P_expa4 P_expa5 P_expa7 P_expa8 P_expa9 P_lga1 P_lga2 P_lga3 P_lga4 P_lga5 P_l2a1 M_log.
Import ListNotations.
Open Scope R_scope.
Local Opaque fadd fsub fmul fdiv of_int.

Definition hi64 (f : Z) : Z := trc 32 (fsub f64 f (lh64 f)).
Definition ld64 (f : Z) : Z := fsub f64 (fsub f64 f (hi64 f)) (lh64 f).
Definition lo64 (f : Z) : Z := fadd f64 (ld64 f) (fmul f64 (ls64 f) (fadd f64 (lh64 f) (lr64 (ls64 f)))).
(** the bound of the error of lo *)
Definition ko64 (g a b eh lm E : Z) : Prop := forall f F s d, scal f64 s 1 -> F = s * IZR g -> AP f64 1 f F (q4 a, q4 b, 0%Z) -> AP f64 1 (fmul f64 0x3fe0000000000000 f) (/ 2 * F) (q4 a / 2, cdiv (q4 b) 2, 0)%Z ->
  AP f64 s f (IZR g) (g * SC, g * SC, 0)%Z -> AP f64 s (fmul f64 0x3fe0000000000000 f) (/ 2 * IZR g) ((g * SC / 2)%Z, (g * SC / 2)%Z, 0%Z) ->
  AP f64 s (lh64 f) (/ 2 * IZR g * F) (-2 ^ 198, 2 ^ 198, eh)%Z /\
  (AP f64 s (ld64 f) d (- 2 ^ 181, 2 ^ 181, eh + 2 ^ 128)%Z -> AP f64 s (lo64 f) (d + (lG cl64 F - (F - F * F / 2)) / s) (- lm, lm, E)%Z).
Ltac koo := intros f F s d HS EF A1 A3 B1 B3;
  let K := fresh "K" in let S := fresh "S" in let H := fresh "H" in let S' := fresh "SB" in let H' := fresh "HB" in let Q := fresh "Q" in let D := fresh "DD" in
  apy f64 1 (fdiv f64 f (fadd f64 0x4000000000000000 f)) S; change (fdiv f64 f (fadd f64 0x4000000000000000 f)) with (ls64 f) in S; rewrite two_eq in S;
  apy f64 s (fdiv f64 f (fadd f64 0x4000000000000000 f)) S'; change (fdiv f64 f (fadd f64 0x4000000000000000 f)) with (ls64 f) in S'; rewrite two_eq in S';
  apy f64 1 (fmul f64 (fmul f64 0x3fe0000000000000 f) f) H; change (fmul f64 (fmul f64 0x3fe0000000000000 f) f) with (lh64 f) in H;
  apy f64 s (fmul f64 (fmul f64 0x3fe0000000000000 f) f) H'; change (fmul f64 (fmul f64 0x3fe0000000000000 f) f) with (lh64 f) in H';
  split; [eapply AP_wk; [apply HS| |]; [eapply AP_re; [exact H'|]; destruct H' as (_ & H' & _); split; eapply Rle_trans; [|apply H'|apply H'|]; apply fxr_le, Z.leb_le; vm_compute; reflexivity|vm_compute; reflexivity]|]; intros D;
  let t := eval cbv beta zeta delta [lr64] in (lr64 (ls64 f)) in apy f64 1 t Q; change t with (lr64 (ls64 f)) in Q;
  apy f64 s (fadd f64 (ld64 f) (fmul f64 (ls64 f) (fadd f64 (lh64 f) (lr64 (ls64 f))))) K;
  match goal with K : AP _ _ _ ?e (?a, ?b, ?c) |- AP _ _ _ ?e' _ => replace e' with e by (let Sn := fresh in assert (Sn : s <> 0) by (destruct HS as [[? ?] _]; lra); rewrite EF; unfold lG; cbv zeta; cbn [cl64 peval fst snd]; unfold Rdiv; rewrite ?Rinv_1; 
       match goal with |- context [/ (2 + ?w)] => generalize (/ (2 + w)) end; let i := fresh in intros i; field; exact Sn);
    eapply AP_wk; [apply HS| |]; [eapply AP_re; [exact K|]; destruct K as (_ & K & _); split; eapply Rle_trans; [|apply K|apply K|]; apply fxr_le, Z.leb_le; vm_compute; reflexivity|vm_compute; reflexivity] end.
Lemma koA : ko64 (-1) (-2931) 0 (2 ^ 145) (3 * 2 ^ 194) (39 * 2 ^ 141). Proof. koo. Qed.
Lemma koB : ko64 1 0 3300 (2 ^ 145) (3 * 2 ^ 194) (39 * 2 ^ 141). Proof. koo. Qed.
Lemma koC : ko64 1 3300 4143 (2 ^ 145) (3 * 2 ^ 194) (39 * 2 ^ 141). Proof. koo. Qed.

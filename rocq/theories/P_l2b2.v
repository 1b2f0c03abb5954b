(** The common kernel of log2 and log10, f32. *)
From Coq Require Import ZArith Reals Lia Lra Bool List Psatz.
From Flocq Require Import Core.
From Verif Require Import Base Spec SpecFun2 Format P_format Ieee P_ieee P_real P_neg P_lit P_err P_scalbn P_apx P_poly P_poly2 P_poly3 P_powt P_powt8 P_taylor P_expa1 P_expa2 P_expa3 P_expa4 P_expa5 P_expa7 P_expa8 P_expa9 P_lga1 P_lga2 P_lga3 P_lga5 P_lgb3 P_lgb4 P_lgb5 P_l2a1 M_log.
Import ListNotations.
Open Scope R_scope.
Local Opaque fadd fsub fmul fdiv of_int.

Definition hi32 (f : Z) : Z := trc 12 (fsub f32 f (lh32 f)).
Definition ld32 (f : Z) : Z := fsub f32 (fsub f32 f (hi32 f)) (lh32 f).
Definition lo32 (f : Z) : Z := fadd f32 (ld32 f) (fmul f32 (ls32 f) (fadd f32 (lh32 f) (lr32 (ls32 f)))).
(** the bound of the error of lo *)
Definition ko32 (g a b eh lm E : Z) : Prop := forall f F s d, scal f32 s (2 ^ 110) -> F = s * IZR g -> AP f32 1 f F (q4 a, q4 b, 0%Z) -> AP f32 1 (fmul f32 0x3f000000 f) (/ 2 * F) (q4 a / 2, cdiv (q4 b) 2, 0)%Z ->
  AP f32 s f (IZR g) (g * SC, g * SC, 0)%Z -> AP f32 s (fmul f32 0x3f000000 f) (/ 2 * IZR g) ((g * SC / 2)%Z, (g * SC / 2)%Z, 0%Z) ->
  AP f32 s (lh32 f) (/ 2 * IZR g * F) (-2 ^ 198, 2 ^ 198, eh)%Z /\
  (AP f32 s (ld32 f) d (- 2 ^ 190, 2 ^ 190, eh + 2 ^ 166)%Z -> AP f32 s (lo32 f) (d + (lG cl32 F - (F - F * F / 2)) / s) (- lm, lm, E)%Z).
Ltac koof := intros f F s d HS EF A1 A3 B1 B3;
  let K := fresh "K" in let S := fresh "S" in let H := fresh "H" in let S' := fresh "SB" in let H' := fresh "HB" in let Q := fresh "Q" in let D := fresh "DD" in
  apy f32 1 (fdiv f32 f (fadd f32 0x40000000 f)) S; change (fdiv f32 f (fadd f32 0x40000000 f)) with (ls32 f) in S; rewrite two_eqf in S;
  apy f32 s (fdiv f32 f (fadd f32 0x40000000 f)) S'; change (fdiv f32 f (fadd f32 0x40000000 f)) with (ls32 f) in S'; rewrite two_eqf in S';
  apy f32 1 (fmul f32 (fmul f32 0x3f000000 f) f) H; change (fmul f32 (fmul f32 0x3f000000 f) f) with (lh32 f) in H;
  apy f32 s (fmul f32 (fmul f32 0x3f000000 f) f) H'; change (fmul f32 (fmul f32 0x3f000000 f) f) with (lh32 f) in H';
  split; [eapply AP_wk; [apply HS| |]; [eapply AP_re; [exact H'|]; destruct H' as (_ & H' & _); split; eapply Rle_trans; [|apply H'|apply H'|]; apply fxr_le, Z.leb_le; vm_compute; reflexivity|vm_compute; reflexivity]|]; intros D;
  let t := eval cbv beta zeta delta [lr32] in (lr32 (ls32 f)) in apy f32 1 t Q; change t with (lr32 (ls32 f)) in Q;
  apy f32 s (fadd f32 (ld32 f) (fmul f32 (ls32 f) (fadd f32 (lh32 f) (lr32 (ls32 f))))) K;
  match goal with K : AP _ _ _ ?e (?a, ?b, ?c) |- AP _ _ _ ?e' _ => replace e' with e by (let Sn := fresh in assert (Sn : s <> 0) by (destruct HS as [[? ?] _]; lra); rewrite EF; unfold lG; cbv zeta; cbn [cl32 peval fst snd]; unfold Rdiv; rewrite ?Rinv_1; 
       match goal with |- context [/ (2 + ?w)] => generalize (/ (2 + w)) end; let i := fresh in intros i; field; exact Sn);
    eapply AP_wk; [apply HS| |]; [eapply AP_re; [exact K|]; destruct K as (_ & K & _); split; eapply Rle_trans; [|apply K|apply K|]; apply fxr_le, Z.leb_le; vm_compute; reflexivity|vm_compute; reflexivity] end.
Lemma koAf : ko32 (-1) (-2931) 0 (2 ^ 174) (25 * 2 ^ 191) (39 * 2 ^ 170). Proof. koof. Qed.
Lemma koBf : ko32 1 0 3300 (2 ^ 174) (25 * 2 ^ 191) (39 * 2 ^ 170). Proof. koof. Qed.
Lemma koCf : ko32 1 3300 4143 (2 ^ 174) (25 * 2 ^ 191) (39 * 2 ^ 170). Proof. koof. Qed.

(** The kernel of log for arguments near 1, f32: errors relative to f. *)
From Coq Require Import ZArith Reals Lia Lra Bool List Psatz.
From Flocq Require Import Core.
From Verif Require Import Base Spec SpecFun2 Format P_format Ieee P_ieee P_real P_neg P_lit P_err P_apx P_poly P_poly2 P_poly3 P_powt P_powt8 P_taylor P_expa1 P_expa2 P_expa3 P_expa4 P_expa5 P_expa6 P_expa7 P_expa8 P_expa9 P_lga1 P_lga2 P_lga3 P_lga4 P_lga5 P_lgb3 M_log.
Import ListNotations.
Open Scope R_scope.
Local Opaque fadd fsub fmul fdiv of_int.

Definition lz32 (g a b E : Z) : Prop := forall f dl F s, scal f32 s (2 ^ 110) -> F = s * IZR g -> AP f32 1 f F (q4 a, q4 b, 0%Z) -> AP f32 1 (fmul f32 0x3f000000 f) (/ 2 * F) (q4 a / 2, cdiv (q4 b) 2, 0)%Z ->
  AP f32 s f (IZR g) (g * SC, g * SC, 0)%Z -> AP f32 s (fmul f32 0x3f000000 f) (/ 2 * IZR g) ((g * SC / 2)%Z, (g * SC / 2)%Z, 0%Z) -> AP f32 s dl 0 (0, 0, 0)%Z ->
  (isbits f32 (fadd f32 (lp32 f dl) f) /\ finite f32 (fadd f32 (lp32 f dl) f) = true) /\ Rabs (val f32 (fadd f32 (lp32 f dl) f) - lG cl32 F) <= s * (IZR E / IZR (2 ^ 36)).
Ltac lzof := intros f dl F s HS EF A1 A3 B1 B3 B2;
  let K := fresh "K" in let S := fresh "S" in let H := fresh "H" in let S' := fresh "SB" in let H' := fresh "HB" in let Q := fresh "Q" in
  apy f32 1 (fdiv f32 f (fadd f32 0x40000000 f)) S; change (fdiv f32 f (fadd f32 0x40000000 f)) with (ls32 f) in S; rewrite two_eqf in S;
  apy f32 s (fdiv f32 f (fadd f32 0x40000000 f)) S'; change (fdiv f32 f (fadd f32 0x40000000 f)) with (ls32 f) in S'; rewrite two_eqf in S';
  apy f32 1 (fmul f32 (fmul f32 0x3f000000 f) f) H; change (fmul f32 (fmul f32 0x3f000000 f) f) with (lh32 f) in H;
  apy f32 s (fmul f32 (fmul f32 0x3f000000 f) f) H'; change (fmul f32 (fmul f32 0x3f000000 f) f) with (lh32 f) in H';
  let t := eval cbv beta zeta delta [lr32] in (lr32 (ls32 f)) in apy f32 1 t Q; change t with (lr32 (ls32 f)) in Q;
  apy f32 s (fadd f32 (fsub f32 (fadd f32 (fmul f32 (ls32 f) (fadd f32 (lh32 f) (lr32 (ls32 f)))) dl) (lh32 f)) f) K;
  match goal with K : AP _ _ _ ?e (?a, ?b, ?c) |- _ => let K1 := fresh in let K3 := fresh in destruct K as (K1 & _ & K3); split; [exact K1|]; 
    match goal with |- Rabs (?v - ?g) <= _ => replace g with (s * e) by (let Es := fresh in assert (Es : s = F \/ s = - F) by (cbn in EF; lra); unfold lG; cbv zeta; cbn [cl32 peval fst snd]; unfold Rdiv; rewrite ?Rinv_1; 
       generalize (/ (2 + F)); intros i; cbn in EF; rewrite EF; ring) end; eapply Rle_trans; [exact K3|]; apply Rmult_le_compat_l; [left; apply HS|] end;
  apply fxr_dy; [reflexivity|vm_compute; reflexivity].
Lemma lzAf : lz32 (-1) (-2931) 0 7600. Proof. lzof. Qed.
Lemma lzBf : lz32 1 0 3000 6500. Proof. lzof. Qed.
Lemma lzCf : lz32 1 3000 3600 6100. Proof. lzof. Qed.
Lemma lzDf : lz32 1 3600 4143 6500. Proof. lzof. Qed.

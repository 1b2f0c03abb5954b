(** The kernel of log, f64. *)
From Coq Require Import ZArith Reals Lia Lra Bool List Psatz.
From Flocq Require Import Core.
From Verif Require Import Base Spec SpecFun2 Format P_format Ieee P_ieee P_real P_neg P_lit P_err P_apx P_poly P_poly2 P_poly3 P_powt P_powt8 P_taylor P_expa1 P_expa2 P_expa3 P_expa4 P_expa5 P_expa7 P_expa8 P_expa9 P_lga1 P_lga2 M_log.
Import ListNotations.
Open Scope R_scope.
Local Opaque fadd fsub fmul fdiv of_int.

Definition ls64 (f : Z) : Z := fdiv f64 f (fadd f64 0x4000000000000000 f).
Definition lh64 (f : Z) : Z := fmul f64 (fmul f64 0x3fe0000000000000 f) f.
Definition lr64 (s : Z) : Z := let z := fmul f64 s s in let w := fmul f64 z z in
  fadd f64 (fmul f64 z (fadd f64 rs_log_LG1 (fmul f64 w (fadd f64 rs_log_LG3 (fmul f64 w (fadd f64 rs_log_LG5 (fmul f64 w rs_log_LG7)))))))
    (fmul f64 w (fadd f64 rs_log_LG2 (fmul f64 w (fadd f64 rs_log_LG4 (fmul f64 w rs_log_LG6))))).
(** everything but the last two additions *)
Definition lp64 (f dl : Z) : Z := fsub f64 (fadd f64 (fmul f64 (ls64 f) (fadd f64 (lh64 f) (lr64 (ls64 f)))) dl) (lh64 f).
Lemma fxr_mulZ a b : fxr (a * b) = IZR a * fxr b. Proof. unfold fxr. rewrite mult_IZR. unfold Rdiv. ring. Qed.
Definition cl64 : poly := Eval vm_compute in (0, 1)%Z :: map (litq f64) [rs_log_LG1; rs_log_LG2; rs_log_LG3; rs_log_LG4; rs_log_LG5; rs_log_LG6; rs_log_LG7].
Lemma cl64_c : zcov (psub cl64 (lgs 12)) 30 (3 * 2 ^ 141) = true. Proof. vm_compute. reflexivity. Qed.
Definition lG (c : poly) (f : R) : R := let s := f / (2 + f) in s * (f * f / 2 + peval c (s * s)) - f * f / 2 + f.
Lemma lG_eq c f : -1 < f -> lG c f = f / (2 + f) * (2 + peval c (f / (2 + f) * (f / (2 + f)))).
Proof. intros H. unfold lG. cbv zeta. set (p := peval c _). field. lra. Qed.
Lemma log_G64 f : -2931 / 10000 <= f <= 4143 / 10000 -> Rabs (lG cl64 f - ln (1 + f)) <= Rabs (f / (2 + f)) * / IZR (2 ^ 57) /\ Rabs (f / (2 + f)) <= 1719 / 10000.
Proof.
  intros H. destruct (log_err cl64 12 30 (3 * 2 ^ 141) f eq_refl eq_refl cl64_c H) as [A B]. split; [|exact B]. rewrite lG_eq by lra. eapply Rle_trans; [exact A|]. apply Rmult_le_compat_l; [apply Rabs_pos|].
  rewrite fxr_mulZ. change 141%Z with (200 - 59)%Z. rewrite fxr2 by lia. change (2 ^ 59)%Z with 576460752303423488%Z. change (2 ^ 58)%Z with 288230376151711744%Z. change (2 ^ 57)%Z with 144115188075855872%Z. lra.
Qed.

Lemma half_eq : 4503599627370496 / 9007199254740992 = / 2. Proof. lra. Qed.
Lemma two_eq : 4503599627370496 / 2251799813685248 = 2. Proof. lra. Qed.
(** k <> 0: the part before the last two additions, for f in [a, b] / 10000 *)
Definition lk64 (a b E : Z) : Prop := forall f dl F l, AP f64 1 f F (q4 a, q4 b, 0%Z) -> AP f64 1 dl l ((- pl64)%Z, pl64, el64) -> AP f64 1 (fmul f64 0x3fe0000000000000 f) (/ 2 * F) (q4 a / 2, cdiv (q4 b) 2, 0)%Z -> (isbits f64 (lp64 f dl) /\ finite f64 (lp64 f dl) = true) /\ Rabs (val f64 (lp64 f dl) + F - (lG cl64 F + l)) <= IZR E / IZR (2 ^ 65).
Ltac lgo := intros f dl F l A1 A2 A3;
  let K := fresh "K" in let S := fresh "S" in let H := fresh "H" in let Q := fresh "Q" in
  apy f64 1 (fdiv f64 f (fadd f64 0x4000000000000000 f)) S; change (fdiv f64 f (fadd f64 0x4000000000000000 f)) with (ls64 f) in S; rewrite two_eq in S;
  apy f64 1 (fmul f64 (fmul f64 0x3fe0000000000000 f) f) H; change (fmul f64 (fmul f64 0x3fe0000000000000 f) f) with (lh64 f) in H;
  let t := eval cbv beta zeta delta [lr64] in (lr64 (ls64 f)) in apy f64 1 t Q; change t with (lr64 (ls64 f)) in Q;
  apy f64 1 (fsub f64 (fadd f64 (fmul f64 (ls64 f) (fadd f64 (lh64 f) (lr64 (ls64 f)))) dl) (lh64 f)) K;
  match goal with K : AP _ _ _ ?e (?a, ?b, ?c) |- _ => let K1 := fresh in let K3 := fresh in destruct K as (K1 & _ & K3); split; [exact K1|]; rewrite !Rmult_1_l in K3;
    match goal with |- Rabs (?v + ?ff - ?g) <= _ => replace (v + ff - g) with (v - e) by (unfold lG; cbv zeta; cbn [cl64 peval fst snd]; set (i := F / (2 + F)); unfold Rdiv; rewrite ?Rinv_1; ring) end; eapply Rle_trans; [exact K3|] end;
  apply fxr_dy; [reflexivity|vm_compute; reflexivity].
Lemma lkA : lk64 (-2931) 0 1230. Proof. lgo. Qed.
Lemma lkB : lk64 0 2800 1230. Proof. lgo. Qed.
Lemma lkC : lk64 2800 3700 1230. Proof. lgo. Qed.
Lemma lkD : lk64 3700 4143 1230. Proof. lgo. Qed.

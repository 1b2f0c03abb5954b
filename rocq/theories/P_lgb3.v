(** The kernel of log, f32. *)
From Coq Require Import ZArith Reals Lia Lra Bool List Psatz.
From Flocq Require Import Core.
From Verif Require Import Base Spec SpecFun2 Format P_format Ieee P_ieee P_real P_neg P_lit P_err P_apx P_poly P_poly2 P_poly3 P_powt P_powt8 P_taylor P_expa1 P_expa2 P_expa3 P_expa4 P_expa5 P_expa6 P_expa7 P_expa8 P_expa9 P_lga1 P_lga2 P_lga3 P_lga4 P_lga5 M_log.
Import ListNotations.
Open Scope R_scope.
Local Opaque fadd fsub fmul fdiv of_int.

Definition ls32 (f : Z) : Z := fdiv f32 f (fadd f32 0x40000000 f).
Definition lh32 (f : Z) : Z := fmul f32 (fmul f32 0x3f000000 f) f.
Definition lr32 (s : Z) : Z := let z := fmul f32 s s in let w := fmul f32 z z in
  fadd f32 (fmul f32 z (fadd f32 rs_logf_LG1 (fmul f32 w rs_logf_LG3))) (fmul f32 w (fadd f32 rs_logf_LG2 (fmul f32 w rs_logf_LG4))).
(** everything but the last two additions *)
Definition lp32 (f dl : Z) : Z := fsub f32 (fadd f32 (fmul f32 (ls32 f) (fadd f32 (lh32 f) (lr32 (ls32 f)))) dl) (lh32 f).
Definition cl32 : poly := Eval vm_compute in (0, 1)%Z :: map (litq f32) [rs_logf_LG1; rs_logf_LG2; rs_logf_LG3; rs_logf_LG4].
Lemma cl32_c : zcov (psub cl32 (lgs 8)) 30 (2 ^ 166) = true. Proof. vm_compute. reflexivity. Qed.
Lemma log_G32 f : -2931 / 10000 <= f <= 4143 / 10000 -> Rabs (lG cl32 f - ln (1 + f)) <= Rabs (f / (2 + f)) * / IZR (2 ^ 33) /\ Rabs (f / (2 + f)) <= 1719 / 10000.
Proof.
  intros H. destruct (log_err cl32 8 30 (2 ^ 166) f eq_refl eq_refl cl32_c H) as [A B]. split; [|exact B]. rewrite lG_eq by lra. eapply Rle_trans; [exact A|]. apply Rmult_le_compat_l; [apply Rabs_pos|].
  change 166%Z with (200 - 34)%Z. rewrite fxr2 by lia. change (2 ^ 34)%Z with 17179869184%Z. change (2 ^ 33)%Z with 8589934592%Z. lra.
Qed.
Definition ql32 : Z := (SC / 2 ^ 9)%Z.
Definition em32 : Z := (SC / 2 ^ 32)%Z.

Lemma half_eqf : 8388608 / 16777216 = / 2. Proof. lra. Qed.
Lemma two_eqf : 8388608 / 4194304 = 2. Proof. lra. Qed.
(** k <> 0: the part before the last two additions, for f in [a, b] / 10000 *)
Definition lk32 (a b E : Z) : Prop := forall f dl F l, AP f32 1 f F (q4 a, q4 b, 0%Z) -> AP f32 1 dl l ((- ql32)%Z, ql32, em32) -> AP f32 1 (fmul f32 0x3f000000 f) (/ 2 * F) (q4 a / 2, cdiv (q4 b) 2, 0)%Z -> (isbits f32 (lp32 f dl) /\ finite f32 (lp32 f dl) = true) /\ Rabs (val f32 (lp32 f dl) + F - (lG cl32 F + l)) <= IZR E / IZR (2 ^ 36).
Ltac lgof := intros f dl F l A1 A2 A3;
  let K := fresh "K" in let S := fresh "S" in let H := fresh "H" in let Q := fresh "Q" in
  apy f32 1 (fdiv f32 f (fadd f32 0x40000000 f)) S; change (fdiv f32 f (fadd f32 0x40000000 f)) with (ls32 f) in S; rewrite two_eqf in S;
  apy f32 1 (fmul f32 (fmul f32 0x3f000000 f) f) H; change (fmul f32 (fmul f32 0x3f000000 f) f) with (lh32 f) in H;
  let t := eval cbv beta zeta delta [lr32] in (lr32 (ls32 f)) in apy f32 1 t Q; change t with (lr32 (ls32 f)) in Q;
  apy f32 1 (fsub f32 (fadd f32 (fmul f32 (ls32 f) (fadd f32 (lh32 f) (lr32 (ls32 f)))) dl) (lh32 f)) K;
  match goal with K : AP _ _ _ ?e (?a, ?b, ?c) |- _ => let K1 := fresh in let K3 := fresh in destruct K as (K1 & _ & K3); split; [exact K1|]; rewrite !Rmult_1_l in K3;
    match goal with |- Rabs (?v + ?ff - ?g) <= _ => replace (v + ff - g) with (v - e) by (unfold lG; cbv zeta; cbn [cl32 peval fst snd]; set (i := F / (2 + F)); unfold Rdiv; rewrite ?Rinv_1; ring) end; eapply Rle_trans; [exact K3|] end;
  apply fxr_dy; [reflexivity|vm_compute; reflexivity].
Lemma lkAf : lk32 (-2931) 0 1275. Proof. lgof. Qed.
Lemma lkBf : lk32 0 2800 1275. Proof. lgof. Qed.
Lemma lkCf : lk32 2800 3700 1275. Proof. lgof. Qed.
Lemma lkDf : lk32 3700 4143 1275. Proof. lgof. Qed.

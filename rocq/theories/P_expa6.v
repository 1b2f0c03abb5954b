(** The kernel of expf, f32. *)
From Coq Require Import ZArith Reals Lia Lra Bool List Psatz.
From Flocq Require Import Core.
From Verif Require Import Base Spec Format P_format Ieee P_ieee P_real P_lit P_apx P_poly P_powt P_expa1 P_expa2 P_expa3 P_expa4 P_expa5 M_exp.
Import ListNotations.
Open Scope R_scope.

Lemma o32 : finite f32 0x3f800000 = true /\ val f32 0x3f800000 = 1.
Proof. split; [reflexivity|]. rewrite (val_lit f32 0x3f800000 1 1) by (vm_compute; reflexivity). lra. Qed.
Definition P32 : poly := ltac:(let v := eval vm_compute in cp32 in exact v).
Lemma P32_eq : cp32 = P32. Proof. vm_compute. reflexivity. Qed.
Definition ec32 (x : Z) : Z := let xx := fmul f32 x x in fsub f32 x (fmul f32 xx (fadd f32 rs_expf_P1 (fmul f32 xx rs_expf_P2))).
Definition ew32 (x hi lo : Z) : Z := fadd f32 (fsub f32 (fdiv f32 (fmul f32 x (ec32 x)) (fsub f32 0x40000000 (ec32 x))) lo) hi.
Definition ex32 : Z := (SC * 36 / 100 / 2 ^ 24)%Z.
Definition el32 : Z := (SC / 2 ^ 34)%Z.
Definition pl32 : Z := (23 * SC / 100000)%Z.
Ltac pk32 x hi lo r l :=
  let C := fresh "C" in let K := fresh "K" in
  apy f32 1 (fsub f32 x (fmul f32 (fmul f32 x x) (fadd f32 rs_expf_P1 (fmul f32 (fmul f32 x x) rs_expf_P2)))) C;
  match type of C with AP _ _ _ ?e _ => let R := fresh in assert (R : e = peval cp32 r) by (rewrite P32_eq; cbn [P32 peval fst snd]; unfold Rdiv; rewrite ?Rinv_1; ring); rewrite R in C; clear R end;
  change (fsub f32 x (fmul f32 (fmul f32 x x) (fadd f32 rs_expf_P1 (fmul f32 (fmul f32 x x) rs_expf_P2)))) with (ec32 x) in C;
  apy f32 1 (fadd f32 (fsub f32 (fdiv f32 (fmul f32 x (ec32 x)) (fsub f32 0x40000000 (ec32 x))) lo) hi) K;
  change (fadd f32 (fsub f32 (fdiv f32 (fmul f32 x (ec32 x)) (fsub f32 0x40000000 (ec32 x))) lo) hi) with (ew32 x hi lo) in K.
(** a piece of the range of r *)
Definition pc32 (a b E : Z) : Prop := forall x hi lo r l, AP f32 1 x r (q4 a, q4 b, ex32) -> AP f32 1 hi (r + l) ((q4 a - pl32)%Z, (q4 b + pl32)%Z, 0%Z) -> AP f32 1 lo l ((- pl32)%Z, pl32, el32) ->
  (isbits f32 (ew32 x hi lo) /\ finite f32 (ew32 x hi lo) = true) /\ Rabs (val f32 (ew32 x hi lo) - (r + rat cp32 r)) <= IZR E / IZR (2 ^ 36).
Ltac pgo := intros x hi lo r l A1 A2 A3; pk32 x hi lo r l;
  match goal with K : AP _ _ (ew32 _ _ _) ?e (?a, ?b, ?c) |- _ => let K1 := fresh in let K3 := fresh in destruct K as (K1 & _ & K3); split; [exact K1|]; rewrite !Rmult_1_l in K3; unfold rat;
    match goal with |- Rabs (_ - ?f) <= _ => replace f with e by (replace (8388608 / 4194304) with 2 by lra; unfold Rdiv; ring) end; eapply Rle_trans; [exact K3|] end;
  apply fxr_dy; [reflexivity|vm_compute; reflexivity].
Local Opaque fadd fsub fmul fdiv.
Lemma pcA : pc32 (-3475) (-1700) 3300. Proof. pgo. Qed.
Lemma pcB : pc32 (-1700) (-4) 2000. Proof. pgo. Qed.
Lemma pcC : pc32 (-4) 1700 2000. Proof. pgo. Qed.
Lemma pcD : pc32 1700 3475 4100. Proof. pgo. Qed.
Lemma ker32 x hi lo r l : Rabs r <= fxr (q4 3475) -> AP f32 1 x r (q4 (-3475), q4 3475, ex32) -> AP f32 1 hi (r + l) ((q4 (-3475) - pl32)%Z, (q4 3475 + pl32)%Z, 0%Z) -> AP f32 1 lo l ((- pl32)%Z, pl32, el32) ->
  near f32 r (fadd f32 0x3f800000 (ew32 x hi lo)).
Proof.
  intros Hr A1 A2 A3. destruct o32 as [Fo Vo]. assert (L : - fxr pl32 <= l <= fxr pl32) by (destruct A3 as (_ & A3 & _); rewrite fxr_opp in A3; exact A3).
  assert (R0 : fxr (q4 (-3475)) <= r <= fxr (q4 3475)) by (destruct A1 as (_ & A1 & _); exact A1).
  assert (HR : Rabs r <= 3475 / 10000) by (apply (q4_le 3475), Hr). pose proof (rat32 r HR) as [T _].
  assert (EH : exp r <= 1416 / 1000) by (apply exp_hi; lra). assert (EL : 7062 / 10000 <= exp r) by (apply exp_lo; apply Rabs_le_inv in Hr; lra). pose proof (exp_ineq1_le r) as EI.
  assert (GO : forall a b E, pc32 a b E -> fxr (q4 a) <= r <= fxr (q4 b) -> (isbits f32 (ew32 x hi lo) /\ finite f32 (ew32 x hi lo) = true) /\ Rabs (val f32 (ew32 x hi lo) - (exp r - 1)) <= IZR E / IZR (2 ^ 36) + 24 / 10000000000).
  { intros a b E HP Hab. assert (Hab2 : fxr (q4 a - pl32) <= r + l <= fxr (q4 b + pl32)) by (rewrite fxr_add, fxr_sub; lra).
    destruct (HP x hi lo r l (AP_re _ _ _ _ _ _ _ _ _ A1 Hab) (AP_re _ _ _ _ _ _ _ _ _ A2 Hab2) A3) as [W1 W2]. split; [exact W1|].
    replace (val f32 (ew32 x hi lo) - (exp r - 1)) with ((val f32 (ew32 x hi lo) - (r + rat cp32 r)) + (1 + r + rat cp32 r - exp r)) by ring. eapply Rle_trans; [apply Rabs_triang|]. lra. }
  assert (B54 : bpow radix2 (0 - pr f32 - 1) = / 33554432) by reflexivity. assert (B53 : bpow radix2 (1 - pr f32 - 1) = / 16777216) by reflexivity. assert (B52 : bpow radix2 (- mw f32) = / 8388608) by reflexivity.
  assert (B0 : bpow radix2 0 = 1) by reflexivity. assert (B1 : bpow radix2 1 = 2) by reflexivity.
  change (2 ^ 36)%Z with 68719476736%Z in GO.
  destruct (Rle_lt_dec r (fxr (q4 (-1700)))) as [C1 | C1]; [|destruct (Rle_lt_dec r (fxr (q4 (-4)))) as [C2 | C2]; [|destruct (Rle_lt_dec r (fxr (q4 1700))) as [C3 | C3]]].
  - destruct (GO _ _ _ pcA) as [W1 W2]; [lra|]. apply q4_le in C1. pose proof (exp_neg r ltac:(lra)).
    eapply (near_i f32 _ _ r _ 0 (7062 / 10000) ltac:(vm_compute; discriminate) ltac:(vm_compute; discriminate) Fo Vo W1 W2); try lra; vm_compute; discriminate.
  - destruct (GO _ _ _ pcB) as [W1 W2]; [lra|]. apply q4_le in C2. pose proof (q4_ge (-1700) r ltac:(lra)) as C4. pose proof (exp_neg r ltac:(lra)).
    eapply (near_i f32 _ _ r _ 0 (82 / 100) ltac:(vm_compute; discriminate) ltac:(vm_compute; discriminate) Fo Vo W1 W2); try lra; vm_compute; discriminate.
  - destruct (GO _ _ _ pcC) as [W1 W2]; [lra|]. pose proof (q4_ge (-4) r ltac:(lra)) as C4.
    eapply (near_i f32 _ _ r _ 1 (999 / 1000) ltac:(vm_compute; discriminate) ltac:(vm_compute; discriminate) Fo Vo W1 W2); try lra; vm_compute; discriminate.
  - destruct (GO _ _ _ pcD) as [W1 W2]; [lra|]. pose proof (q4_ge 1700 r ltac:(lra)) as C4.
    eapply (near_i f32 _ _ r _ 1 (1169 / 1000) ltac:(vm_compute; discriminate) ltac:(vm_compute; discriminate) Fo Vo W1 W2); try lra; vm_compute; discriminate.
Qed.

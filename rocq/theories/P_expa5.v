(** The kernel of exp, f64. *)
From Coq Require Import ZArith Reals Lia Lra Bool List Psatz.
From Flocq Require Import Core.
From Verif Require Import Base Spec Format P_format Ieee P_ieee P_real P_lit P_apx P_poly P_powt P_expa1 P_expa2 P_expa3 P_expa4 M_exp.
Import ListNotations.
Open Scope R_scope.

Lemma AP_re F s e R l h er l' h' : AP F s e R (l, h, er) -> fxr l' <= R <= fxr h' -> AP F s e R (l', h', er).
Proof. intros (H1 & _ & H3) H. now split. Qed.
Lemma o64 : finite f64 0x3ff0000000000000 = true /\ val f64 0x3ff0000000000000 = 1.
Proof. split; [reflexivity|]. rewrite (val_lit f64 0x3ff0000000000000 1 1) by (vm_compute; reflexivity). lra. Qed.
Definition P64 : poly := ltac:(let v := eval vm_compute in cp64 in exact v).
Lemma P64_eq : cp64 = P64. Proof. vm_compute. reflexivity. Qed.
Lemma fxr_dy c E k : (0 < k)%Z -> (c * k <=? E * SC)%Z = true -> fxr c <= IZR E / IZR k.
Proof.
  intros Hk H. apply Z.leb_le, IZR_le in H. rewrite !mult_IZR in H. pose proof SC_pos. assert (0 < IZR k) by now apply (IZR_lt 0). unfold fxr.
  apply Rmult_le_reg_r with (IZR SC * IZR k); [now apply Rmult_lt_0_compat|]. replace (IZR c / IZR SC * (IZR SC * IZR k)) with (IZR c * IZR k) by (field; lra). replace (IZR E / IZR k * (IZR SC * IZR k)) with (IZR E * IZR SC) by (field; lra). exact H.
Qed.
Ltac pk64 x hi lo r l :=
  let C := fresh "C" in let K := fresh "K" in
  apy f64 1 (fsub f64 x (fmul f64 (fmul f64 x x) (fadd f64 rs_exp_P1 (fmul f64 (fmul f64 x x) (fadd f64 rs_exp_P2 (fmul f64 (fmul f64 x x) (fadd f64 rs_exp_P3 (fmul f64 (fmul f64 x x) (fadd f64 rs_exp_P4 (fmul f64 (fmul f64 x x) rs_exp_P5)))))))))) C;
  match type of C with AP _ _ _ ?e _ => let R := fresh in assert (R : e = peval cp64 r) by (rewrite P64_eq; cbn [P64 peval fst snd]; unfold Rdiv; rewrite ?Rinv_1; ring); rewrite R in C; clear R end;
  change (fsub f64 x (fmul f64 (fmul f64 x x) (fadd f64 rs_exp_P1 (fmul f64 (fmul f64 x x) (fadd f64 rs_exp_P2 (fmul f64 (fmul f64 x x) (fadd f64 rs_exp_P3 (fmul f64 (fmul f64 x x) (fadd f64 rs_exp_P4 (fmul f64 (fmul f64 x x) rs_exp_P5)))))))))) with (ec64 x) in C;
  apy f64 1 (fadd f64 (fsub f64 (fdiv f64 (fmul f64 x (ec64 x)) (fsub f64 0x4000000000000000 (ec64 x))) lo) hi) K;
  change (fadd f64 (fsub f64 (fdiv f64 (fmul f64 x (ec64 x)) (fsub f64 0x4000000000000000 (ec64 x))) lo) hi) with (ew64 x hi lo) in K.
(** a piece of the range of r *)
Definition pc64 (a b E : Z) : Prop := forall x hi lo r l, AP f64 1 x r (q4 a, q4 b, ex64) -> AP f64 1 hi (r + l) ((q4 a - pl64)%Z, (q4 b + pl64)%Z, 0%Z) -> AP f64 1 lo l ((- pl64)%Z, pl64, el64) ->
  (isbits f64 (ew64 x hi lo) /\ finite f64 (ew64 x hi lo) = true) /\ Rabs (val f64 (ew64 x hi lo) - (r + rat cp64 r)) <= IZR E / IZR (2 ^ 65).
Ltac pgo := intros x hi lo r l A1 A2 A3; pk64 x hi lo r l;
  match goal with K : AP _ _ (ew64 _ _ _) ?e (?a, ?b, ?c) |- _ => let K1 := fresh in let K3 := fresh in destruct K as (K1 & _ & K3); split; [exact K1|]; rewrite !Rmult_1_l in K3; unfold rat;
    match goal with |- Rabs (_ - ?f) <= _ => replace f with e by (replace (4503599627370496 / 2251799813685248) with 2 by lra; unfold Rdiv; ring) end; eapply Rle_trans; [exact K3|] end;
  apply fxr_dy; [reflexivity|vm_compute; reflexivity].
Local Opaque fadd fsub fmul fdiv.
Lemma pcA : pc64 (-3475) (-1700) 3300. Proof. pgo. Qed.
Lemma pcB : pc64 (-1700) (-4) 2000. Proof. pgo. Qed.
Lemma pcC : pc64 (-4) 1700 2000. Proof. pgo. Qed.
Lemma pcD : pc64 1700 3475 4100. Proof. pgo. Qed.
Lemma ker64 x hi lo r l : Rabs r <= fxr (q4 3475) -> AP f64 1 x r (q4 (-3475), q4 3475, ex64) -> AP f64 1 hi (r + l) ((q4 (-3475) - pl64)%Z, (q4 3475 + pl64)%Z, 0%Z) -> AP f64 1 lo l ((- pl64)%Z, pl64, el64) ->
  near f64 r (fadd f64 0x3ff0000000000000 (ew64 x hi lo)).
Proof.
  intros Hr A1 A2 A3. destruct o64 as [Fo Vo]. assert (L : - fxr pl64 <= l <= fxr pl64) by (destruct A3 as (_ & A3 & _); rewrite fxr_opp in A3; exact A3).
  assert (R0 : fxr (q4 (-3475)) <= r <= fxr (q4 3475)) by (destruct A1 as (_ & A1 & _); exact A1).
  assert (HR : Rabs r <= 3475 / 10000) by (apply (q4_le 3475), Hr). pose proof (rat64 r HR) as [T _].
  assert (EH : exp r <= 1416 / 1000) by (apply exp_hi; lra). assert (EL : 7062 / 10000 <= exp r) by (apply exp_lo; apply Rabs_le_inv in Hr; lra). pose proof (exp_ineq1_le r) as EI.
  assert (GO : forall a b E, pc64 a b E -> fxr (q4 a) <= r <= fxr (q4 b) -> (isbits f64 (ew64 x hi lo) /\ finite f64 (ew64 x hi lo) = true) /\ Rabs (val f64 (ew64 x hi lo) - (exp r - 1)) <= IZR E / IZR (2 ^ 65) + / IZR (2 ^ 58)).
  { intros a b E HP Hab. assert (Hab2 : fxr (q4 a - pl64) <= r + l <= fxr (q4 b + pl64)) by (rewrite fxr_add, fxr_sub; lra).
    destruct (HP x hi lo r l (AP_re _ _ _ _ _ _ _ _ _ A1 Hab) (AP_re _ _ _ _ _ _ _ _ _ A2 Hab2) A3) as [W1 W2]. split; [exact W1|].
    replace (val f64 (ew64 x hi lo) - (exp r - 1)) with ((val f64 (ew64 x hi lo) - (r + rat cp64 r)) + (1 + r + rat cp64 r - exp r)) by ring. eapply Rle_trans; [apply Rabs_triang|]. lra. }
  assert (B54 : bpow radix2 (0 - pr f64 - 1) = / 18014398509481984) by reflexivity. assert (B53 : bpow radix2 (1 - pr f64 - 1) = / 9007199254740992) by reflexivity. assert (B52 : bpow radix2 (- mw f64) = / 4503599627370496) by reflexivity.
  assert (B0 : bpow radix2 0 = 1) by reflexivity. assert (B1 : bpow radix2 1 = 2) by reflexivity.
  change (2 ^ 65)%Z with 36893488147419103232%Z in GO. change (2 ^ 58)%Z with 288230376151711744%Z in GO.
  destruct (Rle_lt_dec r (fxr (q4 (-1700)))) as [C1 | C1]; [|destruct (Rle_lt_dec r (fxr (q4 (-4)))) as [C2 | C2]; [|destruct (Rle_lt_dec r (fxr (q4 1700))) as [C3 | C3]]].
  - destruct (GO _ _ _ pcA) as [W1 W2]; [lra|]. apply q4_le in C1. pose proof (exp_neg r ltac:(lra)).
    eapply (near_i f64 _ _ r _ 0 (7062 / 10000) ltac:(vm_compute; discriminate) ltac:(vm_compute; discriminate) Fo Vo W1 W2); try lra; vm_compute; discriminate.
  - destruct (GO _ _ _ pcB) as [W1 W2]; [lra|]. apply q4_le in C2. pose proof (q4_ge (-1700) r ltac:(lra)) as C4. pose proof (exp_neg r ltac:(lra)).
    eapply (near_i f64 _ _ r _ 0 (82 / 100) ltac:(vm_compute; discriminate) ltac:(vm_compute; discriminate) Fo Vo W1 W2); try lra; vm_compute; discriminate.
  - destruct (GO _ _ _ pcC) as [W1 W2]; [lra|]. pose proof (q4_ge (-4) r ltac:(lra)) as C4.
    eapply (near_i f64 _ _ r _ 1 (999 / 1000) ltac:(vm_compute; discriminate) ltac:(vm_compute; discriminate) Fo Vo W1 W2); try lra; vm_compute; discriminate.
  - destruct (GO _ _ _ pcD) as [W1 W2]; [lra|]. pose proof (q4_ge 1700 r ltac:(lra)) as C4.
    eapply (near_i f64 _ _ r _ 1 (1169 / 1000) ltac:(vm_compute; discriminate) ltac:(vm_compute; discriminate) Fo Vo W1 W2); try lra; vm_compute; discriminate.
Qed.

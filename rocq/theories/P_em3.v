(** The kernel of expm1, f64. *)
From Coq Require Import ZArith Reals Lia Lra Bool List Psatz.
From Flocq Require Import Core.
From Verif Require Import Base Spec SpecLog2 Format P_format Ieee P_ieee P_real P_neg P_lit P_err P_apx P_poly P_powt P_powt8 P_taylor P_expa1 P_expa2 P_expa3 P_expa4 P_expa5 P_expa8 P_expa9 P_em1 P_em2 M_exp.
Import ListNotations.
Open Scope R_scope.

(** the reduced argument is X + g, the correction g enters to first order *)
Lemma em_ideal c X g G E0 : Rabs X <= 3475 / 10000 -> Rabs g <= G -> G <= / 1000000 -> Rabs (X - (X * eE c X - X * (X / 2)) - (exp X - 1)) <= E0 * Rabs X -> 0 <= E0 ->
  Rabs (X * (eE c X - g) - g - X * (X / 2) - (X - (exp (X + g) - 1))) <= E0 * (3475 / 10000) + G / 8.
Proof.
  intros HX Hg HG T HE. rewrite exp_plus. pose proof (exp_taylor X 1 ltac:(lra)) as T1. pose proof (exp_taylor g 1 ltac:(lra)) as T2. 
  assert (P1 : forall z, peval (texp 1) z = 1 + z). { intros z. cbn [texp seq map peval fst snd]. change (fz 0) with 1%Z. change (fz 1) with 1%Z. unfold Rdiv. rewrite Rinv_1. ring. } rewrite P1 in T1, T2. change (fz 2) with 2%Z in T1, T2. cbn [pow] in T1, T2.
  pose proof (Rabs_pos X) as X0. pose proof (Rabs_pos g) as G0. assert (A1 : Rabs (exp X - (1 + X)) <= 1208 / 10000) by nra. assert (A2 : Rabs (exp g - (1 + g)) <= / 1000000 * G) by nra.
  assert (A3 : Rabs (exp X) <= 147 / 100). { replace (exp X) with ((exp X - (1 + X)) + (1 + X)) by ring. eapply Rle_trans; [apply Rabs_triang|]. assert (Rabs (1 + X) <= 13475 / 10000) by (apply Rabs_le_inv in HX; apply Rabs_le; lra). lra. }
  set (e := eE c X) in *. set (ex := exp X) in *. set (eg := exp g) in *.
  replace (X * (e - g) - g - X * (X / 2) - (X - (ex * eg - 1))) with (- (X - (X * e - X * (X / 2)) - (ex - 1)) + (ex * (eg - (1 + g)) + g * (ex - (1 + X)))) by ring.
  eapply Rle_trans; [apply Rabs_triang|]. rewrite Rabs_Ropp. apply Rplus_le_compat; [eapply Rle_trans; [exact T|]; apply Rmult_le_compat_l; lra|].
  eapply Rle_trans; [apply Rabs_triang|]. rewrite !Rabs_mult. pose proof (Rabs_pos ex). pose proof (Rabs_pos (eg - (1 + g))). pose proof (Rabs_pos (ex - (1 + X))).
  assert (Rabs ex * Rabs (eg - (1 + g)) <= 147 / 100 * (/ 1000000 * G)) by (apply Rmult_le_compat; lra). assert (Rabs g * Rabs (ex - (1 + X)) <= G * (1208 / 10000)) by (apply Rmult_le_compat; lra). lra.
Qed.
Definition es64 (x : Z) : Z := fmul f64 x (fmul f64 0x3fe0000000000000 x).
Definition eq64 (s : Z) : Z := fadd f64 0x3ff0000000000000 (fmul f64 s (fadd f64 rs_expm1_Q1 (fmul f64 s (fadd f64 rs_expm1_Q2 (fmul f64 s (fadd f64 rs_expm1_Q3 (fmul f64 s (fadd f64 rs_expm1_Q4 (fmul f64 s rs_expm1_Q5))))))))).
Definition et64 (x : Z) : Z := fsub f64 0x4008000000000000 (fmul f64 (eq64 (es64 x)) (fmul f64 0x3fe0000000000000 x)).
Definition ee64 (x : Z) : Z := fmul f64 (es64 x) (fdiv f64 (fsub f64 (eq64 (es64 x)) (et64 x)) (fsub f64 0x4018000000000000 (fmul f64 x (et64 x)))).
Definition E64 (x c : Z) : Z := fsub f64 (fsub f64 (fmul f64 x (fsub f64 (ee64 x) c)) c) (es64 x).
Definition Q64 : poly := ltac:(let v := eval vm_compute in qp64 in exact v).
Lemma Q64_eq : qp64 = Q64. Proof. vm_compute. reflexivity. Qed.
Definition ef64 : Z := (SC / 2 ^ 68)%Z.
Local Opaque fadd fsub fmul fdiv of_int.
(** hxs, r1, t and e, given bounds for x (and 0.5 x) *)
Ltac pe64 x X :=
  let S := fresh "S" in let Q := fresh "Q" in let T := fresh "T" in let EE := fresh "EE" in
  apy f64 1 (fmul f64 x (fmul f64 0x3fe0000000000000 x)) S; change (fmul f64 x (fmul f64 0x3fe0000000000000 x)) with (es64 x) in S;
  match type of S with AP _ _ _ ?e _ => let R := fresh in assert (R : e = X * (X / 2)) by (unfold Rdiv; lra); rewrite R in S; clear R end;
  apy f64 1 (fadd f64 0x3ff0000000000000 (fmul f64 (es64 x) (fadd f64 rs_expm1_Q1 (fmul f64 (es64 x) (fadd f64 rs_expm1_Q2 (fmul f64 (es64 x) (fadd f64 rs_expm1_Q3 (fmul f64 (es64 x) (fadd f64 rs_expm1_Q4 (fmul f64 (es64 x) rs_expm1_Q5)))))))))) Q;
  change (fadd f64 0x3ff0000000000000 (fmul f64 (es64 x) (fadd f64 rs_expm1_Q1 (fmul f64 (es64 x) (fadd f64 rs_expm1_Q2 (fmul f64 (es64 x) (fadd f64 rs_expm1_Q3 (fmul f64 (es64 x) (fadd f64 rs_expm1_Q4 (fmul f64 (es64 x) rs_expm1_Q5)))))))))) with (eq64 (es64 x)) in Q;
  match type of Q with AP _ _ _ ?e _ => let R := fresh in assert (R : e = peval qp64 X) by (rewrite Q64_eq; cbn [Q64 peval fst snd]; field); rewrite R in Q; clear R end;
  apy f64 1 (fsub f64 0x4008000000000000 (fmul f64 (eq64 (es64 x)) (fmul f64 0x3fe0000000000000 x))) T; change (fsub f64 0x4008000000000000 (fmul f64 (eq64 (es64 x)) (fmul f64 0x3fe0000000000000 x))) with (et64 x) in T;
  match type of T with AP _ _ _ ?e _ => let R := fresh in assert (R : e = tE qp64 X) by (unfold tE; field); rewrite R in T; clear R end;
  apy f64 1 (fmul f64 (es64 x) (fdiv f64 (fsub f64 (eq64 (es64 x)) (et64 x)) (fsub f64 0x4018000000000000 (fmul f64 x (et64 x))))) EE;
  change (fmul f64 (es64 x) (fdiv f64 (fsub f64 (eq64 (es64 x)) (et64 x)) (fsub f64 0x4018000000000000 (fmul f64 x (et64 x))))) with (ee64 x) in EE;
  match type of EE with AP _ _ _ ?e _ => let R := fresh in assert (R : e = eE qp64 X) by (unfold eE; replace (IZR 6755399441055744 / IZR 1125899906842624) with 6 by lra; reflexivity); rewrite R in EE; clear R end.
Lemma emk64 x c X g : Rabs X <= 3475 / 10000 -> AP f64 1 x X (q4 (-3475), q4 3475, 0%Z) -> AP f64 1 c g ((- ex64)%Z, ex64, ef64) ->
  AB f64 (E64 x c) (X - (exp (X + g) - 1)) (2 / 5).
Proof.
  intros HX A1 A2. pe64 x X.
  apy f64 1 (fsub f64 (fsub f64 (fmul f64 x (fsub f64 (ee64 x) c)) c) (es64 x)) K. change (fsub f64 (fsub f64 (fmul f64 x (fsub f64 (ee64 x) c)) c) (es64 x)) with (E64 x c) in K.
  destruct K as ([K0 K1] & _ & K3). split; [exact K0|]. split; [exact K1|]. rewrite !Rmult_1_l in K3. destruct (eE64 X HX) as (TT & _).
  assert (Hg : Rabs g <= fxr ex64). { destruct A2 as (_ & A2 & _). rewrite fxr_opp in A2. now apply Rabs_le. }
  assert (EX : fxr ex64 <= 36 / 100 * / 9007199254740992). { apply Rle_trans with (IZR 36 / IZR 900719925474099200); [apply fxr_dy; [reflexivity|vm_compute; reflexivity]|lra]. }
  pose proof (em_ideal qp64 X g _ _ HX Hg ltac:(lra) TT ltac:(left; apply Rinv_0_lt_compat; now apply (IZR_lt 0))) as I.
  match type of K3 with Rabs (?v - ?e) <= _ => replace (v - (X - (exp (X + g) - 1))) with ((v - e) + (e - (X - (exp (X + g) - 1)))) by ring end. eapply Rle_trans; [apply Rabs_triang|].
  change (bpow radix2 (- pr f64)) with (/ 9007199254740992). change (2 ^ 58)%Z with 288230376151711744%Z in I.
  match type of K3 with _ <= fxr ?z => assert (Z1 : fxr z <= IZR 305 / IZR 9007199254740992000) by (apply fxr_dy; [reflexivity|vm_compute; reflexivity]) end. lra.
Qed.

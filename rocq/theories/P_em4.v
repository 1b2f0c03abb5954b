(** expm1: no reduction, and the reduction; f64. *)
From Coq Require Import ZArith Reals Lia Lra Bool List Psatz.
From Flocq Require Import Core.
From Verif Require Import Base Spec SpecLog2 Format P_format Ieee P_ieee P_real P_neg P_lit P_err P_apx P_poly P_powt P_powt8 P_taylor P_expa1 P_expa2 P_expa3 P_expa4 P_expa5 P_expa8 P_expa9 P_em1 P_em2 P_em3 M_exp.
Import ListNotations.
Open Scope R_scope.
Local Opaque fadd fsub fmul fdiv of_int.

Lemma fxr_SC' : fxr SC = 1. Proof. unfold fxr. pose proof SC_pos. field. lra. Qed.
Lemma expm1_lo X : Rabs X <= 3475 / 10000 -> 65 / 100 * Rabs X <= Rabs (exp X - 1).
Proof.
  intros HX. pose proof (exp_taylor X 1 ltac:(lra)) as T1. assert (P1 : peval (texp 1) X = 1 + X). { cbn [texp seq map peval fst snd]. change (fz 0) with 1%Z. change (fz 1) with 1%Z. unfold Rdiv. rewrite Rinv_1. ring. } rewrite P1 in T1. change (fz 2) with 2%Z in T1. cbn [pow] in T1.
  pose proof (Rabs_pos X). assert (Rabs X * Rabs X <= 3475 / 10000 * Rabs X) by (apply Rmult_le_compat_r; lra). pose proof (Rabs_triang_inv X (X - (exp X - 1))) as T. replace (X - (X - (exp X - 1))) with (exp X - 1) in T by ring.
  rewrite <- Rabs_Ropp in T1. replace (- (exp X - (1 + X))) with (X - (exp X - 1)) in T1 by ring. lra.
Qed.
Lemma q4_big n : Rabs n <= 3472 / 10000 -> fxr (q4 (-3475)) <= n <= fxr (q4 3475).
Proof.
  intros Hn. apply Rabs_le_inv in Hn. split; [destruct (Rle_lt_dec (fxr (q4 (-3475))) n) as [A|A]; [exact A|apply Rlt_le, q4_le in A; lra]|].
  destruct (Rle_lt_dec n (fxr (q4 3475))) as [A|A]; [exact A|]. apply Rlt_le, q4_ge in A. lra.
Qed.
(** no reduction: the error relative to x *)
Definition k0res (x : Z) : Z := fsub f64 x (fsub f64 (fmul f64 x (ee64 x)) (es64 x)).
Definition k0_64 (g : Z) : Prop := forall x X s, scal f64 s 1 -> X = s * IZR g -> Rabs X <= 3475 / 10000 -> AP f64 1 x X (q4 (-3475), q4 3475, 0%Z) -> AP f64 s x (IZR g) ((g * SC)%Z, (g * SC)%Z, 0%Z) ->
  (isbits f64 (k0res x) /\ finite f64 (k0res x) = true) /\ Rabs (val f64 (k0res x) - (X - (X * eE qp64 X - X * (X / 2)))) <= s * (IZR 25 / IZR 90071992547409920).
Ltac k0go := intros x X s HS EX HX A1 A2; pe64 x X;
  let K := fresh "K" in apy f64 s (fsub f64 x (fsub f64 (fmul f64 x (ee64 x)) (fmul f64 x (fmul f64 0x3fe0000000000000 x)))) K;
  match goal with K : AP _ _ _ ?e (?a, ?b, ?c) |- _ => match e with IZR _ - _ => 
    let K1 := fresh in let K3 := fresh in destruct K as (K1 & _ & K3); split; [exact K1|];
    match type of K3 with Rabs (?v - s * e) <= _ => replace (s * e) with (X - (X * eE qp64 X - X * (X / 2))) in K3 by (rewrite EX at 1 2 4; lra) end; eapply Rle_trans; [exact K3|] end end;
  apply Rmult_le_compat_l; [destruct HS as [HS _]; lra|]; apply fxr_dy; [reflexivity|vm_compute; reflexivity].
Lemma k0p : k0_64 1. Proof. k0go. Qed.
Lemma k0m : k0_64 (-1). Proof. k0go. Qed.
Lemma em_k0 x : isbits f64 x -> finite f64 x = true -> bpow radix2 (-60) <= Rabs (val f64 x) -> Rabs (val f64 x) <= 3472 / 10000 -> rel_err f64 2 (exp (val f64 x) - 1) (k0res x).
Proof.
  intros B G L H. set (X := val f64 x) in *. set (s := Rabs X) in *. assert (S0 : 0 < s) by (pose proof (bpow_gt_0 radix2 (-60)); lra).
  assert (HS : scal f64 s 1). { split; [lra|]. split; [lia|]. apply Rle_trans with (bpow radix2 (-60) * fxr 1); [|apply Rmult_le_compat_r; [apply fxr_pos; lia|exact L]]. change 1%Z with (2 ^ (200 - 200))%Z. rewrite fxr_pow by lia. rewrite <- bpow_plus. apply bpow_le. vm_compute. discriminate. }
  assert (A1 : AP f64 1 x X (q4 (-3475), q4 3475, 0%Z)). { split; [now split|]. split; [apply q4_big; exact H|]. fold X. rewrite !Rmult_1_l, Rminus_diag_eq, Rabs_R0, fxr_0 by reflexivity. lra. }
  assert (GO : forall g, k0_64 g -> (g = 1 \/ g = -1)%Z -> X = s * IZR g -> rel_err f64 2 (exp X - 1) (k0res x)).
  { intros g HP Hg EX. destruct (HP x X s HS EX) as [[B1 G1] V1]; [fold s; lra|exact A1| |].
    - split; [now split|]. split; [destruct Hg as [-> | ->]; rewrite ?Z.mul_1_l; [rewrite fxr_SC'; lra|change (-1 * SC)%Z with (- SC)%Z; rewrite fxr_opp, fxr_SC'; lra]|]. fold X. rewrite EX at 1. rewrite Rminus_diag_eq, Rabs_R0, fxr_0 by reflexivity. lra.
    - split; [exact B1|]. split; [exact G1|]. destruct (eE64 X) as (T & _); [fold s; lra|]. fold s in T. pose proof (expm1_lo X ltac:(fold s; lra)) as LO. fold s in LO.
      replace (val f64 (k0res x) - (exp X - 1)) with ((val f64 (k0res x) - (X - (X * eE qp64 X - X * (X / 2)))) + (X - (X * eE qp64 X - X * (X / 2)) - (exp X - 1))) by ring. eapply Rle_trans; [apply Rabs_triang|].
      change (bpow radix2 (- mw f64)) with (/ 4503599627370496). change (2 ^ 58)%Z with 288230376151711744%Z in T. lra. }
  unfold s in GO. destruct (Rle_lt_dec 0 X) as [S | S]; [apply (GO _ k0p); [now left|rewrite Rabs_pos_eq by exact S; lra]|apply (GO _ k0m); [now right|rewrite Rabs_left by exact S; change (IZR (-1)) with (-1); lra]].
Qed.
(** the reduction: hi = x - k ln2hi exactly, lo = k ln2lo *)
Lemma em_red x k hi lo : isbits f64 x -> finite f64 x = true -> (Z.abs k <= 1077)%Z -> Rabs (val f64 x - IZR k * ln 2) <= 3472 / 10000 ->
  isbits f64 hi -> finite f64 hi = true -> val f64 hi = val f64 x - IZR k * val f64 rs_exp_LN2HI -> lo = fmul f64 (of_int f64 k) rs_exp_LN2LO ->
  let xr := fsub f64 hi lo in let c := fsub f64 (fsub f64 hi xr) lo in let r := val f64 x - IZR k * ln 2 in
  exists D, (isbits f64 xr /\ finite f64 xr = true) /\ AB f64 (E64 xr c) D (2 / 5) /\ val f64 xr - D = exp r - 1 /\ - (8 / 100) <= D <= 8 / 100 /\ 7062 / 10000 <= exp r <= 1416 / 1000 /\ Rabs (val f64 xr - r) <= / 1000000000.
Proof.
  intros Bx Fx Hk Hr Bh Fhi Vhi Elo xr c r. fold r in Hr. destruct lhi64 as [Fh Vh]. pose proof ln2_b as LB.
  set (l := IZR k * (ln 2 - val f64 rs_exp_LN2HI)).
  assert (VH : val f64 rs_exp_LN2HI = 2977044471 / 4294967296) by (rewrite Vh; change (bpow radix2 (-32)) with (/ 4294967296); lra).
  pose proof (kmul k 1077 _ _ Hk LB) as KL. replace (IZR k * (ln 2 - 2977044471 / 4294967296 - 7382048951581814 / 38685626227668133590597632)) with (l - IZR k * (7382048951581814 / 38685626227668133590597632)) in KL by (unfold l; rewrite VH; ring).
  pose proof (kR _ _ Hk) as KK. change (2 ^ 86)%Z with 77371252455336267181195264%Z in KL.
  assert (Ll : Rabs l <= 3 / 10000000) by (apply Rabs_le; apply Rabs_le_inv in KL; lra).
  assert (HH : val f64 x - IZR k * val f64 rs_exp_LN2HI = r + l) by (unfold r, l; ring). rewrite HH in Vhi.
  destruct (of_int_small f64 k ltac:(vm_compute; discriminate) ltac:(vm_compute; reflexivity) ltac:(lia)) as (Bk & Fk & Vk).
  assert (PL : 23 / 100000000 <= fxr pl64). { unfold pl64, fxr. let v := eval vm_compute in (SC / 2 ^ 22)%Z in change (SC / 2 ^ 22)%Z with v. let v := eval vm_compute in SC in change SC with v. lra. }
  assert (Ll2 : - fxr pl64 <= l <= fxr pl64) by (apply Rabs_le_inv in KL; lra).
  assert (AK : AP f64 1 (of_int f64 k) (IZR k) ((-1077 * SC)%Z, (1077 * SC)%Z, 0%Z)).
  { split; [now split|]. split; [|rewrite Vk, Rmult_1_l; unfold Rminus; rewrite Rplus_opp_r, Rabs_R0, fxr_0; lra]. unfold fxr. rewrite !mult_IZR. pose proof SC_pos. replace (IZR (-1077) * IZR SC / IZR SC) with (IZR (-1077)) by (field; lra). replace (IZR 1077 * IZR SC / IZR SC) with (IZR 1077) by (field; lra). lra. }
  assert (ALO : AP f64 1 lo l ((- pl64)%Z, pl64, el64)).
  { rewrite Elo. apy f64 1 (fmul f64 (of_int f64 k) rs_exp_LN2LO) K. eapply (AP_mv _ _ _ _ _ _ _ (1077 * (SC / 2 ^ 86))); [exact K| | |vm_compute; reflexivity].
    - rewrite Rabs_minus_sym. match goal with |- Rabs (l - ?e) <= _ => replace e with (IZR k * (7382048951581814 / 38685626227668133590597632)) by lra end. eapply Rle_trans; [exact KL|]. 
      unfold fxr. let v := eval vm_compute in (1077 * (SC / 2 ^ 86))%Z in change (1077 * (SC / 2 ^ 86))%Z with v. let v := eval vm_compute in SC in change SC with v. lra.
    - rewrite fxr_opp. exact Ll2. }
  assert (AHI : AP f64 1 hi (r + l) ((q4 (-3475) - pl64)%Z, (q4 3475 + pl64)%Z, 0%Z)).
  { split; [now split|]. split; [rewrite fxr_sub, fxr_add; pose proof (q4_big r Hr); lra|]. rewrite Vhi, Rmult_1_l. unfold Rminus. rewrite Rplus_opp_r, Rabs_R0, fxr_0. lra. }
  assert (AX : AP f64 1 xr r (q4 (-3475), q4 3475, ex64)).
  { unfold xr. apy f64 1 (fsub f64 hi lo) K. replace (r + l - l) with r in K by ring. eapply (AP_mv _ _ _ _ _ _ _ 0); [exact K| | |vm_compute; reflexivity].
    - unfold Rminus. rewrite Rplus_opp_r, Rabs_R0, fxr_0. lra.
    - exact (q4_big r Hr). }
  destruct AX as ([Bxr Gxr] & _ & DX). rewrite !Rmult_1_l in DX. set (X := val f64 xr) in *.
  assert (EX : fxr ex64 <= / 1000000000). { apply Rle_trans with (IZR 1 / IZR 1000000000); [apply fxr_dy; [reflexivity|vm_compute; reflexivity]|lra]. }
  assert (HX : Rabs X <= 34721 / 100000). { replace X with ((X - r) + r) by ring. eapply Rle_trans; [apply Rabs_triang|]. lra. }
  assert (QX : fxr (q4 (-3475)) <= X <= fxr (q4 3475)).
  { apply Rabs_le_inv in HX. split; [destruct (Rle_lt_dec (fxr (q4 (-3475))) X) as [A|A]; [exact A|apply Rlt_le, q4_le in A; lra]|]. destruct (Rle_lt_dec X (fxr (q4 3475))) as [A|A]; [exact A|]. apply Rlt_le, q4_ge in A. lra. }
  assert (AXX : AP f64 1 xr X (q4 (-3475), q4 3475, 0%Z)). { split; [now split|]. split; [exact QX|]. fold X. rewrite !Rmult_1_l, Rminus_diag_eq, Rabs_R0, fxr_0 by reflexivity. lra. }
  (* hi - xr *)
  assert (DX2 : - fxr ex64 <= r - X <= fxr ex64) by (apply Rabs_le_inv in DX; lra).
  assert (AD : AP f64 1 (fsub f64 hi xr) (r + l - X) ((- (ex64 + pl64))%Z, (ex64 + pl64)%Z, ltac:(let v := eval vm_compute in (0 + cdiv (Z.max (Z.abs (- (ex64 + pl64))) (Z.abs (ex64 + pl64)) + 0) (2 ^ pr f64) + 1)%Z in exact v))).
  { pose proof (sum_step f64 ltac:(vm_compute; discriminate) 1 1 scal64 _ _ (r + l - X) _ (- (ex64 + pl64)) (ex64 + pl64) 0 (fsub_spec f64 hi xr Fhi Gxr)) as Q. fold X in Q. rewrite Vhi in Q. apply Q; [rewrite fxr_opp, fxr_add; lra|rewrite Rmult_1_l, Rminus_diag_eq, Rabs_R0, fxr_0 by reflexivity; lra|vm_compute; discriminate]. }
  assert (AC : AP f64 1 c (r - X) ((- ex64)%Z, ex64, ef64)).
  { unfold c. apy f64 1 (fsub f64 (fsub f64 hi xr) lo) K. eapply (AP_mv _ _ _ _ _ _ _ 0); [exact K| | |vm_compute; reflexivity].
    - replace (r + l - X - l - (r - X)) with 0 by ring. rewrite Rabs_R0, fxr_0. lra.
    - rewrite fxr_opp. exact DX2. }
  exists (X - (exp r - 1)). split; [now split|]. split; [pose proof (emk64 xr c X (r - X) ltac:(lra) AXX AC) as Q; replace (X + (r - X)) with r in Q by ring; exact Q|]. split; [ring|].
  pose proof (exp_taylor r 1 ltac:(lra)) as T1. assert (P1 : peval (texp 1) r = 1 + r). { cbn [texp seq map peval fst snd]. change (fz 0) with 1%Z. change (fz 1) with 1%Z. unfold Rdiv. rewrite Rinv_1. ring. } rewrite P1 in T1. change (fz 2) with 2%Z in T1. cbn [pow] in T1. pose proof (Rabs_pos r). assert (A1 : Rabs r * Rabs r <= 1206 / 10000) by nra. 
  assert (EH : exp r <= 1416 / 1000) by (apply exp_hi; pose proof (q4_big r Hr); lra). assert (EL : 7062 / 10000 <= exp r) by (apply exp_lo; pose proof (q4_big r Hr); pose proof (q4_big (- r) ltac:(rewrite Rabs_Ropp; exact Hr)); lra).
  split; [|split; [lra|]; eapply Rle_trans; [exact DX|exact EX]].
  (* |exp r - 1 - r| is at most 0.072 *)
  pose proof (exp_taylor r 2 ltac:(lra)) as T2. assert (P2 : peval (texp 2) r = 1 + r + r * r / 2). { cbn [texp seq map peval fst snd]. change (fz 0) with 1%Z. change (fz 1) with 1%Z. change (fz 2) with 2%Z. unfold Rdiv. rewrite Rinv_1. ring. } rewrite P2 in T2. change (fz 3) with 6%Z in T2. cbn [pow] in T2.
  assert (A2 : Rabs r * (Rabs r * (Rabs r * 1)) <= 42 / 1000) by (rewrite Rmult_1_r; nra). assert (RR : 0 <= r * r <= 1206 / 10000). { rewrite <- (Rabs_pos_eq (r * r)) by nra. rewrite Rabs_mult. nra. }
  apply Rabs_le_inv in T2. lra.
Qed.

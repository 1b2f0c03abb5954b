(** The kernel of expm1f, no reduction, and the reduction. *)
From Coq Require Import ZArith Reals Lia Lra Bool List Psatz.
From Flocq Require Import Core.
From Verif Require Import Base Spec SpecLog2 Format P_format Ieee P_ieee P_real P_neg P_lit P_err P_apx P_poly P_powt P_powt8 P_taylor P_expa1 P_expa2 P_expa3 P_expa4 P_expa5 P_expa6 P_expa8 P_expa9 P_expa12 P_em1 P_em2 P_em3 P_em4 M_exp.
Import ListNotations.
Open Scope R_scope.

Definition es32 (x : Z) : Z := fmul f32 x (fmul f32 0x3f000000 x).
Definition eq32 (s : Z) : Z := fadd f32 0x3f800000 (fmul f32 s (fadd f32 rs_expm1f_Q1 (fmul f32 s rs_expm1f_Q2))).
Definition et32 (x : Z) : Z := fsub f32 0x40400000 (fmul f32 (eq32 (es32 x)) (fmul f32 0x3f000000 x)).
Definition ee32 (x : Z) : Z := fmul f32 (es32 x) (fdiv f32 (fsub f32 (eq32 (es32 x)) (et32 x)) (fsub f32 0x40c00000 (fmul f32 x (et32 x)))).
Definition E32 (x c : Z) : Z := fsub f32 (fsub f32 (fmul f32 x (fsub f32 (ee32 x) c)) c) (es32 x).
Definition Q32 : poly := ltac:(let v := eval vm_compute in qp32 in exact v).
Lemma Q32_eq : qp32 = Q32. Proof. vm_compute. reflexivity. Qed.
Definition ef32 : Z := (SC / 2 ^ 30)%Z.
Definition em32 : Z := (SC / 2 ^ 32)%Z.
Definition pm32 : Z := (140 * SC / 100000)%Z.
Local Opaque fadd fsub fmul fdiv of_int.
(** hxs, r1, t and e, given bounds for x (and 0.5 x) *)
Ltac pe32 x X :=
  let S := fresh "S" in let Q := fresh "Q" in let T := fresh "T" in let EE := fresh "EE" in
  apy f32 1 (fmul f32 x (fmul f32 0x3f000000 x)) S; change (fmul f32 x (fmul f32 0x3f000000 x)) with (es32 x) in S;
  match type of S with AP _ _ _ ?e _ => let R := fresh in assert (R : e = X * (X / 2)) by (unfold Rdiv; lra); rewrite R in S; clear R end;
  apy f32 1 (fadd f32 0x3f800000 (fmul f32 (es32 x) (fadd f32 rs_expm1f_Q1 (fmul f32 (es32 x) rs_expm1f_Q2)))) Q;
  change (fadd f32 0x3f800000 (fmul f32 (es32 x) (fadd f32 rs_expm1f_Q1 (fmul f32 (es32 x) rs_expm1f_Q2)))) with (eq32 (es32 x)) in Q;
  match type of Q with AP _ _ _ ?e _ => let R := fresh in assert (R : e = peval qp32 X) by (rewrite Q32_eq; cbn [Q32 peval fst snd]; field); rewrite R in Q; clear R end;
  apy f32 1 (fsub f32 0x40400000 (fmul f32 (eq32 (es32 x)) (fmul f32 0x3f000000 x))) T; change (fsub f32 0x40400000 (fmul f32 (eq32 (es32 x)) (fmul f32 0x3f000000 x))) with (et32 x) in T;
  match type of T with AP _ _ _ ?e _ => let R := fresh in assert (R : e = tE qp32 X) by (unfold tE; field); rewrite R in T; clear R end;
  apy f32 1 (fmul f32 (es32 x) (fdiv f32 (fsub f32 (eq32 (es32 x)) (et32 x)) (fsub f32 0x40c00000 (fmul f32 x (et32 x))))) EE;
  change (fmul f32 (es32 x) (fdiv f32 (fsub f32 (eq32 (es32 x)) (et32 x)) (fsub f32 0x40c00000 (fmul f32 x (et32 x))))) with (ee32 x) in EE;
  match type of EE with AP _ _ _ ?e _ => let R := fresh in assert (R : e = eE qp32 X) by (unfold eE; replace (IZR 12582912 / IZR 2097152) with 6 by lra; reflexivity); rewrite R in EE; clear R end.
Lemma emk32 x c X g : Rabs X <= 3475 / 10000 -> AP f32 1 x X (q4 (-3475), q4 3475, 0%Z) -> AP f32 1 c g ((- ex32)%Z, ex32, ef32) ->
  AB f32 (E32 x c) (X - (exp (X + g) - 1)) (2 / 5).
Proof.
  intros HX A1 A2. pe32 x X.
  apy f32 1 (fsub f32 (fsub f32 (fmul f32 x (fsub f32 (ee32 x) c)) c) (es32 x)) K. change (fsub f32 (fsub f32 (fmul f32 x (fsub f32 (ee32 x) c)) c) (es32 x)) with (E32 x c) in K.
  destruct K as ([K0 K1] & _ & K3). split; [exact K0|]. split; [exact K1|]. rewrite !Rmult_1_l in K3. destruct (eE32 X HX) as (TT & _).
  assert (Hg : Rabs g <= fxr ex32). { destruct A2 as (_ & A2 & _). rewrite fxr_opp in A2. now apply Rabs_le. }
  assert (EX : fxr ex32 <= 36 / 100 * / 16777216). { apply Rle_trans with (IZR 36 / IZR 1677721600); [apply fxr_dy; [reflexivity|vm_compute; reflexivity]|lra]. }
  pose proof (em_ideal qp32 X g _ _ HX Hg ltac:(lra) TT ltac:(left; apply Rinv_0_lt_compat; now apply (IZR_lt 0))) as I.
  match type of K3 with Rabs (?v - ?e) <= _ => replace (v - (X - (exp (X + g) - 1))) with ((v - e) + (e - (X - (exp (X + g) - 1)))) by ring end. eapply Rle_trans; [apply Rabs_triang|].
  change (bpow radix2 (- pr f32)) with (/ 16777216). change (2 ^ 33)%Z with 8589934592%Z in I.
  match type of K3 with _ <= fxr ?z => assert (Z1 : fxr z <= IZR 335 / IZR 16777216000) by (apply fxr_dy; [reflexivity|vm_compute; reflexivity]) end. lra.
Qed.

(** no reduction: the error relative to x *)
Definition k0resf (x : Z) : Z := fsub f32 x (fsub f32 (fmul f32 x (ee32 x)) (es32 x)).
Definition k0_32 (g : Z) : Prop := forall x X s, scal f32 s (2 ^ 80) -> X = s * IZR g -> Rabs X <= 3475 / 10000 -> AP f32 1 x X (q4 (-3475), q4 3475, 0%Z) -> AP f32 s x (IZR g) ((g * SC)%Z, (g * SC)%Z, 0%Z) ->
  (isbits f32 (k0resf x) /\ finite f32 (k0resf x) = true) /\ Rabs (val f32 (k0resf x) - (X - (X * eE qp32 X - X * (X / 2)))) <= s * (IZR 25 / IZR 167772160).
Ltac k0gof := intros x X s HS EX HX A1 A2; pe32 x X;
  let K := fresh "K" in apy f32 s (fsub f32 x (fsub f32 (fmul f32 x (ee32 x)) (fmul f32 x (fmul f32 0x3f000000 x)))) K;
  match goal with K : AP _ _ _ ?e (?a, ?b, ?c) |- _ => match e with IZR _ - _ => 
    let K1 := fresh in let K3 := fresh in destruct K as (K1 & _ & K3); split; [exact K1|];
    match type of K3 with Rabs (?v - s * e) <= _ => replace (s * e) with (X - (X * eE qp32 X - X * (X / 2))) in K3 by (rewrite EX at 1 2 4; lra) end; eapply Rle_trans; [exact K3|] end end;
  apply Rmult_le_compat_l; [destruct HS as [HS _]; lra|]; apply fxr_dy; [reflexivity|vm_compute; reflexivity].
Lemma k0pf : k0_32 1. Proof. k0gof. Qed.
Lemma k0mf : k0_32 (-1). Proof. k0gof. Qed.
Lemma em_k0f x : isbits f32 x -> finite f32 x = true -> bpow radix2 (-26) <= Rabs (val f32 x) -> Rabs (val f32 x) <= 3472 / 10000 -> rel_err f32 2 (exp (val f32 x) - 1) (k0resf x).
Proof.
  intros B G L H. set (X := val f32 x) in *. set (s := Rabs X) in *. assert (S0 : 0 < s) by (pose proof (bpow_gt_0 radix2 (-26)); lra).
  assert (HS : scal f32 s (2 ^ 80)). { split; [lra|]. split; [lia|]. apply Rle_trans with (bpow radix2 (-26) * fxr (2 ^ 80)); [|apply Rmult_le_compat_r; [apply fxr_pos; lia|exact L]]. change (2 ^ 80)%Z with (2 ^ (200 - 120))%Z. rewrite fxr_pow by lia. rewrite <- bpow_plus. apply bpow_le. vm_compute. discriminate. }
  assert (A1 : AP f32 1 x X (q4 (-3475), q4 3475, 0%Z)). { split; [now split|]. split; [apply q4_big; exact H|]. fold X. rewrite !Rmult_1_l, Rminus_diag_eq, Rabs_R0, fxr_0 by reflexivity. lra. }
  assert (GO : forall g, k0_32 g -> (g = 1 \/ g = -1)%Z -> X = s * IZR g -> rel_err f32 2 (exp X - 1) (k0resf x)).
  { intros g HP Hg EX. destruct (HP x X s HS EX) as [[B1 G1] V1]; [fold s; lra|exact A1| |].
    - split; [now split|]. split; [destruct Hg as [-> | ->]; rewrite ?Z.mul_1_l; [rewrite fxr_SC'; lra|change (-1 * SC)%Z with (- SC)%Z; rewrite fxr_opp, fxr_SC'; lra]|]. fold X. rewrite EX at 1. rewrite Rminus_diag_eq, Rabs_R0, fxr_0 by reflexivity. lra.
    - split; [exact B1|]. split; [exact G1|]. destruct (eE32 X) as (T & _); [fold s; lra|]. fold s in T. pose proof (expm1_lo X ltac:(fold s; lra)) as LO. fold s in LO.
      replace (val f32 (k0resf x) - (exp X - 1)) with ((val f32 (k0resf x) - (X - (X * eE qp32 X - X * (X / 2)))) + (X - (X * eE qp32 X - X * (X / 2)) - (exp X - 1))) by ring. eapply Rle_trans; [apply Rabs_triang|].
      change (bpow radix2 (- mw f32)) with (/ 8388608). change (2 ^ 33)%Z with 8589934592%Z in T. lra. }
  unfold s in GO. destruct (Rle_lt_dec 0 X) as [S | S]; [apply (GO _ k0pf); [now left|rewrite Rabs_pos_eq by exact S; lra]|apply (GO _ k0mf); [now right|rewrite Rabs_left by exact S; change (IZR (-1)) with (-1); lra]].
Qed.
Lemma lhm32 : finite f32 rs_expm1f_LN2_HI = true /\ val f32 rs_expm1f_LN2_HI = IZR 90851 * bpow radix2 (-17).
Proof. split; [reflexivity|]. rewrite (val_lit f32 rs_expm1f_LN2_HI 90851 131072) by (vm_compute; reflexivity). change (bpow radix2 (-17)) with (/ 131072). lra. Qed.
Lemma ln2_e : Rabs (ln 2 - 90851 / 131072 - 9959377 / 1099511627776) <= / IZR (2 ^ 40).
Proof. pose proof ln2_b as L. apply Rabs_le_inv in L. change (2 ^ 86)%Z with 77371252455336267181195264%Z in L. change (2 ^ 40)%Z with 1099511627776%Z. apply Rabs_le. lra. Qed.
(** the reduction: hi = x - k ln2hi exactly, lo = k ln2lo *)
Lemma em_redf x k hi lo : isbits f32 x -> finite f32 x = true -> (Z.abs k <= 151)%Z -> Rabs (val f32 x - IZR k * ln 2) <= 3472 / 10000 ->
  isbits f32 hi -> finite f32 hi = true -> val f32 hi = val f32 x - IZR k * val f32 rs_expm1f_LN2_HI -> lo = fmul f32 (of_int f32 k) rs_expm1f_LN2_LO ->
  let xr := fsub f32 hi lo in let c := fsub f32 (fsub f32 hi xr) lo in let r := val f32 x - IZR k * ln 2 in
  exists D, (isbits f32 xr /\ finite f32 xr = true) /\ AB f32 (E32 xr c) D (2 / 5) /\ val f32 xr - D = exp r - 1 /\ - (8 / 100) <= D <= 8 / 100 /\ 7062 / 10000 <= exp r <= 1416 / 1000 /\ Rabs (val f32 xr - r) <= / 10000000.
Proof.
  intros Bx Fx Hk Hr Bh Fhi Vhi Elo xr c r. fold r in Hr. destruct lhm32 as [Fh Vh]. pose proof ln2_e as LB.
  set (l := IZR k * (ln 2 - val f32 rs_expm1f_LN2_HI)).
  assert (VH : val f32 rs_expm1f_LN2_HI = 90851 / 131072) by (rewrite Vh; change (bpow radix2 (-17)) with (/ 131072); lra).
  pose proof (kmul k 151 _ _ Hk LB) as KL. replace (IZR k * (ln 2 - 90851 / 131072 - 9959377 / 1099511627776)) with (l - IZR k * (9959377 / 1099511627776)) in KL by (unfold l; rewrite VH; ring).
  pose proof (kR _ _ Hk) as KK. change (2 ^ 40)%Z with 1099511627776%Z in KL.
  assert (Ll : Rabs l <= 14 / 10000) by (apply Rabs_le; apply Rabs_le_inv in KL; lra).
  assert (HH : val f32 x - IZR k * val f32 rs_expm1f_LN2_HI = r + l) by (unfold r, l; ring). rewrite HH in Vhi.
  destruct (of_int_small f32 k ltac:(vm_compute; discriminate) ltac:(vm_compute; reflexivity) ltac:(lia)) as (Bk & Fk & Vk).
  assert (PL : 1399 / 1000000 <= fxr pm32). { unfold pm32, fxr. let v := eval vm_compute in (140 * SC / 100000)%Z in change (140 * SC / 100000)%Z with v. let v := eval vm_compute in SC in change SC with v. lra. }
  assert (Ll2 : - fxr pm32 <= l <= fxr pm32) by (apply Rabs_le_inv in KL; lra).
  assert (AK : AP f32 1 (of_int f32 k) (IZR k) ((-151 * SC)%Z, (151 * SC)%Z, 0%Z)).
  { split; [now split|]. split; [|rewrite Vk, Rmult_1_l; unfold Rminus; rewrite Rplus_opp_r, Rabs_R0, fxr_0; lra]. unfold fxr. rewrite !mult_IZR. pose proof SC_pos. replace (IZR (-151) * IZR SC / IZR SC) with (IZR (-151)) by (field; lra). replace (IZR 151 * IZR SC / IZR SC) with (IZR 151) by (field; lra). lra. }
  assert (ALO : AP f32 1 lo l ((- pm32)%Z, pm32, em32)).
  { rewrite Elo. apy f32 1 (fmul f32 (of_int f32 k) rs_expm1f_LN2_LO) K. eapply (AP_mv _ _ _ _ _ _ _ (151 * (SC / 2 ^ 40))); [exact K| | |vm_compute; reflexivity].
    - rewrite Rabs_minus_sym. match goal with |- Rabs (l - ?e) <= _ => replace e with (IZR k * (9959377 / 1099511627776)) by lra end. eapply Rle_trans; [exact KL|]. 
      unfold fxr. let v := eval vm_compute in (151 * (SC / 2 ^ 40))%Z in change (151 * (SC / 2 ^ 40))%Z with v. let v := eval vm_compute in SC in change SC with v. lra.
    - rewrite fxr_opp. exact Ll2. }
  assert (AHI : AP f32 1 hi (r + l) ((q4 (-3475) - pm32)%Z, (q4 3475 + pm32)%Z, 0%Z)).
  { split; [now split|]. split; [rewrite fxr_sub, fxr_add; pose proof (q4_big r Hr); lra|]. rewrite Vhi, Rmult_1_l. unfold Rminus. rewrite Rplus_opp_r, Rabs_R0, fxr_0. lra. }
  assert (AX : AP f32 1 xr r (q4 (-3475), q4 3475, ex32)).
  { unfold xr. apy f32 1 (fsub f32 hi lo) K. replace (r + l - l) with r in K by ring. eapply (AP_mv _ _ _ _ _ _ _ 0); [exact K| | |vm_compute; reflexivity].
    - unfold Rminus. rewrite Rplus_opp_r, Rabs_R0, fxr_0. lra.
    - exact (q4_big r Hr). }
  destruct AX as ([Bxr Gxr] & _ & DX). rewrite !Rmult_1_l in DX. set (X := val f32 xr) in *.
  assert (EX : fxr ex32 <= / 10000000). { apply Rle_trans with (IZR 1 / IZR 10000000); [apply fxr_dy; [reflexivity|vm_compute; reflexivity]|lra]. }
  assert (HX : Rabs X <= 34721 / 100000). { replace X with ((X - r) + r) by ring. eapply Rle_trans; [apply Rabs_triang|]. lra. }
  assert (QX : fxr (q4 (-3475)) <= X <= fxr (q4 3475)).
  { apply Rabs_le_inv in HX. split; [destruct (Rle_lt_dec (fxr (q4 (-3475))) X) as [A|A]; [exact A|apply Rlt_le, q4_le in A; lra]|]. destruct (Rle_lt_dec X (fxr (q4 3475))) as [A|A]; [exact A|]. apply Rlt_le, q4_ge in A. lra. }
  assert (AXX : AP f32 1 xr X (q4 (-3475), q4 3475, 0%Z)). { split; [now split|]. split; [exact QX|]. fold X. rewrite !Rmult_1_l, Rminus_diag_eq, Rabs_R0, fxr_0 by reflexivity. lra. }
  (* hi - xr *)
  assert (DX2 : - fxr ex32 <= r - X <= fxr ex32) by (apply Rabs_le_inv in DX; lra).
  assert (AD : AP f32 1 (fsub f32 hi xr) (r + l - X) ((- (ex32 + pm32))%Z, (ex32 + pm32)%Z, ltac:(let v := eval vm_compute in (0 + cdiv (Z.max (Z.abs (- (ex32 + pm32))) (Z.abs (ex32 + pm32)) + 0) (2 ^ pr f32) + 2 ^ 50)%Z in exact v))).
  { pose proof (sum_step f32 ltac:(vm_compute; discriminate) 1 (2 ^ 50) scal32 _ _ (r + l - X) _ (- (ex32 + pm32)) (ex32 + pm32) 0 (fsub_spec f32 hi xr Fhi Gxr)) as Q. fold X in Q. rewrite Vhi in Q. apply Q; [rewrite fxr_opp, fxr_add; lra|rewrite Rmult_1_l, Rminus_diag_eq, Rabs_R0, fxr_0 by reflexivity; lra|vm_compute; discriminate]. }
  assert (AC : AP f32 1 c (r - X) ((- ex32)%Z, ex32, ef32)).
  { unfold c. apy f32 1 (fsub f32 (fsub f32 hi xr) lo) K. eapply (AP_mv _ _ _ _ _ _ _ 0); [exact K| | |vm_compute; reflexivity].
    - replace (r + l - X - l - (r - X)) with 0 by ring. rewrite Rabs_R0, fxr_0. lra.
    - rewrite fxr_opp. exact DX2. }
  exists (X - (exp r - 1)). split; [now split|]. split; [pose proof (emk32 xr c X (r - X) ltac:(lra) AXX AC) as Q; replace (X + (r - X)) with r in Q by ring; exact Q|]. split; [ring|].
  pose proof (exp_taylor r 1 ltac:(lra)) as T1. assert (P1 : peval (texp 1) r = 1 + r). { cbn [texp seq map peval fst snd]. change (fz 0) with 1%Z. change (fz 1) with 1%Z. unfold Rdiv. rewrite Rinv_1. ring. } rewrite P1 in T1. change (fz 2) with 2%Z in T1. cbn [pow] in T1. pose proof (Rabs_pos r). assert (A1 : Rabs r * Rabs r <= 1206 / 10000) by nra. 
  assert (EH : exp r <= 1416 / 1000) by (apply exp_hi; pose proof (q4_big r Hr); lra). assert (EL : 7062 / 10000 <= exp r) by (apply exp_lo; pose proof (q4_big r Hr); pose proof (q4_big (- r) ltac:(rewrite Rabs_Ropp; exact Hr)); lra).
  split; [|split; [lra|]; eapply Rle_trans; [exact DX|exact EX]].
  (* |exp r - 1 - r| is at most 0.072 *)
  pose proof (exp_taylor r 2 ltac:(lra)) as T2. assert (P2 : peval (texp 2) r = 1 + r + r * r / 2). { cbn [texp seq map peval fst snd]. change (fz 0) with 1%Z. change (fz 1) with 1%Z. change (fz 2) with 2%Z. unfold Rdiv. rewrite Rinv_1. ring. } rewrite P2 in T2. change (fz 3) with 6%Z in T2. cbn [pow] in T2.
  assert (A2 : Rabs r * (Rabs r * (Rabs r * 1)) <= 42 / 1000) by (rewrite Rmult_1_r; nra). assert (RR : 0 <= r * r <= 1206 / 10000). { rewrite <- (Rabs_pos_eq (r * r)) by nra. rewrite Rabs_mult. nra. }
  apply Rabs_le_inv in T2. lra.
Qed.

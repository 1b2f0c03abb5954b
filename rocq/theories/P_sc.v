(** [sincos] against [sin] and [cos]. *)
From Coq Require Import ZArith Reals Lia Lra Bool List Psatz.
From Flocq Require Import Core.
From Verif Require Import Base Spec SpecFun Format P_format Ieee P_ieee P_real P_lit P_neg M_basic M_elib M_rempio2 M_trig
  P_elem P_elem2 P_ival P_ival2 P_tot P_sym P_sym2 P_sym3 P_err P_rem.
Open Scope Z_scope.
Open Scope fl_scope.

(** below 2^-26 the polynomial of the sine does not change the argument *)
Lemma c1_64 : val f64 0x3cb0000000000000 = (1 / 4503599627370496)%R. Proof. lit. Qed.
Lemma c2_64 : val f64 0x3fc5600000000000 = (171 / 1024)%R. Proof. lit. Qed.
Lemma c2m_64 : val f64 0xbfc5600000000000 = (-171 / 1024)%R. Proof. lit. Qed.
Lemma c3_64 : val f64 0x3e40000000000000 = (1 / 134217728)%R. Proof. lit. Qed.
Lemma c4_64 : val f64 0x3e50000000000000 = (1 / 67108864)%R. Proof. lit. Qed.
Lemma k_sin_tiny_pos x : isbits f64 x -> signbit f64 x = false -> 0x3e46a09e00000000 <= a64 x < 0x3e50000000000000 -> rs_k_sin x 0 0 = x.
Proof.
  intros B S H. assert (I : IN f64 (0x3e40000000000000, 0x3e50000000000000) x) by (apply IN_pos64; [exact B|exact S|lia|lia|lia]).
  unfold rs_k_sin. cbv zeta. change (0 =? 0) with true. cbv iota.
  set (c := rs_k_sin_S1 +: _).
  assert (C : IN f64 (0xbfc5600000000000, 0x3fc5600000000000) c) by (subst c; lazymatch goal with |- IN _ _ ?e => let K := fresh "K" in ivl f64 e K; inw K end). clearbody c.
  assert (Z : IN f64 (0, 0x3cb0000000000000) (x *: x)) by (lazymatch goal with |- IN _ _ ?e => let K := fresh "K" in ivl f64 e K; inw K end).
  revert Z. generalize (x *: x). intros z (Bz & Fz & Lz). cbn [fst snd] in Lz. rewrite c1_64 in Lz. replace (val f64 0) with 0%R in Lz by (symmetry; apply zero_ok).
  destruct I as (_ & Fx & Lx). cbn [fst snd] in Lx. rewrite c3_64 in Lx.
  destruct C as (Bc & Fc & Lc). cbn [fst snd] in Lc. rewrite c2_64, c2m_64 in Lc.
  rewrite c4_64 in Lx.
  set (X := val f64 x) in *. set (W := val f64 z) in *. set (K := val f64 c) in *.
  destruct (mul64 z x 1 Fz Fx) as [Fv Ev]; [|apply big1000; lra|].
  { fold W X. rewrite Rabs_pos_eq; nra. }
  fold X W in Ev. set (v := z *: x) in *. pose proof (rnd64_err (W * X)) as E1. rewrite <- Ev in E1. pose proof tiny200 as T.
  rewrite (Rabs_pos_eq (W * X)) in E1 by nra. apply Rabs_le_inv in E1.
  set (V := val f64 v) in *.
  assert (Lv : (- / 4503599627370496 * X * (1 + / 1000000) <= V <= / 4503599627370496 * X * (1 + / 1000000))%R) by nra.
  destruct (mul64 v c 1 Fv Fc) as [Fd Ed]; [|apply big1000; lra|].
  { fold V K. apply Rabs_le. nra. }
  fold V K in Ed. set (d := v *: c) in *. pose proof (rnd64_err (V * K)) as E2. rewrite <- Ed in E2. set (D := val f64 d) in *.
  assert (LK : (Rabs (V * K) <= / 4503599627370496 * X * (1 + / 1000000) * (171 / 1024))%R).
  { rewrite Rabs_mult. apply Rmult_le_compat; try apply Rabs_pos; apply Rabs_le; lra. }
  assert (LD : (Rabs D <= bpow radix2 (-54) * (3 / 4) * Rabs X)%R).
  { rewrite (Rabs_pos_eq X) by lra. change (bpow radix2 (-54)) with (/ 18014398509481984)%R.
    replace D with ((D - V * K) + V * K)%R by ring. eapply Rle_trans; [apply Rabs_triang|]. lra. }
  destruct (add64 x d 2 Fx Fd) as [Fr Er]; [|apply big1000; lra|].
  { fold X D. eapply Rle_trans; [apply Rabs_triang|]. change (bpow radix2 (-54)) with (/ 18014398509481984)%R in LD. rewrite (Rabs_pos_eq X) in * by lra. lra. }
  fold X D in Er. rewrite rnd64_absorb in Er; [|now apply repr_val| |exact LD].
  2:{ rewrite Rabs_pos_eq by lra. eapply Rle_trans; [apply (bpow_le radix2 (-1000) (-100)); lia|]. change (bpow radix2 (-100)) with (/ 1267650600228229401496703205376)%R. lra. }
  apply (val_sign_inj f64); [apply fadd_isbits|exact B|exact Fr|exact Fx|exact Er|].
  rewrite S. apply val_pos_sign. rewrite Er. lra.
Qed.
Lemma k_sin_weak x : isbits f64 x -> rel f64 false true (rs_k_sin x 0 0) (rs_k_sin (fneg f64 x) 0 0).
Proof. intros B. unfold rs_k_sin. cbv zeta. change (0 =? 0) with true. cbv iota. sym. Qed.
Lemma k_sin_tiny x : isbits f64 x -> 0x3e46a09e00000000 <= a64 x < 0x3e50000000000000 -> rs_k_sin x 0 0 = x.
Proof.
  intros B H. destruct (signbit f64 x) eqn:S; [|now apply k_sin_tiny_pos].
  pose proof (fneg_bits f64 x B) as B'. set (p := fneg f64 x) in *.
  assert (Sp : signbit f64 p = false) by (unfold p; now rewrite sign_fneg, S).
  assert (Hp : 0x3e46a09e00000000 <= a64 p < 0x3e50000000000000) by (unfold p; now rewrite a64_fneg).
  assert (E : x = fneg f64 p) by (unfold p; now rewrite fneg_invol).
  pose proof (k_sin_weak p B') as R. rewrite (k_sin_tiny_pos p B' Sp Hp) in R. rewrite <- E in R.
  assert (I : IN f64 (0x3e40000000000000, 0x3e50000000000000) p) by (apply IN_pos64; [exact B'|exact Sp|lia|lia|lia]).
  apply rel_strict in R; [|intros _; apply (IN_nz _ _ _ _ I); vm_compute; reflexivity].
  apply rel_eq in R; [|apply (finite_not_nan f64 p), (IN_fin _ _ _ I)]. rewrite R. now symmetry.
Qed.
Lemma cos_tiny x : isbits f64 x -> a64 x < 0x3e50000000000000 -> to_i32 f64 x = 0.
Proof.
  intros B H. pose proof (bits64 x B) as [_ R].
  assert (I : IN f64 (0xbe50000000000000, 0x3e50000000000000) x).
  { destruct (signbit f64 x) eqn:S.
    - pose proof (IN_neg64 0 0x3e50000000000000 x B S ltac:(lia) ltac:(lia) ltac:(lia)) as I. apply (IN_w f64 _ _ _ I). vm_compute. reflexivity.
    - pose proof (IN_pos64 0 0x3e50000000000000 x B S ltac:(lia) ltac:(lia) ltac:(lia)) as I. apply (IN_w f64 _ _ _ I). vm_compute. reflexivity. }
  eapply iti32_ok in I; [|icomp]. cbn [fst snd] in I. lia.
Qed.
Theorem sincos_ok x : isbits f64 x -> exists s c, rs_sincos x = Some (s, c) /\ rs_sin x = Some s /\ rs_cos x = Some c.
Proof.
  intros B. unfold rs_sincos, rs_sin, rs_cos, rs_cos_1. cbv zeta. words64 x B.
  destruct (_ <=? _) eqn:E1.
  - destruct (a64 x / 2 ^ 32 <? 0x3e46a09e) eqn:E2; destruct (a64 x / 2 ^ 32 <? 0x3e500000) eqn:E3; hi64.
    + rewrite (cos_tiny x B) by lia. rewrite Z.eqb_refl. do 2 eexists. split; [reflexivity|split; reflexivity].
    + lia.
    + do 2 eexists. split; [reflexivity|split; [|reflexivity]]. now rewrite k_sin_tiny by (try assumption; lia).
    + do 2 eexists. split; [reflexivity|split; reflexivity].
  - destruct (0x7ff00000 <=? _) eqn:E2; [do 2 eexists; split; [reflexivity|split; reflexivity]|].
    destruct (rs_rem_pio2 x) as [[[n a] b]|] eqn:E; [|unfold rs_rem_pio2 in E; destruct (rem_pio2_total true x B) as (? & ? & ? & E'); rewrite E in E'; discriminate].
    cbn [bind]. assert (Q : Z.land n 3 = 0 \/ Z.land n 3 = 1 \/ Z.land n 3 = 2 \/ Z.land n 3 = 3).
    { change 3 with (2 ^ 2 - 1) at 1 2 3 4. rewrite land_pow2m1 by lia. pose proof (Z.mod_pos_bound n (2 ^ 2) ltac:(lia)). lia. }
    destruct Q as [-> | [-> | [-> | ->]]]; cbn [Z.eqb Pos.eqb]; do 2 eexists; (split; [reflexivity|split; reflexivity]).
Qed.

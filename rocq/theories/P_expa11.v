(** exp is within epsilon. *)
From Coq Require Import ZArith Reals Lia Lra Bool List Psatz.
From Flocq Require Import Core.
From Verif Require Import Base Spec SpecExp SpecFun2 Format P_format Ieee P_ieee P_real P_neg P_lit P_err P_elem P_elem2 P_dom P_ival P_ival2 P_gam4 P_gam6 P_apx P_poly P_powt P_powt8 P_expa1 P_expa7 P_expa9 P_expa10 M_bits M_exp P_exp P_tot.
Import ListNotations.
Open Scope R_scope.
Local Opaque fadd fsub fmul fdiv of_int.

Lemma acc_eps F v z : 0 <= v -> accr F v z -> within_eps F v z.
Proof. intros H (A & B & D). split; [exact A|]. split; [exact B|]. rewrite (Rabs_pos_eq v) by exact H. exact D. Qed.
Lemma zero_eps F v : 0 <= v <= bpow radix2 (emin F - 1) -> finite F 0 = true -> isbits F 0 -> val F 0 = 0 -> within_eps F v 0.
Proof.
  intros H F0 B0 V0. split; [exact B0|]. split; [exact F0|]. rewrite V0, Rminus_0_l, Rabs_Ropp, (Rabs_pos_eq v) by lra. pose proof (bpow_gt_0 radix2 (- mw F)). unfold emin in H. nra.
Qed.
Lemma exp_mono a b : a <= b -> exp a <= exp b.
Proof. intros [H | ->]; [left; now apply exp_increasing|lra]. Qed.
(** the product of an argument of at least two and 2^emax overflows *)
Lemma over_mul F x c : finite F x = true -> finite F c = true -> val F c = bpow radix2 (bias F) -> 2 <= val F x -> fmul F x c = infinity F false.
Proof.
  intros Fx Fc Vc H. destruct (fmul_spec F x c Fx Fc) as [_ S]. rewrite Vc in S. pose proof (bpow_gt_0 radix2 (bias F)) as P0. pose proof (fmt_facts F). pose proof (bias_facts F).
  assert (L : bpow radix2 (bias F + 1) <= rnd F (val F x * bpow radix2 (bias F))).
  { rewrite <- (repr_rnd F (bpow radix2 (bias F + 1))) by (apply repr_bpow; unfold emin; lia). apply rnd_le. rewrite bpow_plus. change (bpow radix2 1) with 2. nra. }
  pose proof (bpow_gt_0 radix2 (bias F + 1)). rewrite Rabs_pos_eq in S by lra. rewrite Rlt_bool_false in S by exact L. rewrite Rlt_bool_false in S by nra. exact S.
Qed.
Lemma exp_in x : isbits f64 x -> finite f64 x = true -> -6554261109157969 / 8796093022208 <= val f64 x <= 6243314768165359 / 8796093022208 -> exists z, rs_exp x = Some z /\ accr f64 (exp (val f64 x)) z.
Proof.
  intros B Fx H. unfold rs_exp. cbv zeta. rewrite (ix64 x B), (hw64 x B), (shr31 _ _ (a64_hi x B)), toi1. 
  pose proof (exp_1_ok x 0x7fe0000000000000 B Fx ltac:(lra)) as E.
  destruct (_ <=? _)%Z; [|exact E]. rewrite is_nan_eq by assumption.
  rewrite (finite_not_nan f64 x Fx). rewrite fgtR by (assumption || reflexivity). rewrite v6, Rlt_bool_false by lra.
  destruct (flt f64 x 0xc086232bdd7abcd2)%Z; [|exact E]. rewrite fltR by (assumption || reflexivity). rewrite v7, Rlt_bool_false by lra. exact E.
Qed.
Lemma big64 x : isbits f64 x -> finite f64 x = true -> 6243314768165359 / 8796093022208 < val f64 x -> 390207173010335 / 549755813888 <= val f64 x.
Proof.
  intros B Fx H. destruct (a64_ge x 0x40862e42fefa39f0 B Fx ltac:(split; [discriminate|reflexivity])) as [G1 G2]. change (0x40862e42fefa39f0 - 1)%Z with 0x40862e42fefa39ef%Z in G2. rewrite v8 in G1. rewrite v6 in G2. rewrite Rabs_pos_eq in G1, G2 by lra.
  destruct (0x40862e42fefa39f0 <=? a64 x)%Z; [exact (G1 eq_refl)|specialize (G2 eq_refl); lra].
Qed.
Lemma small64 x : isbits f64 x -> finite f64 x = true -> val f64 x < -6554261109157969 / 8796093022208 -> val f64 x <= - (3277130554578985 / 4398046511104).
Proof.
  intros B Fx H. destruct (a64_ge x 0x40874910d52d3052 B Fx ltac:(split; [discriminate|reflexivity])) as [G1 G2]. change (0x40874910d52d3052 - 1)%Z with 0x40874910d52d3051%Z in G2. rewrite v9 in G1.
  assert (v7' : val f64 0x40874910d52d3051 = 6554261109157969 / 8796093022208) by lit. rewrite v7' in G2. rewrite Rabs_left in G1, G2 by lra.
  destruct (0x40874910d52d3052 <=? a64 x)%Z; [specialize (G1 eq_refl); lra|specialize (G2 eq_refl); lra].
Qed.
Lemma hx_big x c : isbits f64 x -> finite f64 x = true -> (0 <= c)%Z -> val f64 (c * 2 ^ 32) <= Rabs (val f64 x) -> (c * 2 ^ 32 < 0x7ff0000000000000)%Z -> val f64 (c * 2 ^ 32 - 1) < val f64 (c * 2 ^ 32) -> (c <=? a64 x / 2 ^ 32)%Z = true.
Proof.
  intros B Fx Hc H L M. rewrite hi_le by exact Hc. destruct (a64_ge x (c * 2 ^ 32) B Fx ltac:(lia)) as [_ G]. destruct (_ <=? _)%Z; [reflexivity|]. specialize (G eq_refl). lra.
Qed.
Lemma v10 : val f64 0x4086232b00000000 = 1450795 / 2048. Proof. lit. Qed.
Lemma v11 : val f64 0x4086232affffffff = 6231117078200319 / 8796093022208. Proof. lit. Qed.
Lemma v12 : val f64 0xc086232bdd7abcd2 = -3115560397004393 / 4398046511104. Proof. lit. Qed.
Lemma v13 : val f64 0x7fe0000000000000 = bpow radix2 1023.
Proof. rewrite (val_lit f64 0x7fe0000000000000 (2 ^ 1023) 1) by (vm_compute; reflexivity). change (bpow radix2 1023) with (IZR (2 ^ 1023)). unfold Rdiv. rewrite Rinv_1. ring. Qed.
Theorem exp_within : exp_like f64 rs_exp exp.
Proof.
  intros x B Fx. set (X := val f64 x) in *. pose proof ln2_b as LB. apply Rabs_le_inv in LB. change (2 ^ 86)%Z with 77371252455336267181195264%Z in LB.
  assert (HX : forall T, 1450795 / 2048 <= Rabs X -> (forall b, b = true -> T b) -> T (0x4086232b <=? a64 x / 2 ^ 32)%Z).
  { intros T HT K. apply K. apply hx_big; try assumption; try reflexivity; try discriminate; change (0x4086232b * 2 ^ 32)%Z with 0x4086232b00000000%Z; change (0x4086232b00000000 - 1)%Z with 0x4086232affffffff%Z; rewrite ?v10, ?v11; [exact HT|lra]. }
  destruct (Rle_lt_dec X (6243314768165359 / 8796093022208)) as [U | U].
  - assert (E1 : exp X < bpow radix2 (bias f64 + 1)). { change (bias f64 + 1)%Z with 1024%Z. rewrite <- exp_ln2. apply exp_increasing. lra. }
    split; [intros _|lra]. destruct (Rle_lt_dec (-6554261109157969 / 8796093022208) X) as [L | L].
    + destruct (exp_in x B Fx (conj L U)) as (z & Ez & Az). exists z. split; [exact Ez|]. apply acc_eps; [left; apply exp_pos|exact Az].
    + exists 0%Z. pose proof (small64 x B Fx L) as L2. fold X in L2. split.
      * unfold rs_exp. cbv zeta. rewrite (ix64 x B), (hw64 x B), (shr31 _ _ (a64_hi x B)), toi1. apply (HX (fun b => (if b then _ else _) = _)); [rewrite Rabs_left by lra; lra|]. intros b ->.
        rewrite is_nan_eq, (finite_not_nan f64 x Fx) by assumption. rewrite fgtR by (assumption || reflexivity). rewrite v6, Rlt_bool_false by (fold X; lra).
        rewrite !fltR by (assumption || reflexivity). rewrite v12, v7, !Rlt_bool_true by (fold X; lra). reflexivity.
      * apply zero_eps; [split; [left; apply exp_pos|]|reflexivity|split; [discriminate|reflexivity]|apply zero64]. change (emin f64 - 1)%Z with (-1075)%Z. rewrite <- exp_ln2. apply exp_mono. lra.
  - pose proof (big64 x B Fx U) as U2. fold X in U2. assert (E1 : bpow radix2 (bias f64 + 1) <= exp X). { change (bias f64 + 1)%Z with 1024%Z. rewrite <- exp_ln2. apply exp_mono. lra. }
    split; [lra|intros _]. unfold rs_exp. cbv zeta. rewrite (ix64 x B), (hw64 x B), (shr31 _ _ (a64_hi x B)), toi1. apply (HX (fun b => (if b then _ else _) = _)); [rewrite Rabs_pos_eq by lra; lra|]. intros b ->.
    rewrite is_nan_eq, (finite_not_nan f64 x Fx) by assumption. rewrite fgtR by (assumption || reflexivity). rewrite v6, Rlt_bool_true by (fold X; lra). f_equal. apply over_mul; [exact Fx|reflexivity|exact v13|fold X; lra].
Qed.
Print Assumptions exp_within.

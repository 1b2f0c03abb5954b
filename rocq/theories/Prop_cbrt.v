(** C34: cube roots; C30: [cbrt] is odd. *)
From Coq Require Import ZArith Reals Lia Lra Bool.
From Flocq Require Import Core.
From Verif Require Import Base Spec SpecAcc SpecSym SpecRoot Format P_format Ieee P_ieee P_lit P_neg M_pow P_sym4 P_sym2 P_cbrtf P_cbrt3.
Open Scope Z_scope.

(** Every real has exactly one real cube root, so [cube_root] determines [v]. *)
Lemma root_pos a : (0 < a)%R -> exists v, (v * v * v = a)%R.
Proof. intros H. exists (Rpower a (/ 3)). rewrite <- !Rpower_plus. replace (/ 3 + / 3 + / 3)%R with 1%R by field. now apply Rpower_1. Qed.
Theorem cube_root_unique_exists F x : exists v, cube_root F x v /\ forall w, cube_root F x w -> w = v.
Proof.
  assert (E : exists v, cube_root F x v).
  { unfold cube_root. destruct (Rtotal_order (val F x) 0) as [L | [-> | L]].
    - destruct (root_pos (- val F x)) as [v H]; [lra|]. exists (- v)%R. replace (- v * - v * - v)%R with (- (v * v * v))%R by ring. lra.
    - exists 0%R. ring.
    - apply root_pos. lra. }
  destruct E as [v H]. exists v. split; [exact H|]. intros w W. apply cube_inj. unfold cube_root in *. congruence.
Qed.

(** [cbrtf] returns one of the two floats next to the cube root. *)
Theorem C34_cbrtf : forall x v, isbits f32 x -> finite f32 x = true -> cube_root f32 x v -> exists r, rs_cbrtf x = Some r /\ faithful f32 v r.
Proof. exact cbrtf_faithful. Qed.

(** The property for [cbrt]: the result is the correctly rounded cube root. *)
Definition C34_cbrt_full : Prop := forall x v, isbits f64 x -> finite f64 x = true -> cube_root f64 x v -> exists r, rs_cbrt x = Some r /\ isbits f64 r /\ finite f64 r = true /\ val f64 r = rnd f64 v.
(** Proved: one of the two neighbours always, and the nearest one unless the cube root is within 2^-47 of the gap between the neighbours of their midpoint.
    Missing: a proof that the arguments with such a cube root, other than the two the code lists, are rounded correctly as well; this needs a search for all of them. *)
Theorem C34_cbrt_partial : forall x v, isbits f64 x -> finite f64 x = true -> cube_root f64 x v -> exists r, rs_cbrt x = Some r /\ nearly_correct f64 (/ IZR (2 ^ 47)) v r.
Proof. exact cbrt_near. Qed.

(** On cubes both functions are exact. *)
Lemma exact_of_faithful F v r c : (F = f64 \/ F = f32) -> faithful F v r -> finite F c = true -> val F c = v -> val F r = v.
Proof.
  intros HF (_ & _ & H) Fc E. assert (G : generic_format radix2 (FLT_exp (1 - bias F - mw F) (mw F + 1)) v) by (rewrite <- E; exact (P_real.repr_val F c Fc)).
  unfold below, above in H. rewrite !round_generic in H by (try apply valid_rnd_DN; try apply valid_rnd_UP; exact G). now destruct H.
Qed.
Lemma bits_of_val F r c : isbits F r -> isbits F c -> finite F r = true -> finite F c = true -> val F r = val F c -> val F c <> 0%R -> r = c.
Proof.
  intros B B' Fr Fc E N. apply (val_sign_inj F); auto. destruct (Rtotal_order (val F c) 0) as [L | [L | L]]; [|contradiction|].
  - rewrite !val_neg_sign; [reflexivity|exact L|rewrite E; exact L].
  - rewrite !val_pos_sign; [reflexivity|lra|rewrite E; lra].
Qed.
Lemma zero_bits F x : isbits F x -> finite F x = true -> val F x = 0%R -> iszero F x = true.
Proof. intros B Fx V. exact (val_eq_0 F x B Fx V). Qed.
Lemma signed_zero F x : isbits F x -> iszero F x = true -> x = zero F (signbit F x).
Proof.
  intros B Z. destruct (zero_fields F (signbit F x)) as (B' & Z' & S' & F'). pose proof (iszero_finite F x Z) as Fx. apply (val_sign_inj F); auto. rewrite (iszero_val F _ Z), (iszero_val F _ Z'). reflexivity.
Qed.
Theorem C34_cbrt_exact : forall x c, isbits f64 x -> isbits f64 c -> finite f64 x = true -> finite f64 c = true -> cube_root f64 x (val f64 c) -> signbit f64 c = signbit f64 x -> rs_cbrt x = Some c.
Proof.
  intros x c Bx Bc Fx Fc H S. destruct (Req_dec (val f64 c) 0) as [Z | Z].
  - assert (Vx : val f64 x = 0%R) by (unfold cube_root in H; rewrite <- H, Z; ring). rewrite (signed_zero f64 x Bx (zero_bits _ _ Bx Fx Vx)), (signed_zero f64 c Bc (zero_bits _ _ Bc Fc Z)), S. destruct (signbit f64 x); vm_compute; reflexivity.
  - destruct (C34_cbrt_partial x _ Bx Fx H) as (r & E & N & _). rewrite E. f_equal. pose proof (exact_of_faithful f64 _ r c (or_introl eq_refl) N Fc eq_refl) as V. destruct N as (Br & Fr & _). now apply (bits_of_val f64).
Qed.
Theorem C34_cbrtf_exact : forall x c, isbits f32 x -> isbits f32 c -> finite f32 x = true -> finite f32 c = true -> cube_root f32 x (val f32 c) -> signbit f32 c = signbit f32 x -> rs_cbrtf x = Some c.
Proof.
  intros x c Bx Bc Fx Fc H S. destruct (Req_dec (val f32 c) 0) as [Z | Z].
  - assert (Vx : val f32 x = 0%R) by (unfold cube_root in H; rewrite <- H, Z; ring). rewrite (signed_zero f32 x Bx (zero_bits _ _ Bx Fx Vx)), (signed_zero f32 c Bc (zero_bits _ _ Bc Fc Z)), S. destruct (signbit f32 x); vm_compute; reflexivity.
  - destruct (C34_cbrtf x _ Bx Fx H) as (r & E & N). rewrite E. f_equal. pose proof (exact_of_faithful f32 _ r c (or_intror eq_refl) N Fc eq_refl) as V. destruct N as (Br & Fr & _). now apply (bits_of_val f32).
Qed.

(** Both are odd (for the f32 form see also C30_cbrtf), which with C31_cbrt and C31_cbrtf covers zeros, infinities and NaNs. *)
Theorem C30_cbrt : odd_fn f64 rs_cbrt.
Proof. exact cbrt_opposite. Qed.
Theorem C34_cbrtf_odd : odd_fn f32 rs_cbrtf.
Proof. apply odd_intro; [exact cbrtf_tot|exact cbrtf_odd]. Qed.

Print Assumptions C34_cbrtf.
Print Assumptions C34_cbrt_partial.
Print Assumptions C34_cbrt_exact.
Print Assumptions C34_cbrtf_exact.
Print Assumptions C30_cbrt.
Print Assumptions C34_cbrtf_odd.

(** cbrt(27) = 3, cbrt(-8) = -2, cbrt(2^-1074) = 2^-358; the cube root of 2 rounded to nearest; the first argument the code lists. *)
Example ex_cbrt : rs_cbrt 0x403b000000000000 = Some 0x4008000000000000 /\ rs_cbrt 0xc020000000000000 = Some 0xc000000000000000 /\ rs_cbrt 1 = Some ((1023 - 358) * 2 ^ 52) /\ rs_cbrt 0x4000000000000000 = Some 0x3ff428a2f98d728b.
Proof. vm_compute. auto. Qed.
Example ex_cbrt_hard : rs_cbrt 0x4009b78223aa307c = Some 0x3ff79d15d0e8d59c /\ rs_cbrt 0xc009b78223aa307c = Some 0xbff79d15d0e8d59c.
Proof. vm_compute. auto. Qed.
Example ex_cbrtf34 : rs_cbrtf 0x41d80000 = Some 0x40400000 /\ rs_cbrtf 0xc1000000 = Some 0xc0000000 /\ rs_cbrtf 0x7f800000 = Some 0x7f800000.
Proof. vm_compute. auto. Qed.
(** The hypotheses are satisfiable and 3 is the cube root of 27. *)
Example ex_root : cube_root f64 0x403b000000000000 (val f64 0x4008000000000000).
Proof. unfold cube_root. assert (E : val f64 0x4008000000000000 = (3 / 1)%R) by lit. assert (G : val f64 0x403b000000000000 = (27 / 1)%R) by lit. rewrite E, G. lra. Qed.

(** Relative errors of f64 expressions without cancellation. *)
From Coq Require Import ZArith Reals Lia Lra Bool List Psatz.
From Flocq Require Import Core.
From Verif Require Import Base Spec Format P_format Ieee P_ieee P_real P_err.
Open Scope R_scope.

Definition u52 : R := / 4503599627370496.
(** [e] evaluates to [r] within [k] units of 2^-52, relatively; [r] is positive and far from the ends of the exponent range *)
Definition RP (e : Z) (r k : R) : Prop :=
  isbits f64 e /\ finite f64 e = true /\ 0 <= k <= 1000 /\ bpow radix2 (-900) <= r <= bpow radix2 900 /\ Rabs (val f64 e - r) <= k * u52 * r.
Lemma RP_pos e r k : RP e r k -> 0 < r.
Proof. intros (_ & _ & _ & [H _] & _). pose proof (bpow_gt_0 radix2 (-900)). lra. Qed.
Lemma RP_val e r k : RP e r k -> r * (1 - k * u52) <= val f64 e <= r * (1 + k * u52) /\ 1 / 2 * r <= val f64 e <= 2 * r.
Proof.
  intros H. pose proof (RP_pos _ _ _ H) as P. destruct H as (_ & _ & K & _ & E). apply Rabs_le_inv in E. unfold u52 in *.
  assert (k * / 4503599627370496 * r <= 1 / 2 * r) by (apply Rmult_le_compat_r; lra). lra.
Qed.
Lemma RP_fin e r k : RP e r k -> isbits f64 e /\ finite f64 e = true.
Proof. intros (A & B & _). auto. Qed.
Lemma RP_exact e : isbits f64 e -> finite f64 e = true -> bpow radix2 (-900) <= val f64 e <= bpow radix2 900 -> RP e (val f64 e) 0.
Proof. intros B F H. split; [exact B|]. split; [exact F|]. split; [lra|]. split; [exact H|]. rewrite Rminus_diag_eq, Rabs_R0 by reflexivity. lra. Qed.
Lemma RP_le e r k k' : RP e r k -> k <= k' <= 1000 -> RP e r k'.
Proof.
  intros H K. pose proof (RP_pos _ _ _ H) as P. destruct H as (A & B & C & D & E). split; [exact A|]. split; [exact B|]. split; [lra|]. split; [exact D|]. eapply Rle_trans; [exact E|].
  apply Rmult_le_compat_r; [lra|]. apply Rmult_le_compat_r; [unfold u52; lra|lra].
Qed.
Lemma rnd_step y t r a : val f64 y = rnd f64 t -> bpow radix2 (-1000) <= t -> 0 < r -> 0 <= a <= 2000 -> Rabs (t - r) <= a * u52 * r -> Rabs (val f64 y - r) <= (a + 3 / 4) * u52 * r.
Proof.
  intros -> T R A E. assert (T0 : 0 < t) by (pose proof (bpow_gt_0 radix2 (-1000)); lra).
  pose proof (rnd64_rel t ltac:(rewrite Rabs_pos_eq by lra; eapply Rle_trans; [|exact T]; apply bpow_le; lia)) as Q. change (bpow radix2 (-53)) with (/ 9007199254740992) in Q. rewrite (Rabs_pos_eq t) in Q by lra.
  replace (rnd f64 t - r) with ((rnd f64 t - t) + (t - r)) by ring. eapply Rle_trans; [apply Rabs_triang|]. unfold u52 in *. apply Rabs_le_inv in E.
  assert (a * / 4503599627370496 * r <= / 2 * r) by (apply Rmult_le_compat_r; lra).
  assert (t <= 3 / 2 * r) by lra. assert (Rabs (t - r) <= a * / 4503599627370496 * r) by (apply Rabs_le; lra). lra.
Qed.
Lemma mulerr x y a b r s : 0 < r -> 0 < s -> 0 <= a <= 1000 -> 0 <= b <= 1000 -> Rabs (x - r) <= a * u52 * r -> Rabs (y - s) <= b * u52 * s -> Rabs (x * y - r * s) <= (a + b + / 1000) * u52 * (r * s).
Proof.
  intros R S A B E1 E2. replace (x * y - r * s) with ((x - r) * (y - s) + (x - r) * s + r * (y - s)) by ring.
  eapply Rle_trans; [apply Rabs_triang|]. eapply Rle_trans; [apply Rplus_le_compat_r, Rabs_triang|]. rewrite !Rabs_mult, (Rabs_pos_eq r), (Rabs_pos_eq s) by lra.
  set (d1 := Rabs (x - r)) in *. set (d2 := Rabs (y - s)) in *. assert (0 <= d1) by apply Rabs_pos. assert (0 <= d2) by apply Rabs_pos.
  assert (P1 : d1 * s <= a * u52 * r * s) by (apply Rmult_le_compat_r; lra). assert (P2 : r * d2 <= r * (b * u52 * s)) by (apply Rmult_le_compat_l; lra).
  assert (P3 : d1 * d2 <= (a * u52 * r) * (b * u52 * s)) by (apply Rmult_le_compat; lra).
  assert (RS : 0 < r * s) by (apply Rmult_lt_0_compat; lra). assert (U : 0 < u52 <= / 4503599627370496) by (unfold u52; lra).
  assert (AB : a * b * u52 <= / 1000). { assert (a * b <= 1000 * 1000) by (apply Rmult_le_compat; lra). assert (0 <= a * b) by (apply Rmult_le_pos; lra). assert (a * b * u52 <= 1000 * 1000 * / 4503599627370496) by (apply Rmult_le_compat; lra). lra. }
  assert (P4 : a * b * u52 * (u52 * (r * s)) <= / 1000 * (u52 * (r * s))) by (apply Rmult_le_compat_r; [apply Rmult_le_pos; lra|exact AB]).
  replace (a * u52 * r * (b * u52 * s)) with (a * b * u52 * (u52 * (r * s))) in P3 by ring. lra.
Qed.
Lemma m900 a : bpow radix2 (-900) <= a -> 0 < a. Proof. intros H. pose proof (bpow_gt_0 radix2 (-900)). lra. Qed.
Lemma half900 t r : bpow radix2 (-900) <= r -> 1 / 2 * r <= t -> bpow radix2 (-1000) <= t.
Proof. intros H1 H2. apply Rle_trans with (1 / 2 * bpow radix2 (-900)); [|lra]. apply Rle_trans with (bpow radix2 (-901)); [apply bpow_le; lia|]. change (-900)%Z with (1 + -901)%Z. rewrite bpow_plus. change (bpow radix2 1) with 2. lra. Qed.
Lemma up900 t r : r <= bpow radix2 900 -> t <= 4 * r -> 0 < t -> Rabs t <= bpow radix2 1000.
Proof. intros H1 H2 H. rewrite Rabs_pos_eq by lra. apply Rle_trans with (4 * bpow radix2 900); [lra|]. change 4 with (bpow radix2 2). rewrite <- bpow_plus. apply bpow_le. lia. Qed.
Lemma RP_mul x y r s a b : RP x r a -> RP y s b -> a + b + 1 <= 1000 -> bpow radix2 (-900) <= r * s <= bpow radix2 900 -> RP (fmul f64 x y) (r * s) (a + b + 1).
Proof.
  intros Hx Hy K M. pose proof (RP_pos _ _ _ Hx) as R. pose proof (RP_pos _ _ _ Hy) as S. destruct Hx as (Bx & Fx & Ka & _ & Ex). destruct Hy as (By & Fy & Kb & _ & Ey).
  pose proof (mulerr _ _ _ _ _ _ R S Ka Kb Ex Ey) as E. assert (RS : 0 < r * s) by (apply Rmult_lt_0_compat; lra).
  assert (E' := E). apply Rabs_le_inv in E'. assert (U : (a + b + / 1000) * u52 * (r * s) <= 1 / 2 * (r * s)) by (apply Rmult_le_compat_r; [lra|]; unfold u52; lra).
  destruct (mul64 x y (bpow radix2 1000) Fx Fy) as [F V]; [apply (up900 _ (r * s)); lra|apply Rle_refl|].
  split; [apply fmul_isbits|]. split; [exact F|]. split; [lra|]. split; [exact M|].
  eapply Rle_trans; [apply (rnd_step _ _ (r * s) (a + b + / 1000) V); try lra; apply (half900 _ (r * s)); lra|].
  apply Rmult_le_compat_r; [lra|]. apply Rmult_le_compat_r; [unfold u52; lra|lra].
Qed.
Lemma RP_add x y r s a b k : RP x r a -> RP y s b -> a <= k -> b <= k -> k + 1 <= 1000 -> r + s <= bpow radix2 900 -> RP (fadd f64 x y) (r + s) (k + 1).
Proof.
  intros Hx Hy A B K M. pose proof (RP_pos _ _ _ Hx) as R. pose proof (RP_pos _ _ _ Hy) as S. destruct Hx as (Bx & Fx & Ka & L & Ex). destruct Hy as (By & Fy & Kb & _ & Ey).
  assert (U0 : 0 < u52) by (unfold u52; lra).
  assert (E : Rabs (val f64 x + val f64 y - (r + s)) <= k * u52 * (r + s)).
  { replace (val f64 x + val f64 y - (r + s)) with ((val f64 x - r) + (val f64 y - s)) by ring. eapply Rle_trans; [apply Rabs_triang|].
    assert (a * u52 * r <= k * u52 * r) by (apply Rmult_le_compat_r; [lra|apply Rmult_le_compat_r; lra]). assert (b * u52 * s <= k * u52 * s) by (apply Rmult_le_compat_r; [lra|apply Rmult_le_compat_r; lra]). lra. }
  assert (E' := E). apply Rabs_le_inv in E'. assert (U : k * u52 * (r + s) <= 1 / 2 * (r + s)) by (apply Rmult_le_compat_r; [lra|]; unfold u52; lra).
  destruct (add64 x y (bpow radix2 1000) Fx Fy) as [F V]; [apply (up900 _ (r + s)); lra|apply Rle_refl|].
  split; [apply fadd_isbits|]. split; [exact F|]. split; [lra|]. split; [split; [lra|exact M]|].
  eapply Rle_trans; [apply (rnd_step _ _ (r + s) k V); try lra; apply (half900 _ (r + s)); lra|].
  apply Rmult_le_compat_r; [lra|]. apply Rmult_le_compat_r; lra.
Qed.
Lemma inverr y b s : 0 < s -> 0 <= b <= 1000 -> Rabs (y - s) <= b * u52 * s -> 0 < y /\ Rabs (/ y - / s) <= (b + / 1000) * u52 * / s.
Proof.
  intros S B E. assert (U : 0 < u52 <= / 4503599627370496) by (unfold u52; lra). assert (BU : 0 <= b * u52 <= 1000 * / 4503599627370496) by (split; [apply Rmult_le_pos; lra|apply Rmult_le_compat; lra]).
  assert (E' := E). apply Rabs_le_inv in E'. assert (BS : b * u52 * s <= 1000 * / 4503599627370496 * s) by (apply Rmult_le_compat_r; lra).
  assert (Y : 0 < y) by lra. split; [exact Y|]. replace (/ y - / s) with ((s - y) * / y * / s) by (field; lra). assert (I := Rinv_0_lt_compat _ S). assert (IY := Rinv_0_lt_compat _ Y).
  rewrite !Rabs_mult, (Rabs_pos_eq (/ y)), (Rabs_pos_eq (/ s)) by lra. apply Rmult_le_compat_r; [lra|]. rewrite Rabs_minus_sym.
  apply (Rmult_le_reg_r y); [exact Y|]. rewrite Rmult_assoc, Rinv_l, Rmult_1_r by lra. eapply Rle_trans; [exact E|].
  apply Rle_trans with ((b + / 1000) * u52 * (s * (1 - 1000 * / 4503599627370496))); [|apply Rmult_le_compat_l; [apply Rmult_le_pos; lra|lra]].
  replace (b * u52 * s) with (u52 * s * b) by ring. replace ((b + / 1000) * u52 * (s * (1 - 1000 * / 4503599627370496))) with (u52 * s * ((b + / 1000) * (1 - 1000 * / 4503599627370496))) by ring.
  apply Rmult_le_compat_l; [apply Rmult_le_pos; lra|]. lra.
Qed.
Lemma RP_div x y r s a b : RP x r a -> RP y s b -> a + b + 1 <= 999 -> bpow radix2 (-900) <= r / s <= bpow radix2 900 -> RP (fdiv f64 x y) (r / s) (a + b + 1).
Proof.
  intros Hx Hy K M. pose proof (RP_pos _ _ _ Hx) as R. pose proof (RP_pos _ _ _ Hy) as S. destruct Hx as (Bx & Fx & Ka & _ & Ex). destruct Hy as (By & Fy & Kb & _ & Ey).
  destruct (inverr _ _ _ S Kb Ey) as [Y EI]. assert (I := Rinv_0_lt_compat _ S).
  assert (Kb' : 0 <= b + / 1000 <= 1000) by lra. pose proof (mulerr _ _ _ _ _ _ R I Ka Kb' Ex EI) as E. fold (r / s) in E. fold (val f64 x / val f64 y) in E.
  assert (RS : 0 < r / s) by (apply Rmult_lt_0_compat; lra).
  assert (E' := E). apply Rabs_le_inv in E'. assert (U : (a + (b + / 1000) + / 1000) * u52 * (r / s) <= 1 / 2 * (r / s)) by (apply Rmult_le_compat_r; [lra|]; unfold u52; lra).
  destruct (rounds_fin f64 _ _ _ (fdiv_spec f64 x y Fx Fy ltac:(lra))) as [F V].
  { eapply Rle_trans; [apply (up900 _ (r / s)); lra|]. apply bpow_le. vm_compute. discriminate. }
  split; [apply fdiv_isbits|]. split; [exact F|]. split; [lra|]. split; [exact M|].
  eapply Rle_trans; [apply (rnd_step _ _ (r / s) (a + (b + / 1000) + / 1000) V); try lra; apply (half900 _ (r / s)); lra|].
  apply Rmult_le_compat_r; [lra|]. apply Rmult_le_compat_r; [unfold u52; lra|lra].
Qed.

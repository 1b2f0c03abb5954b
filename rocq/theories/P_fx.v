(** Exact f64 arithmetic: [fx x m e] says that the pattern [x] is finite with value m * 2^e. *)
From Coq Require Import ZArith Reals Lia Lra Bool List.
From Flocq Require Import Core.
From Verif Require Import Base Spec SpecFun SpecFun2 Format Ieee M_basic M_scalbn M_elib M_rempio2 P_real P_ieee P_neg P_round P_scalbn P_ival P_ival2 P_lit.
Import ListNotations.
Open Scope Z_scope.
Open Scope fl_scope.

Definition fx (x m e : Z) : Prop := isbits f64 x /\ finite f64 x = true /\ val f64 x = (IZR m * bpow radix2 e)%R.

Lemma fx_small m e : Z.abs m <= 2 ^ 53 -> e <= 900 -> (Rabs (IZR m * bpow radix2 e) < bpow radix2 (bias f64 + 1))%R.
Proof.
  intros Hm He. rewrite Rabs_mult, (Rabs_pos_eq (bpow _ _)) by apply bpow_ge_0. rewrite <- abs_IZR.
  apply Rle_lt_trans with (bpow radix2 53 * bpow radix2 e)%R.
  - apply Rmult_le_compat_r; [apply bpow_ge_0|]. change (bpow radix2 53) with (IZR (2 ^ 53)). apply IZR_le. exact Hm.
  - rewrite <- bpow_plus. apply bpow_lt. change (bias f64) with 1023. lia.
Qed.
Lemma fx_intro x m e r sz : rounds_to f64 r sz x -> r = (IZR m * bpow radix2 e)%R -> Z.abs m <= 2 ^ 53 -> -1074 <= e <= 900 -> fx x m e.
Proof.
  intros H -> Hm He. split; [exact (proj1 H)|].
  destruct (rounds_to_exact _ _ _ _ H) as (A & B & _).
  - apply repr_rnd. apply repr_int; [exact Hm|exact (proj1 He)].
  - apply fx_small; lia.
  - split; assumption.
Qed.
Lemma fx_int m : Z.abs m <= 2 ^ 53 -> fx (of_int f64 m) m 0.
Proof. intros H. apply (fx_intro _ m 0 (IZR m) false); [apply of_int_spec|cbn; ring|exact H|lia]. Qed.
Lemma fx_add x y m n e : fx x m e -> fx y n e -> Z.abs (m + n) <= 2 ^ 53 -> -1074 <= e <= 900 -> fx (x +: y) (m + n) e.
Proof.
  intros (A & B & C) (D & E & G) Hm He.
  eapply fx_intro; [apply fadd_spec; assumption| |exact Hm|exact He]. rewrite C, G, plus_IZR. ring.
Qed.
Lemma fx_sub x y m n e : fx x m e -> fx y n e -> Z.abs (m - n) <= 2 ^ 53 -> -1074 <= e <= 900 -> fx (x -: y) (m - n) e.
Proof.
  intros (A & B & C) (D & E & G) Hm He.
  eapply fx_intro; [apply fsub_spec; assumption| |exact Hm|exact He]. rewrite C, G, minus_IZR. ring.
Qed.
Lemma fx_mul x y m n e f : fx x m e -> fx y n f -> Z.abs (m * n) <= 2 ^ 53 -> -1074 <= e + f <= 900 -> fx (x *: y) (m * n) (e + f).
Proof.
  intros (A & B & C) (D & E & G) Hm He.
  eapply fx_intro; [apply fmul_spec; assumption| |exact Hm|exact He]. rewrite C, G, mult_IZR, bpow_plus. ring.
Qed.
Lemma fx_shift x m e k : 0 <= k -> fx x m (e + k) -> fx x (m * 2 ^ k) e.
Proof.
  intros Hk (A & B & C). repeat split; try assumption; try apply A.
  rewrite C, mult_IZR, bpow_plus. change (2 ^ k) with (radix_val radix2 ^ k). rewrite IZR_Zpower by exact Hk. ring.
Qed.
Lemma fx_cast x m e m' e' : fx x m e -> m = m' -> e = e' -> fx x m' e'. Proof. intros H <- <-. exact H. Qed.
Lemma bpow_neg_inv k : (0 <= k) -> bpow radix2 (- k) = (/ IZR (2 ^ k))%R.
Proof. intros Hk. rewrite bpow_opp. change (2 ^ k) with (radix_val radix2 ^ k). rewrite IZR_Zpower by exact Hk. reflexivity. Qed.
Lemma fx_trunc x m k : 0 <= k -> 0 <= m -> fx x m (- k) -> m / 2 ^ k < 2 ^ 31 -> to_i32 f64 x = m / 2 ^ k.
Proof.
  intros Hk Hm (A & B & C) L. unfold to_i32. rewrite to_intZ_finite by (try assumption; lia).
  rewrite C, bpow_neg_inv by exact Hk. assert (0 < 2 ^ k) by (apply Z.pow_pos_nonneg; lia).
  fold (IZR m / IZR (2 ^ k))%R.
  rewrite Ztrunc_floor by (apply Rmult_le_pos; [apply IZR_le; exact Hm|left; apply Rinv_0_lt_compat, IZR_lt; assumption]).
  rewrite Zfloor_div by lia. assert (0 <= m / 2 ^ k) by (apply Z.div_pos; lia).
  unfold clampZ. destruct (Z.ltb_spec (m / 2 ^ k) (- 2 ^ 31)); [lia|]. destruct (Z.ltb_spec (2 ^ 31 - 1) (m / 2 ^ k)); lia.
Qed.
Lemma fx_toint x m : 0 <= m < 2 ^ 31 -> fx x m 0 -> to_i32 f64 x = m.
Proof. intros Hm H. rewrite (fx_trunc x m 0) by (try assumption; change (2 ^ 0) with 1; rewrite ?Z.div_1_r; lia). apply Z.div_1_r. Qed.
Lemma fx_cmp x y m n e : fx x m e -> fx y n e -> fcmp f64 x y = Some (m ?= n).
Proof.
  intros (A & B & C) (D & E & G). rewrite fcmp_finite by assumption. f_equal. rewrite C, G.
  rewrite Rcompare_mult_r by apply bpow_gt_0. apply Rcompare_IZR.
Qed.
Lemma fx_eq0 x m e : fx x m e -> feq f64 x 0 = (m =? 0).
Proof.
  intros H. unfold feq. assert (Z0 : fx 0 0 e) by (repeat split; try reflexivity; try discriminate; rewrite zero64; ring).
  rewrite (fx_cmp _ _ _ _ _ H Z0). destruct (Z.compare_spec m 0), (Z.eqb_spec m 0); lia || reflexivity.
Qed.
Lemma fx_ge x y m n e : fx x m e -> fx y n e -> fge f64 x y = (n <=? m).
Proof.
  intros H H'. unfold fge. rewrite (fx_cmp _ _ _ _ _ H H'). destruct (Z.compare_spec m n), (Z.leb_spec n m); lia || reflexivity.
Qed.
Lemma fx_scalbn x m e n : fx x m e -> Z.abs m <= 2 ^ 53 -> -1074 <= e + n <= 900 -> - 2 ^ 31 <= n < 2 ^ 31 ->
  exists r, scalbn f64 x n = Some r /\ fx r m (e + n).
Proof.
  intros (A & B & C) Hm He Hn.
  destruct (scalbn_ok f64 x n) as (r & E1 & E2 & E3 & _); try assumption; [vm_compute; discriminate|].
  exists r. split; [exact E1|]. eapply fx_intro; [apply E3; exact B| |exact Hm|exact He]. rewrite C, bpow_plus. ring.
Qed.
Lemma fx_floor x m k : fx x m (- k) -> 0 <= k -> exists r, floor f64 x = Some r /\ fx r (m / 2 ^ k) 0.
Proof.
  intros (A & B & C) Hk. destruct (floor_ok f64 x A) as (r & E1 & E2 & E3 & _). exists r. split; [exact E1|].
  destruct (E3 B) as (F1 & F2 & _). repeat split; try assumption; try apply E2. rewrite F2, C, bpow_neg_inv by exact Hk.
  fold (IZR m / IZR (2 ^ k))%R. rewrite Zfloor_div by (apply Z.pow_nonzero; lia). cbn [bpow]. ring.
Qed.
Lemma fx_lit c m e n d : 0 <= c < 2 ^ 64 -> finite f64 c = true -> litb f64 c n d = true ->
  (IZR n / IZR d = IZR m * bpow radix2 e)%R -> fx c m e.
Proof. intros A B C D. repeat split; try assumption; try apply A. rewrite (val_lit f64 c n d C). exact D. Qed.
Lemma fx_x1p24 : fx M_rempio2.x1p24 1 24.
Proof. eapply (fx_lit _ _ _ (2 ^ 24) 1); try (vm_compute; congruence). split; vm_compute; congruence. cbn. lra. Qed.
Ltac fxlit n d := eapply (fx_lit _ _ _ n d); [split; vm_compute; congruence|reflexivity|vm_compute; reflexivity|cbn; lra].
Lemma fx_x1p_24 : fx M_rempio2.x1p_24 1 (-24). Proof. fxlit 1 (2 ^ 24). Qed.
Lemma fx_one : fx M_rempio2.c_one 1 0. Proof. fxlit 1 1. Qed.
Lemma fx_eight : fx M_rempio2.c_eight 1 3. Proof. fxlit 8 1. Qed.
Lemma fx_eighth : fx M_rempio2.c_eighth 1 (-3). Proof. fxlit 1 8. Qed.
Lemma fx_half : fx M_rempio2.c_half 1 (-1). Proof. fxlit 1 2. Qed.
Lemma fx_zero e : fx 0 0 e. Proof. repeat split; try reflexivity; try discriminate; rewrite zero64; ring. Qed.

(** Arrays and counted loops *)
Definition nz (l : list Z) (i : Z) : Z := nth (Z.to_nat i) l 0.
Lemma arr_get_ok l i : 0 <= i < Z.of_nat (length l) -> arr_get l i = Some (nz l i).
Proof.
  intros H. unfold arr_get, nz. destruct (Z.ltb_spec i 0); [lia|]. apply nth_error_nth'. lia.
Qed.
Lemma set_nth_ok l v : forall n, (n < length l)%nat -> exists l', set_nth l n v = Some l' /\ length l' = length l /\
  forall k, nth k l' 0 = if Nat.eqb k n then v else nth k l 0.
Proof.
  induction l as [|a l IH]; intros n H; cbn in H; [lia|]. destruct n as [|n].
  - exists (v :: l). repeat split. intros [|k]; reflexivity.
  - destruct (IH n ltac:(lia)) as (l' & E & L & K). cbn [set_nth]. rewrite E. exists (a :: l'). repeat split.
    + cbn. lia.
    + intros [|k]; [reflexivity|]. cbn. apply K.
Qed.
Lemma arr_set_ok l i v : 0 <= i < Z.of_nat (length l) -> exists l', arr_set l i v = Some l' /\ length l' = length l /\
  forall k, 0 <= k -> nz l' k = if k =? i then v else nz l k.
Proof.
  intros H. unfold arr_set. destruct (Z.ltb_spec i 0); [lia|].
  destruct (set_nth_ok l v (Z.to_nat i) ltac:(lia)) as (l' & E & L & K). exists l'. repeat split; try assumption.
  intros k Hk. unfold nz. rewrite K. destruct (Nat.eqb_spec (Z.to_nat k) (Z.to_nat i)), (Z.eqb_spec k i); try lia; reflexivity.
Qed.
Lemma for_incl_rule {S} (P : Z -> S -> Prop) f lo hi s : lo <= hi + 1 -> P lo s ->
  (forall i s, lo <= i <= hi -> P i s -> exists s', f i s = Some s' /\ P (i + 1) s') ->
  exists s', for_incl lo hi f s = Some s' /\ P (hi + 1) s'.
Proof.
  intros H0 H1 H2. unfold for_incl.
  assert (G : forall n i s, Z.of_nat n = hi + 1 - i -> lo <= i -> P i s -> exists s', for_up n i f s = Some s' /\ P (hi + 1) s').
  { induction n as [|n IH]; intros i t Hn Hi HP; cbn [for_up].
    - exists t. split; [reflexivity|]. replace (hi + 1) with i by lia. exact HP.
    - destruct (H2 i t ltac:(lia) HP) as (t' & -> & HP'). apply IH; [lia|lia|exact HP']. }
  apply G; [lia|lia|exact H1].
Qed.
Lemma for_rev_rule {S} (P : Z -> S -> Prop) f lo hi s : lo <= hi + 1 -> P hi s ->
  (forall i s, lo <= i <= hi -> P i s -> exists s', f i s = Some s' /\ P (i - 1) s') ->
  exists s', for_rev lo hi f s = Some s' /\ P (lo - 1) s'.
Proof.
  intros H0 H1 H2. unfold for_rev.
  assert (G : forall n i s, Z.of_nat n = i + 1 - lo -> i <= hi -> P i s -> exists s', for_dn n i f s = Some s' /\ P (lo - 1) s').
  { induction n as [|n IH]; intros i t Hn Hi HP; cbn [for_dn].
    - exists t. split; [reflexivity|]. replace (lo - 1) with i by lia. exact HP.
    - destruct (H2 i t ltac:(lia) HP) as (t' & -> & HP'). apply IH; [lia|lia|exact HP']. }
  apply G; [lia|lia|exact H1].
Qed.
Tactic Notation "forup" constr(P) "as" simple_intropattern(p) :=
  match goal with |- context [for_incl ?lo ?hi ?f ?s] => destruct (for_incl_rule P f lo hi s) as p end.
Tactic Notation "fordn" constr(P) "as" simple_intropattern(p) :=
  match goal with |- context [for_rev ?lo ?hi ?f ?s] => destruct (for_rev_rule P f lo hi s) as p end.

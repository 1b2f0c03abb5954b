(** Machine integers, panics and loops.

    Every machine integer is a [Z].  [None] stands for a panic of a debug build: arithmetic
    overflow, over-long shift, failed [cast], failed [debug_assert!], index out of bounds,
    [unimplemented!].  Loops run on explicit binary fuel; running out of fuel is also [None],
    and every theorem about a loop shows that this does not happen. *)
From Coq Require Import ZArith Lia Bool List.
Open Scope Z_scope.

Definition bind {A B} (o : option A) (k : A -> option B) : option B :=
  match o with Some a => k a | None => None end.

Notation "'let*' x ':=' e 'in' k" := (bind e (fun x => k))
  (at level 200, x pattern, e at level 100, k at level 200, right associativity).

(** ** Unsigned operations of width [w] (Rust operators [+ - * << >>] with overflow checks). *)
Definition uadd (w a b : Z) : option Z := if a + b <? 2 ^ w then Some (a + b) else None.
Definition usub (w a b : Z) : option Z := if b <=? a then Some (a - b) else None.
Definition umul (w a b : Z) : option Z := if a * b <? 2 ^ w then Some (a * b) else None.
(** [<<] panics only when the shift amount is not below the width; bits shifted out are lost. *)
Definition ushl (w a n : Z) : option Z :=
  if (0 <=? n) && (n <? w) then Some (Z.shiftl a n mod 2 ^ w) else None.
Definition ushr (w a n : Z) : option Z :=
  if (0 <=? n) && (n <? w) then Some (Z.shiftr a n) else None.
Definition unot (w a : Z) : Z := 2 ^ w - 1 - a.
Definition wadd (w a b : Z) : Z := (a + b) mod 2 ^ w.
Definition wsub (w a b : Z) : Z := (a - b) mod 2 ^ w.
Definition wmul (w a b : Z) : Z := (a * b) mod 2 ^ w.
Definition wneg (w a : Z) : Z := (- a) mod 2 ^ w.
Definition lzcnt (w a : Z) : Z := if a =? 0 then w else w - 1 - Z.log2 a.

(** ** Signed operations of width [w]. *)
Definition in_i (w a : Z) : bool := (- 2 ^ (w - 1) <=? a) && (a <? 2 ^ (w - 1)).
Definition chk (w a : Z) : option Z := if in_i w a then Some a else None.
Definition sadd (w a b : Z) : option Z := chk w (a + b).
Definition ssub (w a b : Z) : option Z := chk w (a - b).
Definition smul (w a b : Z) : option Z := chk w (a * b).
Definition sneg (w a : Z) : option Z := chk w (- a).
(** Two's complement reinterpretation ([as] casts). *)
Definition to_i (w a : Z) : Z := let m := a mod 2 ^ w in if m <? 2 ^ (w - 1) then m else m - 2 ^ w.
Definition to_u (w a : Z) : Z := a mod 2 ^ w.

(** [cast]/[cast_from] (int_traits.rs 392-399): a debug assertion that the value fits. *)
Definition ucast (w a : Z) : option Z := if (0 <=? a) && (a <? 2 ^ w) then Some a else None.
Definition scast (w a : Z) : option Z := chk w a.

(** ** Loops *)
Inductive ctl (S R : Type) := Cont (s : S) | Ret (r : R).
Arguments Cont {S R}. Arguments Ret {S R}.

(** At most [p] iterations of [step], stopping early on [Ret] or on a panic. *)
Fixpoint loop {S R} (p : positive) (step : S -> option (ctl S R)) (s : S) : option (ctl S R) :=
  match p with
  | xH => step s
  | xO q => match loop q step s with
            | Some (Cont s') => loop q step s'
            | o => o
            end
  | xI q => match step s with
            | Some (Cont s1) => match loop q step s1 with
                                | Some (Cont s') => loop q step s'
                                | o => o
                                end
            | o => o
            end
  end.

Definition run {S R} (p : positive) (step : S -> option (ctl S R)) (s : S) : option R :=
  match loop p step s with Some (Ret r) => Some r | _ => None end.

(** ** Facts *)
Lemma bind_some {A B} (a : A) (k : A -> option B) : bind (Some a) k = k a.
Proof. reflexivity. Qed.

Lemma uadd_ok w a b : a + b < 2 ^ w -> uadd w a b = Some (a + b).
Proof. intros H; unfold uadd; now rewrite (proj2 (Z.ltb_lt _ _) H). Qed.
Lemma usub_ok w a b : b <= a -> usub w a b = Some (a - b).
Proof. intros H; unfold usub; now rewrite (proj2 (Z.leb_le _ _) H). Qed.
Lemma umul_ok w a b : a * b < 2 ^ w -> umul w a b = Some (a * b).
Proof. intros H; unfold umul; now rewrite (proj2 (Z.ltb_lt _ _) H). Qed.
Lemma ushl_ok w a n : 0 <= n < w -> ushl w a n = Some ((a * 2 ^ n) mod 2 ^ w).
Proof.
  intros H; unfold ushl.
  rewrite (proj2 (Z.leb_le _ _)), (proj2 (Z.ltb_lt _ _)) by lia; cbn [andb].
  now rewrite Z.shiftl_mul_pow2 by lia.
Qed.
Lemma ushr_ok w a n : 0 <= n < w -> ushr w a n = Some (a / 2 ^ n).
Proof.
  intros H; unfold ushr.
  rewrite (proj2 (Z.leb_le _ _)), (proj2 (Z.ltb_lt _ _)) by lia; cbn [andb].
  now rewrite Z.shiftr_div_pow2 by lia.
Qed.
Lemma in_i_spec w a : in_i w a = true <-> - 2 ^ (w - 1) <= a < 2 ^ (w - 1).
Proof. unfold in_i; rewrite andb_true_iff, Z.leb_le, Z.ltb_lt; tauto. Qed.
Lemma chk_ok w a : - 2 ^ (w - 1) <= a < 2 ^ (w - 1) -> chk w a = Some a.
Proof. intros H; unfold chk; now rewrite (proj2 (in_i_spec w a) H). Qed.
Lemma ucast_ok w a : 0 <= a < 2 ^ w -> ucast w a = Some a.
Proof.
  intros H; unfold ucast.
  now rewrite (proj2 (Z.leb_le _ _)), (proj2 (Z.ltb_lt _ _)) by lia.
Qed.

Lemma to_i_small w a : 0 <= a < 2 ^ (w - 1) -> 0 < w -> to_i w a = a.
Proof.
  intros H Hw; unfold to_i.
  assert (E : 2 ^ w = 2 * 2 ^ (w - 1)).
  { rewrite <- Z.pow_succ_r by lia. f_equal; lia. }
  rewrite Z.mod_small by lia.
  now rewrite (proj2 (Z.ltb_lt _ _)) by lia.
Qed.

Lemma to_u_small w a : 0 <= a < 2 ^ w -> to_u w a = a.
Proof. intros H; unfold to_u; now apply Z.mod_small. Qed.

Lemma lzcnt_spec w a k : 0 < a -> 2 ^ k <= a < 2 ^ (k + 1) -> lzcnt w a = w - 1 - k.
Proof.
  intros H0 H; unfold lzcnt.
  rewrite (proj2 (Z.eqb_neq _ _)) by lia.
  destruct (Z.le_gt_cases 0 k) as [Hk|Hk].
  - now rewrite (Z.log2_unique a k) by (rewrite ?Z.add_1_r in H; lia).
  - destruct (Z.eq_dec k (-1)) as [->|Hn].
    + simpl in H. lia.
    + assert (k + 1 < 0) by lia. rewrite (Z.pow_neg_r 2 (k + 1)) in H by lia. lia.
Qed.

(** Loop rule: invariant [I], decreasing measure [mu], postcondition [Q]. *)
Lemma loop_rule {S R} (I : S -> Prop) (mu : S -> Z) (Q : R -> Prop)
      (step : S -> option (ctl S R)) :
  (forall s, I s -> exists c, step s = Some c /\
     match c with Cont s' => I s' /\ 0 <= mu s' < mu s | Ret r => Q r end) ->
  forall p s, I s ->
  exists c, loop p step s = Some c /\
     match c with Cont s' => I s' /\ 0 <= mu s' <= mu s - Zpos p | Ret r => Q r end.
Proof.
  intros Hstep p; induction p as [q IH|q IH|]; intros s HI; cbn [loop].
  - destruct (Hstep s HI) as (c & -> & Hc).
    destruct c as [s1|r]; [|eauto].
    destruct Hc as [HI1 Hmu1].
    destruct (IH s1 HI1) as (c & -> & Hc).
    destruct c as [s2|r]; [|eauto].
    destruct Hc as [HI2 Hmu2].
    destruct (IH s2 HI2) as (c & -> & Hc).
    exists c; split; [reflexivity|].
    destruct c as [s3|r]; [|exact Hc].
    destruct Hc as [HI3 Hmu3]; split; [exact HI3|lia].
  - destruct (IH s HI) as (c & -> & Hc).
    destruct c as [s1|r]; [|eauto].
    destruct Hc as [HI1 Hmu1].
    destruct (IH s1 HI1) as (c & -> & Hc).
    exists c; split; [reflexivity|].
    destruct c as [s3|r]; [|exact Hc].
    destruct Hc as [HI3 Hmu3]; split; [exact HI3|lia].
  - destruct (Hstep s HI) as (c & -> & Hc).
    exists c; split; [reflexivity|].
    destruct c as [s3|r]; [|exact Hc].
    destruct Hc as [HI3 Hmu3]; split; [exact HI3|lia].
Qed.

Lemma run_rule {S R} (I : S -> Prop) (mu : S -> Z) (Q : R -> Prop)
      (step : S -> option (ctl S R)) :
  (forall s, I s -> exists c, step s = Some c /\
     match c with Cont s' => I s' /\ 0 <= mu s' < mu s | Ret r => Q r end) ->
  forall p s, I s -> mu s < Zpos p ->
  exists r, run p step s = Some r /\ Q r.
Proof.
  intros Hstep p s HI Hmu.
  destruct (loop_rule I mu Q step Hstep p s HI) as (c & E & Hc).
  unfold run; rewrite E.
  destruct c as [s'|r]; [lia|eauto].
Qed.

(** ** Bit operations as arithmetic *)
Lemma pow2_pos n : 0 <= n -> 0 < 2 ^ n.
Proof. intros; apply Z.pow_pos_nonneg; lia. Qed.

Lemma pow2_split a b : 0 <= a -> 0 <= b -> 2 ^ (a + b) = 2 ^ a * 2 ^ b.
Proof. intros; now rewrite Z.pow_add_r. Qed.

Lemma land_pow2m1 a n : 0 <= n -> Z.land a (2 ^ n - 1) = a mod 2 ^ n.
Proof.
  intros H. rewrite <- Z.land_ones by lia. f_equal. rewrite Z.ones_equiv. lia.
Qed.

(** [lor] of disjoint ranges is addition. *)
Lemma land_disjoint a b n : 0 <= n -> 0 <= b < 2 ^ n -> Z.land (a * 2 ^ n) b = 0.
Proof.
  intros Hn Hb.
  apply Z.bits_inj'; intros i Hi; rewrite Z.land_spec, Z.bits_0.
  destruct (Z.ltb_spec i n).
  - rewrite Z.mul_pow2_bits_low by lia. reflexivity.
  - destruct (Z.eq_dec b 0) as [->|Hb0]; [now rewrite Z.bits_0, andb_false_r|].
    rewrite (Z.bits_above_log2 b i); [now rewrite andb_false_r|lia|].
    apply Z.log2_lt_pow2; [lia|].
    eapply Z.lt_le_trans; [apply Hb|]. now apply Z.pow_le_mono_r.
Qed.

Lemma lor_disjoint a b n : 0 <= n -> 0 <= b < 2 ^ n -> Z.lor (a * 2 ^ n) b = a * 2 ^ n + b.
Proof.
  intros Hn Hb.
  rewrite <- Z.lxor_lor by now apply land_disjoint.
  symmetry. apply Z.add_nocarry_lxor. now apply land_disjoint.
Qed.

(** Clearing the low [n] bits, the mask being computed at width [w]. *)
Lemma land_unot_low w a n : 0 <= n <= w -> 0 <= a < 2 ^ w ->
  Z.land a (unot w (2 ^ n - 1)) = a - a mod 2 ^ n.
Proof.
  intros Hn Ha.
  assert (E : unot w (2 ^ n - 1) = Z.land (Z.lnot (Z.ones n)) (Z.ones w)).
  { rewrite Z.land_ones by lia. unfold unot, Z.lnot. rewrite Z.ones_equiv.
    replace (Z.pred (- Z.pred (2 ^ n))) with (- 2 ^ n) by lia.
    replace w with ((w - n) + n) by lia. rewrite Z.pow_add_r by lia.
    replace (- 2 ^ n) with ((-1) * 2 ^ n) by lia.
    rewrite Z.mul_mod_distr_r by (try apply Z.pow_nonzero; lia).
    rewrite <- (Z.mod_unique (-1) (2 ^ (w - n)) (-1) (2 ^ (w - n) - 1)).
    - lia.
    - left. pose proof (pow2_pos (w - n)). lia.
    - lia. }
  rewrite E, Z.land_assoc, (Z.land_ones _ w) by lia.
  rewrite (Z.mod_small (Z.land _ _)).
  - rewrite <- Z.ldiff_land.
    rewrite Z.ldiff_ones_r, Z.shiftr_div_pow2, Z.shiftl_mul_pow2 by lia.
    pose proof (Z.div_mod a (2 ^ n)). pose proof (pow2_pos n). lia.
  - rewrite <- Z.ldiff_land.
    rewrite Z.ldiff_ones_r, Z.shiftr_div_pow2, Z.shiftl_mul_pow2 by lia.
    pose proof (Z.div_mod a (2 ^ n)). pose proof (pow2_pos n).
    pose proof (Z.mod_pos_bound a (2 ^ n)).
    assert (0 <= a / 2 ^ n) by (apply Z.div_pos; lia). nia.
Qed.

(** Extracting the top bit of a [w]-bit integer. *)
Lemma land_top w a : 0 < w -> 0 <= a < 2 ^ w ->
  Z.land a (2 ^ (w - 1)) = (a / 2 ^ (w - 1)) * 2 ^ (w - 1).
Proof.
  intros Hw Ha.
  assert (E : 2 ^ w = 2 * 2 ^ (w - 1)).
  { rewrite <- Z.pow_succ_r by lia. f_equal; lia. }
  pose proof (pow2_pos (w - 1)) as Hp.
  apply Z.bits_inj'; intros i Hi.
  rewrite Z.land_spec, Z.pow2_bits_eqb by lia.
  destruct (Z.eqb_spec (w - 1) i) as [<-|Hne].
  - rewrite andb_true_r, Z.mul_pow2_bits by lia. rewrite Z.sub_diag.
    rewrite <- Z.shiftr_div_pow2 by lia. rewrite Z.shiftr_spec by lia. f_equal; lia.
  - rewrite andb_false_r. symmetry.
    destruct (Z.ltb_spec i (w - 1)).
    + apply Z.mul_pow2_bits_low; lia.
    + rewrite Z.mul_pow2_bits by lia.
      rewrite <- Z.shiftr_div_pow2 by lia. rewrite Z.shiftr_spec by lia.
      apply Z.bits_above_log2; [lia|].
      destruct (Z.eq_dec a 0) as [->|]; [simpl; lia|].
      apply Z.log2_lt_pow2; [lia|].
      eapply Z.lt_le_trans; [apply Ha|]. apply Z.pow_le_mono_r; lia.
Qed.

(** Clearing the top bit. *)
Lemma land_unot_top w a : 0 < w -> 0 <= a < 2 ^ w ->
  Z.land a (unot w (2 ^ (w - 1))) = a mod 2 ^ (w - 1).
Proof.
  intros Hw Ha.
  assert (E : 2 ^ w = 2 * 2 ^ (w - 1)).
  { rewrite <- Z.pow_succ_r by lia. f_equal; lia. }
  unfold unot. replace (2 ^ w - 1 - 2 ^ (w - 1)) with (2 ^ (w - 1) - 1) by lia.
  apply land_pow2m1; lia.
Qed.

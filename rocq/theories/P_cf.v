(** Lower bounds for |M*a - N*b| over all 0 < M < bound from one pair of neighbouring convergents, and the
    bounds for the table of 2/pi used in the argument reduction (C38). *)
From Coq Require Import ZArith Lia Bool List Psatz.
From Verif Require Import Base M_elib M_rempio2.
Import ListNotations.
Open Scope Z_scope.

Lemma cf_lower a b p q p' q' M N : p * q' - p' * q = 1 \/ p * q' - p' * q = -1 -> 0 <= q -> 0 < M < q' ->
  (q * a - p * b) * (q' * a - p' * b) <= 0 -> Z.abs (q * a - p * b) <= Z.abs (M * a - N * b).
Proof.
  intros HD Hq HM Hs.
  set (D := p * q' - p' * q) in *. assert (HDD : D * D = 1) by (destruct HD as [-> | ->]; reflexivity).
  set (u := D * (N * q' - M * p')). set (v := D * (p * M - q * N)).
  assert (E1 : M = u * q + v * q') by (unfold u, v; transitivity (D * D * M); [rewrite HDD; ring|unfold D; ring]).
  assert (E2 : N = u * p + v * p') by (unfold u, v; transitivity (D * D * N); [rewrite HDD; ring|unfold D; ring]).
  clearbody u v. set (d := q * a - p * b) in *. set (d' := q' * a - p' * b) in *.
  replace (M * a - N * b) with (u * d + v * d') by (rewrite E1, E2; unfold d, d'; ring).
  clearbody d d'. clear E2 HDD HD D.
  assert (U : u <> 0).
  { intros ->. destruct (Z_le_gt_dec v 0); nia. }
  assert (Ha : forall w e, w <> 0 -> Z.abs e <= Z.abs (w * e)) by (intros w e Hw; rewrite Z.abs_mul; nia).
  destruct (Z.eq_dec v 0) as [-> | V]; [rewrite Z.mul_0_l, Z.add_0_r; apply Ha; exact U|].
  specialize (Ha u d U).
  enough (Hp : 0 <= (u * d) * (v * d')).
  { revert Hp Ha. generalize (u * d), (v * d'). clear. intros x y Hp Ha.
    destruct (Z_le_gt_dec 0 x), (Z_le_gt_dec 0 y); nia. }
  assert (Huv : u * v <= 0).
  { clear - E1 HM Hq U V. destruct (Z_le_gt_dec u 0), (Z_le_gt_dec v 0); nia. }
  replace (u * d * (v * d')) with ((- (u * v)) * (- (d * d'))) by ring. apply Z.mul_nonneg_nonneg; lia.
Qed.

(** Search for the pair: Euclid's algorithm.  Not trusted, the result is checked. *)
Fixpoint cf_search (n : nat) (bound q p d q' p' d' : Z) : Z * Z * Z * Z :=
  match n with
  | O => (q, p, q', p')
  | S m => if bound <=? q' then (q, p, q', p') else
      let k := Z.abs d / Z.abs d' in cf_search m bound q' p' d' (q + k * q') (p + k * p') (d + k * d')
  end.
Definition cf_check (a b bound c : Z) : bool :=
  let '(q, p, q', p') := cf_search 200 bound 0 1 (- b) 1 0 a in
  (Z.abs (p * q' - p' * q) =? 1) && (0 <=? q) && (bound <=? q') &&
  ((q * a - p * b) * (q' * a - p' * b) <=? 0) && (c <=? Z.abs (q * a - p * b)).
Lemma cf_check_ok a b bound c M N : cf_check a b bound c = true -> 0 < M < bound -> c <= Z.abs (M * a - N * b).
Proof.
  unfold cf_check. destruct cf_search as [[[q p] q'] p'].
  intros H HM. rewrite !andb_true_iff in H. destruct H as [[[[H1 H2] H3] H4] H5].
  apply Z.eqb_eq in H1. apply Z.leb_le in H2, H3, H4, H5.
  pose proof (cf_lower a b p q p' q' M N) as L. lia.
Qed.

(** The window of digits of 2/pi used for the exponent [e0], and the bounds *)
Definition digit (T : list Z) (i : Z) : Z := if i <? 0 then 0 else nth (Z.to_nat i) T 0.
Definition jv_of (e0 : Z) : Z := let t := Z.quot (e0 - 3) 24 in if t <? 0 then 0 else t.
Definition q0_of (e0 : Z) : Z := e0 - 24 * (jv_of e0 + 1).
Fixpoint win (T : list Z) (jv : Z) (n : nat) : Z :=
  match n with
  | O => digit T (jv - 2) * 2 ^ 48 + digit T (jv - 1) * 2 ^ 24 + digit T jv
  | S m => win T jv m * 2 ^ 24 + digit T (jv + Z.of_nat n)
  end.
Lemma nth_firstn_lt (l : list Z) n k : (k < n)%nat -> nth k (firstn n l) 0 = nth k l 0.
Proof. revert n k. induction l as [|a l IH]; intros [|n] [|k] H; cbn; try reflexivity; try lia. apply IH; lia. Qed.
(** The short table is a prefix of the long one. *)
Lemma digit_tables b i : i < 66 -> digit (IPIO2 b) i = digit (IPIO2 true) i.
Proof.
  intros H. destruct b; [reflexivity|]. unfold digit. destruct (Z.ltb_spec i 0); [reflexivity|].
  change (IPIO2 false) with (firstn 66 (IPIO2 true)). rewrite nth_firstn_lt; [reflexivity|lia].
Qed.
Lemma win_tables b jv n : jv + Z.of_nat n < 66 -> win (IPIO2 b) jv n = win (IPIO2 true) jv n.
Proof.
  induction n as [|n IH]; intros H; cbn [win].
  - rewrite !(digit_tables b) by lia. reflexivity.
  - rewrite (digit_tables b) by lia. rewrite IH by lia. reflexivity.
Qed.
Lemma jv_range e0 : -3 <= e0 <= 1000 -> 0 <= jv_of e0 <= 41 /\ -27 <= q0_of e0 <= 2 /\ (0 < jv_of e0 -> -21 <= q0_of e0).
Proof.
  intros H. unfold q0_of, jv_of. cbv zeta.
  destruct (Z_le_gt_dec 3 e0) as [L|L].
  - rewrite Z.quot_div_nonneg by lia. assert (0 <= (e0 - 3) / 24) by (apply Z.div_pos; lia).
    destruct (Z.ltb_spec ((e0 - 3) / 24) 0); [lia|].
    assert (A := Z.div_mod (e0 - 3) 24 ltac:(lia)). assert (B := Z.mod_pos_bound (e0 - 3) 24 ltac:(lia)). lia.
  - assert (E : e0 = -3 \/ e0 = -2 \/ e0 = -1 \/ e0 = 0 \/ e0 = 1 \/ e0 = 2) by lia.
    destruct E as [-> | [-> | [-> | [-> | [-> | ->]]]]]; cbn; lia.
Qed.
(** The pairs are searched for once, when this file is compiled, and only checked in the proof. *)
Definition cf_cert (a b bound c : Z) (r : Z * Z * Z * Z) : bool :=
  let '(q, p, q', p') := r in let d := q * a - b * p in let d' := q' * a - b * p' in
  (Z.abs (p * q' - p' * q) =? 1) && (0 <=? q) && (bound <=? q') && (Z.sgn d * Z.sgn d' <=? 0) && (c <=? Z.abs d).
Lemma cf_cert_ok a b bound c r M N : cf_cert a b bound c r = true -> 0 < M < bound -> c <= Z.abs (M * a - N * b).
Proof.
  unfold cf_cert. destruct r as [[[q p] q'] p']. cbv zeta.
  intros H HM. rewrite !andb_true_iff in H. destruct H as [[[[H1 H2] H3] H4] H5].
  apply Z.eqb_eq in H1. apply Z.leb_le in H2, H3, H4, H5. rewrite !(Z.mul_comm b) in *.
  assert (H6 : (q * a - p * b) * (q' * a - p' * b) <= 0).
  { revert H4. generalize (q * a - p * b), (q' * a - p' * b). intros x y. rewrite <- Z.sgn_mul. destruct (Z.sgn_spec (x * y)) as [[H ->]|[[H ->]|[H ->]]]; lia. }
  pose proof (cf_lower a b p q p' q' M N) as L. lia.
Qed.
Fixpoint all_cert (f : Z -> Z * Z * Z * Z -> bool) (l : list (Z * Z * Z * Z)) (i : Z) : bool :=
  match l with nil => true | r :: l => f i r && all_cert f l (i + 1) end.
Lemma all_cert_ok f l : forall i j, all_cert f l i = true -> i <= j < i + Z.of_nat (length l) -> exists r, f j r = true.
Proof.
  induction l as [|r l IH]; intros i j; [cbn; lia|]. cbn [all_cert length]. rewrite andb_true_iff. intros [H1 H2] Hj.
  destruct (Z.eq_dec i j) as [<-|]; [now exists r|]. apply (IH (i + 1)); [exact H2|lia].
Qed.
Definition cert64 : list (Z * Z * Z * Z) := Eval vm_compute in
  map (fun k => let e0 := Z.of_nat k - 3 in cf_search 200 (2 ^ 53) 0 1 (- 2 ^ (144 - q0_of e0)) 1 0 (2 ^ 19 * win (IPIO2 true) (jv_of e0) 4)) (seq 0 1004).
Definition cert32 : list (Z * Z * Z * Z) := Eval vm_compute in
  map (fun k => let e0 := Z.of_nat k + 5 in cf_search 200 (2 ^ 24) 0 1 (- 2 ^ (120 - q0_of e0)) 1 0 (2 ^ 48 * win (IPIO2 true) (jv_of e0) 3)) (seq 0 100).
Lemma c64_all e0 : -3 <= e0 <= 1000 -> exists r, cf_cert (2 ^ 19 * win (IPIO2 true) (jv_of e0) 4) (2 ^ (144 - q0_of e0)) (2 ^ 53) (2 ^ (82 - q0_of e0)) r = true.
Proof.
  assert (H : all_cert (fun e0 => cf_cert (2 ^ 19 * win (IPIO2 true) (jv_of e0) 4) (2 ^ (144 - q0_of e0)) (2 ^ 53) (2 ^ (82 - q0_of e0))) cert64 (-3) = true) by (vm_cast_no_check (eq_refl true)).
  assert (L : length cert64 = 1004%nat) by reflexivity.
  intros He. apply (all_cert_ok _ _ _ e0 H). rewrite L. lia.
Qed.
Lemma c32_all e0 : 5 <= e0 <= 104 -> exists r, cf_cert (2 ^ 48 * win (IPIO2 true) (jv_of e0) 3) (2 ^ (120 - q0_of e0)) (2 ^ 24) (2 ^ (90 - q0_of e0)) r = true.
Proof.
  assert (H : all_cert (fun e0 => cf_cert (2 ^ 48 * win (IPIO2 true) (jv_of e0) 3) (2 ^ (120 - q0_of e0)) (2 ^ 24) (2 ^ (90 - q0_of e0))) cert32 5 = true) by (vm_cast_no_check (eq_refl true)).
  assert (L : length cert32 = 100%nat) by reflexivity.
  intros He. apply (all_cert_ok _ _ _ e0 H). rewrite L. lia.
Qed.
Theorem reduction_gap64 b e0 M N : -3 <= e0 <= 1000 -> 0 < M < 2 ^ 53 ->
  2 ^ (82 - q0_of e0) <= Z.abs (M * (2 ^ 19 * win (IPIO2 b) (jv_of e0) 4) - N * 2 ^ (144 - q0_of e0)).
Proof.
  intros He HM. pose proof (jv_range e0 He). rewrite (win_tables b) by lia.
  pose proof (c64_all e0 He) as [r C]. eapply cf_cert_ok in C; [exact C|exact HM].
Qed.
Theorem reduction_gap32 b e0 M N : 5 <= e0 <= 104 -> 0 < M < 2 ^ 24 ->
  2 ^ (90 - q0_of e0) <= Z.abs (M * (2 ^ 48 * win (IPIO2 b) (jv_of e0) 3) - N * 2 ^ (120 - q0_of e0)).
Proof.
  intros He HM. pose proof (jv_range e0). rewrite (win_tables b) by lia.
  pose proof (c32_all e0 He) as [r C]. eapply cf_cert_ok in C; [exact C|exact HM].
Qed.

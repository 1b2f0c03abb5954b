(** Integers that stand for a real up to a grid: the basis of every "sticky bit" argument. *)
From Coq Require Import ZArith Reals Lia Lra Bool.
From Flocq Require Import Core.
From Verif Require Import Base Spec P_format P_ieee P_real.
Open Scope Z_scope.

(** [A] is [S], or both lie strictly inside one cell of the grid [2^g Z]. *)
Definition near (g : Z) (A : Z) (S : R) : Prop :=
  S = IZR A \/
  exists k, k * 2 ^ g < A < (k + 1) * 2 ^ g /\ (IZR (k * 2 ^ g) < S < IZR ((k + 1) * 2 ^ g))%R.

Lemma near_refl g A : near g A (IZR A).
Proof. now left. Qed.

Lemma near_le g h A S : 0 <= g <= h -> near g A S -> near h A S.
Proof.
  intros H [E|(k & K1 & K2 & K3)]; [now left|]. right.
  assert (P : 2 ^ h = 2 ^ g * 2 ^ (h - g)) by (rewrite <- pow2_split by lia; f_equal; lia).
  set (c := 2 ^ (h - g)) in *. assert (C : 0 < c) by (apply pow2_pos; lia).
  pose proof (Z.div_mod k c ltac:(lia)) as D. pose proof (Z.mod_pos_bound k c C) as B.
  set (q := k / c) in *. set (r := k mod c) in *.
  assert (G : 0 < 2 ^ g) by (apply pow2_pos; lia).
  assert (L1 : q * 2 ^ h <= k * 2 ^ g).
  { rewrite P. replace (q * (2 ^ g * c)) with ((q * c) * 2 ^ g) by ring. apply Z.mul_le_mono_nonneg_r; lia. }
  assert (L2 : (k + 1) * 2 ^ g <= (q + 1) * 2 ^ h).
  { rewrite P. replace ((q + 1) * (2 ^ g * c)) with ((q * c + c) * 2 ^ g) by ring. apply Z.mul_le_mono_nonneg_r; lia. }
  exists q. split; [lia|]. apply IZR_le in L1, L2. lra.
Qed.

Lemma near_opp g A S : near g A S -> near g (- A) (- S).
Proof.
  intros [E|(k & K1 & K2)]; [left; now rewrite E, opp_IZR|right].
  exists (- k - 1). split; [lia|].
  replace ((- k - 1) * 2 ^ g) with (- ((k + 1) * 2 ^ g)) by ring.
  replace ((- k - 1 + 1) * 2 ^ g) with (- (k * 2 ^ g)) by ring. rewrite !opp_IZR. lra.
Qed.

(** adding a multiple of the grid step *)
Lemma near_add g A S B : (exists c, B = c * 2 ^ g) -> near g A S -> near g (A + B) (S + IZR B).
Proof.
  intros (c & ->) [E|(k & K1 & K2)]; [left; now rewrite E, plus_IZR|right].
  exists (k + c). split; [lia|].
  replace ((k + c) * 2 ^ g) with (k * 2 ^ g + c * 2 ^ g) by ring.
  replace ((k + c + 1) * 2 ^ g) with ((k + 1) * 2 ^ g + c * 2 ^ g) by ring. rewrite !plus_IZR. lra.
Qed.

(** comparison with multiples of the grid step *)
Lemma near_le_iff g A S B : (exists c, B = c * 2 ^ g) -> near g A S -> 0 <= g ->
  (B <= A <-> (IZR B <= S)%R) /\ (A < B <-> (S < IZR B)%R) /\ (A <= B <-> (S <= IZR B)%R) /\ (B < A <-> (IZR B < S)%R).
Proof.
  intros (c & ->) [E|(k & K1 & K2)] Hg.
  - rewrite E. repeat split; intros; try (now apply IZR_le); try (now apply le_IZR); try (now apply IZR_lt); try (now apply lt_IZR).
  - assert (G : 0 < 2 ^ g) by (apply pow2_pos; lia).
    destruct (Z.le_gt_cases c k) as [L|L].
    + assert (M : c * 2 ^ g <= k * 2 ^ g) by (apply Z.mul_le_mono_nonneg_r; lia). pose proof (IZR_le _ _ M).
      repeat split; intros; try lia; try lra.
    + assert (M : (k + 1) * 2 ^ g <= c * 2 ^ g) by (apply Z.mul_le_mono_nonneg_r; lia). pose proof (IZR_le _ _ M).
      repeat split; intros; try lia; try lra.
Qed.

(** Rounding to a coarser grid is the same for both. *)
Lemma near_nearest g A S c : 0 <= g < c -> near g A S ->
  ZnearestE (IZR A * bpow radix2 (- c)) = ZnearestE (S * bpow radix2 (- c)).
Proof.
  intros Hg [E|(k & K1 & K2)]; [now rewrite E|].
  set (t := (2 ^ (c - g))). assert (T : 2 ^ c = 2 ^ g * t) by (unfold t; rewrite <- pow2_split by lia; f_equal; lia).
  set (h := 2 ^ (c - 1 - g)). assert (H : t = 2 * h) by (unfold t, h; rewrite <- Z.pow_succ_r by lia; f_equal; lia).
  assert (H0 : 0 < h) by (apply pow2_pos; lia). assert (G : 0 < 2 ^ g) by (apply pow2_pos; lia).
  (* position of the cell relative to the half steps *)
  pose proof (Z.div_mod k h ltac:(lia)) as D. pose proof (Z.mod_pos_bound k h H0) as B.
  set (q := k / h) in *. set (r := k mod h) in *.
  assert (M1 : q * (2 ^ g * h) <= k * 2 ^ g).
  { replace (q * (2 ^ g * h)) with (q * h * 2 ^ g) by ring. apply Z.mul_le_mono_nonneg_r; lia. }
  assert (M2 : (k + 1) * 2 ^ g <= (q + 1) * (2 ^ g * h)).
  { replace ((q + 1) * (2 ^ g * h)) with ((q * h + h) * 2 ^ g) by ring. apply Z.mul_le_mono_nonneg_r; lia. }
  assert (Q : forall v : R, (IZR (k * 2 ^ g) < v < IZR ((k + 1) * 2 ^ g))%R ->
     (IZR q < 2 * (v * bpow radix2 (- c)) < IZR q + 1)%R).
  { intros v [V1 V2]. assert (P : (0 < bpow radix2 (- c))%R) by apply bpow_gt_0.
    assert (U : (IZR (2 ^ g * h) * bpow radix2 (- c) = / 2)%R).
    { replace (2 ^ g * h) with (2 ^ (c - 1)) by (unfold h; rewrite <- pow2_split by lia; f_equal; lia).
      rewrite IZR_pow2 by lia. rewrite <- bpow_plus. now replace (c - 1 + - c) with (-1) by lia. }
    apply IZR_le in M1, M2. rewrite mult_IZR in M1. rewrite (mult_IZR (q + 1)), plus_IZR in M2.
    set (b := bpow radix2 (- c)) in *. set (u := IZR (2 ^ g * h)) in *.
    assert (W1 : (IZR q * u * b = IZR q * / 2)%R) by (rewrite Rmult_assoc, U; ring).
    assert (W2 : ((IZR q + 1) * u * b = (IZR q + 1) * / 2)%R) by (rewrite Rmult_assoc, U; ring).
    assert (W3 : (IZR q * u * b < v * b)%R) by (apply Rmult_lt_compat_r; [exact P|lra]).
    assert (W4 : (v * b < (IZR q + 1) * u * b)%R) by (apply Rmult_lt_compat_r; [exact P|lra]). lra. }
  assert (QA := Q (IZR A) ltac:(split; apply IZR_lt; lia)). assert (QS := Q S K2).
  clear - QA QS. set (a := (IZR A * bpow radix2 (- c))%R) in *. set (s := (S * bpow radix2 (- c))%R) in *. clearbody a s.
  (* both are strictly between consecutive half-integers q/2 and (q+1)/2 *)
  assert (N : forall v, (IZR q < 2 * v < IZR q + 1)%R -> ZnearestE v = if Z.even q then q / 2 else q / 2 + 1).
  { intros v [V1 V2]. pose proof (Z.div_mod q 2 ltac:(lia)) as Dq. rewrite Zmod_even in Dq.
    apply Znearest_imp. destruct (Z.even q).
    - assert (E : IZR q = (2 * IZR (q / 2))%R) by (rewrite <- mult_IZR; f_equal; lia). apply Rabs_def1; lra.
    - assert (E : IZR q = (2 * IZR (q / 2) + 1)%R) by (rewrite <- mult_IZR, <- plus_IZR; f_equal; lia).
      rewrite plus_IZR. apply Rabs_def1; lra. }
  now rewrite (N a QA), (N s QS).
Qed.

(** Shift right with a sticky bit. *)
Definition sticky_shr (A k : Z) : Z := Z.lor (A / 2 ^ k) (if A mod 2 ^ k =? 0 then 0 else 1).
Lemma lor_1 a : Z.lor a 1 = if Z.even a then a + 1 else a.
Proof.
  pose proof (Z.div_mod a 2 ltac:(lia)) as D. rewrite Zmod_even in D.
  assert (X : Z.lor (a / 2 * 2 ^ 1) 1 = a / 2 * 2 ^ 1 + 1) by (apply lor_disjoint; lia).
  destruct (Z.even a) eqn:E.
  - replace a with (a / 2 * 2 ^ 1) at 1 by lia. rewrite X. lia.
  - replace a with (Z.lor (a / 2 * 2 ^ 1) 1) at 1 by (rewrite X; lia). rewrite <- Z.lor_assoc. change (Z.lor 1 1) with 1. rewrite X. lia.
Qed.
Lemma sticky_shr_cases A k : 0 <= k ->
  (A mod 2 ^ k = 0 /\ sticky_shr A k = A / 2 ^ k) \/
  (0 < A mod 2 ^ k /\ sticky_shr A k = if Z.even (A / 2 ^ k) then A / 2 ^ k + 1 else A / 2 ^ k).
Proof.
  intros Hk. pose proof (Z.mod_pos_bound A (2 ^ k) (pow2_pos k Hk)). unfold sticky_shr.
  destruct (Z.eqb_spec (A mod 2 ^ k) 0) as [E|E].
  - left. now rewrite Z.lor_0_r.
  - right. rewrite lor_1. split; [lia|reflexivity].
Qed.

Lemma unit_lt_l u b a s : (u * b = 1 -> 0 < b -> a * u < s -> a < s * b)%R.
Proof. intros U B H. replace a with (a * u * b)%R by (rewrite Rmult_assoc, U; ring). now apply Rmult_lt_compat_r. Qed.
Lemma unit_lt_r u b a s : (u * b = 1 -> 0 < b -> s < a * u -> s * b < a)%R.
Proof. intros U B H. replace a with (a * u * b)%R by (rewrite Rmult_assoc, U; ring). now apply Rmult_lt_compat_r. Qed.

Lemma near_shr g A S k : 0 <= k -> 0 <= g -> near g A S ->
  near (Z.max 1 (g - k)) (sticky_shr A k) (S * bpow radix2 (- k)).
Proof.
  intros Hk Hg H. pose proof (pow2_pos k Hk) as P.
  pose proof (Z.div_mod A (2 ^ k) ltac:(lia)) as D. pose proof (Z.mod_pos_bound A (2 ^ k) P) as B.
  set (q := A / 2 ^ k) in *. set (r := A mod 2 ^ k) in *.
  assert (PB : (0 < bpow radix2 (- k))%R) by apply bpow_gt_0.
  assert (U : (IZR (2 ^ k) * bpow radix2 (- k) = 1)%R).
  { rewrite IZR_pow2 by lia. rewrite <- bpow_plus. now replace (k + - k) with 0 by lia. }
  set (b := bpow radix2 (- k)) in *.
  assert (C : (r = 0 /\ sticky_shr A k = q) \/ (0 < r /\ sticky_shr A k = if Z.even q then q + 1 else q)).
  { exact (sticky_shr_cases A k Hk). }
  set (I := sticky_shr A k) in *. clearbody I.
  set (qe := q / 2). assert (Dq : q = 2 * qe + (if Z.even q then 0 else 1)).
  { unfold qe. pose proof (Z.div_mod q 2 ltac:(lia)) as Dq. rewrite Zmod_even in Dq. exact Dq. }
  (* S/2^k strictly inside (q, q+1), or equal to q *)
  assert (In : r <> 0 \/ (exists j, (IZR (j * 2 ^ g) < S < IZR ((j + 1) * 2 ^ g))%R /\ g <= k) ->
     (exists j, IZR (j * 2 ^ k) < S < IZR ((j + 1) * 2 ^ k) /\ IZR (j * 2 ^ k) < IZR A < IZR ((j + 1) * 2 ^ k))%R ->
     (0 < r) -> near 1 I (S * b)).
  { intros _ (j & J1 & J2) R0. destruct J2 as [J2 J3]. apply lt_IZR in J2, J3.
    assert (j = q) by (apply Z.le_antisymm; nia). subst j.
    right. exists qe. change (2 ^ 1) with 2. destruct C as [[C _]|[_ C]]; [lia|].
    assert (V : (IZR q < S * b < IZR q + 1)%R).
    { rewrite mult_IZR in J1. rewrite (mult_IZR (q + 1)), plus_IZR in J1.
      split; [apply (unit_lt_l (IZR (2 ^ k)))|apply (unit_lt_r (IZR (2 ^ k)))]; tauto. }
    split; [destruct (Z.even q); lia|].
    destruct (Z.even q).
    - replace (qe * 2) with q by lia. replace ((qe + 1) * 2) with (q + 2) by lia. rewrite plus_IZR. lra.
    - replace (qe * 2) with (q - 1) by lia. replace ((qe + 1) * 2) with (q + 1) by lia. rewrite plus_IZR, minus_IZR. lra. }
  destruct H as [E|(j & K1 & K2)].
  - (* exact *) subst S. destruct (Z.eq_dec r 0) as [R0|R0].
    + destruct C as [[_ C]|[C _]]; [|lia]. left. rewrite C. replace A with (2 ^ k * q) by lia.
      rewrite mult_IZR. transitivity (IZR q * (IZR (2 ^ k) * b))%R; [ring|]. rewrite U. ring.
    + apply (near_le 1); [lia|]. apply In; [now left| |lia]. exists q.
      split; split; apply IZR_lt; nia.
  - destruct (Z.le_gt_cases g k) as [L|L].
    + (* the cell is inside one unit of 2^k *)
      assert (G2 : 2 ^ k = 2 ^ g * 2 ^ (k - g)) by (rewrite <- pow2_split by lia; f_equal; lia).
      assert (N : near k A S) by (apply (near_le g); [lia|]; right; exists j; now split).
      destruct N as [N|(i & N1 & N2)].
      { rewrite N in *. apply (near_le 1); [lia|].
        assert (R0 : 0 < r).
        { destruct (Z.eq_dec r 0) as [R0|R0]; [exfalso|lia]. rewrite R0, Z.add_0_r, G2 in D. 
          assert (exists t, A = t * 2 ^ g) as (t & Et) by (exists (q * 2 ^ (k - g)); lia). rewrite Et in K1.
          pose proof (pow2_pos g Hg) as Pg.
          assert (j < t) by (apply (Z.mul_lt_mono_pos_r (2 ^ g)); lia).
          assert (t < j + 1) by (apply (Z.mul_lt_mono_pos_r (2 ^ g)); lia). lia. }
        apply In; [left; lia| |assumption]. exists q. split; split; apply IZR_lt; nia. }
      assert (R0 : 0 < r).
      { destruct (Z.eq_dec r 0) as [R0|R0]; [exfalso|lia].
        assert (i < q) by (apply (Z.mul_lt_mono_pos_r (2 ^ k)); lia).
        assert (q < i + 1) by (apply (Z.mul_lt_mono_pos_r (2 ^ k)); lia). lia. }
      replace (Z.max 1 (g - k)) with 1 by lia. apply In; [left; lia| |assumption].
      exists i. split; [exact N2|]. split; apply IZR_lt; lia.
    + assert (G2 : 2 ^ g = 2 ^ k * 2 ^ (g - k)) by (rewrite <- pow2_split by lia; f_equal; lia).
      assert (G3 : 2 ^ (g - k) = 2 * 2 ^ (g - k - 1)) by (rewrite <- Z.pow_succ_r by lia; f_equal; lia).
      replace (Z.max 1 (g - k)) with (g - k) by lia. right. exists j.
      set (t := 2 ^ (g - k)) in *. set (t1 := 2 ^ (g - k - 1)) in *. rewrite G2 in *.
      split.
      * assert (j * t <= q) by (apply Z.lt_succ_r; apply (Z.mul_lt_mono_pos_r (2 ^ k)); nia).
        assert (q < (j + 1) * t) by (apply (Z.mul_lt_mono_pos_r (2 ^ k)); nia).
        destruct C as [[C1 C2]|[C1 C2]].
        -- rewrite C2. nia.
        -- rewrite C2. destruct (Z.even q); nia.
      * replace (j * (2 ^ k * t)) with (2 ^ k * (j * t)) in K2 by ring.
        replace ((j + 1) * (2 ^ k * t)) with (2 ^ k * ((j + 1) * t)) in K2 by ring. rewrite !(mult_IZR (2 ^ k)) in K2.
        rewrite !(Rmult_comm (IZR (2 ^ k))) in K2.
        split; [apply (unit_lt_l (IZR (2 ^ k)))|apply (unit_lt_r (IZR (2 ^ k)))]; tauto.
Qed.

(** Bounds on pi, from Machin's formula in the standard library.

    [pi_acc n] sums the first terms of 2 atan(1/3) + atan(1/7) in integer arithmetic at scale 2^s; each term is rounded down, so the sum of n terms is off by at most 2n. *)
From Coq Require Import ZArith Reals Lia Lra Machin Ratan.
From Flocq Require Import Core.
Open Scope Z_scope.

Section Acc.
Variable s : Z.
Hypothesis Hs : 0 <= s.
Definition pterm (n : nat) : Z :=
  let m := 2 * Z.of_nat n + 1 in (2 ^ (s + 1) / 3 ^ m) / m + (2 ^ s / 7 ^ m) / m.
Fixpoint psum (n : nat) : Z :=
  match n with O => pterm 0 | S k => psum k + (if Nat.even n then pterm n else - pterm n) end.
Lemma div_bounds a b : 0 <= a -> 0 < b -> (IZR (a / b) <= IZR a / IZR b < IZR (a / b) + 1)%R.
Proof.
  intros Ha Hb. assert (0 < IZR b)%R by (apply (IZR_lt 0); lia). pose proof (Z.mul_div_le a b Hb) as H1. pose proof (Z.mul_succ_div_gt a b Hb) as H2.
  apply IZR_le in H1. apply IZR_lt in H2. rewrite mult_IZR in *. rewrite succ_IZR in H2. split.
  - apply Rmult_le_reg_l with (IZR b); [assumption|]. replace (IZR b * (IZR a / IZR b))%R with (IZR a) by (field; lra). exact H1.
  - apply Rmult_lt_reg_l with (IZR b); [assumption|]. replace (IZR b * (IZR a / IZR b))%R with (IZR a) by (field; lra). exact H2.
Qed.
Lemma atan_term q n : 0 < q -> (IZR (2 ^ s) * Ratan_seq (/ IZR q) n = IZR (2 ^ s) / IZR (q ^ (2 * Z.of_nat n + 1) * (2 * Z.of_nat n + 1)))%R.
Proof.
  intros Hq. unfold Ratan_seq. rewrite mult_IZR. rewrite INR_IZR_INZ. replace (Z.of_nat (2 * n + 1)) with (2 * Z.of_nat n + 1) by lia.
  replace (IZR (q ^ (2 * Z.of_nat n + 1))) with (IZR q ^ (2 * n + 1))%R by (rewrite pow_IZR; do 2 f_equal; lia).
  rewrite pow_inv. assert (0 < IZR q)%R by (apply (IZR_lt 0); lia).
  assert (IZR (2 * Z.of_nat n + 1) <> 0)%R by (apply (not_0_IZR); lia). pose proof (pow_lt (IZR q) (2 * n + 1) ltac:(assumption)). field. split; lra.
Qed.
Lemma term_ok n : (IZR (pterm n) <= IZR (2 ^ s) * PI_2_3_7_tg n <= IZR (pterm n) + 2)%R.
Proof.
  unfold PI_2_3_7_tg. rewrite Rmult_plus_distr_l. replace (IZR (2 ^ s) * (2 * Ratan_seq (/ 3) n))%R with (2 * (IZR (2 ^ s) * Ratan_seq (/ 3) n))%R by ring.
  rewrite (atan_term 3 n) by lia. rewrite (atan_term 7 n) by lia. unfold pterm. cbv zeta. set (m := 2 * Z.of_nat n + 1).
  assert (0 < m) by (subst m; lia). assert (0 < 3 ^ m) by (apply Z.pow_pos_nonneg; lia). assert (0 < 7 ^ m) by (apply Z.pow_pos_nonneg; lia).
  assert (0 < 2 ^ s) by (apply Z.pow_pos_nonneg; lia). rewrite !Z.div_div by lia. rewrite plus_IZR.
  pose proof (div_bounds (2 ^ (s + 1)) (3 ^ m * m) ltac:(apply Z.pow_nonneg; lia) ltac:(nia)) as D1.
  pose proof (div_bounds (2 ^ s) (7 ^ m * m) ltac:(lia) ltac:(nia)) as D2.
  rewrite Z.pow_add_r in D1 |- * by lia. change (2 ^ 1) with 2 in *. rewrite (mult_IZR _ 2) in D1. unfold Rdiv in *. lra.
Qed.
Lemma psum_ok n : (Rabs (IZR (2 ^ s) * sum_f_R0 (tg_alt PI_2_3_7_tg) n - IZR (psum n)) <= 2 * (INR n + 1))%R.
Proof.
  induction n as [|n IH].
  - cbn [sum_f_R0 psum]. unfold tg_alt. rewrite pow_O, Rmult_1_l. pose proof (term_ok 0). cbn [INR]. apply Rabs_le. lra.
  - cbn [sum_f_R0]. cbn [psum]. pose proof (term_ok (S n)) as T. rewrite S_INR. set (e := S n) in *.
    assert (E : tg_alt PI_2_3_7_tg e = if Nat.even e then PI_2_3_7_tg e else (- PI_2_3_7_tg e)%R).
    { unfold tg_alt. destruct (Nat.even e) eqn:E.
      - apply Nat.even_spec in E as [k ->]. rewrite pow_1_even. ring.
      - assert (O : Nat.odd e = true) by (unfold Nat.odd; now rewrite E). apply Nat.odd_spec in O as [k ->]. replace (2 * k + 1)%nat with (S (2 * k)) by lia. rewrite pow_1_odd. ring. }
    rewrite E. apply Rabs_le_inv in IH. apply Rabs_le. rewrite plus_IZR. destruct (Nat.even e); [|rewrite opp_IZR]; lra.
Qed.
(** the same sum computed with divisions by small numbers only *)
Fixpoint go (k : nat) (m a b acc : Z) (sg : bool) : Z :=
  match k with
  | O => acc
  | S k => let t := a / m + b / m in go k (m + 2) (a / 9) (b / 49) (if sg then acc + t else acc - t) (negb sg)
  end.
Lemma go_ok k : forall n m a b acc sg, m = 2 * Z.of_nat (S n) + 1 -> a = 2 ^ (s + 1) / 3 ^ m -> b = 2 ^ s / 7 ^ m -> acc = psum n -> sg = Nat.even (S n) ->
  go k m a b acc sg = psum (n + k).
Proof.
  induction k as [|k IH]; intros n m a b acc sg -> -> -> -> ->; cbn [go]; [now rewrite Nat.add_0_r|].
  rewrite (IH (S n)); [f_equal; lia|lia| | | |].
  - rewrite Z.div_div by (try apply Z.pow_pos_nonneg; try apply Z.pow_nonzero; lia). f_equal. replace (2 * Z.of_nat (S n) + 1 + 2) with (2 * Z.of_nat (S n) + 1 + 2) by lia. rewrite (Z.pow_add_r 3 _ 2) by lia. reflexivity.
  - rewrite Z.div_div by (try apply Z.pow_pos_nonneg; try apply Z.pow_nonzero; lia). f_equal. rewrite (Z.pow_add_r 7 _ 2) by lia. reflexivity.
  - cbn [psum]. unfold pterm. cbv zeta. destruct (Nat.even (S n)); lia.
  - rewrite (Nat.even_succ (S n)). unfold Nat.odd. reflexivity.
Qed.
Definition pi_acc (k : nat) : Z := go k 3 (2 ^ (s + 1) / 27) (2 ^ s / 343) (2 ^ (s + 1) / 3 + 2 ^ s / 7) false.
Lemma psum_S k : psum (S k) = psum k + (if Nat.even (S k) then pterm (S k) else - pterm (S k)). Proof. reflexivity. Qed.
Lemma pi_acc_ok k : pi_acc k = psum k.
Proof. unfold pi_acc. rewrite (go_ok k 0); try reflexivity. cbn [psum]. unfold pterm. cbv zeta. change (2 * Z.of_nat 0 + 1) with 1. now rewrite !Z.pow_1_r, !Z.div_1_r. Qed.
Lemma pi_bounds N : (IZR (4 * (pi_acc (S (2 * N)) - 2 * (2 * Z.of_nat N + 2))) <= PI * IZR (2 ^ s) <= IZR (4 * (pi_acc (2 * N) + 2 * (2 * Z.of_nat N + 1))))%R.
Proof.
  rewrite !pi_acc_ok. destruct (PI_2_3_7_ineq N) as [L U]. assert (0 < IZR (2 ^ s))%R by (apply IZR_lt, Z.pow_pos_nonneg; lia).
  pose proof (psum_ok (S (2 * N))) as A. pose proof (psum_ok (2 * N)) as B. apply Rabs_le_inv in A. apply Rabs_le_inv in B.
  assert (EN : INR (2 * N) = (2 * IZR (Z.of_nat N))%R) by (rewrite INR_IZR_INZ, Nat2Z.inj_mul, mult_IZR; reflexivity).
  rewrite S_INR, EN in A. rewrite EN in B. rewrite !mult_IZR, minus_IZR, plus_IZR, !mult_IZR, !plus_IZR, !mult_IZR. split; nra.
Qed.
End Acc.

(** pi to 1700 bits *)
Definition PI_LO : Z := Eval vm_compute in 4 * (pi_acc 1720 (S (2 * 271)) - 2 * (2 * Z.of_nat 271 + 2)).
Definition PI_HI : Z := Eval vm_compute in 4 * (pi_acc 1720 (2 * 271) + 2 * (2 * Z.of_nat 271 + 1)).
(** the last term is less than one unit, so one sum is enough *)
Lemma pi_last : pi_acc 1720 (2 * 271) = pi_acc 1720 (S (2 * 271)).
Proof.
  rewrite !pi_acc_ok. assert (T : pterm 1720 543 = 0).
  { unfold pterm. cbv zeta. change (2 * Z.of_nat 543 + 1) with 1087. rewrite (Z.div_small (2 ^ (1720 + 1))) by (split; [apply Z.pow_nonneg; lia|vm_compute; reflexivity]).
    rewrite (Z.div_small (2 ^ 1720)) by (split; [apply Z.pow_nonneg; lia|vm_compute; reflexivity]). reflexivity. }
  change (2 * 271)%nat with 542%nat. rewrite (psum_S 1720 542), T. change (Nat.even 543) with false. cbv iota. lia.
Qed.
Definition PI_SUM : Z := Eval vm_compute in pi_acc 1720 (S (2 * 271)).
Lemma pi_sum : pi_acc 1720 (S (2 * 271)) = PI_SUM. Proof. vm_compute. reflexivity. Qed.
Lemma PI_1720 : (IZR PI_LO <= PI * IZR (2 ^ 1720) <= IZR PI_HI)%R.
Proof.
  assert (H := pi_bounds 1720 ltac:(lia) 271).
  rewrite pi_last, pi_sum in H.
  replace (4 * (PI_SUM - 2 * (2 * Z.of_nat 271 + 2))) with PI_LO in H by (vm_compute; reflexivity).
  replace (4 * (PI_SUM + 2 * (2 * Z.of_nat 271 + 1))) with PI_HI in H by (vm_compute; reflexivity). exact H.
Qed.

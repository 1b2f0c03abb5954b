(** Bounds on pi in fixed point, from the Machin-like series of the standard library. *)
From Coq Require Import ZArith Reals Lia Lra Bool Machin Ratan.
From Flocq Require Import Core.
From Verif Require Import Base Spec Format P_format Ieee P_ieee P_real P_key P_neg P_elem P_lit.
Open Scope Z_scope.

(** [2^k * (2 / ((2i+1) 3^(2i+1)) + 1 / ((2i+1) 7^(2i+1)))], each half rounded down *)
Definition pterm (k i : Z) : Z := 2 ^ k * 2 / ((2 * i + 1) * 3 ^ (2 * i + 1)) + 2 ^ k / ((2 * i + 1) * 7 ^ (2 * i + 1)).
Fixpoint psum (k : Z) (n : nat) : Z :=
  match n with O => pterm k 0 | S m => psum k m + (if Nat.even n then pterm k (Z.of_nat n) else - pterm k (Z.of_nat n)) end.

Lemma fdiv_bound a b : 0 < b -> (IZR a / IZR b - 1 < IZR (a / b) <= IZR a / IZR b)%R.
Proof.
  intros H. pose proof (Z.div_mod a b ltac:(lia)) as E. pose proof (Z.mod_pos_bound a b H) as M.
  assert (P : (0 < IZR b)%R) by now apply (IZR_lt 0).
  assert (D : (IZR a / IZR b = IZR (a / b) + IZR (a mod b) / IZR b)%R).
  { rewrite E at 1. rewrite plus_IZR, mult_IZR. field. lra. }
  assert (0 <= IZR (a mod b) / IZR b < 1)%R.
  { split; [apply Rmult_le_pos; [apply (IZR_le 0); lia|left; now apply Rinv_0_lt_compat]|]. apply Rmult_lt_reg_r with (IZR b); [lra|]. unfold Rdiv. rewrite Rmult_assoc, Rinv_l by lra.
    assert (IZR (a mod b) < IZR b)%R by (apply IZR_lt; lia). lra. }
  lra.
Qed.
Lemma rterm (b : Z) (n : nat) : 0 < b -> Ratan_seq (/ IZR b) n = (1 / IZR ((2 * Z.of_nat n + 1) * b ^ (2 * Z.of_nat n + 1)))%R.
Proof.
  intros Hb. unfold Ratan_seq. rewrite INR_IZR_INZ. rewrite mult_IZR. replace (Z.of_nat (2 * n + 1)) with (2 * Z.of_nat n + 1) by lia.
  rewrite Rfunctions.pow_inv. rewrite pow_IZR. replace (Z.of_nat (2 * n + 1)) with (2 * Z.of_nat n + 1) by lia.
  field. split; apply not_0_IZR; [apply Z.pow_nonzero; lia|lia].
Qed.
Lemma pterm_ok k (n : nat) : 0 <= k -> (IZR (2 ^ k) * PI_2_3_7_tg n - 2 <= IZR (pterm k (Z.of_nat n)) <= IZR (2 ^ k) * PI_2_3_7_tg n)%R.
Proof.
  intros Hk. unfold PI_2_3_7_tg. rewrite (rterm 3 n), (rterm 7 n) by lia. unfold pterm. rewrite plus_IZR.
  set (i := Z.of_nat n). assert (0 <= i) by lia.
  assert (P3 : 0 < (2 * i + 1) * 3 ^ (2 * i + 1)) by (pose proof (Z.pow_pos_nonneg 3 (2 * i + 1)); nia).
  assert (P7 : 0 < (2 * i + 1) * 7 ^ (2 * i + 1)) by (pose proof (Z.pow_pos_nonneg 7 (2 * i + 1)); nia).
  pose proof (fdiv_bound (2 ^ k * 2) _ P3) as B3. pose proof (fdiv_bound (2 ^ k) _ P7) as B7. rewrite (mult_IZR (2 ^ k) 2) in B3.
  unfold Rdiv in *. lra.
Qed.
Lemma psum_ok k n : 0 <= k -> (Rabs (IZR (2 ^ k) * sum_f_R0 (tg_alt PI_2_3_7_tg) n - IZR (psum k n)) <= 2 * INR (S n))%R.
Proof.
  intros Hk. induction n as [|n IH].
  - pose proof (pterm_ok k 0 Hk) as P. cbn [sum_f_R0 psum]. unfold tg_alt. change (Z.of_nat 0) with 0 in P. simpl ((-1) ^ 0)%R. simpl (INR 1). apply Rabs_le. lra.
  - pose proof (pterm_ok k (S n) Hk) as P. rewrite tech5. cbn [psum]. unfold tg_alt at 2. rewrite (S_INR (S n)).
    rewrite plus_IZR. set (T := (IZR (2 ^ k) * PI_2_3_7_tg (S n))%R) in *.
    assert (K : (Rabs (IZR (2 ^ k) * ((-1) ^ S n * PI_2_3_7_tg (S n)) - IZR (if Nat.even (S n) then pterm k (Z.of_nat (S n)) else - pterm k (Z.of_nat (S n)))) <= 2)%R).
    { destruct (Nat.even (S n)) eqn:E.
      - apply Nat.even_spec in E. destruct E as [m E]. rewrite E at 1. rewrite pow_1_even. replace (IZR (2 ^ k) * (1 * PI_2_3_7_tg (S n)))%R with T by (unfold T; ring).
        apply Rabs_le. lra.
      - assert (O : Nat.odd (S n) = true) by (rewrite <- Nat.negb_even, E; reflexivity). apply Nat.odd_spec in O. destruct O as [m O]. rewrite O at 1.
        replace (2 * m + 1)%nat with (S (2 * m)) by lia. rewrite pow_1_odd. replace (IZR (2 ^ k) * (-1 * PI_2_3_7_tg (S n)))%R with (- T)%R by (unfold T; ring).
        rewrite opp_IZR. apply Rabs_le. lra. }
    apply Rle_trans with (2 * INR (S n) + 2)%R; [|lra].
    eapply Rle_trans; [|apply Rplus_le_compat; [exact IH|exact K]].
    eapply Rle_trans; [|apply Rabs_triang]. right. f_equal. ring.
Qed.
(** Bounds on [2^k * PI] from [2N+2] terms. *)
Theorem pi_bounds k N : 0 <= k -> (IZR (4 * (psum k (S (2 * N)) - 2 * Z.of_nat (2 * N + 2))) <= IZR (2 ^ k) * PI <= IZR (4 * (psum k (2 * N) + 2 * Z.of_nat (2 * N + 1))))%R.
Proof.
  intros Hk. destruct (PI_2_3_7_ineq N) as [L U]. pose proof (psum_ok k (S (2 * N)) Hk) as A. pose proof (psum_ok k (2 * N) Hk) as B.
  assert (P : (0 < IZR (2 ^ k))%R) by (apply (IZR_lt 0); apply Z.pow_pos_nonneg; lia).
  rewrite !mult_IZR, minus_IZR, plus_IZR, !mult_IZR, <- !INR_IZR_INZ.
  replace (2 * N + 2)%nat with (S (S (2 * N))) by lia. replace (2 * N + 1)%nat with (S (2 * N)) by lia.
  apply Rabs_le_inv in A. apply Rabs_le_inv in B. split; nra.
Qed.

Lemma pi_120 : (IZR 4175892906503776358826876457663556747 <= IZR (2 ^ 120) * PI <= IZR 4175892906503776358826876457663558747)%R.
Proof.
  destruct (pi_bounds 120 20 ltac:(lia)) as [L U]. split.
  - eapply Rle_trans; [|exact L]. apply IZR_le. vm_compute. discriminate.
  - eapply Rle_trans; [exact U|]. apply IZR_le. vm_compute. discriminate.
Qed.
(** A real close to a positive normal float rounds to it. *)
Lemma rounds_near F y r sz n e : isbits F y -> finite F y = true -> val F y = (IZR n * bpow radix2 e)%R -> 2 ^ mw F < n < 2 ^ (mw F + 1) -> emin F <= e ->
  (Rabs (r * bpow radix2 (- e) - IZR n) < / 2)%R -> rounds_to F r sz y.
Proof.
  intros B Fy V N E H. pose proof (fmt_facts F) as FF.
  assert (P : (0 < bpow radix2 e)%R) by apply bpow_gt_0. set (w := (r * bpow radix2 (- e))%R) in *.
  assert (Ew : r = (w * bpow radix2 e)%R). { unfold w. rewrite Rmult_assoc, <- bpow_plus. replace (- e + e) with 0 by lia. simpl. ring. }
  assert (N1 : (bpow radix2 (mw F) + 1 <= IZR n)%R) by (rewrite <- IZR_pow2, <- plus_IZR by lia; apply IZR_le; lia).
  assert (N2 : (IZR n <= bpow radix2 (mw F + 1) - 1)%R) by (rewrite <- IZR_pow2, <- minus_IZR by lia; apply IZR_le; lia).
  pose proof (bpow_gt_0 radix2 (mw F)) as P2. apply Rabs_lt_inv in H as H'.
  assert (W : (bpow radix2 (mw F) <= w < bpow radix2 (mw F + 1))%R) by lra.
  assert (R0 : (0 < r)%R) by (rewrite Ew; apply Rmult_lt_0_compat; lra).
  assert (Er : rnd F r = val F y).
  { rewrite (rnd_scaled F r e); [|rewrite Rabs_pos_eq by lra; rewrite Ew, (Zplus_comm e), <- Zplus_assoc, (Zplus_comm e 1), Zplus_assoc, !bpow_plus;
       rewrite <- (bpow_plus radix2 (mw F) 1); split; [apply Rmult_le_compat_r; lra|apply Rmult_lt_compat_r; lra]|exact E].
    rewrite V. f_equal. f_equal. fold w. now apply Znearest_imp. }
  split; [exact B|]. rewrite Er. rewrite Rlt_bool_true by now apply val_lt_max. split; [exact Fy|]. split; [reflexivity|].
  rewrite Rcompare_Gt by lra. apply val_pos_sign. rewrite V. apply Rmult_lt_0_compat; lra.
Qed.
Lemma fneg_infinity F s : fneg F (infinity F s) = infinity F (negb s).
Proof.
  pose proof (fmt_facts F). pose proof (pow2_pos (ew F) ltac:(lia)). pose proof (pow2_pos (mw F) ltac:(lia)).
  destruct (mkbits_fields F s (2 ^ ew F - 1) 0) as (S & E & M); try lia. rewrite fneg_eq by apply infinity_fields. unfold with_sign, infinity. now rewrite S, E, M.
Qed.
Lemma rounds_opp F r s y : isbits F y -> rounds_to F r s y -> r <> 0%R -> rounds_to F (- r) s (fneg F y).
Proof.
  intros B [_ H] R0. split; [now apply fneg_fields|]. rewrite rnd_opp, Rabs_Ropp. destruct (Rlt_bool_spec (Rabs (rnd F r)) (bpow radix2 (bias F + 1))).
  - destruct H as (Fy & V & S). rewrite fneg_finite, fneg_val, V by assumption. split; [exact Fy|]. split; [reflexivity|].
    rewrite (proj1 (proj2 (fneg_fields F y B))), S. destruct (Rcompare_spec r 0); [rewrite Rcompare_Gt by lra|lra|rewrite Rcompare_Lt by lra]; reflexivity.
  - subst y. rewrite fneg_infinity. f_equal. destruct (Rlt_bool_spec r 0); [rewrite Rlt_bool_false by lra|rewrite Rlt_bool_true by lra]; reflexivity.
Qed.
Lemma pio2_64 s : rounds_to f64 (PI / 2) s 0x3ff921fb54442d18.
Proof.
  apply (rounds_near f64 _ _ _ 0x1921fb54442d18 (-52)).
  - vm_compute; split; [discriminate|reflexivity].
  - reflexivity.
  - replace (bpow radix2 (-52)) with (1 / IZR (2 ^ 52))%R by (simpl; unfold Z.pow_pos; simpl; lra). 
    replace (IZR 0x1921fb54442d18 * (1 / IZR (2 ^ 52)))%R with (IZR 0x1921fb54442d18 / IZR (2 ^ 52))%R by (unfold Rdiv; ring). lit.
  - vm_compute. split; reflexivity.
  - vm_compute. discriminate.
  - pose proof pi_120 as [L U]. change (- (-52)) with 52. replace (bpow radix2 52) with (IZR (2 ^ 52)) by (simpl; unfold Z.pow_pos; simpl; lra).
    apply Rabs_lt. change (2 ^ 120) with 1329227995784915872903807060280344576 in *. change (2 ^ 52) with 4503599627370496. lra.
Qed.
Lemma pio2_32 s : rounds_to f32 (PI / 2) s 0x3fc90fdb.
Proof.
  apply (rounds_near f32 _ _ _ 0xc90fdb (-23)).
  - vm_compute; split; [discriminate|reflexivity].
  - reflexivity.
  - replace (bpow radix2 (-23)) with (1 / IZR (2 ^ 23))%R by (simpl; unfold Z.pow_pos; simpl; lra). 
    replace (IZR 0xc90fdb * (1 / IZR (2 ^ 23)))%R with (IZR 0xc90fdb / IZR (2 ^ 23))%R by (unfold Rdiv; ring). lit.
  - vm_compute. split; reflexivity.
  - vm_compute. discriminate.
  - pose proof pi_120 as [L U]. change (- (-23)) with 23. replace (bpow radix2 23) with (IZR (2 ^ 23)) by (simpl; unfold Z.pow_pos; simpl; lra).
    apply Rabs_lt. change (2 ^ 120) with 1329227995784915872903807060280344576 in *. change (2 ^ 23) with 8388608. lra.
Qed.

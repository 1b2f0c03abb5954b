(** The double-precision kernel [k_tan] below 0.6743: accuracy of the result. *)
From Coq Require Import ZArith Reals Lia Lra Bool List Psatz.
From Flocq Require Import Core.
From Verif Require Import Base Spec SpecAcc SpecUlp Format P_format Ieee P_ieee P_real P_neg P_lit P_err P_apx P_acc P_kerf2 P_tanf2 P_red64 P_ulp P_tan64r P_tan64b P_tan64o M_basic M_elib M_trig.
Open Scope R_scope.
Open Scope fl_scope.

Lemma abs_fac t X p : t = X * p -> 0.999 <= p -> Rabs t = Rabs X * p.
Proof. intros -> H. rewrite Rabs_mult, (Rabs_pos_eq p) by lra. reflexivity. Qed.
(** all that the later steps use *)
Lemma small_all x y r : arg x y r 0.67434 -> let X := val f64 x in let a := X + val f64 (tanR x y) in let t := tan r in
  isbits f64 (tanR x y) /\ finite f64 (tanR x y) = true /\ 0.999 * Rabs X <= Rabs t <= 0.8295 /\ Rabs (a - t) <= 1.4335 * u * Rabs X /\ Rabs (a - X) <= 0.3 * Rabs X /\
  (Rabs X <= 0.47 -> Rabs (a - t) <= 0.456 * u * Rabs t) /\ (0.47 <= Rabs X -> 0.504 <= Rabs t /\ Rabs (a - t) <= 0.97 * u /\ Rabs (a - t) <= 1.92 * u * (Rabs t * Rabs t)).
Proof.
  intros A X a t. pose proof A as (Bx & Fx & By & Fy & HX & HY & HE). fold X in HX, HY, HE. destruct (tanR_3 x y Bx Fx By Fy HY (proj1 HX) ltac:(fold X; lra)) as (BR & FR & _). split; [exact BR|]. split; [exact FR|].
  destruct (tan_fac x y r A) as (p & Et & HP & HP'). fold t X in Et. fold X in HP. pose proof (abs_fac t X p Et HP') as AT. pose proof (pre3 x y r A) as P3. fold X in P3. fold a t in P3. pose proof (Rabs_pos X) as PX. pose proof (bpow_gt_0 radix2 (-100)) as B0.
  assert (XX : X * X = Rabs X * Rabs X) by (rewrite <- Rabs_mult, Rabs_pos_eq; [reflexivity|nra]). rewrite XX in HP. rewrite AT.
  assert (Q1 : Rabs X * 0.999 <= Rabs X * p) by (apply Rmult_le_compat_l; lra). assert (Q2 : Rabs X * p <= 0.67434 * 1.23) by (apply Rmult_le_compat; lra).
  split; [lra|]. split; [exact P3|]. split.
  { replace (a - X) with ((a - t) + (t - X)) by ring. eapply Rle_trans; [apply Rabs_triang|]. replace (t - X) with (X * (p - 1)) by (rewrite Et; ring). rewrite (Rabs_mult X). assert (Rabs (p - 1) <= 0.23) by (apply Rabs_le; lra). assert (Rabs X * Rabs (p - 1) <= Rabs X * 0.23) by (apply Rmult_le_compat_l; lra). lra. }
  split.
  - intros L. destruct (Rle_lt_dec (Rabs X) 0.43) as [S | S].
    + assert (A' : arg x y r 0.43). { unfold arg. fold X. repeat (split; [assumption|]). split; [split; [exact (proj1 HX)|lra]|]. split; assumption. } pose proof (pre0 x y r A') as P. fold X in P. fold a t in P. lra.
    + assert (A' : arg x y r 0.47). { unfold arg. fold X. repeat (split; [assumption|]). split; [split; [exact (proj1 HX)|lra]|]. split; assumption. } pose proof (pre1 x y r A') as P. fold X in P. fold a t in P.
      assert (1.06 <= p) by nra. assert (Rabs X * 1.06 <= Rabs X * p) by (apply Rmult_le_compat_l; lra). lra.
  - intros L. assert (P73 : 1.0734 <= p) by nra. assert (Rabs X * 1.0734 <= Rabs X * p) by (apply Rmult_le_compat_l; lra). split; [lra|]. split; [lra|].
    replace (1.92 * u * (Rabs X * p * (Rabs X * p))) with (1.92 * (Rabs X * (p * p)) * u * Rabs X) by ring. destruct (Rle_lt_dec (Rabs X) 0.6) as [S | S].
    + assert (A' : arg x y r 0.6). { unfold arg. fold X. repeat (split; [assumption|]). split; [split; [exact (proj1 HX)|lra]|]. split; assumption. } pose proof (pre2 x y r A') as P. fold X in P. fold a t in P.
      eapply Rle_trans; [exact P|]. apply Rmult_le_compat_r; [lra|]. apply Rmult_le_compat_r; [lra|]. assert (1.152 <= p * p) by nra. assert (0.47 * 1.152 <= Rabs X * (p * p)) by (apply Rmult_le_compat; lra). lra.
    + eapply Rle_trans; [exact P3|]. apply Rmult_le_compat_r; [lra|]. apply Rmult_le_compat_r; [lra|]. assert (1.119 <= p) by nra. assert (1.252 <= p * p) by nra. assert (0.6 * 1.252 <= Rabs X * (p * p)) by (apply Rmult_le_compat; lra). lra.
Qed.
Lemma b1_ : bpow radix2 (-1) = / 2. Proof. reflexivity. Qed.
Lemma b53_ : bpow radix2 (-53) = u. Proof. reflexivity. Qed.
Lemma b52_ : bpow radix2 (-52) = 2 * u. Proof. change (-52)%Z with (1 + -53)%Z. rewrite bpow_plus. reflexivity. Qed.
Lemma tan_even x y r : arg x y r 0.67434 -> let w := x +: tanR x y in finite f64 w = true /\ val f64 w = rnd f64 (val f64 x + val f64 (tanR x y)) /\ (Rabs (tan r) <= 0.5 -> faithful f64 (tan r) w) /\ within_ulps f64 1.5 (tan r) w.
Proof.
  intros A w. destruct (small_all x y r A) as (BR & FR & TB & E3 & _ & E1 & E2). pose proof A as (Bx & Fx & By & Fy & HX & HY & HE). set (X := val f64 x) in *. set (R1 := tanR x y) in *. set (t := tan r) in *. pose proof (bpow_gt_0 radix2 (-100)) as B0.
  assert (AB : Rabs (X + val f64 R1) <= 1). { replace (X + val f64 R1) with ((X + val f64 R1 - t) + t) by ring. eapply Rle_trans; [apply Rabs_triang|]. lra. }
  pose proof (fadd_spec f64 x R1 Fx FR) as RT. fold X in RT. fold w in RT. assert (Bw : isbits f64 w) by apply fadd_isbits.
  destruct (rounds_fin f64 _ _ _ RT) as [Fw Ew]. { eapply Rle_trans; [exact AB|]. change 1 with (bpow radix2 0). apply bpow_le. vm_compute. discriminate. }
  split; [exact Fw|]. split; [exact Ew|]. assert (FA : Rabs X <= 0.47 -> faithful f64 t w).
  { intros L. split; [exact Bw|]. split; [exact Fw|]. rewrite Ew. apply near; [vm_compute; discriminate|intros E; rewrite E, Rabs_R0 in TB; lra|]. change (- pr f64 - 2)%Z with (-55)%Z. change (bpow radix2 (-55)) with (/ 36028797018963968). specialize (E1 L). pose proof (Rabs_pos t). lra. }
  split.
  - intros L. apply FA. destruct (Rle_lt_dec (Rabs X) 0.47) as [|Q]; [assumption|]. destruct (E2 ltac:(lra)). lra.
  - destruct (Rle_lt_dec (Rabs X) 0.47) as [Q|Q]; [apply ulps_le with 1; [lra|]; now apply faithful_ulp, FA|]. destruct (E2 ltac:(lra)) as (T1 & T2 & _).
    apply ulps_le with (/ 2 + 0.97); [lra|]. apply (ulps_bin 0 _ _ _ _ _ ltac:(lia) Bw RT); [change (bpow radix2 (0 - 1)) with (/ 2); change (bpow radix2 0) with 1; lra|exact AB|]. change (0 - 53)%Z with (-53)%Z. rewrite b53_. exact T2.
Qed.
(** ** The reciprocal *)
Lemma recip_real a t B : t <> 0 -> Rabs (a - t) <= 0.001 * Rabs t -> Rabs (B * a + 1) <= / 36893488147419103232 -> Rabs (B + / t) <= (Rabs (a - t) / Rabs t + / 18446744073709551616) * 1.00000000001 * Rabs (/ t) \/ / 1000000000000 * Rabs t <= Rabs (a - t).
Proof.
  intros N H HB. destruct (Rle_lt_dec (/ 1000000000000 * Rabs t) (Rabs (a - t))) as [|S]; [now right|left]. pose proof (Rabs_pos_lt t N) as TP.
  assert (AN : a <> 0). { intros E. rewrite E in S. replace (0 - t) with (- t) in S by ring. rewrite Rabs_Ropp in S. lra. }
  pose proof (Rabs_triang_inv t a) as Q. rewrite (Rabs_minus_sym t a) in Q. pose proof (Rabs_pos_lt a AN) as AP.
  replace (B + / t) with (((B * a + 1) * t + (a - t)) * / t * / a) by (field; split; assumption). rewrite !Rabs_mult.
  assert (I : Rabs (/ a) * Rabs t <= 1.0000000000011). { assert (IA : Rabs (/ a) * Rabs a = 1) by (rewrite <- Rabs_mult, Rinv_l by assumption; apply Rabs_R1). pose proof (Rabs_pos (/ a)). nra. }
  assert (K : Rabs ((B * a + 1) * t + (a - t)) * Rabs (/ a) <= (Rabs (a - t) / Rabs t + / 18446744073709551616) * 1.00000000001).
  { apply Rle_trans with ((/ 36893488147419103232 * Rabs t + Rabs (a - t)) * Rabs (/ a)).
    - apply Rmult_le_compat_r; [apply Rabs_pos|]. eapply Rle_trans; [apply Rabs_triang|]. rewrite Rabs_mult. assert (Rabs (B * a + 1) * Rabs t <= / 36893488147419103232 * Rabs t) by (apply Rmult_le_compat_r; lra). lra.
    - replace ((/ 36893488147419103232 * Rabs t + Rabs (a - t)) * Rabs (/ a)) with ((/ 36893488147419103232 + Rabs (a - t) / Rabs t) * (Rabs (/ a) * Rabs t)) by (field; lra). assert (0 <= Rabs (a - t) / Rabs t) by (apply Rmult_le_pos; [apply Rabs_pos|left; apply Rinv_0_lt_compat; lra]).
      apply Rle_trans with ((/ 36893488147419103232 + Rabs (a - t) / Rabs t) * 1.0000000000011); [apply Rmult_le_compat_l; lra|]. lra. }
  set (g := Rabs (a - t) / Rabs t) in *. replace (Rabs ((B * a + 1) * t + (a - t)) * Rabs (/ t) * Rabs (/ a)) with (Rabs ((B * a + 1) * t + (a - t)) * Rabs (/ a) * Rabs (/ t)) by ring. apply Rmult_le_compat_r; [apply Rabs_pos|exact K].
Qed.
Lemma tan_odd_ x y r w : bpow radix2 (-96) <= Rabs (val f64 x) -> arg x y r 0.67434 -> w = x +: tanR x y -> let t := tan r in let q := rs_k_tan_zero_low_word (0xbff0000000000000 /: w) +: recip x (tanR x y) w in (2 <= Rabs (- / t) -> faithful f64 (- / t) q) /\ within_ulps f64 1.5 (- / t) q.
Proof.
  intros H96 A Hw t q. destruct (tan_even x y r A) as (Fw & Ew & _). rewrite <- Hw in Fw, Ew. destruct (small_all x y r A) as (BR & FR & TB & E3 & EX & E1 & E2). pose proof A as (Bx & Fx & By & Fy & HX & HY & HE). fold t in TB, E3, E1, E2.
  assert (Bw : isbits f64 w) by (rewrite Hw; apply fadd_isbits). set (R1 := tanR x y) in *. set (X := val f64 x) in *. clearbody R1. clear Hw. pose proof (bpow_gt_0 radix2 (-100)) as B0. set (a := X + val f64 R1) in *.
  assert (TN : t <> 0) by (intros E; rewrite E, Rabs_R0 in TB; lra). pose proof (Rabs_pos_lt t TN) as TP. pose proof (Rabs_pos X) as PX.
  pose proof (Rabs_triang_inv a t) as Q1. pose proof (Rabs_triang_inv t a) as Q2. rewrite (Rabs_minus_sym t a) in Q2.
  assert (HA : bpow radix2 (-97) <= Rabs a <= 2). { split; [|lra]. replace (-96)%Z with (1 + -97)%Z in H96 by reflexivity. rewrite bpow_plus in H96. change (bpow radix2 1) with 2 in H96. pose proof (bpow_gt_0 radix2 (-97)). lra. }
  destruct (recip_ok x R1 w Bx Fx BR FR Bw Fw HA EX Ew) as (Fr & Ba & Fa & HB). fold a in HB. set (a0 := rs_k_tan_zero_low_word _) in *. set (rc := recip x R1 w) in *. set (B := val f64 a0 + val f64 rc) in *.
  pose proof (fadd_spec f64 a0 rc Fa Fr) as RT. fold B q in RT. assert (Bq : isbits f64 q) by apply fadd_isbits.
  destruct (recip_real a t B TN ltac:(lra) HB) as [H | H]; [|lra].
  assert (IT : Rabs (/ t) * Rabs t = 1) by (rewrite <- Rabs_mult, Rinv_l by assumption; apply Rabs_R1). pose proof (Rabs_pos (/ t)) as PI'.
  assert (DG : Rabs (a - t) / Rabs t * Rabs t = Rabs (a - t)) by (field; lra). set (g := Rabs (a - t) / Rabs t) in *. assert (G0 : 0 <= g) by (apply Rmult_le_pos; [apply Rabs_pos|left; apply Rinv_0_lt_compat; lra]). clearbody g.
  assert (EB : B - - / t = B + / t) by ring. rewrite Rabs_Ropp.
  assert (FA : Rabs X <= 0.47 -> faithful f64 (- / t) q).
  { intros L. specialize (E1 L). assert (G : g <= 0.456 * u). { apply Rmult_le_reg_r with (Rabs t); [lra|]. lra. }
    assert (HH : Rabs (B + / t) <= 0.46 * u * Rabs (/ t)) by (eapply Rle_trans; [exact H|]; apply Rmult_le_compat_r; lra).
    assert (FB : finite f64 q = true /\ val f64 q = rnd f64 B). { apply (rounds_fin f64 _ _ _ RT). replace B with ((B + / t) + - / t) by ring. eapply Rle_trans; [apply Rabs_triang|]. rewrite Rabs_Ropp.
      assert (IB : Rabs (/ t) <= bpow radix2 97). { apply Rmult_le_reg_r with (Rabs t); [lra|]. rewrite IT. apply Rle_trans with (bpow radix2 97 * (0.999 * bpow radix2 (-96))); [replace (bpow radix2 97 * (0.999 * bpow radix2 (-96))) with (0.999 * (bpow radix2 97 * bpow radix2 (-96))) by ring; rewrite <- bpow_plus; change (bpow radix2 (97 + -96)) with 2; lra|apply Rmult_le_compat_l; [apply bpow_ge_0|lra]]. }
      apply Rle_trans with (2 * bpow radix2 97); [lra|]. change 2 with (bpow radix2 1) at 1. rewrite <- bpow_plus. apply bpow_le. vm_compute. discriminate. }
    destruct FB as [Fq Eq]. split; [exact Bq|]. split; [exact Fq|]. rewrite Eq. apply near; [vm_compute; discriminate|intros E; apply (Rinv_neq_0_compat t TN); lra|]. rewrite EB, Rabs_Ropp. change (- pr f64 - 2)%Z with (-55)%Z. change (bpow radix2 (-55)) with (/ 36028797018963968). lra. }
  split.
  - intros L. apply FA. destruct (Rle_lt_dec (Rabs X) 0.47) as [|Q]; [assumption|]. destruct (E2 ltac:(lra)) as [T1 _]. assert (2 * 0.504 <= Rabs (/ t) * Rabs t) by (apply Rmult_le_compat; lra). lra.
  - destruct (Rle_lt_dec (Rabs X) 0.47) as [Q|Q]; [apply ulps_le with 1; [lra|]; now apply faithful_ulp, FA|]. destruct (E2 ltac:(lra)) as (T1 & _ & T2).
    assert (G : g <= 1.92 * u * Rabs t). { apply Rmult_le_reg_r with (Rabs t); [lra|]. lra. }
    assert (HH : Rabs (B + / t) <= 1.93 * u). { eapply Rle_trans; [exact H|]. apply Rle_trans with ((1.92 * u * Rabs t + / 18446744073709551616) * 1.00000000001 * Rabs (/ t)); [apply Rmult_le_compat_r; lra|].
      replace ((1.92 * u * Rabs t + / 18446744073709551616) * 1.00000000001 * Rabs (/ t)) with (1.92 * u * 1.00000000001 * (Rabs (/ t) * Rabs t) + / 18446744073709551616 * 1.00000000001 * Rabs (/ t)) by ring. rewrite IT. assert (Rabs (/ t) <= 2) by nra. lra. }
    assert (V2 : 1.2 <= Rabs (/ t) <= 1.985) by (split; nra).
    apply ulps_le with (/ 2 + 0.97); [lra|]. apply (ulps_bin 1 _ _ B _ _ ltac:(lia) Bq RT); [rewrite Rabs_Ropp; change (bpow radix2 (1 - 1)) with 1; change (bpow radix2 1) with 2; lra| |].
    + change (bpow radix2 1) with 2. replace B with ((B + / t) + - / t) by ring. eapply Rle_trans; [apply Rabs_triang|]. rewrite Rabs_Ropp. lra.
    + rewrite EB. change (1 - 53)%Z with (-52)%Z. rewrite b52_. lra.
Qed.

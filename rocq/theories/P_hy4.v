(** The inverse hyperbolic functions: the branches, for any format with at least 24 bits of precision. *)
From Coq Require Import ZArith Reals Lia Lra Bool List Psatz.
From Flocq Require Import Core.
From Verif Require Import Base Spec SpecFun2 SpecFun3 SpecLog SpecLog1p SpecLog2 SpecHyp Format P_format Ieee P_ieee P_real P_neg P_lit P_err P_scalbn P_apx P_lga1 P_expa9 P_hy1 P_hy2 P_hy3.
Open Scope R_scope.
Local Opaque fadd fsub fmul fdiv of_int.

Section C.
Variable F : fmt.
Hypothesis MW : (23 <= mw F <= 60)%Z.
Hypothesis MB : (pr F + 101 <= 1 - emin F)%Z.
Hypothesis BB : (90 <= bias F <= 2 ^ 20)%Z.
Variables one two half ln2 : Z.
Hypothesis O1 : isbits F one.
Hypothesis O2 : finite F one = true.
Hypothesis O3 : val F one = 1.
Hypothesis T2 : finite F two = true.
Hypothesis T3 : val F two = 2.
Hypothesis H2 : finite F half = true.
Hypothesis H3 : val F half = / 2.
Hypothesis L1 : RE F ln2 (ln 2) 1.
Variables sq lg l1 : Z -> option Z.
Hypothesis Hsq : forall x, isbits F x -> exists r, sq x = Some r /\ sqrt_spec F x r.
Hypothesis Hlg : log_like F lg ln.
Hypothesis Hl1 : log1p_like F l1.
Variable x : Z.
Hypothesis Bx : isbits F x.
Hypothesis Fx : finite F x = true.
Let X := val F x.
Let p := bpow radix2 (- pr F).
Let sl := / 1000.
Let MW1 := proj1 MW.
Let BB1 := proj1 BB.

Lemma re_one : RE F one 1 0.
Proof. pose proof (re_exact F one O1 O2) as H. rewrite O3 in H. exact H. Qed.
Lemma re_x : RE F x X 0.
Proof. exact (re_exact F x Bx Fx). Qed.
Lemma re_two y V k : inr V -> inr (2 * V) -> 0 <= k <= 8 -> RE F y V k -> RE F (fmul F two y) (2 * V) k.
Proof. exact (fun A B => re_scale F MW1 MB BB1 two y V k 1 T2 T3 ltac:(lia) A B). Qed.
Lemma re_half y V k : inr V -> inr (/ 2 * V) -> 0 <= k <= 8 -> RE F y V k -> RE F (fmul F half y) (/ 2 * V) k.
Proof. exact (fun A B => re_scale F MW1 MB BB1 half y V k (-1) H2 H3 ltac:(lia) A B). Qed.
Lemma re_rel y V k : 0 < V -> k <= 6 -> RE F y V k -> rel_err F 3 V y.
Proof.
  intros V0 K (A & B & C). split; [exact A|]. split; [exact B|]. rewrite (re_eps F). rewrite (Rabs_pos_eq V) by lra. eapply Rle_trans; [exact C|]. apply Rmult_le_compat_r; [lra|]. fold p. pose proof (bpow_gt_0 radix2 (- pr F)) as P. fold p in P |- *. nra.
Qed.
Ltac ir := apply inr_lit; nra.

(** * atanh *)
Definition ath_mid (y : Z) : option Z := let* v := l1 (fadd F (fmul F two y) (fdiv F (fmul F (fmul F two y) y) (fsub F one y))) in Some (fmul F half v).
Definition ath_hi (y : Z) : option Z := let* v := l1 (fmul F two (fdiv F y (fsub F one y))) in Some (fmul F half v).
Lemma ath_fin W y k : bpow radix2 (-70) <= W <= bpow radix2 70 -> 0 <= k <= 7 / 2 -> RE F y W k -> 1 + W = (1 + X) / (1 - X) -> exists r, (let* v := l1 y in Some (fmul F half v)) = Some r /\ rel_err F 3 (Ratanh X) r.
Proof.
  intros HW K HR E. pose proof (bpow_gt_0 radix2 (-70)) as P. destruct (re_l1 F MW1 l1 y W k Hl1 ltac:(lra) ltac:(lra) HR) as (v & E1 & R1). rewrite E1. cbn [bind]. eexists. split; [reflexivity|].
  pose proof (inr_ln1 W HW) as I. pose proof (ln1_lo W ltac:(lra)) as [LL LU]. unfold Ratanh. rewrite <- E. replace (ln (1 + W) / 2) with (/ 2 * ln (1 + W)) by lra. pose proof (inr_pos _ I).
  apply re_rel with (k + 2 + sl); [lra|unfold sl; lra|]. apply re_half; [exact I| |unfold sl; lra|exact R1]. destruct I as [I1 I2]. split; [|lra].
  (* the lower bound, with room for the factor 1/2 *)
  apply Rle_trans with (/ 2 * (W / (1 + W))); [|lra]. apply Rmult_le_reg_r with (1 + W); [lra|]. replace (/ 2 * (W / (1 + W)) * (1 + W)) with (/ 2 * W) by (field; lra). change (bpow radix2 (-70)) with (/ 1180591620717411303424) in *. change (bpow radix2 70) with 1180591620717411303424 in *. change (bpow radix2 (-80)) with (/ 1208925819614629174706176). lra.
Qed.
Lemma ath_mid_ok : / 4294967296 <= X <= / 2 -> exists r, ath_mid x = Some r /\ rel_err F 3 (Ratanh X) r.
Proof.
  intros H. assert (XX : 0 < X * X <= / 4) by nra.
  pose proof (re_two x X 0 ltac:(ir) ltac:(ir) ltac:(lra) re_x) as A1.
  assert (I2 : inr (2 * X * X)) by ir.
  pose proof (re_mul F MW1 MB BB1 (fmul F two x) x (2 * X) X 0 0 ltac:(lra) ltac:(lra) I2 ltac:(lra) ltac:(lra) A1 re_x) as A2. 
  assert (A3 : RE F (fsub F one x) (1 - X) (0 + 1 + sl)) by (apply (re_sub F MW1 MB BB1 one x 1 X 0 0 0); [lra|lra|ir|lra|exact re_one|exact re_x|lra]).
  set (B := 2 * X * X / (1 - X)). assert (EB : B * (1 - X) = 2 * X * X) by (unfold B; field; lra). assert (B0 : 0 < B) by (unfold B; apply Rdiv_lt_0_compat; lra). assert (BU : B <= 2 * X) by nra.
  assert (IB : inr B) by (apply inr_lit; split; [nra|lra]).
  pose proof (re_div F MW1 MB BB1 _ _ (2 * X * X) (1 - X) (0 + 0 + 1 + / 1000) (0 + 1 + sl) ltac:(lra) ltac:(lra) IB ltac:(lra) ltac:(unfold sl; lra) A2 A3) as A4. fold B in A4.
  assert (A5 : RE F (fadd F (fmul F two x) (fdiv F (fmul F (fmul F two x) x) (fsub F one x))) (2 * X + B) (8 / 5 + 1 + sl)).
  { eapply (re_add F MW1 MB BB1 _ _ (2 * X) B 0); [lra|lra|apply inr_lit; lra|lra|exact A1|exact A4|unfold sl; lra]. }
  apply (ath_fin (2 * X + B) _ (8 / 5 + 1 + sl)); [|unfold sl; lra|exact A5|].
  - change (bpow radix2 (-70)) with (/ 1180591620717411303424). change (bpow radix2 70) with 1180591620717411303424. lra.
  - unfold B. field. lra.
Qed.
Lemma ath_hi_ok : / 2 <= X < 1 -> exists r, ath_hi x = Some r /\ rel_err F 3 (Ratanh X) r.
Proof.
  intros H. destruct (re_sterbenz F MW1 BB1 one x O2 Fx) as (S1 & S2 & S3); [fold X; lra|fold X; lra|fold X; lra|]. fold X in S3.
  assert (G : / 4611686018427387904 <= 1 - X).
  { destruct (repr_grid F X (-1) (repr_val F x Fx)) as [n Hn]. { intros _. rewrite Rabs_pos_eq by lra. change (bpow radix2 (-1)) with (/ 2). lra. }
    assert (E : 1 - X = IZR (2 ^ (mw F + 1) - n) * bpow radix2 (-1 - mw F)). { rewrite minus_IZR, Hn, IZR_pow2 by lia. rewrite Rmult_minus_distr_r, <- bpow_plus. replace (mw F + 1 + (-1 - mw F))%Z with 0%Z by lia. change (bpow radix2 0) with 1. ring. }
    pose proof (bpow_gt_0 radix2 (-1 - mw F)) as P. assert (N : (1 <= 2 ^ (mw F + 1) - n)%Z). { destruct (Z_lt_le_dec (2 ^ (mw F + 1) - n) 1) as [C | C]; [|exact C]. exfalso. assert (IZR (2 ^ (mw F + 1) - n) <= 0) by (apply (IZR_le _ 0); lia). assert (1 - X <= 0) by (rewrite E; nra). lra. }
    apply IZR_le in N. rewrite E. apply Rle_trans with (1 * bpow radix2 (-1 - mw F)); [|apply Rmult_le_compat_r; lra]. rewrite Rmult_1_l. apply Rle_trans with (bpow radix2 (-62)); [right; reflexivity|apply bpow_le; lia]. }
  assert (A1 : RE F (fsub F one x) (1 - X) 0). { rewrite <- O3. fold X. rewrite <- S3. exact (re_exact F _ S1 S2). }
  set (q := X / (1 - X)). assert (EQ : q * (1 - X) = X) by (unfold q; field; lra). assert (Q0 : 0 < q) by (unfold q; apply Rdiv_lt_0_compat; lra). assert (Q1 : / 2 <= q) by nra. assert (QU : q <= 4611686018427387904) by nra.
  pose proof (re_div F MW1 MB BB1 x _ X (1 - X) 0 0 ltac:(lra) ltac:(lra) ltac:(apply inr_lit; fold q; lra) ltac:(lra) ltac:(lra) re_x A1) as A2. fold q in A2.
  pose proof (re_two _ q (0 + 0 + 1 + / 1000) ltac:(apply inr_lit; lra) ltac:(apply inr_lit; lra) ltac:(lra) A2) as A3.
  apply (ath_fin (2 * q) _ (0 + 0 + 1 + / 1000)); [|lra|exact A3|].
  - change (bpow radix2 (-70)) with (/ 1180591620717411303424). change (bpow radix2 70) with 1180591620717411303424. lra.
  - unfold q. field. lra.
Qed.
Lemma ath_tiny_ok : 0 <= X -> X * X <= 4 * p -> rel_err F 3 (Ratanh X) x.
Proof.
  intros H H1. pose proof (re_p F MW1) as P. fold p in P. pose proof (Ratanh_tiny X (4 * p) H H1 ltac:(lra)) as Q. split; [exact Bx|]. split; [exact Fx|]. fold X. rewrite (re_eps F). fold p.
  assert (A : 0 <= Ratanh X). { pose proof (Rabs_pos (X - Ratanh X)). destruct (Rle_lt_dec 0 (Ratanh X)) as [C | C]; [exact C|]. exfalso. nra. } rewrite (Rabs_pos_eq (Ratanh X)) by exact A. assert (0 <= p * Ratanh X) by (apply Rmult_le_pos; lra). lra.
Qed.

(** * asinh *)
Definition ash_mid (x : Z) : option Z := let* v := sq (fadd F (fmul F x x) one) in l1 (fadd F x (fdiv F (fmul F x x) (fadd F v one))).
Definition ash_big (x : Z) : option Z := let* v := sq (fadd F (fmul F x x) one) in lg (fadd F (fmul F two x) (fdiv F one (fadd F v x))).
Definition ash_huge (x : Z) : option Z := let* v := lg x in Some (fadd F v ln2).
Lemma ash_s : / 1073741824 <= X <= 1073741824 -> RE F (fmul F x x) (X * X) (0 + 0 + 1 + sl) /\ exists v, sq (fadd F (fmul F x x) one) = Some v /\ RE F v (sqrt (X * X + 1)) (201 / 100).
Proof.
  intros H. assert (XX : / 1152921504606846976 <= X * X <= 1152921504606846976).
  { replace (/ 1152921504606846976) with (/ 1073741824 * / 1073741824) by lra. replace 1152921504606846976 with (1073741824 * 1073741824) by lra. split; apply Rmult_le_compat; lra. }
  assert (A1 : RE F (fmul F x x) (X * X) (0 + 0 + 1 + sl)) by (apply (re_mul F MW1 MB BB1 x x X X 0 0); try lra; [apply inr_lit; lra|exact re_x|exact re_x]).
  split; [exact A1|].
  assert (A2 : RE F (fadd F (fmul F x x) one) (X * X + 1) (0 + 0 + 1 + sl + 1 + sl)).
  { eapply (re_add F MW1 MB BB1 _ _ (X * X) 1 _ 0); [lra|lra|apply inr_lit; lra|unfold sl; lra|exact A1|exact re_one|unfold sl; lra]. }
  destruct (S1_facts X) as (S1 & S2 & _). 
  destruct (re_sqrt F MW1 MB BB1 sq _ (X * X + 1) (0 + 0 + 1 + sl + 1 + sl) Hsq ltac:(lra) ltac:(apply inr_lit; split; [lra|nra]) ltac:(unfold sl; lra) A2) as (v & E & R).
  exists v. split; [exact E|]. eapply (re_weak F); [lra| |exact R]. unfold sl. lra.
Qed.
Lemma ash_mid_ok : / 1073741824 <= X <= 2 -> exists r, ash_mid x = Some r /\ rel_err F 3 (Rasinh X) r.
Proof.
  intros H. destruct (ash_s ltac:(lra)) as (A1 & v & E & A2). destruct (S1_facts X) as (S1 & S2 & _). unfold ash_mid. rewrite E. cbn [bind]. set (S := sqrt (X * X + 1)) in *. assert (XX : / 1152921504606846976 <= X * X <= 4) by (replace (/ 1152921504606846976) with (/ 1073741824 * / 1073741824) by lra; split; nra). assert (SU : S <= 3) by nra.
  assert (A3 : RE F (fadd F v one) (S + 1) (201 / 100 + 1 + sl)) by (eapply (re_add F MW1 MB BB1 _ _ S 1 _ 0); [lra|lra|apply inr_lit; lra|lra|exact A2|exact re_one|lra]).
  set (B := X * X / (S + 1)). assert (EB : B * (S + 1) = X * X) by (unfold B; field; lra). assert (BS : B = S - 1) by nra. assert (B0 : / 4611686018427387904 <= B <= 2) by nra.
  assert (A4 : RE F (fdiv F (fmul F x x) (fadd F v one)) B (0 + 0 + 1 + sl + (201 / 100 + 1 + sl) + 1 + sl)) by (apply (re_div F MW1 MB BB1); [lra|lra|apply inr_lit; fold B; lra|unfold sl; lra|unfold sl; lra|exact A1|exact A3]).
  assert (A5 : RE F (fadd F x (fdiv F (fmul F x x) (fadd F v one))) (X + B) (21 / 10 + 1 + sl)). { eapply (re_add F MW1 MB BB1 _ _ X B 0); [lra|lra|apply inr_lit; lra|lra|exact re_x|exact A4|]. unfold sl. assert (3 * B <= 2 * X) by (rewrite BS; nra). lra. }
  destruct (re_l1 F MW1 l1 _ (X + B) (21 / 10 + 1 + sl) Hl1 ltac:(lra) ltac:(unfold sl; lra) A5) as (r & E1 & R1). exists r. split; [exact E1|]. replace (1 + (X + B)) with (X + S) in R1 by lra. change (ln (X + S)) with (Rasinh X) in R1. eapply re_rel; [|eapply Rle_trans; [|apply Rle_refl]|exact R1]; [|unfold sl; lra].
  unfold Rasinh. fold S. rewrite <- ln_1. apply ln_increasing; lra.
Qed.
Lemma ln_ge A b : 0 < b -> b <= A -> 1 - / b <= ln A.
Proof. intros H1 HA. pose proof (lnq 1 A ltac:(lra) ltac:(lra)) as Z. rewrite ln_1 in Z. assert (/ A <= / b) by (apply Rinv_le; lra). replace ((1 - A) / A) with (/ A - 1) in Z by (field; lra). lra. Qed.
Lemma ash_big_ok : 2 <= X <= 1073741824 -> exists r, ash_big x = Some r /\ rel_err F 3 (Rasinh X) r.
Proof.
  intros H. destruct (ash_s ltac:(lra)) as (A1 & v & E & A2). destruct (S1_facts X) as (S1 & S2 & S3). rewrite Rabs_pos_eq in S3 by lra. unfold ash_big. rewrite E. cbn [bind]. set (S := sqrt (X * X + 1)) in *. assert (SU : S <= X + 1) by nra.
  assert (A3 : RE F (fadd F v x) (S + X) (201 / 100 + 1 + sl)) by (eapply (re_add F MW1 MB BB1 _ _ S X _ 0); [lra|lra|apply inr_lit; lra|lra|exact A2|exact re_x|lra]).
  set (D := 1 / (S + X)). assert (ED : D * (S + X) = 1) by (unfold D; field; lra). assert (DS : D = S - X) by nra. assert (D0 : / 4294967296 <= D <= / 4) by (split; nra).
  assert (A4 : RE F (fdiv F one (fadd F v x)) D (0 + (201 / 100 + 1 + sl) + 1 + sl)) by (apply (re_div F MW1 MB BB1); [lra|lra|apply inr_lit; fold D; lra|lra|unfold sl; lra|exact re_one|exact A3]).
  pose proof (re_two x X 0 ltac:(apply inr_lit; lra) ltac:(apply inr_lit; lra) ltac:(lra) re_x) as A5.
  assert (A6 : RE F (fadd F (fmul F two x) (fdiv F one (fadd F v x))) (2 * X + D) (3 / 10 + 1 + sl)). { eapply (re_add F MW1 MB BB1 _ _ (2 * X) D 0); [lra|lra|apply inr_lit; lra|lra|exact A5|exact A4|unfold sl; lra]. }
  pose proof (ln_ge (2 * X + D) 4 ltac:(lra) ltac:(lra)) as LG.
  destruct (re_lg F MW1 lg _ (2 * X + D) (3 / 10 + 1 + sl) 4 Hlg ltac:(lra) ltac:(unfold sl; lra) A6 ltac:(unfold sl; lra)) as (r & E1 & R1). exists r. split; [exact E1|]. replace (2 * X + D) with (X + S) in R1, LG by lra. change (ln (X + S)) with (Rasinh X) in R1, LG. apply re_rel with (4 + / 1000); [lra|lra|exact R1].
Qed.
(** log x + ln 2 against ln A for A close to 2 x *)
Lemma huge_ok A : 16 <= X -> 0 < A -> Rabs (ln A - ln (2 * X)) <= 4 * p -> exists r, ash_huge x = Some r /\ rel_err F 3 (ln A) r.
Proof.
  intros H A0 HA. pose proof (re_p F MW1) as P. fold p in P. destruct (Hlg x Bx Fx ltac:(fold X; lra)) as (v & E & Vb & Vf & VE). fold X in VE. rewrite (re_eps F) in VE. fold p in VE. unfold ash_huge. rewrite E. cbn [bind]. eexists. split; [reflexivity|].
  pose proof ln2_c as LN. assert (LX : 27 / 10 <= ln X). { assert (E4 : ln 16 = 4 * ln 2). { replace 16 with (2 * 2 * (2 * 2)) by lra. rewrite !ln_mult by lra. ring. } assert (ln 16 <= ln X). { destruct (Rle_lt_or_eq_dec _ _ H) as [q | q]; [left; apply ln_increasing; lra|rewrite <- q; lra]. } lra. }
  assert (LU : ln X <= 1208925819614629174706175).
  { pose proof (val_lt_max F x Fx) as VU. apply Rabs_lt_inv in VU. fold X in VU. apply Rle_trans with (ln (bpow radix2 (bias F + 1))); [left; apply ln_increasing; lra|]. rewrite bpow_exp, ln_exp. change (IZR radix2) with 2. assert (IZR (bias F + 1) <= 1048577) by (apply (IZR_le _ 1048577); lia). assert (0 <= IZR (bias F + 1)) by (apply (IZR_le 0); lia). nra. }
  assert (RV : RE F v (ln X) 2). { split; [exact Vb|]. split; [exact Vf|]. fold p. rewrite (Rabs_pos_eq (ln X)) in VE by lra. exact VE. }
  assert (R : RE F (fadd F v ln2) (ln X + ln 2) (2 + 1 + sl)) by (eapply (re_add F MW1 MB BB1 _ _ (ln X) (ln 2) 2 1); [lra|lra|apply inr_lit; lra|lra|exact RV|exact L1|lra]).
  rewrite <- Rplus_comm, <- ln_mult in R by lra. destruct R as (R1 & R2 & R3). split; [exact R1|]. split; [exact R2|]. fold p in R3. rewrite (re_eps F). fold p. assert (L2 : ln (2 * X) = ln 2 + ln X) by (apply ln_mult; lra). apply Rabs_le_inv in HA. rewrite (Rabs_pos_eq (ln A)) by lra.
  apply Rabs_le_inv in R3. assert (0 <= p * ln A) by (apply Rmult_le_pos; lra). assert (p * ln (2 * X) <= p * (ln A + / 100)) by (apply Rmult_le_compat_l; lra). assert (p * (27 / 10) <= p * ln A) by (apply Rmult_le_compat_l; lra). unfold sl in R3. apply Rabs_le. lra.
Qed.
Lemma ash_huge_ok : 16 <= X -> 1 <= 4 * p * (X * X) -> exists r, ash_huge x = Some r /\ rel_err F 3 (Rasinh X) r.
Proof.
  intros H HX. destruct (S1_facts X) as (S1 & S2 & S3). rewrite Rabs_pos_eq in S3 by lra. unfold Rasinh. set (S := sqrt (X * X + 1)) in *. apply huge_ok; [exact H|lra|]. pose proof (re_p F MW1) as P. fold p in P.
  assert (DS : (S - X) * X <= 1) by nra. pose proof (lnq (X + S) (2 * X) ltac:(lra) ltac:(lra)) as U. assert (L : ln (2 * X) <= ln (X + S)) by (left; apply ln_increasing; lra).
  assert ((X + S - 2 * X) / (2 * X) <= 4 * p). { apply Rmult_le_reg_r with (2 * X); [lra|]. unfold Rdiv. rewrite Rmult_assoc, Rinv_l, Rmult_1_r by lra. apply Rmult_le_reg_r with X; [lra|]. lra. }
  apply Rabs_le. lra.
Qed.
Lemma ash_tiny_ok : 0 <= X -> X * X <= 2 * p -> rel_err F 3 (Rasinh X) x.
Proof.
  intros H H1. pose proof (re_p F MW1) as P. fold p in P. pose proof (Rasinh_tiny X (2 * p) H H1 ltac:(lra)) as Q. split; [exact Bx|]. split; [exact Fx|]. fold X. rewrite (re_eps F). fold p.
  assert (A : 0 <= Rasinh X). { pose proof (Rabs_pos (X - Rasinh X)). destruct (Rle_lt_dec 0 (Rasinh X)) as [C | C]; [exact C|]. exfalso. nra. } rewrite (Rabs_pos_eq (Rasinh X)) by exact A. assert (0 <= p * Rasinh X) by (apply Rmult_le_pos; lra). lra.
Qed.

(** * acosh *)
Definition ach_lo (x : Z) : option Z := let* v := sq (fadd F (fmul F (fsub F x one) (fsub F x one)) (fmul F two (fsub F x one))) in l1 (fadd F (fsub F x one) v).
Definition ach_big (x : Z) : option Z := let* v := sq (fsub F (fmul F x x) one) in lg (fsub F (fmul F two x) (fdiv F one (fadd F x v))).
Lemma ach_lo_ok : 1 < X <= 2 -> exists r, ach_lo x = Some r /\ rel_err F 3 (Racosh X) r.
Proof.
  intros H. pose proof (re_p F MW1) as P. fold p in P. destruct (re_sterbenz F MW1 BB1 x one Fx O2) as (S1 & S2 & S3); [lra|fold X; lra|lra|]. fold X in S3. rewrite O3 in S3. set (t := fsub F x one) in *. unfold ach_lo. fold t. set (T := X - 1) in *.
  assert (G : / 1152921504606846976 <= T <= 1).
  { split; [|unfold T; lra]. destruct (repr_grid F X 0 (repr_val F x Fx)) as [n Hn]. { intros _. rewrite Rabs_pos_eq by lra. change (bpow radix2 0) with 1. lra. }
    assert (E : T = IZR (n - 2 ^ mw F) * bpow radix2 (0 - mw F)). { unfold T. rewrite minus_IZR, Hn, IZR_pow2 by lia. rewrite Rmult_minus_distr_r, <- bpow_plus. replace (mw F + (0 - mw F))%Z with 0%Z by lia. reflexivity. }
    pose proof (bpow_gt_0 radix2 (0 - mw F)) as Q. assert (N : (1 <= n - 2 ^ mw F)%Z). { destruct (Z_lt_le_dec (n - 2 ^ mw F) 1) as [C | C]; [|exact C]. exfalso. assert (IZR (n - 2 ^ mw F) <= 0) by (apply (IZR_le _ 0); lia). assert (T <= 0) by (rewrite E; nra). unfold T in *. lra. }
    apply IZR_le in N. rewrite E. apply Rle_trans with (1 * bpow radix2 (0 - mw F)); [|apply Rmult_le_compat_r; lra]. rewrite Rmult_1_l. apply Rle_trans with (bpow radix2 (-60)); [right; reflexivity|apply bpow_le; lia]. }
  assert (A0 : RE F t T 0). { rewrite <- S3. exact (re_exact F _ S1 S2). }
  pose proof (re_two t T 0 ltac:(apply inr_lit; lra) ltac:(apply inr_lit; lra) ltac:(lra) A0) as A1.
  (* the square may be far below the other term *)
  pose proof (fmul_spec F t t S2 S2) as RT. rewrite S3 in RT. assert (TT : 0 < T * T <= 1) by nra.
  destruct (rounds_fin F _ _ _ RT) as [Fm Vm]. { apply Rle_trans with (bpow radix2 0); [change (bpow radix2 0) with 1; rewrite Rabs_pos_eq; lra|apply bpow_le; lia]. }
  pose proof (rndF_abs F (T * T)) as RA. rewrite <- Vm, (Rabs_pos_eq (T * T)) in RA by lra. fold p in RA.
  assert (TE : bpow radix2 (emin F - 1) <= / 1000 * p * T). { apply Rle_trans with (bpow radix2 (-80 + - pr F)); [apply bpow_le; lia|]. rewrite bpow_plus. fold p. change (bpow radix2 (-80)) with (/ 1208925819614629174706176). assert (p * / 1152921504606846976 <= p * T) by (apply Rmult_le_compat_l; lra). lra. }
  pose proof (fadd_spec F (fmul F t t) (fmul F two t) Fm (proj1 (proj2 A1))) as RT2.
  assert (A2 : RE F (fadd F (fmul F t t) (fmul F two t)) (T * T + 2 * T) (1 + 1 + / 2000)).
  { apply (re_fin F MW1 MB BB1 _ _ _ (T * T + 2 * T) 1 RT2); [apply inr_lit; nra|lra|]. destruct A1 as (_ & _ & A1). fold p in A1. replace (val F (fmul F t t) + val F (fmul F two t) - (T * T + 2 * T)) with ((val F (fmul F t t) - T * T) + (val F (fmul F two t) - 2 * T)) by ring. eapply Rle_trans; [apply Rabs_triang|]. fold p. assert (0 <= p * T) by (apply Rmult_le_pos; lra). lra. }
  set (Q := T * T + 2 * T) in *. assert (Q0 : / 1152921504606846976 <= Q <= 3) by (unfold Q; nra). pose proof (sqrt_sqrt Q ltac:(lra)) as SS. pose proof (sqrt_pos Q) as S0.
  assert (SR : / 1152921504606846976 <= sqrt Q <= 2) by (split; nra).
  destruct (re_sqrt F MW1 MB BB1 sq _ Q (1 + 1 + / 2000) Hsq ltac:(lra) ltac:(apply inr_lit; lra) ltac:(lra) A2) as (v & E & A3). rewrite E. cbn [bind].
  assert (A4 : RE F (fadd F t v) (T + sqrt Q) (201 / 100 + 1 + sl)). { eapply (re_add F MW1 MB BB1 _ _ T (sqrt Q) 0); [lra|lra|apply inr_lit; lra|lra|exact A0|exact A3|lra]. }
  destruct (re_l1 F MW1 l1 _ (T + sqrt Q) (201 / 100 + 1 + sl) Hl1 ltac:(lra) ltac:(unfold sl; lra) A4) as (r & E1 & R1). exists r. split; [exact E1|].
  assert (ER : ln (1 + (T + sqrt Q)) = Racosh X). { unfold Racosh, Q, T. replace ((X - 1) * (X - 1) + 2 * (X - 1)) with (X * X - 1) by ring. f_equal. ring. } rewrite ER in R1.
  eapply re_rel; [|eapply Rle_trans; [|apply Rle_refl]|exact R1]; [|unfold sl; lra]. rewrite <- ER, <- ln_1. apply ln_increasing; lra.
Qed.
Lemma S2_facts : 2 <= X -> let S := sqrt (X * X - 1) in S * S = X * X - 1 /\ X * (4 / 5) <= S < X.
Proof. intros H S. assert (E : S * S = X * X - 1) by (apply sqrt_sqrt; nra). pose proof (sqrt_pos (X * X - 1)) as P. fold S in P. split; [exact E|]. split; nra. Qed.
Lemma ach_big_ok : 2 <= X <= 1073741824 -> exists r, ach_big x = Some r /\ rel_err F 3 (Racosh X) r.
Proof.
  intros H. destruct (S2_facts (proj1 H)) as (S2 & S1 & S3). set (S := sqrt (X * X - 1)) in *. assert (XX : 4 <= X * X <= 1152921504606846976) by (split; nra).
  assert (A1 : RE F (fmul F x x) (X * X) (0 + 0 + 1 + sl)) by (apply (re_mul F MW1 MB BB1 x x X X 0 0); try lra; [apply inr_lit; lra|exact re_x|exact re_x]).
  assert (A2 : RE F (fsub F (fmul F x x) one) (X * X - 1) (134 / 100 + 1 + sl)) by (eapply (re_sub F MW1 MB BB1 _ _ (X * X) 1 _ 0); [lra|lra|apply inr_lit; lra|lra|exact A1|exact re_one|unfold sl; lra]).
  destruct (re_sqrt F MW1 MB BB1 sq _ (X * X - 1) (134 / 100 + 1 + sl) Hsq ltac:(lra) ltac:(apply inr_lit; fold S; lra) ltac:(unfold sl; lra) A2) as (v & E & A3). fold S in A3. unfold ach_big. rewrite E. cbn [bind].
  assert (A4 : RE F (fadd F x v) (X + S) (218 / 100 + 1 + sl)). { eapply (re_add F MW1 MB BB1 _ _ X S 0); [lra|lra|apply inr_lit; lra|lra|exact re_x|exact A3|unfold sl; lra]. }
  set (D := 1 / (X + S)). assert (ED : D * (X + S) = 1) by (unfold D; field; lra). assert (DS : D = X - S) by nra. assert (D0 : / 4294967296 <= D <= / 3) by (split; nra).
  assert (A5 : RE F (fdiv F one (fadd F x v)) D (0 + (218 / 100 + 1 + sl) + 1 + sl)) by (apply (re_div F MW1 MB BB1); [lra|lra|apply inr_lit; fold D; lra|lra|unfold sl; lra|exact re_one|exact A4]).
  pose proof (re_two x X 0 ltac:(apply inr_lit; lra) ltac:(apply inr_lit; lra) ltac:(lra) re_x) as A6.
  assert (A7 : RE F (fsub F (fmul F two x) (fdiv F one (fadd F x v))) (2 * X - D) (1 / 2 + 1 + sl)). { eapply (re_sub F MW1 MB BB1 _ _ (2 * X) D 0); [lra|lra|apply inr_lit; lra|lra|exact A6|exact A5|unfold sl; lra]. }
  pose proof (ln_ge (2 * X - D) 3 ltac:(lra) ltac:(lra)) as LG.
  destruct (re_lg F MW1 lg _ (2 * X - D) (1 / 2 + 1 + sl) (9 / 2) Hlg ltac:(lra) ltac:(unfold sl; lra) A7 ltac:(unfold sl; lra)) as (r & E1 & R1). exists r. split; [exact E1|]. replace (2 * X - D) with (X + S) in R1, LG by lra. change (ln (X + S)) with (Racosh X) in R1, LG. apply re_rel with (9 / 2 + / 1000); [lra|lra|exact R1].
Qed.
Lemma ach_huge_ok : 16 <= X -> 1 <= 4 * p * (X * X) -> exists r, ash_huge x = Some r /\ rel_err F 3 (Racosh X) r.
Proof.
  intros H HX. destruct (S2_facts ltac:(lra)) as (S2 & S1 & S3). unfold Racosh. set (S := sqrt (X * X - 1)) in *. apply huge_ok; [exact H|lra|]. pose proof (re_p F MW1) as P. fold p in P.
  assert (DS : (X - S) * (X + S) = 1) by nra. pose proof (lnq (2 * X) (X + S) ltac:(lra) ltac:(lra)) as U. assert (L : ln (X + S) <= ln (2 * X)) by (left; apply ln_increasing; lra).
  assert ((2 * X - (X + S)) / (X + S) <= 4 * p). { apply Rmult_le_reg_r with (X + S); [lra|]. unfold Rdiv. rewrite Rmult_assoc, Rinv_l, Rmult_1_r by lra. apply Rmult_le_reg_r with (X + S); [lra|]. assert (X * X <= (X + S) * (X + S)) by nra. assert (4 * p * (X * X) <= 4 * p * ((X + S) * (X + S))) by (apply Rmult_le_compat_l; lra). lra. }
  apply Rabs_le. lra.
Qed.
End C.

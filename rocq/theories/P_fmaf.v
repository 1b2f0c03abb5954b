(** Proofs about fmaf, which computes in double precision (fma_wide.rs). *)
From Coq Require Import ZArith Reals Lia Lra Bool.
From Flocq Require Import Core Sterbenz.
From Verif Require Import Base Spec SpecFun2 Format P_format Ieee P_ieee P_real P_key P_round P_round2 P_bits P_trait
  P_neg P_fmod P_remquo M_basic M_scalbn P_scalbn P_near M_fma P_fma P_fma2 P_fma3 P_fma4.
Open Scope Z_scope.

Lemma emin64 : emin f64 = -1074. Proof. reflexivity. Qed.
Lemma emin32 : emin f32 = -149. Proof. reflexivity. Qed.
Lemma mw64 : mw f64 = 52. Proof. reflexivity. Qed.
Lemma mw32 : mw f32 = 23. Proof. reflexivity. Qed.
Lemma bias64 : bias f64 = 1023. Proof. reflexivity. Qed.
Lemma bias32 : bias f32 = 127. Proof. reflexivity. Qed.

(** ** double rounding *)
Lemma nearest_tie_free a n : let N := ZnearestE (a * IZR (2 ^ 29)) in
  N mod 2 ^ 29 <> 2 ^ 28 -> n = ZnearestE (IZR N / IZR (2 ^ 29)) -> ZnearestE a = n.
Proof.
  intros N HN ->. set (b := (IZR N / IZR (2 ^ 29))%R). set (n := ZnearestE b).
  pose proof (Znearest_half (fun x => negb (Z.even x)) (a * IZR (2 ^ 29))) as H1. fold N in H1. apply Rabs_le_inv in H1.
  pose proof (Znearest_half (fun x => negb (Z.even x)) b) as H2. fold n in H2. apply Rabs_le_inv in H2.
  assert (EB : IZR N = (b * IZR (2 ^ 29))%R) by (unfold b; field; apply not_0_IZR; lia).
  assert (P : (IZR (2 ^ 29) = 536870912)%R) by reflexivity.
  assert (B1 : - 2 ^ 28 <= N - n * 2 ^ 29 <= 2 ^ 28).
  { split; apply le_IZR; rewrite ?minus_IZR, ?mult_IZR, P, EB, P; [change (IZR (- 2 ^ 28)) with (-268435456)%R|change (IZR (2 ^ 28)) with (268435456)%R]; lra. }
  assert (B2 : N - n * 2 ^ 29 <> 2 ^ 28 /\ N - n * 2 ^ 29 <> - 2 ^ 28).
  { split; intros C; apply HN; symmetry; [apply Z.mod_unique with n|apply Z.mod_unique with (n - 1)]; lia. }
  assert (B3 : - (2 ^ 28 - 1) <= N - n * 2 ^ 29 <= 2 ^ 28 - 1) by lia. destruct B3 as [B3 B4].
  apply IZR_le in B3, B4. rewrite minus_IZR, mult_IZR, P, EB, P in B3, B4.
  change (IZR (- (2 ^ 28 - 1))) with (-268435455)%R in B3. change (IZR (2 ^ 28 - 1)) with (268435455)%R in B4.
  rewrite EB, P in H1. apply Znearest_imp. apply Rabs_def1; lra.
Qed.
Lemma nearest_tie_moved a d : let N := ZnearestE (a * IZR (2 ^ 29)) in
  N mod 2 ^ 29 = 2 ^ 28 -> (d = 1 /\ (IZR N < a * IZR (2 ^ 29))%R) \/ (d = -1 /\ (a * IZR (2 ^ 29) < IZR N)%R) ->
  ZnearestE a = ZnearestE (IZR (N + d) / IZR (2 ^ 29)).
Proof.
  intros N HN HD. assert (P : (IZR (2 ^ 29) = 536870912)%R) by reflexivity.
  pose proof (Z.div_mod N (2 ^ 29) ltac:(lia)) as D. rewrite HN in D. set (q := N / 2 ^ 29) in *.
  pose proof (Znearest_half (fun x => negb (Z.even x)) (a * IZR (2 ^ 29))) as H1. fold N in H1. apply Rabs_le_inv in H1.
  assert (EN : IZR N = (IZR q * 536870912 + 268435456)%R).
  { rewrite D, plus_IZR, mult_IZR. change (IZR (2 ^ 29)) with 536870912%R. change (IZR (2 ^ 28)) with 268435456%R. ring. }
  rewrite P in *. destruct HD as [[-> L]|[-> L]].
  - transitivity (q + 1); [|symmetry]; apply Znearest_imp; rewrite plus_IZR; [|rewrite plus_IZR]; rewrite ?EN in *; apply Rabs_def1; lra.
  - transitivity q; [|symmetry]; apply Znearest_imp; [|rewrite plus_IZR]; rewrite ?EN in *; apply Rabs_def1; lra.
Qed.

(** rounding to single precision on a closed binade *)
Lemma rnd32_closed k v : -126 <= k -> (bpow radix2 k <= v <= bpow radix2 (k + 1))%R ->
  rnd f32 v = (IZR (ZnearestE (v * bpow radix2 (23 - k))) * bpow radix2 (k - 23))%R.
Proof.
  intros Hk [H1 H2]. pose proof (bpow_gt_0 radix2 k) as PK. destruct (Rle_lt_or_eq_dec _ _ H2) as [L|E].
  - rewrite (rnd_scaled f32 v (k - 23)).
    + do 3 f_equal. replace (- (k - 23)) with (23 - k) by lia. reflexivity.
    + rewrite mw32. rewrite Rabs_pos_eq by lra. replace (k - 23 + 23) with k by lia. now split.
    + rewrite emin32. lia.
  - subst v. rewrite bp_split. replace (k + 1 + (23 - k)) with 24 by lia. rewrite <- (IZR_pow2 24) by lia. rewrite nearest_int.
    rewrite IZR_pow2 by lia. rewrite bp_split. replace (24 + (k - 23)) with (k + 1) by lia. apply repr_rnd, repr_bpow. rewrite emin32. lia.
Qed.

Section Double.
Variables (v : R) (k : Z).
Hypothesis Hk0 : -1000 <= k.
Hypothesis Hv : (bpow radix2 k <= v < bpow radix2 (k + 1))%R.
Let N := ZnearestE (v * bpow radix2 (52 - k)).
Lemma rnd64_N : rnd f64 v = (IZR N * bpow radix2 (k - 52))%R.
Proof.
  pose proof (bpow_gt_0 radix2 k). rewrite (rnd_scaled f64 v (k - 52)).
  - unfold N. do 3 f_equal. replace (- (k - 52)) with (52 - k) by lia. reflexivity.
  - rewrite mw64, Rabs_pos_eq by lra. replace (k - 52 + 52) with k by lia. exact Hv.
  - rewrite emin64. lia.
Qed.
Lemma N_range : 2 ^ 52 <= N <= 2 ^ 53.
Proof.
  pose proof (bpow_gt_0 radix2 (52 - k)). unfold N. split.
  - rewrite <- (nearest_int (2 ^ 52)). apply nearest_mono. rewrite IZR_pow2 by lia. replace 52 with (k + (52 - k)) at 1 by lia.
    rewrite (bpow_plus _ k). apply Rmult_le_compat_r; lra.
  - rewrite <- (nearest_int (2 ^ 53)). apply nearest_mono. rewrite IZR_pow2 by lia. replace 53 with (k + 1 + (52 - k)) at 1 by lia.
    rewrite (bpow_plus _ (k + 1)). apply Rmult_le_compat_r; lra.
Qed.
Let a := (v * bpow radix2 (23 - k))%R.
Lemma Na : N = ZnearestE (a * IZR (2 ^ 29)).
Proof. unfold N, a. f_equal. rewrite IZR_pow2 by lia. rewrite Rmult_assoc, bp_split. do 2 f_equal. lia. Qed.
Lemma scale_N M : (IZR M * bpow radix2 (k - 52) * bpow radix2 (23 - k) = IZR M / IZR (2 ^ 29))%R.
Proof.
  rewrite Rmult_assoc, bp_split. replace (k - 52 + (23 - k)) with (- 29) by lia. reflexivity.
Qed.
Lemma closed_N M : 2 ^ 52 <= M <= 2 ^ 53 -> (bpow radix2 k <= IZR M * bpow radix2 (k - 52) <= bpow radix2 (k + 1))%R.
Proof.
  intros [H1 H2]. apply IZR_le in H1, H2. rewrite IZR_pow2 in H1, H2 by lia. pose proof (bpow_gt_0 radix2 (k - 52)).
  replace k with (52 + (k - 52)) at 1 by lia. replace (k + 1) with (53 + (k - 52)) by lia. rewrite (bpow_plus _ 52), (bpow_plus _ 53).
  split; apply Rmult_le_compat_r; lra.
Qed.
Lemma double_ok : -126 <= k -> N mod 2 ^ 29 <> 2 ^ 28 -> rnd f32 (rnd f64 v) = rnd f32 v.
Proof.
  intros Hk H. rewrite rnd64_N. rewrite (rnd32_closed k), (rnd32_closed k v) by (try assumption; try apply closed_N; try apply N_range; lra).
  do 2 f_equal. fold a. rewrite scale_N. rewrite Na in H |- *. symmetry. now apply nearest_tie_free.
Qed.
Lemma double_moved d : -126 <= k -> N mod 2 ^ 29 = 2 ^ 28 ->
  (d = 1 /\ (rnd f64 v < v)%R) \/ (d = -1 /\ (v < rnd f64 v)%R) ->
  rnd f32 (IZR (N + d) * bpow radix2 (k - 52)) = rnd f32 v /\ 2 ^ 52 < N < 2 ^ 53.
Proof.
  intros Hk H HD. pose proof N_range as NR. assert (NR2 : 2 ^ 52 < N < 2 ^ 53).
  { assert (N <> 2 ^ 52) by (intros C; rewrite C in H; discriminate H). assert (N <> 2 ^ 53) by (intros C; rewrite C in H; discriminate H). lia. }
  split; [|exact NR2].
  rewrite (rnd32_closed k), (rnd32_closed k v) by (try assumption; try apply closed_N; try lia; lra).
  do 2 f_equal. fold a. rewrite scale_N. rewrite Na in H |- *. symmetry. apply nearest_tie_moved; [assumption|]. rewrite <- Na.
  rewrite rnd64_N in HD. pose proof (bpow_gt_0 radix2 (k - 52)) as P.
  assert (EV : v = (a * IZR (2 ^ 29) * bpow radix2 (k - 52))%R).
  { unfold a. rewrite IZR_pow2 by lia. rewrite !Rmult_assoc, !bp_split. replace (23 - k + (29 + (k - 52))) with 0 by lia. cbn [bpow]. ring. }
  destruct HD as [[-> HD]|[-> HD]]; [left|right]; (split; [lia|]); apply Rmult_lt_reg_r with (1 := P); rewrite <- EV; exact HD.
Qed.
End Double.

(** ** the error of the double-precision sum *)
Definition lowbits (r : R) : Prop := exists n e, r = (IZR n * bpow radix2 e)%R /\ Z.abs n < 2 ^ 53 /\ -298 <= e.
Lemma lowbits_repr r : lowbits r -> repr f64 r.
Proof. intros (n & e & -> & H1 & H2). apply repr_int; [|rewrite emin64; lia]. rewrite mw64. change (52 + 1) with 53. lia. Qed.
Lemma lowbits_half r : lowbits r -> repr f64 (r / 2).
Proof.
  intros (n & e & -> & H1 & H2). replace (IZR n * bpow radix2 e / 2)%R with (IZR n * bpow radix2 (e - 1))%R by (rewrite bpow_half; field).
  apply repr_int; [|rewrite emin64; lia]. rewrite mw64. change (52 + 1) with 53. lia.
Qed.
Lemma lowbits_double r : lowbits r -> repr f64 (2 * r).
Proof.
  intros (n & e & -> & H1 & H2). replace (2 * (IZR n * bpow radix2 e))%R with (IZR n * bpow radix2 (e + 1))%R by (rewrite bpow_succ2; ring).
  apply repr_int; [|rewrite emin64; lia]. rewrite mw64. change (52 + 1) with 53. lia.
Qed.
Lemma lowbits_opp r : lowbits r -> lowbits (- r).
Proof. intros (n & e & -> & H1 & H2). exists (- n), e. rewrite opp_IZR. split; [ring|]. split; [lia|lia]. Qed.
Lemma lowbits_grid r : lowbits r -> exists n, r = (IZR n * bpow radix2 (-298))%R.
Proof.
  intros (n & e & -> & H1 & H2). exists (n * 2 ^ (e + 298)). rewrite mult_IZR, IZR_pow2 by lia. rewrite Rmult_assoc, bp_split. do 2 f_equal. lia.
Qed.

Lemma two_sum_pos a b : lowbits a -> lowbits b -> (Rabs b <= a)%R -> rnd f64 (a + b) <> (a + b)%R -> repr f64 (rnd f64 (a + b) - a).
Proof.
  intros La Lb Hab NE. pose proof (lowbits_repr a La) as Ra. pose proof (lowbits_repr b Lb) as Rb. apply Rabs_le_inv in Hab.
  assert (VE : Valid_exp (fexpF f64)) by (apply FLT_exp_valid; reflexivity).
  assert (ME : Monotone_exp (fexpF f64)) by (apply FLT_exp_monotone).
  destruct (Rle_lt_dec (a + b) (a / 2)) as [L|L].
  - exfalso. apply NE. apply repr_rnd. replace (a + b)%R with (a - (- b))%R by ring. apply sterbenz; try assumption; [now apply repr_opp|lra].
  - apply sterbenz; try assumption; [apply rnd_repr|]. split.
    + rewrite <- (repr_rnd f64 (a / 2)) by now apply lowbits_half. apply rnd_le. lra.
    + rewrite <- (repr_rnd f64 (2 * a)) by now apply lowbits_double. apply rnd_le. lra.
Qed.
Lemma two_sum a b : lowbits a -> lowbits b -> (Rabs b <= Rabs a)%R -> rnd f64 (a + b) <> (a + b)%R -> repr f64 (rnd f64 (a + b) - a).
Proof.
  intros La Lb Hab NE. destruct (Rle_lt_dec 0 a) as [S|S].
  - rewrite (Rabs_pos_eq a) in Hab by assumption. now apply two_sum_pos.
  - rewrite (Rabs_left a) in Hab by assumption.
    replace (rnd f64 (a + b) - a)%R with (- (rnd f64 (- a + - b) - - a))%R.
    + apply repr_opp. apply two_sum_pos; try now apply lowbits_opp.
      * now rewrite Rabs_Ropp.
      * replace (- a + - b)%R with (- (a + b))%R by ring. rewrite rnd_opp. intros C. apply NE. lra.
    + replace (- a + - b)%R with (- (a + b))%R by ring. rewrite rnd_opp. ring.
Qed.
(** the exactness test of the code *)
Lemma exact_test a b : lowbits a -> lowbits b ->
  (rnd f64 (rnd f64 (a + b) - a) = b /\ rnd f64 (rnd f64 (a + b) - b) = a)%R <-> rnd f64 (a + b) = (a + b)%R.
Proof.
  intros La Lb. split.
  - intros [H1 H2]. destruct (Req_dec (rnd f64 (a + b)) (a + b)) as [E|E]; [exact E|exfalso].
    destruct (Rle_lt_dec (Rabs b) (Rabs a)) as [L|L].
    + apply E. rewrite (repr_rnd f64 (rnd f64 (a + b) - a)) in H1 by now apply two_sum. lra.
    + apply E. rewrite (Rplus_comm a b) in *. rewrite (repr_rnd f64 (rnd f64 (b + a) - b)) in H2; [lra|]. apply two_sum; try assumption. lra.
  - intros E. rewrite E. replace (a + b - a)%R with b by ring. replace (a + b - b)%R with a by ring.
    split; apply repr_rnd; now apply lowbits_repr.
Qed.

(** ** the operands in double precision *)
Lemma widen_ok x : isbits f32 x -> finite f32 x = true ->
  let X := fcvt f32 f64 x in
  isbits f64 X /\ finite f64 X = true /\ val f64 X = val f32 x /\ signbit f64 X = signbit f32 x /\
  exists n e, val f32 x = (IZR n * bpow radix2 e)%R /\ Z.abs n < 2 ^ 24 /\ -149 <= e.
Proof.
  intros Bx Fx X. destruct (repr_float f32 (val f32 x) (repr_val f32 x Fx)) as (n & e & E & H1 & H2).
  rewrite emin32 in H2. rewrite mw32 in H1. change (23 + 1) with 24 in H1.
  assert (R : repr f64 (val f32 x)).
  { rewrite E. apply repr_int; [rewrite mw64; change (52 + 1) with 53; lia|rewrite emin64; lia]. }
  assert (L : (Rabs (val f32 x) < bpow radix2 (bias f64 + 1))%R).
  { eapply Rlt_le_trans; [apply (val_lt_emax f32 x Fx)|]. apply bpow_le. rewrite bias64. rewrite ?bias32. unfold emax; cbn; lia. }
  destruct (rounds_to_exact f64 _ _ _ (fcvt_finite f32 f64 x Fx) (repr_rnd _ _ R) L) as (A & B & C).
  split; [apply fcvt_isbits|]. split; [exact A|]. split; [exact B|]. split.
  - fold X in C. rewrite C. destruct (Rcompare_spec (val f32 x) 0) as [G|G|G]; [symmetry; now apply val_neg_sign|reflexivity|symmetry; now apply val_pos_sign].
  - exists n, e. now split.
Qed.

Definition small (r : R) : Prop := (Rabs r < bpow radix2 256)%R.
Lemma prod_ok x y : isbits f32 x -> isbits f32 y -> finite f32 x = true -> finite f32 y = true ->
  let p := fmul f64 (fcvt f32 f64 x) (fcvt f32 f64 y) in
  isbits f64 p /\ finite f64 p = true /\ val f64 p = (val f32 x * val f32 y)%R /\
  signbit f64 p = xorb (signbit f32 x) (signbit f32 y) /\ lowbits (val f32 x * val f32 y) /\ small (val f32 x * val f32 y).
Proof.
  intros Bx By Fx Fy p. destruct (widen_ok x Bx Fx) as (X1 & X2 & X3 & X4 & n & e & En & Hn & He).
  destruct (widen_ok y By Fy) as (Y1 & Y2 & Y3 & Y4 & m & d & Em & Hm & Hd).
  pose proof (fmul_spec f64 _ _ X2 Y2) as H. rewrite X3, Y3, X4, Y4 in H. fold p in H.
  assert (LB : lowbits (val f32 x * val f32 y)).
  { exists (n * m), (e + d). rewrite En, Em, mult_IZR, bpow_plus. split; [ring|]. split; [|lia].
    rewrite Z.abs_mul. apply Z.le_lt_trans with (2 ^ 24 * 2 ^ 24); [apply Z.mul_le_mono_nonneg; lia|reflexivity]. }
  assert (SM : small (val f32 x * val f32 y)).
  { unfold small. rewrite Rabs_mult. replace 256 with (128 + 128) by lia. rewrite (bpow_plus _ 128).
    apply Rmult_le_0_lt_compat; try apply Rabs_pos; apply (val_lt_emax f32); assumption. }
  destruct (rounds_to_exact f64 _ _ _ H) as (A & B & C).
  { now apply repr_rnd, lowbits_repr. }
  { eapply Rlt_trans; [exact SM|]. apply bpow_lt. rewrite bias64. lia. }
  split; [apply fmul_isbits|]. split; [exact A|]. split; [exact B|]. split; [|split; assumption].
  rewrite C. symmetry. rewrite <- X4, <- Y4, <- X3, <- Y3. apply sign_from_xorb, xorb_sign_mul.
Qed.

(** ** the bits of the rounded sum *)
Lemma low29 (s : bool) e m : 0 <= m -> Z.land (mkbits f64 s e m) (2 ^ 29 - 1) = m mod 2 ^ 29.
Proof.
  intros Hm. rewrite land_pow2m1 by lia. unfold mkbits. rewrite mw64. change (52 + ew f64) with 63.
  replace ((if s then 2 ^ 63 else 0) + e * 2 ^ 52 + m) with (m + ((if s then 2 ^ 34 else 0) + e * 2 ^ 23) * 2 ^ 29) by (destruct s; lia).
  apply Z.mod_add. lia.
Qed.
Lemma f64_parts s e m : 0 < e < 2047 -> 0 <= m < 2 ^ 52 -> isbits f64 (mkbits f64 s e m) /\ finite f64 (mkbits f64 s e m) = true /\
  signbit f64 (mkbits f64 s e m) = s /\ val f64 (mkbits f64 s e m) = sval s (IZR (2 ^ 52 + m) * bpow radix2 (e - 1075)) /\ expf f64 (mkbits f64 s e m) = e.
Proof.
  intros He Hm. destruct (mkbits_fields f64 s e m) as (A & B & C); [change (2 ^ ew f64) with 2048; lia|exact Hm|].
  split; [apply mkbits_range; [change (2 ^ ew f64) with 2048; lia|exact Hm]|].
  split; [apply finite_iff; rewrite B; change (2 ^ ew f64) with 2048; lia|]. split; [exact A|]. split; [|exact B].
  unfold val. rewrite A, B, C. f_equal. unfold mag_of. rewrite (proj2 (Z.eqb_neq _ _)) by lia. rewrite mw64, bias64. do 2 f_equal. lia.
Qed.

(** ** the narrowing *)
Lemma narrow_ok u v sz : finite f64 u = true -> (v = 0%R -> val f64 u = 0%R /\ signbit f64 u = sz) ->
  (v <> 0%R -> (0 < val f64 u * v)%R) -> 
  (rnd f32 (val f64 u) = rnd f32 v -> rounds_to f32 v sz (fcvt f64 f32 u)) /\ rounds_to f32 (val f64 u) sz (fcvt f64 f32 u).
Proof.
  intros Fu H0 H1. pose proof (fcvt_finite f64 f32 u Fu) as H. destruct (Req_dec v 0) as [E|E].
  - destruct (H0 E) as [A B]. rewrite B in H. split; [|exact H]. intros _. now rewrite E, <- A.
  - specialize (H1 E). assert (NU : val f64 u <> 0%R) by (intros C; rewrite C, Rmult_0_l in H1; lra).
    split; [|now apply rounds_to_nz with (signbit f64 u)].
    intros ER. destruct (Rle_lt_dec 0 v) as [S|S].
    + apply (rounds_to_same f32 false (val f64 u) v (signbit f64 u)); try assumption; [nra|lra].
    + replace v with (sval true (- v)) by (cbn [sval]; ring).
      apply (rounds_to_same f32 true (- val f64 u) (- v) (signbit f64 u)); [nra|lra|rewrite !rnd_opp; congruence|].
      cbn [sval]. now rewrite Ropp_involutive.
Qed.

(** ** the computation after the two products *)
Definition fmaf_tail (xy zb : Z) : option Z :=
  let result := fadd f64 xy zb in
  let* re := ex f64 result in
  let* a := ushl 64 1 (SIG_BITS f64 - SIG_BITS f32) in
  let* a := usub 64 a 1 in
  let* halfway := ushl 64 1 (SIG_BITS f64 - SIG_BITS f32 - 1) in
  if negb (Z.land result a =? halfway) || (re =? EXP_SAT f64) ||
     (feq f64 (fsub f64 result xy) zb && feq f64 (fsub f64 result zb) xy)
  then Some (fcvt f64 f32 result)
  else
    let* t := ushr 64 result 63 in
    let neg := negb (t =? 0) in
    let err := if Bool.eqb neg (fgt f64 zb xy)
               then fadd f64 (fsub f64 xy result) zb
               else fadd f64 (fsub f64 zb result) xy in
    let* ui := (if Bool.eqb neg (flt f64 err ZERO) then uadd 64 result 1 else usub 64 result 1) in
    Some (fcvt f64 f32 ui).
Lemma fmaf_eq x y z : fmaf x y z = fmaf_tail (fmul f64 (fcvt f32 f64 x) (fcvt f32 f64 y)) (fcvt f32 f64 z).
Proof. unfold fmaf, fmaf_tail. cbv zeta. reflexivity. Qed.

Section Tail.
Variables p q : Z.
Hypothesis Bp : isbits f64 p. Hypothesis Bq : isbits f64 q.
Hypothesis Fp : finite f64 p = true. Hypothesis Fq : finite f64 q = true.
Let P := val f64 p. Let Q := val f64 q.
Hypothesis LP : lowbits P. Hypothesis LQ : lowbits Q.
Hypothesis SP : small P. Hypothesis SQ : small Q.
Let v := (P + Q)%R.
Let s := rnd f64 v.

Lemma bound_sum a b c d : (Rabs a <= bpow radix2 c)%R -> (Rabs b <= bpow radix2 d)%R -> c <= d -> (Rabs (a + b) <= bpow radix2 (d + 1))%R /\ (Rabs (a - b) <= bpow radix2 (d + 1))%R.
Proof.
  intros Ha Hb H. apply (bpow_le radix2) in H. rewrite bpow_succ2. split.
  - eapply Rle_trans; [apply Rabs_triang|lra].
  - unfold Rminus. eapply Rle_trans; [apply Rabs_triang|rewrite Rabs_Ropp; lra].
Qed.
Lemma fin_of r sz y e : rounds_to f64 r sz y -> (Rabs r <= bpow radix2 e)%R -> -1074 <= e <= 1000 ->
  isbits f64 y /\ finite f64 y = true /\ val f64 y = rnd f64 r /\ (Rabs (val f64 y) <= bpow radix2 e)%R /\
  signbit f64 y = match Rcompare r 0 with Lt => true | Gt => false | Eq => sz end.
Proof.
  intros H L He. assert (R : repr f64 (bpow radix2 e)) by (apply repr_bpow; rewrite emin64; lia).
  destruct (rounds_to_bounded f64 r sz y (bpow radix2 e) H R) as (A & B & C & D).
  { split; [exact L|apply bpow_lt; rewrite bias64; lia]. }
  split; [exact A|]. split; [exact B|]. split; [exact C|]. split; [|exact D]. rewrite C. now apply rnd_bounded.
Qed.

Lemma res_ok : let r := fadd f64 p q in isbits f64 r /\ finite f64 r = true /\ val f64 r = s /\ (Rabs s <= bpow radix2 257)%R /\
  signbit f64 r = match Rcompare v 0 with Lt => true | Gt => false | Eq => signbit f64 p && signbit f64 q end.
Proof.
  intros r. pose proof (fadd_spec f64 p q Fp Fq) as H.
  destruct (bound_sum P Q 256 256) as [L _]; [apply Rlt_le, SP|apply Rlt_le, SQ|lia|].
  destruct (fin_of _ _ _ _ H L ltac:(lia)) as (A & B & C & D & E). split; [exact A|]. split; [exact B|]. split; [exact C|]. split; [|exact E].
  unfold s, v, P, Q. rewrite <- C. exact D.
Qed.
Lemma sub_ok y : isbits f64 y -> finite f64 y = true -> small (val f64 y) ->
  let d := fsub f64 (fadd f64 p q) y in finite f64 d = true /\ val f64 d = rnd f64 (s - val f64 y).
Proof.
  intros By Fy Sy d. destruct res_ok as (A & B & C & D & _). pose proof (fsub_spec f64 _ y B Fy) as H. rewrite C in H.
  destruct (bound_sum (- val f64 y) s 256 257) as [L _]; [rewrite Rabs_Ropp; apply Rlt_le, Sy|exact D|lia|].
  replace (- val f64 y + s)%R with (s - val f64 y)%R in L by ring.
  destruct (fin_of _ _ _ _ H L ltac:(lia)) as (A' & B' & C' & _). now split.
Qed.
Lemma feq_val x y : finite f64 x = true -> finite f64 y = true -> feq f64 x y = true <-> val f64 x = val f64 y.
Proof.
  intros Hx Hy. rewrite feq_spec. unfold eq_bits. rewrite Hx, Hy. rewrite (finite_not_nan _ _ Hx), (finite_not_nan _ _ Hy). tauto.
Qed.
Lemma test_ok : feq f64 (fsub f64 (fadd f64 p q) p) q && feq f64 (fsub f64 (fadd f64 p q) q) p = true <-> s = v.
Proof.
  destruct (sub_ok p Bp Fp SP) as [A1 A2]. destruct (sub_ok q Bq Fq SQ) as [B1 B2].
  rewrite andb_true_iff, !feq_val by assumption. rewrite A2, B2. unfold s, v. fold P Q. apply exact_test; assumption.
Qed.

(** the error term has the sign of the rounding error *)
Lemma grid_pos r : (0 < r)%R -> (exists n, r = (IZR n * bpow radix2 (-1074))%R) -> (0 < rnd f64 r)%R.
Proof.
  intros Hr (n & E). pose proof (bpow_gt_0 radix2 (-1074)) as Pb. rewrite E in Hr.
  assert (0 < n). { apply lt_IZR. apply Rmult_lt_reg_r with (1 := Pb). now rewrite Rmult_0_l. }
  apply Rlt_le_trans with (1 := Pb). rewrite <- (repr_rnd f64 (bpow radix2 (-1074))) by (apply repr_bpow; rewrite emin64; lia).
  apply rnd_le. rewrite E. rewrite <- (Rmult_1_l (bpow radix2 (-1074))) at 1. apply Rmult_le_compat_r; [lra|]. apply IZR_le. lia.
Qed.
Lemma grid_err : exists n, (v - s)%R = (IZR n * bpow radix2 (-1074))%R.
Proof.
  destruct (repr_grid_min f64 s (rnd_repr f64 v)) as (n & En). rewrite emin64 in En.
  destruct (repr_grid_min f64 P (lowbits_repr P LP)) as (a & Ea). rewrite emin64 in Ea.
  destruct (repr_grid_min f64 Q (lowbits_repr Q LQ)) as (b & Eb). rewrite emin64 in Eb.
  exists (a + b - n). unfold v at 1. rewrite Ea, Eb, En, minus_IZR, plus_IZR. ring.
Qed.
Lemma err_sign a b : isbits f64 a -> isbits f64 b -> finite f64 a = true -> finite f64 b = true -> small (val f64 a) -> small (val f64 b) ->
  lowbits (val f64 a) -> lowbits (val f64 b) ->
  (val f64 a + val f64 b)%R = v -> (Rabs (val f64 b) <= Rabs (val f64 a))%R -> s <> v ->
  (flt f64 (fadd f64 (fsub f64 a (fadd f64 p q)) b) ZERO = true <-> (v < s)%R) /\ True.
Proof.
  intros Ba Bb Fa Fb Sa Sb La Lb EV Hab NE. split; [|exact I]. destruct res_ok as (A & B & C & D & _).
  pose proof (fsub_spec f64 a _ Fa B) as H. rewrite C in H.
  destruct (bound_sum (val f64 a) s 256 257) as [_ L]; [apply Rlt_le, Sa|exact D|lia|].
  destruct (fin_of _ _ _ _ H L ltac:(lia)) as (A' & B' & C' & D' & _).
  set (t := fsub f64 a (fadd f64 p q)) in *.
  assert (ET : val f64 t = (val f64 a - s)%R).
  { rewrite C'. apply repr_rnd. replace (val f64 a - s)%R with (- (s - val f64 a))%R by ring. apply repr_opp.
    unfold s. rewrite <- EV. apply two_sum; try assumption. rewrite EV. exact NE. }
  pose proof (fadd_spec f64 t b B' Fb) as H2. rewrite ET in H2.
  replace (val f64 a - s + val f64 b)%R with (v - s)%R in H2 by (rewrite <- EV; ring).
  destruct (bound_sum (val f64 b) (val f64 t) 256 258) as [L2 _]; [apply Rlt_le, Sb|exact D'|lia|].
  replace (val f64 b + val f64 t)%R with (v - s)%R in L2 by (rewrite ET, <- EV; ring).
  destruct (fin_of _ _ _ _ H2 L2 ltac:(lia)) as (A2 & B2 & C2 & _). 
  assert (FZ : finite f64 ZERO = true) by reflexivity. assert (VZ : val f64 ZERO = 0%R) by (apply iszero_val; reflexivity).
  rewrite flt_spec. unfold lt_bits. rewrite B2, FZ, (finite_not_nan _ _ B2), (finite_not_nan _ _ FZ), VZ, C2.
  destruct grid_err as (n & En). split.
  - intros (_ & _ & K). destruct (Rle_lt_dec s v) as [G|G]; [|exact G]. exfalso.
    assert (0 < v - s)%R by lra. pose proof (grid_pos (v - s) H0 ltac:(now exists n)). lra.
  - intros K. split; [reflexivity|]. split; [reflexivity|].
    assert (G : (0 < - (v - s))%R) by lra.
    pose proof (grid_pos (- (v - s)) G ltac:(exists (- n); rewrite opp_IZR, En; ring)) as G2. rewrite rnd_opp in G2. lra.
Qed.

Lemma tail_form : let r := fadd f64 p q in let sg := signbit f64 r in
  fmaf_tail p q =
  if negb (Z.land r (2 ^ 29 - 1) =? 2 ^ 28) || (expf f64 r =? 2047) || (feq f64 (fsub f64 r p) q && feq f64 (fsub f64 r q) p)
  then Some (fcvt f64 f32 r)
  else
    let err := if Bool.eqb sg (fgt f64 q p) then fadd f64 (fsub f64 p r) q else fadd f64 (fsub f64 q r) p in
    let* ui := (if Bool.eqb sg (flt f64 err ZERO) then uadd 64 r 1 else usub 64 r 1) in Some (fcvt f64 f32 ui).
Proof.
  intros r sg. destruct res_ok as (A & _). fold r in A. unfold fmaf_tail. fold r. cbv zeta.
  rewrite ex_ok by exact A. cbn [bind].
  change (ushl 64 1 (SIG_BITS f64 - SIG_BITS f32)) with (Some (2 ^ 29)). cbn [bind].
  change (usub 64 (2 ^ 29) 1) with (Some (2 ^ 29 - 1)). cbn [bind].
  change (ushl 64 1 (SIG_BITS f64 - SIG_BITS f32 - 1)) with (Some (2 ^ 28)). cbn [bind].
  change (EXP_SAT f64) with 2047.
  rewrite ushr_ok by lia. cbn [bind].
  replace (negb (r / 2 ^ 63 =? 0)) with sg; [reflexivity|].
  unfold sg, signbit. change (mw f64 + ew f64) with 63. change (isbits f64 r) with (0 <= r < 2 ^ 64) in A.
  destruct (Z.eqb_spec (r / 2 ^ 63) 0) as [E|E].
  - apply Z.div_small_iff in E; [|lia]. destruct (Z.leb_spec (2 ^ 63) r); [lia|reflexivity].
  - destruct (Z.leb_spec (2 ^ 63) r); [reflexivity|]. rewrite Z.div_small in E; lia.
Qed.

Definition tail_good (u : Z) : Prop :=
  finite f64 u = true /\ (v = 0%R -> val f64 u = 0%R /\ signbit f64 u = signbit f64 p && signbit f64 q) /\
  (v <> 0%R -> (0 < val f64 u * v)%R) /\ (Rabs (val f64 u - v) <= Rabs v * bpow radix2 (-51))%R /\
  ((bpow radix2 (-126) <= Rabs v)%R \/ s = v -> rnd f32 (val f64 u) = rnd f32 v).

Lemma good_exact : s = v -> tail_good (fadd f64 p q).
Proof.
  intros E. destruct res_ok as (A & B & C & D & S). rewrite E in C. unfold tail_good. rewrite C.
  split; [exact B|]. split. { intros V0. split; [exact V0|]. rewrite S. rewrite V0. rewrite Rcompare_Eq by reflexivity. reflexivity. }
  split; [intros; nra|]. split; [|reflexivity]. rewrite Rminus_diag_eq, Rabs_R0 by reflexivity.
  apply Rmult_le_pos; [apply Rabs_pos|apply bpow_ge_0].
Qed.

Section Nonzero.
Hypothesis V0 : v <> 0%R.
Let sg := Rlt_bool v 0.
Let V := Rabs v.
Let k := mag radix2 v - 1.
Let N := ZnearestE (V * bpow radix2 (52 - k)).
Lemma v_sval : v = sval sg V.
Proof.
  unfold sg, V. destruct (Rlt_bool_spec v 0); cbn [sval]; [rewrite Rabs_left by assumption; ring|now rewrite Rabs_pos_eq].
Qed.
Lemma V_binade : (bpow radix2 k <= V < bpow radix2 (k + 1))%R.
Proof.
  unfold k, V. replace (mag radix2 v - 1 + 1) with (mag_val radix2 v (mag radix2 v)) by lia.
  split; [apply bpow_mag_le, V0|apply bpow_mag_gt].
Qed.
Lemma k_range : -298 <= k <= 256.
Proof.
  pose proof V_binade as [H1 H2]. split.
  - destruct (lowbits_grid P LP) as (a & Ea). destruct (lowbits_grid Q LQ) as (b & Eb).
    assert (EV : v = (IZR (a + b) * bpow radix2 (-298))%R) by (unfold v; rewrite Ea, Eb, plus_IZR; ring).
    assert (NZ : a + b <> 0) by (intros C; apply V0; rewrite EV, C; ring).
    assert (L : (bpow radix2 (-298) <= V)%R).
    { unfold V. rewrite EV, Rabs_mult, <- abs_IZR, (Rabs_pos_eq (bpow _ _)) by apply bpow_ge_0.
      rewrite <- (Rmult_1_l (bpow radix2 (-298))) at 1. apply Rmult_le_compat_r; [apply bpow_ge_0|]. apply IZR_le. lia. }
    assert (-298 < k + 1) by (apply (lt_bpow radix2); lra). lia.
  - assert (L : (V < bpow radix2 257)%R).
    { unfold V, v. eapply Rle_lt_trans; [apply Rabs_triang|]. change 257 with (256 + 1). rewrite bpow_succ2. unfold small in SP, SQ. lra. }
    assert (k < 257) by (apply (lt_bpow radix2); lra). lia.
Qed.
Lemma s_sval : s = sval sg (IZR N * bpow radix2 (k - 52)).
Proof.
  unfold s. rewrite v_sval, rnd_sval. f_equal. pose proof k_range. apply rnd64_N; [lia|apply V_binade].
Qed.
Lemma sign_res : signbit f64 (fadd f64 p q) = sg.
Proof.
  destruct res_ok as (_ & _ & _ & _ & S). rewrite S. unfold sg. destruct (Rcompare_spec v 0) as [G|G|G].
  - now rewrite Rlt_bool_true. - contradiction. - rewrite Rlt_bool_false; [reflexivity|lra].
Qed.
Lemma res_bits : fadd f64 p q = if N =? 2 ^ 53 then mkbits f64 sg (k + 1024) 0 else mkbits f64 sg (k + 1023) (N - 2 ^ 52).
Proof.
  destruct res_ok as (A & B & C & _). pose proof k_range as KR. pose proof sign_res as S.
  assert (NR : 2 ^ 52 <= N <= 2 ^ 53) by (apply N_range; apply V_binade).
  destruct (Z.eqb_spec N (2 ^ 53)) as [E|E].
  - destruct (f64_parts sg (k + 1024) 0) as (B1 & B2 & B3 & B4 & _); [lia|lia|].
    apply (val_sign_inj f64); try assumption; [|congruence]. rewrite C, B4, s_sval, E. f_equal. rewrite !IZR_pow2 by lia.
    replace (2 ^ 52 + 0) with (2 ^ 52) by lia. rewrite IZR_pow2 by lia. rewrite !bp_split. f_equal. lia.
  - destruct (f64_parts sg (k + 1023) (N - 2 ^ 52)) as (B1 & B2 & B3 & B4 & _); [lia|lia|].
    apply (val_sign_inj f64); try assumption; [|congruence]. rewrite C, B4, s_sval. f_equal. f_equal; [f_equal; lia|f_equal; lia].
Qed.
Lemma res_low : Z.land (fadd f64 p q) (2 ^ 29 - 1) = N mod 2 ^ 29.
Proof.
  assert (NR : 2 ^ 52 <= N <= 2 ^ 53) by (apply N_range; apply V_binade).
  rewrite res_bits. destruct (Z.eqb_spec N (2 ^ 53)) as [E|E]; rewrite low29 by lia.
  - now rewrite E.
  - replace (N - 2 ^ 52) with (N + (- 2 ^ 23) * 2 ^ 29) by lia. apply Z.mod_add. lia.
Qed.
(** any significand within one of [N] is close *)
Lemma close_N M u : Z.abs (M - N) <= 1 -> val f64 u = sval sg (IZR M * bpow radix2 (k - 52)) ->
  (0 < val f64 u * v)%R /\ (Rabs (val f64 u - v) <= Rabs v * bpow radix2 (-51))%R.
Proof.
  intros HM E. pose proof V_binade as [VB1 VB2]. pose proof (bpow_gt_0 radix2 k). pose proof (bpow_gt_0 radix2 (k - 52)) as PK.
  assert (NR : 2 ^ 52 <= N <= 2 ^ 53) by (apply N_range; apply V_binade).
  assert (MP : (0 < IZR M)%R) by (apply IZR_lt; lia).
  pose proof (Rmult_lt_0_compat _ _ MP PK) as MPK.
  fold V. rewrite E. rewrite v_sval at 1 2. split.
  - destruct sg; cbn [sval]; nra.
  - replace (Rabs (sval sg (IZR M * bpow radix2 (k - 52)) - sval sg V))%R with (Rabs (IZR M * bpow radix2 (k - 52) - V))%R
      by (destruct sg; cbn [sval]; [rewrite <- Rabs_Ropp|]; f_equal; ring).
    pose proof (Znearest_half (fun x => negb (Z.even x)) (V * bpow radix2 (52 - k))) as H1. fold N in H1.
    assert (HM' : (Rabs (IZR M - IZR N) <= 1)%R) by (rewrite <- minus_IZR, <- abs_IZR; now apply IZR_le).
    replace (IZR M * bpow radix2 (k - 52) - V)%R with ((IZR M - V * bpow radix2 (52 - k)) * bpow radix2 (k - 52))%R.
    2:{ rewrite Rmult_minus_distr_r, Rmult_assoc, bp_split. replace (52 - k + (k - 52)) with 0 by lia. cbn [bpow]. ring. }
    rewrite Rabs_mult, (Rabs_pos_eq (bpow _ _)) by lra.
    assert (L : (Rabs (IZR M - V * bpow radix2 (52 - k)) <= 2)%R).
    { apply Rabs_le_inv in H1, HM'. apply Rabs_le. lra. }
    apply Rle_trans with (2 * bpow radix2 (k - 52))%R; [apply Rmult_le_compat_r; lra|].
    rewrite <- bpow_succ2. replace (k - 52 + 1) with (k + -51) by lia. rewrite bpow_plus. apply Rmult_le_compat_r; [apply bpow_ge_0|lra].
Qed.
Lemma big_k : (bpow radix2 (-126) <= Rabs v)%R -> -126 <= k.
Proof. intros H. pose proof V_binade as [_ H2]. fold V in H. assert (-126 < k + 1) by (apply (lt_bpow radix2); lra). lia. Qed.
Lemma rnd_sg a b : rnd f32 a = rnd f32 b -> rnd f32 (sval sg a) = rnd f32 (sval sg b).
Proof. intros H. rewrite !rnd_sval. now rewrite H. Qed.
Lemma good_free : N mod 2 ^ 29 <> 2 ^ 28 -> tail_good (fadd f64 p q).
Proof.
  intros H. destruct res_ok as (A & B & C & _). pose proof k_range.
  destruct (close_N N (fadd f64 p q)) as [H1 H2]; [lia|rewrite C; apply s_sval|].
  split; [exact B|]. split; [intros; contradiction|]. split; [intros; exact H1|]. split; [exact H2|].
  intros [G|G]; [|now rewrite C, G]. rewrite C, s_sval, v_sval. apply rnd_sg. apply big_k in G.
  replace (IZR N * bpow radix2 (k - 52))%R with (rnd f64 V) by (apply rnd64_N; [lia|apply V_binade]). apply (double_ok V k); try assumption; [lia|apply V_binade].
Qed.
Lemma good_moved d : N mod 2 ^ 29 = 2 ^ 28 -> s <> v ->
  (d = 1 /\ (rnd f64 V < V)%R) \/ (d = -1 /\ (V < rnd f64 V)%R) ->
  isbits f64 (fadd f64 p q + d) /\ tail_good (fadd f64 p q + d).
Proof.
  intros H NE HD. pose proof k_range as KR.
  assert (NR : 2 ^ 52 <= N <= 2 ^ 53) by (apply N_range; apply V_binade).
  assert (NR2 : 2 ^ 52 < N < 2 ^ 53).
  { assert (N <> 2 ^ 52) by (intros C; rewrite C in H; discriminate H). assert (N <> 2 ^ 53) by (intros C; rewrite C in H; discriminate H). lia. }
  assert (Hd : Z.abs d <= 1) by (destruct HD as [[-> _]|[-> _]]; lia).
  assert (N + d < 2 ^ 53).
  { assert (N <> 2 ^ 53 - 1) by (intros C; rewrite C in H; discriminate H). lia. }
  rewrite res_bits. rewrite (proj2 (Z.eqb_neq N (2 ^ 53))) by lia.
  replace (mkbits f64 sg (k + 1023) (N - 2 ^ 52) + d) with (mkbits f64 sg (k + 1023) (N + d - 2 ^ 52)) by (unfold mkbits; lia).
  destruct (f64_parts sg (k + 1023) (N + d - 2 ^ 52)) as (B1 & B2 & B3 & B4 & _); [lia|lia|].
  replace (2 ^ 52 + (N + d - 2 ^ 52)) with (N + d) in B4 by lia. replace (k + 1023 - 1075) with (k - 52) in B4 by lia.
  split; [exact B1|]. destruct (close_N (N + d) _ ltac:(lia) B4) as [H1 H2].
  split; [exact B2|]. split; [intros; contradiction|]. split; [intros; exact H1|]. split; [exact H2|].
  intros [G|G]; [|contradiction]. rewrite B4, v_sval. apply rnd_sg. apply big_k in G.
  apply double_moved; try assumption; [lia|apply V_binade].
Qed.
End Nonzero.

Lemma tail_ok : exists u, fmaf_tail p q = Some (fcvt f64 f32 u) /\ tail_good u.
Proof.
  destruct res_ok as (A & B & C & D & S). pose proof test_ok as T. rewrite tail_form. cbv zeta.
  set (r := fadd f64 p q) in *.
  destruct (Req_dec s v) as [E|NE].
  { exists r. rewrite (proj2 T E). rewrite orb_true_r. split; [reflexivity|now apply good_exact]. }
  assert (V0 : v <> 0%R) by (intros C0; apply NE; unfold s; rewrite C0; apply rnd_0).
  destruct (feq f64 (fsub f64 r p) q && feq f64 (fsub f64 r q) p) eqn:ET; [exfalso; apply NE, T; reflexivity|]. clear T ET.
  rewrite orb_false_r. assert (ES : (expf f64 r =? 2047) = false).
  { apply Z.eqb_neq. apply finite_iff in B. change (2 ^ ew f64) with 2048 in B. lia. }
  rewrite ES, orb_false_r. unfold r at 1. rewrite (res_low V0). fold r.
  destruct (Z.eqb_spec (ZnearestE (Rabs v * bpow radix2 (52 - (mag radix2 v - 1))) mod 2 ^ 29) (2 ^ 28)) as [H|H]; cbn [negb].
  2:{ exists r. split; [reflexivity|]. now apply good_free. }
  pose proof (sign_res V0) as SG. fold r in SG. rewrite SG. set (sg := Rlt_bool v 0) in *.
  set (err := if Bool.eqb sg (fgt f64 q p) then _ else _).
  assert (HE : flt f64 err ZERO = true <-> (v < s)%R).
  { assert (FG : fgt f64 q p = true <-> (P < Q)%R).
    { rewrite fgt_spec. unfold lt_bits. rewrite Fp, Fq, (finite_not_nan _ _ Fp), (finite_not_nan _ _ Fq). tauto. }
    unfold err. assert (SV : sg = true <-> (v < 0)%R).
    { unfold sg. destruct (Rlt_bool_spec v 0); split; try reflexivity; try discriminate; intros; lra. }
    destruct (Bool.eqb sg (fgt f64 q p)) eqn:EB.
    - apply eqb_prop in EB. apply (err_sign p q); try assumption; [reflexivity|]. fold P Q.
      destruct sg.
      + pose proof (proj1 SV eq_refl) as SV1. pose proof (proj1 FG (eq_sym EB)) as F1.
        unfold v in SV1. rewrite (Rabs_left P) by lra. apply Rabs_le. lra.
      + assert (~ (v < 0)%R) as SV1 by (intros G; apply SV in G; discriminate). assert (~ (P < Q)%R) as F1 by (intros G; apply FG in G; congruence).
        unfold v in SV1. rewrite (Rabs_pos_eq P) by lra. apply Rabs_le. lra.
    - apply eqb_false_iff in EB. apply (err_sign q p); try assumption; [unfold v; fold P Q; ring|]. fold P Q.
      destruct sg.
      + pose proof (proj1 SV eq_refl) as SV1. assert (~ (P < Q)%R) as F1 by (intros G; apply FG in G; congruence).
        unfold v in SV1. rewrite (Rabs_left Q) by lra. apply Rabs_le. lra.
      + assert (~ (v < 0)%R) as SV1 by (intros G; apply SV in G; discriminate).
        assert (F1 : (P < Q)%R) by (apply FG; destruct (fgt f64 q p); [reflexivity|contradiction]).
        unfold v in SV1. rewrite (Rabs_pos_eq Q) by lra. apply Rabs_le. lra. }
  clearbody err. pose proof (v_sval) as EV. fold sg in EV.
  assert (EsV : s = sval sg (rnd f64 (Rabs v))) by (unfold s; rewrite EV at 1; apply rnd_sval).
  assert (EVV : v = sval sg (Rabs v)) by exact EV.
  assert (SD : Bool.eqb sg (flt f64 err ZERO) = true -> (rnd f64 (Rabs v) < Rabs v)%R).
  { intros EB. apply eqb_prop in EB. destruct (Rle_lt_dec s v) as [G|G].
    - assert (G2 : (s < v)%R) by (destruct G; [assumption|contradiction]).
      destruct sg. { exfalso. pose proof (proj1 HE (eq_sym EB)). lra. } cbn [sval] in EsV, EVV. lra.
    - pose proof (proj2 HE G) as K. rewrite K in EB. rewrite EB in EsV, EVV. cbn [sval] in EsV, EVV. lra. }
  assert (SD2 : Bool.eqb sg (flt f64 err ZERO) = false -> (Rabs v < rnd f64 (Rabs v))%R).
  { intros EB. apply eqb_false_iff in EB. destruct (Rle_lt_dec s v) as [G|G].
    - assert (G2 : (s < v)%R) by (destruct G; [assumption|contradiction]).
      destruct (flt f64 err ZERO) eqn:K. { exfalso. pose proof (proj1 HE eq_refl). lra. }
      destruct sg; [|congruence]. cbn [sval] in EsV, EVV. lra.
    - pose proof (proj2 HE G) as K. destruct sg; [congruence|]. cbn [sval] in EsV, EVV. lra. }
  destruct (Bool.eqb sg (flt f64 err ZERO)).
  - destruct (good_moved V0 1 H NE) as [G1 G2]; [left; split; [reflexivity|now apply SD]|]. fold r in G1, G2.
    rewrite uadd_ok by (change (isbits f64 (r + 1)) with (0 <= r + 1 < 2 ^ 64) in G1; lia). exists (r + 1). now split.
  - destruct (good_moved V0 (-1) H NE) as [G1 G2]; [right; split; [reflexivity|now apply SD2]|]. fold r in G1, G2.
    replace (r + -1) with (r - 1) in G1, G2 by lia.
    rewrite usub_ok by (change (isbits f64 (r - 1)) with (0 <= r - 1 < 2 ^ 64) in G1; lia). exists (r - 1). now split.
Qed.
End Tail.

(** ** non-finite operands *)
Lemma inf_class F s : isinf F (infinity F s) = true /\ signbit F (infinity F s) = s.
Proof. split; apply infinity_fields. Qed.
Lemma widen_class x : isbits f32 x -> let X := fcvt f32 f64 x in
  isbits f64 X /\ isnan f64 X = isnan f32 x /\ isinf f64 X = isinf f32 x /\ finite f64 X = finite f32 x /\ iszero f64 X = iszero f32 x /\
  (isnan f32 x = false -> signbit f64 X = signbit f32 x).
Proof.
  intros Bx X. split; [apply fcvt_isbits|].
  destruct (finite f32 x) eqn:Fx.
  - destruct (widen_ok x Bx Fx) as (A & B & C & D & _). fold X in A, B, C, D.
    rewrite (finite_not_nan _ _ Fx), (finite_not_inf _ _ Fx), (finite_not_nan _ _ B), (finite_not_inf _ _ B).
    split; [reflexivity|]. split; [reflexivity|]. split; [exact B|]. split; [|intros; exact D].
    destruct (iszero f32 x) eqn:Zx, (iszero f64 X) eqn:ZX; try reflexivity.
    + exfalso. apply (iszero_false_val f64 X B ZX). rewrite C. now apply iszero_val.
    + exfalso. apply (iszero_false_val f32 x Fx Zx). rewrite <- C. now apply iszero_val.
  - destruct (isnan f32 x) eqn:Nx.
    + pose proof (fcvt_nan f32 f64 x Nx) as H. fold X in H. rewrite H.
      split; [reflexivity|]. split; [|split; [|split; [|discriminate]]].
      * destruct (isinf f64 X) eqn:E; [pose proof (isinf_not_nan f64 X E); congruence|]. destruct (isinf f32 x) eqn:E2; [pose proof (isinf_not_nan f32 x E2); congruence|reflexivity].
      * now apply isnan_not_finite.
      * destruct (iszero f64 X) eqn:E; [pose proof (iszero_finite f64 X E) as G; apply finite_not_nan in G; congruence|].
        destruct (iszero f32 x) eqn:E2; [pose proof (iszero_finite f32 x E2) as G; congruence|reflexivity].
    + assert (Ix : isinf f32 x = true) by (destruct (class_cases f32 x) as [G|[G|G]]; destruct G as (? & ? & ?); congruence).
      pose proof (fcvt_inf f32 f64 x Ix) as H. fold X in H. rewrite H. destruct (inf_class f64 (signbit f32 x)) as [I1 I2].
      rewrite I1, I2, Ix. split; [now apply isinf_not_nan|]. split; [reflexivity|]. split; [now apply isinf_not_finite|].
      split; [|reflexivity]. destruct (iszero f64 (infinity f64 (signbit f32 x))) eqn:E; [pose proof (iszero_finite _ _ E) as G; apply finite_not_inf in G; congruence|].
      destruct (iszero f32 x) eqn:E2; [pose proof (iszero_finite f32 x E2) as G; congruence|reflexivity].
Qed.

Lemma nonfinite_tail X Y Z : isbits f64 X -> isbits f64 Y -> isbits f64 Z ->
  let r := fadd f64 (fmul f64 X Y) Z in finite f64 r = false -> isbits f64 r -> fmaf_tail (fmul f64 X Y) Z = Some (fcvt f64 f32 r).
Proof.
  intros BX BY BZ r Hr Br. unfold fmaf_tail. fold r. cbv zeta. rewrite ex_ok by exact Br. cbn [bind].
  change (ushl 64 1 (SIG_BITS f64 - SIG_BITS f32)) with (Some (2 ^ 29)). cbn [bind].
  change (usub 64 (2 ^ 29) 1) with (Some (2 ^ 29 - 1)). cbn [bind].
  change (ushl 64 1 (SIG_BITS f64 - SIG_BITS f32 - 1)) with (Some (2 ^ 28)). cbn [bind].
  assert (E : (expf f64 r =? EXP_SAT f64) = true).
  { change (EXP_SAT f64) with 2047. apply Z.eqb_eq. pose proof (fields_range f64 r) as FR. change (2 ^ ew f64) with 2048 in FR.
    unfold finite in Hr. apply Z.ltb_ge in Hr. change (2 ^ ew f64) with 2048 in Hr. lia. }
  rewrite E, orb_true_r. reflexivity.
Qed.
Lemma special_nonfinite F x y z r : fma_special F x y z r -> finite F x && finite F y && finite F z = false -> finite F r = false.
Proof.
  intros (_ & H1 & H2 & H3 & H4 & H5 & H6 & H7) NF.
  assert (NN : isnan F r = true -> finite F r = false) by apply isnan_not_finite.
  destruct (class_cases F x) as [(X1 & X2 & X3)|[(X1 & X2 & X3)|(X1 & X2 & X3)]]; [| |apply NN, H1; now left];
  (destruct (class_cases F y) as [(Y1 & Y2 & Y3)|[(Y1 & Y2 & Y3)|(Y1 & Y2 & Y3)]]; [| |apply NN, H1; right; now left]);
  (destruct (class_cases F z) as [(Z1 & Z2 & Z3)|[(Z1 & Z2 & Z3)|(Z1 & Z2 & Z3)]]; [| |apply NN, H1; right; now right]);
  rewrite ?X1, ?Y1, ?Z1 in NF; try discriminate NF; try (rewrite H7 by assumption; assumption);
  destruct (iszero F x) eqn:ZX; try (apply NN, H3; [reflexivity|assumption]);
  destruct (iszero F y) eqn:ZY; try (apply NN, H2; [assumption|reflexivity]);
  try (apply iszero_finite in ZX; congruence); try (apply iszero_finite in ZY; congruence);
  (assert (PI : prodinf F x y) by (unfold prodinf; rewrite X2, X3, Y2, Y3, ZX, ZY; tauto));
  try (rewrite H4 by assumption; apply infinity_fields);
  (destruct (bool_dec (signbit F z) (xorb (signbit F x) (signbit F y))) as [S|S]; [rewrite H5 by assumption; assumption|apply NN, H6; assumption]).
Qed.

Definition fmaf_close (x y z r : Z) : Prop :=
  finite f32 x = true -> finite f32 y = true -> finite f32 z = true ->
  let v := (val f32 x * val f32 y + val f32 z)%R in
  exists V, (Rabs (V - v) <= Rabs v * bpow radix2 (-51))%R /\ rounds_to f32 V (sum_sz f32 x y z) r.
Lemma fmaf_ok x y z : isbits f32 x -> isbits f32 y -> isbits f32 z ->
  exists r, fmaf x y z = Some r /\ fma_special f32 x y z r /\ (fmaf_region x y z -> fma_finite f32 x y z r) /\ fmaf_close x y z r.
Proof.
  intros Bx By Bz. rewrite fmaf_eq.
  destruct (widen_class x Bx) as (X0 & X1 & X2 & X3 & X4 & X5).
  destruct (widen_class y By) as (Y0 & Y1 & Y2 & Y3 & Y4 & Y5).
  destruct (widen_class z Bz) as (Z0 & Z1 & Z2 & Z3 & Z4 & Z5).
  destruct (finite f32 x && finite f32 y && finite f32 z) eqn:FIN.
  - apply andb_true_iff in FIN as [FIN Fz]. apply andb_true_iff in FIN as [Fx Fy].
    destruct (prod_ok x y Bx By Fx Fy) as (P1 & P2 & P3 & P4 & P5 & P6).
    destruct (widen_ok z Bz Fz) as (W1 & W2 & W3 & W4 & n & e & En & Hn & He).
    set (p := fmul f64 (fcvt f32 f64 x) (fcvt f32 f64 y)) in *. set (q := fcvt f32 f64 z) in *.
    destruct (tail_ok p q P1 W1 P2 W2) as (u & U1 & G1 & G2 & G3 & G4 & G5).
    { rewrite P3. exact P5. }
    { rewrite W3. exists n, e. split; [exact En|]. split; lia. }
    { rewrite P3. exact P6. }
    { rewrite W3. unfold small. eapply Rlt_le_trans; [apply (val_lt_emax f32 z Fz)|]. apply bpow_le. unfold emax. cbn. lia. }
    exists (fcvt f64 f32 u). rewrite P3, W3, P4, W4, sz_and in *.
    destruct (narrow_ok u _ (sum_sz f32 x y z) G1 G2 G3) as [N1 N2].
    split; [exact U1|]. split.
    { pose proof (finite_not_nan _ _ Fx) as nx. pose proof (finite_not_nan _ _ Fy) as ny. pose proof (finite_not_nan _ _ Fz) as nz.
      pose proof (finite_not_inf _ _ Fx) as ix. pose proof (finite_not_inf _ _ Fy) as iy. pose proof (finite_not_inf _ _ Fz) as iz.
      unfold fma_special, prodinf. rewrite nx, ny, nz, ix, iy, iz. split; [apply fcvt_isbits|].
      repeat split; intros; exfalso; intuition discriminate. }
    split.
    { intros RG _ _ _. cbv zeta. apply N1, G5. exact RG. }
    intros _ _ _. cbv zeta. exists (val f64 u). now split.
  - set (X := fcvt f32 f64 x) in *. set (Y := fcvt f32 f64 y) in *. set (W := fcvt f32 f64 z) in *.
    assert (SPC : fma_special f64 X Y W (fadd f64 (fmul f64 X Y) W)).
    { apply mul_add_special; try assumption. intros F1 F2 _. rewrite X3 in F1. rewrite Y3 in F2. now apply prod_ok. }
    pose proof (special_nonfinite f64 X Y W _ SPC) as NF. rewrite X3, Y3, Z3 in NF. specialize (NF FIN).
    rewrite nonfinite_tail; try assumption; [|apply SPC].
    set (r := fadd f64 (fmul f64 X Y) W) in *. exists (fcvt f64 f32 r). split; [reflexivity|].
    split; [|split; [intros _|]; intros F1 F2 F3; rewrite F1, F2, F3 in FIN; discriminate].
    destruct SPC as (_ & S1 & S2 & S3 & S4 & S5 & S6 & S7). rewrite X1, Y1, Z1 in S1. rewrite X2, Y4 in S2. rewrite X4, Y2 in S3.
    assert (PE : prodinf f32 x y -> prodinf f64 X Y) by (unfold prodinf; rewrite X1, X2, X4, Y1, Y2, Y4; tauto).
    assert (PS : prodinf f32 x y -> signbit f64 X = signbit f32 x /\ signbit f64 Y = signbit f32 y).
    { intros [(A & B & C)|(A & B & C)]; split; (apply X5 || apply Y5); try assumption; now apply isinf_not_nan. }
    assert (RZ : isinf f32 z = true -> r = W -> fcvt f64 f32 r = z).
    { intros I ->. rewrite fcvt_inf by congruence. rewrite Z5 by now apply isinf_not_nan. symmetry. now apply isinf_eq. }
    rewrite X3, Y3, Z2 in S7. rewrite Z3 in S4. rewrite Z2 in S5, S6.
    assert (NN : isnan f64 r = true -> isnan f32 (fcvt f64 f32 r) = true) by apply fcvt_nan.
    split; [apply fcvt_isbits|]. split; [intros; apply NN; now apply S1|]. split; [intros; apply NN; now apply S2|].
    split; [intros; apply NN; now apply S3|].
    split. { intros A B. destruct (PS A) as [E1 E2]. rewrite (S4 (PE A) B), E1, E2.
      destruct (inf_class f64 (xorb (signbit f32 x) (signbit f32 y))) as [I1 I2]. rewrite fcvt_inf by exact I1. now rewrite I2. }
    split. { intros A B C. destruct (PS A) as [E1 E2]. apply RZ; [exact B|]. apply S5; [now apply PE|exact B|]. rewrite E1, E2, Z5 by now apply isinf_not_nan. exact C. }
    split. { intros A B C. destruct (PS A) as [E1 E2]. apply NN, S6; [now apply PE|exact B|]. rewrite E1, E2, Z5 by now apply isinf_not_nan. exact C. }
    intros A B C. apply RZ; [exact C|]. now apply S7.
Qed.

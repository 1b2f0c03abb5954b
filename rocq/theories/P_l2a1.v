(** Tools for log2 and log10: truncated numbers, exact differences, the two-sum of the exponent. *)
From Coq Require Import ZArith Reals Lia Lra Bool List Psatz.
From Flocq Require Import Core Sterbenz.
From Verif Require Import Base Spec SpecFun2 Format P_format Ieee P_ieee P_real P_neg P_lit P_err P_scalbn P_apx P_powt P_expa4 P_expa8.
Import ListNotations.
Open Scope R_scope.
Local Opaque fadd fsub fmul fdiv of_int.

(** the difference of two numbers within a factor of two is exact *)
Lemma sub_near F a b : finite F a = true -> finite F b = true -> (val F b / 2 <= val F a <= 2 * val F b \/ 2 * val F b <= val F a <= val F b / 2) -> Rabs (val F a - val F b) <= bpow radix2 (bias F) ->
  isbits F (fsub F a b) /\ finite F (fsub F a b) = true /\ val F (fsub F a b) = val F a - val F b.
Proof.
  intros Fa Fb H L. pose proof (fsub_spec F a b Fa Fb) as RT. destruct (rounds_fin F _ _ _ RT L) as [Fm Vm]. split; [exact (proj1 RT)|]. split; [exact Fm|]. rewrite Vm. apply repr_rnd.
  pose proof (repr_val F a Fa) as Ra. pose proof (repr_val F b Fb) as Rb. unfold repr in *. pose proof (fmt_facts F) as FF. assert (PG : Prec_gt_0 (mw F + 1)) by (unfold Prec_gt_0; lia). destruct H as [H | H]; [apply sterbenz; [typeclasses eauto|typeclasses eauto|exact Ra|exact Rb|exact H]|].
  replace (val F a - val F b) with (- (- val F a - - val F b)) by ring. apply generic_format_opp. apply sterbenz; [typeclasses eauto|typeclasses eauto|now apply generic_format_opp|now apply generic_format_opp|lra].
Qed.
(** the significand of a truncated number is short *)
Lemma trc_grid F k x : isbits F x -> finite F x = true -> (0 <= k <= mw F)%Z -> exists m e, val F (trc k x) = IZR m * bpow radix2 e /\ (Z.abs m < 2 ^ (mw F + 1 - k))%Z /\ Rabs (val F x) < bpow radix2 (e + (mw F + 1 - k)) /\ (emin F <= e)%Z.
Proof.
  intros B Fx K. pose proof (fields_range F x) as [R1 R2]. pose proof (fields_split F x B) as FS. pose proof (fmt_facts F) as FF.
  assert (XM : (x mod 2 ^ k = sigf F x mod 2 ^ k)%Z) by (rewrite FS at 1; apply mkbits_mod; exact K).
  assert (P : (0 < 2 ^ k)%Z) by (apply Z.pow_pos_nonneg; lia). pose proof (Z.mod_pos_bound (sigf F x) (2 ^ k) P) as MB. pose proof (Z.mod_le (sigf F x) (2 ^ k) (proj1 R1) P) as ML. pose proof (Z.div_mod (sigf F x) (2 ^ k) ltac:(lia)) as DM.
  set (l := (sigf F x mod 2 ^ k)%Z) in *. set (q := (sigf F x / 2 ^ k)%Z) in *. assert (T : trc k x = mkbits F (signbit F x) (expf F x) (sigf F x - l)) by (unfold trc; rewrite XM; rewrite FS at 1; unfold mkbits; ring).
  destruct (mkbits_fields F (signbit F x) (expf F x) (sigf F x - l)) as (St & Et & Mt); [lia|lia|].
  assert (Q0 : (0 <= q)%Z) by (apply Z.div_pos; lia). assert (PK : (2 ^ mw F = 2 ^ (mw F - k) * 2 ^ k)%Z) by (rewrite <- Z.pow_add_r by lia; f_equal; lia).
  assert (Q1 : (q < 2 ^ (mw F - k))%Z) by (apply Z.div_lt_upper_bound; lia). assert (PP : (0 < 2 ^ (mw F - k))%Z) by (apply Z.pow_pos_nonneg; lia).
  assert (P1 : (2 ^ (mw F + 1 - k) = 2 * 2 ^ (mw F - k))%Z) by (replace (mw F + 1 - k)%Z with (Z.succ (mw F - k)) by lia; apply Z.pow_succ_r; lia).
  assert (SV : forall r, 0 <= r -> Rabs (sval (signbit F x) r) = r). { intros r Hr. destruct (signbit F x); cbn [sval]; rewrite ?Rabs_Ropp; now apply Rabs_pos_eq. }
  assert (BK : bpow radix2 k = IZR (2 ^ k)) by (symmetry; apply IZR_pow2; lia).
  assert (GO : forall a E, (0 <= a)%Z -> (0 <= a + q < 2 ^ (mw F + 1 - k))%Z -> (emin F <= E)%Z -> val F (trc k x) = sval (signbit F x) (IZR (a * 2 ^ k + (sigf F x - l)) * bpow radix2 E) -> val F x = sval (signbit F x) (IZR (a * 2 ^ k + sigf F x) * bpow radix2 E) ->
    exists m e, val F (trc k x) = IZR m * bpow radix2 e /\ (Z.abs m < 2 ^ (mw F + 1 - k))%Z /\ Rabs (val F x) < bpow radix2 (e + (mw F + 1 - k)) /\ (emin F <= e)%Z).
  { intros a E A0 A1 HE V1 V2. exists (if signbit F x then - (a + q) else a + q)%Z, (E + k)%Z. split; [|split; [destruct (signbit F x); lia|split; [|lia]]].
    - rewrite V1. replace (a * 2 ^ k + (sigf F x - l))%Z with ((a + q) * 2 ^ k)%Z by lia. rewrite mult_IZR, <- BK. rewrite (Z.add_comm E k), bpow_plus. destruct (signbit F x); cbn [sval]; rewrite ?opp_IZR; ring.
    - assert (0 <= IZR (a * 2 ^ k + sigf F x)) by (apply IZR_le; nia). rewrite V2, SV by (apply Rmult_le_pos; [assumption|apply bpow_ge_0]). replace (E + k + (mw F + 1 - k))%Z with ((k + (mw F + 1 - k)) + E)%Z by ring. rewrite bpow_plus. apply Rmult_lt_compat_r; [apply bpow_gt_0|].
      rewrite bpow_plus, BK, <- IZR_pow2, <- mult_IZR by lia. apply IZR_lt. nia. }
  destruct (Z.eq_dec (expf F x) 0) as [E0 | E0].
  - apply (GO 0%Z (1 - bias F - mw F)%Z); [lia|lia|unfold emin; lia| |]; rewrite Z.mul_0_l, Z.add_0_l; [rewrite T, val_mkbits by lia|unfold val]; unfold mag_of; rewrite E0; reflexivity.
  - apply (GO (2 ^ (mw F - k))%Z (expf F x - bias F - mw F)%Z); [lia|lia|unfold emin; lia| |]; rewrite <- PK; [rewrite T, val_mkbits by lia|unfold val]; unfold mag_of; replace (expf F x =? 0)%Z with false by (symmetry; now apply Z.eqb_neq); reflexivity.
Qed.
(** times a short constant is exact *)
Lemma trc_mul F k x c n e : isbits F x -> finite F x = true -> (0 <= k <= mw F)%Z -> (10 < mw F)%Z -> (8 <= ew F)%Z -> finite F c = true -> val F c = IZR n * bpow radix2 e -> (Z.abs n < 2 ^ k)%Z -> (-50 <= e <= 0)%Z -> bpow radix2 (-62) <= Rabs (val F x) <= 4 -> Rabs (val F c) <= 4 -> (mw F <= 60)%Z ->
  (emin F + 50 + 62 + mw F + 1 - k <= 0)%Z -> isbits F (fmul F (trc k x) c) /\ finite F (fmul F (trc k x) c) = true /\ val F (fmul F (trc k x) c) = val F (trc k x) * val F c.
Proof.
  intros B Fx K MW EW Fc Vc N HE L LC MW6 EM. destruct (trc_grid F k x B Fx K) as (m & e1 & V & M & U & _). destruct (trunc_ok F k x B Fx K) as (Bt & Ft & _ & Lt).
  assert (BB : (4 <= bias F)%Z). { unfold bias. assert (2 ^ 7 <= 2 ^ (ew F - 1))%Z by (apply Z.pow_le_mono_r; lia). lia. }
  apply (exact_mul F (trc k x) c (m * n) (e1 + e) Ft Fc).
  - rewrite V, Vc, mult_IZR, bpow_plus. ring.
  - rewrite Z.abs_mul. replace (mw F + 1)%Z with ((mw F + 1 - k) + k)%Z by ring. rewrite Z.pow_add_r by lia. assert (0 < 2 ^ k)%Z by (apply Z.pow_pos_nonneg; lia). assert (0 < 2 ^ (mw F + 1 - k))%Z by (apply Z.pow_pos_nonneg; lia). nia.
  - assert (-62 < e1 + (mw F + 1 - k))%Z; [|lia]. apply (lt_bpow radix2). lra.
  - rewrite Rabs_mult. apply Rle_trans with (4 * 4); [apply Rmult_le_compat; try apply Rabs_pos; lra|]. apply Rle_trans with (bpow radix2 4); [cbn; lra|apply bpow_le; lia].
Qed.

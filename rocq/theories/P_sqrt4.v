(** Argument reduction of generic/sqrt.rs and the complete function. *)
From Coq Require Import ZArith Znumtheory Reals Lia Lra Psatz Bool List.
From Flocq Require Import Core.
From Verif Require Import Base Spec SpecFun3 Format P_format Ieee P_ieee P_real P_key P_round P_round2 P_bits P_trait P_scalbn P_fma2 P_int M_sqrt P_sqrt P_sqrt2 P_sqrt3.
Open Scope Z_scope.

Lemma par_mod e : e mod 2 = 0 \/ e mod 2 = 1.
Proof. pose proof (Z.mod_pos_bound e 2). lia. Qed.
Lemma land1 a : Z.land a 1 = a mod 2. Proof. change 1 with (2 ^ 1 - 1). rewrite land_pow2m1 by lia. reflexivity. Qed.
Lemma lxor_high a k : 0 <= k -> 0 <= a < 2 ^ k -> Z.lxor (2 ^ k + a) (2 ^ k) = a.
Proof.
  intros Hk Ha. replace (2 ^ k + a) with (Z.lxor a (2 ^ k)).
  - rewrite Z.lxor_assoc, Z.lxor_nilpotent. apply Z.lxor_0_r.
  - rewrite Z.add_comm. symmetry. apply Z.add_nocarry_lxor. apply Z.bits_inj'. intros i Hi. rewrite Z.land_spec, Z.bits_0, Z.pow2_bits_eqb by exact Hk.
    destruct (Z.eqb_spec k i) as [<-|N]; [|apply andb_false_r]. assert (Z.testbit a k = false) as -> by (apply Z.testbit_false; [lia|]; rewrite Z.div_small by lia; reflexivity). reflexivity.
Qed.
Lemma land_mid a p e : 0 <= p -> 0 <= e -> Z.land a ((2 ^ e - 1) * 2 ^ p) = ((a / 2 ^ p) mod 2 ^ e) * 2 ^ p.
Proof.
  intros Hp He. rewrite <- (Z.shiftl_mul_pow2 _ p), <- (Z.shiftl_mul_pow2 (_ mod _)) by exact Hp.
  rewrite <- (land_pow2m1 (a / 2 ^ p) e), <- (Z.shiftr_div_pow2 a p) by lia. apply Z.bits_inj'. intros i Hi. rewrite Z.land_spec, !Z.shiftl_spec by lia.
  destruct (Z_lt_le_dec i p) as [L|L].
  - rewrite !(fun z => Z.testbit_neg_r z (i - p)) by lia. apply andb_false_r.
  - rewrite Z.land_spec, Z.shiftr_spec by lia. do 2 f_equal. lia.
Qed.
Lemma shl_mod a k w : 0 <= k <= w -> (a * 2 ^ k) mod 2 ^ w = (a mod 2 ^ (w - k)) * 2 ^ k.
Proof.
  intros H. replace w with (w - k + k) at 1 by lia. rewrite pow2_split by lia. pose proof (pow2_pos k). pose proof (pow2_pos (w - k)).
  rewrite Z.mul_mod_distr_r by lia. reflexivity.
Qed.
Lemma testbit_pow a k : 0 <= k -> negb (Z.land a (2 ^ k) =? 0) = ((a / 2 ^ k) mod 2 =? 1).
Proof.
  intros Hk. destruct (Z.testbit a k) eqn:E.
  - assert (Z.land a (2 ^ k) <> 0). { intros C. apply (f_equal (fun z => Z.testbit z k)) in C. rewrite Z.land_spec, E, Z.pow2_bits_true, Z.bits_0 in C by exact Hk. discriminate. }
    apply Z.testbit_true in E; [|exact Hk]. rewrite E. now rewrite (proj2 (Z.eqb_neq _ 0)).
  - assert (Z.land a (2 ^ k) = 0) as ->.
    { apply Z.bits_inj'. intros i Hi. rewrite Z.land_spec, Z.pow2_bits_eqb, Z.bits_0 by exact Hk. destruct (Z.eqb_spec k i) as [<-|N]; [now rewrite E|apply andb_false_r]. }
    apply Z.testbit_false in E; [|exact Hk]. rewrite E. reflexivity.
Qed.

Section Red.
Variable F : fmt.
Hypothesis Hsh : ew F <= mw F + 1.
Hypothesis H5 : 5 <= ew F.
Hypothesis H6 : 6 <= mw F.
Hypothesis Hev : noshift F = false -> mw F mod 2 = 0.
Hypothesis Hns : noshift F = true -> mw F * 2 ^ mw F < 2 ^ width F.
Let p := mw F.
Let w := width F.

(** the operand [(2^p + fr) * 2^(ee - bias - p)], in the representation of the source *)
Definition red (ix top ee fr : Z) : Prop :=
  0 <= fr < 2 ^ p /\ 1 - p <= ee <= 2 ^ ew F - 2 /\
  if noshift F then ix = (ee * 2 ^ p + fr) mod 2 ^ w
  else exists f, ix = f * 2 ^ p + fr /\ 0 <= f < 2 ^ ew F /\ f mod 2 = ee mod 2 /\ top = ee mod 2 ^ 32.

Lemma bias_odd : bias F mod 2 = 1.
Proof.
  unfold bias. replace (ew F - 1) with (ew F - 2 + 1) by lia. rewrite Z.add_1_r, Z.pow_succ_r by lia.
  symmetry. apply Z.mod_unique with (2 ^ (ew F - 2) - 1); lia.
Qed.
Lemma half_exp ee : 2 * ((ee + bias F) / 2) = ee + bias F - (1 - ee mod 2).
Proof.
  pose proof bias_odd as B. pose proof (Z.div_mod (bias F) 2 ltac:(lia)) as D. pose proof (Z.div_mod ee 2 ltac:(lia)) as De. pose proof (Z.div_mod (ee + bias F) 2 ltac:(lia)) as Ds.
  pose proof (Z.mod_pos_bound ee 2 ltac:(lia)). pose proof (Z.mod_pos_bound (ee + bias F) 2 ltac:(lia)). lia.
Qed.
Lemma ix_bits ix top ee fr : red ix top ee fr -> 0 <= ix < 2 ^ w /\ (ix / 2 ^ p) mod 2 = ee mod 2 /\ ix mod 2 ^ p = fr.
Proof.
  intros (Hf & He & H). pose proof (fmt_facts F) as HF. pose proof (pow2_pos p ltac:(unfold p; lia)) as PP. fold p in HF.
  assert (Ew : w = p + (ew F + 1)) by (unfold w, width, p; lia).
  assert (PW : 2 ^ w = 2 ^ p * (2 * 2 ^ ew F)) by (rewrite Ew, pow2_split, (Z.add_1_r (ew F)), Z.pow_succ_r by lia; reflexivity).
  destruct (noshift F).
  - subst ix. split; [apply Z.mod_pos_bound; nia|].
    assert (D : exists k, (ee * 2 ^ p + fr) mod 2 ^ w = (ee - 2 * k) * 2 ^ p + fr).
    { exists ((ee * 2 ^ p + fr) / 2 ^ w * 2 ^ ew F). rewrite Z.mod_eq by nia. set (c := _ / 2 ^ w). rewrite PW. ring. }
    destruct D as (k & ->). split.
    + replace (((ee - 2 * k) * 2 ^ p + fr) / 2 ^ p) with (ee - 2 * k) by (apply Z.div_unique with fr; lia).
      replace (ee - 2 * k) with (ee + (- k) * 2) by ring. apply Z_mod_plus_full.
    + symmetry. apply Z.mod_unique with (ee - 2 * k); lia.
  - destruct H as (f & -> & Hff & Hp2 & _). split; [nia|]. split.
    + replace ((f * 2 ^ p + fr) / 2 ^ p) with f by (apply Z.div_unique with fr; lia). exact Hp2.
    + symmetry. apply Z.mod_unique with f; lia.
Qed.
Lemma exp_range ee : 1 - p <= ee <= 2 ^ ew F - 2 -> 1 <= (ee + bias F) / 2 < 2 ^ ew F - 1.
Proof.
  intros H. pose proof (half_exp ee) as HE. pose proof (bias_facts F) as HB. fold p in HB. pose proof (par_mod ee). lia.
Qed.
Lemma reduce_ok ix top ee fr : red ix top ee fr ->
  sqrt_reduce F ix top = Some ((2 ^ p + fr) * 2 ^ (ew F - ee mod 2), let E := (ee + bias F) / 2 in if noshift F then E * 2 ^ p else E).
Proof.
  intros H. pose proof (fmt_facts F) as HF. pose proof (bias_facts F) as HB. pose proof (ix_bits _ _ _ _ H) as (Hix & Hpar & Hfr).
  destruct H as (Hf & He & H). pose proof (exp_range ee He) as ER. 
  fold p in HF, HB. pose proof (pow2_pos p ltac:(lia)) as PP. pose proof (pow2_pos (ew F) ltac:(lia)) as PE.
  assert (Ew : w = p + ew F + 1) by (unfold w, width, p; lia).
  assert (PW : 2 ^ w = 2 ^ p * (2 * 2 ^ ew F)) by (rewrite Ew, <- Z.add_assoc, pow2_split, (Z.add_1_r (ew F)), Z.pow_succ_r by lia; reflexivity).
  assert (W1 : 2 ^ (w - 1) = 2 ^ p * 2 ^ ew F) by (replace (w - 1) with (p + ew F) by lia; apply pow2_split; lia).
  assert (E2 : 2 ^ ew F = 2 * 2 ^ (ew F - 1)) by (replace (ew F) with (ew F - 1 + 1) at 1 by lia; rewrite Z.add_1_r, Z.pow_succ_r by lia; reflexivity).
  assert (P2 : 2 ^ p = 2 * 2 ^ (p - 1)) by (replace p with (p - 1 + 1) at 1 by lia; rewrite Z.add_1_r, Z.pow_succ_r by lia; reflexivity).
  assert (P3 : 2 ^ (p + 1) = 2 ^ p * 2) by (rewrite Z.add_1_r, Z.pow_succ_r by lia; lia).
  assert (IX1 : ix mod 2 ^ (p + 1) = (ee mod 2) * 2 ^ p + fr).
  { rewrite P3, Z.rem_mul_r by lia. rewrite Hpar, Hfr. ring. }
  pose proof (par_mod ee) as PM.
  unfold sqrt_reduce. change (BITS F) with w. rewrite EXP_BITS_eq, EXP_MASK_eq, IMPLICIT_BIT_eq, EXP_SAT_eq. 
  replace (SIGN_MASK F) with (2 ^ (w - 1)) by (rewrite SIGN_MASK_eq, W1; unfold p; reflexivity). unfold SIG_BITS. fold p.
  cbv zeta. destruct (noshift F) eqn:NS.
  - rewrite ushl_ok by lia. cbn [bind]. rewrite Z.mul_1_l, (Z.mod_small (2 ^ p)) by (split; [lia|apply Z.pow_lt_mono_r; lia]).
    rewrite ushr_ok by lia. cbn [bind]. rewrite ushr_ok by lia. cbn [bind].
    change (2 ^ 1) with 2.
    assert (HW2 : 2 ^ (w - 1) / 2 = 2 ^ (p + (ew F - 1))).
    { replace (w - 1) with (p + (ew F - 1) + 1) by lia. rewrite (Z.add_1_r (p + _)), Z.pow_succ_r by lia. rewrite Z.mul_comm, Z.div_mul by lia. reflexivity. }
    rewrite HW2. replace ((2 ^ ew F - 1) * 2 ^ p) with (2 ^ (p + (ew F - 1)) + bias F * 2 ^ p) at 1
      by (rewrite pow2_split by lia; unfold bias; rewrite E2; ring).
    assert (BL : 0 <= bias F * 2 ^ p < 2 ^ (p + (ew F - 1))) by (rewrite pow2_split by lia; unfold bias; split; [apply Z.mul_nonneg_nonneg; lia|nia]).
    rewrite lxor_high by (exact BL || lia).
    rewrite ushr_ok by lia. cbn [bind]. change (2 ^ 1) with 2.
    replace (bias F * 2 ^ p / 2) with (bias F * 2 ^ (p - 1)) by (rewrite P2; replace (bias F * (2 * 2 ^ (p - 1))) with (bias F * 2 ^ (p - 1) * 2) by ring; rewrite Z.div_mul by lia; reflexivity).
    assert (BL2 : 2 * (bias F * 2 ^ (p - 1)) < 2 ^ (w - 1)) by (replace (2 * (bias F * 2 ^ (p - 1))) with (bias F * 2 ^ p) by (rewrite P2; ring); apply Z.lt_trans with (1 := proj2 BL); apply Z.pow_lt_mono_r; lia).
    assert (W2 : 2 ^ w = 2 * 2 ^ (w - 1)) by (rewrite W1, PW; ring).
    rewrite uadd_ok. 2:{ assert (0 <= ix / 2) by (apply Z.div_pos; lia). assert (ix / 2 < 2 ^ (w - 1)) by (apply Z.div_lt_upper_bound; lia). clear PM; lia. }
    cbn [bind]. rewrite ushl_ok by lia. cbn [bind]. rewrite ushl_ok by lia. cbn [bind].
    rewrite testbit_pow by lia. rewrite Hpar. rewrite land_mid by lia.
    assert (EX : ((ix / 2 + bias F * 2 ^ (p - 1)) / 2 ^ p) mod 2 ^ ew F = (ee + bias F) / 2).
    { replace (ix / 2 + bias F * 2 ^ (p - 1)) with ((ix + bias F * 2 ^ p) / 2)
        by (rewrite P2; replace (ix + bias F * (2 * 2 ^ (p - 1))) with (ix + bias F * 2 ^ (p - 1) * 2) by ring; apply Z.div_add; lia).
      rewrite Z.div_div by lia. rewrite (Z.mul_comm 2), <- Z.div_div by lia.
      rewrite H, (Z.mod_eq (ee * 2 ^ p + fr)) by lia. set (c := (ee * 2 ^ p + fr) / 2 ^ w). rewrite PW.
      replace (ee * 2 ^ p + fr - 2 ^ p * (2 * 2 ^ ew F) * c + bias F * 2 ^ p) with (fr + (ee + bias F - 2 * 2 ^ ew F * c) * 2 ^ p) by ring.
      rewrite Z.div_add, (Z.div_small fr), Z.add_0_l by lia.
      replace (ee + bias F - 2 * 2 ^ ew F * c) with (ee + bias F + (- (2 ^ ew F * c)) * 2) by ring. rewrite Z.div_add by lia.
      replace ((ee + bias F) / 2 + - (2 ^ ew F * c)) with ((ee + bias F) / 2 + (- c) * 2 ^ ew F) by ring.
      rewrite Z_mod_plus_full. apply Z.mod_small. lia. }
    rewrite EX. f_equal. f_equal.
    destruct PM as [EM|EM]; rewrite EM in *; cbn [Z.eqb Pos.eqb].
    + rewrite Z.sub_0_r. rewrite shl_mod by lia. replace (w - ew F) with (p + 1) by lia. rewrite IX1.
      rewrite Z.mul_0_l, Z.add_0_l. rewrite <- (Z.mul_1_l (2 ^ (w - 1))), Z.lor_comm. rewrite lor_disjoint.
      * rewrite W1. ring.
      * lia.
      * rewrite W1. split; [apply Z.mul_nonneg_nonneg; lia|]. apply Z.mul_lt_mono_pos_r; lia.
    + replace (unot w (2 ^ (w - 1))) with (2 ^ (w - 1) - 1) by (unfold unot; lia). rewrite land_pow2m1 by lia.
      rewrite <- Znumtheory.Zmod_div_mod; [|apply pow2_pos; lia|apply pow2_pos; lia|exists 2; lia].
      rewrite shl_mod by lia. replace (w - 1 - (ew F - 1)) with (p + 1) by lia. rewrite IX1. ring.
  - destruct H as (f & Ef & Hff & Hpf & ->).
    assert (LO : exists g, Z.lor ix (2 ^ p) = g * 2 ^ p + fr /\ g mod 2 = 1 /\ 0 <= g < 2 ^ ew F).
    { exists (Z.lor f 1). split; [|split].
      - rewrite Ef. rewrite <- lor_disjoint by lia. rewrite <- Z.lor_assoc, (Z.lor_comm fr), Z.lor_assoc. rewrite <- (Z.mul_1_l (2 ^ p)) at 2.
        rewrite <- !Z.shiftl_mul_pow2 by lia. rewrite <- Z.shiftl_lor. rewrite !Z.shiftl_mul_pow2 by lia. apply lor_disjoint; lia.
      - rewrite <- (land1 (Z.lor f 1)). rewrite Z.land_lor_distr_l. change (Z.land 1 1) with 1. rewrite land1.
        destruct (par_mod f) as [-> | ->]; reflexivity.
      - apply lor_range; [lia|lia|]. split; [lia|]. change 1 with (2 ^ 0) at 1. apply Z.pow_lt_mono_r; lia. }
    destruct LO as (g & -> & Hg & Hgr). rewrite ushl_ok by lia. cbn [bind].
    assert (MM : ((g * 2 ^ p + fr) * 2 ^ ew F) mod 2 ^ w = (2 ^ p + fr) * 2 ^ ew F).
    { rewrite shl_mod by lia. replace (w - ew F) with (p + 1) by lia. f_equal. rewrite P3, Z.rem_mul_r by lia.
      replace ((g * 2 ^ p + fr) / 2 ^ p) with g by (apply Z.div_unique with fr; lia). rewrite Hg.
      replace ((g * 2 ^ p + fr) mod 2 ^ p) with fr by (apply Z.mod_unique with g; lia). ring. }
    rewrite MM. rewrite land1.
    assert (EV : (ee mod 2 ^ 32) mod 2 = ee mod 2) by (rewrite <- Znumtheory.Zmod_div_mod; [reflexivity|lia|lia|exists (2 ^ 31); reflexivity]).
    rewrite EV. 
    assert (MS : (if negb (ee mod 2 =? 0) then ushr w ((2 ^ p + fr) * 2 ^ ew F) 1 else Some ((2 ^ p + fr) * 2 ^ ew F)) = Some ((2 ^ p + fr) * 2 ^ (ew F - ee mod 2))).
    { destruct PM as [-> | ->]; cbn [negb Z.eqb Pos.eqb]; [now rewrite Z.sub_0_r|]. rewrite ushr_ok by lia. f_equal. change (2 ^ 1) with 2. rewrite E2 at 1.
      replace ((2 ^ p + fr) * (2 * 2 ^ (ew F - 1))) with ((2 ^ p + fr) * 2 ^ (ew F - 1) * 2) by ring. apply Z.div_mul. lia. }
    rewrite MS. cbn [bind]. rewrite ushr_ok by lia. cbn [bind]. rewrite ushr_ok by lia. cbn [bind]. change (2 ^ 1) with 2.
    replace ((2 ^ ew F - 1) / 2) with (bias F) by (apply Z.div_unique with 1; lia).
    unfold wadd. rewrite Zplus_mod_idemp_l. rewrite (Z.mod_small (ee + bias F)) by lia. reflexivity.
Qed.

(** the index is the slot of the reduced mantissa *)
Lemma slot_ok ix top ee fr : red ix top ee fr -> let M := (2 ^ p + fr) * 2 ^ (ew F - ee mod 2) in
  2 ^ (w - 2) <= M < 2 ^ w /\ in_slot (idx F ix) (IZR M * bpow radix2 (2 - w)).
Proof.
  intros H M. pose proof (fmt_facts F) as HF. pose proof (ix_bits _ _ _ _ H) as (Hix & Hpar & Hfr).
  destruct H as (Hf & He & _). fold p in HF. pose proof (pow2_pos p ltac:(lia)) as PP. pose proof (par_mod ee) as PM.
  assert (Ew : w = p + ew F + 1) by (unfold w, width, p; lia).
  assert (P3 : 2 ^ (p + 1) = 2 * 2 ^ p) by (rewrite Z.add_1_r, Z.pow_succ_r by lia; lia).
  assert (P6 : 2 ^ p = 64 * 2 ^ (p - 6)) by (replace p with (6 + (p - 6)) at 1 by lia; rewrite pow2_split by (unfold p in *; lia); reflexivity).
  pose proof (pow2_pos (p - 6) ltac:(unfold p; lia)) as P60.
  set (j := fr / 2 ^ (p - 6)). assert (J : 0 <= j < 64) by (split; [apply Z.div_pos; lia|apply Z.div_lt_upper_bound; lia]).
  assert (ID : idx F ix = 64 * (ee mod 2) + j).
  { unfold idx, SIG_BITS. fold p. change 128 with (64 * 2). rewrite Z.rem_mul_r by lia. rewrite Z.div_div by lia.
    rewrite (Z.mul_comm _ 64), <- P6, Hpar.
    assert (G : (ix / 2 ^ (p - 6)) mod 64 = j).
    { unfold j. rewrite <- Hfr, P6. rewrite (Z.mul_comm 64), Z.rem_mul_r by lia.
      rewrite (Z.add_comm (ix mod _)), Z.mul_comm, Z.div_add_l by lia. rewrite (Z.div_small (ix mod _)) by (apply Z.mod_pos_bound; lia). lia. }
    rewrite G. lia. }
  pose proof (Z.div_mod fr (2 ^ (p - 6)) ltac:(lia)) as DM. pose proof (Z.mod_pos_bound fr (2 ^ (p - 6)) ltac:(lia)) as MB. fold j in DM.
  assert (S1 : 2 ^ (p - 6) * (64 + j) <= 2 ^ p + fr) by lia.
  assert (S2 : 2 ^ p + fr < 2 ^ (p - 6) * (65 + j)) by lia.
  assert (EM : (IZR M * bpow radix2 (2 - w) = IZR (2 ^ p + fr) * bpow radix2 (1 - ee mod 2 - p))%R).
  { unfold M. rewrite mult_IZR, (IZR_pow2 (ew F - _)) by lia. rewrite Rmult_assoc, bp_split. do 2 f_equal. lia. }
  split.
  - unfold M. destruct PM as [EE|EE]; rewrite EE; rewrite ?Z.sub_0_r.
    + assert (2 ^ w = 2 ^ (p + 1) * 2 ^ ew F) by (rewrite <- pow2_split by lia; f_equal; lia).
      assert (2 * 2 ^ (w - 2) = 2 ^ p * 2 ^ ew F) by (rewrite <- pow2_split by lia; rewrite <- Z.pow_succ_r by lia; f_equal; lia).
      pose proof (pow2_pos (ew F) ltac:(lia)) as PE. pose proof (pow2_pos (w - 2) ltac:(lia)).
      assert (2 ^ p * 2 ^ ew F <= (2 ^ p + fr) * 2 ^ ew F) by (apply Z.mul_le_mono_nonneg_r; lia). split; [lia|]. rewrite H. apply Z.mul_lt_mono_pos_r; lia.
    + assert (2 ^ w = 4 * 2 ^ p * 2 ^ (ew F - 1)) by (change 4 with (2 ^ 2); rewrite <- !pow2_split by lia; f_equal; lia).
      assert (2 ^ (w - 2) = 2 ^ p * 2 ^ (ew F - 1)) by (rewrite <- pow2_split by lia; f_equal; lia).
      pose proof (pow2_pos (ew F - 1) ltac:(lia)) as PE. split; [rewrite H0; apply Z.mul_le_mono_nonneg_r; lia|]. rewrite H. apply Z.mul_lt_mono_pos_r; lia.
  - rewrite EM, ID. apply IZR_le in S1. apply IZR_lt in S2. rewrite mult_IZR, IZR_pow2 in S1, S2 by (unfold p; lia). rewrite plus_IZR in S1. rewrite (plus_IZR 65) in S2.
    unfold in_slot, tab_lo, tab_hi. set (X := IZR (2 ^ p + fr)) in *.
    assert (B6 : bpow radix2 (1 - ee mod 2 - p) = (bpow radix2 (1 - ee mod 2 - 6) * bpow radix2 (6 - p))%R) by (rewrite bp_split; f_equal; lia).
    assert (B7 : (bpow radix2 (p - 6) * bpow radix2 (6 - p) = 1)%R) by (rewrite bp_split; replace (p - 6 + (6 - p)) with 0 by lia; reflexivity).
    pose proof (bpow_gt_0 radix2 (6 - p)) as B8. rewrite B6.
    apply (Rmult_le_compat_r (bpow radix2 (6 - p))) in S1; [|lra]. apply (Rmult_lt_compat_r (bpow radix2 (6 - p))) in S2; [|lra].
    rewrite (Rmult_comm (bpow radix2 (p - 6))), Rmult_assoc, B7 in S1, S2.
    destruct PM as [EE|EE]; rewrite EE.
    + change (64 * 0 + j) with j. rewrite (proj2 (Z.ltb_lt j 64)) by lia. change (bpow radix2 (1 - 0 - 6)) with (/ 32)%R. rewrite !plus_IZR. lra.
    + rewrite (proj2 (Z.ltb_ge (64 * 1 + j) 64)) by lia. change (bpow radix2 (1 - 1 - 6)) with (/ 64)%R. rewrite (plus_IZR (64 * 1 + j)), (plus_IZR (64 * 1) j).
      change (IZR (64 * 1)) with 64%R. lra.
Qed.

Lemma start_ok x : isbits F x ->
  (if noshift F then
     let* exp_lsb := ushl w 1 (SIG_BITS F) in
     let* lim := usub w (EXP_MASK F) exp_lsb in
     Some (0, lim <=? wsub w x exp_lsb)
   else
     let* t := ushr w x (SIG_BITS F) in
     let* top := ucast 32 t in
     let* lim := usub 32 (EXP_SAT F) 1 in
     Some (top, lim <=? wsub 32 top 1)) =
  Some (if noshift F then 0 else x / 2 ^ p, (x <? 2 ^ p) || ((2 ^ ew F - 1) * 2 ^ p <=? x)).
Proof.
  intros Hx. unfold isbits in Hx. fold w in Hx. pose proof (fmt_facts F) as HF. pose proof (bias_facts F) as HB. fold p in HF, HB. pose proof (pow2_pos p ltac:(lia)) as PP.
  assert (Ew : w = p + (ew F + 1)) by (unfold w, width, p; lia).
  assert (PW : 2 ^ w = 2 ^ p * (2 * 2 ^ ew F)) by (rewrite Ew, pow2_split, (Z.add_1_r (ew F)), Z.pow_succ_r by lia; reflexivity).
  assert (EMK : 2 ^ p <= (2 ^ ew F - 1) * 2 ^ p < 2 ^ w).
  { split; [rewrite <- (Z.mul_1_l (2 ^ p)) at 1; apply Z.mul_le_mono_nonneg_r; lia|]. rewrite PW, (Z.mul_comm (2 ^ p)). apply Z.mul_lt_mono_pos_r; lia. }
  unfold SIG_BITS. fold p. destruct (noshift F).
  - rewrite ushl_ok by lia. cbn [bind]. rewrite Z.mul_1_l, (Z.mod_small (2 ^ p)) by lia. rewrite EXP_MASK_eq. fold p.
    rewrite usub_ok by lia. cbn [bind]. do 2 f_equal. unfold wsub. destruct (Z.ltb_spec x (2 ^ p)) as [L|L]; cbn [orb].
    + replace ((x - 2 ^ p) mod 2 ^ w) with (x - 2 ^ p + 2 ^ w) by (apply Z.mod_unique with (-1); lia). apply Z.leb_le. lia.
    + rewrite Z.mod_small by lia. destruct (Z.leb_spec ((2 ^ ew F - 1) * 2 ^ p) x); [apply Z.leb_le|apply Z.leb_gt]; lia.
  - rewrite ushr_ok by lia. cbn [bind]. rewrite EXP_SAT_eq.
    assert (T : 0 <= x / 2 ^ p < 2 * 2 ^ ew F) by (split; [apply Z.div_pos; lia|apply Z.div_lt_upper_bound; lia]).
    rewrite ucast_ok by lia. cbn [bind]. rewrite usub_ok by lia. cbn [bind]. do 2 f_equal. unfold wsub.
    pose proof (Z.div_mod x (2 ^ p) ltac:(lia)) as DM. pose proof (Z.mod_pos_bound x (2 ^ p) PP) as MB.
    destruct (Z.ltb_spec x (2 ^ p)) as [L|L]; cbn [orb].
    + rewrite Z.div_small by lia. apply Z.leb_le. change ((0 - 1) mod 2 ^ 32) with (2 ^ 32 - 1). lia.
    + assert (1 <= x / 2 ^ p) by (apply Z.div_le_lower_bound; lia). rewrite Z.mod_small by lia.
      set (t := x / 2 ^ p) in *. destruct (Z.leb_spec ((2 ^ ew F - 1) * 2 ^ p) x) as [G|G].
      * apply Z.leb_le. assert (2 ^ ew F - 1 <= t); [|lia]. apply Z.div_le_lower_bound; lia.
      * apply Z.leb_gt. assert (t < 2 ^ ew F - 1); [|lia]. apply Z.div_lt_upper_bound; lia.
Qed.
Lemma entry_zero x : isbits F x -> iszero F x = true -> sqrt_entry F x = Some (Early x).
Proof.
  intros Hx Z0. pose proof (fmt_facts F) as HF. unfold sqrt_entry. cbv zeta. change (BITS F) with w. rewrite start_ok by exact Hx. cbn [bind].
  apply andb_prop in Z0. destruct Z0 as [A B]. apply Z.eqb_eq in A, B.
  rewrite (fields_split F x Hx), A, B. unfold mkbits. fold p.
  pose proof (pow2_pos p ltac:(unfold p; lia)) as PP. pose proof (bias_facts F) as HB.
  assert (PS : 2 ^ (p + ew F) = 2 ^ p * 2 ^ ew F) by (apply pow2_split; unfold p; lia).
  assert (PW : 2 ^ w = 2 * 2 ^ (p + ew F)) by (rewrite <- Z.pow_succ_r by (unfold p; lia); f_equal; unfold w, width, p; lia).
  rewrite Z.mul_0_l, !Z.add_0_r.
  assert (G : ((if signbit F x then 2 ^ (p + ew F) else 0) <? 2 ^ p) || ((2 ^ ew F - 1) * 2 ^ p <=? (if signbit F x then 2 ^ (p + ew F) else 0)) = true).
  { destruct (signbit F x); apply orb_true_iff; [right; apply Z.leb_le; lia|left; apply Z.ltb_lt; lia]. }
  rewrite G. rewrite ushl_ok by (unfold w, width; lia). cbn [bind].
  assert (G2 : ((if signbit F x then 2 ^ (p + ew F) else 0) * 2 ^ 1) mod 2 ^ w = 0).
  { destruct (signbit F x); [|reflexivity]. rewrite PW, (Z.mul_comm (2 ^ (p + ew F))). change (2 ^ 1) with 2. apply Z.mod_same. lia. }
  rewrite G2. reflexivity.
Qed.
Lemma entry_big x : isbits F x -> iszero F x = false -> (2 ^ ew F - 1) * 2 ^ p <= x ->
  sqrt_entry F x = Some (Early (if x =? infinity F false then x else NAN F)).
Proof.
  intros Hx Z0 B. pose proof (fmt_facts F) as HF. unfold sqrt_entry. cbv zeta. change (BITS F) with w. rewrite start_ok by exact Hx. cbn [bind].
  rewrite (proj2 (Z.leb_le _ _) B), orb_true_r. rewrite ushl_ok by (unfold w, width; lia). cbn [bind].
  assert (NZ : (x * 2 ^ 1) mod 2 ^ w <> 0).
  { intros C. pose proof (pow2_pos p ltac:(unfold p; lia)) as PP. pose proof (bias_facts F) as HB. unfold isbits in Hx. fold w in Hx.
    assert (PS : 2 ^ (p + ew F) = 2 ^ p * 2 ^ ew F) by (apply pow2_split; unfold p; lia).
    assert (PW : 2 ^ w = 2 * 2 ^ (p + ew F)) by (rewrite <- Z.pow_succ_r by (unfold p; lia); f_equal; unfold w, width, p; lia).
    change (2 ^ 1) with 2 in C. rewrite PW, (Z.mul_comm x) in C. rewrite Z.mul_mod_distr_l in C by lia. 
    assert (X : x = 2 ^ (p + ew F)).
    { destruct (Z_lt_le_dec x (2 ^ (p + ew F))) as [L|L].
      - rewrite Z.mod_small in C by lia. lia.
      - replace (x mod 2 ^ (p + ew F)) with (x - 2 ^ (p + ew F)) in C by (apply Z.mod_unique with 1; lia). lia. }
    assert (X' : x = mkbits F true 0 0) by (unfold mkbits; fold p; lia).
    destruct (mkbits_fields F true 0 0 ltac:(lia) ltac:(fold p; lia)) as (_ & E1 & E2). rewrite <- X' in E1, E2. unfold iszero in Z0. rewrite E1, E2 in Z0. discriminate. }
  rewrite (proj2 (Z.eqb_neq _ _) NZ). rewrite EXP_MASK_eq. fold p.
  replace (infinity F false) with ((2 ^ ew F - 1) * 2 ^ p) by (unfold infinity, mkbits; fold p; lia).
  destruct (Z.eqb_spec x ((2 ^ ew F - 1) * 2 ^ p)) as [E|E]; [reflexivity|]. rewrite (proj2 (Z.ltb_lt _ _)) by lia. reflexivity.
Qed.
Lemma entry_fin x : isbits F x -> finite F x = true -> iszero F x = false -> signbit F x = false ->
  exists ix top ee fr, sqrt_entry F x = Some (Go ix top) /\ red ix top ee fr /\ val F x = (IZR (2 ^ p + fr) * bpow radix2 (ee - bias F - p))%R.
Proof.
  intros Hx Fx Zx Sx. pose proof (fmt_facts F) as HF. pose proof (bias_facts F) as HB. pose proof (pow2_pos p ltac:(unfold p; lia)) as PP.
  pose proof (fields_range F x) as (Rf & Re). apply finite_iff in Fx as Fe. pose proof (fields_split F x Hx) as FS. rewrite Sx in FS. unfold mkbits in FS. rewrite Z.add_0_l in FS. fold p in FS, Rf, HB, HF.
  set (e := expf F x) in *. set (f := sigf F x) in *.
  assert (Ew : w = p + (ew F + 1)) by (unfold w, width, p; lia).
  assert (PW : 2 ^ w = 2 ^ p * (2 * 2 ^ ew F)) by (rewrite Ew, pow2_split, (Z.add_1_r (ew F)), Z.pow_succ_r by lia; reflexivity).
  assert (XL : x < (2 ^ ew F - 1) * 2 ^ p) by (rewrite FS; nia).
  unfold sqrt_entry. cbv zeta. change (BITS F) with w. rewrite start_ok by exact Hx. cbn [bind].
  rewrite (proj2 (Z.leb_gt _ _) XL), orb_false_r.
  destruct (Z.eq_dec e 0) as [E0|E0].
  - (* subnormal *)
    assert (XF : x = f) by (rewrite FS, E0; lia).
    assert (F0 : 0 < f). { unfold iszero in Zx. fold e f in Zx. rewrite E0 in Zx. cbn [Z.eqb andb] in Zx. apply Z.eqb_neq in Zx. lia. }
    rewrite (proj2 (Z.ltb_lt x (2 ^ p))) by lia. rewrite ushl_ok by lia. cbn [bind].
    assert (PB : 4 * 2 ^ p <= 2 ^ w) by (rewrite PW, (Z.mul_comm (2 ^ p)); apply Z.mul_le_mono_nonneg_r; lia).
    change (2 ^ 1) with 2. rewrite (Z.mod_small (x * 2)) by lia. rewrite (proj2 (Z.eqb_neq (x * 2) 0)) by lia.
    rewrite EXP_MASK_eq. fold p. rewrite (proj2 (Z.eqb_neq x ((2 ^ ew F - 1) * 2 ^ p))) by lia. rewrite (proj2 (Z.ltb_ge ((2 ^ ew F - 1) * 2 ^ p) x)) by lia.
    unfold SIG_BITS. fold p. rewrite EXP_BIAS_eq. rewrite uadd_ok by lia. cbn [bind]. rewrite (Z.add_comm p).
    rewrite (pow2f_parts F p) by lia. cbn [bind].
    destruct (pow2f_ok F p ltac:(lia)) as (_ & Pf & Pv & Ps).
    pose proof (fmul_spec F x (pow2f F p) Fx Pf) as RS. rewrite Pv, Sx, Ps in RS. cbn [xorb] in RS.
    assert (VX : val F x = (IZR f * bpow radix2 (1 - bias F - p))%R) by (unfold val; rewrite Sx; fold e f; rewrite E0; reflexivity).
    assert (VS : (val F x * bpow radix2 p = IZR f * bpow radix2 (1 - bias F))%R) by (rewrite VX, Rmult_assoc, bp_split; do 2 f_equal; lia).
    assert (Fr : (1 <= IZR f < bpow radix2 p)%R) by (rewrite <- IZR_pow2 by lia; split; [apply IZR_le|apply IZR_lt]; lia).
    pose proof (bpow_gt_0 radix2 (1 - bias F)) as BG.
    assert (VL : (bpow radix2 (1 - bias F) <= val F x * bpow radix2 p)%R) by (rewrite VS; nra).
    assert (VU : (val F x * bpow radix2 p < bpow radix2 (1 - bias F + p))%R) by (rewrite VS, bpow_plus; nra).
    assert (RP : repr F (val F x * bpow radix2 p)%R) by (rewrite VS; apply repr_int; [rewrite Z.add_1_r, Z.pow_succ_r by lia; fold p; lia|unfold emin; fold p; lia]).
    destruct (rounds_to_exact F _ _ _ RS) as (Sf & Sv & Ss).
    { apply repr_rnd. exact RP. }
    { rewrite Rabs_pos_eq by lra. apply Rlt_trans with (1 := VU). apply bpow_lt. lia. }
    rewrite Rcompare_Gt in Ss by lra. set (sc := fmul F x (pow2f F p)) in *.
    assert (Sb : isbits F sc) by (apply fmul_isbits).
    pose proof (fields_range F sc) as (Rf2 & Re2). fold p in Rf2. pose proof (fields_split F sc Sb) as FS2. rewrite Ss in FS2. unfold mkbits in FS2. rewrite Z.add_0_l in FS2. fold p in FS2.
    set (g := expf F sc) in *. set (fr := sigf F sc) in *.
    assert (VG : (mag_of F g fr = val F x * bpow radix2 p)%R) by (rewrite <- Sv; unfold val; rewrite Ss; reflexivity).
    assert (G1 : 1 <= g).
    { destruct (Z.eq_dec g 0) as [G0|]; [|lia]. exfalso. rewrite G0 in VG. pose proof (mag_of_lt_exp F 0 fr ltac:(lia) Rf2) as ML. rewrite VG in ML.
      cbn [Z.eqb] in ML. replace (Z.max 0 1 + 0 - bias F) with (1 - bias F) in ML by lia. lra. }
    assert (G2 : g <= p).
    { destruct (Z_le_gt_dec g p) as [|G]; [assumption|]. exfalso. pose proof (mag_of_ge_exp F g fr ltac:(lia) ltac:(lia)) as MG. rewrite VG in MG.
      assert (bpow radix2 (1 - bias F + p) <= bpow radix2 (g - bias F))%R by (apply bpow_le; lia). lra. }
    assert (VX2 : val F x = (IZR (2 ^ p + fr) * bpow radix2 (g - p - bias F - p))%R).
    { unfold mag_of in VG. rewrite (proj2 (Z.eqb_neq g 0)) in VG by lia. fold p in VG.
      apply Rmult_eq_reg_r with (bpow radix2 p); [|apply Rgt_not_eq, bpow_gt_0]. rewrite <- VG, Rmult_assoc, bp_split. do 2 f_equal. lia. }
    destruct (noshift F) eqn:NS.
    + assert (W32 : w <= 32) by (apply Z.leb_le; exact NS).
      assert (PK : p * 2 ^ p < 2 ^ w) by (apply Hns; reflexivity).
      assert (PK32 : 2 ^ w <= 2 ^ 32) by (apply Z.pow_le_mono_r; lia).
      rewrite ushl_ok by lia. cbn [bind]. rewrite (Z.mod_small (p * 2 ^ p)) by (split; [apply Z.mul_nonneg_nonneg; lia|lia]).
      rewrite ucast_ok by (split; [apply Z.mul_nonneg_nonneg; lia|lia]). cbn [bind].
      eexists _, _, (g - p), fr. split; [reflexivity|]. split; [|exact VX2].
      split; [exact Rf2|]. split; [lia|]. rewrite NS. unfold wsub. f_equal. rewrite FS2. ring.
    + rewrite ex_ok by exact Sb. cbn [bind]. fold g.
      eexists _, _, (g - p), fr. split; [reflexivity|]. split; [|exact VX2].
      split; [exact Rf2|]. split; [lia|]. rewrite NS. exists g. split; [exact FS2|]. split; [lia|]. split; [|reflexivity].
      rewrite Zminus_mod. fold p in Hev. rewrite (Hev eq_refl), Z.sub_0_r, Zmod_mod. reflexivity.
  - rewrite (proj2 (Z.ltb_ge x (2 ^ p))) by (rewrite FS; nia).
    eexists _, _, e, f. split; [reflexivity|]. split.
    + split; [exact Rf|]. split; [lia|]. destruct (noshift F).
      * rewrite <- FS. symmetry. apply Z.mod_small. exact Hx.
      * exists e. split; [exact FS|]. split; [lia|]. split; [reflexivity|].
        rewrite Z.mod_small by lia. rewrite FS. symmetry. apply Z.div_unique with f; lia.
    + unfold val. rewrite Sx. fold e f. cbn [sval]. unfold mag_of. rewrite (proj2 (Z.eqb_neq e 0)) by lia. reflexivity.
Qed.
End Red.

Section All.
Variable F : fmt.
Variable C : sqrt_cfg.
Hypothesis Hsh : ew F <= mw F + 1.
Hypothesis H5 : 5 <= ew F.
Hypothesis H6 : 6 <= mw F.
Hypothesis Hev : noshift F = false -> mw F mod 2 = 0.
Hypothesis Hns : noshift F = true -> mw F * 2 ^ mw F < 2 ^ width F.
Hypothesis Hbig : 16 < width F -> 3 * mw F + 8 <= bias F.
Hypothesis HI : forall ix M, 2 ^ (BITS F - 2) <= M < 2 ^ BITS F -> 0 <= ix < 2 ^ BITS F -> in_slot (idx F ix) (IZR M * bpow radix2 (2 - BITS F)) -> iter_ok F C ix M.
Let p := mw F.
Let w := width F.

Lemma sqrt_finite_ok x : isbits F x -> finite F x = true -> iszero F x = false -> signbit F x = false ->
  exists r, sqrt_round F C x = Some r /\ rounds_to F (R_sqrt.sqrt (val F x)) false r.
Proof.
  intros Hx Fx Zx Sx. pose proof (fmt_facts F) as HF. pose proof (bias_facts F) as HB. fold p in HF, HB. pose proof (pow2_pos p ltac:(lia)) as PP.
  destruct (entry_fin F H5 H6 Hev Hns x Hx Fx Zx Sx) as (ix & top & ee & fr & EE & HR & VX). fold p in VX.
  unfold sqrt_round. rewrite EE. cbn [bind]. rewrite (reduce_ok F Hsh H5 H6 Hev Hns _ _ _ _ HR). cbn [bind]. cbv zeta. fold p.
  destruct (slot_ok F Hsh H5 H6 Hev Hns _ _ _ _ HR) as (MB & SL). fold p w in MB, SL.
  destruct (ix_bits F Hsh H5 H6 Hev Hns _ _ _ _ HR) as (IB & _ & _). fold w in IB.
  set (M := (2 ^ p + fr) * 2 ^ (ew F - ee mod 2)) in *.
  destruct (HI ix M MB IB SL) as (s & Es & S0 & SB). rewrite Es. cbn [bind]. change (BITS F) with w in SB. unfold SIG_BITS in SB. fold p in SB.
  destruct HR as (Rf & Re & _). fold p in Rf, Re. pose proof (exp_range F H5 H6 ee Re) as ER. pose proof (half_exp F H5 H6 ee) as HE. pose proof (par_mod ee) as PM.
  set (E := (ee + bias F) / 2) in *.
  assert (P3 : 2 ^ (p + 1) = 2 * 2 ^ p) by (rewrite Z.add_1_r, Z.pow_succ_r by lia; lia).
  destruct (finish_ok F Hsh H5 s M (2 ^ p + fr) (ee mod 2) E PM ltac:(fold p; lia) eq_refl S0 SB ltac:(lia)) as (n & En & Nn & NN).
  { intros W16. specialize (Hbig W16). fold p in Hbig. fold p. clear - Hbig HE PM Re. lia. }
  fold p in En, Nn, NN. rewrite En. eexists; split; [reflexivity|].
  set (N := (2 ^ p + fr) * 2 ^ (p + 1 - ee mod 2)) in *.
  assert (VN : val F x = (IZR N * (bpow radix2 (E - bias F - p) * bpow radix2 (E - bias F - p)))%R).
  { rewrite VX. unfold N. rewrite mult_IZR, (IZR_pow2 (p + 1 - _)), Rmult_assoc, !bp_split by lia. do 2 f_equal. lia. }
  assert (N0 : (0 <= IZR N)%R) by (apply IZR_le; unfold N; apply Z.mul_nonneg_nonneg; [lia|apply Z.pow_nonneg; lia]).
  assert (SV : R_sqrt.sqrt (val F x) = (R_sqrt.sqrt (IZR N) * bpow radix2 (E - bias F - p))%R).
  { rewrite VN, sqrt_mult by (try exact N0; apply Rmult_le_pos; apply bpow_ge_0). rewrite sqrt_square by apply bpow_ge_0. reflexivity. }
  set (y := R_sqrt.sqrt (IZR N)) in *.
  assert (YL : (bpow radix2 p <= y)%R).
  { unfold y. rewrite <- (sqrt_square (bpow radix2 p)) by apply bpow_ge_0. apply sqrt_le_1_alt. rewrite <- IZR_pow2, <- mult_IZR by lia. apply IZR_le.
    unfold N. apply Z.mul_le_mono_nonneg; try lia. apply Z.pow_le_mono_r; lia. }
  assert (YU : (y < bpow radix2 (p + 1))%R).
  { unfold y. rewrite <- (sqrt_square (bpow radix2 (p + 1))) by apply bpow_ge_0. apply sqrt_lt_1_alt. split; [exact N0|]. rewrite <- IZR_pow2, <- mult_IZR by lia. apply IZR_lt.
    unfold N. apply Z.le_lt_trans with ((2 ^ p + fr) * 2 ^ (p + 1)); [apply Z.mul_le_mono_nonneg_l; [lia|apply Z.pow_le_mono_r; lia]|]. apply Z.mul_lt_mono_pos_r; lia. }
  pose proof (bpow_gt_0 radix2 (E - bias F - p)) as BG.
  assert (RN : rnd F (y * bpow radix2 (E - bias F - p)) = (IZR n * bpow radix2 (E - bias F - p))%R).
  { rewrite (rnd_scaled F _ (E - bias F - p)).
    - do 2 f_equal. rewrite Rmult_assoc, bp_split, Z.add_opp_diag_r. cbn [bpow]. rewrite Rmult_1_r. apply Znearest_imp. rewrite Rabs_minus_sym. lra.
    - fold p. rewrite Rabs_pos_eq by (apply Rmult_le_pos; [|lra]; pose proof (bpow_ge_0 radix2 p); lra).
      replace (E - bias F - p + p) with (p + (E - bias F - p)) by lia. replace (p + (E - bias F - p) + 1) with (p + 1 + (E - bias F - p)) by lia.
      rewrite <- (bp_split p), <- (bp_split (p + 1)). split; [apply Rmult_le_compat_r|apply Rmult_lt_compat_r]; lra.
    - unfold emin. fold p. lia. }
  assert (F1 : 0 <= n - 2 ^ p < 2 ^ p) by lia.
  destruct (mkbits_fields F false E (n - 2 ^ p) ltac:(lia) F1) as (Sy & Ey & Fy).
  assert (VY : val F (mkbits F false E (n - 2 ^ p)) = (IZR n * bpow radix2 (E - bias F - p))%R).
  { rewrite val_mkbits by (fold p; lia). cbn [sval]. unfold mag_of. rewrite (proj2 (Z.eqb_neq E 0)) by lia. fold p. do 2 f_equal. lia. }
  assert (FY : finite F (mkbits F false E (n - 2 ^ p)) = true) by (apply finite_iff; rewrite Ey; lia).
  split; [apply mkbits_range; fold p; lia|]. rewrite SV, RN, <- VY. rewrite Rlt_bool_true by (apply val_lt_emax; exact FY).
  split; [exact FY|]. split; [reflexivity|]. rewrite Sy, Rcompare_Gt; [reflexivity|]. apply Rmult_lt_0_compat; [|exact BG]. pose proof (bpow_gt_0 radix2 p). lra.
Qed.
Lemma sqrt_ok x : isbits F x -> exists r, sqrt_round F C x = Some r /\ sqrt_spec F x r.
Proof.
  intros Hx. pose proof (fmt_facts F) as HF. pose proof (bias_facts F) as HB. pose proof (pow2_pos (mw F) ltac:(lia)) as PP.
  destruct (mkbits_fields F false (2 ^ ew F - 1) 0 ltac:(lia) ltac:(lia)) as (Si & Ei & Fi). fold (infinity F false) in Si, Ei, Fi.
  pose proof (fields_range F x) as (Rf & Re). pose proof (fields_split F x Hx) as FS. unfold mkbits in FS.
  destruct (iszero F x) eqn:Zx.
  - exists x. unfold sqrt_round. rewrite (entry_zero F H5 H6 Hev Hns) by assumption. split; [reflexivity|].
    split; [exact Hx|]. split; [intros; congruence|]. split; [reflexivity|]. split; [reflexivity|].
    intros [N|[_ N]]; [|congruence]. exfalso. unfold isnan in N. unfold iszero in Zx. apply andb_prop in N, Zx. destruct N as [N _], Zx as [Z0 _]. apply Z.eqb_eq in N, Z0. lia.
  - destruct (Z_lt_le_dec x ((2 ^ ew F - 1) * 2 ^ mw F)) as [L|L].
    + assert (Sx : signbit F x = false).
      { destruct (signbit F x); [|reflexivity]. exfalso. rewrite pow2_split in FS by lia. nia. }
      assert (Fx : finite F x = true). { apply finite_iff. rewrite Sx in FS. nia. }
      destruct (sqrt_finite_ok x Hx Fx Zx Sx) as (r & Er & Hr). exists r. split; [exact Er|].
      split; [exact (proj1 Hr)|]. split; [intros; exact Hr|]. split; [intros; congruence|]. split.
      * intros ->. exfalso. apply finite_iff in Fx. lia.
      * intros [N|[N _]]; [|congruence]. apply finite_not_nan in Fx. congruence.
    + unfold sqrt_round. rewrite (entry_big F H5 H6 Hev Hns) by assumption. cbn [bind]. eexists; split; [reflexivity|].
      assert (NF : finite F x = true -> signbit F x = false -> False).
      { intros Fx Sx. apply finite_iff in Fx. rewrite Sx in FS. nia. }
      destruct (Z.eqb_spec x (infinity F false)) as [E|E].
      * split; [exact Hx|]. split; [intros; exfalso; auto|]. split; [reflexivity|]. split; [reflexivity|].
        intros [N|[N _]]; rewrite E in N; [|congruence]. unfold isnan in N. rewrite Fi in N. rewrite andb_false_r in N. discriminate.
      * destruct (NAN_isnan F) as [NB NN]. split; [exact NB|]. split; [intros; exfalso; auto|]. split; [intros; congruence|]. split; [intros; congruence|]. intros _. exact NN.
Qed.
End All.

(** floor, ceil, trunc: exactness, sign and status. *)
From Coq Require Import ZArith Reals Lia Lra Bool.
From Flocq Require Import Core.
From Verif Require Import Base Spec Format P_format Ieee P_ieee SpecFun M_basic.
Open Scope Z_scope.

Lemma bits_mod F s e m k : 0 <= k <= mw F -> 0 <= e -> 0 <= m -> mkbits F s e m mod 2 ^ k = m mod 2 ^ k.
Proof.
  intros Hk He Hm. pose proof (fmt_facts F). unfold mkbits. rewrite pow_mwew.
  replace (mw F) with (k + (mw F - k)) by lia. rewrite pow2_split by lia.
  destruct s.
  - replace (2 ^ k * 2 ^ (mw F - k) * 2 ^ ew F + e * (2 ^ k * 2 ^ (mw F - k)) + m)
      with (m + (2 ^ (mw F - k) * 2 ^ ew F + e * 2 ^ (mw F - k)) * 2 ^ k) by ring.
    apply Z.mod_add. apply Z.pow_nonzero; lia.
  - replace (0 + e * (2 ^ k * 2 ^ (mw F - k)) + m)
      with (m + (e * 2 ^ (mw F - k)) * 2 ^ k) by ring.
    apply Z.mod_add. apply Z.pow_nonzero; lia.
Qed.

(** A pattern whose significand field may have carried into the exponent. *)
Lemma mk_carry F s e m : 0 < e -> e + 1 < 2 ^ ew F - 1 -> 0 <= m <= 2 ^ mw F ->
  isbits F (mkbits F s e m) /\ finite F (mkbits F s e m) = true /\
  signbit F (mkbits F s e m) = s /\
  val F (mkbits F s e m) = sval s (IZR (2 ^ mw F + m) * bpow radix2 (e - bias F - mw F)).
Proof.
  intros He He2 Hm. pose proof (pow_mw_ge F). pose proof (fmt_facts F).
  destruct (Z.eq_dec m (2 ^ mw F)) as [->|Hne].
  - assert (E : mkbits F s e (2 ^ mw F) = mkbits F s (e + 1) 0) by (unfold mkbits; ring).
    rewrite E. destruct (mkbits_fields F s (e + 1) 0) as (S1 & S2 & S3); try lia.
    split; [apply mkbits_range; lia|]. split; [unfold finite; rewrite S2; apply Z.ltb_lt; lia|].
    split; [assumption|]. rewrite val_mkbits by lia. unfold mag_of.
    rewrite (proj2 (Z.eqb_neq (e + 1) 0)) by lia. f_equal.
    replace (e + 1 - bias F - mw F) with (1 + (e - bias F - mw F)) by lia.
    rewrite bpow_plus, Z.add_0_r, plus_IZR. change (bpow radix2 1) with 2%R. ring.
  - destruct (mkbits_fields F s e m) as (S1 & S2 & S3); try lia.
    split; [apply mkbits_range; lia|]. split; [unfold finite; rewrite S2; apply Z.ltb_lt; lia|].
    split; [assumption|]. rewrite val_mkbits by lia. unfold mag_of.
    now rewrite (proj2 (Z.eqb_neq e 0)) by lia.
Qed.

Definition sgz (s : bool) (n : Z) : Z := if s then - n else n.
Lemma sval_IZR s n : sval s (IZR n) = IZR (sgz s n).
Proof. destruct s; simpl; [now rewrite opp_IZR|reflexivity]. Qed.

Lemma mk_int F s e m q k : 0 < e -> e + 1 < 2 ^ ew F - 1 -> 0 <= m <= 2 ^ mw F ->
  k = mw F - (e - bias F) -> 0 <= k -> 2 ^ mw F + m = q * 2 ^ k ->
  isbits F (mkbits F s e m) /\ finite F (mkbits F s e m) = true /\
  signbit F (mkbits F s e m) = s /\ val F (mkbits F s e m) = IZR (sgz s q).
Proof.
  intros He He2 Hm Ek Hk E. destruct (mk_carry F s e m He He2 Hm) as (A & B & C & D).
  repeat (split; [assumption|]). rewrite D, E, <- sval_IZR. f_equal.
  rewrite mult_IZR. change (2 ^ k) with (Zpower radix2 k). rewrite IZR_Zpower by lia.
  rewrite Rmult_assoc, <- bpow_plus. replace (k + (e - bias F - mw F)) with 0 by lia. simpl; ring.
Qed.

(** The three exponent ranges used by the rounding functions. *)
Lemma zone_big F x : finite F x = true -> bias F + mw F <= expf F x ->
  val F x = IZR (sgz (signbit F x) ((2 ^ mw F + sigf F x) * 2 ^ (expf F x - bias F - mw F))).
Proof.
  intros Hf He. pose proof (bias_facts F). pose proof (fmt_facts F).
  unfold val, mag_of. rewrite (proj2 (Z.eqb_neq (expf F x) 0)) by lia.
  rewrite <- sval_IZR. f_equal. rewrite mult_IZR. f_equal.
  change (2 ^ (expf F x - bias F - mw F)) with (Zpower radix2 (expf F x - bias F - mw F)).
  rewrite IZR_Zpower by lia. reflexivity.
Qed.
Lemma zone_mid F x k : bias F <= expf F x -> k = mw F - (expf F x - bias F) -> 0 <= k ->
  val F x = (IZR (sgz (signbit F x) (2 ^ mw F + sigf F x)) / IZR (2 ^ k))%R.
Proof.
  intros He -> Hk. pose proof (bias_facts F). pose proof (fmt_facts F).
  unfold val, mag_of. rewrite (proj2 (Z.eqb_neq (expf F x) 0)) by lia.
  rewrite <- sval_IZR. set (k := mw F - (expf F x - bias F)) in *.
  change (2 ^ k) with (Zpower radix2 k). rewrite IZR_Zpower by lia.
  unfold Rdiv. rewrite <- bpow_opp. replace (expf F x - bias F - mw F) with (- k) by (unfold k; lia).
  destruct (signbit F x); simpl; ring.
Qed.
Lemma zone_small F x : expf F x < bias F -> (Rabs (val F x) < 1)%R.
Proof.
  intros He. pose proof (bias_facts F). pose proof (fmt_facts F). pose proof (fields_range F x) as Hr.
  unfold val. rewrite sval_abs by (apply mag_of_nonneg; lia). unfold mag_of.
  pose proof (pow_mw_ge F) as Hge.
  assert (P : forall k, k <= mw F -> (bpow radix2 (- k - 1) * IZR (2 ^ mw F) >= 0)%R).
  { intros. apply Rle_ge. apply Rmult_le_pos; [apply bpow_ge_0|]. apply IZR_le; lia. }
  assert (Q : forall n e, 0 <= n < 2 ^ (mw F + 1) -> e <= - 1 - mw F -> (IZR n * bpow radix2 e < 1)%R).
  { intros n e Hn Hee.
    apply Rlt_le_trans with (IZR (2 ^ (mw F + 1)) * bpow radix2 e)%R.
    - apply Rmult_lt_compat_r; [apply bpow_gt_0|apply IZR_lt; lia].
    - change (2 ^ (mw F + 1)) with (Zpower radix2 (mw F + 1)). rewrite IZR_Zpower by lia.
      rewrite <- bpow_plus. change 1%R with (bpow radix2 0). apply bpow_le. lia. }
  assert (E2 : 2 ^ (mw F + 1) = 2 * 2 ^ mw F) by (rewrite Z.add_1_r, Z.pow_succ_r; lia).
  destruct (Z.eqb_spec (expf F x) 0); apply Q; lia.
Qed.

Lemma pow_k_split F k : 0 <= k <= mw F -> 2 ^ mw F = 2 ^ (mw F - k) * 2 ^ k.
Proof. intros. rewrite <- pow2_split by lia. f_equal; lia. Qed.

Lemma sig_mask_shift F e : 0 <= e < mw F -> (2 ^ mw F - 1) / 2 ^ e = 2 ^ (mw F - e) - 1.
Proof.
  intros He. symmetry. apply Z.div_unique with (2 ^ e - 1).
  - left. pose proof (pow2_pos e). lia.
  - rewrite (pow_k_split F e) by lia. ring.
Qed.

Lemma ushl1_zero F x : isbits F x -> exists sh, ushl (BITS F) x 1 = Some sh /\
  (sh =? 0) = iszero F x.
Proof.
  intros H. pose proof (fmt_facts F) as HF. pose proof (bias_facts F). pose proof (pow_mw_ge F).
  rewrite ushl_ok by (rewrite BITS_eq; lia).
  eexists; split; [reflexivity|]. unfold BITS. rewrite pow_width, <- pow_mwew.
  pose proof (fields_range F x) as Hr.
  rewrite Z.pow_1_r. replace (x * 2) with (2 * x) by ring.
  rewrite Z.mul_mod_distr_l by (try apply Z.pow_nonzero; lia).
  assert (E : x mod 2 ^ (mw F + ew F) = expf F x * 2 ^ mw F + sigf F x).
  { symmetry. apply Z.mod_unique with (if signbit F x then 1 else 0).
    - left. rewrite pow_mwew. nia.
    - rewrite (fields_split F x H) at 1. unfold mkbits. destruct (signbit F x); ring. }
  rewrite E. unfold iszero.
  destruct (Z.eqb_spec (expf F x) 0) as [E0|E0]; destruct (Z.eqb_spec (sigf F x) 0) as [E1|E1]; cbn [andb];
    [apply Z.eqb_eq|apply Z.eqb_neq|apply Z.eqb_neq|apply Z.eqb_neq]; nia.
Qed.

(** Shared analysis of the middle range: what masking does. *)
Section Mid.
Variable F : fmt.
Variable x : Z.
Hypothesis Hx : isbits F x.
Let s := signbit F x.
Let e := expf F x.
Let m := sigf F x.
Let k := mw F - (e - bias F).
Let N := 2 ^ mw F + m.
Hypothesis He : bias F <= e < bias F + mw F.

Lemma mid_k : 1 <= k <= mw F. Proof. unfold k. lia. Qed.
Lemma mid_mask : ushr (BITS F) (SIG_MASK F) (to_u 32 (e - bias F)) = Some (2 ^ k - 1).
Proof.
  pose proof (bias_facts F). pose proof (fmt_facts F).
  rewrite to_u_small by (split; [lia|]; apply Z.lt_trans with 128; [lia|reflexivity]).
  rewrite ushr_ok by (rewrite BITS_eq; lia). rewrite SIG_MASK_eq, sig_mask_shift by lia. reflexivity.
Qed.
Lemma mid_Nmod : N mod 2 ^ k = m mod 2 ^ k.
Proof.
  pose proof mid_k. unfold N. rewrite (pow_k_split F k) by lia.
  rewrite Z.add_comm. apply Z.mod_add. apply Z.pow_nonzero; lia.
Qed.
Lemma mid_xmod : x mod 2 ^ k = m mod 2 ^ k.
Proof.
  pose proof mid_k. pose proof (fields_range F x). rewrite (fields_split F x Hx) at 1.
  apply bits_mod; fold e m; lia.
Qed.
Lemma mid_land : Z.land x (2 ^ k - 1) = N mod 2 ^ k.
Proof. pose proof mid_k. rewrite land_pow2m1 by lia. now rewrite mid_xmod, mid_Nmod. Qed.
Lemma mid_val : val F x = (IZR (sgz s N) / IZR (2 ^ k))%R.
Proof. pose proof mid_k. apply zone_mid; unfold k, e; lia. Qed.

Lemma mid_exact : N mod 2 ^ k = 0 -> val F x = IZR (sgz s (N / 2 ^ k)).
Proof.
  intros H0. rewrite mid_val. pose proof mid_k. pose proof (pow2_pos k).
  assert (E : N = N / 2 ^ k * 2 ^ k) by (pose proof (Z.div_mod N (2 ^ k)); lia).
  rewrite E at 1. rewrite <- !sval_IZR, mult_IZR.
  destruct s; simpl; field; apply not_0_IZR; lia.
Qed.

(** Result of truncating. *)
Lemma mid_trunc : let y := x - x mod 2 ^ k in
  isbits F y /\ finite F y = true /\ signbit F y = s /\ val F y = IZR (sgz s (N / 2 ^ k)).
Proof.
  cbv zeta. rewrite mid_xmod. pose proof mid_k. pose proof (fields_range F x) as Hr. fold m e in Hr.
  pose proof (pow2_pos k). pose proof (bias_facts F).
  assert (E : x - m mod 2 ^ k = mkbits F s e (m - m mod 2 ^ k)).
  { rewrite (fields_split F x Hx) at 1. fold s e m. unfold mkbits. ring. }
  rewrite E. pose proof (Z.mod_pos_bound m (2 ^ k)). pose proof (Z.mod_le m (2 ^ k)).
  apply mk_int with k; try lia; try (unfold k; lia).
  rewrite <- mid_Nmod. pose proof (Z.div_mod N (2 ^ k)). unfold N in *. lia.
Qed.
(** Result of rounding away from zero when something was cut. *)
Lemma mid_away : N mod 2 ^ k <> 0 ->
  let y := (x + (2 ^ k - 1)) - (x + (2 ^ k - 1)) mod 2 ^ k in
  isbits F (x + (2 ^ k - 1)) /\
  isbits F y /\ finite F y = true /\ signbit F y = s /\ val F y = IZR (sgz s (N / 2 ^ k + 1)).
Proof.
  intros Hn. cbv zeta. pose proof mid_k. pose proof (fields_range F x) as Hr. fold m e in Hr.
  pose proof (pow2_pos k). pose proof (bias_facts F). pose proof (fmt_facts F).
  pose proof (Z.mod_pos_bound m (2 ^ k)) as Hmb. pose proof (Z.mod_pos_bound N (2 ^ k)) as HNb.
  assert (Ex : x = mkbits F s e m) by (apply (fields_split F x Hx)).
  assert (Em : (x + (2 ^ k - 1)) mod 2 ^ k = m mod 2 ^ k - 1).
  { symmetry. apply Z.mod_unique with (x / 2 ^ k + 1); [left; rewrite <- mid_Nmod; lia|].
    pose proof (Z.div_mod x (2 ^ k)). rewrite mid_xmod in *. lia. }
  assert (E : x + (2 ^ k - 1) - (x + (2 ^ k - 1)) mod 2 ^ k = mkbits F s e (m - m mod 2 ^ k + 2 ^ k)).
  { rewrite Em. rewrite Ex at 1. unfold mkbits. ring. }
  assert (Hup : m - m mod 2 ^ k + 2 ^ k <= 2 ^ mw F).
  { rewrite (pow_k_split F k) in * by lia. pose proof (Z.div_mod m (2 ^ k)).
    assert (m / 2 ^ k < 2 ^ (mw F - k)) by (apply Z.div_lt_upper_bound; lia). nia. }
  split.
  - unfold isbits. rewrite Ex.
    assert (K0 : 0 < 2 ^ k) by (apply pow2_pos; lia).
    assert (K1 : 2 ^ k <= 2 ^ mw F) by (apply Z.pow_le_mono_r; lia).
    assert (K2 : (e + 2) * 2 ^ mw F <= 2 ^ ew F * 2 ^ mw F) by (apply Z.mul_le_mono_nonneg_r; lia).
    assert (K3 : 0 <= e * 2 ^ mw F) by (apply Z.mul_nonneg_nonneg; lia).
    unfold mkbits. rewrite pow_width, pow_mwew. clear - K0 K1 K2 K3 Hr. clearbody k e m s.
    destruct s; lia.
  - rewrite E. apply mk_int with k; try lia; try (unfold k; lia).
    rewrite <- mid_Nmod. pose proof (Z.div_mod N (2 ^ k)). unfold N in *. lia.
Qed.

Lemma mid_floor_pos : s = false -> Zfloor (val F x) = N / 2 ^ k.
Proof.
  intros Hs. rewrite mid_val, Hs. pose proof mid_k. apply Zfloor_div.
  apply Z.pow_nonzero; lia.
Qed.
Lemma mid_floor_neg : s = true -> N mod 2 ^ k <> 0 -> Zfloor (val F x) = - (N / 2 ^ k + 1).
Proof.
  intros Hs Hn. rewrite mid_val, Hs. pose proof mid_k. simpl sgz.
  rewrite Zfloor_div by (apply Z.pow_nonzero; lia).
  rewrite Z.div_opp_l_nz; try lia; apply Z.pow_nonzero; lia.
Qed.
Lemma mid_ceil_neg : s = true -> Zceil (val F x) = - (N / 2 ^ k).
Proof.
  intros Hs. rewrite mid_val, Hs. pose proof mid_k. simpl sgz. unfold Zceil.
  rewrite opp_IZR. replace (- (- IZR N / IZR (2 ^ k)))%R with (IZR N / IZR (2 ^ k))%R.
  - rewrite Zfloor_div by (apply Z.pow_nonzero; lia). reflexivity.
  - field. apply not_0_IZR. apply Z.pow_nonzero; lia.
Qed.
Lemma mid_ceil_pos : s = false -> N mod 2 ^ k <> 0 -> Zceil (val F x) = N / 2 ^ k + 1.
Proof.
  intros Hs Hn. rewrite mid_val, Hs. pose proof mid_k. simpl sgz. unfold Zceil.
  replace (- (IZR N / IZR (2 ^ k)))%R with (IZR (- N) / IZR (2 ^ k))%R.
  - rewrite Zfloor_div by (apply Z.pow_nonzero; lia).
    rewrite Z.div_opp_l_nz; try lia; apply Z.pow_nonzero; lia.
  - rewrite opp_IZR. field. apply not_0_IZR. apply Z.pow_nonzero; lia.
Qed.
Lemma mid_inexact n : N mod 2 ^ k <> 0 -> val F x <> IZR n.
Proof.
  intros Hn E. rewrite mid_val in E. pose proof mid_k. pose proof (pow2_pos k).
  assert (E2 : IZR (sgz s N) = IZR (n * 2 ^ k)).
  { rewrite mult_IZR, <- E. field. apply not_0_IZR; lia. }
  apply eq_IZR in E2. apply Hn.
  destruct s; simpl in E2.
  - replace N with ((- n) * 2 ^ k) by lia. apply Z.mod_mul. lia.
  - rewrite E2. apply Z.mod_mul. lia.
Qed.
End Mid.

(** Where the status is right: a fraction is reported unless |x| < 1 and the significand field is
    zero. *)
Definition power_below_one (F : fmt) (x : Z) : bool :=
  (expf F x <? bias F) && negb (expf F x =? 0) && (sigf F x =? 0).

Definition status_ok (F : fmt) (x r st : Z) : Prop :=
  (st = ST_OK \/ st = ST_INEXACT) /\
  (power_below_one F x = false -> (st = ST_INEXACT <-> r <> x)) /\
  (power_below_one F x = true -> st = ST_OK /\ r <> x).

Lemma Zfloor_small r : (0 <= r < 1)%R -> Zfloor r = 0.
Proof. intros H. apply Zfloor_imp. simpl. lra. Qed.
Lemma Zfloor_smallneg r : (-1 < r < 0)%R -> Zfloor r = -1.
Proof. intros H. apply Zfloor_imp. simpl. lra. Qed.
Lemma Zceil_small r : (0 < r < 1)%R -> Zceil r = 1.
Proof. intros H. apply Zceil_imp. simpl. lra. Qed.
Lemma Zceil_smallneg r : (-1 < r <= 0)%R -> Zceil r = 0.
Proof. intros H. apply Zceil_imp. simpl. lra. Qed.

Lemma NEG_ONE_fields F : isbits F (NEG_ONE F) /\ finite F (NEG_ONE F) = true /\
  val F (NEG_ONE F) = (-1)%R /\ signbit F (NEG_ONE F) = true /\ expf F (NEG_ONE F) = bias F.
Proof.
  pose proof (bias_facts F). pose proof (pow_mw_ge F). pose proof (fmt_facts F).
  rewrite NEG_ONE_eq. destruct (mkbits_fields F true (bias F) 0) as (E1 & E2 & E3); try lia.
  split; [apply mkbits_range; lia|]. split; [unfold finite; rewrite E2; apply Z.ltb_lt; lia|].
  split; [|tauto]. rewrite val_mkbits by lia. unfold mag_of.
  rewrite (proj2 (Z.eqb_neq (bias F) 0)) by lia. simpl sval.
  rewrite Z.add_0_r. change (2 ^ mw F) with (Zpower radix2 (mw F)). rewrite IZR_Zpower by lia.
  rewrite <- bpow_plus. replace (mw F + (bias F - bias F - mw F)) with 0 by lia. simpl; lra.
Qed.
Lemma ONE_expf F : expf F (ONE F) = bias F.
Proof.
  pose proof (bias_facts F). pose proof (pow_mw_ge F).
  rewrite ONE_eq. now destruct (mkbits_fields F false (bias F) 0) as (E1 & E2 & E3); try lia.
Qed.

Lemma nonfinite_e F x : finite F x = false -> expf F x = 2 ^ ew F - 1.
Proof. unfold finite. rewrite Z.ltb_ge. pose proof (fields_range F x). lia. Qed.

Lemma rounded_same F Q x : isbits F x -> (finite F x = true -> val F x = IZR (Q (val F x))) ->
  rounded_by F Q x x.
Proof. intros Hx H. split; [assumption|]. split; [|reflexivity]. intros Hf. auto. Qed.

Lemma status_same F x : isbits F x -> bias F <= expf F x \/ iszero F x = true -> status_ok F x x ST_OK.
Proof.
  intros Hx He. unfold status_ok.
  assert (P : power_below_one F x = false).
  { unfold power_below_one. destruct He as [He|He].
    - rewrite (proj2 (Z.ltb_ge _ _)) by lia. reflexivity.
    - unfold iszero in He. destruct (expf F x =? 0); [|discriminate]. rewrite andb_false_r. reflexivity. }
  rewrite P. split; [auto|]. split; [|discriminate]. intros _. split; [discriminate|congruence].
Qed.

Lemma status_mid F x r : bias F <= expf F x -> r <> x -> status_ok F x r ST_INEXACT.
Proof.
  intros He Hr. unfold status_ok.
  assert (P : power_below_one F x = false).
  { unfold power_below_one. rewrite (proj2 (Z.ltb_ge _ _)) by lia. reflexivity. }
  rewrite P. split; [auto|]. split; [|discriminate]. tauto.
Qed.

Lemma status_small F x r : expf F x < bias F -> iszero F x = false -> r <> x ->
  status_ok F x r (if Z.land x (SIG_MASK F) =? 0 then ST_OK else ST_INEXACT).
Proof.
  intros He Hz Hr. pose proof (fmt_facts F). rewrite SIG_MASK_eq, land_pow2m1 by lia. fold (sigf F x).
  unfold iszero in Hz. unfold status_ok, power_below_one. rewrite (proj2 (Z.ltb_lt _ _)) by lia.
  destruct (Z.eqb_spec (sigf F x) 0) as [E|E].
  - rewrite andb_true_r in Hz. rewrite Hz. cbn [negb andb]. split; [auto|]. split; [discriminate|]. auto.
  - rewrite andb_false_r. split; [auto|]. split; [|discriminate]. tauto.
Qed.

Lemma floor_status_ok F x : isbits F x -> exists r st, floor_status F x = Some (r, st) /\
  rounded_by F Zfloor x r /\ status_ok F x r st.
Proof.
  intros Hx. pose proof (bias_facts F) as HB. pose proof (fmt_facts F) as HF.
  pose proof (fields_range F x) as Hr.
  unfold floor_status. rewrite exp_unbiased_ok by assumption. cbn [bind].
  unfold SIG_BITS. rewrite to_i32_small by (split; [lia|]; apply Z.lt_trans with 128; [lia|reflexivity]).
  destruct (Z.leb_spec (mw F) (expf F x - bias F)) as [Hbig|Hbig].
  { exists x, ST_OK. split; [reflexivity|]. split; [|apply status_same; [assumption|lia]].
    apply rounded_same; [assumption|].
    intros Hf. rewrite (zone_big F x Hf) by lia. now rewrite Zfloor_IZR. }
  destruct (Z.leb_spec 0 (expf F x - bias F)) as [Hmid|Hsmall].
  - assert (HM : bias F <= expf F x < bias F + mw F) by lia.
    assert (Hfx : finite F x = true) by (apply finite_iff; lia).
    rewrite (mid_mask F x HM). cbn [bind]. rewrite (mid_land F x Hx HM).
    set (k := mw F - (expf F x - bias F)) in *. set (N := 2 ^ mw F + sigf F x) in *.
    destruct (Z.eqb_spec (N mod 2 ^ k) 0) as [E0|E0].
    { exists x, ST_OK. split; [reflexivity|]. split; [|apply status_same; [assumption|lia]].
      apply rounded_same; [assumption|].
      intros _. rewrite (mid_exact F x HM E0). now rewrite Zfloor_IZR. }
    rewrite is_sign_negative_eq by assumption.
    destruct (signbit F x) eqn:Es.
    + destruct (mid_away F x Hx HM E0) as (A0 & A1 & A2 & A3 & A4). fold k in A0, A1, A2, A3, A4.
      unfold isbits in A0. unfold BITS. rewrite uadd_ok by (fold k; lia). cbn [bind].
      pose proof (mid_k F x HM) as Hk. fold k in Hk.
      rewrite land_unot_low; [|unfold width; lia|assumption].
      eexists _, _. split; [reflexivity|]. split.
      * split; [exact A1|]. split; [|intros C; congruence]. intros _.
        split; [exact A2|]. split; [|congruence]. rewrite A4. rewrite (mid_floor_neg F x HM Es E0).
        rewrite Es. reflexivity.
      * apply status_mid; [lia|]. intros C. rewrite C in A4. revert A4. apply (mid_inexact F x HM _ E0).
    + cbn [bind]. destruct (mid_trunc F x Hx HM) as (A1 & A2 & A3 & A4). fold k in A1, A2, A3, A4.
      pose proof (mid_k F x HM) as Hk. fold k in Hk. unfold BITS.
      rewrite land_unot_low; [|unfold width; lia|assumption].
      eexists _, _. split; [reflexivity|]. split.
      * split; [exact A1|]. split; [|intros C; congruence]. intros _.
        split; [exact A2|]. split; [|congruence]. rewrite A4. rewrite (mid_floor_pos F x HM Es).
        rewrite Es. reflexivity.
      * apply status_mid; [lia|]. intros C. rewrite C in A4. revert A4. apply (mid_inexact F x HM _ E0).
  - assert (Hs : expf F x < bias F) by lia.
    assert (Hfx : finite F x = true) by (apply finite_iff; lia).
    pose proof (zone_small F x Hs) as Hv. apply Rabs_lt_inv in Hv.
    destruct (ushl1_zero F x Hx) as (sh & -> & Hsh). cbn [bind]. rewrite Hsh.
    rewrite is_sign_positive_eq by assumption.
    destruct (signbit F x) eqn:Es; cbn [negb].
    + destruct (iszero F x) eqn:Ez; cbn [negb].
      * exists x, ST_OK. split.
        { f_equal. f_equal. assert (Z0 : sigf F x = 0).
          { unfold iszero in Ez. rewrite andb_true_iff, !Z.eqb_eq in Ez. tauto. }
          rewrite SIG_MASK_eq, land_pow2m1 by lia. fold (sigf F x). rewrite Z0. reflexivity. }
        split; [|apply status_same; auto].
        apply rounded_same; [assumption|]. intros _. rewrite (iszero_val F x Ez). now rewrite Zfloor_IZR.
      * eexists _, _. split; [reflexivity|].
        assert (Hneg : (val F x < 0)%R).
        { pose proof (val_sign_nonpos F x Es). destruct (Req_dec (val F x) 0) as [E|E]; [|lra].
          apply val_eq_0 in E; [congruence|assumption|assumption]. }
        destruct (NEG_ONE_fields F) as (B1 & B2 & B3 & B4 & B5).
        split.
        -- split; [exact B1|]. split; [|congruence]. intros _.
           rewrite B3, B4, Es. rewrite Zfloor_smallneg by lra. auto.
        -- apply status_small; [assumption..|]. intros C. rewrite <- C in Hs. lia.
    + pose proof (val_sign_nonneg F x Es) as Hpos.
      destruct (zero_fields F false) as (B1 & B2 & B3 & B4).
      rewrite (ZERO_eq F).
      eexists _, _. split; [reflexivity|]. split.
      -- split; [exact B1|]. split; [|congruence]. intros _.
         rewrite B3, Es, val_zero. rewrite Zfloor_small by lra. auto.
      -- destruct (iszero F x) eqn:Ez.
         ++ assert (Z0 : sigf F x = 0).
            { unfold iszero in Ez. rewrite andb_true_iff, !Z.eqb_eq in Ez. tauto. }
            rewrite SIG_MASK_eq, land_pow2m1 by lia. fold (sigf F x). rewrite Z0. simpl.
            rewrite <- Es, <- (iszero_eq F x Hx Ez). apply status_same; auto.
         ++ apply status_small; [assumption..|]. intros C. congruence.
Qed.

Lemma ceil_status_ok F x : isbits F x -> exists r st, ceil_status F x = Some (r, st) /\
  rounded_by F Zceil x r /\ status_ok F x r st.
Proof.
  intros Hx. pose proof (bias_facts F) as HB. pose proof (fmt_facts F) as HF.
  pose proof (fields_range F x) as Hr.
  unfold ceil_status. rewrite exp_unbiased_ok by assumption. cbn [bind].
  unfold SIG_BITS. rewrite to_i32_small by (split; [lia|]; apply Z.lt_trans with 128; [lia|reflexivity]).
  destruct (Z.leb_spec (mw F) (expf F x - bias F)) as [Hbig|Hbig].
  { exists x, ST_OK. split; [reflexivity|]. split; [|apply status_same; [assumption|lia]].
    apply rounded_same; [assumption|].
    intros Hf. rewrite (zone_big F x Hf) by lia. now rewrite Zceil_IZR. }
  destruct (Z.leb_spec 0 (expf F x - bias F)) as [Hmid|Hsmall].
  - assert (HM : bias F <= expf F x < bias F + mw F) by lia.
    assert (Hfx : finite F x = true) by (apply finite_iff; lia).
    rewrite (mid_mask F x HM). cbn [bind]. rewrite (mid_land F x Hx HM).
    set (k := mw F - (expf F x - bias F)) in *. set (N := 2 ^ mw F + sigf F x) in *.
    destruct (Z.eqb_spec (N mod 2 ^ k) 0) as [E0|E0].
    { exists x, ST_OK. split; [reflexivity|]. split; [|apply status_same; [assumption|lia]].
      apply rounded_same; [assumption|].
      intros _. rewrite (mid_exact F x HM E0). now rewrite Zceil_IZR. }
    rewrite is_sign_positive_eq by assumption.
    destruct (signbit F x) eqn:Es; cbn [negb].
    + cbn [bind]. destruct (mid_trunc F x Hx HM) as (A1 & A2 & A3 & A4). fold k in A1, A2, A3, A4.
      pose proof (mid_k F x HM) as Hk. fold k in Hk. unfold BITS.
      rewrite land_unot_low; [|unfold width; lia|assumption].
      eexists _, _. split; [reflexivity|]. split.
      * split; [exact A1|]. split; [|intros C; congruence]. intros _.
        split; [exact A2|]. split; [|congruence]. rewrite A4. rewrite (mid_ceil_neg F x HM Es).
        rewrite Es. reflexivity.
      * apply status_mid; [lia|]. intros C. rewrite C in A4. revert A4. apply (mid_inexact F x HM _ E0).
    + destruct (mid_away F x Hx HM E0) as (A0 & A1 & A2 & A3 & A4). fold k in A0, A1, A2, A3, A4.
      unfold isbits in A0. unfold BITS. rewrite uadd_ok by (fold k; lia). cbn [bind].
      pose proof (mid_k F x HM) as Hk. fold k in Hk.
      rewrite land_unot_low; [|unfold width; lia|assumption].
      eexists _, _. split; [reflexivity|]. split.
      * split; [exact A1|]. split; [|intros C; congruence]. intros _.
        split; [exact A2|]. split; [|congruence]. rewrite A4. rewrite (mid_ceil_pos F x HM Es E0).
        rewrite Es. reflexivity.
      * apply status_mid; [lia|]. intros C. rewrite C in A4. revert A4. apply (mid_inexact F x HM _ E0).
  - assert (Hs : expf F x < bias F) by lia.
    assert (Hfx : finite F x = true) by (apply finite_iff; lia).
    pose proof (zone_small F x Hs) as Hv. apply Rabs_lt_inv in Hv.
    destruct (ushl1_zero F x Hx) as (sh & -> & Hsh). cbn [bind]. rewrite Hsh.
    rewrite is_sign_negative_eq by assumption.
    destruct (signbit F x) eqn:Es; cbn [negb].
    + pose proof (val_sign_nonpos F x Es) as Hneg.
      destruct (zero_fields F true) as (B1 & B2 & B3 & B4).
      rewrite (NEG_ZERO_eq F).
      eexists _, _. split; [reflexivity|]. split.
      -- split; [exact B1|]. split; [|congruence]. intros _.
         rewrite B3, Es, val_zero. rewrite Zceil_smallneg by lra. auto.
      -- destruct (iszero F x) eqn:Ez.
         ++ assert (Z0 : sigf F x = 0).
            { unfold iszero in Ez. rewrite andb_true_iff, !Z.eqb_eq in Ez. tauto. }
            rewrite SIG_MASK_eq, land_pow2m1 by lia. fold (sigf F x). rewrite Z0. simpl.
            rewrite <- Es, <- (iszero_eq F x Hx Ez). apply status_same; auto.
         ++ apply status_small; [assumption..|]. intros C. congruence.
    + destruct (iszero F x) eqn:Ez; cbn [negb].
      * exists x, ST_OK. split.
        { f_equal. f_equal. assert (Z0 : sigf F x = 0).
          { unfold iszero in Ez. rewrite andb_true_iff, !Z.eqb_eq in Ez. tauto. }
          rewrite SIG_MASK_eq, land_pow2m1 by lia. fold (sigf F x). rewrite Z0. reflexivity. }
        split; [|apply status_same; auto].
        apply rounded_same; [assumption|]. intros _. rewrite (iszero_val F x Ez). now rewrite Zceil_IZR.
      * eexists _, _. split; [reflexivity|].
        assert (Hpos : (0 < val F x)%R).
        { pose proof (val_sign_nonneg F x Es). destruct (Req_dec (val F x) 0) as [E|E]; [|lra].
          apply val_eq_0 in E; [congruence|assumption|assumption]. }
        destruct (ONE_fields F) as (B1 & B2 & B3 & B4). pose proof (ONE_expf F).
        split.
        -- split; [exact B1|]. split; [|congruence]. intros _.
           rewrite B3, B4, Es. rewrite Zceil_small by lra. auto.
        -- apply status_small; [assumption..|]. intros C. rewrite <- C in Hs. lia.
Qed.

Lemma unot_unot w a : unot w (unot w a) = a. Proof. unfold unot. lia. Qed.

Lemma trunc_status_ok F x : isbits F x -> exists r st, trunc_status F x = Some (r, st) /\
  rounded_by F Ztrunc x r /\ status_ok F x r st.
Proof.
  intros Hx. pose proof (bias_facts F) as HB. pose proof (fmt_facts F) as HF.
  pose proof (fields_range F x) as Hr.
  unfold trunc_status. rewrite exp_unbiased_ok by assumption. cbn [bind].
  unfold SIG_BITS. rewrite to_i32_small by (split; [lia|]; apply Z.lt_trans with 128; [lia|reflexivity]).
  destruct (Z.leb_spec (mw F) (expf F x - bias F)) as [Hbig|Hbig].
  { exists x, ST_OK. split; [reflexivity|]. split; [|apply status_same; [assumption|lia]].
    apply rounded_same; [assumption|].
    intros Hf. rewrite (zone_big F x Hf) by lia. now rewrite Ztrunc_IZR. }
  destruct (Z.ltb_spec (expf F x - bias F) 0) as [Hsmall|Hmid].
  - assert (Hs : expf F x < bias F) by lia.
    assert (Hfx : finite F x = true) by (apply finite_iff; lia).
    pose proof (zone_small F x Hs) as Hv. apply Rabs_lt_inv in Hv.
    cbn [bind]. rewrite abs_bits by assumption.
    assert (HT : Ztrunc (val F x) = 0).
    { unfold Ztrunc. destruct (Rlt_bool_spec (val F x) 0).
      - apply Zceil_smallneg; lra. - apply Zfloor_small; lra. }
    assert (EZ : (expf F x * 2 ^ mw F + sigf F x =? 0) = iszero F x).
    { unfold iszero. pose proof (pow_mw_ge F).
      destruct (Z.eqb_spec (expf F x) 0); destruct (Z.eqb_spec (sigf F x) 0); cbn [andb];
      [apply Z.eqb_eq|apply Z.eqb_neq|apply Z.eqb_neq|apply Z.eqb_neq]; nia. }
    rewrite EZ. destruct (iszero F x) eqn:Ez.
    { exists x, ST_OK. split; [reflexivity|]. split; [|apply status_same; auto].
      apply rounded_same; [assumption|]. intros _. rewrite HT. now rewrite (iszero_val F x Ez). }
    assert (EL : Z.land x (SIGN_MASK F) = zero F (signbit F x)).
    { rewrite land_sign by assumption. unfold zero, mkbits. rewrite pow_mwew. destruct (signbit F x); lia. }
    rewrite EL. destruct (zero_fields F (signbit F x)) as (B1 & B2 & B3 & B4).
    eexists _, _. split; [reflexivity|]. split.
    + split; [exact B1|]. split; [|congruence]. intros _. rewrite B3, val_zero, HT. auto.
    + apply status_small; [assumption..|]. intros C. congruence.
  - assert (HM : bias F <= expf F x < bias F + mw F) by lia.
    assert (Hfx : finite F x = true) by (apply finite_iff; lia).
    rewrite (mid_mask F x HM). cbn [bind]. rewrite unot_unot. rewrite (mid_land F x Hx HM).
    set (k := mw F - (expf F x - bias F)) in *. set (N := 2 ^ mw F + sigf F x) in *.
    destruct (Z.eqb_spec (N mod 2 ^ k) 0) as [E0|E0].
    { exists x, ST_OK. split; [reflexivity|]. split; [|apply status_same; [assumption|lia]].
      apply rounded_same; [assumption|].
      intros _. rewrite (mid_exact F x HM E0). now rewrite Ztrunc_IZR. }
    assert (Hsig : (Z.land x (SIG_MASK F) =? 0) = false).
    { rewrite SIG_MASK_eq, land_pow2m1 by lia. fold (sigf F x). apply Z.eqb_neq. intros C.
      apply E0. pose proof (mid_Nmod F x HM) as HN. fold k N in HN. rewrite HN, C.
      apply Z.mod_0_l. pose proof (mid_k F x HM). apply Z.pow_nonzero; unfold k; lia. }
    rewrite Hsig.
    destruct (mid_trunc F x Hx HM) as (A1 & A2 & A3 & A4). fold k in A1, A2, A3, A4.
    pose proof (mid_k F x HM) as Hk. fold k in Hk. unfold BITS.
    rewrite land_unot_low; [|unfold width; lia|assumption].
    eexists _, _. split; [reflexivity|]. split.
    * split; [exact A1|]. split; [|intros C; congruence]. intros _.
      split; [exact A2|]. split; [|congruence]. rewrite A4. f_equal.
      unfold Ztrunc. destruct (signbit F x) eqn:Es.
      -- pose proof (val_sign_nonpos F x Es).
         rewrite (fun H => Rlt_bool_true (val F x) 0 H).
         ++ rewrite (mid_ceil_neg F x HM Es). reflexivity.
         ++ destruct (Req_dec (val F x) 0) as [E|E]; [|lra].
            apply (mid_inexact F x HM 0) in E0. congruence.
      -- pose proof (val_sign_nonneg F x Es). rewrite Rlt_bool_false by lra.
         rewrite (mid_floor_pos F x HM Es). reflexivity.
    * apply status_mid; [lia|]. intros C. rewrite C in A4. revert A4. apply (mid_inexact F x HM _ E0).
Qed.

Lemma floor_ok F x : isbits F x -> exists r, floor F x = Some r /\ rounded_by F Zfloor x r.
Proof.
  intros Hx. destruct (floor_status_ok F x Hx) as (r & st & E & H & _).
  exists r. unfold floor. rewrite E. auto.
Qed.
Lemma ceil_ok F x : isbits F x -> exists r, ceil F x = Some r /\ rounded_by F Zceil x r.
Proof.
  intros Hx. destruct (ceil_status_ok F x Hx) as (r & st & E & H & _).
  exists r. unfold ceil. rewrite E. auto.
Qed.
Lemma trunc_ok F x : isbits F x -> exists r, trunc F x = Some r /\ rounded_by F Ztrunc x r.
Proof.
  intros Hx. destruct (trunc_status_ok F x Hx) as (r & st & E & H & _).
  exists r. unfold trunc. rewrite E. auto.
Qed.

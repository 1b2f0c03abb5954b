(** The hexadecimal float parser: correct rounding in every direction. *)
From Coq Require Import ZArith Reals Lia Lra Bool List.
From Flocq Require Import Core.
From Verif Require Import Base Spec SpecHex Format P_format P_ieee P_real P_near M_hex P_hex P_hex2 P_hex3.
Import ListNotations.
Open Scope Z_scope.

Definition spec_mode (r : Round) : rmode :=
  match r with Nearest => ToNearest | Negative => Down | Positive => Up | Zero => ToZero end.
Definition flip (r : Round) : Round := match r with Positive => Negative | Negative => Positive | r => r end.
Definition flags (ovf unf inx : bool) : Z := (if ovf then 8 else 0) + (if unf then 16 else 0) + (if inx then 32 else 0).

Lemma bp_split a c : (bpow radix2 a * bpow radix2 c = bpow radix2 (a + c))%R.
Proof. now rewrite bpow_plus. Qed.

(** ** the magnitude *)
Lemma rnd_in_pos F r v c : (0 <= v)%R -> cexp radix2 (FLT_exp (emin F) (mw F + 1)) v = c ->
  rnd_in F (spec_mode r) v = (IZR (gf r (v * bpow radix2 (- c))) * bpow radix2 c)%R.
Proof.
  intros V C. unfold rnd_in, round, F2R, scaled_mantissa. cbn [Fnum Fexp]. change (1 - bias F - mw F) with (emin F). rewrite C.
  f_equal. f_equal. destruct r; try reflexivity. cbn [spec_mode rfun gf]. apply Ztrunc_floor.
  apply Rmult_le_pos; [exact V|apply bpow_ge_0].
Qed.
Lemma rnd_in_opp F r v : rnd_in F (spec_mode r) (- v) = (- rnd_in F (spec_mode (flip r)) v)%R.
Proof.
  unfold rnd_in. destruct r; cbn [spec_mode flip rfun].
  - apply round_NE_opp.
  - apply round_DN_opp.
  - apply round_UP_opp.
  - apply round_ZR_opp.
Qed.

Lemma mw_le F : mw F <= 119.
Proof.
  pose proof (fmt_facts F) as (A & B & C & D). destruct (Z.le_gt_cases 8 (ew F)) as [H|H]; [lia|].
  assert (2 ^ (ew F - 1) <= 2 ^ 6) by (apply Z.pow_le_mono_r; lia). change (2 ^ 6) with 64 in *. lia.
Qed.

(** [hex_lim]: magnitudes below [2^hex_lim] are handled correctly. *)
Definition hex_lim (F : fmt) : Z := Z.min (2 ^ 31) (2 ^ (128 - mw F)) + 1 - bias F.

Definition finish_mag (F : fmt) (r : Round) (v : R) (y st : Z) : Prop :=
  let z := rnd_in F (spec_mode r) v in
  exists ovf unf inx, st = flags ovf unf inx /\
  if Rlt_bool z (bpow radix2 (bias F + 1)) then
    0 <= y < (2 ^ ew F - 1) * 2 ^ mw F /\ mag_of F (y / 2 ^ mw F) (y mod 2 ^ mw F) = z /\ ovf = false /\
    (inx = true <-> z <> v) /\ (unf = true <-> z <> v /\ (z < bpow radix2 (1 - bias F))%R)
  else (y = match r with Nearest | Positive => (2 ^ ew F - 1) * 2 ^ mw F | _ => (2 ^ ew F - 1) * 2 ^ mw F - 1 end) /\
    ovf = true /\ unf = false /\ inx = true.

(** an integer significand of at most [mw + 2] bits placed at exponent [U] *)
Lemma placed F n U : 0 <= U -> 0 <= n <= 2 ^ (mw F + 1) -> (0 < U -> 2 ^ mw F <= n) ->
  let y := n + U * 2 ^ mw F in let z := (IZR n * bpow radix2 (U + emin F))%R in
  (y < (2 ^ ew F - 1) * 2 ^ mw F -> mag_of F (y / 2 ^ mw F) (y mod 2 ^ mw F) = z /\ (z < bpow radix2 (bias F + 1))%R) /\
  ((2 ^ ew F - 1) * 2 ^ mw F <= y -> (bpow radix2 (bias F + 1) <= z)%R) /\
  (y < 2 ^ mw F <-> (z < bpow radix2 (1 - bias F))%R).
Proof.
  intros HU Hn Hl y z. pose proof (fmt_facts F) as FF. pose proof (bias_facts F) as (BF & _ & BF2).
  set (p := mw F) in *. assert (P : 0 < 2 ^ p) by (apply pow2_pos; lia).
  assert (P2 : 2 ^ (p + 1) = 2 * 2 ^ p) by (rewrite <- Z.pow_succ_r by lia; reflexivity). rewrite P2 in Hn.
  pose proof (bpow_gt_0 radix2 (U + emin F)) as PB.
  assert (Q : forall q s, y = q * 2 ^ p + s -> 0 <= s < 2 ^ p -> y / 2 ^ p = q /\ y mod 2 ^ p = s).
  { intros q s E S. rewrite E. rewrite Z.div_add_l, Z.div_small, Z.add_0_r by lia.
    rewrite Z.add_comm, Z.mod_add, Z.mod_small by lia. now split. }
  assert (NU : n < 2 ^ p -> U = 0) by (intros L; destruct (Z.eq_dec U 0); [assumption|specialize (Hl ltac:(lia)); lia]).
  assert (LOW : n < 2 ^ p -> (z < bpow radix2 (1 - bias F))%R).
  { intros L. unfold z. rewrite (NU L). unfold emin. fold p.
    apply Rlt_le_trans with (bpow radix2 p * bpow radix2 (0 + (1 - bias F - p)))%R; [|rewrite bp_split; apply bpow_le; lia].
    apply Rmult_lt_compat_r; [apply bpow_gt_0|]. apply lt_pow2_bpow; lia. }
  assert (HIGH : 2 ^ p <= n -> (bpow radix2 (1 - bias F + U) <= z)%R).
  { intros L. unfold z, emin. fold p. apply Rle_trans with (bpow radix2 p * bpow radix2 (U + (1 - bias F - p)))%R; [rewrite bp_split; apply bpow_le; lia|].
    apply Rmult_le_compat_r; [apply bpow_ge_0|]. rewrite <- IZR_pow2 by lia. apply IZR_le. exact L. }
  assert (BE : 2 ^ ew F = 2 * bias F + 2) by exact BF.
  (* the three shapes *)
  destruct (Z.lt_ge_cases n (2 ^ p)) as [C1|C1]; [|destruct (Z.eq_dec n (2 * 2 ^ p)) as [C2|C2]].
  - pose proof (NU C1) as U0. specialize (LOW C1). clear HIGH.
    assert (Ey : y = n) by (unfold y; rewrite U0; lia).
    destruct (Q 0 n ltac:(lia) ltac:(lia)) as [Q1 Q2]. rewrite Q1, Q2.
    assert (BB : (bpow radix2 (1 - bias F) < bpow radix2 (bias F + 1))%R) by (apply bpow_lt; lia).
    split; [|split].
    + intros _. split; [|lra]. unfold mag_of. rewrite Z.eqb_refl. unfold z. rewrite U0. unfold emin. fold p. reflexivity.
    + intros L. exfalso. assert (1 * 2 ^ p <= (2 ^ ew F - 1) * 2 ^ p) by (apply Z.mul_le_mono_nonneg_r; lia). lia.
    + split; intros _; [exact LOW|lia].
  - specialize (HIGH C1).
    assert (Ey : y = (U + 2) * 2 ^ p + 0) by (unfold y; lia).
    destruct (Q (U + 2) 0 Ey ltac:(lia)) as [Q1 Q2]. rewrite Q1, Q2.
    assert (Ez : z = bpow radix2 (2 - bias F + U)).
    { unfold z. rewrite C2, <- P2, IZR_pow2, bp_split by lia. f_equal. unfold emin. fold p. lia. }
    split; [|split].
    + intros L. rewrite Ey, Z.add_0_r in L. apply Z.mul_lt_mono_pos_r in L; [|exact P].
      split; [|rewrite Ez; apply bpow_lt; lia].
      unfold mag_of. rewrite (proj2 (Z.eqb_neq _ _)) by lia. rewrite Z.add_0_r. fold p. rewrite IZR_pow2, bp_split by lia. rewrite Ez. f_equal. lia.
    + intros L. rewrite Ey, Z.add_0_r in L. apply Z.mul_le_mono_pos_r in L; [|exact P]. rewrite Ez. apply bpow_le. lia.
    + split; intros L; exfalso.
      * assert (1 * 2 ^ p <= (U + 2) * 2 ^ p) by (apply Z.mul_le_mono_nonneg_r; lia). lia.
      * rewrite Ez in L. apply lt_bpow in L. lia.
  - specialize (HIGH C1).
    assert (Ey : y = (U + 1) * 2 ^ p + (n - 2 ^ p)) by (unfold y; lia).
    destruct (Q (U + 1) (n - 2 ^ p) Ey ltac:(lia)) as [Q1 Q2]. rewrite Q1, Q2.
    assert (Lz : (z < bpow radix2 (2 - bias F + U))%R).
    { unfold z, emin. fold p. apply Rlt_le_trans with (bpow radix2 (p + 1) * bpow radix2 (U + (1 - bias F - p)))%R; [|rewrite bp_split; apply bpow_le; lia].
      apply Rmult_lt_compat_r; [apply bpow_gt_0|]. apply lt_pow2_bpow; lia. }
    split; [|split].
    + intros L. assert (L2 : (U + 1) * 2 ^ p < (2 ^ ew F - 1) * 2 ^ p) by lia. apply Z.mul_lt_mono_pos_r in L2; [|exact P].
      split; [|eapply Rlt_le_trans; [exact Lz|]; apply bpow_le; lia].
      unfold mag_of. rewrite (proj2 (Z.eqb_neq _ _)) by lia. fold p. unfold z, emin. fold p. f_equal; [f_equal; lia|f_equal; lia].
    + intros L. assert (L2 : (2 ^ ew F - 1) * 2 ^ p < (U + 2) * 2 ^ p) by lia. apply Z.mul_lt_mono_pos_r in L2; [|exact P].
      eapply Rle_trans; [|exact HIGH]. apply bpow_le. lia.
    + split; intros L; exfalso.
      * assert (1 * 2 ^ p <= (U + 1) * 2 ^ p) by (apply Z.mul_le_mono_nonneg_r; lia). lia.
      * apply (Rlt_irrefl z). eapply Rlt_le_trans; [exact L|]. eapply Rle_trans; [|exact HIGH]. apply bpow_le. lia.
Qed.

Lemma finite_rounds F b r sig exp t : parse_hex b = Some (Ok (sig, exp)) -> 0 < sig < 2 ^ 128 -> - 2 ^ 31 <= exp < 2 ^ 31 ->
  stands sig exp t -> (t * bpow radix2 exp < bpow radix2 (hex_lim F))%R ->
  exists y st, parse_finite b (width F) (mw F) r = Some (Ok (y, st)) /\ finish_mag F r (t * bpow radix2 exp) y st.
Proof.
  intros Hb Hs Hx Hst Hlim. pose proof (fmt_facts F) as FF. pose proof (bias_facts F) as (BF & _ & BF2). pose proof (mw_le F) as ML.
  set (T := Z.log2 sig). set (rb := Z.max (T - mw F) (emin F - exp)). set (U := exp + rb - emin F).
  destruct (T_spec 0 0 r sig 0 0%R Hs) as [T1 T2]. fold T in T1, T2.
  assert (LIM : hex_lim F <= 2 ^ 31 + 1 - bias F /\ hex_lim F <= 2 ^ (128 - mw F) + 1 - bias F) by (unfold hex_lim; lia).
  assert (CELL : exp + T < hex_lim F \/ rb = emin F - exp).
  { destruct Hst as [[N D]|[E D]].
    - left. pose proof (near_cell sig t T N D ltac:(lia) T1 ltac:(lia)) as [C1 C2].
      apply (lt_bpow radix2). eapply Rle_lt_trans; [|exact Hlim]. rewrite Z.add_comm, bpow_plus. apply Rmult_le_compat_r; [apply bpow_ge_0|exact C1].
    - right. unfold rb, emin. lia. }
  assert (HU : exp + rb < 2 ^ 31 /\ U < 2 ^ 31 /\ 0 <= U < 2 ^ (128 - mw F)).
  { assert (1 <= 2 ^ (128 - mw F)) by (pose proof (pow2_pos (128 - mw F) ltac:(lia)); lia).
    unfold U, rb, emin in *. destruct CELL as [C|C]; lia. }
  pose proof (finite_core b (mw F) (ew F) r sig exp t ltac:(lia) ltac:(lia) ltac:(lia) Hb Hs Hx Hst) as FC.
  change (1 - (2 ^ (ew F - 1) - 1) - mw F) with (emin F) in FC. fold T in FC. fold rb in FC. fold U in FC.
  specialize (FC ltac:(lia)).
  pose proof (n_bound (mw F) (ew F) r sig exp t ltac:(lia) ltac:(lia) Hs Hst) as NB.
  change (1 - (2 ^ (ew F - 1) - 1) - mw F) with (emin F) in NB. fold T in NB. fold rb in NB. fold U in NB.
  pose proof (t_bound (mw F) (ew F) r sig exp t ltac:(lia) Hs Hst) as TB.
  set (n := gf r (t * bpow radix2 (- rb))) in *. set (v := (t * bpow radix2 exp)%R) in *.
  (* exponent of the rounding *)
  assert (V0 : (0 < v)%R) by (apply Rmult_lt_0_compat; [lra|apply bpow_gt_0]).
  assert (CE : cexp radix2 (FLT_exp (emin F) (mw F + 1)) v = exp + rb).
  { unfold cexp, FLT_exp. destruct Hst as [[N D]|[E D]].
    - pose proof (near_cell sig t T N D ltac:(lia) T1 ltac:(lia)) as [C1 C2].
      assert (Mg : mag radix2 v = (T + exp + 1) :> Z).
      { apply mag_unique. rewrite Rabs_pos_eq by lra. unfold v. replace (T + exp + 1 - 1) with (T + exp) by lia.
        replace (T + exp + 1) with (T + 1 + exp) by lia. rewrite !bpow_plus. split.
        - apply Rmult_le_compat_r; [apply bpow_ge_0|exact C1].
        - apply Rmult_lt_compat_r; [apply bpow_gt_0|]. rewrite bpow_plus in C2. exact C2. }
      rewrite Mg. unfold rb. lia.
    - assert (Mg : mag radix2 v <= 128 + exp).
      { apply mag_le_bpow; [lra|]. rewrite Rabs_pos_eq by lra. unfold v. rewrite bpow_plus. apply Rmult_lt_compat_r; [apply bpow_gt_0|tauto]. }
      unfold rb, emin in *. lia. }
  assert (Rz : rnd_in F (spec_mode r) v = (IZR n * bpow radix2 (U + emin F))%R).
  { rewrite (rnd_in_pos F r v (exp + rb)) by (try exact CE; lra). unfold U. replace (exp + rb - emin F + emin F) with (exp + rb) by lia.
    f_equal. f_equal. unfold n, v. f_equal. rewrite Rmult_assoc, bp_split. f_equal. f_equal. lia. }
  assert (Ex : (rnd_in F (spec_mode r) v = v <-> IZR n = t * bpow radix2 (- rb))%R).
  { rewrite Rz. unfold v, U. replace (exp + rb - emin F + emin F) with (exp + rb) by lia.
    split; intros E.
    - apply Rmult_eq_reg_r with (bpow radix2 (exp + rb)); [|pose proof (bpow_gt_0 radix2 (exp + rb)); lra].
      rewrite E, Rmult_assoc, bp_split. f_equal. f_equal. lia.
    - rewrite E, Rmult_assoc, bp_split. f_equal. f_equal. lia. }
  assert (W : width F = mw F + ew F + 1) by reflexivity. rewrite W, FC. clear FC.
  destruct NB as [NB1 NB2].
  destruct (placed F n U ltac:(lia) NB1 NB2) as (PL1 & PL2 & PL3). cbv zeta in PL1, PL2, PL3. rewrite <- Rz in *.
  assert (Um : (U * 2 ^ mw F) mod 2 ^ 128 = U * 2 ^ mw F).
  { apply Z.mod_small. split; [apply Z.mul_nonneg_nonneg; [lia|apply Z.pow_nonneg; lia]|].
    replace 128 with (128 - mw F + mw F) by lia. rewrite pow2_split by lia. apply Z.mul_lt_mono_pos_r; [apply pow2_pos; lia|lia]. }
  assert (I128 : (2 ^ ew F - 1) * 2 ^ mw F <= 2 ^ 128).
  { pose proof (pow2_pos (mw F) ltac:(lia)). apply Z.le_trans with (2 ^ ew F * 2 ^ mw F); [apply Z.mul_le_mono_nonneg_r; lia|]. rewrite <- pow2_split by lia. apply Z.pow_le_mono_r; lia. }
  unfold place. rewrite Um.
  set (y := n + U * 2 ^ mw F) in *. set (z := rnd_in F (spec_mode r) v) in *.
  set (ix := negb (Req_bool (IZR n) (t * bpow radix2 (- rb)))).
  assert (IX : ix = true <-> z <> v).
  { unfold ix. destruct (Req_bool_spec (IZR n) (t * bpow radix2 (- rb))) as [E|E]; cbn [negb]; split; intros H; try discriminate; try reflexivity.
    - exfalso. apply H. now apply Ex.
    - intros C. apply E. now apply Ex. }
  assert (Y0 : 0 <= y) by (unfold y; pose proof (pow2_pos (mw F) ltac:(lia)); assert (0 <= U * 2 ^ mw F) by (apply Z.mul_nonneg_nonneg; lia); lia).
  destruct (Z.ltb_spec y ((2 ^ ew F - 1) * 2 ^ mw F)) as [L|L].
  - rewrite (proj2 (Z.ltb_lt y (2 ^ 128))) by lia. cbn [andb]. destruct (PL1 L) as [PA PB].
    set (unf := ix && (y <? 2 ^ mw F)).
    exists y, (flags false unf ix). split.
    { f_equal. f_equal. f_equal. unfold unf, flags. destruct ix; cbn [Z.eqb negb andb]; [now destruct (y <? 2 ^ mw F)|reflexivity]. }
    exists false, unf, ix. split; [reflexivity|]. fold z. rewrite Rlt_bool_true by exact PB. split; [lia|]. split; [exact PA|]. split; [reflexivity|].
    split; [exact IX|]. unfold unf. rewrite andb_true_iff, Z.ltb_lt. rewrite IX, PL3. reflexivity.
  - rewrite andb_false_r. eexists _, 40. split; [reflexivity|]. exists true, false, true. split; [reflexivity|]. fold z. 
    rewrite Rlt_bool_false by exact (PL2 L). split; [destruct r; reflexivity|tauto].
Qed.

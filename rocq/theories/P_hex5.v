(** The hexadecimal float parser: the whole function. *)
From Coq Require Import ZArith Reals Lia Lra Bool List.
From Flocq Require Import Core.
From Verif Require Import Base Spec SpecHex Format P_format P_ieee P_real P_near M_hex P_hex P_hex2 P_hex3 P_hex4.
Import ListNotations.
Open Scope Z_scope.

(** ** configuration *)
Definition config (bits p : Z) : Prop := 1 <= p <= 119 /\ p + 3 <= bits <= p + 30 /\ bits <= 128.
Lemma config_F F : config (width F) (mw F).
Proof. pose proof (fmt_facts F). pose proof (mw_le F). unfold config, width. lia. Qed.

Definition finish (neg : bool) (sign_bit : Z) (r : result (Z * Z)) : result (Z * Z) :=
  match r with Err e => Err e | Ok (x, st) => Ok (if neg then Z.lxor x sign_bit else x, st) end.
Definition fliprnd (neg : bool) (r : Round) : Round := if neg then flip r else r.

(** the parser after sign and prefix *)
Definition rest_any (neg : bool) (b : list Z) (bits p : Z) (round : Round) : option (result (Z * Z)) :=
  let sign_bit := 2 ^ (bits - 1) in
  let isc c lo up := (c =? lo) || (c =? up) in
  let hex := match b with
    | c0 :: c1 :: rest =>
      if (c0 =? 48) && isc c1 120 88 then
        let* r := parse_finite rest bits p (fliprnd neg round) in Some (finish neg sign_bit r)
      else Some (Err NoIndicator)
    | _ => Some (Err NoIndicator)
    end in
  match b with
  | [c0; c1; c2] =>
    if isc c0 105 73 && isc c1 110 78 && isc c2 102 70 then Some (finish neg sign_bit (Ok (sign_bit - 2 ^ (p - 1) - 2 ^ (p - 1), 0)))
    else if isc c0 110 78 && isc c1 97 65 && isc c2 110 78 then Some (finish neg sign_bit (Ok (sign_bit - 2 ^ (p - 1), 0)))
    else hex
  | _ => hex
  end.
Lemma parse_any_eq b bits p r : config bits p ->
  parse_any b bits p r = rest_any (starts_minus b) (strip_sign b) bits p r.
Proof.
  intros (C1 & C2 & C3). unfold parse_any.
  rewrite !(proj2 (Z.ltb_ge _ _)) by lia. cbn [orb].
  rewrite usub_ok by lia. cbn [bind]. rewrite ushl_ok by lia. cbn [bind]. rewrite usub_ok by lia. cbn [bind].
  rewrite ushl_ok by lia. cbn [bind]. rewrite !Z.mul_1_l.
  assert (B1 : 2 ^ (bits - 1) < 2 ^ 128) by (apply Z.pow_lt_mono_r; lia).
  assert (B2 : 2 ^ (p - 1) < 2 ^ 128) by (apply Z.pow_lt_mono_r; lia).
  assert (B3 : 2 ^ (p - 1) * 2 <= 2 ^ (bits - 1)).
  { change 2 with (2 ^ 1) at 2. rewrite <- pow2_split by lia. apply Z.pow_le_mono_r; lia. }
  pose proof (pow2_pos (bits - 1) ltac:(lia)). pose proof (pow2_pos (p - 1) ltac:(lia)).
  rewrite !Z.mod_small by lia. rewrite usub_ok by lia. cbn [bind]. rewrite usub_ok by lia. cbn [bind].
  unfold rest_any. cbv zeta.
  set (neg := starts_minus b). set (b' := strip_sign b).
  assert (FF : forall rest, (let* r0 := parse_finite rest bits p match neg with | true => match r with Nearest => Nearest | Negative => Positive | Positive => Negative | Zero => Zero end | false => r end in
     match r0 with Ok (x, status) => Some (Ok (if neg then Z.lxor x (2 ^ (bits - 1)) else x, status)) | Err e => Some (Err e) end) =
     (let* r0 := parse_finite rest bits p (fliprnd neg r) in Some (finish neg (2 ^ (bits - 1)) r0))).
  { intros rest. unfold fliprnd, flip. replace (match neg with | true => match r with Nearest => Nearest | Negative => Positive | Positive => Negative | Zero => Zero end | false => r end)
      with (if neg then match r with Nearest => Nearest | Negative => Positive | Positive => Negative | Zero => Zero end else r) by reflexivity.
    replace (match r with Nearest => Nearest | Negative => Positive | Positive => Negative | Zero => Zero end) with
      (match r with Positive => Negative | Negative => Positive | r0 => r0 end) by (destruct r; reflexivity).
    destruct (parse_finite rest bits p _) as [[[x s]|e]|]; reflexivity. }
  assert (FH : forall l, match l with
      | c0 :: c1 :: rest => if (c0 =? 48) && ((c1 =? 120) || (c1 =? 88)) then
          (let* r0 := parse_finite rest bits p (match neg, r with true, Positive => Negative | true, Negative => Positive | _, r0 => r0 end) in
           match r0 with Ok (x, status) => Some (Ok (if neg then Z.lxor x (2 ^ (bits - 1)) else x, status)) | Err e => Some (Err e) end)
          else Some (Err NoIndicator)
      | _ => Some (Err NoIndicator) end =
     match l with
      | c0 :: c1 :: rest => if (c0 =? 48) && ((c1 =? 120) || (c1 =? 88)) then
          (let* r0 := parse_finite rest bits p (fliprnd neg r) in Some (finish neg (2 ^ (bits - 1)) r0))
          else Some (Err NoIndicator)
      | _ => Some (Err NoIndicator) end).
  { intros [|c0 [|c1 rest]]; try reflexivity. destruct ((c0 =? 48) && _); [|reflexivity].
    rewrite <- FF. destruct neg, r; reflexivity. }
  destruct b' as [|c0 [|c1 [|c2 [|c3 rest]]]]; [reflexivity|reflexivity|exact (FH [c0; c1])| |exact (FH (c0 :: c1 :: c2 :: c3 :: rest))].
  do 2 (match goal with |- (if ?c then _ else _) = _ => destruct c; [reflexivity|] end). exact (FH [c0; c1; c2]).
Qed.

Lemma strip_lit sg neg xc rest : opt_sign sg neg -> starts_minus (sg ++ 48 :: xc :: rest) = neg /\ strip_sign (sg ++ 48 :: xc :: rest) = 48 :: xc :: rest.
Proof. intros []; split; reflexivity. Qed.

Lemma rest_lit neg xc rest bits p r : (xc = 120 \/ xc = 88) ->
  rest_any neg (48 :: xc :: rest) bits p r =
  (let* x := parse_finite rest bits p (fliprnd neg r) in Some (finish neg (2 ^ (bits - 1)) x)).
Proof.
  intros H. unfold rest_any. destruct H as [-> | ->]; destruct rest as [|c [|d rest]]; reflexivity.
Qed.

(** ** the sign *)
Lemma land_pow2_small y k : 0 <= k -> 0 <= y < 2 ^ k -> Z.land y (2 ^ k) = 0.
Proof.
  intros K Y. apply Z.bits_inj'. intros i Hi. rewrite Z.land_spec, Z.bits_0, Z.pow2_bits_eqb by lia.
  destruct (Z.eqb_spec k i) as [<- |N]; [|apply andb_false_r].
  rewrite andb_true_r. rewrite <- (Z.mod_small y (2 ^ k)) by lia. apply Z.mod_pow2_bits_high. lia.
Qed.
Lemma lxor_sign y k : 0 <= k -> 0 <= y < 2 ^ k -> Z.lxor y (2 ^ k) = y + 2 ^ k.
Proof. intros K Y. symmetry. apply Z.add_nocarry_lxor. now apply land_pow2_small. Qed.
Lemma signed_bits F (neg : bool) y : 0 <= y < 2 ^ ew F * 2 ^ mw F ->
  (if neg then Z.lxor y (2 ^ (width F - 1)) else y) = mkbits F neg (y / 2 ^ mw F) (y mod 2 ^ mw F) /\
  0 <= y / 2 ^ mw F < 2 ^ ew F /\ 0 <= y mod 2 ^ mw F < 2 ^ mw F.
Proof.
  intros Y. pose proof (fmt_facts F) as FF. pose proof (pow2_pos (mw F) ltac:(lia)) as P.
  assert (W : width F - 1 = mw F + ew F) by (unfold width; lia).
  pose proof (Z.div_mod y (2 ^ mw F) ltac:(lia)) as D. pose proof (Z.mod_pos_bound y (2 ^ mw F) P) as B.
  assert (Q : 0 <= y / 2 ^ mw F < 2 ^ ew F) by (split; [apply Z.div_pos; lia|apply Z.div_lt_upper_bound; lia]).
  split; [|now split]. unfold mkbits. destruct neg; [|lia].
  rewrite W, lxor_sign by (rewrite ?pow2_split; lia). lia.
Qed.

(** ** a literal *)
Lemma scanned_pos N f sig exp inx : scanned N f sig exp inx -> 0 < N ->
  let s' := Z.lor sig (Z.b2z inx) in
  0 < s' < 2 ^ 128 /\ exists j, 0 <= j /\ exp = 4 * j - 4 * f /\
    let t := (IZR N * bpow radix2 (- (4 * j)))%R in
    near 1 s' t /\ (t = IZR s' \/ 2 ^ 124 <= s') /\ (IZR sig <= t)%R.
Proof.
  intros (j & r & J & E & EN & R0 & I & S & SB) HN s'.
  assert (P : 0 < 2 ^ (4 * j)) by (apply pow2_pos; lia).
  assert (S0 : 0 < sig).
  { destruct S as [J0|S]; [|lia]. subst j. change (2 ^ (4 * 0)) with 1 in *. lia. }
  assert (Es : s' = if inx then (if Z.even sig then sig + 1 else sig) else sig).
  { unfold s'. destruct inx; cbn [Z.b2z]; [apply lor_1|apply Z.lor_0_r]. }
  assert (PB : (IZR (2 ^ (4 * j)) * bpow radix2 (- (4 * j)) = 1)%R).
  { rewrite IZR_pow2, bp_split by lia. now replace (4 * j + - (4 * j)) with 0 by lia. }
  assert (PG : (0 < bpow radix2 (- (4 * j)))%R) by apply bpow_gt_0.
  assert (T : (IZR N * bpow radix2 (- (4 * j)) = IZR sig + IZR r * bpow radix2 (- (4 * j)))%R).
  { rewrite EN, plus_IZR, mult_IZR, Rmult_plus_distr_r, Rmult_assoc, PB. ring. }
  split.
  - rewrite Es. destruct inx; [|lia]. destruct (Z.even sig) eqn:Ev; [|lia].
    assert (sig <> 2 ^ 128 - 1) by (intros ->; discriminate Ev). lia.
  - exists j. split; [exact J|]. split; [exact E|]. intros t. unfold t. rewrite T.
    assert (R1 : (0 <= IZR r * bpow radix2 (- (4 * j)) < 1)%R).
    { split; [apply Rmult_le_pos; [apply IZR_le; lia|lra]|]. rewrite <- PB. apply Rmult_lt_compat_r; [exact PG|apply IZR_lt; lia]. }
    destruct inx.
    + assert (R2 : (0 < IZR r * bpow radix2 (- (4 * j)))%R).
      { assert (r <> 0) by (now apply I). apply Rmult_lt_0_compat; [apply IZR_lt; lia|lra]. }
      assert (B : 2 ^ 124 <= sig). { destruct S as [J0|S]; [|exact S]. subst j. change (2 ^ (4 * 0)) with 1 in *. assert (r <> 0) by (now apply I). lia. }
      split; [|split; [|lra]].
      * right. pose proof (Z.div_mod sig 2 ltac:(lia)) as D. rewrite Zmod_even in D. exists (sig / 2). change (2 ^ 1) with 2. rewrite Es.
        destruct (Z.even sig).
        -- split; [lia|]. replace (sig / 2 * 2) with sig by lia. replace ((sig / 2 + 1) * 2) with (sig + 2) by lia. rewrite plus_IZR. lra.
        -- split; [lia|]. replace (sig / 2 * 2) with (sig - 1) by lia. replace ((sig / 2 + 1) * 2) with (sig + 1) by lia. rewrite plus_IZR, minus_IZR. lra.
      * right. rewrite Es. destruct (Z.even sig); lia.
    + assert (r = 0). { destruct (Z.eq_dec r 0); [assumption|]. exfalso. assert (false = true) by (now apply I). discriminate. }
      subst r. rewrite Rmult_0_l, Rplus_0_r. rewrite Es. split; [now left|]. split; [now left|lra].
Qed.

Lemma rnd_in_0 F m : rnd_in F m 0 = 0%R.
Proof. unfold rnd_in. destruct m; cbn [rfun]; apply round_0; auto with typeclass_instances. Qed.

Lemma hex_body_nonneg s N k D ng : hex_body s N k D ng -> 0 <= N /\ 0 <= D /\ 0 <= k.
Proof.
  intros (ip & di & fp & df & pc & sg & ep & de & Es & Hi & Hf & Hne & Hp & Hsg & He & Hde & EN & Ek & ED).
  subst N k D. split; [|split; [|lia]]; apply number_nonneg; try lia.
  - apply Forall_app. split; [exact (hexs_nonneg _ _ Hi)|]. destruct Hf as [|fc df Hf]; [constructor|exact (hexs_nonneg _ _ Hf)].
  - exact (decs_nonneg _ _ He).
Qed.

(** the constants at the head of [parse_finite] never overflow *)
Lemma finite_head b bits p r : config bits p ->
  (forall e, parse_hex b = Some (Err e) -> parse_finite b bits p r = Some (Err e)) /\
  (forall x, parse_hex b = Some (Ok (0, x)) -> parse_finite b bits p r = Some (Ok (0, 0))) /\
  (parse_hex b = None -> parse_finite b bits p r = None).
Proof.
  intros (C1 & C2 & C3). unfold parse_finite.
  rewrite usub_ok by lia. cbn [bind]. rewrite usub_ok by lia. cbn [bind]. rewrite usub_ok by lia. cbn [bind].
  rewrite ushl_ok by lia. cbn [bind]. rewrite Z.mul_1_l.
  assert (P31 : 2 ^ (32 - 1) = 2147483648) by reflexivity. assert (E32 : 2 ^ 32 = 4294967296) by reflexivity.
  assert (B : 1 <= 2 ^ (bits - p - 1 - 1) <= 2 ^ 28).
  { split; [pose proof (pow2_pos (bits - p - 1 - 1) ltac:(lia)); lia|apply Z.pow_le_mono_r; lia]. } change (2 ^ 28) with 268435456 in B.
  rewrite Z.mod_small by lia. rewrite to_i_small by (rewrite ?P31; lia).
  unfold ssub. rewrite chk_ok by (rewrite P31; lia). cbn [bind]. rewrite chk_ok by (rewrite P31; lia). cbn [bind].
  rewrite to_i_small by (rewrite ?P31; lia). rewrite chk_ok by (rewrite P31; lia). cbn [bind].
  split; [|split]; [intros e E|intros x E|intros E]; rewrite E; reflexivity.
Qed.

Lemma parse_finite_ok F b N k D ng r : hex_body b N k D ng -> 4 * Z.of_nat (length b) < 2 ^ 31 -> D < 2 ^ 32 ->
  (hex_mag N k D ng < bpow radix2 (hex_lim F))%R ->
  exists y st, parse_finite b (width F) (mw F) r = Some (Ok (y, st)) /\ finish_mag F r (hex_mag N k D ng) y st.
Proof.
  intros H L HD Hlim. destruct (hex_body_nonneg _ _ _ _ _ H) as (N0 & D0 & K0).
  destruct (parse_hex_ok _ _ _ _ _ H L HD) as (sig & exp & inx & I & E).
  destruct (Z.eq_dec N 0) as [-> |NZ].
  - assert (Z0 : Z.lor sig (Z.b2z inx) = 0).
    { destruct I as (j & q & J & _ & EN & R0 & II & _ & SB). assert (P : 0 < 2 ^ (4 * j)) by (apply pow2_pos; lia).
      assert (0 <= sig * 2 ^ (4 * j)) by (apply Z.mul_nonneg_nonneg; lia).
      assert (q = 0) by lia. assert (Sz : sig * 2 ^ (4 * j) = 0) by lia. apply Z.mul_eq_0 in Sz. assert (sig = 0) by lia. subst.
      destruct inx; [|reflexivity]. exfalso. now apply II. }
    rewrite Z0 in E. exists 0, 0. split; [eapply (proj1 (proj2 (finite_head b (width F) (mw F) r (config_F F)))); exact E|].
    unfold finish_mag. unfold hex_mag. rewrite Rmult_0_l. cbv zeta. rewrite !rnd_in_0.
    exists false, false, false. split; [reflexivity|]. rewrite Rlt_bool_true by apply bpow_gt_0.
    pose proof (fmt_facts F) as FF. pose proof (pow2_pos (mw F) ltac:(lia)) as P. pose proof (bias_facts F).
    split; [split; [lia|]; apply Z.mul_pos_pos; lia|]. rewrite Z.div_0_l, Z.mod_0_l by lia.
    split; [unfold mag_of; cbn [Z.eqb]; ring|]. split; [reflexivity|]. split; split; try discriminate; try tauto.
  - destruct (scanned_pos _ _ _ _ _ I ltac:(lia)) as (S1 & j & J & Ee & N1 & N2 & N3).
    set (s' := Z.lor sig (Z.b2z inx)) in *. set (t := (IZR N * bpow radix2 (- (4 * j)))%R) in *.
    set (e := exp + (if ng then - D else D)) in *.
    assert (V : (hex_mag N k D ng = t * bpow radix2 e)%R).
    { unfold hex_mag, t. rewrite Rmult_assoc, bp_split. f_equal. f_equal. unfold e. lia. }
    assert (T1 : (1 <= t)%R).
    { assert (0 < sig).
      { destruct I as (j' & q & J' & _ & EN & R0 & II & SS & SB). destruct SS as [J0|SS]; [|lia]. subst j'. change (2 ^ (4 * 0)) with 1 in *. lia. }
      assert (1 <= IZR sig)%R by (apply IZR_le; lia). lra. }
    assert (T2 : (t < bpow radix2 128)%R).
    { assert (exists c, 2 ^ 128 = c * 2 ^ 1) as M2 by (exists (2 ^ 127); reflexivity).
      destruct (near_le_iff 1 s' t _ M2 N1 ltac:(lia)) as (_ & L2 & _). rewrite <- IZR_pow2 by lia. apply L2. lia. }
    rewrite V in *. unfold clamp32 in E. fold e in E.
    destruct (Z.ltb_spec e (- 2 ^ 31)) as [Le|Le].
    + pose (t' := (t * bpow radix2 (e + 2 ^ 31))%R).
      assert (Et : (t * bpow radix2 e = t' * bpow radix2 (- 2 ^ 31))%R).
      { unfold t'. rewrite Rmult_assoc, bp_split. f_equal. f_equal. lia. }
      rewrite Et in *. apply (finite_rounds F b r s' (- 2 ^ 31) t' E S1); [lia| |exact Hlim].
      right. split; [reflexivity|]. pose proof (bpow_gt_0 radix2 (e + 2 ^ 31)).
      assert (bpow radix2 (e + 2 ^ 31) <= 1)%R by (change 1%R with (bpow radix2 0); apply bpow_le; lia).
      unfold t'. split; [apply Rmult_lt_0_compat; lra|].
      apply Rle_lt_trans with (t * 1)%R; [apply Rmult_le_compat_l; lra|lra].
    + destruct (Z.ltb_spec (2 ^ 31 - 1) e) as [Lg|Lg].
      * exfalso. assert (H1 : (bpow radix2 (2 ^ 31) <= t * bpow radix2 e)%R).
        { apply Rle_trans with (1 * bpow radix2 e)%R; [rewrite Rmult_1_l; apply bpow_le; lia|]. apply Rmult_le_compat_r; [apply bpow_ge_0|exact T1]. }
        assert (H2 : (bpow radix2 (hex_lim F) <= bpow radix2 (2 ^ 31))%R).
        { apply bpow_le. unfold hex_lim. pose proof (bias_facts F). lia. } lra.
      * apply (finite_rounds F b r s' e t E S1); [lia| |exact Hlim]. left. now split.
Qed.

Lemma mag_nonneg N k D ng : 0 <= N -> (0 <= hex_mag N k D ng)%R.
Proof. intros H. unfold hex_mag. apply Rmult_le_pos; [apply IZR_le; lia|apply bpow_ge_0]. Qed.
Lemma rnd_in_nonneg F m v : (0 <= v)%R -> (0 <= rnd_in F m v)%R.
Proof.
  intros H. rewrite <- (rnd_in_0 F m) at 1. unfold rnd_in.
  destruct m; cbn [rfun]; apply round_le; auto with typeclass_instances; try apply fmt_valid_exp.
Qed.

Lemma parse_any_ok F s neg N k D ng r : hex_lit s neg N k D ng -> 4 * Z.of_nat (length s) < 2 ^ 31 -> D < 2 ^ 32 ->
  (hex_mag N k D ng < bpow radix2 (hex_lim F))%R ->
  exists y ovf unf inx, parse_any s (width F) (mw F) r = Some (Ok (y, flags ovf unf inx)) /\
    rounds_in F (spec_mode r) neg (hex_mag N k D ng) y ovf unf inx.
Proof.
  intros (sg & xc & body & Es & Hsg & Hx & Hb) L HD Hlim.
  rewrite parse_any_eq by apply config_F. rewrite Es. destruct (strip_lit sg neg xc body Hsg) as [-> ->].
  rewrite rest_lit by exact Hx.
  assert (Lb : 4 * Z.of_nat (length body) < 2 ^ 31) by (rewrite Es in L; rewrite app_length in L; cbn [length] in L; lia).
  destruct (parse_finite_ok F body N k D ng (fliprnd neg r) Hb Lb HD Hlim) as (y & st & E & FM).
  rewrite E. cbn [bind finish]. destruct FM as (ovf & unf & inx & -> & FM).
  pose proof (mag_nonneg N k D ng (proj1 (hex_body_nonneg _ _ _ _ _ Hb))) as V0.
  set (v := hex_mag N k D ng) in *. pose proof (rnd_in_nonneg F (spec_mode (fliprnd neg r)) v V0) as Z0.
  pose proof (fmt_facts F) as FF. pose proof (pow2_pos (mw F) ltac:(lia)) as P. pose proof (bias_facts F) as (BF & _ & BF2).
  assert (Zs : rnd_in F (spec_mode r) (sval neg v) = sval neg (rnd_in F (spec_mode (fliprnd neg r)) v)).
  { destruct neg; cbn [sval fliprnd]; [apply rnd_in_opp|reflexivity]. }
  set (z := rnd_in F (spec_mode (fliprnd neg r)) v) in *.
  assert (Az : Rabs (sval neg z) = z) by (destruct neg; cbn [sval]; rewrite ?Rabs_Ropp; now apply Rabs_pos_eq).
  assert (Ne : sval neg z <> sval neg v <-> z <> v).
  { destruct neg; cbn [sval]; [|tauto]. split; intros H C; apply H; lra. }
  exists (if neg then Z.lxor y (2 ^ (width F - 1)) else y), ovf, unf, inx. split; [reflexivity|].
  unfold rounds_in. cbv zeta. rewrite Zs, Az.
  destruct (Rlt_bool z (bpow radix2 (bias F + 1))).
  - destruct FM as (Y & My & O & IX & UN).
    assert (Y2 : 0 <= y < 2 ^ ew F * 2 ^ mw F).
    { split; [lia|]. apply Z.lt_trans with ((2 ^ ew F - 1) * 2 ^ mw F); [lia|apply Z.mul_lt_mono_pos_r; lia]. }
    destruct (signed_bits F neg y Y2) as (-> & Q1 & Q2).
    destruct (mkbits_fields F neg _ _ Q1 Q2) as (S1 & S2 & S3).
    split; [now apply mkbits_range|]. split; [apply finite_iff; rewrite S2; apply Z.div_lt_upper_bound; lia|].
    split; [rewrite val_mkbits by assumption; now rewrite My|]. split; [exact S1|]. split; [exact O|]. split; [tauto|tauto].
  - destruct FM as (Ey & -> & -> & ->).
    assert (Y2 : 0 <= y < 2 ^ ew F * 2 ^ mw F).
    { assert (1 <= (2 ^ ew F - 1) * 2 ^ mw F) by (apply Z.lt_pred_le; apply Z.mul_pos_pos; lia).
      assert ((2 ^ ew F - 1) * 2 ^ mw F < 2 ^ ew F * 2 ^ mw F) by (apply Z.mul_lt_mono_pos_r; lia). destruct (fliprnd neg r); lia. }
    destruct (signed_bits F neg y Y2) as (-> & Q1 & Q2).
    split; [now apply mkbits_range|]. split; [|tauto].
    pose proof (Z.div_mod y (2 ^ mw F) ltac:(lia)) as Dy. unfold mkbits. clear Q1 Q2 Y2.
    unfold overflow_to, infinity, max_finite, mkbits, fliprnd, flip in *. destruct r, neg; cbn [spec_mode]; lia.
Qed.

(** The last rounding step of generic/sqrt.rs. *)
From Coq Require Import ZArith Reals Lia Lra Psatz Bool List.
From Flocq Require Import Core.
From Verif Require Import Base Spec Format P_format Ieee P_ieee P_real P_key P_round P_round2 P_bits P_trait P_scalbn P_fma2 M_sqrt P_sqrt P_sqrt2.
Open Scope Z_scope.

(** the nearest integer to [sqrt N] from an estimate *)
Lemma decide N q : 0 <= q -> 0 <= N -> (IZR q - 1/2 < R_sqrt.sqrt (IZR N) < IZR q + 3/2)%R ->
  - (2 * q + 3) < q * q + q - N < 2 * q + 1 /\
  (Rabs (IZR (q + if q * q + q - N <? 0 then 1 else 0) - R_sqrt.sqrt (IZR N)) < 1/2)%R.
Proof.
  intros Hq HN HB. set (y := R_sqrt.sqrt (IZR N)) in *. apply IZR_le in Hq, HN.
  assert (YY : (y * y = IZR N)%R) by (apply sqrt_sqrt; exact HN). assert (Y0 : (0 <= y)%R) by apply sqrt_pos.
  set (Q := IZR q) in *. assert (ED : IZR (q * q + q - N) = (Q * Q + Q - y * y)%R) by (rewrite minus_IZR, plus_IZR, mult_IZR, YY; reflexivity).
  split.
  - assert (A : (- (2 * Q + 3) < Q * Q + Q - y * y < 2 * Q + 1)%R) by (split; nra).
    rewrite <- ED in A. unfold Q in A. split; apply lt_IZR; rewrite ?opp_IZR, plus_IZR, mult_IZR; lra.
  - rewrite plus_IZR. fold Q. destruct (Z.ltb_spec (q * q + q - N) 0) as [D|D].
    + assert (D' : q * q + q - N <= -1) by lia. apply IZR_le in D'. rewrite ED in D'. apply Rabs_lt.
      change (IZR (-1)) with (-1)%R in D'. split; [lra|]. nra.
    + apply IZR_le in D. rewrite ED in D. apply Rabs_lt. split; [|lra]. nra.
Qed.
Lemma land_bit a k : 0 <= k -> Z.land a (2 ^ k) = 0 \/ Z.land a (2 ^ k) = 2 ^ k.
Proof.
  intros Hk. destruct (Z.testbit a k) eqn:E; [right|left]; apply Z.bits_inj'; intros i Hi; rewrite Z.land_spec.
  - rewrite Z.pow2_bits_eqb by exact Hk. destruct (Z.eqb_spec k i) as [<-|N]; [now rewrite E|apply andb_false_r].
  - rewrite Z.pow2_bits_eqb, Z.bits_0 by exact Hk. destruct (Z.eqb_spec k i) as [<-|N]; [now rewrite E|apply andb_false_r].
Qed.
Lemma top_bit D k : 0 <= k -> - 2 ^ k < D < 2 ^ k -> (D mod 2 ^ (k + 1)) / 2 ^ k = if D <? 0 then 1 else 0.
Proof.
  intros Hk HD. rewrite Z.add_1_r, Z.pow_succ_r by exact Hk. destruct (Z.ltb_spec D 0).
  - replace (D mod (2 * 2 ^ k)) with (D + 2 * 2 ^ k) by (apply Z.mod_unique with (-1); lia).
    symmetry. apply Z.div_unique with (D + 2 ^ k); lia.
  - rewrite Z.mod_small by lia. apply Z.div_small. lia.
Qed.
Lemma mod_dist w a b c : 0 < w -> (c - (a mod 2 ^ w - b mod 2 ^ w) mod 2 ^ w) mod 2 ^ w = (c - (a - b)) mod 2 ^ w.
Proof.
  intros Hw. pose proof (pow2_pos w ltac:(lia)). rewrite <- (Zminus_mod a b). rewrite (Zminus_mod c ((a - b) mod _)), Zmod_mod, <- Zminus_mod. reflexivity.
Qed.

(** adding something tiny *)
Lemma rnd_absorb F n e t : 2 ^ mw F <= n < 2 ^ (mw F + 1) -> emin F < e -> (Rabs t < bpow radix2 (e - 2))%R ->
  rnd F (IZR n * bpow radix2 e + t) = (IZR n * bpow radix2 e)%R.
Proof.
  intros Hn He Ht. pose proof (fmt_facts F) as HF. set (b := bpow radix2 e).
  assert (B0 : (0 < b)%R) by apply bpow_gt_0. assert (B1 : (b * bpow radix2 (- e) = 1)%R) by (unfold b; rewrite bp_split, Z.add_opp_diag_r; reflexivity).
  assert (B2 : bpow radix2 (e - 2) = (b / 4)%R). { unfold b. replace e with (e - 2 + 2) at 2 by lia. rewrite bpow_plus. change (bpow radix2 2) with 4%R. field. }
  rewrite B2 in Ht. apply Rabs_lt_inv in Ht.
  assert (N1 : (bpow radix2 (mw F) <= IZR n)%R) by (rewrite <- IZR_pow2 by lia; apply IZR_le; lia).
  assert (N2 : (IZR n <= bpow radix2 (mw F + 1) - 1)%R) by (rewrite <- IZR_pow2, <- minus_IZR by lia; apply IZR_le; lia).
  assert (P1 : (bpow radix2 (e + mw F) = bpow radix2 (mw F) * b)%R) by (unfold b; rewrite bp_split; f_equal; lia).
  assert (P2 : (bpow radix2 (e + mw F + 1) = bpow radix2 (mw F + 1) * b)%R) by (unfold b; rewrite bp_split; f_equal; lia).
  assert (M1 : (1 <= bpow radix2 (mw F))%R) by (change 1%R with (bpow radix2 0); apply bpow_le; lia).
  assert (L : (bpow radix2 (mw F) * b <= IZR n * b)%R) by (apply Rmult_le_compat_r; lra).
  assert (U : (IZR n * b <= (bpow radix2 (mw F + 1) - 1) * b)%R) by (apply Rmult_le_compat_r; lra).
  assert (MB : (1 * b <= bpow radix2 (mw F) * b)%R) by (apply Rmult_le_compat_r; lra).
  destruct (Rle_or_lt (bpow radix2 (e + mw F)) (IZR n * b + t)) as [C|C].
  - rewrite (rnd_scaled F _ e); [|rewrite Rabs_pos_eq by lra; lra|lia]. fold b. do 2 f_equal.
    apply Znearest_imp. rewrite Rmult_plus_distr_r, Rmult_assoc, B1, Rmult_1_r.
    replace (IZR n + t * bpow radix2 (- e) - IZR n)%R with (t * bpow radix2 (- e))%R by ring.
    apply Rabs_lt. pose proof (bpow_gt_0 radix2 (- e)). split.
    + apply Rle_lt_trans with (- (b / 4) * bpow radix2 (- e))%R; [nra|apply Rmult_lt_compat_r; lra].
    + apply Rlt_le_trans with ((b / 4) * bpow radix2 (- e))%R; [apply Rmult_lt_compat_r; lra|nra].
  - assert (B3 : (bpow radix2 (e - 1) * 2 = b)%R). { unfold b. replace e with (e - 1 + 1) at 2 by lia. rewrite bpow_plus. reflexivity. }
    assert (B4 : bpow radix2 (- (e - 1)) = (2 * bpow radix2 (- e))%R). { replace (- (e - 1)) with (1 + - e) by lia. rewrite bpow_plus. reflexivity. }
    assert (NN : n = 2 ^ mw F).
    { assert (n < 2 ^ mw F + 1); [|lia]. apply lt_IZR. rewrite plus_IZR, IZR_pow2 by lia. apply Rmult_lt_reg_r with b; [exact B0|]. lra. }
    rewrite (rnd_scaled F _ (e - 1)); [|replace (e - 1 + mw F + 1) with (e + mw F) by lia; replace (e - 1 + mw F) with (mw F + (e - 1)) by lia;
      rewrite <- bp_split, Rabs_pos_eq by lra; split; [|lra]; nra|lia].
    transitivity (IZR (2 * n) * bpow radix2 (e - 1))%R; [|rewrite mult_IZR, <- B3; ring]. do 2 f_equal.
    apply Znearest_imp. rewrite B4, mult_IZR. replace ((IZR n * b + t) * (2 * bpow radix2 (- e)) - 2 * IZR n)%R with (2 * (t * bpow radix2 (- e)))%R
      by (transitivity (2 * IZR n * (b * bpow radix2 (- e)) + 2 * (t * bpow radix2 (- e)) - 2 * IZR n)%R; [rewrite B1; ring|ring]).
    pose proof (bpow_gt_0 radix2 (- e)). apply Rabs_lt. split.
    + assert (- (b / 4) * bpow radix2 (- e) < t * bpow radix2 (- e))%R by (apply Rmult_lt_compat_r; lra). nra.
    + assert (t * bpow radix2 (- e) < (b / 4) * bpow radix2 (- e))%R by (apply Rmult_lt_compat_r; lra). nra.
Qed.
Lemma fadd_tiny F E f s k : mw F + 4 <= E < 2 ^ ew F - 1 -> 0 <= f < 2 ^ mw F -> 0 <= k <= 1 ->
  fadd F (mkbits F false E f) (mkbits F s k 0) = mkbits F false E f.
Proof.
  intros HE Hf Hk. pose proof (fmt_facts F) as HF. pose proof (bias_facts F) as HB. pose proof (pow_mw_ge F) as HP.
  destruct (mkbits_fields F false E f ltac:(lia) Hf) as (Sy & Ey & Fy). set (y := mkbits F false E f) in *.
  destruct (mkbits_fields F s k 0 ltac:(lia) ltac:(lia)) as (St & Et & Ft). set (t := mkbits F s k 0) in *.
  assert (Yf : finite F y = true) by (apply finite_iff; lia). assert (Tf : finite F t = true) by (apply finite_iff; lia).
  assert (VY : val F y = (IZR (2 ^ mw F + f) * bpow radix2 (E - bias F - mw F))%R).
  { unfold val. rewrite Sy, Ey, Fy. cbn [sval]. unfold mag_of. rewrite (proj2 (Z.eqb_neq E 0)) by lia. reflexivity. }
  assert (VT : (Rabs (val F t) <= bpow radix2 (1 - bias F))%R).
  { unfold val. rewrite St, Et, Ft. assert (A : (0 <= mag_of F k 0 <= bpow radix2 (1 - bias F))%R).
    - split; [apply mag_of_nonneg; lia|]. unfold mag_of. destruct (Z.eqb_spec k 0); [rewrite Rmult_0_l; apply bpow_ge_0|].
      rewrite Z.add_0_r, IZR_pow2, bp_split by lia. apply bpow_le. lia.
    - destruct s; cbn [sval]; rewrite ?Rabs_Ropp, Rabs_pos_eq; lra. }
  pose proof (fadd_spec F y t Yf Tf) as RS. apply (rounds_to_fun F _ _ _ _ RS).
  split; [apply mkbits_range; lia|].
  assert (E1 : rnd F (val F y + val F t) = val F y).
  { rewrite VY. apply rnd_absorb; [rewrite Z.add_1_r, Z.pow_succ_r by lia; lia|unfold emin; lia|].
    apply Rle_lt_trans with (1 := VT). apply bpow_lt. lia. }
  rewrite E1. assert (VP : (bpow radix2 (E - bias F) <= val F y)%R).
  { unfold val. rewrite Sy, Ey, Fy. cbn [sval]. apply mag_of_ge_exp; lia. }
  assert (VP2 : (bpow radix2 (1 - bias F) < bpow radix2 (E - bias F))%R) by (apply bpow_lt; lia).
  pose proof (bpow_gt_0 radix2 (1 - bias F)). apply Rabs_le_inv in VT.
  rewrite Rlt_bool_true by (apply val_lt_emax; exact Yf). split; [exact Yf|]. split; [reflexivity|].
  rewrite Sy, Rcompare_Gt by lra. reflexivity.
Qed.

Lemma mul_ge1 a b : 0 <= a -> 0 < b -> a <= a * b. Proof. nia. Qed.
Lemma mul_lt_r a b c : a < b -> 0 < c -> a * c < c * b. Proof. nia. Qed.
Section Fin.
Variable F : fmt.
Hypothesis Hsh : ew F <= mw F + 1.
Hypothesis H5 : 5 <= ew F.
Let p := mw F.
Let w := width F.

Lemma finish_ok S M sig par E : (par = 0 \/ par = 1) -> 2 ^ p <= sig < 2 ^ (p + 1) -> M = sig * 2 ^ (ew F - par) -> 0 <= S ->
  (Rabs (sb w (IZR M * bpow radix2 (2 - w)) (S * 2) - 1) < bpow radix2 (- (p + 2)))%R ->
  0 <= E < 2 ^ ew F - 1 -> (16 < w -> p + 4 <= E) ->
  exists n, sqrt_finish F S M (if noshift F then E * 2 ^ p else E) = Some (mkbits F false E (n - 2 ^ p)) /\
    2 ^ p <= n < 2 ^ (p + 1) /\ (Rabs (IZR n - R_sqrt.sqrt (IZR (sig * 2 ^ (p + 1 - par)))) < 1 / 2)%R.
Proof.
  intros Hpar Hsig HM HS HB HE HE4. pose proof (fmt_facts F) as HF. pose proof (bias_facts F) as HBI.
  assert (Ew : w = p + ew F + 1) by reflexivity. fold p in HF.
  set (N := sig * 2 ^ (p + 1 - par)). pose proof (pow2_pos p ltac:(lia)) as PP.
  assert (E1 : 2 ^ (p + 1) = 2 * 2 ^ p) by (rewrite Z.add_1_r, Z.pow_succ_r by lia; lia).
  assert (NL : 2 ^ p * 2 ^ p <= N).
  { unfold N. destruct Hpar as [-> | ->]; rewrite ?Z.sub_0_r, ?Z.add_simpl_r; rewrite ?E1; nia. }
  assert (NU : N <= 2 ^ (p + 1) * (2 ^ (p + 1) - 1)).
  { unfold N. destruct Hpar as [-> | ->]; rewrite ?Z.sub_0_r, ?Z.add_simpl_r; rewrite ?E1; rewrite ?E1 in Hsig; nia. }
  assert (MN : M * 2 ^ (p + 1 - ew F) = N).
  { rewrite HM. unfold N. rewrite <- Z.mul_assoc, <- pow2_split by lia. do 2 f_equal. lia. }
  assert (M0 : 0 <= M) by (rewrite HM; pose proof (pow2_pos (ew F - par) ltac:(lia)); nia).
  (* real estimate *)
  set (m := (IZR M * bpow radix2 (2 - w))%R) in *.
  set (y := R_sqrt.sqrt (IZR N)).
  assert (NP : (0 < IZR N)%R) by (apply IZR_lt; nia).
  assert (Nm : IZR N = (m * (bpow radix2 p * bpow radix2 p))%R).
  { rewrite <- MN, mult_IZR, IZR_pow2 by lia. unfold m. rewrite bp_split, Rmult_assoc, bp_split. do 2 f_equal. lia. }
  assert (mp : (0 < m)%R). { pose proof (bpow_gt_0 radix2 p). destruct (Rle_or_lt m 0) as [L|L]; [|exact L]. nra. }
  assert (Ym : y = (R_sqrt.sqrt m * bpow radix2 p)%R).
  { unfold y. rewrite Nm, sqrt_mult by (pose proof (bpow_gt_0 radix2 p); nra). rewrite sqrt_square by apply bpow_ge_0. reflexivity. }
  assert (SM : (0 < R_sqrt.sqrt m)%R) by (apply sqrt_lt_R0; exact mp).
  set (b := sb w m (S * 2)) in *.
  assert (BS : (IZR S * bpow radix2 (2 - ew F) = b * y)%R).
  { unfold b, sb. rewrite Ym, mult_IZR. field_simplify; [|lra].
    replace (2 - ew F) with (1 + (2 - w + p)) by lia. rewrite !bpow_plus. change (bpow radix2 1) with 2%R. ring. }
  assert (Y1 : (bpow radix2 p <= y)%R).
  { unfold y. rewrite <- (sqrt_square (bpow radix2 p)) by apply bpow_ge_0. apply sqrt_le_1_alt. rewrite <- IZR_pow2, <- mult_IZR by lia. now apply IZR_le. }
  assert (Y2 : (y < bpow radix2 (p + 1) - 1/2)%R).
  { unfold y. assert (X : (1 <= bpow radix2 (p + 1))%R) by (change 1%R with (bpow radix2 0); apply bpow_le; lia).
    rewrite <- (sqrt_square (bpow radix2 (p + 1) - 1/2)) by lra. apply sqrt_lt_1_alt. split; [lra|].
    apply IZR_le in NU. rewrite mult_IZR, minus_IZR, IZR_pow2 in NU by lia. nra. }
  assert (BD : (Rabs (b * y - y) < 1/2)%R).
  { replace (b * y - y)%R with ((b - 1) * y)%R by ring. rewrite Rabs_mult, (Rabs_pos_eq y) by (pose proof (bpow_gt_0 radix2 p); lra).
    apply Rlt_le_trans with (bpow radix2 (- (p + 2)) * y)%R; [apply Rmult_lt_compat_r; [pose proof (bpow_gt_0 radix2 p); lra|exact HB]|].
    apply Rle_trans with (bpow radix2 (- (p + 2)) * bpow radix2 (p + 1))%R; [apply Rmult_le_compat_l; [apply bpow_ge_0|lra]|].
    rewrite bp_split. replace (- (p + 2) + (p + 1)) with (-1) by lia. change (bpow radix2 (-1)) with (/2)%R. lra. }
  rewrite <- BS in BD. apply Rabs_lt_inv in BD.
  set (q := S / 2 ^ (ew F - 2)).
  assert (Q0 : 0 <= q) by (apply Z.div_pos; [exact HS|apply pow2_pos; lia]).
  assert (QB : (IZR q <= IZR S * bpow radix2 (2 - ew F) < IZR q + 1)%R).
  { pose proof (pow2_pos (ew F - 2) ltac:(lia)) as PE. pose proof (Z.div_mod S (2 ^ (ew F - 2)) ltac:(lia)) as DM. pose proof (Z.mod_pos_bound S (2 ^ (ew F - 2)) PE) as MB. fold q in DM.
    assert (U : (bpow radix2 (ew F - 2) * bpow radix2 (2 - ew F) = 1)%R) by (rewrite bp_split; replace (ew F - 2 + (2 - ew F)) with 0 by lia; reflexivity).
    pose proof (bpow_gt_0 radix2 (2 - ew F)) as BG.
    assert (A1 : 2 ^ (ew F - 2) * q <= S) by lia. assert (A2 : S < 2 ^ (ew F - 2) * (q + 1)) by lia.
    apply IZR_le in A1. apply IZR_lt in A2. rewrite mult_IZR, IZR_pow2 in A1, A2 by lia. rewrite plus_IZR in A2.
    apply (Rmult_le_compat_r (bpow radix2 (2 - ew F))) in A1; [|lra]. apply (Rmult_lt_compat_r (bpow radix2 (2 - ew F))) in A2; [|lra].
    rewrite (Rmult_comm (bpow radix2 (ew F - 2))), Rmult_assoc, U in A1, A2. lra. }
  destruct (decide N q Q0 ltac:(nia)) as [DB DN]; [fold y; lra|]. fold y in DN.
  set (D := q * q + q - N) in *. set (c := if D <? 0 then 1 else 0) in *.
  assert (Qmax : q <= 2 ^ (p + 1)).
  { assert (q < 2 ^ (p + 1) + 1); [|lia]. apply lt_IZR. rewrite plus_IZR, IZR_pow2 by lia. lra. }
  assert (NB : 2 ^ p <= q + c < 2 ^ (p + 1)).
  { apply Rabs_lt_inv in DN. split.
    - assert (2 ^ p < q + c + 1); [|lia]. apply lt_IZR. rewrite (plus_IZR (q + c)), IZR_pow2 by lia. lra.
    - apply lt_IZR. rewrite IZR_pow2 by lia. lra. }
  exists (q + c). split; [|split; [exact NB|exact DN]].
  assert (PW : 16 * 2 ^ (p + 1) <= 2 ^ (w - 1)).
  { change 16 with (2 ^ 4). rewrite <- pow2_split by lia. apply Z.pow_le_mono_r; lia. }
  assert (PW2 : 2 ^ w = 2 * 2 ^ (w - 1)) by (replace w with (w - 1 + 1) at 1 by lia; rewrite Z.add_1_r, Z.pow_succ_r by lia; reflexivity).
  unfold sqrt_finish. change (BITS F) with w. rewrite EXP_BITS_eq. unfold SIG_BITS. fold p.
  rewrite ushr_ok by lia. cbn [bind]. fold q.
  rewrite usub_ok by lia. cbn [bind]. rewrite usub_ok by lia. cbn [bind].
  replace (2 * p - (w - 2)) with (p + 1 - ew F) by lia.
  rewrite ushl_ok by lia. cbn [bind]. rewrite MN. unfold wsub, wmul. rewrite mod_dist by lia.
  replace (q - (N - q * q)) with D by (unfold D; ring).
  rewrite ushr_ok by lia. cbn [bind].
  assert (TB : (D mod 2 ^ w) / 2 ^ (w - 1) = c).
  { replace w with (w - 1 + 1) at 1 by lia. apply top_bit; [lia|]. lia. }
  rewrite TB. rewrite uadd_ok by lia. cbn [bind].
  rewrite SIG_MASK_eq. fold p. rewrite land_pow2m1 by lia.
  replace ((q + c) mod 2 ^ p) with (q + c - 2 ^ p) by (apply Z.mod_unique with 1; lia).
  set (f := q + c - 2 ^ p) in *. assert (Hf : 0 <= f < 2 ^ p) by (unfold f; lia).
  assert (EP : E * 2 ^ p < 2 ^ w). { replace w with (p + (ew F + 1)) by lia. rewrite pow2_split by lia. apply mul_lt_r; [rewrite Z.add_1_r, Z.pow_succ_r by lia; lia|exact PP]. }
  assert (EP0 : E <= E * 2 ^ p) by (apply mul_ge1; lia).
  assert (MK : (if noshift F then Some (Z.lor f (if noshift F then E * 2 ^ p else E))
                else let* ei := ucast w (if noshift F then E * 2 ^ p else E) in let* es := ushl w ei p in Some (Z.lor f es)) = Some (mkbits F false E f)).
  { assert (L : Z.lor f (E * 2 ^ p) = mkbits F false E f).
    { rewrite Z.lor_comm, lor_disjoint by lia. unfold mkbits. fold p. lia. }
    destruct (noshift F); [now rewrite L|].
    rewrite ucast_ok by lia. cbn [bind]. rewrite ushl_ok by lia. cbn [bind]. rewrite Z.mod_small by lia. now rewrite L. }
  rewrite MK. cbn [bind]. destruct (Z.ltb_spec 16 w) as [W16|W16]; [|reflexivity].
  f_equal. rewrite SIGN_MASK_eq, IMPLICIT_BIT_eq. rewrite <- pow2_split by lia.
  match goal with |- fadd F _ (Z.lor ?a (Z.land ?b _)) = _ =>
    assert (A : a = 0 * 2 ^ p \/ a = 1 * 2 ^ p) by (destruct (_ =? 0); [left|right]; unfold p; lia);
    destruct (land_bit b (mw F + ew F) ltac:(lia)) as [G|G]; rewrite G; destruct A as [A|A]; rewrite A end.
  - rewrite Z.mul_0_l. change (Z.lor 0 0) with 0. change 0 with (mkbits F false 0 0) at 1. apply fadd_tiny; [specialize (HE4 W16); fold p; lia|exact Hf|lia].
  - rewrite Z.lor_0_r. replace (1 * 2 ^ p) with (mkbits F false 1 0) by (unfold mkbits; fold p; lia). apply fadd_tiny; [specialize (HE4 W16); fold p; lia|exact Hf|lia].
  - rewrite Z.mul_0_l. change (Z.lor 0 (2 ^ (mw F + ew F))) with (2 ^ (mw F + ew F)). replace (2 ^ (mw F + ew F)) with (mkbits F true 0 0) by (unfold mkbits; lia).
    apply fadd_tiny; [specialize (HE4 W16); fold p; lia|exact Hf|lia].
  - assert (P12 : 0 < 2 ^ p < 2 ^ (mw F + ew F)) by (split; [lia|]; apply Z.pow_lt_mono_r; fold p; lia).
    rewrite Z.lor_comm. rewrite <- (Z.mul_1_l (2 ^ (mw F + ew F))), lor_disjoint by (fold p; fold p in P12; lia).
    replace (1 * 2 ^ (mw F + ew F) + 1 * 2 ^ p) with (mkbits F true 1 0) by (unfold mkbits; fold p; lia).
    apply fadd_tiny; [specialize (HE4 W16); fold p; lia|exact Hf|lia].
Qed.
End Fin.

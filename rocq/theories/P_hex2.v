(** The hexadecimal float parser: rounding the significand. *)
From Coq Require Import ZArith Reals Lia Lra Bool List.
From Flocq Require Import Core.
From Verif Require Import Base Spec SpecHex Format P_format P_ieee P_real P_near M_hex.
Import ListNotations.
Open Scope Z_scope.

(** rounding a non-negative number *)
Definition gf (r : Round) : R -> Z :=
  match r with Nearest => ZnearestE | Negative => Zfloor | Positive => Zceil | Zero => Zfloor end.

Lemma tie_even q : ZnearestE (IZR q + / 2) = if Z.even q then q else q + 1.
Proof.
  unfold Znearest. assert (Ef : Zfloor (IZR q + / 2) = q) by (apply Zfloor_imp; rewrite plus_IZR; lra).
  assert (Ec : Zceil (IZR q + / 2) = q + 1) by (apply Zceil_imp; rewrite minus_IZR, plus_IZR; lra).
  rewrite Ef, Ec. replace (IZR q + / 2 - IZR q)%R with (/ 2)%R by ring. rewrite Rcompare_Eq by reflexivity.
  now destruct (Z.even q).
Qed.

Lemma mod8 a : 0 <= a -> Z.land (to_u 32 a) 7 = a mod 8.
Proof.
  intros H. unfold to_u. change 7 with (2 ^ 3 - 1). rewrite land_pow2m1 by lia. change (2 ^ 3) with 8.
  symmetry. change 8 with (2 ^ 3) at 1. change (2 ^ 32) with (2 ^ 3 * 2 ^ 29). rewrite Z.rem_mul_r by lia.
  rewrite Z.mul_comm, Z.mod_add by lia. now rewrite Z.mod_mod by lia.
Qed.

Lemma shr2_ok r a S : 0 <= a < 2 ^ 128 -> near 1 a S ->
  shr2_round a r = Some (gf r (S * / 4)) /\
  (Z.land a 3 = 0 <-> IZR (gf r (S * / 4)) = (S * / 4)%R).
Proof.
  intros A H. unfold shr2_round. rewrite mod8 by lia. rewrite ushr_ok by lia. cbn [bind].
  change 3 with (2 ^ 2 - 1). rewrite !land_pow2m1 by lia. change (2 ^ 2) with 4.
  pose proof (Z.div_mod a 8 ltac:(lia)) as D. pose proof (Z.mod_pos_bound a 8 ltac:(lia)) as B.
  set (q := a / 8) in *. set (t := a mod 8) in *.
  assert (M4 : a mod 4 = t mod 4).
  { rewrite D. rewrite <- Z.add_mod_idemp_l by lia. replace (8 * q) with (2 * q * 4) by ring. rewrite Z.mod_mul by lia. reflexivity. }
  assert (D4 : a / 4 = 2 * q + t / 4).
  { rewrite D. replace (8 * q + t) with (2 * q * 4 + t) by ring. rewrite Z.div_add_l by lia. reflexivity. }
  rewrite M4, D4.
  assert (Hq : 0 <= q < 2 ^ 125) by (change (2 ^ 128) with (8 * 2 ^ 125) in A; lia).
  assert (Q : forall y, 0 <= y <= 2 -> uadd 128 (2 * q + t / 4) y = Some (2 * q + t / 4 + y)).
  { intros y Hy. apply uadd_ok. change (2 ^ 128) with (8 * 2 ^ 125). assert (t / 4 < 2) by (apply Z.div_lt_upper_bound; lia). lia. }
  set (x := (S * / 4)%R).
  (* position of x *)
  assert (X : (x = (2 * IZR q + IZR t * / 4)%R) \/ (Z.odd t = true /\ (2 * IZR q + (IZR t - 1) * / 4 < x < 2 * IZR q + (IZR t + 1) * / 4)%R)).
  { unfold x. destruct H as [H|(k & K1 & K2)].
    - left. rewrite H, D, plus_IZR, mult_IZR. field.
    - right. change (2 ^ 1) with 2 in *. assert (Ea : a = 2 * k + 1) by lia.
      assert (T : t = 2 * (k - 4 * q) + 1) by lia. split; [rewrite T, Z.odd_add, Z.odd_mul; reflexivity|].
      replace (k * 2) with (8 * q + t - 1) in K2 by lia. replace ((k + 1) * 2) with (8 * q + t + 1) in K2 by lia.
      rewrite minus_IZR in K2. rewrite !plus_IZR, mult_IZR in K2. lra. }
  clearbody x. clear H D M4 D4.
  set (Y := IZR q) in *.
  assert (Fl : forall m, (IZR m <= x < IZR m + 1)%R -> Zfloor x = m).
  { intros m Hm. apply Zfloor_imp. rewrite plus_IZR. lra. }
  assert (Ce : forall m, (IZR m - 1 < x <= IZR m)%R -> Zceil x = m).
  { intros m Hm. apply Zceil_imp. rewrite minus_IZR. lra. }
  assert (Ne : forall m, (IZR m - / 2 < x < IZR m + / 2)%R -> ZnearestE x = m).
  { intros m Hm. apply Znearest_imp. apply Rabs_def1; lra. }
  assert (T2 : (x = 2 * Y + 2 * / 4)%R -> ZnearestE x = 2 * q).
  { intros ->. replace (2 * Y + 2 * / 4)%R with (IZR (2 * q) + / 2)%R by (rewrite mult_IZR; unfold Y; lra).
    rewrite tie_even. now rewrite Z.even_mul. }
  assert (T6 : (x = 2 * Y + 6 * / 4)%R -> ZnearestE x = 2 * q + 2).
  { intros ->. replace (2 * Y + 6 * / 4)%R with (IZR (2 * q + 1) + / 2)%R by (rewrite plus_IZR, mult_IZR; unfold Y; lra).
    rewrite tie_even. rewrite Z.even_add, Z.even_mul. cbn. lia. }
  assert (I0 : IZR (2 * q) = (2 * Y)%R) by (rewrite mult_IZR; reflexivity).
  assert (I1 : IZR (2 * q + 1) = (2 * Y + 1)%R) by (rewrite plus_IZR, I0; reflexivity).
  assert (I2 : IZR (2 * q + 2) = (2 * Y + 2)%R) by (rewrite plus_IZR, I0; reflexivity).
  assert (C : t = 0 \/ t = 1 \/ t = 2 \/ t = 3 \/ t = 4 \/ t = 5 \/ t = 6 \/ t = 7) by lia.
  clearbody t.
  assert (G : exists n, gf r x = n /\
     match r with
     | Nearest => let* v := ushr 8 200 t in uadd 128 (2 * q + t / 4) (Z.land v 1)
     | Positive => uadd 128 (2 * q + t / 4) (Z.b2z (negb (t mod 4 =? 0)))
     | _ => Some (2 * q + t / 4)
     end = Some n /\ (t mod 4 = 0 <-> IZR n = x)).
  { destruct C as [-> |[-> |[-> |[-> |[-> |[-> |[-> | ->]]]]]]];
      repeat match goal with |- context [?u / 4] => let v := eval vm_compute in (u / 4) in progress change (u / 4) with v in * end;
      repeat match goal with |- context [?u mod 4] => let v := eval vm_compute in (u mod 4) in progress change (u mod 4) with v in * end;
      repeat match goal with |- context [ushr 8 200 ?u] => let v := eval vm_compute in (ushr 8 200 u) in progress change (ushr 8 200 u) with v end;
      cbn [bind];
      repeat match goal with |- context [Z.land ?u 1] => let v := eval vm_compute in (Z.land u 1) in progress change (Z.land u 1) with v end;
      repeat match goal with |- context [Z.b2z ?u] => let v := eval vm_compute in (Z.b2z u) in progress change (Z.b2z u) with v end;
      try rewrite !Q by lia;
      (destruct X as [X|[O X]]; [|try discriminate O; clear O]);
      (destruct r; cbn [gf];
       [ (exists (2 * q) + exists (2 * q + 1) + exists (2 * q + 2)); (split; [first [apply Ne; lra | apply T2; lra | apply T6; lra]|])
       | (exists (2 * q) + exists (2 * q + 1) + exists (2 * q + 2)); (split; [apply Fl; lra|])
       | (exists (2 * q) + exists (2 * q + 1) + exists (2 * q + 2)); (split; [apply Ce; lra|])
       | (exists (2 * q) + exists (2 * q + 1) + exists (2 * q + 2)); (split; [apply Fl; lra|])]);
      (split; [f_equal; lia|]); split; intros; first [discriminate | lra | lia | exfalso; lra]. }
  destruct G as (n & -> & G1 & G2). split; [|exact G2].
  destruct r; exact G1.
Qed.

Lemma pos_tz_spec p k : 0 <= k -> (pos_tz p <? k) = negb (Zpos p mod 2 ^ k =? 0).
Proof.
  assert (G : forall q, 0 <= pos_tz q) by (intros q; induction q as [q IHq|q IHq|]; cbn [pos_tz]; lia).
  revert k. induction p as [p IH|p IH|]; intros k Hk; cbn [pos_tz].
  - destruct (Z.ltb_spec 0 k) as [L|L].
    + symmetry. apply negb_true_iff, Z.eqb_neq. intros E. apply Z.mod_divide in E; [|pose proof (pow2_pos k Hk); lia].
      destruct E as (c & E). replace k with (k - 1 + 1) in E by lia. rewrite Z.pow_add_r in E by lia. lia.
    + replace k with 0 by lia. symmetry. apply negb_false_iff, Z.eqb_eq. apply Z.mod_1_r.
  - destruct (Z.eq_dec k 0) as [-> |K0].
    + rewrite (proj2 (Z.ltb_ge _ _)) by (specialize (G p); lia). symmetry. apply negb_false_iff, Z.eqb_eq. apply Z.mod_1_r.
    + replace (1 + pos_tz p <? k) with (pos_tz p <? k - 1) by (destruct (Z.ltb_spec (pos_tz p) (k - 1)), (Z.ltb_spec (1 + pos_tz p) k); try reflexivity; lia).
      rewrite IH by lia. f_equal. change (Z.pos p~0) with (2 * Z.pos p).
      replace (2 ^ k) with (2 * 2 ^ (k - 1)) by (rewrite <- Z.pow_succ_r by lia; f_equal; lia).
      rewrite Z.mul_mod_distr_l by (pose proof (pow2_pos (k - 1) ltac:(lia)); lia).
      destruct (Z.eqb_spec (Z.pos p mod 2 ^ (k - 1)) 0), (Z.eqb_spec (2 * (Z.pos p mod 2 ^ (k - 1))) 0); try reflexivity; lia.
  - destruct (Z.ltb_spec 0 k) as [L|L].
    + symmetry. apply negb_true_iff, Z.eqb_neq. rewrite Z.mod_small; [lia|]. split; [lia|]. apply Z.pow_gt_1; lia.
    + replace k with 0 by lia. reflexivity.
Qed.
Lemma shr_odd_ok x k : 0 < x < 2 ^ 128 -> 0 <= k < 128 -> shr_odd_rounding x k = Some (sticky_shr x k).
Proof.
  intros X K. unfold shr_odd_rounding. rewrite (proj2 (Z.ltb_lt _ _)) by lia. rewrite ushr_ok by lia. cbn [bind].
  unfold sticky_shr. do 2 f_equal. destruct x as [|p|p]; try lia. cbn [tzcnt128]. rewrite pos_tz_spec by lia.
  now destruct (Z.pos p mod 2 ^ k =? 0).
Qed.
Lemma shr_odd_big x k : 0 < x -> 128 <= k -> shr_odd_rounding x k = Some 1.
Proof.
  intros X K. unfold shr_odd_rounding. rewrite (proj2 (Z.ltb_ge _ _)) by lia. now rewrite (proj2 (Z.eqb_neq _ _)) by lia.
Qed.
Lemma sticky_range x k : 0 <= x < 2 ^ 128 -> 0 <= k -> 0 <= sticky_shr x k < 2 ^ 128.
Proof.
  intros X K. pose proof (Z.div_mod x (2 ^ k) ltac:(pose proof (pow2_pos k K); lia)) as D.
  pose proof (Z.mod_pos_bound x (2 ^ k) (pow2_pos k K)) as B.
  assert (0 <= x / 2 ^ k) by (apply Z.div_pos; [lia|apply pow2_pos; lia]).
  destruct (Z.eq_dec k 0) as [-> |K0].
  { unfold sticky_shr. rewrite Z.div_1_r, Z.mod_1_r. cbn [Z.eqb]. rewrite Z.lor_0_r. lia. }
  assert (x / 2 ^ k < 2 ^ 127).
  { apply Z.div_lt_upper_bound; [apply pow2_pos; lia|]. change (2 ^ 128) with (2 * 2 ^ 127) in X.
    assert (2 ^ 1 * 2 ^ 127 <= 2 ^ k * 2 ^ 127) by (apply Z.mul_le_mono_nonneg_r; [lia|]; apply Z.pow_le_mono_r; lia). lia. }
  change (2 ^ 128) with (2 ^ 127 * 2).
  destruct (sticky_shr_cases x k K) as [[_ ->]|[_ ->]]; [lia|]. destruct (Z.even (x / 2 ^ k)); lia.
Qed.

(** lines 138-149: reduction to two fractional bits, then rounding *)
Definition reduce (sig rb : Z) : option Z :=
  if rb =? 1 then ushl 128 sig 1
  else if 2 <? rb then let* k := ssub 32 rb 2 in shr_odd_rounding sig (to_u 32 k)
  else Some sig.

Lemma quarter rb t : (t * bpow radix2 (2 - rb) * / 4 = t * bpow radix2 (- rb))%R.
Proof.
  replace (bpow radix2 (2 - rb)) with (4 * bpow radix2 (- rb))%R; [field|].
  replace (2 - rb) with (2 + - rb) by ring. rewrite bpow_plus. reflexivity.
Qed.

Lemma reduce_ok sig rb t : 0 < sig < 2 ^ 128 -> 0 < rb < 2 ^ 31 -> near 1 sig t -> (rb = 1 -> t = IZR sig /\ sig < 2 ^ 127) ->
  exists a, reduce sig rb = Some a /\ 0 <= a < 2 ^ 128 /\ near 1 a (t * bpow radix2 (2 - rb)).
Proof.
  intros S B N H1. unfold reduce. destruct (Z.eqb_spec rb 1) as [E|E].
  - destruct (H1 E) as [-> L]. rewrite ushl_ok by lia. change (2 ^ 1) with 2. change (2 ^ 128) with (2 ^ 127 * 2).
    rewrite Z.mod_small by lia. exists (sig * 2). split; [reflexivity|]. split; [lia|]. left. rewrite E. rewrite mult_IZR.
    reflexivity.
  - destruct (Z.ltb_spec 2 rb) as [L|L].
    + unfold ssub. rewrite chk_ok by (change (2 ^ (32 - 1)) with (2 ^ 31); lia). cbn [bind].
      rewrite to_u_small by (change (2 ^ 32) with (2 * 2 ^ 31); lia).
      destruct (Z.lt_ge_cases (rb - 2) 128) as [K|K].
      * rewrite shr_odd_ok by lia. exists (sticky_shr sig (rb - 2)). split; [reflexivity|]. split; [apply sticky_range; lia|].
        replace (2 - rb) with (- (rb - 2)) by lia. replace 1 with (Z.max 1 (1 - (rb - 2))) at 1 by lia. apply near_shr; [lia|lia|exact N].
      * rewrite shr_odd_big by lia. exists 1. split; [reflexivity|]. split; [lia|]. right. exists 0.
        change (0 * 2 ^ 1) with 0. change ((0 + 1) * 2 ^ 1) with 2. split; [lia|].
        assert (T : (0 < t < 2 * bpow radix2 128)%R).
        { change (bpow radix2 128) with (IZR (2 ^ 128)).
          destruct N as [-> |(k & K1 & K2)]; [split; [apply IZR_lt; lia|]|].
          - assert (IZR sig < IZR (2 ^ 128))%R by (apply IZR_lt; lia). assert (0 < IZR (2 ^ 128))%R by (apply IZR_lt; lia). lra.
          - change (2 ^ 1) with 2 in *. assert (0 <= IZR (k * 2))%R by (apply IZR_le; lia).
            assert (IZR ((k + 1) * 2) <= IZR (2 ^ 128 * 2))%R by (apply IZR_le; lia). rewrite (mult_IZR (2 ^ 128)) in H0. lra. }
        assert (P : (0 < bpow radix2 (2 - rb))%R) by apply bpow_gt_0. split; [apply Rmult_lt_0_compat; lra|].
        assert (P2 : (bpow radix2 128 * bpow radix2 (2 - rb) <= 1)%R).
        { rewrite <- bpow_plus. change 1%R with (bpow radix2 0). apply bpow_le. lia. }
        apply Rlt_le_trans with (2 * bpow radix2 128 * bpow radix2 (2 - rb))%R; [apply Rmult_lt_compat_r; lra|lra].
    + exists sig. split; [reflexivity|]. split; [lia|]. replace (2 - rb) with 0 by lia. change (bpow radix2 0) with 1%R. now rewrite Rmult_1_r.
Qed.
(** far below the last place only "not zero" matters *)
Lemma reduce_tiny sig rb t : 0 < sig -> 130 <= rb < 2 ^ 31 -> (0 < t < bpow radix2 (rb - 2))%R ->
  exists a, reduce sig rb = Some a /\ 0 <= a < 2 ^ 128 /\ near 1 a (t * bpow radix2 (2 - rb)).
Proof.
  intros S B T. unfold reduce. rewrite (proj2 (Z.eqb_neq _ _)), (proj2 (Z.ltb_lt _ _)) by lia.
  unfold ssub. rewrite chk_ok by (change (2 ^ (32 - 1)) with (2 ^ 31); lia). cbn [bind].
  rewrite to_u_small by (change (2 ^ 32) with (2 * 2 ^ 31); lia). rewrite shr_odd_big by lia.
  exists 1. split; [reflexivity|]. split; [lia|]. right. exists 0. change (0 * 2 ^ 1) with 0. change ((0 + 1) * 2 ^ 1) with 2. split; [lia|].
  assert (P : (0 < bpow radix2 (2 - rb))%R) by apply bpow_gt_0. split; [apply Rmult_lt_0_compat; lra|].
  assert (P2 : (bpow radix2 (rb - 2) * bpow radix2 (2 - rb) = 1)%R).
  { rewrite <- bpow_plus. now replace (rb - 2 + (2 - rb)) with 0 by lia. }
  apply Rlt_trans with (bpow radix2 (rb - 2) * bpow radix2 (2 - rb))%R; [apply Rmult_lt_compat_r; lra|lra].
Qed.

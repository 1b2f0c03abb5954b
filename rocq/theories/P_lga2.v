(** The last two additions of log and logf: ... + f + k ln2_hi. *)
From Coq Require Import ZArith Reals Lia Lra Bool List Psatz.
From Flocq Require Import Core.
From Verif Require Import Base Spec SpecFun2 Format P_format Ieee P_ieee P_real P_neg P_lit P_err P_apx P_poly P_powt P_powt8 P_expa1 P_expa2 P_expa3 P_expa4 P_expa7 P_expa8 P_expa9.
Import ListNotations.
Open Scope R_scope.
Local Opaque fadd fsub fmul fdiv of_int.

Lemma exact_add F a b n e : finite F a = true -> finite F b = true -> val F a + val F b = IZR n * bpow radix2 e -> (Z.abs n < 2 ^ (mw F + 1))%Z -> (emin F <= e)%Z -> Rabs (val F a + val F b) <= bpow radix2 (bias F) ->
  isbits F (fadd F a b) /\ finite F (fadd F a b) = true /\ val F (fadd F a b) = val F a + val F b.
Proof.
  intros Fa Fb E Hn He L. pose proof (fadd_spec F a b Fa Fb) as RT. destruct (rounds_fin F _ _ _ RT L) as [Fm Vm]. split; [exact (proj1 RT)|]. split; [exact Fm|]. rewrite Vm. apply repr_rnd. rewrite E. apply repr_int; lia.
Qed.
(** k c is exact *)
Lemma kc_exact F c k M e N : (8 <= ew F)%Z -> (10 < mw F)%Z -> finite F c = true -> val F c = IZR M * bpow radix2 e -> (Z.abs k <= N <= 2047)%Z -> (N * Z.abs M < 2 ^ (mw F + 1))%Z ->
  (-2 - mw F <= e <= 0)%Z -> (Z.abs M <= 2 ^ (- e))%Z -> isbits F (fmul F (of_int F k) c) /\ finite F (fmul F (of_int F k) c) = true /\ val F (fmul F (of_int F k) c) = IZR (k * M) * bpow radix2 e.
Proof.
  intros EW MW Fc Vc Hk HM He HM2. pose proof (fmt_facts F) as FF. pose proof (bias_facts F) as BF. destruct (of_int_small F k EW MW ltac:(lia)) as (Bk & Fk & Vk).
  assert (B7 : (2 ^ 7 <= 2 ^ (ew F - 1))%Z) by (apply Z.pow_le_mono_r; lia). assert (BB : (127 <= bias F)%Z) by (unfold bias; lia).
  assert (C1 : Rabs (val F c) <= 1).
  { rewrite Vc, Rabs_mult, <- abs_IZR, (Rabs_pos_eq (bpow _ _)) by apply bpow_ge_0. apply IZR_le in HM2. change 2%Z with (radix_val radix2) in HM2. rewrite IZR_Zpower in HM2 by lia.
    apply Rle_trans with (bpow radix2 (- e) * bpow radix2 e); [apply Rmult_le_compat_r; [apply bpow_ge_0|exact HM2]|]. rewrite <- bpow_plus. replace (- e + e)%Z with 0%Z by lia. cbn. lra. }
  assert (K1 : Rabs (IZR k) <= 2047) by (rewrite <- abs_IZR; apply (IZR_le _ 2047); lia).
  assert (L1 : Rabs (val F (of_int F k) * val F c) <= bpow radix2 (bias F)).
  { rewrite Vk, Rabs_mult. apply Rle_trans with (bpow radix2 11); [change (bpow radix2 11) with 2048; pose proof (Rabs_pos (IZR k)); pose proof (Rabs_pos (val F c)); nra|apply bpow_le; lia]. }
  assert (E1 : val F (of_int F k) * val F c = IZR (k * M) * bpow radix2 e) by (rewrite Vk, Vc, mult_IZR; ring).
  destruct (exact_mul F _ c (k * M) e Fk Fc E1 ltac:(nia) ltac:(unfold emin; lia) L1) as (Bm & Fm & Vm). rewrite E1 in Vm. tauto.
Qed.
(** v + n 2^e is exact when v is not small and the sum is *)
Lemma add_grid F v h n e : (8 <= ew F)%Z -> finite F v = true -> finite F h = true -> val F h = IZR n * bpow radix2 e -> (-2 - mw F <= e)%Z -> / 4 <= Rabs (val F v) -> Rabs (val F v + val F h) < / 2 ->
  isbits F (fadd F v h) /\ finite F (fadd F v h) = true /\ val F (fadd F v h) = val F v + val F h.
Proof.
  intros EW Fv Fh Vh He Lv Ld. pose proof (fmt_facts F) as FF. pose proof (bias_facts F) as BF. assert (B7 : (2 ^ 7 <= 2 ^ (ew F - 1))%Z) by (apply Z.pow_le_mono_r; lia). assert (BB : (127 <= bias F)%Z) by (unfold bias; lia).
  destruct (repr_grid F (val F v) (-2) (repr_val F v Fv)) as [m Hm]. { intros _. exact Lv. }
  assert (E2 : val F v + val F h = IZR (m + n * 2 ^ (e - (-2 - mw F))) * bpow radix2 (-2 - mw F)).
  { rewrite Vh, Hm. rewrite plus_IZR, !mult_IZR. change 2%Z with (radix_val radix2). rewrite IZR_Zpower by lia. replace e with ((e - (-2 - mw F)) + (-2 - mw F))%Z at 1 by lia. rewrite bpow_plus. ring. }
  apply (f_equal Rabs) in E2 as E3. rewrite Rabs_mult, (Rabs_pos_eq (bpow _ _)), <- abs_IZR in E3 by apply bpow_ge_0.
  assert (Hs : (Z.abs (m + n * 2 ^ (e - (-2 - mw F))) < 2 ^ (mw F + 1))%Z).
  { apply lt_IZR. change (IZR (2 ^ (mw F + 1))) with (IZR (radix_val radix2 ^ (mw F + 1))). rewrite IZR_Zpower by lia. apply Rmult_lt_reg_r with (bpow radix2 (-2 - mw F)); [apply bpow_gt_0|]. rewrite <- E3, <- bpow_plus. replace (mw F + 1 + (-2 - mw F))%Z with (-1)%Z by lia. exact Ld. }
  apply (exact_add F v h _ _ Fv Fh E2 Hs ltac:(unfold emin; lia)). apply Rlt_le, Rlt_le_trans with (bpow radix2 0); [cbn; lra|apply bpow_le; lia].
Qed.
(** the unit: half an ulp in [1/4, 1/2) *)
Definition uu (F : fmt) : R := bpow radix2 (- mw F - 3).
Lemma log_tail F f p h n e k L l : (8 <= ew F)%Z -> (20 <= mw F)%Z -> finite F f = true -> finite F p = true -> finite F h = true -> val F h = IZR n * bpow radix2 e -> (-2 - mw F <= e)%Z ->
  Rabs (val F p + val F f - (L + l)) <= 125 / 100 * uu F -> Rabs L <= 3467 / 10000 -> Rabs l <= 2 / 1000 -> val F h + l = IZR k * ln 2 -> Rabs l <= / 100000 * Rabs (IZR k) -> (1 <= Z.abs k <= 2047)%Z ->
  let y := fadd F (fadd F p f) h in isbits F y /\ finite F y = true /\ Rabs (val F y - (IZR k * ln 2 + L)) <= bpow radix2 (- mw F) * Rabs (IZR k * ln 2 + L).
Proof.
  intros EW MW Ff Fp Fh Vh He HP HL Hl Hk Hlk K y. pose proof (fmt_facts F) as FF. pose proof (bias_facts F) as BF. assert (B7 : (2 ^ 7 <= 2 ^ (ew F - 1))%Z) by (apply Z.pow_le_mono_r; lia). assert (BB : (127 <= bias F)%Z) by (unfold bias; lia).
  set (u := uu F) in *. assert (U0 : 0 < u) by apply bpow_gt_0. assert (U1 : u <= / 1000000). { apply Rle_trans with (bpow radix2 (-23)); [apply bpow_le; lia|]. change (bpow radix2 (-23)) with (/ 8388608). lra. }
  assert (U8 : bpow radix2 (- mw F) = 8 * u). { unfold u, uu, Zminus. rewrite bpow_plus. change (bpow radix2 (-(3))) with (/ 8). lra. }
  assert (U4 : bpow radix2 (- pr F) = 4 * u). { unfold pr. replace (- (mw F + 1))%Z with (- mw F + -1)%Z by lia. rewrite bpow_plus, U8. change (bpow radix2 (-1)) with (/ 2). lra. }
  assert (TN : bpow radix2 (emin F - 1) <= u / 1000). { unfold u, uu. apply Rle_trans with (bpow radix2 (- mw F - 3 + -20)); [apply bpow_le; unfold emin; lia|]. rewrite bpow_plus. change (bpow radix2 (-20)) with (/ 1048576). pose proof (bpow_gt_0 radix2 (- mw F - 3)). lra. }
  pose proof ln2_c as LN.
  set (q := val F p + val F f) in *. apply Rabs_le_inv in HP. apply Rabs_le_inv in HL. apply Rabs_le_inv in Hl.
  pose proof (fadd_spec F p f Fp Ff) as RT. fold q in RT. assert (Q : Rabs q < / 2) by (apply Rabs_def1; lra).
  destruct (rounds_fin F _ _ _ RT) as [Fv Vv]. { apply Rlt_le, Rlt_le_trans with (bpow radix2 0); [cbn; lra|apply bpow_le; lia]. }
  set (v := fadd F p f) in *. pose proof (rnd_half F q (-1) Q ltac:(unfold emin, pr; lia)) as R1. rewrite <- Vv in R1. replace (-1 - pr F - 1)%Z with (- mw F - 3)%Z in R1 by (unfold pr; lia). change (bpow radix2 (- mw F - 3)) with u in R1.
  assert (KA : 1 <= Rabs (IZR k) <= 2047) by (rewrite <- abs_IZR; split; [apply (IZR_le 1)|apply (IZR_le _ 2047)]; lia).
  assert (YL : 3464 / 10000 <= Rabs (IZR k * ln 2 + L)).
  { pose proof (Rabs_triang_inv (IZR k * ln 2) (- L)) as T. replace (IZR k * ln 2 - - L) with (IZR k * ln 2 + L) in T by ring. rewrite Rabs_mult, (Rabs_pos_eq (ln 2)), Rabs_Ropp in T by lra. assert (Rabs L <= 3467 / 10000) by (apply Rabs_le; lra). nra. }
  set (Y := IZR k * ln 2 + L) in *. assert (HY : Y = val F h + (L + l)) by (unfold Y; rewrite <- Hk; ring).
  assert (HB : Rabs (val F h) <= 1420). { replace (val F h) with (IZR k * ln 2 - l) by lra. eapply Rle_trans; [apply Rabs_triang|]. rewrite Rabs_Ropp, Rabs_mult, (Rabs_pos_eq (ln 2)) by lra. assert (Rabs l <= 2 / 1000) by (apply Rabs_le; lra). nra. }
  assert (GEN : forall d, Rabs (val F v - (L + l)) <= d -> d <= 3 * u -> d + 4 * u * (Rabs Y + d) + u / 1000 <= 8 * u * Rabs Y -> isbits F y /\ finite F y = true /\ Rabs (val F y - Y) <= bpow radix2 (- mw F) * Rabs Y).
  { intros d D D3 C. pose proof (fadd_spec F v h Fv Fh) as RT2. set (w := val F v + val F h) in *. assert (W : Rabs (w - Y) <= d) by (replace (w - Y) with (val F v - (L + l)) by (unfold w; lra); exact D).
    assert (WA : Rabs w <= Rabs Y + d). { replace w with ((w - Y) + Y) by ring. eapply Rle_trans; [apply Rabs_triang|]. lra. }
    assert (YB : Rabs Y <= 1421). { rewrite HY. eapply Rle_trans; [apply Rabs_triang|]. assert (Rabs (L + l) <= 1) by (apply Rabs_le; lra). lra. }
    destruct (rounds_fin F _ _ _ RT2) as [Fy Vy]. { apply Rle_trans with (bpow radix2 11); [change (bpow radix2 11) with 2048; lra|apply bpow_le; lia]. }
    split; [exact (proj1 RT2)|]. split; [exact Fy|]. pose proof (rndF_abs F w) as RR. unfold y. rewrite Vy. rewrite U8. rewrite U4 in RR.
    replace (rnd F w - Y) with ((rnd F w - w) + (w - Y)) by ring. eapply Rle_trans; [apply Rabs_triang|]. nra. }
  destruct (Rlt_le_dec (Rabs q) (/ 4)) as [C | C].
  - (* f plus the rest is small *)
    pose proof (rnd_half F q (-2) C ltac:(unfold emin, pr; lia)) as R2. rewrite <- Vv in R2. replace (-2 - pr F - 1)%Z with ((- mw F - 3) + -1)%Z in R2 by (unfold pr; lia). rewrite bpow_plus in R2. change (bpow radix2 (- mw F - 3)) with u in R2. change (bpow radix2 (-1)) with (/ 2) in R2.
    apply (GEN (175 / 100 * u)); [|lra|].
    + apply Rabs_le_inv in R2. apply Rabs_le. lra.
    + assert (4429 / 10000 <= Rabs Y); [|nra]. apply Rabs_def2 in C. rewrite HY. pose proof (Rabs_triang_inv (val F h) (- (L + l))) as T. replace (val F h - - (L + l)) with (val F h + (L + l)) in T by ring. rewrite Rabs_Ropp in T.
      assert (Rabs (L + l) <= 250005 / 1000000) by (apply Rabs_le; lra).
      assert (6931 / 10000 <= Rabs (val F h)). { replace (val F h) with (IZR k * ln 2 - l) by lra. pose proof (Rabs_triang_inv (IZR k * ln 2) l) as T2. rewrite Rabs_mult, (Rabs_pos_eq (ln 2)) in T2 by lra. nra. }
      lra.
  - assert (VA : / 4 <= Rabs (val F v)).
    { rewrite Vv. change (/ 4) with (bpow radix2 (-2)). unfold rnd. apply abs_round_ge_generic; [apply FLT_exp_valid; unfold Prec_gt_0; lia|apply valid_rnd_N|apply (repr_bpow F (-2)); unfold emin; lia|exact C]. }
    destruct (Rlt_le_dec (Rabs (val F v + val F h)) (/ 2)) as [W | W].
    + destruct (add_grid F v h n e EW Fv Fh Vh He VA W) as (By & Fy & Vy). split; [exact By|]. split; [exact Fy|]. unfold y. rewrite Vy, U8.
      replace (val F v + val F h - Y) with (val F v - (L + l)) by lra. apply Rle_trans with (225 / 100 * u); [apply Rabs_le; apply Rabs_le_inv in R1; lra|nra].
    + apply (GEN (225 / 100 * u)); [apply Rabs_le; apply Rabs_le_inv in R1; lra|lra|].
      assert (6 / 10 <= Rabs Y); [|nra]. apply Rabs_le_inv in R1. assert (Z.abs k = 1 \/ 2 <= Z.abs k)%Z as [K1 | K1] by lia.
      * assert (Rabs (IZR k) = 1) as KK by (rewrite <- abs_IZR, K1; reflexivity). rewrite KK in Hlk. apply Rabs_le_inv in Hlk. 
        assert (k = 1 \/ k = -1)%Z as [-> | ->] by lia; [rewrite Rmult_1_l in Hk|change (IZR (-1)) with (-1) in Hk];
          unfold Rabs in VA, W; destruct (Rcase_abs (val F v)) in VA; destruct (Rcase_abs (val F v + val F h)) in W; unfold Rabs; destruct (Rcase_abs Y); lra.
      * assert (2 <= Rabs (IZR k)) by (rewrite <- abs_IZR; apply (IZR_le 2); lia). pose proof (Rabs_triang_inv (IZR k * ln 2) (- L)) as T. replace (IZR k * ln 2 - - L) with Y in T by (unfold Y; ring). rewrite Rabs_mult, (Rabs_pos_eq (ln 2)), Rabs_Ropp in T by lra. assert (Rabs L <= 3467 / 10000) by (apply Rabs_le; lra). nra.
Qed.

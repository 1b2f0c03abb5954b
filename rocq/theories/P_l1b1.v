(** The kernel of log1pf: the correction term. *)
From Coq Require Import ZArith Reals Lia Lra Bool List Psatz.
From Flocq Require Import Core.
From Verif Require Import Base Spec SpecFun2 Format P_format Ieee P_ieee P_real P_neg P_lit P_err P_scalbn P_apx P_poly P_poly2 P_poly3 P_powt P_powt8 P_taylor P_expa1 P_expa2 P_expa3 P_expa4 P_expa5 P_expa6 P_expa7 P_expa8 P_expa9 P_expa12 P_lga1 P_lga2 P_lga3 P_lga4 P_lga5 P_lgb3 P_lgb4 P_lgb5 P_l1a1 M_log.
Import ListNotations.
Open Scope R_scope.
Local Opaque fadd fsub fmul fdiv of_int.

(** k <> 0 *)
Lemma log_kcf f k c d : isbits f32 c -> finite f32 c = true -> Rabs d <= / IZR (2 ^ 23) -> Rabs (val f32 c - d) <= / IZR (2 ^ 44) -> isbits f32 f -> finite f32 f = true -> (val f32 f <> 0 -> bpow radix2 (-60) <= Rabs (val f32 f)) -> -2930 / 10000 <= val f32 f <= 41425 / 100000 -> 4999 / 10000 <= (1 + val f32 f) * (1 + val f32 f) <= 20002 / 10000 -> (1 <= Z.abs k <= 30)%Z ->
  let y := fadd f32 (fadd f32 (lp32 f (fadd f32 (fmul f32 (of_int f32 k) rs_logf_LN2_LO) c)) f) (fmul f32 (of_int f32 k) rs_logf_LN2_HI) in
  isbits f32 y /\ finite f32 y = true /\ Rabs (val f32 y - (IZR k * ln 2 + (ln (1 + val f32 f) + d))) <= bpow radix2 (- mw f32) * Rabs (IZR k * ln 2 + (ln (1 + val f32 f) + d)) /\ ((20 <= Z.abs k)%Z -> Rabs (val f32 y - (IZR k * ln 2 + (ln (1 + val f32 f) + d))) <= 5 * uu f32 * Rabs (IZR k * ln 2 + (ln (1 + val f32 f) + d))).
Proof.
  intros Bc Fc Hd Hc Bf Ff Lo Hf Hq Hk y. set (F := val f32 f) in *. assert (S1 : Rabs F <= 1) by (apply Rabs_le; lra).
  destruct (half_exact f32 0x3f000000 f ltac:(vm_compute; discriminate) ltac:(vm_compute; reflexivity) ltac:(vm_compute; discriminate) eq_refl) as (Bm & Fm & Vm). { rewrite (val_lit f32 0x3f000000 1 2) by (vm_compute; reflexivity). lra. } { exact Ff. } { exact Lo. } { exact S1. }
  fold F in Vm. destruct (log_G32 F ltac:(lra)) as [G1 G2]. pose proof (ln_half2 F Hf Hq) as HL. destruct lhi32f as [Fh Vh]. pose proof ln2_e as LB. pose proof ln2_c as LN.
  destruct (kc_exact f32 rs_logf_LN2_HI k 90851 (-17) 30 ltac:(vm_compute; discriminate) ltac:(vm_compute; reflexivity) Fh Vh ltac:(lia) ltac:(vm_compute; reflexivity) ltac:(split; vm_compute; discriminate) ltac:(vm_compute; discriminate)) as (Bd & Fd & Vd).
  set (l := IZR k * (ln 2 - 90851 / 131072)).
  pose proof (kmul k 30 _ _ (proj2 Hk) LB) as KL. replace (IZR k * (ln 2 - 90851 / 131072 - 9959377 / 1099511627776)) with (l - IZR k * (9959377 / 1099511627776)) in KL by (unfold l; lra).
  pose proof (kR _ _ (proj2 Hk)) as KK. change (2 ^ 40)%Z with 1099511627776%Z in KL, LB.
  assert (Ll : Rabs l <= 1 / 1000) by (apply Rabs_le; apply Rabs_le_inv in KL; lra).
  destruct (of_int_small f32 k ltac:(vm_compute; discriminate) ltac:(vm_compute; reflexivity) ltac:(lia)) as (Bk & Fk & Vk).
  assert (PL : 19 / 10000 <= fxr ql32). { unfold ql32, fxr. let v := eval vm_compute in (SC / 2 ^ 9)%Z in change (SC / 2 ^ 9)%Z with v. let v := eval vm_compute in SC in change SC with v. lra. }
  assert (Ll2 : - fxr ql32 <= l <= fxr ql32) by (apply Rabs_le_inv in Ll; lra).
  assert (AK : AP f32 1 (of_int f32 k) (IZR k) ((-30 * SC)%Z, (30 * SC)%Z, 0%Z)).
  { split; [now split|]. split; [|rewrite Vk, Rmult_1_l; unfold Rminus; rewrite Rplus_opp_r, Rabs_R0, fxr_0; lra]. rewrite !fxr_SC. lra. }
  assert (AC : AP f32 1 c d ((- (SC / 2 ^ 23))%Z, (SC / 2 ^ 23)%Z, (SC / 2 ^ 44)%Z)).
  { split; [now split|]. rewrite Rmult_1_l, fxr_opp. replace (fxr (SC / 2 ^ 23)) with (/ IZR (2 ^ 23)). 2:{ unfold fxr. let v := eval vm_compute in (SC / 2 ^ 23)%Z in change (SC / 2 ^ 23)%Z with v. let v := eval vm_compute in SC in change SC with v. let v := eval vm_compute in (2 ^ 23)%Z in change (2 ^ 23)%Z with v. lra. }
    replace (fxr (SC / 2 ^ 44)) with (/ IZR (2 ^ 44)). 2:{ unfold fxr. let v := eval vm_compute in (SC / 2 ^ 44)%Z in change (SC / 2 ^ 44)%Z with v. let v := eval vm_compute in SC in change SC with v. let v := eval vm_compute in (2 ^ 44)%Z in change (2 ^ 44)%Z with v. lra. }
    rewrite Rmult_1_l. split; [apply Rabs_le_inv in Hd; lra|exact Hc]. }
  change (2 ^ 23)%Z with 8388608%Z in Hd. apply Rabs_le_inv in Hd.
  set (dl := fadd f32 (fmul f32 (of_int f32 k) rs_logf_LN2_LO) c) in *.
  assert (ALO : AP f32 1 dl (l + d) ((- ql32)%Z, ql32, em32)).
  { apy f32 1 (fadd f32 (fmul f32 (of_int f32 k) rs_logf_LN2_LO) c) K. eapply (AP_mv _ _ _ _ _ _ _ (30 * (SC / 2 ^ 40))); [exact K| | |vm_compute; reflexivity].
    - rewrite Rabs_minus_sym. match goal with |- Rabs (l + d - ?e) <= _ => replace (l + d - e) with (l - IZR k * (9959377 / 1099511627776)) by lra end. eapply Rle_trans; [exact KL|].
      unfold fxr. let v := eval vm_compute in (30 * (SC / 2 ^ 40))%Z in change (30 * (SC / 2 ^ 40))%Z with v. let v := eval vm_compute in SC in change SC with v. lra.
    - rewrite fxr_opp. apply Rabs_le_inv in Ll; lra. }
  assert (GO : forall a b, lk32 a b 1275 -> fxr (q4 a) <= F <= fxr (q4 b) -> finite f32 (lp32 f dl) = true /\ Rabs (val f32 (lp32 f dl) + F - (ln (1 + F) + d + l)) <= 125 / 100 * uu f32).
  { intros a b HP Hab. assert (Z0 : forall p t, p = t -> Rabs (p - t) <= 1 * fxr 0) by (intros p t ->; unfold Rminus; rewrite Rplus_opp_r, Rabs_R0, fxr_0; lra).
    destruct (HP f dl F (l + d)) as [[B Fn] V].
    - split; [now split|]. split; [exact Hab|]. apply Z0. fold F. ring.
    - exact ALO.
    - split; [now split|]. split; [|apply Z0; rewrite Vm; ring]. pose proof (fxr_half (q4 a)). pose proof (fxr_half2 (q4 b)). lra.
    - split; [exact Fn|]. replace (val f32 (lp32 f dl) + F - (ln (1 + F) + d + l)) with ((val f32 (lp32 f dl) + F - (lG cl32 F + (l + d))) + (lG cl32 F - ln (1 + F))) by ring. eapply Rle_trans; [apply Rabs_triang|].
      change (uu f32) with (/ 67108864). change (2 ^ 36)%Z with 68719476736%Z in V. change (2 ^ 33)%Z with 8589934592%Z in G1. lra. }
  assert (AL : finite f32 (lp32 f dl) = true /\ Rabs (val f32 (lp32 f dl) + F - (ln (1 + F) + d + l)) <= 125 / 100 * uu f32).
  { destruct (Rle_lt_dec F 0) as [N | N]; [|destruct (Rle_lt_dec F (fxr (q4 2800))) as [N2 | N2]; [|destruct (Rle_lt_dec F (fxr (q4 3700))) as [N3 | N3]]].
    - apply (GO _ _ lkAf). split; [apply q4_in2; lra|rewrite q4_0, fxr_0; lra].
    - apply (GO _ _ lkBf). rewrite q4_0, fxr_0. lra.
    - apply (GO _ _ lkCf). lra.
    - apply (GO _ _ lkDf). split; [lra|]. apply q4_in. lra. }
  destruct AL as [Fp HP].
  assert (VB : val f32 (fmul f32 (of_int f32 k) rs_logf_LN2_HI) + l = IZR k * ln 2). { rewrite Vd, mult_IZR. unfold l. change (bpow radix2 (-17)) with (/ 131072). lra. }
  assert (LK : Rabs l <= / 100000 * Rabs (IZR k)) by (unfold l; rewrite Rabs_mult, Rmult_comm; apply Rmult_le_compat_r; [apply Rabs_pos|]; apply Rabs_le; apply Rabs_le_inv in LB; change (2 ^ 40)%Z with 1099511627776%Z in LB; lra).
  assert (LA : Rabs (ln (1 + F) + d) <= 3467 / 10000) by (apply Rabs_le; apply Rabs_le_inv in HL; lra).
  split; [|split; [|split]].
  - apply (log_tail f32 f (lp32 f dl) (fmul f32 (of_int f32 k) rs_logf_LN2_HI) (k * 90851) (-17) k (ln (1 + F) + d) l ltac:(vm_compute; discriminate) ltac:(vm_compute; discriminate) Ff Fp Fd Vd ltac:(vm_compute; discriminate)HP LA); [lra|exact VB|exact LK|lia].
  - apply (log_tail f32 f (lp32 f dl) (fmul f32 (of_int f32 k) rs_logf_LN2_HI) (k * 90851) (-17) k (ln (1 + F) + d) l ltac:(vm_compute; discriminate) ltac:(vm_compute; discriminate) Ff Fp Fd Vd ltac:(vm_compute; discriminate)HP LA); [lra|exact VB|exact LK|lia].
  - apply (log_tail f32 f (lp32 f dl) (fmul f32 (of_int f32 k) rs_logf_LN2_HI) (k * 90851) (-17) k (ln (1 + F) + d) l ltac:(vm_compute; discriminate) ltac:(vm_compute; discriminate) Ff Fp Fd Vd ltac:(vm_compute; discriminate)HP LA); [lra|exact VB|exact LK|lia].
  - intros K20. apply (log_tail_big f32 f (lp32 f dl) (fmul f32 (of_int f32 k) rs_logf_LN2_HI) (k * 90851) (-17) k (ln (1 + F) + d) l ltac:(vm_compute; discriminate) ltac:(vm_compute; discriminate) Ff Fp Fd Vd ltac:(vm_compute; discriminate)HP LA); [lra|exact VB|exact LK|lia].
Qed.
(** large k *)
Lemma log_kbf f k : isbits f32 f -> finite f32 f = true -> (val f32 f <> 0 -> bpow radix2 (-60) <= Rabs (val f32 f)) -> -2930 / 10000 <= val f32 f <= 41425 / 100000 -> 4999 / 10000 <= (1 + val f32 f) * (1 + val f32 f) <= 20002 / 10000 -> (20 <= Z.abs k <= 151)%Z ->
  let y := fadd f32 (fadd f32 (lp32 f (fmul f32 (of_int f32 k) rs_logf_LN2_LO)) f) (fmul f32 (of_int f32 k) rs_logf_LN2_HI) in
  isbits f32 y /\ finite f32 y = true /\ Rabs (val f32 y - (IZR k * ln 2 + ln (1 + val f32 f))) <= 5 * uu f32 * Rabs (IZR k * ln 2 + ln (1 + val f32 f)).
Proof.
  intros Bf Ff Lo Hf Hq Hk y. set (F := val f32 f) in *. assert (S1 : Rabs F <= 1) by (apply Rabs_le; lra).
  destruct (half_exact f32 0x3f000000 f ltac:(vm_compute; discriminate) ltac:(vm_compute; reflexivity) ltac:(vm_compute; discriminate) eq_refl) as (Bm & Fm & Vm). { rewrite (val_lit f32 0x3f000000 1 2) by (vm_compute; reflexivity). lra. } { exact Ff. } { exact Lo. } { exact S1. }
  fold F in Vm. destruct (log_G32 F ltac:(lra)) as [G1 G2]. pose proof (ln_half F Hf Hq) as HL. destruct lhi32f as [Fh Vh]. pose proof ln2_e as LB. pose proof ln2_c as LN.
  destruct (kc_exact f32 rs_logf_LN2_HI k 90851 (-17) 151 ltac:(vm_compute; discriminate) ltac:(vm_compute; reflexivity) Fh Vh ltac:(lia) ltac:(vm_compute; reflexivity) ltac:(split; vm_compute; discriminate) ltac:(vm_compute; discriminate)) as (Bd & Fd & Vd).
  set (l := IZR k * (ln 2 - 90851 / 131072)).
  pose proof (kmul k 151 _ _ (proj2 Hk) LB) as KL. replace (IZR k * (ln 2 - 90851 / 131072 - 9959377 / 1099511627776)) with (l - IZR k * (9959377 / 1099511627776)) in KL by (unfold l; lra).
  pose proof (kR _ _ (proj2 Hk)) as KK. change (2 ^ 40)%Z with 1099511627776%Z in KL, LB.
  assert (Ll : Rabs l <= 19 / 10000) by (apply Rabs_le; apply Rabs_le_inv in KL; lra).
  destruct (of_int_small f32 k ltac:(vm_compute; discriminate) ltac:(vm_compute; reflexivity) ltac:(lia)) as (Bk & Fk & Vk).
  assert (PL : 19 / 10000 <= fxr ql32). { unfold ql32, fxr. let v := eval vm_compute in (SC / 2 ^ 9)%Z in change (SC / 2 ^ 9)%Z with v. let v := eval vm_compute in SC in change SC with v. lra. }
  assert (Ll2 : - fxr ql32 <= l <= fxr ql32) by (apply Rabs_le_inv in Ll; lra).
  assert (AK : AP f32 1 (of_int f32 k) (IZR k) ((-151 * SC)%Z, (151 * SC)%Z, 0%Z)).
  { split; [now split|]. split; [|rewrite Vk, Rmult_1_l; unfold Rminus; rewrite Rplus_opp_r, Rabs_R0, fxr_0; lra]. rewrite !fxr_SC. lra. }
  set (dl := fmul f32 (of_int f32 k) rs_logf_LN2_LO) in *.
  assert (ALO : AP f32 1 dl l ((- ql32)%Z, ql32, em32)).
  { apy f32 1 (fmul f32 (of_int f32 k) rs_logf_LN2_LO) K. eapply (AP_mv _ _ _ _ _ _ _ (151 * (SC / 2 ^ 40))); [exact K| | |vm_compute; reflexivity].
    - rewrite Rabs_minus_sym. match goal with |- Rabs (l - ?e) <= _ => replace e with (IZR k * (9959377 / 1099511627776)) by lra end. eapply Rle_trans; [exact KL|].
      unfold fxr. let v := eval vm_compute in (151 * (SC / 2 ^ 40))%Z in change (151 * (SC / 2 ^ 40))%Z with v. let v := eval vm_compute in SC in change SC with v. lra.
    - rewrite fxr_opp. exact Ll2. }
  assert (GO : forall a b, lk32 a b 1275 -> fxr (q4 a) <= F <= fxr (q4 b) -> finite f32 (lp32 f dl) = true /\ Rabs (val f32 (lp32 f dl) + F - (ln (1 + F) + l)) <= 125 / 100 * uu f32).
  { intros a b HP Hab. assert (Z0 : forall c t, c = t -> Rabs (c - t) <= 1 * fxr 0) by (intros c t ->; unfold Rminus; rewrite Rplus_opp_r, Rabs_R0, fxr_0; lra).
    destruct (HP f dl F l) as [[B Fn] V].
    - split; [now split|]. split; [exact Hab|]. apply Z0. fold F. ring.
    - exact ALO.
    - split; [now split|]. split; [|apply Z0; rewrite Vm; ring]. pose proof (fxr_half (q4 a)). pose proof (fxr_half2 (q4 b)). lra.
    - split; [exact Fn|]. replace (val f32 (lp32 f dl) + F - (ln (1 + F) + l)) with ((val f32 (lp32 f dl) + F - (lG cl32 F + l)) + (lG cl32 F - ln (1 + F))) by ring. eapply Rle_trans; [apply Rabs_triang|].
      change (uu f32) with (/ 67108864). change (2 ^ 36)%Z with 68719476736%Z in V. change (2 ^ 33)%Z with 8589934592%Z in G1. lra. }
  assert (AL : finite f32 (lp32 f dl) = true /\ Rabs (val f32 (lp32 f dl) + F - (ln (1 + F) + l)) <= 125 / 100 * uu f32).
  { destruct (Rle_lt_dec F 0) as [N | N]; [|destruct (Rle_lt_dec F (fxr (q4 2800))) as [N2 | N2]; [|destruct (Rle_lt_dec F (fxr (q4 3700))) as [N3 | N3]]].
    - apply (GO _ _ lkAf). split; [apply q4_in2; lra|rewrite q4_0, fxr_0; lra].
    - apply (GO _ _ lkBf). rewrite q4_0, fxr_0. lra.
    - apply (GO _ _ lkCf). lra.
    - apply (GO _ _ lkDf). split; [lra|]. apply q4_in. lra. }
  destruct AL as [Fp HP].
  assert (VB : val f32 (fmul f32 (of_int f32 k) rs_logf_LN2_HI) + l = IZR k * ln 2). { rewrite Vd, mult_IZR. unfold l. change (bpow radix2 (-17)) with (/ 131072). lra. }
  apply (log_tail_big f32 f (lp32 f dl) (fmul f32 (of_int f32 k) rs_logf_LN2_HI) (k * 90851) (-17) k (ln (1 + F)) l ltac:(vm_compute; discriminate) ltac:(vm_compute; discriminate) Ff Fp Fd Vd ltac:(vm_compute; discriminate) HP HL); [lra|exact VB| |lia].
  unfold l. rewrite Rabs_mult, Rmult_comm. apply Rmult_le_compat_r; [apply Rabs_pos|]. apply Rabs_le. apply Rabs_le_inv in LB. change (2 ^ 40)%Z with 1099511627776%Z in LB. lra.
Qed.

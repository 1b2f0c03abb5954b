(** The kernel of log, f32: both cases. *)
From Coq Require Import ZArith Reals Lia Lra Bool List Psatz.
From Flocq Require Import Core.
From Verif Require Import Base Spec SpecFun2 Format P_format Ieee P_ieee P_real P_neg P_lit P_err P_scalbn P_apx P_poly P_poly2 P_poly3 P_powt P_powt8 P_taylor P_expa1 P_expa2 P_expa3 P_expa4 P_expa5 P_expa6 P_expa7 P_expa8 P_expa9 P_expa12 P_lga1 P_lga2 P_lga3 P_lga4 P_lga5 P_lgb3 P_lgb4 M_log.
Import ListNotations.
Open Scope R_scope.
Local Opaque fadd fsub fmul fdiv of_int.

(** k = 0 *)
Lemma log_k0f f dl dh : isbits f32 f -> finite f32 f = true -> isbits f32 dl -> finite f32 dl = true -> val f32 dl = 0 -> finite f32 dh = true -> val f32 dh = 0 -> bpow radix2 (-60) <= Rabs (val f32 f) -> -2930 / 10000 <= val f32 f <= 41425 / 100000 ->
  let y := fadd f32 (fadd f32 (lp32 f dl) f) dh in isbits f32 y /\ finite f32 y = true /\ Rabs (val f32 y - ln (1 + val f32 f)) <= bpow radix2 (- mw f32) * Rabs (ln (1 + val f32 f)).
Proof.
  intros Bf Ff Bl Fl Vl Fh Vh Lo Hf y. set (F := val f32 f) in *. set (s := Rabs F) in *. assert (S0 : 0 < s) by (pose proof (bpow_gt_0 radix2 (-60)); lra). assert (S1 : s <= 1) by (apply Rabs_le; lra).
  assert (HS : scal f32 s (2 ^ 110)). { split; [lra|]. split; [lia|]. apply Rle_trans with (bpow radix2 (-60) * fxr (2 ^ 110)); [|apply Rmult_le_compat_r; [apply fxr_pos; lia|exact Lo]]. change 110%Z with (200 - 90)%Z. rewrite fxr_pow by lia. rewrite <- bpow_plus. apply bpow_le. vm_compute. discriminate. }
  destruct (half_exact f32 0x3f000000 f ltac:(vm_compute; discriminate) ltac:(vm_compute; reflexivity) ltac:(vm_compute; discriminate) eq_refl) as (Bm & Fm & Vm). { rewrite (val_lit f32 0x3f000000 1 2) by (vm_compute; reflexivity). lra. } { exact Ff. } { intros _; exact Lo. } { exact S1. }
  fold F in Vm.
  destruct (log_G32 F ltac:(lra)) as [G1 G2]. set (i := F / (2 + F)) in *. assert (I : Rabs i * (2 + F) = s). { unfold i, s. rewrite <- (Rabs_pos_eq (2 + F)) at 2 by lra. rewrite <- Rabs_mult. f_equal. field. lra. }
  assert (PP : 0 <= peval cl32 (i * i)) by (apply peval_pos; [vm_compute; reflexivity|nra]).
  assert (LL : 2 * Rabs i - Rabs i * / IZR (2 ^ 33) <= Rabs (ln (1 + F))).
  { assert (2 * Rabs i <= Rabs (lG cl32 F)). { rewrite lG_eq by lra. fold i. rewrite Rabs_mult, (Rabs_pos_eq (2 + _)) by lra. pose proof (Rabs_pos i). nra. }
    pose proof (Rabs_triang_inv (lG cl32 F) (lG cl32 F - ln (1 + F))) as T. replace (lG cl32 F - (lG cl32 F - ln (1 + F))) with (ln (1 + F)) in T by ring. lra. }
  assert (GO : forall g a b E, lz32 g a b E -> F = s * IZR g -> (g = 1 \/ g = -1)%Z -> fxr (q4 a) <= F <= fxr (q4 b) -> F <= IZR b / 10000 -> IZR E / IZR (2 ^ 36) * (2 + IZR b / 10000) + / IZR (2 ^ 33) <= bpow radix2 (- mw f32) * (2 - / IZR (2 ^ 33)) -> 0 <= IZR E ->
    isbits f32 y /\ finite f32 y = true /\ Rabs (val f32 y - ln (1 + F)) <= bpow radix2 (- mw f32) * Rabs (ln (1 + F))).
  { intros g a b E HP EG Hg Hab Hb HE HE0.
    assert (Z0 : forall c t, c = t -> Rabs (c - t) <= 1 * fxr 0) by (intros c t ->; unfold Rminus; rewrite Rplus_opp_r, Rabs_R0, fxr_0; lra).
    assert (Z1 : forall c t, c = s * t -> Rabs (c - s * t) <= s * fxr 0) by (intros c t ->; unfold Rminus; rewrite Rplus_opp_r, Rabs_R0, fxr_0; lra).
    destruct (HP f dl F s HS EG) as [[By Fy] Vy].
    - split; [now split|]. split; [exact Hab|]. apply Z0. fold F. ring.
    - split; [now split|]. split; [|apply Z0; rewrite Vm; ring]. pose proof (fxr_half (q4 a)). pose proof (fxr_half2 (q4 b)). lra.
    - split; [now split|]. split; [rewrite fxr_SC; lra|]. apply Z1. exact EG.
    - split; [now split|]. split; [|apply Z1; rewrite Vm; rewrite EG at 1; ring]. destruct Hg as [-> | ->]; [change (1 * SC / 2)%Z with (2 ^ (200 - 1))%Z; rewrite fxr_pow by lia|change (-1 * SC / 2)%Z with (- 2 ^ (200 - 1))%Z; rewrite fxr_opp, fxr_pow by lia]; change (bpow radix2 (-(1))) with (/ 2); lra.
    - split; [now split|]. rewrite fxr_0. split; [lra|]. rewrite Vl. unfold Rminus. rewrite Rmult_0_r, Rplus_0_l, Ropp_0, Rabs_R0. lra.
    - set (v := fadd f32 (lp32 f dl) f) in *.
      assert (D : Rabs (val f32 v - ln (1 + F)) <= bpow radix2 (- mw f32) * Rabs (ln (1 + F))).
      { replace (val f32 v - ln (1 + F)) with ((val f32 v - lG cl32 F) + (lG cl32 F - ln (1 + F))) by ring. eapply Rle_trans; [apply Rabs_triang|].
        apply Rle_trans with (bpow radix2 (- mw f32) * (2 * Rabs i - Rabs i * / IZR (2 ^ 33))); [|apply Rmult_le_compat_l; [apply bpow_ge_0|exact LL]].
        apply Rle_trans with (Rabs i * (IZR E / IZR (2 ^ 36) * (2 + IZR b / 10000) + / IZR (2 ^ 33))).
        - rewrite <- I in Vy. assert (0 <= IZR E / IZR (2 ^ 36)) by (apply Rmult_le_pos; [exact HE0|left; apply Rinv_0_lt_compat; now apply (IZR_lt 0)]). pose proof (Rabs_pos i).
          assert (Rabs i * (2 + F) * (IZR E / IZR (2 ^ 36)) <= Rabs i * ((2 + IZR b / 10000) * (IZR E / IZR (2 ^ 36)))). { rewrite Rmult_assoc. apply Rmult_le_compat_l; [assumption|]. apply Rmult_le_compat_r; lra. }
          lra.
        - replace (bpow radix2 (- mw f32) * (2 * Rabs i - Rabs i * / IZR (2 ^ 33))) with (Rabs i * (bpow radix2 (- mw f32) * (2 - / IZR (2 ^ 33)))) by ring. apply Rmult_le_compat_l; [apply Rabs_pos|exact HE]. }
      destruct (add_zero f32 v dh Fy Fh Vh) as (B & Fn & Vn).
      { assert (LB : Rabs (lG cl32 F) <= 4). { rewrite lG_eq by lra. fold i. assert (P4 : peval cl32 (i * i) <= 1). { apply Rabs_le_inv in G2. assert (0 <= i * i <= 2956 / 100000) by nra. cbn [cl32 peval fst snd]. set (w := i * i) in *. clearbody w. clear - H. nra. }
          rewrite Rabs_mult, (Rabs_pos_eq (2 + _)) by lra. pose proof (Rabs_pos i). nra. }
        apply Rle_trans with 16; [|change 16 with (bpow radix2 4); apply bpow_le; vm_compute; discriminate].
        replace (val f32 v) with ((val f32 v - lG cl32 F) + lG cl32 F) by ring. eapply Rle_trans; [apply Rabs_triang|].
        assert (s * (IZR E / IZR (2 ^ 36)) <= 8); [|lra]. assert (0 <= IZR E / IZR (2 ^ 36)) by (apply Rmult_le_pos; [exact HE0|left; apply Rinv_0_lt_compat; now apply (IZR_lt 0)]).
        assert (IZR E / IZR (2 ^ 36) <= 8); [|nra]. assert (0 < / IZR (2 ^ 33)) by (apply Rinv_0_lt_compat; now apply (IZR_lt 0)). assert (bpow radix2 (- mw f32) <= 1) by (change 1 with (bpow radix2 0); apply bpow_le; vm_compute; discriminate). pose proof (bpow_gt_0 radix2 (- mw f32)). nra. }
      unfold y. rewrite Vn. tauto. }
  change (2 ^ 36)%Z with 68719476736%Z in GO. change (2 ^ 33)%Z with 8589934592%Z in GO. change (bpow radix2 (- mw f32)) with (/ 8388608) in *.
  destruct (Rle_lt_dec F 0) as [N | N].
  - apply (GO _ _ _ _ lzAf); try lra; [unfold s; rewrite Rabs_left1 by lra; change (IZR (-1)) with (-1); ring|now right|]. split; [apply q4_in2; lra|rewrite q4_0, fxr_0; lra].
  - assert (ES : F = s * 1) by (unfold s; rewrite Rabs_pos_eq by lra; ring).
    destruct (Rle_lt_dec F (fxr (q4 3000))) as [N2 | N2]; [|destruct (Rle_lt_dec F (fxr (q4 3600))) as [N3 | N3]].
    + pose proof (q4_le _ _ N2). apply (GO _ _ _ _ lzBf); try lra; [now left|]. rewrite q4_0, fxr_0. lra.
    + pose proof (q4_le _ _ N3). apply (GO _ _ _ _ lzCf); try lra. now left.
    + apply (GO _ _ _ _ lzDf); try lra; [now left|]. split; [lra|]. apply q4_in. lra.
Qed.

Lemma lhi32f : finite f32 rs_logf_LN2_HI = true /\ val f32 rs_logf_LN2_HI = IZR 90851 * bpow radix2 (-17).
Proof. split; [reflexivity|]. rewrite (val_lit f32 rs_logf_LN2_HI 90851 131072) by (vm_compute; reflexivity). change (bpow radix2 (-17)) with (/ 131072). lra. Qed.
Lemma ln2_e : Rabs (ln 2 - 90851 / 131072 - 9959377 / 1099511627776) <= / IZR (2 ^ 40).
Proof. pose proof ln2_b as H. apply Rabs_le_inv in H. change (2 ^ 86)%Z with 77371252455336267181195264%Z in H. change (2 ^ 40)%Z with 1099511627776%Z. apply Rabs_le. lra. Qed.
(** k <> 0 *)
Lemma log_knf f k : isbits f32 f -> finite f32 f = true -> (val f32 f <> 0 -> bpow radix2 (-60) <= Rabs (val f32 f)) -> -2930 / 10000 <= val f32 f <= 41425 / 100000 -> 4999 / 10000 <= (1 + val f32 f) * (1 + val f32 f) <= 20002 / 10000 -> (1 <= Z.abs k <= 151)%Z ->
  let y := fadd f32 (fadd f32 (lp32 f (fmul f32 (of_int f32 k) rs_logf_LN2_LO)) f) (fmul f32 (of_int f32 k) rs_logf_LN2_HI) in
  isbits f32 y /\ finite f32 y = true /\ Rabs (val f32 y - (IZR k * ln 2 + ln (1 + val f32 f))) <= bpow radix2 (- mw f32) * Rabs (IZR k * ln 2 + ln (1 + val f32 f)).
Proof.
  intros Bf Ff Lo Hf Hq Hk y. set (F := val f32 f) in *. assert (S1 : Rabs F <= 1) by (apply Rabs_le; lra).
  destruct (half_exact f32 0x3f000000 f ltac:(vm_compute; discriminate) ltac:(vm_compute; reflexivity) ltac:(vm_compute; discriminate) eq_refl) as (Bm & Fm & Vm). { rewrite (val_lit f32 0x3f000000 1 2) by (vm_compute; reflexivity). lra. } { exact Ff. } { exact Lo. } { exact S1. }
  fold F in Vm. destruct (log_G32 F ltac:(lra)) as [G1 G2]. pose proof (ln_half F Hf Hq) as HL. destruct lhi32f as [Fh Vh]. pose proof ln2_e as LB. pose proof ln2_c as LN.
  destruct (kc_exact f32 rs_logf_LN2_HI k 90851 (-17) 151 ltac:(vm_compute; discriminate) ltac:(vm_compute; reflexivity) Fh Vh ltac:(lia) ltac:(vm_compute; reflexivity) ltac:(split; vm_compute; discriminate) ltac:(vm_compute; discriminate)) as (Bd & Fd & Vd).
  set (l := IZR k * (ln 2 - 90851 / 131072)).
  pose proof (kmul k 151 _ _ (proj2 Hk) LB) as KL. replace (IZR k * (ln 2 - 90851 / 131072 - 9959377 / 1099511627776)) with (l - IZR k * (9959377 / 1099511627776)) in KL by (unfold l; lra).
  pose proof (kR _ _ (proj2 Hk)) as KK. change (2 ^ 40)%Z with 1099511627776%Z in KL, LB.
  assert (Ll : Rabs l <= 19 / 10000) by (apply Rabs_le; apply Rabs_le_inv in KL; lra).
  destruct (of_int_small f32 k ltac:(vm_compute; discriminate) ltac:(vm_compute; reflexivity) ltac:(lia)) as (Bk & Fk & Vk).
  assert (PL : 19 / 10000 <= fxr ql32). { unfold ql32, fxr. let v := eval vm_compute in (SC / 2 ^ 9)%Z in change (SC / 2 ^ 9)%Z with v. let v := eval vm_compute in SC in change SC with v. lra. }
  assert (Ll2 : - fxr ql32 <= l <= fxr ql32) by (apply Rabs_le_inv in Ll; lra).
  assert (AK : AP f32 1 (of_int f32 k) (IZR k) ((-151 * SC)%Z, (151 * SC)%Z, 0%Z)).
  { split; [now split|]. split; [|rewrite Vk, Rmult_1_l; unfold Rminus; rewrite Rplus_opp_r, Rabs_R0, fxr_0; lra]. rewrite !fxr_SC. lra. }
  set (dl := fmul f32 (of_int f32 k) rs_logf_LN2_LO) in *.
  assert (ALO : AP f32 1 dl l ((- ql32)%Z, ql32, em32)).
  { apy f32 1 (fmul f32 (of_int f32 k) rs_logf_LN2_LO) K. eapply (AP_mv _ _ _ _ _ _ _ (151 * (SC / 2 ^ 40))); [exact K| | |vm_compute; reflexivity].
    - rewrite Rabs_minus_sym. match goal with |- Rabs (l - ?e) <= _ => replace e with (IZR k * (9959377 / 1099511627776)) by lra end. eapply Rle_trans; [exact KL|].
      unfold fxr. let v := eval vm_compute in (151 * (SC / 2 ^ 40))%Z in change (151 * (SC / 2 ^ 40))%Z with v. let v := eval vm_compute in SC in change SC with v. lra.
    - rewrite fxr_opp. exact Ll2. }
  assert (GO : forall a b, lk32 a b 1275 -> fxr (q4 a) <= F <= fxr (q4 b) -> finite f32 (lp32 f dl) = true /\ Rabs (val f32 (lp32 f dl) + F - (ln (1 + F) + l)) <= 125 / 100 * uu f32).
  { intros a b HP Hab. assert (Z0 : forall c t, c = t -> Rabs (c - t) <= 1 * fxr 0) by (intros c t ->; unfold Rminus; rewrite Rplus_opp_r, Rabs_R0, fxr_0; lra).
    destruct (HP f dl F l) as [[B Fn] V].
    - split; [now split|]. split; [exact Hab|]. apply Z0. fold F. ring.
    - exact ALO.
    - split; [now split|]. split; [|apply Z0; rewrite Vm; ring]. pose proof (fxr_half (q4 a)). pose proof (fxr_half2 (q4 b)). lra.
    - split; [exact Fn|]. replace (val f32 (lp32 f dl) + F - (ln (1 + F) + l)) with ((val f32 (lp32 f dl) + F - (lG cl32 F + l)) + (lG cl32 F - ln (1 + F))) by ring. eapply Rle_trans; [apply Rabs_triang|].
      change (uu f32) with (/ 67108864). change (2 ^ 36)%Z with 68719476736%Z in V. change (2 ^ 33)%Z with 8589934592%Z in G1. lra. }
  assert (AL : finite f32 (lp32 f dl) = true /\ Rabs (val f32 (lp32 f dl) + F - (ln (1 + F) + l)) <= 125 / 100 * uu f32).
  { destruct (Rle_lt_dec F 0) as [N | N]; [|destruct (Rle_lt_dec F (fxr (q4 2800))) as [N2 | N2]; [|destruct (Rle_lt_dec F (fxr (q4 3700))) as [N3 | N3]]].
    - apply (GO _ _ lkAf). split; [apply q4_in2; lra|rewrite q4_0, fxr_0; lra].
    - apply (GO _ _ lkBf). rewrite q4_0, fxr_0. lra.
    - apply (GO _ _ lkCf). lra.
    - apply (GO _ _ lkDf). split; [lra|]. apply q4_in. lra. }
  destruct AL as [Fp HP].
  assert (VB : val f32 (fmul f32 (of_int f32 k) rs_logf_LN2_HI) + l = IZR k * ln 2). { rewrite Vd, mult_IZR. unfold l. change (bpow radix2 (-17)) with (/ 131072). lra. }
  apply (log_tail f32 f (lp32 f dl) (fmul f32 (of_int f32 k) rs_logf_LN2_HI) (k * 90851) (-17) k (ln (1 + F)) l ltac:(vm_compute; discriminate) ltac:(vm_compute; discriminate) Ff Fp Fd Vd ltac:(vm_compute; discriminate) HP HL); [lra|exact VB| |lia].
  unfold l. rewrite Rabs_mult, Rmult_comm. apply Rmult_le_compat_r; [apply Rabs_pos|]. apply Rabs_le. apply Rabs_le_inv in LB. change (2 ^ 40)%Z with 1099511627776%Z in LB. lra.
Qed.

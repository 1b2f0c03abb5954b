(** The kernel of log, f64: both cases. *)
From Coq Require Import ZArith Reals Lia Lra Bool List Psatz.
From Flocq Require Import Core.
From Verif Require Import Base Spec SpecFun2 Format P_format Ieee P_ieee P_real P_neg P_lit P_err P_scalbn P_apx P_poly P_poly2 P_poly3 P_powt P_powt8 P_taylor P_expa1 P_expa2 P_expa3 P_expa4 P_expa5 P_expa7 P_expa8 P_expa9 P_lga1 P_lga2 P_lga3 P_lga4 M_log.
Import ListNotations.
Open Scope R_scope.
Local Opaque fadd fsub fmul fdiv of_int.

Lemma peval_pos c z : forallb (fun q => (0 <=? fst q) && (0 <? snd q))%Z c = true -> 0 <= z -> 0 <= peval c z.
Proof.
  intros H Hz. induction c as [|[n d] c IH]; [cbn; lra|]. cbn [forallb fst snd] in H. rewrite !andb_true_iff, Z.leb_le, Z.ltb_lt in H. destruct H as [[H1 H2] H3]. cbn [peval fst snd].
  apply Rplus_le_le_0_compat; [|apply Rmult_le_pos; [exact Hz|now apply IH]]. apply Rmult_le_pos; [now apply IZR_le|left; apply Rinv_0_lt_compat; now apply (IZR_lt 0)].
Qed.
(** half of a number is exact *)
Lemma half_exact F h x : (8 <= ew F)%Z -> (10 < mw F)%Z -> (mw F <= 60)%Z -> finite F h = true -> val F h = / 2 -> finite F x = true -> (val F x <> 0 -> bpow radix2 (-60) <= Rabs (val F x)) -> Rabs (val F x) <= 1 -> isbits F (fmul F h x) /\ finite F (fmul F h x) = true /\ val F (fmul F h x) = / 2 * val F x.
Proof.
  intros EW MW MW2 Fh Vh Fx Hz Hx. pose proof (fmt_facts F) as FF. pose proof (bias_facts F) as BF. assert (B7 : (2 ^ 7 <= 2 ^ (ew F - 1))%Z) by (apply Z.pow_le_mono_r; lia). assert (BB : (127 <= bias F)%Z) by (unfold bias; lia).
  pose proof (fmul_spec F h x Fh Fx) as RT. rewrite Vh in RT. assert (A : Rabs (/ 2 * val F x) = / 2 * Rabs (val F x)) by (rewrite Rabs_mult, (Rabs_pos_eq (/ 2)) by lra; reflexivity).
  destruct (rounds_fin F _ _ _ RT) as [Fm Vm]. { rewrite A. apply Rle_trans with (bpow radix2 0); [cbn; lra|apply bpow_le; lia]. }
  split; [exact (proj1 RT)|]. split; [exact Fm|]. rewrite Vm. apply repr_rnd. destruct (Req_dec (val F x) 0) as [Z | Z]; [rewrite Z, Rmult_0_r; apply repr_0|]. specialize (Hz Z). rewrite (Rmult_comm (/ 2)). change (/ 2) with (bpow radix2 (-1)). apply repr_scale_any; [now apply repr_val|].
  change (bpow radix2 (-1)) with (/ 2). rewrite Rmult_comm, A. apply Rle_trans with (bpow radix2 (-61)); [apply bpow_le; unfold emin; lia|]. change (bpow radix2 (-61)) with (bpow radix2 (-1 + -60)). rewrite bpow_plus. change (bpow radix2 (-1)) with (/ 2). lra.
Qed.
(** adding a zero is exact *)
Lemma add_zero F v z : finite F v = true -> finite F z = true -> val F z = 0 -> Rabs (val F v) <= bpow radix2 (bias F) -> isbits F (fadd F v z) /\ finite F (fadd F v z) = true /\ val F (fadd F v z) = val F v.
Proof.
  intros Fv Fz Vz L. pose proof (fadd_spec F v z Fv Fz) as RT. rewrite Vz, Rplus_0_r in RT. destruct (rounds_fin F _ _ _ RT L) as [Fm Vm]. split; [exact (proj1 RT)|]. split; [exact Fm|]. rewrite Vm. apply repr_rnd, repr_val, Fv.
Qed.
Lemma q4_in n x : x < IZR n / 10000 - 1 / 1000000 -> x <= fxr (q4 n).
Proof. intros H. destruct (Rle_lt_dec x (fxr (q4 n))) as [A | A]; [exact A|]. apply Rlt_le, q4_ge in A. lra. Qed.
Lemma q4_in2 n x : IZR n / 10000 <= x -> fxr (q4 n) <= x.
Proof. intros H. pose proof (q4_le n (fxr (q4 n)) ltac:(lra)). lra. Qed.
Lemma q4_0 : q4 0 = 0%Z. Proof. reflexivity. Qed.
Lemma fxr_SC g : fxr (g * SC) = IZR g. Proof. unfold fxr. rewrite mult_IZR. field. pose proof SC_pos. lra. Qed.
Lemma fxr_half a : fxr (a / 2) <= / 2 * fxr a.
Proof. pose proof (Z.mul_div_le a 2 ltac:(lia)) as H. apply fxr_le in H. rewrite fxr_mulZ in H. lra. Qed.
Lemma fxr_half2 a : / 2 * fxr a <= fxr (cdiv a 2).
Proof. pose proof (cdiv_ge a 2 eq_refl) as H. unfold fxr. pose proof SC_pos. apply Rmult_le_reg_r with (IZR SC); [assumption|]. replace (/ 2 * (IZR a / IZR SC) * IZR SC) with (IZR a / 2) by (field; lra). replace (IZR (cdiv a 2) / IZR SC * IZR SC) with (IZR (cdiv a 2)) by (field; lra). exact H. Qed.
(** k = 0 *)
Lemma log_k0 f dl dh : isbits f64 f -> finite f64 f = true -> isbits f64 dl -> finite f64 dl = true -> val f64 dl = 0 -> finite f64 dh = true -> val f64 dh = 0 -> bpow radix2 (-60) <= Rabs (val f64 f) -> -2930 / 10000 <= val f64 f <= 41425 / 100000 ->
  let y := fadd f64 (fadd f64 (lp64 f dl) f) dh in isbits f64 y /\ finite f64 y = true /\ Rabs (val f64 y - ln (1 + val f64 f)) <= bpow radix2 (- mw f64) * Rabs (ln (1 + val f64 f)).
Proof.
  intros Bf Ff Bl Fl Vl Fh Vh Lo Hf y. set (F := val f64 f) in *. set (s := Rabs F) in *. assert (S0 : 0 < s) by (pose proof (bpow_gt_0 radix2 (-60)); lra). assert (S1 : s <= 1) by (apply Rabs_le; lra).
  assert (HS : scal f64 s 1). { split; [lra|]. split; [lia|]. apply Rle_trans with (bpow radix2 (-60) * fxr 1); [|apply Rmult_le_compat_r; [apply fxr_pos; lia|exact Lo]]. change 1%Z with (2 ^ (200 - 200))%Z. rewrite fxr_pow by lia. rewrite <- bpow_plus. apply bpow_le. vm_compute. discriminate. }
  destruct (half_exact f64 0x3fe0000000000000 f ltac:(vm_compute; discriminate) ltac:(vm_compute; reflexivity) ltac:(vm_compute; discriminate) eq_refl) as (Bm & Fm & Vm). { rewrite (val_lit f64 0x3fe0000000000000 1 2) by (vm_compute; reflexivity). lra. } { exact Ff. } { intros _; exact Lo. } { exact S1. }
  fold F in Vm.
  destruct (log_G64 F ltac:(lra)) as [G1 G2]. set (i := F / (2 + F)) in *. assert (I : Rabs i * (2 + F) = s). { unfold i, s. rewrite <- (Rabs_pos_eq (2 + F)) at 2 by lra. rewrite <- Rabs_mult. f_equal. field. lra. }
  assert (PP : 0 <= peval cl64 (i * i)) by (apply peval_pos; [vm_compute; reflexivity|nra]).
  assert (LL : 2 * Rabs i - Rabs i * / IZR (2 ^ 57) <= Rabs (ln (1 + F))).
  { assert (2 * Rabs i <= Rabs (lG cl64 F)). { rewrite lG_eq by lra. fold i. rewrite Rabs_mult, (Rabs_pos_eq (2 + _)) by lra. pose proof (Rabs_pos i). nra. }
    pose proof (Rabs_triang_inv (lG cl64 F) (lG cl64 F - ln (1 + F))) as T. replace (lG cl64 F - (lG cl64 F - ln (1 + F))) with (ln (1 + F)) in T by ring. lra. }
  assert (GO : forall g a b E, lz64 g a b E -> F = s * IZR g -> (g = 1 \/ g = -1)%Z -> fxr (q4 a) <= F <= fxr (q4 b) -> F <= IZR b / 10000 -> IZR E / IZR (2 ^ 65) * (2 + IZR b / 10000) + / IZR (2 ^ 57) <= bpow radix2 (- mw f64) * (2 - / IZR (2 ^ 57)) -> 0 <= IZR E ->
    isbits f64 y /\ finite f64 y = true /\ Rabs (val f64 y - ln (1 + F)) <= bpow radix2 (- mw f64) * Rabs (ln (1 + F))).
  { intros g a b E HP EG Hg Hab Hb HE HE0.
    assert (Z0 : forall c t, c = t -> Rabs (c - t) <= 1 * fxr 0) by (intros c t ->; unfold Rminus; rewrite Rplus_opp_r, Rabs_R0, fxr_0; lra).
    assert (Z1 : forall c t, c = s * t -> Rabs (c - s * t) <= s * fxr 0) by (intros c t ->; unfold Rminus; rewrite Rplus_opp_r, Rabs_R0, fxr_0; lra).
    destruct (HP f dl F s HS EG) as [[By Fy] Vy].
    - split; [now split|]. split; [exact Hab|]. apply Z0. fold F. ring.
    - split; [now split|]. split; [|apply Z0; rewrite Vm; ring]. pose proof (fxr_half (q4 a)). pose proof (fxr_half2 (q4 b)). lra.
    - split; [now split|]. split; [rewrite fxr_SC; lra|]. apply Z1. exact EG.
    - split; [now split|]. split; [|apply Z1; rewrite Vm; rewrite EG at 1; ring]. destruct Hg as [-> | ->]; [change (1 * SC / 2)%Z with (2 ^ (200 - 1))%Z; rewrite fxr_pow by lia|change (-1 * SC / 2)%Z with (- 2 ^ (200 - 1))%Z; rewrite fxr_opp, fxr_pow by lia]; change (bpow radix2 (-(1))) with (/ 2); lra.
    - split; [now split|]. rewrite fxr_0. split; [lra|]. rewrite Vl. unfold Rminus. rewrite Rmult_0_r, Rplus_0_l, Ropp_0, Rabs_R0. lra.
    - set (v := fadd f64 (lp64 f dl) f) in *.
      assert (D : Rabs (val f64 v - ln (1 + F)) <= bpow radix2 (- mw f64) * Rabs (ln (1 + F))).
      { replace (val f64 v - ln (1 + F)) with ((val f64 v - lG cl64 F) + (lG cl64 F - ln (1 + F))) by ring. eapply Rle_trans; [apply Rabs_triang|].
        apply Rle_trans with (bpow radix2 (- mw f64) * (2 * Rabs i - Rabs i * / IZR (2 ^ 57))); [|apply Rmult_le_compat_l; [apply bpow_ge_0|exact LL]].
        apply Rle_trans with (Rabs i * (IZR E / IZR (2 ^ 65) * (2 + IZR b / 10000) + / IZR (2 ^ 57))).
        - rewrite <- I in Vy. assert (0 <= IZR E / IZR (2 ^ 65)) by (apply Rmult_le_pos; [exact HE0|left; apply Rinv_0_lt_compat; now apply (IZR_lt 0)]). pose proof (Rabs_pos i).
          assert (Rabs i * (2 + F) * (IZR E / IZR (2 ^ 65)) <= Rabs i * ((2 + IZR b / 10000) * (IZR E / IZR (2 ^ 65)))). { rewrite Rmult_assoc. apply Rmult_le_compat_l; [assumption|]. apply Rmult_le_compat_r; lra. }
          lra.
        - replace (bpow radix2 (- mw f64) * (2 * Rabs i - Rabs i * / IZR (2 ^ 57))) with (Rabs i * (bpow radix2 (- mw f64) * (2 - / IZR (2 ^ 57)))) by ring. apply Rmult_le_compat_l; [apply Rabs_pos|exact HE]. }
      destruct (add_zero f64 v dh Fy Fh Vh) as (B & Fn & Vn).
      { assert (LB : Rabs (lG cl64 F) <= 4). { rewrite lG_eq by lra. fold i. assert (P4 : peval cl64 (i * i) <= 1). { apply Rabs_le_inv in G2. assert (0 <= i * i <= 2956 / 100000) by nra. cbn [cl64 peval fst snd]. set (w := i * i) in *. clearbody w. clear - H. nra. }
          rewrite Rabs_mult, (Rabs_pos_eq (2 + _)) by lra. pose proof (Rabs_pos i). nra. }
        apply Rle_trans with 16; [|change 16 with (bpow radix2 4); apply bpow_le; vm_compute; discriminate].
        replace (val f64 v) with ((val f64 v - lG cl64 F) + lG cl64 F) by ring. eapply Rle_trans; [apply Rabs_triang|].
        assert (s * (IZR E / IZR (2 ^ 65)) <= 8); [|lra]. assert (0 <= IZR E / IZR (2 ^ 65)) by (apply Rmult_le_pos; [exact HE0|left; apply Rinv_0_lt_compat; now apply (IZR_lt 0)]).
        assert (IZR E / IZR (2 ^ 65) <= 8); [|nra]. assert (0 < / IZR (2 ^ 57)) by (apply Rinv_0_lt_compat; now apply (IZR_lt 0)). assert (bpow radix2 (- mw f64) <= 1) by (change 1 with (bpow radix2 0); apply bpow_le; vm_compute; discriminate). pose proof (bpow_gt_0 radix2 (- mw f64)). nra. }
      unfold y. rewrite Vn. tauto. }
  change (2 ^ 65)%Z with 36893488147419103232%Z in GO. change (2 ^ 57)%Z with 144115188075855872%Z in GO. change (bpow radix2 (- mw f64)) with (/ 4503599627370496) in *.
  destruct (Rle_lt_dec F 0) as [N | N].
  - apply (GO _ _ _ _ lzA); try lra; [unfold s; rewrite Rabs_left1 by lra; change (IZR (-1)) with (-1); ring|now right|]. split; [apply q4_in2; lra|rewrite q4_0, fxr_0; lra].
  - assert (ES : F = s * 1) by (unfold s; rewrite Rabs_pos_eq by lra; ring).
    destruct (Rle_lt_dec F (fxr (q4 3000))) as [N2 | N2]; [|destruct (Rle_lt_dec F (fxr (q4 3600))) as [N3 | N3]].
    + pose proof (q4_le _ _ N2). apply (GO _ _ _ _ lzB); try lra; [now left|]. rewrite q4_0, fxr_0. lra.
    + pose proof (q4_le _ _ N3). apply (GO _ _ _ _ lzC); try lra. now left.
    + apply (GO _ _ _ _ lzD); try lra; [now left|]. split; [lra|]. apply q4_in. lra.
Qed.

Lemma ln_half f : -2930 / 10000 <= f <= 41425 / 100000 -> 4999 / 10000 <= (1 + f) * (1 + f) <= 20002 / 10000 -> Rabs (ln (1 + f)) <= 3467 / 10000.
Proof.
  intros H Q. pose proof ln2_c as LN. assert (I : forall t, 0 < t -> ln t <= t - 1). { intros t T. pose proof (exp_ineq1_le (ln t)). rewrite exp_ln in H0 by exact T. lra. }
  assert (E : ln ((1 + f) * (1 + f)) = 2 * ln (1 + f)) by (rewrite ln_mult by lra; ring). set (q := (1 + f) * (1 + f)) in *. clearbody q. apply Rabs_le. split.
  - pose proof (I (/ 2 * / q) ltac:(apply Rmult_lt_0_compat; [lra|apply Rinv_0_lt_compat; lra])) as K. rewrite ln_mult, !ln_Rinv in K; try lra; try (apply Rinv_0_lt_compat; lra). assert (/ q <= / (4999 / 10000)) by (apply Rinv_le; lra). lra.
  - pose proof (I (/ 2 * q) ltac:(lra)) as K. rewrite ln_mult, ln_Rinv in K by lra. lra.
Qed.
Lemma llo64 : rs_log_LN2_HI = M_exp.rs_exp_LN2HI /\ rs_log_LN2_LO = M_exp.rs_exp_LN2LO. Proof. split; reflexivity. Qed.
(** k <> 0 *)
Lemma log_kn f k : isbits f64 f -> finite f64 f = true -> (val f64 f <> 0 -> bpow radix2 (-60) <= Rabs (val f64 f)) -> -2930 / 10000 <= val f64 f <= 41425 / 100000 -> 4999 / 10000 <= (1 + val f64 f) * (1 + val f64 f) <= 20002 / 10000 -> (1 <= Z.abs k <= 1077)%Z ->
  let y := fadd f64 (fadd f64 (lp64 f (fmul f64 (of_int f64 k) rs_log_LN2_LO)) f) (fmul f64 (of_int f64 k) rs_log_LN2_HI) in
  isbits f64 y /\ finite f64 y = true /\ Rabs (val f64 y - (IZR k * ln 2 + ln (1 + val f64 f))) <= bpow radix2 (- mw f64) * Rabs (IZR k * ln 2 + ln (1 + val f64 f)).
Proof.
  intros Bf Ff Lo Hf Hq Hk y. set (F := val f64 f) in *. assert (S1 : Rabs F <= 1) by (apply Rabs_le; lra).
  destruct (half_exact f64 0x3fe0000000000000 f ltac:(vm_compute; discriminate) ltac:(vm_compute; reflexivity) ltac:(vm_compute; discriminate) eq_refl) as (Bm & Fm & Vm). { rewrite (val_lit f64 0x3fe0000000000000 1 2) by (vm_compute; reflexivity). lra. } { exact Ff. } { exact Lo. } { exact S1. }
  fold F in Vm. destruct (log_G64 F ltac:(lra)) as [G1 G2]. pose proof (ln_half F Hf Hq) as HL. destruct lhi64 as [Fh Vh]. pose proof ln2_b as LB. pose proof ln2_c as LN.
  destruct (kc_exact f64 rs_log_LN2_HI k 2977044471 (-32) 1077 ltac:(vm_compute; discriminate) ltac:(vm_compute; reflexivity) Fh Vh ltac:(lia) ltac:(vm_compute; reflexivity) ltac:(split; vm_compute; discriminate) ltac:(vm_compute; discriminate)) as (Bd & Fd & Vd).
  set (l := IZR k * (ln 2 - 2977044471 / 4294967296)).
  pose proof (kmul k 1077 _ _ (proj2 Hk) LB) as KL. replace (IZR k * (ln 2 - 2977044471 / 4294967296 - 7382048951581814 / 38685626227668133590597632)) with (l - IZR k * (7382048951581814 / 38685626227668133590597632)) in KL by (unfold l; lra).
  pose proof (kR _ _ (proj2 Hk)) as KK. change (2 ^ 86)%Z with 77371252455336267181195264%Z in KL, LB.
  assert (Ll : Rabs l <= 3 / 10000000) by (apply Rabs_le; apply Rabs_le_inv in KL; lra).
  destruct (of_int_small f64 k ltac:(vm_compute; discriminate) ltac:(vm_compute; reflexivity) ltac:(lia)) as (Bk & Fk & Vk).
  assert (PL : 23 / 100000000 <= fxr pl64). { unfold pl64, fxr. let v := eval vm_compute in (SC / 2 ^ 22)%Z in change (SC / 2 ^ 22)%Z with v. let v := eval vm_compute in SC in change SC with v. lra. }
  assert (Ll2 : - fxr pl64 <= l <= fxr pl64) by (apply Rabs_le_inv in KL; lra).
  assert (AK : AP f64 1 (of_int f64 k) (IZR k) ((-1077 * SC)%Z, (1077 * SC)%Z, 0%Z)).
  { split; [now split|]. split; [|rewrite Vk, Rmult_1_l; unfold Rminus; rewrite Rplus_opp_r, Rabs_R0, fxr_0; lra]. rewrite !fxr_SC. lra. }
  set (dl := fmul f64 (of_int f64 k) rs_log_LN2_LO) in *.
  assert (ALO : AP f64 1 dl l ((- pl64)%Z, pl64, el64)).
  { apy f64 1 (fmul f64 (of_int f64 k) rs_log_LN2_LO) K. eapply (AP_mv _ _ _ _ _ _ _ (1077 * (SC / 2 ^ 86))); [exact K| | |vm_compute; reflexivity].
    - rewrite Rabs_minus_sym. match goal with |- Rabs (l - ?e) <= _ => replace e with (IZR k * (7382048951581814 / 38685626227668133590597632)) by lra end. eapply Rle_trans; [exact KL|].
      unfold fxr. let v := eval vm_compute in (1077 * (SC / 2 ^ 86))%Z in change (1077 * (SC / 2 ^ 86))%Z with v. let v := eval vm_compute in SC in change SC with v. lra.
    - rewrite fxr_opp. exact Ll2. }
  assert (GO : forall a b, lk64 a b 1230 -> fxr (q4 a) <= F <= fxr (q4 b) -> finite f64 (lp64 f dl) = true /\ Rabs (val f64 (lp64 f dl) + F - (ln (1 + F) + l)) <= 125 / 100 * uu f64).
  { intros a b HP Hab. assert (Z0 : forall c t, c = t -> Rabs (c - t) <= 1 * fxr 0) by (intros c t ->; unfold Rminus; rewrite Rplus_opp_r, Rabs_R0, fxr_0; lra).
    destruct (HP f dl F l) as [[B Fn] V].
    - split; [now split|]. split; [exact Hab|]. apply Z0. fold F. ring.
    - exact ALO.
    - split; [now split|]. split; [|apply Z0; rewrite Vm; ring]. pose proof (fxr_half (q4 a)). pose proof (fxr_half2 (q4 b)). lra.
    - split; [exact Fn|]. replace (val f64 (lp64 f dl) + F - (ln (1 + F) + l)) with ((val f64 (lp64 f dl) + F - (lG cl64 F + l)) + (lG cl64 F - ln (1 + F))) by ring. eapply Rle_trans; [apply Rabs_triang|].
      change (uu f64) with (/ 36028797018963968). change (2 ^ 65)%Z with 36893488147419103232%Z in V. change (2 ^ 57)%Z with 144115188075855872%Z in G1. lra. }
  assert (AL : finite f64 (lp64 f dl) = true /\ Rabs (val f64 (lp64 f dl) + F - (ln (1 + F) + l)) <= 125 / 100 * uu f64).
  { destruct (Rle_lt_dec F 0) as [N | N]; [|destruct (Rle_lt_dec F (fxr (q4 2800))) as [N2 | N2]; [|destruct (Rle_lt_dec F (fxr (q4 3700))) as [N3 | N3]]].
    - apply (GO _ _ lkA). split; [apply q4_in2; lra|rewrite q4_0, fxr_0; lra].
    - apply (GO _ _ lkB). rewrite q4_0, fxr_0. lra.
    - apply (GO _ _ lkC). lra.
    - apply (GO _ _ lkD). split; [lra|]. apply q4_in. lra. }
  destruct AL as [Fp HP].
  assert (VB : val f64 (fmul f64 (of_int f64 k) rs_log_LN2_HI) + l = IZR k * ln 2). { rewrite Vd, mult_IZR. unfold l. change (bpow radix2 (-32)) with (/ 4294967296). lra. }
  apply (log_tail f64 f (lp64 f dl) (fmul f64 (of_int f64 k) rs_log_LN2_HI) (k * 2977044471) (-32) k (ln (1 + F)) l ltac:(vm_compute; discriminate) ltac:(vm_compute; discriminate) Ff Fp Fd Vd ltac:(vm_compute; discriminate) HP HL); [lra|exact VB| |lia].
  unfold l. rewrite Rabs_mult, Rmult_comm. apply Rmult_le_compat_r; [apply Rabs_pos|]. apply Rabs_le. apply Rabs_le_inv in LB. lra.
Qed.

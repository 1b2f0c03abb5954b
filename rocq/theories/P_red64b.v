(** The medium path of the f64 argument reduction (rem_pio2.rs 51-85) and the short cuts for the first multiples of pi/2 (lines 91-159). *)
From Coq Require Import ZArith Reals Lia Lra Bool List Psatz.
From Flocq Require Import Core.
From Verif Require Import Base Spec Format P_format Ieee P_ieee P_real P_neg P_key P_elem P_elem2 P_lit P_ival P_ival2 P_err P_cf P_fx P_pibound P_medf P_rem P_tot P_red64 M_basic M_elib M_rempio2.
Import ListNotations.
Open Scope Z_scope.
Open Scope fl_scope.

Lemma dec64 x : isbits f64 x -> 2 ^ 52 <= a64 x < 0x7ff0000000000000 ->
  exists M, 2 ^ 52 <= Z.abs M < 2 ^ 53 /\ fx x M (a64 x / 2 ^ 52 - 1075) /\ (M <? 0) = signbit f64 x /\ Z.abs M = 2 ^ 52 + a64 x - 2 ^ 52 * (a64 x / 2 ^ 52).
Proof.
  intros B H. pose proof (magz64 x B) as E. pose proof (fields_range f64 x) as [R1 R2]. change (2 ^ mw f64) with (2 ^ 52) in R1.
  assert (Q : a64 x / 2 ^ 52 = expf f64 x) by (symmetry; apply (Z.div_unique _ _ _ (sigf f64 x)); lia).
  assert (R3 : 0 < expf f64 x < 2047) by lia.
  assert (Fi : finite f64 x = true) by (rewrite fin64 by exact B; apply Z.ltb_lt; lia).
  set (M := if signbit f64 x then - (2 ^ 52 + sigf f64 x) else 2 ^ 52 + sigf f64 x). exists M.
  split; [unfold M; destruct (signbit f64 x); lia|]. split; [split; [exact B|split; [exact Fi|]]|split].
  - unfold val, mag_of. rewrite Q. rewrite (proj2 (Z.eqb_neq _ _)) by lia. change (mw f64) with 52. replace (expf f64 x - bias f64 - 52) with (expf f64 x - 1075) by (change (bias f64) with 1023; lia).
    unfold M, sval. destruct (signbit f64 x); [rewrite opp_IZR; ring|reflexivity].
  - unfold M. destruct (signbit f64 x); [apply Z.ltb_lt; lia|apply Z.ltb_ge; lia].
  - rewrite Q. unfold M. destruct (signbit f64 x); lia.
Qed.
Lemma expo_eq y : isbits f64 y -> expo y = expf f64 y.
Proof.
  intros B. unfold expo, expf. change (mw f64) with 52. change (ew f64) with 11. rewrite Z.shiftr_div_pow2 by lia. change 0x7ff with (2 ^ 11 - 1). rewrite land_pow2m1 by lia.
  destruct (bits64 y B) as [E R]. assert (0 <= y / 2 ^ 52 < 2 ^ 12) by (split; [apply Z.div_pos; destruct (signbit f64 y); unfold bs in *; lia|apply Z.div_lt_upper_bound; destruct (signbit f64 y); unfold bs in *; lia]).
  rewrite to_i_small by (change (2 ^ (32 - 1)) with 2147483648; lia). reflexivity.
Qed.
Lemma abs_val y : Rabs (val f64 y) = mag_of f64 (expf f64 y) (sigf f64 y).
Proof.
  unfold val. assert (H : (0 <= mag_of f64 (expf f64 y) (sigf f64 y))%R).
  { pose proof (fields_range f64 y) as [R1 R2]. unfold mag_of. destruct (_ =? 0); apply Rmult_le_pos; try apply bpow_ge_0; apply (IZR_le 0); change (2 ^ mw f64) with (2 ^ 52) in *; lia. }
  unfold sval. destruct (signbit f64 y); [rewrite Rabs_Ropp|]; apply Rabs_pos_eq; exact H.
Qed.
Lemma expf_lo y k : 1 <= k <= expf f64 y -> (bpow radix2 (k - 1023) <= Rabs (val f64 y))%R.
Proof.
  intros H. rewrite abs_val. pose proof (fields_range f64 y) as [R1 R2]. change (2 ^ mw f64) with (2 ^ 52) in *. unfold mag_of. rewrite (proj2 (Z.eqb_neq _ _)) by lia. change (mw f64) with 52. change (bias f64) with 1023.
  apply Rle_trans with (bpow radix2 52 * bpow radix2 (expf f64 y - 1023 - 52))%R; [rewrite <- bpow_plus; apply bpow_le; lia|]. apply Rmult_le_compat_r; [apply bpow_ge_0|].
  change (bpow radix2 52) with (IZR (2 ^ 52)). apply IZR_le. lia.
Qed.
Lemma expf_hi y k : expf f64 y <= k -> 1 <= k -> (Rabs (val f64 y) <= bpow radix2 (k - 1022))%R.
Proof.
  intros H H1. rewrite abs_val. pose proof (fields_range f64 y) as [R1 R2]. change (2 ^ mw f64) with (2 ^ 52) in *. unfold mag_of. change (mw f64) with 52. change (bias f64) with 1023. destruct (Z.eqb_spec (expf f64 y) 0) as [E | E].
  - apply Rle_trans with (bpow radix2 52 * bpow radix2 (1 - 1023 - 52))%R; [|rewrite <- bpow_plus; apply bpow_le; lia]. apply Rmult_le_compat_r; [apply bpow_ge_0|].
    change (bpow radix2 52) with (IZR (2 ^ 52)). apply IZR_le. lia.
  - apply Rle_trans with (bpow radix2 53 * bpow radix2 (expf f64 y - 1023 - 52))%R; [|rewrite <- bpow_plus; apply bpow_le; lia]. apply Rmult_le_compat_r; [apply bpow_ge_0|].
    change (bpow radix2 53) with (IZR (2 ^ 53)). apply IZR_le. lia.
Qed.
Lemma absval64 lo hi x : isbits f64 x -> 0 <= lo -> lo <= a64 x <= hi -> hi < 0x7ff0000000000000 -> (val f64 lo <= Rabs (val f64 x) <= val f64 hi)%R.
Proof.
  intros B L H Hh. assert (P : forall a, 0 <= a < 0x7ff0000000000000 -> (0 <= val f64 a)%R).
  { intros a Ha. apply val_sign_nonneg. unfold signbit. change (mw f64 + ew f64) with 63. apply Z.leb_gt. lia. }
  pose proof (P lo ltac:(lia)) as P1. pose proof (P hi ltac:(lia)) as P2.
  destruct (signbit f64 x) eqn:S.
  - destruct (IN_neg64 lo hi x B S L H Hh) as (_ & _ & I). cbn [fst snd] in I. rewrite !fneg_val in I by (split; [lia|]; change (2 ^ width f64) with (2 ^ 64); lia). rewrite Rabs_left1 by lra. lra.
  - destruct (IN_pos64 lo hi x B S L H Hh) as (_ & _ & I). cbn [fst snd] in I. rewrite Rabs_pos_eq by lra. lra.
Qed.
(** ** The quotient *)
Lemma quot_ok x : finite f64 x = true -> (1.5 <= Rabs (val f64 x) <= 1647100)%R ->
  exists n, fx (((x *: INV_PIO2) +: TO_INT) -: TO_INT) n 0 /\ (Rabs (val f64 x - IZR n * (PI / 2)) <= 0.785399)%R /\ Z.abs n <= 1048577 /\ (Rabs (IZR n) <= 1.3 * Rabs (val f64 x))%R.
Proof.
  intros Fx HX. set (X := val f64 x) in *.
  assert (FI : finite f64 INV_PIO2 = true) by (vm_compute; reflexivity).
  destruct (mul64 x INV_PIO2 1647100 Fx FI) as [Fq Eq]; [|apply big1000; lra|].
  { fold X. rewrite INV_val, Rabs_mult. rewrite (Rabs_pos_eq (_ / _)) by lra. pose proof (Rabs_pos X). lra. }
  fold X in Eq. rewrite INV_val in Eq. pose proof (rnd64_err (X * (5734161139222659 / 9007199254740992))) as Qe. rewrite <- Eq in Qe. set (q := fmul f64 x INV_PIO2) in *. set (Q := val f64 q) in *.
  pose proof tiny200 as T. set (t := bpow radix2 (-200)) in *. rewrite Rabs_mult, (Rabs_pos_eq (_ / _)) in Qe by lra.
  assert (Qe' : (Rabs (Q - X * (5734161139222659 / 9007199254740992)) <= / 4294967296)%R) by (pose proof (Rabs_pos X); lra). clear Qe.
  assert (QB : (Rabs Q <= 1647100)%R). { replace Q with ((Q - X * (5734161139222659 / 9007199254740992)) + X * (5734161139222659 / 9007199254740992))%R by ring. eapply Rle_trans; [apply Rabs_triang|]. rewrite (Rabs_mult X), (Rabs_pos_eq (_ / _)) by lra. lra. }
  destruct (toint_ok q Fq) as (n & FN & HN); [fold Q; lra|]. fold Q in HN. change TO_INT with TOINT_f. exists n. split; [exact FN|].
  pose proof PI_lo_hi as HP. apply Rabs_le_inv in HN. apply Rabs_le_inv in Qe'.
  assert (HR : (Rabs (X - IZR n * (PI / 2)) <= 0.785399)%R).
  { assert (Hv : (Rabs (X * (5734161139222659 / 9007199254740992) - X * (2 / PI)) <= / 4294967296)%R).
    { rewrite <- Rmult_minus_distr_l, Rabs_mult. assert (Rabs (5734161139222659 / 9007199254740992 - 2 / PI) <= / 9007199254740992)%R.
      { assert (0 < / PI)%R by (apply Rinv_0_lt_compat; lra). assert (/ PI * PI = 1)%R by (apply Rinv_l; lra). unfold Rdiv. apply Rabs_le. split; nra. }
      pose proof (Rabs_pos X). pose proof (Rabs_pos (5734161139222659 / 9007199254740992 - 2 / PI)). nra. }
    apply Rabs_le_inv in Hv. assert (Hn2 : (Rabs (X * (2 / PI) - IZR n) <= / 2 + / 1073741824)%R) by (apply Rabs_le; lra).
    replace (X - IZR n * (PI / 2))%R with ((X * (2 / PI) - IZR n) * (PI / 2))%R by (field; lra). rewrite Rabs_mult, (Rabs_pos_eq (PI / 2)) by lra. pose proof (Rabs_pos (X * (2 / PI) - IZR n)). nra. }
  split; [exact HR|].
  assert (HN2 : (Rabs (IZR n) <= 0.6366198 * Rabs X + 0.5001)%R).
  { replace (IZR n) with ((IZR n - Q) + (Q - X * (5734161139222659 / 9007199254740992)) + X * (5734161139222659 / 9007199254740992))%R by ring. eapply Rle_trans; [apply abs3|].
    rewrite (Rabs_mult X), (Rabs_pos_eq (_ / _)) by lra. assert (Rabs (IZR n - Q) <= / 2)%R by (apply Rabs_le; lra). assert (Rabs (Q - X * (5734161139222659 / 9007199254740992)) <= / 4294967296)%R by (apply Rabs_le; lra). pose proof (Rabs_pos X). lra. }
  split; [|lra]. enough (Z.abs n < 1048578) by lia. apply lt_IZR. rewrite abs_IZR. lra.
Qed.
Lemma fx_p1 : fx PIO2_1 1686629713 (-30). Proof. split; [split; [discriminate|reflexivity]|split; [reflexivity|]]. rewrite p1_val. unfold p1. change (bpow radix2 (-30)) with (/ 1073741824)%R. lra. Qed.
Lemma fx_p2 : fx PIO2_2 2242054355 (-65). Proof. split; [split; [discriminate|reflexivity]|split; [reflexivity|]]. rewrite p2_val. unfold p2. change (bpow radix2 (-65)) with (/ 36893488147419103232)%R. lra. Qed.
Lemma fx_p3 : fx PIO2_3 160220439 (-96). Proof. split; [split; [discriminate|reflexivity]|split; [reflexivity|]]. rewrite p3_val. unfold p3. change (bpow radix2 (-96)) with (/ 79228162514264337593543950336)%R. lra. Qed.
(** the product of the quotient with the tail of a splitting *)
Lemma tail_ok fn n c pt : fx fn n 0 -> Z.abs n <= 1048577 -> finite f64 c = true -> val f64 c = pt -> (0 < pt <= 1e-6)%R ->
  finite f64 (fn *: c) = true /\ (Rabs (val f64 (fn *: c) - IZR n * pt) <= u * Rabs (IZR n * pt) + bpow radix2 (-200))%R /\ (Rabs (val f64 (fn *: c)) <= 2.2)%R.
Proof.
  intros (Bn & Fn & Vn) Hn Fc Vc Hp. change (bpow radix2 0) with 1%R in Vn. rewrite Rmult_1_r in Vn.
  assert (NB : (Rabs (IZR n) <= 1048577)%R) by (rewrite <- abs_IZR; apply IZR_le; exact Hn).
  assert (WB : (Rabs (IZR n * pt) <= 2)%R) by (rewrite Rabs_mult, (Rabs_pos_eq pt) by lra; pose proof (Rabs_pos (IZR n)); nra).
  destruct (mul64 fn c 2 Fn Fc) as [Fw Ew]; [rewrite Vn, Vc; exact WB|apply big1000; lra|]. rewrite Vn, Vc in Ew.
  pose proof (rnd64_err (IZR n * pt)) as We. rewrite <- Ew in We. split; [exact Fw|split; [exact We|]].
  destruct (absle _ _ _ We) as [W1 _]. pose proof tiny200. lra.
Qed.
(** the product of the quotient with the head of a splitting, subtracted: the error term is exact *)
Lemma head_ok t fn n c Tm Pm e : fx t Tm (-e) -> fx fn n 0 -> fx c Pm (-e) -> 53 <= e <= 200 -> Z.abs n <= 1048577 -> 0 < Pm -> 1048577 * Pm <= 2 ^ 52 -> (Rabs (val f64 t) <= 8)%R -> (IZR Pm * bpow radix2 (- e) <= 1e-6)%R ->
  let b := fn *: c in let s := t -: b in let dl := (t -: s) -: b in
  fx b (n * Pm) (- e) /\ finite f64 s = true /\ finite f64 dl = true /\ val f64 s = rnd f64 (IZR (Tm - n * Pm) * bpow radix2 (- e)) /\ (val f64 dl = IZR (Tm - n * Pm) * bpow radix2 (- e) - val f64 s)%R /\
  (Rabs (val f64 s) <= 16)%R /\ (Rabs (val f64 dl) <= 1)%R.
Proof.
  intros Ft Fn Fc He Hn HP HP2 HT HQ b s dl.
  assert (NP : Z.abs (n * Pm) <= 2 ^ 52) by (rewrite Z.abs_mul; nia).
  assert (Fb : fx b (n * Pm) (- e)) by (apply (fx_mul fn c n Pm 0 (- e)); [exact Fn|exact Fc|lia|lia]).
  pose proof Ft as (Bt & Fit & Vt). pose proof Fb as (Bb & Fib & Vb).
  assert (PB : (0 < bpow radix2 (- e))%R) by apply bpow_gt_0.
  assert (VB : (Rabs (val f64 b) <= 2)%R).
  { rewrite Vb, Rabs_mult, (Rabs_pos_eq (bpow _ _)) by lra. rewrite <- abs_IZR, Z.abs_mul, mult_IZR, (Z.abs_eq Pm) by lia. assert (IZR (Z.abs n) <= 1048577)%R by (apply IZR_le; lia). assert (0 <= IZR (Z.abs n))%R by (apply (IZR_le 0); lia).
    assert (0 <= IZR Pm * bpow radix2 (- e))%R by (apply Rmult_le_pos; [apply (IZR_le 0); lia|lra]). nra. }
  assert (EAB : (val f64 t - val f64 b = IZR (Tm - n * Pm) * bpow radix2 (- e))%R) by (rewrite Vt, Vb, minus_IZR; ring).
  destruct (two_sub t b Bt Fit Fib ltac:(lra) ltac:(lra)) as (Fs & Fd & Ed & Es).
  { destruct (Rle_lt_dec (Rabs (val f64 b)) (Rabs (val f64 t))) as [L | L]; [left; exact L|right]. rewrite EAB. apply repr_int; [|cbn; lia].
    rewrite Vt, Vb, !Rabs_mult, (Rabs_pos_eq (bpow _ _)) in L by lra. apply Rmult_lt_reg_r in L; [|exact PB]. rewrite <- !abs_IZR in L. apply lt_IZR in L. change (2 ^ (mw f64 + 1)) with (2 ^ 53). lia. }
  fold s dl in Fs, Fd, Ed, Es. rewrite EAB in Ed, Es. split; [exact Fb|]. split; [exact Fs|]. split; [exact Fd|]. split; [exact Es|]. split; [exact Ed|].
  assert (Q : (Rabs (IZR (Tm - n * Pm) * bpow radix2 (- e)) <= 10)%R) by (rewrite <- EAB; eapply Rle_trans; [apply Rabs_triang|]; rewrite Rabs_Ropp; lra).
  split.
  - rewrite Es. apply rnd_bounded; [change 16%R with (bpow radix2 4); apply repr_bpow; cbn; lia|lra].
  - rewrite Ed, Es, Rabs_minus_sym. eapply Rle_trans; [apply rnd64_err|]. pose proof tiny200. lra.
Qed.
(** the corrected tail *)
Lemma corr_ok wa dl A : finite f64 wa = true -> finite f64 dl = true -> (Rabs (val f64 wa) <= 2.2)%R -> (Rabs (val f64 dl) <= 1)%R -> A = (val f64 wa - val f64 dl)%R ->
  finite f64 (wa -: dl) = true /\ (Rabs (val f64 (wa -: dl) - A) <= u * Rabs A + bpow radix2 (-200))%R /\ (Rabs (val f64 (wa -: dl)) <= 4)%R.
Proof.
  intros Fa Fd Ha Hd ->. assert (B : (Rabs (val f64 wa - val f64 dl) <= 3.2)%R) by (eapply Rle_trans; [apply Rabs_triang|]; rewrite Rabs_Ropp; lra).
  destruct (sub64 wa dl 3.2 Fa Fd B ltac:(apply big1000; lra)) as [F E]. split; [exact F|]. rewrite E. split; [apply rnd64_err|].
  apply rnd_bounded; [change 4%R with (bpow radix2 2); apply repr_bpow; cbn; lia|lra].
Qed.
(** the result pair *)
Lemma weak20 a b : (a <= / 295147905179352825856 * Rabs b)%R -> (a <= 4e-20 * Rabs b)%R.
Proof. pose proof (Rabs_pos b). lra. Qed.
Lemma pair_ok X n s w : isbits f64 s -> finite f64 s = true -> finite f64 w = true -> (Rabs (val f64 s) <= 16)%R -> (Rabs (val f64 w) <= Rabs (val f64 s))%R ->
  let r := (X - IZR n * (PI / 2))%R in let S := val f64 s in let W := val f64 w in
  (Rabs (S - W - r) <= 4e-20 * Rabs (S - W))%R -> (bpow radix2 (-61) <= Rabs r <= 0.785405)%R ->
  red64 X n (s -: w) ((s -: (s -: w)) -: w).
Proof.
  intros Bs Fs Fw Hs Hw r S W HE Hr. destruct (two_sub s w Bs Fs Fw Hs ltac:(lra) (or_introl Hw)) as (F0 & F1 & E1 & E0).
  apply (last_step X n S W); try assumption; try apply fsub_isbits.
Qed.
(** the first subtraction is exact *)
Lemma first_ok x fn n Mx c P : fx x Mx (-53) -> fx c (n * 1686629713) (-30) -> Z.abs n <= 1048577 -> (Rabs (val f64 x - IZR n * (PI / 2)) <= 0.785405)%R -> P = (Mx - n * 1686629713 * 2 ^ 23) ->
  fn = x -: c -> fx fn P (-53) /\ val f64 fn = (val f64 x - IZR n * p1)%R /\ (Rabs (val f64 fn) <= 0.7856)%R.
Proof.
  intros Fx Fc Hn HR -> ->. pose proof Fx as (Bx & Fix & Vx).
  assert (NB : (Rabs (IZR n) <= 1048577)%R) by (rewrite <- abs_IZR; apply IZR_le; exact Hn).
  assert (Ed : (IZR (Mx - n * 1686629713 * 2 ^ 23) * bpow radix2 (-53) = val f64 x - IZR n * p1)%R).
  { rewrite Vx, minus_IZR, !mult_IZR. unfold p1. change (IZR (2 ^ 23)) with 8388608%R. change (bpow radix2 (-53)) with u. lra. }
  assert (Db : (Rabs (val f64 x - IZR n * p1) <= 0.7856)%R).
  { replace (val f64 x - IZR n * p1)%R with ((val f64 x - IZR n * (PI / 2)) + IZR n * (PI / 2 - p1))%R by ring. eapply Rle_trans; [apply Rabs_triang|]. rewrite (Rabs_mult (IZR n)).
    pose proof PI_lo_hi. assert (Rabs (PI / 2 - p1) <= 7e-11)%R by (unfold p1; apply Rabs_le; lra). pose proof (Rabs_pos (IZR n)). pose proof (Rabs_pos (PI / 2 - p1)). nra. }
  assert (Fd : fx (x -: c) (Mx - n * 1686629713 * 2 ^ 23) (-53)).
  { apply fx_sub; [exact Fx|apply fx_shift; [lia|exact Fc]| |lia]. apply le_IZR. rewrite abs_IZR.
    replace (IZR (Mx - n * 1686629713 * 2 ^ 23)) with ((val f64 x - IZR n * p1) * 9007199254740992)%R by (rewrite <- Ed; change (bpow radix2 (-53)) with u; lra).
    rewrite Rabs_mult, (Rabs_pos_eq 9007199254740992) by lra. change (IZR (2 ^ 53)) with 9007199254740992%R. lra. }
  split; [exact Fd|]. destruct Fd as (_ & _ & ->). rewrite Ed. split; [reflexivity|exact Db].
Qed.
Lemma expo_ge x d y0 : isbits f64 y0 -> 1020 <= expf f64 x -> expf f64 x - expo y0 <= d -> 0 <= d <= 60 -> (bpow radix2 (- d - 1) * Rabs (val f64 x) <= Rabs (val f64 y0))%R.
Proof.
  intros B Hx H Hd. rewrite expo_eq in H by exact B. pose proof (expf_lo y0 (expf f64 x - d) ltac:(lia)) as L. pose proof (expf_hi x (expf f64 x) ltac:(lia) ltac:(lia)) as U.
  eapply Rle_trans; [|exact L]. replace (expf f64 x - d - 1023) with ((- d - 1) + (expf f64 x - 1022)) by lia. rewrite bpow_plus. apply Rmult_le_compat_l; [apply bpow_ge_0|exact U].
Qed.
Lemma expo_le x d y0 : isbits f64 y0 -> d + 2 <= expf f64 x -> d < expf f64 x - expo y0 -> (Rabs (val f64 y0) <= bpow radix2 (expf f64 x - d - 1023))%R.
Proof.
  intros B Hx H. rewrite expo_eq in H by exact B. destruct (fields_range f64 y0) as [_ R]. pose proof (expf_hi y0 (expf f64 x - d - 1) ltac:(lia) ltac:(lia)) as U. eapply Rle_trans; [exact U|]. apply bpow_le. lia.
Qed.
Lemma small2 (X N S W Wa Y T : R) : (Rabs N <= 1048577)%R -> T = (X - N * p1 - N * p2)%R -> (Rabs (T - S) <= u * Rabs T + bpow radix2 (-200))%R ->
  (Rabs (Wa - N * p2t) <= u * Rabs (N * p2t) + bpow radix2 (-200))%R -> (Rabs (W - (Wa - (T - S))) <= u * Rabs (Wa - (T - S)) + bpow radix2 (-200))%R ->
  (Rabs (Y - (S - W)) <= u * Rabs (S - W) + bpow radix2 (-200))%R -> (Rabs Y <= / 536870912)%R -> (Rabs T <= / 134217728)%R.
Proof.
  intros HN ET S2e Ewa Ew2 Y2e L. rewrite ET in S2e, Ew2.
  destruct (stg (X - N * p1) N p2 p2t 0 S W Wa ltac:(unfold p2t; lra) S2e Ewa Ew2) as [_ Q]. rewrite <- ET in *. pose proof tiny200 as Tn.
  assert (PP : (Rabs N * p2t <= 1048577 * 2.03e-21)%R) by (pose proof (Rabs_pos N); apply Rmult_le_compat; [lra|unfold p2t; lra|lra|unfold p2t; lra]).
  destruct (absle _ _ _ Y2e) as [_ Q2]. destruct (absle _ _ _ S2e) as [Q3 _].
  assert (R1 : (Rabs S <= Rabs (S - W) + Rabs W)%R) by (replace S with ((S - W) + W)%R at 1 by ring; apply Rabs_triang).
  clear - PP Q Q2 Q3 R1 L Tn. revert PP Q Q2 Q3 R1 L Tn. generalize (Rabs N * p2t)%R (Rabs (S - W)) (Rabs W) (Rabs T) (Rabs S) (Rabs Y) (bpow radix2 (-200)). intros. lra.
Qed.
Theorem rem_pio2_medium_red x : isbits f64 x -> 0x3ff921fb <= a64 x / 2 ^ 32 < 0x413921fb ->
  exists n y0 y1, rs_rem_pio2_medium x (a64 x / 2 ^ 32) = Some (n, y0, y1) /\ red64 (val f64 x) n y0 y1 /\ Z.abs n <= 1048577.
Proof.
  intros B H. pose proof (Z.div_mod (a64 x) (2 ^ 32) ltac:(lia)) as DM. pose proof (Z.mod_pos_bound (a64 x) (2 ^ 32) ltac:(lia)) as MB.
  pose proof (absval64 0x3ff921fb00000000 0x413921fb00000000 x B ltac:(lia) ltac:(lia) ltac:(lia)) as XB.
  assert (V1 : val f64 0x3ff921fb00000000 = (1647099 / 1048576)%R) by lit. assert (V2 : val f64 0x413921fb00000000 = (1647099 / 1)%R) by lit. rewrite V1, V2 in XB. clear V1 V2.
  destruct (dec64 x B ltac:(lia)) as (M & HM & FX & _ & HMA). set (E := a64 x / 2 ^ 52) in *.
  assert (HE : 1023 <= E <= 1043) by (unfold E; split; [apply Z.div_le_lower_bound; lia|enough (a64 x / 2 ^ 52 < 1044) by lia; apply Z.div_lt_upper_bound; lia]).
  assert (EE : expf f64 x = E). { unfold E. pose proof (magz64 x B). pose proof (fields_range f64 x) as [R1 R2]. change (2 ^ mw f64) with (2 ^ 52) in R1. apply (Z.div_unique _ _ _ (sigf f64 x)); lia. }
  assert (E20 : a64 x / 2 ^ 32 / 2 ^ 20 = E) by (unfold E; rewrite Z.div_div by lia; reflexivity).
  pose proof FX as (_ & Fx & Vx). set (X := val f64 x) in *.
  destruct (quot_ok x Fx ltac:(fold X; lra)) as (n & FN & HR & Hn & HN). fold X in HR, HN.
  assert (Fx53 : fx x (M * 2 ^ (E - 1022)) (-53)) by (apply fx_shift; [lia|]; replace (-53 + (E - 1022)) with (E - 1075) by lia; exact FX).
  assert (GAP : (bpow radix2 (-61) <= Rabs (X - IZR n * (PI / 2)))%R).
  { replace X with (IZR M * bpow radix2 (E - 1023 - 52))%R by (rewrite Vx; do 2 f_equal; lia). apply gap64; lia. }
  assert (RB : (bpow radix2 (-61) <= Rabs (X - IZR n * (PI / 2)) <= 0.785405)%R) by lra.
  unfold rs_rem_pio2_medium. cbv zeta. rewrite Z.shiftr_div_pow2 by lia. rewrite E20, to_i_small by (change (2 ^ (32 - 1)) with 2147483648; lia).
  set (fn := x *: INV_PIO2 +: TO_INT -: TO_INT) in *.
  assert (NI : to_i32 f64 fn = n) by (apply fx_toint_s; [lia|exact FN]). rewrite NI.
  assert (Fm : fx (fn *: PIO2_1) (n * 1686629713) (-30)) by (apply (fx_mul fn PIO2_1 n 1686629713 0 (-30)); [exact FN|exact fx_p1|lia|lia]).
  destruct (first_ok x (x -: fn *: PIO2_1) n (M * 2 ^ (E - 1022)) (fn *: PIO2_1) _ Fx53 Fm Hn ltac:(fold X; lra) eq_refl eq_refl) as (Fd & Vd & Bd). fold X in Vd.
  set (d := x -: fn *: PIO2_1) in *. clearbody d.
  destruct (tail_ok fn n PIO2_1T p1t FN Hn eq_refl p1t_val ltac:(unfold p1t; lra)) as (Fw & Ew & Bw). set (w := fn *: PIO2_1T) in *. clearbody w.
  set (N := IZR n) in *.
  destruct (sub64 d w 4 (proj1 (proj2 Fd)) Fw) as [Fy0 Ey0]; [eapply Rle_trans; [apply Rabs_triang|]; rewrite Rabs_Ropp; lra|apply big1000; lra|].
  pose proof (rnd64_err (val f64 d - val f64 w)) as Y0e. rewrite <- Ey0 in Y0e.
  assert (By0 : isbits f64 (d -: w)) by apply fsub_isbits. pose proof (expo_range (d -: w)) as R0. rewrite ssub_ok32 by lia. cbn [bind].
  destruct (Z.ltb_spec 16 (E - expo (d -: w))) as [C1 | C1].
  2:{ cbn [bind]. exists n, (d -: w), ((d -: (d -: w)) -: w). split; [reflexivity|]. split; [|exact Hn].
    pose proof (expo_ge x 16 (d -: w) By0 ltac:(lia) ltac:(lia) ltac:(lia)) as L. fold X in L. change (-16 - 1) with (-17) in L.
    destruct (st1 X N (val f64 d) (val f64 w) (val f64 (d -: w)) ltac:(lra) HN Vd Ew Y0e L) as [S1 S2]. apply weak20 in S2.
    apply pair_ok; try assumption; [exact (proj1 Fd)|exact (proj1 (proj2 Fd))|lra]. }
  (* the second stage *)
  assert (Fd65 : fx d ((M * 2 ^ (E - 1022) - n * 1686629713 * 2 ^ 23) * 2 ^ 12) (- (65))) by (apply fx_shift; [lia|exact Fd]).
  destruct (head_ok d fn n PIO2_2 _ 2242054355 65 Fd65 FN fx_p2 ltac:(lia) Hn ltac:(lia) ltac:(lia) ltac:(lra) ltac:(change (bpow radix2 (- (65))) with (/ 36893488147419103232)%R; lra)) as (Fb2 & Fs2 & Fl2 & Es2 & El2 & Bs2 & Bl2).
  set (b2 := fn *: PIO2_2) in *. set (s2 := d -: b2) in *. set (l2 := (d -: s2) -: b2) in *.
  assert (ET2 : (IZR ((M * 2 ^ (E - 1022) - n * 1686629713 * 2 ^ 23) * 2 ^ 12 - n * 2242054355) * bpow radix2 (- (65)) = X - N * p1 - N * p2)%R).
  { rewrite minus_IZR, Rmult_minus_distr_r. rewrite <- Vd. destruct Fd65 as (_ & _ & ->). f_equal. rewrite mult_IZR. fold N. unfold p2. change (bpow radix2 (- (65))) with (/ 36893488147419103232)%R. lra. }
  rewrite ET2 in Es2, El2. pose proof (rnd64_err (X - N * p1 - N * p2)) as S2e. rewrite <- Es2 in S2e.
  destruct (tail_ok fn n PIO2_2T p2t FN Hn eq_refl p2t_val ltac:(unfold p2t; lra)) as (Fwa & Ewa & Bwa). set (wa2 := fn *: PIO2_2T) in *.
  destruct (corr_ok wa2 l2 _ Fwa Fl2 Bwa Bl2 eq_refl) as (Fw2 & Ew2 & Bw2). set (w2 := wa2 -: l2) in *.
  rewrite El2 in Ew2.
  assert (Bits2 : isbits f64 s2) by apply fsub_isbits. clearbody s2 l2 b2 wa2 w2.
  destruct (sub64 s2 w2 32 Fs2 Fw2) as [Fy2 Ey2]; [eapply Rle_trans; [apply Rabs_triang|]; rewrite Rabs_Ropp; lra|apply big1000; lra|].
  pose proof (rnd64_err (val f64 s2 - val f64 w2)) as Y2e. rewrite <- Ey2 in Y2e.
  assert (By2 : isbits f64 (s2 -: w2)) by apply fsub_isbits. pose proof (expo_range (s2 -: w2)) as R2. rewrite ssub_ok32 by lia. cbn [bind].
  assert (S2e' : (Rabs (X - N * p1 - N * p2 - val f64 s2) <= u * Rabs (X - N * p1 - N * p2) + bpow radix2 (-200))%R) by (rewrite Rabs_minus_sym; exact S2e).
  destruct (Z.ltb_spec 49 (E - expo (s2 -: w2))) as [C2 | C2].
  2:{ cbn [bind]. exists n, (s2 -: w2), ((s2 -: (s2 -: w2)) -: w2). split; [reflexivity|]. split; [|exact Hn].
    pose proof (expo_ge x 49 (s2 -: w2) By2 ltac:(lia) ltac:(lia) ltac:(lia)) as L. fold X in L. change (-49 - 1) with (-50) in L.
    destruct (st2 X N (val f64 s2) (val f64 w2) (val f64 wa2) (val f64 (s2 -: w2)) ltac:(lra) HN S2e' Ewa Ew2 Y2e L) as [S1 S2]. apply weak20 in S2.
    apply pair_ok; assumption. }
  (* the third stage *)
  pose proof (expo_le x 49 (s2 -: w2) By2 ltac:(lia) ltac:(lia)) as L. rewrite EE in L.
  assert (L' : (Rabs (val f64 (s2 -: w2)) <= / 536870912)%R) by (eapply Rle_trans; [exact L|]; change (/ 536870912)%R with (bpow radix2 (-29)); apply bpow_le; lia).
  assert (S2s : (Rabs (X - N * p1 - N * p2) <= / 134217728)%R).
  { refine (small2 X N (val f64 s2) (val f64 w2) (val f64 wa2) (val f64 (s2 -: w2)) (X - N * p1 - N * p2) _ eq_refl S2e' Ewa Ew2 Y2e L'). unfold N. rewrite <- abs_IZR. apply IZR_le. exact Hn. }
  set (m2 := (M * 2 ^ (E - 1022) - n * 1686629713 * 2 ^ 23) * 2 ^ 12 - n * 2242054355) in *.
  assert (Hm2 : Z.abs m2 <= 2 ^ 40).
  { apply le_IZR. rewrite abs_IZR. rewrite <- ET2, Rabs_mult, (Rabs_pos_eq (bpow _ _)) in S2s by (apply bpow_ge_0). change (bpow radix2 (- (65))) with (/ 36893488147419103232)%R in S2s. change (IZR (2 ^ 40)) with 1099511627776%R. lra. }
  assert (Fs2x : fx s2 m2 (-65)). { split; [exact Bits2|]. split; [exact Fs2|]. rewrite Es2. rewrite <- ET2. apply repr_rnd. apply repr_int; [change (2 ^ (mw f64 + 1)) with (2 ^ 53); lia|cbn; lia]. }
  assert (Fs96 : fx s2 (m2 * 2 ^ 31) (- (96))) by (apply fx_shift; [lia|exact Fs2x]).
  assert (Vs2 : val f64 s2 = (X - N * p1 - N * p2)%R) by (rewrite <- ET2; exact (proj2 (proj2 Fs2x))).
  destruct (head_ok s2 fn n PIO2_3 _ 160220439 96 Fs96 FN fx_p3 ltac:(lia) Hn ltac:(lia) ltac:(lia) ltac:(rewrite Vs2; lra) ltac:(change (bpow radix2 (- (96))) with (/ 79228162514264337593543950336)%R; lra)) as (Fb3 & Fs3 & Fl3 & Es3 & El3 & Bs3 & Bl3).
  set (b3 := fn *: PIO2_3) in *. set (s3 := s2 -: b3) in *. set (l3 := (s2 -: s3) -: b3) in *.
  assert (ET3 : (IZR (m2 * 2 ^ 31 - n * 160220439) * bpow radix2 (- (96)) = val f64 s2 - N * p3)%R).
  { rewrite minus_IZR, Rmult_minus_distr_r. destruct Fs96 as (_ & _ & ->). f_equal. rewrite mult_IZR. fold N. unfold p3. change (bpow radix2 (- (96))) with (/ 79228162514264337593543950336)%R. lra. }
  rewrite ET3 in Es3, El3. pose proof (rnd64_err (val f64 s2 - N * p3)) as S3e. rewrite <- Es3 in S3e. rewrite Rabs_minus_sym in S3e.
  destruct (tail_ok fn n PIO2_3T p3t FN Hn eq_refl p3t_val ltac:(unfold p3t; lra)) as (Fwb & Ewb & Bwb). set (wa3 := fn *: PIO2_3T) in *.
  destruct (corr_ok wa3 l3 _ Fwb Fl3 Bwb Bl3 eq_refl) as (Fw3 & Ew3 & Bw3). set (w3 := wa3 -: l3) in *. rewrite El3 in Ew3.
  assert (Bits3 : isbits f64 s3) by apply fsub_isbits. clearbody s3 l3 b3 wa3 w3.
  cbn [bind]. exists n, (s3 -: w3), ((s3 -: (s3 -: w3)) -: w3). split; [reflexivity|]. split; [|exact Hn].
  destruct (st3 X N (val f64 s2) (val f64 s3) (val f64 w3) (val f64 wa3) ltac:(unfold N; rewrite <- abs_IZR; apply IZR_le; exact Hn) Vs2 GAP S3e Ewb Ew3) as [S1 S2]. apply weak20 in S2.
  apply pair_ok; assumption.
Qed.

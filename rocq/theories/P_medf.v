(** The medium path of the f32 argument reduction: how close a float can be to a multiple of pi/2, and the error of the reduced argument. *)
From Coq Require Import ZArith Reals Lia Lra Bool List Psatz.
From Flocq Require Import Core.
From Verif Require Import Base Spec SpecAcc Format P_format Ieee P_ieee P_real P_neg P_key P_elem P_lit P_ival P_ival2 P_err P_apx P_cf P_fx P_pibound M_basic M_elib M_rempio2.
Import ListNotations.
Open Scope Z_scope.

Definition PB : Z := Eval vm_compute in PI_LO / 2 ^ 1581.
Lemma pio2_140 : (IZR PB <= PI / 2 * IZR (2 ^ 140) <= IZR PB + 1)%R.
Proof.
  destruct PI_1720 as [L U]. assert (L1 : PB * 2 ^ 1581 <= PI_LO) by (vm_compute; discriminate). assert (U1 : PI_HI <= (PB + 1) * 2 ^ 1581) by (vm_compute; discriminate).
  apply IZR_le in L1, U1. rewrite mult_IZR in L1, U1. rewrite plus_IZR in U1. replace (IZR (2 ^ 1720)) with (IZR (2 ^ 139) * IZR (2 ^ 1581))%R in * by (rewrite <- mult_IZR; f_equal; vm_compute; reflexivity).
  assert (P : (0 < IZR (2 ^ 1581))%R) by (apply (IZR_lt 0); vm_compute; reflexivity).
  replace (PI / 2 * IZR (2 ^ 140))%R with (PI * IZR (2 ^ 139))%R. 2:{ change (2 ^ 140) with (2 * 2 ^ 139). rewrite mult_IZR. field. }
  split; apply Rmult_le_reg_r with (IZR (2 ^ 1581)); try assumption; lra.
Qed.
Definition nm (e : Z) : Z := 2 ^ (e + 1) * 63662 / 100000 + 1.
(** lambda at scale 2^140 *)
Definition LAM : Z := 260000000000000000000000000.
Definition ce (e : Z) : Z := Z.max (nm e * (LAM + 1)) (2 ^ 110 + nm e).
Definition gap_list : list Z := map Z.of_nat (seq 0 29).
Lemma gap_all : forallb (fun e => cf_check (2 ^ (e + 117)) PB (2 ^ 24) (ce e)) gap_list = true.
Proof. vm_compute. reflexivity. Qed.
Lemma ce_nm e n : -1 <= e <= 28 -> Z.abs n <= nm e -> Z.abs n * (LAM + 1) <= ce e /\ 2 ^ 110 + Z.abs n <= ce e.
Proof. intros He Hn. unfold ce, LAM. assert (0 <= nm e) by (unfold nm; pose proof (Z.div_pos (2 ^ (e + 1) * 63662) 100000 ltac:(pose proof (Z.pow_nonneg 2 (e + 1) ltac:(lia)); lia) ltac:(lia)); lia). nia. Qed.
(** lambda as a real number *)
Definition lam : R := (IZR LAM / IZR (2 ^ 140))%R.
Theorem gap32 e M n : 0 <= e <= 28 -> 0 < Z.abs M < 2 ^ 24 -> Z.abs n <= nm e ->
  let r := (IZR M * bpow radix2 (e - 23) - IZR n * (PI / 2))%R in (IZR (Z.abs n) * lam <= Rabs r /\ bpow radix2 (-30) <= Rabs r)%R.
Proof.
  intros He HM Hn r. assert (In : In e gap_list) by (unfold gap_list; apply in_map_iff; exists (Z.to_nat e); split; [lia|apply in_seq; lia]).
  pose proof (proj1 (forallb_forall _ _) gap_all e In) as C. cbv beta in C.
  assert (G : ce e <= Z.abs (M * 2 ^ (e + 117) - n * PB)).
  { destruct (Z_lt_le_dec 0 M).
    - apply (cf_check_ok _ _ _ _ M n C). lia.
    - pose proof (cf_check_ok _ _ _ _ (- M) (- n) C ltac:(lia)) as K. replace (M * 2 ^ (e + 117) - n * PB) with (- (- M * 2 ^ (e + 117) - - n * PB)) by ring. now rewrite Z.abs_opp. }
  destruct (ce_nm e n ltac:(lia) Hn) as [N1 N2]. pose proof pio2_140 as [P1 P2].
  assert (S0 : (0 < IZR (2 ^ 140))%R) by (apply (IZR_lt 0); vm_compute; reflexivity).
  assert (E : (r * IZR (2 ^ 140) = IZR (M * 2 ^ (e + 117) - n * PB) - IZR n * (PI / 2 * IZR (2 ^ 140) - IZR PB))%R).
  { unfold r. rewrite minus_IZR, !mult_IZR. replace (IZR (2 ^ (e + 117))) with (bpow radix2 (e - 23) * bpow radix2 140)%R.
    2:{ rewrite <- bpow_plus. replace (e - 23 + 140) with (e + 117) by lia. symmetry. apply (IZR_Zpower radix2). lia. }
    replace (IZR (2 ^ 140)) with (bpow radix2 140) by reflexivity. ring. }
  set (D := (PI / 2 * IZR (2 ^ 140) - IZR PB)%R) in *. assert (HD : (Rabs D <= 1)%R) by (unfold D; apply Rabs_le; lra).
  assert (L : (IZR (ce e) - IZR (Z.abs n) <= Rabs r * IZR (2 ^ 140))%R).
  { rewrite <- (Rabs_pos_eq (IZR (2 ^ 140))) by lra. rewrite <- Rabs_mult, E. apply IZR_le in G. rewrite abs_IZR in G.
    pose proof (Rabs_triang_inv (IZR (M * 2 ^ (e + 117) - n * PB)) (IZR n * D)) as T. rewrite Rabs_mult in T. rewrite abs_IZR. pose proof (Rabs_pos (IZR n)). nra. }
  apply IZR_le in N1, N2. rewrite mult_IZR, plus_IZR in N1. rewrite plus_IZR in N2. split.
  - unfold lam. apply Rmult_le_reg_r with (IZR (2 ^ 140)); [exact S0|]. replace (IZR (Z.abs n) * (IZR LAM / IZR (2 ^ 140)) * IZR (2 ^ 140))%R with (IZR (Z.abs n) * IZR LAM)%R by (field; lra). lra.
  - apply Rmult_le_reg_r with (IZR (2 ^ 140)); [exact S0|]. replace (bpow radix2 (-30) * IZR (2 ^ 140))%R with (IZR (2 ^ 110)). lra.
    change (IZR (2 ^ 140)) with (bpow radix2 140). now rewrite <- bpow_plus.
Qed.
Lemma dec32 x : isbits f32 x -> 2 ^ 23 <= a32 x < 0x7f800000 ->
  exists M, 2 ^ 23 <= Z.abs M < 2 ^ 24 /\ fx (fcvt f32 f64 x) M (a32 x / 2 ^ 23 - 150) /\ val f32 x = (IZR M * bpow radix2 (a32 x / 2 ^ 23 - 150))%R /\ (M <? 0) = signbit f32 x /\ Z.abs M = 2 ^ 23 + a32 x - 2 ^ 23 * (a32 x / 2 ^ 23).
Proof.
  intros B H. pose proof (magz32 x B) as E. pose proof (fields_range f32 x) as [R1 R2]. change (2 ^ mw f32) with (2 ^ 23) in R1. 
  assert (Q : a32 x / 2 ^ 23 = expf f32 x) by (symmetry; apply (Z.div_unique _ _ _ (sigf f32 x)); lia).
  assert (R3 : 0 < expf f32 x < 255) by lia.
  assert (Fi : finite f32 x = true) by (rewrite fin32 by exact B; apply Z.ltb_lt; lia).
  set (M := if signbit f32 x then - (2 ^ 23 + sigf f32 x) else 2 ^ 23 + sigf f32 x). exists M.
  assert (V : val f32 x = (IZR M * bpow radix2 (a32 x / 2 ^ 23 - 150))%R).
  { unfold val, mag_of. rewrite Q. rewrite (proj2 (Z.eqb_neq _ _)) by lia. change (mw f32) with 23. replace (expf f32 x - bias f32 - 23) with (expf f32 x - 150) by (change (bias f32) with 127; lia).
    unfold M, sval. destruct (signbit f32 x); [rewrite opp_IZR; ring|reflexivity]. }
  split; [unfold M; destruct (signbit f32 x); lia|]. split; [|split; [exact V|split]].
  - pose proof (fcvt_finite f32 f64 _ Fi) as RT. apply (fx_intro _ _ _ _ _ RT V); [unfold M; destruct (signbit f32 x); lia|lia].
  - unfold M. destruct (signbit f32 x); [apply Z.ltb_lt; lia|apply Z.ltb_ge; lia].
  - rewrite Q. unfold M. destruct (signbit f32 x); lia.
Qed.
(** adding and subtracting 1.5 * 2^52 rounds to an integer *)
Lemma toint_ok q : finite f64 q = true -> (Rabs (val f64 q) <= 1073741824)%R ->
  exists n, fx (fsub f64 (fadd f64 q TOINT_f) TOINT_f) n 0 /\ (Rabs (IZR n - val f64 q) <= / 2)%R.
Proof.
  intros Fq Hq. apply Rabs_le_inv in Hq. replace TOINT_f with 0x4338000000000000 by (vm_compute; reflexivity).
  assert (VT : val f64 0x4338000000000000 = 6755399441055744%R) by (replace 6755399441055744%R with (6755399441055744 / 1)%R by lra; lit).
  assert (FT : finite f64 0x4338000000000000 = true) by (vm_compute; reflexivity).
  set (v := (val f64 q + 6755399441055744)%R).
  destruct (rounds_fin f64 _ _ _ (fadd_spec f64 q 0x4338000000000000 Fq FT)) as [Fs Es].
  { rewrite VT. fold v. apply Rabs_le. assert (bpow radix2 53 <= bpow radix2 (bias f64))%R by (apply bpow_le; vm_compute; discriminate). change (bpow radix2 53) with 9007199254740992%R in *. unfold v. lra. }
  rewrite VT in Es. fold v in Es.
  assert (Mg : mag radix2 v = 53%Z :> Z). { apply mag_unique. change (bpow radix2 (53 - 1)) with 4503599627370496%R. change (bpow radix2 53) with 9007199254740992%R. rewrite Rabs_pos_eq; unfold v; lra. }
  assert (RV : rnd f64 v = IZR (ZnearestE v)).
  { unfold rnd, Generic_fmt.round, F2R, scaled_mantissa, cexp. cbn [Fnum Fexp]. rewrite !Mg. change (fexpF f64 53) with 0. change (FLT_exp (1 - bias f64 - mw f64) (mw f64 + 1) 53) with 0. cbn [Fnum Fexp bpow]. cbn [Z.opp]. now rewrite !Rmult_1_r. }
  assert (NE : (Rabs (IZR (ZnearestE v) - v) <= / 2)%R) by (rewrite Rabs_minus_sym; apply Znearest_half).
  set (k := ZnearestE v) in *. apply Rabs_le_inv in NE.
  assert (LO : 6755398367313920 <= k <= 6755400514797568).
  { assert (6755398367313919 < k) by (apply lt_IZR; unfold v in NE; lra). assert (k < 6755400514797569) by (apply lt_IZR; unfold v in NE; lra). lia. }
  exists (k - 6755399441055744). split.
  - apply fx_sub; [|split; [vm_compute; split; [discriminate|reflexivity]|split; [exact FT|rewrite VT; change (bpow radix2 0) with 1%R; ring]]|lia|lia].
    split; [apply fadd_isbits|]. split; [exact Fs|]. rewrite Es, RV. change (bpow radix2 0) with 1%R. ring.
  - rewrite minus_IZR. apply Rabs_le. unfold v in NE. lra.
Qed.
(** the constants *)
Lemma P1_val : val f64 PIO2_1f = (26353589 / 16777216)%R. Proof. lit. Qed.
Lemma P1T_val : val f64 PIO2_1Tf = (4803441513357923 / 302231454903657293676544)%R. Proof. lit. Qed.
Lemma INV_val : val f64 INV_PIO2 = (5734161139222659 / 9007199254740992)%R. Proof. lit. Qed.
Lemma PI_lo_hi : (3.14159265358979323846264338327950288419 <= PI <= 3.1415926535897932384626433832795028842)%R.
Proof.
  pose proof pio2_140 as [P1 P2]. change PB with 2189370540165051899616625404235511364199712 in *. change (2 ^ 140) with 1393796574908163946345982392040522594123776 in *. lra.
Qed.
Lemma fx_toint_s x m : - 2 ^ 31 <= m < 2 ^ 31 -> fx x m 0 -> to_i32 f64 x = m.
Proof.
  intros Hm (A & B & C). unfold to_i32. rewrite to_intZ_finite by (try assumption; lia). rewrite C. change (bpow radix2 0) with 1%R. rewrite Rmult_1_r, Ztrunc_IZR.
  unfold clampZ. destruct (Z.ltb_spec m (- 2 ^ 31)); [lia|]. destruct (Z.ltb_spec (2 ^ 31 - 1) m); lia.
Qed.
Definition red_ok (X : R) (n : Z) (y : Z) : Prop :=
  let r := (X - IZR n * (PI / 2))%R in
  isbits f64 y /\ finite f64 y = true /\ (Rabs (val f64 y - r) <= 3 / 2 * bpow radix2 (-26) * Rabs r)%R /\ (Rabs (val f64 y - r) <= bpow radix2 (-40))%R /\ (bpow radix2 (-70) <= Rabs r <= 0.785399)%R.
Section Err.
Variables (n : Z) (X : R).
Hypothesis Hn : Z.abs n <= 2 ^ 28 + 2.
Let P1 := (26353589 / 16777216)%R.
Let P1T := (4803441513357923 / 302231454903657293676544)%R.
Let r := (X - IZR n * (PI / 2))%R.
Let d := (X - IZR n * P1)%R.
Hypothesis Hr : (IZR (Z.abs n) * lam <= Rabs r /\ bpow radix2 (-30) <= Rabs r <= 0.785399)%R.
Lemma med_err W Y : (Rabs (W - IZR n * P1T) <= / 9007199254740992 * Rabs (IZR n * P1T) + bpow radix2 (-200))%R ->
  (Rabs (Y - (d - W)) <= / 9007199254740992 * Rabs (d - W) + bpow radix2 (-200))%R ->
  (Rabs (Y - r) <= 7 / 8 * bpow radix2 (-26) * Rabs r)%R /\ (Rabs (Y - r) <= bpow radix2 (-49))%R.
Proof.
  intros HW HY. pose proof PI_lo_hi as HP. pose proof tiny200 as T. set (t := bpow radix2 (-200)) in *.
  assert (N : (0 <= IZR (Z.abs n) <= 268435458)%R) by (split; apply IZR_le; lia).
  assert (K : (Rabs (PI / 2 - P1 - P1T) <= 7 / 10000000000000000000000000)%R) by (unfold P1, P1T; apply Rabs_le; lra).
  assert (E1 : (Rabs ((d - W) - r) <= IZR (Z.abs n) * (864 / 1000 * bpow radix2 (-26) * lam) + t)%R).
  { replace ((d - W) - r)%R with (IZR n * (PI / 2 - P1 - P1T) - (W - IZR n * P1T))%R by (unfold d, r; ring).
    eapply Rle_trans; [apply Rabs_triang|]. rewrite Rabs_Ropp, (Rabs_mult (IZR n)), <- abs_IZR. rewrite Rabs_mult, <- abs_IZR in HW. rewrite (Rabs_pos_eq P1T) in HW by (unfold P1T; lra).
    assert (C : (Rabs (PI / 2 - P1 - P1T) + / 9007199254740992 * P1T <= 864 / 1000 * bpow radix2 (-26) * lam)%R).
    { change (bpow radix2 (-26)) with (/ 67108864)%R. unfold lam, LAM. change (2 ^ 140) with 1393796574908163946345982392040522594123776.
      replace (PI / 2 - P1 - P1T)%R with (PI / 2 - P1 - P1T)%R by ring. rewrite Rabs_pos_eq; unfold P1, P1T; lra. }
    nra. }
  set (s := Rabs r) in *. change (bpow radix2 (-30)) with (/ 1073741824)%R in Hr. change (bpow radix2 (-26)) with (/ 67108864)%R in *. change (bpow radix2 (-49)) with (/ 562949953421312)%R.
  assert (L0 : (0 < lam)%R) by (unfold lam, LAM; change (2 ^ 140) with 1393796574908163946345982392040522594123776; lra).
  assert (E2 : (Rabs ((d - W) - r) <= 864 / 1000 * / 67108864 * s + t)%R) by nra.
  assert (E3 : (Rabs (d - W) <= 1.001 * s)%R).
  { replace (d - W)%R with (((d - W) - r) + r)%R by ring. eapply Rle_trans; [apply Rabs_triang|]. fold s. lra. }
  assert (E4 : (Rabs (Y - r) <= 7 / 8 * / 67108864 * s)%R).
  { replace (Y - r)%R with ((Y - (d - W)) + ((d - W) - r))%R by ring. eapply Rle_trans; [apply Rabs_triang|]. lra. }
  split; [exact E4|].
  replace (Y - r)%R with ((Y - (d - W)) + ((d - W) - r))%R by ring. eapply Rle_trans; [apply Rabs_triang|].
  assert (E5 : (IZR (Z.abs n) * (864 / 1000 * / 67108864 * lam) <= / 1125899906842624)%R).
  { unfold lam, LAM. change (2 ^ 140) with 1393796574908163946345982392040522594123776. lra. }
  lra.
Qed.
End Err.
Lemma close_abs (a b e c : R) : (Rabs (a - b) <= e * Rabs b + bpow radix2 (-200) -> Rabs b <= c -> Rabs a <= Rabs e * c + bpow radix2 (-200) + c)%R.
Proof.
  intros H1 H2. replace a with ((a - b) + b)%R by ring. eapply Rle_trans; [apply Rabs_triang|]. apply Rplus_le_compat; [|exact H2]. eapply Rle_trans; [exact H1|]. apply Rplus_le_compat_r.
  apply Rle_trans with (Rabs e * Rabs b)%R; [apply Rmult_le_compat_r; [apply Rabs_pos|apply Rle_abs]|apply Rmult_le_compat_l; [apply Rabs_pos|exact H2]].
Qed.

Theorem rem_pio2f_medium b x : isbits f32 x -> 0x40800000 <= a32 x < 0x4dc90fdb -> exists n y, rs_rem_pio2f_gen b x = Some (n, y) /\ red_ok (val f32 x) n y /\ -2147483648 <= n < 2147483648.
Proof.
  intros B H. unfold rs_rem_pio2f_gen. cbv zeta. rewrite land_a32. rewrite (proj2 (Z.ltb_lt _ _)) by lia.
  destruct (dec32 x B) as (M & HM & FX & VX & _ & HMA); [lia|]. set (E := a32 x / 2 ^ 23) in *.
  assert (HE : 129 <= E <= 155) by (unfold E; split; [apply Z.div_le_lower_bound; lia|enough (E < 156) by (unfold E in *; lia); apply Z.div_lt_upper_bound; lia]).
  set (x64 := fcvt f32 f64 x) in *. set (X := val f32 x) in *.
  destruct FX as (Bx & Fx & Vx). assert (VX' : val f64 x64 = X) by (rewrite Vx; symmetry; exact VX).
  (* |X| < 2^(E - 126) *)
  assert (PB0 : (0 < bpow radix2 (E - 150))%R) by apply bpow_gt_0.
  assert (XB : (Rabs X < bpow radix2 (E - 126))%R).
  { rewrite VX, Rabs_mult, (Rabs_pos_eq (bpow _ _)) by lra. replace (E - 126)%Z with (24 + (E - 150))%Z by lia. rewrite bpow_plus. apply Rmult_lt_compat_r; [assumption|]. rewrite <- abs_IZR. change (bpow radix2 24) with (IZR (2 ^ 24)). apply IZR_lt. lia. }
  assert (XB2 : (Rabs X < 536870912)%R) by (eapply Rlt_le_trans; [exact XB|]; change 536870912%R with (bpow radix2 29); apply bpow_le; lia).
  (* the quotient *)
  assert (FI : finite f64 INV_PIO2 = true) by (vm_compute; reflexivity).
  destruct (mul64 x64 INV_PIO2 536870912 Fx FI) as [Fq Eq]; [|apply big1000; lra|].
  { rewrite VX', INV_val, Rabs_mult. rewrite (Rabs_pos_eq (_ / _)) by lra. pose proof (Rabs_pos X). lra. }
  rewrite VX', INV_val in Eq. pose proof (rnd64_err (X * (5734161139222659 / 9007199254740992))) as Qe. rewrite <- Eq in Qe. set (q := fmul f64 x64 INV_PIO2) in *. set (Q := val f64 q) in *.
  pose proof tiny200 as T. set (t := bpow radix2 (-200)) in *. rewrite Rabs_mult, (Rabs_pos_eq (_ / _)) in Qe by lra.
  assert (Qe' : (Rabs (Q - X * (5734161139222659 / 9007199254740992)) <= / 16777216)%R) by (pose proof (Rabs_pos X); lra). clear Qe.
  assert (QB : (Rabs Q <= 536870912)%R). { replace Q with ((Q - X * (5734161139222659 / 9007199254740992)) + X * (5734161139222659 / 9007199254740992))%R by ring. eapply Rle_trans; [apply Rabs_triang|]. rewrite (Rabs_mult X), (Rabs_pos_eq (_ / _)) by lra. lra. }
  destruct (toint_ok q Fq) as (n & FN & HN); [fold Q; lra|]. fold Q in HN. set (fn := fsub f64 _ _) in *.
  (* the distance to the multiple of pi/2 *)
  pose proof PI_lo_hi as HP. apply Rabs_le_inv in HN. apply Rabs_le_inv in Qe'.
  assert (XA : (- 536870912 < X < 536870912)%R) by (apply Rabs_def2 in XB2; lra).
  set (r := (X - IZR n * (PI / 2))%R).
  assert (HR : (Rabs r <= 0.785399)%R).
  { assert (Hv : (Rabs (X * (5734161139222659 / 9007199254740992) - X * (2 / PI)) <= / 16777216)%R).
    { rewrite <- Rmult_minus_distr_l, Rabs_mult. assert (Rabs (5734161139222659 / 9007199254740992 - 2 / PI) <= / 9007199254740992)%R.
      { assert (0 < / PI)%R by (apply Rinv_0_lt_compat; lra). assert (/ PI * PI = 1)%R by (apply Rinv_l; lra). unfold Rdiv. apply Rabs_le. split; nra. }
      pose proof (Rabs_pos X). pose proof (Rabs_pos (5734161139222659 / 9007199254740992 - 2 / PI)). nra. }
    apply Rabs_le_inv in Hv. assert (Hn2 : (Rabs (X * (2 / PI) - IZR n) <= / 2 + / 4194304)%R) by (apply Rabs_le; lra).
    replace r with ((X * (2 / PI) - IZR n) * (PI / 2))%R by (unfold r; field; lra). rewrite Rabs_mult, (Rabs_pos_eq (PI / 2)) by lra. pose proof (Rabs_pos (X * (2 / PI) - IZR n)). nra. }
  assert (Hnm : Z.abs n <= nm (E - 127)).
  { unfold nm. replace (E - 127 + 1) with (E - 126) by lia. set (p := 2 ^ (E - 126)). assert (Hp : 0 < p) by (apply Z.pow_pos_nonneg; lia).
    assert (XBp : (Rabs X < IZR p)%R) by (unfold p; change 2 with (radix_val radix2); rewrite IZR_Zpower by lia; exact XB).
    assert (L : (IZR (Z.abs n) * 100000 < IZR p * 63662 + 51000)%R).
    { rewrite abs_IZR. unfold r in HR. apply Rabs_le_inv in HR. apply Rabs_def2 in XBp. destruct (Rle_lt_dec 0 (IZR n)); [rewrite Rabs_pos_eq by lra; pose proof (Rmult_le_pos (IZR n) (PI / 2 - 1.5707963267) ltac:(lra) ltac:(lra))|rewrite Rabs_left by lra; pose proof (Rmult_le_pos (- IZR n) (PI / 2 - 1.5707963267) ltac:(lra) ltac:(lra))]; lra. }
    rewrite <- !mult_IZR, <- plus_IZR in L. apply lt_IZR in L. pose proof (Z.div_mod (p * 63662) 100000 ltac:(lia)). pose proof (Z.mod_pos_bound (p * 63662) 100000 ltac:(lia)). lia. }
  destruct (gap32 (E - 127) M n ltac:(lia) ltac:(lia) Hnm) as [G1 G2]. replace (E - 127 - 23) with (E - 150) in G1, G2 by lia. rewrite <- VX in G1, G2. fold r in G1, G2.
  assert (Hnb : Z.abs n <= 2 ^ 28 + 2).
  { assert (XC : (Rabs X <= 421657408)%R).
    { assert (I : (Rabs X <= IZR (13176794 * 32))%R); [|replace (13176794 * 32) with 421657408 in I by lia; exact I].
      rewrite VX, Rabs_mult, (Rabs_pos_eq (bpow _ _)) by lra. rewrite <- abs_IZR. destruct (Z.eq_dec E 155) as [HE5 | NE].
      - rewrite HE5. change (bpow radix2 (155 - 150)) with (IZR 32). rewrite <- mult_IZR. apply IZR_le. enough (Z.abs M < 13176795) by lia.
        lia.
      - apply Rle_trans with (IZR (2 ^ 24) * bpow radix2 4)%R; [apply Rmult_le_compat; [apply IZR_le; lia|lra|apply IZR_le; lia|apply bpow_le; lia]|]. change (bpow radix2 4) with (IZR 16). rewrite <- mult_IZR. apply IZR_le. lia. }
    apply le_IZR. rewrite abs_IZR. unfold r in HR. apply Rabs_le_inv in HR. apply Rabs_le_inv in XC. change (IZR (2 ^ 28 + 2)) with 268435458%R. destruct (Rle_lt_dec 0 (IZR n)); [rewrite Rabs_pos_eq by lra; pose proof (Rmult_le_pos (IZR n) (PI / 2 - 1.5707963267) ltac:(lra) ltac:(lra))|rewrite Rabs_left by lra; pose proof (Rmult_le_pos (- IZR n) (PI / 2 - 1.5707963267) ltac:(lra) ltac:(lra))]; lra. }
  (* the subtraction of the head is exact *)
  assert (FP1 : fx PIO2_1f 26353589 (-24)). { split; [vm_compute; split; [discriminate|reflexivity]|]. split; [vm_compute; reflexivity|]. rewrite P1_val. change (bpow radix2 (-24)) with (/ 16777216)%R. lra. }
  assert (Fm : fx (fmul f64 fn PIO2_1f) (n * 26353589) (-24)) by (apply (fx_mul fn PIO2_1f n 26353589 0 (-24)); [exact FN|exact FP1|lia|lia]).
  assert (Fx64 : fx x64 (M * 2 ^ (E - 126)) (-24)) by (apply fx_shift; [lia|]; replace (-24 + (E - 126)) with (E - 150) by lia; split; [exact Bx|split; [exact Fx|exact Vx]]).
  assert (Ed : (IZR (M * 2 ^ (E - 126) - n * 26353589) * bpow radix2 (-24) = X - IZR n * (26353589 / 16777216))%R).
  { destruct Fx64 as (_ & _ & V64). rewrite VX' in V64. rewrite minus_IZR, Rmult_minus_distr_r, <- V64, mult_IZR. change (bpow radix2 (-24)) with (/ 16777216)%R. lra. }
  assert (Db : (Rabs (X - IZR n * (26353589 / 16777216)) <= 6)%R).
  { replace (X - IZR n * (26353589 / 16777216))%R with (r + IZR n * (PI / 2 - 26353589 / 16777216))%R by (unfold r; ring). eapply Rle_trans; [apply Rabs_triang|]. rewrite Rabs_mult, <- abs_IZR.
    apply IZR_le in Hnb. change (IZR (2 ^ 28 + 2)) with 268435458%R in Hnb. rewrite (Rabs_pos_eq (PI / 2 - _)) by lra. pose proof (IZR_le 0 (Z.abs n) ltac:(lia)). nra. }
  assert (Fd : fx (fsub f64 x64 (fmul f64 fn PIO2_1f)) (M * 2 ^ (E - 126) - n * 26353589) (-24)).
  { apply fx_sub; [exact Fx64|exact Fm| |lia]. apply le_IZR. rewrite abs_IZR. change (bpow radix2 (-24)) with (/ 16777216)%R in Ed.
    replace (IZR (M * 2 ^ (E - 126) - n * 26353589)) with ((X - IZR n * (26353589 / 16777216)) * 16777216)%R by lra. rewrite Rabs_mult, (Rabs_pos_eq 16777216) by lra. change (IZR (2 ^ 53)) with 9007199254740992%R. lra. }
  destruct Fd as (Bd & Fd & Vd). rewrite Ed in Vd. set (dd := fsub f64 x64 _) in *.
  destruct FN as (Bn & Fn & Vn). change (bpow radix2 0) with 1%R in Vn. rewrite Rmult_1_r in Vn.
  assert (FT : finite f64 PIO2_1Tf = true) by (vm_compute; reflexivity).
  assert (NB : (Rabs (IZR n) <= 268435458)%R) by (rewrite <- abs_IZR; change 268435458%R with (IZR (2 ^ 28 + 2)); apply IZR_le; exact Hnb).
  assert (WB : (Rabs (IZR n * (4803441513357923 / 302231454903657293676544)) <= 6)%R) by (rewrite Rabs_mult, (Rabs_pos_eq (_ / _)) by lra; lra).
  destruct (mul64 fn PIO2_1Tf 6 Fn FT) as [Fw Ew]; [rewrite Vn, P1T_val; exact WB|apply big1000; lra|]. rewrite Vn, P1T_val in Ew.
  pose proof (rnd64_err (IZR n * (4803441513357923 / 302231454903657293676544))) as We. rewrite <- Ew in We. set (w := fmul f64 fn PIO2_1Tf) in *. set (W := val f64 w) in *.
  assert (WB2 : (Rabs W <= 7)%R) by (eapply Rle_trans; [exact (close_abs _ _ _ _ We WB)|]; fold t; rewrite (Rabs_pos_eq (/ 9007199254740992)) by lra; lra).
  destruct (sub64 dd w 13 Fd Fw) as [Fy Ey]; [|apply big1000; lra|].
  { rewrite Vd. fold W. eapply Rle_trans; [apply Rabs_triang|]. rewrite Rabs_Ropp. lra. }
  rewrite Vd in Ey. fold W in Ey. pose proof (rnd64_err ((X - IZR n * (26353589 / 16777216)) - W)) as Ye. rewrite <- Ey in Ye.
  exists n, (fsub f64 dd w). split; [|split].
  - f_equal. f_equal. apply fx_toint_s; [lia|]. split; [exact Bn|split; [exact Fn|rewrite Vn; change (bpow radix2 0) with 1%R; ring]].
  - destruct (med_err n X Hnb (conj G1 (conj G2 HR)) W _ We Ye) as [R1 R2]. split; [apply fsub_isbits|]. split; [exact Fy|]. split; [eapply Rle_trans; [exact R1|]; apply Rmult_le_compat_r; [apply Rabs_pos|]; apply Rmult_le_compat_r; [apply bpow_ge_0|lra]|]. split; [eapply Rle_trans; [exact R2|apply bpow_le; lia]|]. split; [|exact HR]. fold r. eapply Rle_trans; [|exact G2]. apply bpow_le. lia.
  - lia.
Qed.

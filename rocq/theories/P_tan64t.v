(** [tan] for f64: accuracy on every finite argument. *)
From Coq Require Import ZArith Reals Lia Lra Bool List Psatz.
From Flocq Require Import Core.
From Verif Require Import Base Spec SpecAcc SpecUlp Format P_format Ieee P_ieee P_real P_neg P_lit P_err P_apx P_acc P_kerf P_kerf2 P_elem P_red64 P_red64b P_red64d P_sc P_trigf P_ksc P_ker64 P_trig64 P_tanf2 P_ulp P_tan64r P_tan64b P_tan64o P_tan64s P_tan64c P_tan64d M_basic M_elib M_rempio2 M_trig.
Open Scope R_scope.
Open Scope fl_scope.

(** ** The kernel *)
Lemma k_tan_small x y odd : isbits f64 x -> (a64 x / 2 ^ 32 < 0x3fe59428)%Z -> rs_k_tan x y odd = if (odd =? 0)%Z then x +: tanR x y else rs_k_tan_zero_low_word (0xbff0000000000000 /: (x +: tanR x y)) +: recip x (tanR x y) (x +: tanR x y).
Proof.
  intros B H. unfold rs_k_tan. cbv zeta. rewrite (ix64 x B). destruct (Z.leb_spec 0x3fe59428 (a64 x / 2 ^ 32)); [lia|]. cbv iota beta. unfold recip, tanR. cbv zeta. reflexivity.
Qed.
Definition odd1 (s : bool) : Z := if s then 1 else 0.
Lemma sgZ_eq s : 0x3ff0000000000000 -: (0x4000000000000000 *: of_int f64 (odd1 s)) = sgZ s. Proof. destruct s; vm_compute; reflexivity. Qed.
Lemma k_tan_big x y s : isbits f64 x -> (0x3fe59428 <= a64 x / 2 ^ 32)%Z -> rs_k_tan x y (odd1 s) =
  if signbit f64 x then Format.fneg f64 (sgZ s -: (0x4000000000000000 *: bigG s ((rs_k_tan_PIO4 -: Format.fneg f64 x) +: (rs_k_tan_PIO4_LO -: Format.fneg f64 y))))
  else sgZ s -: (0x4000000000000000 *: bigG s ((rs_k_tan_PIO4 -: x) +: (rs_k_tan_PIO4_LO -: y))).
Proof.
  intros B H. unfold rs_k_tan. cbv zeta. rewrite (ix64 x B). destruct (Z.leb_spec 0x3fe59428 (a64 x / 2 ^ 32)); [|lia]. rewrite sgZ_eq.
  assert (SG : negb (Z.shiftr (to_u 32 (Z.shiftr x 32)) 31 =? 0)%Z = signbit f64 x).
  { rewrite (hw64 x B), Z.shiftr_div_pow2 by lia. pose proof (a64_hi x B) as A. destruct (signbit f64 x); cbn [bs].
    - rewrite <- (Z.div_unique (1 * 2 ^ 31 + a64 x / 2 ^ 32) (2 ^ 31) 1 (a64 x / 2 ^ 32)) by lia. reflexivity.
    - rewrite Z.div_small by lia. reflexivity. }
  rewrite SG. destruct (signbit f64 x); cbv iota beta; unfold bigG, tanR; cbv zeta; reflexivity.
Qed.

(** what is claimed of a result [q] for the tangent [v] *)
Definition tan_acc (v : R) (q : Z) : Prop := within_ulps f64 1.5 v q /\ (Rabs v <= / 2 \/ 2 <= Rabs v -> faithful f64 v q).
Lemma tan_acc_neg v q : tan_acc v q -> tan_acc (- v) (Format.fneg f64 q).
Proof. intros [H1 H2]. split; [now apply ulps_neg|]. rewrite Rabs_Ropp. intros C. now apply faithful_neg, H2. Qed.
Lemma tan_acc_faithful v q : faithful f64 v q -> tan_acc v q.
Proof. intros H. split; [|auto]. apply (ulps_le f64 1); [lra|]. now apply faithful_ulp. Qed.
Lemma tan_bnd r : Rabs r <= 0.675 -> Rabs (tan r) <= 0.9.
Proof.
  intros H. pose proof (cos_ge r 0.675 H ltac:(lra)) as C. unfold tan, Rdiv. rewrite Rabs_mult, Rabs_inv, (Rabs_pos_eq (cos r)) by lra.
  assert (S : Rabs (sin r) <= Rabs r). { pose proof (sin_lip r 0) as L. rewrite sin_0, !Rminus_0_r in L. exact L. }
  apply Rle_trans with (0.675 * / 0.77); [|lra]. apply Rmult_le_compat; [apply Rabs_pos|apply Rlt_le, Rinv_0_lt_compat; lra|lra|apply Rinv_le; lra].
Qed.
Lemma big_acc (x y : Z) (r : R) (s : bool) : isbits f64 x -> finite f64 x = true -> isbits f64 y -> finite f64 y = true -> 0.67433 <= val f64 x <= 0.78542 -> Rabs (val f64 y) <= 9 / 4 * u * Rabs (val f64 x) -> Rabs (val f64 x + val f64 y - r) <= / 18446744073709551616 * Rabs (val f64 x) ->
  tan_acc (if s then - / tan r else tan r) (sgZ s -: (0x4000000000000000 *: bigG s ((rs_k_tan_PIO4 -: x) +: (rs_k_tan_PIO4_LO -: y)))).
Proof.
  intros Bx Fx By Fy HX HY HR. destruct (bigG_real x y r s Bx Fx By Fy HX HY HR) as [T W]. split; [exact W|]. intros C. exfalso.
  assert (K : 0.99 <= / tan r <= 1.27). { split; [apply Rle_trans with (/ 1.01); [lra|apply Rinv_le; lra]|]. apply Rle_trans with (/ 0.79); [apply Rinv_le; lra|lra]. }
  destruct s; [rewrite Rabs_Ropp in C|]; rewrite Rabs_pos_eq in C by lra; lra.
Qed.
Lemma l_big : val f64 0x3fe5942800000000 = (176773 / 262144)%R. Proof. lit. Qed.
Lemma k_tan_ok (x y : Z) (r : R) (s : bool) : bpow radix2 (-96) <= Rabs (val f64 x) -> arg x y r 0.78542 -> tan_acc (if s then - / tan r else tan r) (rs_k_tan x y (odd1 s)).
Proof.
  intros H96 A. pose proof A as (Bx & Fx & By & Fy & HX & HY & HR). destruct (Z_lt_le_dec (a64 x / 2 ^ 32) 0x3fe59428) as [H | H].
  - rewrite (k_tan_small x y _ Bx H). apply div32 in H. destruct (absval64 0 0x3fe5942800000000 x Bx ltac:(lia) ltac:(pose proof (a64_nn x); lia) ltac:(lia)) as [_ HB]. rewrite l_big in HB.
    assert (A' : arg x y r 0.67434). { repeat (split; [assumption|]). split; [split; [tauto|lra]|]. split; assumption. }
    pose proof (tan_bnd r ltac:(pose proof (arg_r _ _ _ _ A'); lra)) as TB. destruct (tan_even x y r A') as (Fw & Ew & TF & TW). destruct s; cbn [odd1 Z.eqb].
    + destruct (tan_odd_ x y r _ H96 A' eq_refl) as [OF OW]. split; [exact OW|]. intros [C | C]; [exfalso|apply OF; exact C].
      destruct (Req_dec (tan r) 0) as [Z0 | NZ].
      * pose proof (arg_r _ _ _ _ A') as AR. assert (CP := cos_ge r 0.675 ltac:(lra) ltac:(lra)). assert (SZ : sin r = 0). { replace (sin r) with (tan r * cos r) by (unfold tan; field; lra). rewrite Z0. ring. }
        pose proof (sin_rel r ltac:(lra)) as SR. rewrite SZ, Rabs_R0 in SR. assert (R0 : Rabs r <= 0) by lra. pose proof (Rabs_pos r). assert (r = 0) as -> by (destruct (Req_dec r 0) as [E | E]; [exact E|apply Rabs_pos_lt in E; lra]).
        rewrite Rminus_0_r in HR. pose proof (bpow_gt_0 radix2 (-96)). pose proof (Rabs_triang_inv (val f64 x) (- val f64 y)) as TI. replace (val f64 x - - val f64 y) with (val f64 x + val f64 y) in TI by ring. rewrite Rabs_Ropp in TI. lra.
      * rewrite Rabs_Ropp, Rabs_inv in C. apply Rabs_pos_lt in NZ. assert (/ 0.9 <= / Rabs (tan r)) by (apply Rinv_le; lra). lra.
    + split; [exact TW|]. intros [C | C]; [apply TF; lra|lra].
  - assert (H' : (0x3fe5942800000000 <= a64 x)%Z) by (destruct (Z_lt_le_dec (a64 x) (0x3fe59428 * 2 ^ 32)) as [K | K]; [apply div32 in K; lia|exact K]).
    pose proof (fin_hi x Bx Fx) as FH. apply div32 in FH. destruct (absval64 0x3fe5942800000000 (a64 x) x Bx ltac:(lia) ltac:(lia) ltac:(lia)) as [HB _]. rewrite l_big in HB.
    rewrite (k_tan_big x y s Bx H). destruct (signbit f64 x) eqn:S.
    + assert (XN : val f64 x <= 0). { rewrite <- (fneg_fneg f64 x Bx), fneg_val by (apply fneg_fields; exact Bx). assert (0 <= val f64 (Format.fneg f64 x)); [|lra]. apply val_sign_nonneg. destruct (fneg_fields f64 x Bx) as (_ & -> & _). rewrite S. reflexivity. }
      rewrite (Rabs_left1 (val f64 x)) in HX, HB by lra.
      replace (if s then - / tan r else tan r) with (- (if s then - / tan (- r) else tan (- r))).
      2:{ rewrite tan_neg. destruct s; [|ring]. rewrite Rinv_opp. ring. }
      apply tan_acc_neg. apply big_acc; rewrite ?fneg_val, ?fneg_finite by assumption; try assumption; try (apply fneg_fields; assumption); [lra|rewrite !Rabs_Ropp; exact HY|].
      rewrite Rabs_Ropp. replace (- val f64 x + - val f64 y - - r) with (- (val f64 x + val f64 y - r)) by ring. rewrite Rabs_Ropp. exact HR.
    + assert (XP : 0 <= val f64 x) by (apply val_sign_nonneg; exact S). rewrite (Rabs_pos_eq (val f64 x)) in HX, HB by lra. apply big_acc; try assumption. lra.
Qed.

(** ** The function *)
Lemma tan_small X : Rabs X <= / 134217728 -> X <> 0 -> tan X <> 0 /\ Rabs (X - tan X) <= 15 / 8 * bpow radix2 (-55) * Rabs (tan X).
Proof.
  intros H N. change (bpow radix2 (-55)) with (/ 36028797018963968). assert (P : 0 < Rabs X) by (apply Rabs_pos_lt; exact N). pose proof (sin_cub X ltac:(lra)) as C0. pose proof (cos_quad X ltac:(lra)) as [CQ _]. pose proof (COS_bound X) as [_ C1].
  pose proof (sin_low_abs X ltac:(lra)) as SL.
  assert (XX : X * X = Rabs X * Rabs X) by (rewrite <- Rabs_mult, Rabs_pos_eq; [reflexivity|nra]). assert (X2 : X * X <= / 18014398509481984) by (rewrite XX; nra). rewrite XX in *. set (t := Rabs X) in *. set (c := cos X) in *.
  assert (CC : 0.9999 <= c) by lra. assert (NZ : c <> 0) by lra.
  assert (SS : t * (1 - / 1000000) <= Rabs (sin X)) by nra.
  assert (TE : Rabs (tan X) = Rabs (sin X) * / c) by (unfold tan, Rdiv; fold c; rewrite Rabs_mult, Rabs_inv, (Rabs_pos_eq c) by lra; reflexivity).
  assert (IC : 1 <= / c) by (replace 1 with (/ 1) by field; apply Rinv_le; lra).
  split. { intros E. rewrite E, Rabs_R0 in TE. nra. }
  rewrite TE. replace (X - tan X) with ((X * c - sin X) * / c) by (unfold tan; fold c; field; exact NZ). rewrite Rabs_mult, (Rabs_pos_eq (/ c)) by lra. rewrite <- Rmult_assoc. apply Rmult_le_compat_r; [lra|].
  replace (X * c - sin X) with (- (X * (1 - c)) + - (sin X - X)) by ring. eapply Rle_trans; [apply Rabs_triang|]. rewrite !Rabs_Ropp, Rabs_mult. fold t. rewrite (Rabs_pos_eq (1 - c)) by lra.
  assert (t * (1 - c) <= t * (t * t / 2)) by (apply Rmult_le_compat_l; lra). assert (t * (t * t) <= t * / 18014398509481984) by (apply Rmult_le_compat_l; lra). lra.
Qed.
Theorem tan_ok x : isbits f64 x -> finite f64 x = true -> exists q, rs_tan x = Some q /\ tan_acc (tan (val f64 x)) q.
Proof.
  intros B F. pose proof (fin_hi x B F) as FH. unfold rs_tan. cbv zeta. rewrite (ix64 x B). destruct (Z_lt_le_dec (a64 x / 2 ^ 32) 0x3fe921fc) as [H | H].
  - destruct (Z.leb_spec (a64 x / 2 ^ 32) 0x3fe921fb); [|lia]. apply div32 in H. destruct (Z.ltb_spec (a64 x / 2 ^ 32) 0x3e400000) as [Q | Q].
    + exists x. split; [reflexivity|]. apply tan_acc_faithful. apply div32 in Q. destruct (absval64 0 0x3e40000000000000 x B ltac:(lia) ltac:(pose proof (a64_nn x); lia) ltac:(lia)) as [_ A]. rewrite c3_64 in A.
      split; [exact B|]. split; [exact F|]. destruct (Req_dec (val f64 x) 0) as [Z0 | NZ].
      * left. rewrite Z0, tan_0. symmetry. apply round_0. typeclasses eauto.
      * destruct (tan_small (val f64 x) ltac:(lra) NZ) as [S1 S2]. pose proof (near f64 ltac:(vm_compute; discriminate) (val f64 x) _ S1 S2) as D. rewrite (repr_rnd f64 (val f64 x)) in D; [exact D|now apply repr_val].
    + assert (Q' : (0x3e40000000000000 <= a64 x)%Z) by (destruct (Z_lt_le_dec (a64 x) (0x3e400000 * 2 ^ 32)) as [K | K]; [apply div32 in K; lia|exact K]).
      eexists. split; [reflexivity|]. pose proof (no_red x 0x3e40000000000000 B F ltac:(lia) Q' H) as NR. destruct (absval64 0x3e40000000000000 (a64 x) x B ltac:(lia) ltac:(lia) ltac:(lia)) as [LB _]. rewrite c3_64 in LB.
      apply (k_tan_ok x 0 (val f64 x) false).
      * eapply Rle_trans; [|exact LB]. apply Rle_trans with (bpow radix2 (-27)); [apply bpow_le; lia|]. change (bpow radix2 (-27)) with (/ 134217728). lra.
      * pose proof (Rabs_pos (val f64 x)). split; [exact B|]. split; [exact F|]. split; [split; [lia|reflexivity]|]. split; [reflexivity|]. split; [exact NR|]. rewrite zero64. split; [rewrite Rabs_R0; lra|]. replace (val f64 x + 0 - val f64 x) with 0 by ring. rewrite Rabs_R0. lra.
  - destruct (Z.leb_spec (a64 x / 2 ^ 32) 0x3fe921fb); [lia|]. destruct (Z.leb_spec 0x7ff00000 (a64 x / 2 ^ 32)); [lia|].
    destruct (rem_pio2_red true x B ltac:(lia)) as (n & y0 & y1 & n' & E & R & M & _). unfold rs_rem_pio2. cbv zeta. rewrite E. cbn [bind]. eexists. split; [reflexivity|].
    assert (EO : Z.land n 1 = odd1 (negb (n' mod 2 =? 0)%Z)).
    { change 1%Z with (Z.ones 1). rewrite Z.land_ones by lia. change (2 ^ 1)%Z with 2%Z. assert (M2 : (n mod 2 = n' mod 2)%Z). { rewrite (Znumtheory.Zmod_div_mod 2 8 n), (Znumtheory.Zmod_div_mod 2 8 n'), M; try lia; try reflexivity; exists 4%Z; reflexivity. }
      rewrite M2. pose proof (Z.mod_pos_bound n' 2 ltac:(lia)). destruct (Z.eqb_spec (n' mod 2) 0) as [-> | ]; cbn [negb odd1]; lia. }
    rewrite EO. destruct R as (B0 & F0 & B1 & F1 & E1 & E2 & L). pose proof (tan_quad (val f64 x) n') as TQ. cbv zeta in TQ. set (r := val f64 x - IZR n' * (PI / 2)) in *. rewrite b64 in E1.
    assert (A : arg y0 y1 r 0.78542). { repeat (split; [assumption|]). split; [split; [|tauto]|split; assumption]. eapply Rle_trans; [|exact (proj1 L)]. apply bpow_le. lia. }
    pose proof (arg_r _ _ _ _ A) as AR. pose proof (cos_ge r 0.7855 ltac:(lra) ltac:(lra)) as CP.
    assert (RN : r <> 0). { intros Z0. rewrite Z0, Rminus_0_r in E1. pose proof (bpow_gt_0 radix2 (-95)). pose proof (Rabs_triang_inv (val f64 y0) (- val f64 y1)) as TI. replace (val f64 y0 - - val f64 y1) with (val f64 y0 + val f64 y1) in TI by ring. rewrite Rabs_Ropp in TI. lra. }
    assert (SN : sin r <> 0). { intros Z0. pose proof (sin_low_abs r ltac:(lra)) as SL. rewrite Z0, Rabs_R0 in SL. apply Rabs_pos_lt in RN. assert (Rabs r * Rabs r <= 1) by nra. nra. }
    replace (tan (val f64 x)) with (if negb (n' mod 2 =? 0)%Z then - / tan r else tan r).
    + apply k_tan_ok; [|exact A]. eapply Rle_trans; [|exact (proj1 L)]. apply bpow_le. lia.
    + rewrite (TQ ltac:(lra) SN). unfold tan. destruct (n' mod 2 =? 0)%Z; cbn [negb]; [reflexivity|]. field. split; [exact SN|lra].
Qed.
(** no double is a pole *)
Lemma no_pole x : isbits f64 x -> finite f64 x = true -> cos (val f64 x) <> 0.
Proof.
  intros B F. pose proof (fin_hi x B F) as FH. destruct (Z_lt_le_dec (a64 x / 2 ^ 32) 0x3fe921fc) as [H | H].
  - apply div32 in H. destruct (absval64 0 0x3fe921fc00000000 x B ltac:(lia) ltac:(pose proof (a64_nn x); lia) ltac:(lia)) as [_ A]. rewrite l_pio4 in A. pose proof (cos_ge (val f64 x) 0.8 ltac:(lra) ltac:(lra)). lra.
  - destruct (rem_pio2_red true x B ltac:(lia)) as (n & y0 & y1 & k & _ & R & _). pose proof (quad (val f64 x) k) as Q. cbv zeta in Q. destruct R as (B0 & F0 & B1 & F1 & E1 & E2 & L). set (r := val f64 x - IZR k * (PI / 2)) in *. rewrite b64 in E1.
    assert (A : arg y0 y1 r 0.78542). { repeat (split; [assumption|]). split; [split; [|tauto]|split; assumption]. eapply Rle_trans; [|exact (proj1 L)]. apply bpow_le. lia. }
    pose proof (arg_r _ _ _ _ A) as AR. pose proof (cos_ge r 0.7855 ltac:(lra) ltac:(lra)) as CP.
    assert (RN : r <> 0). { intros Z0. rewrite Z0, Rminus_0_r in E1. pose proof (bpow_gt_0 radix2 (-95)). pose proof (Rabs_triang_inv (val f64 y0) (- val f64 y1)) as TI. replace (val f64 y0 - - val f64 y1) with (val f64 y0 + val f64 y1) in TI by ring. rewrite Rabs_Ropp in TI. lra. }
    assert (SN : sin r <> 0). { intros Z0. pose proof (sin_low_abs r ltac:(lra)) as SL. rewrite Z0, Rabs_R0 in SL. apply Rabs_pos_lt in RN. assert (Rabs r * Rabs r <= 1) by nra. nra. }
    pose proof (Z.mod_pos_bound k 4 ltac:(lia)) as KM. set (m := (k mod 4)%Z) in *. clearbody m. assert (D : (m = 0 \/ m = 1 \/ m = 2 \/ m = 3)%Z) by lia. destruct D as [-> | [-> | [-> | ->]]]; destruct Q as [_ ->]; lra.
Qed.

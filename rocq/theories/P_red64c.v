(** The short cuts of the f64 argument reduction for the first multiples of pi/2 (rem_pio2.rs 91-159). *)
From Coq Require Import ZArith Reals Lia Lra Bool List Psatz.
From Flocq Require Import Core.
From Verif Require Import Base Spec Format P_format Ieee P_ieee P_real P_neg P_key P_elem P_elem2 P_lit P_ival P_ival2 P_err P_cf P_fx P_pibound P_medf P_rem P_tot P_red64 P_red64b M_basic M_elib M_rempio2.
Import ListNotations.
Open Scope Z_scope.
Open Scope fl_scope.
Notation u := (/ 9007199254740992)%R.

Lemma stc X N D W : (1 <= Rabs N <= 4)%R -> (3.1e-7 * Rabs N <= Rabs (X - N * (PI / 2)) <= 0.785405)%R -> D = (X - N * p1)%R -> (Rabs (W - N * p1t) <= u * Rabs (N * p1t) + bpow radix2 (-200))%R ->
  (Rabs D <= 16 /\ Rabs W <= 16 /\ Rabs W <= Rabs D /\ Rabs (D - W - (X - N * (PI / 2))) <= 4e-20 * Rabs (D - W))%R.
Proof.
  intros HN HR ED HW. pose proof tiny180 as [T0 T1]. rewrite b180 in T1. set (t := bpow radix2 (-200)) in *. destruct d_bounds as [B1 _].
  set (r := (X - N * (PI / 2))%R) in *.
  assert (E1 : (D - W - r = N * d1 + - (W - N * p1t))%R) by (rewrite ED; unfold r, d1; ring).
  assert (A1 : (Rabs (D - W - r) <= Rabs N * 3.6e-27 + (u * Rabs (N * p1t) + t))%R).
  { rewrite E1. eapply Rle_trans; [apply Rabs_triang|]. rewrite Rabs_Ropp, Rabs_mult. pose proof (Rabs_pos N). apply Rplus_le_compat; [|exact HW]. apply Rmult_le_compat_l; assumption. }
  assert (A2 : (Rabs (N * p1t) <= Rabs N * 6.0771006e-11)%R) by (rewrite Rabs_mult; apply Rmult_le_compat_l; [apply Rabs_pos|]; rewrite Rabs_pos_eq; unfold p1t; lra).
  destruct (absle _ _ _ HW) as [A3 _].
  assert (A4 : (Rabs r <= Rabs (D - W) + Rabs (D - W - r))%R) by (replace r with ((D - W) - (D - W - r))%R at 1 by ring; eapply Rle_trans; [apply Rabs_triang|]; rewrite Rabs_Ropp; lra).
  assert (A5 : (Rabs (D - W) <= Rabs D + Rabs W)%R) by (unfold Rminus; eapply Rle_trans; [apply Rabs_triang|]; rewrite Rabs_Ropp; lra).
  assert (A6 : (Rabs D <= Rabs W + (Rabs r + Rabs (D - W - r)))%R) by (replace D with (W + (r + (D - W - r)))%R at 1 by ring; eapply Rle_trans; [apply Rabs_triang|]; apply Rplus_le_compat_l, Rabs_triang).
  clearbody r t. revert A1 A2 A3 A4 A5 A6 HN HR T0 T1. clear. generalize (Rabs (D - W - r)) (Rabs N) (Rabs (N * p1t)) (Rabs (D - W)) (Rabs D) (Rabs W) (Rabs r). intros. repeat split; lra.
Qed.
Section Two.
Variables x c pc tc Mx : Z.
Hypothesis Fx : fx x Mx (-53).
Hypothesis Hc : 1 <= c <= 4.
Hypothesis Fp : fx pc (c * 1686629713) (-30).
Hypothesis Bt : finite f64 tc = true.
Hypothesis Et : (Rabs (val f64 tc - IZR c * p1t) <= u * Rabs (IZR c * p1t) + bpow radix2 (-200))%R.
Let X := val f64 x.
Lemma cR : (1 <= IZR c <= 4)%R. Proof. split; apply IZR_le; lia. Qed.
Lemma two_pos_ok : (3.1e-7 * IZR c <= Rabs (X - IZR c * (PI / 2)) <= 0.785405)%R -> red64 X c (fst (two_part x pc tc)) (snd (two_part x pc tc)).
Proof.
  intros HR. unfold two_part. cbn [fst snd]. pose proof cR as C.
  destruct (first_ok x (x -: pc) c Mx pc _ Fx Fp ltac:(lia) ltac:(fold X; lra) eq_refl eq_refl) as (Fd & Vd & Bd). fold X in Vd.
  destruct (stc X (IZR c) (val f64 (x -: pc)) (val f64 tc)) as (S1 & S2 & S3 & S4); [rewrite Rabs_pos_eq; lra|rewrite (Rabs_pos_eq (IZR c)) by lra; exact HR|exact Vd|exact Et|].
  apply pair_ok; try assumption; [exact (proj1 Fd)|exact (proj1 (proj2 Fd))|]. rewrite b61. lra.
Qed.
Lemma two_neg_ok : (3.1e-7 * IZR c <= Rabs (X + IZR c * (PI / 2)) <= 0.785405)%R -> red64 X (- c) (fst (two_part_neg x pc tc)) (snd (two_part_neg x pc tc)).
Proof.
  intros HR. unfold two_part_neg. cbn [fst snd]. pose proof cR as C.
  replace (X + IZR c * (PI / 2))%R with (X - IZR (- c) * (PI / 2))%R in HR by (rewrite opp_IZR; ring).
  pose proof Fx as (_ & _ & Vx). fold X in Vx.
  assert (Ed : (IZR (Mx + c * 1686629713 * 2 ^ 23) * bpow radix2 (-53) = X - IZR (- c) * p1)%R).
  { rewrite Vx, plus_IZR, !mult_IZR, opp_IZR. unfold p1. change (IZR (2 ^ 23)) with 8388608%R. change (bpow radix2 (-53)) with u. lra. }
  destruct (stc X (IZR (- c)) (X - IZR (- c) * p1) (- val f64 tc)) as (S1 & S2 & S3 & S4).
  { rewrite opp_IZR, Rabs_Ropp, Rabs_pos_eq; lra. }
  { rewrite opp_IZR, Rabs_Ropp, (Rabs_pos_eq (IZR c)) by lra. rewrite <- opp_IZR. exact HR. }
  { reflexivity. }
  { rewrite opp_IZR. replace (- val f64 tc - - IZR c * p1t)%R with (- (val f64 tc - IZR c * p1t))%R by ring. replace (- IZR c * p1t)%R with (- (IZR c * p1t))%R by ring. rewrite !Rabs_Ropp. exact Et. }
  assert (S0 : (Rabs (X - IZR (- c) * p1) <= 0.99)%R).
  { replace (X - IZR (- c) * p1)%R with ((X - IZR (- c) * (PI / 2)) + IZR (- c) * (PI / 2 - p1))%R by ring. eapply Rle_trans; [apply Rabs_triang|]. rewrite (Rabs_mult (IZR (- c))). rewrite opp_IZR at 2. rewrite Rabs_Ropp, (Rabs_pos_eq (IZR c)) by lra.
    pose proof PI_lo_hi. assert (Rabs (PI / 2 - p1) <= 7e-11)%R by (unfold p1; apply Rabs_le; lra). pose proof (Rabs_pos (PI / 2 - p1)). nra. }
  assert (Fd : fx (x +: pc) (Mx + c * 1686629713 * 2 ^ 23) (-53)).
  { apply fx_add; [exact Fx|apply fx_shift; [lia|exact Fp]| |lia]. apply le_IZR. rewrite abs_IZR.
    replace (IZR (Mx + c * 1686629713 * 2 ^ 23)) with ((X - IZR (- c) * p1) * 9007199254740992)%R by (rewrite <- Ed; change (bpow radix2 (-53)) with u; lra).
    rewrite Rabs_mult, (Rabs_pos_eq 9007199254740992) by lra. change (IZR (2 ^ 53)) with 9007199254740992%R. lra. }
  destruct Fd as (Bd & Fd & Vd). rewrite Ed in Vd. set (z := x +: pc) in *. clearbody z. rewrite <- Vd in *. rewrite Rabs_Ropp in S2, S3.
  destruct (two_add z tc Bd Fd Bt S1 S2 S3) as (F0 & F1 & E1 & E0).
  apply (last_step X (- c) (val f64 z) (- val f64 tc)); try assumption; try apply fadd_isbits. rewrite b61. lra.
Qed.
End Two.
(** the constants c * PIO2_1 and c * PIO2_1T *)
Definition pcc (c : Z) : Z := if c =? 1 then PIO2_1 else of_int f64 c *: PIO2_1.
Definition tcc (c : Z) : Z := if c =? 1 then PIO2_1T else of_int f64 c *: PIO2_1T.
Lemma pcc_ok c : 1 <= c <= 4 -> fx (pcc c) (c * 1686629713) (-30).
Proof.
  intros H. unfold pcc. destruct (Z.eqb_spec c 1) as [-> | N]; [exact fx_p1|]. apply (fx_mul _ _ c 1686629713 0 (-30)); [apply fx_int; lia|exact fx_p1|lia|lia].
Qed.
Lemma tcc_ok c : 1 <= c <= 4 -> finite f64 (tcc c) = true /\ (Rabs (val f64 (tcc c) - IZR c * p1t) <= u * Rabs (IZR c * p1t) + bpow radix2 (-200))%R.
Proof.
  intros H. unfold tcc. destruct (Z.eqb_spec c 1) as [-> | N].
  - split; [reflexivity|]. rewrite p1t_val. replace (p1t - 1 * p1t)%R with 0%R by ring. rewrite Rabs_R0. pose proof (Rabs_pos (1 * p1t)). pose proof (bpow_ge_0 radix2 (-200)). lra.
  - destruct (tail_ok (of_int f64 c) c PIO2_1T p1t) as (A & B & _); [apply fx_int; lia|lia|reflexivity|exact p1t_val|unfold p1t; lra|]. split; assumption.
Qed.
Definition two (c x : Z) (sg : bool) : option (Z * Z * Z) :=
  if sg then Some (- c, fst (two_part_neg x (pcc c) (tcc c)), snd (two_part_neg x (pcc c) (tcc c))) else Some (c, fst (two_part x (pcc c) (tcc c)), snd (two_part x (pcc c) (tcc c))).
Lemma two_red c x : isbits f64 x -> 1 <= c <= 4 -> 0x3fe921fc00000000 <= a64 x < 0x4020000000000000 ->
  (3.1e-7 * IZR c <= Rabs (Rabs (val f64 x) - IZR c * (PI / 2)) <= 0.785405)%R ->
  exists n y0 y1, two c x (signbit f64 x) = Some (n, y0, y1) /\ red64 (val f64 x) n y0 y1 /\ Z.abs n <= 1048577.
Proof.
  intros B Hc Ha HR. destruct (dec64 x B ltac:(lia)) as (M & HM & FX & HS & HMA). set (E := a64 x / 2 ^ 52) in *.
  assert (HE : 1022 <= E <= 1043) by (unfold E; split; [apply Z.div_le_lower_bound; lia|enough (a64 x / 2 ^ 52 < 1044) by lia; apply Z.div_lt_upper_bound; lia]).
  assert (Fx53 : fx x (M * 2 ^ (E - 1022)) (-53)) by (apply fx_shift; [lia|]; replace (-53 + (E - 1022)) with (E - 1075) by lia; exact FX).
  destruct (tcc_ok c Hc) as [Ft Et]. pose proof (pcc_ok c Hc) as Fp. pose proof FX as (_ & _ & Vx). pose proof (bpow_gt_0 radix2 (E - 1075)) as PB0. revert PB0 Vx. generalize (bpow radix2 (E - 1075)). intros w PB0 Vx.
  unfold two. destruct (signbit f64 x) eqn:S.
  - do 3 eexists. split; [reflexivity|]. split; [|lia]. apply (two_neg_ok x c _ _ _ Fx53 Hc Fp Ft Et).
    apply Z.ltb_lt in HS. rewrite (Rabs_left (val f64 x)) in HR by (rewrite Vx; apply IZR_lt in HS; clear - HS PB0; nra). rewrite <- Rabs_Ropp in HR. replace (- (- val f64 x - IZR c * (PI / 2)))%R with (val f64 x + IZR c * (PI / 2))%R in HR by ring. exact HR.
  - do 3 eexists. split; [reflexivity|]. split; [|lia]. apply (two_pos_ok x c _ _ _ Fx53 Hc Fp Ft Et).
    apply Z.ltb_ge in HS. rewrite (Rabs_pos_eq (val f64 x)) in HR by (rewrite Vx; apply IZR_le in HS; clear - HS PB0; nra). exact HR.
Qed.
Ltac twor lo hi c v1 v2 :=
  apply (two_red c); [assumption|lia|lia|];
  match goal with B : isbits f64 ?x |- _ => let K := fresh in pose proof (absval64 lo hi x B ltac:(lia) ltac:(lia) ltac:(lia)) as K;
    let V1 := fresh in let V2 := fresh in assert (V1 : val f64 lo = v1) by lit; assert (V2 : val f64 hi = v2) by lit; rewrite V1, V2 in K; clear V1 V2;
    pose proof PI_lo_hi; set (r := Rabs (val f64 x)) in *; clearbody r; first [rewrite Rabs_pos_eq by lra; lra|rewrite Rabs_left by lra; lra] end.
Theorem rem_pio2_short_red b x : isbits f64 x -> 0x3fe921fc <= a64 x / 2 ^ 32 < 0x413921fb ->
  exists n y0 y1, rs_rem_pio2_gen b x = Some (n, y0, y1) /\ red64 (val f64 x) n y0 y1 /\ Z.abs n <= 1048577.
Proof.
  intros B H. unfold rs_rem_pio2_gen. cbv zeta. rewrite (ix64 x B). rewrite (sg64 x B).
  assert (ES : to_i 32 (bs (signbit f64 x)) =? 0 = negb (signbit f64 x)) by (destruct (signbit f64 x); reflexivity). rewrite ES. clear ES.
  pose proof (Z.div_mod (a64 x) (2 ^ 32) ltac:(lia)) as DM. pose proof (Z.mod_pos_bound (a64 x) (2 ^ 32) ltac:(lia)) as MB.
  pose proof (rem_pio2_medium_red x B) as MED.
  change 0xfffff with (2 ^ 20 - 1). rewrite land_pow2m1 by lia. set (ix := a64 x / 2 ^ 32) in *.
  assert (TW : forall c, (if negb (signbit f64 x)
     then Some (c, fst (two_part x (if c =? 1 then PIO2_1 else of_int f64 c *: PIO2_1) (if c =? 1 then PIO2_1T else of_int f64 c *: PIO2_1T)),
                   snd (two_part x (if c =? 1 then PIO2_1 else of_int f64 c *: PIO2_1) (if c =? 1 then PIO2_1T else of_int f64 c *: PIO2_1T)))
     else Some (- c, fst (two_part_neg x (if c =? 1 then PIO2_1 else of_int f64 c *: PIO2_1) (if c =? 1 then PIO2_1T else of_int f64 c *: PIO2_1T)),
                     snd (two_part_neg x (if c =? 1 then PIO2_1 else of_int f64 c *: PIO2_1) (if c =? 1 then PIO2_1T else of_int f64 c *: PIO2_1T)))) = two c x (signbit f64 x)).
  { intros c. unfold two, pcc, tcc. destruct (signbit f64 x); reflexivity. }
  rewrite (TW 1), (TW 2), (TW 3), (TW 4). clear TW.
  destruct (Z.leb_spec ix 0x400f6a7a) as [C1 | C1].
  { destruct (Z.eqb_spec (ix mod 2 ^ 20) 0x921fb) as [C2 | C2].
    - apply MED. pose proof (Z.div_mod ix (2 ^ 20) ltac:(lia)). lia.
    - assert (N1 : ix <> 0x3ff921fb) by (intros ->; apply C2; reflexivity). assert (N2 : ix <> 0x400921fb) by (intros ->; apply C2; reflexivity).
      destruct (Z.leb_spec ix 0x4002d97c) as [C3 | C3].
      + destruct (Z.ltb_spec ix 0x3ff921fb).
        * twor 0x3fe921fc00000000 0x3ff921fb00000000 1 (411775 / 524288)%R (1647099 / 1048576)%R.
        * twor 0x3ff921fc00000000 0x4002d97d00000000 1 (411775 / 262144)%R (1235325 / 524288)%R.
      + destruct (Z.ltb_spec ix 0x400921fb).
        * twor 0x4002d97d00000000 0x400921fb00000000 2 (1235325 / 524288)%R (1647099 / 524288)%R.
        * twor 0x400921fc00000000 0x400f6a7b00000000 2 (411775 / 131072)%R (2058875 / 524288)%R. }
  destruct (Z.leb_spec ix 0x401c463b) as [C2 | C2].
  { destruct (Z.leb_spec ix 0x4015fdbc) as [C3 | C3].
    - destruct (Z.eqb_spec ix 0x4012d97c) as [C4 | C4]; [apply MED; lia|]. destruct (Z.ltb_spec ix 0x4012d97c).
      + twor 0x400f6a7b00000000 0x4012d97c00000000 3 (2058875 / 524288)%R (308831 / 65536)%R.
      + twor 0x4012d97d00000000 0x4015fdbd00000000 3 (1235325 / 262144)%R (1441213 / 262144)%R.
    - destruct (Z.eqb_spec ix 0x401921fb) as [C4 | C4]; [apply MED; lia|]. destruct (Z.ltb_spec ix 0x401921fb).
      + twor 0x4015fdbd00000000 0x401921fb00000000 4 (1441213 / 262144)%R (1647099 / 262144)%R.
      + twor 0x401921fc00000000 0x401c463c00000000 4 (411775 / 65536)%R (463247 / 65536)%R. }
  destruct (Z.ltb_spec ix 0x413921fb); [apply MED; lia|lia].
Qed.

(** [sin] and [cos] in double precision. *)
From Coq Require Import ZArith Reals Lia Lra Bool List Psatz.
From Flocq Require Import Core.
From Verif Require Import Base Spec SpecFun SpecAcc Format P_format Ieee P_ieee P_real P_lit P_neg M_basic M_elib M_rempio2 M_trig
  P_elem P_elem2 P_ival P_ival2 P_tot P_sym P_err P_rem P_fx P_acc P_kerf P_kerf2 P_sc P_red64 P_red64b P_red64c P_red64d P_ksc P_ker64 P_ker64c.
Open Scope Z_scope.
Open Scope fl_scope.

Definition sel64S (n y0 y1 : Z) : Z :=
  if n mod 4 =? 0 then rs_k_sin y0 y1 1 else if n mod 4 =? 1 then rs_k_cos y0 y1 else if n mod 4 =? 2 then fneg f64 (rs_k_sin y0 y1 1) else fneg f64 (rs_k_cos y0 y1).
Definition sel64C (n y0 y1 : Z) : Z :=
  if n mod 4 =? 0 then rs_k_cos y0 y1 else if n mod 4 =? 1 then fneg f64 (rs_k_sin y0 y1 1) else if n mod 4 =? 2 then fneg f64 (rs_k_cos y0 y1) else rs_k_sin y0 y1 1.
Lemma red64_kernels X n y0 y1 : red64 X n y0 y1 -> faithful f64 (sin (X - IZR n * (PI / 2))) (rs_k_sin y0 y1 1) /\ faithful f64 (cos (X - IZR n * (PI / 2))) (rs_k_cos y0 y1).
Proof.
  unfold red64. cbv zeta. set (r := (X - IZR n * (PI / 2))%R). clearbody r. intros (B0 & F0 & B1 & F1 & E1 & E2 & E3). change (bpow radix2 (-64)) with (/ 18446744073709551616)%R in E1.
  assert (L : (bpow radix2 (-100) <= Rabs (val f64 y0) <= 0.78542)%R) by (split; [eapply Rle_trans; [|exact (proj1 E3)]; apply bpow_le; lia|exact (proj2 E3)]).
  split; [apply k_sin_tail_ok|apply k_cos_ok]; assumption.
Qed.
Lemma sel64_faithful X n y0 y1 : red64 X n y0 y1 -> faithful f64 (sin X) (sel64S n y0 y1) /\ faithful f64 (cos X) (sel64C n y0 y1).
Proof.
  intros H. destruct (red64_kernels _ _ _ _ H) as [S C]. pose proof (quad X n) as Q. cbv zeta in Q. unfold sel64S, sel64C.
  set (r := (X - IZR n * (PI / 2))%R) in *. pose proof (Z.mod_pos_bound n 4 ltac:(lia)) as R. set (m := n mod 4) in *. generalize dependent (rs_k_sin y0 y1 1). generalize dependent (rs_k_cos y0 y1). intros c C s S. clearbody m r.
  assert (D : m = 0 \/ m = 1 \/ m = 2 \/ m = 3) by lia. destruct D as [-> | [-> | [-> | ->]]]; destruct Q as [-> ->];
  [change (0 =? 0) with true|change (1 =? 0) with false; change (1 =? 1) with true|change (2 =? 0) with false; change (2 =? 1) with false; change (2 =? 2) with true|change (3 =? 0) with false; change (3 =? 1) with false; change (3 =? 2) with false]; cbv iota; split; try apply faithful_neg; assumption.
Qed.
Lemma sin_small X : (Rabs X <= / 67108864)%R -> X <> 0%R -> sin X <> 0%R /\ (Rabs (X - sin X) <= 15 / 8 * bpow radix2 (-55) * Rabs (sin X))%R.
Proof.
  intros H N. change (bpow radix2 (-55)) with (/ 36028797018963968)%R. assert (P : (0 < Rabs X)%R) by (apply Rabs_pos_lt; exact N). pose proof (sin_low_abs X ltac:(lra)) as L. pose proof (sin_cub X ltac:(lra)) as C0.
  assert (E2 : (X * X = Rabs X * Rabs X)%R) by (rewrite <- Rabs_mult, Rabs_pos_eq; [reflexivity|nra]).
  assert (C : (Rabs X * Rabs X <= / 4503599627370496)%R) by nra. rewrite E2 in C0. set (a := Rabs X) in *. clearbody a.
  assert (C1 : (a * (a * a) <= a * / 4503599627370496)%R) by (apply Rmult_le_compat_l; lra). rewrite Rmult_assoc in L.
  rewrite (Rabs_minus_sym X). set (s := Rabs (sin X)) in *. split; [intros E; unfold s in L; rewrite E, Rabs_R0 in L; lra|]. lra.
Qed.
Lemma l_pio4 : val f64 0x3fe921fc00000000 = (411775 / 524288)%R. Proof. lit. Qed.
Lemma l_cos : val f64 0x3e46a09e00000000 = (741455 / 70368744177664)%R. Proof. lit. Qed.
Lemma l_sin : val f64 0x3e50000000000000 = (1 / 67108864)%R. Proof. lit. Qed.
Lemma a64_nn x : 0 <= a64 x. Proof. unfold a64. apply Z.mod_pos_bound. reflexivity. Qed.
Lemma div32 x a : a64 x / 2 ^ 32 < a <-> a64 x < a * 2 ^ 32.
Proof. split; intros H; [|apply Z.div_lt_upper_bound; lia]. pose proof (Z.div_mod (a64 x) (2 ^ 32) ltac:(lia)). pose proof (Z.mod_pos_bound (a64 x) (2 ^ 32) ltac:(lia)). lia. Qed.
(** the range without reduction *)
Lemma no_red x lo : isbits f64 x -> finite f64 x = true -> 0x3e40000000000000 <= lo -> lo <= a64 x -> a64 x < 0x3fe921fc00000000 -> (bpow radix2 (-100) <= Rabs (val f64 x) <= 0.78542)%R.
Proof.
  intros B F Hl L H. destruct (absval64 0x3e40000000000000 0x3fe921fc00000000 x B ltac:(lia) ltac:(lia) ltac:(lia)) as [A1 A2]. rewrite l_pio4 in A2. rewrite c3_64 in A1. split; [|lra]. eapply Rle_trans; [|exact A1].
  apply Rle_trans with (bpow radix2 (-27)); [apply bpow_le; lia|]. change (bpow radix2 (-27)) with (/ 134217728)%R. lra.
Qed.
Lemma fin_hi x : isbits f64 x -> finite f64 x = true -> a64 x / 2 ^ 32 < 0x7ff00000.
Proof. intros B F. rewrite (fin64 x B) in F. apply div32. lia. Qed.
Lemma land3 n : Z.land n 3 = n mod 4. Proof. exact (land_pow2m1 n 2 ltac:(lia)). Qed.
Lemma mod84 n n' : n' mod 8 = n mod 8 -> n mod 4 = n' mod 4.
Proof. intros H. pose proof (Z.div_mod n 8 ltac:(lia)). pose proof (Z.div_mod n' 8 ltac:(lia)). rewrite (Z.mod_eq n 4), (Z.mod_eq n' 4) by lia. pose proof (Z.mod_pos_bound n 8 ltac:(lia)). 
  rewrite <- (Z.div_unique n 4 (2 * (n / 8) + n mod 8 / 4) (n mod 8 mod 4)), <- (Z.div_unique n' 4 (2 * (n' / 8) + n' mod 8 / 4) (n' mod 8 mod 4)).
  - rewrite H. lia.
  - left. apply Z.mod_pos_bound. lia.
  - pose proof (Z.div_mod (n' mod 8) 4 ltac:(lia)). lia.
  - left. apply Z.mod_pos_bound. lia.
  - pose proof (Z.div_mod (n mod 8) 4 ltac:(lia)). lia. Qed.
Lemma red_sel x : isbits f64 x -> 0x3fe921fc <= a64 x / 2 ^ 32 < 0x7ff00000 -> exists n y0 y1, red64 (val f64 x) n y0 y1 /\ rs_sin x = Some (sel64S n y0 y1) /\ rs_cos x = Some (sel64C n y0 y1).
Proof.
  intros B H. destruct (rem_pio2_red true x B H) as (n & y0 & y1 & n' & E & R & M & _). exists n', y0, y1. split; [exact R|].
  unfold rs_sin, rs_cos, rs_rem_pio2. cbv zeta. rewrite (ix64 x B), E. cbn [bind]. rewrite land3, (mod84 n n' M). unfold sel64S, sel64C.
  destruct (Z.leb_spec (a64 x / 2 ^ 32) 0x3fe921fb); [lia|]. destruct (Z.leb_spec 0x7ff00000 (a64 x / 2 ^ 32)); [lia|].
  destruct (n' mod 4 =? 0), (n' mod 4 =? 1), (n' mod 4 =? 2); split; reflexivity.
Qed.
Theorem sin_faithful : faithful_fn f64 rs_sin sin.
Proof.
  intros x B F. pose proof (fin_hi x B F) as FH. destruct (Z_lt_le_dec (a64 x / 2 ^ 32) 0x3fe921fc) as [H | H].
  - unfold rs_sin. cbv zeta. rewrite (ix64 x B). destruct (Z.leb_spec (a64 x / 2 ^ 32) 0x3fe921fb); [|lia]. apply div32 in H. destruct (Z.ltb_spec (a64 x / 2 ^ 32) 0x3e500000) as [Q | Q].
    + exists x. split; [reflexivity|]. apply div32 in Q. destruct (absval64 0 0x3e50000000000000 x B ltac:(lia) ltac:(pose proof (a64_nn x); lia) ltac:(lia)) as [_ A]. rewrite l_sin in A.
      split; [exact B|]. split; [exact F|]. destruct (Req_dec (val f64 x) 0) as [Z0 | NZ].
      * left. rewrite Z0, sin_0. symmetry. apply round_0. typeclasses eauto.
      * destruct (sin_small (val f64 x) ltac:(lra) NZ) as [S1 S2]. pose proof (near f64 ltac:(vm_compute; discriminate) (val f64 x) _ S1 S2) as D. rewrite (repr_rnd f64 (val f64 x)) in D; [exact D|now apply repr_val].
    + assert (Q' : 0x3e50000000000000 <= a64 x) by (destruct (Z_lt_le_dec (a64 x) (0x3e500000 * 2 ^ 32)) as [K | K]; [apply div32 in K; lia|exact K]).
      eexists. split; [reflexivity|]. apply k_sin_head_ok; [exact B|exact F|]. apply (no_red x 0x3e50000000000000 B F); lia.
  - destruct (red_sel x B ltac:(lia)) as (n & y0 & y1 & R & E & _). eexists. split; [exact E|]. exact (proj1 (sel64_faithful _ _ _ _ R)).
Qed.
Theorem cos_faithful : faithful_fn f64 rs_cos cos.
Proof.
  intros x B F. pose proof (fin_hi x B F) as FH. destruct (Z_lt_le_dec (a64 x / 2 ^ 32) 0x3fe921fc) as [H | H].
  - unfold rs_cos, rs_cos_1. cbv zeta. rewrite (ix64 x B). destruct (Z.leb_spec (a64 x / 2 ^ 32) 0x3fe921fb); [|lia]. apply div32 in H. destruct (Z.ltb_spec (a64 x / 2 ^ 32) 0x3e46a09e) as [Q | Q].
    + apply div32 in Q. rewrite (cos_tiny x B) by lia. change (0 =? 0) with true. cbv iota. eexists. split; [reflexivity|].
      destruct (absval64 0 0x3e46a09e00000000 x B ltac:(lia) ltac:(pose proof (a64_nn x); lia) ltac:(lia)) as [_ A]. rewrite l_cos in A. set (X := val f64 x) in *.
      assert (XX : (X * X < / 9007199254740992)%R). { replace (X * X)%R with (Rabs X * Rabs X)%R by (rewrite <- Rabs_mult, Rabs_pos_eq; [reflexivity|nra]). pose proof (Rabs_pos X). assert (Rabs X * Rabs X <= 741455 / 70368744177664 * (741455 / 70368744177664))%R by (apply Rmult_le_compat; assumption). lra. }
      pose proof (cos_quad X ltac:(lra)) as [Q1 _]. pose proof (COS_bound X) as [_ Q2].
      split; [split; [lia|reflexivity]|]. split; [reflexivity|]. rewrite one64. replace 1%R with (rnd f64 1). 2:{ apply repr_rnd. apply (repr_bpow f64 0). cbn. lia. }
      assert (HB : bpow radix2 (-54) = (/ 18014398509481984)%R) by reflexivity.
      apply near_half_abs; rewrite ?HB; [rewrite Rabs_pos_eq; lra|rewrite Rabs_pos_eq; lra|rewrite Rabs_pos_eq; lra].
    + assert (Q' : 0x3e46a09e00000000 <= a64 x) by (destruct (Z_lt_le_dec (a64 x) (0x3e46a09e * 2 ^ 32)) as [K | K]; [apply div32 in K; lia|exact K]).
      eexists. split; [reflexivity|]. apply k_cos_ok; [exact B|exact F|split; [lia|reflexivity]|reflexivity| | |].
      * apply (no_red x 0x3e46a09e00000000 B F); lia.
      * rewrite zero64, Rabs_R0. pose proof (Rabs_pos (val f64 x)). lra.
      * rewrite zero64. replace (val f64 x + 0 - val f64 x)%R with 0%R by ring. rewrite Rabs_R0. pose proof (Rabs_pos (val f64 x)). lra.
  - destruct (red_sel x B ltac:(lia)) as (n & y0 & y1 & R & _ & E). eexists. split; [exact E|]. exact (proj2 (sel64_faithful _ _ _ _ R)).
Qed.

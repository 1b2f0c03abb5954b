(** tanh in double precision. *)
From Coq Require Import ZArith Reals Lia Lra Bool List Psatz.
From Flocq Require Import Core.
From Verif Require Import Base Spec SpecFun SpecExp SpecLog2 SpecExpm1 SpecHyp2 Format P_format Ieee P_ieee P_real P_neg P_lit P_err P_apx P_expa7 P_expa9 P_expa11 P_hy1 P_hy2 P_em2 P_em6 P_sh1 P_sh2 P_sh3 P_sh4 P_sh5 P_elem P_elem2 P_dom P_tot P_gam6 M_sqrt M_elib M_exp.
Open Scope R_scope.
Local Opaque fadd fsub fmul fdiv of_int rs_exp rs_expm1.

Lemma tanh_sg F x : isbits F x -> finite F x = true -> tanh (val F x) = if signbit F x then - tanh (Rabs (val F x)) else tanh (Rabs (val F x)).
Proof.
  intros B G. destruct (signbit F x) eqn:S.
  - assert (H : val F x <= 0) by (now apply val_sign_nonpos). rewrite (Rabs_left1 _ H), tanh_odd. ring.
  - assert (H : 0 <= val F x) by (now apply val_sign_nonneg). now rewrite (Rabs_pos_eq _ H).
Qed.
(** doubling the argument *)
Lemma dbl F c y : finite F c = true -> Rabs (val F c) = 2 -> finite F y = true -> Rabs (val F y) <= 1048576 -> (90 <= bias F)%Z -> isbits F (fmul F c y) /\ finite F (fmul F c y) = true /\ val F (fmul F c y) = val F c * val F y.
Proof.
  intros Fc Vc Fy L BB. destruct (ab_sc F c y 1 Fc Fy Vc ltac:(lia)) as [Q _]; [|exact Q]. rewrite Rabs_mult, Vc. apply Rle_lt_trans with (bpow radix2 21); [change (bpow radix2 21) with 2097152; lra|apply bpow_lt; lia].
Qed.
Theorem tanh_within : tanh_like f64 4 rs_tanh.
Proof.
  intros x B G. destruct (val_a64 x B) as (B1 & B2 & B3 & B4). rewrite G in B3. pose proof (tanh_sg f64 x B G) as SG. set (X := Rabs (val f64 x)) in *. assert (X0 : 0 <= X) by apply Rabs_pos.
  assert (G1 := a64_ge x 0x3fe193eb00000000 B G ltac:(split; [discriminate|reflexivity])). assert (G2 := a64_ge x 0x4034000100000000 B G ltac:(split; [discriminate|reflexivity])). assert (G3 := a64_ge x 0x3fd058af00000000 B G ltac:(split; [discriminate|reflexivity])). assert (G4 := a64_ge x 0x0010000000000000 B G ltac:(split; [discriminate|reflexivity])).
  change (0x3fe193eb00000000 - 1)%Z with 0x3fe193eaffffffff%Z in G1. change (0x4034000100000000 - 1)%Z with 0x40340000ffffffff%Z in G2. change (0x3fd058af00000000 - 1)%Z with 0x3fd058aeffffffff%Z in G3. change (0x0010000000000000 - 1)%Z with 0x000fffffffffffff%Z in G4.
  rewrite (val_lit f64 0x3fe193eb00000000 1151979 2097152), (val_lit f64 0x3fe193eaffffffff 4947712130678783 9007199254740992) in G1 by (vm_compute; reflexivity). rewrite (val_lit f64 0x4034000100000000 1310721 65536), (val_lit f64 0x40340000ffffffff 5629503829180415 281474976710656) in G2 by (vm_compute; reflexivity). rewrite (val_lit f64 0x3fd058af00000000 1071279 4194304), (val_lit f64 0x3fd058aeffffffff 4601108269891583 18014398509481984) in G3 by (vm_compute; reflexivity).
  assert (VM : val f64 0x0010000000000000 = bpow radix2 (-1022)). { rewrite (val_lit f64 0x0010000000000000 1 (2 ^ 1022)) by (vm_compute; reflexivity). change (bpow radix2 (-1022)) with (/ IZR (2 ^ 1022)). unfold Rdiv. ring. }
  assert (VL : val f64 0x000fffffffffffff <= bpow radix2 (-1022)). { rewrite (val_lit f64 0x000fffffffffffff (2 ^ 52 - 1) (2 ^ 1074)) by (vm_compute; reflexivity). replace (bpow radix2 (-1022)) with (bpow radix2 52 * bpow radix2 (-1074)) by (rewrite <- bpow_plus; reflexivity). change (bpow radix2 (-1074)) with (/ IZR (2 ^ 1074)). apply Rmult_le_compat_r; [left; apply Rinv_0_lt_compat; apply IZR_lt; vm_compute; reflexivity|]. change (bpow radix2 52) with (IZR (2 ^ 52)). apply IZR_le. vm_compute; discriminate. }
  rewrite VM in G4. fold X in G1, G2, G3, G4. pose proof ln2_lo as L2. pose proof (bpow_gt_0 radix2 (bias f64 + 1)) as MP. assert (MB : bpow radix2 70 <= (1 - / 100000) * bpow radix2 1024). { replace 1024%Z with (70 + 954)%Z by reflexivity. rewrite bpow_plus. assert (2 <= bpow radix2 954) by (change 2 with (bpow radix2 1); apply bpow_le; lia). pose proof (bpow_gt_0 radix2 70). nra. }
  assert (EM : forall c s, finite f64 c = true -> val f64 c = s -> Rabs s = 2 -> X <= 21 -> exists t, rs_expm1 (fmul f64 c (a64 x)) = Some t /\ rel_err f64 2 (exp (s * X) - 1) t).
  { intros c s Fc Vc As XU. destruct (dbl f64 c (a64 x) Fc ltac:(now rewrite Vc) B3) as (D1 & D2 & D3). { rewrite B4. fold X. rewrite Rabs_pos_eq by lra. lra. } { vm_compute; discriminate. } rewrite Vc, B4 in D3. fold X in D3. rewrite <- D3. apply em64; try assumption. eapply Rle_trans; [|exact MB]. apply e_pu. rewrite D3. pose proof (Rle_abs s). assert (s * X <= 2 * X) by (apply Rmult_le_compat_r; lra). lra. }
  assert (CORE : exists r, (if (0x3fe193eb00000000 <=? a64 x)%Z then if (0x4034000100000000 <=? a64 x)%Z then Some (fsub f64 0x3ff0000000000000 (fdiv f64 0 (a64 x))) else (let* t := rs_expm1 (fmul f64 0x4000000000000000 (a64 x)) in Some (fsub f64 0x3ff0000000000000 (fdiv f64 0x4000000000000000 (fadd f64 t 0x4000000000000000))))
     else if (0x3fd058af00000000 <=? a64 x)%Z then (let* t := rs_expm1 (fmul f64 0x4000000000000000 (a64 x)) in Some (fdiv f64 t (fadd f64 t 0x4000000000000000))) else if (0x0010000000000000 <=? a64 x)%Z then (let* t := rs_expm1 (fmul f64 0xc000000000000000 (a64 x)) in Some (fdiv f64 (Format.fneg f64 t) (fadd f64 t 0x4000000000000000))) else Some (a64 x)) = Some r /\ rel_err f64 4 (tanh X) r).
  { destruct (0x3fe193eb00000000 <=? a64 x)%Z; [destruct G1 as [G1 _]; specialize (G1 eq_refl); destruct (0x4034000100000000 <=? a64 x)%Z|destruct G1 as [_ G1]; specialize (G1 eq_refl); destruct (0x3fd058af00000000 <=? a64 x)%Z; [|destruct (0x0010000000000000 <=? a64 x)%Z]].
    - destruct G2 as [G2 _]. specialize (G2 eq_refl). eexists. split; [reflexivity|]. destruct (one_zero f64 A1 A2 A3 A4 _ _ o64 w64 (bpow radix2 (bias f64 + 1)) eq_refl 0 (a64 x) (proj1 z64) (proj2 z64) B3 ltac:(rewrite B4; fold X; lra)) as [(O1 & O2 & O3) _]. apply (one_tanh f64 A1 A2 A3 A4 _ _ o64 w64); try assumption. rewrite pp. pose proof (e_pw 54 (2 * X) ltac:(lra)) as E. change (bpow radix2 54) with 18014398509481984 in E. lra.
    - destruct G2 as [_ G2]. specialize (G2 eq_refl). destruct (EM 0x4000000000000000%Z 2 (proj1 (proj2 w64)) (proj2 (proj2 w64)) ltac:(apply Rabs_pos_eq; lra) ltac:(lra)) as (t & Et & Rt). rewrite Et. eexists. split; [reflexivity|]. apply (tanh_big f64 A1 A2 A3 A4 _ _ o64 w64 (bpow radix2 (bias f64 + 1)) eq_refl); [exact Rt|lra|]. change 1180591620717411303424 with (bpow radix2 70). apply e_pu. lra.
    - destruct G3 as [G3 _]. specialize (G3 eq_refl). destruct (EM 0x4000000000000000%Z 2 (proj1 (proj2 w64)) (proj2 (proj2 w64)) ltac:(apply Rabs_pos_eq; lra) ltac:(lra)) as (t & Et & Rt). rewrite Et. eexists. split; [reflexivity|]. apply (tanh_mid f64 A1 A2 A3 A4 _ _ o64 w64 (bpow radix2 (bias f64 + 1)) eq_refl); [exact Rt|lra|]. change 4 with (bpow radix2 2). apply e_pu. lra.
    - destruct G3 as [_ G3]. specialize (G3 eq_refl). destruct G4 as [G4 _]. specialize (G4 eq_refl). destruct (EM 0xc000000000000000%Z (-2) (proj1 m64) (proj2 m64) ltac:(rewrite Rabs_left; lra) ltac:(lra)) as (t & Et & Rt). rewrite Et. eexists. split; [reflexivity|]. replace (-2 * X) with (- (2 * X)) in Rt by ring. apply (th_small f64 A1 A2 A3 A4 _ _ o64 w64); [exact Rt|split; [exact G4|lra]|apply e_ts; lra].
    - destruct G4 as [_ G4]. specialize (G4 eq_refl). exists (a64 x). split; [reflexivity|]. replace X with (val f64 (a64 x)) by exact B4. apply (tiny_tanh f64 A1 A2 A3 A4 _ _ o64 w64); try assumption. rewrite B4. fold X. split; [lra|]. change (emin f64 + mw f64)%Z with (-1022)%Z. lra. }
  destruct CORE as (r & E & R).
  assert (EQ : rs_tanh x = Some (if signbit f64 x then Format.fneg f64 r else r)).
  { unfold rs_tanh. cbv zeta. words64 x B. rewrite !ltle. change (0x3fe193ea + 1)%Z with 0x3fe193eb%Z. change (0x40340000 + 1)%Z with 0x40340001%Z. change (0x3fd058ae + 1)%Z with 0x3fd058af%Z. rewrite !hi_le by lia. change (0x3fe193eb * 2 ^ 32)%Z with 0x3fe193eb00000000%Z. change (0x40340001 * 2 ^ 32)%Z with 0x4034000100000000%Z. change (0x3fd058af * 2 ^ 32)%Z with 0x3fd058af00000000%Z. change (0x100000 * 2 ^ 32)%Z with 0x0010000000000000%Z.
    destruct (0x3fe193eb00000000 <=? a64 x)%Z; [destruct (0x4034000100000000 <=? a64 x)%Z|destruct (0x3fd058af00000000 <=? a64 x)%Z; [|destruct (0x0010000000000000 <=? a64 x)%Z]].
    - injection E as <-. cbn [bind]. rewrite negb_involutive. now destruct (signbit f64 x).
    - destruct (rs_expm1 (fmul f64 0x4000000000000000 (a64 x))); [|discriminate E]. injection E as <-. cbn [bind]. rewrite negb_involutive. now destruct (signbit f64 x).
    - destruct (rs_expm1 (fmul f64 0x4000000000000000 (a64 x))); [|discriminate E]. injection E as <-. cbn [bind]. rewrite negb_involutive. now destruct (signbit f64 x).
    - destruct (rs_expm1 (fmul f64 0xc000000000000000 (a64 x))); [|discriminate E]. injection E as <-. cbn [bind]. rewrite negb_involutive. now destruct (signbit f64 x).
    - injection E as <-. cbn [bind]. rewrite negb_involutive. now destruct (signbit f64 x). }
  rewrite EQ, SG. eexists. split; [reflexivity|]. destruct (signbit f64 x); [|exact R]. now apply (rel_neg f64 A1 A2 A3 A4).
Qed.

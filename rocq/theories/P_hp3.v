(** hypot: the square root of the sum of squares in the scaled range, and the two functions on ordered magnitudes. *)
From Coq Require Import ZArith Reals Lia Lra Bool List Psatz.
From Flocq Require Import Core.
From Verif Require Import Base Spec SpecFun3 SpecHypot2 Format P_format Ieee P_ieee P_real P_neg P_lit P_err P_apx M_sqrt Prop_sqrt M_elib M_pow P_hy1 P_hp1 P_hp2.
Open Scope R_scope.
Local Opaque fadd fsub fmul fdiv of_int M_sqrt.sqrt M_sqrt.sqrtf.

Lemma sq_arg F x : isbits F x -> finite F x = true -> 0 < val F x -> forall r, sqrt_spec F x r -> rounds_to F (R_sqrt.sqrt (val F x)) false r.
Proof.
  intros B G V r (_ & S & _). apply S; [exact G| |exact (val_pos_sign F x V)]. destruct (iszero F x) eqn:Z; [|reflexivity]. exfalso. pose proof (iszero_eq F x B Z) as E. rewrite E, val_zero in V. lra.
Qed.
Lemma hsum_ok x y : isbits f64 x -> isbits f64 y -> finite f64 x = true -> finite f64 y = true -> bpow radix2 (-450) <= val f64 y <= val f64 x -> val f64 x <= bpow radix2 511 ->
  let h := R_sqrt.sqrt (val f64 x * val f64 x + val f64 y * val f64 y) in
  exists q, (let '(hx, lx) := rs_hypot_sq x in let '(hy, ly) := rs_hypot_sq y in M_sqrt.sqrt (fadd f64 (fadd f64 (fadd f64 ly lx) hy) hx)) = Some q /\ finite f64 q = true /\ val f64 x <= val f64 q /\ Rabs (val f64 q - h) <= 177 / 100 * bpow radix2 (- pr f64) * h.
Proof.
  intros BX BY FX FY [YL YX] XU h. pose proof (sq_ok x BX FX ltac:(lra)) as HX. pose proof (sq_ok y BY FY ltac:(lra)) as HY. cbv zeta in HX, HY.
  destruct (rs_hypot_sq x) as [hx lx]. destruct (rs_hypot_sq y) as [hy ly].
  destruct HX as ((_ & F1) & (_ & F2) & E1 & E2). destruct HY as ((_ & F3) & (_ & F4) & E3 & E4).
  set (X := val f64 x) in *. set (Y := val f64 y) in *. set (M := bpow radix2 1023). set (u := bpow radix2 (-1075)).
  assert (Y0 : 0 < Y) by (pose proof (bpow_gt_0 radix2 (-450)); lra).
  assert (QM : 2 * (X * X) <= M). { apply Rle_trans with (2 * bpow radix2 (511 + 511)); [rewrite bpow_plus; nra|]. unfold M. replace 1023%Z with (1 + (511 + 511))%Z by lia. rewrite (bpow_plus radix2 1). change (bpow radix2 1) with 2. lra. }
  assert (UQ : u <= / 1152921504606846976 * (/ 1152921504606846976 * (Y * Y))).
  { apply Rle_trans with (bpow radix2 (-60 + (-60 + (-450 + -450)))); [apply bpow_le; lia|]. rewrite !bpow_plus. change (bpow radix2 (-60)) with (/ 1152921504606846976). pose proof (bpow_gt_0 radix2 (-450)). nra. }
  assert (UY : u <= / 1152921504606846976 * (/ 1152921504606846976 * Y)).
  { apply Rle_trans with (bpow radix2 (-60 + (-60 + -450))); [apply bpow_le; lia|]. rewrite !bpow_plus. change (bpow radix2 (-60)) with (/ 1152921504606846976). lra. }
  assert (U0 : 0 < u) by apply bpow_gt_0.
  assert (P0 : 0 < X * X) by nra. assert (Q0 : 0 < Y * Y) by nra. assert (PQ : Y * Y <= X * X) by nra.
  pose proof (hyp_bd X Y ltac:(lra) ltac:(lra)) as [HB HB2]. fold h in HB, HB2.
  assert (MX : 1152921504606846976 * X <= M). { apply Rle_trans with (bpow radix2 (60 + 511)); [rewrite bpow_plus; change (bpow radix2 60) with 1152921504606846976; lra|apply bpow_le; lia]. }
  set (P := X * X) in *. set (Q := Y * Y) in *.
  assert (L1 : Rabs (val f64 ly + val f64 lx) <= 5 * / 9007199254740992 * P) by (ab; apply Rabs_le; lra).
  destruct (stp _ _ _ (fadd_spec f64 ly lx F4 F2)) as (B5 & F5 & E5). { fold M. lra. } fold u in E5. set (s1 := fadd f64 ly lx) in *.
  assert (D1 : Rabs (val f64 s1 - (val f64 ly + val f64 lx)) <= / 1000000 * / 9007199254740992 * P) by lra. clear E5.
  assert (L2 : Rabs (val f64 s1 + val f64 hy) <= 1001 / 1000 * Q + 2 * / 9007199254740992 * P) by (ab; apply Rabs_le; lra).
  destruct (stp _ _ _ (fadd_spec f64 s1 hy F5 F3)) as (B6 & F6 & E6). { fold M. lra. } fold u in E6. set (s2 := fadd f64 s1 hy) in *.
  assert (D2 : Rabs (val f64 s2 - (val f64 s1 + val f64 hy)) <= / 9007199254740992 * (1001 / 1000 * Q + / 1000000 * P)) by lra. clear E6.
  assert (L3 : Rabs (val f64 s2 + val f64 hx) <= 1001 / 1000 * (P + Q)) by (ab; apply Rabs_le; lra).
  destruct (stp _ _ _ (fadd_spec f64 s2 hx F6 F1)) as (B7 & F7 & E7). { fold M. lra. }
  assert (V7 : val f64 (fadd f64 s2 hx) = rnd f64 (val f64 s2 + val f64 hx)). { apply (stv _ _ _ (fadd_spec f64 s2 hx F6 F1)). fold M. lra. }
  fold u in E7. set (s3 := fadd f64 s2 hx) in *.
  assert (D3 : Rabs (val f64 s3 - (val f64 s2 + val f64 hx)) <= / 9007199254740992 * (1002 / 1000 * (P + Q))) by lra. clear E7.
  assert (GE : rnd f64 (P * (1 - / 100000 * / 9007199254740992)) <= val f64 s3). { rewrite V7. apply rnd_le. ab. lra. }
  assert (D4 : Rabs (val f64 s3 - (P + Q)) <= 1504 / 1000 * / 9007199254740992 * (P + Q)) by (ab; apply Rabs_le; lra).
  clear L1 L2 L3 D1 D2 D3 E1 E2 E3 E4.
  destruct (C20_sqrt s3 B7) as (q & E & SP). exists q. split; [exact E|].
  assert (V3 : 0 < val f64 s3) by (ab; lra). pose proof (sq_arg f64 s3 B7 F7 V3 q SP) as RT.
  pose proof (sqrt_near (P + Q) (val f64 s3) (1504 / 1000 * / 9007199254740992) ltac:(lra) ltac:(lra) D4) as SN. fold h in SN.
  pose proof (sqrt_pos (val f64 s3)) as W0. set (w := R_sqrt.sqrt (val f64 s3)) in *.
  destruct (stp _ _ _ RT) as (B8 & F8 & E8). { fold M. rewrite Rabs_pos_eq by exact W0. ab. lra. }
  rewrite (Rabs_pos_eq w W0) in E8. fold u in E8. split; [exact F8|]. change (bpow radix2 (- pr f64)) with (/ 9007199254740992).
  assert (WH : w <= 1001 / 1000 * h) by (ab; lra).
  assert (RH : Rabs (val f64 q - h) <= 177 / 100 * / 9007199254740992 * h) by (ab; apply Rabs_le; lra). split; [|exact RH].
  rewrite (stv _ _ _ RT) by (fold M; rewrite Rabs_pos_eq by exact W0; ab; lra).
  refine (sqrt_rnd_sq f64 _ (/ 100000 * / 9007199254740992) X _ _ (repr_val f64 x FX) _ _ _ GE); [cbn; lia|change (bpow radix2 (- pr f64)) with (/ 9007199254740992); lra|lra| |].
  - apply Rle_trans with (bpow radix2 (-450 + -450)); [apply bpow_le; vm_compute; discriminate|]. rewrite bpow_plus. fold P. unfold P. pose proof (bpow_gt_0 radix2 (-450)). nra.
  - apply Rle_trans with (bpow radix2 (-450)); [apply bpow_le; vm_compute; discriminate|lra].
Qed.
Lemma st32 v sz z : rounds_to f32 v sz z -> Rabs v <= bpow radix2 127 -> isbits f32 z /\ finite f32 z = true /\ Rabs (val f32 z - v) <= / 16777216 * Rabs v + bpow radix2 (-150).
Proof. intros R L. destruct (rounds_fin f32 _ _ _ R L) as [G V]. split; [exact (proj1 R)|]. split; [exact G|]. rewrite V. exact (rndF_abs f32 v). Qed.
Lemma hsumf_ok x y : finite f32 x = true -> finite f32 y = true -> bpow radix2 (-60) <= val f32 y <= val f32 x -> val f32 x <= bpow radix2 60 ->
  let h := R_sqrt.sqrt (val f32 x * val f32 x + val f32 y * val f32 y) in
  exists q, M_sqrt.sqrtf (fcvt f64 f32 (fadd f64 (fmul f64 (fcvt f32 f64 x) (fcvt f32 f64 x)) (fmul f64 (fcvt f32 f64 y) (fcvt f32 f64 y)))) = Some q /\ finite f32 q = true /\ 0 <= val f32 q /\ Rabs (val f32 q - h) <= 16 / 10 * bpow radix2 (- pr f32) * h.
Proof.
  intros FX FY [YL YX] XU h. set (X := val f32 x) in *. set (Y := val f32 y) in *.
  change (bpow radix2 (-60)) with (/ 1152921504606846976) in YL. change (bpow radix2 60) with 1152921504606846976 in XU.
  pose proof (hyp_bd X Y ltac:(lra) ltac:(lra)) as [HB HB2]. fold h in HB, HB2.
  assert (UU : bpow radix2 (-1075) <= bpow radix2 (-200)) by (apply bpow_le; lia). assert (U0 : 0 < bpow radix2 (-1075)) by apply bpow_gt_0. set (u := bpow radix2 (-1075)) in *.
  assert (MM : bpow radix2 200 <= bpow radix2 1023) by (apply bpow_le; lia). set (M := bpow radix2 1023) in *.
  replace (bpow radix2 200) with (1152921504606846976 * (1152921504606846976 * (1152921504606846976 * 1048576))) in MM by (replace 200%Z with (60 + (60 + (60 + 20)))%Z by lia; rewrite !bpow_plus; reflexivity).
  assert (U2 : bpow radix2 (-200) = / 1152921504606846976 * (/ 1152921504606846976 * (/ 1152921504606846976 * / 1048576))). { replace (-200)%Z with (-60 + (-60 + (-60 + -20)))%Z by lia. rewrite !bpow_plus. reflexivity. }
  rewrite U2 in UU. clear U2.
  destruct (stp _ _ _ (fcvt_finite f32 f64 x FX)) as (B1 & F1 & E1). { fold X M. rewrite Rabs_pos_eq; lra. } fold X u in E1. rewrite (Rabs_pos_eq X) in E1 by lra.
  destruct (stp _ _ _ (fcvt_finite f32 f64 y FY)) as (B2 & F2 & E2). { fold Y M. rewrite Rabs_pos_eq; lra. } fold Y u in E2. rewrite (Rabs_pos_eq Y) in E2 by lra.
  set (a := fcvt f32 f64 x) in *. set (b := fcvt f32 f64 y) in *.
  assert (P0 : 0 < X * X) by nra. assert (PU : X * X <= 1152921504606846976 * 1152921504606846976) by nra. assert (Q0 : / 1152921504606846976 * / 1152921504606846976 <= Y * Y) by nra. assert (PQ : Y * Y <= X * X) by nra.
  set (A := val f64 a) in *. set (B := val f64 b) in *.
  assert (AA : Rabs (A - X) <= 2 * / 9007199254740992 * X) by lra. assert (BB : Rabs (B - Y) <= 2 * / 9007199254740992 * Y) by lra. clear E1 E2.
  assert (A2 : Rabs (A * A - X * X) <= 5 * / 9007199254740992 * (X * X)) by (ab; apply Rabs_le; split; nra).
  assert (B3 : Rabs (B * B - Y * Y) <= 5 * / 9007199254740992 * (Y * Y)) by (ab; apply Rabs_le; split; nra).
  set (P := X * X) in *. set (Q := Y * Y) in *.
  destruct (stp _ _ _ (fmul_spec f64 a a F1 F1)) as (B4 & F4 & E4). { fold A M. ab. rewrite Rabs_pos_eq; nra. } fold A u in E4. rewrite (Rabs_pos_eq (A * A)) in E4 by nra.
  destruct (stp _ _ _ (fmul_spec f64 b b F2 F2)) as (B5 & F5 & E5). { fold B M. ab. rewrite Rabs_pos_eq; nra. } fold B u in E5. rewrite (Rabs_pos_eq (B * B)) in E5 by nra.
  set (aa := fmul f64 a a) in *. set (bb := fmul f64 b b) in *.
  assert (D4 : Rabs (val f64 aa - P) <= 7 * / 9007199254740992 * P) by (ab; apply Rabs_le; lra). assert (D5 : Rabs (val f64 bb - Q) <= 7 * / 9007199254740992 * Q) by (ab; apply Rabs_le; lra). clear E4 E5 A2 B3 AA BB.
  destruct (stp _ _ _ (fadd_spec f64 aa bb F4 F5)) as (B6 & F6 & E6). { fold M. ab. rewrite Rabs_pos_eq; lra. } fold u in E6. rewrite (Rabs_pos_eq (val f64 aa + _)) in E6 by (ab; lra).
  set (s := fadd f64 aa bb) in *. assert (D6 : Rabs (val f64 s - (P + Q)) <= 9 * / 9007199254740992 * (P + Q)) by (ab; apply Rabs_le; lra). clear E6 D4 D5.
  assert (M2 : bpow radix2 127 = 147573952589676412928 * 1152921504606846976). { replace 127%Z with (67 + 60)%Z by lia. rewrite bpow_plus. reflexivity. }
  assert (V0 : bpow radix2 (-150) = / 1152921504606846976 * (/ 1152921504606846976 * / 1073741824)). { replace (-150)%Z with (-60 + (-60 + -30))%Z by lia. rewrite !bpow_plus. reflexivity. }
  destruct (st32 _ _ _ (fcvt_finite f64 f32 s F6)) as (B7 & F7 & E7). { rewrite M2. ab. rewrite Rabs_pos_eq; lra. } rewrite V0 in E7. rewrite (Rabs_pos_eq (val f64 s)) in E7 by (ab; lra).
  set (t := fcvt f64 f32 s) in *. assert (D7 : Rabs (val f32 t - (P + Q)) <= 11 / 10 * / 16777216 * (P + Q)) by (ab; apply Rabs_le; lra). clear E7 D6.
  destruct (C20_sqrtf t B7) as (q & E & SP). exists q. split; [exact E|].
  assert (V3 : 0 < val f32 t) by (ab; lra). pose proof (sq_arg f32 t B7 F7 V3 q SP) as RT.
  pose proof (sqrt_near (P + Q) (val f32 t) (11 / 10 * / 16777216) ltac:(lra) ltac:(lra) D7) as SN. fold h in SN.
  pose proof (sqrt_pos (val f32 t)) as W0. set (w := R_sqrt.sqrt (val f32 t)) in *.
  destruct (st32 _ _ _ RT) as (B8 & F8 & E8). { rewrite M2. rewrite Rabs_pos_eq by exact W0. ab. lra. }
  rewrite (Rabs_pos_eq w W0), V0 in E8. split; [exact F8|]. change (bpow radix2 (- pr f32)) with (/ 16777216).
  assert (WH : w <= 1001 / 1000 * h) by (ab; lra).
  assert (RH : Rabs (val f32 q - h) <= 16 / 10 * / 16777216 * h) by (ab; apply Rabs_le; lra). split; [ab; lra|exact RH].
Qed.

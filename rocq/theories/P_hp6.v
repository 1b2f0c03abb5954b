(** hypotf: the scaled square root is not below the larger argument. *)
From Coq Require Import ZArith Reals Lia Lra Bool List Psatz.
From Flocq Require Import Core Mult_error.
From Verif Require Import Base Spec SpecFun3 SpecHypot2 Format P_format Ieee P_ieee P_real P_neg P_lit P_err P_apx P_key M_sqrt Prop_sqrt M_elib M_pow P_elem P_elem2 P_dom P_fmaf Prop_hypot P_hy1 P_hp1 P_hp2 P_hp3 P_hp4 P_hp5.
Open Scope R_scope.
Local Opaque fadd fsub fmul fdiv of_int M_sqrt.sqrt M_sqrt.sqrtf fcvt.


(** the square of an f32 value fits in f64 *)
Lemma sq32_64 X : repr f32 X -> repr f64 (X * X).
Proof.
  intros R. destruct (repr_float f32 X R) as (n & e & E & N & L). rewrite E. replace (IZR n * bpow radix2 e * (IZR n * bpow radix2 e)) with (IZR (n * n) * bpow radix2 (e + e)) by (rewrite mult_IZR, bpow_plus; ring).
  change (2 ^ (mw f32 + 1))%Z with 16777216%Z in N. change (emin f32) with (-149)%Z in L. apply repr_int; [change (2 ^ (mw f64 + 1))%Z with 9007199254740992%Z; nia|change (emin f64) with (-1074)%Z; lia].
Qed.
Lemma hsumf_ge x y : isbits f32 x -> isbits f32 y -> finite f32 x = true -> finite f32 y = true -> bpow radix2 (-60) <= val f32 y <= val f32 x -> val f32 x <= bpow radix2 60 ->
  exists q, M_sqrt.sqrtf (fcvt f64 f32 (fadd f64 (fmul f64 (fcvt f32 f64 x) (fcvt f32 f64 x)) (fmul f64 (fcvt f32 f64 y) (fcvt f32 f64 y)))) = Some q /\ finite f32 q = true /\ val f32 x <= val f32 q.
Proof.
  intros BX BY FX FY [YL YX] XU. set (X := val f32 x) in *. set (Y := val f32 y) in *.
  assert (Y0 : 0 < Y) by (pose proof (bpow_gt_0 radix2 (-60)); lra).
  destruct (widen_ok x BX FX) as (_ & F1 & V1 & _). destruct (widen_ok y BY FY) as (_ & F2 & V2 & _). fold X in V1. fold Y in V2.
  set (a := fcvt f32 f64 x) in *. set (b := fcvt f32 f64 y) in *.
  assert (XX : X * X <= bpow radix2 120). { change 120%Z with (60 + 60)%Z. rewrite bpow_plus. nra. } assert (YY : 0 < Y * Y <= X * X) by nra.
  assert (XL : bpow radix2 (-120) <= X * X). { change (-120)%Z with (-60 + -60)%Z. rewrite bpow_plus. pose proof (bpow_gt_0 radix2 (-60)). nra. }
  assert (M1 : bpow radix2 120 <= bpow radix2 (bias f64)) by (apply bpow_le; vm_compute; discriminate).
  assert (RX : repr f32 X) by exact (repr_val f32 x FX). assert (RY : repr f32 Y) by exact (repr_val f32 y FY).
  destruct (rounds_fin f64 _ _ _ (fmul_spec f64 a a F1 F1)) as [F4 V4]. { rewrite V1, Rabs_pos_eq by nra. lra. }
  destruct (rounds_fin f64 _ _ _ (fmul_spec f64 b b F2 F2)) as [F5 V5]. { rewrite V2, Rabs_pos_eq by nra. lra. }
  rewrite V1, (repr_rnd f64 _ (sq32_64 X RX)) in V4. rewrite V2, (repr_rnd f64 _ (sq32_64 Y RY)) in V5.
  set (aa := fmul f64 a a) in *. set (bb := fmul f64 b b) in *.
  assert (M2 : bpow radix2 122 = 4 * bpow radix2 120) by (change 122%Z with (2 + 120)%Z; rewrite bpow_plus; reflexivity).
  assert (M3 : bpow radix2 122 <= bpow radix2 (bias f64)) by (apply bpow_le; vm_compute; discriminate). pose proof (bpow_gt_0 radix2 120) as M0.
  destruct (rounds_fin f64 _ _ _ (fadd_spec f64 aa bb F4 F5)) as [F6 V6]. { rewrite V4, V5, Rabs_pos_eq by lra. lra. }
  rewrite V4, V5 in V6. set (s := fadd f64 aa bb) in *.
  assert (S1 : X * X <= val f64 s). { rewrite V6. rewrite <- (repr_rnd f64 _ (sq32_64 X RX)) at 1. apply rnd_le. lra. }
  assert (S2 : val f64 s <= bpow radix2 122). { rewrite V6. rewrite <- (repr_rnd f64 (bpow radix2 122)) by (apply repr_bpow; vm_compute; discriminate). apply rnd_le. lra. }
  assert (M4 : bpow radix2 122 <= bpow radix2 (bias f32)) by (apply bpow_le; vm_compute; discriminate).
  pose proof (fcvt_finite f64 f32 s F6) as RT. destruct (rounds_fin f32 _ _ _ RT) as [F7 V7]. { rewrite Rabs_pos_eq by lra. lra. }
  set (t := fcvt f64 f32 s) in *. assert (T1 : rnd f32 (X * X) <= val f32 t) by (rewrite V7; apply rnd_le; exact S1).
  assert (T2 : val f32 t <= bpow radix2 122). { rewrite V7. rewrite <- (repr_rnd f32 (bpow radix2 122)) by (apply repr_bpow; vm_compute; discriminate). now apply rnd_le. }
  assert (T0 : 0 < val f32 t). { eapply Rlt_le_trans; [apply (bpow_gt_0 radix2 (-120))|]. eapply Rle_trans; [|exact T1]. rewrite <- (repr_rnd f32 (bpow radix2 (-120))) by (apply repr_bpow; vm_compute; discriminate). now apply rnd_le. }
  destruct (C20_sqrtf t (proj1 RT)) as (q & E & SP). exists q. split; [exact E|].
  pose proof (sq_arg f32 t (proj1 RT) F7 T0 q SP) as RQ.
  destruct (rounds_fin f32 _ _ _ RQ) as [F8 V8].
  { rewrite Rabs_pos_eq by apply sqrt_pos. apply Rle_trans with (bpow radix2 61); [|apply bpow_le; vm_compute; discriminate]. rewrite <- (sqrt_square (bpow radix2 61)) by apply bpow_ge_0. apply sqrt_le_1_alt. rewrite <- bpow_plus. exact T2. }
  split; [exact F8|]. rewrite V8. apply (sqrt_rnd_sq f32 w32' 0 X); [pose proof (bpow_gt_0 radix2 (- pr f32)); lra|exact RX|lra| | |rewrite Rminus_0_r, Rmult_1_r; exact T1].
  - eapply Rle_trans; [|exact XL]. apply bpow_le. vm_compute. discriminate.
  - eapply Rle_trans; [|exact (Rle_trans _ _ _ YL YX)]. apply bpow_le. vm_compute. discriminate.
Qed.

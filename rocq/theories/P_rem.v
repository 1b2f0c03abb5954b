(** rem_pio2 and rem_pio2f never fail (C38). *)
From Coq Require Import ZArith Reals Lia Lra Bool List Psatz.
From Flocq Require Import Core.
From Verif Require Import Base Spec SpecFun Format P_format Ieee M_basic M_scalbn M_elib M_rempio2 P_ieee P_elem P_elem2 P_ival P_tot P_cf P_fx P_rpl P_rpl2 P_rpl3 P_rpl4.
Import ListNotations.
Open Scope Z_scope.
Open Scope fl_scope.

Lemma pieces64 x : isbits f64 x ->
  fx (Z.lor (Z.land x (Z.shiftr (unot 64 1) 12)) (shlu 64 (0x3ff + 23) 52)) (2 ^ 52 + sigf f64 x) (-29).
Proof.
  intros B. change (Z.shiftr (unot 64 1) 12) with (2 ^ 52 - 1). change (shlu 64 (0x3ff + 23) 52) with (1046 * 2 ^ 52). rewrite land_pow2m1 by lia.
  pose proof (Z.mod_pos_bound x (2 ^ 52) ltac:(lia)) as R. change (x mod 2 ^ 52) with (sigf f64 x) in *. set (m := sigf f64 x) in *.
  rewrite Z.lor_comm, lor_disjoint by lia. change (1046 * 2 ^ 52 + m) with (mkbits f64 false 1046 m).
  destruct (mkbits_fields f64 false 1046 m) as (E1 & E2 & E3); [change (2 ^ ew f64) with 2048; lia|exact R|].
  split; [|split].
  - apply mkbits_range; [change (2 ^ ew f64) with 2048; lia|exact R].
  - unfold finite. rewrite E2. reflexivity.
  - rewrite val_mkbits by (try exact R; change (2 ^ ew f64) with 2048; lia). reflexivity.
Qed.
Lemma ssub_ok32 a c : - 2147483648 <= a - c < 2147483648 -> ssub 32 a c = Some (a - c).
Proof. intros H. apply ssub_ok. change (2 ^ (32 - 1)) with 2147483648. lia. Qed.

Theorem rem_pio2_huge_ok b x s : isbits f64 x -> 0x413921fb <= a64 x / 2 ^ 32 < 0x7ff00000 -> exists n a c, rs_rem_pio2_huge b x (a64 x / 2 ^ 32) s = Some (n, a, c) /\ -7 <= n <= 7.
Proof.
  intros B Hix. unfold rs_rem_pio2_huge.
  pose proof (pieces64 x B) as F0. set (ui := Z.lor (Z.land x (Z.shiftr (unot 64 1) 12)) (shlu 64 (0x3ff + 23) 52)) in *. clearbody ui. cbv zeta.
  assert (RM : 2 ^ 52 <= 2 ^ 52 + sigf f64 x < 2 ^ 53) by (pose proof (Z.mod_pos_bound x (2 ^ 52) ltac:(lia)) as R; change (x mod 2 ^ 52) with (sigf f64 x) in R; lia).
  set (M := 2 ^ 52 + sigf f64 x) in *. clearbody M.
  set (X0 := M / 2 ^ 29). set (X1 := M mod 2 ^ 29 / 2 ^ 5). set (X2 := M mod 2 ^ 29 mod 2 ^ 5 * 2 ^ 19).
  assert (D0 := Z.div_mod M (2 ^ 29) ltac:(lia)). assert (D0b := Z.mod_pos_bound M (2 ^ 29) ltac:(lia)). fold X0 in D0.
  assert (D1 := Z.div_mod (M mod 2 ^ 29) (2 ^ 5) ltac:(lia)). assert (D1b := Z.mod_pos_bound (M mod 2 ^ 29) (2 ^ 5) ltac:(lia)). fold X1 in D1.
  assert (R0 : 0 <= X0 < 2 ^ 24) by lia. assert (R1 : 0 <= X1 < 2 ^ 24) by lia. assert (R2 : 0 <= X2 < 2 ^ 24) by (unfold X2; lia).
  assert (T0 : to_i32 f64 ui = X0) by (apply fx_trunc; [lia|lia|exact F0|fold X0; lia]). rewrite T0.
  assert (F1 : fx (of_int f64 X0) X0 0) by (apply fx_int; lia).
  assert (F2 : fx ((ui -: of_int f64 X0) *: x1p24) (M mod 2 ^ 29) (- 5)).
  { apply (fx_cast _ (M mod 2 ^ 29 * 1) (-29 + 24)); [|lia|lia]. apply fx_mul; [|exact fx_x1p24|lia|lia].
    apply (fx_cast _ (M - X0 * 2 ^ 29) (-29)); [|lia|lia]. apply fx_sub; [exact F0|apply fx_shift; [lia|exact F1]|lia|lia]. }
  set (z1 := (ui -: of_int f64 X0) *: x1p24) in *. clearbody z1.
  assert (T1 : to_i32 f64 z1 = X1) by (apply fx_trunc; [lia|lia|exact F2|fold X1; lia]). rewrite T1.
  assert (F3 : fx (of_int f64 X1) X1 0) by (apply fx_int; lia).
  assert (F4 : fx ((z1 -: of_int f64 X1) *: x1p24) X2 0).
  { apply fx_shift; [lia|]. apply (fx_cast _ (M mod 2 ^ 29 mod 2 ^ 5 * 1) (- 5 + 24)); [|lia|lia]. apply fx_mul; [|exact fx_x1p24|lia|lia].
    apply (fx_cast _ (M mod 2 ^ 29 - X1 * 2 ^ 5) (-5)); [|lia|lia]. apply fx_sub; [exact F2|apply fx_shift; [lia|exact F3]|lia|lia]. }
  set (z2 := (z1 -: of_int f64 X1) *: x1p24) in *. clearbody z2.
  rewrite (fx_eq0 _ _ _ F4), (fx_eq0 _ _ _ F3).
  set (i := if X2 =? 0 then if X1 =? 0 then 0 else 1 else 2).
  assert (Hi : 0 <= i <= 2) by (unfold i; destruct (X2 =? 0), (X1 =? 0); lia).
  rewrite to_i_small by (p31; lia). rewrite Z.shiftr_div_pow2 by lia.
  assert (E20 : 0x413 <= a64 x / 2 ^ 32 / 2 ^ 20 <= 0x7fe) by (split; [apply Z.div_le_lower_bound; lia|apply Z.lt_succ_r, Z.div_lt_upper_bound; lia]).
  rewrite ssub_ok32 by lia. cbn [bind]. set (e0 := a64 x / 2 ^ 32 / 2 ^ 20 - (0x3ff + 23)).
  set (X := fun j => if j =? 0 then X0 else if j =? 1 then X1 else if j =? 2 then X2 else 0).
  assert (EL : Z.of_nat (length (firstn (Z.to_nat (i + 1)) [of_int f64 X0; of_int f64 X1; z2])) = i + 1) by (rewrite firstn_length; cbn [length]; lia).
  assert (Enz : forall j, 0 <= j < i + 1 -> fx (nz (firstn (Z.to_nat (i + 1)) [of_int f64 X0; of_int f64 X1; z2]) j) (X j) 0).
  { intros j Hj. unfold nz. rewrite nth_firstn_lt by lia. assert (j = 0 \/ j = 1 \/ j = 2) as [-> | [-> | ->]] by lia; assumption. }
  destruct (rem_pio2_large_ok b (firstn (Z.to_nat (i + 1)) [of_int f64 X0; of_int f64 X1; z2]) X (repeat 0 3) e0 1)
    as (n & ih & z & iq & q & jz & jz' & q1 & iq' & q' & fq & y' & _ & _ & _ & _ & _ & Ly & ->).
  - lia.
  - lia.
  - auto.
  - cbn. lia.
  - intros j Hj. apply Enz. lia.
  - intros j. unfold X. destruct (j =? 0), (j =? 1), (j =? 2); lia.
  - intros j Hj. rewrite EL in Hj. unfold X, i in *. destruct (Z.eqb_spec X2 0), (Z.eqb_spec X1 0), (Z.eqb_spec j 0), (Z.eqb_spec j 1), (Z.eqb_spec j 2); lia.
  - intros N. assert (EX : Xt X = M * 2 ^ 19).
    { unfold Xt. change (X 0) with X0. change (X 1) with X1. change (X 2) with X2. unfold X2. lia. }
    rewrite EX. pose proof (reduction_gap64 b e0 M N ltac:(lia) ltac:(lia)) as G. pose proof (jv_range e0 ltac:(lia)).
    rewrite <- Z.mul_assoc. change (24 * (1 + 5)) with 144. change (Z.to_nat (1 + 3)) with 4%nat.
    assert (2 ^ 80 <= 2 ^ (82 - q0_of e0)) by (apply Z.pow_le_mono_r; lia). lia.
  - cbn [bind]. rewrite !arr_get_ok by (rewrite Ly; cbn; lia). cbn [bind].
    change 7 with (2 ^ 3 - 1). rewrite land_pow2m1 by lia. pose proof (Z.mod_pos_bound n (2 ^ 3) ltac:(lia)) as Rn.
    destruct (s =? 0); cbn [negb].
    + do 3 eexists. split; [reflexivity|lia].
    + unfold sneg. rewrite chk_ok by (p31; lia). cbn [bind]. do 3 eexists. split; [reflexivity|lia].
Qed.

Lemma expo_range y : 0 <= expo y < 2048.
Proof. unfold expo. change 0x7ff with (2 ^ 11 - 1). rewrite land_pow2m1 by lia. apply Z.mod_pos_bound. lia. Qed.
Theorem rem_pio2_medium_ok x ix : 0 <= ix < 2 ^ 31 -> exists n a c, rs_rem_pio2_medium x ix = Some (n, a, c).
Proof.
  intros H. unfold rs_rem_pio2_medium. cbv zeta. rewrite Z.shiftr_div_pow2 by lia.
  assert (E : 0 <= ix / 2 ^ 20 < 2048) by (split; [apply Z.div_pos; lia|apply Z.div_lt_upper_bound; lia]).
  rewrite to_i_small by (p31; lia).
  match goal with |- context [expo ?y] => pose proof (expo_range y) end. rewrite ssub_ok32 by lia. cbn [bind].
  match goal with |- context [if ?b then _ else _] => destruct b end.
  - match goal with |- context [ssub 32 _ (expo ?y)] => pose proof (expo_range y) end. rewrite ssub_ok32 by lia. cbn [bind].
    match goal with |- context [if ?b then _ else _] => destruct b end; cbn [bind]; do 3 eexists; reflexivity.
  - cbn [bind]. do 3 eexists; reflexivity.
Qed.

(** rem_pio2.rs is total, for both pointer widths *)
Theorem rem_pio2_total b x : isbits f64 x -> exists n a c, rs_rem_pio2_gen b x = Some (n, a, c).
Proof.
  intros B. unfold rs_rem_pio2_gen. cbv zeta. rewrite (ix64 x B).
  pose proof (a64_hi x B) as Hh.
  destruct (a64 x / 2 ^ 32 <=? 0x400f6a7a) eqn:C1; [|apply Z.leb_gt in C1].
  { destruct (Z.land _ _ =? _); [apply rem_pio2_medium_ok; lia|]. destruct (a64 x / 2 ^ 32 <=? 0x4002d97c), (to_i 32 (Z.shiftr x 63) =? 0); do 3 eexists; reflexivity. }
  destruct (a64 x / 2 ^ 32 <=? 0x401c463b) eqn:C2; [|apply Z.leb_gt in C2].
  { destruct (a64 x / 2 ^ 32 <=? 0x4015fdbc);
      [destruct (a64 x / 2 ^ 32 =? 0x4012d97c)|destruct (a64 x / 2 ^ 32 =? 0x401921fb)]; try (apply rem_pio2_medium_ok; lia); destruct (to_i 32 (Z.shiftr x 63) =? 0); do 3 eexists; reflexivity. }
  destruct (Z.ltb_spec (a64 x / 2 ^ 32) 0x413921fb); [apply rem_pio2_medium_ok; lia|].
  destruct (Z.leb_spec 0x7ff00000 (a64 x / 2 ^ 32)); [do 3 eexists; reflexivity|].
  destruct (rem_pio2_huge_ok b x (to_i 32 (Z.shiftr x 63)) B) as (n & a & c & E & _); [lia|]. rewrite E. do 3 eexists; reflexivity.
Qed.

Lemma piece32 m : 0 <= m < 2 ^ 23 -> fx (fcvt f32 f64 (150 * 2 ^ 23 + m)) (2 ^ 23 + m) 0.
Proof.
  intros Hm. change (150 * 2 ^ 23 + m) with (mkbits f32 false 150 m).
  destruct (mkbits_fields f32 false 150 m) as (E1 & E2 & E3); [change (2 ^ ew f32) with 256; lia|exact Hm|].
  assert (Fi : finite f32 (mkbits f32 false 150 m) = true) by (unfold finite; rewrite E2; reflexivity).
  assert (Ev : val f32 (mkbits f32 false 150 m) = (IZR (2 ^ 23 + m) * bpow radix2 0)%R).
  { rewrite val_mkbits by (try exact Hm; change (2 ^ ew f32) with 256; lia). reflexivity. }
  pose proof (fcvt_finite f32 f64 _ Fi) as R. apply (fx_intro _ _ _ _ _ R Ev); lia.
Qed.

(** rem_pio2f.rs is total, for both pointer widths *)
Theorem rem_pio2f_total b x : isbits f32 x -> exists n a, rs_rem_pio2f_gen b x = Some (n, a).
Proof.
  intros B. unfold rs_rem_pio2f_gen. cbv zeta. rewrite land_a32.
  destruct (Z.ltb_spec (a32 x) 0x4dc90fdb); [do 2 eexists; reflexivity|].
  destruct (Z.leb_spec 0x7f800000 (a32 x)); [do 2 eexists; reflexivity|].
  set (a := a32 x) in *. rewrite Z.shiftr_div_pow2 by lia.
  assert (D := Z.div_mod a (2 ^ 23) ltac:(lia)). assert (Dm := Z.mod_pos_bound a (2 ^ 23) ltac:(lia)).
  set (e := a / 2 ^ 23) in *. set (m := a mod 2 ^ 23) in *. clearbody e m.
  assert (He : 155 <= e <= 254) by lia.
  rewrite usub_ok by lia. cbn [bind]. change (0x7f + 23) with 150.
  rewrite to_i_small by (p31; lia). set (e0 := e - 150).
  assert (Es : to_u 32 (shli 32 e0 23) = e0 * 2 ^ 23).
  { unfold shli. rewrite Z.shiftl_mul_pow2 by lia. rewrite to_i_small by (p31; unfold e0; lia). apply to_u_small. unfold e0. lia. }
  rewrite Es, usub_ok by (unfold e0; lia). cbn [bind].
  replace (a - e0 * 2 ^ 23) with (150 * 2 ^ 23 + m) by (unfold e0; lia).
  pose proof (piece32 m Dm) as F0. set (t := fcvt f32 f64 (150 * 2 ^ 23 + m)) in *. clearbody t.
  destruct (rem_pio2_large_ok b [t] (fun j => if j =? 0 then 2 ^ 23 + m else 0) [0] e0 0)
    as (n & ih & z & iq & q & jz & jz' & q1 & iq' & q' & fq & y' & _ & _ & _ & _ & _ & Ly & ->).
  - cbn. lia.
  - unfold e0; lia.
  - auto.
  - cbn. lia.
  - intros j Hj. cbn [length] in Hj. assert (j = 0) as -> by lia. exact F0.
  - intros j. destruct (j =? 0); lia.
  - intros j Hj. cbn [length] in Hj. destruct (Z.eqb_spec j 0); lia.
  - intros N. unfold Xt. change (0 =? 0) with true. change (1 =? 0) with false. change (2 =? 0) with false. cbv iota.
    pose proof (reduction_gap32 b e0 (2 ^ 23 + m) N ltac:(unfold e0; lia) ltac:(lia)) as G. pose proof (jv_range e0 ltac:(unfold e0; lia)).
    rewrite 2!Z.add_0_r, <- Z.mul_assoc. change (24 * (0 + 5)) with 120. change (Z.to_nat (0 + 3)) with 3%nat.
    assert (2 ^ 80 <= 2 ^ (90 - q0_of e0)) by (apply Z.pow_le_mono_r; lia). lia.
  - cbn [bind]. rewrite arr_get_ok by (rewrite Ly; cbn; lia). cbn [bind].
    change 7 with (2 ^ 3 - 1). rewrite land_pow2m1 by lia. pose proof (Z.mod_pos_bound n (2 ^ 3) ltac:(lia)) as Rn.
    destruct (Z.shiftr x 31 =? 0); cbn [negb].
    + do 2 eexists. reflexivity.
    + unfold sneg. rewrite chk_ok by (p31; lia). cbn [bind]. do 2 eexists. reflexivity.
Qed.

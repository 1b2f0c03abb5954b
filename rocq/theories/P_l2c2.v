(** exp2 at integers. *)
From Coq Require Import ZArith Reals Lia Lra Bool List Psatz.
From Flocq Require Import Core.
From Verif Require Import Base Spec SpecFun SpecFun2 Ieee M_scalbn M_elib M_sqrt M_exp P_format P_ieee P_lit P_elem P_elem2 P_exp P_err P_scalbn P_tot P_gam6 P_apx.
Open Scope Z_scope.
Local Opaque fadd fsub fmul fdiv of_int.

Lemma scal1 n : - 2 ^ 31 <= n < 2 ^ 31 -> exists r, scalbn f64 0x3ff0000000000000 n = Some r /\ rounds_to f64 (bpow radix2 n) false r.
Proof.
  intros H. destruct (scalbn_ok f64 0x3ff0000000000000 n) as (r & E & S).
  - vm_compute. discriminate.
  - split; vm_compute; congruence.
  - exact H.
  - exists r. split; [exact E|]. destruct S as (S1 & S2 & _). specialize (S2 eq_refl).
    change (signbit f64 0x3ff0000000000000) with false in S2. rewrite one64, Rmult_1_l in S2. exact S2.
Qed.

(** The tie 2^-1075 goes to zero, and so does everything below. *)
Lemma rnd_tiny n : n <= -1075 -> rnd f64 (bpow radix2 n) = 0%R.
Proof.
  intros H. destruct (scal1 (-1075) ltac:(lia)) as (r & E & R).
  assert (E0 : scalbn f64 0x3ff0000000000000 (-1075) = Some 0) by (vm_compute; reflexivity). rewrite E0 in E. injection E as <-.
  destruct R as (_ & R). rewrite Rlt_bool_true in R.
  - destruct R as (_ & R & _). change (val f64 0) with (val f64 (zero f64 false)) in R. rewrite val_zero in R.
    apply Rle_antisym.
    + rewrite R. unfold rnd. apply round_le; [typeclasses eauto..|]. now apply bpow_le.
    + rewrite <- (rnd_0 f64). unfold rnd. apply round_le; [typeclasses eauto..|]. apply bpow_ge_0.
  - apply Rle_lt_trans with (bpow radix2 0); [|apply bpow_lt; vm_compute; reflexivity].
    rewrite Rabs_pos_eq.
    + unfold rnd. apply round_le_generic; [typeclasses eauto..| |apply bpow_le; lia].
      apply generic_format_bpow. vm_compute. discriminate.
    + rewrite <- (rnd_0 f64). unfold rnd. apply round_le; [typeclasses eauto..|]. apply bpow_ge_0.
Qed.

Lemma redux_add x n : isbits f64 x -> finite f64 x = true -> val f64 x = IZR n -> n <> 0 -> -2000 <= n <= 2000 ->
  (x +: 0x42b8000000000000)%fl = 0x42b8000000000000 + 256 * n /\ ((0x42b8000000000000 + 256 * n) -: 0x42b8000000000000)%fl = x.
Proof.
  intros B G V NZ H.
  set (y := mkbits f64 false 1067 (2 ^ 51 + 256 * n)).
  assert (Y : y = 0x42b8000000000000 + 256 * n) by (unfold y, mkbits; change (mw f64) with 52; change (ew f64) with 11; change (2 ^ 51) with 2251799813685248; change (1067 * 2 ^ 52) with 4805340802404319232; cbv match; change 0x42b8000000000000 with 4807592602218004480; lia).
  assert (Ry : 0 <= 2 ^ 51 + 256 * n < 2 ^ mw f64) by (change (mw f64) with 52; lia).
  destruct (mkbits_fields f64 false 1067 (2 ^ 51 + 256 * n) ltac:(vm_compute; split; congruence) Ry) as (Sy & Ey & My).
  fold y in Sy, Ey, My. assert (By : isbits f64 y) by (rewrite Y; unfold isbits; change (2 ^ width f64) with (2 ^ 64); lia).
  assert (Vy : val f64 y = (IZR n + 26388279066624)%R).
  { unfold y. rewrite val_mkbits; [|vm_compute; split; congruence|exact Ry]. unfold mag_of, sval. cbn [Z.eqb].
    change (mw f64) with 52. change (bias f64) with 1023. change (1067 - 1023 - 52) with (-8).
    change (bpow radix2 (-8)) with (/ 256)%R. rewrite !plus_IZR, mult_IZR. change (IZR (2 ^ 52)) with 4503599627370496%R. change (IZR (2 ^ 51)) with 2251799813685248%R. lra. }
  assert (Fy : finite f64 y = true) by (unfold finite; rewrite Ey; reflexivity).
  assert (Zy : iszero f64 y = false) by (unfold iszero; rewrite Ey; reflexivity).
  assert (Vr : val f64 0x42b8000000000000 = 26388279066624%R) by (rewrite (val_lit f64 0x42b8000000000000 26388279066624 1) by (vm_compute; reflexivity); lra).
  rewrite <- Y. split.
  - pose proof (fadd_spec f64 x 0x42b8000000000000 G ltac:(vm_compute; reflexivity)) as S. rewrite Vr, V, <- Vy in S.
    exact (rounds_to_fun _ _ _ _ _ S (rounds_to_self f64 y By Fy Zy _)).
  - pose proof (fsub_spec f64 y 0x42b8000000000000 Fy ltac:(vm_compute; reflexivity)) as S. rewrite Vr, Vy in S.
    replace (IZR n + 26388279066624 - 26388279066624)%R with (val f64 x) in S by (rewrite V; lra).
    apply (rounds_to_fun _ _ _ _ _ S). apply rounds_to_self; [exact B|exact G|]. 
    destruct (iszero f64 x) eqn:K; [|reflexivity]. exfalso. apply NZ. apply eq_IZR. rewrite <- V.
    rewrite (iszero_eq f64 x B K). apply val_zero.
Qed.

Lemma exp2_1_int x n : isbits f64 x -> finite f64 x = true -> val f64 x = IZR n -> n <> 0 -> -2000 <= n <= 2000 ->
  (exists r, rs_exp2_1 x 0x42b8000000000000 0x3fe62e42fefa39ef 0x3fcebfbdff82c575 0x3fac6b08d704a0a6 0x3f83b2ab88f70400 0x3f55d88003875c74 = Some r /\ rounds_to f64 (bpow radix2 n) false r).
Proof.
  intros B G V NZ H. destruct (redux_add x n B G V NZ H) as [E1 E2].
  unfold rs_exp2_1. cbv zeta. rewrite E1, E2, (fsub_self f64 x G).
  assert (I0 : wadd 32 (to_u 32 (0x42b8000000000000 + 256 * n)) 128 = (256 * n + 128) mod 2 ^ 32).
  { unfold wadd, to_u. rewrite Zplus_mod_idemp_l. replace (0x42b8000000000000 + 256 * n + 128) with (256 * n + 128 + 0x42b80000 * 2 ^ 32) by lia. apply Z_mod_plus_full. }
  rewrite I0. set (i := (256 * n + 128) mod 2 ^ 32).
  assert (Hi : exists q, i = 256 * n + 128 + q * 2 ^ 32 /\ (q = 0 \/ q = 1) /\ 0 <= i < 2 ^ 32).
  { pose proof (Z.mod_pos_bound (256 * n + 128) (2 ^ 32) ltac:(lia)) as R. fold i in R. pose proof (Z.div_mod (256 * n + 128) (2 ^ 32) ltac:(lia)) as D. fold i in D. exists (- ((256 * n + 128) / 2 ^ 32)). lia. }
  destruct Hi as (q & Ei & Q & Ri).
  assert (D : i / 256 = n + q * 2 ^ 24) by (symmetry; apply (Z.div_unique i 256 _ 128); lia).
  assert (M : i mod 256 = 128) by (symmetry; apply (Z.mod_unique i 256 (n + q * 2 ^ 24) 128); lia).
  rewrite D, M, umul_ok by lia. cbn [bind].
  assert (T : to_i 32 ((n + q * 2 ^ 24) * 256) = 256 * n).
  { unfold to_i. cbv zeta. rewrite Z.mod_small by lia. change (2 ^ (32 - 1)) with (2 ^ 31). destruct (Z.ltb_spec ((n + q * 2 ^ 24) * 256) (2 ^ 31)); lia. }
  rewrite T, (Z.mul_comm 256 n), Z.quot_mul by lia.
  change (umul 64 2 128) with (Some 256). cbn [bind]. change (uadd 64 256 1) with (Some 257). cbn [bind].
  replace (tab_get rs_exp2_TBL 256) with (Some 0x3ff0000000000000) by (vm_compute; reflexivity).
  replace (tab_get rs_exp2_TBL 257) with (Some 0) by (vm_compute; reflexivity). cbn [bind].
  match goal with |- exists r, scalbn f64 ?t n = _ /\ _ => replace t with 0x3ff0000000000000 by (vm_compute; reflexivity) end.
  apply scal1. lia.
Qed.

(** log1pf is accurate. *)
From Coq Require Import ZArith Reals Lia Lra Bool List Psatz.
From Flocq Require Import Core.
From Verif Require Import Base Spec SpecFun2 SpecLog Format P_format Ieee P_ieee P_real P_neg P_lit P_err P_scalbn P_elem P_elem2 P_dom P_ival P_ival2 P_gam4 P_gam6 P_exp P_log P_apx P_poly P_poly2 P_poly3 P_powt P_powt8 P_taylor P_expa1 P_expa2 P_expa3 P_expa4 P_expa5 P_expa7 P_expa8 P_expa9 P_expa10 P_lga1 P_lga2 P_lga3 P_lga4 P_lga5 P_lga6 P_lga7 P_expa6 P_expa12 P_lgb3 P_lgb4 P_lgb5 P_lgb6 P_lgb7 P_l1a1 P_l1c1 P_l1b1 P_l1a2 M_sqrt M_elib M_log.
Import ListNotations.
Open Scope R_scope.
Local Opaque fadd fsub fmul fdiv of_int.

Definition cc32 (x u k : Z) : Z := if (k <? 25)%Z then fdiv f32 (if (2 <=? k)%Z then fsub f32 0x3f800000 (fsub f32 u x) else fsub f32 x (fsub f32 u 0x3f800000)) u else 0%Z.
Definition l1resf (f c k : Z) : Z := fadd f32 (fadd f32 (lp32 f (fadd f32 (fmul f32 (of_int f32 k) rs_logf_LN2_LO) c)) f) (fmul f32 (of_int f32 k) rs_logf_LN2_HI).
Lemma log1pf_1_eq x f c : let u := fadd f32 0x3f800000 x in (0 <= u < 0x7f800000)%Z ->
  rs_log1pf_1 x f c 1 = Some (l1resf (fsub f32 (nx32 u) 0x3f800000) (cc32 x u (nk32 u)) (nk32 u)).
Proof.
  intros u Hx. unfold rs_log1pf_1. change (0 <? 1)%Z with true. cbv match. change (fadd f32 0x3f800000 x) with u. rewrite uadd_ok by lia. cbn [bind].
  pose proof (shr_range (u + 0x4afb0d) 23 32 ltac:(lia) ltac:(lia) ltac:(lia)) as R. change (32 - 23)%Z with 9%Z in R.
  rewrite to_i32_small by lia. rewrite ssub_ok by lia. cbn [bind]. pose proof (land_range (u + 0x4afb0d) 23 0x7fffff eq_refl ltac:(lia)). rewrite uadd_ok by lia. cbn [bind]. reflexivity.
Qed.
Lemma log1pf_0_eq x f c : rs_log1pf_1 x f c 0 = Some (l1resf f c 0).
Proof. reflexivity. Qed.
(** both ranges in which 1 + x is reduced *)
Lemma log1pf_1_ok x : isbits f32 x -> finite f32 x = true -> -1 < val f32 x -> (val f32 x <= - (9827867 / 33554432) \/ 13898704 / 33554432 <= val f32 x) ->
  forall f c, exists r, rs_log1pf_1 x f c 1 = Some r /\ rel_eps f32 (ln (1 + val f32 x)) r.
Proof.
  intros B G H1 H2 f0 c0. set (X := val f32 x) in *. destruct o32 as [Fo Vo].
  assert (EW : (8 <= ew f32)%Z) by (vm_compute; discriminate). assert (MW : (20 <= mw f32 <= 60)%Z) by (split; vm_compute; discriminate). assert (MB : (2 * mw f32 + 20 <= bias f32)%Z) by (vm_compute; discriminate).
  destruct (l1u f32 0x3f800000 x EW MW MB Fo Vo G H1) as (Bu & Fu & HU). destruct (l1t f32 0x3f800000 x EW MW MB Fo Vo G H1) as (U0 & UL & T & ET). pose proof (l1d f32 0x3f800000 x EW MW MB Fo Vo G H1) as D.
  fold X in HU, T, ET, D. set (u := fadd f32 0x3f800000 x) in *. set (U := val f32 u) in *. set (t := (1 + X - U) / U) in *.
  change (bpow radix2 (- pr f32)) with (/ 16777216) in UL, T, D.
  assert (EU : (1 + t) * U = 1 + X) by (rewrite <- ET; field; lra). apply Rabs_le_inv in T.
  pose proof (val_pos_sign f32 u U0) as Su. pose proof (pos32_eq u Bu Su) as Au. pose proof (fin32 u Bu) as FI. rewrite Fu, Au in FI. symmetry in FI. apply Z.ltb_lt in FI.
  assert (UR : (2 ^ 23 <= u < 0x7f800000)%Z).
  { split; [|exact FI]. destruct (Z_lt_le_dec u (2 ^ 23)) as [C | C]; [|exact C]. exfalso. pose proof (a32_ge u 0x33000000 Bu Fu ltac:(lia)) as [_ Q]. rewrite Au in Q. specialize (Q ltac:(apply Z.leb_gt; lia)). fold U in Q. rewrite Rabs_pos_eq in Q by lra.
    rewrite (val_lit f32 (0x33000000 - 1) (2 ^ 24 - 1) (2 ^ 49)) in Q by (vm_compute; reflexivity). change (2 ^ 24 - 1)%Z with 16777215%Z in Q. change (2 ^ 49)%Z with 562949953421312%Z in Q. lra. }
  destruct (nx32_eq u UR) as (NE & NR & NK). destruct (red_log32 u UR) as (Bf & Ff & Vx & Lo & Rf & Rq). fold U in Vx.
  eexists. split; [exact (log1pf_1_eq x f0 c0 ltac:(fold u; lia))|]. fold u. set (f := fsub f32 (nx32 u) 0x3f800000) in *. set (F := val f32 f) in *. set (k := nk32 u) in *.
  (* k is not zero *)
  assert (K0 : k <> 0%Z).
  { intros Z. rewrite Z in NE. rewrite NE in NR. pose proof (a32_ge u 0x3f3504f3 Bu Fu ltac:(lia)) as [Q1 _]. pose proof (a32_ge u 0x3fb504f3 Bu Fu ltac:(lia)) as [_ Q2]. rewrite Au in Q1, Q2.
    specialize (Q1 ltac:(apply Z.leb_le; lia)). specialize (Q2 ltac:(apply Z.leb_gt; lia)). fold U in Q1, Q2. rewrite Rabs_pos_eq in Q1, Q2 by lra.
    rewrite (val_lit f32 0x3f3504f3 0xb504f3 0x1000000) in Q1 by (vm_compute; reflexivity). rewrite (val_lit f32 (0x3fb504f3 - 1) 0xb504f2 0x800000) in Q2 by (vm_compute; reflexivity).
    destruct H2 as [H2 | H2]; [|nra].
    (* just below the threshold the sum is rounded down *)
    pose proof (fadd_spec f32 0x3f800000 0xbe95f61b eq_refl eq_refl) as RT. replace (fadd f32 0x3f800000 0xbe95f61b) with 0x3f3504f2%Z in RT by (vm_compute; reflexivity).
    assert (VT : val f32 0xbe95f61b = - (9827867 / 33554432)) by (rewrite (val_lit f32 0xbe95f61b (- 9827867) 33554432); [lra|vm_compute; reflexivity..]).
    rewrite Vo, VT in RT. destruct (rounds_fin f32 _ _ _ RT) as [_ VR]. { apply Rle_trans with (bpow radix2 0); [change (bpow radix2 0) with 1; apply Rabs_le; lra|apply bpow_le; vm_compute; discriminate]. }
    rewrite (val_lit f32 0x3f3504f2 0xb504f2 0x1000000) in VR by (vm_compute; reflexivity). assert (MO : U <= rnd f32 (1 + - (9827867 / 33554432))). { rewrite HU. apply rnd_le. lra. } rewrite <- VR in MO. lra. }
  assert (EL : ln (1 + X) = IZR k * ln 2 + (ln (1 + F) + ln ((1 + X) / U))).
  { rewrite <- Rplus_assoc, <- ln_split by lra. rewrite <- Vx. rewrite <- ln_mult; [f_equal; field; lra|lra|]. rewrite ET. lra. }
  set (d := ln ((1 + X) / U)) in *.
  assert (D1 : Rabs d <= / IZR (2 ^ 23)) by (change (2 ^ 23)%Z with 8388608%Z; lra).
  destruct (Z_lt_le_dec k 25) as [K25 | K25].
  - assert (CC : isbits f32 (cc32 x u k) /\ finite f32 (cc32 x u k) = true /\ Rabs (val f32 (cc32 x u k) - d) <= / IZR (2 ^ 44)).
    { unfold cc32. rewrite (proj2 (Z.ltb_lt k 25) K25).
      assert (P8 : 8 * (bpow radix2 (- pr f32) * bpow radix2 (- pr f32)) <= / IZR (2 ^ 44)). { change (bpow radix2 (- pr f32)) with (/ 16777216). change (2 ^ 44)%Z with 17592186044416%Z. lra. }
      destruct (Z.leb_spec 2 k) as [K2 | K2].
      - destruct (l1big f32 0x3f800000 x EW MW MB Fo Vo G H1) as (C1 & C2 & C3); [|split; [exact C1|split; [exact C2|eapply Rle_trans; [exact C3|exact P8]]]].
        fold X. assert (BL : bpow radix2 2 <= bpow radix2 k <= bpow radix2 24) by (split; apply bpow_le; lia). change (bpow radix2 2) with 4 in BL. change (bpow radix2 60) with 1152921504606846976. change (bpow radix2 24) with 16777216 in BL. rewrite Vx in EU. split; nra.
      - destruct (l1small f32 0x3f800000 x EW MW MB Fo Vo G H1) as (C1 & C2 & C3); [|split; [exact C1|split; [exact C2|eapply Rle_trans; [exact C3|exact P8]]]].
        fold X. assert (BL : bpow radix2 k <= bpow radix2 1) by (apply bpow_le; lia). change (bpow radix2 1) with 2 in BL. pose proof (bpow_gt_0 radix2 k). rewrite Vx in EU. nra. }
    destruct CC as (C1 & C2 & C3). rewrite EL.
    assert (KL : (-30 <= k)%Z). { destruct (Z_lt_le_dec k (-30)) as [C | C]; [|exact C]. exfalso. assert (BL : bpow radix2 k <= bpow radix2 (-31)) by (apply bpow_le; lia). change (bpow radix2 (-31)) with (/ 2147483648) in BL. pose proof (bpow_gt_0 radix2 k). nra. }
    destruct (log_kcf f k (cc32 x u k) d C1 C2 D1 C3 Bf Ff Lo Rf Rq ltac:(lia)) as (Y1 & Y2 & Y3 & _). split; [exact Y1|]. split; [exact Y2|]. exact Y3.
  - unfold cc32. replace (k <? 25)%Z with false by (symmetry; apply Z.ltb_ge; lia).
    destruct (of_int_small f32 k ltac:(vm_compute; discriminate) ltac:(vm_compute; reflexivity) ltac:(lia)) as (Bk & Fk & Vk).
    assert (LO : finite f32 rs_logf_LN2_LO = true /\ val f32 rs_logf_LN2_LO = 9959377 / 1099511627776) by (split; [reflexivity|apply val_lit; vm_compute; reflexivity]). destruct LO as [FL VL].
    assert (K5 : 25 <= IZR k <= 151) by (split; [apply (IZR_le 25)|apply (IZR_le _ 151)]; lia).
    pose proof (fmul_spec f32 (of_int f32 k) rs_logf_LN2_LO Fk FL) as RT. rewrite Vk, VL in RT. destruct (rounds_fin f32 _ _ _ RT) as [Fm Vm]. { apply Rle_trans with (bpow radix2 0); [change (bpow radix2 0) with 1; apply Rabs_le; lra|apply bpow_le; vm_compute; discriminate]. }
    assert (AZ : fadd f32 (fmul f32 (of_int f32 k) rs_logf_LN2_LO) 0 = fmul f32 (of_int f32 k) rs_logf_LN2_LO).
    { apply fadd_zero_r; [exact (proj1 RT)|exact Fm| |reflexivity]. destruct (iszero f32 _) eqn:Z; [|reflexivity]. exfalso. rewrite (iszero_eq f32 _ (proj1 RT) Z), val_zero in Vm. pose proof (rndF_abs f32 (IZR k * (9959377 / 1099511627776))) as RR. rewrite <- Vm in RR.
      rewrite Rminus_0_l, Rabs_Ropp, Rabs_pos_eq in RR by lra. change (bpow radix2 (- pr f32)) with (/ 16777216) in RR. assert (bpow radix2 (emin f32 - 1) <= bpow radix2 (-50)) by (apply bpow_le; vm_compute; discriminate). change (bpow radix2 (-50)) with (/ 1125899906842624) in H. lra. }
    unfold l1resf. rewrite AZ.
    destruct (log_kbf f k Bf Ff Lo Rf Rq ltac:(lia)) as (Y1 & Y2 & Y4).
    split; [exact Y1|]. split; [exact Y2|]. fold F in Y4. rewrite EL.
    pose proof (ln_half2 F Rf Rq) as LH. apply Rabs_le_inv in LH. pose proof ln2_c as LN.
    set (Y := IZR k * ln 2 + ln (1 + F)) in *. assert (YP : 15 <= Y) by (unfold Y; nra). replace (IZR k * ln 2 + (ln (1 + F) + d)) with (Y + d) by (unfold Y; ring).
    apply Rabs_le_inv in D. rewrite (Rabs_pos_eq Y) in Y4 by lra. rewrite (Rabs_pos_eq (Y + d)) by lra. apply Rabs_le_inv in Y4. change (uu f32) with (/ 67108864) in Y4. change (bpow radix2 (- mw f32)) with (/ 8388608). apply Rabs_le. lra.
Qed.

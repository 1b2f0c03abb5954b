(** log1p is accurate. *)
From Coq Require Import ZArith Reals Lia Lra Bool List Psatz.
From Flocq Require Import Core.
From Verif Require Import Base Spec SpecFun2 SpecLog Format P_format Ieee P_ieee P_real P_neg P_lit P_err P_scalbn P_elem P_elem2 P_dom P_ival P_ival2 P_gam4 P_gam6 P_exp P_log P_apx P_poly P_poly2 P_poly3 P_powt P_powt8 P_taylor P_expa1 P_expa2 P_expa3 P_expa4 P_expa5 P_expa7 P_expa8 P_expa9 P_expa10 P_lga1 P_lga2 P_lga3 P_lga4 P_lga5 P_lga6 P_lga7 P_l1a1 P_l1c1 M_sqrt M_elib M_log.
Import ListNotations.
Open Scope R_scope.
Local Opaque fadd fsub fmul fdiv of_int.

Definition cc64 (x u k : Z) : Z := if (k <? 54)%Z then fdiv f64 (if (2 <=? k)%Z then fsub f64 0x3ff0000000000000 (fsub f64 u x) else fsub f64 x (fsub f64 u 0x3ff0000000000000)) u else 0%Z.
Definition l1res (f c k : Z) : Z := fadd f64 (fadd f64 (lp64 f (fadd f64 (fmul f64 (of_int f64 k) rs_log_LN2_LO) c)) f) (fmul f64 (of_int f64 k) rs_log_LN2_HI).
Lemma log1p_1_eq x f c : let u := fadd f64 0x3ff0000000000000 x in let hu := to_u 32 (Z.shiftr u 32) in (0 <= hu < 0x7ff00000)%Z ->
  rs_log1p_1 x f c 1 = Some (l1res (fsub f64 (nx64 u hu) 0x3ff0000000000000) (cc64 x u (nk64 hu)) (nk64 hu)).
Proof.
  intros u hu Hx. unfold rs_log1p_1. change (0 <? 1)%Z with true. cbv match. change (fadd f64 0x3ff0000000000000 x) with u. change (to_u 32 (Z.shiftr u 32)) with hu. rewrite uadd_ok by lia. cbn [bind].
  pose proof (shr_range (hu + 0x95f62) 20 32 ltac:(lia) ltac:(lia) ltac:(lia)) as R. change (32 - 20)%Z with 12%Z in R.
  rewrite to_i32_small by lia. rewrite ssub_ok by lia. cbn [bind]. pose proof (land_range (hu + 0x95f62) 20 0xfffff eq_refl ltac:(lia)). rewrite uadd_ok by lia. cbn [bind]. reflexivity.
Qed.
Lemma log1p_0_eq x f c : rs_log1p_1 x f c 0 = Some (l1res f c 0).
Proof. reflexivity. Qed.
(** both ranges in which 1 + x is reduced *)
Lemma log1p_1_ok x : isbits f64 x -> finite f64 x = true -> -1 < val f64 x -> (val f64 x <= - (1228485 / 4194304) \/ 1737338 / 4194304 <= val f64 x) ->
  forall f c, exists r, rs_log1p_1 x f c 1 = Some r /\ rel_eps f64 (ln (1 + val f64 x)) r.
Proof.
  intros B G H1 H2 f0 c0. set (X := val f64 x) in *. destruct o64 as [Fo Vo].
  assert (EW : (8 <= ew f64)%Z) by (vm_compute; discriminate). assert (MW : (20 <= mw f64 <= 60)%Z) by (split; vm_compute; discriminate). assert (MB : (2 * mw f64 + 20 <= bias f64)%Z) by (vm_compute; discriminate).
  destruct (l1u f64 0x3ff0000000000000 x EW MW MB Fo Vo G H1) as (Bu & Fu & HU). destruct (l1t f64 0x3ff0000000000000 x EW MW MB Fo Vo G H1) as (U0 & UL & T & ET). pose proof (l1d f64 0x3ff0000000000000 x EW MW MB Fo Vo G H1) as D.
  fold X in HU, T, ET, D. set (u := fadd f64 0x3ff0000000000000 x) in *. set (U := val f64 u) in *. set (t := (1 + X - U) / U) in *.
  change (bpow radix2 (- pr f64)) with (/ 9007199254740992) in UL, T, D.
  assert (EU : (1 + t) * U = 1 + X) by (rewrite <- ET; field; lra). apply Rabs_le_inv in T.
  pose proof (val_pos_sign f64 u U0) as Su. pose proof (pos64_eq u Bu Su) as Au. pose proof (fin64 u Bu) as FI. rewrite Fu, Au in FI. symmetry in FI. apply Z.ltb_lt in FI.
  assert (UR : (2 ^ 52 <= u < 0x7ff0000000000000)%Z).
  { split; [|exact FI]. destruct (Z_lt_le_dec u (2 ^ 52)) as [C | C]; [|exact C]. exfalso. pose proof (a64_ge u 0x3c80000000000000 Bu Fu ltac:(lia)) as [_ Q]. rewrite Au in Q. specialize (Q ltac:(apply Z.leb_gt; lia)). fold U in Q. rewrite Rabs_pos_eq in Q by lra.
    rewrite (val_lit f64 (0x3c80000000000000 - 1) (2 ^ 53 - 1) (2 ^ 108)) in Q by (vm_compute; reflexivity). change (2 ^ 53 - 1)%Z with 9007199254740991%Z in Q. change (2 ^ 108)%Z with 324518553658426726783156020576256%Z in Q. lra. }
  set (hu := to_u 32 (Z.shiftr u 32)). destruct (nx64_eq u UR) as (NE & NR & NK & HH). destruct (red_log64 u UR) as (Bf & Ff & Vx & Lo & Rf & Rq). fold hu in NE, NR, NK, HH, Bf, Ff, Vx, Lo, Rf, Rq. fold U in Vx.
  eexists. split; [exact (log1p_1_eq x f0 c0 HH)|]. fold u hu. set (f := fsub f64 (nx64 u hu) 0x3ff0000000000000) in *. set (F := val f64 f) in *. set (k := nk64 hu) in *.
  (* k is not zero *)
  assert (K0 : k <> 0%Z).
  { intros Z. rewrite Z in NE. rewrite NE in NR. pose proof (a64_ge u 0x3fe6a09e00000000 Bu Fu ltac:(lia)) as [Q1 _]. pose proof (a64_ge u 0x3ff6a09e00000000 Bu Fu ltac:(lia)) as [_ Q2]. rewrite Au in Q1, Q2.
    specialize (Q1 ltac:(apply Z.leb_le; lia)). specialize (Q2 ltac:(apply Z.leb_gt; lia)). fold U in Q1, Q2. rewrite Rabs_pos_eq in Q1, Q2 by lra.
    rewrite (val_lit f64 0x3fe6a09e00000000 0x16a09e 0x200000) in Q1 by (vm_compute; reflexivity). rewrite (val_lit f64 (0x3ff6a09e00000000 - 1) 0x16a09dffffffff 0x10000000000000) in Q2 by (vm_compute; reflexivity). nra. }
  assert (EL : ln (1 + X) = IZR k * ln 2 + (ln (1 + F) + ln ((1 + X) / U))).
  { rewrite <- Rplus_assoc, <- ln_split by lra. rewrite <- Vx. rewrite <- ln_mult; [f_equal; field; lra|lra|]. rewrite ET. lra. }
  set (d := ln ((1 + X) / U)) in *.
  assert (D1 : Rabs d <= / IZR (2 ^ 52)) by (change (2 ^ 52)%Z with 4503599627370496%Z; lra).
  destruct (Z_lt_le_dec k 54) as [K54 | K54].
  - assert (CC : isbits f64 (cc64 x u k) /\ finite f64 (cc64 x u k) = true /\ Rabs (val f64 (cc64 x u k) - d) <= / IZR (2 ^ 100)).
    { unfold cc64. rewrite (proj2 (Z.ltb_lt k 54) K54).
      assert (P8 : 8 * (bpow radix2 (- pr f64) * bpow radix2 (- pr f64)) <= / IZR (2 ^ 100)). { change (bpow radix2 (- pr f64)) with (/ 9007199254740992). change (2 ^ 100)%Z with 1267650600228229401496703205376%Z. lra. }
      destruct (Z.leb_spec 2 k) as [K2 | K2].
      - destruct (l1big f64 0x3ff0000000000000 x EW MW MB Fo Vo G H1) as (C1 & C2 & C3); [|split; [exact C1|split; [exact C2|eapply Rle_trans; [exact C3|exact P8]]]].
        fold X. assert (BL : bpow radix2 2 <= bpow radix2 k <= bpow radix2 53) by (split; apply bpow_le; lia). change (bpow radix2 2) with 4 in BL. change (bpow radix2 60) with 1152921504606846976. change (bpow radix2 53) with 9007199254740992 in BL. rewrite Vx in EU. split; nra.
      - destruct (l1small f64 0x3ff0000000000000 x EW MW MB Fo Vo G H1) as (C1 & C2 & C3); [|split; [exact C1|split; [exact C2|eapply Rle_trans; [exact C3|exact P8]]]].
        fold X. assert (BL : bpow radix2 k <= bpow radix2 1) by (apply bpow_le; lia). change (bpow radix2 1) with 2 in BL. pose proof (bpow_gt_0 radix2 k). rewrite Vx in EU. nra. }
    destruct CC as (C1 & C2 & C3). rewrite EL.
    destruct (log_kc f k (cc64 x u k) d C1 C2 D1 C3 Bf Ff Lo Rf Rq ltac:(lia)) as (Y1 & Y2 & Y3 & _). split; [exact Y1|]. split; [exact Y2|]. exact Y3.
  - unfold cc64. replace (k <? 54)%Z with false by (symmetry; apply Z.ltb_ge; lia).
    assert (V0 : val f64 0 = 0) by exact (val_zero f64 false).
    destruct (log_kc f k 0 0 ltac:(split; vm_compute; (reflexivity || discriminate)) eq_refl) as (Y1 & Y2 & _ & Y4); try assumption; try lia.
    { rewrite Rabs_R0. left. apply Rinv_0_lt_compat. now apply (IZR_lt 0). } { rewrite V0, Rminus_0_r, Rabs_R0. left. apply Rinv_0_lt_compat. now apply (IZR_lt 0). }
    specialize (Y4 ltac:(lia)). fold (l1res f 0 k) in Y1, Y2, Y4. split; [exact Y1|]. split; [exact Y2|]. rewrite Rplus_0_r in Y4. fold F in Y4. rewrite EL.
    pose proof (ln_half2 F Rf Rq) as LH. apply Rabs_le_inv in LH. pose proof ln2_c as LN. assert (K5 : 54 <= IZR k) by (apply (IZR_le 54); lia).
    set (Y := IZR k * ln 2 + ln (1 + F)) in *. assert (YP : 30 <= Y) by (unfold Y; nra). replace (IZR k * ln 2 + (ln (1 + F) + d)) with (Y + d) by (unfold Y; ring).
    apply Rabs_le_inv in D. rewrite (Rabs_pos_eq Y) in Y4 by lra. rewrite (Rabs_pos_eq (Y + d)) by lra. apply Rabs_le_inv in Y4. change (uu f64) with (/ 36028797018963968) in Y4. change (bpow radix2 (- mw f64)) with (/ 4503599627370496). apply Rabs_le. lra.
Qed.

(** From the logarithm to the power: all cases of the exponent. *)
From Coq Require Import ZArith Reals Lia Lra Bool List Psatz.
From Flocq Require Import Core Sterbenz.
From Verif Require Import Base Spec Format P_format Ieee P_ieee P_real P_neg P_key P_elem P_elem2 P_tot P_lit P_err P_apx P_ival P_ival2 P_powt P_powt2 P_powt3 P_powt4 P_powt5 P_powt6 P_powt7 M_basic M_scalbn M_elib M_pow.
Open Scope R_scope.
Open Scope fl_scope.
Local Opaque fadd fsub fmul fdiv of_int.

Definition OKo (F : fmt) (o : option Z) : Prop := exists r, o = Some r /\ isbits F r.
Lemma let_ok F (A : Type) (e : A) (b : A -> option Z) : (forall x, x = e -> OKo F (b x)) -> OKo F (let x := e in b x).
Proof. intros H. exact (H e eq_refl). Qed.
Lemma val0 F : val F 0 = 0.
Proof. assert (signbit F 0 = false /\ expf F 0 = 0%Z /\ sigf F 0 = 0%Z) as (A & B & C) by (unfold signbit, expf, sigf; rewrite !Z.div_0_l, !Z.mod_0_l by (apply Z.pow_nonzero; pose proof (fmt_facts F); lia); split; [|split; reflexivity]; apply Z.leb_gt, Z.pow_pos_nonneg; pose proof (fmt_facts F); lia).
  unfold val. rewrite A, B, C. cbn [sval]. unfold mag_of. cbn. ring. Qed.
Lemma sub_exact F x y : finite F x = true -> finite F y = true -> val F y / 2 <= val F x <= 2 * val F y -> finite F (fsub F x y) = true /\ val F (fsub F x y) = val F x - val F y.
Proof.
  intros Fx Fy H. assert (R : rnd F (val F x - val F y) = val F x - val F y). { apply repr_rnd. apply sterbenz; [apply fmt_valid_exp|apply FLT_exp_monotone|now apply repr_val|now apply repr_val|exact H]. }
  assert (Y0 : 0 <= val F y) by lra. pose proof (val_lt_max F x Fx) as V1. pose proof (val_lt_max F y Fy) as V2. apply Rabs_lt_inv in V1, V2.
  destruct (fsub_spec F x y Fx Fy) as [_ S]. rewrite R in S. rewrite Rlt_bool_true in S by (apply Rabs_lt; lra). destruct S as (S1 & S2 & _). split; [exact S1|exact S2].
Qed.
Lemma of_int_small F n : (8 <= ew F)%Z -> (10 < mw F)%Z -> (-2047 <= n <= 2047)%Z -> isbits F (of_int F n) /\ finite F (of_int F n) = true /\ val F (of_int F n) = IZR n.
Proof.
  intros HE HM Hn. destruct (of_int_spec F n) as [B S]. split; [exact B|].
  assert (R : rnd F (IZR n) = IZR n). { apply repr_rnd. apply generic_format_FLT. exists (Float radix2 n 0); [unfold F2R; cbn; ring| |].
    - cbn [Fnum]. eapply Z.lt_le_trans with (2 ^ 11)%Z; [change (2 ^ 11)%Z with 2048%Z; lia|]. apply (Z.pow_le_mono_r 2); lia.
    - cbn [Fexp]. pose proof (fmt_facts F). pose proof (bias_facts F). lia. }
  rewrite R in S. rewrite Rlt_bool_true in S. { destruct S as (S1 & S2 & _). split; [exact S1|exact S2]. }
  assert (BB : bpow radix2 11 <= bpow radix2 (bias F + 1)). { apply bpow_le. pose proof (bias_facts F) as BF. assert (2 ^ 8 <= 2 ^ ew F)%Z by (apply Z.pow_le_mono_r; lia). change (2 ^ 8)%Z with 256%Z in *. lia. }
  eapply Rlt_le_trans; [|exact BB]. change (bpow radix2 11) with 2048. rewrite <- abs_IZR. apply IZR_lt. lia.
Qed.

(** ** f64 *)
Lemma pt64 y s zh zl dph tn t1 t2 M : t1 = trc 32 (((zh +: zl) +: dph) +: tn) -> t2 = zl -: (((t1 -: tn) -: dph) -: zh) -> isbits f64 y -> finite f64 y = true -> Rabs (val f64 y) <= bpow radix2 64 ->
  finite f64 zh = true -> finite f64 zl = true -> finite f64 dph = true -> finite f64 tn = true ->
  Rabs (val f64 zh) + Rabs (val f64 zl) + Rabs (val f64 dph) + Rabs (val f64 tn) <= M -> / 9007199254740992 <= M <= 4096 -> M / 50 <= Rabs (val f64 zh + val f64 zl + val f64 dph + val f64 tn) -> OKo f64 (rs_pow_4 y t1 t2 s).
Proof.
  intros E1 E2 BY FY YB F1 F2 F3 F4 HM [M0 M1] HL. assert (T : bpow radix2 (32 - mw f64) = / 1048576) by reflexivity. assert (ET : bpow radix2 (- pr f64) = / 9007199254740992) by reflexivity.
  assert (HD : bpow radix2 (32 + emin f64) <= bpow radix2 (- pr f64) * M / 2). { apply Rle_trans with (/ 9007199254740992 * / 9007199254740992 / 2); [|rewrite ET; lra]. change (/ 9007199254740992 * / 9007199254740992 / 2) with (bpow radix2 (- pr f64) * bpow radix2 (- pr f64) * bpow radix2 (-1)). rewrite <- !bpow_plus. apply bpow_le. vm_compute. discriminate. }
  destruct (t12 f64 ltac:(cbn; lia) ltac:(cbn; lia) 32 zh zl dph tn M t1 t2 E1 E2 ltac:(cbn; lia) F1 F2 F3 F4 HM M1 HD HL) as (B1 & G1 & B2 & G2 & H1 & H2 & H3); [rewrite T; lra|].
  rewrite T, ET in H3. apply (pow4_tot y t1 t2 s (/ 1048576 * (130 / 128) + 1200 * / 9007199254740992)); try assumption; [lra|].
  apply Rle_trans with (bpow radix2 64 * bpow radix2 13); [|rewrite <- bpow_plus; apply bpow_le; lia]. apply Rmult_le_compat; try apply Rabs_pos; [exact YB|]. change (bpow radix2 13) with 8192. lra.
Qed.
Lemma plog64_A y s ax th u v ss sh tl sl s2 r r' s21 th1 tl1 u2 v2 ph pl zh zl zl' tn t1 t2 : u = ax -: 0x3ff0000000000000 -> v = 0x3ff0000000000000 /: (ax +: 0x3ff0000000000000) -> ss = u *: v -> sh = with_set_low_word ss 0 -> tl = ax -: (th -: 0x3ff0000000000000) -> sl = v *: ((u -: (sh *: th)) -: (sh *: tl)) -> s2 = ss *: ss -> r = (s2 *: s2) *: (rs_pow_L1 +: (s2 *: (rs_pow_L2 +: (s2 *: (rs_pow_L3 +: (s2 *: (rs_pow_L4 +: (s2 *: (rs_pow_L5 +: (s2 *: rs_pow_L6)))))))))) -> r' = r +: (sl *: (sh +: ss)) -> s21 = sh *: sh -> th1 = with_set_low_word ((0x4008000000000000 +: s21) +: r') 0 -> tl1 = r' -: ((th1 -: 0x4008000000000000) -: s21) -> u2 = sh *: th1 -> v2 = (sl *: th1) +: (tl1 *: ss) -> ph = with_set_low_word (u2 +: v2) 0 -> pl = v2 -: (ph -: u2) -> zh = rs_pow_CP_H *: ph -> zl = (rs_pow_CP_L *: ph) +: (pl *: rs_pow_CP) -> zl' = zl +: 0 -> tn = of_int f64 0 -> t1 = with_set_low_word (((zh +: zl') +: 0) +: tn) 0 -> t2 = zl' -: (((t1 -: tn) -: 0) -: zh) -> isbits f64 y -> finite f64 y = true -> Rabs (val f64 y) <= bpow radix2 64 -> isbits f64 ax -> finite f64 ax = true -> 0.866 <= val f64 ax <= 1.22478 -> / 9007199254740992 <= Rabs (val f64 ax - 1) -> isbits f64 th -> finite f64 th = true -> Rabs (val f64 th - (val f64 ax + 1)) <= 4 / 1048576 ->
  OKo f64 (rs_pow_4 y t1 t2 s).
Proof.
  intros E E0 E1 E2 E3 E4 E5 E6 E7 E8 E9 E10 E11 E12 E13 E14 E15 E16 E17 E18 E19 E20 BY FY YB BX FX RX RU BT FT VT. rewrite wsl in E2, E9, E13, E19 by (first [rewrite E1; apply fmul_isbits|apply fadd_isbits]).
  assert (V1 : val f64 0x3ff0000000000000 = 1) by apply val164. destruct (sub_exact f64 ax 0x3ff0000000000000 FX ltac:(vm_compute; reflexivity) ltac:(rewrite V1; lra)) as [FU VU]. rewrite <- E in FU, VU. rewrite V1 in VU.
  destruct (of_int_small f64 0 ltac:(cbn; lia) ltac:(cbn; lia) ltac:(lia)) as (NB & NF & NV). rewrite <- E18 in NB, NF, NV.
  assert (SZ : forall sg, Rabs (val f64 ax - 1) = sg -> (isbits f64 zh /\ finite f64 zh = true) /\ (isbits f64 zl /\ finite f64 zl = true) /\ (sg * 1.2 <= Rabs (val f64 zh) <= sg * 2.0) /\ Rabs (val f64 zl) <= sg * 0.02).
  { intros sg ES. destruct (Rle_lt_dec 0 (val f64 ax - 1)) as [C|C].
    - rewrite Rabs_pos_eq in ES by assumption. assert (S0 : / 9007199254740992 <= sg) by (rewrite <- ES; rewrite Rabs_pos_eq in RU by assumption; exact RU). destruct (lg64A sg 1 (val f64 ax) ax th u v ss sh tl sl s2 r r' s21 th1 tl1 u2 v2 ph pl zh zl E E0 E1 E2 E3 E4 E5 E6 E7 E8 E9 E10 E11 E12 E13 E14 E15 E16) as (Q1 & Q2 & Q3 & Q4); try assumption; try reflexivity; try lra.
      split; [exact Q1|]. split; [exact Q2|]. split; [|exact Q4]. rewrite Rabs_pos_eq; lra.
    - rewrite Rabs_left1 in ES by lra. assert (S0 : / 9007199254740992 <= sg) by (rewrite <- ES; rewrite Rabs_left1 in RU by lra; exact RU). destruct (lg64B sg (-1) (val f64 ax) ax th u v ss sh tl sl s2 r r' s21 th1 tl1 u2 v2 ph pl zh zl E E0 E1 E2 E3 E4 E5 E6 E7 E8 E9 E10 E11 E12 E13 E14 E15 E16) as (Q1 & Q2 & Q3 & Q4); try assumption; try reflexivity; try lra.
      split; [exact Q1|]. split; [exact Q2|]. split; [|exact Q4]. rewrite Rabs_left1; lra. }
  set (sg := Rabs (val f64 ax - 1)) in *. destruct (SZ sg eq_refl) as ((BH & FH) & (BL & FL) & [H1 H2] & H3). clear SZ.
  assert (SG : sg <= 0.3) by (unfold sg; apply Rabs_le; lra). clearbody sg. clear E E0 E1 E2 E3 E4 E5 E6 E7 E8 E9 E10 E11 E12 E13 E14 E15 E16.
  assert (V0 : val f64 0 = 0) by apply val0.
  assert (ZL : finite f64 zl' = true /\ val f64 zl' = val f64 zl).
  { assert (R : rnd f64 (val f64 zl + val f64 0) = val f64 zl) by (rewrite V0, Rplus_0_r; apply repr_rnd, repr_val; exact FL). destruct (fadd_spec f64 zl 0 FL ltac:(vm_compute; reflexivity)) as [_ S]. rewrite R in S. rewrite Rlt_bool_true in S by (apply val_lt_max; exact FL). destruct S as (S1 & S2 & _). rewrite E17. split; [exact S1|exact S2]. }
  destruct ZL as [FL' VL']. rewrite <- VL' in H3. clear E17. pose proof (Rabs_pos (val f64 zl')).
  apply (pt64 y s zh zl' 0 tn t1 t2 (sg * 2.05) E19 E20 BY FY YB FH FL' eq_refl NF).
  - rewrite V0, NV, Rabs_R0. lra.
  - lra.
  - rewrite V0, NV. pose proof (Rabs_triang (val f64 zh + val f64 zl' + 0 + 0) (- val f64 zl')) as TR. rewrite Rabs_Ropp in TR. replace (val f64 zh + val f64 zl' + 0 + 0 + - val f64 zl') with (val f64 zh) in TR by ring. lra.
Qed.
Lemma plog64_C y s ax th n u v ss sh tl sl s2 r r' s21 th1 tl1 u2 v2 ph pl zh zl zl' tn t1 t2 : u = ax -: 0x3ff0000000000000 -> v = 0x3ff0000000000000 /: (ax +: 0x3ff0000000000000) -> ss = u *: v -> sh = with_set_low_word ss 0 -> tl = ax -: (th -: 0x3ff0000000000000) -> sl = v *: ((u -: (sh *: th)) -: (sh *: tl)) -> s2 = ss *: ss -> r = (s2 *: s2) *: (rs_pow_L1 +: (s2 *: (rs_pow_L2 +: (s2 *: (rs_pow_L3 +: (s2 *: (rs_pow_L4 +: (s2 *: (rs_pow_L5 +: (s2 *: rs_pow_L6)))))))))) -> r' = r +: (sl *: (sh +: ss)) -> s21 = sh *: sh -> th1 = with_set_low_word ((0x4008000000000000 +: s21) +: r') 0 -> tl1 = r' -: ((th1 -: 0x4008000000000000) -: s21) -> u2 = sh *: th1 -> v2 = (sl *: th1) +: (tl1 *: ss) -> ph = with_set_low_word (u2 +: v2) 0 -> pl = v2 -: (ph -: u2) -> zh = rs_pow_CP_H *: ph -> zl = (rs_pow_CP_L *: ph) +: (pl *: rs_pow_CP) -> zl' = zl +: 0 -> tn = of_int f64 n -> t1 = with_set_low_word (((zh +: zl') +: 0) +: tn) 0 -> t2 = zl' -: (((t1 -: tn) -: 0) -: zh) -> isbits f64 y -> finite f64 y = true -> Rabs (val f64 y) <= bpow radix2 64 -> isbits f64 ax -> finite f64 ax = true -> 0.866 <= val f64 ax <= 1.22478 -> isbits f64 th -> finite f64 th = true -> Rabs (val f64 th - (val f64 ax + 1)) <= 4 / 1048576 -> (-2047 <= n <= 2047 /\ n <> 0)%Z ->
  OKo f64 (rs_pow_4 y t1 t2 s).
Proof.
  intros E E0 E1 E2 E3 E4 E5 E6 E7 E8 E9 E10 E11 E12 E13 E14 E15 E16 E17 E18 E19 E20 BY FY YB BX FX RX BT FT VT [RN NZ]. rewrite wsl in E2, E9, E13, E19 by (first [rewrite E1; apply fmul_isbits|apply fadd_isbits]).
  assert (V1 : val f64 0x3ff0000000000000 = 1) by apply val164. destruct (sub_exact f64 ax 0x3ff0000000000000 FX ltac:(vm_compute; reflexivity) ltac:(rewrite V1; lra)) as [FU VU]. rewrite <- E in FU, VU. rewrite V1 in VU.
  destruct (of_int_small f64 n ltac:(cbn; lia) ltac:(cbn; lia) ltac:(lia)) as (NB & NF & NV). rewrite <- E18 in NB, NF, NV.
  destruct (lg64C (val f64 ax) ax th u v ss sh tl sl s2 r r' s21 th1 tl1 u2 v2 ph pl zh zl E E0 E1 E2 E3 E4 E5 E6 E7 E8 E9 E10 E11 E12 E13 E14 E15 E16) as ((BH & FH) & (BL & FL) & H1 & H3); try assumption; try reflexivity; try lra.
  clear E E0 E1 E2 E3 E4 E5 E6 E7 E8 E9 E10 E11 E12 E13 E14 E15 E16.
  assert (V0 : val f64 0 = 0) by apply val0.
  assert (ZL : finite f64 zl' = true /\ val f64 zl' = val f64 zl).
  { assert (R : rnd f64 (val f64 zl + val f64 0) = val f64 zl) by (rewrite V0, Rplus_0_r; apply repr_rnd, repr_val; exact FL). destruct (fadd_spec f64 zl 0 FL ltac:(vm_compute; reflexivity)) as [_ S]. rewrite R in S. rewrite Rlt_bool_true in S by (apply val_lt_max; exact FL). destruct S as (S1 & S2 & _). rewrite E17. split; [exact S1|exact S2]. }
  destruct ZL as [FL' VL']. rewrite <- VL' in H3. clear E17.
  assert (N1 : 1 <= Rabs (IZR n) <= 2047) by (rewrite <- abs_IZR; split; apply IZR_le; lia). pose proof (Rabs_pos (val f64 zl')). pose proof (Rabs_pos (val f64 zh)).
  apply (pt64 y s zh zl' 0 tn t1 t2 (Rabs (IZR n) + 1) E19 E20 BY FY YB FH FL' eq_refl NF).
  - rewrite V0, NV, Rabs_R0. lra.
  - lra.
  - rewrite V0, NV. apply Rabs_le_inv in H1, H3. clear - N1 H1 H3. destruct (Rle_lt_dec 0 (IZR n)); [rewrite (Rabs_pos_eq (IZR n)) in * by assumption; rewrite Rabs_pos_eq; lra|rewrite (Rabs_left1 (IZR n)) in * by lra; rewrite Rabs_left1; lra].
Qed.
Lemma plog64_D y s ax th n u v ss sh tl sl s2 r r' s21 th1 tl1 u2 v2 ph pl zh zl zl' tn t1 t2 : u = ax -: 0x3ff8000000000000 -> v = 0x3ff0000000000000 /: (ax +: 0x3ff8000000000000) -> ss = u *: v -> sh = with_set_low_word ss 0 -> tl = ax -: (th -: 0x3ff8000000000000) -> sl = v *: ((u -: (sh *: th)) -: (sh *: tl)) -> s2 = ss *: ss -> r = (s2 *: s2) *: (rs_pow_L1 +: (s2 *: (rs_pow_L2 +: (s2 *: (rs_pow_L3 +: (s2 *: (rs_pow_L4 +: (s2 *: (rs_pow_L5 +: (s2 *: rs_pow_L6)))))))))) -> r' = r +: (sl *: (sh +: ss)) -> s21 = sh *: sh -> th1 = with_set_low_word ((0x4008000000000000 +: s21) +: r') 0 -> tl1 = r' -: ((th1 -: 0x4008000000000000) -: s21) -> u2 = sh *: th1 -> v2 = (sl *: th1) +: (tl1 *: ss) -> ph = with_set_low_word (u2 +: v2) 0 -> pl = v2 -: (ph -: u2) -> zh = rs_pow_CP_H *: ph -> zl = (rs_pow_CP_L *: ph) +: (pl *: rs_pow_CP) -> zl' = zl +: 0x3e4cfdeb43cfd006 -> tn = of_int f64 n -> t1 = with_set_low_word (((zh +: zl') +: 0x3fe2b80340000000) +: tn) 0 -> t2 = zl' -: (((t1 -: tn) -: 0x3fe2b80340000000) -: zh) -> isbits f64 y -> finite f64 y = true -> Rabs (val f64 y) <= bpow radix2 64 -> isbits f64 ax -> finite f64 ax = true -> 1.2247 <= val f64 ax <= 1.7321 -> isbits f64 th -> finite f64 th = true -> Rabs (val f64 th - (val f64 ax + 1.5)) <= 4 / 1048576 -> (-2047 <= n <= 2047)%Z ->
  OKo f64 (rs_pow_4 y t1 t2 s).
Proof.
  intros E E0 E1 E2 E3 E4 E5 E6 E7 E8 E9 E10 E11 E12 E13 E14 E15 E16 E17 E18 E19 E20 BY FY YB BX FX RX BT FT VT RN. rewrite wsl in E2, E9, E13, E19 by (first [rewrite E1; apply fmul_isbits|apply fadd_isbits]).
  assert (V1 : val f64 0x3ff8000000000000 = 3 / 2) by lit. destruct (sub_exact f64 ax 0x3ff8000000000000 FX ltac:(vm_compute; reflexivity) ltac:(rewrite V1; lra)) as [FU VU]. rewrite <- E in FU, VU. rewrite V1 in VU.
  destruct (of_int_small f64 n ltac:(cbn; lia) ltac:(cbn; lia) ltac:(lia)) as (NB & NF & NV). rewrite <- E18 in NB, NF, NV.
  destruct (lg64D (val f64 ax) ax th u v ss sh tl sl s2 r r' s21 th1 tl1 u2 v2 ph pl zh zl E E0 E1 E2 E3 E4 E5 E6 E7 E8 E9 E10 E11 E12 E13 E14 E15 E16) as ((BH & FH) & (BL & FL) & H1 & H3); try assumption; try reflexivity; try lra.
  clear E E0 E1 E2 E3 E4 E5 E6 E7 E8 E9 E10 E11 E12 E13 E14 E15 E16.
  assert (VD : val f64 0x3fe2b80340000000 = 4907021 / 8388608) by lit. assert (VP : 0 <= val f64 0x3e4cfdeb43cfd006 <= 0.000002) by (assert (V : val f64 0x3e4cfdeb43cfd006 = 4080243122366467 / 302231454903657293676544) by lit; rewrite V; lra).
  destruct (rd_add f64 ltac:(cbn; lia) zl 0x3e4cfdeb43cfd006 1 FL ltac:(vm_compute; reflexivity)) as (BL' & FL' & H4).
  { apply Rabs_le. apply Rabs_le_inv in H3. lra. } { change 1 with (bpow radix2 0). apply bpow_le. lia. } { rewrite Rmult_1_r. unfold Rdiv. change (/2)%R with (bpow radix2 (-1)). rewrite <- bpow_plus. apply bpow_le. cbn. lia. }
  rewrite <- E17 in *. change (bpow radix2 (- pr f64)) with (/ 9007199254740992) in H4. assert (H5 : Rabs (val f64 zl') <= 0.0201) by (apply Rabs_le_inv in H3, H4; apply Rabs_le; lra). clear E17 H4 H3.
  assert (N1 : (n = 0 \/ 1 <= n \/ n = -1 \/ n <= -2)%Z) by lia. assert (N2 : Rabs (IZR n) <= 2047) by (rewrite <- abs_IZR; apply IZR_le; lia).
  pose proof (Rabs_pos (val f64 zl')). pose proof (Rabs_pos (val f64 zh)). pose proof (Rabs_pos (IZR n)).
  apply (pt64 y s zh zl' 0x3fe2b80340000000 tn t1 t2 (Rabs (IZR n) + 1) E19 E20 BY FY YB FH FL' eq_refl NF).
  - rewrite VD, NV. rewrite (Rabs_pos_eq (4907021 / 8388608)) by lra. lra.
  - lra.
  - rewrite VD, NV. apply Rabs_le_inv in H1, H5. clear - N1 H1 H5. destruct N1 as [-> | [N1 | [-> | N1]]].
    + rewrite Rabs_R0. rewrite Rabs_pos_eq; lra.
    + apply IZR_le in N1. rewrite (Rabs_pos_eq (IZR n)) by lra. rewrite Rabs_pos_eq; lra.
    + rewrite (Rabs_left1 (-1)) by lra. rewrite Rabs_left1; lra.
    + apply IZR_le in N1. rewrite (Rabs_left1 (IZR n)) by lra. rewrite Rabs_left1; lra.
Qed.

(** ** f32 *)
Lemma pt32 y s zh zl dph tn t1 t2 M : t1 = trc 12 (((zh +' zl) +' dph) +' tn) -> t2 = zl -' (((t1 -' tn) -' dph) -' zh) -> isbits f32 y -> finite f32 y = true -> Rabs (val f32 y) <= bpow radix2 64 ->
  finite f32 zh = true -> finite f32 zl = true -> finite f32 dph = true -> finite f32 tn = true ->
  Rabs (val f32 zh) + Rabs (val f32 zl) + Rabs (val f32 dph) + Rabs (val f32 tn) <= M -> / 16777216 <= M <= 4096 -> M / 50 <= Rabs (val f32 zh + val f32 zl + val f32 dph + val f32 tn) -> OKo f32 (rs_powf_2 y t1 t2 s).
Proof.
  intros E1 E2 BY FY YB F1 F2 F3 F4 HM [M0 M1] HL. assert (T : bpow radix2 (12 - mw f32) = / 2048) by reflexivity. assert (ET : bpow radix2 (- pr f32) = / 16777216) by reflexivity.
  assert (HD : bpow radix2 (12 + emin f32) <= bpow radix2 (- pr f32) * M / 2). { apply Rle_trans with (/ 16777216 * / 16777216 / 2); [|rewrite ET; lra]. change (/ 16777216 * / 16777216 / 2) with (bpow radix2 (- pr f32) * bpow radix2 (- pr f32) * bpow radix2 (-1)). rewrite <- !bpow_plus. apply bpow_le. vm_compute. discriminate. }
  destruct (t12 f32 ltac:(cbn; lia) ltac:(cbn; lia) 12 zh zl dph tn M t1 t2 E1 E2 ltac:(cbn; lia) F1 F2 F3 F4 HM M1 HD HL) as (B1 & G1 & B2 & G2 & H1 & H2 & H3); [rewrite T; lra|].
  rewrite T, ET in H3. apply (powf2_tot y t1 t2 s (/ 2048 * (130 / 128) + 1200 * / 16777216)); try assumption; [lra|].
  apply Rle_trans with (bpow radix2 64 * bpow radix2 13); [|rewrite <- bpow_plus; apply bpow_le; lia]. apply Rmult_le_compat; try apply Rabs_pos; [exact YB|]. change (bpow radix2 13) with 8192. lra.
Qed.
Lemma plog32_A y s ax th u v ss sh tl sl s2 r r' s21 th1 tl1 u2 v2 ph pl zh zl zl' tn t1 t2 : u = ax -' 0x3f800000 -> v = 0x3f800000 /' (ax +' 0x3f800000) -> ss = u *' v -> sh = Z.land (to_u 32 (to_i 32 ss)) 0xfffff000 -> tl = ax -' (th -' 0x3f800000) -> sl = v *' ((u -' (sh *' th)) -' (sh *' tl)) -> s2 = ss *' ss -> r = (s2 *' s2) *' (rs_powf_L1 +' (s2 *' (rs_powf_L2 +' (s2 *' (rs_powf_L3 +' (s2 *' (rs_powf_L4 +' (s2 *' (rs_powf_L5 +' (s2 *' rs_powf_L6)))))))))) -> r' = r +' (sl *' (sh +' ss)) -> s21 = sh *' sh -> th1 = Z.land (to_u 32 (to_i 32 ((0x40400000 +' s21) +' r'))) 0xfffff000 -> tl1 = r' -' ((th1 -' 0x40400000) -' s21) -> u2 = sh *' th1 -> v2 = (sl *' th1) +' (tl1 *' ss) -> ph = Z.land (to_u 32 (to_i 32 (u2 +' v2))) 0xfffff000 -> pl = v2 -' (ph -' u2) -> zh = rs_powf_CP_H *' ph -> zl = (rs_powf_CP_L *' ph) +' (pl *' rs_powf_CP) -> zl' = zl +' 0 -> tn = of_int f32 0 -> t1 = Z.land (to_u 32 (to_i 32 (((zh +' zl') +' 0) +' tn))) 0xfffff000 -> t2 = zl' -' (((t1 -' tn) -' 0) -' zh) -> isbits f32 y -> finite f32 y = true -> Rabs (val f32 y) <= bpow radix2 64 -> isbits f32 ax -> finite f32 ax = true -> 0.866 <= val f32 ax <= 1.22478 -> / 16777216 <= Rabs (val f32 ax - 1) -> isbits f32 th -> finite f32 th = true -> Rabs (val f32 th - (val f32 ax + 1)) <= 2050 / 1048576 ->
  OKo f32 (rs_powf_2 y t1 t2 s).
Proof.
  intros E E0 E1 E2 E3 E4 E5 E6 E7 E8 E9 E10 E11 E12 E13 E14 E15 E16 E17 E18 E19 E20 BY FY YB BX FX RX RU BT FT VT. rewrite trc12 in E2, E9, E13, E19 by (first [rewrite E1; apply fmul_isbits|apply fadd_isbits]).
  assert (V1 : val f32 0x3f800000 = 1) by apply val132. destruct (sub_exact f32 ax 0x3f800000 FX ltac:(vm_compute; reflexivity) ltac:(rewrite V1; lra)) as [FU VU]. rewrite <- E in FU, VU. rewrite V1 in VU.
  destruct (of_int_small f32 0 ltac:(cbn; lia) ltac:(cbn; lia) ltac:(lia)) as (NB & NF & NV). rewrite <- E18 in NB, NF, NV.
  assert (SZ : forall sg, Rabs (val f32 ax - 1) = sg -> (isbits f32 zh /\ finite f32 zh = true) /\ (isbits f32 zl /\ finite f32 zl = true) /\ (sg * 1.2 <= Rabs (val f32 zh) <= sg * 2.0) /\ Rabs (val f32 zl) <= sg * 0.02).
  { intros sg ES. destruct (Rle_lt_dec 0 (val f32 ax - 1)) as [C|C].
    - rewrite Rabs_pos_eq in ES by assumption. assert (S0 : / 16777216 <= sg) by (rewrite <- ES; rewrite Rabs_pos_eq in RU by assumption; exact RU). destruct (lg32A sg 1 (val f32 ax) ax th u v ss sh tl sl s2 r r' s21 th1 tl1 u2 v2 ph pl zh zl E E0 E1 E2 E3 E4 E5 E6 E7 E8 E9 E10 E11 E12 E13 E14 E15 E16) as (Q1 & Q2 & Q3 & Q4); try assumption; try reflexivity; try lra.
      split; [exact Q1|]. split; [exact Q2|]. split; [|exact Q4]. rewrite Rabs_pos_eq; lra.
    - rewrite Rabs_left1 in ES by lra. assert (S0 : / 16777216 <= sg) by (rewrite <- ES; rewrite Rabs_left1 in RU by lra; exact RU). destruct (lg32B sg (-1) (val f32 ax) ax th u v ss sh tl sl s2 r r' s21 th1 tl1 u2 v2 ph pl zh zl E E0 E1 E2 E3 E4 E5 E6 E7 E8 E9 E10 E11 E12 E13 E14 E15 E16) as (Q1 & Q2 & Q3 & Q4); try assumption; try reflexivity; try lra.
      split; [exact Q1|]. split; [exact Q2|]. split; [|exact Q4]. rewrite Rabs_left1; lra. }
  set (sg := Rabs (val f32 ax - 1)) in *. destruct (SZ sg eq_refl) as ((BH & FH) & (BL & FL) & [H1 H2] & H3). clear SZ.
  assert (SG : sg <= 0.3) by (unfold sg; apply Rabs_le; lra). clearbody sg. clear E E0 E1 E2 E3 E4 E5 E6 E7 E8 E9 E10 E11 E12 E13 E14 E15 E16.
  assert (V0 : val f32 0 = 0) by apply val0.
  assert (ZL : finite f32 zl' = true /\ val f32 zl' = val f32 zl).
  { assert (R : rnd f32 (val f32 zl + val f32 0) = val f32 zl) by (rewrite V0, Rplus_0_r; apply repr_rnd, repr_val; exact FL). destruct (fadd_spec f32 zl 0 FL ltac:(vm_compute; reflexivity)) as [_ S]. rewrite R in S. rewrite Rlt_bool_true in S by (apply val_lt_max; exact FL). destruct S as (S1 & S2 & _). rewrite E17. split; [exact S1|exact S2]. }
  destruct ZL as [FL' VL']. rewrite <- VL' in H3. clear E17. pose proof (Rabs_pos (val f32 zl')).
  apply (pt32 y s zh zl' 0 tn t1 t2 (sg * 2.05) E19 E20 BY FY YB FH FL' eq_refl NF).
  - rewrite V0, NV, Rabs_R0. lra.
  - lra.
  - rewrite V0, NV. pose proof (Rabs_triang (val f32 zh + val f32 zl' + 0 + 0) (- val f32 zl')) as TR. rewrite Rabs_Ropp in TR. replace (val f32 zh + val f32 zl' + 0 + 0 + - val f32 zl') with (val f32 zh) in TR by ring. lra.
Qed.
Lemma plog32_C y s ax th n u v ss sh tl sl s2 r r' s21 th1 tl1 u2 v2 ph pl zh zl zl' tn t1 t2 : u = ax -' 0x3f800000 -> v = 0x3f800000 /' (ax +' 0x3f800000) -> ss = u *' v -> sh = Z.land (to_u 32 (to_i 32 ss)) 0xfffff000 -> tl = ax -' (th -' 0x3f800000) -> sl = v *' ((u -' (sh *' th)) -' (sh *' tl)) -> s2 = ss *' ss -> r = (s2 *' s2) *' (rs_powf_L1 +' (s2 *' (rs_powf_L2 +' (s2 *' (rs_powf_L3 +' (s2 *' (rs_powf_L4 +' (s2 *' (rs_powf_L5 +' (s2 *' rs_powf_L6)))))))))) -> r' = r +' (sl *' (sh +' ss)) -> s21 = sh *' sh -> th1 = Z.land (to_u 32 (to_i 32 ((0x40400000 +' s21) +' r'))) 0xfffff000 -> tl1 = r' -' ((th1 -' 0x40400000) -' s21) -> u2 = sh *' th1 -> v2 = (sl *' th1) +' (tl1 *' ss) -> ph = Z.land (to_u 32 (to_i 32 (u2 +' v2))) 0xfffff000 -> pl = v2 -' (ph -' u2) -> zh = rs_powf_CP_H *' ph -> zl = (rs_powf_CP_L *' ph) +' (pl *' rs_powf_CP) -> zl' = zl +' 0 -> tn = of_int f32 n -> t1 = Z.land (to_u 32 (to_i 32 (((zh +' zl') +' 0) +' tn))) 0xfffff000 -> t2 = zl' -' (((t1 -' tn) -' 0) -' zh) -> isbits f32 y -> finite f32 y = true -> Rabs (val f32 y) <= bpow radix2 64 -> isbits f32 ax -> finite f32 ax = true -> 0.866 <= val f32 ax <= 1.22478 -> isbits f32 th -> finite f32 th = true -> Rabs (val f32 th - (val f32 ax + 1)) <= 2050 / 1048576 -> (-2047 <= n <= 2047 /\ n <> 0)%Z ->
  OKo f32 (rs_powf_2 y t1 t2 s).
Proof.
  intros E E0 E1 E2 E3 E4 E5 E6 E7 E8 E9 E10 E11 E12 E13 E14 E15 E16 E17 E18 E19 E20 BY FY YB BX FX RX BT FT VT [RN NZ]. rewrite trc12 in E2, E9, E13, E19 by (first [rewrite E1; apply fmul_isbits|apply fadd_isbits]).
  assert (V1 : val f32 0x3f800000 = 1) by apply val132. destruct (sub_exact f32 ax 0x3f800000 FX ltac:(vm_compute; reflexivity) ltac:(rewrite V1; lra)) as [FU VU]. rewrite <- E in FU, VU. rewrite V1 in VU.
  destruct (of_int_small f32 n ltac:(cbn; lia) ltac:(cbn; lia) ltac:(lia)) as (NB & NF & NV). rewrite <- E18 in NB, NF, NV.
  destruct (lg32C (val f32 ax) ax th u v ss sh tl sl s2 r r' s21 th1 tl1 u2 v2 ph pl zh zl E E0 E1 E2 E3 E4 E5 E6 E7 E8 E9 E10 E11 E12 E13 E14 E15 E16) as ((BH & FH) & (BL & FL) & H1 & H3); try assumption; try reflexivity; try lra.
  clear E E0 E1 E2 E3 E4 E5 E6 E7 E8 E9 E10 E11 E12 E13 E14 E15 E16.
  assert (V0 : val f32 0 = 0) by apply val0.
  assert (ZL : finite f32 zl' = true /\ val f32 zl' = val f32 zl).
  { assert (R : rnd f32 (val f32 zl + val f32 0) = val f32 zl) by (rewrite V0, Rplus_0_r; apply repr_rnd, repr_val; exact FL). destruct (fadd_spec f32 zl 0 FL ltac:(vm_compute; reflexivity)) as [_ S]. rewrite R in S. rewrite Rlt_bool_true in S by (apply val_lt_max; exact FL). destruct S as (S1 & S2 & _). rewrite E17. split; [exact S1|exact S2]. }
  destruct ZL as [FL' VL']. rewrite <- VL' in H3. clear E17.
  assert (N1 : 1 <= Rabs (IZR n) <= 2047) by (rewrite <- abs_IZR; split; apply IZR_le; lia). pose proof (Rabs_pos (val f32 zl')). pose proof (Rabs_pos (val f32 zh)).
  apply (pt32 y s zh zl' 0 tn t1 t2 (Rabs (IZR n) + 1) E19 E20 BY FY YB FH FL' eq_refl NF).
  - rewrite V0, NV, Rabs_R0. lra.
  - lra.
  - rewrite V0, NV. apply Rabs_le_inv in H1, H3. clear - N1 H1 H3. destruct (Rle_lt_dec 0 (IZR n)); [rewrite (Rabs_pos_eq (IZR n)) in * by assumption; rewrite Rabs_pos_eq; lra|rewrite (Rabs_left1 (IZR n)) in * by lra; rewrite Rabs_left1; lra].
Qed.
Lemma plog32_D y s ax th n u v ss sh tl sl s2 r r' s21 th1 tl1 u2 v2 ph pl zh zl zl' tn t1 t2 : u = ax -' 0x3fc00000 -> v = 0x3f800000 /' (ax +' 0x3fc00000) -> ss = u *' v -> sh = Z.land (to_u 32 (to_i 32 ss)) 0xfffff000 -> tl = ax -' (th -' 0x3fc00000) -> sl = v *' ((u -' (sh *' th)) -' (sh *' tl)) -> s2 = ss *' ss -> r = (s2 *' s2) *' (rs_powf_L1 +' (s2 *' (rs_powf_L2 +' (s2 *' (rs_powf_L3 +' (s2 *' (rs_powf_L4 +' (s2 *' (rs_powf_L5 +' (s2 *' rs_powf_L6)))))))))) -> r' = r +' (sl *' (sh +' ss)) -> s21 = sh *' sh -> th1 = Z.land (to_u 32 (to_i 32 ((0x40400000 +' s21) +' r'))) 0xfffff000 -> tl1 = r' -' ((th1 -' 0x40400000) -' s21) -> u2 = sh *' th1 -> v2 = (sl *' th1) +' (tl1 *' ss) -> ph = Z.land (to_u 32 (to_i 32 (u2 +' v2))) 0xfffff000 -> pl = v2 -' (ph -' u2) -> zh = rs_powf_CP_H *' ph -> zl = (rs_powf_CP_L *' ph) +' (pl *' rs_powf_CP) -> zl' = zl +' 0x35d1cfdc -> tn = of_int f32 n -> t1 = Z.land (to_u 32 (to_i 32 (((zh +' zl') +' 0x3f15c000) +' tn))) 0xfffff000 -> t2 = zl' -' (((t1 -' tn) -' 0x3f15c000) -' zh) -> isbits f32 y -> finite f32 y = true -> Rabs (val f32 y) <= bpow radix2 64 -> isbits f32 ax -> finite f32 ax = true -> 1.2247 <= val f32 ax <= 1.7321 -> isbits f32 th -> finite f32 th = true -> Rabs (val f32 th - (val f32 ax + 1.5)) <= 2050 / 1048576 -> (-2047 <= n <= 2047)%Z ->
  OKo f32 (rs_powf_2 y t1 t2 s).
Proof.
  intros E E0 E1 E2 E3 E4 E5 E6 E7 E8 E9 E10 E11 E12 E13 E14 E15 E16 E17 E18 E19 E20 BY FY YB BX FX RX BT FT VT RN. rewrite trc12 in E2, E9, E13, E19 by (first [rewrite E1; apply fmul_isbits|apply fadd_isbits]).
  assert (V1 : val f32 0x3fc00000 = 3 / 2) by lit. destruct (sub_exact f32 ax 0x3fc00000 FX ltac:(vm_compute; reflexivity) ltac:(rewrite V1; lra)) as [FU VU]. rewrite <- E in FU, VU. rewrite V1 in VU.
  destruct (of_int_small f32 n ltac:(cbn; lia) ltac:(cbn; lia) ltac:(lia)) as (NB & NF & NV). rewrite <- E18 in NB, NF, NV.
  destruct (lg32D (val f32 ax) ax th u v ss sh tl sl s2 r r' s21 th1 tl1 u2 v2 ph pl zh zl E E0 E1 E2 E3 E4 E5 E6 E7 E8 E9 E10 E11 E12 E13 E14 E15 E16) as ((BH & FH) & (BL & FL) & H1 & H3); try assumption; try reflexivity; try lra.
  clear E E0 E1 E2 E3 E4 E5 E6 E7 E8 E9 E10 E11 E12 E13 E14 E15 E16.
  assert (VD : val f32 0x3f15c000 = 599 / 1024) by lit. assert (VP : 0 <= val f32 0x35d1cfdc <= 0.000002) by (assert (V : val f32 0x35d1cfdc = 3437559 / 2199023255552) by lit; rewrite V; lra).
  destruct (rd_add f32 ltac:(cbn; lia) zl 0x35d1cfdc 1 FL ltac:(vm_compute; reflexivity)) as (BL' & FL' & H4).
  { apply Rabs_le. apply Rabs_le_inv in H3. lra. } { change 1 with (bpow radix2 0). apply bpow_le. lia. } { rewrite Rmult_1_r. unfold Rdiv. change (/2)%R with (bpow radix2 (-1)). rewrite <- bpow_plus. apply bpow_le. cbn. lia. }
  rewrite <- E17 in *. change (bpow radix2 (- pr f32)) with (/ 16777216) in H4. assert (H5 : Rabs (val f32 zl') <= 0.0201) by (apply Rabs_le_inv in H3, H4; apply Rabs_le; lra). clear E17 H4 H3.
  assert (N1 : (n = 0 \/ 1 <= n \/ n = -1 \/ n <= -2)%Z) by lia. assert (N2 : Rabs (IZR n) <= 2047) by (rewrite <- abs_IZR; apply IZR_le; lia).
  pose proof (Rabs_pos (val f32 zl')). pose proof (Rabs_pos (val f32 zh)). pose proof (Rabs_pos (IZR n)).
  apply (pt32 y s zh zl' 0x3f15c000 tn t1 t2 (Rabs (IZR n) + 1) E19 E20 BY FY YB FH FL' eq_refl NF).
  - rewrite VD, NV. rewrite (Rabs_pos_eq (599 / 1024)) by lra. lra.
  - lra.
  - rewrite VD, NV. apply Rabs_le_inv in H1, H5. clear - N1 H1 H5. destruct N1 as [-> | [N1 | [-> | N1]]].
    + rewrite Rabs_R0. rewrite Rabs_pos_eq; lra.
    + apply IZR_le in N1. rewrite (Rabs_pos_eq (IZR n)) by lra. rewrite Rabs_pos_eq; lra.
    + rewrite (Rabs_left1 (-1)) by lra. rewrite Rabs_left1; lra.
    + apply IZR_le in N1. rewrite (Rabs_left1 (IZR n)) by lra. rewrite Rabs_left1; lra.
Qed.

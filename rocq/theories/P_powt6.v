(** The product of [pow] and [powf] and its range checks never panic. *)
From Coq Require Import ZArith Reals Lia Lra Bool List Psatz.
From Flocq Require Import Core.
From Verif Require Import Base Spec Format P_format Ieee P_ieee P_real P_neg P_key P_elem P_elem2 P_tot P_exp P_lit P_err P_dom P_apx P_ival P_ival2 P_tan64o P_red64b P_powt P_powt2 P_powt3 P_powt4 P_powt5 M_basic M_scalbn M_elib M_pow.
Open Scope Z_scope.
Local Opaque fadd fsub fmul fdiv.

Lemma land_j a b : 0 <= a < 2 ^ 31 -> Z.land (a - sg31 b) 0x7fffffff = a.
Proof. intros A. rewrite land31. symmetry. apply Z.mod_unique with (if b then -1 else 0); [left; lia|]. destruct b; cbn [sg31]; lia. Qed.
Lemma pow4_tot y t1 t2 s ka : isbits f64 y -> finite f64 y = true -> finite f64 t1 = true -> finite f64 t2 = true -> (0 <= ka <= / 8192)%R -> (Rabs (val f64 t2) <= ka * Rabs (val f64 t1))%R -> (Rabs (val f64 t1) <= 5000)%R -> (Rabs (val f64 y) * Rabs (val f64 t1) <= bpow radix2 120)%R ->
  exists r, rs_pow_4 y t1 t2 s = Some r /\ isbits f64 r.
Proof.
  intros BY FY F1 F2 KA H2 H1 HM. unfold rs_pow_4. rewrite wsl by assumption. cbv zeta.
  remember (trc 32 y) as y1 eqn:E1. remember (((y -: y1) *: t1) +: (y *: t2)) as pl eqn:E2. remember (y1 *: t1) as ph eqn:E3. remember (pl +: ph) as z eqn:E4.
  assert (T20 : bpow radix2 (32 - mw f64) = (/ 1048576)%R) by reflexivity. assert (E53 : bpow radix2 (- pr f64) = (/ 9007199254740992)%R) by reflexivity.
  destruct (prod12 f64 ltac:(cbn; lia) ltac:(cbn; lia) 32 y t1 t2 ka y1 pl ph z E1 E2 E3 E4 ltac:(cbn; lia) BY FY F1 F2 ltac:(rewrite T20; lra) ltac:(lra) H2 H1 HM ltac:(apply bpow_le; cbn; lia)) as (P1 & P2 & P3 & P4 & P5 & P6 & P7).
  rewrite T20, E53 in *. set (m := (Rabs (val f64 y) * Rabs (val f64 t1))%R) in *.
  assert (M0 : (0 <= m)%R) by (apply Rmult_le_pos; apply Rabs_pos). assert (AM : (Rabs (val f64 y * val f64 t1) = m)%R) by apply Rabs_mult.
  assert (B80 : (0 < bpow radix2 (-80) <= / 1000000)%R). { split; [apply bpow_gt_0|]. apply Rle_trans with (bpow radix2 (-20)); [apply bpow_le; lia|]. change (bpow radix2 (-20)) with (/ 1048576)%R. lra. }
  assert (Bpl : isbits f64 pl) by (rewrite E2; apply fadd_isbits). assert (Bph : isbits f64 ph) by (rewrite E3; apply fmul_isbits). clear E1 E2 E3 E4.
  destruct (to_i_hi z P3) as [TI A]. set (j := to_i 32 (Z.shiftr z 32)) in *. set (a := a64 z / 2 ^ 32) in *.
  assert (G : a <= 0x4090cc00 -> j <= 0x40900000 -> exists r, rs_pow_6 s pl ph j = Some r /\ isbits f64 r).
  { intros G1 G2. pose proof (Z.div_mod (a64 z) (2 ^ 32) ltac:(lia)) as DA. pose proof (Z.mod_pos_bound (a64 z) (2 ^ 32) ltac:(lia)) as MA. fold a in DA.
    destruct (absval64 0 0x4090cc0100000000 z P3 ltac:(lia)) as [_ H]; [lia|lia|]. assert (V : val f64 0x4090cc0100000000 = (1100801 / 1024)%R) by lit. rewrite V in H.
    assert (KM : (0 <= ka * m <= / 8192 * m)%R) by (split; [apply Rmult_le_pos; lra|apply Rmult_le_compat_r; lra]).
    assert (MM : (m <= 1100)%R). { clear HM P5. apply Rabs_le_inv in P6, P7, H. rewrite <- AM. pose proof (Rabs_triang (val f64 z) (val f64 y * val f64 t1 - val f64 z)). rewrite AM. assert (m <= 1076 + (ka + 10 * / 9007199254740992) * m + / 1000000 + (2 * (/ 9007199254740992 * m)) + / 1000000)%R; [|lra]. rewrite <- AM at 1. apply Rabs_le. lra. }
    apply (pow6_tot s pl ph z j); try assumption.
    - eapply Rle_trans; [exact P5|]. lra.
    - eapply Rle_trans; [exact P7|]. lra.
    - reflexivity.
    - rewrite TI, land_j by lia. exact G1. }
  destruct (Z.leb_spec 0x40900000 j) as [C|C].
  - assert (S0 : sg31 (signbit f64 z) = 0) by (destruct (signbit f64 z); [unfold sg31 in TI; lia|reflexivity]). rewrite ssub_ok by lia. cbn [bind]. destruct (Z.eqb_spec (Z.lor (j - 0x40900000) (to_i 32 z)) 0) as [E|E]; cbn [negb]; [|eexists; split; [reflexivity|apply fmul_isbits]].
    apply Z.lor_eq_0_iff in E. destruct (fgt f64 _ _); [eexists; split; [reflexivity|apply fmul_isbits]|]. apply G; lia.
  - rewrite TI, land_j by lia. rewrite TI in C. destruct (Z.leb_spec 0x4090cc00 a) as [C2|C2]; [|rewrite <- TI; apply G; lia].
    assert (S1 : signbit f64 z = true) by (destruct (signbit f64 z); [reflexivity|cbn [sg31] in C; lia]). rewrite S1 in *. cbn [sg31] in *. assert (TU : to_u 32 (a - 2 ^ 31) = a + 2 ^ 31) by (unfold to_u; symmetry; apply Z.mod_unique with (-1); lia). rewrite TU.
    rewrite usub_ok by lia. cbn [bind]. destruct (Z.eqb_spec (Z.lor (a + 2 ^ 31 - 0xc090cc00) (to_u 32 (to_i 32 z))) 0) as [E|E]; cbn [negb]; [|eexists; split; [reflexivity|apply fmul_isbits]].
    apply Z.lor_eq_0_iff in E. destruct (fle f64 _ _); [eexists; split; [reflexivity|apply fmul_isbits]|]. rewrite <- TI. apply G; lia.
Qed.
Lemma powf2_tot y t1 t2 s ka : isbits f32 y -> finite f32 y = true -> finite f32 t1 = true -> finite f32 t2 = true -> (0 <= ka <= / 1000)%R -> (Rabs (val f32 t2) <= ka * Rabs (val f32 t1))%R -> (Rabs (val f32 t1) <= 5000)%R -> (Rabs (val f32 y) * Rabs (val f32 t1) <= bpow radix2 120)%R ->
  exists r, rs_powf_2 y t1 t2 s = Some r /\ isbits f32 r.
Proof.
  intros BY FY F1 F2 KA H2 H1 HM. unfold rs_powf_2. cbv zeta. rewrite trc12 by assumption.
  remember (trc 12 y) as y1 eqn:E1. remember (((y -' y1) *' t1) +' (y *' t2)) as pl eqn:E2. remember (y1 *' t1) as ph eqn:E3. remember (pl +' ph) as z eqn:E4.
  assert (T20 : bpow radix2 (12 - mw f32) = (/ 2048)%R) by reflexivity. assert (E53 : bpow radix2 (- pr f32) = (/ 16777216)%R) by reflexivity.
  destruct (prod12 f32 ltac:(cbn; lia) ltac:(cbn; lia) 12 y t1 t2 ka y1 pl ph z E1 E2 E3 E4 ltac:(cbn; lia) BY FY F1 F2 ltac:(rewrite T20; lra) ltac:(lra) H2 H1 HM ltac:(apply bpow_le; cbn; lia)) as (P1 & P2 & P3 & P4 & P5 & P6 & P7).
  rewrite T20, E53 in *. set (m := (Rabs (val f32 y) * Rabs (val f32 t1))%R) in *.
  assert (M0 : (0 <= m)%R) by (apply Rmult_le_pos; apply Rabs_pos). assert (AM : (Rabs (val f32 y * val f32 t1) = m)%R) by apply Rabs_mult.
  assert (B80 : (0 < bpow radix2 (-80) <= / 1000000)%R). { split; [apply bpow_gt_0|]. apply Rle_trans with (bpow radix2 (-20)); [apply bpow_le; lia|]. change (bpow radix2 (-20)) with (/ 1048576)%R. lra. }
  assert (Bpl : isbits f32 pl) by (rewrite E2; apply fadd_isbits). assert (Bph : isbits f32 ph) by (rewrite E3; apply fmul_isbits). clear E1 E2 E3 E4.
  destruct (to_i_b32 z P3) as [TI A]. set (j := to_i 32 z) in *. set (a := a32 z) in *.
  assert (G : a <= 0x43160000 -> j <= 0x43000000 -> exists r, rs_powf_3 ph pl s j = Some r /\ isbits f32 r).
  { intros G1 G2. destruct (absval32 0 0x43160000 z P3 ltac:(lia)) as [_ H]; [fold a; lia|lia|]. assert (V : val f32 0x43160000 = (150 / 1)%R) by lit. rewrite V in H.
    assert (KM : (0 <= ka * m <= / 1000 * m)%R) by (split; [apply Rmult_le_pos; lra|apply Rmult_le_compat_r; lra]).
    assert (MM : (m <= 151)%R). { clear HM P5. apply Rabs_le_inv in P6, P7, H. assert (m <= 150 + (ka + 10 * / 16777216) * m + / 1000000 + (2 * (/ 16777216 * m)) + / 1000000)%R; [|lra]. rewrite <- AM at 1. apply Rabs_le. lra. }
    apply (powf3_tot s pl ph z j); try assumption.
    - eapply Rle_trans; [exact P5|]. lra.
    - eapply Rle_trans; [exact P7|]. lra.
    - reflexivity.
    - rewrite TI, land_j by lia. exact G1. }
  destruct (Z.ltb_spec 0x43000000 j) as [C|C]; [eexists; split; [reflexivity|apply fmul_isbits]|].
  assert (JA : Z.land j 0x7fffffff = a) by (rewrite TI, land_j by lia; reflexivity).
  destruct (Z.eqb_spec j 0x43000000) as [C1|C1].
  - destruct (fgt f32 _ _); [eexists; split; [reflexivity|apply fmul_isbits]|]. apply G; [|lia]. rewrite <- JA, C1. vm_compute. discriminate.
  - rewrite JA. destruct (Z.ltb_spec 0x43160000 a) as [C2|C2]; [eexists; split; [reflexivity|apply fmul_isbits]|]. destruct (andb _ _); [eexists; split; [reflexivity|apply fmul_isbits]|]. apply G; lia.
Qed.

(** The exponential part of [pow] and [powf] stays between 1/4 and 7/4. *)
From Coq Require Import ZArith Reals Lia Lra Bool List Psatz.
From Flocq Require Import Core.
From Verif Require Import Base Spec Format P_format Ieee P_ieee P_real P_neg P_key P_elem P_lit P_err P_apx P_ival P_ival2 P_powt P_powt2 M_basic M_elib M_pow.
Open Scope R_scope.
Open Scope fl_scope.

Lemma fx20 n : fxr (n * 2 ^ 180) = IZR n / 1048576.
Proof. unfold fxr, SC. change (2 ^ 200)%Z with (2 ^ 180 * 1048576)%Z. rewrite !mult_IZR. field. apply not_0_IZR. discriminate. Qed.
Lemma AP_ex F x l h : isbits F x -> finite F x = true -> fxr l <= val F x <= fxr h -> AP F 1 x (val F x) (l, h, 0)%Z.
Proof. intros B Fx R. split; [split; assumption|]. split; [exact R|]. rewrite Rmult_1_l, fxr_0. replace (val F x - val F x) with 0 by ring. rewrite Rabs_R0. lra. Qed.
Lemma AP_rng F s x r l h e l' h' : AP F s x r (l, h, e) -> fxr l' <= r <= fxr h' -> AP F s x r (l', h', e).
Proof. intros (A & _ & C) R. now split. Qed.
Definition apin (F : fmt) (b : bnd) (lo hi : Z) : bool := let '(l, h, e) := b in let '(n, d) := litq F lo in let '(n', d') := litq F hi in
  (litb F lo n d && litb F hi n' d' && (n * SC <=? (l - e) * d) && ((h + e) * d' <=? n' * SC))%Z.
Lemma AP_IN F x r b lo hi : AP F 1 x r b -> apin F b lo hi = true -> IN F (lo, hi) x.
Proof.
  destruct b as [[l h] e]. intros ((B & Fx) & R & E) H. unfold apin in H. destruct (litq F lo) as [n d], (litq F hi) as [n' d']. rewrite !andb_true_iff, !Z.leb_le in H. destruct H as (((L1 & L2) & H1) & H2).
  rewrite !Rmult_1_l in E. apply Rabs_le_inv in E. unfold IN. split; [exact B|]. split; [exact Fx|]. cbn [fst snd]. rewrite (val_lit F lo n d L1), (val_lit F hi n' d' L2).
  assert (D : (0 < d)%Z) by (unfold litb in L1; cbv zeta in L1; apply andb_prop in L1 as [L _]; now apply Z.ltb_lt). assert (D' : (0 < d')%Z) by (unfold litb in L2; cbv zeta in L2; apply andb_prop in L2 as [L _]; now apply Z.ltb_lt).
  apply IZR_le in H1. apply IZR_le in H2. rewrite !mult_IZR in *. apply (IZR_lt 0) in D. apply (IZR_lt 0) in D'. pose proof SC_pos.
  assert (fxr l - fxr e >= IZR n / IZR d). { rewrite <- fxr_sub. unfold fxr. apply Rle_ge. apply Rmult_le_reg_r with (IZR SC * IZR d); [nra|]. unfold Rdiv. replace (IZR n * / IZR d * (IZR SC * IZR d)) with (IZR n * IZR SC) by (field; lra). replace (IZR (l - e) * / IZR SC * (IZR SC * IZR d)) with (IZR (l - e) * IZR d) by (field; lra). exact H1. }
  assert (fxr h + fxr e <= IZR n' / IZR d'). { rewrite <- fxr_add. unfold fxr. apply Rmult_le_reg_r with (IZR SC * IZR d'); [nra|]. unfold Rdiv. replace (IZR n' * / IZR d' * (IZR SC * IZR d')) with (IZR n' * IZR SC) by (field; lra). replace (IZR (h + e) * / IZR SC * (IZR SC * IZR d')) with (IZR (h + e) * IZR d') by (field; lra). exact H2. }
  lra.
Qed.
(** a quotient with a divisor of magnitude at least one *)
Lemma IN_div1 F x y a : IN F (fneg F a, a) x -> finite F a = true -> isbits F a -> finite F y = true -> 1 <= Rabs (val F y) -> IN F (fneg F a, a) (fdiv F x y).
Proof.
  intros (Bx & Fx & R) Fa Ba Fy Y. cbn [fst snd] in *. rewrite fneg_val in * by assumption. assert (Y0 : val F y <> 0) by (intros E; rewrite E, Rabs_R0 in Y; lra).
  pose proof (fdiv_spec F x y Fx Fy Y0) as S.
  assert (Q : Rabs (val F x / val F y) <= val F a).
  { unfold Rdiv. rewrite Rabs_mult, Rabs_inv. assert (Rabs (val F x) <= val F a) by (apply Rabs_le; lra). assert (/ Rabs (val F y) <= 1) by (rewrite <- Rinv_1; apply Rinv_le; lra). assert (0 < / Rabs (val F y)) by (apply Rinv_0_lt_compat; lra). pose proof (Rabs_pos (val F x)). nra. }
  assert (A0 : 0 <= val F a) by (pose proof (Rabs_pos (val F x / val F y)); lra).
  pose proof (val_lt_max F a Fa) as VM. rewrite Rabs_pos_eq in VM by assumption.
  assert (RB : Rabs (rnd F (val F x / val F y)) <= val F a) by (apply rnd_bounded; [now apply repr_val|exact Q]).
  destruct S as [Bq S]. rewrite Rlt_bool_true in S by (eapply Rle_lt_trans; [exact RB|exact VM]). destruct S as (Fq & Vq & _).
  split; [exact Bq|]. split; [exact Fq|]. cbn [fst snd]. rewrite fneg_val by assumption. rewrite Vq. apply Rabs_le_inv in RB. exact RB.
Qed.

(** ** f64 *)
Definition exz (pl ph : Z) : Z :=
  let t_3 := trc 32 (pl +: ph) in
  let u_3 := t_3 *: rs_pow_LG2_H in
  let v_3 := ((pl -: (t_3 -: ph)) *: rs_pow_LG2) +: (t_3 *: rs_pow_LG2_L) in
  let z_2 := u_3 +: v_3 in
  let w_1 := v_3 -: (z_2 -: u_3) in
  let t_4 := z_2 *: z_2 in
  let t1_1 := z_2 -: (t_4 *: (rs_pow_P1 +: (t_4 *: (rs_pow_P2 +: (t_4 *: (rs_pow_P3 +: (t_4 *: (rs_pow_P4 +: (t_4 *: rs_pow_P5))))))))) in
  let r_1 := ((z_2 *: t1_1) /: (t1_1 -: 0x4000000000000000 (* 2.0 *))) -: (w_1 +: (z_2 *: w_1)) in
  0x3ff0000000000000 (* 1.0 *) -: (r_1 -: z_2).
Definition exzf (pl ph : Z) : Z :=
  let t := trc 15 (pl +' ph) in
  let u := t *' rs_powf_LG2_H in
  let v := ((pl -' (t -' ph)) *' rs_powf_LG2) +' (t *' rs_powf_LG2_L) in
  let z := u +' v in
  let w := v -' (z -' u) in
  let t := z *' z in
  let t1 := z -' (t *' (rs_powf_P1 +' (t *' (rs_powf_P2 +' (t *' (rs_powf_P3 +' (t *' (rs_powf_P4 +' (t *' rs_powf_P5))))))))) in
  let r := ((z *' t1) /' (t1 -' 0x40000000 (* 2.0 *))) -' (w +' (z *' w)) in
  0x3f800000 (* 1.0 *) -' (r -' z).
Lemma exz_in pl ph : isbits f64 pl -> finite f64 pl = true -> isbits f64 ph -> finite f64 ph = true -> Rabs (val f64 pl) <= 1 / 4 -> Rabs (val f64 pl + val f64 ph) <= 0.52 ->
  IN f64 (0x3fd0000000000000, 0x3ffc000000000000)%Z (exz pl ph).
Proof.
  intros B1 F1 B2 F2 H1 S. set (PL := val f64 pl) in *. set (PH := val f64 ph) in *.
  assert (HP : AP f64 1 pl PL (-262144 * 2 ^ 180, 262144 * 2 ^ 180, 0)%Z) by (apply AP_ex; [assumption|assumption|]; fold PL; rewrite !fx20; apply Rabs_le_inv in H1; lra).
  assert (HH : AP f64 1 ph PH (-1048576 * 2 ^ 180, 1048576 * 2 ^ 180, 0)%Z) by (apply AP_ex; [assumption|assumption|]; fold PH; rewrite !fx20; apply Rabs_le_inv in H1; apply Rabs_le_inv in S; lra).
  assert (H1' : Rabs PL <= 1 / 4) by exact H1. clearbody PL PH. unfold exz.
  apx f64 1 (pl +: ph) K1. assert (K2 : AP f64 1 (pl +: ph) (PL + PH) (-545260 * 2 ^ 180, 545260 * 2 ^ 180, ltac:(match type of K1 with AP _ _ _ _ (_, _, ?e) => exact e end))%Z) by (apply (AP_rng _ _ _ _ _ _ _ _ _ K1); rewrite !fx20; apply Rabs_le_inv in S; lra).
  epose proof (AP_trc f64 1 _ 32 _ _ _ _ scal64 ltac:(cbn; lia) K2 ltac:(vmr)) as KT. clear K1 K2. set (t := trc 32 (pl +: ph)) in *. clearbody t. cbv zeta.
  apx f64 1 (t -: ph) K1. apply (AP_is _ _ _ _ PL _ _ _ (-262144 * 2 ^ 180) (262144 * 2 ^ 180)) in K1; [|ring|rewrite !fx20; apply Rabs_le_inv in H1'; lra].
  apx f64 1 (pl -: (t -: ph)) K2. apply AP_zero in K2; [|ring]. set (d := pl -: (t -: ph)) in *. clearbody d. clear K1.
  apx f64 1 (t *: rs_pow_LG2_H) KU. set (u := t *: rs_pow_LG2_H) in *. clearbody u.
  apx f64 1 ((d *: rs_pow_LG2) +: (t *: rs_pow_LG2_L)) KV. set (v := (d *: rs_pow_LG2) +: (t *: rs_pow_LG2_L)) in *. clearbody v.
  apx f64 1 (u +: v) KZ. set (z := u +: v) in *. clearbody z.
  lazymatch type of KV with AP _ _ _ ?V (?l, ?h, _) => assert (RV : fxr l <= V <= fxr h) by exact (proj1 (proj2 KV)) end.
  apx f64 1 (z -: u) K1. lazymatch type of KV with AP _ _ _ ?V (?l, ?h, _) => apply (AP_is _ _ _ _ V _ _ _ l h) in K1; [|ring|exact RV] end.
  apx f64 1 (v -: (z -: u)) KW. apply AP_zero in KW; [|ring]. set (w := v -: (z -: u)) in *. clearbody w. clear K1.
  apply (AP_IN _ _ _ _ 0xbfd999999999999a 0x3fd999999999999a) in KZ; [|vm_compute; reflexivity]. apply (AP_IN _ _ _ _ 0xbf9eb851eb851eb8 0x3f9eb851eb851eb8) in KW; [|vm_compute; reflexivity].
  clear HP HH KT K2 KU KV RV.
  ivl f64 (z *: z) KQ. set (t4 := z *: z) in *. clearbody t4.
  ivl f64 (z -: (t4 *: (rs_pow_P1 +: (t4 *: (rs_pow_P2 +: (t4 *: (rs_pow_P3 +: (t4 *: (rs_pow_P4 +: (t4 *: rs_pow_P5)))))))))) KT1.
  set (t1 := z -: (t4 *: (rs_pow_P1 +: (t4 *: (rs_pow_P2 +: (t4 *: (rs_pow_P3 +: (t4 *: (rs_pow_P4 +: (t4 *: rs_pow_P5)))))))))) in *. clearbody t1.
  ivl f64 (z *: t1) KN. assert (KN' : IN f64 (Format.fneg f64 0x3fd0000000000000, 0x3fd0000000000000)%Z (z *: t1)) by inw KN. ivl f64 (t1 -: 0x4000000000000000) KD.
  assert (KD' : IN f64 (0xc010000000000000, 0xbff0000000000000)%Z (t1 -: 0x4000000000000000)) by inw KD. 
  assert (KR : IN f64 (Format.fneg f64 0x3fd0000000000000, 0x3fd0000000000000)%Z ((z *: t1) /: (t1 -: 0x4000000000000000))).
  { destruct KD' as (Bd & Fd & Rd). cbn [fst snd] in Rd. apply IN_div1; [exact KN'|vm_compute; reflexivity|vm_compute; split; [discriminate|reflexivity]|exact Fd|].
    assert (V1 : val f64 0xbff0000000000000 = -1 / 1) by lit. rewrite V1 in Rd. rewrite Rabs_left1; lra. }
  set (q := (z *: t1) /: (t1 -: 0x4000000000000000)) in *. clearbody q. clear KN KN' KD KD'.
  ivl f64 (0x3ff0000000000000 -: ((q -: (w +: (z *: w))) -: z)) KF. inw KF.
Qed.
Lemma exzf_in pl ph : isbits f32 pl -> finite f32 pl = true -> isbits f32 ph -> finite f32 ph = true -> Rabs (val f32 pl) <= 1 / 4 -> Rabs (val f32 pl + val f32 ph) <= 0.52 ->
  IN f32 (0x3e800000, 0x3fe00000)%Z (exzf pl ph).
Proof.
  intros B1 F1 B2 F2 H1 S. set (PL := val f32 pl) in *. set (PH := val f32 ph) in *.
  assert (HP : AP f32 1 pl PL (-262144 * 2 ^ 180, 262144 * 2 ^ 180, 0)%Z) by (apply AP_ex; [assumption|assumption|]; fold PL; rewrite !fx20; apply Rabs_le_inv in H1; lra).
  assert (HH : AP f32 1 ph PH (-1048576 * 2 ^ 180, 1048576 * 2 ^ 180, 0)%Z) by (apply AP_ex; [assumption|assumption|]; fold PH; rewrite !fx20; apply Rabs_le_inv in H1; apply Rabs_le_inv in S; lra).
  assert (H1' : Rabs PL <= 1 / 4) by exact H1. clearbody PL PH. unfold exzf.
  apx f32 1 (pl +' ph) K1. assert (K2 : AP f32 1 (pl +' ph) (PL + PH) (-545260 * 2 ^ 180, 545260 * 2 ^ 180, ltac:(match type of K1 with AP _ _ _ _ (_, _, ?e) => exact e end))%Z) by (apply (AP_rng _ _ _ _ _ _ _ _ _ K1); rewrite !fx20; apply Rabs_le_inv in S; lra).
  epose proof (AP_trc f32 1 _ 15 _ _ _ _ scal32 ltac:(cbn; lia) K2 ltac:(vmr)) as KT. clear K1 K2. set (t := trc 15 (pl +' ph)) in *. clearbody t. cbv zeta.
  apx f32 1 (t -' ph) K1. apply (AP_is _ _ _ _ PL _ _ _ (-262144 * 2 ^ 180) (262144 * 2 ^ 180)) in K1; [|ring|rewrite !fx20; apply Rabs_le_inv in H1'; lra].
  apx f32 1 (pl -' (t -' ph)) K2. apply AP_zero in K2; [|ring]. set (d := pl -' (t -' ph)) in *. clearbody d. clear K1.
  apx f32 1 (t *' rs_powf_LG2_H) KU. set (u := t *' rs_powf_LG2_H) in *. clearbody u.
  apx f32 1 ((d *' rs_powf_LG2) +' (t *' rs_powf_LG2_L)) KV. set (v := (d *' rs_powf_LG2) +' (t *' rs_powf_LG2_L)) in *. clearbody v.
  apx f32 1 (u +' v) KZ. set (z := u +' v) in *. clearbody z.
  lazymatch type of KV with AP _ _ _ ?V (?l, ?h, _) => assert (RV : fxr l <= V <= fxr h) by exact (proj1 (proj2 KV)) end.
  apx f32 1 (z -' u) K1. lazymatch type of KV with AP _ _ _ ?V (?l, ?h, _) => apply (AP_is _ _ _ _ V _ _ _ l h) in K1; [|ring|exact RV] end.
  apx f32 1 (v -' (z -' u)) KW. apply AP_zero in KW; [|ring]. set (w := v -' (z -' u)) in *. clearbody w. clear K1.
  apply (AP_IN _ _ _ _ 0xbecccccd 0x3ecccccd) in KZ; [|vm_compute; reflexivity]. apply (AP_IN _ _ _ _ 0xbcf5c28f 0x3cf5c28f) in KW; [|vm_compute; reflexivity].
  clear HP HH KT K2 KU KV RV.
  ivl f32 (z *' z) KQ. set (t4 := z *' z) in *. clearbody t4.
  ivl f32 (z -' (t4 *' (rs_powf_P1 +' (t4 *' (rs_powf_P2 +' (t4 *' (rs_powf_P3 +' (t4 *' (rs_powf_P4 +' (t4 *' rs_powf_P5)))))))))) KT1.
  set (t1 := z -' (t4 *' (rs_powf_P1 +' (t4 *' (rs_powf_P2 +' (t4 *' (rs_powf_P3 +' (t4 *' (rs_powf_P4 +' (t4 *' rs_powf_P5)))))))))) in *. clearbody t1.
  ivl f32 (z *' t1) KN. assert (KN' : IN f32 (Format.fneg f32 0x3e800000, 0x3e800000)%Z (z *' t1)) by inw KN. ivl f32 (t1 -' 0x40000000) KD.
  assert (KD' : IN f32 (0xc0800000, 0xbf800000)%Z (t1 -' 0x40000000)) by inw KD. 
  assert (KR : IN f32 (Format.fneg f32 0x3e800000, 0x3e800000)%Z ((z *' t1) /' (t1 -' 0x40000000))).
  { destruct KD' as (Bd & Fd & Rd). cbn [fst snd] in Rd. apply IN_div1; [exact KN'|vm_compute; reflexivity|vm_compute; split; [discriminate|reflexivity]|exact Fd|].
    assert (V1 : val f32 0xbf800000 = -1 / 1) by lit. rewrite V1 in Rd. rewrite Rabs_left1; lra. }
  set (q := (z *' t1) /' (t1 -' 0x40000000)) in *. clearbody q. clear KN KN' KD KD'.
  ivl f32 (0x3f800000 -' ((q -' (w +' (z *' w))) -' z)) KF. inw KF.
Qed.

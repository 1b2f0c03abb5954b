(** [pow] and [powf] of an argument near one with a huge exponent. *)
From Coq Require Import ZArith Reals Lia Lra Bool List Psatz.
From Flocq Require Import Core Sterbenz.
From Verif Require Import Base Spec Format P_format Ieee P_ieee P_real P_neg P_key P_elem P_elem2 P_tot P_lit P_err P_apx P_ival P_ival2 P_powt P_powt2 P_powt3 P_powt4 P_powt5 P_powt6 P_powt7 P_powt8 M_basic M_scalbn M_elib M_pow.
Open Scope R_scope.
Open Scope fl_scope.
Local Opaque fadd fsub fmul fdiv of_int.

Lemma near64P s rho t w u v t1 t2 : w = (t *: t) *: (0x3fe0000000000000 -: (t *: (0x3fd5555555555555 -: (t *: 0x3fd0000000000000)))) -> u = rs_pow_IVLN2_H *: t -> v = (t *: rs_pow_IVLN2_L) -: (w *: rs_pow_IVLN2) -> t1 = trc 32 (u +: v) -> t2 = v -: (t1 -: u) ->
  / 9007199254740992 <= s <= / 1048576 -> rho = 1 -> isbits f64 t -> finite f64 t = true -> val f64 t = s * rho ->
  finite f64 t1 = true /\ finite f64 t2 = true /\ s * 1.4 <= Rabs (val f64 t1) <= s * 1.5 /\ Rabs (val f64 t2) <= s * 0.00001.
Proof.
  intros E1 E2 E3 E4 E5 HS HR BT FT VT.
  assert (SC0 : scal f64 s 1). { split; [lra|]. split; [lia|]. apply Rle_trans with (/ 9007199254740992 * fxr 1). { change (bpow radix2 (emin f64 - 1)) with (bpow radix2 (-53 + -1022)). rewrite bpow_plus. change (bpow radix2 (-53)) with (/ 9007199254740992). apply Rmult_le_compat_l; [lra|]. unfold fxr, SC, Rdiv. rewrite Rmult_1_l. rewrite (IZR_Zpower radix2 200 ltac:(lia) : IZR (2 ^ 200) = _). rewrite <- bpow_opp. apply bpow_le. lia. } apply Rmult_le_compat_r; [apply fxr_pos; lia|lra]. }
  assert (HT : AP f64 s t rho (1048576 * 2 ^ 180, 1048576 * 2 ^ 180, 0)%Z) by (split; [split; assumption|]; rewrite VT, !fx20, fxr_0; split; [lra|replace (_ - _) with 0 by ring; rewrite Rabs_R0; lra]).
  epose proof (AP_un f64 s (1 * 2 ^ 180) _ _ _ _ ltac:(lra) ltac:(rewrite fx20; lra) HT ltac:(cbn; lia) ltac:(vmr)) as HT1.
  apx f64 s (t *: t) K1. apx f64 1 (0x3fe0000000000000 -: (t *: (0x3fd5555555555555 -: (t *: 0x3fd0000000000000)))) K2. apx f64 s ((t *: t) *: (0x3fe0000000000000 -: (t *: (0x3fd5555555555555 -: (t *: 0x3fd0000000000000))))) KW. rewrite <- E1 in KW. clear E1 K1 K2.
  apx f64 s (rs_pow_IVLN2_H *: t) KU. rewrite <- E2 in KU. clear E2.
  apx f64 s ((t *: rs_pow_IVLN2_L) -: (w *: rs_pow_IVLN2)) KV. rewrite <- E3 in KV. clear E3 KW.
  lazymatch type of KV with AP _ _ _ ?R (?l, ?h, ?e) => assert (RV : fxr l <= R <= fxr h) by exact (proj1 (proj2 KV)); set (rv := R) in * end. clearbody rv.
  apx f64 s (u +: v) K1. epose proof (AP_trc f64 s _ 32 _ _ _ _ SC0 ltac:(cbn; lia) K1 ltac:(vmr)) as KT1. rewrite <- E4 in KT1. clear E4 K1.
  apx f64 s (t1 -: u) K1. lazymatch type of KV with AP _ _ _ _ (?l, ?h, ?e) => apply (AP_is _ _ _ _ rv _ _ _ l h) in K1; [|ring|exact RV] end.
  apx f64 s (v -: (t1 -: u)) KT2. apply AP_zero in KT2; [|ring]. rewrite <- E5 in KT2. clear E5 K1 RV.
  split; [exact (AP_fin _ _ _ _ _ KT1)|]. split; [exact (AP_fin _ _ _ _ _ KT2)|]. split.
  - destruct KT1 as (_ & R1 & R2). apply Rabs_le_inv in R2.
    lazymatch type of R1 with fxr ?l <= ?z <= fxr ?h => lazymatch type of R2 with _ <= _ <= s * fxr ?e => assert (A1 : 142 / 100 <= z) by (eapply Rle_trans; [apply (fx_dn l (142) 100); vm_compute; reflexivity|apply R1]); assert (A2 : z <= 146 / 100) by (eapply Rle_trans; [apply R1|apply (fx_up h (146) 100); vm_compute; reflexivity]); assert (A3 : fxr e <= 1 / 100) by (apply (fx_up e 1 100); vm_compute; reflexivity); set (zz := z) in *; set (ee := fxr e) in *; clearbody zz ee end end. assert (0 < s) by lra. assert (s * ee <= s * (1 / 100)) by (apply Rmult_le_compat_l; lra). assert (s * (142 / 100) <= s * zz <= s * (146 / 100)) by (split; apply Rmult_le_compat_l; lra).
    rewrite Rabs_pos_eq; lra.
  - pose proof (AP_ev _ _ _ _ _ (ltac:(lra) : 0 < s) KT2) as Q. eapply Rle_trans; [exact Q|]. apply Rmult_le_compat_l; [lra|]. rewrite <- fxr_add. eapply Rle_trans; [apply (fx_up _ 1 100000); vm_compute; reflexivity|lra].
Qed.

Lemma near64N s rho t w u v t1 t2 : w = (t *: t) *: (0x3fe0000000000000 -: (t *: (0x3fd5555555555555 -: (t *: 0x3fd0000000000000)))) -> u = rs_pow_IVLN2_H *: t -> v = (t *: rs_pow_IVLN2_L) -: (w *: rs_pow_IVLN2) -> t1 = trc 32 (u +: v) -> t2 = v -: (t1 -: u) ->
  / 9007199254740992 <= s <= / 1048576 -> rho = -1 -> isbits f64 t -> finite f64 t = true -> val f64 t = s * rho ->
  finite f64 t1 = true /\ finite f64 t2 = true /\ s * 1.4 <= Rabs (val f64 t1) <= s * 1.5 /\ Rabs (val f64 t2) <= s * 0.00001.
Proof.
  intros E1 E2 E3 E4 E5 HS HR BT FT VT.
  assert (SC0 : scal f64 s 1). { split; [lra|]. split; [lia|]. apply Rle_trans with (/ 9007199254740992 * fxr 1). { change (bpow radix2 (emin f64 - 1)) with (bpow radix2 (-53 + -1022)). rewrite bpow_plus. change (bpow radix2 (-53)) with (/ 9007199254740992). apply Rmult_le_compat_l; [lra|]. unfold fxr, SC, Rdiv. rewrite Rmult_1_l. rewrite (IZR_Zpower radix2 200 ltac:(lia) : IZR (2 ^ 200) = _). rewrite <- bpow_opp. apply bpow_le. lia. } apply Rmult_le_compat_r; [apply fxr_pos; lia|lra]. }
  assert (HT : AP f64 s t rho (-1048576 * 2 ^ 180, -1048576 * 2 ^ 180, 0)%Z) by (split; [split; assumption|]; rewrite VT, !fx20, fxr_0; split; [lra|replace (_ - _) with 0 by ring; rewrite Rabs_R0; lra]).
  epose proof (AP_un f64 s (1 * 2 ^ 180) _ _ _ _ ltac:(lra) ltac:(rewrite fx20; lra) HT ltac:(cbn; lia) ltac:(vmr)) as HT1.
  apx f64 s (t *: t) K1. apx f64 1 (0x3fe0000000000000 -: (t *: (0x3fd5555555555555 -: (t *: 0x3fd0000000000000)))) K2. apx f64 s ((t *: t) *: (0x3fe0000000000000 -: (t *: (0x3fd5555555555555 -: (t *: 0x3fd0000000000000))))) KW. rewrite <- E1 in KW. clear E1 K1 K2.
  apx f64 s (rs_pow_IVLN2_H *: t) KU. rewrite <- E2 in KU. clear E2.
  apx f64 s ((t *: rs_pow_IVLN2_L) -: (w *: rs_pow_IVLN2)) KV. rewrite <- E3 in KV. clear E3 KW.
  lazymatch type of KV with AP _ _ _ ?R (?l, ?h, ?e) => assert (RV : fxr l <= R <= fxr h) by exact (proj1 (proj2 KV)); set (rv := R) in * end. clearbody rv.
  apx f64 s (u +: v) K1. epose proof (AP_trc f64 s _ 32 _ _ _ _ SC0 ltac:(cbn; lia) K1 ltac:(vmr)) as KT1. rewrite <- E4 in KT1. clear E4 K1.
  apx f64 s (t1 -: u) K1. lazymatch type of KV with AP _ _ _ _ (?l, ?h, ?e) => apply (AP_is _ _ _ _ rv _ _ _ l h) in K1; [|ring|exact RV] end.
  apx f64 s (v -: (t1 -: u)) KT2. apply AP_zero in KT2; [|ring]. rewrite <- E5 in KT2. clear E5 K1 RV.
  split; [exact (AP_fin _ _ _ _ _ KT1)|]. split; [exact (AP_fin _ _ _ _ _ KT2)|]. split.
  - destruct KT1 as (_ & R1 & R2). apply Rabs_le_inv in R2.
    lazymatch type of R1 with fxr ?l <= ?z <= fxr ?h => lazymatch type of R2 with _ <= _ <= s * fxr ?e => assert (A1 : -146 / 100 <= z) by (eapply Rle_trans; [apply (fx_dn l (-146) 100); vm_compute; reflexivity|apply R1]); assert (A2 : z <= -142 / 100) by (eapply Rle_trans; [apply R1|apply (fx_up h (-142) 100); vm_compute; reflexivity]); assert (A3 : fxr e <= 1 / 100) by (apply (fx_up e 1 100); vm_compute; reflexivity); set (zz := z) in *; set (ee := fxr e) in *; clearbody zz ee end end. assert (0 < s) by lra. assert (s * ee <= s * (1 / 100)) by (apply Rmult_le_compat_l; lra). assert (s * (-146 / 100) <= s * zz <= s * (-142 / 100)) by (split; apply Rmult_le_compat_l; lra).
    rewrite Rabs_left1; lra.
  - pose proof (AP_ev _ _ _ _ _ (ltac:(lra) : 0 < s) KT2) as Q. eapply Rle_trans; [exact Q|]. apply Rmult_le_compat_l; [lra|]. rewrite <- fxr_add. eapply Rle_trans; [apply (fx_up _ 1 100000); vm_compute; reflexivity|lra].
Qed.

Lemma near64 y s ax t w u v t1 t2 : t = ax -: 0x3ff0000000000000 -> w = (t *: t) *: (0x3fe0000000000000 -: (t *: (0x3fd5555555555555 -: (t *: 0x3fd0000000000000)))) -> u = rs_pow_IVLN2_H *: t -> v = (t *: rs_pow_IVLN2_L) -: (w *: rs_pow_IVLN2) -> t1 = with_set_low_word (u +: v) 0 -> t2 = v -: (t1 -: u) ->
  isbits f64 y -> finite f64 y = true -> Rabs (val f64 y) <= bpow radix2 65 -> finite f64 ax = true -> / 9007199254740992 <= Rabs (val f64 ax - 1) <= / 1048576 -> OKo f64 (rs_pow_4 y t1 t2 s).
Proof.
  intros E0 E1 E2 E3 E4 E5 BY FY YB FX RX. rewrite wsl in E4 by apply fadd_isbits.
  assert (V1 : val f64 0x3ff0000000000000 = 1) by apply val164. assert (RX' : -0.001 <= val f64 ax - 1 <= 0.001) by (destruct RX as [_ RX]; apply Rabs_le_inv in RX; lra).
  destruct (sub_exact f64 ax 0x3ff0000000000000 FX ltac:(vm_compute; reflexivity) ltac:(rewrite V1; lra)) as [FU VU]. rewrite <- E0 in FU, VU. rewrite V1 in VU. assert (BT : isbits f64 t) by (rewrite E0; apply fsub_isbits). clear E0.
  set (sg := Rabs (val f64 ax - 1)) in *.
  assert (G : finite f64 t1 = true /\ finite f64 t2 = true /\ sg * 1.4 <= Rabs (val f64 t1) <= sg * 1.5 /\ Rabs (val f64 t2) <= sg * 0.00001).
  { destruct (Rle_lt_dec 0 (val f64 ax - 1)) as [C|C].
    - apply (near64P sg 1 t w u v t1 t2); try assumption; try reflexivity. rewrite VU. unfold sg. rewrite Rabs_pos_eq by assumption. ring.
    - apply (near64N sg (-1) t w u v t1 t2); try assumption; try reflexivity. rewrite VU. unfold sg. rewrite Rabs_left1 by lra. ring. }
  destruct G as (F1 & F2 & [H1 H2] & H3). clearbody sg.
  apply (pow4_tot y t1 t2 s (/ 8192)); try assumption; [lra| |lra|].
  - lra.
  - apply Rle_trans with (bpow radix2 65 * bpow radix2 (-18)); [|rewrite <- bpow_plus; apply bpow_le; lia]. apply Rmult_le_compat; try apply Rabs_pos; [exact YB|]. change (bpow radix2 (-18)) with (/ 262144). lra.
Qed.

Lemma near32P s rho t w u v t1 t2 : w = (t *' t) *' (0x3f000000 -' (t *' (0x3eaaaaab -' (t *' 0x3e800000)))) -> u = rs_powf_IVLN2_H *' t -> v = (t *' rs_powf_IVLN2_L) -' (w *' rs_powf_IVLN2) -> t1 = trc 12 (u +' v) -> t2 = v -' (t1 -' u) ->
  / 16777216 <= s <= / 1048576 -> rho = 1 -> isbits f32 t -> finite f32 t = true -> val f32 t = s * rho ->
  finite f32 t1 = true /\ finite f32 t2 = true /\ s * 1.4 <= Rabs (val f32 t1) <= s * 1.5 /\ Rabs (val f32 t2) <= s * 0.0012.
Proof.
  intros E1 E2 E3 E4 E5 HS HR BT FT VT.
  assert (SC0 : scal f32 s (2 ^ 75)). { split; [lra|]. split; [lia|]. apply Rle_trans with (/ 16777216 * fxr (2 ^ 75)). { change (bpow radix2 (emin f32 - 1)) with (bpow radix2 (-24 + -126)). rewrite bpow_plus. change (bpow radix2 (-24)) with (/ 16777216). apply Rmult_le_compat_l; [lra|]. unfold fxr, SC, Rdiv. rewrite (IZR_Zpower radix2 200 ltac:(lia) : IZR (2 ^ 200) = _), (IZR_Zpower radix2 75 ltac:(lia) : IZR (2 ^ 75) = _). rewrite <- bpow_opp, <- bpow_plus. apply bpow_le. lia. } apply Rmult_le_compat_r; [apply fxr_pos; lia|lra]. }
  assert (HT : AP f32 s t rho (1048576 * 2 ^ 180, 1048576 * 2 ^ 180, 0)%Z) by (split; [split; assumption|]; rewrite VT, !fx20, fxr_0; split; [lra|replace (_ - _) with 0 by ring; rewrite Rabs_R0; lra]).
  epose proof (AP_un f32 s (1 * 2 ^ 180) _ _ _ _ ltac:(lra) ltac:(rewrite fx20; lra) HT ltac:(cbn; lia) ltac:(vmr)) as HT1.
  apx f32 s (t *' t) K1. apx f32 1 (0x3f000000 -' (t *' (0x3eaaaaab -' (t *' 0x3e800000)))) K2. apx f32 s ((t *' t) *' (0x3f000000 -' (t *' (0x3eaaaaab -' (t *' 0x3e800000))))) KW. rewrite <- E1 in KW. clear E1 K1 K2.
  apx f32 s (rs_powf_IVLN2_H *' t) KU. rewrite <- E2 in KU. clear E2.
  apx f32 s ((t *' rs_powf_IVLN2_L) -' (w *' rs_powf_IVLN2)) KV. rewrite <- E3 in KV. clear E3 KW.
  lazymatch type of KV with AP _ _ _ ?R (?l, ?h, ?e) => assert (RV : fxr l <= R <= fxr h) by exact (proj1 (proj2 KV)); set (rv := R) in * end. clearbody rv.
  apx f32 s (u +' v) K1. epose proof (AP_trc f32 s _ 12 _ _ _ _ SC0 ltac:(cbn; lia) K1 ltac:(vmr)) as KT1. rewrite <- E4 in KT1. clear E4 K1.
  apx f32 s (t1 -' u) K1. lazymatch type of KV with AP _ _ _ _ (?l, ?h, ?e) => apply (AP_is _ _ _ _ rv _ _ _ l h) in K1; [|ring|exact RV] end.
  apx f32 s (v -' (t1 -' u)) KT2. apply AP_zero in KT2; [|ring]. rewrite <- E5 in KT2. clear E5 K1 RV.
  split; [exact (AP_fin _ _ _ _ _ KT1)|]. split; [exact (AP_fin _ _ _ _ _ KT2)|]. split.
  - destruct KT1 as (_ & R1 & R2). apply Rabs_le_inv in R2.
    lazymatch type of R1 with fxr ?l <= ?z <= fxr ?h => lazymatch type of R2 with _ <= _ <= s * fxr ?e => assert (A1 : 142 / 100 <= z) by (eapply Rle_trans; [apply (fx_dn l (142) 100); vm_compute; reflexivity|apply R1]); assert (A2 : z <= 146 / 100) by (eapply Rle_trans; [apply R1|apply (fx_up h (146) 100); vm_compute; reflexivity]); assert (A3 : fxr e <= 1 / 100) by (apply (fx_up e 1 100); vm_compute; reflexivity); set (zz := z) in *; set (ee := fxr e) in *; clearbody zz ee end end. assert (0 < s) by lra. assert (s * ee <= s * (1 / 100)) by (apply Rmult_le_compat_l; lra). assert (s * (142 / 100) <= s * zz <= s * (146 / 100)) by (split; apply Rmult_le_compat_l; lra).
    rewrite Rabs_pos_eq; lra.
  - pose proof (AP_ev _ _ _ _ _ (ltac:(lra) : 0 < s) KT2) as Q. eapply Rle_trans; [exact Q|]. apply Rmult_le_compat_l; [lra|]. rewrite <- fxr_add. eapply Rle_trans; [apply (fx_up _ 12 10000); vm_compute; reflexivity|lra].
Qed.

Lemma near32N s rho t w u v t1 t2 : w = (t *' t) *' (0x3f000000 -' (t *' (0x3eaaaaab -' (t *' 0x3e800000)))) -> u = rs_powf_IVLN2_H *' t -> v = (t *' rs_powf_IVLN2_L) -' (w *' rs_powf_IVLN2) -> t1 = trc 12 (u +' v) -> t2 = v -' (t1 -' u) ->
  / 16777216 <= s <= / 1048576 -> rho = -1 -> isbits f32 t -> finite f32 t = true -> val f32 t = s * rho ->
  finite f32 t1 = true /\ finite f32 t2 = true /\ s * 1.4 <= Rabs (val f32 t1) <= s * 1.5 /\ Rabs (val f32 t2) <= s * 0.0012.
Proof.
  intros E1 E2 E3 E4 E5 HS HR BT FT VT.
  assert (SC0 : scal f32 s (2 ^ 75)). { split; [lra|]. split; [lia|]. apply Rle_trans with (/ 16777216 * fxr (2 ^ 75)). { change (bpow radix2 (emin f32 - 1)) with (bpow radix2 (-24 + -126)). rewrite bpow_plus. change (bpow radix2 (-24)) with (/ 16777216). apply Rmult_le_compat_l; [lra|]. unfold fxr, SC, Rdiv. rewrite (IZR_Zpower radix2 200 ltac:(lia) : IZR (2 ^ 200) = _), (IZR_Zpower radix2 75 ltac:(lia) : IZR (2 ^ 75) = _). rewrite <- bpow_opp, <- bpow_plus. apply bpow_le. lia. } apply Rmult_le_compat_r; [apply fxr_pos; lia|lra]. }
  assert (HT : AP f32 s t rho (-1048576 * 2 ^ 180, -1048576 * 2 ^ 180, 0)%Z) by (split; [split; assumption|]; rewrite VT, !fx20, fxr_0; split; [lra|replace (_ - _) with 0 by ring; rewrite Rabs_R0; lra]).
  epose proof (AP_un f32 s (1 * 2 ^ 180) _ _ _ _ ltac:(lra) ltac:(rewrite fx20; lra) HT ltac:(cbn; lia) ltac:(vmr)) as HT1.
  apx f32 s (t *' t) K1. apx f32 1 (0x3f000000 -' (t *' (0x3eaaaaab -' (t *' 0x3e800000)))) K2. apx f32 s ((t *' t) *' (0x3f000000 -' (t *' (0x3eaaaaab -' (t *' 0x3e800000))))) KW. rewrite <- E1 in KW. clear E1 K1 K2.
  apx f32 s (rs_powf_IVLN2_H *' t) KU. rewrite <- E2 in KU. clear E2.
  apx f32 s ((t *' rs_powf_IVLN2_L) -' (w *' rs_powf_IVLN2)) KV. rewrite <- E3 in KV. clear E3 KW.
  lazymatch type of KV with AP _ _ _ ?R (?l, ?h, ?e) => assert (RV : fxr l <= R <= fxr h) by exact (proj1 (proj2 KV)); set (rv := R) in * end. clearbody rv.
  apx f32 s (u +' v) K1. epose proof (AP_trc f32 s _ 12 _ _ _ _ SC0 ltac:(cbn; lia) K1 ltac:(vmr)) as KT1. rewrite <- E4 in KT1. clear E4 K1.
  apx f32 s (t1 -' u) K1. lazymatch type of KV with AP _ _ _ _ (?l, ?h, ?e) => apply (AP_is _ _ _ _ rv _ _ _ l h) in K1; [|ring|exact RV] end.
  apx f32 s (v -' (t1 -' u)) KT2. apply AP_zero in KT2; [|ring]. rewrite <- E5 in KT2. clear E5 K1 RV.
  split; [exact (AP_fin _ _ _ _ _ KT1)|]. split; [exact (AP_fin _ _ _ _ _ KT2)|]. split.
  - destruct KT1 as (_ & R1 & R2). apply Rabs_le_inv in R2.
    lazymatch type of R1 with fxr ?l <= ?z <= fxr ?h => lazymatch type of R2 with _ <= _ <= s * fxr ?e => assert (A1 : -146 / 100 <= z) by (eapply Rle_trans; [apply (fx_dn l (-146) 100); vm_compute; reflexivity|apply R1]); assert (A2 : z <= -142 / 100) by (eapply Rle_trans; [apply R1|apply (fx_up h (-142) 100); vm_compute; reflexivity]); assert (A3 : fxr e <= 1 / 100) by (apply (fx_up e 1 100); vm_compute; reflexivity); set (zz := z) in *; set (ee := fxr e) in *; clearbody zz ee end end. assert (0 < s) by lra. assert (s * ee <= s * (1 / 100)) by (apply Rmult_le_compat_l; lra). assert (s * (-146 / 100) <= s * zz <= s * (-142 / 100)) by (split; apply Rmult_le_compat_l; lra).
    rewrite Rabs_left1; lra.
  - pose proof (AP_ev _ _ _ _ _ (ltac:(lra) : 0 < s) KT2) as Q. eapply Rle_trans; [exact Q|]. apply Rmult_le_compat_l; [lra|]. rewrite <- fxr_add. eapply Rle_trans; [apply (fx_up _ 12 10000); vm_compute; reflexivity|lra].
Qed.

Lemma near32 y s ax t w u v t1 t2 : t = ax -' 0x3f800000 -> w = (t *' t) *' (0x3f000000 -' (t *' (0x3eaaaaab -' (t *' 0x3e800000)))) -> u = rs_powf_IVLN2_H *' t -> v = (t *' rs_powf_IVLN2_L) -' (w *' rs_powf_IVLN2) -> t1 = Z.land (to_u 32 (to_i 32 (u +' v))) 0xfffff000 -> t2 = v -' (t1 -' u) ->
  isbits f32 y -> finite f32 y = true -> Rabs (val f32 y) <= bpow radix2 128 -> finite f32 ax = true -> / 16777216 <= Rabs (val f32 ax - 1) <= / 1048576 -> OKo f32 (rs_powf_2 y t1 t2 s).
Proof.
  intros E0 E1 E2 E3 E4 E5 BY FY YB FX RX. rewrite trc12 in E4 by apply fadd_isbits.
  assert (V1 : val f32 0x3f800000 = 1) by apply val132. assert (RX' : -0.001 <= val f32 ax - 1 <= 0.001) by (destruct RX as [_ RX]; apply Rabs_le_inv in RX; lra).
  destruct (sub_exact f32 ax 0x3f800000 FX ltac:(vm_compute; reflexivity) ltac:(rewrite V1; lra)) as [FU VU]. rewrite <- E0 in FU, VU. rewrite V1 in VU. assert (BT : isbits f32 t) by (rewrite E0; apply fsub_isbits). clear E0.
  set (sg := Rabs (val f32 ax - 1)) in *.
  assert (G : finite f32 t1 = true /\ finite f32 t2 = true /\ sg * 1.4 <= Rabs (val f32 t1) <= sg * 1.5 /\ Rabs (val f32 t2) <= sg * 0.0012).
  { destruct (Rle_lt_dec 0 (val f32 ax - 1)) as [C|C].
    - apply (near32P sg 1 t w u v t1 t2); try assumption; try reflexivity. rewrite VU. unfold sg. rewrite Rabs_pos_eq by assumption. ring.
    - apply (near32N sg (-1) t w u v t1 t2); try assumption; try reflexivity. rewrite VU. unfold sg. rewrite Rabs_left1 by lra. ring. }
  destruct G as (F1 & F2 & [H1 H2] & H3). clearbody sg.
  apply (powf2_tot y t1 t2 s (/ 1000)); try assumption; [lra| |lra|].
  - lra.
  - apply Rle_trans with (bpow radix2 128 * bpow radix2 (-18)); [|rewrite <- bpow_plus; apply bpow_le; lia]. apply Rmult_le_compat; try apply Rabs_pos; [exact YB|]. change (bpow radix2 (-18)) with (/ 262144). lra.
Qed.

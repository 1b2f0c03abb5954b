(** The logarithm of [pow] and [powf], the part common to all arguments: bounds on the head and the tail. *)
From Coq Require Import ZArith Reals Lia Lra Bool List Psatz.
From Flocq Require Import Core.
From Verif Require Import Base Spec Format P_format Ieee P_ieee P_real P_neg P_key P_elem P_lit P_err P_apx P_ival P_ival2 P_powt P_powt2 P_powt3 M_basic M_elib M_pow.
Open Scope R_scope.
Open Scope fl_scope.
Local Opaque fadd fsub fmul fdiv.

Lemma isb F c : ((0 <=? c) && (c <? 2 ^ width F))%Z = true -> isbits F c.
Proof. intros H. apply andb_prop in H as [H1 H2]. split; [now apply Z.leb_le|now apply Z.ltb_lt]. Qed.
Lemma val164 : val f64 0x3ff0000000000000 = 1. Proof. assert (V : val f64 0x3ff0000000000000 = 1 / 1) by lit. lra. Qed.
Lemma val132 : val f32 0x3f800000 = 1. Proof. assert (V : val f32 0x3f800000 = 1 / 1) by lit. lra. Qed.
(** comparisons of a fixed-point number with a fraction *)
Lemma fx_up z n d : ((0 <? d) && (z * d <=? n * SC))%Z = true -> fxr z <= IZR n / IZR d.
Proof.
  intros H. apply andb_prop in H as [H1 H2]. apply Z.ltb_lt in H1. apply Z.leb_le in H2. apply IZR_le in H2. rewrite !mult_IZR in H2. apply (IZR_lt 0) in H1. pose proof SC_pos. unfold fxr.
  apply Rmult_le_reg_r with (IZR SC * IZR d); [nra|]. replace (IZR z / IZR SC * (IZR SC * IZR d)) with (IZR z * IZR d) by (field; lra). replace (IZR n / IZR d * (IZR SC * IZR d)) with (IZR n * IZR SC) by (field; lra). exact H2.
Qed.
Lemma fx_dn z n d : ((0 <? d) && (n * SC <=? z * d))%Z = true -> IZR n / IZR d <= fxr z.
Proof.
  intros H. apply andb_prop in H as [H1 H2]. apply Z.ltb_lt in H1. apply Z.leb_le in H2. apply IZR_le in H2. rewrite !mult_IZR in H2. apply (IZR_lt 0) in H1. pose proof SC_pos. unfold fxr.
  apply Rmult_le_reg_r with (IZR SC * IZR d); [nra|]. replace (IZR z / IZR SC * (IZR SC * IZR d)) with (IZR z * IZR d) by (field; lra). replace (IZR n / IZR d * (IZR SC * IZR d)) with (IZR n * IZR SC) by (field; lra). exact H2.
Qed.
Lemma lg64A s rho X ax th u v ss sh tl sl s2 r r' s21 th1 tl1 u2 v2 ph pl zh zl : let bp := 0x3ff0000000000000%Z in u = ax -: bp -> v = 0x3ff0000000000000 /: (ax +: bp) -> ss = u *: v -> sh = trc 32 ss -> tl = ax -: (th -: bp) -> sl = v *: ((u -: (sh *: th)) -: (sh *: tl)) -> s2 = ss *: ss ->
  r = (s2 *: s2) *: (rs_pow_L1 +: (s2 *: (rs_pow_L2 +: (s2 *: (rs_pow_L3 +: (s2 *: (rs_pow_L4 +: (s2 *: (rs_pow_L5 +: (s2 *: rs_pow_L6)))))))))) -> r' = r +: (sl *: (sh +: ss)) -> s21 = sh *: sh ->
  th1 = trc 32 ((0x4008000000000000 +: s21) +: r') -> tl1 = r' -: ((th1 -: 0x4008000000000000) -: s21) -> u2 = sh *: th1 -> v2 = (sl *: th1) +: (tl1 *: ss) -> ph = trc 32 (u2 +: v2) -> pl = v2 -: (ph -: u2) -> zh = rs_pow_CP_H *: ph -> zl = (rs_pow_CP_L *: ph) +: (pl *: rs_pow_CP) ->
  / 9007199254740992 <= s <= 0.2248 -> rho = 1 -> isbits f64 ax -> finite f64 ax = true -> val f64 ax = X -> 1 <= X <= 1.2248 -> isbits f64 th -> finite f64 th = true -> Rabs (val f64 th - (X + 1)) <= 4 / 1048576 -> val f64 u = s * rho -> finite f64 u = true ->
  (isbits f64 zh /\ finite f64 zh = true) /\ (isbits f64 zl /\ finite f64 zl = true) /\ (s * 1.2 <= rho * val f64 zh <= s * 2.0) /\ Rabs (val f64 zl) <= s * 0.02.
Proof.
  intros bp E1 E2 E3 E4 E5 E6 E7 E8 E9 E10 E11 E12 E13 E14 E15 E16 E17 E18 HS HR BX FX VX RX BT FT VT VU FU.
  assert (HX : AP f64 1 ax X (1048576 * 2 ^ 180, 1284296 * 2 ^ 180, 0)%Z) by (rewrite <- VX; apply AP_ex; [assumption|assumption|]; rewrite VX, !fx20; lra).
  assert (HT : AP f64 1 th (X + 1) (2097152 * 2 ^ 180, 2332872 * 2 ^ 180, 4 * 2 ^ 180)%Z) by (split; [split; assumption|]; rewrite !Rmult_1_l, !fx20; split; [lra|exact VT]).
  assert (HB : AP f64 1 bp 1 (1048576 * 2 ^ 180, 1048576 * 2 ^ 180, 0)%Z) by (assert (VB : val f64 bp = 1 / 1) by lit; split; [split; [apply isb; vm_compute; reflexivity|vm_compute; reflexivity]|]; rewrite VB, !Rmult_1_l, !fx20, fxr_0; split; [lra|replace (_ - _) with 0 by lra; rewrite Rabs_R0; lra]).
  assert (BU : isbits f64 u) by (rewrite E1; apply fsub_isbits). clear E1.
  assert (SC0 : scal f64 s 1). { split; [lra|]. split; [lia|]. apply Rle_trans with (/ 9007199254740992 * fxr 1). { change (bpow radix2 (emin f64 - 1)) with (bpow radix2 (-53 + -1022)). rewrite bpow_plus. change (bpow radix2 (-53)) with (/ 9007199254740992). apply Rmult_le_compat_l; [lra|]. unfold fxr, SC, Rdiv. rewrite Rmult_1_l. rewrite (IZR_Zpower radix2 200 ltac:(lia) : IZR (2 ^ 200) = _). rewrite <- bpow_opp. apply bpow_le. lia. } apply Rmult_le_compat_r; [apply fxr_pos; lia|lra]. }
  assert (HU : AP f64 s u rho (1048576 * 2 ^ 180, 1048576 * 2 ^ 180, 0)%Z) by (split; [split; assumption|]; rewrite VU, !fx20, fxr_0; split; [lra|replace (_ - _) with 0 by ring; rewrite Rabs_R0; lra]).
  clear VU. clearbody bp.
  apx f64 1 (ax +: bp) KW0. apply (AP_is _ _ _ _ (X + 1) _ _ _ (2097152 * 2 ^ 180) (2332872 * 2 ^ 180)) in KW0; [|reflexivity|rewrite !fx20; lra].
  epose proof (AP_inv f64 ltac:(vm_compute; discriminate) _ 0x3ff0000000000000 _ _ _ _ scal64 ltac:(vm_compute; reflexivity) ltac:(apply val164) KW0 ltac:(vmr) ltac:(vmr)) as KV. rewrite <- E2 in KV. clear E2 KW0.
  apx f64 s (u *: v) KS. rewrite <- E3 in KS. clear E3.
  epose proof (AP_trc f64 s _ 32 _ _ _ _ SC0 ltac:(cbn; lia) KS ltac:(vmr)) as KH. rewrite <- E4 in KH. clear E4.
  apx f64 1 (th -: bp) K1. apply (AP_is _ _ _ _ X _ _ _ (1048576 * 2 ^ 180) (1284296 * 2 ^ 180)) in K1; [|ring|rewrite !fx20; lra]. apx f64 1 (ax -: (th -: bp)) KL. apply AP_zero in KL; [|ring]. rewrite <- E5 in KL. clear E5 K1.
  apx f64 s (u -: (sh *: th)) K1. apply AP_zero in K1; [|field; lra]. apx f64 s ((u -: (sh *: th)) -: (sh *: tl)) K2. apply AP_zero in K2; [|ring]. clear K1.
  set (dd := (u -: (sh *: th)) -: (sh *: tl)) in *. clearbody dd. apx f64 s (v *: dd) KSL. apply AP_zero in KSL; [|ring]. rewrite <- E6 in KSL. clear E6 K2 KL KV HU HT HB HX.
  epose proof (AP_un f64 s (235720 * 2 ^ 180) _ _ _ _ ltac:(lra) ltac:(rewrite fx20; lra) KS ltac:(cbn; lia) ltac:(vmr)) as KS1.
  epose proof (AP_un f64 s (235720 * 2 ^ 180) _ _ _ _ ltac:(lra) ltac:(rewrite fx20; lra) KH ltac:(cbn; lia) ltac:(vmr)) as KH1.
  epose proof (AP_un f64 s (235720 * 2 ^ 180) _ _ _ _ ltac:(lra) ltac:(rewrite fx20; lra) KSL ltac:(cbn; lia) ltac:(vmr)) as KSL1.
  apply AP_zero in KSL1; [|ring].
  apx f64 1 (ss *: ss) K2. rewrite <- E7 in K2. clear E7.
  apx f64 1 ((s2 *: s2) *: (rs_pow_L1 +: (s2 *: (rs_pow_L2 +: (s2 *: (rs_pow_L3 +: (s2 *: (rs_pow_L4 +: (s2 *: (rs_pow_L5 +: (s2 *: rs_pow_L6))))))))))) KR. rewrite <- E8 in KR. clear E8 K2.
  apx f64 1 (r +: (sl *: (sh +: ss))) KR'. rewrite <- E9 in KR'. clear E9 KR.
  apx f64 1 (sh *: sh) KQ. rewrite <- E10 in KQ. clear E10.
  lazymatch type of KR' with AP _ _ _ ?R (?l, ?h, ?e) => assert (RR : fxr l <= R <= fxr h) by exact (proj1 (proj2 KR')); set (rr := R) in * end. clearbody rr.
  lazymatch type of KQ with AP _ _ _ ?R (?l, ?h, ?e) => set (qq := R) in * end. clearbody qq.
  apx f64 1 ((0x4008000000000000 +: s21) +: r') K1. epose proof (AP_trc f64 1 _ 32 _ _ _ _ scal64 ltac:(cbn; lia) K1 ltac:(vmr)) as KT1. rewrite <- E11 in KT1. clear E11 K1.
  apx f64 1 ((th1 -: 0x4008000000000000) -: s21) K1. lazymatch type of KR' with AP _ _ _ ?R (?l, ?h, ?e) => apply (AP_is _ _ _ _ rr _ _ _ l h) in K1; [|ring|exact RR] end.
  apx f64 1 (r' -: ((th1 -: 0x4008000000000000) -: s21)) KTL. apply AP_zero in KTL; [|ring]. rewrite <- E12 in KTL. clear E12 K1 KR' KQ.
  lazymatch type of KT1 with AP _ _ _ ?R (?l, ?h, ?e) => set (tt := R) in * end. clearbody tt. clear RR.
  apx f64 s (sh *: th1) KU2. rewrite <- E13 in KU2. clear E13.
  apx f64 s (sl *: th1) K1. apply AP_zero in K1; [|ring]. apx f64 s (tl1 *: ss) K2. apply AP_zero in K2; [|ring]. set (m1 := sl *: th1) in *. set (m2 := tl1 *: ss) in *. clearbody m1 m2.
  apx f64 s (m1 +: m2) KV2. apply AP_zero in KV2; [|ring]. rewrite <- E14 in KV2. clear E14 K1 K2 KT1 KTL.
  apx f64 s (u2 +: v2) K1. epose proof (AP_trc f64 s _ 32 _ _ _ _ SC0 ltac:(cbn; lia) K1 ltac:(vmr)) as KP. rewrite <- E15 in KP. clear E15 K1.
  apx f64 s (ph -: u2) K1. apply AP_zero in K1; [|ring]. apx f64 s (v2 -: (ph -: u2)) KPL. apply AP_zero in KPL; [|ring]. rewrite <- E16 in KPL. clear E16 K1 KV2.
  lazymatch type of KP with AP _ _ _ ?R (?l, ?h, ?e) => set (pp := R) in * end. clearbody pp.
  apx f64 s (rs_pow_CP_H *: ph) KZH. rewrite <- E17 in KZH. clear E17.
  apx f64 s (rs_pow_CP_L *: ph) K1. apx f64 s (pl *: rs_pow_CP) K2. apply AP_zero in K2; [|ring]. apx f64 s ((rs_pow_CP_L *: ph) +: (pl *: rs_pow_CP)) KZL. rewrite <- E18 in KZL. clear E18 K1 K2.
  pose proof (AP_bits _ _ _ _ _ KZH) as Q1. pose proof (AP_fin _ _ _ _ _ KZH) as Q2. pose proof (AP_bits _ _ _ _ _ KZL) as Q3. pose proof (AP_fin _ _ _ _ _ KZL) as Q4. pose proof (AP_ev _ _ _ _ _ (ltac:(lra) : 0 < s) KZL) as Q5.
  split; [now split|]. split; [now split|]. split.
  - destruct KZH as (_ & R1 & R2). apply Rabs_le_inv in R2. rewrite HR. lazymatch type of R1 with fxr ?l <= ?z <= fxr ?h => lazymatch type of R2 with _ <= _ <= s * fxr ?e => assert (A1 : 125 / 100 <= z) by (eapply Rle_trans; [apply (fx_dn l (125) 100); vm_compute; reflexivity|apply R1]); assert (A2 : z <= 195 / 100) by (eapply Rle_trans; [apply R1|apply (fx_up h (195) 100); vm_compute; reflexivity]); assert (A3 : fxr e <= 1 / 100) by (apply (fx_up e 1 100); vm_compute; reflexivity); set (zz := z) in *; set (ee := fxr e) in *; clearbody zz ee end end. assert (0 < s) by lra. assert (s * ee <= s * (1 / 100)) by (apply Rmult_le_compat_l; lra). assert (s * (125 / 100) <= s * zz <= s * (195 / 100)) by (split; apply Rmult_le_compat_l; lra). lra.
  - eapply Rle_trans; [exact Q5|]. apply Rmult_le_compat_l; [lra|]. rewrite <- fxr_add. eapply Rle_trans; [apply (fx_up _ 2 100); vm_compute; reflexivity|lra].
Qed.

Lemma lg64B s rho X ax th u v ss sh tl sl s2 r r' s21 th1 tl1 u2 v2 ph pl zh zl : let bp := 0x3ff0000000000000%Z in u = ax -: bp -> v = 0x3ff0000000000000 /: (ax +: bp) -> ss = u *: v -> sh = trc 32 ss -> tl = ax -: (th -: bp) -> sl = v *: ((u -: (sh *: th)) -: (sh *: tl)) -> s2 = ss *: ss ->
  r = (s2 *: s2) *: (rs_pow_L1 +: (s2 *: (rs_pow_L2 +: (s2 *: (rs_pow_L3 +: (s2 *: (rs_pow_L4 +: (s2 *: (rs_pow_L5 +: (s2 *: rs_pow_L6)))))))))) -> r' = r +: (sl *: (sh +: ss)) -> s21 = sh *: sh ->
  th1 = trc 32 ((0x4008000000000000 +: s21) +: r') -> tl1 = r' -: ((th1 -: 0x4008000000000000) -: s21) -> u2 = sh *: th1 -> v2 = (sl *: th1) +: (tl1 *: ss) -> ph = trc 32 (u2 +: v2) -> pl = v2 -: (ph -: u2) -> zh = rs_pow_CP_H *: ph -> zl = (rs_pow_CP_L *: ph) +: (pl *: rs_pow_CP) ->
  / 9007199254740992 <= s <= 0.1341 -> rho = -1 -> isbits f64 ax -> finite f64 ax = true -> val f64 ax = X -> 0.8659 <= X <= 1 -> isbits f64 th -> finite f64 th = true -> Rabs (val f64 th - (X + 1)) <= 4 / 1048576 -> val f64 u = s * rho -> finite f64 u = true ->
  (isbits f64 zh /\ finite f64 zh = true) /\ (isbits f64 zl /\ finite f64 zl = true) /\ (s * 1.2 <= rho * val f64 zh <= s * 2.0) /\ Rabs (val f64 zl) <= s * 0.02.
Proof.
  intros bp E1 E2 E3 E4 E5 E6 E7 E8 E9 E10 E11 E12 E13 E14 E15 E16 E17 E18 HS HR BX FX VX RX BT FT VT VU FU.
  assert (HX : AP f64 1 ax X (907961 * 2 ^ 180, 1048576 * 2 ^ 180, 0)%Z) by (rewrite <- VX; apply AP_ex; [assumption|assumption|]; rewrite VX, !fx20; lra).
  assert (HT : AP f64 1 th (X + 1) (1956537 * 2 ^ 180, 2097152 * 2 ^ 180, 4 * 2 ^ 180)%Z) by (split; [split; assumption|]; rewrite !Rmult_1_l, !fx20; split; [lra|exact VT]).
  assert (HB : AP f64 1 bp 1 (1048576 * 2 ^ 180, 1048576 * 2 ^ 180, 0)%Z) by (assert (VB : val f64 bp = 1 / 1) by lit; split; [split; [apply isb; vm_compute; reflexivity|vm_compute; reflexivity]|]; rewrite VB, !Rmult_1_l, !fx20, fxr_0; split; [lra|replace (_ - _) with 0 by lra; rewrite Rabs_R0; lra]).
  assert (BU : isbits f64 u) by (rewrite E1; apply fsub_isbits). clear E1.
  assert (SC0 : scal f64 s 1). { split; [lra|]. split; [lia|]. apply Rle_trans with (/ 9007199254740992 * fxr 1). { change (bpow radix2 (emin f64 - 1)) with (bpow radix2 (-53 + -1022)). rewrite bpow_plus. change (bpow radix2 (-53)) with (/ 9007199254740992). apply Rmult_le_compat_l; [lra|]. unfold fxr, SC, Rdiv. rewrite Rmult_1_l. rewrite (IZR_Zpower radix2 200 ltac:(lia) : IZR (2 ^ 200) = _). rewrite <- bpow_opp. apply bpow_le. lia. } apply Rmult_le_compat_r; [apply fxr_pos; lia|lra]. }
  assert (HU : AP f64 s u rho (-1048576 * 2 ^ 180, -1048576 * 2 ^ 180, 0)%Z) by (split; [split; assumption|]; rewrite VU, !fx20, fxr_0; split; [lra|replace (_ - _) with 0 by ring; rewrite Rabs_R0; lra]).
  clear VU. clearbody bp.
  apx f64 1 (ax +: bp) KW0. apply (AP_is _ _ _ _ (X + 1) _ _ _ (1956537 * 2 ^ 180) (2097152 * 2 ^ 180)) in KW0; [|reflexivity|rewrite !fx20; lra].
  epose proof (AP_inv f64 ltac:(vm_compute; discriminate) _ 0x3ff0000000000000 _ _ _ _ scal64 ltac:(vm_compute; reflexivity) ltac:(apply val164) KW0 ltac:(vmr) ltac:(vmr)) as KV. rewrite <- E2 in KV. clear E2 KW0.
  apx f64 s (u *: v) KS. rewrite <- E3 in KS. clear E3.
  epose proof (AP_trc f64 s _ 32 _ _ _ _ SC0 ltac:(cbn; lia) KS ltac:(vmr)) as KH. rewrite <- E4 in KH. clear E4.
  apx f64 1 (th -: bp) K1. apply (AP_is _ _ _ _ X _ _ _ (907961 * 2 ^ 180) (1048576 * 2 ^ 180)) in K1; [|ring|rewrite !fx20; lra]. apx f64 1 (ax -: (th -: bp)) KL. apply AP_zero in KL; [|ring]. rewrite <- E5 in KL. clear E5 K1.
  apx f64 s (u -: (sh *: th)) K1. apply AP_zero in K1; [|field; lra]. apx f64 s ((u -: (sh *: th)) -: (sh *: tl)) K2. apply AP_zero in K2; [|ring]. clear K1.
  set (dd := (u -: (sh *: th)) -: (sh *: tl)) in *. clearbody dd. apx f64 s (v *: dd) KSL. apply AP_zero in KSL; [|ring]. rewrite <- E6 in KSL. clear E6 K2 KL KV HU HT HB HX.
  epose proof (AP_un f64 s (140615 * 2 ^ 180) _ _ _ _ ltac:(lra) ltac:(rewrite fx20; lra) KS ltac:(cbn; lia) ltac:(vmr)) as KS1.
  epose proof (AP_un f64 s (140615 * 2 ^ 180) _ _ _ _ ltac:(lra) ltac:(rewrite fx20; lra) KH ltac:(cbn; lia) ltac:(vmr)) as KH1.
  epose proof (AP_un f64 s (140615 * 2 ^ 180) _ _ _ _ ltac:(lra) ltac:(rewrite fx20; lra) KSL ltac:(cbn; lia) ltac:(vmr)) as KSL1.
  apply AP_zero in KSL1; [|ring].
  apx f64 1 (ss *: ss) K2. rewrite <- E7 in K2. clear E7.
  apx f64 1 ((s2 *: s2) *: (rs_pow_L1 +: (s2 *: (rs_pow_L2 +: (s2 *: (rs_pow_L3 +: (s2 *: (rs_pow_L4 +: (s2 *: (rs_pow_L5 +: (s2 *: rs_pow_L6))))))))))) KR. rewrite <- E8 in KR. clear E8 K2.
  apx f64 1 (r +: (sl *: (sh +: ss))) KR'. rewrite <- E9 in KR'. clear E9 KR.
  apx f64 1 (sh *: sh) KQ. rewrite <- E10 in KQ. clear E10.
  lazymatch type of KR' with AP _ _ _ ?R (?l, ?h, ?e) => assert (RR : fxr l <= R <= fxr h) by exact (proj1 (proj2 KR')); set (rr := R) in * end. clearbody rr.
  lazymatch type of KQ with AP _ _ _ ?R (?l, ?h, ?e) => set (qq := R) in * end. clearbody qq.
  apx f64 1 ((0x4008000000000000 +: s21) +: r') K1. epose proof (AP_trc f64 1 _ 32 _ _ _ _ scal64 ltac:(cbn; lia) K1 ltac:(vmr)) as KT1. rewrite <- E11 in KT1. clear E11 K1.
  apx f64 1 ((th1 -: 0x4008000000000000) -: s21) K1. lazymatch type of KR' with AP _ _ _ ?R (?l, ?h, ?e) => apply (AP_is _ _ _ _ rr _ _ _ l h) in K1; [|ring|exact RR] end.
  apx f64 1 (r' -: ((th1 -: 0x4008000000000000) -: s21)) KTL. apply AP_zero in KTL; [|ring]. rewrite <- E12 in KTL. clear E12 K1 KR' KQ.
  lazymatch type of KT1 with AP _ _ _ ?R (?l, ?h, ?e) => set (tt := R) in * end. clearbody tt. clear RR.
  apx f64 s (sh *: th1) KU2. rewrite <- E13 in KU2. clear E13.
  apx f64 s (sl *: th1) K1. apply AP_zero in K1; [|ring]. apx f64 s (tl1 *: ss) K2. apply AP_zero in K2; [|ring]. set (m1 := sl *: th1) in *. set (m2 := tl1 *: ss) in *. clearbody m1 m2.
  apx f64 s (m1 +: m2) KV2. apply AP_zero in KV2; [|ring]. rewrite <- E14 in KV2. clear E14 K1 K2 KT1 KTL.
  apx f64 s (u2 +: v2) K1. epose proof (AP_trc f64 s _ 32 _ _ _ _ SC0 ltac:(cbn; lia) K1 ltac:(vmr)) as KP. rewrite <- E15 in KP. clear E15 K1.
  apx f64 s (ph -: u2) K1. apply AP_zero in K1; [|ring]. apx f64 s (v2 -: (ph -: u2)) KPL. apply AP_zero in KPL; [|ring]. rewrite <- E16 in KPL. clear E16 K1 KV2.
  lazymatch type of KP with AP _ _ _ ?R (?l, ?h, ?e) => set (pp := R) in * end. clearbody pp.
  apx f64 s (rs_pow_CP_H *: ph) KZH. rewrite <- E17 in KZH. clear E17.
  apx f64 s (rs_pow_CP_L *: ph) K1. apx f64 s (pl *: rs_pow_CP) K2. apply AP_zero in K2; [|ring]. apx f64 s ((rs_pow_CP_L *: ph) +: (pl *: rs_pow_CP)) KZL. rewrite <- E18 in KZL. clear E18 K1 K2.
  pose proof (AP_bits _ _ _ _ _ KZH) as Q1. pose proof (AP_fin _ _ _ _ _ KZH) as Q2. pose proof (AP_bits _ _ _ _ _ KZL) as Q3. pose proof (AP_fin _ _ _ _ _ KZL) as Q4. pose proof (AP_ev _ _ _ _ _ (ltac:(lra) : 0 < s) KZL) as Q5.
  split; [now split|]. split; [now split|]. split.
  - destruct KZH as (_ & R1 & R2). apply Rabs_le_inv in R2. rewrite HR. lazymatch type of R1 with fxr ?l <= ?z <= fxr ?h => lazymatch type of R2 with _ <= _ <= s * fxr ?e => assert (A1 : -195 / 100 <= z) by (eapply Rle_trans; [apply (fx_dn l (-195) 100); vm_compute; reflexivity|apply R1]); assert (A2 : z <= -125 / 100) by (eapply Rle_trans; [apply R1|apply (fx_up h (-125) 100); vm_compute; reflexivity]); assert (A3 : fxr e <= 1 / 100) by (apply (fx_up e 1 100); vm_compute; reflexivity); set (zz := z) in *; set (ee := fxr e) in *; clearbody zz ee end end. assert (0 < s) by lra. assert (s * ee <= s * (1 / 100)) by (apply Rmult_le_compat_l; lra). assert (s * (-195 / 100) <= s * zz <= s * (-125 / 100)) by (split; apply Rmult_le_compat_l; lra). lra.
  - eapply Rle_trans; [exact Q5|]. apply Rmult_le_compat_l; [lra|]. rewrite <- fxr_add. eapply Rle_trans; [apply (fx_up _ 2 100); vm_compute; reflexivity|lra].
Qed.

Lemma lg64C X ax th u v ss sh tl sl s2 r r' s21 th1 tl1 u2 v2 ph pl zh zl : let bp := 0x3ff0000000000000%Z in u = ax -: bp -> v = 0x3ff0000000000000 /: (ax +: bp) -> ss = u *: v -> sh = trc 32 ss -> tl = ax -: (th -: bp) -> sl = v *: ((u -: (sh *: th)) -: (sh *: tl)) -> s2 = ss *: ss ->
  r = (s2 *: s2) *: (rs_pow_L1 +: (s2 *: (rs_pow_L2 +: (s2 *: (rs_pow_L3 +: (s2 *: (rs_pow_L4 +: (s2 *: (rs_pow_L5 +: (s2 *: rs_pow_L6)))))))))) -> r' = r +: (sl *: (sh +: ss)) -> s21 = sh *: sh ->
  th1 = trc 32 ((0x4008000000000000 +: s21) +: r') -> tl1 = r' -: ((th1 -: 0x4008000000000000) -: s21) -> u2 = sh *: th1 -> v2 = (sl *: th1) +: (tl1 *: ss) -> ph = trc 32 (u2 +: v2) -> pl = v2 -: (ph -: u2) -> zh = rs_pow_CP_H *: ph -> zl = (rs_pow_CP_L *: ph) +: (pl *: rs_pow_CP) ->
  isbits f64 ax -> finite f64 ax = true -> val f64 ax = X -> 0.8659 <= X <= 1.2248 -> isbits f64 th -> finite f64 th = true -> Rabs (val f64 th - (X + 1)) <= 4 / 1048576 -> val f64 u = 1 * (X - 1) -> finite f64 u = true ->
  (isbits f64 zh /\ finite f64 zh = true) /\ (isbits f64 zl /\ finite f64 zl = true) /\ Rabs (val f64 zh) <= 0.36 /\ Rabs (val f64 zl) <= 0.02.
Proof.
  intros bp E1 E2 E3 E4 E5 E6 E7 E8 E9 E10 E11 E12 E13 E14 E15 E16 E17 E18 BX FX VX RX BT FT VT VU FU.
  assert (HX : AP f64 1 ax X (907961 * 2 ^ 180, 1284296 * 2 ^ 180, 0)%Z) by (rewrite <- VX; apply AP_ex; [assumption|assumption|]; rewrite VX, !fx20; lra).
  assert (HT : AP f64 1 th (X + 1) (1956537 * 2 ^ 180, 2332872 * 2 ^ 180, 4 * 2 ^ 180)%Z) by (split; [split; assumption|]; rewrite !Rmult_1_l, !fx20; split; [lra|exact VT]).
  assert (HB : AP f64 1 bp 1 (1048576 * 2 ^ 180, 1048576 * 2 ^ 180, 0)%Z) by (assert (VB : val f64 bp = 1 / 1) by lit; split; [split; [apply isb; vm_compute; reflexivity|vm_compute; reflexivity]|]; rewrite VB, !Rmult_1_l, !fx20, fxr_0; split; [lra|replace (_ - _) with 0 by lra; rewrite Rabs_R0; lra]).
  assert (BU : isbits f64 u) by (rewrite E1; apply fsub_isbits). clear E1.
  pose proof scal64 as SC0.
  assert (HU : AP f64 1 u (X - 1) (-140615 * 2 ^ 180, 235720 * 2 ^ 180, 0)%Z) by (split; [split; assumption|]; rewrite VU, !fx20, fxr_0; split; [lra|replace (_ - _) with 0 by ring; rewrite Rabs_R0; lra]).
  clear VU. clearbody bp.
  apx f64 1 (ax +: bp) KW0. apply (AP_is _ _ _ _ (X + 1) _ _ _ (1956537 * 2 ^ 180) (2332872 * 2 ^ 180)) in KW0; [|reflexivity|rewrite !fx20; lra].
  epose proof (AP_inv f64 ltac:(vm_compute; discriminate) _ 0x3ff0000000000000 _ _ _ _ scal64 ltac:(vm_compute; reflexivity) ltac:(apply val164) KW0 ltac:(vmr) ltac:(vmr)) as KV. rewrite <- E2 in KV. clear E2 KW0.
  apx f64 1 (u *: v) KS. rewrite <- E3 in KS. clear E3.
  epose proof (AP_trc f64 1 _ 32 _ _ _ _ SC0 ltac:(cbn; lia) KS ltac:(vmr)) as KH. rewrite <- E4 in KH. clear E4.
  apx f64 1 (th -: bp) K1. apply (AP_is _ _ _ _ X _ _ _ (907961 * 2 ^ 180) (1284296 * 2 ^ 180)) in K1; [|ring|rewrite !fx20; lra]. apx f64 1 (ax -: (th -: bp)) KL. apply AP_zero in KL; [|ring]. rewrite <- E5 in KL. clear E5 K1.
  apx f64 1 (u -: (sh *: th)) K1. apply AP_zero in K1; [|field; lra]. apx f64 1 ((u -: (sh *: th)) -: (sh *: tl)) K2. apply AP_zero in K2; [|ring]. clear K1.
  set (dd := (u -: (sh *: th)) -: (sh *: tl)) in *. clearbody dd. apx f64 1 (v *: dd) KSL. apply AP_zero in KSL; [|ring]. rewrite <- E6 in KSL. clear E6 K2 KL KV HU HT HB HX.
  pose proof KS as KS1.
  pose proof KH as KH1.
  pose proof KSL as KSL1.
  apply AP_zero in KSL1; [|ring].
  apx f64 1 (ss *: ss) K2. rewrite <- E7 in K2. clear E7.
  apx f64 1 ((s2 *: s2) *: (rs_pow_L1 +: (s2 *: (rs_pow_L2 +: (s2 *: (rs_pow_L3 +: (s2 *: (rs_pow_L4 +: (s2 *: (rs_pow_L5 +: (s2 *: rs_pow_L6))))))))))) KR. rewrite <- E8 in KR. clear E8 K2.
  apx f64 1 (r +: (sl *: (sh +: ss))) KR'. rewrite <- E9 in KR'. clear E9 KR.
  apx f64 1 (sh *: sh) KQ. rewrite <- E10 in KQ. clear E10.
  lazymatch type of KR' with AP _ _ _ ?R (?l, ?h, ?e) => assert (RR : fxr l <= R <= fxr h) by exact (proj1 (proj2 KR')); set (rr := R) in * end. clearbody rr.
  lazymatch type of KQ with AP _ _ _ ?R (?l, ?h, ?e) => set (qq := R) in * end. clearbody qq.
  apx f64 1 ((0x4008000000000000 +: s21) +: r') K1. epose proof (AP_trc f64 1 _ 32 _ _ _ _ scal64 ltac:(cbn; lia) K1 ltac:(vmr)) as KT1. rewrite <- E11 in KT1. clear E11 K1.
  apx f64 1 ((th1 -: 0x4008000000000000) -: s21) K1. lazymatch type of KR' with AP _ _ _ ?R (?l, ?h, ?e) => apply (AP_is _ _ _ _ rr _ _ _ l h) in K1; [|ring|exact RR] end.
  apx f64 1 (r' -: ((th1 -: 0x4008000000000000) -: s21)) KTL. apply AP_zero in KTL; [|ring]. rewrite <- E12 in KTL. clear E12 K1 KR' KQ.
  lazymatch type of KT1 with AP _ _ _ ?R (?l, ?h, ?e) => set (tt := R) in * end. clearbody tt. clear RR.
  apx f64 1 (sh *: th1) KU2. rewrite <- E13 in KU2. clear E13.
  apx f64 1 (sl *: th1) K1. apply AP_zero in K1; [|ring]. apx f64 1 (tl1 *: ss) K2. apply AP_zero in K2; [|ring]. set (m1 := sl *: th1) in *. set (m2 := tl1 *: ss) in *. clearbody m1 m2.
  apx f64 1 (m1 +: m2) KV2. apply AP_zero in KV2; [|ring]. rewrite <- E14 in KV2. clear E14 K1 K2 KT1 KTL.
  apx f64 1 (u2 +: v2) K1. epose proof (AP_trc f64 1 _ 32 _ _ _ _ SC0 ltac:(cbn; lia) K1 ltac:(vmr)) as KP. rewrite <- E15 in KP. clear E15 K1.
  apx f64 1 (ph -: u2) K1. apply AP_zero in K1; [|ring]. apx f64 1 (v2 -: (ph -: u2)) KPL. apply AP_zero in KPL; [|ring]. rewrite <- E16 in KPL. clear E16 K1 KV2.
  lazymatch type of KP with AP _ _ _ ?R (?l, ?h, ?e) => set (pp := R) in * end. clearbody pp.
  apx f64 1 (rs_pow_CP_H *: ph) KZH. rewrite <- E17 in KZH. clear E17.
  apx f64 1 (rs_pow_CP_L *: ph) K1. apx f64 1 (pl *: rs_pow_CP) K2. apply AP_zero in K2; [|ring]. apx f64 1 ((rs_pow_CP_L *: ph) +: (pl *: rs_pow_CP)) KZL. rewrite <- E18 in KZL. clear E18 K1 K2.
  pose proof (AP_bits _ _ _ _ _ KZH) as Q1. pose proof (AP_fin _ _ _ _ _ KZH) as Q2. pose proof (AP_bits _ _ _ _ _ KZL) as Q3. pose proof (AP_fin _ _ _ _ _ KZL) as Q4. pose proof (AP_ev _ _ _ _ _ (ltac:(lra) : 0 < 1) KZL) as Q5. pose proof (AP_ev _ _ _ _ _ (ltac:(lra) : 0 < 1) KZH) as Q6.
  split; [now split|]. split; [now split|]. split.
  - eapply Rle_trans; [exact Q6|]. rewrite Rmult_1_l, <- fxr_add. eapply Rle_trans; [apply (fx_up _ 36 100); vm_compute; reflexivity|lra].
  - eapply Rle_trans; [exact Q5|]. rewrite Rmult_1_l, <- fxr_add. eapply Rle_trans; [apply (fx_up _ 2 100); vm_compute; reflexivity|lra].
Qed.

Lemma lg64D X ax th u v ss sh tl sl s2 r r' s21 th1 tl1 u2 v2 ph pl zh zl : let bp := 0x3ff8000000000000%Z in u = ax -: bp -> v = 0x3ff0000000000000 /: (ax +: bp) -> ss = u *: v -> sh = trc 32 ss -> tl = ax -: (th -: bp) -> sl = v *: ((u -: (sh *: th)) -: (sh *: tl)) -> s2 = ss *: ss ->
  r = (s2 *: s2) *: (rs_pow_L1 +: (s2 *: (rs_pow_L2 +: (s2 *: (rs_pow_L3 +: (s2 *: (rs_pow_L4 +: (s2 *: (rs_pow_L5 +: (s2 *: rs_pow_L6)))))))))) -> r' = r +: (sl *: (sh +: ss)) -> s21 = sh *: sh ->
  th1 = trc 32 ((0x4008000000000000 +: s21) +: r') -> tl1 = r' -: ((th1 -: 0x4008000000000000) -: s21) -> u2 = sh *: th1 -> v2 = (sl *: th1) +: (tl1 *: ss) -> ph = trc 32 (u2 +: v2) -> pl = v2 -: (ph -: u2) -> zh = rs_pow_CP_H *: ph -> zl = (rs_pow_CP_L *: ph) +: (pl *: rs_pow_CP) ->
  isbits f64 ax -> finite f64 ax = true -> val f64 ax = X -> 1.2246 <= X <= 1.7322 -> isbits f64 th -> finite f64 th = true -> Rabs (val f64 th - (X + 1.5)) <= 4 / 1048576 -> val f64 u = 1 * (X - 1.5) -> finite f64 u = true ->
  (isbits f64 zh /\ finite f64 zh = true) /\ (isbits f64 zl /\ finite f64 zl = true) /\ Rabs (val f64 zh) <= 0.3 /\ Rabs (val f64 zl) <= 0.02.
Proof.
  intros bp E1 E2 E3 E4 E5 E6 E7 E8 E9 E10 E11 E12 E13 E14 E15 E16 E17 E18 BX FX VX RX BT FT VT VU FU.
  assert (HX : AP f64 1 ax X (1284086 * 2 ^ 180, 1816344 * 2 ^ 180, 0)%Z) by (rewrite <- VX; apply AP_ex; [assumption|assumption|]; rewrite VX, !fx20; lra).
  assert (HT : AP f64 1 th (X + 1.5) (2856950 * 2 ^ 180, 3389208 * 2 ^ 180, 4 * 2 ^ 180)%Z) by (split; [split; assumption|]; rewrite !Rmult_1_l, !fx20; split; [lra|exact VT]).
  assert (HB : AP f64 1 bp 1.5 (1572864 * 2 ^ 180, 1572864 * 2 ^ 180, 0)%Z) by (assert (VB : val f64 bp = 3 / 2) by lit; split; [split; [apply isb; vm_compute; reflexivity|vm_compute; reflexivity]|]; rewrite VB, !Rmult_1_l, !fx20, fxr_0; split; [lra|replace (_ - _) with 0 by lra; rewrite Rabs_R0; lra]).
  assert (BU : isbits f64 u) by (rewrite E1; apply fsub_isbits). clear E1.
  pose proof scal64 as SC0.
  assert (HU : AP f64 1 u (X - 1.5) (-288778 * 2 ^ 180, 243480 * 2 ^ 180, 0)%Z) by (split; [split; assumption|]; rewrite VU, !fx20, fxr_0; split; [lra|replace (_ - _) with 0 by ring; rewrite Rabs_R0; lra]).
  clear VU. clearbody bp.
  apx f64 1 (ax +: bp) KW0. apply (AP_is _ _ _ _ (X + 1.5) _ _ _ (2856950 * 2 ^ 180) (3389208 * 2 ^ 180)) in KW0; [|reflexivity|rewrite !fx20; lra].
  epose proof (AP_inv f64 ltac:(vm_compute; discriminate) _ 0x3ff0000000000000 _ _ _ _ scal64 ltac:(vm_compute; reflexivity) ltac:(apply val164) KW0 ltac:(vmr) ltac:(vmr)) as KV. rewrite <- E2 in KV. clear E2 KW0.
  apx f64 1 (u *: v) KS. rewrite <- E3 in KS. clear E3.
  epose proof (AP_trc f64 1 _ 32 _ _ _ _ SC0 ltac:(cbn; lia) KS ltac:(vmr)) as KH. rewrite <- E4 in KH. clear E4.
  apx f64 1 (th -: bp) K1. apply (AP_is _ _ _ _ X _ _ _ (1284086 * 2 ^ 180) (1816344 * 2 ^ 180)) in K1; [|ring|rewrite !fx20; lra]. apx f64 1 (ax -: (th -: bp)) KL. apply AP_zero in KL; [|ring]. rewrite <- E5 in KL. clear E5 K1.
  apx f64 1 (u -: (sh *: th)) K1. apply AP_zero in K1; [|field; lra]. apx f64 1 ((u -: (sh *: th)) -: (sh *: tl)) K2. apply AP_zero in K2; [|ring]. clear K1.
  set (dd := (u -: (sh *: th)) -: (sh *: tl)) in *. clearbody dd. apx f64 1 (v *: dd) KSL. apply AP_zero in KSL; [|ring]. rewrite <- E6 in KSL. clear E6 K2 KL KV HU HT HB HX.
  pose proof KS as KS1.
  pose proof KH as KH1.
  pose proof KSL as KSL1.
  apply AP_zero in KSL1; [|ring].
  apx f64 1 (ss *: ss) K2. rewrite <- E7 in K2. clear E7.
  apx f64 1 ((s2 *: s2) *: (rs_pow_L1 +: (s2 *: (rs_pow_L2 +: (s2 *: (rs_pow_L3 +: (s2 *: (rs_pow_L4 +: (s2 *: (rs_pow_L5 +: (s2 *: rs_pow_L6))))))))))) KR. rewrite <- E8 in KR. clear E8 K2.
  apx f64 1 (r +: (sl *: (sh +: ss))) KR'. rewrite <- E9 in KR'. clear E9 KR.
  apx f64 1 (sh *: sh) KQ. rewrite <- E10 in KQ. clear E10.
  lazymatch type of KR' with AP _ _ _ ?R (?l, ?h, ?e) => assert (RR : fxr l <= R <= fxr h) by exact (proj1 (proj2 KR')); set (rr := R) in * end. clearbody rr.
  lazymatch type of KQ with AP _ _ _ ?R (?l, ?h, ?e) => set (qq := R) in * end. clearbody qq.
  apx f64 1 ((0x4008000000000000 +: s21) +: r') K1. epose proof (AP_trc f64 1 _ 32 _ _ _ _ scal64 ltac:(cbn; lia) K1 ltac:(vmr)) as KT1. rewrite <- E11 in KT1. clear E11 K1.
  apx f64 1 ((th1 -: 0x4008000000000000) -: s21) K1. lazymatch type of KR' with AP _ _ _ ?R (?l, ?h, ?e) => apply (AP_is _ _ _ _ rr _ _ _ l h) in K1; [|ring|exact RR] end.
  apx f64 1 (r' -: ((th1 -: 0x4008000000000000) -: s21)) KTL. apply AP_zero in KTL; [|ring]. rewrite <- E12 in KTL. clear E12 K1 KR' KQ.
  lazymatch type of KT1 with AP _ _ _ ?R (?l, ?h, ?e) => set (tt := R) in * end. clearbody tt. clear RR.
  apx f64 1 (sh *: th1) KU2. rewrite <- E13 in KU2. clear E13.
  apx f64 1 (sl *: th1) K1. apply AP_zero in K1; [|ring]. apx f64 1 (tl1 *: ss) K2. apply AP_zero in K2; [|ring]. set (m1 := sl *: th1) in *. set (m2 := tl1 *: ss) in *. clearbody m1 m2.
  apx f64 1 (m1 +: m2) KV2. apply AP_zero in KV2; [|ring]. rewrite <- E14 in KV2. clear E14 K1 K2 KT1 KTL.
  apx f64 1 (u2 +: v2) K1. epose proof (AP_trc f64 1 _ 32 _ _ _ _ SC0 ltac:(cbn; lia) K1 ltac:(vmr)) as KP. rewrite <- E15 in KP. clear E15 K1.
  apx f64 1 (ph -: u2) K1. apply AP_zero in K1; [|ring]. apx f64 1 (v2 -: (ph -: u2)) KPL. apply AP_zero in KPL; [|ring]. rewrite <- E16 in KPL. clear E16 K1 KV2.
  lazymatch type of KP with AP _ _ _ ?R (?l, ?h, ?e) => set (pp := R) in * end. clearbody pp.
  apx f64 1 (rs_pow_CP_H *: ph) KZH. rewrite <- E17 in KZH. clear E17.
  apx f64 1 (rs_pow_CP_L *: ph) K1. apx f64 1 (pl *: rs_pow_CP) K2. apply AP_zero in K2; [|ring]. apx f64 1 ((rs_pow_CP_L *: ph) +: (pl *: rs_pow_CP)) KZL. rewrite <- E18 in KZL. clear E18 K1 K2.
  pose proof (AP_bits _ _ _ _ _ KZH) as Q1. pose proof (AP_fin _ _ _ _ _ KZH) as Q2. pose proof (AP_bits _ _ _ _ _ KZL) as Q3. pose proof (AP_fin _ _ _ _ _ KZL) as Q4. pose proof (AP_ev _ _ _ _ _ (ltac:(lra) : 0 < 1) KZL) as Q5. pose proof (AP_ev _ _ _ _ _ (ltac:(lra) : 0 < 1) KZH) as Q6.
  split; [now split|]. split; [now split|]. split.
  - eapply Rle_trans; [exact Q6|]. rewrite Rmult_1_l, <- fxr_add. eapply Rle_trans; [apply (fx_up _ 30 100); vm_compute; reflexivity|lra].
  - eapply Rle_trans; [exact Q5|]. rewrite Rmult_1_l, <- fxr_add. eapply Rle_trans; [apply (fx_up _ 2 100); vm_compute; reflexivity|lra].
Qed.

Lemma lg32A s rho X ax th u v ss sh tl sl s2 r r' s21 th1 tl1 u2 v2 ph pl zh zl : let bp := 0x3f800000%Z in u = ax -' bp -> v = 0x3f800000 /' (ax +' bp) -> ss = u *' v -> sh = trc 12 ss -> tl = ax -' (th -' bp) -> sl = v *' ((u -' (sh *' th)) -' (sh *' tl)) -> s2 = ss *' ss ->
  r = (s2 *' s2) *' (rs_powf_L1 +' (s2 *' (rs_powf_L2 +' (s2 *' (rs_powf_L3 +' (s2 *' (rs_powf_L4 +' (s2 *' (rs_powf_L5 +' (s2 *' rs_powf_L6)))))))))) -> r' = r +' (sl *' (sh +' ss)) -> s21 = sh *' sh ->
  th1 = trc 12 ((0x40400000 +' s21) +' r') -> tl1 = r' -' ((th1 -' 0x40400000) -' s21) -> u2 = sh *' th1 -> v2 = (sl *' th1) +' (tl1 *' ss) -> ph = trc 12 (u2 +' v2) -> pl = v2 -' (ph -' u2) -> zh = rs_powf_CP_H *' ph -> zl = (rs_powf_CP_L *' ph) +' (pl *' rs_powf_CP) ->
  / 16777216 <= s <= 0.2248 -> rho = 1 -> isbits f32 ax -> finite f32 ax = true -> val f32 ax = X -> 1 <= X <= 1.2248 -> isbits f32 th -> finite f32 th = true -> Rabs (val f32 th - (X + 1)) <= 2050 / 1048576 -> val f32 u = s * rho -> finite f32 u = true ->
  (isbits f32 zh /\ finite f32 zh = true) /\ (isbits f32 zl /\ finite f32 zl = true) /\ (s * 1.2 <= rho * val f32 zh <= s * 2.0) /\ Rabs (val f32 zl) <= s * 0.02.
Proof.
  intros bp E1 E2 E3 E4 E5 E6 E7 E8 E9 E10 E11 E12 E13 E14 E15 E16 E17 E18 HS HR BX FX VX RX BT FT VT VU FU.
  assert (HX : AP f32 1 ax X (1048576 * 2 ^ 180, 1284296 * 2 ^ 180, 0)%Z) by (rewrite <- VX; apply AP_ex; [assumption|assumption|]; rewrite VX, !fx20; lra).
  assert (HT : AP f32 1 th (X + 1) (2097152 * 2 ^ 180, 2332872 * 2 ^ 180, 2050 * 2 ^ 180)%Z) by (split; [split; assumption|]; rewrite !Rmult_1_l, !fx20; split; [lra|exact VT]).
  assert (HB : AP f32 1 bp 1 (1048576 * 2 ^ 180, 1048576 * 2 ^ 180, 0)%Z) by (assert (VB : val f32 bp = 1 / 1) by lit; split; [split; [apply isb; vm_compute; reflexivity|vm_compute; reflexivity]|]; rewrite VB, !Rmult_1_l, !fx20, fxr_0; split; [lra|replace (_ - _) with 0 by lra; rewrite Rabs_R0; lra]).
  assert (BU : isbits f32 u) by (rewrite E1; apply fsub_isbits). clear E1.
  assert (SC0 : scal f32 s (2 ^ 75)). { split; [lra|]. split; [lia|]. apply Rle_trans with (/ 16777216 * fxr (2 ^ 75)). { change (bpow radix2 (emin f32 - 1)) with (bpow radix2 (-24 + -126)). rewrite bpow_plus. change (bpow radix2 (-24)) with (/ 16777216). apply Rmult_le_compat_l; [lra|]. unfold fxr, SC, Rdiv. rewrite (IZR_Zpower radix2 200 ltac:(lia) : IZR (2 ^ 200) = _), (IZR_Zpower radix2 75 ltac:(lia) : IZR (2 ^ 75) = _). rewrite <- bpow_opp, <- bpow_plus. apply bpow_le. lia. } apply Rmult_le_compat_r; [apply fxr_pos; lia|lra]. }
  assert (HU : AP f32 s u rho (1048576 * 2 ^ 180, 1048576 * 2 ^ 180, 0)%Z) by (split; [split; assumption|]; rewrite VU, !fx20, fxr_0; split; [lra|replace (_ - _) with 0 by ring; rewrite Rabs_R0; lra]).
  clear VU. clearbody bp.
  apx f32 1 (ax +' bp) KW0. apply (AP_is _ _ _ _ (X + 1) _ _ _ (2097152 * 2 ^ 180) (2332872 * 2 ^ 180)) in KW0; [|reflexivity|rewrite !fx20; lra].
  epose proof (AP_inv f32 ltac:(vm_compute; discriminate) _ 0x3f800000 _ _ _ _ scal32 ltac:(vm_compute; reflexivity) ltac:(apply val132) KW0 ltac:(vmr) ltac:(vmr)) as KV. rewrite <- E2 in KV. clear E2 KW0.
  apx f32 s (u *' v) KS. rewrite <- E3 in KS. clear E3.
  epose proof (AP_trc f32 s _ 12 _ _ _ _ SC0 ltac:(cbn; lia) KS ltac:(vmr)) as KH. rewrite <- E4 in KH. clear E4.
  apx f32 1 (th -' bp) K1. apply (AP_is _ _ _ _ X _ _ _ (1048576 * 2 ^ 180) (1284296 * 2 ^ 180)) in K1; [|ring|rewrite !fx20; lra]. apx f32 1 (ax -' (th -' bp)) KL. apply AP_zero in KL; [|ring]. rewrite <- E5 in KL. clear E5 K1.
  apx f32 s (u -' (sh *' th)) K1. apply AP_zero in K1; [|field; lra]. apx f32 s ((u -' (sh *' th)) -' (sh *' tl)) K2. apply AP_zero in K2; [|ring]. clear K1.
  set (dd := (u -' (sh *' th)) -' (sh *' tl)) in *. clearbody dd. apx f32 s (v *' dd) KSL. apply AP_zero in KSL; [|ring]. rewrite <- E6 in KSL. clear E6 K2 KL KV HU HT HB HX.
  epose proof (AP_un f32 s (235720 * 2 ^ 180) _ _ _ _ ltac:(lra) ltac:(rewrite fx20; lra) KS ltac:(cbn; lia) ltac:(vmr)) as KS1.
  epose proof (AP_un f32 s (235720 * 2 ^ 180) _ _ _ _ ltac:(lra) ltac:(rewrite fx20; lra) KH ltac:(cbn; lia) ltac:(vmr)) as KH1.
  epose proof (AP_un f32 s (235720 * 2 ^ 180) _ _ _ _ ltac:(lra) ltac:(rewrite fx20; lra) KSL ltac:(cbn; lia) ltac:(vmr)) as KSL1.
  apply AP_zero in KSL1; [|ring].
  apx f32 1 (ss *' ss) K2. rewrite <- E7 in K2. clear E7.
  apx f32 1 ((s2 *' s2) *' (rs_powf_L1 +' (s2 *' (rs_powf_L2 +' (s2 *' (rs_powf_L3 +' (s2 *' (rs_powf_L4 +' (s2 *' (rs_powf_L5 +' (s2 *' rs_powf_L6))))))))))) KR. rewrite <- E8 in KR. clear E8 K2.
  apx f32 1 (r +' (sl *' (sh +' ss))) KR'. rewrite <- E9 in KR'. clear E9 KR.
  apx f32 1 (sh *' sh) KQ. rewrite <- E10 in KQ. clear E10.
  lazymatch type of KR' with AP _ _ _ ?R (?l, ?h, ?e) => assert (RR : fxr l <= R <= fxr h) by exact (proj1 (proj2 KR')); set (rr := R) in * end. clearbody rr.
  lazymatch type of KQ with AP _ _ _ ?R (?l, ?h, ?e) => set (qq := R) in * end. clearbody qq.
  apx f32 1 ((0x40400000 +' s21) +' r') K1. epose proof (AP_trc f32 1 _ 12 _ _ _ _ scal32 ltac:(cbn; lia) K1 ltac:(vmr)) as KT1. rewrite <- E11 in KT1. clear E11 K1.
  apx f32 1 ((th1 -' 0x40400000) -' s21) K1. lazymatch type of KR' with AP _ _ _ ?R (?l, ?h, ?e) => apply (AP_is _ _ _ _ rr _ _ _ l h) in K1; [|ring|exact RR] end.
  apx f32 1 (r' -' ((th1 -' 0x40400000) -' s21)) KTL. apply AP_zero in KTL; [|ring]. rewrite <- E12 in KTL. clear E12 K1 KR' KQ.
  lazymatch type of KT1 with AP _ _ _ ?R (?l, ?h, ?e) => set (tt := R) in * end. clearbody tt. clear RR.
  apx f32 s (sh *' th1) KU2. rewrite <- E13 in KU2. clear E13.
  apx f32 s (sl *' th1) K1. apply AP_zero in K1; [|ring]. apx f32 s (tl1 *' ss) K2. apply AP_zero in K2; [|ring]. set (m1 := sl *' th1) in *. set (m2 := tl1 *' ss) in *. clearbody m1 m2.
  apx f32 s (m1 +' m2) KV2. apply AP_zero in KV2; [|ring]. rewrite <- E14 in KV2. clear E14 K1 K2 KT1 KTL.
  apx f32 s (u2 +' v2) K1. epose proof (AP_trc f32 s _ 12 _ _ _ _ SC0 ltac:(cbn; lia) K1 ltac:(vmr)) as KP. rewrite <- E15 in KP. clear E15 K1.
  apx f32 s (ph -' u2) K1. apply AP_zero in K1; [|ring]. apx f32 s (v2 -' (ph -' u2)) KPL. apply AP_zero in KPL; [|ring]. rewrite <- E16 in KPL. clear E16 K1 KV2.
  lazymatch type of KP with AP _ _ _ ?R (?l, ?h, ?e) => set (pp := R) in * end. clearbody pp.
  apx f32 s (rs_powf_CP_H *' ph) KZH. rewrite <- E17 in KZH. clear E17.
  apx f32 s (rs_powf_CP_L *' ph) K1. apx f32 s (pl *' rs_powf_CP) K2. apply AP_zero in K2; [|ring]. apx f32 s ((rs_powf_CP_L *' ph) +' (pl *' rs_powf_CP)) KZL. rewrite <- E18 in KZL. clear E18 K1 K2.
  pose proof (AP_bits _ _ _ _ _ KZH) as Q1. pose proof (AP_fin _ _ _ _ _ KZH) as Q2. pose proof (AP_bits _ _ _ _ _ KZL) as Q3. pose proof (AP_fin _ _ _ _ _ KZL) as Q4. pose proof (AP_ev _ _ _ _ _ (ltac:(lra) : 0 < s) KZL) as Q5.
  split; [now split|]. split; [now split|]. split.
  - destruct KZH as (_ & R1 & R2). apply Rabs_le_inv in R2. rewrite HR. lazymatch type of R1 with fxr ?l <= ?z <= fxr ?h => lazymatch type of R2 with _ <= _ <= s * fxr ?e => assert (A1 : 125 / 100 <= z) by (eapply Rle_trans; [apply (fx_dn l (125) 100); vm_compute; reflexivity|apply R1]); assert (A2 : z <= 195 / 100) by (eapply Rle_trans; [apply R1|apply (fx_up h (195) 100); vm_compute; reflexivity]); assert (A3 : fxr e <= 1 / 100) by (apply (fx_up e 1 100); vm_compute; reflexivity); set (zz := z) in *; set (ee := fxr e) in *; clearbody zz ee end end. assert (0 < s) by lra. assert (s * ee <= s * (1 / 100)) by (apply Rmult_le_compat_l; lra). assert (s * (125 / 100) <= s * zz <= s * (195 / 100)) by (split; apply Rmult_le_compat_l; lra). lra.
  - eapply Rle_trans; [exact Q5|]. apply Rmult_le_compat_l; [lra|]. rewrite <- fxr_add. eapply Rle_trans; [apply (fx_up _ 2 100); vm_compute; reflexivity|lra].
Qed.

Lemma lg32B s rho X ax th u v ss sh tl sl s2 r r' s21 th1 tl1 u2 v2 ph pl zh zl : let bp := 0x3f800000%Z in u = ax -' bp -> v = 0x3f800000 /' (ax +' bp) -> ss = u *' v -> sh = trc 12 ss -> tl = ax -' (th -' bp) -> sl = v *' ((u -' (sh *' th)) -' (sh *' tl)) -> s2 = ss *' ss ->
  r = (s2 *' s2) *' (rs_powf_L1 +' (s2 *' (rs_powf_L2 +' (s2 *' (rs_powf_L3 +' (s2 *' (rs_powf_L4 +' (s2 *' (rs_powf_L5 +' (s2 *' rs_powf_L6)))))))))) -> r' = r +' (sl *' (sh +' ss)) -> s21 = sh *' sh ->
  th1 = trc 12 ((0x40400000 +' s21) +' r') -> tl1 = r' -' ((th1 -' 0x40400000) -' s21) -> u2 = sh *' th1 -> v2 = (sl *' th1) +' (tl1 *' ss) -> ph = trc 12 (u2 +' v2) -> pl = v2 -' (ph -' u2) -> zh = rs_powf_CP_H *' ph -> zl = (rs_powf_CP_L *' ph) +' (pl *' rs_powf_CP) ->
  / 16777216 <= s <= 0.1341 -> rho = -1 -> isbits f32 ax -> finite f32 ax = true -> val f32 ax = X -> 0.8659 <= X <= 1 -> isbits f32 th -> finite f32 th = true -> Rabs (val f32 th - (X + 1)) <= 2050 / 1048576 -> val f32 u = s * rho -> finite f32 u = true ->
  (isbits f32 zh /\ finite f32 zh = true) /\ (isbits f32 zl /\ finite f32 zl = true) /\ (s * 1.2 <= rho * val f32 zh <= s * 2.0) /\ Rabs (val f32 zl) <= s * 0.02.
Proof.
  intros bp E1 E2 E3 E4 E5 E6 E7 E8 E9 E10 E11 E12 E13 E14 E15 E16 E17 E18 HS HR BX FX VX RX BT FT VT VU FU.
  assert (HX : AP f32 1 ax X (907961 * 2 ^ 180, 1048576 * 2 ^ 180, 0)%Z) by (rewrite <- VX; apply AP_ex; [assumption|assumption|]; rewrite VX, !fx20; lra).
  assert (HT : AP f32 1 th (X + 1) (1956537 * 2 ^ 180, 2097152 * 2 ^ 180, 2050 * 2 ^ 180)%Z) by (split; [split; assumption|]; rewrite !Rmult_1_l, !fx20; split; [lra|exact VT]).
  assert (HB : AP f32 1 bp 1 (1048576 * 2 ^ 180, 1048576 * 2 ^ 180, 0)%Z) by (assert (VB : val f32 bp = 1 / 1) by lit; split; [split; [apply isb; vm_compute; reflexivity|vm_compute; reflexivity]|]; rewrite VB, !Rmult_1_l, !fx20, fxr_0; split; [lra|replace (_ - _) with 0 by lra; rewrite Rabs_R0; lra]).
  assert (BU : isbits f32 u) by (rewrite E1; apply fsub_isbits). clear E1.
  assert (SC0 : scal f32 s (2 ^ 75)). { split; [lra|]. split; [lia|]. apply Rle_trans with (/ 16777216 * fxr (2 ^ 75)). { change (bpow radix2 (emin f32 - 1)) with (bpow radix2 (-24 + -126)). rewrite bpow_plus. change (bpow radix2 (-24)) with (/ 16777216). apply Rmult_le_compat_l; [lra|]. unfold fxr, SC, Rdiv. rewrite (IZR_Zpower radix2 200 ltac:(lia) : IZR (2 ^ 200) = _), (IZR_Zpower radix2 75 ltac:(lia) : IZR (2 ^ 75) = _). rewrite <- bpow_opp, <- bpow_plus. apply bpow_le. lia. } apply Rmult_le_compat_r; [apply fxr_pos; lia|lra]. }
  assert (HU : AP f32 s u rho (-1048576 * 2 ^ 180, -1048576 * 2 ^ 180, 0)%Z) by (split; [split; assumption|]; rewrite VU, !fx20, fxr_0; split; [lra|replace (_ - _) with 0 by ring; rewrite Rabs_R0; lra]).
  clear VU. clearbody bp.
  apx f32 1 (ax +' bp) KW0. apply (AP_is _ _ _ _ (X + 1) _ _ _ (1956537 * 2 ^ 180) (2097152 * 2 ^ 180)) in KW0; [|reflexivity|rewrite !fx20; lra].
  epose proof (AP_inv f32 ltac:(vm_compute; discriminate) _ 0x3f800000 _ _ _ _ scal32 ltac:(vm_compute; reflexivity) ltac:(apply val132) KW0 ltac:(vmr) ltac:(vmr)) as KV. rewrite <- E2 in KV. clear E2 KW0.
  apx f32 s (u *' v) KS. rewrite <- E3 in KS. clear E3.
  epose proof (AP_trc f32 s _ 12 _ _ _ _ SC0 ltac:(cbn; lia) KS ltac:(vmr)) as KH. rewrite <- E4 in KH. clear E4.
  apx f32 1 (th -' bp) K1. apply (AP_is _ _ _ _ X _ _ _ (907961 * 2 ^ 180) (1048576 * 2 ^ 180)) in K1; [|ring|rewrite !fx20; lra]. apx f32 1 (ax -' (th -' bp)) KL. apply AP_zero in KL; [|ring]. rewrite <- E5 in KL. clear E5 K1.
  apx f32 s (u -' (sh *' th)) K1. apply AP_zero in K1; [|field; lra]. apx f32 s ((u -' (sh *' th)) -' (sh *' tl)) K2. apply AP_zero in K2; [|ring]. clear K1.
  set (dd := (u -' (sh *' th)) -' (sh *' tl)) in *. clearbody dd. apx f32 s (v *' dd) KSL. apply AP_zero in KSL; [|ring]. rewrite <- E6 in KSL. clear E6 K2 KL KV HU HT HB HX.
  epose proof (AP_un f32 s (140615 * 2 ^ 180) _ _ _ _ ltac:(lra) ltac:(rewrite fx20; lra) KS ltac:(cbn; lia) ltac:(vmr)) as KS1.
  epose proof (AP_un f32 s (140615 * 2 ^ 180) _ _ _ _ ltac:(lra) ltac:(rewrite fx20; lra) KH ltac:(cbn; lia) ltac:(vmr)) as KH1.
  epose proof (AP_un f32 s (140615 * 2 ^ 180) _ _ _ _ ltac:(lra) ltac:(rewrite fx20; lra) KSL ltac:(cbn; lia) ltac:(vmr)) as KSL1.
  apply AP_zero in KSL1; [|ring].
  apx f32 1 (ss *' ss) K2. rewrite <- E7 in K2. clear E7.
  apx f32 1 ((s2 *' s2) *' (rs_powf_L1 +' (s2 *' (rs_powf_L2 +' (s2 *' (rs_powf_L3 +' (s2 *' (rs_powf_L4 +' (s2 *' (rs_powf_L5 +' (s2 *' rs_powf_L6))))))))))) KR. rewrite <- E8 in KR. clear E8 K2.
  apx f32 1 (r +' (sl *' (sh +' ss))) KR'. rewrite <- E9 in KR'. clear E9 KR.
  apx f32 1 (sh *' sh) KQ. rewrite <- E10 in KQ. clear E10.
  lazymatch type of KR' with AP _ _ _ ?R (?l, ?h, ?e) => assert (RR : fxr l <= R <= fxr h) by exact (proj1 (proj2 KR')); set (rr := R) in * end. clearbody rr.
  lazymatch type of KQ with AP _ _ _ ?R (?l, ?h, ?e) => set (qq := R) in * end. clearbody qq.
  apx f32 1 ((0x40400000 +' s21) +' r') K1. epose proof (AP_trc f32 1 _ 12 _ _ _ _ scal32 ltac:(cbn; lia) K1 ltac:(vmr)) as KT1. rewrite <- E11 in KT1. clear E11 K1.
  apx f32 1 ((th1 -' 0x40400000) -' s21) K1. lazymatch type of KR' with AP _ _ _ ?R (?l, ?h, ?e) => apply (AP_is _ _ _ _ rr _ _ _ l h) in K1; [|ring|exact RR] end.
  apx f32 1 (r' -' ((th1 -' 0x40400000) -' s21)) KTL. apply AP_zero in KTL; [|ring]. rewrite <- E12 in KTL. clear E12 K1 KR' KQ.
  lazymatch type of KT1 with AP _ _ _ ?R (?l, ?h, ?e) => set (tt := R) in * end. clearbody tt. clear RR.
  apx f32 s (sh *' th1) KU2. rewrite <- E13 in KU2. clear E13.
  apx f32 s (sl *' th1) K1. apply AP_zero in K1; [|ring]. apx f32 s (tl1 *' ss) K2. apply AP_zero in K2; [|ring]. set (m1 := sl *' th1) in *. set (m2 := tl1 *' ss) in *. clearbody m1 m2.
  apx f32 s (m1 +' m2) KV2. apply AP_zero in KV2; [|ring]. rewrite <- E14 in KV2. clear E14 K1 K2 KT1 KTL.
  apx f32 s (u2 +' v2) K1. epose proof (AP_trc f32 s _ 12 _ _ _ _ SC0 ltac:(cbn; lia) K1 ltac:(vmr)) as KP. rewrite <- E15 in KP. clear E15 K1.
  apx f32 s (ph -' u2) K1. apply AP_zero in K1; [|ring]. apx f32 s (v2 -' (ph -' u2)) KPL. apply AP_zero in KPL; [|ring]. rewrite <- E16 in KPL. clear E16 K1 KV2.
  lazymatch type of KP with AP _ _ _ ?R (?l, ?h, ?e) => set (pp := R) in * end. clearbody pp.
  apx f32 s (rs_powf_CP_H *' ph) KZH. rewrite <- E17 in KZH. clear E17.
  apx f32 s (rs_powf_CP_L *' ph) K1. apx f32 s (pl *' rs_powf_CP) K2. apply AP_zero in K2; [|ring]. apx f32 s ((rs_powf_CP_L *' ph) +' (pl *' rs_powf_CP)) KZL. rewrite <- E18 in KZL. clear E18 K1 K2.
  pose proof (AP_bits _ _ _ _ _ KZH) as Q1. pose proof (AP_fin _ _ _ _ _ KZH) as Q2. pose proof (AP_bits _ _ _ _ _ KZL) as Q3. pose proof (AP_fin _ _ _ _ _ KZL) as Q4. pose proof (AP_ev _ _ _ _ _ (ltac:(lra) : 0 < s) KZL) as Q5.
  split; [now split|]. split; [now split|]. split.
  - destruct KZH as (_ & R1 & R2). apply Rabs_le_inv in R2. rewrite HR. lazymatch type of R1 with fxr ?l <= ?z <= fxr ?h => lazymatch type of R2 with _ <= _ <= s * fxr ?e => assert (A1 : -195 / 100 <= z) by (eapply Rle_trans; [apply (fx_dn l (-195) 100); vm_compute; reflexivity|apply R1]); assert (A2 : z <= -125 / 100) by (eapply Rle_trans; [apply R1|apply (fx_up h (-125) 100); vm_compute; reflexivity]); assert (A3 : fxr e <= 1 / 100) by (apply (fx_up e 1 100); vm_compute; reflexivity); set (zz := z) in *; set (ee := fxr e) in *; clearbody zz ee end end. assert (0 < s) by lra. assert (s * ee <= s * (1 / 100)) by (apply Rmult_le_compat_l; lra). assert (s * (-195 / 100) <= s * zz <= s * (-125 / 100)) by (split; apply Rmult_le_compat_l; lra). lra.
  - eapply Rle_trans; [exact Q5|]. apply Rmult_le_compat_l; [lra|]. rewrite <- fxr_add. eapply Rle_trans; [apply (fx_up _ 2 100); vm_compute; reflexivity|lra].
Qed.

Lemma lg32C X ax th u v ss sh tl sl s2 r r' s21 th1 tl1 u2 v2 ph pl zh zl : let bp := 0x3f800000%Z in u = ax -' bp -> v = 0x3f800000 /' (ax +' bp) -> ss = u *' v -> sh = trc 12 ss -> tl = ax -' (th -' bp) -> sl = v *' ((u -' (sh *' th)) -' (sh *' tl)) -> s2 = ss *' ss ->
  r = (s2 *' s2) *' (rs_powf_L1 +' (s2 *' (rs_powf_L2 +' (s2 *' (rs_powf_L3 +' (s2 *' (rs_powf_L4 +' (s2 *' (rs_powf_L5 +' (s2 *' rs_powf_L6)))))))))) -> r' = r +' (sl *' (sh +' ss)) -> s21 = sh *' sh ->
  th1 = trc 12 ((0x40400000 +' s21) +' r') -> tl1 = r' -' ((th1 -' 0x40400000) -' s21) -> u2 = sh *' th1 -> v2 = (sl *' th1) +' (tl1 *' ss) -> ph = trc 12 (u2 +' v2) -> pl = v2 -' (ph -' u2) -> zh = rs_powf_CP_H *' ph -> zl = (rs_powf_CP_L *' ph) +' (pl *' rs_powf_CP) ->
  isbits f32 ax -> finite f32 ax = true -> val f32 ax = X -> 0.8659 <= X <= 1.2248 -> isbits f32 th -> finite f32 th = true -> Rabs (val f32 th - (X + 1)) <= 2050 / 1048576 -> val f32 u = 1 * (X - 1) -> finite f32 u = true ->
  (isbits f32 zh /\ finite f32 zh = true) /\ (isbits f32 zl /\ finite f32 zl = true) /\ Rabs (val f32 zh) <= 0.36 /\ Rabs (val f32 zl) <= 0.02.
Proof.
  intros bp E1 E2 E3 E4 E5 E6 E7 E8 E9 E10 E11 E12 E13 E14 E15 E16 E17 E18 BX FX VX RX BT FT VT VU FU.
  assert (HX : AP f32 1 ax X (907961 * 2 ^ 180, 1284296 * 2 ^ 180, 0)%Z) by (rewrite <- VX; apply AP_ex; [assumption|assumption|]; rewrite VX, !fx20; lra).
  assert (HT : AP f32 1 th (X + 1) (1956537 * 2 ^ 180, 2332872 * 2 ^ 180, 2050 * 2 ^ 180)%Z) by (split; [split; assumption|]; rewrite !Rmult_1_l, !fx20; split; [lra|exact VT]).
  assert (HB : AP f32 1 bp 1 (1048576 * 2 ^ 180, 1048576 * 2 ^ 180, 0)%Z) by (assert (VB : val f32 bp = 1 / 1) by lit; split; [split; [apply isb; vm_compute; reflexivity|vm_compute; reflexivity]|]; rewrite VB, !Rmult_1_l, !fx20, fxr_0; split; [lra|replace (_ - _) with 0 by lra; rewrite Rabs_R0; lra]).
  assert (BU : isbits f32 u) by (rewrite E1; apply fsub_isbits). clear E1.
  pose proof scal32 as SC0.
  assert (HU : AP f32 1 u (X - 1) (-140615 * 2 ^ 180, 235720 * 2 ^ 180, 0)%Z) by (split; [split; assumption|]; rewrite VU, !fx20, fxr_0; split; [lra|replace (_ - _) with 0 by ring; rewrite Rabs_R0; lra]).
  clear VU. clearbody bp.
  apx f32 1 (ax +' bp) KW0. apply (AP_is _ _ _ _ (X + 1) _ _ _ (1956537 * 2 ^ 180) (2332872 * 2 ^ 180)) in KW0; [|reflexivity|rewrite !fx20; lra].
  epose proof (AP_inv f32 ltac:(vm_compute; discriminate) _ 0x3f800000 _ _ _ _ scal32 ltac:(vm_compute; reflexivity) ltac:(apply val132) KW0 ltac:(vmr) ltac:(vmr)) as KV. rewrite <- E2 in KV. clear E2 KW0.
  apx f32 1 (u *' v) KS. rewrite <- E3 in KS. clear E3.
  epose proof (AP_trc f32 1 _ 12 _ _ _ _ SC0 ltac:(cbn; lia) KS ltac:(vmr)) as KH. rewrite <- E4 in KH. clear E4.
  apx f32 1 (th -' bp) K1. apply (AP_is _ _ _ _ X _ _ _ (907961 * 2 ^ 180) (1284296 * 2 ^ 180)) in K1; [|ring|rewrite !fx20; lra]. apx f32 1 (ax -' (th -' bp)) KL. apply AP_zero in KL; [|ring]. rewrite <- E5 in KL. clear E5 K1.
  apx f32 1 (u -' (sh *' th)) K1. apply AP_zero in K1; [|field; lra]. apx f32 1 ((u -' (sh *' th)) -' (sh *' tl)) K2. apply AP_zero in K2; [|ring]. clear K1.
  set (dd := (u -' (sh *' th)) -' (sh *' tl)) in *. clearbody dd. apx f32 1 (v *' dd) KSL. apply AP_zero in KSL; [|ring]. rewrite <- E6 in KSL. clear E6 K2 KL KV HU HT HB HX.
  pose proof KS as KS1.
  pose proof KH as KH1.
  pose proof KSL as KSL1.
  apply AP_zero in KSL1; [|ring].
  apx f32 1 (ss *' ss) K2. rewrite <- E7 in K2. clear E7.
  apx f32 1 ((s2 *' s2) *' (rs_powf_L1 +' (s2 *' (rs_powf_L2 +' (s2 *' (rs_powf_L3 +' (s2 *' (rs_powf_L4 +' (s2 *' (rs_powf_L5 +' (s2 *' rs_powf_L6))))))))))) KR. rewrite <- E8 in KR. clear E8 K2.
  apx f32 1 (r +' (sl *' (sh +' ss))) KR'. rewrite <- E9 in KR'. clear E9 KR.
  apx f32 1 (sh *' sh) KQ. rewrite <- E10 in KQ. clear E10.
  lazymatch type of KR' with AP _ _ _ ?R (?l, ?h, ?e) => assert (RR : fxr l <= R <= fxr h) by exact (proj1 (proj2 KR')); set (rr := R) in * end. clearbody rr.
  lazymatch type of KQ with AP _ _ _ ?R (?l, ?h, ?e) => set (qq := R) in * end. clearbody qq.
  apx f32 1 ((0x40400000 +' s21) +' r') K1. epose proof (AP_trc f32 1 _ 12 _ _ _ _ scal32 ltac:(cbn; lia) K1 ltac:(vmr)) as KT1. rewrite <- E11 in KT1. clear E11 K1.
  apx f32 1 ((th1 -' 0x40400000) -' s21) K1. lazymatch type of KR' with AP _ _ _ ?R (?l, ?h, ?e) => apply (AP_is _ _ _ _ rr _ _ _ l h) in K1; [|ring|exact RR] end.
  apx f32 1 (r' -' ((th1 -' 0x40400000) -' s21)) KTL. apply AP_zero in KTL; [|ring]. rewrite <- E12 in KTL. clear E12 K1 KR' KQ.
  lazymatch type of KT1 with AP _ _ _ ?R (?l, ?h, ?e) => set (tt := R) in * end. clearbody tt. clear RR.
  apx f32 1 (sh *' th1) KU2. rewrite <- E13 in KU2. clear E13.
  apx f32 1 (sl *' th1) K1. apply AP_zero in K1; [|ring]. apx f32 1 (tl1 *' ss) K2. apply AP_zero in K2; [|ring]. set (m1 := sl *' th1) in *. set (m2 := tl1 *' ss) in *. clearbody m1 m2.
  apx f32 1 (m1 +' m2) KV2. apply AP_zero in KV2; [|ring]. rewrite <- E14 in KV2. clear E14 K1 K2 KT1 KTL.
  apx f32 1 (u2 +' v2) K1. epose proof (AP_trc f32 1 _ 12 _ _ _ _ SC0 ltac:(cbn; lia) K1 ltac:(vmr)) as KP. rewrite <- E15 in KP. clear E15 K1.
  apx f32 1 (ph -' u2) K1. apply AP_zero in K1; [|ring]. apx f32 1 (v2 -' (ph -' u2)) KPL. apply AP_zero in KPL; [|ring]. rewrite <- E16 in KPL. clear E16 K1 KV2.
  lazymatch type of KP with AP _ _ _ ?R (?l, ?h, ?e) => set (pp := R) in * end. clearbody pp.
  apx f32 1 (rs_powf_CP_H *' ph) KZH. rewrite <- E17 in KZH. clear E17.
  apx f32 1 (rs_powf_CP_L *' ph) K1. apx f32 1 (pl *' rs_powf_CP) K2. apply AP_zero in K2; [|ring]. apx f32 1 ((rs_powf_CP_L *' ph) +' (pl *' rs_powf_CP)) KZL. rewrite <- E18 in KZL. clear E18 K1 K2.
  pose proof (AP_bits _ _ _ _ _ KZH) as Q1. pose proof (AP_fin _ _ _ _ _ KZH) as Q2. pose proof (AP_bits _ _ _ _ _ KZL) as Q3. pose proof (AP_fin _ _ _ _ _ KZL) as Q4. pose proof (AP_ev _ _ _ _ _ (ltac:(lra) : 0 < 1) KZL) as Q5. pose proof (AP_ev _ _ _ _ _ (ltac:(lra) : 0 < 1) KZH) as Q6.
  split; [now split|]. split; [now split|]. split.
  - eapply Rle_trans; [exact Q6|]. rewrite Rmult_1_l, <- fxr_add. eapply Rle_trans; [apply (fx_up _ 36 100); vm_compute; reflexivity|lra].
  - eapply Rle_trans; [exact Q5|]. rewrite Rmult_1_l, <- fxr_add. eapply Rle_trans; [apply (fx_up _ 2 100); vm_compute; reflexivity|lra].
Qed.

Lemma lg32D X ax th u v ss sh tl sl s2 r r' s21 th1 tl1 u2 v2 ph pl zh zl : let bp := 0x3fc00000%Z in u = ax -' bp -> v = 0x3f800000 /' (ax +' bp) -> ss = u *' v -> sh = trc 12 ss -> tl = ax -' (th -' bp) -> sl = v *' ((u -' (sh *' th)) -' (sh *' tl)) -> s2 = ss *' ss ->
  r = (s2 *' s2) *' (rs_powf_L1 +' (s2 *' (rs_powf_L2 +' (s2 *' (rs_powf_L3 +' (s2 *' (rs_powf_L4 +' (s2 *' (rs_powf_L5 +' (s2 *' rs_powf_L6)))))))))) -> r' = r +' (sl *' (sh +' ss)) -> s21 = sh *' sh ->
  th1 = trc 12 ((0x40400000 +' s21) +' r') -> tl1 = r' -' ((th1 -' 0x40400000) -' s21) -> u2 = sh *' th1 -> v2 = (sl *' th1) +' (tl1 *' ss) -> ph = trc 12 (u2 +' v2) -> pl = v2 -' (ph -' u2) -> zh = rs_powf_CP_H *' ph -> zl = (rs_powf_CP_L *' ph) +' (pl *' rs_powf_CP) ->
  isbits f32 ax -> finite f32 ax = true -> val f32 ax = X -> 1.2246 <= X <= 1.7322 -> isbits f32 th -> finite f32 th = true -> Rabs (val f32 th - (X + 1.5)) <= 2050 / 1048576 -> val f32 u = 1 * (X - 1.5) -> finite f32 u = true ->
  (isbits f32 zh /\ finite f32 zh = true) /\ (isbits f32 zl /\ finite f32 zl = true) /\ Rabs (val f32 zh) <= 0.3 /\ Rabs (val f32 zl) <= 0.02.
Proof.
  intros bp E1 E2 E3 E4 E5 E6 E7 E8 E9 E10 E11 E12 E13 E14 E15 E16 E17 E18 BX FX VX RX BT FT VT VU FU.
  assert (HX : AP f32 1 ax X (1284086 * 2 ^ 180, 1816344 * 2 ^ 180, 0)%Z) by (rewrite <- VX; apply AP_ex; [assumption|assumption|]; rewrite VX, !fx20; lra).
  assert (HT : AP f32 1 th (X + 1.5) (2856950 * 2 ^ 180, 3389208 * 2 ^ 180, 2050 * 2 ^ 180)%Z) by (split; [split; assumption|]; rewrite !Rmult_1_l, !fx20; split; [lra|exact VT]).
  assert (HB : AP f32 1 bp 1.5 (1572864 * 2 ^ 180, 1572864 * 2 ^ 180, 0)%Z) by (assert (VB : val f32 bp = 3 / 2) by lit; split; [split; [apply isb; vm_compute; reflexivity|vm_compute; reflexivity]|]; rewrite VB, !Rmult_1_l, !fx20, fxr_0; split; [lra|replace (_ - _) with 0 by lra; rewrite Rabs_R0; lra]).
  assert (BU : isbits f32 u) by (rewrite E1; apply fsub_isbits). clear E1.
  pose proof scal32 as SC0.
  assert (HU : AP f32 1 u (X - 1.5) (-288778 * 2 ^ 180, 243480 * 2 ^ 180, 0)%Z) by (split; [split; assumption|]; rewrite VU, !fx20, fxr_0; split; [lra|replace (_ - _) with 0 by ring; rewrite Rabs_R0; lra]).
  clear VU. clearbody bp.
  apx f32 1 (ax +' bp) KW0. apply (AP_is _ _ _ _ (X + 1.5) _ _ _ (2856950 * 2 ^ 180) (3389208 * 2 ^ 180)) in KW0; [|reflexivity|rewrite !fx20; lra].
  epose proof (AP_inv f32 ltac:(vm_compute; discriminate) _ 0x3f800000 _ _ _ _ scal32 ltac:(vm_compute; reflexivity) ltac:(apply val132) KW0 ltac:(vmr) ltac:(vmr)) as KV. rewrite <- E2 in KV. clear E2 KW0.
  apx f32 1 (u *' v) KS. rewrite <- E3 in KS. clear E3.
  epose proof (AP_trc f32 1 _ 12 _ _ _ _ SC0 ltac:(cbn; lia) KS ltac:(vmr)) as KH. rewrite <- E4 in KH. clear E4.
  apx f32 1 (th -' bp) K1. apply (AP_is _ _ _ _ X _ _ _ (1284086 * 2 ^ 180) (1816344 * 2 ^ 180)) in K1; [|ring|rewrite !fx20; lra]. apx f32 1 (ax -' (th -' bp)) KL. apply AP_zero in KL; [|ring]. rewrite <- E5 in KL. clear E5 K1.
  apx f32 1 (u -' (sh *' th)) K1. apply AP_zero in K1; [|field; lra]. apx f32 1 ((u -' (sh *' th)) -' (sh *' tl)) K2. apply AP_zero in K2; [|ring]. clear K1.
  set (dd := (u -' (sh *' th)) -' (sh *' tl)) in *. clearbody dd. apx f32 1 (v *' dd) KSL. apply AP_zero in KSL; [|ring]. rewrite <- E6 in KSL. clear E6 K2 KL KV HU HT HB HX.
  pose proof KS as KS1.
  pose proof KH as KH1.
  pose proof KSL as KSL1.
  apply AP_zero in KSL1; [|ring].
  apx f32 1 (ss *' ss) K2. rewrite <- E7 in K2. clear E7.
  apx f32 1 ((s2 *' s2) *' (rs_powf_L1 +' (s2 *' (rs_powf_L2 +' (s2 *' (rs_powf_L3 +' (s2 *' (rs_powf_L4 +' (s2 *' (rs_powf_L5 +' (s2 *' rs_powf_L6))))))))))) KR. rewrite <- E8 in KR. clear E8 K2.
  apx f32 1 (r +' (sl *' (sh +' ss))) KR'. rewrite <- E9 in KR'. clear E9 KR.
  apx f32 1 (sh *' sh) KQ. rewrite <- E10 in KQ. clear E10.
  lazymatch type of KR' with AP _ _ _ ?R (?l, ?h, ?e) => assert (RR : fxr l <= R <= fxr h) by exact (proj1 (proj2 KR')); set (rr := R) in * end. clearbody rr.
  lazymatch type of KQ with AP _ _ _ ?R (?l, ?h, ?e) => set (qq := R) in * end. clearbody qq.
  apx f32 1 ((0x40400000 +' s21) +' r') K1. epose proof (AP_trc f32 1 _ 12 _ _ _ _ scal32 ltac:(cbn; lia) K1 ltac:(vmr)) as KT1. rewrite <- E11 in KT1. clear E11 K1.
  apx f32 1 ((th1 -' 0x40400000) -' s21) K1. lazymatch type of KR' with AP _ _ _ ?R (?l, ?h, ?e) => apply (AP_is _ _ _ _ rr _ _ _ l h) in K1; [|ring|exact RR] end.
  apx f32 1 (r' -' ((th1 -' 0x40400000) -' s21)) KTL. apply AP_zero in KTL; [|ring]. rewrite <- E12 in KTL. clear E12 K1 KR' KQ.
  lazymatch type of KT1 with AP _ _ _ ?R (?l, ?h, ?e) => set (tt := R) in * end. clearbody tt. clear RR.
  apx f32 1 (sh *' th1) KU2. rewrite <- E13 in KU2. clear E13.
  apx f32 1 (sl *' th1) K1. apply AP_zero in K1; [|ring]. apx f32 1 (tl1 *' ss) K2. apply AP_zero in K2; [|ring]. set (m1 := sl *' th1) in *. set (m2 := tl1 *' ss) in *. clearbody m1 m2.
  apx f32 1 (m1 +' m2) KV2. apply AP_zero in KV2; [|ring]. rewrite <- E14 in KV2. clear E14 K1 K2 KT1 KTL.
  apx f32 1 (u2 +' v2) K1. epose proof (AP_trc f32 1 _ 12 _ _ _ _ SC0 ltac:(cbn; lia) K1 ltac:(vmr)) as KP. rewrite <- E15 in KP. clear E15 K1.
  apx f32 1 (ph -' u2) K1. apply AP_zero in K1; [|ring]. apx f32 1 (v2 -' (ph -' u2)) KPL. apply AP_zero in KPL; [|ring]. rewrite <- E16 in KPL. clear E16 K1 KV2.
  lazymatch type of KP with AP _ _ _ ?R (?l, ?h, ?e) => set (pp := R) in * end. clearbody pp.
  apx f32 1 (rs_powf_CP_H *' ph) KZH. rewrite <- E17 in KZH. clear E17.
  apx f32 1 (rs_powf_CP_L *' ph) K1. apx f32 1 (pl *' rs_powf_CP) K2. apply AP_zero in K2; [|ring]. apx f32 1 ((rs_powf_CP_L *' ph) +' (pl *' rs_powf_CP)) KZL. rewrite <- E18 in KZL. clear E18 K1 K2.
  pose proof (AP_bits _ _ _ _ _ KZH) as Q1. pose proof (AP_fin _ _ _ _ _ KZH) as Q2. pose proof (AP_bits _ _ _ _ _ KZL) as Q3. pose proof (AP_fin _ _ _ _ _ KZL) as Q4. pose proof (AP_ev _ _ _ _ _ (ltac:(lra) : 0 < 1) KZL) as Q5. pose proof (AP_ev _ _ _ _ _ (ltac:(lra) : 0 < 1) KZH) as Q6.
  split; [now split|]. split; [now split|]. split.
  - eapply Rle_trans; [exact Q6|]. rewrite Rmult_1_l, <- fxr_add. eapply Rle_trans; [apply (fx_up _ 30 100); vm_compute; reflexivity|lra].
  - eapply Rle_trans; [exact Q5|]. rewrite Rmult_1_l, <- fxr_add. eapply Rle_trans; [apply (fx_up _ 2 100); vm_compute; reflexivity|lra].
Qed.

(** The double-precision kernel [k_tan] from 0.6743 to pi/4, where the argument is folded about pi/4. *)
From Coq Require Import ZArith Reals Lia Lra Bool List Psatz.
From Flocq Require Import Core Sterbenz.
From Verif Require Import Base Spec SpecAcc SpecUlp Format P_format Ieee P_ieee P_real P_neg P_lit P_err P_apx P_poly P_poly2 P_acc P_kerf P_kerf2 P_tanf2 P_cbrt P_red64 P_ulp P_ksc P_ker64 P_tan64a P_tan64 P_tan64r P_tan64o M_basic M_elib M_trig.
Import ListNotations.
Open Scope R_scope.
Open Scope fl_scope.
Definition sgR (s : bool) : R := if s then -1 else 1.
Definition sgZ (s : bool) : Z := if s then 0xbff0000000000000 else 0x3ff0000000000000.
Definition bigG (s : bool) (x : Z) : Z := let r := tanR x 0 in let w := x +: r in x +: (r -: ((w *: w) /: (w +: sgZ s))).
Lemma quot_err A B T s eA eB : (s = 1 \/ s = -1) -> -0.001 <= T <= 0.112 -> Rabs (A - T * T) <= eA -> Rabs (B - (T + s)) <= eB -> eB <= / 1000000 -> Rabs (A / B - T * T / (T + s)) <= eA * 1.127 + eB * 0.016.
Proof.
  intros Hs HT HA HB He. assert (TS : 0.888 <= Rabs (T + s)). { destruct Hs as [-> | ->]; [rewrite Rabs_pos_eq by lra; lra|rewrite Rabs_left by lra; lra]. }
  pose proof (Rabs_triang_inv (T + s) B) as Q. rewrite (Rabs_minus_sym (T + s) B) in Q. assert (BB : 0.8879 <= Rabs B) by lra.
  assert (B0 : B <> 0) by (intros E; rewrite E, Rabs_R0 in BB; lra). assert (TS0 : T + s <> 0) by (intros E; rewrite E, Rabs_R0 in TS; lra).
  replace (A / B - T * T / (T + s)) with ((A - T * T) * / B + - (T * T * (B - (T + s)) * (/ B * / (T + s)))) by (field; split; assumption).
  assert (IB : 0 <= Rabs (/ B) <= 1.127). { rewrite Rabs_inv. split; [left; apply Rinv_0_lt_compat; lra|]. apply Rle_trans with (/ 0.8879); [apply Rinv_le; lra|lra]. }
  assert (IT : 0 <= Rabs (/ (T + s)) <= 1.127). { rewrite Rabs_inv. split; [left; apply Rinv_0_lt_compat; lra|]. apply Rle_trans with (/ 0.8879); [apply Rinv_le; lra|lra]. }
  eapply Rle_trans; [apply Rabs_triang|]. rewrite Rabs_Ropp, !Rabs_mult. pose proof (Rabs_pos (A - T * T)). pose proof (Rabs_pos (B - (T + s))).
  assert (Rabs (A - T * T) * Rabs (/ B) <= eA * 1.127) by (apply Rmult_le_compat; lra).
  assert (TT : Rabs T <= 0.112) by (apply Rabs_le; lra). assert (0 <= Rabs T * Rabs T <= 0.012544) by (pose proof (Rabs_pos T); nra).
  assert (Rabs T * Rabs T * Rabs (B - (T + s)) <= 0.012544 * eB) by (apply Rmult_le_compat; lra). assert (0 <= Rabs T * Rabs T * Rabs (B - (T + s))) by (apply Rmult_le_pos; lra).
  assert (Rabs (/ B) * Rabs (/ (T + s)) <= 1.127 * 1.127) by (apply Rmult_le_compat; lra). assert (0 <= Rabs (/ B) * Rabs (/ (T + s))) by (apply Rmult_le_pos; lra).
  assert (Rabs T * Rabs T * Rabs (B - (T + s)) * (Rabs (/ B) * Rabs (/ (T + s))) <= 0.012544 * eB * (1.127 * 1.127)) by (apply Rmult_le_compat; lra). lra.
Qed.
Lemma bigG_ok s x : isbits f64 x -> finite f64 x = true -> -0.0001 <= val f64 x <= 0.1112 -> let T := val f64 x * peval k_tan_poly (val f64 x * val f64 x) in
  -0.0007 <= T <= 0.1118 /\ finite f64 (bigG s x) = true /\ isbits f64 (bigG s x) /\ Rabs (val f64 (bigG s x) - (T - T * T / (T + sgR s))) <= 0.3 * u.
Proof.
  intros Bx Fx HX T. set (X := val f64 x) in *.
  assert (A1 : AP f64 1 x X (- cc 111300, cc 111300, 0)%Z). { apply AP_var; try assumption. rewrite fxr_opp. pose proof (cc_ok 111300) as C. change (IZR (111300 - 1)) with 111299 in C. fold X. lra. }
  unfold bigG, tanR. cbv zeta. pose proof scal64 as HS.
  apx f64 1%R (x *: x) Kz. set (z := x *: x) in *. clearbody z.
  apx f64 1%R (z *: z) Kw. set (w := z *: z) in *. clearbody w.
  apx f64 1%R ((nth 1 rs_k_tan_T 0%Z) +: (w *: ((nth 3 rs_k_tan_T 0%Z) +: (w *: ((nth 5 rs_k_tan_T 0%Z) +: (w *: ((nth 7 rs_k_tan_T 0%Z) +: (w *: ((nth 9 rs_k_tan_T 0%Z) +: (w *: (nth 11 rs_k_tan_T 0%Z)))))))))))  Kr.
  set (r := (nth 1 rs_k_tan_T 0%Z) +: _) in *. clearbody r.
  apx f64 1%R (z *: ((nth 2 rs_k_tan_T 0%Z) +: (w *: ((nth 4 rs_k_tan_T 0%Z) +: (w *: ((nth 6 rs_k_tan_T 0%Z) +: (w *: ((nth 8 rs_k_tan_T 0%Z) +: (w *: ((nth 10 rs_k_tan_T 0%Z) +: (w *: (nth 12 rs_k_tan_T 0%Z))))))))))))  Kv.
  set (v := z *: ((nth 2 rs_k_tan_T 0%Z) +: _)) in *. clearbody v.
  apx f64 1%R (z *: x) Ks. set (s0 := z *: x) in *. clearbody s0.
  apx f64 1%R ((0%Z +: (z *: ((s0 *: (r +: v)) +: 0%Z))) +: (s0 *: (nth 0 rs_k_tan_T 0%Z))) K. set (R1 := (0%Z +: _) +: _) in *. clearbody R1.
  match type of K with AP f64 1 R1 ?e _ => assert (E : e = T - X) end.
  { unfold T. unfold peval, k_tan_poly. let v := eval vm_compute in (map (litq f64) rs_k_tan_T) in change (map (litq f64) rs_k_tan_T) with v. cbn [fst snd]. clearbody X. clear. field. }
  rewrite E in K. clear E Kz Kw Kr Kv Ks. assert (HT : -0.0007 <= T <= 0.1118).
  { pose proof (AP_mag _ _ _ _ _ K) as M. match type of M with _ <= fxr ?b => assert (Q : (b <= cc 500)%Z) by (vm_compute; discriminate) end. apply fxr_le in Q. pose proof (cc_le 500 ltac:(lia)). assert (QQ : Rabs (T - X) <= 0.0005) by lra. apply Rabs_le_inv in QQ. lra. }
  split; [exact HT|].
  apx f64 1%R (x +: R1) KW. set (W := x +: R1) in *. clearbody W. replace (X + (T - X)) with T in KW by ring.
  apx f64 1%R (W *: W) KA. set (A := W *: W) in *. clearbody A.
  assert (KB : exists c, AP f64 1 (W +: sgZ s) (T + sgR s) c /\ (ber c <=? uu 1500000)%Z = true).
  { destruct s; unfold sgZ, sgR; [apx f64 1%R (W +: 0xbff0000000000000) KB|apx f64 1%R (W +: 0x3ff0000000000000) KB].
    - replace (T + -1) with (T + -4503599627370496 / 4503599627370496) by field. eexists; split; [exact KB|vm_compute; reflexivity].
    - replace (T + 1) with (T + 4503599627370496 / 4503599627370496) by field. eexists; split; [exact KB|vm_compute; reflexivity]. }
  destruct KB as (c & KB & Hc). set (B := W +: sgZ s) in *. clearbody B. pose proof (AP_fin _ _ _ _ _ KA) as FA. pose proof (AP_fin _ _ _ _ _ KB) as FB. pose proof (AP_err _ _ _ _ _ KA) as EA. pose proof (AP_err _ _ _ _ _ KB) as EB.
  rewrite !Rmult_1_l in EA, EB. pose proof (fxr_uu _ 1500000 ltac:(lia) Hc) as Hc'. 
  match type of EA with _ <= fxr ?b => assert (HA' : fxr b <= 80000 / 1000000 * u) by (apply fxr_uu; [lia|vm_compute; reflexivity]) end.
  assert (Sg : sgR s = 1 \/ sgR s = -1) by (destruct s; auto). set (sg := sgR s) in *. clearbody sg. set (VA := val f64 A) in *. set (VB := val f64 B) in *.
  pose proof (quot_err VA VB T sg (0.08 * u) (1.5 * u) Sg ltac:(lra) ltac:(lra) ltac:(lra) ltac:(lra)) as QE.
  assert (TS : 0.888 <= Rabs (T + sg)). { destruct Sg as [-> | ->]; [rewrite Rabs_pos_eq by lra; lra|rewrite Rabs_left by lra; lra]. }
  assert (B0 : VB <> 0). { intros Q. rewrite Q in EB. replace (0 - (T + sg)) with (- (T + sg)) in EB by ring. rewrite Rabs_Ropp in EB. lra. }
  assert (QQ : Rabs (T * T / (T + sg)) <= 0.0142). { unfold Rdiv. rewrite Rabs_mult, Rabs_inv. rewrite (Rabs_pos_eq (T * T)) by nra. assert (T * T <= 0.0125) by nra. assert (0 <= T * T) by nra. apply Rle_trans with (0.0125 * / 0.888); [|lra]. apply Rmult_le_compat; [lra|left; apply Rinv_0_lt_compat; lra|lra|apply Rinv_le; lra]. }
  assert (QV : Rabs (VA / VB) <= 0.0143) by (pose proof (absb _ _ _ _ QE QQ); lra).
  destruct (div64 A B 1 FA FB B0) as [FQ EQ]; [fold VA VB; lra|apply big1000; lra|]. fold VA VB in EQ. pose proof (rnd64_err (VA / VB)) as RQ. rewrite <- EQ in RQ. assert (BQ : isbits f64 (A /: B)) by apply fdiv_isbits. pose proof tiny200 as T200. set (q := A /: B) in *. clearbody q.
  assert (EQ' : Rabs (val f64 q - T * T / (T + sg)) <= 0.13 * u). { replace (val f64 q - T * T / (T + sg)) with ((val f64 q - VA / VB) + (VA / VB - T * T / (T + sg))) by ring. eapply Rle_trans; [apply Rabs_triang|]. lra. }
  set (Q := T * T / (T + sg)) in *. assert (KQ : AP f64 1 q Q (- cc 14300, cc 14300, uu 130001)%Z). { apply AP_leaf; [exact BQ|exact FQ| |]. - rewrite fxr_opp. pose proof (cc_ok 14300) as C. change (IZR (14300 - 1)) with 14299 in C. apply Rabs_le_inv in QQ. lra. - pose proof (uu_ge 130001 ltac:(lia)) as C. change (IZR (130001 - 1)) with 130000 in C. lra. }
  clearbody Q. clear KA KB KW EA EB. clearbody T.
  apx f64 1%R (x +: (R1 -: q)) KG. split; [exact (AP_fin _ _ _ _ _ KG)|]. split; [exact (AP_bits _ _ _ _ _ KG)|]. apply AP_err in KG. rewrite !Rmult_1_l in KG. replace (X + (T - X - Q)) with (T - Q) in KG by ring. eapply Rle_trans; [exact KG|].
  eapply Rle_trans; [apply (fxr_uu _ 300000); [lia|vm_compute; reflexivity]|lra].
Qed.

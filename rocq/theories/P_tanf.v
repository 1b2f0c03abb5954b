(** The tangent kernel of the f32 functions. *)
From Coq Require Import ZArith Reals Lia Lra Bool List Psatz.
From Flocq Require Import Core.
From Verif Require Import Base Spec SpecFun SpecAcc Format P_format Ieee P_ieee P_real P_lit P_neg M_basic M_elib M_rempio2 M_trig
  P_elem P_elem2 P_ival P_ival2 P_tot P_sym P_err P_rem P_fx P_apx P_poly P_poly2 P_poly3 P_taylor P_acc P_kerf P_kerf2 P_medf P_smallf P_rplf P_trigf.
Import ListNotations.
Open Scope R_scope.

Definition k_tanf_poly : poly := (1, 1)%Z :: map (litq f64) rs_k_tanf_T.
Definition tanP (z : R) : R := peval k_tanf_poly z * peval (tcos 9) z + - peval (tsin 9) z.
Definition tanL : list iv := ladd (lmul (map iq k_tanf_poly) (map iq (tcos 9))) (lneg (map iq (tsin 9))).
Lemma tanP_PB : Pol tanL tanP.
Proof. apply (PB_add _ _ (fun z => peval k_tanf_poly z * peval (tcos 9) z)); [apply PB_mul; apply PB_poly; vm_compute; reflexivity|apply PB_neg, PB_poly; vm_compute; reflexivity]. Qed.
(** 2.4e-8 (1 - z/6) *)
Definition slack : poly := [(24, 1000000000)%Z; (-24, 6000000000)%Z].
Lemma slack_PB : Pol (map iq slack) (fun z => 24 / 1000000000 * (1 - z / 6)).
Proof. apply (PB_ext _ (peval slack)); [apply PB_poly; reflexivity|]. intros z. unfold slack, peval. cbn [fst snd]. field. Qed.
Definition hw : Z := (2 ^ 191)%Z.
Lemma tan_chk1 : pieces3 (ladd (map iq slack) tanL) hw hw 158 0 (2 ^ 200) = true.
Proof. vm_compute. reflexivity. Qed.
Lemma tan_chk2 : pieces3 (ladd (map iq slack) (lneg tanL)) hw hw 158 0 (2 ^ 200) = true.
Proof. vm_compute. reflexivity. Qed.
(** below 2^-13 the error is far smaller *)
Lemma tan_chk3 : pieces3 tanL (2 ^ 186) (2 ^ 186) 1 (- (2 ^ 169)) (2 ^ 169) = true.
Proof. vm_compute. reflexivity. Qed.
Lemma w617b z : 0 <= z <= 0.61700 -> fxr (hw - hw) <= z <= fxr (hw + (2 * Z.of_nat 158 - 1) * hw).
Proof.
  intros H. replace (hw - hw)%Z with 0%Z by lia. replace (hw + (2 * Z.of_nat 158 - 1) * hw)%Z with (0 + Z.of_nat 632 * w617)%Z by (vm_compute; reflexivity). now apply w617_ok.
Qed.
Lemma tanP_err z : 0 <= z <= 0.61700 -> Rabs (tanP z) <= 24 / 1000000000 * (1 - z / 6).
Proof.
  intros H. pose proof (pieces3_ok _ _ hw _ _ 158 (PB_add _ _ _ _ slack_PB tanP_PB) ltac:(vm_compute; discriminate) hw z ltac:(lia) tan_chk1 (w617b z H)) as A.
  pose proof (pieces3_ok _ _ hw _ _ 158 (PB_add _ _ _ _ slack_PB (PB_neg _ _ tanP_PB)) ltac:(vm_compute; discriminate) hw z ltac:(lia) tan_chk2 (w617b z H)) as B.
  cbv beta in A, B. rewrite fxr_0 in A, B. apply Rabs_le. lra.
Qed.
Lemma tanP_small z : 0 <= z <= / 8192 -> Rabs (tanP z) <= / 2147483648.
Proof.
  intros H. pose proof (pieces3_ok _ _ (2 ^ 186)%Z _ _ 1 tanP_PB ltac:(vm_compute; discriminate) (2 ^ 186)%Z z ltac:(lia) tan_chk3) as A.
  change (2 ^ 186 - 2 ^ 186)%Z with 0%Z in A. change (2 ^ 186 + (2 * Z.of_nat 1 - 1) * 2 ^ 186)%Z with (2 ^ (200 - 13))%Z in A. rewrite fxr_0, (fxr_pow 13) in A by lia.
  rewrite fxr_opp in A. change (2 ^ 169)%Z with (2 ^ (200 - 31))%Z in A. rewrite (fxr_pow 31) in A by lia. change (- (13))%Z with (-13)%Z in A. change (- (31))%Z with (-31)%Z in A. change (bpow radix2 (-13)) with (/ 8192) in A. change (bpow radix2 (-31)) with (/ 2147483648) in A.
  apply Rabs_le. apply A. exact H.
Qed.
(** tan Y against the exact polynomial, multiplied by cos Y *)
Lemma tan_poly_err Y : Rabs Y <= 0.78549 -> Rabs (Y * peval k_tanf_poly (Y * Y) * cos Y - sin Y) <= Rabs Y * (Rabs (tanP (Y * Y)) + / 1000000000000) /\ Rabs (peval k_tanf_poly (Y * Y)) <= 2.
Proof.
  intros H. pose proof (sq_617 Y H) as Z. pose proof (pow_10 _ Z).
  pose proof (sin_taylor Y 4 ltac:(lra)) as TS. change (2 * 4 + 1)%nat with 9%nat in TS. change (2 * 4 + 2)%nat with 10%nat in TS. replace (IZR (fz (4 * 4 + 5))) with 51090942171709440000 in TS by (vm_compute; reflexivity).
  pose proof (cos_taylor Y 4 ltac:(lra)) as TC. change (2 * 4 + 1)%nat with 9%nat in TC. change (2 * 4 + 2)%nat with 10%nat in TC. replace (IZR (fz (4 * 4 + 4))) with 2432902008176640000 in TC by (vm_compute; reflexivity).
  unfold tanP. set (c := peval (tcos 9) (Y * Y)) in *. set (s := peval (tsin 9) (Y * Y)) in *.
  assert (PBd : Rabs (peval k_tanf_poly (Y * Y)) <= 2).
  { pose proof (pcheck_ok k_tanf_poly 0 (632 * w617) 1 0 (2 ^ 201) (Y * Y) ltac:(vm_compute; reflexivity) ltac:(lia)) as B. replace (0 + Z.of_nat 1 * (632 * w617))%Z with (0 + Z.of_nat 632 * w617)%Z in B by lia. specialize (B (w617_ok _ Z)).
    rewrite fxr_0 in B. assert (E2 : fxr (2 ^ 201) = 2) by (unfold fxr; replace (IZR (2 ^ 201)) with (2 * IZR SC) by (rewrite <- mult_IZR; f_equal); field; pose proof SC_pos; lra). rewrite Rabs_pos_eq; lra. }
  split; [|exact PBd]. set (p := peval k_tanf_poly (Y * Y)) in *. clearbody c s p.
  replace (Y * p * cos Y - sin Y) with (Y * (p * c + - s) + (Y * p * (cos Y - c) + - (sin Y - Y * s))) by ring.
  eapply Rle_trans; [apply Rabs_triang|]. rewrite Rabs_mult, Rmult_plus_distr_l. apply Rplus_le_compat_l. eapply Rle_trans; [apply Rabs_triang|]. rewrite Rabs_Ropp, !Rabs_mult.
  pose proof (Rabs_pos Y). pose proof (Rabs_pos p). pose proof (Rabs_pos (cos Y - c)).
  assert (Q1 : Rabs p * Rabs (cos Y - c) <= / 100000000000000000) by nra.
  assert (Q2 : Rabs (sin Y - Y * s) <= Rabs Y * / 10000000000000000) by nra. nra.
Qed.
(** the value rounded to single precision at the end of [rs_k_tanf] *)
Definition k_tanf_body (x : Z) : Z :=
  let z := fmul f64 x x in
  let r := fadd f64 (nth 4 rs_k_tanf_T 0%Z) (fmul f64 z (nth 5 rs_k_tanf_T 0%Z)) in
  let t := fadd f64 (nth 2 rs_k_tanf_T 0%Z) (fmul f64 z (nth 3 rs_k_tanf_T 0%Z)) in
  let w := fmul f64 z z in
  let s := fmul f64 z x in
  let u := fadd f64 (nth 0 rs_k_tanf_T 0%Z) (fmul f64 z (nth 1 rs_k_tanf_T 0%Z)) in
  fadd f64 (fadd f64 x (fmul f64 s u)) (fmul f64 (fmul f64 s w) (fadd f64 t (fmul f64 w r))).
Lemma k_tanf_body_eq x odd : rs_k_tanf x odd = fcvt f64 f32 (if odd then fdiv f64 0xbff0000000000000 (k_tanf_body x) else k_tanf_body x).
Proof. reflexivity. Qed.
Lemma k_tanf_acc y : isbits f64 y -> finite f64 y = true -> bpow radix2 (-100) <= Rabs (val f64 y) <= 0.78549 ->
  exists a, a = k_tanf_body y /\ isbits f64 a /\ finite f64 a = true /\
    Rabs (val f64 a - val f64 y * peval k_tanf_poly (val f64 y * val f64 y)) <= bpow radix2 (-45) * Rabs (val f64 y).
Proof.
  intros B Fy H. assert (N : val f64 y <> 0) by (intros E; rewrite E, Rabs_R0 in H; pose proof (bpow_gt_0 radix2 (-100)); lra).
  pose proof (scal_abs (val f64 y) ltac:(lra)) as HS. pose proof (AP_sgn y B Fy N) as A1. pose proof c7855_ok as C.
  assert (A2 : AP f64 1 y (val f64 y) (- c7855, c7855, 0)%Z). { apply AP_var; try assumption. rewrite fxr_opp. destruct H as [_ H]. apply Rabs_le_inv in H. lra. }
  unfold k_tanf_body. cbv zeta.
  change (nth 0 rs_k_tanf_T 0%Z) with 0x3fd5554d3418c99f%Z. change (nth 1 rs_k_tanf_T 0%Z) with 0x3fc112fd38999f72%Z. change (nth 2 rs_k_tanf_T 0%Z) with 0x3fab54c91d865afe%Z. change (nth 3 rs_k_tanf_T 0%Z) with 0x3f991df3908c33ce%Z. change (nth 4 rs_k_tanf_T 0%Z) with 0x3f685dadfcecf44e%Z. change (nth 5 rs_k_tanf_T 0%Z) with 0x3f8362b9bf971bcd%Z.
  match goal with |- exists a, a = ?e /\ _ => apx f64 (Rabs (val f64 y)) e K; exists e end.
  split; [reflexivity|]. split; [exact (AP_bits _ _ _ _ _ K)|]. split; [exact (AP_fin _ _ _ _ _ K)|]. apply AP_err in K. revert K.
  match goal with |- Rabs (val f64 ?e - _) <= _ -> _ => generalize (val f64 e) end. intros V K. set (Y := val f64 y) in *.
  destruct (sgn_ok Y N) as [E _]. match type of K with Rabs (V - ?t) <= _ => replace t with (Y * peval k_tanf_poly (Y * Y)) in K end.
  2:{ unfold k_tanf_poly. change (map (litq f64) rs_k_tanf_T) with [(6004764585806239, 18014398509481984); (4805953389698930, 36028797018963968); (7693047131691774, 144115188075855872); (7069806357132238, 288230376151711744); (6858401295168590, 2305843009213693952); (5456574480325581, 576460752303423488)]%Z.
    unfold peval. cbn [fst snd]. rewrite <- E at 1. field. }
  pose proof (Rabs_pos Y).
  match type of K with _ <= _ * fxr ?b => assert (fxr b <= bpow radix2 (-45)) by (apply (fxr_small b 155); [vm_compute; discriminate|lia]) end. nra.
Qed.

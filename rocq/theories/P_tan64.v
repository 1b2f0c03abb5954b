(** The double-precision kernel [k_tan]: the polynomial and the error before the last rounding. *)
From Coq Require Import ZArith Reals Lia Lra Bool List Psatz.
From Flocq Require Import Core.
From Verif Require Import Base Spec SpecAcc Format P_format Ieee P_ieee P_real P_neg P_lit P_err P_apx P_poly P_poly2 P_poly3 P_taylor P_acc P_kerf P_kerf2 P_red64 P_ksc P_ker64 P_tan64a M_basic M_elib M_trig.
Import ListNotations.
Open Scope R_scope.
Open Scope fl_scope.

Lemma fz10 : IZR (fz (4 * 4 + 5)) = 51090942171709440000 /\ IZR (fz (4 * 4 + 4)) = 2432902008176640000. Proof. split; vm_compute; reflexivity. Qed.
Lemma cc_le n : (0 <= n)%Z -> fxr (cc n) <= IZR n / 1000000.
Proof.
  intros H. unfold fxr, cc. pose proof (fdiv_le (n * SC) 1000000 ltac:(lia)) as K. rewrite fdv_eq, mult_IZR in K. pose proof SC_pos. apply Rmult_le_reg_r with (IZR SC); [assumption|].
  match goal with |- ?a / _ * _ <= _ => replace (a / IZR SC * IZR SC) with a by (field; lra) end. lra.
Qed.
Lemma tan64_P z : 0 <= z <= 0.455 -> 1 + 0.333 * z - 0.0001 <= peval k_tan_poly z <= 1.22.
Proof.
  intros H. pose proof (pieces3_ok _ _ (2 ^ 193) _ _ 30 (PB_poly tan64l ltac:(vm_compute; reflexivity)) ltac:(vm_compute; discriminate) (2 ^ 193)%Z z ltac:(lia) tan64_chkP) as A.
  specialize (A (hpiece 193 30 z ltac:(lia) ltac:(lia) ltac:(change (IZR (2 * Z.of_nat 30)) with 60; change (bpow radix2 (193 - 200)) with (/ 128); lra))).
  unfold tan64l in A. rewrite psub_ok in A by (vm_compute; reflexivity). rewrite fxr_opp in A. pose proof (cc_le 100 ltac:(lia)). pose proof (cc_le 60000 ltac:(lia)).
  assert (E : peval [(1, 1)%Z; (333, 1000)%Z] z = 1 + 0.333 * z) by (unfold peval; cbn [fst snd]; lra). rewrite E in A. set (p := peval k_tan_poly z) in *. clearbody p. lra.
Qed.
Lemma tan64_p10 z : 0 <= z <= 0.455 -> 0 <= z ^ 10 <= 0.0004.
Proof. intros H. split; [apply pow_le; lra|]. eapply Rle_trans; [apply (pow_incr z 0.455 10); lra|]. lra. Qed.
Lemma tan64_poly_err X : Rabs X <= 0.6744 -> Rabs (X * peval k_tan_poly (X * X) * cos X - sin X) <= 0.0201 * u * Rabs X.
Proof.
  intros H. assert (Z : 0 <= X * X <= 0.455) by (apply Rabs_le_inv in H; nra).
  pose proof (pieces3_ok _ _ (2 ^ 190) _ _ 233 tan64P_PB ltac:(vm_compute; discriminate) (2 ^ 190)%Z (X * X) ltac:(lia) tan64_chkL) as P.
  specialize (P (hpiece 190 233 (X * X) ltac:(lia) ltac:(lia) ltac:(change (IZR (2 * Z.of_nat 233)) with 466; change (bpow radix2 (190 - 200)) with (/ 1024); lra))).
  rewrite fxr_opp in P. pose proof (uu_le 20000 ltac:(lia)) as U. pose proof (tan64_p10 _ Z) as P10. pose proof (tan64_P _ Z) as PB. destruct fz10 as [F1 F2].
  pose proof (sin_taylor X 4 ltac:(lra)) as TS. change (2 * 4 + 1)%nat with 9%nat in TS. change (2 * 4 + 2)%nat with 10%nat in TS. rewrite F1 in TS.
  pose proof (cos_taylor X 4 ltac:(lra)) as TC. change (2 * 4 + 1)%nat with 9%nat in TC. change (2 * 4 + 2)%nat with 10%nat in TC. rewrite F2 in TC.
  unfold tan64P in P. pose proof (Rabs_pos X) as PX. set (p := peval k_tan_poly (X * X)) in *. set (s := peval (tsin 9) (X * X)) in *. set (c := peval (tcos 9) (X * X)) in *. set (q := (X * X) ^ 10) in *. set (g := fxr (uu 20000)) in *. clearbody p s c q g.
  replace (X * p * cos X - sin X) with (X * (p * c + - s) + (X * (p * (cos X - c)) + - (sin X - X * s))) by ring.
  assert (E0 : Rabs (p * c + - s) <= 0.02 * u) by (apply Rabs_le; lra).
  assert (E1 : Rabs (p * (cos X - c)) <= 0.00005 * u). { rewrite Rabs_mult, (Rabs_pos_eq p) by lra. pose proof (Rabs_pos (cos X - c)). apply Rle_trans with (1.22 * (q / 2432902008176640000)); [apply Rmult_le_compat; lra|lra]. }
  assert (E2 : Rabs X * (q / 51090942171709440000) <= Rabs X * (0.00004 * u)) by (apply Rmult_le_compat_l; lra).
  eapply Rle_trans; [apply Rabs_triang|]. rewrite Rabs_mult. assert (Rabs X * Rabs (p * c + - s) <= Rabs X * (0.02 * u)) by (apply Rmult_le_compat_l; assumption).
  pose proof (Rabs_triang (X * (p * (cos X - c))) (- (sin X - X * s))) as T. rewrite Rabs_Ropp, (Rabs_mult X) in T. assert (Rabs X * Rabs (p * (cos X - c)) <= Rabs X * (0.00005 * u)) by (apply Rmult_le_compat_l; assumption). lra.
Qed.
(** how far the derivative 1 + x^2 used for the low part is off *)
Lemma tan64_tail X kk n b : (0 <= b)%Z -> Rabs X <= 0.6744 -> X * X <= IZR (2 * Z.of_nat n) * bpow radix2 (-7) -> (0 < n)%nat -> pieces3 tan64K (2 ^ 193) (2 ^ 193) n (- cc 1000) (cc b) = true -> kk = IZR b / 1000000 -> 0.001 <= kk ->
  Rabs (X * peval k_tan_poly (X * X) * sin X - X * X * cos X) <= (kk + / 1000000) * (X * X).
Proof.
  intros Hb H HZ Hn CH -> KB. assert (Z : 0 <= X * X <= 0.455) by (apply Rabs_le_inv in H; nra).
  pose proof (pieces3_ok _ _ (2 ^ 193) _ _ n tan64Q_PB ltac:(vm_compute; discriminate) (2 ^ 193)%Z (X * X) ltac:(lia) CH) as P.
  specialize (P (hpiece 193 n (X * X) ltac:(lia) ltac:(lia) ltac:(change (193 - 200)%Z with (-7)%Z; lra))).
  rewrite fxr_opp in P. pose proof (cc_le 1000 ltac:(lia)) as U. pose proof (cc_le b Hb) as U2. pose proof (tan64_p10 _ Z) as P10. pose proof (tan64_P _ Z) as PB. destruct fz10 as [F1 F2].
  pose proof (sin_taylor X 4 ltac:(lra)) as TS. change (2 * 4 + 1)%nat with 9%nat in TS. change (2 * 4 + 2)%nat with 10%nat in TS. rewrite F1 in TS.
  pose proof (cos_taylor X 4 ltac:(lra)) as TC. change (2 * 4 + 1)%nat with 9%nat in TC. change (2 * 4 + 2)%nat with 10%nat in TC. rewrite F2 in TC.
  unfold tan64Q in P. set (p := peval k_tan_poly (X * X)) in *. set (s := peval (tsin 9) (X * X)) in *. set (c := peval (tcos 9) (X * X)) in *. set (q := (X * X) ^ 10) in *. set (g := fxr (cc 1000)) in *. set (g2 := fxr (cc b)) in *. set (kk := IZR b / 1000000) in *. clearbody p s c q g g2 kk.
  replace (X * p * sin X - X * X * cos X) with (X * X * (p * s + - c) + (p * (X * (sin X - X * s)) + - (X * X * (cos X - c)))) by ring.
  assert (E0 : Rabs (p * s + - c) <= kk) by (apply Rabs_le; lra). set (zz := X * X) in *.
  assert (E1 : Rabs (p * (X * (sin X - X * s))) <= zz * / 10000000). { rewrite !Rabs_mult, (Rabs_pos_eq p) by lra. pose proof (Rabs_pos (sin X - X * s)). pose proof (Rabs_pos X).
    assert (EZ : Rabs X * Rabs X = zz) by (unfold zz; rewrite <- Rabs_mult, Rabs_pos_eq; [reflexivity|exact (proj1 Z)]).
    apply Rle_trans with (1.22 * (Rabs X * (Rabs X * (q / 51090942171709440000)))); [apply Rmult_le_compat; try lra; [apply Rmult_le_pos; lra|apply Rmult_le_compat_l; lra]|]. replace (1.22 * (Rabs X * (Rabs X * (q / 51090942171709440000)))) with (1.22 * ((Rabs X * Rabs X) * (q / 51090942171709440000))) by ring. rewrite EZ.
    assert (zz * (q / 51090942171709440000) <= zz * / 100000000) by (apply Rmult_le_compat_l; lra). lra. }
  assert (E2 : Rabs (zz * (cos X - c)) <= zz * / 10000000). { rewrite Rabs_mult, (Rabs_pos_eq zz) by lra. apply Rmult_le_compat_l; lra. }
  eapply Rle_trans; [apply Rabs_triang|]. rewrite Rabs_mult, (Rabs_pos_eq zz) by lra. assert (zz * Rabs (p * s + - c) <= zz * kk) by (apply Rmult_le_compat_l; lra).
  pose proof (Rabs_triang (p * (X * (sin X - X * s))) (- (zz * (cos X - c)))) as T. rewrite Rabs_Ropp in T. lra.
Qed.
(** ** The error before the last rounding, as a real statement *)
Lemma tan_total a X Y P r e k : bpow radix2 (-100) <= Rabs X <= 0.67435 -> Rabs Y <= 9 / 4 * u * Rabs X -> Rabs (X + Y - r) <= / 18446744073709551616 * Rabs X -> 0.999 <= P <= 1.22 -> 
  Rabs (a - (X * P + Y * (1 + X * X))) <= e * u * Rabs X -> Rabs (X * P * cos X - sin X) <= 0.0201 * u * Rabs X -> Rabs (X * P * sin X - X * X * cos X) <= k ->
  Rabs (a * cos r - sin r) <= (e * cos r + 0.022 + 9 / 4 * k) * u * Rabs X.
Proof.
  intros HX HY HR HP HA H1 H2. pose proof (Rabs_pos X) as PX. pose proof (Rabs_pos Y) as PY. set (h := r - X). assert (Er : r = X + h) by (unfold h; ring).
  assert (Hh : Rabs (h - Y) <= / 18446744073709551616 * Rabs X) by (unfold h; replace (r - X - Y) with (- (X + Y - r)) by ring; now rewrite Rabs_Ropp).
  assert (Hs : Rabs h <= 2.26 * u * Rabs X) by (replace h with ((h - Y) + Y) by ring; eapply Rle_trans; [apply Rabs_triang|]; lra).
  assert (HC : 0 <= cos r). { apply cos_ge_0; pose proof PI2_3_2. all: apply Rabs_le_inv in Hs. all: destruct HX as [_ HX]; apply Rabs_le_inv in HX; assert (Rabs X <= 1) by (apply Rabs_le; lra); lra. }
  rewrite Er in *. clearbody h. rewrite cos_plus in *. rewrite sin_plus.
  pose proof (cos_quad h ltac:(lra)) as [CH _]. pose proof (COS_bound h) as [_ CH2]. pose proof (sin_cub h ltac:(lra)) as SH.
  pose proof (SIN_bound X) as SX. pose proof (COS_bound X) as CX.
  set (C := cos X) in *. set (S := sin X) in *. set (c := cos h) in *. set (s := sin h) in *. clearbody C S c s.
  assert (hh : h * h <= / 1000000000 * u * Rabs X). { replace (h * h) with (Rabs h * Rabs h) by (rewrite <- Rabs_mult, Rabs_pos_eq; [reflexivity|nra]). pose proof (Rabs_pos h). apply Rle_trans with (Rabs h * (/ 10000000000)); [apply Rmult_le_compat_l; lra|lra]. }
  assert (h0 : 0 <= h * h) by nra.
  assert (hhh : Rabs h * (h * h) <= h * h) by (pose proof (Rabs_pos h); nra).
  assert (Esy : Rabs (s - Y) <= / 18446744073709551616 * Rabs X + / 1000000000 * u * Rabs X) by (replace (s - Y) with ((s - h) + (h - Y)) by ring; eapply Rle_trans; [apply Rabs_triang|]; lra).
  assert (Es : Rabs s <= Rabs h + h * h) by (replace s with ((s - h) + h) by ring; eapply Rle_trans; [apply Rabs_triang|]; lra).
  set (E := a - (X * P + Y * (1 + X * X))) in *. replace a with (E + (X * P + Y * (1 + X * X))) by (unfold E; ring). clearbody E.
  set (z := X * X) in *. assert (Z : 0 <= z <= 0.455) by (unfold z; destruct HX as [_ HX]; apply Rabs_le_inv in HX; nra).
  replace ((E + (X * P + Y * (1 + z))) * (C * c - S * s) - (S * c + C * s)) with
    (E * (C * c - S * s) + c * (X * P * C - S) + Y * (- (X * P * S - z * C)) + (- ((s - Y) * (X * P * S + C)) + Y * (1 + z) * (C * (c - 1) - S * s))) by ring.
  assert (A1 : Rabs (E * (C * c - S * s)) <= e * u * Rabs X * (C * c - S * s)) by (rewrite Rabs_mult, (Rabs_pos_eq (C * c - S * s)) by exact HC; apply Rmult_le_compat_r; assumption).
  assert (A2 : Rabs (c * (X * P * C - S)) <= 0.0201 * u * Rabs X) by (rewrite Rabs_mult; assert (Rabs c <= 1) by (apply Rabs_le; lra); pose proof (Rabs_pos c); pose proof (Rabs_pos (X * P * C - S)); nra).
  assert (A3 : Rabs (Y * (- (X * P * S - z * C))) <= 9 / 4 * k * u * Rabs X). { rewrite Rabs_mult, Rabs_Ropp. pose proof (Rabs_pos (X * P * S - z * C)). replace (9 / 4 * k * u * Rabs X) with ((9 / 4 * u * Rabs X) * k) by ring. apply Rmult_le_compat; assumption. }
  assert (A4 : Rabs ((s - Y) * (X * P * S + C)) <= 0.0011 * u * Rabs X).
  { rewrite Rabs_mult. assert (Rabs (X * P * S + C) <= 2). { eapply Rle_trans; [apply Rabs_triang|]. rewrite !Rabs_mult, (Rabs_pos_eq P) by lra. assert (Rabs S <= 1) by (apply Rabs_le; lra). assert (Rabs C <= 1) by (apply Rabs_le; lra). pose proof (Rabs_pos S). assert (Rabs X * P <= 0.67435 * 1.22) by (apply Rmult_le_compat; lra). assert (Rabs X * P * Rabs S <= 0.67435 * 1.22 * 1) by (apply Rmult_le_compat; try lra; apply Rmult_le_pos; lra). lra. }
    pose proof (Rabs_pos (s - Y)). pose proof (Rabs_pos (X * P * S + C)). apply Rle_trans with ((/ 18446744073709551616 * Rabs X + / 1000000000 * u * Rabs X) * 2); [apply Rmult_le_compat; assumption|lra]. }
  assert (A5 : Rabs (Y * (1 + z) * (C * (c - 1) - S * s)) <= 0.0001 * u * Rabs X).
  { rewrite !Rabs_mult, (Rabs_pos_eq (1 + z)) by lra.
    assert (B1 : Rabs (C * (c - 1) - S * s) <= / 1000000). { replace (C * (c - 1) - S * s) with (C * (c - 1) + - (S * s)) by ring. eapply Rle_trans; [apply Rabs_triang|]. rewrite Rabs_Ropp, !Rabs_mult. assert (Rabs S <= 1) by (apply Rabs_le; lra). assert (Rabs C <= 1) by (apply Rabs_le; lra). pose proof (Rabs_pos S). pose proof (Rabs_pos C). pose proof (Rabs_pos s). assert (Rabs (c - 1) <= h * h / 2) by (apply Rabs_le; lra). pose proof (Rabs_pos (c - 1)).
      assert (Rabs C * Rabs (c - 1) <= 1 * (h * h / 2)) by (apply Rmult_le_compat; lra). assert (Rabs S * Rabs s <= 1 * (Rabs h + h * h)) by (apply Rmult_le_compat; lra). lra. }
    pose proof (Rabs_pos (C * (c - 1) - S * s)). assert (Rabs Y * (1 + z) <= (9 / 4 * u * Rabs X) * 1.5) by (apply Rmult_le_compat; lra).
    apply Rle_trans with ((9 / 4 * u * Rabs X) * 1.5 * / 1000000); [apply Rmult_le_compat; try lra; apply Rmult_le_pos; lra|lra]. }
  replace ((e * (C * c - S * s) + 0.022 + 9 / 4 * k) * u * Rabs X) with (e * u * Rabs X * (C * c - S * s) + 0.022 * u * Rabs X + 9 / 4 * k * u * Rabs X) by ring.
  revert A1 A2 A3 A4 A5. generalize (E * (C * c - S * s)) (c * (X * P * C - S)) (Y * - (X * P * S - z * C)) ((s - Y) * (X * P * S + C)) (Y * (1 + z) * (C * (c - 1) - S * s)). intros t1 t2 t3 t4 t5 A1 A2 A3 A4 A5.
  pose proof (Rabs_triang (t1 + t2 + t3) (- t4 + t5)). pose proof (Rabs_triang (t1 + t2) t3). pose proof (Rabs_triang t1 t2). pose proof (Rabs_triang (- t4) t5) as Q. rewrite Rabs_Ropp in Q. lra.
Qed.

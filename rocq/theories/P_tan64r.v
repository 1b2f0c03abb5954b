(** The double-precision kernel [k_tan]: the rounding error of its correction term. *)
From Coq Require Import ZArith Reals Lia Lra Bool List Psatz.
From Flocq Require Import Core.
From Verif Require Import Base Spec SpecAcc Format P_format Ieee P_ieee P_real P_neg P_lit P_err P_apx P_poly P_poly2 P_taylor P_acc P_kerf P_kerf2 P_red64 P_ksc P_ker64 P_tan64a M_basic M_elib M_trig.
Import ListNotations.
Open Scope R_scope.
Open Scope fl_scope.

(** ** The correction term of the kernel *)
Notation T k := (nth k rs_k_tan_T 0%Z).
Definition tanR (x y : Z) : Z := let z := x *: x in let w := z *: z in
  let r := (T 1) +: (w *: ((T 3) +: (w *: ((T 5) +: (w *: ((T 7) +: (w *: ((T 9) +: (w *: (T 11)))))))))) in
  let v := z *: ((T 2) +: (w *: ((T 4) +: (w *: ((T 6) +: (w *: ((T 8) +: (w *: ((T 10) +: (w *: (T 12))))))))))) in
  let s := z *: x in (y +: (z *: ((s *: (r +: v)) +: y))) +: (s *: (T 0)).
Definition tanRP (x y : Z) (e : R) : Prop := isbits f64 (tanR x y) /\ finite f64 (tanR x y) = true /\
  Rabs (val f64 x + val f64 (tanR x y) - (val f64 x * peval k_tan_poly (val f64 x * val f64 x) + val f64 y * (1 + val f64 x * val f64 x))) <= e * u * Rabs (val f64 x).
Section KTan.
Variables x y : Z.
Hypotheses (Bx : isbits f64 x) (Fx : finite f64 x = true) (By : isbits f64 y) (Fy : finite f64 y = true).
Let X := val f64 x.
Let Y := val f64 y.
Hypothesis HY : Rabs Y <= 9 / 4 * u * Rabs X.
Hypothesis HL : bpow radix2 (-100) <= Rabs X.
Local Lemma Xnz : X <> 0. Proof. exact (X_nz x HL). Qed.
Local Lemma APy : AP f64 (Rabs X) y (Y / Rabs X) (- uu 2251000, uu 2251000, 0)%Z.
Proof. exact (P_ker64.AP_y x y By Fy HY HL). Qed.
Ltac tan_id := unfold peval, k_tan_poly; let v := eval vm_compute in (map (litq f64) rs_k_tan_T) in change (map (litq f64) rs_k_tan_T) with v; cbn [fst snd];
  destruct (sgn_ok X Xnz) as [E _]; pose proof (Rabs_pos_lt X Xnz); assert (EY : Rabs X * (Y / Rabs X) = Y) by (field; lra);
  set (q := Y / Rabs X) in *; set (g := sgn X) in *; set (sX := Rabs X) in *; clearbody q g sX; rewrite <- ?EY; clear EY; clearbody X; try rewrite <- E; field.
Lemma tanR_0 : Rabs X <= 0.430000 -> tanRP x y (312000 / 1000000).
Proof.
  intros HU. assert (A1 : AP f64 1 x X (- cc 430001, cc 430001, 0)%Z). { apply AP_var; try assumption. rewrite fxr_opp. pose proof (cc_ok 430001) as C. change (IZR (430001 - 1)) with 430000 in C. apply Rabs_le_inv in HU. fold X. lra. }
  pose proof (scal_abs X ltac:(lra)) as HS. pose proof (AP_sgn x Bx Fx Xnz) as A0. pose proof APy as A3. fold X in A0, A1.
  unfold tanRP, tanR. cbv zeta.
  apx f64 1%R (x *: x) Kz. set (z := x *: x) in *. clearbody z.
  apx f64 1%R (z *: z) Kw. set (w := z *: z) in *. clearbody w.
  apx f64 1%R ((T 1) +: (w *: ((T 3) +: (w *: ((T 5) +: (w *: ((T 7) +: (w *: ((T 9) +: (w *: (T 11)))))))))))  Kr.
  set (r := (T 1) +: _) in *. clearbody r.
  apx f64 1%R (z *: ((T 2) +: (w *: ((T 4) +: (w *: ((T 6) +: (w *: ((T 8) +: (w *: ((T 10) +: (w *: (T 12))))))))))))  Kv.
  set (v := z *: ((T 2) +: _)) in *. clearbody v.
  apx f64 (Rabs X) (z *: x) Ks. set (s := z *: x) in *. clearbody s.
  apx f64 (Rabs X) ((y +: (z *: ((s *: (r +: v)) +: y))) +: (s *: (T 0))) K. set (A := (y +: _) +: _) in *. clearbody A.
  split; [exact (AP_bits _ _ _ _ _ K)|]; split; [exact (AP_fin _ _ _ _ _ K)|]; apply AP_err in K.
  match type of K with Rabs (?V - ?t) <= _ * fxr ?b => assert (FB : fxr b <= IZR 312000 / 1000000 * u) by (apply fxr_uu; [lia|vm_compute; reflexivity]) end.
  eapply sin_close2; [exact K|exact FB| |apply Rabs_pos]. fold X Y. tan_id.
Qed.
Lemma tanR_1 : Rabs X <= 0.470000 -> tanRP x y (367450 / 1000000).
Proof.
  intros HU. assert (A1 : AP f64 1 x X (- cc 470001, cc 470001, 0)%Z). { apply AP_var; try assumption. rewrite fxr_opp. pose proof (cc_ok 470001) as C. change (IZR (470001 - 1)) with 470000 in C. apply Rabs_le_inv in HU. fold X. lra. }
  pose proof (scal_abs X ltac:(lra)) as HS. pose proof (AP_sgn x Bx Fx Xnz) as A0. pose proof APy as A3. fold X in A0, A1.
  unfold tanRP, tanR. cbv zeta.
  apx f64 1%R (x *: x) Kz. set (z := x *: x) in *. clearbody z.
  apx f64 1%R (z *: z) Kw. set (w := z *: z) in *. clearbody w.
  apx f64 1%R ((T 1) +: (w *: ((T 3) +: (w *: ((T 5) +: (w *: ((T 7) +: (w *: ((T 9) +: (w *: (T 11)))))))))))  Kr.
  set (r := (T 1) +: _) in *. clearbody r.
  apx f64 1%R (z *: ((T 2) +: (w *: ((T 4) +: (w *: ((T 6) +: (w *: ((T 8) +: (w *: ((T 10) +: (w *: (T 12))))))))))))  Kv.
  set (v := z *: ((T 2) +: _)) in *. clearbody v.
  apx f64 (Rabs X) (z *: x) Ks. set (s := z *: x) in *. clearbody s.
  apx f64 (Rabs X) ((y +: (z *: ((s *: (r +: v)) +: y))) +: (s *: (T 0))) K. set (A := (y +: _) +: _) in *. clearbody A.
  split; [exact (AP_bits _ _ _ _ _ K)|]; split; [exact (AP_fin _ _ _ _ _ K)|]; apply AP_err in K.
  match type of K with Rabs (?V - ?t) <= _ * fxr ?b => assert (FB : fxr b <= IZR 367450 / 1000000 * u) by (apply fxr_uu; [lia|vm_compute; reflexivity]) end.
  eapply sin_close2; [exact K|exact FB| |apply Rabs_pos]. fold X Y. tan_id.
Qed.
Lemma tanR_2 : Rabs X <= 0.600000 -> tanRP x y (689630 / 1000000).
Proof.
  intros HU. assert (A1 : AP f64 1 x X (- cc 600001, cc 600001, 0)%Z). { apply AP_var; try assumption. rewrite fxr_opp. pose proof (cc_ok 600001) as C. change (IZR (600001 - 1)) with 600000 in C. apply Rabs_le_inv in HU. fold X. lra. }
  pose proof (scal_abs X ltac:(lra)) as HS. pose proof (AP_sgn x Bx Fx Xnz) as A0. pose proof APy as A3. fold X in A0, A1.
  unfold tanRP, tanR. cbv zeta.
  apx f64 1%R (x *: x) Kz. set (z := x *: x) in *. clearbody z.
  apx f64 1%R (z *: z) Kw. set (w := z *: z) in *. clearbody w.
  apx f64 1%R ((T 1) +: (w *: ((T 3) +: (w *: ((T 5) +: (w *: ((T 7) +: (w *: ((T 9) +: (w *: (T 11)))))))))))  Kr.
  set (r := (T 1) +: _) in *. clearbody r.
  apx f64 1%R (z *: ((T 2) +: (w *: ((T 4) +: (w *: ((T 6) +: (w *: ((T 8) +: (w *: ((T 10) +: (w *: (T 12))))))))))))  Kv.
  set (v := z *: ((T 2) +: _)) in *. clearbody v.
  apx f64 (Rabs X) (z *: x) Ks. set (s := z *: x) in *. clearbody s.
  apx f64 (Rabs X) ((y +: (z *: ((s *: (r +: v)) +: y))) +: (s *: (T 0))) K. set (A := (y +: _) +: _) in *. clearbody A.
  split; [exact (AP_bits _ _ _ _ _ K)|]; split; [exact (AP_fin _ _ _ _ _ K)|]; apply AP_err in K.
  match type of K with Rabs (?V - ?t) <= _ * fxr ?b => assert (FB : fxr b <= IZR 689630 / 1000000 * u) by (apply fxr_uu; [lia|vm_compute; reflexivity]) end.
  eapply sin_close2; [exact K|exact FB| |apply Rabs_pos]. fold X Y. tan_id.
Qed.
Lemma tanR_3 : Rabs X <= 0.674340 -> tanRP x y (960680 / 1000000).
Proof.
  intros HU. assert (A1 : AP f64 1 x X (- cc 674341, cc 674341, 0)%Z). { apply AP_var; try assumption. rewrite fxr_opp. pose proof (cc_ok 674341) as C. change (IZR (674341 - 1)) with 674340 in C. apply Rabs_le_inv in HU. fold X. lra. }
  pose proof (scal_abs X ltac:(lra)) as HS. pose proof (AP_sgn x Bx Fx Xnz) as A0. pose proof APy as A3. fold X in A0, A1.
  unfold tanRP, tanR. cbv zeta.
  apx f64 1%R (x *: x) Kz. set (z := x *: x) in *. clearbody z.
  apx f64 1%R (z *: z) Kw. set (w := z *: z) in *. clearbody w.
  apx f64 1%R ((T 1) +: (w *: ((T 3) +: (w *: ((T 5) +: (w *: ((T 7) +: (w *: ((T 9) +: (w *: (T 11)))))))))))  Kr.
  set (r := (T 1) +: _) in *. clearbody r.
  apx f64 1%R (z *: ((T 2) +: (w *: ((T 4) +: (w *: ((T 6) +: (w *: ((T 8) +: (w *: ((T 10) +: (w *: (T 12))))))))))))  Kv.
  set (v := z *: ((T 2) +: _)) in *. clearbody v.
  apx f64 (Rabs X) (z *: x) Ks. set (s := z *: x) in *. clearbody s.
  apx f64 (Rabs X) ((y +: (z *: ((s *: (r +: v)) +: y))) +: (s *: (T 0))) K. set (A := (y +: _) +: _) in *. clearbody A.
  split; [exact (AP_bits _ _ _ _ _ K)|]; split; [exact (AP_fin _ _ _ _ _ K)|]; apply AP_err in K.
  match type of K with Rabs (?V - ?t) <= _ * fxr ?b => assert (FB : fxr b <= IZR 960680 / 1000000 * u) by (apply fxr_uu; [lia|vm_compute; reflexivity]) end.
  eapply sin_close2; [exact K|exact FB| |apply Rabs_pos]. fold X Y. tan_id.
Qed.
End KTan.

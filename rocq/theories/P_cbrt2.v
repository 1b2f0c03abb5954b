(** [cbrt]: the rounding tests, the exponent, all arguments. *)
From Coq Require Import ZArith Reals Lia Lra Bool List Psatz.
From Flocq Require Import Core.
From Verif Require Import Base Spec SpecFun SpecFun2 SpecAcc SpecSym Format P_format Ieee P_ieee P_real P_lit P_neg M_basic M_fma M_elib M_sqrt M_pow P_sym P_elem P_elem2 P_tot P_err P_round2 P_minmax P_cbrt.
Import ListNotations.
Open Scope Z_scope.

Definition ady (k dy : Z) : Z := fabs f64 (fsub f64 (fabs f64 dy) k).
(** the two tests for [dy] near 1/2 or 3/2 ulp *)
Definition hard (tb dy : Z) : bool := flt f64 (ady 0x3ca0000000000000 dy) tb || flt f64 (ady (fadd f64 0x3cb0000000000000 0x3ca0000000000000) dy) tb.
Definition cb_known (zz y1 : Z) : Z :=
  let azz := fabs f64 zz in
  let y1 := (if feq f64 azz 0x4009b78223aa307c then copysign f64 0x3ff79d15d0e8d59c zz else y1) in
  if feq f64 azz 0x401a202bfc89ddff then copysign f64 0x3ffde87aa837820f zz else y1.
(** one Newton step: the remainder and the new value *)
Definition cb_step (y zz rr : Z) : option (Z * Z) :=
  let y2 := fmul f64 y y in
  let* y2l := fma y y (Format.fneg f64 y2) in
  let y3 := fmul f64 y2 y in
  let* v8 := fma y y2 (Format.fneg f64 y3) in
  let d := ndy y zz rr y2l v8 in
  let y1 := fsub f64 y d in
  Some (fsub f64 (fsub f64 y y1) d, y1).
Definition cb_iter (y zz rr : Z) : option (Z * Z) :=
  let* (dy, y1) := cb_step y zz rr in
  if hard 0x3b40000000000000 dy then
    let* (dy, y) := cb_step y1 zz rr in
    Some (dy, if hard 0x39d0000000000000 dy then cb_known zz y else y)
  else Some (dy, y1).
Definition cb_fin (dy y1 zz et : Z) : option Z :=
  let cvt3 := wadd 64 y1 (shlu 64 (wsub 32 (wsub 32 et 342) 1023) 52) in
  let m0 := shlu 64 cvt3 30 in
  let m1 := Z.shiftr m0 63 in
  if (Z.lxor m0 m1) <=? 0x40000000 then
    let* v13 := uadd 64 y1 0x520000 in
    let cvt4 := Z.land v13 0xffffffffffff0000 in
    if (flt f64 (fabs f64 (fsub f64 (fsub f64 cvt4 y1) dy)) 0x3c30000000000000) || (feq f64 (fabs f64 zz) 0x3ff0000000000000) then
      let* v15 := uadd 64 cvt3 32768 in Some (Z.land v15 0xffffffffffff0000)
    else Some cvt3
  else Some cvt3.
Definition cb_rsc : list Z := [0x3ff0000000000000; 0xbff0000000000000; 0x3fe0000000000000; 0xbfe0000000000000; 0x3fd0000000000000; 0xbfd0000000000000].
Definition cb_off : list Z := [0x3ca0000000000000; 0; 0; 0].
Definition cb_all (mant sign e_ : Z) : option Z :=
  let e_ := wadd 32 e_ 3072 in
  let z := Z.lor mant 0x3ff0000000000000 in
  let* zz := uadd 64 z (shlu 64 (e_ mod 3) 52) in
  let zz := Z.lor zz (shlu 64 sign 63) in
  let* isc := tab_get rs_cbrt_round_ESCALE (e_ mod 3) in
  let* v6 := tab_get cb_rsc (Z.lor (shlu 64 (e_ mod 3) 1) sign) in
  let* (dy, y1) := cb_iter (cb_start z (Z.lor isc (shlu 64 sign 63))) zz (fmul f64 (fdiv f64 0x3ff0000000000000 z) v6) in
  cb_fin dy y1 zz (e_ / 3).
Lemma bind_assoc {A B C} (m : option A) (f : A -> option B) (g : B -> option C) : bind (bind m f) g = bind m (fun x => bind (f x) g).
Proof. destruct m; reflexivity. Qed.
Definition cb_tail (y zz rr et : Z) : option Z :=
  let y2 := y *: y in
  let* y2l := fma y y (Format.fneg f64 y2) in
  let y3 := y2 *: y in
  let* v8 := fma y y2 (Format.fneg f64 y3) in
  let y3l := v8 +: (y *: y2l) in
  let h := ((y3 -: zz) +: y3l) *: rr in
  let dy := h *: (y *: 0x3fd5555555555555) in
  let y1 := y -: dy in
  let dy := (y -: y1) -: dy in
  let ady := fabs f64 dy in
  let ady0 := fabs f64 (ady -: (0x3ca0000000000000)) in
  let ady1 := fabs f64 (ady -: (0x3cb0000000000000 (* 0x1p-52 *) +: (0x3ca0000000000000))) in
  let* (dy, y1) :=
    (if (flt f64 ady0 0x3b40000000000000 (* 0x1p-75 *)) || (flt f64 ady1 0x3b40000000000000 (* 0x1p-75 *)) then
       let y2 := y1 *: y1 in
       let* y2l := fma y1 y1 (Format.fneg f64 y2) in
       let y3 := y2 *: y1 in
       let* v11 := fma y1 y2 (Format.fneg f64 y3) in
       let y3l := v11 +: (y1 *: y2l) in
       let h := ((y3 -: zz) +: y3l) *: rr in
       let dy := h *: (y1 *: 0x3fd5555555555555) in
       let y := y1 -: dy in
       let dy := (y1 -: y) -: dy in
       let y1 := y in
       let ady := fabs f64 dy in
       let ady0 := fabs f64 (ady -: (0x3ca0000000000000)) in
       let ady1 := fabs f64 (ady -: (0x3cb0000000000000 (* 0x1p-52 *) +: (0x3ca0000000000000))) in
       let y1 :=
         (if (flt f64 ady0 0x39d0000000000000 (* 0x1p-98 *)) || (flt f64 ady1 0x39d0000000000000 (* 0x1p-98 *)) then
            let azz := fabs f64 zz in
            let y1 :=
              (if feq f64 azz 0x4009b78223aa307c (* 0x1.9b78223aa307cp+1 *) then
                 let y1 := copysign f64 0x3ff79d15d0e8d59c (* 0x1.79d15d0e8d59cp+0 *) zz in
                 y1
               else y1) in
            let y1 :=
              (if feq f64 azz 0x401a202bfc89ddff (* 0x1.a202bfc89ddffp+2 *) then
                 let y1 := copysign f64 0x3ffde87aa837820f (* 0x1.de87aa837820fp+0 *) zz in
                 y1
               else y1) in
            y1
          else y1) in
       Some (dy, y1)
     else Some (dy, y1)) in
  let cvt3 := y1 in
  let cvt3 := wadd 64 cvt3 (shlu 64 (wsub 32 (wsub 32 et 342) 1023) 52) in
  let m0 := shlu 64 cvt3 30 in
  let m1 := Z.shiftr m0 63 in
  let* cvt3 :=
    (if (Z.lxor m0 m1) <=? 0x40000000 then
       let cvt4 := y1 in
       let* v13 := uadd 64 cvt4 0x520000 in
       let cvt4 := Z.land v13 0xffffffffffff0000 in
       let* cvt3 :=
         (if (flt f64 (fabs f64 ((cvt4 -: y1) -: dy)) 0x3c30000000000000 (* 0x1p-60 *)) || (feq f64 (fabs f64 zz) 0x3ff0000000000000 (* 1.0 *)) then
            let* v15 := uadd 64 cvt3 32768 in
            let cvt3 := Z.land v15 0xffffffffffff0000 in
            Some cvt3
          else Some cvt3) in
       Some cvt3
     else Some cvt3) in
  Some cvt3.
Lemma fin_eq dy y1 zz et : (let cvt3 := y1 in
  let cvt3 := wadd 64 cvt3 (shlu 64 (wsub 32 (wsub 32 et 342) 1023) 52) in
  let m0 := shlu 64 cvt3 30 in
  let m1 := Z.shiftr m0 63 in
  let* cvt3 :=
    (if (Z.lxor m0 m1) <=? 0x40000000 then
       let cvt4 := y1 in
       let* v13 := uadd 64 cvt4 0x520000 in
       let cvt4 := Z.land v13 0xffffffffffff0000 in
       let* cvt3 :=
         (if (flt f64 (fabs f64 ((cvt4 -: y1) -: dy)) 0x3c30000000000000 (* 0x1p-60 *)) || (feq f64 (fabs f64 zz) 0x3ff0000000000000 (* 1.0 *)) then
            let* v15 := uadd 64 cvt3 32768 in
            let cvt3 := Z.land v15 0xffffffffffff0000 in
            Some cvt3
          else Some cvt3) in
       Some cvt3
     else Some cvt3) in
  Some cvt3) = cb_fin dy y1 zz et.
Proof.
  unfold cb_fin. cbv zeta. destruct (_ <=? _); [|reflexivity]. destruct (uadd 64 y1 0x520000) as [a|]; [|reflexivity]. cbn [bind].
  destruct (_ || _); [|reflexivity]. destruct (uadd 64 _ 32768); reflexivity.
Qed.
Lemma cb_tail_eq y zz rr et : cb_tail y zz rr et = (let* (dy, y1) := cb_iter y zz rr in cb_fin dy y1 zz et).
Proof.
  unfold cb_tail, cb_iter, cb_step. destruct (fma y y _) as [y2l|]; [|reflexivity]. cbn [bind]. destruct (fma y _ _) as [v8|]; [|reflexivity]. cbn [bind].
  unfold ndy, hard, ady, cb_known. destruct (_ || _).
  - destruct (fma _ _ _) as [y2l'|]; [|reflexivity]. cbn [bind]. destruct (fma _ _ _) as [v8'|]; [|reflexivity]. cbn [bind]. apply fin_eq.
  - cbn [bind]. apply fin_eq.
Qed.
Definition cb_pre (mant sign e_ : Z) : option Z :=
  let e_ := wadd 32 e_ 3072 in
  let cvt1 := Z.lor mant 0x3ff0000000000000 in
  let cvt5 := cvt1 in
  let et := e_ / 3 in
  let it := e_ mod 3 in
  let* cvt5 := uadd 64 cvt5 (shlu 64 it 52) in
  let cvt5 := Z.lor cvt5 (shlu 64 sign 63) in
  let zz := cvt5 in
  let* isc := tab_get rs_cbrt_round_ESCALE it in
  let isc := Z.lor isc (shlu 64 sign 63) in
  let cvt2 := isc in
  let z := cvt1 in
  let r := 0x3ff0000000000000 (* 1.0 *) /: z in
  let* v6 := tab_get cb_rsc (Z.lor (shlu 64 it 1) sign) in
  let rr := r *: v6 in
  let z2 := z *: z in
  let c0 := (nth 0 rs_cbrt_round_C 0) +: (z *: (nth 1 rs_cbrt_round_C 0)) in
  let c2 := (nth 2 rs_cbrt_round_C 0) +: (z *: (nth 3 rs_cbrt_round_C 0)) in
  let y := c0 +: (z2 *: c2) in
  let y2 := y *: y in
  let h := (y2 *: (y *: r)) -: 0x3ff0000000000000 (* 1.0 *) in
  let y := y -: ((h *: y) *: (0x3fd5555555555555 -: (0x3fcc71c71c71c71c *: h))) in
  let y := y *: cvt2 in
  cb_tail y zz rr et.
Lemma cb_pre_eq mant sign e_ : rs_cbrt_cbrt_round_1 0x3fd5555555555555 0x3fcc71c71c71c71c cb_rsc cb_off mant sign e_ = cb_pre mant sign e_.
Proof. exact (eq_refl (rs_cbrt_cbrt_round_1 0x3fd5555555555555 0x3fcc71c71c71c71c cb_rsc cb_off mant sign e_)). Qed.
Lemma cb_all_eq mant sign e_ : cb_pre mant sign e_ = cb_all mant sign e_.
Proof.
  unfold cb_pre, cb_all. 
  destruct (uadd 64 (Z.lor mant 0x3ff0000000000000) _) as [zz0|]; [|reflexivity].
  destruct (tab_get rs_cbrt_round_ESCALE _) as [isc|]; [|reflexivity].
  destruct (tab_get cb_rsc _) as [v6|]; [|reflexivity].
  cbn [bind]. rewrite <- cb_tail_eq. unfold cb_start, cb_cubic, cb_est. reflexivity.
Qed.

Open Scope R_scope.
Lemma step_ok y zz rr y2l v8 v E : isbits f64 y -> finite f64 y = true -> 1 <= v <= v2 -> 0 <= E <= / 37000000000000000000000 -> Rabs (val f64 y - v) <= / 10000000000 ->
  fma y y (Format.fneg f64 (fmul f64 y y)) = Some y2l -> fma y (fmul f64 y y) (Format.fneg f64 (fmul f64 (fmul f64 y y) y)) = Some v8 ->
  isbits f64 (ndy y zz rr y2l v8) -> finite f64 (ndy y zz rr y2l v8) = true -> Rabs (val f64 y - val f64 (ndy y zz rr y2l v8) - v) <= E ->
  exists dy y1, cb_step y zz rr = Some (dy, y1) /\ isbits f64 y1 /\ finite f64 y1 = true /\ isbits f64 dy /\ finite f64 dy = true /\
    Rabs (val f64 y1 + val f64 dy - v) <= E + / 20282409603651670423947251286016 /\ Rabs (val f64 dy) <= / 9007199254740992 + / 20282409603651670423947251286016 /\ Rabs (val f64 y1 - v) <= E + / 9007199254740992.
Proof.
  intros B F V HE HY M1 M2 Bd Fd D. unfold cb_step. rewrite M1. cbn [bind]. rewrite M2. cbn [bind]. do 2 eexists. split; [reflexivity|]. exact (y1_ok y _ v E B F Bd Fd V HE HY D).
Qed.
Definition E1 : R := 26 / 1000000000000000000000000.
Definition E2 : R := / 633825300114114700748351602688.
Lemma step1 y zz rr v w : isbits f64 y -> finite f64 y = true -> isbits f64 zz -> finite f64 zz = true -> isbits f64 rr -> finite f64 rr = true -> val f64 zz = v * v * v -> 1 <= v <= v2 -> val f64 y = v * (1 + w) -> Rabs w <= 25 / 10000000000000 ->
  Rabs (val f64 rr - / (v * v * v)) <= / 18014398509481984 ->
  exists dy y1, cb_step y zz rr = Some (dy, y1) /\ isbits f64 y1 /\ finite f64 y1 = true /\ isbits f64 dy /\ finite f64 dy = true /\
    Rabs (val f64 y1 + val f64 dy - v) <= E1 + / 20282409603651670423947251286016 /\ Rabs (val f64 dy) <= / 9007199254740992 + / 20282409603651670423947251286016 /\ Rabs (val f64 y1 - v) <= E1 + / 9007199254740992.
Proof.
  intros B F Bz Fz Br Fr Ez V Ey W HR. assert (V' : 1 <= v <= 2) by (unfold v2 in V; lra). destruct (newton1 y zz rr v w B F Bz Fz Br Fr Ez V' Ey W HR) as (y2l & v8 & M1 & M2 & Bd & Fd & D).
  apply (step_ok y zz rr y2l v8 v); auto; [unfold E1; lra|]. rewrite Ey. pose proof (Rabs_le_inv _ _ W). apply Rabs_le. nra.
Qed.
Lemma step2 y zz rr v : isbits f64 y -> finite f64 y = true -> isbits f64 zz -> finite f64 zz = true -> isbits f64 rr -> finite f64 rr = true -> val f64 zz = v * v * v -> 1 <= v <= v2 -> Rabs (val f64 y - v) <= E1 + / 9007199254740992 ->
  Rabs (val f64 rr - / (v * v * v)) <= / 18014398509481984 ->
  exists dy y1, cb_step y zz rr = Some (dy, y1) /\ isbits f64 y1 /\ finite f64 y1 = true /\ isbits f64 dy /\ finite f64 dy = true /\
    Rabs (val f64 y1 + val f64 dy - v) <= E2 + / 20282409603651670423947251286016 /\ Rabs (val f64 dy) <= / 9007199254740992 + / 20282409603651670423947251286016 /\ Rabs (val f64 y1 - v) <= E2 + / 9007199254740992.
Proof.
  intros B F Bz Fz Br Fr Ez V D0 HR. assert (V' : 1 <= v <= 2) by (unfold v2 in V; lra). unfold E1 in D0. apply Rabs_le_inv in D0.
  assert (W : Rabs ((val f64 y - v) * / v) <= 1001 / 9007199254740992000). { assert (0 < / v <= 1) by (split; [apply Rinv_0_lt_compat; lra|rewrite <- Rinv_1; apply Rinv_le; lra]). apply Rabs_le. nra. }
  destruct (newton2 y zz rr v ((val f64 y - v) * / v) B F Bz Fz Br Fr Ez V' ltac:(field; lra) W HR) as (y2l & v8 & M1 & M2 & Bd & Fd & D).
  apply (step_ok y zz rr y2l v8 v); auto; [unfold E2; lra|]. apply Rabs_le. lra.
Qed.
Lemma half53 : val f64 0x3ca0000000000000 = 1 / 9007199254740992. Proof. lit. Qed.
(** a remainder that passes the tests is well inside 1/2 ulp *)
Lemma not_hard tb dy t : isbits f64 dy -> finite f64 dy = true -> Rabs (val f64 dy) <= / 9007199254740992 + / 20282409603651670423947251286016 -> finite f64 tb = true -> val f64 tb = t -> / 1000000000000000000000000000000 <= t ->
  hard tb dy = false -> Rabs (val f64 dy) <= / 9007199254740992 - t * (1 - / 4503599627370496).
Proof.
  intros B F D Ft Et T H. apply orb_false_iff in H. destruct H as [H _]. unfold ady in H. pose proof (test_far dy 0x3ca0000000000000 tb B F ltac:(lra) Ft) as K. rewrite half53, Et in K.
  assert (bpow radix2 (-140) <= t). { apply Rle_trans with (bpow radix2 (-100)); [apply bpow_le; lia|]. change (bpow radix2 (-100)) with (/ 1267650600228229401496703205376). lra. }
  specialize (K H0 ltac:(vm_compute; reflexivity) ltac:(lra) H). revert K.
  unfold Rabs at 1. destruct Rcase_abs; intros K; nra.
Qed.

Lemma k1 : val f64 0x4009b78223aa307c = 7238643989753980 / 2251799813685248. Proof. lit. Qed.
Lemma k2 : val f64 0x401a202bfc89ddff = 7353722687053311 / 1125899906842624. Proof. lit. Qed.
Lemma k3 : val f64 0x3ff79d15d0e8d59c = 6646641489139100 / 4503599627370496. Proof. lit. Qed.
Lemma k4 : val f64 0x3ffde87aa837820f = 8418387830473231 / 4503599627370496. Proof. lit. Qed.
Lemma kf1 : finite f64 0x4009b78223aa307c = true. Proof. vm_compute. reflexivity. Qed.
Lemma kf2 : finite f64 0x401a202bfc89ddff = true. Proof. vm_compute. reflexivity. Qed.
Lemma t75f : finite f64 0x3b40000000000000 = true. Proof. vm_compute. reflexivity. Qed.
Lemma copy_pos a zz : isbits f64 a -> isbits f64 zz -> finite f64 a = true -> 0 < val f64 zz -> 0 < val f64 a -> isbits f64 (copysign f64 a zz) /\ finite f64 (copysign f64 a zz) = true /\ val f64 (copysign f64 a zz) = val f64 a.
Proof.
  intros B Bz F P Pa. rewrite copysign_eq by assumption. rewrite (val_pos_sign _ _ P). split; [apply with_sign_fields|]. rewrite with_sign_finite, with_sign_val. split; [assumption|]. unfold sval. now rewrite Rabs_pos_eq by lra.
Qed.
Lemma cb_known_ok zz y1 v B : isbits f64 zz -> finite f64 zz = true -> val f64 zz = v * v * v -> 1 <= v <= 2 -> isbits f64 y1 -> finite f64 y1 = true -> / 9007199254740992 <= B -> Rabs (val f64 y1 - v) <= B ->
  isbits f64 (cb_known zz y1) /\ finite f64 (cb_known zz y1) = true /\ Rabs (val f64 (cb_known zz y1) - v) <= B.
Proof.
  intros Bz Fz Ez V B1 F1 HB D. destruct (fabs_val f64 zz Bz) as (Ba & Fa & Va). rewrite Fz in Fa. assert (ZP : 0 < val f64 zz) by (rewrite Ez; nra). rewrite Rabs_pos_eq in Va by lra.
  unfold cb_known. destruct (feq f64 (fabs f64 zz) 0x401a202bfc89ddff) eqn:Q2.
  - apply (P_fmaf.feq_val _ _ Fa kf2) in Q2. rewrite Va, k2, Ez in Q2. destruct (copy_pos 0x3ffde87aa837820f zz ltac:(split; vm_compute; congruence) Bz ltac:(vm_compute; reflexivity) ZP) as (C1 & C2 & C3); [rewrite k4; lra|].
    split; [exact C1|]. split; [exact C2|]. rewrite C3, k4. assert (v <= 8418387830473231 / 4503599627370496 + / 9007199254740992) by (apply cube_le; lra).
    assert (8418387830473231 / 4503599627370496 - / 9007199254740992 <= v) by (apply cube_le; lra). apply Rabs_le. lra.
  - destruct (feq f64 (fabs f64 zz) 0x4009b78223aa307c) eqn:Q1; [|auto].
    apply (P_fmaf.feq_val _ _ Fa kf1) in Q1. rewrite Va, k1, Ez in Q1. destruct (copy_pos 0x3ff79d15d0e8d59c zz ltac:(split; vm_compute; congruence) Bz ltac:(vm_compute; reflexivity) ZP) as (C1 & C2 & C3); [rewrite k3; lra|].
    split; [exact C1|]. split; [exact C2|]. rewrite C3, k3. assert (v <= 6646641489139100 / 4503599627370496 + / 9007199254740992) by (apply cube_le; lra).
    assert (6646641489139100 / 4503599627370496 - / 9007199254740992 <= v) by (apply cube_le; lra). apply Rabs_le. lra.
Qed.
Definition BND : R := / 9007199254740992 + E2.
Lemma t75 : val f64 0x3b40000000000000 = 1 / 37778931862957161709568. Proof. lit. Qed.
Lemma t98 : val f64 0x39d0000000000000 = 1 / 316912650057057350374175801344. Proof. lit. Qed.
Lemma cb_iter_pos y zz rr v w : isbits f64 y -> finite f64 y = true -> isbits f64 zz -> finite f64 zz = true -> isbits f64 rr -> finite f64 rr = true -> val f64 zz = v * v * v -> 1 <= v <= v2 -> val f64 y = v * (1 + w) -> Rabs w <= 25 / 10000000000000 ->
  Rabs (val f64 rr - / (v * v * v)) <= / 18014398509481984 ->
  exists dy y1, cb_iter y zz rr = Some (dy, y1) /\ isbits f64 y1 /\ finite f64 y1 = true /\ isbits f64 dy /\ finite f64 dy = true /\ Rabs (val f64 dy) <= / 4503599627370496 /\ Rabs (val f64 y1 - v) <= BND.
Proof.
  intros B F Bz Fz Br Fr Ez V Ey W HR. destruct (step1 y zz rr v w B F Bz Fz Br Fr Ez V Ey W HR) as (dy & y1 & S1 & B1 & F1 & Bd & Fd & D1 & D2 & D3).
  unfold cb_iter. rewrite S1. cbn [bind]. destruct (hard 0x3b40000000000000 dy) eqn:H1.
  2:{ exists dy, y1. split; [reflexivity|]. repeat (split; [assumption|]). apply (not_hard _ _ _ Bd Fd D2 t75f t75 ltac:(lra)) in H1. unfold BND, E1, E2 in *. split; [lra|]. apply Rabs_le_inv in H1, D1. apply Rabs_le. lra. }
  destruct (step2 y1 zz rr v B1 F1 Bz Fz Br Fr Ez V D3 HR) as (dy' & y' & S2 & B2 & F2 & Bd' & Fd' & C1 & C2 & C3). rewrite S2. cbn [bind].
  assert (P : Rabs (val f64 dy') <= / 4503599627370496) by lra. assert (V' : 1 <= v <= 2) by (unfold v2 in V; lra). rewrite Rplus_comm in C3. fold BND in C3.
  destruct (hard 0x39d0000000000000 dy') eqn:H2.
  - destruct (cb_known_ok zz y' v BND Bz Fz Ez V' B2 F2 ltac:(unfold BND, E2; lra) C3) as (K1 & K2 & K3). do 2 eexists. split; [reflexivity|]. auto 10.
  - exists dy', y'. split; [reflexivity|]. auto 10.
Qed.
(** ** negative arguments *)
Lemma rel_vals s x y : isbits f64 x -> isbits f64 y -> finite f64 x = true -> finite f64 y = true -> val f64 y = sval s (val f64 x) -> rel f64 false s x y.
Proof. intros. split; [assumption|]. split; [assumption|]. right; right. repeat split; auto. discriminate. Qed.
Lemma ndy_rel y zz rr a b y' zz' rr' a' b' : rel f64 false true y y' -> rel f64 false true zz zz' -> rel f64 false true rr rr' -> rel f64 false false a a' -> rel f64 false true b b' -> rel f64 false true (ndy y zz rr a b) (ndy y' zz' rr' a' b').
Proof.
  intros Ry Rz Rr Ra Rb. unfold ndy. pose proof (rel_fmul _ _ _ _ _ _ _ _ Ry Ry) as R2. cbn [xorb] in R2. pose proof (rel_fmul _ _ _ _ _ _ _ _ R2 Ry) as R3. cbn [xorb] in R3.
  pose proof (rel_fsub _ _ _ _ _ _ _ R3 Rz) as R4. cbn [andb negb] in R4. pose proof (rel_fmul _ _ _ _ _ _ _ _ Ry Ra) as R5. cbn [xorb] in R5. pose proof (rel_fadd _ _ _ _ _ _ _ Rb R5) as R6. cbn [andb negb] in R6.
  pose proof (rel_fadd _ _ _ _ _ _ _ R4 R6) as R7. cbn [andb negb] in R7. pose proof (rel_fmul _ _ _ _ _ _ _ _ R7 Rr) as R8. cbn [xorb] in R8.
  assert (RU : rel f64 false false 0x3fd5555555555555 0x3fd5555555555555) by (apply rel_refl; split; vm_compute; congruence).
  pose proof (rel_fmul _ _ _ _ _ _ _ _ Ry RU) as R9. cbn [xorb] in R9. exact (rel_fmul _ _ _ _ _ _ _ _ R8 R9).
Qed.
Lemma step_neg y zz rr dy y1 : isbits f64 y -> finite f64 y = true -> isbits f64 zz -> isbits f64 rr -> 0.9 <= val f64 y <= 2.1 -> cb_step y zz rr = Some (dy, y1) -> finite f64 y1 = true -> val f64 y1 <> 0 ->
  exists dy', cb_step (Format.fneg f64 y) (Format.fneg f64 zz) (Format.fneg f64 rr) = Some (dy', Format.fneg f64 y1) /\ rel f64 false true dy dy'.
Proof.
  intros B F Bz Br HY H F1 N1. destruct (fneg_fields f64 y B) as (B' & _). pose proof (fneg_finite f64 y B) as F'. rewrite F in F'. pose proof (fneg_val f64 y B) as V'.
  pose proof (rel_fneg f64 true y B) as Ry. pose proof (rel_fneg f64 false zz Bz) as Rz. pose proof (rel_fneg f64 false rr Br) as Rr.
  assert (T : 16 <= bpow radix2 1000) by (apply Rle_trans with (bpow radix2 4); [change (bpow radix2 4) with 16; lra|apply bpow_le; lia]).
  pose proof tiny200 as T2. destruct (mul64 y y 16 F F) as [Fs Es]; [apply Rabs_le; nra|exact T|]. pose proof (rnd64_err (val f64 y * val f64 y)) as D. rewrite <- Es in D. rewrite (Rabs_pos_eq (val f64 y * val f64 y)) in D by nra. apply Rabs_le_inv in D.
  assert (Hs : 0.8 <= val f64 (fmul f64 y y) <= 4.5) by nra. assert (Bs : isbits f64 (fmul f64 y y)) by apply fmul_isbits.
  pose proof (rel_eq _ _ _ _ (rel_square _ _ _ _ _ Ry) (finite_not_nan _ _ Fs)) as Q2. cbn [negb] in Q2.
  pose proof (rel_refl f64 true _ Bs) as Rs. pose proof (rel_fmul _ _ _ _ _ _ _ _ Rs Ry) as Rc. cbn [xorb] in Rc.
  unfold cb_step in *. rewrite Q2. set (s := fmul f64 y y) in *. clearbody s. clear D.
  destruct (mul64 s y 16 Fs F) as [Fc Ec]; [apply Rabs_le; nra|exact T|]. pose proof (rnd64_err (val f64 s * val f64 y)) as D. rewrite <- Ec in D. rewrite (Rabs_pos_eq (val f64 s * val f64 y)) in D by nra. apply Rabs_le_inv in D.
  assert (Hc : 0 <= val f64 (fmul f64 s y) <= 10) by nra. assert (Bc : isbits f64 (fmul f64 s y)) by apply fmul_isbits. pose proof (rel_eq _ _ _ _ Rc (finite_not_nan _ _ Fc)) as Q3. cbv iota in Q3. rewrite Q3. set (c := fmul f64 s y) in *. clearbody c. clear D.
  destruct (fneg_fields f64 s Bs) as (Bns & _). pose proof (fneg_finite f64 s Bs) as Fns. rewrite Fs in Fns. pose proof (fneg_val f64 s Bs) as Vns.
  destruct (fneg_fields f64 c Bc) as (Bnc & _). pose proof (fneg_finite f64 c Bc) as Fnc. rewrite Fc in Fnc. pose proof (fneg_val f64 c Bc) as Vnc.
  rewrite (fneg_fneg f64 c Bc).
  assert (A1 : / 2 <= Rabs (val f64 y) <= 16) by (rewrite Rabs_pos_eq; lra). assert (A2 : / 2 <= Rabs (val f64 (Format.fneg f64 y)) <= 16) by (rewrite V', Rabs_Ropp; exact A1).
  assert (A3 : / 2 <= Rabs (val f64 s) <= 16) by (rewrite Rabs_pos_eq; lra). assert (A4 : Rabs (val f64 (Format.fneg f64 s)) <= 16) by (rewrite Vns, Rabs_Ropp; apply A3). assert (A5 : Rabs (val f64 c) <= 16) by (rewrite Rabs_pos_eq; lra). assert (A6 : Rabs (val f64 (Format.fneg f64 c)) <= 16) by (rewrite Vnc, Rabs_Ropp; exact A5).
  destruct (fma_mid y y _ B B Bns F F Fns A1 A1 A4) as (a & Ma & Ba & Fa & Va). destruct (fma_mid _ _ _ B' B' Bns F' F' Fns A2 A2 A4) as (a' & Ma' & Ba' & Fa' & Va').
  destruct (fma_mid y s _ B Bs Bnc F Fs Fnc A1 A3 A6) as (b & Mb & Bb & Fb & Vb). destruct (fma_mid _ s c B' Bs Bc F' Fs Fc A2 A3 A5) as (b' & Mb' & Bb' & Fb' & Vb').
  rewrite Ma'. rewrite Ma in H. cbn [bind] in *. rewrite Mb'. rewrite Mb in H. cbn [bind] in *.
  assert (Ra : rel f64 false false a a'). { apply rel_vals; auto. cbn [sval]. rewrite Va, Va', V'. f_equal. ring. }
  assert (Rb : rel f64 false true b b'). { apply rel_vals; auto. cbn [sval]. rewrite Vb, Vb', V', Vnc, <- rnd_opp. f_equal. ring. }
  pose proof (ndy_rel _ _ _ _ _ _ _ _ _ _ (rel_weaken _ _ _ _ _ Ry) Rz Rr Ra Rb) as Rd. set (d := ndy y zz rr a b) in *. set (d' := ndy (Format.fneg f64 y) (Format.fneg f64 zz) (Format.fneg f64 rr) a' b') in *. clearbody d d'.
  pose proof (rel_fsub _ _ _ _ _ _ _ (rel_weaken _ _ _ _ _ Ry) Rd) as R1. cbn [andb negb] in R1.
  injection H as H0 H1. rewrite H1 in *. rewrite <- H0. clear H0 H1.
  pose proof (rel_fsub _ _ _ _ _ _ _ (rel_weaken _ _ _ _ _ Ry) R1) as R2. cbn [andb negb] in R2. pose proof (rel_fsub _ _ _ _ _ _ _ R2 Rd) as R3. cbn [andb negb] in R3.
  pose proof (rel_eq _ _ _ _ (rel_strict _ _ _ _ R1 (fun _ => N1)) (finite_not_nan _ _ F1)) as Q1. cbv iota in Q1. rewrite Q1 in *. eexists. split; [reflexivity|exact R3].
Qed.
Lemma hard_rel tb dy dy' : rel f64 false true dy dy' -> finite f64 dy = true -> hard tb dy' = hard tb dy.
Proof.
  intros R F. unfold hard, ady. assert (E : fabs f64 dy' = fabs f64 dy); [|now rewrite E]. destruct R as (B & B' & H). destruct H as [[H _] | [[H _] | (_ & F' & V & _)]]; [now rewrite (finite_not_nan _ _ F) in H|now rewrite (finite_not_inf _ _ F) in H|].
  destruct (fabs_val f64 dy B) as (A1 & A2 & A3). destruct (fabs_val f64 dy' B') as (C1 & C2 & C3). apply (val_sign_inj f64); [assumption|assumption|congruence|congruence|rewrite A3, C3, V; cbn [sval]; apply Rabs_Ropp|].
  rewrite !fabs_eq by assumption. destruct (with_sign_fields f64 false dy) as (_ & -> & _). destruct (with_sign_fields f64 false dy') as (_ & -> & _). reflexivity.
Qed.
Lemma fabs_fneg64 x : isbits f64 x -> fabs f64 (Format.fneg f64 x) = fabs f64 x.
Proof.
  intros B. destruct (fneg_fields f64 x B) as (B' & S & E & G). rewrite !fabs_eq by assumption. unfold with_sign. rewrite E, G. reflexivity.
Qed.
Lemma copysign_neg a x : isbits f64 a -> isbits f64 x -> copysign f64 a (Format.fneg f64 x) = Format.fneg f64 (copysign f64 a x).
Proof.
  intros A B. destruct (fneg_fields f64 x B) as (B' & S & _). rewrite !copysign_eq by assumption. rewrite S. destruct (with_sign_fields f64 (signbit f64 x) a) as (W & W1 & W2 & W3). rewrite fneg_eq by assumption. unfold with_sign at 1 2. rewrite W1, W2, W3. reflexivity.
Qed.
Lemma cb_known_neg zz y1 : isbits f64 zz -> cb_known (Format.fneg f64 zz) (Format.fneg f64 y1) = Format.fneg f64 (cb_known zz y1).
Proof.
  intros B. unfold cb_known. rewrite fabs_fneg64 by assumption. destruct (feq f64 (fabs f64 zz) 0x401a202bfc89ddff); [apply copysign_neg; [split; vm_compute; congruence|assumption]|].
  destruct (feq f64 (fabs f64 zz) 0x4009b78223aa307c); [|reflexivity]. apply copysign_neg; [split; vm_compute; congruence|assumption].
Qed.
Lemma cb_iter_neg y zz rr v w : isbits f64 y -> finite f64 y = true -> isbits f64 zz -> finite f64 zz = true -> isbits f64 rr -> finite f64 rr = true -> val f64 zz = v * v * v -> 1 <= v <= v2 -> val f64 y = v * (1 + w) -> Rabs w <= 25 / 10000000000000 ->
  Rabs (val f64 rr - / (v * v * v)) <= / 18014398509481984 ->
  forall dy y1, cb_iter y zz rr = Some (dy, y1) -> exists dy', cb_iter (Format.fneg f64 y) (Format.fneg f64 zz) (Format.fneg f64 rr) = Some (dy', Format.fneg f64 y1) /\ rel f64 false true dy dy'.
Proof.
  intros B F Bz Fz Br Fr Ez V Ey W HR dy0 y0 I. destruct (step1 y zz rr v w B F Bz Fz Br Fr Ez V Ey W HR) as (dy & y1 & S1 & B1 & F1 & Bd & Fd & D1 & D2 & D3).
  assert (V' : 1 <= v <= 2) by (unfold v2 in V; lra). unfold E1 in *. pose proof (Rabs_le_inv _ _ D3) as D3'. pose proof (Rabs_le_inv _ _ W).
  destruct (step_neg y zz rr dy y1 B F Bz Br ltac:(nra) S1 F1 ltac:(lra)) as (dn & Sn & Rn). pose proof (hard_rel 0x3b40000000000000 _ _ Rn Fd) as Hn.
  unfold cb_iter in *. rewrite S1 in I. rewrite Sn. cbn [bind] in *. rewrite Hn. destruct (hard 0x3b40000000000000 dy).
  2:{ injection I as <- <-. exists dn. auto. }
  destruct (step2 y1 zz rr v B1 F1 Bz Fz Br Fr Ez V D3 HR) as (dy' & y' & S2 & B2 & F2 & Bd' & Fd' & C1 & C2 & C3). unfold E2 in *. apply Rabs_le_inv in C3.
  destruct (step_neg y1 zz rr dy' y' B1 F1 Bz Br ltac:(lra) S2 F2 ltac:(lra)) as (dn' & Sn' & Rn'). pose proof (hard_rel 0x39d0000000000000 _ _ Rn' Fd') as Hn'.
  rewrite S2 in I. rewrite Sn'. cbn [bind] in *. rewrite Hn'. injection I as <- <-. exists dn'. split; [|exact Rn'].
  rewrite cb_known_neg by assumption. destruct (hard 0x39d0000000000000 dy'); reflexivity.
Qed.

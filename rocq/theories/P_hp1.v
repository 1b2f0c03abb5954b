(** hypot: the square as a sum of two floats, the sum of squares and its square root. *)
From Coq Require Import ZArith Reals Lia Lra Bool List Psatz.
From Flocq Require Import Core.
From Flocq Require Pff2Flocq.
From Verif Require Import Base Spec SpecFun3 Format P_format Ieee P_ieee P_real P_neg P_lit P_err P_apx M_sqrt Prop_sqrt M_elib M_pow.
Open Scope R_scope.
Local Opaque fadd fsub fmul fdiv of_int M_sqrt.sqrt.

Lemma stp v sz z : rounds_to f64 v sz z -> Rabs v <= 3 / 2 * bpow radix2 1023 -> isbits f64 z /\ finite f64 z = true /\ Rabs (val f64 z - v) <= / 9007199254740992 * Rabs v + bpow radix2 (-1075).
Proof.
  intros [B H] L. pose proof (rndF_abs f64 v) as Q. change (bpow radix2 (- pr f64)) with (/ 9007199254740992) in Q. change (emin f64 - 1)%Z with (-1075)%Z in Q.
  assert (U : bpow radix2 (-1075) <= / 100 * bpow radix2 1023). { apply Rle_trans with (bpow radix2 (-10 + 1023)); [apply bpow_le; lia|]. rewrite bpow_plus. change (bpow radix2 (-10)) with (/ 1024). pose proof (bpow_gt_0 radix2 1023). lra. }
  rewrite Rlt_bool_true in H. { destruct H as (A & C & _). split; [exact B|]. split; [exact A|]. now rewrite C. }
  change (bias f64 + 1)%Z with (1 + 1023)%Z. rewrite bpow_plus. change (bpow radix2 1) with 2. pose proof (bpow_gt_0 radix2 1023).
  replace (rnd f64 v) with ((rnd f64 v - v) + v) by ring. eapply Rle_lt_trans; [apply Rabs_triang|]. lra.
Qed.
Lemma stv v sz z : rounds_to f64 v sz z -> Rabs v <= 3 / 2 * bpow radix2 1023 -> val f64 z = rnd f64 v.
Proof.
  intros R L. pose proof (stp v sz z R L) as (_ & G & _). destruct R as [_ H]. destruct (Rlt_bool _ _); [exact (proj1 (proj2 H))|].
  destruct (infinity_fields f64 (Rlt_bool v 0)) as (_ & _ & _ & E & _). congruence.
Qed.
(** Veltkamp's splitting: the high part has 26 bits, so that its square is exact *)
Lemma split_exact X : repr f64 X -> let c := rnd f64 (X * 134217729) in let h := rnd f64 (rnd f64 (X - c) + c) in bpow radix2 (-452) <= h -> repr f64 (h * h).
Proof.
  intros RX c h L. pose proof (Pff2Flocq.Veltkamp_Even radix2 (1 - bias f64 - mw f64) (mw f64 + 1) (fun z => negb (Z.even z)) 27 ltac:(vm_compute; discriminate) ltac:(vm_compute; discriminate) ltac:(lia) ltac:(vm_compute; discriminate) X RX eq_refl) as V.
  change (bpow radix2 27 + 1) with (134217728 + 1) in V. replace (134217728 + 1) with 134217729 in V by lra.
  change (h = round radix2 (FLT_exp (1 - bias f64 - mw f64) (mw f64 + 1 - 27)) ZnearestE X) in V.
  assert (PG : Prec_gt_0 (mw f64 + 1 - 27)) by reflexivity.
  assert (GF : generic_format radix2 (FLT_exp (1 - bias f64 - mw f64) (mw f64 + 1 - 27)) h) by (rewrite V; apply generic_format_round; [now apply FLT_exp_valid|apply valid_rnd_N]).
  apply FLT_format_generic in GF; [|exact PG]. destruct GF as [[m e] E M _]. cbn [Fnum Fexp] in *. change (Z.pow (radix_val radix2) (mw f64 + 1 - 27)) with 67108864%Z in M.
  assert (B : (-479 < e)%Z).
  { assert (K : (-452 < 27 + e)%Z); [|lia]. apply (lt_bpow radix2). eapply Rle_lt_trans; [exact L|]. rewrite E. unfold F2R. cbn [Fnum Fexp]. rewrite bpow_plus. apply Rmult_lt_compat_r; [apply bpow_gt_0|]. change (bpow radix2 27) with 134217728. apply IZR_lt. lia. }
  rewrite E. unfold F2R. cbn [Fnum Fexp]. replace (IZR m * bpow radix2 e * (IZR m * bpow radix2 e)) with (IZR (m * m) * bpow radix2 (e + e)) by (rewrite mult_IZR, bpow_plus; ring).
  apply repr_int; [change (2 ^ (mw f64 + 1))%Z with 9007199254740992%Z; nia|change (emin f64) with (-1074)%Z; lia].
Qed.
Lemma split_val : finite f64 rs_hypot_SPLIT = true /\ val f64 rs_hypot_SPLIT = 134217729.
Proof. split; [vm_compute; reflexivity|]. replace 134217729 with (IZR 134217729 / IZR 1) by lra. lit. Qed.
Ltac ab := repeat match goal with H : (Rabs _ <= _)%R |- _ => apply Rabs_le_inv in H end.

(** the high part is the rounded square; the low part is what is missing, up to a millionth of an ulp *)
Lemma sq_ok x : isbits f64 x -> finite f64 x = true -> bpow radix2 (-450) <= val f64 x <= bpow radix2 511 ->
  let X := val f64 x in let '(hi, lo) := rs_hypot_sq x in
  (isbits f64 hi /\ finite f64 hi = true) /\ (isbits f64 lo /\ finite f64 lo = true) /\
  Rabs (val f64 hi - X * X) <= 1001 / 1000 * / 9007199254740992 * (X * X) /\ Rabs (val f64 lo - (X * X - val f64 hi)) <= / 500000 * / 9007199254740992 * (X * X).
Proof.
  intros BX FX [XL XU] X. unfold rs_hypot_sq. fold X in XL, XU. destruct split_val as [FS VS].
  set (M := bpow radix2 1023). set (u := bpow radix2 (-1075)).
  assert (X0 : 0 < X) by (pose proof (bpow_gt_0 radix2 (-450)); lra).
  assert (UX : 0 < u <= / 1152921504606846976 * (/ 1152921504606846976 * X)).
  { split; [apply bpow_gt_0|]. apply Rle_trans with (bpow radix2 (-60 + (-60 + -450))); [apply bpow_le; lia|]. rewrite !bpow_plus. change (bpow radix2 (-60)) with (/ 1152921504606846976). lra. }
  assert (XM : 1152921504606846976 * X <= M). { apply Rle_trans with (bpow radix2 (60 + 511)); [rewrite bpow_plus; change (bpow radix2 60) with 1152921504606846976; lra|apply bpow_le; lia]. }
  assert (QM : 2 * (X * X) <= M). { apply Rle_trans with (2 * bpow radix2 (511 + 511)); [rewrite bpow_plus; nra|]. unfold M. replace 1023%Z with (1 + (511 + 511))%Z by lia. rewrite (bpow_plus radix2 1). change (bpow radix2 1) with 2. lra. }
  assert (UQ : u <= / 1152921504606846976 * (/ 1152921504606846976 * (X * X))).
  { apply Rle_trans with (bpow radix2 (-60 + (-60 + (-450 + -450)))); [apply bpow_le; lia|]. rewrite !bpow_plus. change (bpow radix2 (-60)) with (/ 1152921504606846976). pose proof (bpow_gt_0 radix2 (-450)). nra. }
  assert (Q0 : 0 < X * X) by nra. set (Q := X * X) in *.
  (* xc *)
  destruct (stp _ _ _ (fmul_spec f64 x rs_hypot_SPLIT FX FS)) as (B1 & F1 & E1). { fold X. rewrite VS. fold M. rewrite Rabs_pos_eq; lra. }
  assert (N1 : val f64 (fmul f64 x rs_hypot_SPLIT) = rnd f64 (X * 134217729)). { rewrite <- VS. apply (stv _ _ _ (fmul_spec f64 x rs_hypot_SPLIT FX FS)). fold X. rewrite VS. fold M. rewrite Rabs_pos_eq; lra. }
  rewrite VS in E1. fold X u in E1. rewrite (Rabs_pos_eq (X * _)) in E1 by lra. set (xc := fmul f64 x rs_hypot_SPLIT) in *.
  (* x - xc *)
  assert (D1 : Rabs (X - val f64 xc) <= 134217730 * X) by (ab; apply Rabs_le; lra).
  destruct (stp _ _ _ (fsub_spec f64 x xc FX F1)) as (B2 & F2 & E2). { fold X M. lra. }
  assert (N2 : val f64 (fsub f64 x xc) = rnd f64 (X - val f64 xc)). { apply (stv _ _ _ (fsub_spec f64 x xc FX F1)). fold X M. lra. }
  fold X u in E2. set (d := fsub f64 x xc) in *.
  (* xh *)
  assert (E2' : Rabs (val f64 d - (X - val f64 xc)) <= / 9007199254740992 * (134217730 * X) + u) by lra. clear E2.
  assert (D2 : Rabs (val f64 d + val f64 xc) <= 11 / 10 * X) by (ab; apply Rabs_le; lra).
  destruct (stp _ _ _ (fadd_spec f64 d xc F2 F1)) as (B3 & F3 & E3). { fold M. lra. }
  assert (N3 : val f64 (fadd f64 d xc) = rnd f64 (val f64 d + val f64 xc)). { apply (stv _ _ _ (fadd_spec f64 d xc F2 F1)). fold M. lra. }
  fold u in E3. set (xh := fadd f64 d xc) in *.
  assert (E3' : Rabs (val f64 xh - (val f64 d + val f64 xc)) <= / 9007199254740992 * (11 / 10 * X) + u) by lra. clear E3.
  assert (D3 : Rabs (val f64 xh - X) <= / 65000000 * X) by (ab; apply Rabs_le; lra).
  (* xl *)
  destruct (stp _ _ _ (fsub_spec f64 x xh FX F3)) as (B4 & F4 & E4). { fold X M. rewrite Rabs_minus_sym. lra. } fold X u in E4. rewrite (Rabs_minus_sym X) in E4. set (xl := fsub f64 x xh) in *.
  assert (E4' : Rabs (val f64 xl - (X - val f64 xh)) <= / 9007199254740992 * (/ 65000000 * X) + u) by lra. clear E4.
  assert (D4 : Rabs (val f64 xl) <= / 64000000 * X) by (ab; apply Rabs_le; lra).
  assert (D5 : Rabs (val f64 xl - (X - val f64 xh)) <= / 9007199254740992 * / 64000000 * X) by (ab; apply Rabs_le; lra).
  (* hi *)
  destruct (stp _ _ _ (fmul_spec f64 x x FX FX)) as (B5 & F5 & E5). { fold X M Q. rewrite Rabs_pos_eq; lra. } fold X Q u in E5. rewrite (Rabs_pos_eq Q) in E5 by lra. set (hi := fmul f64 x x) in *.
  (* xh * xh *)
  set (h := val f64 xh) in *. set (l := val f64 xl) in *. clear D1 E1 D2 E2' E3' E4'.
  assert (HH : Rabs (h * h - Q) <= / 32000000 * Q). { unfold Q. ab. apply Rabs_le. split; nra. }
  assert (N6 : repr f64 (h * h)).
  { unfold h in *. rewrite N3, N2, N1. apply split_exact; [exact (repr_val f64 x FX)|]. rewrite <- N1, <- N2, <- N3. apply Rle_trans with (/ 4 * bpow radix2 (-450)); [right; replace (-452)%Z with (-2 + -450)%Z by lia; rewrite bpow_plus; reflexivity|]. ab. lra. }
  clear N1 N2 N3.
  destruct (stp _ _ _ (fmul_spec f64 xh xh F3 F3)) as (B6 & F6 & _). { fold h M. ab. rewrite Rabs_pos_eq; nra. }
  assert (D6 : val f64 (fmul f64 xh xh) = h * h). { rewrite (stv _ _ _ (fmul_spec f64 xh xh F3 F3)); [exact (repr_rnd f64 _ N6)|]. fold h M. ab. rewrite Rabs_pos_eq; nra. }
  set (q := fmul f64 xh xh) in *.
  (* q - hi *)
  assert (D7 : Rabs (val f64 q - val f64 hi) <= / 30000000 * Q) by (ab; apply Rabs_le; lra).
  destruct (stp _ _ _ (fsub_spec f64 q hi F6 F5)) as (B7 & F7 & E7). { fold M. lra. } fold u in E7. set (t1 := fsub f64 q hi) in *.
  assert (D8 : Rabs (val f64 t1 - (val f64 q - val f64 hi)) <= / 9007199254740992 * / 29000000 * Q) by lra. clear E7.
  (* 2 * xh *)
  assert (V2 : finite f64 0x4000000000000000 = true /\ val f64 0x4000000000000000 = 2) by (split; [vm_compute; reflexivity|replace 2 with (IZR 2 / IZR 1) by lra; lit]). destruct V2 as [G2 V2].
  destruct (stp _ _ _ (fmul_spec f64 0x4000000000000000 xh G2 F3)) as (B8 & F8 & E8). { rewrite V2. fold h M. ab. rewrite Rabs_pos_eq; lra. } rewrite V2 in E8. fold h u in E8. rewrite (Rabs_pos_eq (2 * h)) in E8 by (ab; lra). set (w := fmul f64 0x4000000000000000 xh) in *.
  assert (D9 : Rabs (val f64 w - 2 * h) <= / 9007199254740992 * 3 * X) by (ab; apply Rabs_le; lra). clear E8.
  (* w * xl *)
  assert (WL : Rabs (val f64 w * l - 2 * h * l) <= / 9007199254740992 * / 20000000 * Q).
  { replace (val f64 w * l - 2 * h * l) with ((val f64 w - 2 * h) * l) by ring. rewrite Rabs_mult. eapply Rle_trans; [apply Rmult_le_compat; [apply Rabs_pos|apply Rabs_pos|exact D9|exact D4]|]. unfold Q. nra. }
  assert (HL : Rabs (2 * h * l) <= / 30000000 * Q).
  { rewrite Rabs_mult. eapply Rle_trans; [apply (Rmult_le_compat _ (21 / 10 * X) _ (/ 64000000 * X)); [apply Rabs_pos|apply Rabs_pos| |exact D4]|unfold Q; nra]. ab. rewrite Rabs_pos_eq; lra. }
  destruct (stp _ _ _ (fmul_spec f64 w xl F8 F4)) as (B9 & F9 & E9). { fold l M. ab. apply Rabs_le. lra. } fold l u in E9. set (t2 := fmul f64 w xl) in *.
  assert (DA : Rabs (val f64 t2 - 2 * h * l) <= / 9007199254740992 * / 10000000 * Q).
  { assert (Rabs (val f64 w * l) <= / 29000000 * Q) by (clear E9; ab; apply Rabs_le; lra). assert (Rabs (val f64 t2 - val f64 w * l) <= / 9007199254740992 * (/ 29000000 * Q) + u) by lra. clear E9. ab. apply Rabs_le. lra. } clear E9.
  (* t1 + t2 *)
  assert (DB : Rabs (val f64 t1 + val f64 t2) <= / 10000000 * Q) by (ab; apply Rabs_le; lra).
  destruct (stp _ _ _ (fadd_spec f64 t1 t2 F7 F9)) as (B10 & F10 & E10). { fold M. lra. } fold u in E10. set (t3 := fadd f64 t1 t2) in *.
  assert (DC : Rabs (val f64 t3 - (val f64 t1 + val f64 t2)) <= / 9007199254740992 * / 9000000 * Q) by lra. clear E10.
  (* xl * xl *)
  assert (LL : Rabs (l * l) <= / 1000000000000 * Q). { rewrite Rabs_mult. eapply Rle_trans; [apply (Rmult_le_compat _ (/ 64000000 * X) _ (/ 64000000 * X)); try apply Rabs_pos; exact D4|unfold Q; nra]. }
  destruct (stp _ _ _ (fmul_spec f64 xl xl F4 F4)) as (B11 & F11 & E11). { fold l M. lra. } fold l u in E11. set (t4 := fmul f64 xl xl) in *.
  assert (DD : Rabs (val f64 t4 - l * l) <= / 9007199254740992 * / 9000000 * Q) by lra. clear E11.
  (* lo *)
  assert (DE : Rabs (val f64 t3 + val f64 t4) <= / 1000000 * Q) by (ab; apply Rabs_le; lra).
  destruct (stp _ _ _ (fadd_spec f64 t3 t4 F10 F11)) as (B12 & F12 & E12). { fold M. lra. } fold u in E12. set (lo := fadd f64 t3 t4) in *.
  assert (DF : Rabs (val f64 lo - (val f64 t3 + val f64 t4)) <= / 9007199254740992 * / 900000 * Q) by lra. clear E12.
  split; [split; assumption|]. split; [split; assumption|]. split; [ab; apply Rabs_le; lra|].
  (* (h + l)^2 = X^2 up to the error of l *)
  set (e := l - (X - h)) in *.
  assert (ID : h * h + 2 * h * l + l * l - Q = e * (2 * X + e)) by (unfold Q, e; ring).
  assert (EE : Rabs (e * (2 * X + e)) <= / 9007199254740992 * / 20000000 * Q).
  { rewrite Rabs_mult. eapply Rle_trans; [apply (Rmult_le_compat _ (/ 9007199254740992 * / 64000000 * X) _ (3 * X)); [apply Rabs_pos|apply Rabs_pos|exact D5|]|unfold Q; nra]. ab. apply Rabs_le. lra. }
  rewrite <- ID in EE. clearbody e. ab. apply Rabs_le. lra.
Qed.

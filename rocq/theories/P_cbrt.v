(** [cbrt]: polynomial estimate, one cubic step, one or two Newton steps in doubled precision. *)
From Coq Require Import ZArith Reals Lia Lra Bool List Psatz.
From Flocq Require Import Core Sterbenz.
From Verif Require Import Base Spec SpecFun SpecFun2 SpecAcc SpecSym Format P_format Ieee P_ieee P_real P_lit P_neg M_basic M_fma M_elib M_pow P_elem P_elem2 P_tot P_err
  P_round2 P_minmax P_fma P_fma2 P_fma3 P_fma4 P_fmaf P_apx P_poly P_poly2 P_poly3 P_acc P_kerf.
Import ListNotations.
Open Scope R_scope.

(** error of rounding below a power of two *)
Lemma rnd_ulp t k : Rabs t < bpow radix2 k -> (-1000 <= k)%Z -> Rabs (rnd f64 t - t) <= bpow radix2 (k - 54).
Proof.
  intros H K. unfold rnd. change (1 - bias f64 - mw f64)%Z with (-1074)%Z. change (mw f64 + 1)%Z with 53%Z.
  assert (V : Valid_exp (FLT_exp (-1074) 53)) by (apply FLT_exp_valid; reflexivity).
  destruct (Req_dec t 0) as [-> | N]; [rewrite round_0, Rminus_0_r, Rabs_R0 by apply valid_rnd_N; apply bpow_ge_0|].
  eapply Rle_trans; [apply error_le_half_ulp; exact V|]. rewrite ulp_neq_0 by exact N. replace (bpow radix2 (k - 54)) with (/ 2 * bpow radix2 (k - 53)).
  - apply Rmult_le_compat_l; [lra|]. apply bpow_le. unfold cexp, FLT_exp. pose proof (mag_le_bpow radix2 t k N H). lia.
  - replace (k - 53)%Z with (1 + (k - 54))%Z by lia. rewrite bpow_plus. change (bpow radix2 1) with 2. lra.
Qed.
(** [fma] on moderate operands rounds correctly *)
Lemma nform_lo x m e k : normal_form f64 x m e -> bpow radix2 k <= Rabs (val f64 x) -> (k - 53 <= e)%Z.
Proof.
  intros [H E] L. rewrite E in L. assert (A : Rabs (sval (signbit f64 x) (IZR m * bpow radix2 e)) = IZR m * bpow radix2 e).
  { assert (0 <= IZR m * bpow radix2 e) by (apply Rmult_le_pos; [apply IZR_le; change (mw f64 + 1)%Z with 53%Z in H; lia|apply bpow_ge_0]). destruct (signbit f64 x); cbn [sval]; rewrite ?Rabs_Ropp; now apply Rabs_pos_eq. }
  rewrite A in L. destruct (Z_lt_le_dec e (k - 53)) as [Q|]; [|assumption]. exfalso. assert (IZR m * bpow radix2 e < bpow radix2 54 * bpow radix2 (k - 54)).
  { apply Rlt_le_trans with (bpow radix2 54 * bpow radix2 e); [apply Rmult_lt_compat_r; [apply bpow_gt_0|]|apply Rmult_le_compat_l; [apply bpow_ge_0|apply bpow_le; lia]].
    change (bpow radix2 54) with (IZR (2 ^ 54)). apply IZR_lt. change (mw f64 + 2)%Z with 54%Z in H. lia. }
  rewrite <- bpow_plus in H0. replace (54 + (k - 54))%Z with k in H0 by lia. lra.
Qed.
Lemma nform_hi x m e k : normal_form f64 x m e -> Rabs (val f64 x) <= bpow radix2 k -> (e <= k - 53)%Z.
Proof.
  intros [H E] L. rewrite E in L. assert (A : Rabs (sval (signbit f64 x) (IZR m * bpow radix2 e)) = IZR m * bpow radix2 e).
  { assert (0 <= IZR m * bpow radix2 e) by (apply Rmult_le_pos; [apply IZR_le; change (mw f64 + 1)%Z with 53%Z in H; lia|apply bpow_ge_0]). destruct (signbit f64 x); cbn [sval]; rewrite ?Rabs_Ropp; now apply Rabs_pos_eq. }
  rewrite A in L. destruct (Z_le_gt_dec e (k - 53)) as [|Q]; [assumption|]. exfalso. assert (bpow radix2 53 * bpow radix2 (k - 52) <= IZR m * bpow radix2 e).
  { apply Rmult_le_compat; try apply bpow_ge_0; [|apply bpow_le; lia]. change (bpow radix2 53) with (IZR (2 ^ 53)). apply IZR_le. change (mw f64 + 1)%Z with 53%Z in H. lia. }
  rewrite <- bpow_plus in H0. assert (bpow radix2 k < bpow radix2 (53 + (k - 52))) by (apply bpow_lt; lia). lra.
Qed.
Lemma fma_mid x y z : isbits f64 x -> isbits f64 y -> isbits f64 z -> finite f64 x = true -> finite f64 y = true -> finite f64 z = true ->
  / 2 <= Rabs (val f64 x) <= 16 -> / 2 <= Rabs (val f64 y) <= 16 -> Rabs (val f64 z) <= 16 ->
  exists r, fma x y z = Some r /\ isbits f64 r /\ finite f64 r = true /\ val f64 r = rnd f64 (val f64 x * val f64 y + val f64 z).
Proof.
  intros Bx By Bz Fx Fy Fz Hx Hy Hz. assert (FM : fma_fmt f64) by (repeat split; vm_compute; discriminate). destruct (fma_round_ok f64 FM x y z Bx By Bz) as (r & E & _ & H & _). exists r. split; [exact E|].
  assert (NL : ~ fma_lost_bits f64 x y z).
  { intros (_ & _ & _ & mx & ex & my & ey & mz & ez & Nx & Ny & Nz & D & _). change (width f64) with 64%Z in D. change (/ 2) with (bpow radix2 (-1)) in Hx, Hy. change 16 with (bpow radix2 4) in Hz.
    pose proof (nform_lo _ _ _ _ Nx (proj1 Hx)). pose proof (nform_lo _ _ _ _ Ny (proj1 Hy)). pose proof (nform_hi _ _ _ _ Nz Hz). lia. }
  specialize (H NL Fx Fy Fz). cbv zeta in H. split; [exact (proj1 H)|]. apply (rounds_fin f64 _ _ _ H).
  apply Rle_trans with (bpow radix2 10); [|apply bpow_le; vm_compute; discriminate]. eapply Rle_trans; [apply Rabs_triang|]. rewrite Rabs_mult. change (bpow radix2 10) with 1024.
  assert (Rabs (val f64 x) * Rabs (val f64 y) <= 16 * 16) by (apply Rmult_le_compat; try apply Rabs_pos; lra). lra.
Qed.
(** exact difference of nearby numbers *)
Lemma sub_exact x y : finite f64 x = true -> finite f64 y = true -> isbits f64 x -> isbits f64 y -> 0 < val f64 y -> val f64 y / 2 <= val f64 x <= 2 * val f64 y -> val f64 y <= 1000 ->
  isbits f64 (fsub f64 x y) /\ finite f64 (fsub f64 x y) = true /\ val f64 (fsub f64 x y) = val f64 x - val f64 y.
Proof.
  intros Fx Fy Bx By P H M. assert (R : rnd f64 (val f64 x - val f64 y) = val f64 x - val f64 y).
  { apply repr_rnd. apply sterbenz; [apply fmt_valid_exp|apply FLT_exp_monotone|now apply repr_val|now apply repr_val|exact H]. }
  split; [apply fsub_isbits|]. destruct (sub64 x y 2000 Fx Fy) as [F1 F2]; [apply Rabs_le; lra|apply Rle_trans with (bpow radix2 20); [change (bpow radix2 20) with 1048576; lra|apply bpow_le; lia]|]. rewrite R in F2. auto.
Qed.
(** ** One Newton step *)
Lemma AP_leaf e r l h er : isbits f64 e -> finite f64 e = true -> fxr l <= r <= fxr h -> Rabs (val f64 e - r) <= fxr er -> AP f64 1 e r (l, h, er).
Proof. intros B F L E. split; [now split|]. split; [exact L|]. now rewrite !Rmult_1_l. Qed.
Lemma AP_tight s e r l h er l' h' : AP f64 s e r (l, h, er) -> fxr l' <= r <= fxr h' -> AP f64 s e r (l', h', er).
Proof. intros (A & _ & C) L. split; [exact A|]. now split. Qed.
Lemma AP_addT x y a b l1 h1 e1 l2 h2 e2 l h er : AP f64 1 x a (l1, h1, e1) -> AP f64 1 y b (l2, h2, e2) -> fxr l <= a + b <= fxr h ->
  (e1 + e2 + cdiv (Z.max (Z.abs l) (Z.abs h) + (e1 + e2)) (2 ^ pr f64) + 1)%Z = er -> (Z.max (Z.abs l) (Z.abs h) + (e1 + e2) <=? cap)%Z = true -> AP f64 1 (fadd f64 x y) (a + b) (l, h, er).
Proof.
  intros ((_ & Fx) & _ & Ex) ((_ & Fy) & _ & Ey) L <- C. apply Z.leb_le in C.
  apply (sum_step f64 ltac:(vm_compute; discriminate) 1 1 scal64 _ (val f64 x + val f64 y) _ _ _ _ _ (fadd_spec f64 x y Fx Fy)); [exact L| |exact C].
  rewrite fxr_add, !Rmult_1_l in *. replace (val f64 x + val f64 y - (a + b)) with ((val f64 x - a) + (val f64 y - b)) by ring. eapply Rle_trans; [apply Rabs_triang|]. lra.
Qed.
Lemma fxr_frac n d : (0 < d)%Z -> fxr (n * SC / d) <= IZR n / IZR d <= fxr (n * SC / d + 1).
Proof.
  intros H. assert (0 < IZR d) by (apply (IZR_lt 0); lia). pose proof SC_pos. pose proof (Z.mul_div_le (n * SC) d H) as A. pose proof (Z.mul_succ_div_gt (n * SC) d H) as B.
  apply IZR_le in A. apply IZR_lt in B. rewrite mult_IZR, mult_IZR in A. rewrite mult_IZR, mult_IZR, succ_IZR in B. unfold fxr. rewrite plus_IZR. set (q := IZR (n * SC / d)) in *.
  split; apply Rmult_le_reg_r with (IZR SC * IZR d); try (apply Rmult_lt_0_compat; assumption).
  - replace (q / IZR SC * (IZR SC * IZR d)) with (IZR d * q) by (field; lra). replace (IZR n / IZR d * (IZR SC * IZR d)) with (IZR n * IZR SC) by (field; lra). lra.
  - replace ((q + 1) / IZR SC * (IZR SC * IZR d)) with (IZR d * (q + 1)) by (field; lra). replace (IZR n / IZR d * (IZR SC * IZR d)) with (IZR n * IZR SC) by (field; lra). lra.
Qed.
(** bounds given as fractions *)
Definition qb (n d : Z) : Z := (n * SC / d)%Z.
Definition qt (n d : Z) : Z := (n * SC / d + 1)%Z.
Lemma q_in n d n' d' r : (0 < d)%Z -> (0 < d')%Z -> IZR n / IZR d <= r <= IZR n' / IZR d' -> fxr (qb n d) <= r <= fxr (qt n' d').
Proof. intros A B H. pose proof (fxr_frac n d A). pose proof (fxr_frac n' d' B). unfold qb, qt. lra. Qed.
Lemma q_er n d r : (0 < d)%Z -> Rabs r <= IZR n / IZR d -> Rabs r <= fxr (qt n d).
Proof. intros A H. pose proof (fxr_frac n d A). unfold qt. lra. Qed.
Lemma pw n : (0 <= n)%Z -> bpow radix2 (- n) = / IZR (2 ^ n).
Proof. intros H. rewrite bpow_opp. f_equal. change 2%Z with (radix_val radix2). now rewrite IZR_Zpower by lia. Qed.
Definition cu0 : R := 6004799503160661 / 18014398509481984.
Lemma cu0_ok : Rabs (cu0 - 1 / 3) <= / 18014398509481984. Proof. unfold cu0. apply Rabs_le. lra. Qed.
Lemma cube_dev v w e : 1 <= v <= 2 -> Rabs w <= e -> e <= / 1000000 -> Rabs (v * (1 + w) * (v * (1 + w)) * (v * (1 + w)) - v * v * v) <= 24.01 * e /\ Rabs ((v * (1 + w) * (v * (1 + w)) * (v * (1 + w)) - v * v * v) * / (v * v * v)) <= 3.001 * e.
Proof.
  intros V W E. assert (V3 : 0 < v * v * v) by (repeat apply Rmult_lt_0_compat; lra). assert (V8 : v * v * v <= 8). { assert (v * v <= 4) by nra. nra. }
  assert (Q : Rabs (3 * w + 3 * (w * w) + w * w * w) <= 3.001 * e).
  { replace (3 * w + 3 * (w * w) + w * w * w) with (w * (3 + 3 * w + w * w)) by ring. rewrite Rabs_mult, (Rmult_comm 3.001). pose proof (Rabs_le_inv _ _ W). apply Rmult_le_compat; try apply Rabs_pos; [exact W|]. apply Rabs_le. assert (0 <= w * w <= / 1000000) by nra. lra. }
  replace (v * (1 + w) * (v * (1 + w)) * (v * (1 + w)) - v * v * v) with (v * v * v * (3 * w + 3 * (w * w) + w * w * w)) by ring. split.
  - rewrite Rabs_mult, Rabs_pos_eq by lra. pose proof (Rabs_pos w). replace (24.01 * e) with (8 * (3.00125 * e)) by lra. apply Rmult_le_compat; [lra|apply Rabs_pos|exact V8|lra].
  - replace (v * v * v * (3 * w + 3 * (w * w) + w * w * w) * / (v * v * v)) with (3 * w + 3 * (w * w) + w * w * w) by (field; repeat split; lra). exact Q.
Qed.
(** the step with exact operations *)
Lemma newton_real v w e : 1 <= v <= 2 -> Rabs w <= e -> e <= / 1000000 ->
  let Y := v * (1 + w) in Rabs (Y - (Y * Y * Y - v * v * v) * / (v * v * v) * (Y * cu0) - v) <= 4.001 * (e * e) + e * / 1125899906842624.
Proof.
  intros V W E Y. assert (V3 : 0 < v * v * v) by (repeat apply Rmult_lt_0_compat; lra). pose proof (Rabs_le_inv _ _ W) as W'. pose proof cu0_ok as C.
  set (d := cu0 - 1 / 3) in *. replace cu0 with (1 / 3 + d) by (unfold d; ring). clearbody d.
  replace (Y - (Y * Y * Y - v * v * v) * / (v * v * v) * (Y * (1 / 3 + d)) - v) with (v * (- (w * w * (2 + 4 / 3 * w + 1 / 3 * (w * w)))) + v * (- (w * d) * ((3 + 3 * w + w * w) * (1 + w)))) by (unfold Y; field; repeat split; lra).
  assert (WW : 0 <= w * w <= / 1000000) by nra. assert (WE : w * w <= e * e) by nra. eapply Rle_trans; [apply Rabs_triang|]. apply Rplus_le_compat.
  - rewrite Rabs_mult, Rabs_Ropp, (Rabs_pos_eq v), Rabs_mult, (Rabs_pos_eq (w * w)) by lra. replace (4.001 * (e * e)) with (2 * (e * e * 2.0005)) by lra.
    apply Rmult_le_compat; try lra; [apply Rmult_le_pos; [lra|apply Rabs_pos]|]. apply Rmult_le_compat; [lra|apply Rabs_pos|lra|]. apply Rabs_le. lra.
  - rewrite Rabs_mult, (Rabs_pos_eq v), Rabs_mult, Rabs_Ropp, Rabs_mult by lra. replace (e * / 1125899906842624) with (2 * (e * / 18014398509481984 * 8)) by lra.
    apply Rmult_le_compat; try lra; [apply Rmult_le_pos; [apply Rmult_le_pos; apply Rabs_pos|apply Rabs_pos]|]. apply Rmult_le_compat; [apply Rmult_le_pos; apply Rabs_pos|apply Rabs_pos| |].
    + apply Rmult_le_compat; try apply Rabs_pos; assumption.
    + rewrite Rabs_mult. replace 8 with (4 * 2) by lra. apply Rmult_le_compat; try apply Rabs_pos; apply Rabs_le; lra.
Qed.
Lemma newton_prep y zz v w e : isbits f64 y -> finite f64 y = true -> isbits f64 zz -> finite f64 zz = true -> val f64 zz = v * v * v -> 1 <= v <= 2 -> val f64 y = v * (1 + w) -> Rabs w <= e -> e <= / 1000000 ->
  exists y2l v8, let y2 := fmul f64 y y in let y3 := fmul f64 y2 y in fma y y (Format.fneg f64 y2) = Some y2l /\ fma y y2 (Format.fneg f64 y3) = Some v8 /\
    0.999 <= val f64 y <= 2.0001 /\
    isbits f64 y2l /\ finite f64 y2l = true /\ isbits f64 v8 /\ finite f64 v8 = true /\
    Rabs (val f64 y2 - val f64 y * val f64 y) <= bpow radix2 (-51) /\ Rabs (val f64 y2l - (val f64 y * val f64 y - val f64 y2)) <= bpow radix2 (-104) /\
    Rabs (val f64 y3 - val f64 y2 * val f64 y) <= bpow radix2 (-50) /\ Rabs (val f64 v8 - (val f64 y2 * val f64 y - val f64 y3)) <= bpow radix2 (-103) /\
    isbits f64 (fsub f64 y3 zz) /\ finite f64 (fsub f64 y3 zz) = true /\ val f64 (fsub f64 y3 zz) = val f64 y3 - val f64 zz /\ Rabs (val f64 y3 - val f64 zz) <= 24.01 * e + / 281474976710656.
Proof.
  intros B F Bz Fz Ez V Ey W E. set (Y := val f64 y) in *. pose proof (Rabs_le_inv _ _ W) as W'. assert (YB : 0.999 <= Y <= 2.0001) by nra. destruct (cube_dev v w e V W E) as [CD _]. rewrite <- Ey in CD. fold Y in CD.
  assert (V8 : 1 <= v * v * v <= 8). { assert (1 <= v * v <= 4) by nra. nra. }
  assert (Y2 : 0.998 <= Y * Y <= 4.001) by nra. assert (N1000 : 1000 <= bpow radix2 1000) by (apply Rle_trans with (bpow radix2 10); [change (bpow radix2 10) with 1024; lra|apply bpow_le; lia]).
  destruct (mul64 y y 1000 F F) as [F2 E2]; [fold Y; apply Rabs_le; lra|lra|]. fold Y in E2. set (y2 := fmul f64 y y) in *. assert (B2 : isbits f64 y2) by apply fmul_isbits.
  assert (D2 : Rabs (val f64 y2 - Y * Y) <= bpow radix2 (-51)). { rewrite E2. apply (rnd_ulp _ 3); [|lia]. change (bpow radix2 3) with 8. apply Rabs_lt. lra. }
  assert (P51 : bpow radix2 (-51) = / 2251799813685248) by reflexivity. assert (P50 : bpow radix2 (-50) = / 1125899906842624) by reflexivity.
  assert (Q2 : 0.99 <= val f64 y2 <= 4.002) by (apply Rabs_le_inv in D2; lra).
  assert (Y3 : 0.98 <= val f64 y2 * Y <= 8.1) by nra. destruct (mul64 y2 y 1000 F2 F) as [F3 E3]; [fold Y; apply Rabs_le; lra|lra|]. fold Y in E3. set (y3 := fmul f64 y2 y) in *. assert (B3 : isbits f64 y3) by apply fmul_isbits.
  assert (D3 : Rabs (val f64 y3 - val f64 y2 * Y) <= bpow radix2 (-50)). { rewrite E3. apply (rnd_ulp _ 4); [|lia]. change (bpow radix2 4) with 16. apply Rabs_lt. lra. }
  assert (Q3 : 0.97 <= val f64 y3 <= 8.2) by (apply Rabs_le_inv in D3; lra).
  assert (N2 : isbits f64 (fneg f64 y2)) by (apply fneg_fields, B2). assert (N3 : isbits f64 (fneg f64 y3)) by (apply fneg_fields, B3).
  destruct (fma_mid y y (fneg f64 y2) B B N2 F F) as (y2l & M2 & B2l & F2l & V2l); [now rewrite fneg_finite|fold Y; rewrite Rabs_pos_eq by lra; lra|fold Y; rewrite Rabs_pos_eq by lra; lra|rewrite fneg_val, Rabs_Ropp, Rabs_pos_eq by (assumption || lra); lra|].
  destruct (fma_mid y y2 (fneg f64 y3) B B2 N3 F F2) as (v8 & M3 & Bv & Fv & Vv); [now rewrite fneg_finite|fold Y; rewrite Rabs_pos_eq by lra; lra|rewrite Rabs_pos_eq by lra; lra|rewrite fneg_val, Rabs_Ropp, Rabs_pos_eq by (assumption || lra); lra|].
  rewrite fneg_val in V2l, Vv by assumption. fold Y in V2l, Vv.
  assert (DZ : Rabs (val f64 y3 - val f64 zz) <= 24.01 * e + / 281474976710656).
  { rewrite Ez. replace (val f64 y3 - v * v * v) with ((Y * Y * Y - v * v * v) + ((val f64 y3 - val f64 y2 * Y) + (val f64 y2 - Y * Y) * Y)) by ring.
    eapply Rle_trans; [apply Rabs_triang|]. apply Rplus_le_compat; [exact CD|]. eapply Rle_trans; [apply Rabs_triang|]. rewrite Rabs_mult, (Rabs_pos_eq Y) by lra.
    assert (Rabs (val f64 y2 - Y * Y) * Y <= / 2251799813685248 * 2.0001) by (apply Rmult_le_compat; try apply Rabs_pos; lra). lra. }
  pose proof (Rabs_le_inv _ _ DZ) as DZ'. destruct (sub_exact y3 zz F3 Fz B3 Bz) as (G1 & G2 & G3); [lra|lra|lra|].
  assert (T1 : Rabs (val f64 y2l - (Y * Y - val f64 y2)) <= bpow radix2 (-104)).
  { rewrite V2l. replace (Y * Y - val f64 y2) with (Y * Y + - val f64 y2) by ring. apply (rnd_ulp _ (-50)); [|lia]. replace (Y * Y + - val f64 y2) with (- (val f64 y2 - Y * Y)) by ring. rewrite Rabs_Ropp. rewrite P51 in D2. rewrite P50. lra. }
  assert (T2 : Rabs (val f64 v8 - (val f64 y2 * Y - val f64 y3)) <= bpow radix2 (-103)).
  { rewrite Vv. replace (val f64 y2 * Y - val f64 y3) with (Y * val f64 y2 + - val f64 y3) by ring. apply (rnd_ulp _ (-49)); [|lia]. replace (Y * val f64 y2 + - val f64 y3) with (- (val f64 y3 - val f64 y2 * Y)) by ring. rewrite Rabs_Ropp. rewrite P50 in D3. change (bpow radix2 (-49)) with (/ 562949953421312). lra. }
  exists y2l, v8. cbv zeta. repeat (split; [assumption|]). assumption.
Qed.
Definition ndy (y zz rr y2l v8 : Z) : Z :=
  let y3 := fmul f64 (fmul f64 y y) y in
  fmul f64 (fmul f64 (fadd f64 (fsub f64 y3 zz) (fadd f64 v8 (fmul f64 y y2l))) rr) (fmul f64 y 0x3fd5555555555555).
(** the operands of [ndy] and the error of the result; [d], [s], [h] bound y3 - zz, y^3 - zz and (y^3 - zz)/zz *)
Ltac newton_tac d s h K :=
  intros B F Bz Fz Br Fr Ez V Ey W HR; lazymatch type of W with _ <= ?e => lazymatch type of Ey with val f64 ?y = ?v * (1 + ?w) => lazymatch type of Fz with finite f64 ?zz = true => lazymatch type of Fr with finite f64 ?rr = true =>
  let y2l := fresh "y2l" in let v8 := fresh "v8" in
  destruct (newton_prep y zz v w e B F Bz Fz Ez V Ey W ltac:(lra)) as (y2l & v8 & M2 & M3 & YB & B2l & F2l & Bv & Fv & D2 & D2l & D3 & Dv & G1 & G2 & G3 & G4); cbv zeta in *;
  exists y2l, v8; split; [exact M2|]; split; [exact M3|]; destruct (cube_dev v w e V W ltac:(lra)) as [C1 C2]; rewrite <- Ey in C1, C2; pose proof (newton_real v w e V W ltac:(lra)) as NR; cbv zeta in NR; rewrite <- Ey in NR; rewrite Ez in G3, G4;
  assert (V8 : 1 <= v * v * v <= 8) by (assert (1 <= v * v <= 4) by nra; nra); assert (VI : 0 <= / (v * v * v) <= 1) by (split; [left; apply Rinv_0_lt_compat; lra|rewrite <- Rinv_1; apply Rinv_le; lra]);
  unfold ndy; set (Y := val f64 y) in *; set (y2 := fmul f64 y y) in *; set (y3 := fmul f64 y2 y) in *; set (z3 := v * v * v) in *; clearbody z3;
  change (bpow radix2 (-51)) with (/ 2251799813685248) in D2; change (bpow radix2 (-50)) with (/ 1125899906842624) in D3; change (bpow radix2 (-104)) with (/ 20282409603651670423947251286016) in D2l; change (bpow radix2 (-103)) with (/ 10141204801825835211973625643008) in Dv;
  assert (A1 : AP f64 1 y Y (qb 999 1000, qt 20001 10000, 0)%Z) by (apply AP_var; [assumption..|apply q_in; [lia|lia|fold Y; lra]]);
  assert (A2 : AP f64 1 y2l (Y * Y - val f64 y2) (qb (-1) (2 ^ 51), qt 1 (2 ^ 51), qt 1 (2 ^ 104))%Z) by (apply AP_leaf; [assumption..|apply q_in; [lia|lia|apply Rabs_le_inv in D2; lra]|apply q_er; [lia|lra]]);
  assert (A3 : AP f64 1 v8 (val f64 y2 * Y - val f64 y3) (qb (-1) (2 ^ 50), qt 1 (2 ^ 50), qt 1 (2 ^ 103))%Z) by (apply AP_leaf; [assumption..|apply q_in; [lia|lia|apply Rabs_le_inv in D3; lra]|apply q_er; [lia|lra]]);
  assert (A4 : AP f64 1 (fsub f64 y3 zz) (val f64 y3 - z3) (qb (- fst d) (snd d), qt (fst d) (snd d), 0)%Z);
  [ apply AP_leaf; [assumption..|apply q_in; [reflexivity|reflexivity|cbv [fst snd Z.opp]; apply Rabs_le_inv in G4; lra]|]; rewrite G3, fxr_0; replace (val f64 y3 - z3 - (val f64 y3 - z3)) with 0 by ring; rewrite Rabs_R0; lra |];
  assert (A5 : AP f64 1 rr (/ z3) (0, qt 1 1, qt 1 (2 ^ 54))%Z) by (apply AP_leaf; [assumption..|pose proof (q_in 0 1 1 1 (/ z3) ltac:(lia) ltac:(lia)) as Q; change (qb 0 1) with 0%Z in Q; apply Q; lra|apply q_er; [lia|lra]]);
  let K1 := fresh "K1" in let K2 := fresh "K2" in let K3 := fresh "K3" in apx f64 1 (fadd f64 v8 (fmul f64 y y2l)) K1;
  pose proof (AP_addT _ _ _ _ _ _ _ _ _ _ (qb (- fst s) (snd s)) (qt (fst s) (snd s)) _ A4 K1 ltac:(apply q_in; [reflexivity|reflexivity|cbv [fst snd Z.opp]; apply Rabs_le_inv in C1; lra]) ltac:(vmr) ltac:(vm_compute; reflexivity)) as K2;
  clear A2 A3 A4 K1;
  apx f64 1 (fmul f64 (fadd f64 (fsub f64 y3 zz) (fadd f64 v8 (fmul f64 y y2l))) rr) K3;
  let K4 := fresh "K4" in pose proof (AP_tight _ _ _ _ _ _ (qb (- fst h) (snd h)) (qt (fst h) (snd h)) K3 ltac:(apply q_in; [reflexivity|reflexivity|cbv [fst snd Z.opp]; apply Rabs_le_inv in C2; match goal with |- _ <= ?a <= _ => replace a with ((Y * Y * Y - z3) * / z3) by ring end; lra])) as K4; clear K2 K3 A5;
  apx f64 1 (fmul f64 (fmul f64 (fadd f64 (fsub f64 y3 zz) (fadd f64 v8 (fmul f64 y y2l))) rr) (fmul f64 y 0x3fd5555555555555)) K; clear K4 end end end end.
Lemma newton_end D Y z3 v a b (t k q : R) : AP f64 1 D t b -> t = (Y * Y * Y - z3) * / z3 * (Y * cu0) -> Rabs (Y - (Y * Y * Y - z3) * / z3 * (Y * cu0) - v) <= k -> a = ber b -> k + fxr a <= q -> Rabs (Y - val f64 D - v) <= q.
Proof.
  intros K E H -> Q. pose proof (AP_err _ _ _ _ _ K) as KE. rewrite !Rmult_1_l in KE. rewrite <- E in H.
  replace (Y - val f64 D - v) with ((Y - t - v) - (val f64 D - t)) by ring. eapply Rle_trans; [apply Rabs_triang|]. rewrite Rabs_Ropp. lra.
Qed.
Ltac newton_fin K := split; [exact (AP_bits _ _ _ _ _ K)|]; split; [exact (AP_fin _ _ _ _ _ K)|]; eapply newton_end; [exact K| |eassumption|reflexivity|]; [unfold cu0; ring|];
  cbv [ber]; unfold fxr, SC; let s := eval vm_compute in (2 ^ 200)%Z in change (2 ^ 200)%Z with s; lra.
Lemma newton1 y zz rr v w : isbits f64 y -> finite f64 y = true -> isbits f64 zz -> finite f64 zz = true -> isbits f64 rr -> finite f64 rr = true -> val f64 zz = v * v * v -> 1 <= v <= 2 -> val f64 y = v * (1 + w) -> Rabs w <= 25 / 10000000000000 ->
  Rabs (val f64 rr - / (v * v * v)) <= / 18014398509481984 ->
  exists y2l v8, let y2 := fmul f64 y y in let y3 := fmul f64 y2 y in fma y y (Format.fneg f64 y2) = Some y2l /\ fma y y2 (Format.fneg f64 y3) = Some v8 /\
    let d := ndy y zz rr y2l v8 in isbits f64 d /\ finite f64 d = true /\ Rabs (val f64 y - val f64 d - v) <= 26 / 1000000000000000000000000.
Proof.
  newton_tac (61, 1000000000000)%Z (61, 1000000000000)%Z (76, 10000000000000)%Z K.
  newton_fin K.
Qed.
Lemma newton2 y zz rr v w : isbits f64 y -> finite f64 y = true -> isbits f64 zz -> finite f64 zz = true -> isbits f64 rr -> finite f64 rr = true -> val f64 zz = v * v * v -> 1 <= v <= 2 -> val f64 y = v * (1 + w) -> Rabs w <= 1001 / 9007199254740992000 ->
  Rabs (val f64 rr - / (v * v * v)) <= / 18014398509481984 ->
  exists y2l v8, let y2 := fmul f64 y y in let y3 := fmul f64 y2 y in fma y y (Format.fneg f64 y2) = Some y2l /\ fma y y2 (Format.fneg f64 y3) = Some v8 /\
    let d := ndy y zz rr y2l v8 in isbits f64 d /\ finite f64 d = true /\ Rabs (val f64 y - val f64 d - v) <= / 633825300114114700748351602688.
Proof.
  newton_tac (57, 9007199254740992)%Z (25, 9007199254740992)%Z (301, 900719925474099200)%Z K. newton_fin K.
Qed.
(** ** the corrected value and its remainder *)
Definition v2 : R := 2 - / 18014398509481984.
Lemma y1_ok y d v E : isbits f64 y -> finite f64 y = true -> isbits f64 d -> finite f64 d = true -> 1 <= v <= v2 -> 0 <= E <= / 37000000000000000000000 -> Rabs (val f64 y - v) <= / 10000000000 -> Rabs (val f64 y - val f64 d - v) <= E ->
  let y1 := fsub f64 y d in let dy := fsub f64 (fsub f64 y y1) d in
  isbits f64 y1 /\ finite f64 y1 = true /\ isbits f64 dy /\ finite f64 dy = true /\ Rabs (val f64 y1 + val f64 dy - v) <= E + / 20282409603651670423947251286016 /\ Rabs (val f64 dy) <= / 9007199254740992 + / 20282409603651670423947251286016 /\ Rabs (val f64 y1 - v) <= E + / 9007199254740992.
Proof.
  intros B F Bd Fd V HE HY HT. unfold v2 in V. cbv zeta. set (Y := val f64 y) in *. set (D := val f64 d) in *. pose proof (Rabs_le_inv _ _ HT) as HT'. pose proof (Rabs_le_inv _ _ HY) as HY'.
  assert (N1000 : 1000 <= bpow radix2 1000) by (apply Rle_trans with (bpow radix2 10); [change (bpow radix2 10) with 1024; lra|apply bpow_le; lia]).
  destruct (sub64 y d 1000 F Fd) as [F1 E1]; [fold Y D; apply Rabs_le; lra|lra|]. fold Y D in E1. assert (B1 : isbits f64 (fsub f64 y d)) by apply fsub_isbits. set (y1 := fsub f64 y d) in *. clearbody y1.
  assert (D1 : Rabs (val f64 y1 - (Y - D)) <= / 9007199254740992). { rewrite E1. change (/ 9007199254740992) with (bpow radix2 (1 - 54)). apply rnd_ulp; [|lia]. change (bpow radix2 1) with 2. apply Rabs_lt. lra. }
  pose proof (Rabs_le_inv _ _ D1) as D1'. destruct (sub_exact y y1 F F1 B B1) as (G1 & G2 & G3); [lra|fold Y; lra|lra|]. fold Y in G3. set (q := fsub f64 y y1) in *. clearbody q.
  destruct (sub64 q d 1000 G2 Fd) as [F2 E2]; [fold D; rewrite G3; apply Rabs_le; lra|lra|]. fold D in E2. rewrite G3 in E2. assert (B2 : isbits f64 (fsub f64 q d)) by apply fsub_isbits. set (dy := fsub f64 q d) in *. clearbody dy.
  assert (D2 : Rabs (val f64 dy - (Y - val f64 y1 - D)) <= / 20282409603651670423947251286016). { rewrite E2. change (/ 20282409603651670423947251286016) with (bpow radix2 (-50 - 54)). apply rnd_ulp; [|lia]. change (bpow radix2 (-50)) with (/ 1125899906842624). apply Rabs_lt. lra. }
  pose proof (Rabs_le_inv _ _ D2) as D2'. split; [exact B1|]. split; [exact F1|]. split; [exact B2|]. split; [exact F2|]. repeat split; apply Rabs_le; lra.
Qed.
(** the rounding test *)
Lemma fabs_val F x : isbits F x -> isbits F (fabs F x) /\ finite F (fabs F x) = finite F x /\ val F (fabs F x) = Rabs (val F x).
Proof.
  intros B. rewrite P_round2.fabs_eq by exact B. split; [apply with_sign_fields|]. split; [apply with_sign_finite|]. rewrite with_sign_val. reflexivity.
Qed.
Lemma test_far dy c tb : isbits f64 dy -> finite f64 dy = true -> Rabs (val f64 dy) <= 1 -> finite f64 tb = true -> bpow radix2 (-140) <= val f64 tb -> finite f64 c = true -> 0 <= val f64 c <= 1 ->
  flt f64 (fabs f64 (fsub f64 (fabs f64 dy) c)) tb = false -> val f64 tb * (1 - / 4503599627370496) <= Rabs (Rabs (val f64 dy) - val f64 c).
Proof.
  intros B F H Ft T Fc C Q. destruct (fabs_val f64 dy B) as (B1 & F1 & V1). rewrite F in F1. set (a := fabs f64 dy) in *. clearbody a.
  pose proof (Rabs_pos (val f64 dy)) as P. destruct (sub64 a c 2 F1 Fc) as [F2 E2]; [rewrite V1; apply Rabs_le; lra|apply Rle_trans with (bpow radix2 1); [change (bpow radix2 1) with 2; lra|apply bpow_le; lia]|].
  rewrite V1 in E2. destruct (fabs_val f64 (fsub f64 a c) (fsub_isbits _ _ _)) as (B3 & F3 & V3). rewrite F2 in F3. rewrite E2 in V3. set (d := fabs f64 (fsub f64 a c)) in *. clearbody d.
  assert (L : val f64 tb <= val f64 d). { apply Rnot_lt_le. intros L. apply P_minmax.flt_false in Q. apply Q. unfold lt_bits. rewrite (finite_not_nan _ _ F3), (finite_not_nan _ _ Ft), F3, Ft. auto. }
  rewrite V3 in L. set (r := Rabs (val f64 dy) - val f64 c) in *. pose proof (rnd64_err r) as E. pose proof (Rabs_triang_inv (rnd f64 r) r) as TI.
  assert (T2 : bpow radix2 (-200) <= / 1152921504606846976 * val f64 tb). { apply Rle_trans with (bpow radix2 (-60) * bpow radix2 (-140)); [rewrite <- bpow_plus; apply bpow_le; lia|]. change (bpow radix2 (-60)) with (/ 1152921504606846976). apply Rmult_le_compat_l; [lra|exact T]. }
  pose proof (Rabs_pos r). assert (0 < val f64 tb) by (pose proof (bpow_gt_0 radix2 (-140)); lra). lra.
Qed.
(** ** the estimate *)
Lemma cube_le (a b : R) : 0 <= b -> a * a * a <= b * b * b -> a <= b.
Proof. intros B H. destruct (Rle_lt_dec a b) as [|L]; [assumption|]. exfalso. assert (b * b * b < a * a * a); [|lra]. assert (b * b < a * a) by (apply Rmult_le_0_lt_compat; lra). apply Rmult_le_0_lt_compat; try lra. apply Rmult_le_pos; lra. Qed.
Definition cb_poly : poly := map (litq f64) rs_cbrt_round_C.
Definition cbP (z : R) : R := peval cb_poly z.
Definition cb3 : list iv := let p := map iq cb_poly in lmul p (lmul p p).
Lemma cb3_PB : Pol cb3 (fun z => cbP z * (cbP z * cbP z)).
Proof. assert (Pol (map iq cb_poly) cbP) by (apply PB_poly; vm_compute; reflexivity). apply (PB_mul _ _ cbP (fun z => cbP z * cbP z)); [assumption|now apply PB_mul]. Qed.
Definition lin (n d : Z) : poly := [(0, 1)%Z; (n, d)].
Lemma lin_PB n d : (0 < d)%Z -> Pol (map iq (lin n d)) (fun z => IZR n / IZR d * z).
Proof. intros H. apply (PB_ext _ (peval (lin n d))); [apply PB_poly; cbn; rewrite (proj2 (Z.ltb_lt _ _) H); reflexivity|]. intros z. unfold lin, peval. cbn [fst snd]. field. apply not_0_IZR. lia. Qed.
Lemma cb_chk1 : pieces3 (ladd cb3 (lneg (map iq (lin 100022 100000)))) (SC + 2 ^ 192) (2 ^ 192) 128 (- (8 * SC)) 0 = true.
Proof. vm_compute. reflexivity. Qed.
Lemma cb_chk2 : pieces3 (ladd cb3 (lneg (map iq (lin 99978 100000)))) (SC + 2 ^ 192) (2 ^ 192) 128 0 (8 * SC) = true.
Proof. vm_compute. reflexivity. Qed.
Lemma cbP_err z : 1 <= z <= 2 -> 0.99978 * z <= cbP z * (cbP z * cbP z) <= 1.00022 * z.
Proof.
  intros H. assert (HZ : fxr (SC + 2 ^ 192 - 2 ^ 192) <= z <= fxr (SC + 2 ^ 192 + (2 * Z.of_nat 128 - 1) * 2 ^ 192)).
  { replace (SC + 2 ^ 192 - 2 ^ 192)%Z with (1 * SC)%Z by lia. replace (SC + 2 ^ 192 + (2 * Z.of_nat 128 - 1) * 2 ^ 192)%Z with (2 * SC)%Z by (vm_compute; reflexivity). unfold fxr. rewrite !mult_IZR. pose proof SC_pos. unfold Rdiv. rewrite !Rmult_assoc, Rinv_r by lra. lra. }
  pose proof (pieces3_ok _ _ (2 ^ 192)%Z _ _ 128 (PB_add _ _ _ _ cb3_PB (PB_neg _ _ (lin_PB 100022 100000 eq_refl))) ltac:(vm_compute; discriminate) _ z ltac:(lia) cb_chk1 HZ) as A.
  pose proof (pieces3_ok _ _ (2 ^ 192)%Z _ _ 128 (PB_add _ _ _ _ cb3_PB (PB_neg _ _ (lin_PB 99978 100000 eq_refl))) ltac:(vm_compute; discriminate) _ z ltac:(lia) cb_chk2 HZ) as B.
  cbv beta in A, B. rewrite fxr_0 in A, B. lra.
Qed.
Definition cb_est (z : Z) : Z :=
  let z2 := fmul f64 z z in
  let c0 := fadd f64 (nth 0 rs_cbrt_round_C 0%Z) (fmul f64 z (nth 1 rs_cbrt_round_C 0%Z)) in
  let c2 := fadd f64 (nth 2 rs_cbrt_round_C 0%Z) (fmul f64 z (nth 3 rs_cbrt_round_C 0%Z)) in
  fadd f64 c0 (fmul f64 z2 c2).
Definition cb_cubic (y r : Z) : Z :=
  let y2 := fmul f64 y y in
  let h := fsub f64 (fmul f64 y2 (fmul f64 y r)) 0x3ff0000000000000 in
  fsub f64 y (fmul f64 (fmul f64 h y) (fsub f64 0x3fd5555555555555 (fmul f64 0x3fcc71c71c71c71c h))).
Lemma cb_poly_eq : cb_poly = [(4979390682230684, 9007199254740992); (5288255411789221, 9007199254740992); (-5871601230929338, 36028797018963968); (6659552496622343, 288230376151711744)]%Z.
Proof. vm_compute. reflexivity. Qed.
Lemma cbP_eq z : cbP z = 4979390682230684 / 9007199254740992 + z * (5288255411789221 / 9007199254740992) + z * z * (-5871601230929338 / 36028797018963968 + z * (6659552496622343 / 288230376151711744)).
Proof. unfold cbP. rewrite cb_poly_eq. cbn [peval fst snd]. ring. Qed.
Definition cb_est' (z c0 c1 c2 c3 : Z) : Z := fadd f64 (fadd f64 c0 (fmul f64 z c1)) (fmul f64 (fmul f64 z z) (fadd f64 c2 (fmul f64 z c3))).
Lemma cb_est_eq z : cb_est z = cb_est' z 0x3fe1b0babccfef9c 0x3fe2c9a3e94d1da5 0xbfc4dc30b1a1ddba 0x3f97a8d3e4ec9b07.
Proof.
  assert (E0 : nth 0 rs_cbrt_round_C 0%Z = 0x3fe1b0babccfef9c%Z) by reflexivity. assert (E1 : nth 1 rs_cbrt_round_C 0%Z = 0x3fe2c9a3e94d1da5%Z) by reflexivity.
  assert (E2 : nth 2 rs_cbrt_round_C 0%Z = 0xbfc4dc30b1a1ddba%Z) by reflexivity. assert (E3 : nth 3 rs_cbrt_round_C 0%Z = 0x3f97a8d3e4ec9b07%Z) by reflexivity.
  unfold cb_est. cbv zeta. rewrite E0, E1, E2, E3. unfold cb_est'. reflexivity.
Qed.
Lemma cb_est_ap z : isbits f64 z -> finite f64 z = true -> 1 <= val f64 z <= 2 ->
  isbits f64 (cb_est z) /\ finite f64 (cb_est z) = true /\ Rabs (val f64 (cb_est z) - cbP (val f64 z)) <= / 1000000000000000.
Proof.
  intros B F H. assert (A1 : AP f64 1 z (val f64 z) (qb 1 1, qt 2 1, 0)%Z) by (apply AP_var; [assumption..|apply q_in; [lia|lia|lra]]).
  rewrite cb_est_eq. unfold cb_est'.
  match goal with |- isbits f64 ?e /\ _ => apx f64 1 e K end. split; [exact (AP_bits _ _ _ _ _ K)|]. split; [exact (AP_fin _ _ _ _ _ K)|]. pose proof (AP_err _ _ _ _ _ K) as KE. rewrite !Rmult_1_l in KE. 
  rewrite cbP_eq. eapply Rle_trans; [exact KE|]. cbv [ber]. unfold fxr, SC. let s := eval vm_compute in (2 ^ 200)%Z in change (2 ^ 200)%Z with s. lra.
Qed.
Lemma cb_est_real Z P Y : 1 <= Z <= 2 -> Rabs (Y - P) <= / 1000000000000000 -> 0.99978 * Z <= P * (P * P) <= 1.00022 * Z -> 0.99 <= Y <= 1.27 /\ Rabs (Y * Y * Y * / Z - 1) <= 2202 / 10000000.
Proof.
  intros H E C. assert (PB : 0.9999 <= P <= 1.2604).
  { assert (P0 : 0 < P). { destruct (Rle_lt_dec P 0) as [N|]; [|assumption]. exfalso. assert (P * (P * P) <= 0); [|lra]. pose proof (Rle_0_sqr P) as S. unfold Rsqr in S. nra. }
    split; [apply cube_le|apply cube_le]; lra. }
  apply Rabs_le_inv in E. split; [lra|]. assert (Z0 : 0 < Z) by lra.
  assert (D : Rabs (Y * Y * Y - Z) <= 2202 / 10000000 * Z).
  { set (d := Y - P) in *. replace Y with (P + d) by (unfold d; ring). assert (- / 1000000000000000 <= d <= / 1000000000000000) by lra. clearbody d. clear -C PB H H0.
    replace ((P + d) * (P + d) * (P + d) - Z) with (P * (P * P) - Z + d * (3 * (P * P) + 3 * P * d + d * d)) by ring.
    assert (B1 : 0 <= 3 * (P * P) + 3 * P * d + d * d <= 5) by nra. assert (- (5 * / 1000000000000000) <= d * (3 * (P * P) + 3 * P * d + d * d) <= 5 * / 1000000000000000) by (set (q := 3 * (P * P) + 3 * P * d + d * d) in *; clearbody q; nra).
    apply Rabs_le. lra. }
  replace (Y * Y * Y * / Z - 1) with ((Y * Y * Y - Z) * / Z) by (field; lra). rewrite Rabs_mult, (Rabs_pos_eq (/ Z)) by (left; now apply Rinv_0_lt_compat).
  apply Rmult_le_reg_r with Z; [exact Z0|]. rewrite Rmult_assoc, Rinv_l, Rmult_1_r by lra. exact D.
Qed.
Lemma mul1 a b p q : Rabs (a - 1) <= p -> Rabs (b - 1) <= q -> Rabs (a * b - 1) <= p + q + p * q.
Proof.
  intros A B. replace (a * b - 1) with ((a - 1) + (b - 1) + (a - 1) * (b - 1)) by ring. eapply Rle_trans; [apply Rabs_triang|]. apply Rplus_le_compat; [eapply Rle_trans; [apply Rabs_triang|]; lra|].
  rewrite Rabs_mult. apply Rmult_le_compat; try apply Rabs_pos; assumption.
Qed.
Lemma cube1 a p : Rabs (a - 1) <= p -> p <= / 1000000 -> Rabs (a * a * a - 1) <= 3.00001 * p.
Proof.
  intros H P. replace (a * a * a - 1) with ((a - 1) * (3 + 3 * (a - 1) + (a - 1) * (a - 1))) by ring. rewrite Rabs_mult, (Rmult_comm 3.00001). apply Rmult_le_compat; try apply Rabs_pos; [exact H|]. apply Rabs_le_inv in H. set (d := a - 1) in *. clearbody d.
  assert (0 <= d * d <= / 1000000) by nra. apply Rabs_le. lra.
Qed.
Lemma root1 a p : 0 < a -> Rabs (a * a * a - 1) <= p -> p <= / 1000 -> Rabs (a - 1) <= 0.334 * p.
Proof.
  intros A H P. apply Rabs_le_inv in H. pose proof (Rle_trans _ _ _ (proj1 H) (proj2 H)) as P0.
  assert (a <= 1 + 0.334 * p). { apply cube_le; [lra|]. assert (0 <= p * p) by nra. nra. }
  assert (1 - 0.334 * p <= a). { apply cube_le; [lra|]. assert (0 <= p * p) by nra. assert (0 <= p * p * p) by nra. nra. }
  apply Rabs_le. lra.
Qed.
(** the cubic step *)
Lemma cubic_real Z Y H Q d : 1 <= Z <= 2 -> 0.99 <= Y <= 1.27 -> Y * Y * Y * / Z - 1 = H -> Rabs H <= 2202 / 10000000 ->
  Rabs (Q - (1 - H * (1 / 3 - 2 / 9 * H))) <= / 1000000000000000 -> Rabs d <= / 1000000000000000 -> Rabs ((Y * Q + d) * (Y * Q + d) * (Y * Q + d) * / Z - 1) <= 560 / 100000000000000.
Proof.
  intros HZ HY EH HH HQ Hd. set (q := 1 - H * (1 / 3 - 2 / 9 * H)) in *. pose proof (Rabs_le_inv _ _ HH) as HH'. assert (H2 : 0 <= H * H <= / 1000000) by nra. assert (QB : 0.999 <= q <= 1.001) by (unfold q; nra).
  set (k := (Y * Q + d) / (Y * q)). assert (K : Rabs (k - 1) <= / 100000000000000).
  { unfold k. replace ((Y * Q + d) / (Y * q) - 1) with (((Q - q) * Y + d) * / (Y * q)) by (field; lra). rewrite Rabs_mult, (Rabs_pos_eq (/ (Y * q))) by (left; apply Rinv_0_lt_compat; nra).
    apply Rmult_le_reg_r with (Y * q); [nra|]. rewrite Rmult_assoc, Rinv_l, Rmult_1_r by nra. eapply Rle_trans; [apply Rabs_triang|]. rewrite Rabs_mult, (Rabs_pos_eq Y) by lra.
    assert (Rabs (Q - q) * Y <= / 1000000000000000 * 1.27) by (apply Rmult_le_compat; try apply Rabs_pos; lra). nra. }
  replace ((Y * Q + d) * (Y * Q + d) * (Y * Q + d) * / Z) with ((1 + H) * (q * q * q) * (k * k * k)). 2:{ rewrite <- EH. unfold k. field. lra. }
  assert (M : Rabs ((1 + H) * (q * q * q) - 1) <= 555 / 100000000000000).
  { replace ((1 + H) * (q * q * q) - 1) with (H * H * H * (14 / 27 - 7 / 27 * H + 14 / 81 * (H * H) - 28 / 729 * (H * (H * H)) + 8 / 729 * (H * H * (H * H)))) by (unfold q; field).
    rewrite !Rabs_mult. replace (555 / 100000000000000) with (1068 / 100000000000000 * (555 / 1068)) by field. pose proof (Rabs_pos H). 
    assert (Rabs H * Rabs H <= 2202 / 10000000 * (2202 / 10000000)) by (apply Rmult_le_compat; assumption).
    apply Rmult_le_compat; [repeat apply Rmult_le_pos; apply Rabs_pos|apply Rabs_pos| |].
    - apply Rle_trans with (2202 / 10000000 * (2202 / 10000000) * (2202 / 10000000)); [|lra]. apply Rmult_le_compat; try assumption. nra.
    - assert (0 <= H * H * (H * H) <= / 1000000) by nra. assert (Rabs (H * (H * H)) <= / 1000000). { rewrite Rabs_mult, (Rabs_pos_eq (H * H)) by lra. nra. } apply Rabs_le_inv in H4. apply Rabs_le. lra. }
  eapply Rle_trans; [apply mul1; [exact M|apply cube1; [exact K|lra]]|]. lra.
Qed.
Lemma cb_cubic_ok y r Z : isbits f64 y -> finite f64 y = true -> isbits f64 r -> finite f64 r = true -> 1 <= Z <= 2 -> 0.99 <= val f64 y <= 1.27 -> Rabs (val f64 y * val f64 y * val f64 y * / Z - 1) <= 2202 / 10000000 -> Rabs (val f64 r - / Z) <= / 18014398509481984 ->
  let a := cb_cubic y r in isbits f64 a /\ finite f64 a = true /\ 0.9 <= val f64 a <= 1.3 /\ Rabs (val f64 a * val f64 a * val f64 a * / Z - 1) <= 560 / 100000000000000.
Proof.
  intros B F Br Fr HZ HY HH HR. set (Y := val f64 y) in *. assert (ZI : / 2 <= / Z <= 1) by (split; [apply Rinv_le; lra|rewrite <- Rinv_1; apply Rinv_le; lra]).
  assert (A1 : AP f64 1 y Y (qb 99 100, qt 127 100, 0)%Z) by (apply AP_var; [assumption..|apply q_in; [lia|lia|fold Y; lra]]).
  assert (A2 : AP f64 1 r (/ Z) (qb 1 2, qt 1 1, qt 1 (2 ^ 54))%Z) by (apply AP_leaf; [assumption..|apply q_in; [lia|lia|lra]|apply q_er; [lia|lra]]).
  unfold cb_cubic. cbv zeta. apx f64 1 (fsub f64 (fmul f64 (fmul f64 y y) (fmul f64 y r)) 0x3ff0000000000000) K1.
  pose proof (AP_tight _ _ _ _ _ _ (qb (-2203) 10000000) (qt 2203 10000000) K1 ltac:(apply q_in; [reflexivity|reflexivity|match goal with |- _ <= ?a <= _ => replace a with (Y * Y * Y * / Z - 1) by (field; lra) end; apply Rabs_le_inv in HH; lra])) as K2. clear K1.
  match type of K2 with AP _ _ ?e ?t _ => set (h := e) in *; set (T := t) in * end. clearbody h.
  assert (TE : T = Y * Y * Y * / Z - 1) by (unfold T; field; lra). clearbody T. assert (TB : Rabs T <= 2202 / 10000000) by (rewrite TE; exact HH).
  match goal with |- isbits f64 ?e /\ _ => apx f64 1 e K end. pose proof (AP_err _ _ _ _ _ K) as KE. pose proof (AP_bits _ _ _ _ _ K) as KB. pose proof (AP_fin _ _ _ _ _ K) as KF. match type of K with AP _ _ ?e _ _ => set (a := e) in * end. clearbody a. split; [exact KB|]. split; [exact KF|].
  rewrite !Rmult_1_l in KE. match type of KE with Rabs (_ - ?t0) <= _ => set (t := t0) in * end. assert (KE2 : Rabs (val f64 a - t) <= / 1000000000000000). { eapply Rle_trans; [exact KE|]. cbv [ber]. unfold fxr, SC. let s := eval vm_compute in (2 ^ 200)%Z in change (2 ^ 200)%Z with s. lra. }
  clear K KE A1 A2 K2. set (Q := 1 - T * (6004799503160661 / 18014398509481984 - 8006399337547548 / 36028797018963968 * T)).
  assert (ET : t = Y * Q) by (unfold t, Q; field). set (d := val f64 a - t) in *. assert (EA : val f64 a = Y * Q + d) by (unfold d; rewrite ET; ring). clearbody d t.
  pose proof (Rabs_le_inv _ _ TB) as TB'. pose proof (Rabs_le_inv _ _ KE2) as KE3. assert (QB : 0.99 <= Q <= 1.01) by (unfold Q; nra). split; [rewrite EA; nra|].
  rewrite EA. apply (cubic_real Z Y T Q d); try assumption; [congruence|]. assert (T2 : 0 <= T * T <= / 1000000) by nra.
  replace (Q - (1 - T * (1 / 3 - 2 / 9 * T))) with (T * (1 / 3 - 6004799503160661 / 18014398509481984) + T * T * (8006399337547548 / 36028797018963968 - 2 / 9)) by (unfold Q; field). apply Rabs_le. lra.
Qed.
(** start of the iteration: relative error 2.5e-12 *)
Lemma recip_ok z : isbits f64 z -> finite f64 z = true -> 1 <= val f64 z <= 2 -> let r := fdiv f64 0x3ff0000000000000 z in isbits f64 r /\ finite f64 r = true /\ Rabs (val f64 r - / val f64 z) <= / 18014398509481984 /\ 0.49 <= val f64 r <= 1.01.
Proof.
  intros B F H. cbv zeta. assert (E1 : val f64 0x3ff0000000000000 = 1) by (assert (val f64 0x3ff0000000000000 = 1 / 1) as -> by lit; lra). assert (N : val f64 z <> 0) by lra.
  set (Z := val f64 z) in *. assert (ZI : / 2 <= / Z <= 1) by (split; [apply Rinv_le; lra|rewrite <- Rinv_1; apply Rinv_le; lra]).
  pose proof (fdiv_spec f64 0x3ff0000000000000 z ltac:(vm_compute; reflexivity) F N) as R. fold Z in R. rewrite E1 in R. replace (1 / Z) with (/ Z) in R by (unfold Rdiv; ring).
  destruct (rounds_fin f64 _ _ _ R) as [F1 V1]; [rewrite Rabs_pos_eq by lra; apply Rle_trans with 1; [lra|]; apply (bpow_le radix2 0); vm_compute; discriminate|].
  split; [apply fdiv_isbits|]. split; [exact F1|]. set (r := fdiv f64 0x3ff0000000000000 z) in *. clearbody r.
  assert (D : Rabs (val f64 r - / Z) <= / 18014398509481984).
  { rewrite V1. destruct (Req_dec Z 1) as [EZ | NZ].
    - rewrite EZ, Rinv_1. rewrite <- E1. rewrite repr_rnd by (apply repr_val; vm_compute; reflexivity). rewrite Rminus_diag_eq, Rabs_R0 by reflexivity. lra.
    - change (/ 18014398509481984) with (bpow radix2 (0 - 54)). apply rnd_ulp; [|lia]. change (bpow radix2 0) with 1. rewrite Rabs_pos_eq by lra. rewrite <- Rinv_1. apply Rinv_lt_contravar; lra. }
  split; [exact D|]. apply Rabs_le_inv in D. lra.
Qed.
Definition cb_start (z isc : Z) : Z := fmul f64 (cb_cubic (cb_est z) (fdiv f64 0x3ff0000000000000 z)) isc.
Lemma cb_start_eq z isc : cb_start z isc = fmul f64 (cb_cubic (cb_est z) (fdiv f64 0x3ff0000000000000 z)) isc.
Proof. reflexivity. Qed.
Lemma cb_scale a isc Z v K : finite f64 a = true -> finite f64 isc = true -> 0.9 <= val f64 a <= 1.3 -> 0.9 <= val f64 isc <= 1.6 -> 1 <= Z <= 2 -> 1 <= K <= 4 -> Rabs (val f64 a * val f64 a * val f64 a * / Z - 1) <= 560 / 100000000000000 -> Rabs (val f64 isc * val f64 isc * val f64 isc * / K - 1) <= / 1000000000000000 ->
  0 < v -> v * v * v = Z * K -> finite f64 (fmul f64 a isc) = true /\ exists w, val f64 (fmul f64 a isc) = v * (1 + w) /\ Rabs w <= 25 / 10000000000000.
Proof.
  intros Fa Fi Ha HI HZ HK Ca HC V0 EV. set (A := val f64 a) in *. set (I := val f64 isc) in *. assert (AI : 0.8 <= A * I <= 2.1) by nra.
  destruct (mul64 a isc 3 Fa Fi) as [Fm Em]; [fold A I; apply Rabs_le; lra|apply Rle_trans with (bpow radix2 2); [change (bpow radix2 2) with 4; lra|apply bpow_le; lia]|]. split; [exact Fm|]. rewrite Em. fold A I.
  pose proof (rnd64_err (A * I)) as RE. rewrite (Rabs_pos_eq (A * I)) in RE by lra. pose proof tiny200 as T2. set (M := rnd f64 (A * I)) in *. clearbody M A I.
  set (k := M / (A * I)). assert (KK : Rabs (k - 1) <= / 1000000000000000).
  { unfold k. replace (M / (A * I) - 1) with ((M - A * I) * / (A * I)) by (field; nra). rewrite Rabs_mult, (Rabs_pos_eq (/ (A * I))) by (left; apply Rinv_0_lt_compat; lra).
    apply Rmult_le_reg_r with (A * I); [lra|]. rewrite Rmult_assoc, Rinv_l, Rmult_1_r by lra. lra. }
  exists (M / v - 1). split; [field; lra|]. assert (MP : 0 < M) by (apply Rabs_le_inv in RE; lra).
  assert (C : Rabs (M / v * (M / v) * (M / v) - 1) <= 6 / 1000000000000).
  { replace (M / v * (M / v) * (M / v)) with (A * A * A * / Z * (I * I * I * / K) * (k * k * k)).
    2:{ replace (M / v * (M / v) * (M / v)) with (M * M * M * / (v * v * v)) by (field; lra). rewrite EV. unfold k. field. repeat split; nra. }
    eapply Rle_trans; [apply mul1; [apply mul1; [exact Ca|exact HC]|apply cube1; [exact KK|lra]]|]. lra. }
  eapply Rle_trans; [apply root1; [apply Rdiv_lt_0_compat; lra|exact C|lra]|]. lra.
Qed.
Lemma cb_start_ok z isc v K : isbits f64 z -> finite f64 z = true -> 1 <= val f64 z <= 2 -> finite f64 isc = true -> 0.9 <= val f64 isc <= 1.6 -> 1 <= K <= 4 -> Rabs (val f64 isc * val f64 isc * val f64 isc * / K - 1) <= / 1000000000000000 ->
  0 < v -> v * v * v = val f64 z * K -> isbits f64 (cb_start z isc) /\ finite f64 (cb_start z isc) = true /\ exists w, val f64 (cb_start z isc) = v * (1 + w) /\ Rabs w <= 25 / 10000000000000.
Proof.
  intros B F HZ Fi HI HK HC V0 EV. rewrite cb_start_eq. destruct (recip_ok z B F HZ) as (Br & Fr & Dr & _). destruct (cb_est_ap z B F HZ) as (Be & Fe & De). destruct (cb_est_real _ _ _ HZ De (cbP_err _ HZ)) as [He Ce].
  destruct (cb_cubic_ok _ _ _ Be Fe Br Fr HZ He Ce Dr) as (Ba & Fa & Ha & Ca). split; [apply fmul_isbits|]. exact (cb_scale _ _ _ _ _ Fa Fi Ha HI HZ HK Ca HC V0 EV).
Qed.

(** [cbrtf]: the estimate from the exponent and two Halley steps. *)
From Coq Require Import ZArith Reals Lia Lra Bool List Psatz.
From Flocq Require Import Core.
From Verif Require Import Base Spec SpecFun SpecAcc SpecSym Format P_format Ieee P_ieee P_real P_lit P_neg M_basic M_elib M_pow P_elem P_elem2 P_tot P_err P_sym P_sym2 P_sym3 P_rel P_acc P_kerf P_kerf2 P_medf P_trigf P_fmaf P_sym4 P_ival2.
Open Scope R_scope.

Lemma mulb a b i j k l : bpow radix2 i <= a <= bpow radix2 j -> bpow radix2 k <= b <= bpow radix2 l -> bpow radix2 (i + k) <= a * b <= bpow radix2 (j + l).
Proof. intros A B. rewrite !bpow_plus. pose proof (bpow_gt_0 radix2 i). pose proof (bpow_gt_0 radix2 k). split; apply Rmult_le_compat; lra. Qed.
Lemma b900 a i j : (-900 <= i)%Z -> (j <= 900)%Z -> bpow radix2 i <= a <= bpow radix2 j -> bpow radix2 (-900) <= a <= bpow radix2 900.
Proof. intros I J A. pose proof (bpow_le radix2 (-900) i I). pose proof (bpow_le radix2 j 900 J). lra. Qed.
Lemma addb a b i j : bpow radix2 i <= a <= bpow radix2 j -> bpow radix2 i <= b <= bpow radix2 j -> bpow radix2 i <= a + b <= bpow radix2 (j + 1).
Proof. intros A B. rewrite bpow_plus. change (bpow radix2 1) with 2. pose proof (bpow_gt_0 radix2 i). lra. Qed.
Lemma widenb a i j i' j' : bpow radix2 i <= a <= bpow radix2 j -> (i' <= i)%Z -> (j <= j')%Z -> bpow radix2 i' <= a <= bpow radix2 j'.
Proof. intros A I J. pose proof (bpow_le radix2 _ _ I). pose proof (bpow_le radix2 _ _ J). lra. Qed.
Definition halley (t x : Z) : Z :=
  let r := fmul f64 (fmul f64 t t) t in fdiv f64 (fmul f64 t (fadd f64 (fadd f64 x x) r)) (fadd f64 (fadd f64 x r) r).
Lemma halley_ok t x (v w e : R) : isbits f64 t -> finite f64 t = true -> isbits f64 x -> finite f64 x = true -> val f64 x = v * v * v -> val f64 t = v * w ->
  bpow radix2 (-60) <= v <= bpow radix2 60 -> Rabs (w - 1) <= e -> e <= 4 / 100 ->
  exists w', isbits f64 (halley t x) /\ finite f64 (halley t x) = true /\ val f64 (halley t x) = v * w' /\ Rabs (w' - 1) <= 3 / 4 * (e * e * e) + 10 * u52.
Proof.
  intros Bt Ft Bx Fx Vx Vt HV HW He. apply Rabs_le_inv in HW. pose proof (bpow_gt_0 radix2 (-60)) as P60. assert (V0 : 0 < v) by lra.
  assert (HT : bpow radix2 (-61) <= v * w <= bpow radix2 61).
  { change (-61)%Z with (-60 + -1)%Z. change 61%Z with (60 + 1)%Z. apply mulb; [exact HV|]. change (bpow radix2 (-1)) with (/ 2). change (bpow radix2 1) with 2. lra. }
  set (T := v * w) in *. set (X := v * v * v) in *. assert (T0 : 0 < T) by (unfold T; apply Rmult_lt_0_compat; lra).
  assert (HX : bpow radix2 (-200) <= X <= bpow radix2 200) by (unfold X; apply (widenb _ (-60 + -60 + -60) (60 + 60 + 60)); [apply mulb; [apply mulb; assumption|assumption]|lia|lia]).
  assert (HTT : bpow radix2 (-122) <= T * T <= bpow radix2 122) by (change (-122)%Z with (-61 + -61)%Z; change 122%Z with (61 + 61)%Z; apply mulb; assumption).
  assert (HT3 : bpow radix2 (-200) <= T * T * T <= bpow radix2 200) by (apply (widenb _ (-122 + -61) (122 + 61)); [apply mulb; assumption|lia|lia]).
  assert (HXX : bpow radix2 (-200) <= X + X <= bpow radix2 201) by (change 201%Z with (200 + 1)%Z; apply addb; assumption).
  assert (HS : bpow radix2 (-200) <= X + X + T * T * T <= bpow radix2 202) by (change 202%Z with (201 + 1)%Z; apply addb; [assumption|apply (widenb _ (-200) 200); [exact HT3|lia|lia]]).
  assert (HD1 : bpow radix2 (-200) <= X + T * T * T <= bpow radix2 201) by (change 201%Z with (200 + 1)%Z; apply addb; assumption).
  assert (HD : bpow radix2 (-200) <= X + T * T * T + T * T * T <= bpow radix2 202) by (change 202%Z with (201 + 1)%Z; apply addb; [assumption|apply (widenb _ (-200) 200); [exact HT3|lia|lia]]).
  assert (HN : bpow radix2 (-300) <= T * (X + X + T * T * T) <= bpow radix2 300) by (apply (widenb _ (-61 + -200) (61 + 202)); [apply mulb; assumption|lia|lia]).
  assert (RT : RP t T 0) by (rewrite <- Vt; apply RP_exact; [exact Bt|exact Ft|rewrite Vt; apply (b900 _ (-61) 61); [lia|lia|exact HT]]).
  assert (RX : RP x X 0) by (rewrite <- Vx; apply RP_exact; [exact Bx|exact Fx|rewrite Vx; apply (b900 _ (-200) 200); [lia|lia|exact HX]]).
  assert (R1 : RP (fmul f64 t t) (T * T) 1) by (apply (RP_le _ _ (0 + 0 + 1)); [apply RP_mul; try assumption; [lra|apply (b900 _ (-122) 122); [lia|lia|exact HTT]]|lra]).
  assert (R2 : RP (fmul f64 (fmul f64 t t) t) (T * T * T) 2) by (apply (RP_le _ _ (1 + 0 + 1)); [apply RP_mul; try assumption; [lra|apply (b900 _ (-200) 200); [lia|lia|exact HT3]]|lra]).
  assert (R3 : RP (fadd f64 x x) (X + X) 1) by (apply (RP_le _ _ (0 + 1)); [apply (RP_add _ _ _ _ 0 0); try assumption; try lra; apply (b900 _ (-200) 201); [lia|lia|exact HXX]|lra]).
  assert (R4 : RP (fadd f64 (fadd f64 x x) (fmul f64 (fmul f64 t t) t)) (X + X + T * T * T) 3) by (apply (RP_le _ _ (2 + 1)); [apply (RP_add _ _ _ _ 1 2); try assumption; try lra; apply (b900 _ (-200) 202); [lia|lia|exact HS]|lra]).
  assert (R5 : RP (fmul f64 t (fadd f64 (fadd f64 x x) (fmul f64 (fmul f64 t t) t))) (T * (X + X + T * T * T)) 4) by (apply (RP_le _ _ (0 + 3 + 1)); [apply RP_mul; try assumption; [lra|apply (b900 _ (-300) 300); [lia|lia|exact HN]]|lra]).
  assert (R6 : RP (fadd f64 x (fmul f64 (fmul f64 t t) t)) (X + T * T * T) 3) by (apply (RP_le _ _ (2 + 1)); [apply (RP_add _ _ _ _ 0 2); try assumption; try lra; apply (b900 _ (-200) 201); [lia|lia|exact HD1]|lra]).
  assert (R7 : RP (fadd f64 (fadd f64 x (fmul f64 (fmul f64 t t) t)) (fmul f64 (fmul f64 t t) t)) (X + T * T * T + T * T * T) 4) by (apply (RP_le _ _ (3 + 1)); [apply (RP_add _ _ _ _ 3 2); try assumption; try lra; apply (b900 _ (-200) 202); [lia|lia|exact HD]|lra]).
  set (N := T * (X + X + T * T * T)) in *. set (D := X + T * T * T + T * T * T) in *.
  assert (D0 : 0 < D) by (pose proof (bpow_gt_0 radix2 (-200)); lra). assert (N0 : 0 < N) by (pose proof (bpow_gt_0 radix2 (-300)); lra).
  set (h := (w - 1) * (w - 1) * (w - 1) * (w + 1) / (1 + 2 * (w * w * w))).
  assert (W3 : 0.88 <= w * w * w) by (assert (0.96 * 0.96 <= w * w) by (apply Rmult_le_compat; lra); assert (0.96 * 0.96 * 0.96 <= w * w * w) by (apply Rmult_le_compat; lra); lra).
  assert (ND : N / D = v * (1 + h)) by (unfold N, D, h, X, T; field; split; [lra|]; replace (v * v * v + v * w * (v * w) * (v * w) + v * w * (v * w) * (v * w)) with (v * v * v * (1 + 2 * (w * w * w))) by ring; apply Rmult_integral_contrapositive_currified; [|lra]; apply Rgt_not_eq; repeat apply Rmult_lt_0_compat; lra).
  assert (HH : Rabs h <= 3 / 4 * (e * e * e)).
  { unfold h, Rdiv. rewrite !Rabs_mult. assert (I3 : Rabs (/ (1 + 2 * (w * w * w))) <= / 2.76) by (rewrite Rabs_pos_eq; [apply Rinv_le; lra|apply Rlt_le, Rinv_0_lt_compat; lra]).
    assert (A1 : Rabs (w - 1) <= e) by (apply Rabs_le; lra). assert (A2 : Rabs (w + 1) <= 2.04) by (rewrite Rabs_pos_eq; lra).
    pose proof (Rabs_pos (w - 1)). pose proof (Rabs_pos (w + 1)). pose proof (Rabs_pos (/ (1 + 2 * (w * w * w)))).
    assert (Rabs (w - 1) * Rabs (w - 1) * Rabs (w - 1) <= e * e * e) by (repeat apply Rmult_le_compat; try lra; try apply Rmult_le_pos; lra).
    assert (0 <= Rabs (w - 1) * Rabs (w - 1) * Rabs (w - 1)) by (repeat apply Rmult_le_pos; lra).
    set (q := Rabs (w - 1) * Rabs (w - 1) * Rabs (w - 1)) in *. assert (q * Rabs (w + 1) <= e * e * e * 2.04) by (apply Rmult_le_compat; lra). assert (0 <= q * Rabs (w + 1)) by (apply Rmult_le_pos; lra).
    assert (q * Rabs (w + 1) * Rabs (/ (1 + 2 * (w * w * w))) <= e * e * e * 2.04 * / 2.76) by (apply Rmult_le_compat; lra). lra. }
  assert (EE : 0 <= e * e * e <= 64 / 1000000). { assert (0 <= e) by lra. assert (e * e <= 4 / 100 * (4 / 100)) by (apply Rmult_le_compat; lra). assert (0 <= e * e) by (apply Rmult_le_pos; lra). split; [apply Rmult_le_pos; lra|]. assert (e * e * e <= 4 / 100 * (4 / 100) * (4 / 100)) by (apply Rmult_le_compat; lra). lra. }
  assert (HHb := HH). apply Rabs_le_inv in HHb.
  assert (RQ : RP (halley t x) (v * (1 + h)) 9).
  { rewrite <- ND. apply (RP_le _ _ (4 + 4 + 1)); [|lra]. apply (RP_div _ _ _ _ 4 4 R5 R7); [lra|]. rewrite ND. apply (b900 _ (-61) 61); [lia|lia|].
    change (-61)%Z with (-60 + -1)%Z. change 61%Z with (60 + 1)%Z. apply mulb; [exact HV|]. change (bpow radix2 (-1)) with (/ 2). change (bpow radix2 1) with 2. lra. }
  destruct RQ as (BQ & FQ & _ & _ & EQ). exists (val f64 (halley t x) / v). split; [exact BQ|]. split; [exact FQ|]. split; [field; lra|].
  set (Q := val f64 (halley t x)) in *. replace (Q / v - 1) with ((Q - v * (1 + h)) * / v + h) by (field; lra). eapply Rle_trans; [apply Rabs_triang|]. rewrite Rabs_mult, (Rabs_pos_eq (/ v)) by (apply Rlt_le, Rinv_0_lt_compat; lra).
  assert (IV := Rinv_0_lt_compat _ V0). assert (Rabs (Q - v * (1 + h)) * / v <= 9 * u52 * (v * (1 + h)) * / v) by (apply Rmult_le_compat_r; lra).
  replace (9 * u52 * (v * (1 + h)) * / v) with (9 * u52 * (1 + h)) in H by (field; lra). unfold u52 in *. lra.
Qed.
(** the estimate *)
Lemma est_real (n p k c : R) (d : Z) : p = 3 * n - IZR d - c -> 3.9008 <= c <= 3.90082 -> 1 <= p <= 2 -> 1 <= n <= 2 -> (d = -2 \/ d = -1 \/ d = 0 \/ d = 1)%Z -> k = bpow radix2 (2 + d) -> 0.9 * (p * k) <= n * n * n <= 1.11 * (p * k).
Proof.
  intros Ep Hc Hp Hn Hd Hk. assert (S : forall a, 0 <= a -> a * a * (3 * n - 2 * a) <= n * n * n) by (intros a Ha; assert (0 <= (n - a) * (n - a) * (n + 2 * a)) by (apply Rmult_le_pos; [apply Rle_0_sqr|lra]); lra).
  assert (C : forall a b, a <= n <= b -> 0 <= a -> n * n * n <= (a * a + a * b + b * b) * n - a * b * (a + b)).
  { intros a b H Ha. assert (0 <= (n - a) * (b - n) * (n + a + b)) by (repeat apply Rmult_le_pos; lra). lra. }
  destruct Hd as [-> | [-> | [-> | ->]]]; [change (bpow radix2 (2 + -2)) with 1 in Hk|change (bpow radix2 (2 + -1)) with 2 in Hk|change (bpow radix2 (2 + 0)) with 4 in Hk|change (bpow radix2 (2 + 1)) with 8 in Hk]; subst k.
  - assert (1 <= n <= 1.3003) by lra. split; [pose proof (S 1 ltac:(lra)); lra|]. pose proof (C 1 1.3003 ltac:(lra) ltac:(lra)). lra.
  - assert (1.3 <= n <= 1.634) by lra. split; [pose proof (S 1.4 ltac:(lra)); lra|]. pose proof (C 1.3 1.634 ltac:(lra) ltac:(lra)). lra.
  - assert (1.63 <= n <= 1.968) by lra. split; [pose proof (S 1.8 ltac:(lra)); lra|]. pose proof (C 1.63 1.968 ltac:(lra) ltac:(lra)). lra.
  - assert (1.966 <= n <= 2) by lra. split; [pose proof (S 1.98 ltac:(lra)); lra|]. pose proof (C 1.966 2 ltac:(lra) ltac:(lra)). lra.
Qed.
Lemma a32_pos a : (0 <= a < 2 ^ 31)%Z -> a32 a = a.
Proof. intros H. unfold a32. now apply Z.mod_small. Qed.
Lemma est hx : (2 ^ 23 <= hx < 0x7f800000)%Z -> let h := (hx / 3 + 709958130)%Z in (2 ^ 29 <= h < 0x7f800000)%Z /\ 0.9 * val f32 hx <= val f32 h * val f32 h * val f32 h <= 1.11 * val f32 hx.
Proof.
  intros Hx h. pose proof (Z.div_mod hx 3 ltac:(lia)) as D3. pose proof (Z.mod_pos_bound hx 3 ltac:(lia)) as R3. set (rho := (hx mod 3)%Z) in *.
  assert (Hh : (2 ^ 29 <= h < 0x7f800000)%Z) by (unfold h; lia). split; [exact Hh|].
  assert (B1 : isbits f32 hx) by (split; [lia|change (2 ^ width f32)%Z with (2 ^ 32)%Z; lia]). assert (B2 : isbits f32 h) by (split; [lia|change (2 ^ width f32)%Z with (2 ^ 32)%Z; lia]).
  assert (S1 : signbit f32 hx = false) by (apply pos32; lia). assert (S2 : signbit f32 h = false) by (apply pos32; lia).
  destruct (dec32 hx B1) as (M & HM & _ & VM & SM & AM); [rewrite a32_pos; lia|]. destruct (dec32 h B2) as (N & HN & _ & VN & SN & AN); [rewrite a32_pos; lia|].
  rewrite a32_pos in VM, AM, VN, AN by lia. rewrite S1 in SM. rewrite S2 in SN. apply Z.ltb_ge in SM, SN. rewrite Z.abs_eq in HM, AM, HN, AN by lia.
  set (E := (hx / 2 ^ 23)%Z) in *. set (q := (h / 2 ^ 23)%Z) in *. set (d := (E - 3 * q + 252)%Z).
  assert (EM : (M = 3 * N - 2 ^ 23 * d - 32722390 + rho)%Z) by (unfold d, h in *; lia).
  assert (Hd : (d = -2 \/ d = -1 \/ d = 0 \/ d = 1)%Z) by lia.
  set (n := IZR N / 8388608). set (p := IZR M / 8388608). set (c := (32722390 - IZR rho) / 8388608).
  assert (Ep : p = 3 * n - IZR d - c). { unfold p, n, c. rewrite EM. rewrite plus_IZR, !minus_IZR, !mult_IZR. change (IZR (2 ^ 23)) with 8388608. field. }
  assert (Rr : 0 <= IZR rho <= 2) by (split; apply IZR_le; lia).
  assert (RM : 8388608 <= IZR M <= 16777216) by (split; apply IZR_le; lia). assert (RN : 8388608 <= IZR N <= 16777216) by (split; apply IZR_le; lia).
  pose proof (est_real n p (bpow radix2 (2 + d)) c d Ep ltac:(unfold c; lra) ltac:(unfold p; lra) ltac:(unfold n; lra) Hd eq_refl) as [L U].
  set (s := bpow radix2 (3 * q - 381)). assert (S0 : 0 < s) by apply bpow_gt_0.
  assert (EX : val f32 hx = p * bpow radix2 (2 + d) * s).
  { rewrite VM. unfold p. replace (E - 150)%Z with (2 + d + (3 * q - 381) + -23)%Z by (unfold d; lia). rewrite !bpow_plus. fold s. change (bpow radix2 (-23)) with (/ 8388608). field. }
  assert (ET : val f32 h * val f32 h * val f32 h = n * n * n * s).
  { rewrite VN. unfold n, s. replace (3 * q - 381)%Z with ((q - 127) + (q - 127) + (q - 127))%Z by lia. replace (q - 150)%Z with (q - 127 + -23)%Z by lia. rewrite !bpow_plus. change (bpow radix2 (-23)) with (/ 8388608). field. }
  rewrite EX, ET. split.
  - replace (0.9 * (p * bpow radix2 (2 + d) * s)) with (0.9 * (p * bpow radix2 (2 + d)) * s) by ring. apply Rmult_le_compat_r; lra.
  - replace (1.11 * (p * bpow radix2 (2 + d) * s)) with (1.11 * (p * bpow radix2 (2 + d)) * s) by ring. apply Rmult_le_compat_r; lra.
Qed.
(** a cube within these bounds *)
Lemma cube_close (t v : R) : 0 < t -> 0 < v -> 0.9 * (v * v * v) <= t * t * t <= 1.11 * (v * v * v) -> exists w, t = v * w /\ Rabs (w - 1) <= 0.0358.
Proof.
  intros T V H. exists (t / v). split; [field; lra|]. set (w := t / v). assert (Et : t = v * w) by (unfold w; field; lra). assert (W : 0 < w) by (unfold w; apply Rdiv_lt_0_compat; lra).
  assert (V3 : 0 < v * v * v) by (repeat apply Rmult_lt_0_compat; lra). rewrite Et in H. replace (v * w * (v * w) * (v * w)) with (v * v * v * (w * w * w)) in H by ring.
  assert (0.9 <= w * w * w <= 1.11) by (split; apply (Rmult_le_reg_l (v * v * v)); lra). apply Rabs_le. split.
  - destruct (Rle_lt_dec 0.9642 w); [lra|]. exfalso. assert (w * w <= 0.9642 * 0.9642) by (apply Rmult_le_compat; lra). assert (w * w * w <= 0.9642 * 0.9642 * 0.9642) by (apply Rmult_le_compat; try lra; apply Rmult_le_pos; lra). lra.
  - destruct (Rle_lt_dec w 1.0358); [lra|]. exfalso. assert (1.0358 * 1.0358 <= w * w) by (apply Rmult_le_compat; lra). assert (1.0358 * 1.0358 * 1.0358 <= w * w * w) by (apply Rmult_le_compat; lra). lra.
Qed.
Lemma cube_le (a b : R) : 0 <= b -> a * a * a <= b * b * b -> a <= b.
Proof. intros B H. destruct (Rle_lt_dec a b) as [|L]; [assumption|]. exfalso. assert (b * b * b < a * a * a); [|lra]. assert (b * b < a * a) by (apply Rmult_le_0_lt_compat; lra). apply Rmult_le_0_lt_compat; try lra. apply Rmult_le_pos; lra. Qed.
(** two steps from the estimate *)
Lemma cbrtf_1_eq x h : rs_cbrtf_1 x 0 h = Some (fcvt f64 f32 (halley (halley (fcvt f32 f64 h) (fcvt f32 f64 x)) (fcvt f32 f64 x))).
Proof. unfold rs_cbrtf_1, halley. change (Z.land 0 0x80000000) with 0%Z. rewrite Z.lor_0_l. cbv zeta. reflexivity. Qed.
Lemma cbrtf_pos x h v : isbits f32 x -> finite f64 (fcvt f32 f64 x) = true -> val f64 (fcvt f32 f64 x) = v * v * v -> bpow radix2 (-150) <= v * v * v <= bpow radix2 150 ->
  (2 ^ 23 <= h < 0x7f800000)%Z -> 0.9 * (v * v * v) <= val f32 h * val f32 h * val f32 h <= 1.11 * (v * v * v) ->
  exists r, rs_cbrtf_1 x 0 h = Some r /\ faithful f32 v r.
Proof.
  intros B F VX HX Hh HT. assert (V0 : 0 < v). { destruct (Rle_lt_dec v 0) as [L|]; [|assumption]. exfalso. pose proof (bpow_gt_0 radix2 (-150)). assert (0 <= v * v) by apply Rle_0_sqr. assert (v * v * v <= 0) by (assert (v * v * (- v) >= 0) by (apply Rle_ge, Rmult_le_pos; lra); lra). lra. }
  assert (HV : bpow radix2 (-60) <= v <= bpow radix2 60).
  { split; apply cube_le; try lra; try apply bpow_ge_0; rewrite <- !bpow_plus.
    - eapply Rle_trans; [|exact (proj1 HX)]. apply bpow_le. lia.
    - eapply Rle_trans; [exact (proj2 HX)|]. apply bpow_le. lia. }
  assert (Bh : isbits f32 h) by (split; [lia|change (2 ^ width f32)%Z with (2 ^ 32)%Z; lia]). assert (Sh : signbit f32 h = false) by (apply pos32; lia).
  destruct (dec32 h Bh) as (N & HN & (B6 & F6 & V6) & VN & SN & _); [rewrite a32_pos; lia|]. rewrite Sh in SN. apply Z.ltb_ge in SN. rewrite Z.abs_eq in HN by exact SN. rewrite <- VN in V6.
  assert (T0 : 0 < val f32 h) by (rewrite VN; apply Rmult_lt_0_compat; [apply IZR_lt; lia|apply bpow_gt_0]).
  destruct (cube_close _ v T0 V0 HT) as (w & EW & HW). rewrite EW in V6.
  destruct (halley_ok _ _ v w 0.0358 B6 F6 (fcvt_isbits _ _ _) F VX V6 HV HW ltac:(lra)) as (w1 & C1 & D1 & E1 & G1).
  assert (K1 : 3 / 4 * (0.0358 * 0.0358 * 0.0358) + 10 * u52 <= 0.00004) by (unfold u52; lra).
  destruct (halley_ok _ _ v w1 0.00004 C1 D1 (fcvt_isbits _ _ _) F VX E1 HV ltac:(lra) ltac:(lra)) as (w2 & C2 & D2 & E2 & G2).
  eexists. split; [apply cbrtf_1_eq|].
  apply faithful_cvt; [exact C2|exact D2|lra| |].
  - rewrite Rabs_pos_eq by lra. eapply Rle_trans; [exact (proj2 HV)|]. apply bpow_le. lia.
  - rewrite E2. replace (v * w2 - v) with (v * (w2 - 1)) by ring. rewrite Rabs_mult, (Rabs_pos_eq v) by lra. rewrite (Rmult_comm v). apply Rmult_le_compat_r; [lra|]. eapply Rle_trans; [exact G2|].
    change (bpow radix2 (-26)) with (/ 67108864). unfold u52. lra.
Qed.

Lemma cbrtf_1_ui x ui h : (0 <= ui < 2 ^ 31)%Z -> rs_cbrtf_1 x ui h = rs_cbrtf_1 x 0 h.
Proof.
  intros H. unfold rs_cbrtf_1. assert (E : Z.land ui 0x80000000 = 0%Z); [|rewrite E; reflexivity].
  apply Z.bits_inj'. intros i Hi. rewrite Z.land_spec, Z.bits_0. change 0x80000000%Z with (2 ^ 31)%Z. rewrite Z.pow2_bits_eqb by lia. destruct (Z.eqb_spec 31 i) as [<-|]; [|apply andb_false_r].
  rewrite andb_true_r. apply Z.bits_above_log2; [lia|]. destruct (Z.eq_dec ui 0) as [->|]; [cbn; lia|]. apply Z.log2_lt_pow2; lia.
Qed.
Lemma val_shift8 h : (2 ^ 29 <= h < 0x7f800000)%Z -> val f32 (h - 2 ^ 26) = val f32 h * bpow radix2 (-8).
Proof.
  intros H. assert (B1 : isbits f32 h) by (split; [lia|change (2 ^ width f32)%Z with (2 ^ 32)%Z; lia]). assert (B2 : isbits f32 (h - 2 ^ 26)) by (split; [lia|change (2 ^ width f32)%Z with (2 ^ 32)%Z; lia]).
  assert (S1 : signbit f32 h = false) by (apply pos32; lia). assert (S2 : signbit f32 (h - 2 ^ 26) = false) by (apply pos32; lia).
  destruct (dec32 _ B1) as (M & HM & _ & VM & SM & AM); [rewrite a32_pos; lia|]. destruct (dec32 _ B2) as (N & HN & _ & VN & SN & AN); [rewrite a32_pos; lia|].
  rewrite a32_pos in VM, AM, VN, AN by lia. rewrite S1 in SM. rewrite S2 in SN. apply Z.ltb_ge in SM, SN. rewrite Z.abs_eq in AM, AN by lia.
  assert (Q : ((h - 2 ^ 26) / 2 ^ 23 = h / 2 ^ 23 - 8)%Z) by (replace (h - 2 ^ 26)%Z with (h + (-8) * 2 ^ 23)%Z by lia; rewrite Z.div_add by lia; lia).
  rewrite VM, VN, Q. assert (M = N) as -> by lia. rewrite Rmult_assoc, <- bpow_plus. do 2 f_equal. lia.
Qed.
Lemma ge_bits32 u a : isbits f32 u -> signbit f32 u = false -> (0 <= a < 0x7f800000)%Z -> val f32 a < val f32 u -> (a < a32 u)%Z.
Proof.
  intros B S A H. destruct (Z_lt_le_dec a (a32 u)) as [|L]; [assumption|]. exfalso. assert (A0 : (0 <= a32 u)%Z) by (unfold a32; apply Z.mod_pos_bound; lia).
  destruct (P_ival2.IN_pos32 0 a u B S ltac:(lia) ltac:(lia) ltac:(lia)) as (_ & _ & I). cbn [fst snd] in I. lra.
Qed.
Lemma pos_a32 x : isbits f32 x -> signbit f32 x = false -> a32 x = x.
Proof.
  intros [U0 U1] S. pose proof (sg32 x (conj U0 U1)) as Q. rewrite S in Q. cbn [bs] in Q. change (2 ^ width f32)%Z with (2 ^ 32)%Z in U1. unfold a32. rewrite Z.shiftr_div_pow2 in Q by lia. pose proof (Z.div_mod x (2 ^ 31) ltac:(lia)). lia.
Qed.
Lemma cbrtf_pos_ok x v : (0 < x < 0x7f800000)%Z -> v * v * v = val f32 x -> exists r, rs_cbrtf x = Some r /\ faithful f32 v r.
Proof.
  intros H EV. assert (B : isbits f32 x) by (split; [lia|change (2 ^ width f32)%Z with (2 ^ 32)%Z; lia]). assert (S : signbit f32 x = false) by (apply pos32; lia). assert (A : a32 x = x) by (apply a32_pos; lia).
  assert (F : finite f32 x = true) by (rewrite (fin32 x B), A; apply Z.ltb_lt; lia).
  destruct (P_fmaf.widen_ok x B F) as (B6 & F6 & V6 & _ & n & e & En & Hn & He).
  assert (XL : bpow radix2 (-149) <= val f32 x).
  { destruct (P_ival2.IN_pos32 1 0x7f7fffff x B S ltac:(lia) ltac:(lia) ltac:(lia)) as (_ & _ & I). cbn [fst snd] in I. assert (E1 : val f32 1 = 1 / 713623846352979940529142984724747568191373312) by lit. change (bpow radix2 (-149)) with (/ 713623846352979940529142984724747568191373312). lra. }
  assert (XU : val f32 x <= bpow radix2 150).
  { destruct (P_ival2.IN_pos32 1 0x7f7fffff x B S ltac:(lia) ltac:(lia) ltac:(lia)) as (_ & _ & I). cbn [fst snd] in I. assert (E1 : val f32 0x7f7fffff = 340282346638528859811704183484516925440 / 1) by lit. change (bpow radix2 150) with 1427247692705959881058285969449495136382746624. lra. }
  assert (HX : bpow radix2 (-150) <= v * v * v <= bpow radix2 150) by (rewrite EV; split; [|exact XU]; eapply Rle_trans; [|exact XL]; apply bpow_le; lia).
  unfold rs_cbrtf. cbv zeta. rewrite !land_a32, A. rewrite (proj2 (Z.leb_gt _ _)) by lia. unfold rs_cbrtf_B1, rs_cbrtf_B2. destruct (Z.ltb_spec x 0x800000) as [L | L].
  - rewrite (proj2 (Z.eqb_neq _ _)) by lia. set (ui := fmul f32 x 0x4b800000).
    assert (E24 : val f32 0x4b800000 = 16777216) by (assert (val f32 0x4b800000 = 16777216 / 1) as -> by lit; lra).
    assert (RP24 : repr f32 (val f32 x * val f32 0x4b800000)).
    { rewrite E24, En. change 16777216 with (bpow radix2 24). rewrite Rmult_assoc, <- bpow_plus. apply repr_int; [change (mw f32 + 1)%Z with 24%Z; lia|change (emin f32) with (-149)%Z; lia]. }
    assert (XS : val f32 x <= bpow radix2 (-126)).
    { destruct (P_ival2.IN_pos32 1 0x800000 x B S ltac:(lia) ltac:(lia) ltac:(lia)) as (_ & _ & I). cbn [fst snd] in I. assert (E1 : val f32 0x800000 = 1 / 85070591730234615865843651857942052864) by lit. change (bpow radix2 (-126)) with (/ 85070591730234615865843651857942052864). lra. }
    assert (P126 : bpow radix2 (-126) <= 1) by (apply (bpow_le radix2 (-126) 0); lia). pose proof (bpow_gt_0 radix2 (-149)) as P149.
    destruct (rounds_to_exact f32 _ _ _ (fmul_spec f32 x 0x4b800000 F ltac:(vm_compute; reflexivity)) (repr_rnd _ _ RP24)) as (FU & VU & SU).
    { rewrite E24, Rabs_pos_eq by lra. apply Rle_lt_trans with (bpow radix2 24); [change (bpow radix2 24) with 16777216; lra|]. apply bpow_lt. vm_compute. reflexivity. }
    fold ui in FU, VU, SU. rewrite E24 in VU, SU. rewrite Rcompare_Gt in SU by lra. assert (BU : isbits f32 ui) by apply fmul_isbits.
    assert (UB : (0x00ffffff < a32 ui)%Z). { apply ge_bits32; [exact BU|exact SU|lia|]. assert (val f32 0x00ffffff = 16777215 / 713623846352979940529142984724747568191373312) as -> by lit. rewrite VU. change (bpow radix2 (-149)) with (/ 713623846352979940529142984724747568191373312) in XL. lra. }
    assert (UA : (a32 ui < 0x7f800000)%Z) by (rewrite (fin32 ui BU) in FU; lia).
    assert (UE : ui = a32 ui). { pose proof (sg32 ui BU) as Q. rewrite SU in Q. cbn [bs] in Q. destruct BU as [U0 U1]. change (2 ^ width f32)%Z with (2 ^ 32)%Z in U1. unfold a32. rewrite Z.shiftr_div_pow2 in Q by lia. pose proof (Z.div_mod ui (2 ^ 31) ltac:(lia)). lia. }
    rewrite <- UE in UA, UB |- *. destruct (est ui ltac:(lia)) as [Hh HT].
    rewrite uadd_ok by (pose proof (Z.div_le_upper_bound ui 3 0x7f800000 ltac:(lia) ltac:(lia)); pose proof (Z.div_pos ui 3 ltac:(lia) ltac:(lia)); lia). cbn [bind].
    rewrite cbrtf_1_ui by lia. set (h := (ui / 3 + 709958130)%Z) in *. replace (ui / 3 + 0x265119f2)%Z with (h - 2 ^ 26)%Z by (unfold h; lia). rewrite VU in HT.
    apply cbrtf_pos; try assumption; [congruence|lia|]. rewrite (val_shift8 h) by lia. rewrite EV.
    replace (val f32 h * bpow radix2 (-8) * (val f32 h * bpow radix2 (-8)) * (val f32 h * bpow radix2 (-8))) with (val f32 h * val f32 h * val f32 h * (bpow radix2 (-8) * bpow radix2 (-8) * bpow radix2 (-8))) by ring.
    change (bpow radix2 (-8)) with (/ 256). clear -HT. lra.
  - destruct (est x ltac:(lia)) as [Hh HT]. rewrite uadd_ok by (pose proof (Z.div_le_upper_bound x 3 0x7f800000 ltac:(lia) ltac:(lia)); pose proof (Z.div_pos x 3 ltac:(lia) ltac:(lia)); lia). cbn [bind]. rewrite cbrtf_1_ui by lia.
    change (0x2a5119f2)%Z with 709958130%Z. set (h := (x / 3 + 709958130)%Z) in *. apply cbrtf_pos; try assumption; [congruence|lia|rewrite EV; exact HT].
Qed.
(** all finite arguments *)
Theorem cbrtf_faithful x v : isbits f32 x -> finite f32 x = true -> v * v * v = val f32 x -> exists r, rs_cbrtf x = Some r /\ faithful f32 v r.
Proof.
  intros B F EV. assert (AB : (0 <= a32 x < 0x7f800000)%Z) by (split; [unfold a32; apply Z.mod_pos_bound; lia|rewrite (fin32 x B) in F; lia]).
  destruct (Z.eq_dec (a32 x) 0) as [Z0 | NZ].
  - exists x. split.
    + unfold rs_cbrtf. cbv zeta. rewrite !land_a32, Z0. reflexivity.
    + assert (V0 : val f32 x = 0).
      { apply iszero_val. pose proof (magz32 x B) as M. destruct (fields_range f32 x) as [E S]. unfold iszero. rewrite (proj2 (Z.eqb_eq (expf f32 x) 0)), (proj2 (Z.eqb_eq (sigf f32 x) 0)) by lia. reflexivity. }
      rewrite V0 in EV. apply Rmult_integral in EV. assert (v = 0) as ->. { destruct EV as [EV|EV]; [|exact EV]. apply Rmult_integral in EV. tauto. }
      now apply P_trigf.faithful_0.
  - destruct (signbit f32 x) eqn:S.
    + assert (NB : isbits f32 (fneg f32 x)) by (apply fneg_fields, B). assert (NA : a32 (fneg f32 x) = a32 x) by (apply a32_fneg, B).
      assert (NS : signbit f32 (fneg f32 x) = false) by (destruct (fneg_fields f32 x B) as (_ & Q & _); rewrite Q, S; reflexivity).
      assert (NE : fneg f32 x = a32 x). { rewrite <- NA. symmetry. apply pos_a32; assumption. }
      destruct (cbrtf_pos_ok (fneg f32 x) (- v)) as (r & Er & Fr); [rewrite NE; lia|rewrite fneg_val by exact B; rewrite <- EV; ring|].
      destruct (P_sym4.cbrtf_odd (fneg f32 x) r NB) as (r' & Er' & R); [apply finite_not_nan; rewrite fneg_finite by exact B; exact F|exact Er|].
      rewrite fneg_fneg in Er' by exact B. exists r'. split; [exact Er'|]. destruct Fr as (Br & FFr & Hr).
      assert (r' = fneg f32 r) as ->. { apply (P_sym.rel_eq f32 true _ _ R). now apply finite_not_nan. }
      rewrite <- (Ropp_involutive v). apply P_kerf2.faithful_neg. repeat split; try assumption; apply Br.
    + pose proof (pos_a32 x B S) as PA. apply cbrtf_pos_ok; [lia|exact EV].
Qed.

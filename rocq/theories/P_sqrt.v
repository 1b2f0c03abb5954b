(** Error analysis of the Goldschmidt iterations of generic/sqrt.rs. *)
From Coq Require Import ZArith Reals Lia Lra Psatz Bool List.
From Flocq Require Import Core.
From Verif Require Import Base Spec Format P_format Ieee P_ieee P_real P_key P_round P_round2 P_bits P_trait P_scalbn P_fma2 M_sqrt.
Open Scope Z_scope.

(** ** one step over the reals *)
Lemma cube_small e E : (Rabs e <= E)%R -> (E <= 1 / 256)%R -> 
  (- (3/2 * (E * E) + 1/2 * (E * E * E)) <= - (3/2 * (e * e) + 1/2 * (e * e * e)) <= 0)%R.
Proof.
  intros H HE. apply Rabs_le_inv in H. assert (0 <= E)%R by lra.
  assert (0 <= e * e <= E * E)%R by nra. assert (- (E * E * E) <= e * e * e <= E * E * E)%R by nra. nra.
Qed.
Lemma mul_box x v lo hi K : (0 <= v <= K)%R -> (- lo <= x <= hi)%R -> (0 <= lo)%R -> (0 <= hi)%R -> (- (K * lo) <= x * v <= K * hi)%R.
Proof. intros. destruct (Rle_lt_dec 0 x); split; nra. Qed.
Lemma real_step a b u h h1 h2 h3 E p q : (0 < h <= 1 / 16384)%R -> (0 <= E <= 1 / 256)%R -> (0 <= p <= 6)%R -> (0 <= q <= 6)%R ->
  (Rabs (a - 1) <= E)%R -> (- p * h <= b - a <= q * h)%R -> (0 <= h1 <= h)%R -> (0 <= h2 <= h)%R -> (0 <= h3 <= 2 * h)%R ->
  u = (3 - a * b + h1)%R ->
  let a' := (a * u / 2 - h2)%R in let b' := (b * u / 2 - h3)%R in
  (- (3/2 * (E * E) + 1/2 * (E * E * E)) - (51/100 * q + 1) * h <= a' - 1 <= (51/100 * p + 51/100) * h)%R /\
  (- (101/100 * p + 2) * h <= b' - a' <= (101/100 * q + 1) * h)%R /\ (99/100 <= u / 2 <= 101/100)%R /\
  (99/100 <= a * b <= 101/100)%R /\ (99/100 <= b <= 101/100)%R /\
  (- (3/2 * (E * E) + 1/2 * (E * E * E)) - (51/100 * p + 2) * h <= b' - 1 <= (51/100 * q + 51/100) * h)%R.
Proof.
  intros Hh HE Hp Hq Ha Hb H1 H2 H3 Eu a' b'.
  pose proof (cube_small (a - 1) E Ha ltac:(lra)) as CS. apply Rabs_le_inv in Ha.
  set (be := (b - a)%R) in *. assert (Eb : b = (a + be)%R) by (unfold be; ring).
  assert (PH : (0 <= p * h <= 6 / 16384)%R) by nra. assert (QH : (0 <= q * h <= 6 / 16384)%R) by nra.
  assert (HA : (255/256 <= a <= 257/256)%R) by lra.
  assert (HB : (99/100 <= b <= 101/100)%R) by lra.
  assert (AB : (- (257/256) * (p * h) <= a * be <= 257/256 * (q * h))%R).
  { pose proof (mul_box be a (p * h) (q * h) (257/256) ltac:(lra) ltac:(lra) ltac:(lra) ltac:(lra)). lra. }
  assert (AA : (255/256 * (255/256) <= a * a <= 257/256 * (257/256))%R) by nra.
  assert (EAB : (a * b = a * a + a * be)%R) by (rewrite Eb; ring).
  assert (HU : (99/100 <= u / 2 <= 101/100)%R) by (rewrite Eu, EAB; lra).
  assert (T : (- (51/100) * (q * h) <= a * (h1 - a * be) / 2 <= 51/100 * (p * h) + 51/100 * h)%R).
  { assert (D : (- (257/256) * (q * h) <= h1 - a * be <= h + 257/256 * (p * h))%R) by lra.
    pose proof (mul_box (h1 - a * be) a (257/256 * (q * h)) (h + 257/256 * (p * h)) (257/256) ltac:(lra) ltac:(lra) ltac:(lra) ltac:(lra)). lra. }
  assert (EA : (a' - 1 = - (3/2 * ((a-1) * (a-1)) + 1/2 * ((a-1) * (a-1) * (a-1))) + a * (h1 - a * be) / 2 - h2)%R).
  { unfold a'. rewrite Eu, Eb. field. }
  assert (EB : (b' - a' = be * (u / 2) + h2 - h3)%R) by (unfold a', b'; rewrite Eb; field).
  assert (BU : (- (101/100) * (p * h) <= be * (u / 2) <= 101/100 * (q * h))%R).
  { pose proof (mul_box be (u / 2) (p * h) (q * h) (101/100) ltac:(lra) ltac:(lra) ltac:(lra) ltac:(lra)). lra. }
  assert (B1 : (b' - 1 = - (3/2 * ((a-1) * (a-1)) + 1/2 * ((a-1) * (a-1) * (a-1))) + a * h1 / 2 + be * ((u - a * a) / 2) - h3)%R).
  { unfold b'. rewrite Eu, Eb. field. }
  assert (HX : (0 <= (u - a * a) / 2 <= 51/100)%R) by (rewrite Eu, EAB; lra).
  pose proof (mul_box be ((u - a * a) / 2) (p * h) (q * h) (51/100) HX ltac:(lra) ltac:(lra) ltac:(lra)) as BX.
  assert (AH : (0 <= a * h1 <= 257/256 * h)%R) by (split; [apply Rmult_le_pos; lra|apply Rmult_le_compat; lra]).
  split; [|split; [|split; [|split; [|split]]]]; lra.
Qed.

(** ** one step over the integers *)
Section Gold.
Variables (w : Z) (m : R).
Hypothesis Hw : 16 <= w.
Hypothesis Hm : (1 <= m < 4)%R.
Let sq := R_sqrt.sqrt m.
Let h := bpow radix2 (2 - w).
Definition ra (r : Z) : R := (IZR r * bpow radix2 (- w) * R_sqrt.sqrt m)%R.
Definition sb (s : Z) : R := (IZR s * bpow radix2 (2 - w) / R_sqrt.sqrt m)%R.

Lemma sq_range : (1 <= sq < 2)%R.
Proof.
  unfold sq. split.
  - rewrite <- sqrt_1 at 1. apply sqrt_le_1; lra.
  - replace 2%R with (R_sqrt.sqrt 4) by (replace 4%R with (2 * 2)%R by ring; apply sqrt_square; lra). apply sqrt_lt_1; lra.
Qed.
Lemma sq_sq : (sq * sq = m)%R. Proof. apply sqrt_sqrt. lra. Qed.
Lemma h_range : (0 < h <= 1 / 16384)%R.
Proof.
  split; [apply bpow_gt_0|]. unfold h. replace (1 / 16384)%R with (bpow radix2 (-14)) by (cbn; lra). apply bpow_le. lia.
Qed.
Lemma wmulh_real a b : 0 <= a -> 0 <= b -> exists t, (0 <= t < 1)%R /\ IZR (wmulh w a b) = (IZR a * IZR b * bpow radix2 (- w) - t)%R /\ 0 <= wmulh w a b.
Proof.
  intros Ha Hb. unfold wmulh. assert (P : 0 < 2 ^ w) by (apply pow2_pos; lia).
  pose proof (Z.div_mod (a * b) (2 ^ w) ltac:(lia)) as D. pose proof (Z.mod_pos_bound (a * b) (2 ^ w) P) as M.
  set (q := a * b / 2 ^ w) in *. set (r := (a * b) mod 2 ^ w) in *.
  exists (IZR r * bpow radix2 (- w))%R. pose proof (bpow_gt_0 radix2 (- w)) as PB.
  assert (E1 : (bpow radix2 w * bpow radix2 (- w) = 1)%R) by (rewrite bp_split; replace (w + - w) with 0 by lia; reflexivity).
  split; [split|split].
  - apply Rmult_le_pos; [apply IZR_le; lia|lra].
  - rewrite <- E1. apply Rmult_lt_compat_r; [exact PB|]. rewrite <- IZR_pow2 by lia. apply IZR_lt. lia.
  - rewrite <- mult_IZR, D, plus_IZR, mult_IZR, IZR_pow2 by lia. ring_simplify. rewrite <- (Rmult_1_r (IZR q)) at 1. rewrite <- E1. ring.
  - apply Z.div_pos; [nia|lia].
Qed.
Lemma bw : (bpow radix2 (- w) = h / 4)%R.
Proof. unfold h. replace (2 - w) with (- w + 1 + 1) by lia. rewrite !bpow_succ2. field. Qed.
Lemma bwh : (bpow radix2 (w - 2) * h = 1)%R.
Proof. unfold h. rewrite bp_split. replace (w - 2 + (2 - w)) with 0 by lia. reflexivity. Qed.
Lemma p2 : 2 ^ w = 4 * 2 ^ (w - 2).
Proof. replace w with (2 + (w - 2)) at 1 by lia. rewrite pow2_split by lia. reflexivity. Qed.
Lemma lt_pow x : (IZR x * h < 4)%R -> x < 2 ^ w.
Proof.
  intros H. apply lt_IZR. rewrite p2, mult_IZR, IZR_pow2 by lia. pose proof h_range. apply Rmult_lt_reg_r with h; [lra|].
  rewrite Rmult_assoc, bwh. lra.
Qed.

(** [s = m * r], from the leading bits [M] of [m] *)
Lemma first_s M R g : 0 <= M -> 0 <= R -> (0 <= g)%R -> (m - g * h <= IZR M * h <= m)%R ->
  exists h0, (0 <= h0 <= (1 + g * ra R) * h)%R /\ sb (wmulh w M R) = (ra R - h0)%R /\ 0 <= wmulh w M R.
Proof.
  intros HM HR Hg H. destruct (wmulh_real M R HM HR) as (t & Ht & E & P). pose proof sq_range as SR. pose proof h_range as HR'.
  pose proof sq_sq as SS.
  assert (RA : (0 <= ra R)%R). { unfold ra. rewrite bw. fold sq. apply IZR_le in HR. assert (0 <= IZR R * (h / 4))%R by nra. nra. }
  set (k := (m - IZR M * h)%R). assert (Hk : (0 <= k <= g * h)%R) by (unfold k; lra).
  exists (ra R * k / m + t * h / sq)%R. split; [|split; [|exact P]].
  - assert (0 <= k / m <= g * h)%R.
    { split; [apply Rmult_le_pos; [lra|apply Rlt_le, Rinv_0_lt_compat; lra]|]. apply Rmult_le_reg_r with m; [lra|]. unfold Rdiv. rewrite Rmult_assoc, Rinv_l by lra. nra. }
    assert (0 <= t * h / sq <= h)%R.
    { split; [apply Rmult_le_pos; [nra|apply Rlt_le, Rinv_0_lt_compat; lra]|]. apply Rmult_le_reg_r with sq; [lra|]. unfold Rdiv. rewrite Rmult_assoc, Rinv_l by lra. nra. }
    replace (ra R * k / m)%R with (ra R * (k / m))%R by (field; lra). set (km := (k / m)%R) in *. set (ts := (t * h / sq)%R) in *. clearbody km ts. split; nra.
  - unfold sb. fold sq h. rewrite E, bw. unfold k, ra. fold sq. rewrite bw. rewrite <- SS. field. lra.
Qed.
(** [u = 3 - s * r] *)
Lemma step_u S R : 0 <= S -> 0 <= R -> (sb S * ra R <= 3)%R -> let U := wsub w (3 * 2 ^ (w - 2)) (wmulh w S R) in
  exists h1, (0 <= h1 <= h)%R /\ (IZR U * h = 3 - ra R * sb S + h1)%R /\ 0 <= U.
Proof.
  intros HS HR H U. destruct (wmulh_real S R HS HR) as (t & Ht & E & P). pose proof sq_range as SR. pose proof h_range as HR'.
  assert (EP : (IZR S * IZR R * bpow radix2 (- w) * h = ra R * sb S)%R).
  { unfold ra, sb. fold sq h. field. lra. }
  assert (LE : wmulh w S R <= 3 * 2 ^ (w - 2)).
  { apply le_IZR. rewrite mult_IZR, IZR_pow2 by lia. rewrite E. apply Rmult_le_reg_r with h; [lra|].
    rewrite Rmult_minus_distr_r, EP, Rmult_assoc, bwh. nra. }
  assert (EU : U = 3 * 2 ^ (w - 2) - wmulh w S R).
  { unfold U, wsub. apply Z.mod_small. rewrite p2. assert (0 < 2 ^ (w - 2)) by (apply pow2_pos; lia). lia. }
  exists (t * h)%R. split; [nra|]. split; [|lia].
  rewrite EU, minus_IZR, mult_IZR, IZR_pow2 by lia. rewrite E. rewrite !Rmult_minus_distr_r, EP, Rmult_assoc, bwh. ring.
Qed.
(** [r = r * u / 2] *)
Lemma step_r R U : 0 <= R -> 0 <= U -> exists h2, (0 <= h2 <= h)%R /\ ra (wmulh w R U * 2) = (ra R * (IZR U * h) / 2 - h2)%R /\ 0 <= wmulh w R U.
Proof.
  intros HR HU. destruct (wmulh_real R U HR HU) as (t & Ht & E & P). pose proof sq_range as SR. pose proof h_range as HR'.
  exists (t * h * sq / 2)%R. split; [|split; [|exact P]].
  - assert (0 <= t * h <= h)%R by nra. set (th := (t * h)%R) in *. clearbody th. split; nra.
  - unfold ra. fold sq. rewrite mult_IZR, E, bw. field.
Qed.
(** [s = s * u / 2] *)
Lemma step_s S U : 0 <= S -> 0 <= U -> exists h3, (0 <= h3 <= 2 * h)%R /\ sb (wmulh w S U * 2) = (sb S * (IZR U * h) / 2 - h3)%R /\ 0 <= wmulh w S U.
Proof.
  intros HS HU. destruct (wmulh_real S U HS HU) as (t & Ht & E & P). pose proof sq_range as SR. pose proof h_range as HR'.
  exists (2 * (t * h / sq))%R. split; [|split; [|exact P]].
  - assert (0 <= t * h / sq <= h)%R.
    { split; [apply Rmult_le_pos; [nra|apply Rlt_le, Rinv_0_lt_compat; lra]|]. apply Rmult_le_reg_r with sq; [lra|]. unfold Rdiv. rewrite Rmult_assoc, Rinv_l by lra. nra. }
    lra.
  - unfold sb. fold sq h. rewrite mult_IZR, E, bw. field. lra.
Qed.

Lemma ra_scale R : ra R = (IZR R * bpow radix2 (- w) * sq)%R. Proof. reflexivity. Qed.
Lemma round_gen S R E p q : 0 <= S -> 0 <= R -> (Rabs (ra R - 1) <= E)%R -> (0 <= E <= 1 / 256)%R -> (0 <= p <= 6)%R -> (0 <= q <= 6)%R ->
  (- p * h <= sb S - ra R <= q * h)%R ->
  let U := wsub w (3 * 2 ^ (w - 2)) (wmulh w S R) in let R' := wmulh w R U * 2 in let S' := wmulh w S U * 2 in
  0 <= U /\ 0 <= R' /\ 0 <= S' < 2 ^ w /\
  (- (3/2 * (E * E) + 1/2 * (E * E * E)) - (51/100 * q + 1) * h <= ra R' - 1 <= (51/100 * p + 51/100) * h)%R /\
  (- (101/100 * p + 2) * h <= sb S' - ra R' <= (101/100 * q + 1) * h)%R /\
  (- (3/2 * (E * E) + 1/2 * (E * E * E)) - (51/100 * p + 2) * h <= sb S' - 1 <= (51/100 * q + 51/100) * h)%R /\
  (IZR U * h <= 3 - ra R * sb S + h)%R.
Proof.
  intros HS HR Ha HE Hp Hq Hb U R' S'. pose proof h_range as HH. pose proof sq_range as SR.
  assert (AB3 : (sb S * ra R <= 3)%R).
  { destruct (real_step (ra R) (sb S) (3 - ra R * sb S + 0) h 0 0 0 E p q) as (_ & _ & _ & K & _); try assumption; lra. }
  destruct (step_u S R HS HR AB3) as (h1 & H1 & EU & PU). fold U in EU, PU.
  destruct (step_r R U HR PU) as (h2 & H2 & ER & PR). fold R' in ER.
  destruct (step_s S U HS PU) as (h3 & H3 & ES & PS). fold S' in ES.
  destruct (real_step (ra R) (sb S) (IZR U * h) h h1 h2 h3 E p q HH HE Hp Hq Ha Hb H1 H2 H3 EU) as (K1 & K2 & K3 & K4 & K5 & K6).
  rewrite <- ER, <- ES in *.
  split; [exact PU|]. split; [unfold R'; lia|]. split.
  { split; [unfold S'; lia|]. apply lt_pow.
    assert (E1 : (IZR S' * h = sb S' * sq)%R) by (unfold sb; fold sq h; field; lra). rewrite E1.
    assert (sb S' <= 11/10)%R.
    { rewrite ES. assert (sb S * (IZR U * h / 2) <= 101/100 * (101/100))%R by nra. lra. }
    assert (0 <= sb S')%R. { unfold sb. fold h sq. apply Rmult_le_pos; [apply Rmult_le_pos; [apply IZR_le; unfold S'; lia|lra]|apply Rlt_le, Rinv_0_lt_compat; lra]. }
    apply Rle_lt_trans with (11/10 * 2)%R; [apply Rmult_le_compat; lra|lra]. }
  split; [exact K1|]. split; [exact K2|]. split; [exact K6|]. rewrite EU. lra.
Qed.
Lemma round_first M R E g : 0 <= M -> 0 <= R -> (Rabs (ra R - 1) <= E)%R -> (0 <= E <= 1 / 256)%R -> (0 <= g <= 1)%R ->
  (m - g * h <= IZR M * h <= m)%R -> let S := wmulh w M R in
  0 <= S /\ (- (1 + 101/100 * g) * h <= sb S - ra R <= 0 * h)%R.
Proof.
  intros HM HR Ha HE Hg H S. pose proof h_range as HH. destruct (first_s M R g HM HR ltac:(lra) H) as (h0 & H0 & E0 & P).
  fold S in E0, P. split; [exact P|]. rewrite E0. apply Rabs_le_inv in Ha.
  assert (g * ra R <= 101/100 * g)%R by nra. nra.
Qed.

(** the loop, one round at a time *)
Lemma three : ushl w 3 (w - 2) = Some (3 * 2 ^ (w - 2)).
Proof.
  rewrite ushl_ok by lia. f_equal. apply Z.mod_small. rewrite p2. assert (0 < 2 ^ (w - 2)) by (apply pow2_pos; lia). lia.
Qed.
Lemma loop_step fin count i k r s u : 
  gold_loop w fin count i (Datatypes.S k) r s u =
  let s := wmulh w s u in
  let s := if (0 <? i) && (negb fin || (i + 1 <? count)) then (s * 2) mod 2 ^ w else s in
  let u := wsub w (3 * 2 ^ (w - 2)) (wmulh w s r) in
  gold_loop w fin count (i + 1) k ((wmulh w r u * 2) mod 2 ^ w) s u.
Proof.
  cbn [gold_loop]. rewrite three. cbn [bind].
  destruct ((0 <? i) && (negb fin || (i + 1 <? count))); rewrite ?ushl_ok by lia; cbn [bind]; rewrite !ushl_ok by lia; cbn [bind]; reflexivity.
Qed.

(** [r = r * u / 2] stays below one *)
Lemma no_wrap_first S R x p : 0 <= S -> 0 <= R -> (0 <= p <= 6)%R -> (- p * h <= sb S - ra R)%R -> (Rabs (ra R - 1) <= 1 / 256)%R ->
  (IZR R * bpow radix2 (- w) <= 1 - x)%R -> (1 / 10 >= x)%R -> (0 <= x)%R -> (4 * h < x * x)%R ->
  let U := wsub w (3 * 2 ^ (w - 2)) (wmulh w S R) in (IZR U * h <= 3 - ra R * sb S + h)%R -> 0 <= U ->
  wmulh w R U * 2 < 2 ^ w /\ (IZR (wmulh w R U * 2) * bpow radix2 (- w) <= 1 - x * x + 4 * h)%R.
Proof.
  intros HS HR Hp Hb Ha Hr Hx0 Hx Hh U HU PU. pose proof h_range as HH. pose proof sq_range as SR.
  set (r := (IZR R * bpow radix2 (- w))%R) in *. assert (Ea : ra R = (r * sq)%R) by reflexivity.
  assert (R0 : (0 <= r)%R) by (unfold r; apply Rmult_le_pos; [now apply IZR_le|apply bpow_ge_0]).
  apply Rabs_le_inv in Ha. assert (PH : (0 <= p * h <= 6 * h)%R) by nra.
  assert (AG : (r <= ra R)%R) by (rewrite Ea; nra).
  assert (ABL : (r * r - 257/256 * (6 * h) <= ra R * sb S)%R).
  { assert (ra R * (ra R - p * h) <= ra R * sb S)%R by (apply Rmult_le_compat_l; lra).
    assert (r * r <= ra R * ra R)%R by (apply Rmult_le_compat; lra).
    assert (ra R * (p * h) <= 257/256 * (6 * h))%R by (apply Rmult_le_compat; lra). lra. }
  assert (UB : (IZR U * h <= 3 - r * r + 8 * h)%R) by lra.
  destruct (wmulh_real R U HR PU) as (t & Ht & E & P).
  assert (E2 : (IZR (wmulh w R U * 2) * bpow radix2 (- w) <= r * (IZR U * h) / 2)%R).
  { rewrite mult_IZR, E. unfold r. rewrite bw. nra. }
  assert (RU : (r * (IZR U * h) <= r * (3 - r * r + 8 * h))%R) by (apply Rmult_le_compat_l; lra).
  assert (CU : (r * (3 - r * r) / 2 <= 1 - x * x)%R).
  { set (y := (1 - r)%R). assert (Hy : (x <= y <= 1)%R) by (unfold y; lra).
    replace (r * (3 - r * r) / 2)%R with (1 - y * y * (3/2 - y / 2))%R by (unfold y; field).
    assert (x * x <= y * y)%R by (apply Rmult_le_compat; lra).
    assert (y * y * 1 <= y * y * (3/2 - y/2))%R by (apply Rmult_le_compat_l; [apply Rmult_le_pos; lra|lra]). lra. }
  assert (LE : (IZR (wmulh w R U * 2) * bpow radix2 (- w) <= 1 - x * x + 4 * h)%R).
  { assert (r * (8 * h) <= 1 * (8 * h))%R by (apply Rmult_le_compat_r; lra). lra. }
  split; [|exact LE]. apply lt_IZR. rewrite IZR_pow2 by lia. apply Rmult_lt_reg_r with (bpow radix2 (- w)); [apply bpow_gt_0|].
  rewrite bp_split. replace (w + - w) with 0 by lia. cbn [bpow]. lra.
Qed.
(** or the operand is very close to one *)
Lemma no_wrap_near R' : (ra R' - 1 <= 13/5 * h)%R -> R' < 2 ^ w \/ (m < 1 + 6 * h)%R.
Proof.
  intros H. pose proof h_range as HH. pose proof sq_range as SR. pose proof sq_sq as SS.
  destruct (Rle_lt_dec (1 + 14/5 * h) sq) as [L|L].
  - left. apply lt_IZR. rewrite IZR_pow2 by lia. apply Rmult_lt_reg_r with (bpow radix2 (- w)); [apply bpow_gt_0|].
    rewrite bp_split. replace (w + - w) with 0 by lia. cbn [bpow].
    assert (E : ra R' = (IZR R' * bpow radix2 (- w) * sq)%R) by reflexivity.
    set (r := (IZR R' * bpow radix2 (- w))%R) in *. destruct (Rle_lt_dec 1 r); [nra|assumption].
  - right. rewrite <- SS. nra.
Qed.
End Gold.

(** ** the initial estimate *)
Definition tab_lo (i : Z) : Z * Z := if i <? 64 then (64 + i, 32) else (i, 64).
Definition tab_hi (i : Z) : Z * Z := if i <? 64 then (65 + i, 32) else (i + 1, 64).
Definition tab_check (i : nat) : bool :=
  match tab_get RSQRT_TAB (Z.of_nat i) with
  | Some t =>
    let '(a, b) := tab_lo (Z.of_nat i) in let '(c, d) := tab_hi (Z.of_nat i) in
    (65536 * 65536 * (255 * 255) * b <=? t * t * a * (256 * 256)) && (t * t * c * (256 * 256) <=? 65536 * 65536 * (257 * 257) * d) &&
    (0 <? t) && (t <=? 0xff02) && ((t =? 0xff02) || negb (i =? 64)%nat)
  | None => false
  end.
Lemma tab_all : forallb tab_check (seq 0 128) = true. Proof. vm_compute. reflexivity. Qed.
(** the interval of [m] that index [i] stands for *)
Definition in_slot (i : Z) (m : R) : Prop :=
  let '(a, b) := tab_lo i in let '(c, d) := tab_hi i in (IZR a / IZR b <= m < IZR c / IZR d)%R.
Lemma tab_ok i m : 0 <= i < 128 -> in_slot i m -> exists t, tab_get RSQRT_TAB i = Some t /\ 0 < t <= 0xff02 /\
  (Rabs (IZR t / 65536 * R_sqrt.sqrt m - 1) <= 1 / 256)%R /\ ((m < 65/64)%R -> i = 64 /\ t = 0xff02) /\ (1 <= m < 4)%R.
Proof.
  intros Hi HS. pose proof tab_all as TA. rewrite forallb_forall in TA.
  specialize (TA (Z.to_nat i)). unfold tab_check in TA. rewrite Z2Nat.id in TA by lia.
  assert (IN : In (Z.to_nat i) (seq 0 128)) by (apply in_seq; lia). specialize (TA IN). clear IN.
  destruct (tab_get RSQRT_TAB i) as [t|] eqn:ET; [|discriminate]. exists t. split; [reflexivity|].
  unfold in_slot in HS. destruct (tab_lo i) as [a b] eqn:EA. destruct (tab_hi i) as [c d] eqn:EC.
  rewrite !andb_true_iff, !Z.leb_le, Z.ltb_lt in TA. destruct TA as ((((A1 & A2) & A3) & A4) & A5).
  assert (AB : 0 < b /\ 0 < d /\ b <= a /\ c <= 4 * d /\ (a * 64 < 65 * b -> i = 64)).
  { unfold tab_lo in EA. unfold tab_hi in EC. clear - Hi EA EC. destruct (Z.ltb_spec i 64); apply pair_equal_spec in EA, EC; destruct EA as [<- <-], EC as [<- <-]; repeat split; lia. }
  destruct AB as (B0 & D0 & AB & CD & I64).
  assert (Rb : (0 < IZR b)%R) by now apply IZR_lt. assert (Rd : (0 < IZR d)%R) by now apply IZR_lt.
  destruct HS as [S1 S2]. assert (S1' : (IZR a <= m * IZR b)%R).
  { apply Rmult_le_reg_r with (/ IZR b)%R; [now apply Rinv_0_lt_compat|]. rewrite Rmult_assoc, Rinv_r, Rmult_1_r by lra. exact S1. }
  assert (S2' : (m * IZR d < IZR c)%R).
  { apply Rmult_lt_reg_r with (/ IZR d)%R; [now apply Rinv_0_lt_compat|]. rewrite Rmult_assoc, Rinv_r, Rmult_1_r by lra. exact S2. }
  apply IZR_le in AB, CD. rewrite mult_IZR in CD.
  assert (Hm : (1 <= m < 4)%R) by (split; nra).
  split; [lia|]. split; [|split; [|exact Hm]].
  2:{ intros L. assert (I : i = 64). { apply I64. apply lt_IZR. rewrite !mult_IZR. nra. } split; [exact I|].
      subst i. cbn in A5. rewrite orb_false_r in A5. now apply Z.eqb_eq in A5. }
  set (s := R_sqrt.sqrt m). assert (SS : (s * s = m)%R) by (apply sqrt_sqrt; lra). assert (S0 : (0 <= s)%R) by apply sqrt_pos.
  apply IZR_le in A1, A2. apply IZR_lt in A3. rewrite !mult_IZR in A1, A2.
  set (T := IZR t) in *. set (v := (T / 65536 * s)%R). assert (V0 : (0 <= v)%R) by (unfold v; apply Rmult_le_pos; lra).
  assert (VV : (v * v * (65536 * 65536) = T * T * m)%R) by (unfold v; rewrite <- SS; field).
  assert (TT : (0 < T * T)%R) by nra.
  assert (L : (255 * 255 <= v * v * (256 * 256))%R).
  { apply Rmult_le_reg_r with (65536 * 65536 * IZR b)%R; [nra|].
    replace (v * v * (256 * 256) * (65536 * 65536 * IZR b))%R with (T * T * (m * IZR b) * (256 * 256))%R
      by (transitivity (T * T * m * (IZR b * (256 * 256)))%R; [ring|rewrite <- VV; ring]).
    assert (T * T * IZR a <= T * T * (m * IZR b))%R by (apply Rmult_le_compat_l; lra). lra. }
  assert (U : (v * v * (256 * 256) <= 257 * 257)%R).
  { apply Rmult_le_reg_r with (65536 * 65536 * IZR d)%R; [nra|].
    replace (v * v * (256 * 256) * (65536 * 65536 * IZR d))%R with (T * T * (m * IZR d) * (256 * 256))%R
      by (transitivity (T * T * m * (IZR d * (256 * 256)))%R; [ring|rewrite <- VV; ring]).
    assert (T * T * (m * IZR d) <= T * T * IZR c)%R by (apply Rmult_le_compat_l; lra). lra. }
  clear - V0 L U. apply Rabs_le. split; nra.
Qed.

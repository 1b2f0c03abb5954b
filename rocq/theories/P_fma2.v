(** Proofs about the software fma: alignment. *)
From Coq Require Import ZArith Reals Lia Lra Bool.
From Flocq Require Import Core.
From Verif Require Import Base Spec SpecFun2 Format P_format Ieee P_ieee P_real P_key P_round P_round2 P_bits P_trait
  P_neg P_fmod P_remquo M_basic M_scalbn P_scalbn P_near M_fma P_fma.
Open Scope Z_scope.

Section Fma.
Variable F : fmt.
Notation w := (width F).
Hypothesis HC : fma_fmt F.
Let C1 : ew F <= mw F. Proof. apply HC. Qed.
Let C2 : w <= bias F. Proof. apply HC. Qed.
Let HW : w = mw F + ew F + 1. Proof. unfold width. lia. Qed.
Lemma fma_ew4 : 4 <= ew F.
Proof.
  pose proof (fmt_facts F). pose proof C1. pose proof C2. unfold bias, width in *. destruct (Z.eq_dec (ew F) 3) as [E|]; [|lia].
  rewrite E in *. change (2 ^ (3 - 1)) with 4 in *. lia.
Qed.
Let C3 : 4 <= ew F := fma_ew4.
Notation dbl := (dbl F).

(** ** alignment *)
Lemma bp_split a b : (bpow radix2 a * bpow radix2 b)%R = bpow radix2 (a + b).
Proof. now rewrite bpow_plus. Qed.

Lemma div_pow_pow P a b : 0 <= a -> 0 <= b -> P / 2 ^ a / 2 ^ b = P / 2 ^ (a + b).
Proof. intros. rewrite Z.div_div by (pose proof (pow2_pos a); pose proof (pow2_pos b); lia). now rewrite <- pow2_split. Qed.

(** the low [d] bits of a word, tested by shifting left *)
Lemma shl_low x d : 0 <= x -> 0 < d < w -> ((x * 2 ^ (w - d)) mod 2 ^ w =? 0) = (x mod 2 ^ d =? 0).
Proof.
  intros Hx Hd. assert (Pwd : 2 ^ w = 2 ^ (w - d) * 2 ^ d) by (rewrite <- pow2_split by lia; f_equal; lia).
  pose proof (pow2_pos d ltac:(lia)). pose proof (pow2_pos (w - d) ltac:(lia)).
  rewrite Pwd, (Z.mul_comm x), Z.mul_mod_distr_l by lia.
  destruct (Z.eqb_spec (x mod 2 ^ d) 0) as [E|E].
  - rewrite E, Z.mul_0_r. reflexivity.
  - apply Z.eqb_neq. intros C. apply Z.eq_mul_0 in C. lia.
Qed.

Definition lost (P D : Z) : Prop := 0 < D < w /\ P mod 2 ^ D <> 0 /\ (P / 2 ^ D) mod 2 ^ D = 0.

Lemma shifted_prod P D : 0 <= P -> 0 < D < w ->
  exists a b c rhi, ushl w (P / 2 ^ w) (w - D) = Some a /\ ushr w (P mod 2 ^ w) D = Some b /\
    ushl w (Z.lor a b) (w - D) = Some c /\ ushr w (P / 2 ^ w) D = Some rhi /\
    rhi = P / 2 ^ D / 2 ^ w /\ Z.lor a b = (P / 2 ^ D) mod 2 ^ w /\ (c =? 0) = ((P / 2 ^ D) mod 2 ^ D =? 0).
Proof.
  intros HP HD. pose proof (pow2_pos D ltac:(lia)) as PD. pose proof (pow2_pos (w - D) ltac:(lia)) as PWD.
  assert (Pw : 2 ^ w = 2 ^ (w - D) * 2 ^ D) by (rewrite <- pow2_split by lia; f_equal; lia).
  assert (PW : 0 < 2 ^ w) by (apply pow2_pos; lia).
  rewrite ushl_ok, !ushr_ok by lia. do 4 eexists. split; [reflexivity|]. split; [reflexivity|].
  rewrite ushl_ok by lia. split; [reflexivity|]. split; [reflexivity|].
  split; [rewrite !div_pow_pow by lia; f_equal; f_equal; lia|].
  assert (E : Z.lor ((P / 2 ^ w * 2 ^ (w - D)) mod 2 ^ w) (P mod 2 ^ w / 2 ^ D) = (P / 2 ^ D) mod 2 ^ w).
  { set (h := P / 2 ^ w). set (l := P mod 2 ^ w).
    assert (EP : P = h * 2 ^ w + l) by (unfold h, l; rewrite Z.mul_comm; apply Z.div_mod; lia).
    pose proof (Z.mod_pos_bound P (2 ^ w) PW) as Bl. fold l in Bl.
    assert (Ll : 0 <= l / 2 ^ D < 2 ^ (w - D)).
    { split; [apply Z.div_pos; lia|]. apply Z.div_lt_upper_bound; [lia|]. rewrite <- pow2_split by lia. now replace (D + (w - D)) with w by lia. }
    assert (M : (h * 2 ^ (w - D)) mod 2 ^ w = (h mod 2 ^ D) * 2 ^ (w - D)).
    { rewrite Pw. rewrite (Z.mul_comm h), Z.mul_mod_distr_l by lia. ring. }
    rewrite M, lor_disjoint by lia.
    assert (Q : P / 2 ^ D = h * 2 ^ (w - D) + l / 2 ^ D).
    { rewrite EP, Pw, Z.mul_assoc. now rewrite Z.div_add_l by lia. }
    rewrite Q. pose proof (Z.mod_pos_bound h (2 ^ D) PD) as Bh. pose proof (Z.div_mod h (2 ^ D) ltac:(lia)) as Dh.
    apply Z.mod_unique with (h / 2 ^ D).
    - left. rewrite Pw. pose proof (mul_bounds (h mod 2 ^ D) 0 (2 ^ D - 1 + 1) (2 ^ (w - D)) PWD ltac:(lia)).
      assert ((h mod 2 ^ D + 1) * 2 ^ (w - D) <= 2 ^ D * 2 ^ (w - D)) by (apply Z.mul_le_mono_nonneg_r; lia). lia.
    - rewrite Pw. rewrite Dh at 1. ring. }
  split; [exact E|]. rewrite E. rewrite shl_low; [|apply Z.mod_pos_bound; lia|lia].
  f_equal. rewrite Pw. rewrite Z.mul_comm. symmetry. pose proof (Znumtheory.Zmod_div_mod (2 ^ D) (2 ^ D * 2 ^ (w - D)) (P / 2 ^ D)) as G.
  apply G; try lia. exists (2 ^ (w - D)). ring.
Qed.

Lemma near_lost P D : 0 <= P -> 0 < D < w -> ~ lost P D ->
  near D (Z.lor (P / 2 ^ D) (ofb (negb ((P / 2 ^ D) mod 2 ^ D =? 0)))) (IZR P * bpow radix2 (- D)).
Proof.
  intros HP HD HL. pose proof (pow2_pos D ltac:(lia)) as PD. set (R0 := P / 2 ^ D).
  pose proof (Z.div_mod P (2 ^ D) ltac:(lia)) as E. pose proof (Z.mod_pos_bound P (2 ^ D) PD) as B. fold R0 in E.
  assert (U : (IZR (2 ^ D) * bpow radix2 (- D) = 1)%R).
  { rewrite IZR_pow2 by lia. rewrite <- bpow_plus. now replace (D + - D) with 0 by lia. }
  assert (PB : (0 < bpow radix2 (- D))%R) by apply bpow_gt_0.
  pose proof (Z.mod_pos_bound R0 (2 ^ D) PD) as BR. pose proof (Z.div_mod R0 (2 ^ D) ltac:(lia)) as ER.
  destruct (Z.eqb_spec (R0 mod 2 ^ D) 0) as [Z|Z]; cbn [negb ofb].
  - rewrite Z.lor_0_r. left.
    destruct (Z.eq_dec (P mod 2 ^ D) 0) as [Z'|Z']; [|exfalso; apply HL; repeat split; try lia; assumption].
    rewrite E, Z', Z.add_0_r, mult_IZR. transitivity (IZR R0 * (IZR (2 ^ D) * bpow radix2 (- D)))%R; [ring|]. rewrite U. ring.
  - right. set (k := R0 / 2 ^ D) in *. exists k. rewrite lor_1.
    assert (PD2 : 2 ^ D = 2 * 2 ^ (D - 1)) by (rewrite <- Z.pow_succ_r by lia; f_equal; lia).
    split.
    { destruct (Z.even R0) eqn:Ev; [|lia]. apply Z.even_spec in Ev as [j Ej].
      assert (R0 + 1 <> (k + 1) * 2 ^ D).
      { rewrite PD2. intros C. rewrite Ej in C. assert (1 = 2 * ((k + 1) * 2 ^ (D - 1) - j)) by lia. lia. }
      lia. }
    split.
    + apply (unit_lt_l (IZR (2 ^ D))); try assumption. rewrite <- mult_IZR. apply IZR_lt.
      assert (k * 2 ^ D * 2 ^ D < R0 * 2 ^ D) by (apply Z.mul_lt_mono_pos_r; lia). lia.
    + apply (unit_lt_r (IZR (2 ^ D))); try assumption. rewrite <- mult_IZR. apply IZR_lt.
      assert ((R0 + 1) * 2 ^ D <= (k + 1) * 2 ^ D * 2 ^ D) by (apply Z.mul_le_mono_nonneg_r; lia). lia.
Qed.

Lemma dbl_div_mod R : dbl (R / 2 ^ w) (R mod 2 ^ w) = R.
Proof. pose proof (fmt_facts F). unfold dbl. rewrite Z.mul_comm. symmetry. apply Z.div_mod. pose proof (pow2_pos w). lia. Qed.
Lemma lor_ofb_range a s n : 1 <= n -> 0 <= a < 2 ^ n -> 0 <= Z.lor a (ofb s) < 2 ^ n.
Proof.
  intros Hn Ha. destruct s; cbn [ofb]; [|now rewrite Z.lor_0_r]. rewrite lor_1. destruct (Z.even a) eqn:E; [|lia].
  apply Z.even_spec in E as [j Ej]. assert (2 ^ n = 2 * 2 ^ (n - 1)) by (rewrite <- Z.pow_succ_r by lia; f_equal; lia). lia.
Qed.
Lemma dbl_lor R s : 0 <= R -> dbl (R / 2 ^ w) (Z.lor (R mod 2 ^ w) (ofb s)) = Z.lor R (ofb s).
Proof.
  intros HR. pose proof (fmt_facts F) as HF. assert (PW : 0 < 2 ^ w) by (apply pow2_pos; lia).
  pose proof (Z.mod_pos_bound R (2 ^ w) PW) as B.
  unfold dbl. rewrite <- lor_disjoint; [|lia|apply lor_ofb_range; lia].
  rewrite Z.lor_assoc. rewrite lor_disjoint by lia. f_equal. apply (dbl_div_mod R).
Qed.
Lemma le_div_pow P D n : 0 <= D -> P < 2 ^ n -> 0 <= n -> P / 2 ^ D < 2 ^ n \/ P < 0.
Proof.
  intros HD HP Hn. destruct (Z.lt_ge_cases P 0); [now right|left]. pose proof (pow2_pos D HD).
  apply Z.le_lt_trans with P; [|assumption]. apply Z.div_le_upper_bound; [lia|]. nia.
Qed.
Lemma even_mul4 m : (exists c, m = c * 2 ^ 1) -> forall n, exists c, m * n = c * 2 ^ 1.
Proof. intros (c & ->) n. exists (c * n). ring. Qed.

Lemma fma_align_ok P nzm nze e0 : 2 ^ (2 * mw F + 2) <= P < 2 ^ (2 * mw F + 4) -> (exists c, P = c * 2 ^ 1) ->
  2 ^ (mw F + 1) <= nzm < 2 ^ (mw F + 2) -> - 2 ^ 18 <= e0 <= 2 ^ 18 -> - 2 ^ 18 <= nze <= 2 ^ 18 ->
  ~ lost P (nze - e0 - w) ->
  exists zhi zlo rhi rlo e' g rr zz,
    fma_align F nzm nze (P / 2 ^ w) (P mod 2 ^ w) e0 = Some (zhi, zlo, rhi, rlo, e') /\
    0 <= zlo < 2 ^ w /\ 0 <= rlo < 2 ^ w /\ 0 <= zhi < 2 ^ (w - 3) /\ 0 <= rhi < 2 ^ (w - 3) /\ - 2 ^ 19 <= e' <= 2 ^ 19 /\
    (IZR P * bpow radix2 e0 = rr * bpow radix2 e')%R /\ (IZR nzm * bpow radix2 nze = zz * bpow radix2 e')%R /\ 1 <= g <= w - 1 /\
    ((rr = IZR (dbl rhi rlo) /\ zz = IZR (dbl zhi zlo) /\ (2 ^ w <= dbl rhi rlo \/ 2 ^ w <= dbl zhi zlo)) \/
     (g = 1 /\ near 1 (dbl zhi zlo) zz /\ rr = IZR (dbl rhi rlo) /\ (exists c, dbl rhi rlo = c * 2 ^ 1) /\
        2 ^ (2 * mw F + 2) <= dbl rhi rlo /\ dbl zhi zlo <= 2 ^ (mw F + 2)) \/
     (near g (dbl rhi rlo) rr /\ zz = IZR (dbl zhi zlo) /\ dbl zhi zlo = nzm * 2 ^ w /\ dbl rhi rlo <= 2 ^ (2 * mw F + 3))).
Proof.
  intros HP Hev Hz He0 Hze HL. pose proof (fmt_facts F) as HF.
  assert (PW : 0 < 2 ^ w) by (apply pow2_pos; lia).
  assert (P4 : 2 ^ (mw F + 2) <= 2 ^ (w - 3)) by (apply Z.pow_le_mono_r; lia).
  assert (P5 : 2 ^ (w - 3) < 2 ^ w) by (apply Z.pow_lt_mono_r; lia).
  assert (P6 : 0 < 2 ^ (mw F + 1)) by (apply pow2_pos; lia).
  assert (P7 : 2 ^ w <= 2 ^ (2 * mw F + 2)) by (apply Z.pow_le_mono_r; lia).
  assert (P8 : 2 ^ (2 * mw F + 4) <= 2 ^ (w - 3) * 2 ^ w) by (rewrite <- pow2_split by lia; apply Z.pow_le_mono_r; lia).
  assert (Bh : 0 <= P / 2 ^ w < 2 ^ (w - 3)).
  { split; [apply Z.div_pos; lia|apply Z.div_lt_upper_bound; lia]. }
  pose proof (Z.mod_pos_bound P (2 ^ w) PW) as Bl.
  unfold fma_align. change (BITS F) with w. rewrite to_i32_small by lia.
  unfold ssub, sneg. rewrite (chk_ok 32 (nze - e0)) by lia. cbn [bind].
  destruct (Z.ltb_spec 0 (nze - e0)) as [L|L].
  - destruct (Z.ltb_spec (nze - e0) w) as [L2|L2].
    + (* z shifted left *)
      remember (nze - e0) as d eqn:Ed. pose proof (pow2_pos d ltac:(lia)) as Pd. pose proof (pow2_pos (w - d) ltac:(lia)) as Pwd'.
      assert (Pwd : 2 ^ w = 2 ^ (w - d) * 2 ^ d) by (rewrite <- pow2_split by lia; f_equal; lia).
      rewrite ushl_ok, ushr_ok by lia. cbn [bind].
      assert (Ez : nzm / 2 ^ (w - d) = (nzm * 2 ^ d) / 2 ^ w).
      { rewrite Pwd. now rewrite Z.div_mul_cancel_r by lia. }
      rewrite Ez. do 8 eexists. split; [reflexivity|].
      split; [apply Z.mod_pos_bound; lia|]. split; [exact Bl|].
      split. { rewrite <- Ez. split; [apply Z.div_pos; lia|]. apply Z.le_lt_trans with nzm; [|lia]. apply Z.div_le_upper_bound; [lia|].
        apply Z.le_trans with (1 * nzm); [lia|]. apply Z.mul_le_mono_nonneg_r; lia. }
      split; [exact Bh|]. split; [lia|]. rewrite !dbl_div_mod.
      split; [reflexivity|]. split; [|split; [|left; split; [reflexivity|split; [reflexivity|left; lia]]]].
      { rewrite mult_IZR, IZR_pow2 by lia. rewrite Rmult_assoc, bp_split. do 2 f_equal. lia. }
      instantiate (1 := 1). lia.
    + rewrite (chk_ok 32 (nze - e0 - w)), (chk_ok 32 (nze - w)) by lia. cbn [bind]. remember (nze - e0 - w) as D eqn:ED.
      assert (EZ : (IZR nzm * bpow radix2 nze = IZR (dbl nzm 0) * bpow radix2 (nze - w))%R).
      { unfold dbl. rewrite Z.add_0_r, mult_IZR, IZR_pow2 by lia. rewrite Rmult_assoc, bp_split. do 2 f_equal. lia. }
      destruct (Z.eqb_spec D 0) as [D0|D0].
      { exists nzm, 0, (P / 2 ^ w), (P mod 2 ^ w), (nze - w), 1, (IZR P), (IZR (dbl nzm 0)).
        split; [reflexivity|]. split; [lia|]. split; [exact Bl|]. split; [lia|]. split; [exact Bh|]. split; [lia|].
        split; [do 2 f_equal; lia|]. split; [exact EZ|]. split; [lia|]. left. rewrite dbl_div_mod. split; [reflexivity|split; [reflexivity|left; lia]]. }
      assert (ER : (IZR P * bpow radix2 e0 = (IZR P * bpow radix2 (- D)) * bpow radix2 (nze - w))%R).
      { rewrite Rmult_assoc, bp_split. do 2 f_equal. lia. }
      destruct (Z.ltb_spec D w) as [L3|L3].
      * destruct (shifted_prod P D ltac:(lia) ltac:(lia)) as (a & b & c & rhi & -> & -> & E3 & -> & -> & E4 & E5).
        cbn [bind]. rewrite E3. cbn [bind]. rewrite E4, E5.
        set (R0 := P / 2 ^ D). assert (HR0 : 0 <= R0) by (apply Z.div_pos; [lia|apply pow2_pos; lia]).
        assert (UR : R0 < 2 ^ (2 * mw F + 3)).
        { apply Z.div_lt_upper_bound; [apply pow2_pos; lia|]. rewrite <- pow2_split by lia.
          apply Z.lt_le_trans with (1 := proj2 HP). apply Z.pow_le_mono_r; lia. }
        exists nzm, 0, (R0 / 2 ^ w), (Z.lor (R0 mod 2 ^ w) (ofb (negb (R0 mod 2 ^ D =? 0)))), (nze - w), D,
          (IZR P * bpow radix2 (- D))%R, (IZR (dbl nzm 0)).
        split; [reflexivity|]. split; [lia|]. split; [apply lor_ofb_range; [lia|apply Z.mod_pos_bound; lia]|]. split; [lia|].
        split.
        { split; [apply Z.div_pos; lia|]. apply Z.div_lt_upper_bound; [lia|]. rewrite Z.mul_comm.
          apply Z.lt_le_trans with (2 := P8). apply Z.lt_le_trans with (1 := UR). apply Z.pow_le_mono_r; lia. }
        split; [lia|]. split; [exact ER|]. split; [exact EZ|]. split; [lia|]. right. right.
        rewrite dbl_lor by assumption. split; [apply near_lost; [lia|lia|exact HL]|].
        split; [reflexivity|]. split; [unfold dbl; lia|].
        pose proof (lor_ofb_range R0 (negb (R0 mod 2 ^ D =? 0)) (2 * mw F + 3) ltac:(lia) ltac:(lia)). lia.
      * exists nzm, 0, 0, 1, (nze - w), (mw F - ew F + 3), (IZR P * bpow radix2 (- D))%R, (IZR (dbl nzm 0)).
        split; [reflexivity|]. split; [lia|]. split; [lia|]. split; [lia|]. split; [lia|]. split; [lia|]. split; [exact ER|]. split; [exact EZ|].
        split; [lia|]. right. right. split; [|split; [reflexivity|split; [unfold dbl; lia|]]].
        2:{ unfold dbl. pose proof (pow2_pos (2 * mw F + 3) ltac:(lia)). lia. }
        right. exists 0. unfold dbl. rewrite Z.mul_0_l, Z.add_0_l, Z.mul_1_l.
        split; [split; [lia|change 1 with (2 ^ 0); apply Z.pow_lt_mono_r; lia]|].
        pose proof (bpow_gt_0 radix2 (- D)) as BP. split.
        { cbn [Z.mul]. apply Rmult_lt_0_compat; [apply IZR_lt; lia|assumption]. }
        { rewrite IZR_pow2 by lia. replace (mw F - ew F + 3) with (2 * mw F + 4 - w) by lia.
          apply Rlt_le_trans with (IZR (2 ^ (2 * mw F + 4)) * bpow radix2 (- D))%R; [apply Rmult_lt_compat_r; [assumption|apply IZR_lt; lia]|].
          rewrite IZR_pow2 by lia. rewrite bp_split. apply bpow_le. lia. }
  - rewrite (chk_ok 32 (- (nze - e0))) by lia. cbn [bind]. remember (- (nze - e0)) as d eqn:Ed.
    assert (ER : (IZR P * bpow radix2 e0 = IZR (dbl (P / 2 ^ w) (P mod 2 ^ w)) * bpow radix2 e0)%R) by now rewrite dbl_div_mod.
    assert (EZ : (IZR nzm * bpow radix2 nze = (IZR nzm * bpow radix2 (- d)) * bpow radix2 e0)%R).
    { rewrite Rmult_assoc, bp_split. do 2 f_equal. lia. }
    destruct (Z.eqb_spec d 0) as [D0|D0].
    { exists 0, nzm, (P / 2 ^ w), (P mod 2 ^ w), e0, 1, (IZR (dbl (P / 2 ^ w) (P mod 2 ^ w))), (IZR nzm).
      split; [reflexivity|]. split; [lia|]. split; [exact Bl|]. split; [lia|]. split; [exact Bh|]. split; [lia|].
      split; [exact ER|]. split; [do 2 f_equal; lia|]. split; [lia|]. left. rewrite dbl_div_mod. split; [reflexivity|split; [|left; lia]].
      unfold dbl. now rewrite Z.mul_0_l. }
    destruct (Z.ltb_spec d w) as [L3|L3].
    + rewrite ushl_ok, ushr_ok by lia. cbn [bind]. rewrite shl_low by lia.
      assert (ES : Z.lor (nzm / 2 ^ d) (ofb (negb (nzm mod 2 ^ d =? 0))) = sticky_shr nzm d).
      { unfold sticky_shr. now destruct (nzm mod 2 ^ d =? 0). }
      pose proof (pow2_pos d ltac:(lia)) as Pd.
      assert (RS : 0 <= sticky_shr nzm d < 2 ^ (mw F + 2)).
      { rewrite <- ES. apply lor_ofb_range; [lia|]. split; [apply Z.div_pos; lia|]. destruct (le_div_pow nzm d (mw F + 2)); lia. }
      rewrite ES. exists 0, (sticky_shr nzm d), (P / 2 ^ w), (P mod 2 ^ w), e0, 1, (IZR (dbl (P / 2 ^ w) (P mod 2 ^ w))), (IZR nzm * bpow radix2 (- d))%R.
      split; [reflexivity|]. split; [lia|]. split; [exact Bl|]. split; [lia|]. split; [exact Bh|]. split; [lia|].
      split; [exact ER|]. split; [exact EZ|]. split; [lia|]. right. left. split; [reflexivity|]. rewrite dbl_div_mod.
      split; [|split; [reflexivity|split; [exact Hev|split; [lia|unfold dbl; lia]]]].
      unfold dbl. rewrite Z.mul_0_l, Z.add_0_l.
      pose proof (near_shr 0 nzm (IZR nzm) d ltac:(lia) ltac:(lia) (near_refl 0 nzm)) as G.
      now replace (Z.max 1 (0 - d)) with 1 in G by lia.
    + exists 0, 1, (P / 2 ^ w), (P mod 2 ^ w), e0, 1, (IZR (dbl (P / 2 ^ w) (P mod 2 ^ w))), (IZR nzm * bpow radix2 (- d))%R.
      split; [reflexivity|]. split; [lia|]. split; [exact Bl|]. split; [lia|]. split; [exact Bh|]. split; [lia|].
      split; [exact ER|]. split; [exact EZ|]. split; [lia|]. right. left. split; [reflexivity|]. rewrite dbl_div_mod.
      split; [|split; [reflexivity|split; [exact Hev|split; [lia|unfold dbl; lia]]]].
      unfold dbl. rewrite Z.mul_0_l, Z.add_0_l. right. exists 0. split; [lia|].
      pose proof (bpow_gt_0 radix2 (- d)) as BP. split.
      { cbn [Z.mul]. apply Rmult_lt_0_compat; [apply IZR_lt; lia|assumption]. }
      apply Rlt_trans with (IZR (2 ^ (mw F + 2)) * bpow radix2 (- d))%R; [apply Rmult_lt_compat_r; [assumption|apply IZR_lt; lia]|].
      rewrite IZR_pow2 by lia. rewrite bp_split. replace (IZR ((0 + 1) * 2 ^ 1)) with (bpow radix2 1) by reflexivity. apply bpow_lt. lia.
Qed.

(** ** the signed sum *)
Lemma near_sgz g A S s : near g A S -> near g (sgz s A) (sval s S).
Proof. destruct s; [apply near_opp|exact (fun H => H)]. Qed.
Lemma sgz_sgz s A : sgz s (sgz s A) = A.
Proof. destruct s; cbn [sgz]; lia. Qed.
Lemma sval_sval s r : sval s (sval s r) = r.
Proof. destruct s; cbn [sval]; ring. Qed.
Lemma sval_scale s r b : sval s (r * b) = (sval s r * b)%R.
Proof. destruct s; cbn [sval]; ring. Qed.
Lemma mult_sgz g A s : (exists c, A = c * 2 ^ g) -> exists c, sgz s A = c * 2 ^ g.
Proof. intros (c & ->). destruct s; [exists (- c)|exists c]; cbn [sgz]; ring. Qed.
Lemma dbl_lt hi lo n : 0 <= lo < 2 ^ w -> 0 <= hi < n -> 0 <= dbl hi lo < n * 2 ^ w.
Proof.
  intros Hl Hh. unfold P_fma.dbl. assert (0 <= hi * 2 ^ w) by (apply Z.mul_nonneg_nonneg; lia).
  assert ((hi + 1) * 2 ^ w <= n * 2 ^ w) by (apply Z.mul_le_mono_nonneg_r; lia). lia.
Qed.
Lemma dbl_hi_pos hi lo : 0 <= lo < 2 ^ w -> 0 <= hi -> 2 ^ w <= dbl hi lo -> 0 < hi.
Proof. intros Hl Hh H. destruct (Z.eq_dec hi 0) as [->|]; [|lia]. unfold P_fma.dbl in H. lia. Qed.
Lemma dbl_hi_lt hi lo n : 0 <= lo < 2 ^ w -> dbl hi lo < n * 2 ^ w -> hi < n.
Proof. intros Hl H. unfold P_fma.dbl in H. assert (0 < 2 ^ w) by lia. apply (Z.mul_lt_mono_pos_r (2 ^ w)); lia. Qed.

Lemma fma_sum_ok P nzm nze e0 neg nzneg : 2 ^ (2 * mw F + 2) <= P < 2 ^ (2 * mw F + 4) -> (exists c, P = c * 2 ^ 1) ->
  2 ^ (mw F + 1) <= nzm < 2 ^ (mw F + 2) -> - 2 ^ 18 <= e0 <= 2 ^ 18 -> - 2 ^ 18 <= nze <= 2 ^ 18 ->
  ~ lost P (nze - e0 - w) ->
  let V := (sval neg (IZR P * bpow radix2 e0) + sval nzneg (IZR nzm * bpow radix2 nze))%R in
  exists zhi zlo rhi rlo e' rhi' rlo' neg' fl,
    fma_align F nzm nze (P / 2 ^ w) (P mod 2 ^ w) e0 = Some (zhi, zlo, rhi, rlo, e') /\
    fma_add F zhi zlo rhi rlo neg nzneg = Some (rhi', rlo', neg', fl) /\
    ((V = 0%R /\ fma_shift F rhi' rlo' e' fl = Some None) \/
     exists I e g S, fma_shift F rhi' rlo' e' fl = Some (Some (I, e)) /\ 2 ^ (w - 2) <= I < 2 ^ (w - 1) /\
       1 <= g <= ew F - 2 /\ near g I S /\ (0 < S)%R /\ V = sval neg' (S * bpow radix2 e) /\ - 2 ^ 20 <= e <= 2 ^ 20).
Proof.
  intros HP Hev Hz He0 Hze HL V. pose proof (fmt_facts F) as HF.
  destruct (fma_align_ok P nzm nze e0 HP Hev Hz He0 Hze HL)
    as (zhi & zlo & rhi & rlo & e' & g & rr & zz & EA & B1 & B2 & B3 & B4 & Be & ER & EZ & Hg & HCases).
  assert (P3 : 2 ^ (w - 2) = 2 * 2 ^ (w - 3)) by (rewrite <- Z.pow_succ_r by lia; f_equal; lia).
  assert (PW : 0 < 2 ^ w) by (apply pow2_pos; lia).
  assert (P30 : 0 < 2 ^ (w - 3)) by (apply pow2_pos; lia).
  destruct (fma_add_ok F HC zhi zlo rhi rlo neg nzneg B1 B2 ltac:(lia) ltac:(lia)) as (rhi' & rlo' & neg' & EF & B5 & B6 & ET).
  pose proof (dbl_lt zhi zlo _ B1 B3) as DZ. pose proof (dbl_lt rhi rlo _ B2 B4) as DR.
  pose proof (dbl_lt rhi' rlo' _ B5 B6) as DT.
  set (Rv := dbl rhi rlo) in *. set (Zv := dbl zhi zlo) in *. set (T := dbl rhi' rlo') in *.
  assert (AT : T = Rv + Zv /\ neg = nzneg \/ (T = Rv - Zv \/ T = Zv - Rv) /\ neg = negb nzneg).
  { clear - ET DZ DR DT. destruct neg, nzneg, neg'; cbn [sgz negb] in *; (left; split; [lia|reflexivity]) || (right; split; [lia|reflexivity]). }
  assert (UT : T < 2 ^ (w - 2) * 2 ^ w) by (rewrite P3; clear - AT DZ DR DT; lia).
  set (S := sval neg' (sval neg rr + sval nzneg zz)).
  assert (EV : V = sval neg' (S * bpow radix2 e')).
  { unfold V, S. rewrite ER, EZ, !sval_scale, sval_sval. ring. }
  assert (ET' : T = sgz neg' (sgz neg Rv + sgz nzneg Zv)) by (now rewrite <- ET, sgz_sgz).
  assert (NT : near g T S).
  { rewrite ET'. unfold S. apply near_sgz. destruct HCases as [(-> & -> & _)|[(-> & N & -> & E & _)|(N & -> & E & _)]].
    - left. rewrite plus_IZR. destruct neg, nzneg; cbn [sgz sval]; rewrite ?opp_IZR; reflexivity.
    - rewrite sval_IZR, Z.add_comm, Rplus_comm. apply near_add; [now apply mult_sgz|now apply near_sgz].
    - rewrite (sval_IZR nzneg). apply near_add; [apply mult_sgz|now apply near_sgz].
      rewrite E. exists (nzm * 2 ^ (w - g)). rewrite <- Z.mul_assoc, <- pow2_split by lia. do 2 f_equal. lia. }
  assert (Q : S = IZR T \/ (g = 1 /\ 2 ^ w <= T) \/ 2 ^ (w + mw F) <= T).
  { destruct HCases as [(-> & -> & _)|[(-> & N & -> & E & U1 & U2)|(N & -> & E & U)]].
    - left. rewrite ET'. unfold S. destruct neg', neg, nzneg; cbn [sgz sval]; rewrite ?opp_IZR, ?plus_IZR, ?opp_IZR; reflexivity.
    - right. left. split; [reflexivity|]. clear - AT U1 U2 DZ DT HF HW C1.
      assert (2 ^ (2 * mw F + 2) = 2 * 2 ^ (2 * mw F + 1)) by (rewrite <- Z.pow_succ_r by lia; f_equal; lia).
      assert (2 ^ (mw F + 2) <= 2 ^ (2 * mw F + 1)) by (apply Z.pow_le_mono_r; lia).
      assert (2 ^ w <= 2 ^ (2 * mw F + 1)) by (apply Z.pow_le_mono_r; lia).
      lia.
    - right. right. assert (2 ^ (w + mw F) * 2 <= Zv).
      { rewrite E. apply Z.le_trans with (2 ^ (mw F + 1) * 2 ^ w); [|apply Z.mul_le_mono_nonneg_r; lia].
        rewrite <- pow2_split by lia. change 2 with (2 ^ 1) at 2. rewrite <- pow2_split by lia. apply Z.pow_le_mono_r; lia. }
      assert (2 ^ (2 * mw F + 3) <= 2 ^ (w + mw F)) by (apply Z.pow_le_mono_r; lia). lia. }
  assert (Same : neg = nzneg -> 2 ^ w <= T).
  { intros ES. assert (T = Rv + Zv) by (destruct AT as [A|A]; [lia|exfalso; subst nzneg; now destruct neg]).
    assert (2 ^ w <= 2 ^ (w + mw F)) by (apply Z.pow_le_mono_r; lia).
    destruct HCases as [(_ & _ & [U|U])|[(_ & _ & _ & _ & U & _)|(_ & _ & U & _)]]; [lia|lia| |].
    - assert (2 ^ w <= 2 ^ (2 * mw F + 2)) by (apply Z.pow_le_mono_r; lia). lia.
    - assert (1 * 2 ^ w <= nzm * 2 ^ w) by (apply Z.mul_le_mono_nonneg_r; [lia|]; pose proof (pow2_pos (mw F + 1)); lia). lia. }
  clear HCases AT ET ET' DZ DR ER EZ HP Hz Hev HL.
  exists zhi, zlo, rhi, rlo, e', rhi', rlo', neg'. eexists. split; [exact EA|]. split; [exact EF|].
  destruct (Z.eq_dec T 0) as [T0|T0].
  - left. assert (W2 : 0 < 2 ^ w <= 2 ^ (w + mw F)) by (split; [lia|apply Z.pow_le_mono_r; lia]).
    assert (ES : S = 0%R) by (destruct Q as [Q|[Q|Q]]; [rewrite Q, T0; reflexivity|clear - Q T0 W2; lia|clear - Q T0 W2; lia]).
    split; [rewrite EV, ES, Rmult_0_l; now destruct neg'; cbn [sval]; rewrite ?Ropp_0|].
    assert (rhi' = 0 /\ rlo' = 0) as [-> ->].
    { clear - T0 B5 B6 PW. unfold T, P_fma.dbl in T0. assert (0 <= rhi' * 2 ^ w) by (apply Z.mul_nonneg_nonneg; lia). split; [|lia].
      assert (rhi' * 2 ^ w = 0) by lia. apply Z.eq_mul_0 in H0. lia. }
    destruct (Bool.eqb neg nzneg) eqn:Eb; [apply eqb_prop in Eb; specialize (Same Eb); clear - Same T0 PW; lia|]. reflexivity.
  - right. destruct (fma_shift_ok F HC rhi' rlo' e' (Bool.eqb neg nzneg || negb (rhi' =? 0)) g S) as (I & k & g' & E1 & E2 & E3 & E4 & E5).
    + exact B5.
    + split; [lia|]. apply (dbl_hi_lt rhi' rlo'); [exact B5|exact UT].
    + lia.
    + intros Fl. apply orb_true_iff in Fl as [Fl|Fl].
      * apply eqb_prop in Fl. apply (dbl_hi_pos rhi' rlo'); [exact B5|lia|now apply Same].
      * apply negb_true_iff, Z.eqb_neq in Fl. lia.
    + intros Fl. apply orb_false_iff in Fl as [_ Fl]. now apply negb_false_iff, Z.eqb_eq in Fl.
    + fold T. lia.
    + exact NT.
    + exact Hg.
    + destruct Q as [Q|[[Q1 Q2]|Q]]; [now left|right; left; split; [assumption|]|now right; right].
      apply (dbl_hi_pos rhi' rlo'); [exact B5|lia|exact Q2].
    + clear Q Same. exists I, (e' + k), g', (S * bpow radix2 (- k))%R. split; [exact E1|]. split; [exact E2|]. split; [exact E3|]. split; [exact E4|].
      assert (SP : (0 < S * bpow radix2 (- k))%R).
      { destruct (near_le_iff g' I (S * bpow radix2 (- k)) (2 ^ (w - 2))) as (N1 & _); [|exact E4|lia|].
        - exists (2 ^ (w - 2 - g')). rewrite <- pow2_split by lia. f_equal. lia.
        - apply Rlt_le_trans with (2 := proj1 N1 ltac:(lia)). apply IZR_lt, pow2_pos. lia. }
      split; [exact SP|]. split; [|lia]. rewrite EV. f_equal. rewrite Rmult_assoc, bp_split. do 2 f_equal. lia.
Qed.
End Fma.

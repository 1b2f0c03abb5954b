(** Proofs about the software fma. *)
From Coq Require Import ZArith Reals Lia Lra Bool.
From Flocq Require Import Core.
From Verif Require Import Base Spec SpecFun2 Format P_format Ieee P_ieee P_real P_key P_round P_round2 P_bits P_trait
  P_neg P_fmod P_remquo M_basic M_scalbn P_scalbn P_near M_fma.
Open Scope Z_scope.

Section Fma.
Variable F : fmt.
Notation w := (width F).
(** what the algorithm needs from the format (f32, f64 and f128 satisfy it) *)
Definition fma_fmt : Prop := ew F <= mw F /\ w <= bias F /\ scalb_fmt F.
Hypothesis HC : fma_fmt.
Let C1 : ew F <= mw F. Proof. apply HC. Qed.
Let C2 : w <= bias F. Proof. apply HC. Qed.
Let HW : w = mw F + ew F + 1. Proof. unfold width. lia. Qed.

(** ** addition *)
Definition dbl (hi lo : Z) : Z := hi * 2 ^ w + lo.
Lemma pow_w4 : 2 ^ w = 4 * 2 ^ (w - 2).
Proof. pose proof (fmt_facts F). change 4 with (2 ^ 2). rewrite <- pow2_split by lia. f_equal. lia. Qed.
Lemma pow_w2 : 2 ^ w = 2 * 2 ^ (w - 1).
Proof. pose proof (fmt_facts F). rewrite <- Z.pow_succ_r by lia. f_equal. lia. Qed.

Lemma fma_add_ok zhi zlo rhi rlo neg nzneg :
  0 <= zlo < 2 ^ w -> 0 <= rlo < 2 ^ w -> 0 <= zhi < 2 ^ (w - 2) -> 0 <= rhi < 2 ^ (w - 2) ->
  exists rhi' rlo' neg',
    fma_add F zhi zlo rhi rlo neg nzneg = Some (rhi', rlo', neg', Bool.eqb neg nzneg || negb (rhi' =? 0)) /\
    0 <= rlo' < 2 ^ w /\ 0 <= rhi' < 2 ^ (w - 1) /\
    sgz neg' (dbl rhi' rlo') = sgz neg (dbl rhi rlo) + sgz nzneg (dbl zhi zlo).
Proof.
  intros Hzl Hrl Hzh Hrh. pose proof pow_w4 as P4. pose proof pow_w2 as P2. pose proof (fmt_facts F) as HF.
  assert (PP : 0 < 2 ^ (w - 2)) by (apply pow2_pos; lia).
  unfold fma_add. change (BITS F) with w. replace (xorb (negb neg) nzneg) with (Bool.eqb neg nzneg) by (destruct neg, nzneg; reflexivity).
  destruct (Bool.eqb neg nzneg) eqn:S.
  - (* same sign *)
    apply eqb_prop in S. subst nzneg. unfold wadd.
    set (c := ofb ((rlo + zlo) mod 2 ^ w <? zlo)).
    assert (C : rlo + zlo = c * 2 ^ w + (rlo + zlo) mod 2 ^ w /\ 0 <= c <= 1).
    { unfold c. destruct (Z.lt_ge_cases (rlo + zlo) (2 ^ w)) as [L|L].
      - rewrite Z.mod_small by lia. rewrite (proj2 (Z.ltb_ge _ _)) by lia. cbn [ofb]. lia.
      - replace ((rlo + zlo) mod 2 ^ w) with (rlo + zlo - 2 ^ w).
        + rewrite (proj2 (Z.ltb_lt _ _)) by lia. cbn [ofb]. lia.
        + apply Z.mod_unique with 1; lia. }
    pose proof (Z.mod_pos_bound (rlo + zlo) (2 ^ w) ltac:(lia)) as M. set (lo := (rlo + zlo) mod 2 ^ w) in *.
    rewrite uadd_ok by lia. cbn [bind]. rewrite uadd_ok by lia. cbn [bind].
    exists (rhi + (zhi + c)), lo, neg. split; [reflexivity|]. split; [lia|]. split; [lia|].
    unfold sgz, dbl. destruct neg; nia.
  - assert (Sg : nzneg = negb neg) by (destruct neg, nzneg; try reflexivity; discriminate). subst nzneg.
    unfold wsub, wadd. set (c := ofb (rlo <? zlo)).
    assert (C : rlo - zlo = (rlo - zlo) mod 2 ^ w - c * 2 ^ w /\ 0 <= c <= 1).
    { unfold c. destruct (Z.ltb_spec rlo zlo) as [L|L]; cbn [ofb].
      - replace ((rlo - zlo) mod 2 ^ w) with (rlo - zlo + 2 ^ w); [lia|]. apply Z.mod_unique with (-1); lia.
      - rewrite Z.mod_small by lia. lia. }
    pose proof (Z.mod_pos_bound (rlo - zlo) (2 ^ w) ltac:(lia)) as M. set (lo := (rlo - zlo) mod 2 ^ w) in *. clearbody lo c.
    rewrite (Z.mod_small (zhi + c)) by lia. set (h := rhi - (zhi + c)) in *.
    rewrite ushr_ok by lia. cbn [bind].
    destruct (Z.lt_ge_cases h 0) as [L|L].
    + (* negative: negate *)
      replace (h mod 2 ^ w) with (h + 2 ^ w) by (apply Z.mod_unique with (-1); lia).
      replace ((h + 2 ^ w) / 2 ^ (w - 1)) with 1 by (apply Z.div_unique with (h + 2 ^ w - 2 ^ (w - 1)); lia).
      cbn [Z.eqb negb]. unfold wneg. replace ((- (h + 2 ^ w)) mod 2 ^ w) with (- h) by (apply Z.mod_unique with (-1); lia).
      set (lo' := (- lo) mod 2 ^ w).
      assert (L' : (lo = 0 /\ lo' = 0) \/ (0 < lo /\ lo' = 2 ^ w - lo)).
      { unfold lo'. destruct (Z.eq_dec lo 0) as [->|]; [left; split; [reflexivity|apply Z.mod_0_l; lia]|right].
        split; [lia|]. symmetry. apply Z.mod_unique with (-1); lia. }
      clearbody lo'. destruct L' as [[-> ->]|[L0 ->]].
      * cbn [Z.eqb negb ofb]. rewrite usub_ok by lia. cbn [bind]. rewrite Z.sub_0_r.
        exists (- h), 0, (negb neg). split; [reflexivity|]. split; [lia|]. split; [lia|].
        unfold sgz, dbl, h in *. destruct neg; cbn [negb]; nia.
      * rewrite (proj2 (Z.eqb_neq (2 ^ w - lo) 0)) by lia. cbn [negb ofb]. rewrite usub_ok by lia. cbn [bind].
        exists (- h - 1), (2 ^ w - lo), (negb neg). split; [reflexivity|]. split; [lia|]. split; [lia|].
        unfold sgz, dbl, h in *. destruct neg; cbn [negb]; nia.
    + rewrite (Z.mod_small h) by lia. rewrite (Z.div_small h) by lia. cbn [Z.eqb negb bind].
      exists h, lo, neg. split; [reflexivity|]. split; [lia|]. split; [lia|].
      unfold sgz, dbl, h in *. destruct neg; cbn [negb]; nia.
Qed.

(** ** normalisation of the sum *)
Lemma sticky_zero a k : 0 <= k -> Z.lor a (ofb (negb (k =? 0))) = Z.lor a (if k =? 0 then 0 else 1).
Proof. intros _. now destruct (k =? 0). Qed.

Lemma sticky_shr_range A k n : 0 <= k -> 1 <= n -> 2 ^ (n + k) <= A < 2 ^ (n + k + 1) ->
  2 ^ n <= sticky_shr A k < 2 ^ (n + 1).
Proof.
  intros Hk Hn H. destruct (sticky_shr_cases A k Hk) as [C|C].
  all: pose proof (pow2_pos k Hk) as P; pose proof (Z.div_mod A (2 ^ k) ltac:(lia)) as D;
   pose proof (Z.mod_pos_bound A (2 ^ k) P) as B; set (q := A / 2 ^ k) in *.
  all: rewrite pow2_split in H by lia; replace (n + k + 1) with (n + 1 + k) in H by lia; rewrite (pow2_split (n + 1) k) in H by lia.
  all: assert (L1 : 2 ^ n <= q) by (apply Z.lt_succ_r; apply (Z.mul_lt_mono_pos_r (2 ^ k)); lia).
  all: assert (L2 : q < 2 ^ (n + 1)) by (apply (Z.mul_lt_mono_pos_r (2 ^ k)); lia).
  - lia.
  - destruct C as [_ ->]. destruct (Z.even q) eqn:E; [|lia].
    assert (E2 : 2 ^ (n + 1) = 2 * 2 ^ n) by (rewrite <- Z.pow_succ_r by lia; f_equal; lia).
    apply Z.even_spec in E as [j Ej]. lia.
Qed.

Lemma mul_bounds a lo hi c : 0 < c -> lo <= a < hi -> lo * c <= a * c < hi * c.
Proof. intros. nia. Qed.

Lemma fma_shift_ok rhi rlo e fl g S : 0 <= rlo < 2 ^ w -> 0 <= rhi < 2 ^ (w - 2) -> - 2 ^ 20 <= e <= 2 ^ 20 ->
  (fl = true -> 0 < rhi) -> (fl = false -> rhi = 0) -> 0 < dbl rhi rlo -> near g (dbl rhi rlo) S -> 1 <= g <= w - 1 ->
  (S = IZR (dbl rhi rlo) \/ (g = 1 /\ 0 < rhi) \/ 2 ^ (w + mw F) <= dbl rhi rlo) ->
  exists I k g', fma_shift F rhi rlo e fl = Some (Some (I, e + k)) /\ 2 ^ (w - 2) <= I < 2 ^ (w - 1) /\
    1 <= g' <= ew F - 2 /\ near g' I (S * bpow radix2 (- k)) /\ - w <= k <= w.
Proof.
  intros Hlo Hhi He Ft Ff T0 HN Hg Hcase. pose proof (fmt_facts F) as HF. pose proof pow_w4 as P4. pose proof pow_w2 as P2.
  assert (PP : 0 < 2 ^ (w - 2)) by (apply pow2_pos; lia).
  unfold fma_shift. change (BITS F) with w. rewrite to_i32_small by lia.
  destruct fl.
  - specialize (Ft eq_refl). unfold sadd. rewrite chk_ok by lia. cbn [bind].
    set (t := Z.log2 rhi). pose proof (log2_bounds rhi Ft) as LB. fold t in LB. pose proof (Z.log2_nonneg rhi) as T1. fold t in T1.
    assert (T2 : t < w - 2) by (apply (Z.pow_lt_mono_r_iff 2); lia).
    rewrite (lzcnt_spec w rhi t) by (try assumption; lia). rewrite to_i32_small by lia.
    set (d := w - 1 - t - 1). rewrite (ushl_ok w rhi) by lia. cbn [bind]. rewrite ushr_ok by lia. cbn [bind].
    rewrite (ushl_ok w rlo) by lia. cbn [bind]. unfold ssub. rewrite chk_ok by lia. cbn [bind].
    assert (Pd : 0 < 2 ^ d) by (apply pow2_pos; lia).
    assert (Pwd : 2 ^ w = 2 ^ d * 2 ^ (w - d)) by (rewrite <- pow2_split by lia; f_equal; lia).
    assert (Pt : 2 ^ (w - 1) = 2 ^ (t + 1) * 2 ^ d) by (rewrite <- pow2_split by lia; f_equal; unfold d; lia).
    assert (Pt0 : 2 ^ (w - 2) = 2 ^ t * 2 ^ d) by (rewrite <- pow2_split by lia; f_equal; unfold d; lia).
    set (k := w - d). assert (Pk : 0 < 2 ^ k) by (apply pow2_pos; unfold k, d; lia).
    pose proof (mul_bounds rhi _ _ (2 ^ d) Pd LB) as MB.
    assert (E1 : (rhi * 2 ^ d) mod 2 ^ w = rhi * 2 ^ d) by (apply Z.mod_small; lia).
    assert (K1 : k = t + 2) by (unfold k, d; lia).
    assert (Q : dbl rhi rlo / 2 ^ k = rhi * 2 ^ d + rlo / 2 ^ k).
    { unfold dbl. rewrite Pwd. fold k. rewrite Z.mul_assoc. rewrite Z.div_add_l by lia. reflexivity. }
    assert (R : dbl rhi rlo mod 2 ^ k = rlo mod 2 ^ k).
    { unfold dbl. rewrite Pwd. fold k. rewrite Z.mul_assoc. rewrite Z.add_comm, Z.mod_add by lia. reflexivity. }
    assert (R2 : (rlo * 2 ^ d) mod 2 ^ w = 2 ^ d * (rlo mod 2 ^ k)).
    { rewrite Pwd. fold k. rewrite (Z.mul_comm rlo). apply Z.mul_mod_distr_l; lia. }
    assert (Llo : 0 <= rlo / 2 ^ k < 2 ^ d).
    { split; [apply Z.div_pos; lia|]. apply Z.div_lt_upper_bound; [lia|]. fold k in Pwd. lia. }
    assert (EI : Z.lor (Z.lor ((rhi * 2 ^ d) mod 2 ^ w) (rlo / 2 ^ k)) (ofb (negb ((rlo * 2 ^ d) mod 2 ^ w =? 0))) = sticky_shr (dbl rhi rlo) k).
    { unfold sticky_shr. rewrite Q, R, E1, R2. rewrite lor_disjoint by lia. f_equal.
      destruct (Z.eqb_spec (rlo mod 2 ^ k) 0) as [Z|Z].
      - now rewrite Z, Z.mul_0_r.
      - rewrite (proj2 (Z.eqb_neq _ _)); [reflexivity|]. intros C. apply Z.eq_mul_0 in C. lia. }
    fold k. rewrite EI. clear EI.
    assert (TR : 2 ^ (w - 2 + k) <= dbl rhi rlo < 2 ^ (w - 2 + k + 1)).
    { replace (w - 2 + k) with (t + w) by (unfold k, d; lia). replace (t + w + 1) with (t + 1 + w) by lia.
      rewrite (pow2_split t w), (pow2_split (t + 1) w) by lia. unfold dbl. pose proof (mul_bounds rhi (2 ^ t) (2 ^ (t + 1) - 1 + 1) (2 ^ w) ltac:(lia) ltac:(lia)) as MW.
      assert ((rhi + 1) * 2 ^ w <= 2 ^ (t + 1) * 2 ^ w) by (apply Z.mul_le_mono_nonneg_r; lia). lia. }
    set (T := dbl rhi rlo) in *. assert (Ek : k = w - d) by reflexivity.
    assert (Kb : 2 ^ (w + mw F) <= T -> mw F + 2 <= k).
    { intros L. clear - L TR K1 T1 HF HW. assert (w + mw F < w - 2 + k + 1) by (apply (Z.pow_lt_mono_r_iff 2); lia). lia. }
    clearbody k T. assert (K0 : 1 <= k <= w) by lia. clear Q R R2 Llo MB Pwd Pt Pt0 E1 LB Pd Pk.
    exists (sticky_shr T k), k, (Z.max 1 (if Z.eqb g 1 then 0 else match Z_le_gt_dec (2 ^ (w + mw F)) T with left _ => g - k | _ => 0 end)).
    split; [do 3 f_equal; clear - Ek; lia|].
    split. { pose proof (sticky_shr_range T k (w - 2) ltac:(clear - K0; lia) ltac:(clear - HF; unfold width; lia) TR) as G. replace (w - 2 + 1) with (w - 1) in G by (clear; lia). exact G. }
    split.
    { clear - Kb HF Hg HW. destruct (Z.eqb_spec g 1); [lia|]. destruct (Z_le_gt_dec _ _) as [L|L]; [specialize (Kb L)|]; clear - Kb HF Hg HW; lia. }
    split; [|clear - K0; lia].
    destruct (Z.eqb_spec g 1) as [G1|G1].
    + subst g. replace (Z.max 1 0) with (Z.max 1 (1 - k)) by (clear - K0; lia). apply near_shr; [clear - K0; lia|lia|assumption].
    + destruct (Z_le_gt_dec _ _) as [L|L].
      * apply near_shr; [clear - K0; lia|clear - Hg; lia|assumption].
      * destruct Hcase as [E|[[E _]|E]]; [|clear - G1 E; lia|clear - L E; lia]. replace (Z.max 1 0) with (Z.max 1 (0 - k)) by (clear - K0; lia).
        apply near_shr; [clear - K0; lia|reflexivity|now left].
  - specialize (Ff eq_refl). subst rhi. unfold dbl in *. rewrite Z.mul_0_l, Z.add_0_l in *.
    rewrite (proj2 (Z.eqb_neq rlo 0)) by lia. cbn [negb].
    assert (E : S = IZR rlo).
    { destruct Hcase as [E|[[_ E]|E]]; [exact E|lia|]. exfalso.
      assert (2 ^ w <= 2 ^ (w + mw F)) by (apply Z.pow_le_mono_r; lia). lia. }
    set (t := Z.log2 rlo). pose proof (log2_bounds rlo ltac:(lia)) as LB. fold t in LB. pose proof (Z.log2_nonneg rlo) as T1. fold t in T1.
    assert (T2 : t < w) by (apply (Z.pow_lt_mono_r_iff 2); lia).
    rewrite (lzcnt_spec w rlo t) by (try assumption; lia). rewrite to_i32_small by lia.
    destruct (Z.ltb_spec (w - 1 - t - 1) 0) as [L|L].
    + assert (Et : t = w - 1) by lia. rewrite ushr_ok by lia. cbn [bind]. unfold ssub. rewrite chk_ok by lia. cbn [bind].
      exists (sticky_shr rlo 1), 1, 1. split.
      { do 3 f_equal; [|lia]. unfold sticky_shr. change (2 ^ 1) with 2. f_equal. change 1 with (2 ^ 1 - 1) at 1. rewrite land_pow2m1 by lia.
        change (2 ^ 1) with 2. pose proof (Z.mod_pos_bound rlo 2 eq_refl). destruct (Z.eqb_spec (rlo mod 2) 0); lia. }
      split.
      { pose proof (sticky_shr_range rlo 1 (w - 2) ltac:(lia) ltac:(lia)) as G. replace (w - 2 + 1) with (w - 1) in G by lia.
        replace (w - 1 + 1) with w in G by lia. apply G. rewrite Et in LB. replace (w - 1 + 1) with w in LB by lia. exact LB. }
      split; [lia|]. split; [|lia]. change 1 with (Z.max 1 (1 - 1)) at 1. apply near_shr; [lia|lia|now left].
    + set (d := w - 1 - t - 1) in *.
      assert (Pt : 2 ^ (w - 1) = 2 ^ (t + 1) * 2 ^ d) by (rewrite <- pow2_split by lia; f_equal; unfold d; lia).
      assert (Pt0 : 2 ^ (w - 2) = 2 ^ t * 2 ^ d) by (rewrite <- pow2_split by lia; f_equal; unfold d; lia).
      assert (Pd : 0 < 2 ^ d) by (apply pow2_pos; lia).
      pose proof (mul_bounds rlo _ _ (2 ^ d) Pd LB) as MB.
      rewrite ushl_ok by lia. rewrite Z.mod_small by lia. cbn [bind]. unfold ssub. rewrite chk_ok by lia. cbn [bind].
      exists (rlo * 2 ^ d), (- d), 1. split; [do 3 f_equal; lia|]. split; [lia|]. split; [lia|]. split; [|lia].
      left. rewrite E, Z.opp_involutive, mult_IZR, IZR_pow2 by lia. reflexivity.
Qed.

End Fma.

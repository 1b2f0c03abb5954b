(** Proof that scalbn rounds once. *)
From Coq Require Import ZArith Reals Lia Lra Bool.
From Flocq Require Import Core.
From Verif Require Import Base Spec SpecFun SpecFun2 Format P_format Ieee P_ieee P_real P_round P_bits P_neg P_fmod P_remquo M_scalbn.
Open Scope Z_scope.

Definition pow2f (F : fmt) (e : Z) : Z := mkbits F false (bias F + e) 0.

Section S.
Variable F : fmt.
Definition Em : Z := 1 - bias F.

Lemma pow2f_parts e : 1 - bias F <= e <= bias F -> from_parts F false (bias F + e) 0 = Some (pow2f F e).
Proof.
  intros H. pose proof (bias_facts F). pose proof (pow_mw_ge F). apply from_parts_ok; lia.
Qed.
Lemma pow2f_ok e : 1 - bias F <= e <= bias F ->
  isbits F (pow2f F e) /\ finite F (pow2f F e) = true /\ val F (pow2f F e) = bpow radix2 e /\ signbit F (pow2f F e) = false.
Proof. exact (pow_float F e). Qed.
Lemma pow2f_nz e : 1 - bias F <= e <= bias F -> iszero F (pow2f F e) = false.
Proof.
  intros H. destruct (pow2f_ok e H) as (_ & _ & V & _). destruct (iszero F (pow2f F e)) eqn:E; [|reflexivity].
  apply iszero_val in E. pose proof (bpow_gt_0 radix2 e). lra.
Qed.

Lemma scale_finite x e : 1 - bias F <= e <= bias F -> finite F x = true ->
  rounds_to F (val F x * bpow radix2 e) (signbit F x) (fmul F x (pow2f F e)).
Proof.
  intros He Fx. destruct (pow2f_ok e He) as (A & B & C & D).
  pose proof (fmul_spec F x (pow2f F e) Fx B) as H. now rewrite C, D, xorb_false_r in H.
Qed.
Lemma scale_inf x e : 1 - bias F <= e <= bias F -> isbits F x -> isinf F x = true -> fmul F x (pow2f F e) = x.
Proof.
  intros He Bx Ix. destruct (pow2f_ok e He) as (A & B & C & D).
  rewrite fmul_inf_l; [|assumption|now apply finite_not_nan|now apply pow2f_nz].
  rewrite D, xorb_false_r. symmetry. now apply isinf_eq.
Qed.
Lemma scale_nan x e : isnan F x = true -> isnan F (fmul F x (pow2f F e)) = true.
Proof. intros H. apply fmul_nan. now rewrite H. Qed.

(** the sign of the rounded product *)
Lemma scale_sign x e sz : sz = signbit F x ->
  match Rcompare (val F x * bpow radix2 e) 0 with Lt => true | Gt => false | Eq => sz end = signbit F x.
Proof.
  intros ->. pose proof (bpow_gt_0 radix2 e). destruct (Rcompare_spec (val F x * bpow radix2 e) 0) as [C|C|C]; [| reflexivity |].
  - symmetry. apply val_neg_sign. nra.
  - symmetry. apply val_pos_sign. nra.
Qed.
Lemma scale_sign_lt x e : val F x <> 0%R -> Rlt_bool (val F x * bpow radix2 e) 0 = signbit F x.
Proof.
  intros N. pose proof (bpow_gt_0 radix2 e). destruct (signbit F x) eqn:S.
  - apply val_sign_nonpos in S. apply Rlt_bool_true. nra.
  - apply val_sign_nonneg in S. apply Rlt_bool_false. nra.
Qed.

(** half the least subnormal *)
Definition hmin : R := bpow radix2 (emin F - 1).
Lemma rnd_hmin r : (Rabs r <= hmin)%R -> rnd F r = 0%R.
Proof.
  intros H. assert (B : (hmin <= / 2 * bpow radix2 (emin F))%R).
  { unfold hmin. rewrite bpow_half. lra. }
  pose proof (bpow_gt_0 radix2 (emin F)) as P.
  rewrite rnd_scaled_sub.
  - set (w := (r * bpow radix2 (- emin F))%R).
    assert (W : (Rabs w <= / 2)%R).
    { unfold w. rewrite Rabs_mult, (Rabs_pos_eq (bpow _ _)) by apply bpow_ge_0.
      apply Rle_trans with (/ 2 * bpow radix2 (emin F) * bpow radix2 (- emin F))%R.
      - apply Rmult_le_compat_r; [apply bpow_ge_0|lra].
      - rewrite Rmult_assoc, <- bpow_plus, Z.add_opp_diag_r. cbn [bpow]. lra. }
    assert (E : ZnearestE w = 0).
    { destruct (Rlt_le_dec (Rabs w) (/ 2)) as [L|L]; [now apply Znearest_imp; rewrite Rminus_0_r|].
      assert (D : w = (/ 2)%R \/ w = (- / 2)%R) by (destruct (Rabs_eq_Rabs w (/2)) as [?|?]; [rewrite (Rabs_pos_eq (/2)); lra|tauto|tauto]).
      destruct D as [-> | ->].
      - unfold Znearest. replace (Zfloor (/ 2)) with 0 by (symmetry; apply Zfloor_imp; simpl; lra).
        rewrite Rcompare_Eq by (simpl; lra). reflexivity.
      - rewrite Znearest_opp. unfold Znearest. replace (Zfloor (/ 2)) with 0 by (symmetry; apply Zfloor_imp; simpl; lra).
        rewrite Rcompare_Eq by (simpl; lra). reflexivity. }
    rewrite E. ring.
  - eapply Rle_lt_trans; [exact H|]. unfold hmin. apply bpow_lt. pose proof (fmt_facts F). lia.
Qed.

(** State of the scaling towards zero: [x0 2^n0] is still [x 2^n], or both round to zero. *)
Definition inv (x0 n0 x n : Z) : Prop :=
  isbits F x /\ finite F x = true /\ signbit F x = signbit F x0 /\
  ((val F x * bpow radix2 n = val F x0 * bpow radix2 n0)%R \/
   ((Rabs (val F x * bpow radix2 n) <= hmin)%R /\ (Rabs (val F x0 * bpow radix2 n0) <= hmin)%R)).

Lemma scale_down x m : 1 - bias F <= m <= 0 -> finite F x = true ->
  isbits F (fmul F x (pow2f F m)) /\ finite F (fmul F x (pow2f F m)) = true /\
  val F (fmul F x (pow2f F m)) = rnd F (val F x * bpow radix2 m) /\ signbit F (fmul F x (pow2f F m)) = signbit F x.
Proof.
  intros Hm Fx. pose proof (bias_facts F) as HB.
  pose proof (scale_finite x m ltac:(lia) Fx) as H.
  destruct (rounds_to_bounded F _ _ _ (Rabs (val F x)) H) as (A & B & C & D).
  - apply generic_format_abs. now apply repr_val.
  - split; [|now apply val_lt_max].
    rewrite Rabs_mult, (Rabs_pos_eq (bpow _ _)) by apply bpow_ge_0.
    assert (bpow radix2 m <= 1)%R by (change 1%R with (bpow radix2 0); apply bpow_le; lia).
    pose proof (Rabs_pos (val F x)). nra.
  - split; [assumption|]. split; [assumption|]. split; [assumption|]. rewrite D. now apply scale_sign.
Qed.

Definition p : Z := mw F + 1.
Lemma repr_scale_any v m : repr F v -> (bpow radix2 (emin F + mw F) <= Rabs (v * bpow radix2 m))%R -> repr F (v * bpow radix2 m).
Proof.
  intros H L. destruct (repr_float F v H) as (n & e & -> & A & B). pose proof (fmt_facts F) as HF.
  rewrite Rmult_assoc, <- bpow_plus in *. destruct (Z.le_gt_cases (emin F) (e + m)) as [G|G]; [apply repr_int; lia|exfalso].
  rewrite Rabs_mult, (Rabs_pos_eq (bpow _ _)) in L by apply bpow_ge_0. rewrite <- abs_IZR in L.
  assert (L2 : (bpow radix2 (emin F + mw F) < bpow radix2 (mw F + 1) * bpow radix2 (e + m))%R).
  { eapply Rle_lt_trans; [exact L|]. apply Rmult_lt_compat_r; [apply bpow_gt_0|].
    rewrite <- IZR_pow2 by lia. now apply IZR_lt. }
  rewrite <- bpow_plus in L2. apply lt_bpow in L2. lia.
Qed.
Lemma inv_down x0 n0 x n m : 1 - bias F <= m <= 0 -> n - m <= - p -> inv x0 n0 x n ->
  inv x0 n0 (fmul F x (pow2f F m)) (n - m).
Proof.
  intros Hm Hn (Bx & Fx & Sx & H). pose proof (bias_facts F) as HB. pose proof (fmt_facts F) as HF.
  destruct (scale_down x m Hm Fx) as (A & B & C & D).
  split; [assumption|]. split; [assumption|]. split; [congruence|].
  set (e0 := emin F + mw F).
  assert (E0 : e0 = 1 - bias F) by (unfold e0, emin; lia).
  destruct (Rle_lt_dec (bpow radix2 e0) (Rabs (val F x * bpow radix2 m))) as [L|L].
  - (* the prescaling is exact *)
    assert (X : rnd F (val F x * bpow radix2 m) = (val F x * bpow radix2 m)%R).
    { apply repr_rnd. apply repr_scale_any; [now apply repr_val|exact L]. }
    rewrite C, X, Rmult_assoc, <- bpow_plus. replace (m + (n - m)) with n by lia. exact H.
  - right. assert (H1 : (Rabs (val F x * bpow radix2 n) <= hmin)%R).
    { replace n with (m + (n - m)) by lia. rewrite bpow_plus, <- Rmult_assoc, Rabs_mult, (Rabs_pos_eq (bpow radix2 (n - m))) by apply bpow_ge_0.
      apply Rle_trans with (bpow radix2 e0 * bpow radix2 (n - m))%R.
      - apply Rmult_le_compat_r; [apply bpow_ge_0|lra].
      - rewrite <- bpow_plus. apply bpow_le. unfold e0, p in *. lia. }
    split.
    + rewrite C, Rabs_mult, (Rabs_pos_eq (bpow radix2 (n - m))) by apply bpow_ge_0.
      apply Rle_trans with (bpow radix2 e0 * bpow radix2 (n - m))%R.
      * apply Rmult_le_compat_r; [apply bpow_ge_0|]. apply rnd_bounded; [apply repr_bpow; unfold e0; lia|lra].
      * rewrite <- bpow_plus. apply bpow_le. unfold e0, p in *. lia.
    + destruct H as [H|H]; [rewrite <- H; exact H1|apply H].
Qed.

(** magnitude bound along the way *)
Lemma bound_down x m k : 1 - bias F <= m <= 0 -> finite F x = true -> emin F <= k + m ->
  (Rabs (val F x) <= bpow radix2 k)%R -> (Rabs (val F (fmul F x (pow2f F m))) <= bpow radix2 (k + m))%R.
Proof.
  intros Hm Fx Hk L. destruct (scale_down x m Hm Fx) as (_ & _ & -> & _).
  apply rnd_bounded; [now apply repr_bpow|]. rewrite Rabs_mult, (Rabs_pos_eq (bpow radix2 m)) by apply bpow_ge_0.
  rewrite bpow_plus. apply Rmult_le_compat_r; [apply bpow_ge_0|exact L].
Qed.

(** last multiplication *)
Lemma inv_final x0 n0 x n : 1 - bias F <= n <= bias F -> inv x0 n0 x n ->
  rounds_to F (val F x0 * bpow radix2 n0) (signbit F x0) (fmul F x (pow2f F n)).
Proof.
  intros Hn (Bx & Fx & Sx & H). pose proof (scale_finite x n Hn Fx) as S. rewrite Sx in S.
  destruct H as [H|[H1 H2]]; [now rewrite <- H|].
  destruct S as [S1 S2]. split; [assumption|]. rewrite (rnd_hmin _ H1) in S2. rewrite (rnd_hmin _ H2).
  destruct (Rlt_bool _ _) eqn:L.
  - destruct S2 as (S2 & S3 & S4). split; [assumption|]. split; [assumption|]. rewrite S4.
    rewrite <- Sx at 1. rewrite scale_sign by reflexivity. rewrite Sx. symmetry. now apply scale_sign.
  - exfalso. rewrite Rabs_R0 in L. rewrite Rlt_bool_true in L; [discriminate|apply bpow_gt_0].
Qed.

Lemma inv_clamp x0 n0 x n : n < 1 - bias F -> (Rabs (val F x) <= bpow radix2 (- p))%R -> inv x0 n0 x n -> inv x0 n0 x (1 - bias F).
Proof.
  intros Hn L (Bx & Fx & Sx & H). split; [assumption|]. split; [assumption|]. split; [assumption|]. right.
  assert (G : (Rabs (val F x * bpow radix2 (1 - bias F)) <= hmin)%R).
  { rewrite Rabs_mult, (Rabs_pos_eq (bpow radix2 (1 - bias F))) by apply bpow_ge_0.
    apply Rle_trans with (bpow radix2 (- p) * bpow radix2 (1 - bias F))%R.
    - apply Rmult_le_compat_r; [apply bpow_ge_0|exact L].
    - rewrite <- bpow_plus. apply bpow_le. unfold p, emin. lia. }
  split; [exact G|]. destruct H as [H|[_ H]]; [|exact H]. rewrite <- H.
  eapply Rle_trans; [|exact G]. rewrite !Rabs_mult, !(Rabs_pos_eq (bpow radix2 _)) by apply bpow_ge_0.
  apply Rmult_le_compat_l; [apply Rabs_pos|]. apply bpow_le. lia.
Qed.

(** Scaling up: exact, or the result is infinite. *)
Definition invu (x0 n0 x n : Z) : Prop :=
  isbits F x /\ signbit F x = signbit F x0 /\
  ((finite F x = true /\ (val F x * bpow radix2 n = val F x0 * bpow radix2 n0)%R) \/
   (isinf F x = true /\ (bpow radix2 (bias F + 1) <= Rabs (val F x0 * bpow radix2 n0))%R)).

Lemma rounds_inf r sz : (bpow radix2 (bias F + 1) <= Rabs r)%R -> rounds_to F r sz (infinity F (Rlt_bool r 0)).
Proof.
  intros H. pose proof (bias_facts F) as HB. pose proof (fmt_facts F) as HF. split; [apply infinity_fields|].
  rewrite Rlt_bool_false; [reflexivity|].
  assert (R : repr F (bpow radix2 (bias F + 1))) by (apply repr_bpow; unfold emin; lia).
  destruct (Rle_lt_dec 0 r) as [G|G].
  - rewrite Rabs_pos_eq in * by (try assumption; now apply rnd_nonneg). rewrite <- (repr_rnd F _ R). now apply rnd_le.
  - rewrite Rabs_left in H by assumption. rewrite <- Rabs_Ropp, <- rnd_opp, Rabs_pos_eq by (apply rnd_nonneg; lra).
    rewrite <- (repr_rnd F _ R). now apply rnd_le.
Qed.

Lemma scale_up x m : 0 <= m <= bias F -> finite F x = true ->
  let r := fmul F x (pow2f F m) in
  isbits F r /\ signbit F r = signbit F x /\
  ((finite F r = true /\ val F r = (val F x * bpow radix2 m)%R) \/
   (isinf F r = true /\ (bpow radix2 (bias F + 1) <= Rabs (val F x * bpow radix2 m))%R)).
Proof.
  intros Hm Fx. cbv zeta. pose proof (bias_facts F) as HB. pose proof (scale_finite x m ltac:(lia) Fx) as S.
  assert (X : rnd F (val F x * bpow radix2 m) = (val F x * bpow radix2 m)%R).
  { apply repr_rnd. apply repr_scale; [now apply repr_val|lia]. }
  destruct S as [S1 S2]. rewrite X in S2. split; [assumption|].
  destruct (Rlt_bool_spec (Rabs (val F x * bpow radix2 m)) (bpow radix2 (bias F + 1))) as [L|L].
  - destruct S2 as (S2 & S3 & S4). rewrite S4. split; [now apply scale_sign|]. left. now split.
  - rewrite S2. destruct (infinity_fields F (Rlt_bool (val F x * bpow radix2 m) 0)) as (A & B & C & D).
    split.
    + rewrite C. apply scale_sign_lt. intros E. rewrite E, Rmult_0_l, Rabs_R0 in L. pose proof (bpow_gt_0 radix2 (bias F + 1)). lra.
    + right. split; assumption.
Qed.
Lemma invu_step x0 n0 x n m : 0 <= m <= bias F -> m <= n -> invu x0 n0 x n -> invu x0 n0 (fmul F x (pow2f F m)) (n - m).
Proof.
  intros Hm Hn (Bx & Sx & [[Fx H]|[Ix H]]); pose proof (bias_facts F) as HB.
  - destruct (scale_up x m Hm Fx) as (A & B & [[C D]|[C D]]).
    + split; [assumption|]. split; [congruence|]. left. split; [assumption|].
      rewrite D, Rmult_assoc, <- bpow_plus. now replace (m + (n - m)) with n by lia.
    + split; [assumption|]. split; [congruence|]. right. split; [assumption|]. rewrite <- H.
      eapply Rle_trans; [exact D|]. rewrite !Rabs_mult, !(Rabs_pos_eq (bpow radix2 _)) by apply bpow_ge_0.
      apply Rmult_le_compat_l; [apply Rabs_pos|]. now apply bpow_le.
  - rewrite scale_inf by (try assumption; lia). split; [assumption|]. split; [assumption|]. right. now split.
Qed.
Lemma invu_final x0 n0 x n : 0 <= n <= bias F -> invu x0 n0 x n ->
  rounds_to F (val F x0 * bpow radix2 n0) (signbit F x0) (fmul F x (pow2f F n)).
Proof.
  intros Hn (Bx & Sx & [[Fx H]|[Ix H]]); pose proof (bias_facts F) as HB.
  - pose proof (scale_finite x n ltac:(lia) Fx) as S. now rewrite Sx, H in S.
  - rewrite scale_inf by (try assumption; lia). apply isinf_eq in Ix; [|assumption]. rewrite Ix, Sx.
    pose proof (rounds_inf _ (signbit F x0) H) as G. rewrite scale_sign_lt in G; [exact G|].
    intros E. rewrite E, Rmult_0_l, Rabs_R0 in H. pose proof (bpow_gt_0 radix2 (bias F + 1)). lra.
Qed.
Lemma invu_clamp x0 n0 x n : bias F < n -> (finite F x = true -> (val F x <> 0 -> bpow radix2 1 <= Rabs (val F x))%R) -> invu x0 n0 x n ->
  rounds_to F (val F x0 * bpow radix2 n0) (signbit F x0) (fmul F x (pow2f F (bias F))).
Proof.
  intros Hn Hb I. pose proof (bias_facts F) as HB. 
  destruct I as (Bx & Sx & [[Fx H]|[Ix H]]); [|apply (invu_final x0 n0 x (bias F)); [lia|]; split; [assumption|]; split; [assumption|]; right; now split].
  pose proof (scale_finite x (bias F) ltac:(lia) Fx) as S. rewrite Sx in S. rewrite <- H.
  destruct (Req_dec (val F x) 0) as [E|E].
  - rewrite E, Rmult_0_l in *. exact S.
  - specialize (Hb Fx E).
    assert (L : forall k, bias F <= k -> (bpow radix2 (bias F + 1) <= Rabs (val F x * bpow radix2 k))%R).
    { intros k Hk. rewrite Rabs_mult, (Rabs_pos_eq (bpow radix2 k)) by apply bpow_ge_0.
      apply Rle_trans with (bpow radix2 1 * bpow radix2 k)%R.
      - rewrite <- bpow_plus. apply bpow_le. lia.
      - apply Rmult_le_compat_r; [apply bpow_ge_0|exact Hb]. }
    pose proof (rounds_inf _ (signbit F x0) (L (bias F) ltac:(lia))) as G1.
    pose proof (rounds_inf _ (signbit F x0) (L n ltac:(lia))) as G2.
    rewrite scale_sign_lt in G1 by assumption. rewrite scale_sign_lt in G2 by assumption.
    rewrite (rounds_to_fun F _ _ _ _ S G1). exact G2.
Qed.

(** The inequalities between width and exponent range that the code relies on. *)
Definition scalb_fmt : Prop :=
  if 16 <? width F then 3 * p + 3 <= bias F else p + 3 <= bias F.

(** successive products by powers of two *)
Inductive chain (x : Z) : Z -> Prop :=
| chain_self : chain x x
| chain_mul y e : 1 - bias F <= e <= bias F -> chain x y -> chain x (fmul F y (pow2f F e)).
Lemma chain_ok x y : isbits F x -> chain x y ->
  isbits F y /\ (isinf F x = true -> y = x) /\ (isnan F x = true -> isnan F y = true).
Proof.
  intros Bx. induction 1 as [|y e He Hc (IH1 & IH2 & IH3)]; [auto|]. split; [apply fmul_isbits|]. split.
  - intros I. rewrite IH2 by assumption. now apply scale_inf.
  - intros N. apply scale_nan. auto.
Qed.

Lemma scalbn_small_ok n : p + 3 <= bias F -> - 2 ^ 31 <= n < 1 - bias F ->
  exists m, 1 - bias F <= m <= 0 /\ n - m <= - p /\ (n - m < 1 - bias F -> m = 1 - bias F) /\
    scalbn_small F n = Some (- m, pow2f F m).
Proof.
  intros Hp Hn. pose proof (bias_facts F) as HB. pose proof (fmt_facts F) as HF. unfold p in *.
  unfold scalbn_small, SIG_BITS. rewrite EXP_MIN_eq, EXP_BIAS_eq. rewrite !to_i32_small by lia.
  unfold sadd. rewrite chk_ok by lia. cbn [bind]. unfold iclamp. rewrite (proj2 (Z.leb_le _ _)) by lia. cbn [bind].
  set (m := if n + (mw F + 1) <? 1 - bias F then _ else _).
  assert (M : m = Z.max (n + (mw F + 1)) (1 - bias F)).
  { unfold m. destruct (Z.ltb_spec (n + (mw F + 1)) (1 - bias F)); [lia|]. destruct (Z.ltb_spec (mw F + 1) (n + (mw F + 1))); lia. }
  clearbody m. exists m. split; [lia|]. split; [lia|]. split; [lia|].
  unfold sneg, ssub. rewrite chk_ok by lia. cbn [bind]. rewrite ?(to_i32_small (bias F)) by lia. rewrite chk_ok by lia. cbn [bind].
  rewrite to_u_small by lia. replace (bias F - - m) with (bias F + m) by lia. rewrite pow2f_parts by lia. reflexivity.
Qed.
Theorem scalbn_ok x n : scalb_fmt -> isbits F x -> - 2 ^ 31 <= n < 2 ^ 31 ->
  exists r, scalbn F x n = Some r /\ scalbn_spec F x n r.
Proof.
  intros HS Bx Hn. pose proof (bias_facts F) as HB. pose proof (fmt_facts F) as HF.
  assert (P3 : p + 3 <= bias F) by (unfold scalb_fmt in HS; destruct (_ <? _); unfold p in *; lia).
  unfold scalbn. rewrite EXP_MIN_eq, EXP_MAX_eq, EXP_BIAS_eq. unfold SIG_BITS.
  rewrite uadd_ok by lia. cbn [bind]. rewrite ushl_ok by lia. rewrite Z.mod_small by lia. cbn [bind].
  replace (bias F * 2 ^ 1) with (bias F + bias F) by lia. rewrite pow2f_parts by lia. cbn [bind].
  assert (P1 : from_parts F false 1 0 = Some (pow2f F (1 - bias F))).
  { rewrite <- pow2f_parts by lia. f_equal. lia. }
  rewrite P1. cbn [bind].
  rewrite uadd_ok by lia. cbn [bind]. rewrite (Z.add_comm _ (bias F)). rewrite pow2f_parts by (unfold p in *; lia). cbn [bind].
  rewrite (to_i32_small (mw F)), (to_i32_small (bias F)), (to_i32_small (mw F + 1)) by lia.
  assert (Fin : forall y k, 1 - bias F <= k <= bias F ->
    ((let* e := sadd 32 (bias F) k in let* s := from_parts F false (to_u 32 e) 0 in Some (fmul F y s)) = Some (fmul F y (pow2f F k)))).
  { intros y k Hk. unfold sadd. rewrite chk_ok by lia. cbn [bind]. rewrite to_u_small by lia. now rewrite pow2f_parts by lia. }
  assert (Done : forall r, chain x r -> (finite F x = true -> rounds_to F (val F x * bpow radix2 n) (signbit F x) r) -> scalbn_spec F x n r).
  { intros r Hc Hr. destruct (chain_ok x r Bx Hc) as (C1 & C2 & C3). split; [exact C1|]. split; [exact Hr|]. split; assumption. }
  destruct (Z.ltb_spec (bias F) n) as [Up|Up].
  - rewrite (proj2 (Z.leb_le _ _)) by lia. cbn [negb]. unfold ssub. rewrite chk_ok by lia. cbn [bind].
    assert (I0 : finite F x = true -> invu x n x n) by (split; [assumption|]; split; [reflexivity|]; left; now split).
    assert (I1 : finite F x = true -> invu x n (fmul F x (pow2f F (bias F))) (n - bias F)).
    { intros Fx. apply invu_step; [lia|lia|auto]. }
    assert (C1 : chain x (fmul F x (pow2f F (bias F)))) by (apply chain_mul; [lia|constructor]).
    set (x1 := fmul F x (pow2f F (bias F))) in *. 
    destruct (Z.ltb_spec (bias F) (n - bias F)) as [Up1|Up1].
    + rewrite chk_ok by lia. cbn [bind].
      assert (I2 : finite F x = true -> invu x n (fmul F x1 (pow2f F (bias F))) (n - bias F - bias F)).
      { intros Fx. apply invu_step; [lia|lia|auto]. }
      assert (C2 : chain x (fmul F x1 (pow2f F (bias F)))) by (apply chain_mul; [lia|assumption]).
      set (x2 := fmul F x1 (pow2f F (bias F))) in *.
      destruct (Z.ltb_spec (bias F) (n - bias F - bias F)) as [Up2|Up2]; (rewrite Fin by lia); (eexists; split; [reflexivity|]);
       (apply Done; [apply chain_mul; [lia|assumption]|]); intros Fx.
      * apply (invu_clamp x n x2 (n - bias F - bias F)); [lia| |auto].
        intros Fx2 V0. destruct (I2 Fx) as (_ & _ & [[_ E]|[Ix2 _]]).
        2:{ rewrite (finite_not_inf F x2 Fx2) in Ix2. discriminate. }
        assert (E2 : val F x2 = (val F x * bpow radix2 (bias F + bias F))%R).
        { apply (Rmult_eq_reg_r (bpow radix2 (n - bias F - bias F))); [|apply Rgt_not_eq; apply bpow_gt_0].
          rewrite E, Rmult_assoc, <- bpow_plus. do 2 f_equal. lia. }
        destruct (repr_grid_min F (val F x) (repr_val F x Fx)) as (k & Ek). rewrite E2 in *. rewrite Ek in *.
        rewrite Rmult_assoc, <- bpow_plus in *. rewrite Rabs_mult, <- abs_IZR, (Rabs_pos_eq (bpow _ _)) by apply bpow_ge_0.
        assert (K : 1 <= Z.abs k).
        { destruct (Z.eq_dec k 0) as [->|]; [|lia]. exfalso. apply V0. ring. }
        apply IZR_le in K. apply Rle_trans with (1 * bpow radix2 (emin F + (bias F + bias F)))%R.
        -- rewrite Rmult_1_l. apply bpow_le. unfold emin, p in *. lia.
        -- apply Rmult_le_compat_r; [apply bpow_ge_0|exact K].
      * apply (invu_final x n x2 (n - bias F - bias F)); [lia|auto].
    + cbn [bind]. rewrite Fin by lia. eexists; split; [reflexivity|]. apply Done; [apply chain_mul; [lia|assumption]|]. intros Fx.
      apply (invu_final x n x1 (n - bias F)); [lia|auto].
  - assert (I0 : finite F x = true -> inv x n x n) by (split; [assumption|]; split; [assumption|]; split; [reflexivity|]; now left).
    destruct (Z.ltb_spec n (1 - bias F)) as [Dn|Dn].
    2:{ cbn [bind]. rewrite Fin by lia. eexists; split; [reflexivity|]. apply Done; [apply chain_mul; [lia|constructor]|]. intros Fx.
        apply (inv_final x n x n); [lia|auto]. }
    assert (B0 : finite F x = true -> (Rabs (val F x) <= bpow radix2 (bias F + 1))%R) by (intros Fx; pose proof (val_lt_max F x Fx); lra).
    (* one prescaling step by 2^m, two of them, and the final product *)
    assert (Two : forall m1 m2, 1 - bias F <= m1 <= 0 -> 1 - bias F <= m2 <= 0 ->
       n - m1 <= - p -> (n - m1 < 1 - bias F -> n - m1 - m2 <= - p) -> (n - m1 - m2 < 1 - bias F -> bias F + 1 + m1 + m2 <= - p /\ emin F <= bias F + 1 + m1 + m2) ->
       let x1 := fmul F x (pow2f F m1) in let x2 := fmul F x1 (pow2f F m2) in
       (1 - bias F <= n - m1 <= bias F -> scalbn_spec F x n (fmul F x1 (pow2f F (n - m1)))) /\
       (n - m1 < 1 - bias F -> scalbn_spec F x n (fmul F x2 (pow2f F (if n - m1 - m2 <? 1 - bias F then 1 - bias F else n - m1 - m2))))).
    { intros m1 m2 H1 H2 H3 H4 H5. cbv zeta.
      assert (C1 : chain x (fmul F x (pow2f F m1))) by (apply chain_mul; [lia|constructor]).
      assert (I1 : finite F x = true -> inv x n (fmul F x (pow2f F m1)) (n - m1)) by (intros Fx; apply inv_down; auto).
      assert (B1 : finite F x = true -> emin F <= bias F + 1 + m1 -> (Rabs (val F (fmul F x (pow2f F m1))) <= bpow radix2 (bias F + 1 + m1))%R).
      { intros Fx G. apply bound_down; auto. }
      set (x1 := fmul F x (pow2f F m1)) in *.
      assert (C2 : chain x (fmul F x1 (pow2f F m2))) by (apply chain_mul; [lia|assumption]).
      assert (I2 : finite F x = true -> n - m1 < 1 - bias F -> inv x n (fmul F x1 (pow2f F m2)) (n - m1 - m2)) by (intros Fx G; apply inv_down; auto).
      assert (B2 : finite F x = true -> emin F <= bias F + 1 + m1 + m2 -> (Rabs (val F (fmul F x1 (pow2f F m2))) <= bpow radix2 (bias F + 1 + m1 + m2))%R).
      { intros Fx G. apply bound_down; [auto|apply (I1 Fx)|auto|]. apply B1; [auto|lia]. }
      set (x2 := fmul F x1 (pow2f F m2)) in *.
      split; intros G.
      - apply Done; [now apply chain_mul|]. intros Fx. apply (inv_final x n x1 (n - m1)); auto.
      - destruct (Z.ltb_spec (n - m1 - m2) (1 - bias F)) as [L|L].
        + apply Done; [apply chain_mul; [lia|assumption]|]. intros Fx. apply (inv_final x n x2 (1 - bias F)); [lia|].
          apply (inv_clamp x n x2 (n - m1 - m2)); [assumption| |auto]. eapply Rle_trans; [apply B2; [assumption|lia]|].
          apply bpow_le. lia.
        + apply Done; [apply chain_mul; [lia|assumption]|]. intros Fx. apply (inv_final x n x2 (n - m1 - m2)); [lia|auto]. }
    change (BITS F) with (width F). unfold scalb_fmt in HS. destruct (16 <? width F).
    + (* wide formats: the fixed prescale *)
      assert (M : fmul F (pow2f F (1 - bias F)) (pow2f F (mw F + 1)) = pow2f F (1 - bias F + p)).
      { destruct (pow2f_ok (1 - bias F) ltac:(lia)) as (A1 & A2 & A3 & A4).
        destruct (pow2f_ok (1 - bias F + p) ltac:(unfold p in *; lia)) as (D1 & D2 & D3 & D4).
        destruct (scale_up (pow2f F (1 - bias F)) (mw F + 1) ltac:(unfold p in *; lia) A2) as (E1 & E2 & [[E3 E4]|[E3 E4]]).
        - apply (val_sign_inj F); try assumption; [|congruence]. rewrite E4, A3, D3, <- bpow_plus. reflexivity.
        - exfalso. rewrite A3, <- bpow_plus, Rabs_pos_eq in E4 by apply bpow_ge_0. apply le_bpow in E4. unfold p in *. lia. }
      rewrite M. unfold sneg, ssub, sadd. rewrite chk_ok by lia. cbn [bind]. rewrite chk_ok by (unfold p in *; lia). cbn [bind].
      rewrite (proj2 (Z.leb_le _ _)) by (unfold p in *; lia). cbn [negb]. rewrite chk_ok by (unfold p in *; lia). cbn [bind].
      set (m := 1 - bias F + p) in *. replace (n + (- (1 - bias F) - (mw F + 1))) with (n - m) by (unfold m, p; lia).
      destruct (Two m m) as [T1 T2]; try (unfold m, p, emin in *; lia).
      destruct (Z.ltb_spec (n - m) (1 - bias F)) as [L|L].
      * rewrite chk_ok by (unfold m, p in *; lia). cbn [bind]. replace (n - m + (- (1 - bias F) - (mw F + 1))) with (n - m - m) by (unfold m, p; lia).
        specialize (T2 L). unfold sadd in Fin. cbn [bind]. rewrite Fin by (destruct (Z.ltb_spec (n - m - m) (1 - bias F)); unfold m, p in *; lia).
        eexists; split; [reflexivity|exact T2].
      * unfold sadd in Fin. cbn [bind]. rewrite Fin by (unfold m, p in *; lia). eexists; split; [reflexivity|]. apply T1. unfold m, p in *; lia.
    + (* narrow formats: the prescale is computed *)
      destruct (scalbn_small_ok n P3 ltac:(lia)) as (m & M1 & M2 & M3 & ->). cbn [bind]. unfold sadd. rewrite chk_ok by lia. cbn [bind].
      replace (n + - m) with (n - m) by lia.
      destruct (Z.ltb_spec (n - m) (1 - bias F)) as [L|L].
      * destruct (scalbn_small_ok (n - m) P3 ltac:(lia)) as (m2 & N1 & N2 & N3 & ->). cbn [bind]. rewrite chk_ok by lia. cbn [bind].
        replace (n - m + - m2) with (n - m - m2) by lia.
        destruct (Two m m2) as [T1 T2]; try (unfold p, emin in *; lia). specialize (T2 L).
        unfold sadd in Fin. cbn [bind]. rewrite Fin by (destruct (Z.ltb_spec (n - m - m2) (1 - bias F)); unfold p in *; lia).
        eexists; split; [reflexivity|exact T2].
      * destruct (Two m 0) as [T1 T2]; try (unfold p, emin in *; lia).
        unfold sadd in Fin. cbn [bind]. rewrite Fin by (unfold p in *; lia). eexists; split; [reflexivity|]. apply T1. unfold p in *; lia.
Qed.
End S.

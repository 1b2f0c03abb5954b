(** frexp, modf, ilogb, nextafter: proofs, for a format-generic version of the code of which the
    f64 and f32 models are instances (by computation). *)
From Coq Require Import ZArith Reals Lia Lra Bool.
From Flocq Require Import Core.
From Verif Require Import Base Spec SpecFun Format P_format Ieee P_ieee P_real M_basic P_round P_round2 P_minmax
  P_key M_bits.
Open Scope Z_scope.

(** ** nextafter *)
Definition g_nextafter (F : fmt) (x y : Z) : option Z :=
  if is_nan F x || is_nan F y then Some (fadd F x y)
  else if x =? y then Some y
  else
    let ax := Z.land x (2 ^ (width F - 1) - 1) in
    let ay := Z.land y (2 ^ (width F - 1) - 1) in
    if ax =? 0 then
      if ay =? 0 then Some y else Some (Z.lor (Z.land y (SIGN_MASK F)) 1)
    else if (ay <? ax) || negb (Z.land (Z.lxor x y) (SIGN_MASK F) =? 0) then usub (width F) x 1
    else uadd (width F) x 1.
Lemma nextafter_g x y : nextafter x y = g_nextafter f64 x y.
Proof. reflexivity. Qed.
Lemma nextafterf_g x y : nextafterf x y = g_nextafter f32 x y.
Proof. reflexivity. Qed.

Lemma land_magz F x : isbits F x -> Z.land x (2 ^ (width F - 1) - 1) = magz F x.
Proof.
  intros H. pose proof (fmt_facts F). rewrite land_pow2m1 by (unfold width; lia).
  rewrite pow_width1. pose proof (magz_range F x).
  symmetry. apply Z.mod_unique with (if signbit F x then 1 else 0); [left; nia|].
  rewrite (bits_magz F x H) at 1. rewrite pow_mwew. destruct (signbit F x); ring.
Qed.
Lemma lxor_range w a b : 0 <= w -> 0 <= a < 2 ^ w -> 0 <= b < 2 ^ w -> 0 <= Z.lxor a b < 2 ^ w.
Proof.
  intros Hw Ha Hb. assert (N : 0 <= Z.lxor a b) by (apply Z.lxor_nonneg; lia). split; [exact N|].
  destruct (Z.eq_dec (Z.lxor a b) 0) as [->|Hn]; [lia|].
  apply Z.log2_lt_pow2; [lia|].
  eapply Z.le_lt_trans; [apply Z.log2_lxor; lia|].
  assert (G : forall c, 0 <= c < 2 ^ w -> c = 0 \/ Z.log2 c < w).
  { intros c Hc. destruct (Z.eq_dec c 0); [tauto|right]. apply Z.log2_lt_pow2; lia. }
  assert (0 < w).
  { destruct (Z.eq_dec w 0) as [->|]; [|lia]. simpl in *. assert (a = 0) by lia. assert (b = 0) by lia.
    subst. now elim Hn. }
  destruct (G a Ha) as [->|]; destruct (G b Hb) as [->|]; simpl Z.log2; lia.
Qed.
Lemma signbit_testbit F x : isbits F x -> signbit F x = Z.testbit x (width F - 1).
Proof.
  intros H. pose proof (fmt_facts F). unfold signbit.
  replace (mw F + ew F) with (width F - 1) by (unfold width; lia).
  assert (P : 0 < 2 ^ (width F - 1)) by (apply pow2_pos; unfold width; lia).
  assert (E : 2 ^ width F = 2 * 2 ^ (width F - 1)).
  { rewrite <- Z.pow_succ_r by (unfold width; lia). f_equal; lia. }
  unfold isbits in H.
  destruct (Z.leb_spec (2 ^ (width F - 1)) x) as [L|L]; symmetry.
  - apply Z.testbit_true; [unfold width; lia|].
    replace (x / 2 ^ (width F - 1)) with 1; [reflexivity|].
    apply Z.div_unique with (x - 2 ^ (width F - 1)); lia.
  - apply Z.testbit_false; [unfold width; lia|].
    rewrite Z.div_small by lia. reflexivity.
Qed.
Lemma signbit_lxor F x y : isbits F x -> isbits F y ->
  (Z.land (Z.lxor x y) (SIGN_MASK F) =? 0) = negb (xorb (signbit F x) (signbit F y)).
Proof.
  intros Hx Hy. pose proof (fmt_facts F).
  assert (L : isbits F (Z.lxor x y)) by (apply lxor_range; [unfold width; lia| |]; assumption).
  rewrite land_sign by assumption.
  rewrite (signbit_testbit F (Z.lxor x y) L), Z.lxor_spec, <- !signbit_testbit by assumption.
  pose proof (pow_mw_ge F). pose proof (bias_facts F).
  destruct (xorb _ _); simpl; [apply Z.eqb_neq; nia|reflexivity].
Qed.

(** Adjacent keys. *)
Lemma key_next F x r : isnan F x = false -> isnan F r = false -> key F r = key F x + 1 ->
  lt_bits F x r /\ forall z, ~ (lt_bits F x z /\ lt_bits F z r).
Proof.
  intros Nx Nr E. split; [apply key_lt; try assumption; lia|].
  intros z [A B]. destruct (lt_not_nan F _ _ A) as [_ Nz].
  apply key_lt in A; try assumption. apply key_lt in B; try assumption. lia.
Qed.

Lemma g_nextafter_ok F x y : isbits F x -> isbits F y ->
  exists r, g_nextafter F x y = Some r /\ nextafter_spec F x y r.
Proof.
  intros Hx Hy. unfold g_nextafter. rewrite !is_nan_eq by assumption.
  destruct (isnan F x || isnan F y) eqn:N.
  { exists (fadd F x y). split; [reflexivity|]. unfold nextafter_spec.
    assert (K : forall P, lt_bits F x y \/ lt_bits F y x \/ eq_bits F x y -> P : Prop).
    { intros P [K|[K|K]]; exfalso; [apply lt_not_nan in K|apply lt_not_nan in K|apply eq_not_nan in K];
      destruct K as [K1 K2]; rewrite K1, K2 in N; discriminate. }
    split; [apply fadd_isbits|]. split; [intros _; apply fadd_nan; exact N|].
    repeat split; intros; apply K; tauto. }
  apply orb_false_iff in N. destruct N as [Nx Ny].
  pose proof (magz_range F x) as Rx. pose proof (magz_range F y) as Ry.
  pose proof (bits_magz F x Hx) as Bx. pose proof (bits_magz F y Hy) as By.
  pose proof (pow_mw_ge F) as Hm. pose proof (bias_facts F) as HB.
  assert (NMx : magz F x <= (2 ^ ew F - 1) * 2 ^ mw F).
  { apply Z.nlt_ge. intros C. apply nan_magz in C. congruence. }
  assert (NMy : magz F y <= (2 ^ ew F - 1) * 2 ^ mw F).
  { apply Z.nlt_ge. intros C. apply nan_magz in C. congruence. }
  assert (PP : 2 ^ (mw F + ew F) = 2 ^ ew F * 2 ^ mw F) by (rewrite pow_mwew; ring).
  assert (P7 : 7 * 4 <= (2 ^ ew F - 1) * 2 ^ mw F) by nia.
  assert (EqCase : eq_bits F x y -> nextafter_spec F x y y).
  { intros E. split; [assumption|]. split; [intros [C|C]; congruence|]. split; [reflexivity|].
    assert (K : lt_bits F x y \/ lt_bits F y x -> False).
    { intros [K|K]; apply key_lt in K; try assumption; apply key_eq in E; try assumption; lia. }
    repeat split; intros; exfalso; apply K; tauto. }
  destruct (Z.eqb_spec x y) as [->|Hne].
  { exists y. split; [reflexivity|]. apply EqCase. apply key_eq; auto. }
  rewrite !land_magz by assumption. cbv zeta.
  (* finishing tool: a result with the right magnitude *)
  assert (Fin : forall (s : bool) M, 0 <= M <= (2 ^ ew F - 1) * 2 ^ mw F -> ~ eq_bits F x y ->
    (key F x < key F y -> (if s then - M else M) = key F x + 1) ->
    (key F y < key F x -> (if s then - M else M) = key F x - 1) ->
    (M = 0 -> s = signbit F x) -> (magz F x = 0 -> M = 1 /\ s = signbit F y) ->
    nextafter_spec F x y ((if s then 2 ^ (mw F + ew F) else 0) + M)).
  { intros s M HM NE K1 K2 K3 K4.
    destruct (magz_fields F s M) as (F1 & F2 & F3 & F4 & F5); [nia|].
    set (r := (if s then 2 ^ (mw F + ew F) else 0) + M) in *.
    assert (Kr : key F r = if s then - M else M) by (unfold key; rewrite F2, F3; reflexivity).
    assert (Nr : isnan F r = false).
    { destruct (isnan F r) eqn:E; [|reflexivity]. apply nan_magz in E. lia. }
    split; [assumption|]. split; [intros [C|C]; congruence|].
    split; [intros C; now elim NE|].
    split; [intros C; apply key_lt in C; try assumption; apply key_next; try assumption; rewrite Kr; now apply K1|].
    split; [intros C; apply key_lt in C; try assumption; apply key_next; try assumption; rewrite Kr, K2 by assumption; ring|].
    split; intros _ C.
    - apply zero_magz in C. rewrite F2. apply K3. lia.
    - apply zero_magz in C. destruct (K4 C) as [-> ->]. unfold r, mkbits. lia. }
  destruct (Z.eqb_spec (magz F x) 0) as [Zx|Zx].
  { destruct (Z.eqb_spec (magz F y) 0) as [Zy|Zy].
    - exists y. split; [reflexivity|]. apply EqCase. apply zero_eq; now apply zero_magz.
    - eexists. split; [reflexivity|]. rewrite land_sign by assumption.
      replace (Z.lor (if signbit F y then 2 ^ mw F * 2 ^ ew F else 0) 1)
        with ((if signbit F y then 2 ^ (mw F + ew F) else 0) + 1).
      2:{ destruct (signbit F y); [|reflexivity]. rewrite <- pow_mwew.
          rewrite <- (Z.mul_1_l (2 ^ (mw F + ew F))). symmetry. pose proof (fmt_facts F). apply lor_disjoint; [lia|]. rewrite PP. nia. }
      apply Fin; try lia.
      + intros C. apply key_eq in C; try assumption. unfold key in C.
        destruct (signbit F x), (signbit F y); lia.
      + unfold key. destruct (signbit F x), (signbit F y); lia.
      + unfold key. destruct (signbit F x), (signbit F y); lia.
      + auto. }
  rewrite signbit_lxor by assumption. rewrite negb_involutive.
  assert (NE : ~ eq_bits F x y).
  { intros C. apply key_eq in C; try assumption. unfold key in C. apply Hne.
    rewrite Bx, By. destruct (signbit F x), (signbit F y); lia. }
  destruct ((magz F y <? magz F x) || xorb (signbit F x) (signbit F y)) eqn:Dir.
  - rewrite usub_ok by (destruct (signbit F x); lia). eexists. split; [reflexivity|].
    replace (x - 1) with ((if signbit F x then 2 ^ (mw F + ew F) else 0) + (magz F x - 1)) by lia.
    rewrite orb_true_iff, Z.ltb_lt in Dir.
    apply Fin; try lia; try reflexivity; unfold key;
      destruct (signbit F x), (signbit F y); simpl in Dir; intuition (try lia; try congruence).
  - apply orb_false_iff in Dir. rewrite Z.ltb_ge in Dir. destruct Dir as [D1 D2].
    assert (Es : signbit F x = signbit F y) by (destruct (signbit F x), (signbit F y); simpl in D2; congruence).
    assert (Hlt : magz F x < magz F y).
    { assert (magz F x <> magz F y); [|lia]. intros C. apply Hne. rewrite Bx, By, Es, C. reflexivity. }
    rewrite uadd_ok.
    2:{ rewrite pow_width. rewrite Bx. rewrite pow_mwew. destruct (signbit F x); nia. }
    eexists. split; [reflexivity|].
    replace (x + 1) with ((if signbit F x then 2 ^ (mw F + ew F) else 0) + (magz F x + 1)) by lia.
    apply Fin; try lia; try reflexivity; unfold key; rewrite <- ?Es;
      destruct (signbit F x); intuition (try lia; try congruence).
Qed.

(** ** Reading the exponent field *)
Lemma exp_read F x : isbits F x -> to_i 32 (Z.land (x / 2 ^ mw F) (2 ^ ew F - 1)) = expf F x.
Proof.
  intros H. pose proof (fmt_facts F). pose proof (bias_facts F). pose proof (fields_range F x).
  rewrite land_pow2m1 by lia. fold (expf F x). apply to_i32_small. lia.
Qed.
Lemma sign_zero F x : isbits F x -> Z.land x (SIGN_MASK F) = zero F (signbit F x).
Proof.
  intros H. rewrite land_sign by assumption. unfold zero, mkbits. rewrite pow_mwew.
  destruct (signbit F x); lia.
Qed.
(** shifting the sign and exponent out *)
Lemma shl_sig F x : isbits F x ->
  ushl (width F) x (ew F + 1) = Some (sigf F x * 2 ^ (ew F + 1)).
Proof.
  intros H. pose proof (fmt_facts F). rewrite ushl_ok by (unfold width; lia). f_equal.
  unfold width. replace (mw F + ew F + 1) with (mw F + (ew F + 1)) by lia.
  rewrite (pow2_split (mw F) (ew F + 1)) by lia. rewrite Z.mul_mod_distr_r by (apply Z.pow_nonzero; lia). reflexivity.
Qed.

(** ** ilogb *)
Definition g_ilogb (F : fmt) (x : Z) : option Z :=
  let* sh := ushr (width F) x (mw F) in
  let e := to_i 32 (Z.land sh (2 ^ ew F - 1)) in
  if e =? 0 then
    let* i := ushl (width F) x (ew F + 1) in
    if i =? 0 then Some FP_ILOGB0
    else run 100 (ilogb_step (width F)) (- bias F, i)
  else if e =? 2 ^ ew F - 1 then
    let* i := ushl (width F) x (ew F + 1) in
    if negb (i =? 0) then Some FP_ILOGBNAN else Some (2 ^ 31 - 1)
  else ssub 32 e (bias F).
Lemma ilogb_g x : ilogb x = g_ilogb f64 x.
Proof. reflexivity. Qed.
Lemma ilogbf_g x : ilogbf x = g_ilogb f32 x.
Proof. reflexivity. Qed.

Lemma chk32 a : - 2 ^ 20 <= a <= 2 ^ 20 -> chk 32 a = Some a.
Proof. intros H. apply chk_ok. lia. Qed.

Lemma g_ilogb_ok F x : width F <= 64 -> isbits F x ->
  exists e, g_ilogb F x = Some e /\ ilogb_spec F (- 2 ^ 31) (- 2 ^ 31) (2 ^ 31 - 1) x e.
Proof.
  intros Hw Hx. pose proof (fmt_facts F) as HF. pose proof (bias_facts F) as HB.
  pose proof (fields_range F x) as Hr. pose proof (pow_mw_ge F) as Hm.
  unfold g_ilogb. rewrite ushr_ok by (unfold width; lia). cbn [bind].
  rewrite exp_read by assumption. cbv zeta. unfold ilogb_spec.
  assert (P1 : 0 < 2 ^ (ew F + 1)) by (apply pow2_pos; lia).
  destruct (Z.eqb_spec (expf F x) 0) as [E0|E0].
  - rewrite shl_sig by assumption. cbn [bind].
    assert (Fx : finite F x = true) by (apply finite_iff; lia).
    rewrite (finite_not_nan F x Fx), (finite_not_inf F x Fx).
    destruct (Z.eqb_spec (sigf F x * 2 ^ (ew F + 1)) 0) as [E1|E1].
    { exists FP_ILOGB0. split; [reflexivity|].
      assert (Z0 : iszero F x = true).
      { unfold iszero. rewrite andb_true_iff, !Z.eqb_eq. split; [assumption|nia]. }
      rewrite Z0. split; [discriminate|]. split; [reflexivity|]. split; discriminate. }
    assert (S0 : 0 < sigf F x) by nia.
    assert (Z0 : iszero F x = false).
    { unfold iszero. rewrite E0. cbn [Z.eqb andb]. apply Z.eqb_neq. lia. }
    rewrite Z0.
    pose (I := fun s : Z * Z => let '(e, i) := s in
       - bias F - 64 <= e <= - bias F /\ 0 < i < 2 ^ width F /\
       i = sigf F x * 2 ^ (ew F + 1 + (- bias F - e))).
    destruct (run_rule I (fun s => fst s + bias F + 65)
       (fun e => bpow radix2 e <= Rabs (val F x) < bpow radix2 (e + 1))%R
       (ilogb_step (width F))) with (p := 100%positive) (s := (- bias F, sigf F x * 2 ^ (ew F + 1)))
       as (e & Er & He).
    + intros [e i] (I1 & I2 & I3). unfold ilogb_step.
      rewrite ushr_ok by (unfold width; lia). cbn [bind].
      assert (PW : 2 ^ width F = 2 * 2 ^ (width F - 1)).
      { rewrite <- Z.pow_succ_r by (unfold width; lia). f_equal; lia. }
      assert (PW0 : 0 < 2 ^ (width F - 1)) by (apply pow2_pos; unfold width; lia).
      destruct (Z.eqb_spec (i / 2 ^ (width F - 1)) 0) as [T|T].
      * assert (Hlt : i < 2 ^ (width F - 1)).
        { apply Z.div_small_iff in T; lia. }
        (* the exponent cannot get too small *)
        assert (He : - bias F - 63 <= e).
        { apply Z.nlt_ge. intros C.
          assert (2 ^ 64 <= 2 ^ (ew F + 1 + (- bias F - e))) by (apply Z.pow_le_mono_r; lia).
          assert (2 ^ width F <= 2 ^ 64) by (apply Z.pow_le_mono_r; lia). nia. }
        unfold ssub. rewrite chk32 by lia. cbn [bind].
        rewrite ushl_ok by (unfold width; lia). cbn [bind].
        eexists; split; [reflexivity|]. cbv beta iota. change (2 ^ 1) with 2.
        rewrite Z.mod_small by lia. split; [|cbn [fst]; lia].
        split; [lia|]. split; [lia|].
        replace (ew F + 1 + (- bias F - (e - 1))) with (Z.succ (ew F + 1 + (- bias F - e))) by lia.
        rewrite Z.pow_succ_r by lia. rewrite I3 at 1. ring.
      * eexists; split; [reflexivity|]. cbv beta iota.
        assert (Hge : 2 ^ (width F - 1) <= i).
        { apply Z.nlt_ge. intros C. apply T. apply Z.div_small. lia. }
        unfold val. rewrite sval_abs by (apply mag_of_nonneg; lia). unfold mag_of. rewrite E0. cbn [Z.eqb].
        set (q := ew F + 1 + (- bias F - e)) in *.
        assert (Ev : (IZR (sigf F x) * bpow radix2 (1 - bias F - mw F) =
                      IZR i * bpow radix2 (e + 1 - width F))%R).
        { rewrite I3. rewrite mult_IZR, IZR_pow2 by (unfold q; lia). rewrite Rmult_assoc, <- bpow_plus.
          do 2 f_equal. unfold q, width. lia. }
        rewrite Ev. split.
        -- apply Rle_trans with (IZR (2 ^ (width F - 1)) * bpow radix2 (e + 1 - width F))%R.
           ++ rewrite IZR_pow2, <- bpow_plus by (unfold width; lia). apply bpow_le. lia.
           ++ apply Rmult_le_compat_r; [apply bpow_ge_0|apply IZR_le; lia].
        -- apply Rlt_le_trans with (IZR (2 ^ width F) * bpow radix2 (e + 1 - width F))%R.
           ++ apply Rmult_lt_compat_r; [apply bpow_gt_0|apply IZR_lt; lia].
           ++ rewrite IZR_pow2, <- bpow_plus by (unfold width; lia). apply bpow_le. lia.
    + unfold I. split; [lia|]. split.
      * split; [nia|]. unfold width. replace (mw F + ew F + 1) with (mw F + (ew F + 1)) by lia.
        rewrite (pow2_split (mw F) (ew F + 1)) by lia. nia.
      * do 2 f_equal. lia.
    + cbn [fst]. lia.
    + exists e. split; [exact Er|]. split; [auto|]. repeat split; discriminate.
  - destruct (Z.eqb_spec (expf F x) (2 ^ ew F - 1)) as [E1|E1].
    + rewrite shl_sig by assumption. cbn [bind].
      assert (Fx : finite F x = false) by (apply Z.ltb_ge; lia).
      assert (Z0 : iszero F x = false).
      { unfold iszero. rewrite (proj2 (Z.eqb_neq _ _)) by assumption. reflexivity. }
      rewrite Fx, Z0. unfold isnan, isinf. rewrite E1, Z.eqb_refl. cbn [andb].
      assert (Eq : (sigf F x * 2 ^ (ew F + 1) =? 0) = (sigf F x =? 0)).
      { destruct (Z.eqb_spec (sigf F x) 0) as [C|C]; [apply Z.eqb_eq|apply Z.eqb_neq]; nia. }
      rewrite Eq. destruct (sigf F x =? 0); cbn [negb]; eexists; (split; [reflexivity|]);
        (split; [discriminate|split; [discriminate|split; try discriminate; reflexivity]]).
    + assert (Fx : finite F x = true) by (apply finite_iff; lia).
      unfold ssub. rewrite chk32 by lia. eexists; split; [reflexivity|].
      rewrite (finite_not_nan F x Fx), (finite_not_inf F x Fx).
      assert (Z0 : iszero F x = false).
      { unfold iszero. rewrite (proj2 (Z.eqb_neq _ _)) by assumption. reflexivity. }
      rewrite Z0. split; [intros _ _|split; [discriminate|split; discriminate]].
      unfold val. rewrite sval_abs by (apply mag_of_nonneg; lia). split.
      * apply mag_of_ge_exp; lia.
      * eapply Rlt_le_trans; [apply mag_of_lt_exp; lia|]. apply bpow_le.
        rewrite (proj2 (Z.eqb_neq _ _)) by assumption. lia.
Qed.

(** ** frexp *)
Fixpoint g_frexp_n (F : fmt) (n : nat) (x : Z) : option (Z * Z) :=
  match n with
  | O => None
  | S n =>
    let* ys := ushr (width F) x (mw F) in
    let ee := to_i 32 (Z.land ys (2 ^ ew F - 1)) in
    if ee =? 0 then
      if fne F x 0 then
        let* r := g_frexp_n F n (fmul F x (mkbits F false (bias F + 64) 0)) in
        let* e := ssub 32 (snd r) 64 in
        Some (fst r, e)
      else Some (x, 0)
    else if ee =? 2 ^ ew F - 1 then Some (x, 0)
    else
      let* e := ssub 32 ee (bias F - 1) in
      Some (Z.lor (Z.land x (2 ^ (width F - 1) + (2 ^ mw F - 1))) ((bias F - 1) * 2 ^ mw F), e)
  end.
Lemma frexp_g x : frexp x = g_frexp_n f64 2 x.
Proof. reflexivity. Qed.
Lemma frexpf_g x : frexpf x = g_frexp_n f32 2 x.
Proof. reflexivity. Qed.

Lemma land_signsig F x : isbits F x ->
  Z.land x (2 ^ (width F - 1) + (2 ^ mw F - 1)) = mkbits F (signbit F x) 0 (sigf F x).
Proof.
  intros H. pose proof (fmt_facts F) as HF. pose proof (pow_mw_ge F). pose proof (bias_facts F).
  assert (PL : 2 ^ mw F <= 2 ^ (width F - 1)) by (apply Z.pow_le_mono_r; unfold width; lia).
  replace (2 ^ (width F - 1) + (2 ^ mw F - 1)) with (Z.lor (SIGN_MASK F) (2 ^ mw F - 1)).
  2:{ rewrite SIGN_MASK_eq, <- pow_width1. rewrite <- (Z.mul_1_l (2 ^ (width F - 1))).
      apply lor_disjoint; unfold width in *; lia. }
  rewrite Z.land_lor_distr_r, land_sign, land_pow2m1 by (assumption || lia). fold (sigf F x).
  pose proof (fields_range F x). unfold mkbits. rewrite <- pow_mwew.
  destruct (signbit F x); [|rewrite Z.lor_0_l; lia].
  rewrite <- (Z.mul_1_l (2 ^ (mw F + ew F))). rewrite lor_disjoint; [lia|lia|].
  rewrite pow_mwew. nia.
Qed.
Lemma lor_exp F s e m : 0 <= e < 2 ^ ew F -> 0 <= m < 2 ^ mw F ->
  Z.lor (mkbits F s 0 m) (e * 2 ^ mw F) = mkbits F s e m.
Proof.
  intros He Hm. pose proof (fmt_facts F) as HF. pose proof (pow_mw_ge F).
  assert (A : mkbits F s 0 m = Z.lor ((if s then 1 else 0) * 2 ^ (mw F + ew F)) m).
  { rewrite lor_disjoint; [unfold mkbits; destruct s; lia|lia|]. rewrite pow_mwew. nia. }
  rewrite A. rewrite <- Z.lor_assoc. rewrite (Z.lor_comm m).
  rewrite (lor_disjoint e m) by lia. rewrite lor_disjoint; [unfold mkbits; destruct s; lia|lia|].
  rewrite pow_mwew. split; [nia|]. nia.
Qed.

(** the normal case *)
Lemma g_frexp_normal F n x : isbits F x -> finite F x = true -> expf F x <> 0 ->
  exists m, g_frexp_n F (S n) x = Some (m, expf F x - (bias F - 1)) /\
    frexp_spec F x m (expf F x - (bias F - 1)).
Proof.
  intros Hx Hf He. pose proof (fmt_facts F) as HF. pose proof (bias_facts F) as HB.
  pose proof (fields_range F x) as Hr. pose proof (pow_mw_ge F) as Hm. apply finite_iff in Hf as Hf'.
  cbn [g_frexp_n]. rewrite ushr_ok by (unfold width; lia). cbn [bind].
  rewrite exp_read by assumption. cbv zeta.
  rewrite (proj2 (Z.eqb_neq _ _)) by assumption.
  rewrite (proj2 (Z.eqb_neq (expf F x) (2 ^ ew F - 1))) by lia.
  unfold ssub. rewrite chk32 by lia. cbn [bind].
  rewrite land_signsig, lor_exp by (assumption || lia).
  eexists; split; [reflexivity|].
  destruct (mkbits_fields F (signbit F x) (bias F - 1) (sigf F x)) as (S1 & S2 & S3); try lia.
  split; [apply mkbits_range; lia|]. split; [assumption|]. split.
  - intros _ _. split; [apply finite_iff; lia|].
    rewrite val_mkbits by lia. rewrite sval_abs by (apply mag_of_nonneg; lia). split; [split|].
    + replace (1 / 2)%R with (bpow radix2 (bias F - 1 - bias F)).
      * apply mag_of_ge_exp; lia.
      * replace (bias F - 1 - bias F) with (-1) by lia. apply bpow2_m1.
    + eapply Rlt_le_trans; [apply mag_of_lt_exp; lia|].
      rewrite (proj2 (Z.eqb_neq _ _)) by lia. change 1%R with (bpow radix2 0). apply bpow_le. lia.
    + unfold val, mag_of. rewrite !(proj2 (Z.eqb_neq _ _)) by lia.
      replace (expf F x - bias F - mw F) with ((bias F - 1 - bias F - mw F) + (expf F x - (bias F - 1))) by lia.
      rewrite bpow_plus. destruct (signbit F x); simpl; ring.
  - split; [|congruence]. intros C. unfold iszero in C. rewrite (proj2 (Z.eqb_neq _ _)) in C by assumption.
    discriminate.
Qed.

Lemma g_frexp_ok F x : mw F < 64 -> 64 < bias F -> isbits F x ->
  exists m e, g_frexp_n F 2 x = Some (m, e) /\ frexp_spec F x m e.
Proof.
  intros Hmw Hb64 Hx. pose proof (fmt_facts F) as HF. pose proof (bias_facts F) as HB.
  pose proof (fields_range F x) as Hr. pose proof (pow_mw_ge F) as Hm.
  destruct (Z.eq_dec (expf F x) 0) as [E0|E0].
  2:{ destruct (finite F x) eqn:Fx.
      { destruct (g_frexp_normal F 1 x Hx Fx E0) as (m & A & B). eauto. }
      apply nonfinite_e in Fx as E1.
      exists x, 0. split.
      - cbn [g_frexp_n]. rewrite ushr_ok by (unfold width; lia). cbn [bind].
        rewrite exp_read by assumption. cbv zeta. rewrite (proj2 (Z.eqb_neq _ _)) by assumption.
        rewrite E1, Z.eqb_refl. reflexivity.
      - split; [assumption|]. split; [reflexivity|]. split; [congruence|]. split; [auto|auto]. }
  assert (Fx : finite F x = true) by (apply finite_iff; lia).
  remember 1%nat as n1. cbn [g_frexp_n]. rewrite ushr_ok by (unfold width; lia). cbn [bind].
  rewrite exp_read by assumption. cbv zeta. rewrite E0. cbn [Z.eqb].
  assert (D0 : fne F x 0 = negb (iszero F x)).
  { unfold fne. f_equal. destruct (iszero F x) eqn:Z0.
    - apply feq_spec. apply zero_eq; [assumption|]. change 0 with ZERO. rewrite (ZERO_eq F).
      apply zero_fields.
    - destruct (feq F x 0) eqn:C; [|reflexivity]. apply feq_spec in C.
      destruct C as (_ & _ & C). rewrite Fx in C. destruct C as [_ C].
      change 0 with ZERO in C. rewrite (ZERO_eq F), val_zero in C. apply val_eq_0 in C; try assumption.
      congruence. }
  rewrite D0. destruct (iszero F x) eqn:Z0; cbn [negb].
  { exists x, 0. split; [reflexivity|]. split; [assumption|]. split; [reflexivity|]. split; [congruence|].
    split; [auto|auto]. }
  set (c := mkbits F false (bias F + 64) 0).
  destruct (mkbits_fields F false (bias F + 64) 0) as (C1 & C2 & C3); try lia. fold c in C1, C2, C3.
  assert (Cf : finite F c = true) by (apply finite_iff; lia).
  assert (Cv : val F c = bpow radix2 64).
  { unfold val, mag_of. rewrite C1, C2, C3, (proj2 (Z.eqb_neq _ _)) by lia. simpl sval.
    rewrite Z.add_0_r, IZR_pow2, <- bpow_plus by lia. f_equal. lia. }
  assert (S0 : 0 < sigf F x).
  { unfold iszero in Z0. rewrite E0 in Z0. cbn [Z.eqb andb] in Z0. apply Z.eqb_neq in Z0. lia. }
  assert (Vx : val F x = sval (signbit F x) (IZR (sigf F x) * bpow radix2 (1 - bias F - mw F))).
  { unfold val, mag_of. rewrite E0. reflexivity. }
  pose proof (fmul_spec F x c Fx Cf) as M.
  assert (Ev : (val F x * val F c = sval (signbit F x) (IZR (sigf F x) * bpow radix2 (1 - bias F - mw F + 64)))%R).
  { rewrite Vx, Cv. rewrite (bpow_plus radix2 (1 - bias F - mw F)). destruct (signbit F x); cbn [sval]; ring. }
  rewrite Ev in M.
  assert (Pos : (0 < IZR (sigf F x) * bpow radix2 (1 - bias F - mw F + 64))%R).
  { apply Rmult_lt_0_compat; [apply IZR_lt; lia|apply bpow_gt_0]. }
  assert (Up : (IZR (sigf F x) * bpow radix2 (1 - bias F - mw F + 64) < bpow radix2 (65 - bias F))%R).
  { apply Rlt_le_trans with (IZR (2 ^ mw F) * bpow radix2 (1 - bias F - mw F + 64))%R.
    - apply Rmult_lt_compat_r; [apply bpow_gt_0|apply IZR_lt; lia].
    - rewrite IZR_pow2, <- bpow_plus by lia. apply bpow_le. lia. }
  destruct (rounds_to_exact F _ _ _ M) as (M1 & M2 & M3).
  { apply repr_rnd. apply repr_sval. apply repr_int; [|unfold emin; lia].
    rewrite Z.add_1_r, Z.pow_succ_r by lia. lia. }
  { rewrite sval_abs by lra. eapply Rlt_le_trans; [exact Up|]. apply bpow_le. lia. }
  set (x' := fmul F x c) in *.
  assert (Bx' : isbits F x') by apply M.
  assert (Sx' : signbit F x' = signbit F x).
  { rewrite M3. destruct (signbit F x); cbn [sval].
    - rewrite Rcompare_Lt by lra. reflexivity. - rewrite Rcompare_Gt by lra. reflexivity. }
  assert (Ne : expf F x' <> 0).
  { intros C. 
    assert (L : (Rabs (val F x') < bpow radix2 (1 - bias F))%R).
    { unfold val. rewrite sval_abs by (apply mag_of_nonneg; apply fields_range). rewrite C.
      eapply Rlt_le_trans; [apply mag_of_lt_exp; [lia|apply fields_range]|]. apply bpow_le. cbn [Z.eqb]. lia. }
    rewrite M2, sval_abs in L by lra.
    assert (G : (bpow radix2 (1 - bias F - mw F + 64) <= IZR (sigf F x) * bpow radix2 (1 - bias F - mw F + 64))%R).
    { rewrite <- (Rmult_1_l (bpow radix2 (1 - bias F - mw F + 64))) at 1.
      apply Rmult_le_compat_r; [apply bpow_ge_0|apply IZR_le; lia]. }
    assert (bpow radix2 (1 - bias F) <= bpow radix2 (1 - bias F - mw F + 64))%R by (apply bpow_le; lia).
    lra. }
  destruct (g_frexp_normal F 0 x' Bx' M1 Ne) as (m & A & B).
  subst n1. rewrite A. cbn [bind snd fst].
  apply finite_iff in M1 as M1'. pose proof (fields_range F x').
  unfold ssub. rewrite chk32 by lia. cbn [bind].
  eexists _, _. split; [reflexivity|].
  destruct B as (B1 & B2 & B3 & B4 & B5). unfold frexp_spec.
  split; [assumption|]. split; [congruence|].
  assert (Z' : iszero F x' = false).
  { unfold iszero. rewrite (proj2 (Z.eqb_neq _ _)) by assumption. reflexivity. }
  destruct (B3 M1 Z') as (D1 & D2 & D3).
  split; [|split; [congruence|congruence]].
  intros _ _. split; [assumption|]. split; [assumption|].
  rewrite M2 in D3. rewrite Vx.
  replace (expf F x' - (bias F - 1) - 64) with ((expf F x' - (bias F - 1)) + -64) by lia.
  rewrite bpow_plus, <- Rmult_assoc, <- D3.
  assert (Eb : bpow radix2 (1 - bias F - mw F) = (bpow radix2 (1 - bias F - mw F + 64) * bpow radix2 (-64))%R).
  { rewrite <- bpow_plus. f_equal. lia. }
  rewrite Eb. destruct (signbit F x); cbn [sval]; ring.
Qed.

(** ** modf *)
Definition g_modf (F : fmt) (msk : option Z) (x : Z) : option (Z * Z) :=
  let* us := ushr (width F) x (mw F) in
  let* e := ssub 32 (to_i 32 (Z.land us (2 ^ ew F - 1))) (bias F) in
  let* sbit := Some (SIGN_MASK F) in
  if mw F <=? e then
    let* ul := ushl (width F) x (ew F + 1) in
    if (e =? bias F + 1) && negb (ul =? 0) then Some (x, x)
    else Some (Z.land x sbit, x)
  else if e <? 0 then
    Some (x, Z.land x sbit)
  else
    let* m1 := msk in
    let* mask := ushr (width F) m1 e in
    if Z.land x mask =? 0 then Some (Z.land x sbit, x)
    else
      let rv2 := Z.land x (unot (width F) mask) in
      Some (fsub F x rv2, rv2).
Lemma modf_g x : modf x = g_modf f64 (Some (SIG_MASK f64)) x.
Proof. reflexivity. Qed.
Lemma modff_g x : modff x = g_modf f32 (Some (SIG_MASK f32)) x.
Proof. reflexivity. Qed.

Lemma Ztrunc_small r : (Rabs r < 1)%R -> Ztrunc r = 0.
Proof.
  intros H. apply Rabs_lt_inv in H. unfold Ztrunc. destruct (Rlt_bool_spec r 0).
  - apply Zceil_smallneg; lra.
  - apply Zfloor_small; lra.
Qed.
Lemma mid_Ztrunc F x : bias F <= expf F x < bias F + mw F ->
  Ztrunc (val F x) = sgz (signbit F x)
    ((2 ^ mw F + sigf F x) / 2 ^ (mw F - (expf F x - bias F))).
Proof.
  intros HM. unfold Ztrunc. destruct (signbit F x) eqn:Es.
  - pose proof (val_sign_nonpos F x Es). destruct (Rlt_bool_spec (val F x) 0) as [L|L].
    + rewrite (mid_ceil_neg F x HM Es). reflexivity.
    + assert (V : val F x = 0%R) by lra. exfalso. rewrite (mid_val F x HM), Es in V.
      pose proof (fields_range F x). pose proof (pow_mw_ge F). pose proof (mid_k F x HM).
      apply Rmult_integral in V. destruct V as [V|V].
      * apply eq_IZR in V. simpl in V. lia.
      * revert V. apply Rinv_neq_0_compat. apply not_0_IZR. apply Z.pow_nonzero; lia.
  - pose proof (val_sign_nonneg F x Es). rewrite Rlt_bool_false by lra.
    rewrite (mid_floor_pos F x HM Es). reflexivity.
Qed.

Lemma g_modf_ok F x : isbits F x ->
  exists f i, g_modf F (Some (SIG_MASK F)) x = Some (f, i) /\ modf_spec F x f i.
Proof.
  intros Hx. pose proof (fmt_facts F) as HF. pose proof (bias_facts F) as HB.
  pose proof (fields_range F x) as Hr. pose proof (pow_mw_ge F) as Hm.
  unfold g_modf. rewrite ushr_ok by (unfold width; lia). cbn [bind].
  rewrite exp_read by assumption. unfold ssub. rewrite chk32 by lia. cbn [bind].
  rewrite sign_zero by assumption.
  destruct (zero_fields F (signbit F x)) as (B1 & B2 & B3 & B4).
  destruct (Z.leb_spec (mw F) (expf F x - bias F)) as [Hbig|Hbig].
  - rewrite shl_sig by assumption. cbn [bind].
    assert (R : rounded_by F Ztrunc x x).
    { apply rounded_same; [assumption|]. intros Hf. rewrite (zone_big F x Hf) by lia. now rewrite Ztrunc_IZR. }
    assert (P1 : 0 < 2 ^ (ew F + 1)) by (apply pow2_pos; lia).
    destruct ((expf F x - bias F =? bias F + 1) && negb (sigf F x * 2 ^ (ew F + 1) =? 0)) eqn:T.
    + rewrite andb_true_iff, negb_true_iff, Z.eqb_eq, Z.eqb_neq in T. destruct T as [T1 T2].
      assert (N : isnan F x = true).
      { unfold isnan. rewrite andb_true_iff, negb_true_iff, Z.eqb_eq, Z.eqb_neq. split; [lia|nia]. }
      exists x, x. split; [reflexivity|]. split; [assumption|]. split; [assumption|]. split; [assumption|].
      destruct (class_cases F x) as [C|[C|C]]; try (exfalso; intuition congruence).
      destruct C as (C1 & C2 & C3). rewrite C1, C2. split; [discriminate|]. split; [discriminate|auto].
    + assert (N : isnan F x = false).
      { rewrite andb_false_iff, negb_false_iff, Z.eqb_eq, Z.eqb_neq in T.
        unfold isnan. rewrite andb_false_iff, negb_false_iff, Z.eqb_eq, Z.eqb_neq.
        destruct T as [T|T]; [left; lia|right; nia]. }
      exists (zero F (signbit F x)), x. split; [reflexivity|].
      split; [assumption|]. split; [assumption|]. split; [assumption|]. rewrite N.
      split; [|split; [reflexivity|discriminate]].
      intros _. rewrite val_zero. split; [assumption|]. split; [ring|]. split; [|assumption].
      rewrite Rabs_R0. lra.
  - destruct (Z.ltb_spec (expf F x - bias F) 0) as [Hs|Hs].
    + assert (Hf : finite F x = true) by (apply finite_iff; lia).
      assert (V1 : (Rabs (val F x) < 1)%R) by (apply zone_small; lia).
      exists x, (zero F (signbit F x)). split; [reflexivity|]. split; [assumption|]. split; [assumption|].
      split.
      { split; [assumption|]. split; [|congruence]. intros _. rewrite val_zero, Ztrunc_small by assumption.
        auto. }
      rewrite (finite_not_inf F x Hf), (finite_not_nan F x Hf). split; [|split; discriminate].
      intros _. rewrite val_zero. split; [assumption|]. split; [ring|]. auto.
    + assert (HM : bias F <= expf F x < bias F + mw F) by lia.
      assert (Hf : finite F x = true) by (apply finite_iff; lia).
      pose proof (mid_mask F x HM) as MM. rewrite to_u_small in MM.
      2:{ split; [lia|]. apply Z.lt_trans with 128; [lia|reflexivity]. }
      unfold BITS in MM. rewrite MM. cbn [bind]. rewrite (mid_land F x Hx HM).
      pose proof (mid_k F x HM) as Hk. pose proof (mid_val F x HM) as Hv. pose proof (mid_Ztrunc F x HM) as HT.
      pose proof (mid_exact F x HM) as HE. destruct (mid_trunc F x Hx HM) as (A1 & A2 & A3 & A4).
      set (k := mw F - (expf F x - bias F)) in *. set (N := 2 ^ mw F + sigf F x) in *.
      assert (K0 : 0 < 2 ^ k) by (apply pow2_pos; lia).
      assert (K1 : (IZR (2 ^ k) <> 0)%R) by (apply not_0_IZR; lia).
      destruct (Z.eqb_spec (N mod 2 ^ k) 0) as [E0|E0].
      * exists (zero F (signbit F x)), x. split; [reflexivity|]. split; [assumption|]. split; [assumption|].
        split.
        { apply rounded_same; [assumption|]. intros _. rewrite (HE E0) at 2. rewrite Ztrunc_IZR. auto. }
        rewrite (finite_not_nan F x Hf), (finite_not_inf F x Hf). split; [|split; discriminate].
        intros _. rewrite val_zero, Rabs_R0. split; [assumption|]. split; [ring|]. split; [lra|assumption].
      * rewrite land_unot_low by (unfold width; assumption || lia).
        set (i := x - x mod 2 ^ k) in *.
        pose proof (fsub_spec F x i Hf A2) as S.
        pose proof (Z.div_mod N (2 ^ k)) as DM. pose proof (Z.mod_pos_bound N (2 ^ k)) as MB.
        assert (Ev : (val F x - val F i = sval (signbit F x) (IZR (N mod 2 ^ k) * bpow radix2 (- k)))%R).
        { rewrite A4, Hv. rewrite <- !sval_IZR. rewrite bpow_opp, <- IZR_pow2 by lia.
          replace (IZR N) with (IZR (2 ^ k) * IZR (N / 2 ^ k) + IZR (N mod 2 ^ k))%R
            by (rewrite <- mult_IZR, <- plus_IZR; f_equal; lia).
          destruct (signbit F x); cbn [sval]; field; assumption. }
        assert (Pos : (0 < IZR (N mod 2 ^ k) * bpow radix2 (- k))%R).
        { apply Rmult_lt_0_compat; [apply IZR_lt; lia|apply bpow_gt_0]. }
        assert (Up : (IZR (N mod 2 ^ k) * bpow radix2 (- k) < 1)%R).
        { apply Rlt_le_trans with (IZR (2 ^ k) * bpow radix2 (- k))%R.
          - apply Rmult_lt_compat_r; [apply bpow_gt_0|apply IZR_lt; lia].
          - rewrite IZR_pow2, <- bpow_plus by lia. rewrite Z.add_opp_diag_r. simpl. lra. }
        rewrite Ev in S. destruct (rounds_to_exact F _ _ _ S) as (S1 & S2 & S3).
        { apply repr_rnd, repr_sval. apply repr_int; [|unfold emin; lia].
          rewrite Z.abs_eq by lia.
          assert (2 ^ k <= 2 ^ (mw F + 1)) by (apply Z.pow_le_mono_r; lia). lia. }
        { rewrite sval_abs by lra. eapply Rlt_le_trans; [exact Up|]. change 1%R with (bpow radix2 0).
          apply bpow_le. lia. }
        exists (fsub F x i), i. split; [reflexivity|]. split; [apply S|]. split; [assumption|].
        split.
        { split; [assumption|]. split; [|congruence]. intros _. split; [assumption|]. split; [|assumption].
          rewrite A4, HT. reflexivity. }
        rewrite (finite_not_nan F x Hf), (finite_not_inf F x Hf). split; [|split; discriminate].
        intros _. split; [assumption|]. split; [rewrite S2, <- Ev; ring|].
        split; [rewrite S2, sval_abs by lra; assumption|].
        rewrite S3. destruct (signbit F x); cbn [sval].
        -- rewrite Rcompare_Lt by lra. reflexivity.
        -- rewrite Rcompare_Gt by lra. reflexivity.
Qed.

(** ** Instances *)
Lemma nextafter_ok x y : isbits f64 x -> isbits f64 y -> exists r, nextafter x y = Some r /\ nextafter_spec f64 x y r.
Proof. exact (g_nextafter_ok f64 x y). Qed.
Lemma nextafterf_ok x y : isbits f32 x -> isbits f32 y -> exists r, nextafterf x y = Some r /\ nextafter_spec f32 x y r.
Proof. exact (g_nextafter_ok f32 x y). Qed.
Lemma ilogb_ok x : isbits f64 x -> exists e, ilogb x = Some e /\ ilogb_spec f64 (- 2 ^ 31) (- 2 ^ 31) (2 ^ 31 - 1) x e.
Proof. rewrite ilogb_g. apply g_ilogb_ok. vm_compute. discriminate. Qed.
Lemma ilogbf_ok x : isbits f32 x -> exists e, ilogbf x = Some e /\ ilogb_spec f32 (- 2 ^ 31) (- 2 ^ 31) (2 ^ 31 - 1) x e.
Proof. rewrite ilogbf_g. apply g_ilogb_ok. vm_compute. discriminate. Qed.
Lemma frexp_ok x : isbits f64 x -> exists m e, frexp x = Some (m, e) /\ frexp_spec f64 x m e.
Proof. rewrite frexp_g. apply g_frexp_ok; vm_compute; reflexivity. Qed.
Lemma frexpf_ok x : isbits f32 x -> exists m e, frexpf x = Some (m, e) /\ frexp_spec f32 x m e.
Proof. rewrite frexpf_g. apply g_frexp_ok; vm_compute; reflexivity. Qed.
Lemma modf_ok x : isbits f64 x -> exists f i, modf x = Some (f, i) /\ modf_spec f64 x f i.
Proof. rewrite modf_g. apply g_modf_ok. Qed.
Lemma modff_ok x : isbits f32 x -> exists f i, modff x = Some (f, i) /\ modf_spec f32 x f i.
Proof. rewrite modff_g. apply g_modf_ok. Qed.

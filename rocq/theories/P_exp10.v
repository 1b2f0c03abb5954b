(** exp10 and exp10f: table range, exactness at small integers. *)
From Coq Require Import ZArith Reals Lia Lra Bool List.
From Flocq Require Import Core.
From Verif Require Import Base Spec SpecElem SpecFun Format P_format Ieee P_ieee P_real P_key P_neg M_scalbn M_bits P_bits M_elib M_exp M_pow P_elem P_elem2
  P_ival P_ival2 P_tot P_exp P_lit P_pi.
Import ListNotations.
Open Scope Z_scope.

(** A nonzero value determines its pattern. *)
Lemma val_det F x c : isbits F x -> isbits F c -> finite F x = true -> finite F c = true -> val F x = val F c -> (val F c <> 0)%R -> x = c.
Proof.
  intros Bx Bc Fx Fc E N. apply (val_sign_inj F); try assumption.
  destruct (signbit F x) eqn:Sx, (signbit F c) eqn:Sc; try reflexivity; exfalso.
  - assert (val F x <= 0)%R by (unfold val; rewrite Sx; unfold sval; pose proof (mag_of_nonneg F (expf F x) (sigf F x) ltac:(apply fields_range)); lra).
    assert (0 <= val F c)%R by (unfold val; rewrite Sc; unfold sval; apply mag_of_nonneg, fields_range). lra.
  - assert (0 <= val F x)%R by (unfold val; rewrite Sx; unfold sval; apply mag_of_nonneg, fields_range).
    assert (val F c <= 0)%R by (unfold val; rewrite Sc; unfold sval; pose proof (mag_of_nonneg F (expf F c) (sigf F c) ltac:(apply fields_range)); lra). lra.
Qed.

(** Powers of ten. *)
Lemma p10_pos n : 0 <= n -> powerRZ 10 n = IZR (10 ^ n).
Proof.
  intros H. destruct n as [|p|p]; [reflexivity| |lia]. cbn [powerRZ]. rewrite pow_IZR. now rewrite positive_nat_Z.
Qed.
Lemma p10_neg n : n < 0 -> powerRZ 10 n = (/ IZR (10 ^ (- n)))%R.
Proof.
  intros H. destruct n as [|p|p]; [lia|lia|]. cbn [powerRZ]. rewrite pow_IZR. now rewrite positive_nat_Z.
Qed.
Definition p10b (F : fmt) (n y : Z) : bool :=
  (0 <=? y) && (y <? 2 ^ width F) && finite F y && negb (iszero F y) && negb (signbit F y) &&
  if 0 <=? n then litb F y (10 ^ n) 1
  else let D := 10 ^ (- n) in let k := bias F + mw F - expf F y in let M := 2 ^ mw F + sigf F y in
    (1 <=? expf F y) && (0 <=? k) && (2 ^ mw F <? M) && (2 * Z.abs (2 ^ k - M * D) <? D).
Lemma p10_ok F n y : p10b F n y = true -> isbits F y /\ rounds_to F (powerRZ 10 n) false y.
Proof.
  unfold p10b. cbv zeta. rewrite !andb_true_iff, !negb_true_iff, Z.leb_le, Z.ltb_lt. intros [[[[[B1 B2] Fy] NZ] Sy] H]. assert (B : isbits F y) by (split; assumption).
  split; [assumption|]. destruct (Z.leb_spec 0 n) as [L|L].
  - apply val_lit in H. rewrite p10_pos by assumption. replace (IZR (10 ^ n)) with (val F y) by (rewrite H; field). now apply rounds_to_self.
  - rewrite !andb_true_iff, !Z.leb_le, !Z.ltb_lt in H. destruct H as [[[E K] M] H].
    pose proof (fields_range F y) as [R1 R2]. pose proof (fmt_facts F) as FF.
    set (k := bias F + mw F - expf F y) in *. assert (P2 : 2 ^ (mw F + 1) = 2 * 2 ^ mw F) by (rewrite Z.pow_add_r by lia; lia).
    apply (rounds_near F y _ _ (2 ^ mw F + sigf F y) (- k)); try assumption.
    + unfold val. rewrite Sy. unfold sval, mag_of. destruct (Z.eqb_spec (expf F y) 0); [lia|]. unfold k. do 2 f_equal. lia.
    + lia.
    + unfold emin, k. lia.
    + rewrite p10_neg by assumption. rewrite Z.opp_involutive, <- IZR_pow2 by assumption.
      assert (D : 0 < 10 ^ (- n)) by (apply Z.pow_pos_nonneg; lia). apply IZR_lt in D as D'. 
      set (d := 10 ^ (- n)) in *. set (m := 2 ^ mw F + sigf F y) in *. apply IZR_lt in H. rewrite mult_IZR, abs_IZR, minus_IZR, mult_IZR in H.
      replace (/ IZR d * IZR (2 ^ k) - IZR m)%R with ((IZR (2 ^ k) - IZR m * IZR d) * / IZR d)%R by (field; lra).
      rewrite Rabs_mult, (Rabs_pos_eq (/ _)) by (apply Rlt_le, Rinv_0_lt_compat; lra).
      apply Rmult_lt_reg_r with (IZR d); [lra|]. rewrite Rmult_assoc, Rinv_l by lra. lra.
Qed.

(** The pattern of a small integer. *)
Definition intb (F : fmt) (f : Z -> option Z) (n : Z) : bool :=
  let c := of_int F n in litb F c n 1 && finite F c && (0 <=? c) && (c <? 2 ^ width F) &&
  match f c with Some y => p10b F n y | None => false end.
Lemma exp10_int F f n x : isbits F x -> finite F x = true -> val F x = IZR n -> n <> 0 -> intb F f n = true ->
  exists r, f x = Some r /\ isbits F r /\ rounds_to F (powerRZ 10 n) false r.
Proof.
  intros B Fx V N. unfold intb. cbv zeta. rewrite !andb_true_iff, Z.leb_le, Z.ltb_lt. intros [[[[L Fc] B1] B2] H].
  apply val_lit in L. assert (E : x = of_int F n).
  { apply (val_det F); try assumption; [split; assumption| |]; rewrite L; [rewrite V; field|].
    unfold Rdiv. rewrite Rinv_1, Rmult_1_r. now apply not_0_IZR. }
  rewrite <- E in H. destruct (f x) as [r|]; [|discriminate]. exists r. destruct (p10_ok F n r H). auto.
Qed.
Definition zrange (N : Z) : list Z := map (fun i => Z.of_nat i - N) (seq 0 (Z.to_nat (2 * N + 1))).
Lemma zrange_in N n : Z.abs n <= N -> In n (zrange N).
Proof. intros H. unfold zrange. apply in_map_iff. exists (Z.to_nat (n + N)). split; [lia|]. apply in_seq. lia. Qed.
Lemma exp10_ints F f N : forallb (fun n => (n =? 0) || intb F f n) (zrange N) = true ->
  match f (zero F false) with Some r => r =? onef F false | None => false end = true ->
  match f (zero F true) with Some r => r =? onef F false | None => false end = true ->
  p10b F 0 (onef F false) = true ->
  forall x n, isbits F x -> finite F x = true -> val F x = IZR n -> Z.abs n <= N ->
  exists r, f x = Some r /\ isbits F r /\ rounds_to F (powerRZ 10 n) false r.
Proof.
  intros A Z0 Z1 P1 x n B Fx V H. rewrite forallb_forall in A. specialize (A n (zrange_in N n H)). apply orb_true_iff in A.
  destruct (Z.eq_dec n 0) as [->|N0].
  - apply val_eq_0 in V; [|assumption|assumption].
    assert (E : f x = Some (onef F false)).
    { rewrite (iszero_eq F x B V). destruct (signbit F x).
      - destruct (f (zero F true)); [|discriminate]. apply Z.eqb_eq in Z1. now subst.
      - destruct (f (zero F false)); [|discriminate]. apply Z.eqb_eq in Z0. now subst. }
    exists (onef F false). destruct (p10_ok F 0 _ P1). auto.
  - destruct A as [A|A]; [apply Z.eqb_eq in A; lia|]. now apply exp10_int.
Qed.

(** Table range: the integral part has an exponent field below the bound, so it is small. *)
Lemma small_int F n c : isbits F n -> expf F n < expf F c -> isbits F c -> signbit F c = false -> sigf F c = 0 -> finite F c = true -> 1 <= expf F c ->
  finite F n = true /\ (Rabs (val F n) < val F c)%R.
Proof.
  intros B L Bc Sc Gc Fc E1. pose proof (fields_range F n) as [R1 R2]. unfold finite in *. rewrite Z.ltb_lt in Fc.
  split; [apply Z.ltb_lt; lia|]. unfold val at 1. rewrite sval_abs by (apply mag_of_nonneg; lia).
  unfold val. rewrite Sc. unfold sval. apply (magz_lt_val F n c). unfold magz. rewrite Gc. nia.
Qed.
Lemma modf_index F x y n c k : modf_spec F x y n -> expf F n < expf F c -> isbits F c -> signbit F c = false -> sigf F c = 0 -> finite F c = true -> 1 <= expf F c ->
  val F c = IZR k -> k < 2 ^ 32 -> - k < to_isize F n < k.
Proof.
  intros (By & Bn & RB & _) L Bc Sc Gc Fc E1 V K. destruct (small_int F n c Bn L Bc Sc Gc Fc E1) as [Fn A]. rewrite V in A.
  destruct RB as (_ & R1 & R2). destruct (finite F x) eqn:Fx.
  - destruct (R1 eq_refl) as (_ & W & _). unfold to_isize, to_i64. rewrite to_intZ_finite; [|lia|assumption]. rewrite W in *. rewrite Ztrunc_IZR.
    set (t := Ztrunc (val F x)) in *. rewrite <- abs_IZR in A. apply lt_IZR in A. unfold clampZ. zdec; lia.
  - rewrite (R2 eq_refl) in Fn. congruence.
Qed.
Lemma exp10f_tot : total1 f32 f32 rs_exp10f.
Proof.
  intros x B. unfold rs_exp10f. destruct (modff_ok x B) as (y & n & -> & S). cbn [bind]. cbv beta iota zeta.
  pose proof S as (By & Bn & _ & _). change (Z.land (Z.shiftr n 23) 255) with (Z.land (Z.shiftr n 23) (2 ^ 8 - 1)). rewrite land_pow2m1, Z.shiftr_div_pow2 by lia.
  change ((n / 2 ^ 23) mod 2 ^ 8) with (expf f32 n). destruct (Z.ltb_spec (expf f32 n) 130) as [L|L].
  - assert (H : -8 < to_isize f32 n < 8).
    { apply (modf_index f32 x y n 0x41000000 8 S); try reflexivity; try lia.
      - change (expf f32 0x41000000) with 130. exact L.
      - vm_compute; split; [discriminate|reflexivity].
      - vm_compute; discriminate.
      - replace 8%R with (8 / 1)%R by lra. lit. }
    assert (T : to_u 64 (to_isize f32 n + 7) = to_isize f32 n + 7) by (apply Z.mod_small; lia).
    destruct (tab_get_ok rs_exp10f_P10 (to_isize f32 n + 7)) as (v & Ev & Iv); [change (Z.of_nat (length rs_exp10f_P10)) with 15; lia|].
    assert (Bv : isbits f32 v). { cbn [rs_exp10f_P10 In] in Iv. repeat (destruct Iv as [<-|Iv]; [vm_compute; split; [discriminate|reflexivity]|]). destruct Iv. }
    destruct (feq f32 y 0).
    + rewrite sadd_ok by lia. cbn [bind]. rewrite T. exists v. split; assumption.
    + destruct (exp2f_tot (rs_exp10f_LN10_F32 *' y)%fl) as (r & -> & Br); [bitsok|]. cbn [bind]. rewrite sadd_ok by lia. cbn [bind]. rewrite T, Ev. cbn [bind].
      eexists. split; [reflexivity|bitsok].
  - destruct (exp2_tot (rs_exp10f_LN10_F64 *: fcvt f32 f64 x)%fl) as (r & -> & Br); [bitsok|]. cbn [bind]. eexists. split; [reflexivity|bitsok].
Qed.
(** For exp10 the branch taken outside the table is pow(10, x). *)
Lemma exp10_tab x : isbits f64 x -> rs_exp10 x = rs_pow 0x4024000000000000 x \/ exists r, rs_exp10 x = Some r /\ isbits f64 r.
Proof.
  intros B. unfold rs_exp10. destruct (modf_ok x B) as (y & n & -> & S). cbn [bind]. cbv beta iota zeta.
  pose proof S as (By & Bn & _ & _). change (Z.land (Z.shiftr n 52) 2047) with (Z.land (Z.shiftr n 52) (2 ^ 11 - 1)). rewrite land_pow2m1, Z.shiftr_div_pow2 by lia.
  change ((n / 2 ^ 52) mod 2 ^ 11) with (expf f64 n). destruct (Z.ltb_spec (expf f64 n) 1027) as [L|L]; [right|now left].
  assert (H : -16 < to_isize f64 n < 16).
  { apply (modf_index f64 x y n 0x4030000000000000 16 S); try reflexivity; try lia.
    - change (expf f64 0x4030000000000000) with 1027. exact L.
    - vm_compute; split; [discriminate|reflexivity].
    - vm_compute; discriminate.
    - replace 16%R with (16 / 1)%R by lra. lit. }
  assert (T : to_u 64 (to_isize f64 n + 15) = to_isize f64 n + 15) by (apply Z.mod_small; lia).
  destruct (tab_get_ok rs_exp10_P10 (to_isize f64 n + 15)) as (v & Ev & Iv); [change (Z.of_nat (length rs_exp10_P10)) with 31; lia|].
  assert (Bv : isbits f64 v). { cbn [rs_exp10_P10 In] in Iv. repeat (destruct Iv as [<-|Iv]; [vm_compute; split; [discriminate|reflexivity]|]). destruct Iv. }
  destruct (feq f64 y 0).
  - rewrite sadd_ok by lia. cbn [bind]. rewrite T. exists v. split; assumption.
  - destruct (exp2_tot (rs_exp10_LN10 *: y)%fl) as (r & -> & Br); [bitsok|]. cbn [bind]. rewrite sadd_ok by lia. cbn [bind]. rewrite T, Ev. cbn [bind].
    eexists. split; [reflexivity|bitsok].
Qed.

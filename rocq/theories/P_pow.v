(** pow and powf: the integer test on the exponent and the special cases. *)
From Coq Require Import ZArith Reals Lia Lra Bool List.
From Flocq Require Import Core.
From Verif Require Import Base Spec SpecElem SpecPow SpecFun Format P_format Ieee P_ieee P_real P_key P_neg M_scalbn M_sqrt M_elib M_pow P_elem P_elem2
  P_ival P_ival2 P_tot P_exp P_lit P_nan P_dom.
Import ListNotations.
Open Scope Z_scope.

(** ** Integers among the floats *)
Lemma bias_ge F : mw F + 2 <= bias F /\ 2 <= mw F /\ 3 <= ew F.
Proof. pose proof (fmt_facts F). unfold bias. lia. Qed.
Lemma int_scaled M q : 0 <= q -> (exists n, (IZR M * bpow radix2 (- q))%R = IZR n) <-> M mod 2 ^ q = 0.
Proof.
  intros Q. pose proof (Z.pow_pos_nonneg 2 q ltac:(lia) Q) as P.
  assert (E : forall n, (IZR M * bpow radix2 (- q))%R = IZR n <-> M = n * 2 ^ q).
  { intros n. rewrite bpow_opp, <- IZR_pow2 by lia. apply IZR_lt in P as P'. split.
    - intros H. apply eq_IZR. rewrite mult_IZR, <- H. field. lra.
    - intros ->. rewrite mult_IZR. field. lra. }
  split.
  - intros [n H]. apply E in H. rewrite H. apply Z.mod_mul. lia.
  - intros H. exists (M / 2 ^ q). apply E. rewrite (Z.div_mod M (2 ^ q)) at 1 by lia. lia.
Qed.
Lemma odd_scaled M q : 0 <= q -> (exists n, (IZR M * bpow radix2 (- q))%R = IZR (2 * n + 1)) <-> M mod 2 ^ q = 0 /\ (M / 2 ^ q) mod 2 = 1.
Proof.
  intros Q. pose proof (Z.pow_pos_nonneg 2 q ltac:(lia) Q) as P.
  assert (E : forall n, (IZR M * bpow radix2 (- q))%R = IZR n <-> M = n * 2 ^ q).
  { intros n. rewrite bpow_opp, <- IZR_pow2 by lia. apply IZR_lt in P as P'. split.
    - intros H. apply eq_IZR. rewrite mult_IZR, <- H. field. lra.
    - intros ->. rewrite mult_IZR. field. lra. }
  split.
  - intros [n H]. apply E in H. rewrite H. rewrite Z.mod_mul, Z.div_mul by lia. split; [reflexivity|]. rewrite Z.add_comm, (Z.mul_comm 2), Z.mod_add by lia. reflexivity.
  - intros [H O]. exists (M / 2 ^ q / 2). apply E. pose proof (Z.div_mod (M / 2 ^ q) 2). rewrite (Z.div_mod M (2 ^ q)) at 1 by lia. nia.
Qed.
Lemma sval_int s v : (exists n, sval s v = IZR n) <-> exists n, v = IZR n.
Proof.
  destruct s; unfold sval; [|tauto]. split; intros [n H]; exists (- n); rewrite opp_IZR; lra.
Qed.
Lemma sval_odd s v : (exists n, sval s v = IZR (2 * n + 1)) <-> exists n, v = IZR (2 * n + 1).
Proof.
  destruct s; unfold sval; [|tauto]. split; intros [n H]; exists (- n - 1).
  - replace (2 * (- n - 1) + 1) with (- (2 * n + 1)) by lia. rewrite opp_IZR. lra.
  - rewrite H, <- opp_IZR. f_equal. lia.
Qed.

(** The answer of the code: 0 for non-integers, 1 for odd integers, 2 for even ones. *)
Definition icode (F : fmt) (y c : Z) : Prop :=
  (c = 0 /\ ~ integral F y) \/ (c = 1 /\ odd_integral F y) \/ (c = 2 /\ integral F y /\ ~ odd_integral F y).
Lemma odd_int F y : odd_integral F y -> integral F y.
Proof. intros [Fy [n H]]. split; [assumption|]. now exists (2 * n + 1). Qed.

(** Exponents between 0 and [mw]: the bits below the point of the magnitude pattern decide. *)
Lemma icode_mid F y q : finite F y = true -> 0 <= q <= mw F -> expf F y = bias F + mw F - q -> 
  (integral F y <-> magz F y mod 2 ^ q = 0) /\ (odd_integral F y <-> magz F y mod 2 ^ q = 0 /\ (magz F y / 2 ^ q) mod 2 = 1).
Proof.
  intros Fy Q E. pose proof (bias_ge F) as FF. pose proof (fields_range F y) as [R1 R2].
  assert (B0 : 0 < bias F) by lia.
  assert (V : val F y = sval (signbit F y) (IZR (2 ^ mw F + sigf F y) * bpow radix2 (- q))%R).
  { unfold val, mag_of. destruct (Z.eqb_spec (expf F y) 0); [lia|]. do 3 f_equal. lia. }
  set (k := mw F - q). assert (PK : 2 ^ mw F = 2 ^ k * 2 ^ q) by (rewrite <- Z.pow_add_r by (unfold k; lia); f_equal; unfold k; lia).
  pose proof (Z.pow_pos_nonneg 2 q ltac:(lia) ltac:(lia)) as PQ. pose proof (Z.pow_pos_nonneg 2 k ltac:(lia) ltac:(unfold k; lia)) as PK'.
  set (M := 2 ^ mw F + sigf F y) in *.
  assert (EM : magz F y = M + (expf F y - 1) * 2 ^ k * 2 ^ q) by (unfold magz, M; rewrite PK; ring).
  assert (EM1 : magz F y mod 2 ^ q = M mod 2 ^ q) by (rewrite EM; apply Z.mod_add; lia).
  assert (EM2 : (magz F y / 2 ^ q) mod 2 = (M / 2 ^ q) mod 2).
  { rewrite EM, Z.div_add by lia. assert (EV : exists t, (expf F y - 1) * 2 ^ k = t * 2).
    { destruct (Z.eq_dec k 0) as [K0|K0].
      - rewrite K0. assert (OE : exists t, bias F = 2 * t + 1). { unfold bias. exists (2 ^ (ew F - 2) - 1). replace (ew F - 1) with (ew F - 2 + 1) by lia. rewrite Z.pow_add_r by lia. lia. }
        destruct OE as [t OE]. exists t. replace (expf F y) with (bias F) by (unfold k in K0; lia). lia.
      - exists ((expf F y - 1) * 2 ^ (k - 1)). replace k with (k - 1 + 1) at 1 by lia. rewrite Z.pow_add_r by (unfold k in *; lia). lia. }
    destruct EV as [t ->]. apply Z.mod_add. lia. }
  unfold integral, odd_integral. rewrite V, sval_int, sval_odd, int_scaled, odd_scaled, EM1, EM2 by lia. tauto.
Qed.
Lemma icode_small F y : isbits F y -> finite F y = true -> iszero F y = false -> expf F y < bias F -> ~ integral F y.
Proof.
  intros B Fy Z E [_ [n H]]. apply (f_equal Rabs) in H. rewrite <- abs_IZR in H.
  assert (NZ : (val F y <> 0)%R) by (intros V0; apply val_eq_0 in V0; congruence). apply Rabs_pos_lt in NZ.
  assert (L : (Rabs (val F y) < 1)%R).
  { unfold val. pose proof (fields_range F y) as [R1 R2]. rewrite sval_abs by (apply mag_of_nonneg; lia).
    eapply Rlt_le_trans; [apply mag_of_lt_exp; lia|]. change 1%R with (bpow radix2 0). apply bpow_le. pose proof (bias_ge F). destruct (Z.eqb_spec (expf F y) 0); lia. }
  rewrite H in *. apply lt_IZR in L. apply lt_IZR in NZ. lia.
Qed.
Lemma icode_big F y : finite F y = true -> bias F + mw F < expf F y -> integral F y /\ ~ odd_integral F y.
Proof.
  intros Fy E. pose proof (bias_ge F) as FF. pose proof (fields_range F y) as [R1 R2]. set (k := expf F y - bias F - mw F).
  assert (V : val F y = sval (signbit F y) (IZR ((2 ^ mw F + sigf F y) * 2 ^ k))%R).
  { unfold val, mag_of. destruct (Z.eqb_spec (expf F y) 0); [lia|]. rewrite mult_IZR, IZR_pow2 by (unfold k; lia). reflexivity. }
  split; [split; [assumption|]|intros [_ H]; revert H]; rewrite V, ?sval_int, ?sval_odd.
  - now eexists.
  - intros [n H]. apply eq_IZR in H. replace k with (k - 1 + 1) in H by lia. rewrite Z.pow_add_r in H by (unfold k; lia). 
    change (2 ^ 1) with 2 in H. lia.
Qed.

(** ** The integer tests of the code *)
(** powf.rs lines 77-91 *)
Definition yi32 (iy : Z) : option Z :=
  let yisint := 0 in
  if 0x4b800000 <=? iy then
    let yisint := 2 in
    Some yisint
  else
    let* yisint :=
      (if 0x3f800000 <=? iy then
         let* k := ssub 32 (Z.shiftr iy 23) 127 in
         let* v4 := ssub 32 23 k in
         let* j := sshr 32 iy v4 in
         let* v6 := ssub 32 23 k in
         let* v7 := sshl 32 j v6 in
         let* yisint :=
           (if v7 =? iy then ssub 32 2 (Z.land j 1)
            else Some yisint) in
         Some yisint
       else Some yisint) in
    Some yisint.
Lemma land1 a : Z.land a 1 = a mod 2.
Proof. change 1 with (2 ^ 1 - 1). rewrite land_pow2m1 by lia. reflexivity. Qed.
Lemma mod2 a : a mod 2 = 0 \/ a mod 2 = 1.
Proof. pose proof (Z.mod_pos_bound a 2). lia. Qed.
Lemma to_i_small w a : 0 < w -> - 2 ^ (w - 1) <= a < 2 ^ (w - 1) -> to_i w a = a.
Proof.
  intros W H. unfold to_i. cbv zeta. assert (E : 2 ^ w = 2 * 2 ^ (w - 1)) by (rewrite <- (Z.pow_succ_r 2) by lia; f_equal; lia).
  destruct (Z.leb_spec 0 a).
  - rewrite Z.mod_small by lia. zdec; lia.
  - assert (M : a mod 2 ^ w = a + 2 ^ w) by (rewrite <- (Z.mod_small (a + 2 ^ w) (2 ^ w)) by lia; rewrite <- (Z.mod_add a 1) by lia; f_equal; lia).
    rewrite M. zdec; lia.
Qed.
Lemma yi32_ok y : isbits f32 y -> isnan f32 y = false -> iszero f32 y = false -> exists c, yi32 (a32 y) = Some c /\
  (finite f32 y = true -> icode f32 y c) /\ (finite f32 y = false -> c = 2).
Proof.
  intros B N Z. destruct (bits32 y B) as [_ R]. rewrite zer32, Z.eqb_neq in Z by assumption. pose proof (magz32 y B) as E. pose proof (fields_range f32 y) as [R1 R2].
  cbn [mw ew f32] in R1, R2. unfold yi32. cbv zeta. destruct (Z.leb_spec 0x4b800000 (a32 y)).
  - exists 2. split; [reflexivity|]. split; [|reflexivity]. intros Fy. right. right. split; [reflexivity|]. apply icode_big; [assumption|].
    change (bias f32 + mw f32) with 150. lia.
  - assert (Fy : finite f32 y = true) by (rewrite fin32, Z.ltb_lt by assumption; lia).
    destruct (Z.leb_spec 0x3f800000 (a32 y)).
    + rewrite Z.shiftr_div_pow2 by lia. assert (EE : a32 y / 2 ^ 23 = expf f32 y) by (symmetry; apply Z.div_unique with (sigf f32 y); lia).
      rewrite EE. rewrite ssub_ok by lia. cbn [bind]. rewrite ssub_ok by lia. cbn [bind]. set (q := 23 - (expf f32 y - 127)) in *.
      assert (Q : 0 <= q <= 23) by (unfold q; lia).
      destruct (icode_mid f32 y q Fy) as [I O]; [exact Q|change (bias f32 + mw f32) with 150; unfold q; lia|].
      change (magz f32 y) with (expf f32 y * 2 ^ 23 + sigf f32 y) in *. rewrite <- E in I, O.
      unfold sshr. destruct (Z.leb_spec 0 q); [|lia]. destruct (Z.ltb_spec q 32); [|lia]. cbn [andb bind].
      unfold sshl. destruct (Z.leb_spec 0 q); [|lia]. destruct (Z.ltb_spec q 32); [|lia]. cbn [andb bind].
      rewrite Z.shiftr_div_pow2, Z.shiftl_mul_pow2 by lia. pose proof (Z.pow_pos_nonneg 2 q ltac:(lia) ltac:(lia)) as P.
      pose proof (Z.div_mod (a32 y) (2 ^ q) ltac:(lia)) as DM. pose proof (Z.mod_pos_bound (a32 y) (2 ^ q) P) as MB.
      assert (D0 : 0 <= a32 y / 2 ^ q) by (apply Z.div_pos; lia).
      rewrite to_i_small by (change (2 ^ (32 - 1)) with 2147483648; lia). rewrite land1.
      destruct (Z.eqb_spec (a32 y / 2 ^ q * 2 ^ q) (a32 y)) as [T|T].
      * assert (M0 : a32 y mod 2 ^ q = 0) by lia.
        destruct (mod2 (a32 y / 2 ^ q)) as [D|D]; rewrite D.
        -- exists 2. split; [reflexivity|]. split; [|congruence]. intros _. right. right. split; [reflexivity|]. split; [now apply I|]. intros K. apply O in K. lia.
        -- exists 1. split; [reflexivity|]. split; [|congruence]. intros _. right. left. split; [reflexivity|]. now apply O.
      * exists 0. split; [reflexivity|]. split; [|congruence]. intros _. left. split; [reflexivity|]. intros K. apply I in K. lia.
    + exists 0. split; [reflexivity|]. split; [|congruence]. intros _. left. split; [reflexivity|]. apply icode_small; try assumption.
      * rewrite zer32 by assumption. now apply Z.eqb_neq.
      * change (bias f32) with 127. lia.
Qed.
(** pow.rs lines 126-151 *)
Definition yi64 (iy ly : Z) : option Z :=
  let yisint := 0 in
  if 0x43400000 <=? iy then
    let yisint := 2 in
    Some yisint
  else
    let* yisint :=
      (if 0x3ff00000 <=? iy then
         let* k := ssub 32 (Z.shiftr iy 20) 1023 in
         let* yisint :=
           (if 20 <? k then
              let* v6 := ssub 32 52 k in
              let* v7 := ushr 32 ly v6 in
              let j := to_i 32 v7 in
              let* v8 := ssub 32 52 k in
              let* v9 := sshl 32 j v8 in
              let* yisint :=
                (if v9 =? (to_i 32 ly) then ssub 32 2 (Z.land j 1)
                 else Some yisint) in
              Some yisint
            else
              let* yisint :=
                (if ly =? 0 then
                   let* v14 := ssub 32 20 k in
                   let* j := sshr 32 iy v14 in
                   let* v16 := ssub 32 20 k in
                   let* v17 := sshl 32 j v16 in
                   let* yisint :=
                     (if v17 =? iy then ssub 32 2 (Z.land j 1)
                      else Some yisint) in
                   Some yisint
                 else Some yisint) in
              Some yisint) in
         Some yisint
       else Some yisint) in
    Some yisint.
Lemma to_i_inj w a b : 0 < w -> 0 <= a < 2 ^ w -> 0 <= b < 2 ^ w -> to_i w a = to_i w b -> a = b.
Proof. intros W A B. unfold to_i. cbv zeta. rewrite !Z.mod_small by assumption. zdec; lia. Qed.
Lemma to_i_mod w a : 0 < w -> to_i w (a mod 2 ^ w) = to_i w a.
Proof. intros W. unfold to_i. now rewrite Z.mod_mod by (apply Z.pow_nonzero; lia). Qed.
Lemma to_i_cong w a : 0 < w -> exists t, to_i w a = a + t * 2 ^ w.
Proof.
  intros W. unfold to_i. cbv zeta. pose proof (Z.div_mod a (2 ^ w) ltac:(apply Z.pow_nonzero; lia)).
  zdec; [exists (- (a / 2 ^ w))|exists (- (a / 2 ^ w) - 1)]; lia.
Qed.
Lemma yi64_ok y : isbits f64 y -> isnan f64 y = false -> iszero f64 y = false -> exists c, yi64 (a64 y / 2 ^ 32) (to_u 32 y) = Some c /\
  (finite f64 y = true -> icode f64 y c) /\ (finite f64 y = false -> c = 2).
Proof.
  intros B N Z. destruct (bits64 y B) as [_ R]. rewrite zer64, Z.eqb_neq in Z by assumption. pose proof (magz64 y B) as E. pose proof (fields_range f64 y) as [R1 R2].
  cbn [mw ew f64] in R1, R2. pose proof (lw64 y B) as [HL RL]. change (get_low_word y) with (to_u 32 y) in HL, RL.
  set (h := a64 y / 2 ^ 32) in *. set (l := to_u 32 y) in *.
  unfold yi64. cbv zeta. destruct (Z.leb_spec 0x43400000 h).
  - exists 2. split; [reflexivity|]. split; [|reflexivity]. intros Fy. right. right. split; [reflexivity|]. apply icode_big; [assumption|].
    change (bias f64 + mw f64) with 1075. lia.
  - assert (Fy : finite f64 y = true) by (rewrite fin64, Z.ltb_lt by assumption; lia).
    destruct (Z.leb_spec 0x3ff00000 h).
    + rewrite Z.shiftr_div_pow2 by lia.
      assert (EE : h / 2 ^ 20 = expf f64 y). { unfold h. rewrite Z.div_div by lia. symmetry. apply Z.div_unique with (sigf f64 y); lia. }
      rewrite EE. rewrite ssub_ok by lia. cbn [bind].
      assert (EX : 1023 <= expf f64 y <= 1075) by lia.
      set (q := 52 - (expf f64 y - 1023)) in *. assert (Q : 0 <= q <= 52) by (unfold q; lia).
      destruct (icode_mid f64 y q Fy) as [I O]; [exact Q|change (bias f64 + mw f64) with 1075; unfold q; lia|].
      change (magz f64 y) with (expf f64 y * 2 ^ 52 + sigf f64 y) in *. rewrite <- E in I, O.
      pose proof (Z.pow_pos_nonneg 2 q ltac:(lia) ltac:(lia)) as P.
      destruct (Z.ltb_spec 20 (expf f64 y - 1023)) as [K|K].
      * rewrite ssub_ok by lia. cbn [bind]. fold q. assert (Q2 : q <= 31) by (unfold q; lia).
        unfold ushr. destruct (Z.leb_spec 0 q); [|lia]. destruct (Z.ltb_spec q 32); [|lia]. cbn [andb bind].
        unfold sshl. destruct (Z.leb_spec 0 q); [|lia]. destruct (Z.ltb_spec q 32); [|lia]. cbn [andb bind].
        rewrite Z.shiftr_div_pow2, Z.shiftl_mul_pow2 by lia.
        pose proof (Z.div_mod l (2 ^ q) ltac:(lia)) as DM. pose proof (Z.mod_pos_bound l (2 ^ q) P) as MB.
        assert (D0 : 0 <= l / 2 ^ q) by (apply Z.div_pos; lia).
        assert (PQ : 2 ^ 32 = 2 ^ (32 - q) * 2 ^ q) by (rewrite <- Z.pow_add_r by lia; f_equal; lia).
        assert (PQ1 : 2 ^ (32 - q) = 2 * 2 ^ (31 - q)) by (rewrite <- (Z.pow_succ_r 2) by lia; f_equal; lia).
        assert (AM : a64 y mod 2 ^ q = l mod 2 ^ q).
        { rewrite HL, PQ, Z.mul_assoc, Z.add_comm. apply Z.mod_add. lia. }
        assert (AD : (a64 y / 2 ^ q) mod 2 = (l / 2 ^ q) mod 2).
        { rewrite HL, PQ, Z.mul_assoc, Z.add_comm, Z.div_add, PQ1 by lia. replace (h * (2 * 2 ^ (31 - q))) with (h * 2 ^ (31 - q) * 2) by lia. apply Z.mod_add. lia. }
        rewrite AM in I, O. rewrite AD in O.
        assert (SH : to_i 32 (to_i 32 (l / 2 ^ q) * 2 ^ q) = to_i 32 (l / 2 ^ q * 2 ^ q)).
        { destruct (to_i_cong 32 (l / 2 ^ q) ltac:(lia)) as [t ->]. rewrite <- to_i_mod by lia.
          replace ((l / 2 ^ q + t * 2 ^ 32) * 2 ^ q) with (l / 2 ^ q * 2 ^ q + t * 2 ^ q * 2 ^ 32) by ring. rewrite Z.mod_add by lia. now rewrite to_i_mod by lia. }
        rewrite SH.
        assert (L1 : Z.land (to_i 32 (l / 2 ^ q)) 1 = (l / 2 ^ q) mod 2).
        { rewrite land1. destruct (to_i_cong 32 (l / 2 ^ q) ltac:(lia)) as [t ->]. replace (t * 2 ^ 32) with (t * 2 ^ 31 * 2) by lia. apply Z.mod_add. lia. }
        rewrite L1.
        destruct (Z.eqb_spec (to_i 32 (l / 2 ^ q * 2 ^ q)) (to_i 32 l)) as [T|T].
        -- apply to_i_inj in T; [|lia|nia|lia]. assert (M0 : l mod 2 ^ q = 0) by lia.
           destruct (mod2 (l / 2 ^ q)) as [D|D]; rewrite D.
           ++ exists 2. split; [reflexivity|]. split; [|congruence]. intros _. right. right. split; [reflexivity|]. split; [now apply I|]. intros KK. apply O in KK. lia.
           ++ exists 1. split; [reflexivity|]. split; [|congruence]. intros _. right. left. split; [reflexivity|]. now apply O.
        -- exists 0. split; [reflexivity|]. split; [|congruence]. intros _. left. split; [reflexivity|]. intros KK. apply I in KK. apply T. f_equal. lia.
      * assert (PQ : 2 ^ q = 2 ^ (q - 32) * 2 ^ 32) by (rewrite <- Z.pow_add_r by (unfold q; lia); f_equal; lia).
        assert (Q3 : 0 <= q - 32 <= 20) by (unfold q; lia).
        pose proof (Z.pow_pos_nonneg 2 (q - 32) ltac:(lia) ltac:(lia)) as P3.
        pose proof (Z.div_mod h (2 ^ (q - 32)) ltac:(lia)) as DM. pose proof (Z.mod_pos_bound h (2 ^ (q - 32)) P3) as MB.
        assert (D0 : 0 <= h / 2 ^ (q - 32)) by (apply Z.div_pos; lia).
        assert (AD : a64 y / 2 ^ q = h / 2 ^ (q - 32)). { unfold h. rewrite Z.div_div by lia. f_equal. lia. }
        assert (AM : a64 y mod 2 ^ q = (h mod 2 ^ (q - 32)) * 2 ^ 32 + l). { pose proof (Z.div_mod (a64 y) (2 ^ q) ltac:(lia)). rewrite AD in *. nia. }
        rewrite AM in I, O. rewrite AD in O.
        destruct (Z.eqb_spec l 0) as [L0|L0].
        -- rewrite ssub_ok by lia. cbn [bind]. replace (20 - (expf f64 y - 1023)) with (q - 32) by (unfold q; lia).
           unfold sshr. destruct (Z.leb_spec 0 (q - 32)); [|lia]. destruct (Z.ltb_spec (q - 32) 32); [|lia]. cbn [andb bind].
           unfold sshl. destruct (Z.leb_spec 0 (q - 32)); [|lia]. destruct (Z.ltb_spec (q - 32) 32); [|lia]. cbn [andb bind].
           rewrite Z.shiftr_div_pow2, Z.shiftl_mul_pow2 by lia. rewrite to_i_small by (change (2 ^ (32 - 1)) with 2147483648; lia). rewrite land1.
           destruct (Z.eqb_spec (h / 2 ^ (q - 32) * 2 ^ (q - 32)) h) as [T|T].
           ++ assert (M0 : h mod 2 ^ (q - 32) = 0) by lia. destruct (mod2 (h / 2 ^ (q - 32))) as [D|D]; rewrite D.
              ** exists 2. split; [reflexivity|]. split; [|congruence]. intros _. right. right. split; [reflexivity|]. split; [apply I; lia|]. intros KK. apply O in KK. lia.
              ** exists 1. split; [reflexivity|]. split; [|congruence]. intros _. right. left. split; [reflexivity|]. apply O. lia.
           ++ exists 0. split; [reflexivity|]. split; [|congruence]. intros _. left. split; [reflexivity|]. intros KK. apply I in KK. apply T. lia.
        -- exists 0. split; [reflexivity|]. split; [|congruence]. intros _. left. split; [reflexivity|]. intros KK. apply I in KK. lia.
    + exists 0. split; [reflexivity|]. split; [|congruence]. intros _. left. split; [reflexivity|]. apply icode_small; try assumption.
      * rewrite zer64 by assumption. now apply Z.eqb_neq.
      * change (bias f64) with 1023. lia.
Qed.

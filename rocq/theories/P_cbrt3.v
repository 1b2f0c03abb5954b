(** [cbrt]: the exponent and all finite arguments. *)
From Coq Require Import ZArith Reals Lia Lra Bool List Psatz.
From Flocq Require Import Core Mult_error.
From Verif Require Import Base Spec SpecFun SpecFun2 SpecAcc SpecSym SpecRoot Format P_format Ieee P_ieee P_real P_lit P_neg M_basic M_fma M_elib M_sqrt M_pow P_sym P_elem P_elem2 P_tot P_err P_round2 P_minmax P_kerf2 P_sym2 P_cbrt P_cbrt2.
Import ListNotations.
Open Scope Z_scope.

Lemma norm64 E m : 1 <= E <= 2046 -> 0 <= m < 2 ^ 52 -> isbits f64 (E * 2 ^ 52 + m) /\ finite f64 (E * 2 ^ 52 + m) = true /\ signbit f64 (E * 2 ^ 52 + m) = false /\ val f64 (E * 2 ^ 52 + m) = (IZR (2 ^ 52 + m) * bpow radix2 (E - 1075))%R.
Proof.
  intros HE Hm. assert (Q : E * 2 ^ 52 + m = mkbits f64 false E m) by reflexivity. rewrite Q.
  assert (A1 : 0 <= E < 2 ^ ew f64) by (change (2 ^ ew f64) with 2048; lia). assert (A2 : 0 <= m < 2 ^ mw f64) by exact Hm.
  destruct (mkbits_fields f64 false E m A1 A2) as (S1 & S2 & S3). split; [now apply mkbits_range|]. unfold finite, val. rewrite S1, S2, S3. split; [apply Z.ltb_lt; change (2 ^ ew f64) with 2048; lia|]. split; [reflexivity|].
  unfold mag_of. rewrite (proj2 (Z.eqb_neq E 0)) by lia. cbn [sval]. change (bias f64) with 1023. change (mw f64) with 52. replace (E - 1023 - 52) with (E - 1075) by lia. reflexivity.
Qed.
Lemma fneg64_add x : 0 <= x < 2 ^ 63 -> Format.fneg f64 x = x + 2 ^ 63.
Proof.
  intros H. destruct (pos64 x H) as (B & A & S). rewrite fneg_eq by assumption. rewrite S. cbn [negb]. unfold with_sign, mkbits, expf, sigf. change (mw f64 + ew f64) with 63. change (mw f64) with 52. change (ew f64) with 11.
  rewrite Z.mod_small with (b := 2 ^ 11) by (split; [apply Z.div_pos; lia|apply Z.div_lt_upper_bound; lia]). pose proof (Z.div_mod x (2 ^ 52) ltac:(lia)). lia.
Qed.
Lemma land_mask16 a : 0 <= a < 2 ^ 64 -> Z.land a 0xffffffffffff0000 = a - a mod 2 ^ 16.
Proof.
  intros H. assert (E : a - a mod 2 ^ 16 = Z.shiftl (Z.shiftr a 16) 16). { rewrite Z.shiftl_mul_pow2, Z.shiftr_div_pow2 by lia. pose proof (Z.div_mod a (2 ^ 16) ltac:(lia)). lia. }
  rewrite E. change 0xffffffffffff0000 with (Z.shiftl (Z.ones 48) 16). rewrite <- (Z.land_ones_low (Z.shiftr a 16) 48).
  - rewrite Z.shiftl_land. rewrite <- Z.ldiff_ones_r by lia. apply Z.bits_inj'. intros n Hn. rewrite !Z.land_spec, Z.ldiff_spec. rewrite !Z.shiftl_spec by lia.
    destruct (Z_lt_le_dec n 16). { rewrite (Z.testbit_neg_r _ (n - 16)) by lia. now rewrite !andb_false_r. }
    rewrite Z.ones_spec_high with (n := 16) by lia. cbn [negb]. now rewrite andb_true_r.
  - rewrite Z.shiftr_nonneg. lia.
  - destruct (Z.eq_dec (Z.shiftr a 16) 0) as [-> | N]; [cbn; lia|]. apply Z.log2_lt_pow2; [rewrite Z.shiftr_div_pow2 by lia; pose proof (Z.div_pos a (2 ^ 16)); rewrite Z.shiftr_div_pow2 in N by lia; lia|]. rewrite Z.shiftr_div_pow2 by lia. apply Z.div_lt_upper_bound; lia.
Qed.
Definition ONE : Z := 0x3ff0000000000000.
(** the low bits that start the last correction *)
Lemma low_test c : 0 <= c < 2 ^ 64 -> Z.lxor (shlu 64 c 30) (Z.shiftr (shlu 64 c 30) 63) <= 0x40000000 -> c mod 2 ^ 34 <= 1.
Proof.
  intros H. unfold shlu. rewrite Z.shiftl_mul_pow2 by lia. change (2 ^ 64) with (2 ^ 34 * 2 ^ 30). rewrite Z.mul_mod_distr_r by lia. pose proof (Z.mod_pos_bound c (2 ^ 34) ltac:(lia)) as P. set (L := c mod 2 ^ 34) in *. clearbody L.
  rewrite Z.shiftr_div_pow2 by lia. intros T. destruct (Z_lt_le_dec L (2 ^ 33)) as [Q | Q].
  - rewrite Z.div_small in T by lia. rewrite Z.lxor_0_r in T. lia.
  - replace (L * 2 ^ 30 / 2 ^ 63) with 1 in T. 2:{ apply Z.div_unique with (L * 2 ^ 30 - 2 ^ 63); lia. }
    assert (E : Z.lxor (L * 2 ^ 30) 1 = L * 2 ^ 30 + 1). { rewrite <- Z.add_nocarry_lxor; [reflexivity|]. change 1 with (Z.ones 1). rewrite Z.land_ones by lia. change (2 ^ 30) with (2 ^ 29 * 2 ^ 1). rewrite Z.mul_assoc. apply Z.mod_mul. lia. }
    rewrite E in T. lia.
Qed.
Lemma cvt3_eq Y et : 1007 <= et <= 1706 -> 0 <= Y + (et - 1365) * 2 ^ 52 < 2 ^ 64 -> wadd 64 Y (shlu 64 (wsub 32 (wsub 32 et 342) 1023) 52) = Y + (et - 1365) * 2 ^ 52.
Proof.
  intros He HY. unfold wadd, shlu, wsub. rewrite Z.shiftl_mul_pow2 by lia. rewrite (Z.mod_small (et - 342)) by lia.
  rewrite Z.add_mod_idemp_r by lia. destruct (Z_lt_le_dec (et - 342 - 1023) 0) as [N | N].
  - replace ((et - 342 - 1023) mod 2 ^ 32) with (et - 342 - 1023 + 2 ^ 32) by (apply Z.mod_unique_pos with (-1); lia).
    symmetry. apply Z.mod_unique_pos with (2 ^ 20); lia.
  - rewrite (Z.mod_small (et - 342 - 1023)) by lia. symmetry. apply Z.mod_unique_pos with 0; lia.
Qed.
Open Scope R_scope.
(** moving 81..82 steps of 2^16 ulp is far more than the remainder *)
Lemma far_test a b dy : finite f64 a = true -> finite f64 b = true -> isbits f64 dy -> finite f64 dy = true -> / 1000000000 <= Rabs (val f64 a - val f64 b) <= 1 -> Rabs (val f64 dy) <= / 4503599627370496 ->
  flt f64 (fabs f64 (fsub f64 (fsub f64 a b) dy)) 0x3c30000000000000 = false.
Proof.
  intros Fa Fb Bd Fd H D. pose proof tiny200 as T2. assert (T : 2 <= bpow radix2 1000) by (apply Rle_trans with (bpow radix2 1); [change (bpow radix2 1) with 2; lra|apply bpow_le; lia]).
  destruct (sub64 a b 2 Fa Fb) as [F1 E1]; [lra|exact T|]. pose proof (rnd64_err (val f64 a - val f64 b)) as R1. rewrite <- E1 in R1. set (p := fsub f64 a b) in *. clearbody p. set (d := val f64 a - val f64 b) in *. clearbody d.
  assert (P : / 2000000000 <= Rabs (val f64 p) <= 1.5). { pose proof (Rabs_triang_inv d (val f64 p)) as I1. pose proof (Rabs_triang_inv (val f64 p) d) as I2. rewrite Rabs_minus_sym in I1. split; lra. }
  assert (Q : / 4000000000 <= Rabs (val f64 p - val f64 dy) <= 2). { pose proof (Rabs_triang_inv (val f64 p) (val f64 dy)) as I1. pose proof (Rabs_triang (val f64 p) (- val f64 dy)) as I2. rewrite Rabs_Ropp in I2. unfold Rminus at 2. split; lra. }
  destruct (sub64 p dy 2 F1 Fd) as [F2 E2]; [lra|exact T|]. pose proof (rnd64_err (val f64 p - val f64 dy)) as R2. rewrite <- E2 in R2. destruct (fabs_val f64 (fsub f64 p dy) (fsub_isbits _ _ _)) as (B3 & F3 & V3). rewrite F2 in F3.
  set (q := fsub f64 p dy) in *. clearbody q. set (e := val f64 p - val f64 dy) in *. clearbody e.
  assert (W : / 8000000000 <= Rabs (val f64 q)). { pose proof (Rabs_triang_inv e (val f64 q)) as I1. rewrite Rabs_minus_sym in I1. lra. }
  destruct (flt f64 (fabs f64 q) 0x3c30000000000000) eqn:L0; [|reflexivity]. exfalso. apply flt_spec in L0. destruct L0 as (_ & _ & L). rewrite F3 in L. assert (Fc : finite f64 0x3c30000000000000 = true) by (vm_compute; reflexivity). rewrite Fc in L. assert (V : val f64 0x3c30000000000000 = 1 / 1152921504606846976) by lit. rewrite V3, V in L. lra.
Qed.

Lemma sval64 b a : (0 <= a < 2 ^ 63)%Z -> isbits f64 (bs b * 2 ^ 63 + a) /\ finite f64 (bs b * 2 ^ 63 + a) = finite f64 a /\ val f64 (bs b * 2 ^ 63 + a) = sval b (val f64 a).
Proof.
  intros H. destruct (pos64 a H) as (B & A & S). destruct b; cbn [bs sval].
  - replace (1 * 2 ^ 63 + a)%Z with (Format.fneg f64 a) by (rewrite fneg64_add by assumption; lia). split; [apply fneg_fields, B|]. split; [apply fneg_finite, B|apply fneg_val, B].
  - replace (0 * 2 ^ 63 + a)%Z with a by lia. auto.
Qed.
Lemma dec12 y1 : (ONE <= y1 <= 2 ^ 62)%Z -> exists E m, y1 = (E * 2 ^ 52 + m)%Z /\ (0 <= m < 2 ^ 52)%Z /\ (E = 1023 \/ E = 1024 /\ m = 0)%Z.
Proof.
  unfold ONE. intros H. destruct (Z.eq_dec y1 (2 ^ 62)) as [-> | N].
  - exists 1024%Z, 0%Z. lia.
  - exists 1023%Z, (y1 - 1023 * 2 ^ 52)%Z. lia.
Qed.
Lemma cb_fin_ok s y1 dy zz et : (ONE <= y1 <= 2 ^ 62)%Z -> isbits f64 dy -> finite f64 dy = true -> Rabs (val f64 dy) <= / 4503599627370496 -> (1007 <= et <= 1706)%Z -> (feq f64 (fabs f64 zz) ONE = true -> y1 = ONE) ->
  cb_fin dy (bs s * 2 ^ 63 + y1) zz et = Some (bs s * 2 ^ 63 + (y1 + (et - 1365) * 2 ^ 52))%Z.
Proof.
  intros HY Bd Fd D He HZ. unfold cb_fin. assert (HY' := HY). unfold ONE in HY'. assert (S01 : (0 <= bs s <= 1)%Z) by (destruct s; cbn [bs]; lia).
  assert (R : (0 <= bs s * 2 ^ 63 + y1 + (et - 1365) * 2 ^ 52 < 2 ^ 64 - 2 ^ 60)%Z) by lia. rewrite cvt3_eq by lia. replace (bs s * 2 ^ 63 + (y1 + (et - 1365) * 2 ^ 52))%Z with (bs s * 2 ^ 63 + y1 + (et - 1365) * 2 ^ 52)%Z by lia. set (c := (bs s * 2 ^ 63 + y1 + (et - 1365) * 2 ^ 52)%Z) in *.
  destruct (_ <=? _)%Z eqn:T; [|reflexivity]. apply Z.leb_le in T. apply low_test in T; [|lia].
  assert (L : (c mod 2 ^ 34 = y1 mod 2 ^ 34)%Z). { unfold c. replace (bs s * 2 ^ 63 + y1 + (et - 1365) * 2 ^ 52)%Z with (y1 + (bs s * 2 ^ 29 + (et - 1365) * 2 ^ 18) * 2 ^ 34)%Z by lia. apply Z.mod_add. lia. }
  rewrite L in T. pose proof (Z.mod_pos_bound y1 (2 ^ 34) ltac:(lia)) as P. rewrite uadd_ok by lia. cbn [bind].
  destruct (dec12 y1 HY) as (E & m & Ey & Hm & HE).
  assert (L2 : (m mod 2 ^ 34 = y1 mod 2 ^ 34)%Z) by (rewrite Ey; replace (E * 2 ^ 52 + m)%Z with (m + E * 2 ^ 18 * 2 ^ 34)%Z by lia; rewrite Z.mod_add by lia; reflexivity).
  assert (M : (m <= 2 ^ 52 - 2 ^ 34 + 1)%Z). { pose proof (Z.div_mod m (2 ^ 34) ltac:(lia)) as DM. assert (m / 2 ^ 34 < 2 ^ 18)%Z by (apply Z.div_lt_upper_bound; lia). lia. }
  assert (L16 : ((bs s * 2 ^ 63 + y1 + 0x520000) mod 2 ^ 16 = y1 mod 2 ^ 34)%Z).
  { replace (bs s * 2 ^ 63 + y1 + 0x520000)%Z with (y1 mod 2 ^ 34 + (bs s * 2 ^ 47 + 82 + 2 ^ 18 * (y1 / 2 ^ 34)) * 2 ^ 16)%Z by (pose proof (Z.div_mod y1 (2 ^ 34) ltac:(lia)); lia). rewrite Z.mod_add by lia. apply Z.mod_small. lia. }
  rewrite land_mask16 by lia. rewrite L16. set (l := (y1 mod 2 ^ 34)%Z) in *.
  assert (FT : flt f64 (fabs f64 (fsub f64 (fsub f64 (bs s * 2 ^ 63 + y1 + 0x520000 - l) (bs s * 2 ^ 63 + y1)) dy)) 0x3c30000000000000 = false).
  { replace (bs s * 2 ^ 63 + y1 + 0x520000 - l)%Z with (bs s * 2 ^ 63 + (E * 2 ^ 52 + (m + 0x520000 - l)))%Z by lia. rewrite Ey.
    destruct (norm64 E m) as (B1 & F1 & S1 & V1); [lia|lia|]. destruct (norm64 E (m + 0x520000 - l)) as (B2 & F2 & S2 & V2); [lia|lia|].
    destruct (sval64 s (E * 2 ^ 52 + m)) as (B3 & F3 & V3); [lia|]. destruct (sval64 s (E * 2 ^ 52 + (m + 0x520000 - l))) as (B4 & F4 & V4); [lia|]. rewrite F1 in F3. rewrite F2 in F4. rewrite V1 in V3. rewrite V2 in V4.
    apply far_test; auto. rewrite V3, V4.
    replace (Rabs (sval s (IZR (2 ^ 52 + (m + 5373952 - l)) * bpow radix2 (E - 1075)) - sval s (IZR (2 ^ 52 + m) * bpow radix2 (E - 1075)))) with (IZR (5373952 - l) * bpow radix2 (E - 1075)).
    - assert (5373951 <= IZR (5373952 - l) <= 5373952) by (split; apply IZR_le; lia). destruct HE as [-> | [-> _]]; [change (bpow radix2 (1023 - 1075)) with (/ 4503599627370496)|change (bpow radix2 (1024 - 1075)) with (/ 2251799813685248)]; lra.
    - assert (U : IZR (2 ^ 52 + (m + 5373952 - l)) = IZR (2 ^ 52 + m) + IZR (5373952 - l)) by (rewrite <- plus_IZR; f_equal; lia). rewrite U. assert (K : 0 <= IZR (5373952 - l) * bpow radix2 (E - 1075)) by (apply Rmult_le_pos; [apply IZR_le; lia|apply bpow_ge_0]).
      destruct s; cbn [sval]; [|rewrite Rmult_plus_distr_r; replace (_ + _ - _) with (IZR (5373952 - l) * bpow radix2 (E - 1075)) by ring; now rewrite Rabs_pos_eq].
      rewrite Rmult_plus_distr_r. replace (_ - _) with (- (IZR (5373952 - l) * bpow radix2 (E - 1075))) by ring. now rewrite Rabs_Ropp, Rabs_pos_eq. }
  rewrite FT. cbn [orb]. change 0x3ff0000000000000%Z with ONE. destruct (feq f64 (fabs f64 zz) ONE); [|reflexivity]. specialize (HZ eq_refl). rewrite uadd_ok by lia. cbn [bind]. rewrite land_mask16 by lia. f_equal.
  assert (E0 : ((c + 32768) mod 2 ^ 16 = 32768)%Z); [|rewrite E0; lia]. unfold c. rewrite HZ. unfold ONE. replace (bs s * 2 ^ 63 + 4607182418800017408 + (et - 1365) * 2 ^ 52 + 32768)%Z with (32768 + (bs s * 2 ^ 47 + 70300024700928 + (et - 1365) * 2 ^ 36) * 2 ^ 16)%Z by lia. rewrite Z.mod_add by lia. reflexivity.
Qed.
Lemma lor_hi a b n : (0 <= n)%Z -> (0 <= a < 2 ^ n)%Z -> Z.lor a (b * 2 ^ n) = (a + b * 2 ^ n)%Z.
Proof.
  intros Hn H. rewrite <- Z.lxor_lor; [symmetry; apply Z.add_nocarry_lxor|]; (apply Z.bits_inj'; intros k Hk; rewrite Z.land_spec, Z.bits_0; destruct (Z_lt_le_dec k n); [rewrite Z.mul_pow2_bits_low by lia; apply andb_false_r|]);
    (replace (Z.testbit a k) with false; [reflexivity|]; symmetry; destruct (Z.eq_dec a 0) as [-> | N]; [apply Z.bits_0|]; apply Z.bits_above_log2; [lia|]; apply Z.lt_le_trans with n; [apply Z.log2_lt_pow2; lia|assumption]).
Qed.
Lemma fmul_neg_r a b : isbits f64 a -> isbits f64 b -> finite f64 (fmul f64 a b) = true -> fmul f64 a (Format.fneg f64 b) = Format.fneg f64 (fmul f64 a b).
Proof.
  intros A B F. pose proof (rel_fmul _ _ _ _ _ _ _ _ (rel_refl f64 true a A) (rel_fneg f64 true b B)) as R. cbn [xorb] in R. exact (rel_eq _ _ _ _ R (finite_not_nan _ _ F)).
Qed.
(** scaling by a power of two is exact *)
Lemma mul_pow2 a c k : isbits f64 a -> finite f64 a = true -> finite f64 c = true -> val f64 c = bpow radix2 k -> (-2 <= k <= 0)%Z -> 0.49 <= val f64 a <= 1.01 -> isbits f64 (fmul f64 a c) /\ finite f64 (fmul f64 a c) = true /\ val f64 (fmul f64 a c) = val f64 a * bpow radix2 k.
Proof.
  intros B F Fc Ec Hk Ha. split; [apply fmul_isbits|]. assert (K : 0 < bpow radix2 k <= 1) by (split; [apply bpow_gt_0|apply (bpow_le radix2 k 0); lia]).
  destruct (mul64 a c 2 F Fc) as [F1 E1]; [rewrite Ec; apply Rabs_le; nra|apply Rle_trans with (bpow radix2 1); [change (bpow radix2 1) with 2; lra|apply bpow_le; lia]|]. split; [exact F1|]. rewrite E1, Ec.
  unfold rnd. apply round_generic; [apply valid_rnd_N|]. apply mult_bpow_exact_FLT; [apply (repr_val f64 a F)|]. change (1 - bias f64 - mw f64 + (mw f64 + 1))%Z with (-1021)%Z.
  assert (mag radix2 (val f64 a) > -2)%Z. { apply Z.lt_gt. apply (mag_gt_bpow radix2). rewrite Rabs_pos_eq by lra. change (bpow radix2 (-2)) with (/ 4). lra. } lia.
Qed.

Lemma ge_bits64 y a : isbits f64 y -> finite f64 y = true -> (0 < a < 0x7ff0000000000000)%Z -> 0 < val f64 y -> val f64 (a - 1) < val f64 y -> (a <= y)%Z.
Proof.
  intros B F A P H. pose proof (val_pos_sign _ _ P) as S. destruct (bits64 y B) as [E R]. rewrite S in E. cbn [bs] in E. destruct (Z_lt_le_dec y a) as [L|]; [|assumption]. exfalso.
  destruct (P_ival2.IN_pos64 0 (a - 1) y B S ltac:(lia) ltac:(lia) ltac:(lia)) as (_ & _ & I). cbn [fst snd] in I. lra.
Qed.
Lemma le_bits64 y a : isbits f64 y -> finite f64 y = true -> (0 <= a < 0x7fe0000000000000)%Z -> 0 < val f64 y -> val f64 y < val f64 (a + 1) -> (y <= a)%Z.
Proof.
  intros B F A P H. pose proof (val_pos_sign _ _ P) as S. destruct (bits64 y B) as [E R]. rewrite S in E. cbn [bs] in E. rewrite (fin64 y B) in F. apply Z.ltb_lt in F. destruct (Z_lt_le_dec a y) as [L|]; [|assumption]. exfalso.
  destruct (P_ival2.IN_pos64 (a + 1) 0x7fefffffffffffff y B S ltac:(lia) ltac:(lia) ltac:(lia)) as (_ & _ & I). cbn [fst snd] in I. lra.
Qed.
Lemma iter_one : exists dy, cb_iter (cb_start ONE ONE) ONE (fmul f64 (fdiv f64 ONE ONE) ONE) = Some (dy, ONE).
Proof. eexists. vm_compute. reflexivity. Qed.
Definition ZZ (mant it : Z) : Z := ((1023 + it) * 2 ^ 52 + mant)%Z.
Lemma zz_val mant it : (0 <= mant < 2 ^ 52)%Z -> (0 <= it <= 2)%Z -> isbits f64 (ZZ mant it) /\ finite f64 (ZZ mant it) = true /\ val f64 (ZZ mant it) = val f64 (ZZ mant 0) * bpow radix2 it /\ 1 <= val f64 (ZZ mant 0) <= 2 - / 4503599627370496 /\ (mant <> 0%Z -> 1 + / 4503599627370496 <= val f64 (ZZ mant 0)).
Proof.
  intros Hm Hi. unfold ZZ. destruct (norm64 (1023 + it) mant) as (B1 & F1 & S1 & V1); [lia|lia|]. destruct (norm64 (1023 + 0) mant) as (B0 & F0 & S0 & V0); [lia|lia|]. split; [exact B1|]. split; [exact F1|]. rewrite V0, V1.
  change (bpow radix2 (1023 + 0 - 1075)) with (/ 4503599627370496). split; [|split].
  - change (/ 4503599627370496) with (bpow radix2 (-52)). rewrite Rmult_assoc, <- bpow_plus. do 2 f_equal. lia.
  - assert (4503599627370496 <= IZR (2 ^ 52 + mant) <= 9007199254740991) by (split; apply IZR_le; lia). lra.
  - intros N. assert (4503599627370497 <= IZR (2 ^ 52 + mant)) by (apply IZR_le; lia). lra.
Qed.
Lemma rel_fin d d' : rel f64 false true d d' -> finite f64 d = true -> isbits f64 d' /\ finite f64 d' = true /\ Rabs (val f64 d') = Rabs (val f64 d).
Proof.
  intros (_ & B & [[N _] | [[N _] | (_ & F & V & _)]]) H.
  - rewrite (finite_not_nan _ _ H) in N. discriminate N.
  - rewrite (finite_not_inf _ _ H) in N. discriminate N.
  - split; [exact B|]. split; [exact F|]. rewrite V. cbn [sval]. apply Rabs_Ropp.
Qed.
(** both signs at once *)
Lemma core_it mant it isc c6 v : (0 <= mant < 2 ^ 52)%Z -> (0 <= it <= 2)%Z -> isbits f64 isc -> finite f64 isc = true -> 0.9 <= val f64 isc <= 1.6 -> Rabs (val f64 isc * val f64 isc * val f64 isc * / bpow radix2 it - 1) <= / 1000000000000000 ->
  isbits f64 c6 -> finite f64 c6 = true -> val f64 c6 = bpow radix2 (- it) -> (it = 0%Z -> isc = ONE /\ c6 = ONE) -> 0 < v -> v * v * v = val f64 (ZZ mant it) ->
  let z := ZZ mant 0 in let r := fdiv f64 ONE z in
  exists y1 dy dy', (ONE <= y1 <= 2 ^ 62)%Z /\ Rabs (val f64 y1 - v) <= BND /\ (feq f64 (fabs f64 (ZZ mant it)) ONE = true -> y1 = ONE) /\
    isbits f64 dy /\ finite f64 dy = true /\ Rabs (val f64 dy) <= / 4503599627370496 /\ isbits f64 dy' /\ finite f64 dy' = true /\ Rabs (val f64 dy') <= / 4503599627370496 /\
    cb_iter (cb_start z isc) (ZZ mant it) (fmul f64 r c6) = Some (dy, y1) /\
    cb_iter (cb_start z (Format.fneg f64 isc)) (Format.fneg f64 (ZZ mant it)) (fmul f64 r (Format.fneg f64 c6)) = Some (dy', Format.fneg f64 y1).
Proof.
  intros Hm Hi Bi Fi Hisc Ci B6 F6 E6 H0 V0 EV. cbv zeta. destruct (zz_val mant it Hm Hi) as (Bz & Fz & Ez & HZ & HN). destruct (zz_val mant 0 Hm ltac:(lia)) as (Bz0 & Fz0 & _).
  assert (HK : 1 <= bpow radix2 it <= 4) by (split; [apply (bpow_le radix2 0 it); lia|apply (bpow_le radix2 it 2); lia]).
  destruct (recip_ok (ZZ mant 0) Bz0 Fz0 ltac:(lra)) as (Br & Fr & Dr & Hr). fold ONE in Br, Fr, Dr, Hr.
  destruct (mul_pow2 _ c6 (- it) Br Fr F6 E6 ltac:(lia) Hr) as (Brr & Frr & Err).
  destruct (cb_start_ok (ZZ mant 0) isc v (bpow radix2 it) Bz0 Fz0 ltac:(lra) Fi Hisc HK Ci V0 ltac:(rewrite EV; exact Ez)) as (By & Fy & w & Ey & Hw).
  assert (Z8 : 1 <= v * v * v <= 8 - / 1125899906842624) by (rewrite EV, Ez; nra).
  assert (V1 : 1 <= v) by (apply cube_le; lra). assert (V2 : v <= v2) by (unfold v2; apply cube_le; lra).
  assert (HR : Rabs (val f64 (fmul f64 (fdiv f64 ONE (ZZ mant 0)) c6) - / (v * v * v)) <= / 18014398509481984).
  { rewrite Err, EV, Ez. rewrite bpow_opp. rewrite Rinv_mult_distr by lra. rewrite <- Rmult_minus_distr_r, Rabs_mult. rewrite (Rabs_pos_eq (/ bpow radix2 it)) by (left; apply Rinv_0_lt_compat; lra).
    assert (0 < / bpow radix2 it <= 1) by (split; [apply Rinv_0_lt_compat; lra|rewrite <- Rinv_1; apply Rinv_le; lra]). pose proof (Rabs_pos (val f64 (fdiv f64 ONE (ZZ mant 0)) - / val f64 (ZZ mant 0))). nra. }
  destruct (cb_iter_pos _ _ _ v w By Fy Bz Fz Brr Frr (eq_sym EV) (conj V1 V2) Ey Hw HR) as (dy & y1 & I1 & B1 & F1 & Bd & Fd & Hd & D).
  destruct (cb_iter_neg _ _ _ v w By Fy Bz Fz Brr Frr (eq_sym EV) (conj V1 V2) Ey Hw HR dy y1 I1) as (dy' & I2 & Rd).
  assert (Ba : isbits f64 (cb_cubic (cb_est (ZZ mant 0)) (fdiv f64 ONE (ZZ mant 0)))) by (unfold cb_cubic; apply fsub_isbits).
  assert (Q1 : cb_start (ZZ mant 0) (Format.fneg f64 isc) = Format.fneg f64 (cb_start (ZZ mant 0) isc)) by (rewrite !cb_start_eq in *; fold ONE in *; apply fmul_neg_r; assumption).
  rewrite Q1. rewrite (fmul_neg_r _ _ Br B6 Frr). exists y1, dy, dy'.
  assert (DB := Rabs_le_inv _ _ D). unfold BND, E2 in DB. unfold v2 in V2.
  assert (Y1 : (mant = 0 /\ it = 0)%Z -> y1 = ONE). { intros [-> ->]. destruct (H0 eq_refl) as [-> ->]. destruct iter_one as [d1 J]. change (ZZ 0 0) with ONE in I1. rewrite J in I1. congruence. }
  assert (HY : (ONE <= y1)%Z).
  { destruct (Z.eq_dec mant 0) as [M0 | M0]; [destruct (Z.eq_dec it 0) as [I0 | I0]; [rewrite (Y1 (conj M0 I0)); lia|]|].
    - apply ge_bits64; auto; [unfold ONE; lia|lra|]. assert (v >= 1.1). { apply Rle_ge. apply cube_le; [lra|]. rewrite EV, Ez. assert (2 <= bpow radix2 it) by (apply (bpow_le radix2 1 it); lia). nra. }
      assert (EP : val f64 (ONE - 1) = 9007199254740991 / 9007199254740992) by lit. rewrite EP. lra.
    - apply ge_bits64; auto; [unfold ONE; lia|lra|]. assert (v >= 1 + / 18014398509481984). { apply Rle_ge. apply cube_le; [lra|]. rewrite EV, Ez. specialize (HN M0). nra. }
      assert (EP : val f64 (ONE - 1) = 9007199254740991 / 9007199254740992) by lit. rewrite EP. lra. }
  split. { split; [exact HY|]. apply le_bits64; auto; [lia|lra|]. assert (EP : val f64 (2 ^ 62 + 1) = 9007199254740994 / 4503599627370496) by lit. rewrite EP. lra. }
  split; [exact D|]. split.
  { intros Q. apply (P_fmaf.feq_val) in Q; [|rewrite (proj1 (proj2 (fabs_val f64 _ Bz))); exact Fz|vm_compute; reflexivity]. rewrite (proj2 (proj2 (fabs_val f64 _ Bz))) in Q. rewrite Rabs_pos_eq in Q by lra. unfold ONE in Q. rewrite one64, Ez in Q.
    apply Y1. destruct (Z.eq_dec mant 0) as [M0 | M0]; [|specialize (HN M0); nra]. split; [exact M0|]. destruct (Z.eq_dec it 0); [assumption|]. exfalso. assert (2 <= bpow radix2 it) by (apply (bpow_le radix2 1 it); lia). nra. }
  split; [exact Bd|]. split; [exact Fd|]. split; [exact Hd|]. destruct (rel_fin _ _ Rd Fd) as (Bd' & Fd' & Vd).
  split; [exact Bd'|]. split; [exact Fd'|]. split; [rewrite Vd; exact Hd|]. split; [exact I1|exact I2].
Qed.
Definition ISC (it : Z) : Z := nth (Z.to_nat it) rs_cbrt_round_ESCALE 0%Z.
Definition C6 (it : Z) : Z := nth (Z.to_nat (2 * it)) cb_rsc 0%Z.
Lemma it_cases it : (0 <= it <= 2)%Z -> it = 0%Z \/ it = 1%Z \/ it = 2%Z. Proof. lia. Qed.
Lemma tab_ok it : (0 <= it <= 2)%Z -> (0 <= ISC it < 2 ^ 63)%Z /\ (0 <= C6 it < 2 ^ 63)%Z /\ finite f64 (ISC it) = true /\ finite f64 (C6 it) = true /\ (it = 0%Z -> ISC it = ONE /\ C6 it = ONE) /\
  tab_get rs_cbrt_round_ESCALE it = Some (ISC it) /\ forall s, tab_get cb_rsc (Z.lor (shlu 64 it 1) (bs s)) = Some (if s then Format.fneg f64 (C6 it) else C6 it).
Proof.
  intros H. destruct (it_cases it H) as [-> | [-> | ->]]; (split; [vm_compute; split; [discriminate|reflexivity]|]; split; [vm_compute; split; [discriminate|reflexivity]|]; split; [vm_compute; reflexivity|]; split; [vm_compute; reflexivity|]; split; [intros Q; try discriminate Q; split; vm_compute; reflexivity|]; split; [vm_compute; reflexivity|]; intros [|]; vm_compute; reflexivity).
Qed.
Lemma isc_val it : (0 <= it <= 2)%Z -> 0.9 <= val f64 (ISC it) <= 1.6 /\ Rabs (val f64 (ISC it) * val f64 (ISC it) * val f64 (ISC it) * / bpow radix2 it - 1) <= / 1000000000000000 /\ val f64 (C6 it) = bpow radix2 (- it).
Proof.
  intros H. destruct (it_cases it H) as [-> | [-> | ->]].
  - change (ISC 0) with ONE. change (C6 0) with ONE. unfold ONE. rewrite one64. cbn [bpow Z.opp]. split; [lra|]. split; [apply Rabs_le; lra|reflexivity].
  - change (ISC 1) with 0x3ff428a2f98d728b%Z. change (C6 1) with 0x3fe0000000000000%Z. assert (E : val f64 0x3ff428a2f98d728b = 5674179970822795 / 4503599627370496) by lit. assert (G : val f64 0x3fe0000000000000 = 1 / 2) by lit. rewrite E, G. change (bpow radix2 1) with 2. change (bpow radix2 (- (1))) with (/ 2). split; [lra|]. split; [apply Rabs_le; lra|lra].
  - change (ISC 2) with 0x3ff965fea53d6e3d%Z. change (C6 2) with 0x3fd0000000000000%Z. assert (E : val f64 0x3ff965fea53d6e3d = 7149018786131517 / 4503599627370496) by lit. assert (G : val f64 0x3fd0000000000000 = 1 / 4) by lit. rewrite E, G. change (bpow radix2 2) with 4. change (bpow radix2 (- (2))) with (/ 4). split; [lra|]. split; [apply Rabs_le; lra|lra].
Qed.
Lemma shl63 s : shlu 64 (bs s) 63 = (bs s * 2 ^ 63)%Z.
Proof. destruct s; vm_compute; reflexivity. Qed.
Lemma lor_sign a s : (0 <= a < 2 ^ 63)%Z -> Z.lor a (shlu 64 (bs s) 63) = if s then Format.fneg f64 a else a.
Proof. intros H. rewrite shl63, lor_hi by lia. destruct s; cbn [bs]; [rewrite fneg64_add by assumption|]; lia. Qed.
Lemma cb_all_ok mant e v : (0 <= mant < 2 ^ 52)%Z -> (-51 <= e <= 2046)%Z -> 0 < v -> v * v * v = val f64 (ZZ mant ((e + 3072) mod 3)) ->
  exists y1, (ONE <= y1 <= 2 ^ 62)%Z /\ Rabs (val f64 y1 - v) <= BND /\ forall s, cb_all mant (bs s) (e mod 2 ^ 32) = Some (bs s * 2 ^ 63 + (y1 + ((e + 3072) / 3 - 1365) * 2 ^ 52))%Z.
Proof.
  intros Hm He V0 EV. assert (W : wadd 32 (e mod 2 ^ 32) 3072 = (e + 3072)%Z) by (unfold wadd; rewrite Z.add_mod_idemp_l by lia; apply Z.mod_small; lia).
  pose proof (Z.mod_pos_bound (e + 3072) 3 ltac:(lia)) as Hi. assert (Het : (1007 <= (e + 3072) / 3 <= 1706)%Z) by (split; [apply Z.div_le_lower_bound; lia|apply Z.div_le_upper_bound; lia]).
  set (it := ((e + 3072) mod 3)%Z) in *. set (et := ((e + 3072) / 3)%Z) in *. assert (Hi' : (0 <= it <= 2)%Z) by lia.
  destruct (tab_ok it Hi') as (R1 & R2 & F1 & F2 & H0 & T1 & T2). destruct (isc_val it Hi') as (I1 & I2 & I3).
  destruct (pos64 _ R1) as (B1 & _). destruct (pos64 _ R2) as (B2 & _).
  destruct (core_it mant it (ISC it) (C6 it) v Hm Hi' B1 F1 I1 I2 B2 F2 I3 H0 V0 EV) as (y1 & dy & dy' & HY & D & HO & Bd & Fd & Hd & Bd' & Fd' & Hd' & J1 & J2).
  exists y1. split; [exact HY|]. split; [exact D|]. intros s. unfold cb_all. rewrite W. fold it et.
  assert (Z0 : Z.lor mant 0x3ff0000000000000 = ZZ mant 0). { change 0x3ff0000000000000%Z with (1023 * 2 ^ 52)%Z. rewrite lor_hi by lia. unfold ZZ. lia. }
  rewrite Z0. assert (S52 : shlu 64 it 52 = (it * 2 ^ 52)%Z) by (unfold shlu; rewrite Z.shiftl_mul_pow2 by lia; apply Z.mod_small; lia). rewrite S52.
  rewrite uadd_ok by (unfold ZZ; lia). cbn [bind]. assert (Z1 : (ZZ mant 0 + it * 2 ^ 52)%Z = ZZ mant it) by (unfold ZZ; lia). rewrite Z1, T1. cbn [bind]. rewrite T2. cbn [bind]. rewrite !lor_sign by (unfold ZZ; lia).
  change 0x3ff0000000000000%Z with ONE. assert (HY' := HY). unfold ONE in HY'. destruct s.
  - rewrite J2. cbn [bind]. rewrite (fneg64_add y1) by lia. replace (y1 + 2 ^ 63)%Z with (bs true * 2 ^ 63 + y1)%Z by (cbn [bs]; lia). apply cb_fin_ok; auto. rewrite fabs_fneg64 by (apply (zz_val mant it Hm Hi')). exact HO.
  - rewrite J1. cbn [bind]. replace y1 with (bs false * 2 ^ 63 + y1)%Z at 1 by (cbn [bs]; lia). apply cb_fin_ok; auto.
Qed.
Lemma scale_ok y1 k : (ONE <= y1 <= 2 ^ 62)%Z -> (-400 <= k <= 400)%Z -> (0 <= y1 + k * 2 ^ 52 < 2 ^ 63)%Z /\ finite f64 (y1 + k * 2 ^ 52) = true /\ val f64 (y1 + k * 2 ^ 52) = val f64 y1 * bpow radix2 k.
Proof.
  intros H K. destruct (dec12 y1 H) as (E & m & -> & Hm & HE). unfold ONE in H. split; [lia|]. replace (E * 2 ^ 52 + m + k * 2 ^ 52)%Z with ((E + k) * 2 ^ 52 + m)%Z by lia.
  destruct (norm64 E m) as (_ & _ & _ & V1); [lia|lia|]. destruct (norm64 (E + k) m) as (_ & F & _ & V2); [lia|lia|]. split; [exact F|]. rewrite V1, V2, Rmult_assoc, <- bpow_plus. do 2 f_equal. lia.
Qed.
(** significand and exponent of a positive finite number *)
Definition cbm (x : Z) : Z := if (x / 2 ^ 52 =? 0)%Z then (x * 2 ^ (64 - 1 - Z.log2 x - 11) - 2 ^ 52)%Z else (x mod 2 ^ 52)%Z.
Definition cbe (x : Z) : Z := if (x / 2 ^ 52 =? 0)%Z then (1 - (64 - 1 - Z.log2 x - 11))%Z else (x / 2 ^ 52)%Z.
Lemma cbrt_split x s : (0 < x < 0x7ff0000000000000)%Z -> (0 <= cbm x < 2 ^ 52)%Z /\ (-51 <= cbe x <= 2046)%Z /\ val f64 x = IZR (2 ^ 52 + cbm x) * bpow radix2 (cbe x - 1075) /\ rs_cbrt (bs s * 2 ^ 63 + x) = cb_all (cbm x) (bs s) (cbe x mod 2 ^ 32).
Proof.
  intros H. unfold cbm, cbe. destruct (pos64 x ltac:(lia)) as (B & A & S). assert (S01 : (0 <= bs s <= 1)%Z) by (destruct s; cbn [bs]; lia).
  assert (HM : Z.land (bs s * 2 ^ 63 + x) (SIG_MASK f64) = (x mod 2 ^ 52)%Z). { change (SIG_MASK f64) with (2 ^ 52 - 1)%Z. rewrite land_pow2m1 by lia. replace (bs s * 2 ^ 63 + x)%Z with (x + bs s * 2 ^ 11 * 2 ^ 52)%Z by lia. apply Z.mod_add. lia. }
  assert (HS : Z.shiftr (bs s * 2 ^ 63 + x) 63 = bs s). { rewrite Z.shiftr_div_pow2 by lia. rewrite Z.add_comm, Z.div_add by lia. rewrite Z.div_small by lia. lia. }
  assert (E0 : (0 <= x / 2 ^ 52 <= 2046)%Z) by (split; [apply Z.div_pos; lia|apply Z.lt_succ_r; apply Z.div_lt_upper_bound; lia]).
  assert (HE : Z.land (to_u 32 (Z.shiftr (bs s * 2 ^ 63 + x) 52)) (EXP_SAT f64) = (x / 2 ^ 52)%Z).
  { unfold to_u. change (EXP_SAT f64) with (2 ^ 11 - 1)%Z. rewrite land_pow2m1 by lia. rewrite Z.shiftr_div_pow2 by lia. replace (bs s * 2 ^ 63 + x)%Z with (x + bs s * 2 ^ 11 * 2 ^ 52)%Z by lia. rewrite Z.div_add by lia.
    rewrite (Z.mod_small _ (2 ^ 32)) by lia. rewrite Z.mod_add by lia. apply Z.mod_small. lia. }
  unfold rs_cbrt, rs_cbrt_cbrt_round. fold cb_rsc cb_off. rewrite HM, HS, HE. rewrite uadd_ok by lia. cbn [bind]. change (EXP_SAT f64) with (2 ^ 11 - 1)%Z. rewrite land_pow2m1 by lia.
  pose proof (Z.mod_pos_bound x (2 ^ 52) ltac:(lia)) as M0. pose proof (Z.div_mod x (2 ^ 52) ltac:(lia)) as DM. destruct (Z.eq_dec (x / 2 ^ 52) 0) as [Z0 | Z0].
  - rewrite Z0. rewrite Z0 in DM. assert (X0 : (0 < x < 2 ^ 52)%Z) by lia. change ((0 + 1) mod 2 ^ 11 <? 2)%Z with true. cbv iota. change (0 =? 2 ^ 11 - 1)%Z with false.
    assert (HI : Z.land (bs s * 2 ^ 63 + x) (unot 64 (SIGN_MASK f64)) = x). { change (unot 64 (SIGN_MASK f64)) with (2 ^ 63 - 1)%Z. rewrite land_pow2m1 by lia. rewrite Z.add_comm, Z.mod_add by lia. apply Z.mod_small. lia. }
    rewrite HI. rewrite (proj2 (Z.eqb_neq x 0)) by lia. cbn [orb]. unfold lzcnt. rewrite (proj2 (Z.eqb_neq x 0)) by lia.
    assert (LG : (0 <= Z.log2 x <= 51)%Z) by (split; [apply Z.log2_nonneg|apply Z.lt_succ_r; apply Z.log2_lt_pow2; lia]). pose proof (Z.log2_spec x ltac:(lia)) as LS.
    rewrite usub_ok by lia. cbn [bind]. set (nz := (64 - 1 - Z.log2 x - 11)%Z). assert (Hn : (1 <= nz <= 52)%Z) by lia. unfold ushl. rewrite (proj2 (Z.leb_le 0 nz)), (proj2 (Z.ltb_lt nz 64)) by lia. cbn [andb bind]. rewrite usub_ok by lia. cbn [bind].
    assert (XN : (2 ^ 52 <= x * 2 ^ nz < 2 ^ 53)%Z). { replace (2 ^ 52)%Z with (2 ^ Z.log2 x * 2 ^ nz)%Z by (rewrite <- Z.pow_add_r by lia; f_equal; lia). replace (2 ^ 53)%Z with (2 ^ Z.succ (Z.log2 x) * 2 ^ nz)%Z by (rewrite <- Z.pow_add_r by lia; f_equal; lia). split; [apply Z.mul_le_mono_nonneg_r; lia|apply Z.mul_lt_mono_pos_r; lia]. }
    rewrite Z.mod_small with (a := x) by lia. rewrite Z.shiftl_mul_pow2 by lia. rewrite (Z.mod_small (x * 2 ^ nz)) by lia. change (SIG_MASK f64) with (2 ^ 52 - 1)%Z. rewrite land_pow2m1 by lia.
    change (0 =? 0)%Z with true. cbv iota. split; [lia|]. split; [lia|]. split.
    + replace (2 ^ 52 + (x * 2 ^ nz - 2 ^ 52))%Z with (x * 2 ^ nz)%Z by lia. rewrite mult_IZR, IZR_pow2 by lia. rewrite Rmult_assoc, <- bpow_plus. replace (nz + (1 - nz - 1075))%Z with (-1074)%Z by lia.
      unfold val. rewrite S. cbn [sval]. unfold expf, sigf, mag_of. change (mw f64) with 52%Z. rewrite Z0, Z.mod_small with (b := (2 ^ 52)%Z) by lia. reflexivity.
    + rewrite cb_pre_eq, cb_all_eq. f_equal; [symmetry; apply Z.mod_unique_pos with 1%Z; lia|]. unfold wsub. f_equal. lia.
  - rewrite (Z.mod_small (x / 2 ^ 52 + 1)) by lia. rewrite (proj2 (Z.ltb_ge (x / 2 ^ 52 + 1) 2)) by lia. rewrite (proj2 (Z.eqb_neq (x / 2 ^ 52) 0)) by lia. split; [lia|]. split; [lia|]. split.
    + destruct (norm64 (x / 2 ^ 52) (x mod 2 ^ 52)) as (_ & _ & _ & V); [lia|lia|]. rewrite Z.mul_comm, <- DM in V. exact V.
    + rewrite cb_pre_eq, cb_all_eq. f_equal. symmetry. apply Z.mod_small. lia.
Qed.

Lemma cube_range u : 1 <= u * u * u <= 8 - / 1125899906842624 -> 1 <= u <= v2.
Proof. intros U. split; [apply cube_le; [|lra]|unfold v2; apply cube_le; lra]. destruct (Rle_lt_dec 0 u); [assumption|]. exfalso. nra. Qed.
Lemma cbrt_bits x v : (0 < x < 0x7ff0000000000000)%Z -> v * v * v = val f64 x -> exists y1 k, (ONE <= y1 <= 2 ^ 62)%Z /\ (-358 <= k <= 341)%Z /\ 0 < v /\ 1 <= v * bpow radix2 (- k) < 2 /\ Rabs (val f64 y1 - v * bpow radix2 (- k)) <= BND /\
  forall s, rs_cbrt (bs s * 2 ^ 63 + x) = Some (bs s * 2 ^ 63 + (y1 + k * 2 ^ 52))%Z.
Proof.
  intros H EV. destruct (cbrt_split x true H) as (Hm & He & V & _). set (m := cbm x) in *. set (e := cbe x) in *. set (k := ((e + 3072) / 3 - 1365)%Z). set (it := ((e + 3072) mod 3)%Z).
  pose proof (Z.mod_pos_bound (e + 3072) 3 ltac:(lia)) as Hi. pose proof (Z.div_mod (e + 3072) 3 ltac:(lia)) as DM. fold it in Hi, DM. assert (Het : (1007 <= (e + 3072) / 3 <= 1706)%Z) by (split; [apply Z.div_le_lower_bound; lia|apply Z.div_le_upper_bound; lia]).
  destruct (norm64 (1023 + it) m) as (_ & _ & _ & VZ); [lia|lia|]. fold (ZZ m it) in VZ.
  destruct (zz_val m it Hm ltac:(lia)) as (_ & _ & Ez & HZ & _). assert (HK : 1 <= bpow radix2 it <= 4) by (split; [apply (bpow_le radix2 0 it); lia|apply (bpow_le radix2 it 2); lia]).
  assert (E3 : (v * bpow radix2 (- k)) * (v * bpow radix2 (- k)) * (v * bpow radix2 (- k)) = val f64 (ZZ m it)).
  { replace (v * bpow radix2 (- k) * (v * bpow radix2 (- k)) * (v * bpow radix2 (- k))) with (v * v * v * (bpow radix2 (- k) * bpow radix2 (- k) * bpow radix2 (- k))) by ring.
    rewrite <- !bpow_plus. rewrite EV, V, VZ, Rmult_assoc, <- bpow_plus. do 2 f_equal. unfold k. lia. }
  set (u := v * bpow radix2 (- k)) in *. assert (U : 1 <= u * u * u <= 8 - / 1125899906842624) by (rewrite E3, Ez; nra). destruct (cube_range u U) as [U1 U2]. unfold v2 in U2.
  destruct (cb_all_ok m e u Hm He ltac:(lra) (eq_sym (eq_sym E3))) as (y1 & HY & D & A). exists y1, k. split; [exact HY|]. split; [unfold k; lia|]. split; [|split; [split; [exact U1|apply Rle_lt_trans with (1 := U2); lra]|split; [exact D|]]].
  - pose proof (bpow_gt_0 radix2 (- k)) as K. destruct (Rle_lt_dec v 0); [|assumption]. exfalso. unfold u in U1. nra.
  - intros s. destruct (cbrt_split x s H) as (_ & _ & _ & ->). apply A.
Qed.
(** rounding of a number in [2^k, 2^(k+1)) *)
Lemma round_scaled (rnd : R -> Z) t k : (-1000 <= k <= 1000)%Z -> 1 <= t < 2 -> Generic_fmt.round radix2 (FLT_exp (1 - bias f64 - mw f64) (mw f64 + 1)) rnd (t * bpow radix2 k) = IZR (rnd (t * 4503599627370496)) * bpow radix2 (k - 52).
Proof.
  intros K T. unfold Generic_fmt.round, scaled_mantissa, cexp, F2R. cbn [Fnum Fexp].
  assert (M : mag radix2 (t * bpow radix2 k) = (k + 1)%Z :> Z). { rewrite mag_mult_bpow by lra. assert (mag radix2 t = 1%Z :> Z); [|lia]. apply mag_unique. rewrite Rabs_pos_eq by lra. change (bpow radix2 (1 - 1)) with 1. change (bpow radix2 1) with 2. lra. }
  rewrite M. assert (E : FLT_exp (1 - bias f64 - mw f64) (mw f64 + 1) (k + 1) = (k - 52)%Z). { unfold FLT_exp. change (1 - bias f64 - mw f64)%Z with (-1074)%Z. change (mw f64 + 1)%Z with 53%Z. lia. }
  rewrite E. rewrite Rmult_assoc, <- bpow_plus. replace (k + - (k - 52))%Z with 52%Z by lia. reflexivity.
Qed.
Lemma near_grid t N : Rabs (IZR N - t) <= / 2 + / 140737488355328 -> (N = Zfloor t \/ N = Zceil t) /\ (ZnearestE t = N \/ (IZR (Zceil t) = IZR (Zfloor t) + 1 /\ Rabs (t - (IZR (Zfloor t) + IZR (Zceil t)) / 2) <= / 140737488355328)).
Proof.
  intros H. pose proof (Zfloor_lb t) as L. pose proof (Zfloor_ub t) as U. assert (H' := Rabs_le_inv _ _ H). destruct (Req_dec (IZR (Zfloor t)) t) as [Q | Q].
  - assert (NF : N = Zfloor t). { assert (-1 < N - Zfloor t < 1)%Z; [|lia]. split; apply lt_IZR; rewrite minus_IZR; lra. } split; [left; exact NF|]. left. apply Znearest_imp. rewrite NF, Q. rewrite Rminus_diag_eq by reflexivity. rewrite Rabs_R0. lra.
  - assert (C : Zceil t = (Zfloor t + 1)%Z) by (apply Zceil_floor_neq; exact Q).
    assert (NF : N = Zfloor t \/ N = (Zfloor t + 1)%Z). { assert (-1 < N - Zfloor t < 2)%Z; [|lia]. split; apply lt_IZR; rewrite minus_IZR; lra. } split; [rewrite C; exact NF|].
    rewrite C, plus_IZR. destruct (Rlt_le_dec (Rabs (IZR N - t)) (/ 2)) as [S | S]; [left; apply Znearest_imp; rewrite Rabs_minus_sym; exact S|]. right. split; [reflexivity|].
    destruct NF as [-> | ->]; [rewrite Rabs_minus_sym, Rabs_pos_eq in S by lra|rewrite plus_IZR in *; rewrite Rabs_pos_eq in S by lra]; apply Rabs_le; lra.
Qed.
Lemma cbrt_pos_ok x v : (0 < x < 0x7ff0000000000000)%Z -> v * v * v = val f64 x -> exists r, (0 <= r < 2 ^ 63)%Z /\ finite f64 r = true /\ nearly_correct f64 (bpow radix2 (-47)) v r /\ forall s, rs_cbrt (bs s * 2 ^ 63 + x) = Some (bs s * 2 ^ 63 + r)%Z.
Proof.
  intros H EV. destruct (cbrt_bits x v H EV) as (y1 & k & HY & HK & V0 & HU & D & A). destruct (scale_ok y1 k HY ltac:(lia)) as (R & F & VR). exists (y1 + k * 2 ^ 52)%Z. split; [exact R|]. split; [exact F|]. split; [|exact A].
  set (u := v * bpow radix2 (- k)) in *. assert (EVu : v = u * bpow radix2 k) by (unfold u; rewrite Rmult_assoc, <- bpow_plus; replace (- k + k)%Z with 0%Z by lia; cbn [bpow]; ring).
  assert (YN : exists N, val f64 y1 = IZR N * / 4503599627370496).
  { destruct (dec12 y1 HY) as (E & m & Ey & Hm & HE). destruct (norm64 E m) as (_ & _ & _ & V1); [lia|lia|]. rewrite <- Ey in V1. rewrite V1. destruct HE as [-> | [-> ->]]; [exists (2 ^ 52 + m)%Z; reflexivity|exists (2 ^ 53)%Z; change (bpow radix2 (1024 - 1075)) with (/ 2251799813685248); change (2 ^ 52 + 0)%Z with 4503599627370496%Z; change (2 ^ 53)%Z with 9007199254740992%Z; lra]. }
  destruct YN as [N EN]. rewrite EN in D, VR. unfold BND, E2 in D. apply Rabs_le_inv in D.
  assert (G : Rabs (IZR N - u * 4503599627370496) <= / 2 + / 140737488355328) by (apply Rabs_le; lra). destruct (near_grid _ _ G) as [G1 G2].
  assert (K52 : bpow radix2 k = 4503599627370496 * bpow radix2 (k - 52)) by (change 4503599627370496 with (bpow radix2 52); rewrite <- bpow_plus; f_equal; lia).
  assert (VR' : val f64 (y1 + k * 2 ^ 52) = IZR N * bpow radix2 (k - 52)) by (rewrite VR, K52; field). clear VR.
  assert (RB : below f64 v = IZR (Zfloor (u * 4503599627370496)) * bpow radix2 (k - 52)) by (unfold below; rewrite EVu; apply round_scaled; [lia|lra]).
  assert (RA : above f64 v = IZR (Zceil (u * 4503599627370496)) * bpow radix2 (k - 52)) by (unfold above; rewrite EVu; apply round_scaled; [lia|lra]).
  assert (RN : rnd f64 v = IZR (ZnearestE (u * 4503599627370496)) * bpow radix2 (k - 52)) by (unfold rnd; rewrite EVu; apply round_scaled; [lia|lra]).
  split. { split; [apply pos64, R|]. split; [exact F|]. rewrite VR', RB, RA. destruct G1 as [-> | ->]; auto. }
  rewrite VR', RN. destruct G2 as [-> | [Q1 Q2]]; [left; reflexivity|right]. unfold near_tie. rewrite RB, RA. pose proof (bpow_gt_0 radix2 (k - 52)) as P. rewrite Q1 in *. split; [nra|].
  rewrite EVu, K52. set (f := IZR (Zfloor (u * 4503599627370496))) in *. set (b := bpow radix2 (k - 52)) in *.
  replace (u * (4503599627370496 * b) - (f * b + (f + 1) * b) / 2) with ((u * 4503599627370496 - (f + (f + 1)) / 2) * b) by field. rewrite Rabs_mult, (Rabs_pos_eq b) by lra. replace ((f + 1) * b - f * b) with b by ring.
  apply Rmult_le_compat_r; [lra|]. exact Q2.
Qed.
Lemma near_neg eps v r : isbits f64 r -> nearly_correct f64 eps v r -> nearly_correct f64 eps (- v) (Format.fneg f64 r).
Proof.
  intros B [H1 H2]. split; [now apply P_kerf2.faithful_neg|]. rewrite fneg_val by assumption. rewrite rnd_opp. destruct H2 as [-> | [L D]]; [left; reflexivity|right].
  unfold near_tie, below, above in *. rewrite round_DN_opp, round_UP_opp. set (a := Generic_fmt.round _ _ Zfloor v) in *. set (b := Generic_fmt.round _ _ Zceil v) in *. split; [lra|]. replace (- v - (- b + - a) / 2) with (- (v - (a + b) / 2)) by field. rewrite Rabs_Ropp. lra.
Qed.
Lemma neg3 b : b < 0 -> b * b * b < 0.
Proof. intros H. assert (0 < b * b) by nra. nra. Qed.
Lemma cube_inj a b : a * a * a = b * b * b -> a = b.
Proof.
  intros H. destruct (Rle_lt_dec 0 a), (Rle_lt_dec 0 b).
  - apply Rle_antisym; apply cube_le; lra.
  - exfalso. assert (0 <= a * a * a) by (apply Rmult_le_pos; [nra|lra]). pose proof (neg3 b). lra.
  - exfalso. assert (0 <= b * b * b) by (apply Rmult_le_pos; [nra|lra]). pose proof (neg3 a). lra.
  - assert (- a <= - b) by (apply cube_le; lra). assert (- b <= - a) by (apply cube_le; lra). lra.
Qed.
Lemma cbrt_zero s : rs_cbrt (bs s * 2 ^ 63) = Some (bs s * 2 ^ 63)%Z.
Proof. destruct s; vm_compute; reflexivity. Qed.
Lemma cbrt_near x v : isbits f64 x -> finite f64 x = true -> v * v * v = val f64 x -> exists r, rs_cbrt x = Some r /\ nearly_correct f64 (bpow radix2 (-47)) v r.
Proof.
  intros B F EV. destruct (bits64 x B) as [E R]. rewrite (fin64 x B) in F. apply Z.ltb_lt in F. destruct (Z.eq_dec (a64 x) 0) as [Z0 | Z0].
  - rewrite Z0, Z.add_0_r in E. exists x. split; [rewrite E at 1 2; apply cbrt_zero|]. assert (V : val f64 x = 0). { apply iszero_val. rewrite E. destruct (signbit f64 x); vm_compute; reflexivity. }
    rewrite V in EV. assert (v = 0) as ->. { apply cube_inj. rewrite EV. ring. } assert (Ff : finite f64 x = true) by (rewrite (fin64 x B); apply Z.ltb_lt; exact F). split.
    + split; [exact B|]. split; [exact Ff|]. left. rewrite V. symmetry. apply round_0. apply valid_rnd_DN.
    + left. rewrite V. symmetry. apply rnd_0.
  - destruct (sval64 (signbit f64 x) (a64 x) R) as (_ & _ & V). rewrite <- E in V. assert (P : (0 < a64 x < 0x7ff0000000000000)%Z) by lia.
    destruct (signbit f64 x).
    + cbn [sval] in V. destruct (cbrt_pos_ok (a64 x) (- v) P) as (r & Rr & Fr & N & A); [transitivity (- (v * v * v)); [ring|rewrite EV, V; ring]|].
      exists (Format.fneg f64 r). split; [rewrite E at 1; rewrite A, fneg64_add by assumption; f_equal; cbn [bs]; lia|]. replace v with (- - v) by ring. apply near_neg; [apply pos64, Rr|exact N].
    + cbn [sval] in V. destruct (cbrt_pos_ok (a64 x) v P) as (r & Rr & Fr & N & A); [rewrite EV; exact V|]. exists r. split; [rewrite E at 1; rewrite A; f_equal; cbn [bs]; lia|exact N].
Qed.
Lemma inf64 x : isbits f64 x -> isinf f64 x = true -> a64 x = 0x7ff0000000000000%Z.
Proof.
  intros B I. unfold isinf in I. apply andb_true_iff in I. destruct I as [I1 I2]. apply Z.eqb_eq in I1, I2. destruct (bits64 x B) as [E R]. unfold expf, sigf in *. change (mw f64) with 52%Z in *. change (2 ^ ew f64)%Z with 2048%Z in *. unfold a64 in *.
  assert (Q : (x = 2 ^ 52 * (x / 2 ^ 52) + 0)%Z) by (pose proof (Z.div_mod x (2 ^ 52) ltac:(lia)); lia). pose proof (Z.div_mod (x / 2 ^ 52) 2048 ltac:(lia)) as D. rewrite I1 in D. rewrite Q, D. replace (2 ^ 52 * (2048 * (x / 2 ^ 52 / 2048) + (2048 - 1)) + 0)%Z with (0x7ff0000000000000 + x / 2 ^ 52 / 2048 * 2 ^ 63)%Z by lia. rewrite Z.mod_add by lia. reflexivity.
Qed.
Lemma cbrt_opposite : odd_fn f64 rs_cbrt.
Proof.
  intros x B N. rewrite opposite_fneg by assumption. destruct (bits64 x B) as [E R]. assert (FN : Format.fneg f64 x = (bs (negb (signbit f64 x)) * 2 ^ 63 + a64 x)%Z).
  { destruct (fneg_fields f64 x B) as (B' & S' & _). destruct (bits64 _ B') as [E' _]. rewrite S', a64_fneg in E' by assumption. exact E'. }
  assert (K : exists r, (0 <= r < 2 ^ 63)%Z /\ isnan f64 r = false /\ forall s, rs_cbrt (bs s * 2 ^ 63 + a64 x) = Some (bs s * 2 ^ 63 + r)%Z).
  { destruct (class_cases f64 x) as [(Fx & _) | [(_ & I & _) | (_ & _ & Nx)]]; [| |congruence].
    - rewrite (fin64 x B) in Fx. apply Z.ltb_lt in Fx. destruct (Z.eq_dec (a64 x) 0) as [Z0 | Z0].
      + exists 0%Z. split; [lia|]. split; [vm_compute; reflexivity|]. intros s. rewrite Z0, Z.add_0_r. apply cbrt_zero.
      + assert (P : (0 < a64 x < 0x7ff0000000000000)%Z) by lia. destruct (pos64 (a64 x) R) as (Ba & Aa & Sa).
        assert (PV : 0 < val f64 (a64 x)). { destruct (P_ival2.IN_pos64 1 0x7fefffffffffffff (a64 x) Ba Sa ltac:(lia)) as (_ & _ & I); [rewrite Aa; lia|lia|]. cbn [fst snd] in I. assert (0 < val f64 1); [|lra]. change (val f64 1) with (1 * bpow radix2 (-1074)). pose proof (bpow_gt_0 radix2 (-1074)). lra. }
        assert (EV : Rpower (val f64 (a64 x)) (/ 3) * Rpower (val f64 (a64 x)) (/ 3) * Rpower (val f64 (a64 x)) (/ 3) = val f64 (a64 x)). { rewrite <- !Rpower_plus. replace (/ 3 + / 3 + / 3) with 1 by field. now apply Rpower_1. }
        destruct (cbrt_pos_ok (a64 x) _ P EV) as (r & Rr & Fr & _ & A). exists r. split; [exact Rr|]. split; [exact (finite_not_nan _ _ Fr)|exact A].
    - rewrite (inf64 x B I). exists 0x7ff0000000000000%Z. split; [lia|]. split; [vm_compute; reflexivity|]. intros [|]; vm_compute; reflexivity. }
  destruct K as (r & Rr & Nr & A). exists (bs (signbit f64 x) * 2 ^ 63 + r)%Z, (bs (negb (signbit f64 x)) * 2 ^ 63 + r)%Z. split; [rewrite E at 1; apply A|]. split; [rewrite FN; apply A|]. right.
  destruct (bits64_intro (signbit f64 x) r Rr) as (Bq & Sq & Aq). rewrite opposite_fneg by assumption. destruct (bits64_intro (negb (signbit f64 x)) r Rr) as (Bq' & Sq' & Aq').
  split. { destruct (signbit f64 x); cbn [bs]; [replace (1 * 2 ^ 63 + r)%Z with (Format.fneg f64 r) by (rewrite fneg64_add by assumption; lia); rewrite fneg_nan by (apply pos64, Rr)|replace (0 * 2 ^ 63 + r)%Z with r by lia]; exact Nr. }
  destruct (fneg_fields f64 _ Bq) as (Bn & Sn & _). destruct (bits64 _ Bn) as [En _]. rewrite En, Sn, Sq, a64_fneg, Aq by assumption. reflexivity.
Qed.

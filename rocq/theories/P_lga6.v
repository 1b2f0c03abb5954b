(** The argument reduction of the logarithms, f64: x = 2^k (1 + f). *)
From Coq Require Import ZArith Reals Lia Lra Bool List Psatz.
From Flocq Require Import Core.
From Verif Require Import Base Spec SpecFun2 Format P_format Ieee P_ieee P_real P_neg P_lit P_err P_scalbn P_elem P_elem2 P_dom P_ival P_ival2 P_gam4 P_gam6 P_exp P_log P_apx P_poly P_poly2 P_poly3 P_powt P_powt8 P_taylor P_expa1 P_expa2 P_expa3 P_expa4 P_expa5 P_expa7 P_expa8 P_expa9 P_lga1 P_lga2 P_lga3 P_lga4 P_lga5 M_sqrt M_elib M_log.
Import ListNotations.
Open Scope R_scope.
Local Opaque fadd fsub fmul fdiv of_int.

(** subtracting k from the exponent field *)
Lemma shift_val F x k : isbits F x -> signbit F x = false -> (1 <= expf F x)%Z -> (1 <= expf F x - k < 2 ^ ew F - 1)%Z -> let y := (x - k * 2 ^ mw F)%Z in
  isbits F y /\ signbit F y = false /\ finite F y = true /\ val F y = val F x * bpow radix2 (- k).
Proof.
  intros B S E1 E2 y. set (e := expf F x) in *. set (m := sigf F x). pose proof (fields_split F x B) as HX. rewrite S in HX. fold e m in HX.
  assert (Hm : (0 <= m < 2 ^ mw F)%Z) by (apply Z.mod_pos_bound; pose proof (fmt_facts F); apply Z.pow_pos_nonneg; lia).
  assert (He : (0 <= e < 2 ^ ew F)%Z) by (apply Z.mod_pos_bound; pose proof (fmt_facts F); apply Z.pow_pos_nonneg; lia).
  assert (Hy : y = mkbits F false (e - k) m) by (unfold y, mkbits in *; lia).
  pose proof (mkbits_range F false (e - k) m ltac:(lia) Hm) as Ry. destruct (mkbits_fields F false (e - k) m ltac:(lia) Hm) as (S1 & S2 & S3). rewrite Hy.
  split; [exact Ry|]. split; [exact S1|]. split; [unfold finite; rewrite S2; apply Z.ltb_lt; lia|]. rewrite val_mkbits by lia. unfold val. rewrite S. fold e m. unfold sval, mag_of.
  replace (e - k =? 0)%Z with false by (symmetry; apply Z.eqb_neq; lia). replace (e =? 0)%Z with false by (symmetry; apply Z.eqb_neq; lia). rewrite Rmult_assoc, <- bpow_plus. do 2 f_equal. lia.
Qed.
Definition nk64 (hx : Z) : Z := (Z.shiftr (hx + 0x95f62) 20 - 1023)%Z.
Definition nx64 (x hx : Z) : Z := Z.lor (shlu 64 (Z.land (hx + 0x95f62) 0xfffff + 0x3fe6a09e) 32) (Z.land x 0xffffffff).
Lemma nx64_eq x : (2 ^ 52 <= x < 0x7ff0000000000000)%Z -> let hx := to_u 32 (Z.shiftr x 32) in
  nx64 x hx = (x - nk64 hx * 2 ^ 52)%Z /\ (0x3fe6a09e * 2 ^ 32 <= nx64 x hx < 0x3ff6a09e * 2 ^ 32)%Z /\ (-1023 <= nk64 hx <= 1024)%Z /\ (0 <= hx < 0x7ff00000)%Z.
Proof.
  intros H hx. assert (Hh : hx = (x / 2 ^ 32)%Z). { unfold hx, to_u. rewrite Z.shiftr_div_pow2 by lia. apply Z.mod_small. split; [apply Z.div_pos; lia|]. apply Z.div_lt_upper_bound; lia. }
  assert (Rh : (2 ^ 20 <= hx < 0x7ff00000)%Z). { rewrite Hh. split; [apply Z.div_le_lower_bound; lia|apply Z.div_lt_upper_bound; lia]. }
  unfold nx64, nk64. rewrite Z.shiftr_div_pow2 by lia. change 0xfffff%Z with (2 ^ 20 - 1)%Z. change 0xffffffff%Z with (2 ^ 32 - 1)%Z. rewrite !land_pow2m1 by lia.
  set (h := (hx + 0x95f62)%Z) in *. pose proof (Z.div_mod h (2 ^ 20) ltac:(lia)) as D. pose proof (Z.mod_pos_bound h (2 ^ 20) ltac:(lia)) as DM. pose proof (Z.div_mod x (2 ^ 32) ltac:(lia)) as X. pose proof (Z.mod_pos_bound x (2 ^ 32) ltac:(lia)) as XM.
  set (q := (h / 2 ^ 20)%Z) in *. set (r := (h mod 2 ^ 20)%Z) in *. set (lo := (x mod 2 ^ 32)%Z) in *. rewrite <- Hh in X. clearbody q r lo.
  assert (L : Z.lor (shlu 64 (r + 0x3fe6a09e) 32) lo = ((r + 0x3fe6a09e) * 2 ^ 32 + lo)%Z).
  { unfold shlu. rewrite Z.shiftl_mul_pow2 by lia. rewrite Z.mod_small by lia. apply lor_disjoint; lia. }
  rewrite L. unfold h in *. split; [lia|]. split; [lia|]. split; [lia|]. lia.
Qed.
Lemma red_log64 x : (2 ^ 52 <= x < 0x7ff0000000000000)%Z -> let hx := to_u 32 (Z.shiftr x 32) in let k := nk64 hx in let f := fsub f64 (nx64 x hx) 0x3ff0000000000000 in
  isbits f64 f /\ finite f64 f = true /\ val f64 x = (1 + val f64 f) * bpow radix2 k /\ (val f64 f <> 0 -> bpow radix2 (-60) <= Rabs (val f64 f)) /\ -2930 / 10000 <= val f64 f <= 41425 / 100000 /\ 4999 / 10000 <= (1 + val f64 f) * (1 + val f64 f) <= 20002 / 10000.
Proof.
  intros H hx k f. destruct (nx64_eq x H) as (E & R & K & HH). fold hx in E, R, K, HH. fold k in E, K. set (n := nx64 x hx) in *.
  destruct (pos64 x ltac:(lia)) as (Bx & Ax & Sx). destruct (pos64 n ltac:(lia)) as (Bn & An & Sn).
  assert (EX : expf f64 x = (x / 2 ^ 52)%Z). { unfold expf. change (mw f64) with 52%Z. change (ew f64) with 11%Z. apply Z.mod_small. split; [apply Z.div_pos; lia|apply Z.div_lt_upper_bound; lia]. }
  assert (EB : (1 <= x / 2 ^ 52 < 2047)%Z) by (split; [apply Z.div_le_lower_bound; lia|apply Z.div_lt_upper_bound; lia]).
  assert (EN : (x / 2 ^ 52 - k = n / 2 ^ 52)%Z). { rewrite E. replace (x - k * 2 ^ 52)%Z with (x + (- k) * 2 ^ 52)%Z by lia. rewrite Z.div_add by lia. lia. }
  assert (NB : (1022 <= n / 2 ^ 52 <= 1023)%Z). { split; [apply Z.div_le_lower_bound; lia|]. assert (n / 2 ^ 52 < 1024)%Z by (apply Z.div_lt_upper_bound; lia). lia. }
  destruct (shift_val f64 x k Bx Sx ltac:(rewrite EX; lia) ltac:(rewrite EX, EN; change (2 ^ ew f64 - 1)%Z with 2047%Z; lia)) as (_ & _ & Fn & Vn). change (mw f64) with 52%Z in Fn, Vn. rewrite <- E in Fn, Vn.
  assert (VX : val f64 x = val f64 n * bpow radix2 k). { rewrite Vn, Rmult_assoc, <- bpow_plus. replace (- k + k)%Z with 0%Z by lia. cbn. lra. }
  pose proof (a64_ge n (0x3fe6a09e * 2 ^ 32) Bn Fn ltac:(lia)) as [L1 _]. pose proof (a64_ge n (0x3ff6a09e * 2 ^ 32) Bn Fn ltac:(lia)) as [_ L2]. rewrite An in L1, L2.
  specialize (L1 ltac:(apply Z.leb_le; lia)). specialize (L2 ltac:(apply Z.leb_gt; lia)).
  change (0x3fe6a09e * 2 ^ 32)%Z with 0x3fe6a09e00000000%Z in L1. change (0x3ff6a09e * 2 ^ 32 - 1)%Z with 0x3ff6a09dffffffff%Z in L2.
  rewrite (val_lit f64 0x3fe6a09e00000000 (2 ^ 52 + 0x6a09e00000000) (2 ^ 53)) in L1 by (vm_compute; reflexivity). rewrite (val_lit f64 0x3ff6a09dffffffff (2 ^ 52 + 0x6a09dffffffff) (2 ^ 52)) in L2 by (vm_compute; reflexivity).
  let v := eval vm_compute in (2 ^ 52 + 0x6a09e00000000)%Z in change (2 ^ 52 + 0x6a09e00000000)%Z with v in L1. let v := eval vm_compute in (2 ^ 52 + 0x6a09dffffffff)%Z in change (2 ^ 52 + 0x6a09dffffffff)%Z with v in L2. change (2 ^ 53)%Z with 9007199254740992%Z in L1. change (2 ^ 52)%Z with 4503599627370496%Z in L2.
  assert (PN : 0 <= val f64 n). { unfold val. rewrite Sn. apply mag_of_nonneg, Z.mod_pos_bound; vm_compute; reflexivity. }
  rewrite Rabs_pos_eq in L1, L2 by exact PN. destruct o64 as [Fo Vo].
  destruct (repr_grid f64 (val f64 n) (-1) (repr_val f64 n Fn)) as [m Hm]. { intros _. rewrite Rabs_pos_eq by exact PN. change (bpow radix2 (-1)) with (/ 2). lra. }
  change (-1 - mw f64)%Z with (-53)%Z in Hm. change (bpow radix2 (-53)) with (/ 9007199254740992) in Hm.
  assert (E2 : val f64 n - val f64 0x3ff0000000000000 = IZR (m - 2 ^ 53) * bpow radix2 (-53)). { rewrite Vo, Hm, minus_IZR. change (bpow radix2 (-53)) with (/ 9007199254740992). change (2 ^ 53)%Z with 9007199254740992%Z. lra. }
  assert (MB : (Z.abs (m - 2 ^ 53) < 2 ^ 52)%Z). { apply lt_IZR. rewrite abs_IZR, minus_IZR. change (2 ^ 53)%Z with 9007199254740992%Z. change (2 ^ 52)%Z with 4503599627370496%Z. apply Rabs_def1; lra. }
  destruct (exact_sub f64 n 0x3ff0000000000000 (m - 2 ^ 53) (-53) Fn Fo E2 ltac:(change (mw f64 + 1)%Z with 53%Z; lia) ltac:(vm_compute; discriminate)) as (Bf & Ff & Vf).
  { rewrite Vo. apply Rle_trans with (bpow radix2 0); [apply Rabs_le; change (bpow radix2 0) with 1; lra|apply bpow_le; vm_compute; discriminate]. }
  change (fsub f64 n 0x3ff0000000000000) with f in Bf, Ff, Vf. rewrite Vo in Vf, E2. split; [exact Bf|]. split; [exact Ff|]. split; [rewrite VX, Vf; ring|]. split; [|rewrite Vf; split; [lra|split; nra]].
  intros NZ. rewrite Vf in NZ |- *. rewrite E2 in NZ |- *. assert (m - 2 ^ 53 <> 0)%Z as N0 by (intros Z; rewrite Z, Rmult_0_l in NZ; now apply NZ). rewrite Rabs_mult, (Rabs_pos_eq (bpow _ _)), <- abs_IZR by apply bpow_ge_0.
  assert (1 <= IZR (Z.abs (m - 2 ^ 53))) by (apply (IZR_le 1); lia). assert (bpow radix2 (-60) <= bpow radix2 (-53)) by (apply bpow_le; lia). pose proof (bpow_gt_0 radix2 (-53)). nra.
Qed.

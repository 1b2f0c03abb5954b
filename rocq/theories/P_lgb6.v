(** The argument reduction of the logarithms, f32: x = 2^k (1 + f). *)
From Coq Require Import ZArith Reals Lia Lra Bool List Psatz.
From Flocq Require Import Core.
From Verif Require Import Base Spec SpecFun2 Format P_format Ieee P_ieee P_real P_neg P_lit P_err P_scalbn P_elem P_elem2 P_dom P_ival P_ival2 P_gam4 P_gam6 P_exp P_log P_apx P_poly P_poly2 P_poly3 P_powt P_powt8 P_taylor P_expa1 P_expa2 P_expa3 P_expa4 P_expa5 P_expa6 P_expa7 P_expa8 P_expa9 P_expa12 P_lga1 P_lga2 P_lga3 P_lga4 P_lga5 P_lga6 P_lgb3 P_lgb4 P_lgb5 M_sqrt M_elib M_log.
Import ListNotations.
Open Scope R_scope.
Local Opaque fadd fsub fmul fdiv of_int.

Definition nk32 (x : Z) : Z := (Z.shiftr (x + 0x4afb0d) 23 - 127)%Z.
Definition nx32 (x : Z) : Z := (Z.land (x + 0x4afb0d) 0x7fffff + 0x3f3504f3)%Z.
Lemma nx32_eq x : (2 ^ 23 <= x < 0x7f800000)%Z ->
  nx32 x = (x - nk32 x * 2 ^ 23)%Z /\ (0x3f3504f3 <= nx32 x < 0x3fb504f3)%Z /\ (-127 <= nk32 x <= 128)%Z.
Proof.
  intros H. unfold nx32, nk32. rewrite Z.shiftr_div_pow2 by lia. change 0x7fffff%Z with (2 ^ 23 - 1)%Z. rewrite !land_pow2m1 by lia.
  set (h := (x + 0x4afb0d)%Z) in *. pose proof (Z.div_mod h (2 ^ 23) ltac:(lia)) as D. pose proof (Z.mod_pos_bound h (2 ^ 23) ltac:(lia)) as DM. 
  set (q := (h / 2 ^ 23)%Z) in *. set (r := (h mod 2 ^ 23)%Z) in *. clearbody q r. unfold h in *. split; [lia|]. split; lia.
Qed.
Lemma red_log32 x : (2 ^ 23 <= x < 0x7f800000)%Z -> let k := nk32 x in let f := fsub f32 (nx32 x) 0x3f800000 in
  isbits f32 f /\ finite f32 f = true /\ val f32 x = (1 + val f32 f) * bpow radix2 k /\ (val f32 f <> 0 -> bpow radix2 (-60) <= Rabs (val f32 f)) /\ -2930 / 10000 <= val f32 f <= 41425 / 100000 /\ 4999 / 10000 <= (1 + val f32 f) * (1 + val f32 f) <= 20002 / 10000.
Proof.
  intros H k f. destruct (nx32_eq x H) as (E & R & K). fold k in E, K. set (n := nx32 x) in *.
  destruct (pos32 x ltac:(lia)) as (Bx & Ax & Sx). destruct (pos32 n ltac:(lia)) as (Bn & An & Sn).
  assert (EX : expf f32 x = (x / 2 ^ 23)%Z). { unfold expf. change (mw f32) with 23%Z. change (ew f32) with 8%Z. apply Z.mod_small. split; [apply Z.div_pos; lia|apply Z.div_lt_upper_bound; lia]. }
  assert (EB : (1 <= x / 2 ^ 23 < 255)%Z) by (split; [apply Z.div_le_lower_bound; lia|apply Z.div_lt_upper_bound; lia]).
  assert (EN : (x / 2 ^ 23 - k = n / 2 ^ 23)%Z). { rewrite E. replace (x - k * 2 ^ 23)%Z with (x + (- k) * 2 ^ 23)%Z by lia. rewrite Z.div_add by lia. lia. }
  assert (NB : (126 <= n / 2 ^ 23 <= 127)%Z). { split; [apply Z.div_le_lower_bound; lia|]. assert (n / 2 ^ 23 < 128)%Z by (apply Z.div_lt_upper_bound; lia). lia. }
  destruct (shift_val f32 x k Bx Sx ltac:(rewrite EX; lia) ltac:(rewrite EX, EN; change (2 ^ ew f32 - 1)%Z with 255%Z; lia)) as (_ & _ & Fn & Vn). change (mw f32) with 23%Z in Fn, Vn. rewrite <- E in Fn, Vn.
  assert (VX : val f32 x = val f32 n * bpow radix2 k). { rewrite Vn, Rmult_assoc, <- bpow_plus. replace (- k + k)%Z with 0%Z by lia. cbn. lra. }
  pose proof (a32_ge n 0x3f3504f3 Bn Fn ltac:(lia)) as [L1 _]. pose proof (a32_ge n 0x3fb504f3 Bn Fn ltac:(lia)) as [_ L2]. rewrite An in L1, L2.
  specialize (L1 ltac:(apply Z.leb_le; lia)). specialize (L2 ltac:(apply Z.leb_gt; lia)). change (0x3fb504f3 - 1)%Z with 0x3fb504f2%Z in L2.
  rewrite (val_lit f32 0x3f3504f3 (2 ^ 23 + 0x3504f3) (2 ^ 24)) in L1 by (vm_compute; reflexivity). rewrite (val_lit f32 0x3fb504f2 (2 ^ 23 + 0x3504f2) (2 ^ 23)) in L2 by (vm_compute; reflexivity).
  let v := eval vm_compute in (2 ^ 23 + 0x3504f3)%Z in change (2 ^ 23 + 0x3504f3)%Z with v in L1. let v := eval vm_compute in (2 ^ 23 + 0x3504f2)%Z in change (2 ^ 23 + 0x3504f2)%Z with v in L2. change (2 ^ 24)%Z with 16777216%Z in L1. change (2 ^ 23)%Z with 8388608%Z in L2.
  assert (PN : 0 <= val f32 n). { unfold val. rewrite Sn. apply mag_of_nonneg, Z.mod_pos_bound; vm_compute; reflexivity. }
  rewrite Rabs_pos_eq in L1, L2 by exact PN. destruct o32 as [Fo Vo].
  destruct (repr_grid f32 (val f32 n) (-1) (repr_val f32 n Fn)) as [m Hm]. { intros _. rewrite Rabs_pos_eq by exact PN. change (bpow radix2 (-1)) with (/ 2). lra. }
  change (-1 - mw f32)%Z with (-24)%Z in Hm. change (bpow radix2 (-24)) with (/ 16777216) in Hm.
  assert (E2 : val f32 n - val f32 0x3f800000 = IZR (m - 2 ^ 24) * bpow radix2 (-24)). { rewrite Vo, Hm, minus_IZR. change (bpow radix2 (-24)) with (/ 16777216). change (2 ^ 24)%Z with 16777216%Z. lra. }
  assert (MB : (Z.abs (m - 2 ^ 24) < 2 ^ 23)%Z). { apply lt_IZR. rewrite abs_IZR, minus_IZR. change (2 ^ 24)%Z with 16777216%Z. change (2 ^ 23)%Z with 8388608%Z. apply Rabs_def1; lra. }
  destruct (exact_sub f32 n 0x3f800000 (m - 2 ^ 24) (-24) Fn Fo E2 ltac:(change (mw f32 + 1)%Z with 24%Z; lia) ltac:(vm_compute; discriminate)) as (Bf & Ff & Vf).
  { rewrite Vo. apply Rle_trans with (bpow radix2 0); [apply Rabs_le; change (bpow radix2 0) with 1; lra|apply bpow_le; vm_compute; discriminate]. }
  change (fsub f32 n 0x3f800000) with f in Bf, Ff, Vf. rewrite Vo in Vf, E2. split; [exact Bf|]. split; [exact Ff|]. split; [rewrite VX, Vf; ring|]. split; [|rewrite Vf; split; [lra|split; nra]].
  intros NZ. rewrite Vf in NZ |- *. rewrite E2 in NZ |- *. assert (m - 2 ^ 24 <> 0)%Z as N0 by (intros Z; rewrite Z, Rmult_0_l in NZ; now apply NZ). rewrite Rabs_mult, (Rabs_pos_eq (bpow _ _)), <- abs_IZR by apply bpow_ge_0.
  assert (1 <= IZR (Z.abs (m - 2 ^ 24))) by (apply (IZR_le 1); lia). assert (bpow radix2 (-60) <= bpow radix2 (-24)) by (apply bpow_le; lia). pose proof (bpow_gt_0 radix2 (-24)). nra.
Qed.

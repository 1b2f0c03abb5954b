(** expf is accurate. *)
From Coq Require Import ZArith Reals Lia Lra Bool List Psatz.
From Flocq Require Import Core.
From Verif Require Import Base Spec SpecExp SpecFun2 Format P_format Ieee P_ieee P_real P_neg P_lit P_err P_elem P_elem2 P_dom P_ival P_ival2 P_gam4 P_gam6 P_apx P_poly P_powt P_powt8 P_expa1 P_expa2 P_expa3 P_expa4 P_expa5 P_expa6 P_expa7 P_expa8 P_expa9 P_expa10 P_expa11 P_taylor M_sqrt M_bits M_scalbn M_exp Prop_scale P_exp P_tot.
Import ListNotations.
Open Scope R_scope.
Local Opaque fadd fsub fmul fdiv of_int.

Lemma lhi32 : finite f32 rs_expf_LN2_HI = true /\ val f32 rs_expf_LN2_HI = IZR 22713 * bpow radix2 (-15).
Proof. split; [reflexivity|]. rewrite (val_lit f32 rs_expf_LN2_HI 22713 32768) by (vm_compute; reflexivity). change (bpow radix2 (-15)) with (/ 32768). lra. Qed.
Lemma ln2_d : Rabs (ln 2 - 22713 / 32768 - 6283079 / 4398046511104) <= / IZR (2 ^ 44).
Proof. pose proof ln2_b as H. apply Rabs_le_inv in H. change (2 ^ 86)%Z with 77371252455336267181195264%Z in H. change (2 ^ 44)%Z with 17592186044416%Z. apply Rabs_le. lra. Qed.
Lemma red32 x k : isbits f32 x -> finite f32 x = true -> / 4 <= Rabs (val f32 x) -> (Z.abs k <= 151)%Z -> Rabs (val f32 x - IZR k * ln 2) <= 3472 / 10000 ->
  let hi := fsub f32 x (fmul f32 (of_int f32 k) rs_expf_LN2_HI) in let lo := fmul f32 (of_int f32 k) rs_expf_LN2_LO in
  near f32 (val f32 x - IZR k * ln 2) (fadd f32 0x3f800000 (ew32 (fsub f32 hi lo) hi lo)).
Proof.
  intros Bx Fx Lx Hk Hr. set (r := val f32 x - IZR k * ln 2) in *. destruct lhi32 as [Fh Vh]. pose proof ln2_d as LB.
  set (l := IZR k * (ln 2 - val f32 rs_expf_LN2_HI)).
  assert (VH : val f32 rs_expf_LN2_HI = 22713 / 32768) by (rewrite Vh; change (bpow radix2 (-15)) with (/ 32768); lra).
  pose proof (kmul k 151 _ _ Hk LB) as KL. replace (IZR k * (ln 2 - 22713 / 32768 - 6283079 / 4398046511104)) with (l - IZR k * (6283079 / 4398046511104)) in KL by (unfold l; rewrite VH; ring).
  pose proof (kR _ _ Hk) as KK. change (2 ^ 44)%Z with 17592186044416%Z in KL.
  assert (Ll : Rabs l <= 22 / 100000) by (apply Rabs_le; apply Rabs_le_inv in KL; lra).
  assert (HH : val f32 x - IZR k * val f32 rs_expf_LN2_HI = r + l) by (unfold r, l; ring).
  destruct (red_exact f32 x rs_expf_LN2_HI k 22713 (-15) 151 ltac:(vm_compute; discriminate) ltac:(vm_compute; reflexivity) Fx Fh Vh ltac:(lia) ltac:(vm_compute; reflexivity) ltac:(split; vm_compute; discriminate) ltac:(vm_compute; discriminate) Lx) as (Bh & Fhi & Vhi).
  { rewrite HH. apply Rabs_def1; apply Rabs_le_inv in Hr; apply Rabs_le_inv in Ll; lra. }
  intros hi lo. fold hi in Bh, Fhi, Vhi. rewrite HH in Vhi. destruct (of_int_small f32 k ltac:(vm_compute; discriminate) ltac:(vm_compute; reflexivity) ltac:(lia)) as (Bk & Fk & Vk).
  assert (Q : forall n, Rabs n <= 3472 / 10000 -> fxr (q4 (-3475)) <= n <= fxr (q4 3475)).
  { intros n Hn. apply Rabs_le_inv in Hn. split; [destruct (Rle_lt_dec (fxr (q4 (-3475))) n) as [A|A]; [exact A|apply Rlt_le, q4_le in A; lra]|].
    destruct (Rle_lt_dec n (fxr (q4 3475))) as [A|A]; [exact A|]. apply Rlt_le, q4_ge in A. lra. }
  assert (PL : 22 / 100000 <= fxr pl32). { unfold pl32, fxr. let v := eval vm_compute in (23 * SC / 100000)%Z in change (23 * SC / 100000)%Z with v. let v := eval vm_compute in SC in change SC with v. lra. }
  assert (Ll2 : - fxr pl32 <= l <= fxr pl32) by (apply Rabs_le_inv in KL; lra).
  assert (AK : AP f32 1 (of_int f32 k) (IZR k) ((-151 * SC)%Z, (151 * SC)%Z, 0%Z)).
  { split; [now split|]. split; [|rewrite Vk, Rmult_1_l; unfold Rminus; rewrite Rplus_opp_r, Rabs_R0, fxr_0; lra]. unfold fxr. rewrite !mult_IZR. pose proof SC_pos. replace (IZR (-151) * IZR SC / IZR SC) with (IZR (-151)) by (field; lra). replace (IZR 151 * IZR SC / IZR SC) with (IZR 151) by (field; lra). lra. }
  assert (ALO : AP f32 1 lo l ((- pl32)%Z, pl32, el32)).
  { apy f32 1 (fmul f32 (of_int f32 k) rs_expf_LN2_LO) K. eapply (AP_mv _ _ _ _ _ _ _ (151 * (SC / 2 ^ 44))); [exact K| | |vm_compute; reflexivity].
    - rewrite Rabs_minus_sym. match goal with |- Rabs (l - ?e) <= _ => replace e with (IZR k * (6283079 / 4398046511104)) by lra end. eapply Rle_trans; [exact KL|]. 
      unfold fxr. let v := eval vm_compute in (151 * (SC / 2 ^ 44))%Z in change (151 * (SC / 2 ^ 44))%Z with v. let v := eval vm_compute in SC in change SC with v. lra.
    - rewrite fxr_opp. exact Ll2. }
  assert (AHI : AP f32 1 hi (r + l) ((q4 (-3475) - pl32)%Z, (q4 3475 + pl32)%Z, 0%Z)).
  { split; [now split|]. split; [rewrite fxr_sub, fxr_add; pose proof (Q r Hr); lra|]. rewrite Vhi, Rmult_1_l. unfold Rminus. rewrite Rplus_opp_r, Rabs_R0, fxr_0. lra. }
  assert (AX : AP f32 1 (fsub f32 hi lo) r (q4 (-3475), q4 3475, ex32)).
  { apy f32 1 (fsub f32 hi lo) K. replace (r + l - l) with r in K by ring. eapply (AP_mv _ _ _ _ _ _ _ 0); [exact K| | |vm_compute; reflexivity].
    - unfold Rminus. rewrite Rplus_opp_r, Rabs_R0, fxr_0. lra.
    - exact (Q r Hr). }
  apply (ker32 _ hi lo r l); [|exact AX|exact AHI|exact ALO]. apply Rabs_le. pose proof (Q r Hr). pose proof (Q (- r) ltac:(rewrite Rabs_Ropp; exact Hr)). lra.
Qed.
Definition khalff (b : bool) : Z := if b then 0xbf000000 else 0x3f000000.
Lemma kbigf x : isbits f32 x -> finite f32 x = true -> 1 <= Rabs (val f32 x) <= 104 ->
  let k := to_i32 f32 (fadd f32 (fmul f32 rs_expf_INV_LN2 x) (khalff (signbit f32 x))) in (Z.abs k <= 151)%Z /\ Rabs (val f32 x - IZR k * ln 2) <= 3470 / 10000.
Proof.
  intros B Fx H k. set (X := val f32 x) in *.
  assert (HS : if signbit f32 x then X <= -1 else 1 <= X). { assert (N : X <> 0) by (intros ->; rewrite Rabs_R0 in H; lra). pose proof (sgn_val f32 x B Fx N) as S. fold X in S. destruct (signbit f32 x); [rewrite Rabs_left in H by lra; lra|rewrite Rabs_pos_eq in H by lra; lra]. }
  pose proof (AP_x f32 x _ 104 ltac:(lia) B Fx (proj2 H) eq_refl) as AX. fold X in AX.
  assert (T : exists t, t = fadd f32 (fmul f32 rs_expf_INV_LN2 x) (khalff (signbit f32 x)) /\ finite f32 t = true /\ Rabs (val f32 t - (12102203 / 8388608 * X + (if signbit f32 x then - / 2 else / 2))) <= / 40000).
  { eexists. split; [reflexivity|]. destruct (signbit f32 x); unfold khalff.
    - apy f32 1 (fadd f32 (fmul f32 rs_expf_INV_LN2 x) 0xbf000000) K. destruct K as ([_ K1] & _ & K3). split; [exact K1|]. rewrite !Rmult_1_l in K3. match type of K3 with Rabs (?v - ?e) <= _ => replace e with (12102203 / 8388608 * X + - / 2) in K3 by lra end.
      eapply Rle_trans; [exact K3|]. apply Rle_trans with (IZR 1 / IZR 40000); [apply fxr_dy; [reflexivity|vm_compute; reflexivity]|lra].
    - apy f32 1 (fadd f32 (fmul f32 rs_expf_INV_LN2 x) 0x3f000000) K. destruct K as ([_ K1] & _ & K3). split; [exact K1|]. rewrite !Rmult_1_l in K3. match type of K3 with Rabs (?v - ?e) <= _ => replace e with (12102203 / 8388608 * X + / 2) in K3 by lra end.
      eapply Rle_trans; [exact K3|]. apply Rle_trans with (IZR 1 / IZR 40000); [apply fxr_dy; [reflexivity|vm_compute; reflexivity]|lra]. }
  destruct T as (t & Et & Ft & Vt). unfold k. rewrite <- Et. clear k Et.
  assert (XB : -104 <= X <= 104) by (apply Rabs_le_inv; lra).
  assert (Bt : Rabs (val f32 t) <= IZR 151). { apply Rabs_le_inv in Vt. apply Rabs_le. destruct (signbit f32 x); lra. }
  destruct (to_i32_trunc f32 t 151 Ft Bt ltac:(lia)) as [-> Kt]. split; [exact Kt|].
  pose proof (trunc_half _ _ _ _ Vt ltac:(lra) ltac:(destruct (signbit f32 x); [right|left]; split; lra)) as D. set (k := Ztrunc (val f32 t)) in *.
  pose proof (kR _ _ Kt) as KK. pose proof ln2_c as LC. assert (LA : Rabs (ln 2 - 69314718056 / 100000000000) <= / 1000000000000) by (apply Rabs_le; lra).
  pose proof (kmul k 151 _ _ Kt LA) as KL. apply Rabs_le_inv in D. apply Rabs_le_inv in KL. apply Rabs_le. lra.
Qed.
Lemma expf_2_ok x hi lo k r X : near f32 r (fadd f32 0x3f800000 (ew32 x hi lo)) -> X = r + IZR k * ln 2 -> (- 2 ^ 31 <= k < 2 ^ 31)%Z -> (k <= 127)%Z \/ (k = 128)%Z /\ r <= - / IZR (2 ^ 22) ->
  exists z, rs_expf_2 x k hi lo = Some z /\ accr f32 (exp X) z.
Proof.
  intros N E Hk Ho. change (rs_expf_2 x k hi lo) with (if (k =? 0)%Z then Some (fadd f32 0x3f800000 (ew32 x hi lo)) else scalbn f32 (fadd f32 0x3f800000 (ew32 x hi lo)) k).
  set (y := fadd f32 0x3f800000 (ew32 x hi lo)) in *. destruct (Z.eqb_spec k 0) as [-> | Nz].
  - exists y. split; [reflexivity|]. replace X with r by (rewrite E; ring). now apply near_acc.
  - destruct (C15_scalbnf y k (proj1 N) Hk) as (z & Ez & Sz). exists z. split; [exact Ez|]. apply (scale_acc f32 y k r z X N Sz E). apply (no_over f32 y k r N). destruct Ho as [Ho | [Ho Hr]]; [left; exact Ho|right]. split; [exact Ho|].
    replace (2 * bpow radix2 (- mw f32)) with (/ IZR (2 ^ 22)); [exact Hr|]. change (bpow radix2 (- mw f32)) with (/ IZR (2 ^ 23)). change (2 ^ 22)%Z with 4194304%Z. change (2 ^ 23)%Z with 8388608%Z. lra.
Qed.
Lemma near_1f x : isbits f32 x -> finite f32 x = true -> Rabs (val f32 x) <= / 8192 -> near f32 (val f32 x) (fadd f32 0x3f800000 x).
Proof.
  intros B Fx H. destruct o32 as [Fo Vo]. set (X := val f32 x) in *. pose proof (exp_taylor X 1 ltac:(lra)) as T. cbn [pow] in T. change (IZR (fz 2)) with 2 in T. change (peval (texp 1) X) with (1 / 1 + X * (1 / 1 + X * 0)) in T.
  assert (XX : Rabs X * (Rabs X * 1) <= / 67000000) by (pose proof (Rabs_pos X); nra). apply Rabs_le_inv in H. pose proof (exp_ineq1_le X).
  assert (D : Rabs (X - (exp X - 1)) <= / 67000000). { apply Rabs_le_inv in T. apply Rabs_le. lra. }
  assert (B53 : bpow radix2 (1 - pr f32 - 1) = / 16777216) by reflexivity. assert (B52 : bpow radix2 (- mw f32) = / 8388608) by reflexivity. assert (B1 : bpow radix2 1 = 2) by reflexivity.
  pose proof (Rabs_le_inv _ _ D) as D'. eapply (near_i f32 _ x X _ 1 (999 / 1000) ltac:(vm_compute; discriminate) ltac:(vm_compute; discriminate) Fo Vo (conj B Fx) D); try lra; vm_compute; discriminate.
Qed.
Lemma a32_ge x c : isbits f32 x -> finite f32 x = true -> (0 <= c < 0x7f800000)%Z -> ((c <=? a32 x)%Z = true -> val f32 c <= Rabs (val f32 x)) /\ ((c <=? a32 x)%Z = false -> Rabs (val f32 x) <= val f32 (c - 1)).
Proof.
  intros B G H. destruct (val_a32 x B) as (B1 & B2 & B3 & B4). rewrite <- B4. assert (R : (0 <= a32 x < 2 ^ 31)%Z) by (destruct (bits32 x B); lia).
  destruct (pos32 (a32 x) R) as (_ & _ & S). rewrite fin32 in G by assumption. apply Z.ltb_lt in G. split; intros C.
  - apply Z.leb_le in C. destruct (IN_pos32 c 0x7f7fffff (a32 x) B1 S ltac:(lia) ltac:(lia) ltac:(lia)) as (_ & _ & K & _). exact K.
  - apply Z.leb_gt in C. destruct (IN_pos32 0 (c - 1) (a32 x) B1 S ltac:(lia) ltac:(lia) ltac:(lia)) as (_ & _ & _ & K). exact K.
Qed.
Lemma w1 : val f32 0x3eb17219 = 11629081 / 33554432. Proof. lit. Qed.
Lemma w2 : val f32 0x3eb17218 = 1453635 / 4194304. Proof. lit. Qed.
Lemma w3 : val f32 0x3f851593 = 8721811 / 8388608. Proof. lit. Qed.
Lemma w4 : val f32 0x3f851592 = 4360905 / 4194304. Proof. lit. Qed.
Lemma w5 : val f32 0x39000000 = 1 / 8192. Proof. lit. Qed.
Lemma w6 : val f32 0x42b17217 = 11629079 / 131072. Proof. lit. Qed.
Lemma w7 : val f32 0x42b17218 = 1453635 / 16384. Proof. lit. Qed.
Lemma w8 : val f32 0x42cff1b4 = 3406957 / 32768. Proof. lit. Qed.
Lemma w9 : val f32 0x42cff1b5 = 13627829 / 131072. Proof. lit. Qed.
Lemma w10 : val f32 0x42aeac4f = 11447375 / 131072. Proof. lit. Qed.
Lemma w13 : val f32 0x7f000000 = bpow radix2 127.
Proof. rewrite (val_lit f32 0x7f000000 (2 ^ 127) 1) by (vm_compute; reflexivity). change (bpow radix2 127) with (IZR (2 ^ 127)). unfold Rdiv. rewrite Rinv_1. ring. Qed.
Lemma expf_1_ok x c : isbits f32 x -> finite f32 x = true -> -104 <= val f32 x <= 11629079 / 131072 ->
  exists z, rs_expf_1 x c (a32 x) (bs (signbit f32 x)) = Some z /\ accr f32 (exp (val f32 x)) z.
Proof.
  intros B Fx H. set (X := val f32 x) in *. pose proof ln2_b as LB. apply Rabs_le_inv in LB. change (2 ^ 86)%Z with 77371252455336267181195264%Z in LB. pose proof ln2_c as LC.
  assert (G1 := a32_ge x 0x3eb17219 B Fx ltac:(split; [discriminate|reflexivity])). assert (G2 := a32_ge x 0x3f851593 B Fx ltac:(split; [discriminate|reflexivity])). assert (G3 := a32_ge x 0x39000001 B Fx ltac:(split; [discriminate|reflexivity])).
  change (0x3eb17219 - 1)%Z with 0x3eb17218%Z in G1. change (0x3f851593 - 1)%Z with 0x3f851592%Z in G2. change (0x39000001 - 1)%Z with 0x39000000%Z in G3.
  rewrite w1, w2 in G1. rewrite w3, w4 in G2. rewrite w5 in G3. fold X in G1, G2, G3.
  assert (L1 : forall n, (n <? a32 x)%Z = (n + 1 <=? a32 x)%Z). { intros n. destruct (Z.ltb_spec n (a32 x)), (Z.leb_spec (n + 1) (a32 x)); try reflexivity; lia. }
  unfold rs_expf_1. rewrite !L1. change (0x3eb17218 + 1)%Z with 0x3eb17219%Z. change (0x3f851592 + 1)%Z with 0x3f851593%Z. change (0x39000000 + 1)%Z with 0x39000001%Z.
  destruct (0x3eb17219 <=? a32 x)%Z.
  - destruct G1 as [G1 _]. specialize (G1 eq_refl).
    assert (RED : forall k, (Z.abs k <= 151)%Z -> Rabs (X - IZR k * ln 2) <= 3472 / 10000 -> exists z, rs_expf_2 (fsub f32 (fsub f32 x (fmul f32 (of_int f32 k) rs_expf_LN2_HI)) (fmul f32 (of_int f32 k) rs_expf_LN2_LO)) k (fsub f32 x (fmul f32 (of_int f32 k) rs_expf_LN2_HI)) (fmul f32 (of_int f32 k) rs_expf_LN2_LO) = Some z /\ accr f32 (exp X) z).
    { intros k Hk Hr. pose proof (red32 x k B Fx ltac:(fold X; lra) Hk Hr) as N. apply (expf_2_ok _ _ _ k (X - IZR k * ln 2) X N ltac:(ring) ltac:(lia)).
      destruct (Z.leb_spec k 127) as [K | K]; [now left|right]. apply Rabs_le_inv in Hr.
      assert (K2 : (k <= 128)%Z). { destruct (Z.leb_spec k 128) as [K2 | K2]; [exact K2|exfalso]. assert (K3 : 129 <= IZR k) by (apply IZR_le; lia). assert (129 * ln 2 <= IZR k * ln 2) by (apply Rmult_le_compat_r; lra). lra. }
      assert (k = 128)%Z as -> by lia. split; [reflexivity|]. change (2 ^ 22)%Z with 4194304%Z. lra. }
    cbv zeta. destruct (0x3f851593 <=? a32 x)%Z.
    + destruct G2 as [G2 _]. specialize (G2 eq_refl). rewrite tou1. replace (tab_get rs_expf_HALF (bs (signbit f32 x))) with (Some (khalff (signbit f32 x))) by (destruct (signbit f32 x); reflexivity). cbn [bind].
      destruct (kbigf x B Fx) as [K1 K2]. { fold X. split; [lra|]. apply Rabs_le. lra. }
      apply RED; [exact K1|]. fold X in K2. lra.
    + destruct G2 as [_ G2]. specialize (G2 eq_refl). assert (N : X <> 0) by (intros E; rewrite E, Rabs_R0 in G1; lra). pose proof (sgn_val f32 x B Fx N) as S. fold X in S.
      destruct (signbit f32 x); unfold bs; rewrite ssub_ok by lia; cbn [bind]; rewrite ssub_ok by lia; cbn [bind]; apply RED; try lia; [rewrite Rabs_left in G1, G2 by exact S|rewrite Rabs_pos_eq in G1, G2 by lra]; apply Rabs_le;
        [change (IZR (1 - 1 - 1)) with (-1)|change (IZR (1 - 0 - 0)) with 1]; lra.
  - destruct G1 as [_ G1]. specialize (G1 eq_refl). cbv zeta. destruct (0x39000001 <=? a32 x)%Z.
    + assert (Q : forall n, Rabs n <= 3472 / 10000 -> fxr (q4 (-3475)) <= n <= fxr (q4 3475)).
      { intros n Hn. apply Rabs_le_inv in Hn. split; [destruct (Rle_lt_dec (fxr (q4 (-3475))) n) as [A|A]; [exact A|apply Rlt_le, q4_le in A; lra]|].
        destruct (Rle_lt_dec n (fxr (q4 3475))) as [A|A]; [exact A|]. apply Rlt_le, q4_ge in A. lra. }
      assert (P0 : 0 <= fxr pl32) by (apply fxr_pos; vm_compute; discriminate).
      pose proof (Q X ltac:(lra)) as QX. pose proof (Q (- X) ltac:(rewrite Rabs_Ropp; lra)) as QN.
      assert (AX : forall l h er, fxr l <= X <= fxr h -> (0 <= er)%Z -> AP f32 1 x X (l, h, er)). { intros l h er HL He. split; [now split|]. split; [exact HL|]. fold X. rewrite !Rmult_1_l. unfold Rminus. rewrite Rplus_opp_r, Rabs_R0. now apply fxr_pos. }
      apply (expf_2_ok x x 0 0 X X); [|ring|lia|left; lia]. apply (ker32 x x 0 X 0).
      * apply Rabs_le. lra.
      * apply AX; [exact QX|vm_compute; discriminate].
      * rewrite Rplus_0_r. apply AX; [rewrite fxr_sub, fxr_add; lra|discriminate].
      * split; [split; [split; [discriminate|reflexivity]|reflexivity]|]. split; [rewrite fxr_opp; lra|]. rewrite zero32, Rmult_0_r, Rminus_0_r, Rabs_R0, Rmult_1_l. apply fxr_pos. vm_compute. discriminate.
    + destruct G3 as [_ G3]. specialize (G3 eq_refl). eexists. split; [reflexivity|]. apply near_acc. apply near_1f; try assumption. fold X. lra.
Qed.
Theorem expf_within : exp_like f32 rs_expf exp.
Proof.
  intros x B Fx. set (X := val f32 x) in *. pose proof ln2_b as LB. apply Rabs_le_inv in LB. change (2 ^ 86)%Z with 77371252455336267181195264%Z in LB.
  assert (G1 := a32_ge x 0x42aeac50 B Fx ltac:(split; [discriminate|reflexivity])). assert (G2 := a32_ge x 0x42b17218 B Fx ltac:(split; [discriminate|reflexivity])). assert (G3 := a32_ge x 0x42cff1b5 B Fx ltac:(split; [discriminate|reflexivity])).
  change (0x42aeac50 - 1)%Z with 0x42aeac4f%Z in G1. change (0x42b17218 - 1)%Z with 0x42b17217%Z in G2. change (0x42cff1b5 - 1)%Z with 0x42cff1b4%Z in G3. rewrite w10 in G1. rewrite w6, w7 in G2. rewrite w8, w9 in G3. fold X in G1, G2, G3. destruct G1 as [_ G1].
  assert (NN : (0x7f800000 <? a32 x)%Z = false). { rewrite (fin32 x B) in Fx. apply Z.ltb_lt in Fx. apply Z.ltb_ge. lia. }
  unfold rs_expf. cbv zeta. rewrite land_a32, (sg32 x B), toi1, bs0. rewrite NN. rewrite ?negb_involutive.
  assert (SG : X <> 0 -> if signbit f32 x then X < 0 else 0 < X) by (intros N; exact (sgn_val f32 x B Fx N)).
  assert (IN : -104 <= X <= 11629079 / 131072 -> (exp X < bpow radix2 (bias f32 + 1) -> exists r, rs_expf_1 x 0x7f000000 (a32 x) (bs (signbit f32 x)) = Some r /\ within_eps f32 (exp X) r) /\
     (bpow radix2 (bias f32 + 1) <= exp X -> rs_expf_1 x 0x7f000000 (a32 x) (bs (signbit f32 x)) = Some (infinity f32 false))).
  { intros H. split.
    - intros _. destruct (expf_1_ok x 0x7f000000 B Fx H) as (z & Ez & Az). exists z. split; [exact Ez|]. apply acc_eps; [left; apply exp_pos|exact Az].
    - change (bias f32 + 1)%Z with 128%Z. rewrite <- exp_ln2. intros K. assert (exp X < exp (IZR 128 * ln 2)) by (apply exp_increasing; lra). lra. }
  destruct (0x42aeac50 <=? a32 x)%Z eqn:C1.
  2:{ specialize (G1 eq_refl). apply IN. apply Rabs_le_inv in G1. lra. }
  destruct (0x42b17218 <=? a32 x)%Z eqn:C2; cbn [andb].
  - destruct G2 as [G2 _]. specialize (G2 eq_refl). assert (N : X <> 0) by (intros E; rewrite E, Rabs_R0 in G2; lra). specialize (SG N). destruct (signbit f32 x); cbn [negb].
    + rewrite Rabs_left in G2, G3 by lra. assert (XS : exp X < bpow radix2 (bias f32 + 1)). { change (bias f32 + 1)%Z with 128%Z. rewrite <- exp_ln2. apply exp_increasing. lra. }
      destruct (0x42cff1b5 <=? a32 x)%Z; [|destruct G3 as [_ G3]; specialize (G3 eq_refl); apply IN; lra]. destruct G3 as [G3 _]. specialize (G3 eq_refl). split; [|lra]. intros _. exists 0%Z. split; [reflexivity|].
      apply zero_eps; [split; [left; apply exp_pos|]|reflexivity|split; [discriminate|reflexivity]|apply zero32]. change (emin f32 - 1)%Z with (-150)%Z. rewrite <- exp_ln2. apply exp_mono. lra.
    + rewrite Rabs_pos_eq in G2 by lra. split.
      * change (bias f32 + 1)%Z with 128%Z. rewrite <- exp_ln2. intros K. assert (exp (IZR 128 * ln 2) <= exp X) by (apply exp_mono; lra). lra.
      * intros _. f_equal. apply over_mul; [exact Fx|reflexivity|exact w13|fold X; lra].
  - destruct G2 as [_ G2]. specialize (G2 eq_refl). apply Rabs_le_inv in G2. assert (C3 : (0x42cff1b5 <=? a32 x)%Z = false) by (rewrite Z.leb_gt in C2; apply Z.leb_gt; lia). rewrite C3. destruct (signbit f32 x); apply IN; lra.
Qed.

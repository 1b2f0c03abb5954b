(** exp is accurate. *)
From Coq Require Import ZArith Reals Lia Lra Bool List Psatz.
From Flocq Require Import Core.
From Verif Require Import Base Spec SpecFun2 Format P_format Ieee P_ieee P_real P_neg P_lit P_err P_elem P_elem2 P_dom P_ival P_ival2 P_gam4 P_gam6 P_apx P_poly P_powt P_powt8 P_expa1 P_expa2 P_expa3 P_expa4 P_expa5 P_expa6 P_expa7 P_expa8 P_expa9 P_taylor M_sqrt M_scalbn M_exp Prop_scale P_exp P_tot.
Import ListNotations.
Open Scope R_scope.
Local Opaque fadd fsub fmul fdiv of_int.

Lemma trunc_half t w h d : Rabs (t - (w + h)) <= d -> d <= / 4 -> (1 <= w /\ h = / 2 \/ w <= -1 /\ h = - / 2) -> Rabs (w - IZR (Ztrunc t)) <= / 2 + d.
Proof.
  intros H D [[W ->] | [W ->]]; apply Rabs_le_inv in H; apply Rabs_le.
  - rewrite Ztrunc_floor by lra. pose proof (Zfloor_lb t). pose proof (Zfloor_ub t). lra.
  - rewrite Ztrunc_ceil by lra. pose proof (Zceil_ub t). assert (IZR (Zceil t) < t + 1); [|lra]. unfold Zceil. rewrite opp_IZR. pose proof (Zfloor_ub (- t)). lra.
Qed.
Lemma to_i32_trunc F t n : finite F t = true -> Rabs (val F t) <= IZR n -> (0 <= n < 2 ^ 30)%Z -> to_i32 F t = Ztrunc (val F t) /\ (Z.abs (Ztrunc (val F t)) <= n)%Z.
Proof.
  intros Ft H Hn. unfold to_i32. rewrite to_intZ_finite by (lia || assumption).
  assert (A : (Z.abs (Ztrunc (val F t)) <= n)%Z).
  { apply Rabs_le_inv in H. rewrite <- opp_IZR in H. apply Z.abs_le. split; [rewrite <- (Ztrunc_IZR (- n))|rewrite <- (Ztrunc_IZR n)]; apply Ztrunc_le; lra. }
  split; [|exact A]. unfold clampZ. destruct (Z.ltb_spec (Ztrunc (val F t)) (- 2 ^ 31)); [lia|]. destruct (Z.ltb_spec (2 ^ 31 - 1) (Ztrunc (val F t))); lia.
Qed.
Lemma AP_x F x B n : (0 <= n)%Z -> isbits F x -> finite F x = true -> Rabs (val F x) <= IZR n -> B = ((- (n * SC))%Z, (n * SC)%Z, 0%Z) -> AP F 1 x (val F x) B.
Proof.
  intros Hn Bx Fx H ->. split; [now split|]. split; [|rewrite Rmult_1_l; unfold Rminus; rewrite Rplus_opp_r, Rabs_R0, fxr_0; lra].
  rewrite fxr_opp. apply Rabs_le_inv in H. unfold fxr. rewrite mult_IZR. pose proof SC_pos. replace (IZR n * IZR SC / IZR SC) with (IZR n) by (field; lra). exact H.
Qed.
(** the sign bit and the sign *)
Lemma sgn_val F x : isbits F x -> finite F x = true -> val F x <> 0 -> if signbit F x then val F x < 0 else 0 < val F x.
Proof.
  intros B Fx N. destruct (signbit F x) eqn:S.
  - destruct (Rtotal_order (val F x) 0) as [A | [A | A]]; [exact A|contradiction|]. apply val_pos_sign in A; try assumption. congruence.
  - destruct (Rtotal_order (val F x) 0) as [A | [A | A]]; [|contradiction|exact A]. apply val_neg_sign in A; try assumption. congruence.
Qed.
Definition khalf (b : bool) : Z := if b then 0xbfe0000000000000 else 0x3fe0000000000000.
Lemma kbig x : isbits f64 x -> finite f64 x = true -> 1 <= Rabs (val f64 x) <= 746 ->
  let k := to_i32 f64 (fadd f64 (fmul f64 rs_exp_INVLN2 x) (khalf (signbit f64 x))) in (Z.abs k <= 1077)%Z /\ Rabs (val f64 x - IZR k * ln 2) <= 3470 / 10000.
Proof.
  intros B Fx H k. set (X := val f64 x) in *.
  assert (HS : if signbit f64 x then X <= -1 else 1 <= X). { assert (N : X <> 0) by (intros ->; rewrite Rabs_R0 in H; lra). pose proof (sgn_val f64 x B Fx N) as S. fold X in S. destruct (signbit f64 x); [rewrite Rabs_left in H by lra; lra|rewrite Rabs_pos_eq in H by lra; lra]. }
  pose proof (AP_x f64 x _ 746 ltac:(lia) B Fx (proj2 H) eq_refl) as AX. fold X in AX.
  assert (T : exists t, t = fadd f64 (fmul f64 rs_exp_INVLN2 x) (khalf (signbit f64 x)) /\ finite f64 t = true /\ Rabs (val f64 t - (6497320848556798 / 4503599627370496 * X + (if signbit f64 x then - / 2 else / 2))) <= / 1000000000).
  { eexists. split; [reflexivity|]. destruct (signbit f64 x); unfold khalf.
    - apy f64 1 (fadd f64 (fmul f64 rs_exp_INVLN2 x) 0xbfe0000000000000) K. destruct K as ([_ K1] & _ & K3). split; [exact K1|]. rewrite !Rmult_1_l in K3. match type of K3 with Rabs (?v - ?e) <= _ => replace e with (6497320848556798 / 4503599627370496 * X + - / 2) in K3 by lra end.
      eapply Rle_trans; [exact K3|]. apply Rle_trans with (IZR 1 / IZR 1000000000); [apply fxr_dy; [reflexivity|vm_compute; reflexivity]|lra].
    - apy f64 1 (fadd f64 (fmul f64 rs_exp_INVLN2 x) 0x3fe0000000000000) K. destruct K as ([_ K1] & _ & K3). split; [exact K1|]. rewrite !Rmult_1_l in K3. match type of K3 with Rabs (?v - ?e) <= _ => replace e with (6497320848556798 / 4503599627370496 * X + / 2) in K3 by lra end.
      eapply Rle_trans; [exact K3|]. apply Rle_trans with (IZR 1 / IZR 1000000000); [apply fxr_dy; [reflexivity|vm_compute; reflexivity]|lra]. }
  destruct T as (t & Et & Ft & Vt). unfold k. rewrite <- Et. clear k Et.
  assert (XB : -746 <= X <= 746) by (apply Rabs_le_inv; lra).
  assert (Bt : Rabs (val f64 t) <= IZR 1077). { apply Rabs_le_inv in Vt. apply Rabs_le. destruct (signbit f64 x); lra. }
  destruct (to_i32_trunc f64 t 1077 Ft Bt ltac:(lia)) as [-> Kt]. split; [exact Kt|].
  pose proof (trunc_half _ _ _ _ Vt ltac:(lra) ltac:(destruct (signbit f64 x); [right|left]; split; lra)) as D. set (k := Ztrunc (val f64 t)) in *.
  pose proof (kR _ _ Kt) as KK. pose proof ln2_c as LC. assert (LA : Rabs (ln 2 - 69314718056 / 100000000000) <= / 1000000000000) by (apply Rabs_le; lra).
  pose proof (kmul k 1077 _ _ Kt LA) as KL. apply Rabs_le_inv in D. apply Rabs_le_inv in KL. apply Rabs_le. lra.
Qed.
Lemma exp_2_ok x hi lo k r X : near f64 r (fadd f64 0x3ff0000000000000 (ew64 x hi lo)) -> X = r + IZR k * ln 2 -> (- 2 ^ 31 <= k < 2 ^ 31)%Z -> (k <= 1023)%Z \/ (k = 1024)%Z /\ r <= - / IZR (2 ^ 51) ->
  exists z, rs_exp_2 x hi lo k = Some z /\ accr f64 (exp X) z.
Proof.
  intros N E Hk Ho. change (rs_exp_2 x hi lo k) with (if (k =? 0)%Z then Some (fadd f64 0x3ff0000000000000 (ew64 x hi lo)) else scalbn f64 (fadd f64 0x3ff0000000000000 (ew64 x hi lo)) k).
  set (y := fadd f64 0x3ff0000000000000 (ew64 x hi lo)) in *. destruct (Z.eqb_spec k 0) as [-> | Nz].
  - exists y. split; [reflexivity|]. replace X with r by (rewrite E; ring). now apply near_acc.
  - destruct (C15_scalbn y k (proj1 N) Hk) as (z & Ez & Sz). exists z. split; [exact Ez|]. apply (scale_acc f64 y k r z X N Sz E). apply (no_over f64 y k r N). destruct Ho as [Ho | [Ho Hr]]; [left; exact Ho|right]. split; [exact Ho|].
    replace (2 * bpow radix2 (- mw f64)) with (/ IZR (2 ^ 51)); [exact Hr|]. change (bpow radix2 (- mw f64)) with (/ IZR (2 ^ 52)). change (2 ^ 51)%Z with 2251799813685248%Z. change (2 ^ 52)%Z with 4503599627370496%Z. lra.
Qed.
Lemma near_1 x : isbits f64 x -> finite f64 x = true -> Rabs (val f64 x) <= / 268000000 -> near f64 (val f64 x) (fadd f64 0x3ff0000000000000 x).
Proof.
  intros B Fx H. destruct o64 as [Fo Vo]. set (X := val f64 x) in *. pose proof (exp_taylor X 1 ltac:(lra)) as T. cbn [pow] in T. change (IZR (fz 2)) with 2 in T. change (peval (texp 1) X) with (1 / 1 + X * (1 / 1 + X * 0)) in T.
  assert (XX : Rabs X * (Rabs X * 1) <= / 71000000000000000) by (pose proof (Rabs_pos X); nra). apply Rabs_le_inv in H. pose proof (exp_ineq1_le X).
  assert (D : Rabs (X - (exp X - 1)) <= / 71000000000000000). { apply Rabs_le_inv in T. apply Rabs_le. lra. }
  assert (B53 : bpow radix2 (1 - pr f64 - 1) = / 9007199254740992) by reflexivity. assert (B52 : bpow radix2 (- mw f64) = / 4503599627370496) by reflexivity. assert (B1 : bpow radix2 1 = 2) by reflexivity.
  pose proof (Rabs_le_inv _ _ D) as D'. eapply (near_i f64 _ x X _ 1 (999 / 1000) ltac:(vm_compute; discriminate) ltac:(vm_compute; discriminate) Fo Vo (conj B Fx) D); try lra; vm_compute; discriminate.
Qed.
Lemma v1 : val f64 0x3fd62e4300000000 = 1453635 / 4194304. Proof. lit. Qed.
Lemma v2 : val f64 0x3fd62e42ffffffff = 6243314785320959 / 18014398509481984. Proof. lit. Qed.
Lemma v3 : val f64 0x3ff0a2b200000000 = 545113 / 524288. Proof. lit. Qed.
Lemma v4 : val f64 0x3ff0a2b1ffffffff = 4682485015248895 / 4503599627370496. Proof. lit. Qed.
Lemma v5 : val f64 0x3e300000ffffffff = 4503603922337791 / 1208925819614629174706176. Proof. lit. Qed.
Lemma v6 : val f64 0x40862e42fefa39ef = 6243314768165359 / 8796093022208. Proof. lit. Qed.
Lemma v7 : val f64 0xc0874910d52d3051 = -6554261109157969 / 8796093022208. Proof. lit. Qed.
Lemma v8 : val f64 0x40862e42fefa39f0 = 390207173010335 / 549755813888. Proof. lit. Qed.
Lemma v9 : val f64 0x40874910d52d3052 = 3277130554578985 / 4398046511104. Proof. lit. Qed.
Lemma exp_1_ok x c : isbits f64 x -> finite f64 x = true -> -746 <= val f64 x <= 6243314768165359 / 8796093022208 ->
  exists z, rs_exp_1 x c (bs (signbit f64 x)) (a64 x / 2 ^ 32) = Some z /\ accr f64 (exp (val f64 x)) z.
Proof.
  intros B Fx H. set (X := val f64 x) in *. pose proof ln2_b as LB. apply Rabs_le_inv in LB. change (2 ^ 86)%Z with 77371252455336267181195264%Z in LB. pose proof ln2_c as LC.
  assert (G1 := a64_ge x 0x3fd62e4300000000 B Fx ltac:(split; [discriminate|reflexivity])). assert (G2 := a64_ge x 0x3ff0a2b200000000 B Fx ltac:(split; [discriminate|reflexivity])). assert (G3 := a64_ge x 0x3e30000100000000 B Fx ltac:(split; [discriminate|reflexivity])).
  change (0x3fd62e4300000000 - 1)%Z with 0x3fd62e42ffffffff%Z in G1. change (0x3ff0a2b200000000 - 1)%Z with 0x3ff0a2b1ffffffff%Z in G2. change (0x3e30000100000000 - 1)%Z with 0x3e300000ffffffff%Z in G3.
  rewrite v1, v2 in G1. rewrite v3, v4 in G2. rewrite v5 in G3. fold X in G1, G2, G3.
  assert (L1 : forall n, (n <? a64 x / 2 ^ 32)%Z = (n + 1 <=? a64 x / 2 ^ 32)%Z). { intros n. destruct (Z.ltb_spec n (a64 x / 2 ^ 32)), (Z.leb_spec (n + 1) (a64 x / 2 ^ 32)); try reflexivity; lia. }
  unfold rs_exp_1. rewrite !L1. rewrite !hi_le by discriminate. change ((0x3fd62e42 + 1) * 2 ^ 32)%Z with 0x3fd62e4300000000%Z. change (0x3ff0a2b2 * 2 ^ 32)%Z with 0x3ff0a2b200000000%Z. change ((0x3e300000 + 1) * 2 ^ 32)%Z with 0x3e30000100000000%Z.
  destruct (0x3fd62e4300000000 <=? a64 x)%Z.
  - destruct G1 as [G1 _]. specialize (G1 eq_refl).
    assert (RED : forall k, (Z.abs k <= 1077)%Z -> Rabs (X - IZR k * ln 2) <= 3472 / 10000 -> exists z, rs_exp_2 (fsub f64 (fsub f64 x (fmul f64 (of_int f64 k) rs_exp_LN2HI)) (fmul f64 (of_int f64 k) rs_exp_LN2LO)) (fsub f64 x (fmul f64 (of_int f64 k) rs_exp_LN2HI)) (fmul f64 (of_int f64 k) rs_exp_LN2LO) k = Some z /\ accr f64 (exp X) z).
    { intros k Hk Hr. pose proof (red64 x k B Fx ltac:(fold X; lra) Hk Hr) as N. apply (exp_2_ok _ _ _ k (X - IZR k * ln 2) X N ltac:(ring) ltac:(lia)).
      destruct (Z.leb_spec k 1023) as [K | K]; [now left|right]. apply Rabs_le_inv in Hr.
      assert (K2 : (k <= 1024)%Z). { destruct (Z.leb_spec k 1024) as [K2 | K2]; [exact K2|exfalso]. assert (K3 : 1025 <= IZR k) by (apply IZR_le; lia). assert (1025 * ln 2 <= IZR k * ln 2) by (apply Rmult_le_compat_r; lra). lra. }
      assert (k = 1024)%Z as -> by lia. split; [reflexivity|]. change (2 ^ 51)%Z with 2251799813685248%Z. lra. }
    cbv zeta. destruct (0x3ff0a2b200000000 <=? a64 x)%Z.
    + destruct G2 as [G2 _]. specialize (G2 eq_refl). rewrite tou1. replace (tab_get rs_exp_HALF (bs (signbit f64 x))) with (Some (khalf (signbit f64 x))) by (destruct (signbit f64 x); reflexivity). cbn [bind].
      destruct (kbig x B Fx) as [K1 K2]. { fold X. split; [lra|]. apply Rabs_le. lra. }
      apply RED; [exact K1|]. fold X in K2. lra.
    + destruct G2 as [_ G2]. specialize (G2 eq_refl). assert (N : X <> 0) by (intros E; rewrite E, Rabs_R0 in G1; lra). pose proof (sgn_val f64 x B Fx N) as S. fold X in S.
      destruct (signbit f64 x); unfold bs; rewrite ssub_ok by lia; cbn [bind]; rewrite ssub_ok by lia; cbn [bind]; apply RED; try lia; [rewrite Rabs_left in G1, G2 by exact S|rewrite Rabs_pos_eq in G1, G2 by lra]; apply Rabs_le;
        [change (IZR (1 - 1 - 1)) with (-1)|change (IZR (1 - 0 - 0)) with 1]; lra.
  - destruct G1 as [_ G1]. specialize (G1 eq_refl). cbv zeta. destruct (0x3e30000100000000 <=? a64 x)%Z.
    + assert (Q : forall n, Rabs n <= 3472 / 10000 -> fxr (q4 (-3475)) <= n <= fxr (q4 3475)).
      { intros n Hn. apply Rabs_le_inv in Hn. split; [destruct (Rle_lt_dec (fxr (q4 (-3475))) n) as [A|A]; [exact A|apply Rlt_le, q4_le in A; lra]|].
        destruct (Rle_lt_dec n (fxr (q4 3475))) as [A|A]; [exact A|]. apply Rlt_le, q4_ge in A. lra. }
      assert (P0 : 0 <= fxr pl64) by (apply fxr_pos; vm_compute; discriminate).
      pose proof (Q X ltac:(lra)) as QX. pose proof (Q (- X) ltac:(rewrite Rabs_Ropp; lra)) as QN.
      assert (AX : forall l h er, fxr l <= X <= fxr h -> (0 <= er)%Z -> AP f64 1 x X (l, h, er)). { intros l h er HL He. split; [now split|]. split; [exact HL|]. fold X. rewrite !Rmult_1_l. unfold Rminus. rewrite Rplus_opp_r, Rabs_R0. now apply fxr_pos. }
      apply (exp_2_ok x x 0 0 X X); [|ring|lia|left; lia]. apply (ker64 x x 0 X 0).
      * apply Rabs_le. lra.
      * apply AX; [exact QX|vm_compute; discriminate].
      * rewrite Rplus_0_r. apply AX; [rewrite fxr_sub, fxr_add; lra|discriminate].
      * split; [split; [split; [discriminate|reflexivity]|reflexivity]|]. split; [rewrite fxr_opp; lra|]. rewrite zero64, Rmult_0_r, Rminus_0_r, Rabs_R0, Rmult_1_l. apply fxr_pos. vm_compute. discriminate.
    + destruct G3 as [_ G3]. specialize (G3 eq_refl). eexists. split; [reflexivity|]. apply near_acc. apply near_1; try assumption. fold X. lra.
Qed.

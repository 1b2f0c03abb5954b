(** expm1 is accurate: the branches on the exponent, f64. *)
From Coq Require Import ZArith Reals Lia Lra Bool List Psatz.
From Flocq Require Import Core.
From Verif Require Import Base Spec SpecLog2 Format P_format Ieee P_ieee P_real P_neg P_lit P_err P_scalbn P_apx P_poly P_powt P_powt4 P_expa1 P_expa4 P_expa5 P_expa7 P_em1 P_em2 P_em3 P_em4 P_dom P_elem P_jn P_minmax P_elem2 P_exp M_sqrt M_elib M_exp.
Import ListNotations.
Open Scope R_scope.
Local Opaque fadd fsub fmul fdiv of_int.

Lemma tw64 k : (-1022 <= k <= 1023)%Z -> let t := shlu 64 (to_u 64 (1023 + k)) 52 in isbits f64 t /\ finite f64 t = true /\ val f64 t = bpow radix2 k.
Proof.
  intros H t. assert (E : t = mkbits f64 false (1023 + k) 0).
  { unfold t, shlu, to_u, mkbits. rewrite Z.shiftl_mul_pow2 by lia. change (mw f64) with 52%Z. rewrite (Z.mod_small (1023 + k)) by lia. rewrite Z.mod_small by lia. cbn [Z.b2z]. lia. }
  rewrite E. destruct (valm f64 false (1023 + k) 0) as (A & B & C); [change (ew f64) with 11%Z; lia|change (mw f64) with 52%Z; lia|]. split; [exact A|]. split; [exact B|]. rewrite C. cbn [sval]. change (bias f64) with 1023%Z. change (mw f64) with 52%Z.
  rewrite Z.add_0_r. change 2%Z with (radix_val radix2). rewrite IZR_Zpower, <- bpow_plus by lia. f_equal. lia.
Qed.
Lemma k64_1 : (23 <= mw f64)%Z. Proof. vm_compute. discriminate. Qed.
Lemma k64_2 : (pr f64 + 101 <= 1 - emin f64)%Z. Proof. vm_compute. discriminate. Qed.
Lemma k64_3 : (90 <= bias f64)%Z. Proof. vm_compute. discriminate. Qed.
Lemma h64 : isbits f64 0x3fe0000000000000 /\ finite f64 0x3fe0000000000000 = true /\ val f64 0x3fe0000000000000 = / 2.
Proof. split; [split; vm_compute; (reflexivity || discriminate)|]. split; [reflexivity|]. rewrite (val_lit f64 0x3fe0000000000000 1 2) by (vm_compute; reflexivity). lra. Qed.
Lemma one64 : isbits f64 0x3ff0000000000000 /\ finite f64 0x3ff0000000000000 = true /\ val f64 0x3ff0000000000000 = 1.
Proof. split; [split; vm_compute; (reflexivity || discriminate)|]. exact o64. Qed.
Lemma two64 : finite f64 0x4000000000000000 = true /\ val f64 0x4000000000000000 = 2.
Proof. split; [reflexivity|]. rewrite (val_lit f64 0x4000000000000000 2 1) by (vm_compute; reflexivity). lra. Qed.
Lemma mtwo64 : finite f64 0xc000000000000000 = true /\ val f64 0xc000000000000000 = -2.
Proof. split; [reflexivity|]. rewrite (val_lit f64 0xc000000000000000 (-2) 1) by (vm_compute; reflexivity). lra. Qed.
Lemma huge64 : finite f64 0x7fe0000000000000 = true /\ val f64 0x7fe0000000000000 = bpow radix2 1023.
Proof. destruct (tw64 1023 ltac:(lia)) as (_ & B & C). split; [reflexivity|exact C]. Qed.

Lemma expm1_2_eq x k c : rs_expm1_2 x k c = if (k =? 0)%Z then Some (k0res x) else let e := E64 x c in
  if (k =? -1)%Z then Some (fsub f64 (fmul f64 0x3fe0000000000000 (fsub f64 x e)) 0x3fe0000000000000)
  else if (k =? 1)%Z then if flt f64 x 0xbfd0000000000000 then Some (fmul f64 0xc000000000000000 (fsub f64 e (fadd f64 x 0x3fe0000000000000))) else Some (fadd f64 0x3ff0000000000000 (fmul f64 0x4000000000000000 (fsub f64 x e)))
  else let* v0 := sadd 32 1023 k in let t := shlu 64 (to_u 64 v0) 52 in
    if negb ((0 <=? k) && (k <=? 56))%Z then let y := fadd f64 (fsub f64 x e) 0x3ff0000000000000 in
      Some (fsub f64 (if (k =? 1024)%Z then fmul f64 (fmul f64 y 0x4000000000000000) 0x7fe0000000000000 else fmul f64 y t) 0x3ff0000000000000)
    else let* v1 := ssub 32 1023 k in let u := shlu 64 (to_u 64 v1) 52 in
      Some (if (k <? 20)%Z then fmul f64 (fadd f64 (fsub f64 x e) (fsub f64 0x3ff0000000000000 u)) t else fmul f64 (fadd f64 (fsub f64 x (fadd f64 e u)) 0x3ff0000000000000) t).
Proof. reflexivity. Qed.
Lemma em_2_ok x c k r D : isbits f64 x /\ finite f64 x = true -> AB f64 (E64 x c) D (2 / 5) -> val f64 x - D = exp r - 1 -> - (8 / 100) <= D <= 8 / 100 -> 7062 / 10000 <= exp r <= 1416 / 1000 -> Rabs (val f64 x - r) <= / 1000000000 -> Rabs r <= 3475 / 10000 ->
  k <> 0%Z -> (-100 <= k <= 1023)%Z \/ (k = 1024)%Z /\ exp r <= 1 - / IZR (2 ^ 52) -> exists z, rs_expm1_2 x k c = Some z /\ rel_err f64 2 (exp (r + IZR k * ln 2) - 1) z.
Proof.
  intros Fx HE HD DB RB XR RR Nk Hk. rewrite expm1_2_eq. rewrite exp_plus, exp_ln2, Rmult_comm. destruct (Z.eqb_spec k 0) as [|_]; [contradiction|]. cbv zeta. set (e := E64 x c) in *.
  pose proof k64_1 as K1. pose proof k64_2 as K2. pose proof k64_3 as K3.
  destruct (Z.eqb_spec k (-1)) as [-> | N1]. { eexists. split; [reflexivity|]. change (bpow radix2 (-1)) with (/ 2). replace (/ 2 * exp r - 1) with (exp r / 2 - 1) by lra. exact (em_m1 f64 K1 K2 K3 x e _ r D Fx HE HD RB h64). }
  destruct (Z.eqb_spec k 1) as [-> | N2].
  { change (bpow radix2 1) with 2. destruct (flt f64 x 0xbfd0000000000000) eqn:LT.
    - eexists. split; [reflexivity|]. apply (em_1a f64 K1 K2 K3 x e _ r D Fx HE HD RB h64 _ (proj1 mtwo64) (proj2 mtwo64)). apply (flt_fin f64 x 0xbfd0000000000000 (proj2 Fx) eq_refl) in LT. rewrite (val_lit f64 0xbfd0000000000000 (-1) 4) in LT by (vm_compute; reflexivity). apply Rabs_le_inv in XR. apply Rabs_le_inv in RR. lra.
    - eexists. split; [reflexivity|]. assert (LX : - / 4 <= val f64 x). { destruct (Rle_lt_dec (- / 4) (val f64 x)) as [Q|Q]; [exact Q|exfalso]. apply flt_false in LT. apply LT. split; [apply finite_not_nan, (proj2 Fx)|]. split; [reflexivity|]. rewrite (proj2 Fx). change (finite f64 0xbfd0000000000000) with true. cbv iota. rewrite (val_lit f64 0xbfd0000000000000 (-1) 4) by (vm_compute; reflexivity). lra. }
      pose proof (exp_ineq1_le r) as EI. apply Rabs_le_inv in XR. apply (em_1b f64 K1 K2 K3 x e _ r D Fx HE HD RB one64 _ (proj1 two64) (proj2 two64)); lra. }
  rewrite sadd_ok by lia. cbn [bind].
  destruct (negb ((0 <=? k) && (k <=? 56))%Z) eqn:BR.
  - eexists. split; [reflexivity|]. pose proof (em_y f64 K1 K2 K3 x e _ r D Fx HE HD RB one64) as Y. set (y := fadd f64 (fsub f64 x e) 0x3ff0000000000000) in *.
    destruct (Z_lt_le_dec k 0) as [S | S].
    + destruct (Z.eqb_spec k 1024); [lia|]. destruct (tw64 k ltac:(lia)) as (B & G & V). apply (em_lo f64 K1 K2 K3 x e _ r D Fx HE HD RB one64 _ _ G V). split; [apply bpow_ge_0|]. change (/ 4) with (bpow radix2 (-2)). apply bpow_le. lia.
    + assert (C56 : (57 <= k)%Z). { destruct (Z.leb_spec 0 k); [|lia]. destruct (Z.leb_spec k 56); [discriminate|lia]. }
      assert (QB : IZR (2 ^ 50) <= bpow radix2 k). { change 2%Z with (radix_val radix2). rewrite IZR_Zpower by lia. apply bpow_le. lia. }
      destruct Y as (By & Gy & Cy). assert (P : bpow radix2 (- pr f64) = / 9007199254740992) by reflexivity. rewrite P in Cy. 
      assert (MM : Rabs (exp r - 1) <= 416 / 1000) by (apply Rabs_le; lra). assert (YB : 0 < val f64 y < 15 / 10) by (apply Rabs_le_inv in Cy; lra).
      destruct (Z.eqb_spec k 1024) as [-> | N4].
      * destruct Hk as [Hk | [_ Hk]]; [lia|]. change (2 ^ 52)%Z with 4503599627370496%Z in Hk. assert (Y1 : val f64 y < 1). { rewrite (Rabs_left1 (exp r - 1)) in Cy by lra. apply Rabs_le_inv in Cy. lra. }
        destruct (ab_sc f64 0x4000000000000000 y 1 (proj1 two64) Gy ltac:(rewrite (proj2 two64), Rabs_pos_eq by lra; reflexivity) ltac:(lia)) as [_ (B1 & G1 & V1)]. { rewrite (proj2 two64), Rabs_pos_eq by lra. apply Rlt_trans with (bpow radix2 2); [change (bpow radix2 2) with 4; lra|apply bpow_lt; vm_compute; reflexivity]. }
        destruct (ab_sc f64 0x7fe0000000000000 (fmul f64 y 0x4000000000000000) 1023 (proj1 huge64) G1 ltac:(rewrite (proj2 huge64), Rabs_pos_eq by apply bpow_ge_0; reflexivity) ltac:(lia)) as [_ (B2 & G2 & V2)].
        { rewrite V1, (proj2 huge64), (proj2 two64). rewrite Rabs_pos_eq by (apply Rmult_le_pos; [apply bpow_ge_0|lra]). replace (bpow radix2 1023 * (2 * val f64 y)) with (bpow radix2 1 * bpow radix2 1023 * val f64 y) by (change (bpow radix2 1) with 2; ring). rewrite <- bpow_plus. change (bias f64 + 1)%Z with (1 + 1023)%Z. pose proof (bpow_gt_0 radix2 (1 + 1023)). nra. }
        apply (em_hi f64 K1 K2 K3 x e _ r D Fx HE HD RB one64); [exact B2|exact G2| |exact QB]. rewrite V2, V1, (proj2 huge64), (proj2 two64). fold y. change 1024%Z with (1 + 1023)%Z. rewrite bpow_plus. change (bpow radix2 1) with 2. ring.
      * destruct (tw64 k ltac:(lia)) as (B & G & V).
        destruct (ab_sc f64 _ y k G Gy ltac:(rewrite V, Rabs_pos_eq by apply bpow_ge_0; reflexivity) ltac:(lia)) as [_ (B2 & G2 & V2)].
        { rewrite V, Rabs_pos_eq by (apply Rmult_le_pos; [apply bpow_ge_0|lra]). apply Rlt_le_trans with (bpow radix2 (1 + k)); [rewrite bpow_plus; change (bpow radix2 1) with 2; pose proof (bpow_gt_0 radix2 k); nra|apply bpow_le; change (bias f64) with 1023%Z; lia]. }
        apply (em_hi f64 K1 K2 K3 x e _ r D Fx HE HD RB one64); [exact B2|exact G2| |exact QB]. rewrite V2, V. reflexivity.
  - apply negb_false_iff, andb_true_iff in BR. destruct BR as [BR1 BR2]. apply Z.leb_le in BR1. apply Z.leb_le in BR2. rewrite ssub_ok by lia. cbn [bind]. eexists. split; [reflexivity|].
    destruct (tw64 k ltac:(lia)) as (B & G & V). change (1023 - k)%Z with (1023 + - k)%Z. destruct (tw64 (- k) ltac:(lia)) as (Bu & Gu & Vu). set (t := shlu 64 (to_u 64 (1023 + k)) 52) in *. set (u := shlu 64 (to_u 64 (1023 + - k)) 52) in *.
    assert (U0 : 0 <= bpow radix2 (- k) <= / 4). { split; [apply bpow_ge_0|]. change (/ 4) with (bpow radix2 (-2)). apply bpow_le. lia. }
    assert (EQ : bpow radix2 k * exp r - 1 = bpow radix2 k * (exp r - bpow radix2 (- k))). { rewrite Rmult_minus_distr_l, <- bpow_plus. replace (k + - k)%Z with 0%Z by lia. reflexivity. } rewrite EQ.
    assert (FIN : forall w, AB f64 w (exp r - bpow radix2 (- k)) (4 * (exp r - bpow radix2 (- k))) -> rel_err f64 2 (bpow radix2 k * (exp r - bpow radix2 (- k))) (fmul f64 w t)).
    { intros w HW. pose proof HW as (Bw & Gw & Cw). assert (P : bpow radix2 (- pr f64) = / 9007199254740992) by reflexivity. rewrite P in Cw. assert (WB : 0 < val f64 w < 2) by (apply Rabs_le_inv in Cw; lra).
      destruct (ab_sc f64 t w k G Gw ltac:(rewrite V, Rabs_pos_eq by apply bpow_ge_0; reflexivity) ltac:(lia)) as [_ (B2 & G2 & V2)].
      { rewrite V, Rabs_pos_eq by (apply Rmult_le_pos; [apply bpow_ge_0|lra]). apply Rlt_le_trans with (bpow radix2 (1 + k)); [rewrite bpow_plus; change (bpow radix2 1) with 2; pose proof (bpow_gt_0 radix2 k); nra|apply bpow_le; change (bias f64) with 1023%Z; lia]. }
      apply (em_mid f64 K1 _ _ w _ k HW); [lra|lra|lra|rewrite V2, V; reflexivity|exact B2|exact G2]. }
    destruct (Z.ltb_spec k 20) as [S | S]; apply FIN.
    + apply (em_w1 f64 K1 K2 K3 x e r D Fx HE HD RB); [|exact U0].
      (* 1 - 2^-k is exact *)
      pose proof (fsub_spec f64 0x3ff0000000000000 u eq_refl Gu) as RT. rewrite (proj2 o64), Vu in RT. 
      assert (R : rnd f64 (1 - bpow radix2 (- k)) = 1 - bpow radix2 (- k)). { apply repr_rnd. replace (1 - bpow radix2 (- k)) with (IZR (2 ^ k - 1) * bpow radix2 (- k)). { pose proof (Z.pow_pos_nonneg 2 k ltac:(lia) ltac:(lia)). assert (2 ^ k <= 2 ^ 53)%Z by (apply Z.pow_le_mono_r; lia). apply repr_int; [change (mw f64 + 1)%Z with 53%Z; lia|change (emin f64) with (-1074)%Z; lia]. }
        rewrite minus_IZR. change 2%Z with (radix_val radix2). rewrite IZR_Zpower by lia. rewrite Rmult_minus_distr_r, <- bpow_plus. replace (k + - k)%Z with 0%Z by lia. cbn [bpow]. ring. }
      destruct (rounds_fin f64 _ _ _ RT) as [G1 V1]. { apply Rle_trans with (bpow radix2 0); [change (bpow radix2 0) with 1; apply Rabs_le; lra|apply bpow_le; vm_compute; discriminate]. }
      split; [exact (proj1 RT)|]. split; [exact G1|]. rewrite V1, R, Rminus_diag_eq, Rabs_R0 by reflexivity. lra.
    + apply (em_w2 f64 K1 K2 K3 x e _ r D Fx HE HD DB RB one64).
      * split; [exact Bu|]. split; [exact Gu|]. rewrite Vu, Rminus_diag_eq, Rabs_R0 by reflexivity. lra.
      * split; [apply bpow_ge_0|]. apply Rle_trans with (bpow radix2 (-20)); [apply bpow_le; lia|change (bpow radix2 (-20)) with (/ 1048576); lra].
Qed.

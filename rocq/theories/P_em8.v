(** expm1f is accurate: the branches on the exponent. *)
From Coq Require Import ZArith Reals Lia Lra Bool List Psatz.
From Flocq Require Import Core.
From Verif Require Import Base Spec SpecLog2 Format P_format Ieee P_ieee P_real P_neg P_lit P_err P_scalbn P_apx P_poly P_powt P_powt4 P_expa1 P_expa4 P_expa5 P_expa7 P_em1 P_em2 P_em3 P_em4 P_em7 P_expa6 P_powt5 P_dom P_elem P_jn P_minmax P_elem2 P_exp M_sqrt M_elib M_exp.
Import ListNotations.
Open Scope R_scope.
Local Opaque fadd fsub fmul fdiv of_int.

Lemma tw32 k : (-126 <= k <= 127)%Z -> let t := to_u 32 (shli 32 (127 + k) 23) in isbits f32 t /\ finite f32 t = true /\ val f32 t = bpow radix2 k.
Proof.
  intros H t. assert (E : t = mkbits f32 false (127 + k) 0).
  { unfold t, to_u, mkbits. rewrite (shli_ok _ _ 254) by (lia || reflexivity). change (mw f32) with 23%Z. rewrite Z.mod_small by lia. cbn [Z.b2z]. lia. }
  rewrite E. destruct (valm f32 false (127 + k) 0) as (A & B & C); [change (ew f32) with 8%Z; lia|change (mw f32) with 23%Z; lia|]. split; [exact A|]. split; [exact B|]. rewrite C. cbn [sval]. change (bias f32) with 127%Z. change (mw f32) with 23%Z.
  rewrite Z.add_0_r. change 2%Z with (radix_val radix2). rewrite IZR_Zpower, <- bpow_plus by lia. f_equal. lia.
Qed.
Lemma k32_1 : (23 <= mw f32)%Z. Proof. vm_compute. discriminate. Qed.
Lemma k32_2 : (pr f32 + 101 <= 1 - emin f32)%Z. Proof. vm_compute. discriminate. Qed.
Lemma k32_3 : (90 <= bias f32)%Z. Proof. vm_compute. discriminate. Qed.
Lemma h32 : isbits f32 0x3f000000 /\ finite f32 0x3f000000 = true /\ val f32 0x3f000000 = / 2.
Proof. split; [split; vm_compute; (reflexivity || discriminate)|]. split; [reflexivity|]. rewrite (val_lit f32 0x3f000000 1 2) by (vm_compute; reflexivity). lra. Qed.
Lemma one32 : isbits f32 0x3f800000 /\ finite f32 0x3f800000 = true /\ val f32 0x3f800000 = 1.
Proof. split; [split; vm_compute; (reflexivity || discriminate)|]. exact o32. Qed.
Lemma two32 : finite f32 0x40000000 = true /\ val f32 0x40000000 = 2.
Proof. split; [reflexivity|]. rewrite (val_lit f32 0x40000000 2 1) by (vm_compute; reflexivity). lra. Qed.
Lemma mtwo32 : finite f32 0xc0000000 = true /\ val f32 0xc0000000 = -2.
Proof. split; [reflexivity|]. rewrite (val_lit f32 0xc0000000 (-2) 1) by (vm_compute; reflexivity). lra. Qed.
Lemma huge32 : finite f32 0x7f000000 = true /\ val f32 0x7f000000 = bpow radix2 127.
Proof. destruct (tw32 127 ltac:(lia)) as (_ & B & C). split; [reflexivity|exact C]. Qed.

Lemma expm1f_2_eq x k c : rs_expm1f_2 x 0x7f000000 k c = if (k =? 0)%Z then Some (k0resf x) else let e := E32 x c in
  if (k =? -1)%Z then Some (fsub f32 (fmul f32 0x3f000000 (fsub f32 x e)) 0x3f000000)
  else if (k =? 1)%Z then if flt f32 x 0xbe800000 then Some (fmul f32 0xc0000000 (fsub f32 e (fadd f32 x 0x3f000000))) else Some (fadd f32 0x3f800000 (fmul f32 0x40000000 (fsub f32 x e)))
  else let* v0 := sadd 32 127 k in let t := to_u 32 (shli 32 v0 23) in
    if negb ((0 <=? k) && (k <=? 56))%Z then let y := fadd f32 (fsub f32 x e) 0x3f800000 in
      Some (fsub f32 (if (k =? 128)%Z then fmul f32 (fmul f32 y 0x40000000) 0x7f000000 else fmul f32 y t) 0x3f800000)
    else let* v1 := ssub 32 127 k in let u := to_u 32 (shli 32 v1 23) in
      Some (if (k <? 23)%Z then fmul f32 (fadd f32 (fsub f32 x e) (fsub f32 0x3f800000 u)) t else fmul f32 (fadd f32 (fsub f32 x (fadd f32 e u)) 0x3f800000) t).
Proof. unfold rs_expm1f_2. destruct (ssub 32 127 k); destruct (k <? 23)%Z; reflexivity. Qed.
Lemma emf_2_ok x c k r D : isbits f32 x /\ finite f32 x = true -> AB f32 (E32 x c) D (2 / 5) -> val f32 x - D = exp r - 1 -> - (8 / 100) <= D <= 8 / 100 -> 7062 / 10000 <= exp r <= 1416 / 1000 -> Rabs (val f32 x - r) <= / 10000000 -> Rabs r <= 3475 / 10000 ->
  k <> 0%Z -> (-100 <= k <= 127)%Z \/ (k = 128)%Z /\ exp r <= 1 - / 1000 -> exists z, rs_expm1f_2 x 0x7f000000 k c = Some z /\ rel_err f32 2 (exp (r + IZR k * ln 2) - 1) z.
Proof.
  intros Fx HE HD DB RB XR RR Nk Hk. rewrite expm1f_2_eq. rewrite exp_plus, exp_ln2, Rmult_comm. destruct (Z.eqb_spec k 0) as [|_]; [contradiction|]. cbv zeta. set (e := E32 x c) in *.
  pose proof k32_1 as K1. pose proof k32_2 as K2. pose proof k32_3 as K3.
  destruct (Z.eqb_spec k (-1)) as [-> | N1]. { eexists. split; [reflexivity|]. change (bpow radix2 (-1)) with (/ 2). replace (/ 2 * exp r - 1) with (exp r / 2 - 1) by lra. exact (em_m1 f32 K1 K2 K3 x e _ r D Fx HE HD RB h32). }
  destruct (Z.eqb_spec k 1) as [-> | N2].
  { change (bpow radix2 1) with 2. destruct (flt f32 x 0xbe800000) eqn:LT.
    - eexists. split; [reflexivity|]. apply (em_1a f32 K1 K2 K3 x e _ r D Fx HE HD RB h32 _ (proj1 mtwo32) (proj2 mtwo32)). apply (flt_fin f32 x 0xbe800000 (proj2 Fx) eq_refl) in LT. rewrite (val_lit f32 0xbe800000 (-1) 4) in LT by (vm_compute; reflexivity). apply Rabs_le_inv in XR. apply Rabs_le_inv in RR. lra.
    - eexists. split; [reflexivity|]. assert (LX : - / 4 <= val f32 x). { destruct (Rle_lt_dec (- / 4) (val f32 x)) as [Q|Q]; [exact Q|exfalso]. apply flt_false in LT. apply LT. split; [apply finite_not_nan, (proj2 Fx)|]. split; [reflexivity|]. rewrite (proj2 Fx). change (finite f32 0xbe800000) with true. cbv iota. rewrite (val_lit f32 0xbe800000 (-1) 4) by (vm_compute; reflexivity). lra. }
      pose proof (exp_ineq1_le r) as EI. apply Rabs_le_inv in XR. apply (em_1b f32 K1 K2 K3 x e _ r D Fx HE HD RB one32 _ (proj1 two32) (proj2 two32)); lra. }
  rewrite sadd_ok by lia. cbn [bind].
  destruct (negb ((0 <=? k) && (k <=? 56))%Z) eqn:BR.
  - eexists. split; [reflexivity|]. pose proof (em_y f32 K1 K2 K3 x e _ r D Fx HE HD RB one32) as Y. set (y := fadd f32 (fsub f32 x e) 0x3f800000) in *.
    destruct (Z_lt_le_dec k 0) as [S | S].
    + destruct (Z.eqb_spec k 128); [lia|]. destruct (tw32 k ltac:(lia)) as (B & G & V). apply (em_lo f32 K1 K2 K3 x e _ r D Fx HE HD RB one32 _ _ G V). split; [apply bpow_ge_0|]. change (/ 4) with (bpow radix2 (-2)). apply bpow_le. lia.
    + assert (C56 : (57 <= k)%Z). { destruct (Z.leb_spec 0 k); [|lia]. destruct (Z.leb_spec k 56); [discriminate|lia]. }
      assert (QB : IZR (2 ^ 50) <= bpow radix2 k). { change 2%Z with (radix_val radix2). rewrite IZR_Zpower by lia. apply bpow_le. lia. }
      destruct Y as (By & Gy & Cy). assert (P : bpow radix2 (- pr f32) = / 16777216) by reflexivity. rewrite P in Cy. 
      assert (MM : Rabs (exp r - 1) <= 416 / 1000) by (apply Rabs_le; lra). assert (YB : 0 < val f32 y < 15 / 10) by (apply Rabs_le_inv in Cy; lra).
      destruct (Z.eqb_spec k 128) as [-> | N4].
      * destruct Hk as [Hk | [_ Hk]]; [lia|]. assert (Y1 : val f32 y < 1). { rewrite (Rabs_left1 (exp r - 1)) in Cy by lra. apply Rabs_le_inv in Cy. lra. }
        destruct (ab_sc f32 0x40000000 y 1 (proj1 two32) Gy ltac:(rewrite (proj2 two32), Rabs_pos_eq by lra; reflexivity) ltac:(lia)) as [_ (B1 & G1 & V1)]. { rewrite (proj2 two32), Rabs_pos_eq by lra. apply Rlt_trans with (bpow radix2 2); [change (bpow radix2 2) with 4; lra|apply bpow_lt; vm_compute; reflexivity]. }
        destruct (ab_sc f32 0x7f000000 (fmul f32 y 0x40000000) 127 (proj1 huge32) G1 ltac:(rewrite (proj2 huge32), Rabs_pos_eq by apply bpow_ge_0; reflexivity) ltac:(lia)) as [_ (B2 & G2 & V2)].
        { rewrite V1, (proj2 huge32), (proj2 two32). rewrite Rabs_pos_eq by (apply Rmult_le_pos; [apply bpow_ge_0|lra]). replace (bpow radix2 127 * (2 * val f32 y)) with (bpow radix2 1 * bpow radix2 127 * val f32 y) by (change (bpow radix2 1) with 2; ring). rewrite <- bpow_plus. change (bias f32 + 1)%Z with (1 + 127)%Z. pose proof (bpow_gt_0 radix2 (1 + 127)). nra. }
        apply (em_hi f32 K1 K2 K3 x e _ r D Fx HE HD RB one32); [exact B2|exact G2| |exact QB]. rewrite V2, V1, (proj2 huge32), (proj2 two32). fold y. change 128%Z with (1 + 127)%Z. rewrite bpow_plus. change (bpow radix2 1) with 2. ring.
      * destruct (tw32 k ltac:(lia)) as (B & G & V).
        destruct (ab_sc f32 _ y k G Gy ltac:(rewrite V, Rabs_pos_eq by apply bpow_ge_0; reflexivity) ltac:(lia)) as [_ (B2 & G2 & V2)].
        { rewrite V, Rabs_pos_eq by (apply Rmult_le_pos; [apply bpow_ge_0|lra]). apply Rlt_le_trans with (bpow radix2 (1 + k)); [rewrite bpow_plus; change (bpow radix2 1) with 2; pose proof (bpow_gt_0 radix2 k); nra|apply bpow_le; change (bias f32) with 127%Z; lia]. }
        apply (em_hi f32 K1 K2 K3 x e _ r D Fx HE HD RB one32); [exact B2|exact G2| |exact QB]. rewrite V2, V. reflexivity.
  - apply negb_false_iff, andb_true_iff in BR. destruct BR as [BR1 BR2]. apply Z.leb_le in BR1. apply Z.leb_le in BR2. rewrite ssub_ok by lia. cbn [bind]. eexists. split; [reflexivity|].
    destruct (tw32 k ltac:(lia)) as (B & G & V). change (127 - k)%Z with (127 + - k)%Z. destruct (tw32 (- k) ltac:(lia)) as (Bu & Gu & Vu). set (t := to_u 32 (shli 32 (127 + k) 23)) in *. set (u := to_u 32 (shli 32 (127 + - k) 23)) in *.
    assert (U0 : 0 <= bpow radix2 (- k) <= / 4). { split; [apply bpow_ge_0|]. change (/ 4) with (bpow radix2 (-2)). apply bpow_le. lia. }
    assert (EQ : bpow radix2 k * exp r - 1 = bpow radix2 k * (exp r - bpow radix2 (- k))). { rewrite Rmult_minus_distr_l, <- bpow_plus. replace (k + - k)%Z with 0%Z by lia. reflexivity. } rewrite EQ.
    assert (FIN : forall w, AB f32 w (exp r - bpow radix2 (- k)) (4 * (exp r - bpow radix2 (- k))) -> rel_err f32 2 (bpow radix2 k * (exp r - bpow radix2 (- k))) (fmul f32 w t)).
    { intros w HW. pose proof HW as (Bw & Gw & Cw). assert (P : bpow radix2 (- pr f32) = / 16777216) by reflexivity. rewrite P in Cw. assert (WB : 0 < val f32 w < 2) by (apply Rabs_le_inv in Cw; lra).
      destruct (ab_sc f32 t w k G Gw ltac:(rewrite V, Rabs_pos_eq by apply bpow_ge_0; reflexivity) ltac:(lia)) as [_ (B2 & G2 & V2)].
      { rewrite V, Rabs_pos_eq by (apply Rmult_le_pos; [apply bpow_ge_0|lra]). apply Rlt_le_trans with (bpow radix2 (1 + k)); [rewrite bpow_plus; change (bpow radix2 1) with 2; pose proof (bpow_gt_0 radix2 k); nra|apply bpow_le; change (bias f32) with 127%Z; lia]. }
      apply (em_mid f32 K1 _ _ w _ k HW); [lra|lra|lra|rewrite V2, V; reflexivity|exact B2|exact G2]. }
    destruct (Z.ltb_spec k 23) as [S | S]; apply FIN.
    + apply (em_w1 f32 K1 K2 K3 x e r D Fx HE HD RB); [|exact U0].
      (* 1 - 2^-k is exact *)
      pose proof (fsub_spec f32 0x3f800000 u eq_refl Gu) as RT. rewrite (proj2 o32), Vu in RT. 
      assert (R : rnd f32 (1 - bpow radix2 (- k)) = 1 - bpow radix2 (- k)). { apply repr_rnd. replace (1 - bpow radix2 (- k)) with (IZR (2 ^ k - 1) * bpow radix2 (- k)). { pose proof (Z.pow_pos_nonneg 2 k ltac:(lia) ltac:(lia)). assert (2 ^ k <= 2 ^ 24)%Z by (apply Z.pow_le_mono_r; lia). apply repr_int; [change (mw f32 + 1)%Z with 24%Z; lia|change (emin f32) with (-149)%Z; lia]. }
        rewrite minus_IZR. change 2%Z with (radix_val radix2). rewrite IZR_Zpower by lia. rewrite Rmult_minus_distr_r, <- bpow_plus. replace (k + - k)%Z with 0%Z by lia. cbn [bpow]. ring. }
      destruct (rounds_fin f32 _ _ _ RT) as [G1 V1]. { apply Rle_trans with (bpow radix2 0); [change (bpow radix2 0) with 1; apply Rabs_le; lra|apply bpow_le; vm_compute; discriminate]. }
      split; [exact (proj1 RT)|]. split; [exact G1|]. rewrite V1, R, Rminus_diag_eq, Rabs_R0 by reflexivity. lra.
    + apply (em_w2 f32 K1 K2 K3 x e _ r D Fx HE HD DB RB one32).
      * split; [exact Bu|]. split; [exact Gu|]. rewrite Vu, Rminus_diag_eq, Rabs_R0 by reflexivity. lra.
      * split; [apply bpow_ge_0|]. apply Rle_trans with (bpow radix2 (-20)); [apply bpow_le; lia|change (bpow radix2 (-20)) with (/ 1048576); lra].
Qed.

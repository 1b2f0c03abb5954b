(** The argument reduction of exp. *)
From Coq Require Import ZArith Reals Lia Lra Bool List Psatz.
From Flocq Require Import Core.
From Verif Require Import Base Spec SpecFun2 Format P_format Ieee P_ieee P_real P_neg P_lit P_err P_apx P_poly P_powt P_powt8 P_expa1 P_expa2 P_expa3 P_expa4 P_expa5 P_expa6 P_expa7 M_exp.
Import ListNotations.
Open Scope R_scope.

Lemma AP_wk F s e R l h er er' : 0 < s -> AP F s e R (l, h, er) -> (er <=? er')%Z = true -> AP F s e R (l, h, er').
Proof. intros S (H1 & H2 & H3) H. apply Z.leb_le, fxr_le in H. split; [exact H1|]. split; [exact H2|]. eapply Rle_trans; [exact H3|]. apply Rmult_le_compat_l; lra. Qed.
Lemma AP_mv F e R R' l h er d er' l' h' : AP F 1 e R (l, h, er) -> Rabs (R - R') <= fxr d -> fxr l' <= R' <= fxr h' -> (er + d <=? er')%Z = true -> AP F 1 e R' (l', h', er').
Proof.
  intros (H1 & H2 & H3) D H K. apply Z.leb_le, fxr_le in K. rewrite fxr_add in K. split; [exact H1|]. split; [exact H|]. rewrite !Rmult_1_l in *.
  replace (val F e - R') with ((val F e - R) + (R - R')) by ring. eapply Rle_trans; [apply Rabs_triang|]. lra.
Qed.
Lemma exact_mul F a b n e : finite F a = true -> finite F b = true -> val F a * val F b = IZR n * bpow radix2 e -> (Z.abs n < 2 ^ (mw F + 1))%Z -> (emin F <= e)%Z -> Rabs (val F a * val F b) <= bpow radix2 (bias F) ->
  isbits F (fmul F a b) /\ finite F (fmul F a b) = true /\ val F (fmul F a b) = val F a * val F b.
Proof.
  intros Fa Fb E Hn He L. pose proof (fmul_spec F a b Fa Fb) as RT. destruct (rounds_fin F _ _ _ RT L) as [Fm Vm]. split; [exact (proj1 RT)|]. split; [exact Fm|]. rewrite Vm. apply repr_rnd. rewrite E. apply repr_int; lia.
Qed.
Lemma exact_sub F a b n e : finite F a = true -> finite F b = true -> val F a - val F b = IZR n * bpow radix2 e -> (Z.abs n < 2 ^ (mw F + 1))%Z -> (emin F <= e)%Z -> Rabs (val F a - val F b) <= bpow radix2 (bias F) ->
  isbits F (fsub F a b) /\ finite F (fsub F a b) = true /\ val F (fsub F a b) = val F a - val F b.
Proof.
  intros Fa Fb E Hn He L. pose proof (fsub_spec F a b Fa Fb) as RT. destruct (rounds_fin F _ _ _ RT L) as [Fm Vm]. split; [exact (proj1 RT)|]. split; [exact Fm|]. rewrite Vm. apply repr_rnd. rewrite E. apply repr_int; lia.
Qed.
(** [x - k c] is exact when it is small *)
Lemma red_exact F x c k M e N : (8 <= ew F)%Z -> (10 < mw F)%Z -> finite F x = true -> finite F c = true -> val F c = IZR M * bpow radix2 e -> (Z.abs k <= N <= 2047)%Z -> (N * Z.abs M < 2 ^ (mw F + 1))%Z ->
  (-2 - mw F <= e <= 0)%Z -> (Z.abs M <= 2 ^ (- e))%Z -> / 4 <= Rabs (val F x) -> Rabs (val F x - IZR k * val F c) < / 2 ->
  let hi := fsub F x (fmul F (of_int F k) c) in isbits F hi /\ finite F hi = true /\ val F hi = val F x - IZR k * val F c.
Proof.
  intros EW MW Fx Fc Vc Hk HM He HM2 Lx Ld hi. pose proof (fmt_facts F) as FF. pose proof (bias_facts F) as BF. destruct (of_int_small F k EW MW ltac:(lia)) as (Bk & Fk & Vk).
  assert (B7 : (2 ^ 7 <= 2 ^ (ew F - 1))%Z) by (apply Z.pow_le_mono_r; lia). assert (BB : (127 <= bias F)%Z) by (unfold bias; lia).
  assert (C1 : Rabs (val F c) <= 1).
  { rewrite Vc, Rabs_mult, <- abs_IZR, (Rabs_pos_eq (bpow _ _)) by apply bpow_ge_0. apply IZR_le in HM2. change 2%Z with (radix_val radix2) in HM2. rewrite IZR_Zpower in HM2 by lia.
    apply Rle_trans with (bpow radix2 (- e) * bpow radix2 e); [apply Rmult_le_compat_r; [apply bpow_ge_0|exact HM2]|]. rewrite <- bpow_plus. replace (- e + e)%Z with 0%Z by lia. cbn. lra. }
  assert (K1 : Rabs (IZR k) <= 2047) by (rewrite <- abs_IZR; apply (IZR_le _ 2047); lia).
  assert (L1 : Rabs (val F (of_int F k) * val F c) <= bpow radix2 (bias F)).
  { rewrite Vk, Rabs_mult. apply Rle_trans with (bpow radix2 11); [change (bpow radix2 11) with 2048; pose proof (Rabs_pos (IZR k)); pose proof (Rabs_pos (val F c)); nra|apply bpow_le; lia]. }
  assert (E1 : val F (of_int F k) * val F c = IZR (k * M) * bpow radix2 e) by (rewrite Vk, Vc, mult_IZR; ring).
  destruct (exact_mul F _ c (k * M) e Fk Fc E1 ltac:(nia) ltac:(unfold emin; lia) L1) as (Bm & Fm & Vm). rewrite Vk in Vm.
  destruct (repr_grid F (val F x) (-2) (repr_val F x Fx)) as [n Hn]. { intros _. exact Lx. }
  assert (E2 : val F x - val F (fmul F (of_int F k) c) = IZR (n - k * M * 2 ^ (e - (-2 - mw F))) * bpow radix2 (-2 - mw F)).
  { rewrite Vm, Hn, Vc. rewrite minus_IZR, !mult_IZR. change 2%Z with (radix_val radix2). rewrite IZR_Zpower by lia. replace e with ((e - (-2 - mw F)) + (-2 - mw F))%Z at 1 by lia. rewrite bpow_plus. ring. }
  apply (f_equal Rabs) in E2 as E3. rewrite Vm in E3 at 1. rewrite Rabs_mult, (Rabs_pos_eq (bpow _ _)), <- abs_IZR in E3 by apply bpow_ge_0.
  assert (Hs : (Z.abs (n - k * M * 2 ^ (e - (-2 - mw F))) < 2 ^ (mw F + 1))%Z).
  { apply lt_IZR. change (IZR (2 ^ (mw F + 1))) with (IZR (radix_val radix2 ^ (mw F + 1))). rewrite IZR_Zpower by lia. apply Rmult_lt_reg_r with (bpow radix2 (-2 - mw F)); [apply bpow_gt_0|]. rewrite <- E3, <- bpow_plus. replace (mw F + 1 + (-2 - mw F))%Z with (-1)%Z by lia. exact Ld. }
  destruct (exact_sub F x (fmul F (of_int F k) c) _ _ Fx Fm E2 Hs ltac:(unfold emin; lia)) as (Bh & Fh & Vh).
  { rewrite Vm. apply Rlt_le, Rlt_le_trans with (bpow radix2 0); [cbn; lra|apply bpow_le; lia]. }
  split; [exact Bh|]. split; [exact Fh|]. unfold hi. rewrite Vh, Vm. reflexivity.
Qed.

(** log10, f64: the two branches. *)
From Coq Require Import ZArith Reals Lia Lra Bool List Psatz.
From Flocq Require Import Core.
From Verif Require Import Base Spec SpecFun2 SpecLog Format P_format Ieee P_ieee P_real P_neg P_lit P_err P_scalbn P_apx P_poly P_poly2 P_poly3 P_powt P_powt8 P_taylor P_expa1 P_expa2 P_expa3 P_expa4 P_expa5 P_expa7 P_expa8 P_expa9 P_lga1 P_lga2 P_lga3 P_lga4 P_lga5 P_l2a1 P_l2a2 P_l2a3 P_l2a4 P_l2a5 P_l2a6 M_log.
Import ListNotations.
Open Scope R_scope.
Local Opaque fadd fsub fmul fdiv of_int.

Definition vh10 (f : Z) : Z := fmul f64 (hi64 f) rs_log10_IVLN10HI.
Definition vl10 (d f : Z) : Z := fadd f64 (fadd f64 d (fmul f64 (fadd f64 (lo64 f) (hi64 f)) rs_log10_IVLN10LO)) (fmul f64 (lo64 f) rs_log10_IVLN10HI).
Definition dl10 (k : Z) : Z := fmul f64 (of_int f64 k) rs_log10_LOG10_2LO.
Definition y10 (k : Z) : Z := fmul f64 (of_int f64 k) rs_log10_LOG10_2HI.
Lemma ivh10 : finite f64 rs_log10_IVLN10HI = true /\ val f64 rs_log10_IVLN10HI = IZR 3730561193 * bpow radix2 (-33) /\ val f64 rs_log10_IVLN10HI = 3730561193 / 8589934592.
Proof. assert (V : val f64 rs_log10_IVLN10HI = 3730561193 / 8589934592) by (rewrite (val_lit f64 rs_log10_IVLN10HI 3730561193 8589934592) by (vm_compute; reflexivity); reflexivity). split; [reflexivity|]. split; [|exact V]. rewrite V. change (bpow radix2 (-33)) with (/ 8589934592). lra. Qed.
Lemma l2h10 : finite f64 rs_log10_LOG10_2HI = true /\ val f64 rs_log10_LOG10_2HI = IZR 661971961083 * bpow radix2 (-41).
Proof. split; [reflexivity|]. rewrite (val_lit f64 rs_log10_LOG10_2HI 661971961083 2199023255552) by (vm_compute; reflexivity). change (bpow radix2 (-41)) with (/ 2199023255552). lra. Qed.
(** ln 10 = 3 ln 2 + ln (5/4) *)
Definition l54 : poly := Eval vm_compute in lgs 14.
Lemma ln54 : Rabs (ln (5 / 4) - / 9 * (2 + peval l54 (/ 9 * / 9))) <= / IZR (2 ^ 90).
Proof.
  pose proof (ath_near (/ 9) 14 ltac:(rewrite Rabs_pos_eq; lra)) as H. rewrite lt_sum in H. change (lgs 14) with l54 in H. unfold ath in H. replace (1 + / 9) with (5 / 4 * (1 - / 9)) in H by lra. rewrite ln_mult in H by lra. replace (ln (5 / 4) + ln (1 - / 9) - ln (1 - / 9)) with (ln (5 / 4)) in H by ring. eapply Rle_trans; [exact H|]. rewrite (Rabs_pos_eq (/ 9)) by lra.
  change (2 ^ 90)%Z with 1237940039285380274899124224%Z. cbn [pow]. lra.
Qed.
Definition c10 : R := 3730561193 / 8589934592 + 7762796009401813 / 309485009821345068724781056.
Definition d10 : R := 661971961083 / 2199023255552 + 7317194349292342 / 19807040628566084398385987584.
Lemma ln10_eq : ln 10 = 3 * ln 2 + ln (5 / 4).
Proof. replace 10 with (2 * (2 * (2 * (5 / 4)))) by lra. rewrite !ln_mult by lra. ring. Qed.
Lemma ln10_b : Rabs (c10 * ln 10 - 1) <= / IZR (2 ^ 80) /\ Rabs (d10 * ln 10 - ln 2) <= / IZR (2 ^ 80) /\ 23025 / 10000 <= ln 10 <= 23026 / 10000.
Proof.
  pose proof ln2_b as H. apply Rabs_le_inv in H. change (2 ^ 86)%Z with 77371252455336267181195264%Z in H. pose proof ln54 as K. apply Rabs_le_inv in K. change (2 ^ 90)%Z with 1237940039285380274899124224%Z in K. change (2 ^ 80)%Z with 1208925819614629174706176%Z. rewrite ln10_eq. unfold l54, peval in K. unfold c10, d10. set (a := ln (5 / 4)) in *. set (b := ln 2) in *. cbn [fst snd] in K.
  split; [apply Rabs_le; lra|]. split; [apply Rabs_le; lra|lra].
Qed.
(** the conversion constants *)
Lemma inv_near c t L : 2 <= t -> forall e, Rabs (c * t - L) <= e -> Rabs (c - L / t) <= e.
Proof.
  intros T e B. replace (c - L / t) with ((c * t - L) * / t) by (field; lra). rewrite Rabs_mult, (Rabs_pos_eq (/ t)) by (left; apply Rinv_0_lt_compat; lra).
  assert (I : / t <= 1). { apply Rmult_le_reg_r with t; [lra|]. rewrite Rinv_l; lra. } assert (0 < / t) by (apply Rinv_0_lt_compat; lra). pose proof (Rabs_pos (c * t - L)). nra.
Qed.
Lemma c10_near L : Rabs (c10 * L - L / ln 10) <= Rabs L * / IZR (2 ^ 79).
Proof.
  destruct ln10_b as (B & _ & T). replace (c10 * L - L / ln 10) with (L * (c10 - 1 / ln 10)) by (field; lra). rewrite Rabs_mult. apply Rmult_le_compat_l; [apply Rabs_pos|]. apply (inv_near c10 (ln 10) 1); [lra|]. eapply Rle_trans; [exact B|]. apply Rinv_le; [apply IZR_lt; vm_compute; reflexivity|apply IZR_le; vm_compute; discriminate].
Qed.
Lemma d10_near k : (Z.abs k <= 1077)%Z -> Rabs (IZR k * d10 - IZR k * ln 2 / ln 10) <= / IZR (2 ^ 69).
Proof.
  intros Hk. destruct ln10_b as (_ & B & T). replace (IZR k * d10 - IZR k * ln 2 / ln 10) with (IZR k * (d10 - ln 2 / ln 10)) by (field; lra). apply (inv_near d10 (ln 10) (ln 2)) in B; [|lra]. rewrite Rabs_mult.
  assert (KA : Rabs (IZR k) <= 1077) by (rewrite <- abs_IZR; apply IZR_le; lia). change (2 ^ 80)%Z with 1208925819614629174706176%Z in B. change (2 ^ 69)%Z with 590295810358705651712%Z. pose proof (Rabs_pos (IZR k)). pose proof (Rabs_pos (d10 - ln 2 / ln 10)). apply Rle_trans with (1077 * / 1208925819614629174706176); [apply Rmult_le_compat; assumption|lra].
Qed.
Lemma log10_k0 f y : isbits f64 f -> finite f64 f = true -> finite f64 y = true -> val f64 y = 0 -> bpow radix2 (-60) <= Rabs (val f64 f) -> -2930 / 10000 <= val f64 f <= 41425 / 100000 ->
  rel_eps f64 (ln (1 + val f64 f) / ln 10) (two64 y (vh10 f) (vl10 0 f)).
Proof.
  intros Bf Ff Fy Vy Lo Hf. destruct (ker2 f Bf Ff Lo Hf) as (HS & AH & AL & _ & _ & HT). set (F := val f64 f) in *. set (s := Rabs F) in *. set (H := val f64 (hi64 f)) in *. assert (S0 : 0 < s) by apply HS. assert (S1 : s <= 41425 / 100000) by (apply Rabs_le; lra).
  destruct ivh10 as (Fc & Vc & Vc'). destruct (hi_mul f _ _ _ Bf Ff Lo Hf Fc Vc ltac:(vm_compute; reflexivity) ltac:(split; vm_compute; discriminate)) as (Bh & Fh & Vh). { rewrite Vc', Rabs_pos_eq; lra. }
  change (fmul f64 (hi64 f) rs_log10_IVLN10HI) with (vh10 f) in *. change (val f64 (hi64 f)) with H in Vh. rewrite Vc' in Vh.
  assert (AZ : AP f64 s 0 0 (0, 0, 0)%Z). { split; [split; [split; vm_compute; (reflexivity || discriminate)|reflexivity]|]. rewrite fxr_0. split; [lra|]. rewrite (val_zero f64 false : val f64 0 = 0). rewrite Rmult_0_r, Rminus_0_r, Rabs_R0. lra. }
  apy f64 s (fadd f64 (fadd f64 0 (fmul f64 (fadd f64 (lo64 f) (hi64 f)) rs_log10_IVLN10LO)) (fmul f64 (lo64 f) rs_log10_IVLN10HI)) K. change (fadd f64 (fadd f64 0 (fmul f64 (fadd f64 (lo64 f) (hi64 f)) rs_log10_IVLN10LO)) (fmul f64 (lo64 f) rs_log10_IVLN10HI)) with (vl10 0 f) in K.
  eapply (AP_wk _ _ _ _ _ _ _ (20 * 2 ^ 141)) in K; [|exact S0|vm_compute; reflexivity]. destruct K as ((Bl & Fl) & KR & KV).
  assert (RB : Rabs ((lG cl64 F - H) / s) <= 3 / 64). { destruct AL as (_ & A2 & _). rewrite fxr_opp, fxr_mulZ in A2. change (2 ^ 194)%Z with (2 ^ (200 - 6))%Z in A2. rewrite fxr2 in A2 by lia. change (2 ^ 6)%Z with 64%Z in A2. apply Rabs_le. lra. }
  assert (RH : Rabs (H / s) <= 5 / 4). { destruct AH as (_ & A2 & _). rewrite fxr_opp, fxr_mulZ in A2. change (2 ^ 198)%Z with (2 ^ (200 - 2))%Z in A2. rewrite fxr2 in A2 by lia. change (2 ^ 2)%Z with 4%Z in A2. apply Rabs_le. lra. }
  set (b := (lG cl64 F - H) / s) in *. set (h := H / s) in *. assert (EB : s * b = lG cl64 F - H) by (unfold b; field; lra). assert (EH : s * h = H) by (unfold h; field; lra).
  match type of KV with Rabs (_ - s * ?e) <= _ => set (R := e) in * end.
  assert (ER : s * R = c10 * lG cl64 F - H * (3730561193 / 8589934592)). { unfold R, c10. replace (lG cl64 F) with (s * b + s * h) by lra. rewrite <- EH. field. }
  rewrite ER in KV. rewrite fxr_mulZ in KV. change (2 ^ 141)%Z with (2 ^ (200 - 59))%Z in KV. rewrite fxr2 in KV by lia. change (2 ^ 59)%Z with (64 * 9007199254740992)%Z in KV. rewrite mult_IZR in KV.
  assert (RR : Rabs R <= 7 / 100) by (unfold R; apply Rabs_le; apply Rabs_le_inv in RB, RH; lra).
  assert (VLb : Rabs (val f64 (vl10 0 f)) <= 1). { replace (val f64 (vl10 0 f)) with ((val f64 (vl10 0 f) - (c10 * lG cl64 F - H * (3730561193 / 8589934592))) + s * R) by (rewrite ER; ring). eapply Rle_trans; [apply Rabs_triang|]. rewrite Rabs_mult, (Rabs_pos_eq s) by lra. nra. }
  assert (VHb : Rabs (val f64 (vh10 f)) <= 1). { rewrite Vh, <- EH. rewrite !Rabs_mult, (Rabs_pos_eq s), (Rabs_pos_eq (3730561193 / 8589934592)) by lra. pose proof (Rabs_pos h). nra. }
  destruct (two_tail0 y (vh10 f) (vl10 0 f) Fy Vy Fh Fl VHb VLb) as (Br & Fr & Vr). split; [exact Br|]. split; [exact Fr|]. set (r := two64 y (vh10 f) (vl10 0 f)) in *. rewrite Vh in Vr. set (VL := val f64 (vl10 0 f)) in *.
  pose proof (rndF_abs f64 (H * (3730561193 / 8589934592) + VL)) as EE. rewrite <- Vr in EE. change (bpow radix2 (- pr f64)) with (/ 9007199254740992) in EE. set (S := H * (3730561193 / 8589934592) + VL) in *.
  assert (TN : bpow radix2 (emin f64 - 1) <= s * (/ 9007199254740992 / 1000)). { apply Rle_trans with (bpow radix2 (-60) * bpow radix2 (-64)); [rewrite <- bpow_plus; apply bpow_le; vm_compute; discriminate|]. change (bpow radix2 (-64)) with (/ 18446744073709551616). apply Rmult_le_compat; try apply bpow_ge_0; lra. }
  set (L := ln (1 + F)) in *. destruct (ln_low F (F / (2 + F)) eq_refl Hf) as [I1 I2]. destruct (log_G64 F ltac:(lra)) as [G1 G2]. fold L in G1, I2. fold s in I1. set (i := Rabs (F / (2 + F))) in *. assert (I0 : 0 <= i) by apply Rabs_pos.
  pose proof (c10_near L) as CN. destruct ln10_b as (_ & _ & LN). set (X := L / ln 10) in *. assert (EX : L = X * ln 10) by (unfold X; field; lra).
  assert (XL : s * (359 / 1000) <= Rabs X). { rewrite EX, Rabs_mult, (Rabs_pos_eq (ln 10)) in I2 by lra. change (2 ^ 57)%Z with 144115188075855872%Z in I2. assert (s * (41420 / 100000) <= i) by nra. pose proof (Rabs_pos X). nra. }
  assert (LB : Rabs L <= 2 * s). { assert (i <= s) by nra. assert (Rabs (lG cl64 F) <= 13 / 10 * s). { replace (lG cl64 F) with (s * b + s * h) by lra. eapply Rle_trans; [apply Rabs_triang|]. rewrite !Rabs_mult, (Rabs_pos_eq s) by lra. nra. } replace L with (lG cl64 F - (lG cl64 F - L)) by ring. unfold Rminus at 1. eapply Rle_trans; [apply Rabs_triang|]. rewrite Rabs_Ropp. change (2 ^ 57)%Z with 144115188075855872%Z in G1. nra. }
  assert (GC : Rabs (c10 * lG cl64 F - c10 * L) <= s * (16 / 1000 / 9007199254740992)). { rewrite <- Rmult_minus_distr_l, Rabs_mult, (Rabs_pos_eq c10) by (unfold c10; lra). change (2 ^ 57)%Z with (16 * 9007199254740992)%Z in G1. rewrite mult_IZR in G1. assert (i <= s * (586 / 1000)) by nra. assert (c10 <= 4343 / 10000) by (unfold c10; lra). assert (0 <= c10) by (unfold c10; lra). pose proof (Rabs_pos (lG cl64 F - L)). nra. }
  assert (SX : Rabs (S - X) <= s * (332 / 1000 / 9007199254740992)).
  { replace (S - X) with ((VL - (c10 * lG cl64 F - H * (3730561193 / 8589934592))) + (c10 * lG cl64 F - c10 * L) + (c10 * L - X)) by (unfold S; ring). eapply Rle_trans; [apply Rabs_triang|]. pose proof (Rabs_triang (VL - (c10 * lG cl64 F - H * (3730561193 / 8589934592))) (c10 * lG cl64 F - c10 * L)).
    change (2 ^ 79)%Z with (9007199254740992 * 67108864)%Z in CN. rewrite mult_IZR in CN. lra. }
  change (bpow radix2 (- mw f64)) with (/ 4503599627370496). 
  assert (SB : Rabs S <= Rabs X + s / 1000). { replace S with ((S - X) + X) by ring. eapply Rle_trans; [apply Rabs_triang|]. lra. }
  replace (val f64 r - X) with ((val f64 r - S) + (S - X)) by ring. eapply Rle_trans; [apply Rabs_triang|]. lra.
Qed.
Lemma log10_kn f k : isbits f64 f -> finite f64 f = true -> (val f64 f <> 0 -> bpow radix2 (-60) <= Rabs (val f64 f)) -> -2930 / 10000 <= val f64 f <= 41425 / 100000 -> 4999 / 10000 <= (1 + val f64 f) * (1 + val f64 f) <= 20002 / 10000 -> (1 <= Z.abs k <= 1077)%Z ->
  rel_eps f64 (IZR k * ln 2 / ln 10 + ln (1 + val f64 f) / ln 10) (two64 (y10 k) (vh10 f) (vl10 (dl10 k) f)).
Proof.
  intros Bf Ff Lo Hf Hq Hk. destruct (ker2_1 f Bf Ff Lo Hf) as (AH & AL & HT & HM). set (F := val f64 f) in *. set (H := val f64 (hi64 f)) in *.
  destruct ivh10 as (Fc & Vc & Vc'). destruct (HM _ _ _ Fc Vc ltac:(vm_compute; reflexivity) ltac:(split; vm_compute; discriminate)) as (Bh & Fh & Vh). { rewrite Vc', Rabs_pos_eq; lra. }
  change (fmul f64 (hi64 f) rs_log10_IVLN10HI) with (vh10 f) in *. rewrite Vc' in Vh.
  destruct (of_int_small f64 k ltac:(vm_compute; discriminate) ltac:(vm_compute; reflexivity) ltac:(lia)) as (Bk & Fk & Vk).
  assert (KA : 1 <= Rabs (IZR k) <= 1077) by (rewrite <- abs_IZR; split; apply IZR_le; lia).
  assert (AK : AP f64 1 (of_int f64 k) (IZR k) (- (1077 * SC), 1077 * SC, 0)%Z). { split; [now split|]. split; [|rewrite Vk, Rmult_1_l; unfold Rminus; rewrite Rplus_opp_r, Rabs_R0, fxr_0; lra]. rewrite fxr_opp, fxr_SC. destruct KA as [_ KA]. apply Rabs_le_inv in KA. lra. }
   apy f64 1 (fadd f64 (fadd f64 (fmul f64 (of_int f64 k) rs_log10_LOG10_2LO) (fmul f64 (fadd f64 (lo64 f) (hi64 f)) rs_log10_IVLN10LO)) (fmul f64 (lo64 f) rs_log10_IVLN10HI)) K. change (fadd f64 (fadd f64 (fmul f64 (of_int f64 k) rs_log10_LOG10_2LO) (fmul f64 (fadd f64 (lo64 f) (hi64 f)) rs_log10_IVLN10LO)) (fmul f64 (lo64 f) rs_log10_IVLN10HI)) with (vl10 (dl10 k) f) in K.
  eapply (AP_wk _ _ _ _ _ _ _ (132 * 2 ^ 137)) in K; [|lra|vm_compute; reflexivity]. destruct K as ((Bl & Fl) & KR & KV). rewrite !Rmult_1_l in KV.
  assert (RB : Rabs (lG cl64 F - H) <= 5 / 256). { destruct AL as (_ & A2 & _). rewrite fxr_opp, fxr_mulZ in A2. change (2 ^ 192)%Z with (2 ^ (200 - 8))%Z in A2. rewrite fxr2 in A2 by lia. change (2 ^ 8)%Z with 256%Z in A2. apply Rabs_le. lra. }
  pose proof (hi_small F H Hf HT) as RH.
  match type of KV with Rabs (_ - ?e) <= _ => set (R := e) in * end. assert (ER : R = IZR k * (7317194349292342 / 19807040628566084398385987584) + (c10 * lG cl64 F - H * (3730561193 / 8589934592))) by (unfold R, c10; field).
  rewrite fxr_mulZ in KV. change (2 ^ 137)%Z with (2 ^ (200 - 63))%Z in KV. rewrite fxr2 in KV by lia. change (2 ^ 63)%Z with (1024 * 9007199254740992)%Z in KV. rewrite mult_IZR in KV.
  assert (RR : Rabs R <= 86 / 10000) by (unfold R; destruct KA as [_ KA]; apply Rabs_le; apply Rabs_le_inv in RB, RH, KA; lra).
  assert (VLb : Rabs (val f64 (vl10 (dl10 k) f)) <= 87 / 10000). { replace (val f64 (vl10 (dl10 k) f)) with ((val f64 (vl10 (dl10 k) f) - R) + R) by ring. eapply Rle_trans; [apply Rabs_triang|]. lra. }
  assert (VHb : Rabs (val f64 (vh10 f)) <= 146 / 1000). { rewrite Vh, Rabs_mult, (Rabs_pos_eq (3730561193 / 8589934592)) by lra. lra. }
  destruct l2h10 as [F2 V2]. destruct (kc_exact f64 rs_log10_LOG10_2HI k _ _ 1077 ltac:(vm_compute; discriminate) ltac:(vm_compute; reflexivity) F2 V2 ltac:(lia) ltac:(vm_compute; reflexivity) ltac:(split; vm_compute; discriminate) ltac:(vm_compute; discriminate)) as (By & Fy & Vy). change (fmul f64 (of_int f64 k) rs_log10_LOG10_2HI) with (y10 k) in *.
  assert (Vy' : val f64 (y10 k) = IZR k * (661971961083 / 2199023255552)) by (rewrite Vy, mult_IZR; change (bpow radix2 (-41)) with (/ 2199023255552); field).
  assert (YA : 30102 / 100000 <= Rabs (val f64 (y10 k)) <= 1100) by (rewrite Vy', Rabs_mult, (Rabs_pos_eq (661971961083 / 2199023255552)) by lra; lra).
  destruct (two_tail (y10 k) (vh10 f) (vl10 (dl10 k) f) (k * 661971961083) (-41) Fy Fh Fl) as (Br & Fr & Vr).
  { exact Vy. } { lia. } { lra. } 
  { pose proof (Rabs_triang_inv (val f64 (y10 k)) (- val f64 (vh10 f))) as Q. rewrite Rabs_Ropp in Q. replace (val f64 (y10 k) - - val f64 (vh10 f)) with (val f64 (y10 k) + val f64 (vh10 f)) in Q by ring. lra. }
  { left. lra. } { lra. }
  split; [exact Br|]. split; [exact Fr|]. set (r := two64 (y10 k) (vh10 f) (vl10 (dl10 k) f)) in *. rewrite Vy', Vh in Vr. set (VL := val f64 (vl10 (dl10 k) f)) in *. set (S := IZR k * (661971961083 / 2199023255552) + H * (3730561193 / 8589934592) + VL) in *. rewrite u64_eq in Vr.
  pose proof (ln_half F Hf Hq) as HL. set (L := ln (1 + F)) in *. destruct (log_G64 F ltac:(lra)) as [G1 G2]. fold L in G1. set (i := Rabs (F / (2 + F))) in *. assert (I0 : 0 <= i) by apply Rabs_pos.
  pose proof (c10_near L) as CN. destruct ln10_b as (_ & _ & LN). pose proof ln2_c as LN2. set (X := L / ln 10) in *. assert (EX : L = X * ln 10) by (unfold X; field; lra).
  assert (XL : Rabs X <= 15058 / 100000). { rewrite EX, Rabs_mult, (Rabs_pos_eq (ln 10)) in HL by lra. pose proof (Rabs_pos X). nra. }
  pose proof (d10_near k (proj2 Hk)) as DN. set (K2 := IZR k * ln 2 / ln 10) in *. 
  assert (KL : 30102 / 100000 <= Rabs K2). { assert (EK : IZR k * ln 2 = K2 * ln 10) by (unfold K2; field; lra). assert (EA : Rabs (IZR k * ln 2) = Rabs (K2 * ln 10)) by now rewrite EK. rewrite !Rabs_mult, (Rabs_pos_eq (ln 2)), (Rabs_pos_eq (ln 10)) in EA by lra. nra. }
  assert (GC : Rabs (c10 * lG cl64 F - c10 * L) <= 48 / 10000 / 9007199254740992). { rewrite <- Rmult_minus_distr_l, Rabs_mult, (Rabs_pos_eq c10) by (unfold c10; lra). change (2 ^ 57)%Z with (16 * 9007199254740992)%Z in G1. rewrite mult_IZR in G1. assert (c10 <= 4343 / 10000) by (unfold c10; lra). assert (0 <= c10) by (unfold c10; lra). pose proof (Rabs_pos (lG cl64 F - L)). assert (Rabs (lG cl64 F - L) <= 1075 / 100000 / 9007199254740992) by nra. nra. }
  assert (SX : Rabs (S - (K2 + X)) <= 1291 / 10000 / 9007199254740992 + 48 / 10000 / 9007199254740992).
  { replace (S - (K2 + X)) with ((VL - R) + (c10 * lG cl64 F - c10 * L) + (c10 * L - X) + (IZR k * d10 - K2)) by (rewrite ER; unfold S, d10; ring). eapply Rle_trans; [apply Rabs_triang|]. pose proof (Rabs_triang ((VL - R) + (c10 * lG cl64 F - c10 * L)) (c10 * L - X)). change (2 ^ 69)%Z with (9007199254740992 * 65536)%Z in DN. rewrite mult_IZR in DN. pose proof (Rabs_triang (VL - R) (c10 * lG cl64 F - c10 * L)).
    change (2 ^ 79)%Z with (9007199254740992 * 67108864)%Z in CN. rewrite mult_IZR in CN. lra. }
  assert (TL : 1504 / 10000 <= Rabs (K2 + X)). { pose proof (Rabs_triang_inv K2 (- X)) as Q. rewrite Rabs_Ropp in Q. replace (K2 - - X) with (K2 + X) in Q by ring. lra. }
  change (bpow radix2 (- mw f64)) with (/ 4503599627370496). 
  assert (SB : Rabs S <= Rabs (K2 + X) + / 1000000). { replace S with ((S - (K2 + X)) + (K2 + X)) by ring. eapply Rle_trans; [apply Rabs_triang|]. lra. }
  replace (val f64 r - (K2 + X)) with ((val f64 r - S) + (S - (K2 + X))) by ring. eapply Rle_trans; [apply Rabs_triang|]. lra.
Qed.

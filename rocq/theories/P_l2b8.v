(** log10f: the two branches. *)
From Coq Require Import ZArith Reals Lia Lra Bool List Psatz.
From Flocq Require Import Core.
From Verif Require Import Base Spec SpecFun2 SpecLog SpecLog2 Format P_format Ieee P_ieee P_real P_neg P_lit P_err P_scalbn P_apx P_poly P_poly2 P_poly3 P_powt P_powt8 P_taylor P_expa1 P_expa2 P_expa3 P_expa4 P_expa5 P_expa7 P_expa8 P_expa9 P_lga1 P_lga2 P_lga3 P_lga5 P_lgb3 P_lgb4 P_lgb5 P_l2a1 P_l2a2 P_l2a3 P_l2a4 P_l2a5 P_l2a6 P_l2a8 P_l2b2 P_l2b3 P_l2b5 P_l2b6 M_log.
Import ListNotations.
Open Scope R_scope.
Local Opaque fadd fsub fmul fdiv of_int.

Definition vh10f (f : Z) : Z := fmul f32 (hi32 f) rs_log10f_IVLN10HI.
Definition vl10f (d f : Z) : Z := fadd f32 (fadd f32 d (fmul f32 (fadd f32 (lo32 f) (hi32 f)) rs_log10f_IVLN10LO)) (fmul f32 (lo32 f) rs_log10f_IVLN10HI).
Definition dl10f (k : Z) : Z := fmul f32 (of_int f32 k) rs_log10f_LOG10_2LO.
Definition y10f (k : Z) : Z := fmul f32 (of_int f32 k) rs_log10f_LOG10_2HI.
Lemma ivh10f : finite f32 rs_log10f_IVLN10HI = true /\ val f32 rs_log10f_IVLN10HI = IZR 1779 * bpow radix2 (-12) /\ val f32 rs_log10f_IVLN10HI = 1779 / 4096.
Proof. assert (V : val f32 rs_log10f_IVLN10HI = 1779 / 4096) by (rewrite (val_lit f32 rs_log10f_IVLN10HI 1779 4096) by (vm_compute; reflexivity); reflexivity). split; [reflexivity|]. split; [|exact V]. rewrite V. change (bpow radix2 (-12)) with (/ 4096). lra. Qed.
Lemma l2h10f : finite f32 rs_log10f_LOG10_2HI = true /\ val f32 rs_log10f_LOG10_2HI = IZR 78913 * bpow radix2 (-18).
Proof. split; [reflexivity|]. rewrite (val_lit f32 rs_log10f_LOG10_2HI 78913 262144) by (vm_compute; reflexivity). change (bpow radix2 (-18)) with (/ 262144). lra. Qed.
Definition c10f : R := 1779 / 4096 + -8710873 / 274877906944.
Definition d10f : R := 78913 / 262144 + 13903835 / 17592186044416.
Lemma ln10_bf : Rabs (c10f * ln 10 - 1) <= / IZR (2 ^ 39) /\ Rabs (d10f * ln 10 - ln 2) <= / IZR (2 ^ 40).
Proof.
  destruct ln10_b as (A & B & C). pose proof ln2_b as H. apply Rabs_le_inv in A, B, H. change (2 ^ 80)%Z with 1208925819614629174706176%Z in A, B. change (2 ^ 86)%Z with 77371252455336267181195264%Z in H. change (2 ^ 39)%Z with 549755813888%Z. change (2 ^ 40)%Z with 1099511627776%Z. unfold c10, d10 in A, B. unfold c10f, d10f.
  split; apply Rabs_le; lra.
Qed.
Lemma c10_nearf L : Rabs (c10f * L - L / ln 10) <= Rabs L * / IZR (2 ^ 39).
Proof.
  destruct ln10_bf as (B & _). destruct ln10_b as (_ & _ & T). replace (c10f * L - L / ln 10) with (L * (c10f - 1 / ln 10)) by (field; lra). rewrite Rabs_mult. apply Rmult_le_compat_l; [apply Rabs_pos|]. apply (inv_near c10f (ln 10) 1); [lra|]. exact B.
Qed.
Lemma d10_nearf k : (Z.abs k <= 151)%Z -> Rabs (IZR k * d10f - IZR k * ln 2 / ln 10) <= / IZR (2 ^ 32).
Proof.
  intros Hk. destruct ln10_bf as (_ & B). destruct ln10_b as (_ & _ & T). replace (IZR k * d10f - IZR k * ln 2 / ln 10) with (IZR k * (d10f - ln 2 / ln 10)) by (field; lra). apply (inv_near d10f (ln 10) (ln 2)) in B; [|lra]. rewrite Rabs_mult.
  assert (KA : Rabs (IZR k) <= 151) by (rewrite <- abs_IZR; apply IZR_le; lia). change (2 ^ 40)%Z with 1099511627776%Z in B. change (2 ^ 32)%Z with 4294967296%Z. pose proof (Rabs_pos (IZR k)). pose proof (Rabs_pos (d10f - ln 2 / ln 10)). apply Rle_trans with (151 * / 1099511627776); [apply Rmult_le_compat; assumption|lra].
Qed.
Lemma log10_k0f f y : isbits f32 f -> finite f32 f = true -> finite f32 y = true -> val f32 y = 0 -> bpow radix2 (-60) <= Rabs (val f32 f) -> -2930 / 10000 <= val f32 f <= 41425 / 100000 ->
  rel_err f32 (3 / 2) (ln (1 + val f32 f) / ln 10) (two32 y (vh10f f) (vl10f 0 f)).
Proof.
  intros Bf Ff Fy Vy Lo Hf. destruct (ker2f f Bf Ff Lo Hf) as (HS & AH & AL & _ & _ & HT). set (F := val f32 f) in *. set (s := Rabs F) in *. set (H := val f32 (hi32 f)) in *. assert (S0 : 0 < s) by apply HS. assert (S1 : s <= 41425 / 100000) by (apply Rabs_le; lra).
  destruct ivh10f as (Fc & Vc & Vc'). destruct (hi_mulf f _ _ _ Bf Ff Lo Hf Fc Vc ltac:(vm_compute; reflexivity) ltac:(split; vm_compute; discriminate)) as (Bh & Fh & Vh). { rewrite Vc', Rabs_pos_eq; lra. }
  change (fmul f32 (hi32 f) rs_log10f_IVLN10HI) with (vh10f f) in *. change (val f32 (hi32 f)) with H in Vh. rewrite Vc' in Vh.
  assert (AZ : AP f32 s 0 0 (0, 0, 0)%Z). { split; [split; [split; vm_compute; (reflexivity || discriminate)|reflexivity]|]. rewrite fxr_0. split; [lra|]. rewrite (val_zero f32 false : val f32 0 = 0). rewrite Rmult_0_r, Rminus_0_r, Rabs_R0. lra. }
  apy f32 s (fadd f32 (fadd f32 0 (fmul f32 (fadd f32 (lo32 f) (hi32 f)) rs_log10f_IVLN10LO)) (fmul f32 (lo32 f) rs_log10f_IVLN10HI)) K. change (fadd f32 (fadd f32 0 (fmul f32 (fadd f32 (lo32 f) (hi32 f)) rs_log10f_IVLN10LO)) (fmul f32 (lo32 f) rs_log10f_IVLN10HI)) with (vl10f 0 f) in K.
  eapply (AP_wk _ _ _ _ _ _ _ (20 * 2 ^ 170)) in K; [|exact S0|vm_compute; reflexivity]. destruct K as ((Bl & Fl) & KR & KV).
  assert (RB : Rabs ((lG cl32 F - H) / s) <= 25 / 512). { destruct AL as (_ & A2 & _). rewrite fxr_opp, fxr_mulZ in A2. change (2 ^ 191)%Z with (2 ^ (200 - 9))%Z in A2. rewrite fxr2 in A2 by lia. change (2 ^ 9)%Z with 512%Z in A2. apply Rabs_le. lra. }
  assert (RH : Rabs (H / s) <= 5 / 4). { destruct AH as (_ & A2 & _). rewrite fxr_opp, fxr_mulZ in A2. change (2 ^ 198)%Z with (2 ^ (200 - 2))%Z in A2. rewrite fxr2 in A2 by lia. change (2 ^ 2)%Z with 4%Z in A2. apply Rabs_le. lra. }
  set (b := (lG cl32 F - H) / s) in *. set (h := H / s) in *. assert (EB : s * b = lG cl32 F - H) by (unfold b; field; lra). assert (EH : s * h = H) by (unfold h; field; lra).
  match type of KV with Rabs (_ - s * ?e) <= _ => set (R := e) in * end.
  assert (ER : s * R = c10f * lG cl32 F - H * (1779 / 4096)). { unfold R, c10f. replace (lG cl32 F) with (s * b + s * h) by lra. rewrite <- EH. field. }
  rewrite ER in KV. rewrite fxr_mulZ in KV. change (2 ^ 170)%Z with (2 ^ (200 - 30))%Z in KV. rewrite fxr2 in KV by lia. change (2 ^ 30)%Z with (64 * 16777216)%Z in KV. rewrite mult_IZR in KV.
  assert (RR : Rabs R <= 7 / 100) by (unfold R; apply Rabs_le; apply Rabs_le_inv in RB, RH; lra).
  assert (VLb : Rabs (val f32 (vl10f 0 f)) <= 1). { replace (val f32 (vl10f 0 f)) with ((val f32 (vl10f 0 f) - (c10f * lG cl32 F - H * (1779 / 4096))) + s * R) by (rewrite ER; ring). eapply Rle_trans; [apply Rabs_triang|]. rewrite Rabs_mult, (Rabs_pos_eq s) by lra. nra. }
  assert (VHb : Rabs (val f32 (vh10f f)) <= 1). { rewrite Vh, <- EH. rewrite !Rabs_mult, (Rabs_pos_eq s), (Rabs_pos_eq (1779 / 4096)) by lra. pose proof (Rabs_pos h). nra. }
  destruct (two_tail0f y (vh10f f) (vl10f 0 f) Fy Vy Fh Fl VHb VLb) as (Br & Fr & Vr). split; [exact Br|]. split; [exact Fr|]. set (r := two32 y (vh10f f) (vl10f 0 f)) in *. rewrite Vh in Vr. set (VL := val f32 (vl10f 0 f)) in *.
  pose proof (rndF_abs f32 (H * (1779 / 4096) + VL)) as EE. rewrite <- Vr in EE. change (bpow radix2 (- pr f32)) with (/ 16777216) in EE. set (S := H * (1779 / 4096) + VL) in *.
  assert (TN : bpow radix2 (emin f32 - 1) <= s * (/ 16777216 / 1000)). { apply Rle_trans with (bpow radix2 (-60) * bpow radix2 (-80)); [rewrite <- bpow_plus; apply bpow_le; vm_compute; discriminate|]. change (bpow radix2 (-80)) with (/ 1208925819614629174706176). apply Rmult_le_compat; try apply bpow_ge_0; lra. }
  set (L := ln (1 + F)) in *. destruct (ln_lowf F (F / (2 + F)) eq_refl Hf) as [I1 I2]. destruct (log_G32 F ltac:(lra)) as [G1 G2]. fold L in G1, I2. fold s in I1. set (i := Rabs (F / (2 + F))) in *. assert (I0 : 0 <= i) by apply Rabs_pos.
  pose proof (c10_nearf L) as CN. destruct ln10_b as (_ & _ & LN). set (X := L / ln 10) in *. assert (EX : L = X * ln 10) by (unfold X; field; lra).
  assert (XL : s * (359 / 1000) <= Rabs X). { rewrite EX, Rabs_mult, (Rabs_pos_eq (ln 10)) in I2 by lra. change (2 ^ 33)%Z with 8589934592%Z in I2. assert (s * (41420 / 100000) <= i) by nra. pose proof (Rabs_pos X). nra. }
  assert (LB : Rabs L <= 2 * s). { assert (i <= s) by nra. assert (Rabs (lG cl32 F) <= 13 / 10 * s). { replace (lG cl32 F) with (s * b + s * h) by lra. eapply Rle_trans; [apply Rabs_triang|]. rewrite !Rabs_mult, (Rabs_pos_eq s) by lra. nra. } replace L with (lG cl32 F - (lG cl32 F - L)) by ring. unfold Rminus at 1. eapply Rle_trans; [apply Rabs_triang|]. rewrite Rabs_Ropp. change (2 ^ 33)%Z with 8589934592%Z in G1. nra. }
  assert (GC : Rabs (c10f * lG cl32 F - c10f * L) <= s * (16 / 1000 / 16777216)). { rewrite <- Rmult_minus_distr_l, Rabs_mult, (Rabs_pos_eq c10f) by (unfold c10f; lra). change (2 ^ 33)%Z with (512 * 16777216)%Z in G1. rewrite mult_IZR in G1. assert (i <= s * (586 / 1000)) by nra. assert (c10f <= 4343 / 10000) by (unfold c10f; lra). assert (0 <= c10f) by (unfold c10f; lra). pose proof (Rabs_pos (lG cl32 F - L)). nra. }
  assert (SX : Rabs (S - X) <= s * (332 / 1000 / 16777216)).
  { replace (S - X) with ((VL - (c10f * lG cl32 F - H * (1779 / 4096))) + (c10f * lG cl32 F - c10f * L) + (c10f * L - X)) by (unfold S; ring). eapply Rle_trans; [apply Rabs_triang|]. pose proof (Rabs_triang (VL - (c10f * lG cl32 F - H * (1779 / 4096))) (c10f * lG cl32 F - c10f * L)).
    change (2 ^ 39)%Z with (16777216 * 32768)%Z in CN. rewrite mult_IZR in CN. lra. }
  change (bpow radix2 (- mw f32)) with (/ 8388608). 
  assert (SB : Rabs S <= Rabs X + s / 1000). { replace S with ((S - X) + X) by ring. eapply Rle_trans; [apply Rabs_triang|]. lra. }
  replace (val f32 r - X) with ((val f32 r - S) + (S - X)) by ring. eapply Rle_trans; [apply Rabs_triang|]. lra.
Qed.
Lemma log10_knf f k : isbits f32 f -> finite f32 f = true -> (val f32 f <> 0 -> bpow radix2 (-60) <= Rabs (val f32 f)) -> -2930 / 10000 <= val f32 f <= 41425 / 100000 -> 4999 / 10000 <= (1 + val f32 f) * (1 + val f32 f) <= 20002 / 10000 -> (1 <= Z.abs k <= 151)%Z ->
  rel_err f32 (3 / 2) (IZR k * ln 2 / ln 10 + ln (1 + val f32 f) / ln 10) (two32 (y10f k) (vh10f f) (vl10f (dl10f k) f)).
Proof.
  intros Bf Ff Lo Hf Hq Hk. destruct (ker2_1f f Bf Ff Lo Hf) as (AH & AL & HT & HM). set (F := val f32 f) in *. set (H := val f32 (hi32 f)) in *.
  destruct ivh10f as (Fc & Vc & Vc'). destruct (HM _ _ _ Fc Vc ltac:(vm_compute; reflexivity) ltac:(split; vm_compute; discriminate)) as (Bh & Fh & Vh). { rewrite Vc', Rabs_pos_eq; lra. }
  change (fmul f32 (hi32 f) rs_log10f_IVLN10HI) with (vh10f f) in *. rewrite Vc' in Vh.
  destruct (of_int_small f32 k ltac:(vm_compute; discriminate) ltac:(vm_compute; reflexivity) ltac:(lia)) as (Bk & Fk & Vk).
  assert (KA : 1 <= Rabs (IZR k) <= 151) by (rewrite <- abs_IZR; split; apply IZR_le; lia).
  assert (AK : AP f32 1 (of_int f32 k) (IZR k) (- (151 * SC), 151 * SC, 0)%Z). { split; [now split|]. split; [|rewrite Vk, Rmult_1_l; unfold Rminus; rewrite Rplus_opp_r, Rabs_R0, fxr_0; lra]. rewrite fxr_opp, fxr_SC. destruct KA as [_ KA]. apply Rabs_le_inv in KA. lra. }
   apy f32 1 (fadd f32 (fadd f32 (fmul f32 (of_int f32 k) rs_log10f_LOG10_2LO) (fmul f32 (fadd f32 (lo32 f) (hi32 f)) rs_log10f_IVLN10LO)) (fmul f32 (lo32 f) rs_log10f_IVLN10HI)) K. change (fadd f32 (fadd f32 (fmul f32 (of_int f32 k) rs_log10f_LOG10_2LO) (fmul f32 (fadd f32 (lo32 f) (hi32 f)) rs_log10f_IVLN10LO)) (fmul f32 (lo32 f) rs_log10f_IVLN10HI)) with (vl10f (dl10f k) f) in K.
  eapply (AP_wk _ _ _ _ _ _ _ (133 * 2 ^ 166)) in K; [|lra|vm_compute; reflexivity]. destruct K as ((Bl & Fl) & KR & KV). rewrite !Rmult_1_l in KV.
  assert (RB : Rabs (lG cl32 F - H) <= 21 / 1024). { destruct AL as (_ & A2 & _). rewrite fxr_opp, fxr_mulZ in A2. change (2 ^ 190)%Z with (2 ^ (200 - 10))%Z in A2. rewrite fxr2 in A2 by lia. change (2 ^ 10)%Z with 1024%Z in A2. apply Rabs_le. lra. }
  pose proof (hi_smallf F H Hf HT) as RH.
  match type of KV with Rabs (_ - ?e) <= _ => set (R := e) in * end. assert (ER : R = IZR k * (13903835 / 17592186044416) + (c10f * lG cl32 F - H * (1779 / 4096))) by (unfold R, c10f; field).
  rewrite fxr_mulZ in KV. change (2 ^ 166)%Z with (2 ^ (200 - 34))%Z in KV. rewrite fxr2 in KV by lia. change (2 ^ 34)%Z with (1024 * 16777216)%Z in KV. rewrite mult_IZR in KV.
  assert (RR : Rabs R <= 91 / 10000) by (unfold R; destruct KA as [_ KA]; apply Rabs_le; apply Rabs_le_inv in RB, RH, KA; lra).
  assert (VLb : Rabs (val f32 (vl10f (dl10f k) f)) <= 92 / 10000). { replace (val f32 (vl10f (dl10f k) f)) with ((val f32 (vl10f (dl10f k) f) - R) + R) by ring. eapply Rle_trans; [apply Rabs_triang|]. lra. }
  assert (VHb : Rabs (val f32 (vh10f f)) <= 147 / 1000). { rewrite Vh, Rabs_mult, (Rabs_pos_eq (1779 / 4096)) by lra. lra. }
  destruct l2h10f as [F2 V2]. destruct (kc_exact f32 rs_log10f_LOG10_2HI k _ _ 151 ltac:(vm_compute; discriminate) ltac:(vm_compute; reflexivity) F2 V2 ltac:(lia) ltac:(vm_compute; reflexivity) ltac:(split; vm_compute; discriminate) ltac:(vm_compute; discriminate)) as (By & Fy & Vy). change (fmul f32 (of_int f32 k) rs_log10f_LOG10_2HI) with (y10f k) in *.
  assert (Vy' : val f32 (y10f k) = IZR k * (78913 / 262144)) by (rewrite Vy, mult_IZR; change (bpow radix2 (-18)) with (/ 262144); field).
  assert (YA : 30102 / 100000 <= Rabs (val f32 (y10f k)) <= 200) by (rewrite Vy', Rabs_mult, (Rabs_pos_eq (78913 / 262144)) by lra; lra).
  destruct (two_tailf (y10f k) (vh10f f) (vl10f (dl10f k) f) Fy Fh Fl) as (Br & Fr & Vr); [lra|lra|lra|].
  split; [exact Br|]. split; [exact Fr|]. set (r := two32 (y10f k) (vh10f f) (vl10f (dl10f k) f)) in *. rewrite Vy', Vh in Vr. set (VL := val f32 (vl10f (dl10f k) f)) in *. set (S := IZR k * (78913 / 262144) + H * (1779 / 4096) + VL) in *. 
  pose proof (ln_half F Hf Hq) as HL. set (L := ln (1 + F)) in *. destruct (log_G32 F ltac:(lra)) as [G1 G2]. fold L in G1. set (i := Rabs (F / (2 + F))) in *. assert (I0 : 0 <= i) by apply Rabs_pos.
  pose proof (c10_nearf L) as CN. destruct ln10_b as (_ & _ & LN). pose proof ln2_c as LN2. set (X := L / ln 10) in *. assert (EX : L = X * ln 10) by (unfold X; field; lra).
  assert (XL : Rabs X <= 15058 / 100000). { rewrite EX, Rabs_mult, (Rabs_pos_eq (ln 10)) in HL by lra. pose proof (Rabs_pos X). nra. }
  pose proof (d10_nearf k (proj2 Hk)) as DN. set (K2 := IZR k * ln 2 / ln 10) in *. 
  assert (KL : 30102 / 100000 <= Rabs K2). { assert (EK : IZR k * ln 2 = K2 * ln 10) by (unfold K2; field; lra). assert (EA : Rabs (IZR k * ln 2) = Rabs (K2 * ln 10)) by now rewrite EK. rewrite !Rabs_mult, (Rabs_pos_eq (ln 2)), (Rabs_pos_eq (ln 10)) in EA by lra. nra. }
  assert (GC : Rabs (c10f * lG cl32 F - c10f * L) <= 48 / 10000 / 16777216). { rewrite <- Rmult_minus_distr_l, Rabs_mult, (Rabs_pos_eq c10f) by (unfold c10f; lra). change (2 ^ 33)%Z with (512 * 16777216)%Z in G1. rewrite mult_IZR in G1. assert (c10f <= 4343 / 10000) by (unfold c10f; lra). assert (0 <= c10f) by (unfold c10f; lra). pose proof (Rabs_pos (lG cl32 F - L)). assert (Rabs (lG cl32 F - L) <= 1075 / 100000 / 16777216) by nra. nra. }
  assert (SX : Rabs (S - (K2 + X)) <= 1343 / 10000 / 16777216 + 48 / 10000 / 16777216).
  { replace (S - (K2 + X)) with ((VL - R) + (c10f * lG cl32 F - c10f * L) + (c10f * L - X) + (IZR k * d10f - K2)) by (rewrite ER; unfold S, d10f; ring). eapply Rle_trans; [apply Rabs_triang|]. pose proof (Rabs_triang ((VL - R) + (c10f * lG cl32 F - c10f * L)) (c10f * L - X)). change (2 ^ 32)%Z with (16777216 * 256)%Z in DN. rewrite mult_IZR in DN. pose proof (Rabs_triang (VL - R) (c10f * lG cl32 F - c10f * L)).
    change (2 ^ 39)%Z with (16777216 * 32768)%Z in CN. rewrite mult_IZR in CN. lra. }
  assert (TL : 1504 / 10000 <= Rabs (K2 + X)). { pose proof (Rabs_triang_inv K2 (- X)) as Q. rewrite Rabs_Ropp in Q. replace (K2 - - X) with (K2 + X) in Q by ring. lra. }
  change (bpow radix2 (- mw f32)) with (/ 8388608). 
  assert (SB : Rabs S <= Rabs (K2 + X) + / 1000000). { replace S with ((S - (K2 + X)) + (K2 + X)) by ring. eapply Rle_trans; [apply Rabs_triang|]. lra. }
  assert (AB : Rabs (VL + H * (1779 / 4096)) <= 1508 / 10000). { replace (VL + H * (1779 / 4096)) with ((S - (K2 + X)) + X - (IZR k * d10f - K2) + IZR k * (13903835 / 17592186044416)) by (unfold S, d10f; ring). destruct KA as [_ KA]. apply Rabs_le_inv in KA, SX, XL, DN. apply Rabs_le. lra. }
  replace (val f32 r - (K2 + X)) with ((val f32 r - S) + (S - (K2 + X))) by ring. eapply Rle_trans; [apply Rabs_triang|]. lra.
Qed.

(** log2, f64: the two branches. *)
From Coq Require Import ZArith Reals Lia Lra Bool List Psatz.
From Flocq Require Import Core.
From Verif Require Import Base Spec SpecFun2 SpecLog Format P_format Ieee P_ieee P_real P_neg P_lit P_err P_scalbn P_apx P_poly P_poly2 P_poly3 P_powt P_powt8 P_taylor P_expa1 P_expa2 P_expa3 P_expa4 P_expa5 P_expa7 P_expa8 P_expa9 P_lga1 P_lga2 P_lga3 P_lga4 P_lga5 P_l2a1 P_l2a2 P_l2a3 P_l2a4 P_l2a5 M_log.
Import ListNotations.
Open Scope R_scope.
Local Opaque fadd fsub fmul fdiv of_int.

Definition vh2 (f : Z) : Z := fmul f64 (hi64 f) rs_log2_IVLN2HI.
Definition vl2 (f : Z) : Z := fadd f64 (fmul f64 (fadd f64 (lo64 f) (hi64 f)) rs_log2_IVLN2LO) (fmul f64 (lo64 f) rs_log2_IVLN2HI).
Lemma ivh2 : finite f64 rs_log2_IVLN2HI = true /\ val f64 rs_log2_IVLN2HI = IZR 3098164009 * bpow radix2 (-31) /\ val f64 rs_log2_IVLN2HI = 3098164009 / 2147483648.
Proof. assert (V : val f64 rs_log2_IVLN2HI = 3098164009 / 2147483648) by (rewrite (val_lit f64 rs_log2_IVLN2HI 3098164009 2147483648) by (vm_compute; reflexivity); reflexivity). split; [reflexivity|]. split; [|exact V]. rewrite V. change (bpow radix2 (-31)) with (/ 2147483648). lra. Qed.

Definition c2 : R := 3098164009 / 2147483648 + 6480505141699072 / 38685626227668133590597632.
Lemma c2_b : Rabs (c2 * ln 2 - 1) <= / IZR (2 ^ 80).
Proof. pose proof ln2_b as H. apply Rabs_le_inv in H. change (2 ^ 86)%Z with 77371252455336267181195264%Z in H. change (2 ^ 80)%Z with 1208925819614629174706176%Z. unfold c2. apply Rabs_le. lra. Qed.
(** the conversion constant *)
Lemma c2_near L : Rabs (c2 * L - L / ln 2) <= Rabs L * / IZR (2 ^ 79).
Proof.
  pose proof c2_b as B. pose proof ln2_c as LN. replace (c2 * L - L / ln 2) with (L * ((c2 * ln 2 - 1) * / ln 2)) by (field; lra). rewrite Rabs_mult. apply Rmult_le_compat_l; [apply Rabs_pos|]. rewrite Rabs_mult, (Rabs_pos_eq (/ ln 2)) by (left; apply Rinv_0_lt_compat; lra).
  assert (I : / ln 2 <= 2). { apply Rmult_le_reg_r with (ln 2); [lra|]. rewrite Rinv_l; lra. } assert (0 < / ln 2) by (apply Rinv_0_lt_compat; lra). pose proof (Rabs_pos (c2 * ln 2 - 1)). change (2 ^ 80)%Z with 1208925819614629174706176%Z in B. change (2 ^ 79)%Z with 604462909807314587353088%Z. nra.
Qed.
Lemma ln_low F i : i = F / (2 + F) -> -2930 / 10000 <= F <= 41425 / 100000 -> Rabs i * (2 + F) = Rabs F /\ 2 * Rabs i - Rabs i * / IZR (2 ^ 57) <= Rabs (ln (1 + F)).
Proof.
  intros Ei Hf. destruct (log_G64 F ltac:(lra)) as [G1 G2]. rewrite <- Ei in G1, G2. assert (I : Rabs i * (2 + F) = Rabs F). { rewrite Ei. rewrite <- (Rabs_pos_eq (2 + F)) at 2 by lra. rewrite <- Rabs_mult. f_equal. field. lra. } split; [exact I|].
  assert (PP : 0 <= peval cl64 (i * i)) by (apply peval_pos; [vm_compute; reflexivity|nra]).
  assert (2 * Rabs i <= Rabs (lG cl64 F)). { rewrite lG_eq by lra. rewrite <- Ei. rewrite Rabs_mult, (Rabs_pos_eq (2 + _)) by lra. pose proof (Rabs_pos i). nra. }
  pose proof (Rabs_triang_inv (lG cl64 F) (lG cl64 F - ln (1 + F))) as T. replace (lG cl64 F - (lG cl64 F - ln (1 + F))) with (ln (1 + F)) in T by ring. lra.
Qed.
Lemma log2_k0 f y : isbits f64 f -> finite f64 f = true -> finite f64 y = true -> val f64 y = 0 -> bpow radix2 (-60) <= Rabs (val f64 f) -> -2930 / 10000 <= val f64 f <= 41425 / 100000 ->
  rel_eps f64 (ln (1 + val f64 f) / ln 2) (two64 y (vh2 f) (vl2 f)).
Proof.
  intros Bf Ff Fy Vy Lo Hf. destruct (ker2 f Bf Ff Lo Hf) as (HS & AH & AL & _ & _ & HT). set (F := val f64 f) in *. set (s := Rabs F) in *. set (H := val f64 (hi64 f)) in *. assert (S0 : 0 < s) by apply HS. assert (S1 : s <= 41425 / 100000) by (apply Rabs_le; lra).
  destruct ivh2 as (Fc & Vc & Vc'). destruct (hi_mul f _ _ _ Bf Ff Lo Hf Fc Vc ltac:(vm_compute; reflexivity) ltac:(split; vm_compute; discriminate)) as (Bh & Fh & Vh). { rewrite Vc', Rabs_pos_eq; lra. }
  change (fmul f64 (hi64 f) rs_log2_IVLN2HI) with (vh2 f) in *. change (val f64 (hi64 f)) with H in Vh. rewrite Vc' in Vh.
  apy f64 s (fadd f64 (fmul f64 (fadd f64 (lo64 f) (hi64 f)) rs_log2_IVLN2LO) (fmul f64 (lo64 f) rs_log2_IVLN2HI)) K. change (fadd f64 (fmul f64 (fadd f64 (lo64 f) (hi64 f)) rs_log2_IVLN2LO) (fmul f64 (lo64 f) rs_log2_IVLN2HI)) with (vl2 f) in K.
  eapply (AP_wk _ _ _ _ _ _ _ (66 * 2 ^ 141)) in K; [|exact S0|vm_compute; reflexivity]. destruct K as ((Bl & Fl) & KR & KV).
  assert (RB : Rabs ((lG cl64 F - H) / s) <= 3 / 64). { destruct AL as (_ & A2 & _). rewrite fxr_opp, fxr_mulZ in A2. change (2 ^ 194)%Z with (2 ^ (200 - 6))%Z in A2. rewrite fxr2 in A2 by lia. change (2 ^ 6)%Z with 64%Z in A2. apply Rabs_le. lra. }
  assert (RH : Rabs (H / s) <= 5 / 4). { destruct AH as (_ & A2 & _). rewrite fxr_opp, fxr_mulZ in A2. change (2 ^ 198)%Z with (2 ^ (200 - 2))%Z in A2. rewrite fxr2 in A2 by lia. change (2 ^ 2)%Z with 4%Z in A2. apply Rabs_le. lra. }
  set (b := (lG cl64 F - H) / s) in *. set (h := H / s) in *. assert (EB : s * b = lG cl64 F - H) by (unfold b; field; lra). assert (EH : s * h = H) by (unfold h; field; lra).
  match type of KV with Rabs (_ - s * ?e) <= _ => set (R := e) in * end.
  assert (ER : s * R = c2 * lG cl64 F - H * (3098164009 / 2147483648)). { unfold R, c2. replace (lG cl64 F) with (s * b + s * h) by lra. rewrite <- EH. field. }
  rewrite ER in KV. rewrite fxr_mulZ in KV. change (2 ^ 141)%Z with (2 ^ (200 - 59))%Z in KV. rewrite fxr2 in KV by lia. change (2 ^ 59)%Z with (64 * 9007199254740992)%Z in KV. rewrite mult_IZR in KV.
  assert (RR : Rabs R <= 7 / 100) by (unfold R; apply Rabs_le; apply Rabs_le_inv in RB, RH; lra).
  assert (VLb : Rabs (val f64 (vl2 f)) <= 1). { replace (val f64 (vl2 f)) with ((val f64 (vl2 f) - (c2 * lG cl64 F - H * (3098164009 / 2147483648))) + s * R) by (rewrite ER; ring). eapply Rle_trans; [apply Rabs_triang|]. rewrite Rabs_mult, (Rabs_pos_eq s) by lra. nra. }
  assert (VHb : Rabs (val f64 (vh2 f)) <= 1). { rewrite Vh, <- EH. rewrite !Rabs_mult, (Rabs_pos_eq s), (Rabs_pos_eq (3098164009 / 2147483648)) by lra. pose proof (Rabs_pos h). nra. }
  destruct (two_tail0 y (vh2 f) (vl2 f) Fy Vy Fh Fl VHb VLb) as (Br & Fr & Vr). split; [exact Br|]. split; [exact Fr|]. set (r := two64 y (vh2 f) (vl2 f)) in *. rewrite Vh in Vr. set (VL := val f64 (vl2 f)) in *.
  pose proof (rndF_abs f64 (H * (3098164009 / 2147483648) + VL)) as EE. rewrite <- Vr in EE. change (bpow radix2 (- pr f64)) with (/ 9007199254740992) in EE. set (S := H * (3098164009 / 2147483648) + VL) in *.
  assert (TN : bpow radix2 (emin f64 - 1) <= s * (/ 9007199254740992 / 1000)). { apply Rle_trans with (bpow radix2 (-60) * bpow radix2 (-64)); [rewrite <- bpow_plus; apply bpow_le; vm_compute; discriminate|]. change (bpow radix2 (-64)) with (/ 18446744073709551616). apply Rmult_le_compat; try apply bpow_ge_0; lra. }
  set (L := ln (1 + F)) in *. destruct (ln_low F (F / (2 + F)) eq_refl Hf) as [I1 I2]. destruct (log_G64 F ltac:(lra)) as [G1 G2]. fold L in G1, I2. fold s in I1. set (i := Rabs (F / (2 + F))) in *. assert (I0 : 0 <= i) by apply Rabs_pos.
  pose proof (c2_near L) as CN. pose proof ln2_c as LN. set (X := L / ln 2) in *. assert (EX : L = X * ln 2) by (unfold X; field; lra).
  assert (XL : s * (119 / 100) <= Rabs X). { rewrite EX, Rabs_mult, (Rabs_pos_eq (ln 2)) in I2 by lra. change (2 ^ 57)%Z with 144115188075855872%Z in I2. assert (s * (41420 / 100000) <= i) by nra. pose proof (Rabs_pos X). nra. }
  assert (LB : Rabs L <= 2 * s). { assert (i <= s) by nra. assert (Rabs (lG cl64 F) <= 13 / 10 * s). { replace (lG cl64 F) with (s * b + s * h) by lra. eapply Rle_trans; [apply Rabs_triang|]. rewrite !Rabs_mult, (Rabs_pos_eq s) by lra. nra. } replace L with (lG cl64 F - (lG cl64 F - L)) by ring. unfold Rminus at 1. eapply Rle_trans; [apply Rabs_triang|]. rewrite Rabs_Ropp. change (2 ^ 57)%Z with 144115188075855872%Z in G1. nra. }
  assert (GC : Rabs (c2 * lG cl64 F - c2 * L) <= s * (54 / 1000 / 9007199254740992)). { rewrite <- Rmult_minus_distr_l, Rabs_mult, (Rabs_pos_eq c2) by (unfold c2; lra). change (2 ^ 57)%Z with (16 * 9007199254740992)%Z in G1. rewrite mult_IZR in G1. assert (i <= s * (586 / 1000)) by nra. assert (c2 <= 14427 / 10000) by (unfold c2; lra). assert (0 <= c2) by (unfold c2; lra). pose proof (Rabs_pos (lG cl64 F - L)). nra. }
  assert (SX : Rabs (S - X) <= s * (112 / 100 / 9007199254740992)).
  { replace (S - X) with ((VL - (c2 * lG cl64 F - H * (3098164009 / 2147483648))) + (c2 * lG cl64 F - c2 * L) + (c2 * L - X)) by (unfold S; ring). eapply Rle_trans; [apply Rabs_triang|]. pose proof (Rabs_triang (VL - (c2 * lG cl64 F - H * (3098164009 / 2147483648))) (c2 * lG cl64 F - c2 * L)).
    change (2 ^ 79)%Z with (9007199254740992 * 67108864)%Z in CN. rewrite mult_IZR in CN. lra. }
  change (bpow radix2 (- mw f64)) with (/ 4503599627370496). 
  assert (SB : Rabs S <= Rabs X + s / 1000). { replace S with ((S - X) + X) by ring. eapply Rle_trans; [apply Rabs_triang|]. lra. }
  replace (val f64 r - X) with ((val f64 r - S) + (S - X)) by ring. eapply Rle_trans; [apply Rabs_triang|]. lra.
Qed.
Lemma hi_small F H : -2930 / 10000 <= F <= 41425 / 100000 -> Rabs (H - (F - F * F / 2)) <= / 500000 -> Rabs H <= 336 / 1000.
Proof. intros HF HT. apply Rabs_le_inv in HT. apply Rabs_le. nra. Qed.
Lemma log2_kn f k : isbits f64 f -> finite f64 f = true -> (val f64 f <> 0 -> bpow radix2 (-60) <= Rabs (val f64 f)) -> -2930 / 10000 <= val f64 f <= 41425 / 100000 -> 4999 / 10000 <= (1 + val f64 f) * (1 + val f64 f) <= 20002 / 10000 -> (1 <= Z.abs k <= 1077)%Z ->
  rel_eps f64 (IZR k + ln (1 + val f64 f) / ln 2) (two64 (of_int f64 k) (vh2 f) (vl2 f)).
Proof.
  intros Bf Ff Lo Hf Hq Hk. destruct (ker2_1 f Bf Ff Lo Hf) as (AH & AL & HT & HM). set (F := val f64 f) in *. set (H := val f64 (hi64 f)) in *.
  destruct ivh2 as (Fc & Vc & Vc'). destruct (HM _ _ _ Fc Vc ltac:(vm_compute; reflexivity) ltac:(split; vm_compute; discriminate)) as (Bh & Fh & Vh). { rewrite Vc', Rabs_pos_eq; lra. }
  change (fmul f64 (hi64 f) rs_log2_IVLN2HI) with (vh2 f) in *. rewrite Vc' in Vh.
  apy f64 1 (fadd f64 (fmul f64 (fadd f64 (lo64 f) (hi64 f)) rs_log2_IVLN2LO) (fmul f64 (lo64 f) rs_log2_IVLN2HI)) K. change (fadd f64 (fmul f64 (fadd f64 (lo64 f) (hi64 f)) rs_log2_IVLN2LO) (fmul f64 (lo64 f) rs_log2_IVLN2HI)) with (vl2 f) in K.
  eapply (AP_wk _ _ _ _ _ _ _ (28 * 2 ^ 141)) in K; [|lra|vm_compute; reflexivity]. destruct K as ((Bl & Fl) & KR & KV). rewrite !Rmult_1_l in KV.
  assert (RB : Rabs (lG cl64 F - H) <= 5 / 256). { destruct AL as (_ & A2 & _). rewrite fxr_opp, fxr_mulZ in A2. change (2 ^ 192)%Z with (2 ^ (200 - 8))%Z in A2. rewrite fxr2 in A2 by lia. change (2 ^ 8)%Z with 256%Z in A2. apply Rabs_le. lra. }
  pose proof (hi_small F H Hf HT) as RH.
  match type of KV with Rabs (_ - ?e) <= _ => set (R := e) in * end. assert (ER : R = c2 * lG cl64 F - H * (3098164009 / 2147483648)) by (unfold R, c2; field).
  rewrite fxr_mulZ in KV. change (2 ^ 141)%Z with (2 ^ (200 - 59))%Z in KV. rewrite fxr2 in KV by lia. change (2 ^ 59)%Z with (64 * 9007199254740992)%Z in KV. rewrite mult_IZR in KV.
  assert (RR : Rabs R <= 285 / 10000) by (unfold R; apply Rabs_le; apply Rabs_le_inv in RB, RH; lra).
  assert (VLb : Rabs (val f64 (vl2 f)) <= 286 / 10000). { replace (val f64 (vl2 f)) with ((val f64 (vl2 f) - R) + R) by ring. eapply Rle_trans; [apply Rabs_triang|]. lra. }
  assert (VHb : Rabs (val f64 (vh2 f)) <= 485 / 1000). { rewrite Vh, Rabs_mult, (Rabs_pos_eq (3098164009 / 2147483648)) by lra. lra. }
  destruct (of_int_small f64 k ltac:(vm_compute; discriminate) ltac:(vm_compute; reflexivity) ltac:(lia)) as (Bk & Fk & Vk).
  assert (KA : 1 <= Rabs (IZR k) <= 1077) by (rewrite <- abs_IZR; split; apply IZR_le; lia).
  destruct (two_tail (of_int f64 k) (vh2 f) (vl2 f) k 0 Fk Fh Fl) as (Br & Fr & Vr).
  { rewrite Vk. cbn. ring. } { lia. } { rewrite Vk. lra. } 
  { rewrite Vk. pose proof (Rabs_triang_inv (IZR k) (- val f64 (vh2 f))) as Q. rewrite Rabs_Ropp in Q. replace (IZR k - - val f64 (vh2 f)) with (IZR k + val f64 (vh2 f)) in Q by ring. lra. }
  { right. split; [lra|]. rewrite Vk. pose proof (Rabs_triang_inv (IZR k) (- val f64 (vh2 f))) as Q. rewrite Rabs_Ropp in Q. replace (IZR k - - val f64 (vh2 f)) with (IZR k + val f64 (vh2 f)) in Q by ring. lra. } { lra. }
  split; [exact Br|]. split; [exact Fr|]. set (r := two64 (of_int f64 k) (vh2 f) (vl2 f)) in *. rewrite Vk, Vh in Vr. set (VL := val f64 (vl2 f)) in *. set (S := IZR k + H * (3098164009 / 2147483648) + VL) in *. rewrite u64_eq in Vr.
  pose proof (ln_half F Hf Hq) as HL. set (L := ln (1 + F)) in *. destruct (log_G64 F ltac:(lra)) as [G1 G2]. fold L in G1. set (i := Rabs (F / (2 + F))) in *. assert (I0 : 0 <= i) by apply Rabs_pos.
  pose proof (c2_near L) as CN. pose proof ln2_c as LN. set (X := L / ln 2) in *. assert (EX : L = X * ln 2) by (unfold X; field; lra).
  assert (XL : Rabs X <= 5003 / 10000). { rewrite EX, Rabs_mult, (Rabs_pos_eq (ln 2)) in HL by lra. pose proof (Rabs_pos X). nra. }
  assert (GC : Rabs (c2 * lG cl64 F - c2 * L) <= 16 / 1000 / 9007199254740992). { rewrite <- Rmult_minus_distr_l, Rabs_mult, (Rabs_pos_eq c2) by (unfold c2; lra). change (2 ^ 57)%Z with (16 * 9007199254740992)%Z in G1. rewrite mult_IZR in G1. assert (c2 <= 14427 / 10000) by (unfold c2; lra). assert (0 <= c2) by (unfold c2; lra). pose proof (Rabs_pos (lG cl64 F - L)). assert (Rabs (lG cl64 F - L) <= 1075 / 100000 / 9007199254740992) by nra. nra. }
  assert (SX : Rabs (S - (IZR k + X)) <= 44 / 100 / 9007199254740992 * (101 / 100) + 16 / 1000 / 9007199254740992).
  { replace (S - (IZR k + X)) with ((VL - R) + (c2 * lG cl64 F - c2 * L) + (c2 * L - X)) by (rewrite ER; unfold S; ring). eapply Rle_trans; [apply Rabs_triang|]. pose proof (Rabs_triang (VL - R) (c2 * lG cl64 F - c2 * L)).
    change (2 ^ 79)%Z with (9007199254740992 * 67108864)%Z in CN. rewrite mult_IZR in CN. lra. }
  assert (TL : 4997 / 10000 <= Rabs (IZR k + X)). { pose proof (Rabs_triang_inv (IZR k) (- X)) as Q. rewrite Rabs_Ropp in Q. replace (IZR k - - X) with (IZR k + X) in Q by ring. lra. }
  change (bpow radix2 (- mw f64)) with (/ 4503599627370496). 
  assert (SB : Rabs S <= Rabs (IZR k + X) + / 1000000). { replace S with ((S - (IZR k + X)) + (IZR k + X)) by ring. eapply Rle_trans; [apply Rabs_triang|]. lra. }
  replace (val f64 r - (IZR k + X)) with ((val f64 r - S) + (S - (IZR k + X))) by ring. eapply Rle_trans; [apply Rabs_triang|]. lra.
Qed.

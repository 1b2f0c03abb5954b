(** log2f and log10f: the two branches. *)
From Coq Require Import ZArith Reals Lia Lra Bool List Psatz.
From Flocq Require Import Core.
From Verif Require Import Base Spec SpecFun2 SpecLog SpecLog2 Format P_format Ieee P_ieee P_real P_neg P_lit P_err P_scalbn P_apx P_poly P_poly2 P_poly3 P_powt P_powt8 P_taylor P_expa1 P_expa2 P_expa3 P_expa4 P_expa5 P_expa7 P_expa8 P_expa9 P_lga1 P_lga2 P_lga3 P_lga5 P_lgb3 P_lgb4 P_lgb5 P_l2a1 P_l2a2 P_l2a3 P_l2a4 P_l2a5 P_l2a6 P_l2a8 P_l2b2 P_l2b3 P_l2b5 M_log.
Import ListNotations.
Open Scope R_scope.
Local Opaque fadd fsub fmul fdiv of_int.

(** the code: (vl + vh) + y *)
Definition two32 (y vh vl : Z) : Z := fadd f32 (fadd f32 vl vh) y.
Lemma two_tailf y vh vl : finite f32 y = true -> finite f32 vh = true -> finite f32 vl = true -> Rabs (val f32 y) <= 200 -> Rabs (val f32 vh) <= 1 -> Rabs (val f32 vl) <= 1 -> let r := two32 y vh vl in let S := val f32 y + val f32 vh + val f32 vl in
  isbits f32 r /\ finite f32 r = true /\ Rabs (val f32 r - S) <= / 16777216 * (Rabs S + Rabs (val f32 vl + val f32 vh) + / 100000).
Proof.
  intros Fy Fh Fl LY LH LL r S. assert (BG : forall v, Rabs v <= 4096 -> Rabs v <= bpow radix2 (bias f32)). { intros v Hv. apply Rle_trans with (bpow radix2 12); [exact Hv|apply bpow_le; vm_compute; discriminate]. }
  assert (TN : bpow radix2 (emin f32 - 1) <= / 16777216 / 1000000000). { apply Rle_trans with (bpow radix2 (-60)); [apply bpow_le; vm_compute; discriminate|]. change (bpow radix2 (-60)) with (/ 1152921504606846976). lra. }
  assert (RA : forall v, Rabs (rnd f32 v - v) <= / 16777216 * Rabs v + / 16777216 / 1000000000). { intros v. pose proof (rndF_abs f32 v) as Q. change (bpow radix2 (- pr f32)) with (/ 16777216) in Q. lra. }
  pose proof (fadd_spec f32 vl vh Fl Fh) as RW. pose proof (Rabs_triang (val f32 vl) (val f32 vh)) as TA. destruct (rounds_fin f32 _ _ _ RW) as [Fw Vw]; [apply BG; lra|]. pose proof (RA (val f32 vl + val f32 vh)) as EW. rewrite <- Vw in EW. set (a := val f32 vl + val f32 vh) in *. set (w := fadd f32 vl vh) in *.
  assert (Wb : Rabs (val f32 w) <= 3). { replace (val f32 w) with ((val f32 w - a) + a) by ring. eapply Rle_trans; [apply Rabs_triang|]. lra. }
  pose proof (fadd_spec f32 w y Fw Fy) as RR. pose proof (Rabs_triang (val f32 w) (val f32 y)). destruct (rounds_fin f32 _ _ _ RR) as [Fr Vr]; [apply BG; lra|]. pose proof (RA (val f32 w + val f32 y)) as ER. rewrite <- Vr in ER. change (fadd f32 w y) with r in *.
  split; [exact (proj1 RR)|]. split; [exact Fr|]. assert (S1 : Rabs (val f32 w + val f32 y) <= Rabs S + / 1000000). { replace (val f32 w + val f32 y) with (S + (val f32 w - a)) by (unfold S, a; ring). eapply Rle_trans; [apply Rabs_triang|]. lra. }
  replace (val f32 r - S) with ((val f32 r - (val f32 w + val f32 y)) + (val f32 w - a)) by (unfold S, a; ring). eapply Rle_trans; [apply Rabs_triang|]. lra.
Qed.
Lemma two_tail0f y vh vl : finite f32 y = true -> val f32 y = 0 -> finite f32 vh = true -> finite f32 vl = true -> Rabs (val f32 vh) <= 1 -> Rabs (val f32 vl) <= 1 -> let r := two32 y vh vl in
  isbits f32 r /\ finite f32 r = true /\ val f32 r = rnd f32 (val f32 vh + val f32 vl).
Proof.
  intros Fy Vy Fh Fl LH LL r. pose proof (fadd_spec f32 vl vh Fl Fh) as RW. pose proof (Rabs_triang (val f32 vl) (val f32 vh)) as TA. assert (BG : forall v, Rabs v <= 4 -> Rabs v <= bpow radix2 (bias f32)). { intros v Hv. apply Rle_trans with (bpow radix2 2); [exact Hv|apply bpow_le; vm_compute; discriminate]. }
  destruct (rounds_fin f32 _ _ _ RW) as [Fw Vw]; [apply BG; lra|]. rewrite (Rplus_comm (val f32 vh)), <- Vw. unfold r, two32. apply (add_zero f32 _ y Fw Fy Vy). 
  apply BG. rewrite Vw. pose proof (rndF_abs f32 (val f32 vl + val f32 vh)) as Q. change (bpow radix2 (- pr f32)) with (/ 16777216) in Q. assert (TN : bpow radix2 (emin f32 - 1) <= / 16777216). { change (/ 16777216) with (bpow radix2 (-24)). apply bpow_le. vm_compute. discriminate. }
  replace (rnd f32 (val f32 vl + val f32 vh)) with ((rnd f32 (val f32 vl + val f32 vh) - (val f32 vl + val f32 vh)) + (val f32 vl + val f32 vh)) by ring. eapply Rle_trans; [apply Rabs_triang|]. lra.
Qed.
Definition vh2f (f : Z) : Z := fmul f32 (hi32 f) rs_log2f_IVLN2HI.
Definition vl2f (f : Z) : Z := fadd f32 (fmul f32 (fadd f32 (lo32 f) (hi32 f)) rs_log2f_IVLN2LO) (fmul f32 (lo32 f) rs_log2f_IVLN2HI).
Lemma ivh2f : finite f32 rs_log2f_IVLN2HI = true /\ val f32 rs_log2f_IVLN2HI = IZR 2955 * bpow radix2 (-11) /\ val f32 rs_log2f_IVLN2HI = 2955 / 2048.
Proof. assert (V : val f32 rs_log2f_IVLN2HI = 2955 / 2048) by (rewrite (val_lit f32 rs_log2f_IVLN2HI 2955 2048) by (vm_compute; reflexivity); reflexivity). split; [reflexivity|]. split; [|exact V]. rewrite V. change (bpow radix2 (-11)) with (/ 2048). lra. Qed.
Definition c2f : R := 2955 / 2048 + -12098260 / 68719476736.
Lemma c2f_b : Rabs (c2f * ln 2 - 1) <= / IZR (2 ^ 37).
Proof. pose proof ln2_b as H. apply Rabs_le_inv in H. change (2 ^ 86)%Z with 77371252455336267181195264%Z in H. change (2 ^ 37)%Z with 137438953472%Z. unfold c2f. apply Rabs_le. lra. Qed.
(** the conversion constant *)
Lemma c2_nearf L : Rabs (c2f * L - L / ln 2) <= Rabs L * / IZR (2 ^ 36).
Proof.
  pose proof c2f_b as B. pose proof ln2_c as LN. replace (c2f * L - L / ln 2) with (L * ((c2f * ln 2 - 1) * / ln 2)) by (field; lra). rewrite Rabs_mult. apply Rmult_le_compat_l; [apply Rabs_pos|]. rewrite Rabs_mult, (Rabs_pos_eq (/ ln 2)) by (left; apply Rinv_0_lt_compat; lra).
  assert (I : / ln 2 <= 2). { apply Rmult_le_reg_r with (ln 2); [lra|]. rewrite Rinv_l; lra. } assert (0 < / ln 2) by (apply Rinv_0_lt_compat; lra). pose proof (Rabs_pos (c2f * ln 2 - 1)). change (2 ^ 37)%Z with 137438953472%Z in B. change (2 ^ 36)%Z with 68719476736%Z. nra.
Qed.
Lemma ln_lowf F i : i = F / (2 + F) -> -2930 / 10000 <= F <= 41425 / 100000 -> Rabs i * (2 + F) = Rabs F /\ 2 * Rabs i - Rabs i * / IZR (2 ^ 33) <= Rabs (ln (1 + F)).
Proof.
  intros Ei Hf. destruct (log_G32 F ltac:(lra)) as [G1 G2]. rewrite <- Ei in G1, G2. assert (I : Rabs i * (2 + F) = Rabs F). { rewrite Ei. rewrite <- (Rabs_pos_eq (2 + F)) at 2 by lra. rewrite <- Rabs_mult. f_equal. field. lra. } split; [exact I|].
  assert (PP : 0 <= peval cl32 (i * i)) by (apply peval_pos; [vm_compute; reflexivity|nra]).
  assert (2 * Rabs i <= Rabs (lG cl32 F)). { rewrite lG_eq by lra. rewrite <- Ei. rewrite Rabs_mult, (Rabs_pos_eq (2 + _)) by lra. pose proof (Rabs_pos i). nra. }
  pose proof (Rabs_triang_inv (lG cl32 F) (lG cl32 F - ln (1 + F))) as T. replace (lG cl32 F - (lG cl32 F - ln (1 + F))) with (ln (1 + F)) in T by ring. lra.
Qed.
Lemma log2_k0f f y : isbits f32 f -> finite f32 f = true -> finite f32 y = true -> val f32 y = 0 -> bpow radix2 (-60) <= Rabs (val f32 f) -> -2930 / 10000 <= val f32 f <= 41425 / 100000 ->
  rel_err f32 (3 / 2) (ln (1 + val f32 f) / ln 2) (two32 y (vh2f f) (vl2f f)).
Proof.
  intros Bf Ff Fy Vy Lo Hf. destruct (ker2f f Bf Ff Lo Hf) as (HS & AH & AL & _ & _ & HT). set (F := val f32 f) in *. set (s := Rabs F) in *. set (H := val f32 (hi32 f)) in *. assert (S0 : 0 < s) by apply HS. assert (S1 : s <= 41425 / 100000) by (apply Rabs_le; lra).
  destruct ivh2f as (Fc & Vc & Vc'). destruct (hi_mulf f _ _ _ Bf Ff Lo Hf Fc Vc ltac:(vm_compute; reflexivity) ltac:(split; vm_compute; discriminate)) as (Bh & Fh & Vh). { rewrite Vc', Rabs_pos_eq; lra. }
  change (fmul f32 (hi32 f) rs_log2f_IVLN2HI) with (vh2f f) in *. change (val f32 (hi32 f)) with H in Vh. rewrite Vc' in Vh.
  apy f32 s (fadd f32 (fmul f32 (fadd f32 (lo32 f) (hi32 f)) rs_log2f_IVLN2LO) (fmul f32 (lo32 f) rs_log2f_IVLN2HI)) K. change (fadd f32 (fmul f32 (fadd f32 (lo32 f) (hi32 f)) rs_log2f_IVLN2LO) (fmul f32 (lo32 f) rs_log2f_IVLN2HI)) with (vl2f f) in K.
  eapply (AP_wk _ _ _ _ _ _ _ (66 * 2 ^ 170)) in K; [|exact S0|vm_compute; reflexivity]. destruct K as ((Bl & Fl) & KR & KV).
  assert (RB : Rabs ((lG cl32 F - H) / s) <= 25 / 512). { destruct AL as (_ & A2 & _). rewrite fxr_opp, fxr_mulZ in A2. change (2 ^ 191)%Z with (2 ^ (200 - 9))%Z in A2. rewrite fxr2 in A2 by lia. change (2 ^ 9)%Z with 512%Z in A2. apply Rabs_le. lra. }
  assert (RH : Rabs (H / s) <= 5 / 4). { destruct AH as (_ & A2 & _). rewrite fxr_opp, fxr_mulZ in A2. change (2 ^ 198)%Z with (2 ^ (200 - 2))%Z in A2. rewrite fxr2 in A2 by lia. change (2 ^ 2)%Z with 4%Z in A2. apply Rabs_le. lra. }
  set (b := (lG cl32 F - H) / s) in *. set (h := H / s) in *. assert (EB : s * b = lG cl32 F - H) by (unfold b; field; lra). assert (EH : s * h = H) by (unfold h; field; lra).
  match type of KV with Rabs (_ - s * ?e) <= _ => set (R := e) in * end.
  assert (ER : s * R = c2f * lG cl32 F - H * (2955 / 2048)). { unfold R, c2f. replace (lG cl32 F) with (s * b + s * h) by lra. rewrite <- EH. field. }
  rewrite ER in KV. rewrite fxr_mulZ in KV. change (2 ^ 170)%Z with (2 ^ (200 - 30))%Z in KV. rewrite fxr2 in KV by lia. change (2 ^ 30)%Z with (64 * 16777216)%Z in KV. rewrite mult_IZR in KV.
  assert (RR : Rabs R <= 8 / 100) by (unfold R; apply Rabs_le; apply Rabs_le_inv in RB, RH; lra).
  assert (VLb : Rabs (val f32 (vl2f f)) <= 1). { replace (val f32 (vl2f f)) with ((val f32 (vl2f f) - (c2f * lG cl32 F - H * (2955 / 2048))) + s * R) by (rewrite ER; ring). eapply Rle_trans; [apply Rabs_triang|]. rewrite Rabs_mult, (Rabs_pos_eq s) by lra. nra. }
  assert (VHb : Rabs (val f32 (vh2f f)) <= 1). { rewrite Vh, <- EH. rewrite !Rabs_mult, (Rabs_pos_eq s), (Rabs_pos_eq (2955 / 2048)) by lra. pose proof (Rabs_pos h). nra. }
  destruct (two_tail0f y (vh2f f) (vl2f f) Fy Vy Fh Fl VHb VLb) as (Br & Fr & Vr). split; [exact Br|]. split; [exact Fr|]. set (r := two32 y (vh2f f) (vl2f f)) in *. rewrite Vh in Vr. set (VL := val f32 (vl2f f)) in *.
  pose proof (rndF_abs f32 (H * (2955 / 2048) + VL)) as EE. rewrite <- Vr in EE. change (bpow radix2 (- pr f32)) with (/ 16777216) in EE. set (S := H * (2955 / 2048) + VL) in *.
  assert (TN : bpow radix2 (emin f32 - 1) <= s * (/ 16777216 / 1000)). { apply Rle_trans with (bpow radix2 (-60) * bpow radix2 (-80)); [rewrite <- bpow_plus; apply bpow_le; vm_compute; discriminate|]. change (bpow radix2 (-80)) with (/ 1208925819614629174706176). apply Rmult_le_compat; try apply bpow_ge_0; lra. }
  set (L := ln (1 + F)) in *. destruct (ln_lowf F (F / (2 + F)) eq_refl Hf) as [I1 I2]. destruct (log_G32 F ltac:(lra)) as [G1 G2]. fold L in G1, I2. fold s in I1. set (i := Rabs (F / (2 + F))) in *. assert (I0 : 0 <= i) by apply Rabs_pos.
  pose proof (c2_nearf L) as CN. pose proof ln2_c as LN. set (X := L / ln 2) in *. assert (EX : L = X * ln 2) by (unfold X; field; lra).
  assert (XL : s * (119 / 100) <= Rabs X). { rewrite EX, Rabs_mult, (Rabs_pos_eq (ln 2)) in I2 by lra. change (2 ^ 33)%Z with 8589934592%Z in I2. assert (s * (41420 / 100000) <= i) by nra. pose proof (Rabs_pos X). nra. }
  assert (LB : Rabs L <= 2 * s). { assert (i <= s) by nra. assert (Rabs (lG cl32 F) <= 13 / 10 * s). { replace (lG cl32 F) with (s * b + s * h) by lra. eapply Rle_trans; [apply Rabs_triang|]. rewrite !Rabs_mult, (Rabs_pos_eq s) by lra. nra. } replace L with (lG cl32 F - (lG cl32 F - L)) by ring. unfold Rminus at 1. eapply Rle_trans; [apply Rabs_triang|]. rewrite Rabs_Ropp. change (2 ^ 33)%Z with 8589934592%Z in G1. nra. }
  assert (GC : Rabs (c2f * lG cl32 F - c2f * L) <= s * (54 / 1000 / 16777216)). { rewrite <- Rmult_minus_distr_l, Rabs_mult, (Rabs_pos_eq c2f) by (unfold c2f; lra). change (2 ^ 33)%Z with (512 * 16777216)%Z in G1. rewrite mult_IZR in G1. assert (i <= s * (586 / 1000)) by nra. assert (c2f <= 14427 / 10000) by (unfold c2f; lra). assert (0 <= c2f) by (unfold c2f; lra). pose proof (Rabs_pos (lG cl32 F - L)). nra. }
  assert (SX : Rabs (S - X) <= s * (112 / 100 / 16777216)).
  { replace (S - X) with ((VL - (c2f * lG cl32 F - H * (2955 / 2048))) + (c2f * lG cl32 F - c2f * L) + (c2f * L - X)) by (unfold S; ring). eapply Rle_trans; [apply Rabs_triang|]. pose proof (Rabs_triang (VL - (c2f * lG cl32 F - H * (2955 / 2048))) (c2f * lG cl32 F - c2f * L)).
    change (2 ^ 36)%Z with (16777216 * 4096)%Z in CN. rewrite mult_IZR in CN. lra. }
  change (bpow radix2 (- mw f32)) with (/ 8388608). 
  assert (SB : Rabs S <= Rabs X + s / 1000). { replace S with ((S - X) + X) by ring. eapply Rle_trans; [apply Rabs_triang|]. lra. }
  replace (val f32 r - X) with ((val f32 r - S) + (S - X)) by ring. eapply Rle_trans; [apply Rabs_triang|]. lra.
Qed.
Lemma hi_smallf F H : -2930 / 10000 <= F <= 41425 / 100000 -> Rabs (H - (F - F * F / 2)) <= / 1600 -> Rabs H <= 337 / 1000.
Proof. intros HF HT. apply Rabs_le_inv in HT. apply Rabs_le. nra. Qed.
Lemma log2_knf f k : isbits f32 f -> finite f32 f = true -> (val f32 f <> 0 -> bpow radix2 (-60) <= Rabs (val f32 f)) -> -2930 / 10000 <= val f32 f <= 41425 / 100000 -> 4999 / 10000 <= (1 + val f32 f) * (1 + val f32 f) <= 20002 / 10000 -> (1 <= Z.abs k <= 151)%Z ->
  rel_err f32 (3 / 2) (IZR k + ln (1 + val f32 f) / ln 2) (two32 (of_int f32 k) (vh2f f) (vl2f f)).
Proof.
  intros Bf Ff Lo Hf Hq Hk. destruct (ker2_1f f Bf Ff Lo Hf) as (AH & AL & HT & HM). set (F := val f32 f) in *. set (H := val f32 (hi32 f)) in *.
  destruct ivh2f as (Fc & Vc & Vc'). destruct (HM _ _ _ Fc Vc ltac:(vm_compute; reflexivity) ltac:(split; vm_compute; discriminate)) as (Bh & Fh & Vh). { rewrite Vc', Rabs_pos_eq; lra. }
  change (fmul f32 (hi32 f) rs_log2f_IVLN2HI) with (vh2f f) in *. rewrite Vc' in Vh.
  apy f32 1 (fadd f32 (fmul f32 (fadd f32 (lo32 f) (hi32 f)) rs_log2f_IVLN2LO) (fmul f32 (lo32 f) rs_log2f_IVLN2HI)) K. change (fadd f32 (fmul f32 (fadd f32 (lo32 f) (hi32 f)) rs_log2f_IVLN2LO) (fmul f32 (lo32 f) rs_log2f_IVLN2HI)) with (vl2f f) in K.
  eapply (AP_wk _ _ _ _ _ _ _ (28 * 2 ^ 170)) in K; [|lra|vm_compute; reflexivity]. destruct K as ((Bl & Fl) & KR & KV). rewrite !Rmult_1_l in KV.
  assert (RB : Rabs (lG cl32 F - H) <= 21 / 1024). { destruct AL as (_ & A2 & _). rewrite fxr_opp, fxr_mulZ in A2. change (2 ^ 190)%Z with (2 ^ (200 - 10))%Z in A2. rewrite fxr2 in A2 by lia. change (2 ^ 10)%Z with 1024%Z in A2. apply Rabs_le. lra. }
  pose proof (hi_smallf F H Hf HT) as RH.
  match type of KV with Rabs (_ - ?e) <= _ => set (R := e) in * end. assert (ER : R = c2f * lG cl32 F - H * (2955 / 2048)) by (unfold R, c2f; field).
  rewrite fxr_mulZ in KV. change (2 ^ 170)%Z with (2 ^ (200 - 30))%Z in KV. rewrite fxr2 in KV by lia. change (2 ^ 30)%Z with (64 * 16777216)%Z in KV. rewrite mult_IZR in KV.
  assert (RR : Rabs R <= 299 / 10000) by (unfold R; apply Rabs_le; apply Rabs_le_inv in RB, RH; lra).
  assert (VLb : Rabs (val f32 (vl2f f)) <= 300 / 10000). { replace (val f32 (vl2f f)) with ((val f32 (vl2f f) - R) + R) by ring. eapply Rle_trans; [apply Rabs_triang|]. lra. }
  assert (VHb : Rabs (val f32 (vh2f f)) <= 487 / 1000). { rewrite Vh, Rabs_mult, (Rabs_pos_eq (2955 / 2048)) by lra. lra. }
  destruct (of_int_small f32 k ltac:(vm_compute; discriminate) ltac:(vm_compute; reflexivity) ltac:(lia)) as (Bk & Fk & Vk).
  assert (KA : 1 <= Rabs (IZR k) <= 151) by (rewrite <- abs_IZR; split; apply IZR_le; lia).
  destruct (two_tailf (of_int f32 k) (vh2f f) (vl2f f) Fk Fh Fl) as (Br & Fr & Vr); [rewrite Vk; lra|lra|lra|].
  split; [exact Br|]. split; [exact Fr|]. set (r := two32 (of_int f32 k) (vh2f f) (vl2f f)) in *. rewrite Vk, Vh in Vr. set (VL := val f32 (vl2f f)) in *. set (S := IZR k + H * (2955 / 2048) + VL) in *. 
  pose proof (ln_half F Hf Hq) as HL. set (L := ln (1 + F)) in *. destruct (log_G32 F ltac:(lra)) as [G1 G2]. fold L in G1. set (i := Rabs (F / (2 + F))) in *. assert (I0 : 0 <= i) by apply Rabs_pos.
  pose proof (c2_nearf L) as CN. pose proof ln2_c as LN. set (X := L / ln 2) in *. assert (EX : L = X * ln 2) by (unfold X; field; lra).
  assert (XL : Rabs X <= 5003 / 10000). { rewrite EX, Rabs_mult, (Rabs_pos_eq (ln 2)) in HL by lra. pose proof (Rabs_pos X). nra. }
  assert (GC : Rabs (c2f * lG cl32 F - c2f * L) <= 16 / 1000 / 16777216). { rewrite <- Rmult_minus_distr_l, Rabs_mult, (Rabs_pos_eq c2f) by (unfold c2f; lra). change (2 ^ 33)%Z with (512 * 16777216)%Z in G1. rewrite mult_IZR in G1. assert (c2f <= 14427 / 10000) by (unfold c2f; lra). assert (0 <= c2f) by (unfold c2f; lra). pose proof (Rabs_pos (lG cl32 F - L)). assert (Rabs (lG cl32 F - L) <= 1075 / 100000 / 16777216) by nra. nra. }
  assert (SX : Rabs (S - (IZR k + X)) <= 44 / 100 / 16777216 * (101 / 100) + 16 / 1000 / 16777216).
  { replace (S - (IZR k + X)) with ((VL - R) + (c2f * lG cl32 F - c2f * L) + (c2f * L - X)) by (rewrite ER; unfold S; ring). eapply Rle_trans; [apply Rabs_triang|]. pose proof (Rabs_triang (VL - R) (c2f * lG cl32 F - c2f * L)).
    change (2 ^ 36)%Z with (16777216 * 4096)%Z in CN. rewrite mult_IZR in CN. lra. }
  assert (TL : 4997 / 10000 <= Rabs (IZR k + X)). { pose proof (Rabs_triang_inv (IZR k) (- X)) as Q. rewrite Rabs_Ropp in Q. replace (IZR k - - X) with (IZR k + X) in Q by ring. lra. }
  change (bpow radix2 (- mw f32)) with (/ 8388608). 
  assert (SB : Rabs S <= Rabs (IZR k + X) + / 1000000). { replace S with ((S - (IZR k + X)) + (IZR k + X)) by ring. eapply Rle_trans; [apply Rabs_triang|]. lra. }
  assert (AB : Rabs (VL + H * (2955 / 2048)) <= 5006 / 10000). { replace (VL + H * (2955 / 2048)) with ((S - (IZR k + X)) + X) by (unfold S; ring). eapply Rle_trans; [apply Rabs_triang|]. lra. }
  replace (val f32 r - (IZR k + X)) with ((val f32 r - S) + (S - (IZR k + X))) by ring. eapply Rle_trans; [apply Rabs_triang|]. lra.
Qed.

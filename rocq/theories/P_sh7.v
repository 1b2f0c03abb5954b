(** sinhf, coshf and tanhf. *)
From Coq Require Import ZArith Reals Lia Lra Bool List Psatz.
From Flocq Require Import Core.
From Verif Require Import Base Spec SpecFun SpecExp SpecLog2 SpecExpm1 SpecHyp2 Format P_format Ieee P_ieee P_real P_neg P_lit P_err P_apx P_expa7 P_expa9 P_expa11 P_expa12 P_hy1 P_hy2 P_em2 P_em9 P_sh1 P_sh2 P_sh3 P_sh4 P_sh5 P_sh6 P_elem P_elem2 P_dom P_tot M_sqrt M_elib M_exp.
Open Scope R_scope.
Local Opaque fadd fsub fmul fdiv of_int rs_expf rs_expm1f.

Lemma C1 : (23 <= mw f32)%Z. Proof. vm_compute; discriminate. Qed.
Lemma C2 : (pr f32 + 101 <= 1 - emin f32)%Z. Proof. vm_compute; discriminate. Qed.
Lemma C3 : (90 <= bias f32)%Z. Proof. vm_compute; discriminate. Qed.
Lemma C4 : (pr f32 <= 53)%Z. Proof. vm_compute; discriminate. Qed.
Lemma ppf : bpow radix2 (- pr f32) = / 16777216. Proof. reflexivity. Qed.
Lemma o32 : isbits f32 0x3f800000 /\ finite f32 0x3f800000 = true /\ val f32 0x3f800000 = 1.
Proof. split; [split; [discriminate|reflexivity]|]. split; [reflexivity|]. rewrite (val_lit f32 0x3f800000 1 1) by (vm_compute; reflexivity). lra. Qed.
Lemma w32 : isbits f32 0x40000000 /\ finite f32 0x40000000 = true /\ val f32 0x40000000 = 2.
Proof. split; [split; [discriminate|reflexivity]|]. split; [reflexivity|]. rewrite (val_lit f32 0x40000000 2 1) by (vm_compute; reflexivity). lra. Qed.
Lemma m32 : finite f32 0xc0000000 = true /\ val f32 0xc0000000 = -2.
Proof. split; [reflexivity|]. rewrite (val_lit f32 0xc0000000 (-2) 1) by (vm_compute; reflexivity). lra. Qed.
Lemma z32 : finite f32 0 = true /\ val f32 0 = 0.
Proof. split; [reflexivity|]. rewrite (val_lit f32 0 0 1) by (vm_compute; reflexivity). lra. Qed.
Lemma h32p : finite f32 0x3f000000 = true /\ val f32 0x3f000000 = / 2.
Proof. split; [reflexivity|]. rewrite (val_lit f32 0x3f000000 1 2) by (vm_compute; reflexivity). lra. Qed.
Lemma h32n : finite f32 0xbf000000 = true /\ val f32 0xbf000000 = - / 2.
Proof. split; [reflexivity|]. rewrite (val_lit f32 0xbf000000 (-1) 2) by (vm_compute; reflexivity). lra. Qed.
Lemma sc32 : val f32 0x7a000000 = bpow radix2 117.
Proof. rewrite (val_lit f32 0x7a000000 (2 ^ 117) 1) by (vm_compute; reflexivity). change (bpow radix2 117) with (IZR (2 ^ 117)). unfold Rdiv. rewrite Rinv_1. ring. Qed.
Lemma kl32 : val f32 0x4322e3bc = 2668783 / 16384. Proof. apply val_lit; vm_compute; reflexivity. Qed.
Lemma klbf : Rabs (val f32 0x4322e3bc - IZR 235 * ln 2) <= 52 / 100 * bpow radix2 (- pr f32).
Proof. rewrite kl32, ppf. pose proof ln2_b as L. apply Rabs_le_inv in L. change (2 ^ 86)%Z with 77371252455336267181195264%Z in L. apply Rabs_le. lra. Qed.
Lemma klrf : 0 < val f32 0x4322e3bc <= bpow radix2 (bias f32).
Proof. rewrite kl32. split; [lra|]. apply Rle_trans with (bpow radix2 20); [change (bpow radix2 20) with 1048576; lra|apply bpow_le; vm_compute; discriminate]. Qed.
Definition y1 : Z := 0x42b2d4fd.
Lemma vy1 : val f32 y1 = 11719933 / 131072. Proof. apply val_lit; vm_compute; reflexivity. Qed.
Lemma vy0 : val f32 (y1 - 1) = 2929983 / 32768. Proof. apply val_lit; vm_compute; reflexivity. Qed.
Lemma e60f X : 11629079 / 131072 <= X -> 1152921504606846976 <= exp X.
Proof. intros H. change 1152921504606846976 with (bpow radix2 60). apply e_pw. pose proof ln2_lo. lra. Qed.

(** the branch of the large arguments *)
Lemma kof_fin y : isbits f32 y -> finite f32 y = true -> 11629079 / 131072 <= val f32 y <= 2929983 / 32768 ->
  (1 + 4 * bpow radix2 (- pr f32)) * (exp (val f32 y) / 2) < bpow radix2 (bias f32 + 1) /\ exists r, rs_k_expo2f y = Some r /\ RE f32 r (exp (val f32 y) / 2) 3.
Proof.
  intros B G H. pose proof ln2_b as L. apply Rabs_le_inv in L. change (2 ^ 86)%Z with 77371252455336267181195264%Z in L.
  assert (U : (1 + 4 * bpow radix2 (- pr f32)) * (exp (val f32 y) / 2) < bpow radix2 (bias f32 + 1)).
  { pose proof (e_below 129 (/ 1000000) (val f32 y) ltac:(lra) ltac:(lra)) as E. rewrite ppf. change (bias f32 + 1)%Z with 128%Z. change 129%Z with (128 + 1)%Z in E. rewrite bpow_plus in E. change (bpow radix2 1) with 2 in E. pose proof (bpow_gt_0 radix2 128). set (b := bpow radix2 128) in *. lra. }
  split; [exact U|].
  destruct (expo2_fin f32 C1 C2 C3 rs_expf expf_within 0x4322e3bc 0x7a000000 235 117 eq_refl eq_refl sc32 ltac:(lia) ltac:(lia) klbf klrf ltac:(vm_compute; reflexivity) y B G) as (v & Ev & R).
  - rewrite kl32. lra.
  - change (emin f32 + mw f32 + 2)%Z with (-124)%Z. apply e_pw. rewrite kl32. lra.
  - exact U.
  - exists (fmul f32 (fmul f32 v 0x7a000000) 0x7a000000). split; [|exact R]. unfold rs_k_expo2f. cbv zeta. rewrite Ev. reflexivity.
Qed.
Lemma y1_big : (1 + 4 * bpow radix2 (- pr f32)) * bpow radix2 (bias f32 + 1) <= exp (val f32 y1) / 2.
Proof.
  pose proof ln2_b as L. apply Rabs_le_inv in L. change (2 ^ 86)%Z with 77371252455336267181195264%Z in L. rewrite vy1, ppf. pose proof (e_above 129 (6 / 1000000) (11719933 / 131072) ltac:(lra) ltac:(lra)) as E. change (bias f32 + 1)%Z with 128%Z. change 129%Z with (128 + 1)%Z in E. rewrite bpow_plus in E. change (bpow radix2 1) with 2 in E. pose proof (bpow_gt_0 radix2 128). set (b := bpow radix2 128) in *. lra.
Qed.
Lemma kof_inf y : isbits f32 y -> finite f32 y = true -> val f32 y1 <= val f32 y -> (1 + 4 * bpow radix2 (- pr f32)) * bpow radix2 (bias f32 + 1) <= exp (val f32 y) / 2 /\ rs_k_expo2f y = Some (infinity f32 false).
Proof.
  intros B G H. pose proof ln2_b as L. apply Rabs_le_inv in L. change (2 ^ 86)%Z with 77371252455336267181195264%Z in L. split. { pose proof y1_big. pose proof (exp_mono _ _ H). lra. }
  destruct (expo2_inf f32 C1 C2 C3 rs_expf expf_within 0x4322e3bc 0x7a000000 235 117 eq_refl eq_refl sc32 ltac:(lia) ltac:(lia) klbf klrf ltac:(vm_compute; reflexivity) y1 y ltac:(split; vm_compute; (reflexivity || discriminate)) eq_refl) as (v & Ev & R); try assumption.
  - rewrite vy1, kl32. lra.
  - change (emin f32 + mw f32 + 2)%Z with (-124)%Z. apply e_pw. rewrite kl32, vy1. lra.
  - exact y1_big.
  - unfold rs_k_expo2f. cbv zeta. rewrite Ev. cbn [bind]. now rewrite R.
Qed.
Lemma below32 X : X <= 90851 / 1024 -> exp X <= (1 - / 100000) * bpow radix2 (bias f32 + 1).
Proof.
  intros H. pose proof ln2_lo as L. pose proof (e_below 128 (/ 5000) X ltac:(lra) ltac:(lra)) as E. change (bias f32 + 1)%Z with 128%Z. pose proof (bpow_gt_0 radix2 128). set (b := bpow radix2 128) in *. lra.
Qed.
Lemma below32c X : X <= 5814539 / 65536 -> exp X <= (1 - / 100000) * bpow radix2 (bias f32 + 1).
Proof.
  intros H. pose proof ln2_lo as L. pose proof (e_below 128 (14 / 1000000) X ltac:(lra) ltac:(lra)) as E. change (bias f32 + 1)%Z with 128%Z. pose proof (bpow_gt_0 radix2 128). set (b := bpow radix2 128) in *. lra.
Qed.
(** every argument between the two thresholds makes sinhf divide infinity by infinity *)
Definition gapf (x : Z) : Prop := 90851 / 1024 < Rabs (val f32 x) /\ Rabs (val f32 x) < 11629079 / 131072.
Lemma sinhf_eq x : isbits f32 x -> rs_sinhf x = let h := (if signbit f32 x then 0xbf000000 else 0x3f000000)%Z in if (0x42b17217 <=? a32 x)%Z then (let* v1 := rs_k_expo2f (a32 x) in Some (fmul f32 (fmul f32 0x40000000 h) v1)) else let* t := rs_expm1f (a32 x) in if (0x3f800000 <=? a32 x)%Z then Some (fmul f32 h (fadd f32 t (fdiv f32 t (fadd f32 t 0x3f800000)))) else if (0x39800000 <=? a32 x)%Z then Some (fmul f32 h (fsub f32 (fmul f32 0x40000000 t) (fdiv f32 (fmul f32 t t) (fadd f32 t 0x3f800000)))) else Some x.
Proof.
  intros B. unfold rs_sinhf. cbv zeta. words32 x B. rewrite !ltge. set (h := (if signbit f32 x then 0xbf000000 else 0x3f000000)%Z). replace (if negb (negb (signbit f32 x)) then Format.fneg f32 0x3f000000 else 0x3f000000%Z) with h by (unfold h; destruct (signbit f32 x); reflexivity).
  destruct (0x42b17217 <=? a32 x)%Z; cbn [negb]; [reflexivity|]. destruct (rs_expm1f (a32 x)); [|reflexivity]. cbn [bind]. destruct (0x3f800000 <=? a32 x)%Z; cbn [negb]; [reflexivity|]. destruct (0x39800000 <=? a32 x)%Z; reflexivity.
Qed.
Lemma sinhf_gap x : isbits f32 x -> finite f32 x = true -> gapf x -> exists r, rs_sinhf x = Some r /\ isnan f32 r = true.
Proof.
  intros B G [HL HU]. destruct (val_a32 x B) as (B1 & B2 & B3 & B4). rewrite G in B3. rewrite (sinhf_eq x B). cbv zeta. assert (G1 := a32_ge x 0x42b17217 B G ltac:(split; [discriminate|reflexivity])). assert (G2 := a32_ge x 0x3f800000 B G ltac:(split; [discriminate|reflexivity])).
  rewrite (val_lit f32 0x42b17217 11629079 131072) in G1 by (vm_compute; reflexivity). rewrite (proj2 (proj2 o32)) in G2. change (0x3f800000 - 1)%Z with 0x3f7fffff%Z in G2. rewrite (val_lit f32 0x3f7fffff 16777215 16777216) in G2 by (vm_compute; reflexivity).
  destruct (0x42b17217 <=? a32 x)%Z; [destruct G1 as [G1 _]; specialize (G1 eq_refl); lra|]. rewrite (expm1f_over (a32 x) B1 B3) by (rewrite B4; exact HL). cbn [bind]. destruct (0x3f800000 <=? a32 x)%Z; [|destruct G2 as [_ G2]; specialize (G2 eq_refl); lra].
  eexists. split; [reflexivity|]. destruct (signbit f32 x); vm_compute; reflexivity.
Qed.
Theorem sinhf_within : sinh_on f32 4 (fun x => ~ gapf x) rs_sinhf.
Proof.
  intros x B G NG. destruct (val_a32 x B) as (B1 & B2 & B3 & B4). rewrite G in B3. destruct (sinh_sg f32 x B G) as [SG SA]. rewrite SA. unfold gapf in NG. set (X := Rabs (val f32 x)) in *. assert (X0 : 0 <= X) by apply Rabs_pos.
  rewrite (sinhf_eq x B). cbv zeta. set (h := (if signbit f32 x then 0xbf000000 else 0x3f000000)%Z). assert (Fh : finite f32 h = true) by (unfold h; destruct (signbit f32 x); reflexivity). assert (Vh : val f32 h = if signbit f32 x then - / 2 else / 2) by (unfold h; destruct (signbit f32 x); [apply h32n|apply h32p]).
  assert (Ah : Rabs (val f32 h) = / 2) by (rewrite Vh; destruct (signbit f32 x); [rewrite Rabs_Ropp|]; apply Rabs_pos_eq; lra). rewrite <- Vh in SG.
  assert (G1 := a32_ge x 0x42b17217 B G ltac:(split; [discriminate|reflexivity])). assert (G2 := a32_ge x 0x3f800000 B G ltac:(split; [discriminate|reflexivity])). assert (G3 := a32_ge x 0x39800000 B G ltac:(split; [discriminate|reflexivity])). assert (G4 := a32_ge x y1 B G ltac:(split; [discriminate|reflexivity])). 
  change (0x42b17217 - 1)%Z with 0x42b17216%Z in G1. change (0x3f800000 - 1)%Z with 0x3f7fffff%Z in G2. change (0x39800000 - 1)%Z with 0x397fffff%Z in G3.
  rewrite (val_lit f32 0x42b17217 11629079 131072), (val_lit f32 0x42b17216 5814539 65536) in G1 by (vm_compute; reflexivity).
  rewrite (val_lit f32 0x3f800000 1 1), (val_lit f32 0x3f7fffff 16777215 16777216) in G2 by (vm_compute; reflexivity). rewrite (val_lit f32 0x39800000 1 4096), (val_lit f32 0x397fffff 16777215 68719476736) in G3 by (vm_compute; reflexivity). rewrite vy0 in G4. fold X in G1, G2, G3, G4.
  destruct (0x42b17217 <=? a32 x)%Z.
  - destruct G1 as [G1 _]. specialize (G1 eq_refl). set (c := fmul f32 0x40000000 h). assert (Fc : finite f32 c = true) by (unfold c, h; destruct (signbit f32 x); vm_compute; reflexivity).
    assert (Vc : val f32 c = val f32 h * 2). { unfold c. destruct (dbl f32 0x40000000 h eq_refl ltac:(rewrite (proj2 (proj2 w32)); apply Rabs_pos_eq; lra) Fh ltac:(rewrite Ah; lra) C3) as (_ & _ & V2). rewrite V2, (proj2 (proj2 w32)). ring. }
    assert (Ac : Rabs (val f32 c) = 1) by (rewrite Vc, Rabs_mult, Ah, Rabs_pos_eq; lra).
    destruct (y1 <=? a32 x)%Z.
    + destruct G4 as [G4 _]. specialize (G4 eq_refl). destruct (kof_inf (a32 x) B1 B3 ltac:(rewrite B4; exact G4)) as [U E]. rewrite B4 in U. fold X in U. destruct (ge_big f32 C1 C2 C3 C4 _ _ o32 w32 (bpow radix2 (bias f32 + 1)) eq_refl X U) as [Q _]. split; [lra|intros _]. rewrite E. cbn [bind]. f_equal. unfold c, h. destruct (signbit f32 x); vm_compute; reflexivity.
    + destruct G4 as [_ G4]. specialize (G4 eq_refl). destruct (kof_fin (a32 x) B1 B3 ltac:(rewrite B4; fold X; lra)) as (U & r & E & R). rewrite B4 in U, R. fold X in U, R. pose proof (e60f X G1) as E6. destruct (lt_big f32 C1 C2 C3 C4 _ _ o32 w32 (bpow radix2 (bias f32 + 1)) eq_refl X E6 U) as [Q _]. split; [intros _|lra]. rewrite E. cbn [bind]. eexists. split; [reflexivity|]. rewrite <- SG, <- Vc. fold c. apply mul_c; [exact Fc|exact Ac|].
      destruct (big_sinh f32 C1 C2 C3 C4 _ _ o32 w32 (bpow radix2 (bias f32 + 1)) eq_refl r X R E6) as [R2 _]. apply (re_rel f32 C1 C2 C3 C4) with (k := 4); [|lra|exact R2]. pose proof (half_exp f32 C1 C2 C3 C4 _ _ o32 w32 (bpow radix2 (bias f32 + 1)) eq_refl X E6). unfold sinh. lra.
  - destruct G1 as [_ G1]. specialize (G1 eq_refl). assert (XU : X <= 90851 / 1024) by (destruct (Rle_lt_dec X (90851 / 1024)); [assumption|exfalso; apply NG; lra]). pose proof (below32 X XU) as EU. destruct (expm1f_within (a32 x) B1 B3 ltac:(rewrite B4; exact XU)) as (t & Et & Rt). rewrite B4 in Rt. fold X in Rt. rewrite Et. cbn [bind].
    assert (SM : sinh X < bpow radix2 (bias f32 + 1)). { unfold sinh. pose proof (exp_pos (- X)). pose proof (exp_pos X). pose proof (bpow_gt_0 radix2 (bias f32 + 1)). lra. } split; [intros _|lra]. rewrite <- SG. destruct (0x3f800000 <=? a32 x)%Z.
    + destruct G2 as [G2 _]. specialize (G2 eq_refl). eexists. split; [reflexivity|]. apply (sinh_mid f32 C1 C2 C3 C4 _ _ o32 w32 (bpow radix2 (bias f32 + 1)) eq_refl); try assumption. lra.
    + destruct G2 as [_ G2]. specialize (G2 eq_refl). destruct (0x39800000 <=? a32 x)%Z.
      * destruct G3 as [G3 _]. specialize (G3 eq_refl). eexists. split; [reflexivity|]. apply (sinh_small f32 C1 C2 C3 C4 _ _ o32 w32 (bpow radix2 (bias f32 + 1)) eq_refl); try assumption. lra.
      * destruct G3 as [_ G3]. specialize (G3 eq_refl). exists x. split; [reflexivity|]. rewrite SG. apply (tiny_sinh f32 C1 C2 C3 C4); try assumption; try lra; fold X; [lra|]. rewrite ppf. nra.
Qed.
Theorem coshf_within : cosh_like f32 3 rs_coshf.
Proof.
  intros x B G _. destruct (val_a32 x B) as (B1 & B2 & B3 & B4). rewrite G in B3. set (X := Rabs (val f32 x)) in *. assert (X0 : 0 <= X) by apply Rabs_pos.
  assert (CX : cosh (val f32 x) = cosh X) by (symmetry; apply cosh_even). rewrite CX. assert (C0 : 0 < cosh X) by (unfold cosh; pose proof (exp_pos X); pose proof (exp_pos (- X)); lra). rewrite (Rabs_pos_eq (cosh X)) by lra.
  assert (G1 := a32_ge x 0x42b17217 B G ltac:(split; [discriminate|reflexivity])). assert (G2 := a32_ge x 0x3f317217 B G ltac:(split; [discriminate|reflexivity])). assert (G3 := a32_ge x 0x39800000 B G ltac:(split; [discriminate|reflexivity])). assert (G4 := a32_ge x y1 B G ltac:(split; [discriminate|reflexivity])). 
  change (0x42b17217 - 1)%Z with 0x42b17216%Z in G1. change (0x3f317217 - 1)%Z with 0x3f317216%Z in G2. change (0x39800000 - 1)%Z with 0x397fffff%Z in G3.
  rewrite (val_lit f32 0x42b17217 11629079 131072), (val_lit f32 0x42b17216 5814539 65536) in G1 by (vm_compute; reflexivity).
  rewrite (val_lit f32 0x3f317217 11629079 16777216), (val_lit f32 0x3f317216 5814539 8388608) in G2 by (vm_compute; reflexivity). rewrite (val_lit f32 0x39800000 1 4096), (val_lit f32 0x397fffff 16777215 68719476736) in G3 by (vm_compute; reflexivity). rewrite vy0 in G4. fold X in G1, G2, G3, G4.
  pose proof ln2_lo as L2. pose proof (bpow_gt_0 radix2 (bias f32 + 1)) as MP. assert (MB : 16 <= bpow radix2 (bias f32 + 1)). { change 16 with (bpow radix2 4). apply bpow_le. vm_compute; discriminate. }
  assert (EQ : rs_coshf x = if (0x3f317217 <=? a32 x)%Z then (if (0x42b17217 <=? a32 x)%Z then rs_k_expo2f (a32 x) else let* t := rs_expf (a32 x) in Some (fmul f32 0x3f000000 (fadd f32 t (fdiv f32 0x3f800000 t)))) else if (0x39800000 <=? a32 x)%Z then (let* t := rs_expm1f (a32 x) in Some (fadd f32 0x3f800000 (fdiv f32 (fmul f32 t t) (fmul f32 0x40000000 (fadd f32 0x3f800000 t))))) else Some 0x3f800000%Z).
  { unfold rs_coshf. cbv zeta. rewrite land_a32. rewrite !ltge.
    destruct (0x3f317217 <=? a32 x)%Z; cbn [negb]; [destruct (0x42b17217 <=? a32 x)%Z; reflexivity|]. destruct (0x39800000 <=? a32 x)%Z; reflexivity. }
  rewrite EQ. clear EQ. destruct (0x3f317217 <=? a32 x)%Z.
  - destruct G2 as [G2 _]. specialize (G2 eq_refl). destruct (0x42b17217 <=? a32 x)%Z.
    + destruct G1 as [G1 _]. specialize (G1 eq_refl). destruct (y1 <=? a32 x)%Z.
      * destruct G4 as [G4 _]. specialize (G4 eq_refl). destruct (kof_inf (a32 x) B1 B3 ltac:(rewrite B4; exact G4)) as [U E]. rewrite B4 in U. fold X in U. destruct (ge_big f32 C1 C2 C3 C4 _ _ o32 w32 (bpow radix2 (bias f32 + 1)) eq_refl X U) as [_ Q]. split; [lra|intros _]. exact E.
      * destruct G4 as [_ G4]. specialize (G4 eq_refl). destruct (kof_fin (a32 x) B1 B3 ltac:(rewrite B4; fold X; lra)) as (U & r & E & R). rewrite B4 in U, R. fold X in U, R. pose proof (e60f X G1) as E6. destruct (lt_big f32 C1 C2 C3 C4 _ _ o32 w32 (bpow radix2 (bias f32 + 1)) eq_refl X E6 U) as [_ Q]. split; [intros _|lra]. exists r. split; [exact E|].
        destruct (big_sinh f32 C1 C2 C3 C4 _ _ o32 w32 (bpow radix2 (bias f32 + 1)) eq_refl r X R E6) as [_ R2]. apply (re_rel f32 C1 C2 C3 C4) with (k := 4); [lra|lra|exact R2].
    + destruct G1 as [_ G1]. specialize (G1 eq_refl). pose proof (below32c X G1) as EU. destruct (expf_within (a32 x) B1 B3) as [E _]. rewrite B4 in E. fold X in E. destruct (E ltac:(lra)) as (t & Et & Rt). rewrite Et. cbn [bind].
      assert (EL : 19 / 10 <= exp X). { pose proof (e_above 1 0 (X - (11629079 / 16777216 - ln 2) + 0) ltac:(lra) ltac:(lra)) as Q. change (bpow radix2 1) with 2 in Q. replace X with ((X - (11629079 / 16777216 - ln 2) + 0) + (11629079 / 16777216 - ln 2)) by ring. rewrite exp_plus. pose proof (exp_ineq1_le (11629079 / 16777216 - ln 2)). nra. }
      split; [intros _|]. { eexists. split; [reflexivity|]. apply (cosh_mid f32 C1 C2 C3 C4 _ _ o32 w32 (bpow radix2 (bias f32 + 1)) eq_refl); try assumption; apply h32p. }
      intros Q. exfalso. unfold cosh in Q. rewrite exp_Ropp in Q. pose proof (inv01 (exp X) ltac:(lra)). lra.
  - destruct G2 as [_ G2]. specialize (G2 eq_refl). assert (E2 : exp X <= 2) by (change 2 with (bpow radix2 1); apply e_pu; lra). assert (CS : cosh X < bpow radix2 (bias f32 + 1)). { unfold cosh. rewrite exp_Ropp. pose proof (exp_ineq1_le X). pose proof (inv01 (exp X) ltac:(lra)). lra. } split; [intros _|lra]. destruct (0x39800000 <=? a32 x)%Z.
    + destruct G3 as [G3 _]. specialize (G3 eq_refl). destruct (expm1f_within (a32 x) B1 B3) as (t & Et & Rt). { rewrite B4. fold X. lra. } rewrite B4 in Rt. fold X in Rt. rewrite Et. cbn [bind]. eexists. split; [reflexivity|]. apply (cosh_small f32 C1 C2 C3 C4 _ _ o32 w32 (bpow radix2 (bias f32 + 1)) eq_refl); try assumption. lra.
    + destruct G3 as [_ G3]. specialize (G3 eq_refl). eexists. split; [reflexivity|]. apply (tiny_cosh f32 C1 C2 C3 C4 _ _ o32 w32); [lra|rewrite Rabs_pos_eq by lra; lra|]. rewrite !(Rabs_pos_eq X) by lra. rewrite ppf. nra.
Qed.
Theorem tanhf_within : tanh_like f32 4 rs_tanhf.
Proof.
  intros x B G. destruct (val_a32 x B) as (B1 & B2 & B3 & B4). rewrite G in B3. pose proof (tanh_sg f32 x B G) as SG. set (X := Rabs (val f32 x)) in *. assert (X0 : 0 <= X) by apply Rabs_pos.
  assert (G1 := a32_ge x 0x3f0c9f55 B G ltac:(split; [discriminate|reflexivity])). assert (G2 := a32_ge x 0x41200001 B G ltac:(split; [discriminate|reflexivity])). assert (G3 := a32_ge x 0x3e82c579 B G ltac:(split; [discriminate|reflexivity])). assert (G4 := a32_ge x 0x00800000 B G ltac:(split; [discriminate|reflexivity])).
  change (0x3f0c9f55 - 1)%Z with 0x3f0c9f54%Z in G1. change (0x41200001 - 1)%Z with 0x41200000%Z in G2. change (0x3e82c579 - 1)%Z with 0x3e82c578%Z in G3. change (0x00800000 - 1)%Z with 0x007fffff%Z in G4.
  rewrite (val_lit f32 0x3f0c9f55 9215829 16777216), (val_lit f32 0x3f0c9f54 2303957 4194304) in G1 by (vm_compute; reflexivity). rewrite (val_lit f32 0x41200001 10485761 1048576), (val_lit f32 0x41200000 10 1) in G2 by (vm_compute; reflexivity). rewrite (val_lit f32 0x3e82c579 8570233 33554432), (val_lit f32 0x3e82c578 1071279 4194304) in G3 by (vm_compute; reflexivity).
  assert (VM : val f32 0x00800000 = bpow radix2 (-126)). { rewrite (val_lit f32 0x00800000 1 (2 ^ 126)) by (vm_compute; reflexivity). change (bpow radix2 (-126)) with (/ IZR (2 ^ 126)). unfold Rdiv. ring. }
  assert (VL : val f32 0x007fffff <= bpow radix2 (-126)). { rewrite (val_lit f32 0x007fffff (2 ^ 23 - 1) (2 ^ 149)) by (vm_compute; reflexivity). replace (bpow radix2 (-126)) with (bpow radix2 23 * bpow radix2 (-149)) by (rewrite <- bpow_plus; reflexivity). change (bpow radix2 (-149)) with (/ IZR (2 ^ 149)). apply Rmult_le_compat_r; [left; apply Rinv_0_lt_compat; apply IZR_lt; vm_compute; reflexivity|]. change (bpow radix2 23) with (IZR (2 ^ 23)). apply IZR_le. vm_compute; discriminate. }
  rewrite VM in G4. fold X in G1, G2, G3, G4. pose proof ln2_lo as L2. 
  assert (EM : forall c s, finite f32 c = true -> val f32 c = s -> Rabs s = 2 -> X <= 21 -> exists t, rs_expm1f (fmul f32 c (a32 x)) = Some t /\ rel_err f32 2 (exp (s * X) - 1) t).
  { intros c s Fc Vc As XU. destruct (dbl f32 c (a32 x) Fc ltac:(now rewrite Vc) B3) as (D1 & D2 & D3). { rewrite B4. fold X. rewrite Rabs_pos_eq by lra. lra. } { vm_compute; discriminate. } rewrite Vc, B4 in D3. fold X in D3. rewrite <- D3. apply expm1f_within; try assumption. rewrite D3. pose proof (Rle_abs s). assert (s * X <= 2 * X) by (apply Rmult_le_compat_r; lra). lra. }
  assert (CORE : exists r, (if (0x3f0c9f55 <=? a32 x)%Z then if (0x41200001 <=? a32 x)%Z then Some (fadd f32 0x3f800000 (fdiv f32 0 (a32 x))) else (let* t := rs_expm1f (fmul f32 0x40000000 (a32 x)) in Some (fsub f32 0x3f800000 (fdiv f32 0x40000000 (fadd f32 t 0x40000000))))
     else if (0x3e82c579 <=? a32 x)%Z then (let* t := rs_expm1f (fmul f32 0x40000000 (a32 x)) in Some (fdiv f32 t (fadd f32 t 0x40000000))) else if (0x00800000 <=? a32 x)%Z then (let* t := rs_expm1f (fmul f32 0xc0000000 (a32 x)) in Some (fdiv f32 (Format.fneg f32 t) (fadd f32 t 0x40000000))) else Some (a32 x)) = Some r /\ rel_err f32 4 (tanh X) r).
  { destruct (0x3f0c9f55 <=? a32 x)%Z; [destruct G1 as [G1 _]; specialize (G1 eq_refl); destruct (0x41200001 <=? a32 x)%Z|destruct G1 as [_ G1]; specialize (G1 eq_refl); destruct (0x3e82c579 <=? a32 x)%Z; [|destruct (0x00800000 <=? a32 x)%Z]].
    - destruct G2 as [G2 _]. specialize (G2 eq_refl). eexists. split; [reflexivity|]. destruct (one_zero f32 C1 C2 C3 C4 _ _ o32 w32 (bpow radix2 (bias f32 + 1)) eq_refl 0 (a32 x) (proj1 z32) (proj2 z32) B3 ltac:(rewrite B4; fold X; lra)) as [_ (O1 & O2 & O3)]. apply (one_tanh f32 C1 C2 C3 C4 _ _ o32 w32); try assumption. rewrite ppf. pose proof (e_pw 25 (2 * X) ltac:(lra)) as E. change (bpow radix2 25) with 33554432 in E. lra.
    - destruct G2 as [_ G2]. specialize (G2 eq_refl). destruct (EM 0x40000000%Z 2 (proj1 (proj2 w32)) (proj2 (proj2 w32)) ltac:(apply Rabs_pos_eq; lra) ltac:(lra)) as (t & Et & Rt). rewrite Et. eexists. split; [reflexivity|]. apply (tanh_big f32 C1 C2 C3 C4 _ _ o32 w32 (bpow radix2 (bias f32 + 1)) eq_refl); [exact Rt|lra|]. change 1180591620717411303424 with (bpow radix2 70). apply e_pu. lra.
    - destruct G3 as [G3 _]. specialize (G3 eq_refl). destruct (EM 0x40000000%Z 2 (proj1 (proj2 w32)) (proj2 (proj2 w32)) ltac:(apply Rabs_pos_eq; lra) ltac:(lra)) as (t & Et & Rt). rewrite Et. eexists. split; [reflexivity|]. apply (tanh_mid f32 C1 C2 C3 C4 _ _ o32 w32 (bpow radix2 (bias f32 + 1)) eq_refl); [exact Rt|lra|]. change 4 with (bpow radix2 2). apply e_pu. lra.
    - destruct G3 as [_ G3]. specialize (G3 eq_refl). destruct G4 as [G4 _]. specialize (G4 eq_refl). destruct (EM 0xc0000000%Z (-2) (proj1 m32) (proj2 m32) ltac:(rewrite Rabs_left; lra) ltac:(lra)) as (t & Et & Rt). rewrite Et. eexists. split; [reflexivity|]. replace (-2 * X) with (- (2 * X)) in Rt by ring. apply (th_small f32 C1 C2 C3 C4 _ _ o32 w32); [exact Rt|split; [exact G4|lra]|apply e_ts; lra].
    - destruct G4 as [_ G4]. specialize (G4 eq_refl). exists (a32 x). split; [reflexivity|]. replace X with (val f32 (a32 x)) by exact B4. apply (tiny_tanh f32 C1 C2 C3 C4 _ _ o32 w32); try assumption. rewrite B4. fold X. split; [lra|]. change (emin f32 + mw f32)%Z with (-126)%Z. lra. }
  destruct CORE as (r & E & R).
  assert (EQ : rs_tanhf x = Some (if signbit f32 x then Format.fneg f32 r else r)).
  { unfold rs_tanhf. cbv zeta. words32 x B. rewrite !ltle. change (0x3f0c9f54 + 1)%Z with 0x3f0c9f55%Z. change (0x41200000 + 1)%Z with 0x41200001%Z. change (0x3e82c578 + 1)%Z with 0x3e82c579%Z. change 0x800000%Z with 0x00800000%Z.
    destruct (0x3f0c9f55 <=? a32 x)%Z; [destruct (0x41200001 <=? a32 x)%Z|destruct (0x3e82c579 <=? a32 x)%Z; [|destruct (0x00800000 <=? a32 x)%Z]].
    - injection E as <-. cbn [bind]. rewrite negb_involutive. now destruct (signbit f32 x).
    - destruct (rs_expm1f (fmul f32 0x40000000 (a32 x))); [|discriminate E]. injection E as <-. cbn [bind]. rewrite negb_involutive. now destruct (signbit f32 x).
    - destruct (rs_expm1f (fmul f32 0x40000000 (a32 x))); [|discriminate E]. injection E as <-. cbn [bind]. rewrite negb_involutive. now destruct (signbit f32 x).
    - destruct (rs_expm1f (fmul f32 0xc0000000 (a32 x))); [|discriminate E]. injection E as <-. cbn [bind]. rewrite negb_involutive. now destruct (signbit f32 x).
    - injection E as <-. cbn [bind]. rewrite negb_involutive. now destruct (signbit f32 x). }
  rewrite EQ, SG. eexists. split; [reflexivity|]. destruct (signbit f32 x); [|exact R]. now apply (rel_neg f32 C1 C2 C3 C4).
Qed.
Lemma sinhf_witness : rs_sinhf 0x42b17181 = Some 0x7fc00000%Z /\ Rabs (sinh (val f32 0x42b17181)) < bpow radix2 127.
Proof.
  split; [vm_compute; reflexivity|]. rewrite (val_lit f32 0x42b17181 11628929 131072) by (vm_compute; reflexivity). set (X := 11628929 / 131072). pose proof ln2_lo as L. assert (E : exp X < bpow radix2 128) by (rewrite <- exp_ln2; apply exp_increasing; unfold X; lra). change 128%Z with (127 + 1)%Z in E. rewrite bpow_plus in E. change (bpow radix2 1) with 2 in E. pose proof (exp_pos (- X)). assert (exp (- X) < exp X) by (apply exp_increasing; unfold X; lra). unfold sinh. rewrite Rabs_pos_eq; lra.
Qed.
Lemma sinhf_not c : ~ sinh_like f32 c rs_sinhf.
Proof.
  intros H. destruct sinhf_witness as [E L]. destruct (H 0x42b17181%Z ltac:(split; vm_compute; (reflexivity || discriminate)) eq_refl I) as [[r [R1 (_ & R2 & _)]] _]. { eapply Rlt_trans; [exact L|]. apply bpow_lt. vm_compute; reflexivity. } rewrite E in R1. injection R1 as <-. discriminate R2.
Qed.

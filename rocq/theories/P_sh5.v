(** sinh, cosh and tanh in double precision. *)
From Coq Require Import ZArith Reals Lia Lra Bool List Psatz.
From Flocq Require Import Core.
From Verif Require Import Base Spec SpecFun SpecExp SpecLog2 SpecExpm1 SpecHyp2 Format P_format Ieee P_ieee P_real P_neg P_lit P_err P_apx P_expa7 P_expa9 P_expa11 P_hy1 P_hy2 P_em2 P_em6 P_sh1 P_sh2 P_sh3 P_sh4 P_elem P_elem2 P_dom P_tot P_gam6 M_sqrt M_elib M_exp.
Open Scope R_scope.
Local Opaque fadd fsub fmul fdiv of_int rs_exp rs_expm1.

Lemma ltge a b : (a <? b)%Z = negb (b <=? a)%Z. Proof. now rewrite Z.leb_antisym, negb_involutive. Qed.
Lemma ltle a b : (a <? b)%Z = (a + 1 <=? b)%Z. Proof. destruct (Z.ltb_spec a b), (Z.leb_spec (a + 1) b); try reflexivity; lia. Qed.
Lemma A1 : (23 <= mw f64)%Z. Proof. vm_compute; discriminate. Qed.
Lemma A2 : (pr f64 + 101 <= 1 - emin f64)%Z. Proof. vm_compute; discriminate. Qed.
Lemma A3 : (90 <= bias f64)%Z. Proof. vm_compute; discriminate. Qed.
Lemma A4 : (pr f64 <= 53)%Z. Proof. vm_compute; discriminate. Qed.
Lemma pp : bpow radix2 (- pr f64) = / 9007199254740992. Proof. reflexivity. Qed.
Lemma o64 : isbits f64 0x3ff0000000000000 /\ finite f64 0x3ff0000000000000 = true /\ val f64 0x3ff0000000000000 = 1.
Proof. split; [split; [discriminate|reflexivity]|]. split; [reflexivity|]. rewrite (val_lit f64 0x3ff0000000000000 1 1) by (vm_compute; reflexivity). lra. Qed.
Lemma w64 : isbits f64 0x4000000000000000 /\ finite f64 0x4000000000000000 = true /\ val f64 0x4000000000000000 = 2.
Proof. split; [split; [discriminate|reflexivity]|]. split; [reflexivity|]. rewrite (val_lit f64 0x4000000000000000 2 1) by (vm_compute; reflexivity). lra. Qed.
Lemma m64 : finite f64 0xc000000000000000 = true /\ val f64 0xc000000000000000 = -2.
Proof. split; [reflexivity|]. rewrite (val_lit f64 0xc000000000000000 (-2) 1) by (vm_compute; reflexivity). lra. Qed.
Lemma z64 : finite f64 0 = true /\ val f64 0 = 0.
Proof. split; [reflexivity|]. rewrite (val_lit f64 0 0 1) by (vm_compute; reflexivity). lra. Qed.
Lemma h64p : finite f64 0x3fe0000000000000 = true /\ val f64 0x3fe0000000000000 = / 2.
Proof. split; [reflexivity|]. rewrite (val_lit f64 0x3fe0000000000000 1 2) by (vm_compute; reflexivity). lra. Qed.
Lemma h64n : finite f64 0xbfe0000000000000 = true /\ val f64 0xbfe0000000000000 = - / 2.
Proof. split; [reflexivity|]. rewrite (val_lit f64 0xbfe0000000000000 (-1) 2) by (vm_compute; reflexivity). lra. Qed.
Lemma sc64 : val f64 0x7fc0000000000000 = bpow radix2 1021.
Proof. rewrite (val_lit f64 0x7fc0000000000000 (2 ^ 1021) 1) by (vm_compute; reflexivity). change (bpow radix2 1021) with (IZR (2 ^ 1021)). unfold Rdiv. rewrite Rinv_1. ring. Qed.
Lemma kl64 : val f64 0x40962066151add8b = 6228072300469643 / 4398046511104. Proof. apply val_lit; vm_compute; reflexivity. Qed.
Lemma klb : Rabs (val f64 0x40962066151add8b - IZR 2043 * ln 2) <= 52 / 100 * bpow radix2 (- pr f64).
Proof. rewrite kl64, pp. pose proof ln2_b as L. apply Rabs_le_inv in L. change (2 ^ 86)%Z with 77371252455336267181195264%Z in L. apply Rabs_le. lra. Qed.
Lemma klr : 0 < val f64 0x40962066151add8b <= bpow radix2 (bias f64).
Proof. rewrite kl64. split; [lra|]. apply Rle_trans with (bpow radix2 20); [change (bpow radix2 20) with 1048576; lra|apply bpow_le; vm_compute; discriminate]. Qed.
Definition x1 : Z := 0x408633ce8fb9f87e.
Lemma vx1 : val f64 x1 = 3124705877621823 / 4398046511104. Proof. apply val_lit; vm_compute; reflexivity. Qed.
Lemma vx0 : val f64 (x1 - 1) = 6249411755243645 / 8796093022208. Proof. apply val_lit; vm_compute; reflexivity. Qed.
Lemma e60 X : 726817 / 1024 <= X -> 1152921504606846976 <= exp X.
Proof. intros H. change 1152921504606846976 with (bpow radix2 60). apply e_pw. pose proof ln2_lo. lra. Qed.

(** the branch of the large arguments *)
Lemma ko_fin y : isbits f64 y -> finite f64 y = true -> 726817 / 1024 <= val f64 y <= 6249411755243645 / 8796093022208 ->
  (1 + 4 * bpow radix2 (- pr f64)) * (exp (val f64 y) / 2) < bpow radix2 (bias f64 + 1) /\ exists r, rs_k_expo2 y = Some r /\ RE f64 r (exp (val f64 y) / 2) 3.
Proof.
  intros B G H. pose proof ln2_b as L. apply Rabs_le_inv in L. change (2 ^ 86)%Z with 77371252455336267181195264%Z in L.
  assert (U : (1 + 4 * bpow radix2 (- pr f64)) * (exp (val f64 y) / 2) < bpow radix2 (bias f64 + 1)).
  { pose proof (e_below 1025 (7 / 100000000000000) (val f64 y) ltac:(lra) ltac:(lra)) as E. rewrite pp. change (bias f64 + 1)%Z with 1024%Z. change 1025%Z with (1024 + 1)%Z in E. rewrite bpow_plus in E. change (bpow radix2 1) with 2 in E. pose proof (bpow_gt_0 radix2 1024). set (b := bpow radix2 1024) in *. lra. }
  split; [exact U|].
  destruct (expo2_fin f64 A1 A2 A3 rs_exp exp_within 0x40962066151add8b 0x7fc0000000000000 2043 1021 eq_refl eq_refl sc64 ltac:(lia) ltac:(lia) klb klr ltac:(vm_compute; reflexivity) y B G) as (v & Ev & R).
  - rewrite kl64. lra.
  - change (emin f64 + mw f64 + 2)%Z with (-1020)%Z. apply e_pw. rewrite kl64. lra.
  - exact U.
  - exists (fmul f64 (fmul f64 v 0x7fc0000000000000) 0x7fc0000000000000). split; [|exact R]. unfold rs_k_expo2. cbv zeta. rewrite Ev. reflexivity.
Qed.
Lemma x1_big : (1 + 4 * bpow radix2 (- pr f64)) * bpow radix2 (bias f64 + 1) <= exp (val f64 x1) / 2.
Proof.
  pose proof ln2_b as L. apply Rabs_le_inv in L. change (2 ^ 86)%Z with 77371252455336267181195264%Z in L. rewrite vx1, pp. pose proof (e_above 1025 (3 / 100000000000000) (3124705877621823 / 4398046511104) ltac:(lra) ltac:(lra)) as E. change (bias f64 + 1)%Z with 1024%Z. change 1025%Z with (1024 + 1)%Z in E. rewrite bpow_plus in E. change (bpow radix2 1) with 2 in E. pose proof (bpow_gt_0 radix2 1024). set (b := bpow radix2 1024) in *. lra.
Qed.
Lemma ko_inf y : isbits f64 y -> finite f64 y = true -> val f64 x1 <= val f64 y -> (1 + 4 * bpow radix2 (- pr f64)) * bpow radix2 (bias f64 + 1) <= exp (val f64 y) / 2 /\ rs_k_expo2 y = Some (infinity f64 false).
Proof.
  intros B G H. pose proof ln2_b as L. apply Rabs_le_inv in L. change (2 ^ 86)%Z with 77371252455336267181195264%Z in L. split. { pose proof x1_big. pose proof (exp_mono _ _ H). lra. }
  destruct (expo2_inf f64 A1 A2 A3 rs_exp exp_within 0x40962066151add8b 0x7fc0000000000000 2043 1021 eq_refl eq_refl sc64 ltac:(lia) ltac:(lia) klb klr ltac:(vm_compute; reflexivity) x1 y ltac:(split; vm_compute; (reflexivity || discriminate)) eq_refl) as (v & Ev & R); try assumption.
  - rewrite vx1, kl64. lra.
  - change (emin f64 + mw f64 + 2)%Z with (-1020)%Z. apply e_pw. rewrite kl64, vx1. lra.
  - exact x1_big.
  - unfold rs_k_expo2. cbv zeta. rewrite Ev. cbn [bind]. now rewrite R.
Qed.
Lemma em64 y : isbits f64 y -> finite f64 y = true -> exp (val f64 y) <= (1 - / 100000) * bpow radix2 1024 -> exists t, rs_expm1 y = Some t /\ rel_err f64 2 (exp (val f64 y) - 1) t.
Proof. intros B G H. destruct (expm1_within y B G) as [E _]. apply E. change (bias f64 + 1)%Z with 1024%Z. pose proof (bpow_gt_0 radix2 1024). lra. Qed.
Lemma below64 X : X <= 6243310490353663 / 8796093022208 -> exp X <= (1 - / 100000) * bpow radix2 (bias f64 + 1).
Proof.
  intros H. pose proof ln2_lo as L. pose proof (e_below 1024 (/ 5000) X ltac:(lra) ltac:(lra)) as E. change (bias f64 + 1)%Z with 1024%Z. pose proof (bpow_gt_0 radix2 1024). set (b := bpow radix2 1024) in *. lra.
Qed.
(** multiplication by 1 or -1 *)
Lemma mul_c F c r V q : finite F c = true -> Rabs (val F c) = 1 -> rel_err F q V r -> rel_err F q (val F c * V) (fmul F c r).
Proof.
  intros Fc Vc (B & G & C). destruct (ab_sc F c r 0 Fc G Vc ltac:(lia)) as [(B2 & G2 & V2) _]. { rewrite Rabs_mult, Vc, Rmult_1_l. now apply val_lt_max. }
  split; [exact B2|]. split; [exact G2|]. rewrite V2, <- Rmult_minus_distr_l, !Rabs_mult, Vc, !Rmult_1_l. exact C.
Qed.

Lemma sinh_sg F x : isbits F x -> finite F x = true -> (if signbit F x then - / 2 else / 2) * 2 * sinh (Rabs (val F x)) = sinh (val F x) /\ Rabs (sinh (val F x)) = sinh (Rabs (val F x)).
Proof.
  intros B G. assert (S0 : forall v, 0 <= v -> 0 <= sinh v). { intros v H. unfold sinh. pose proof (exp_mono (- v) v ltac:(lra)). lra. }
  destruct (signbit F x) eqn:S.
  - assert (H : val F x <= 0) by (now apply val_sign_nonpos). rewrite (Rabs_left1 _ H), sinh_odd. pose proof (S0 (- val F x) ltac:(lra)) as Q. rewrite sinh_odd in Q. split; [lra|]. rewrite Rabs_left1; lra.
  - assert (H : 0 <= val F x) by (now apply val_sign_nonneg). rewrite (Rabs_pos_eq _ H). split; [lra|]. apply Rabs_pos_eq. now apply S0.
Qed.
Theorem sinh_within : sinh_like f64 4 rs_sinh.
Proof.
  intros x B G _. destruct (val_a64 x B) as (B1 & B2 & B3 & B4). rewrite G in B3. destruct (sinh_sg f64 x B G) as [SG SA]. rewrite SA. set (X := Rabs (val f64 x)) in *. assert (X0 : 0 <= X) by apply Rabs_pos.
  set (h := (if signbit f64 x then 0xbfe0000000000000 else 0x3fe0000000000000)%Z). assert (Fh : finite f64 h = true) by (unfold h; destruct (signbit f64 x); reflexivity). assert (Vh : val f64 h = if signbit f64 x then - / 2 else / 2) by (unfold h; destruct (signbit f64 x); [apply h64n|apply h64p]).
  assert (Ah : Rabs (val f64 h) = / 2) by (rewrite Vh; destruct (signbit f64 x); [rewrite Rabs_Ropp|]; apply Rabs_pos_eq; lra). rewrite <- Vh in SG.
  assert (G1 := a64_ge x 0x40862e4200000000 B G ltac:(split; [discriminate|reflexivity])). assert (G2 := a64_ge x 0x3ff0000000000000 B G ltac:(split; [discriminate|reflexivity])). assert (G3 := a64_ge x 0x3e50000000000000 B G ltac:(split; [discriminate|reflexivity])). assert (G4 := a64_ge x x1 B G ltac:(split; [discriminate|reflexivity])). 
  change (0x40862e4200000000 - 1)%Z with 0x40862e41ffffffff%Z in G1. change (0x3ff0000000000000 - 1)%Z with 0x3fefffffffffffff%Z in G2. change (0x3e50000000000000 - 1)%Z with 0x3e4fffffffffffff%Z in G3.
  rewrite (val_lit f64 0x40862e4200000000 726817 1024) in G1 by (vm_compute; reflexivity). rewrite (val_lit f64 0x40862e41ffffffff 6243310490353663 8796093022208) in G1 by (vm_compute; reflexivity).
  rewrite (val_lit f64 0x3ff0000000000000 1 1), (val_lit f64 0x3fefffffffffffff 9007199254740991 9007199254740992) in G2 by (vm_compute; reflexivity). rewrite (val_lit f64 0x3e50000000000000 1 67108864), (val_lit f64 0x3e4fffffffffffff 9007199254740991 604462909807314587353088) in G3 by (vm_compute; reflexivity). rewrite vx0 in G4. fold X in G1, G2, G3, G4.
  assert (EQ : rs_sinh x = if (0x40862e4200000000 <=? a64 x)%Z then (let* v1 := rs_k_expo2 (a64 x) in Some (fmul f64 (fmul f64 0x4000000000000000 h) v1)) else let* t := rs_expm1 (a64 x) in if (0x3ff0000000000000 <=? a64 x)%Z then Some (fmul f64 h (fadd f64 t (fdiv f64 t (fadd f64 t 0x3ff0000000000000)))) else if (0x3e50000000000000 <=? a64 x)%Z then Some (fmul f64 h (fsub f64 (fmul f64 0x4000000000000000 t) (fdiv f64 (fmul f64 t t) (fadd f64 t 0x3ff0000000000000)))) else Some x).
  { unfold rs_sinh. cbv zeta. words64 x B. rewrite !ltge, !hi_le by lia. change (0x40862e42 * 2 ^ 32)%Z with 0x40862e4200000000%Z. change (0x3ff00000 * 2 ^ 32)%Z with 0x3ff0000000000000%Z. change (0x3e500000 * 2 ^ 32)%Z with 0x3e50000000000000%Z. replace (if negb (negb (signbit f64 x)) then Format.fneg f64 0x3fe0000000000000 else 0x3fe0000000000000%Z) with h by (unfold h; destruct (signbit f64 x); reflexivity).
    destruct (0x40862e4200000000 <=? a64 x)%Z; cbn [negb]; [reflexivity|]. destruct (rs_expm1 (a64 x)); [|reflexivity]. cbn [bind]. destruct (0x3ff0000000000000 <=? a64 x)%Z; cbn [negb]; [reflexivity|]. destruct (0x3e50000000000000 <=? a64 x)%Z; reflexivity. }
  rewrite EQ. clear EQ. destruct (0x40862e4200000000 <=? a64 x)%Z.
  - destruct G1 as [G1 _]. specialize (G1 eq_refl). set (c := fmul f64 0x4000000000000000 h). assert (Fc : finite f64 c = true) by (unfold c, h; destruct (signbit f64 x); vm_compute; reflexivity).
    assert (Vc : val f64 c = val f64 h * 2). { unfold c. destruct (ab_sc f64 0x4000000000000000 h 1 eq_refl Fh ltac:(rewrite (proj2 (proj2 w64)); change (bpow radix2 1) with 2; apply Rabs_pos_eq; lra) ltac:(lia)) as [(_ & _ & V2) _]. { rewrite (proj2 (proj2 w64)), Rabs_mult, Ah, Rabs_pos_eq by lra. apply Rle_lt_trans with (bpow radix2 0); [change (bpow radix2 0) with 1; lra|apply bpow_lt; vm_compute; reflexivity]. } rewrite V2, (proj2 (proj2 w64)). ring. }
    assert (Ac : Rabs (val f64 c) = 1) by (rewrite Vc, Rabs_mult, Ah, Rabs_pos_eq; lra).
    destruct (x1 <=? a64 x)%Z.
    + destruct G4 as [G4 _]. specialize (G4 eq_refl). destruct (ko_inf (a64 x) B1 B3 ltac:(rewrite B4; exact G4)) as [U E]. rewrite B4 in U. fold X in U. destruct (ge_big f64 A1 A2 A3 A4 _ _ o64 w64 (bpow radix2 (bias f64 + 1)) eq_refl X U) as [Q _]. split; [lra|intros _]. rewrite E. cbn [bind]. f_equal. unfold c, h. destruct (signbit f64 x); vm_compute; reflexivity.
    + destruct G4 as [_ G4]. specialize (G4 eq_refl). destruct (ko_fin (a64 x) B1 B3 ltac:(rewrite B4; fold X; lra)) as (U & r & E & R). rewrite B4 in U, R. fold X in U, R. pose proof (e60 X G1) as E6. destruct (lt_big f64 A1 A2 A3 A4 _ _ o64 w64 (bpow radix2 (bias f64 + 1)) eq_refl X E6 U) as [Q _]. split; [intros _|lra]. rewrite E. cbn [bind]. eexists. split; [reflexivity|]. rewrite <- SG, <- Vc. fold c. apply mul_c; [exact Fc|exact Ac|].
      destruct (big_sinh f64 A1 A2 A3 A4 _ _ o64 w64 (bpow radix2 (bias f64 + 1)) eq_refl r X R E6) as [R2 _]. apply (re_rel f64 A1 A2 A3 A4) with (k := 4); [|lra|exact R2]. pose proof (half_exp f64 A1 A2 A3 A4 _ _ o64 w64 (bpow radix2 (bias f64 + 1)) eq_refl X E6). unfold sinh. lra.
  - destruct G1 as [_ G1]. specialize (G1 eq_refl). pose proof (below64 X G1) as EU. destruct (em64 (a64 x) B1 B3 ltac:(rewrite B4; exact EU)) as (t & Et & Rt). rewrite B4 in Rt. fold X in Rt. rewrite Et. cbn [bind].
    assert (SM : sinh X < bpow radix2 (bias f64 + 1)). { unfold sinh. pose proof (exp_pos (- X)). pose proof (exp_pos X). pose proof (bpow_gt_0 radix2 (bias f64 + 1)). lra. } split; [intros _|lra]. rewrite <- SG. destruct (0x3ff0000000000000 <=? a64 x)%Z.
    + destruct G2 as [G2 _]. specialize (G2 eq_refl). eexists. split; [reflexivity|]. apply (sinh_mid f64 A1 A2 A3 A4 _ _ o64 w64 (bpow radix2 (bias f64 + 1)) eq_refl); try assumption. lra.
    + destruct G2 as [_ G2]. specialize (G2 eq_refl). destruct (0x3e50000000000000 <=? a64 x)%Z.
      * destruct G3 as [G3 _]. specialize (G3 eq_refl). eexists. split; [reflexivity|]. apply (sinh_small f64 A1 A2 A3 A4 _ _ o64 w64 (bpow radix2 (bias f64 + 1)) eq_refl); try assumption. lra.
      * destruct G3 as [_ G3]. specialize (G3 eq_refl). exists x. split; [reflexivity|]. rewrite SG. apply (tiny_sinh f64 A1 A2 A3 A4); try assumption; try lra; fold X; [lra|]. rewrite pp. nra.
Qed.
Theorem cosh_within : cosh_like f64 3 rs_cosh.
Proof.
  intros x B G _. destruct (val_a64 x B) as (B1 & B2 & B3 & B4). rewrite G in B3. set (X := Rabs (val f64 x)) in *. assert (X0 : 0 <= X) by apply Rabs_pos.
  assert (CX : cosh (val f64 x) = cosh X) by (symmetry; apply cosh_even). rewrite CX. assert (C0 : 0 < cosh X) by (unfold cosh; pose proof (exp_pos X); pose proof (exp_pos (- X)); lra). rewrite (Rabs_pos_eq (cosh X)) by lra.
  assert (G1 := a64_ge x 0x40862e4200000000 B G ltac:(split; [discriminate|reflexivity])). assert (G2 := a64_ge x 0x3fe62e4200000000 B G ltac:(split; [discriminate|reflexivity])). assert (G3 := a64_ge x 0x3e50000000000000 B G ltac:(split; [discriminate|reflexivity])). assert (G4 := a64_ge x x1 B G ltac:(split; [discriminate|reflexivity])). 
  change (0x40862e4200000000 - 1)%Z with 0x40862e41ffffffff%Z in G1. change (0x3fe62e4200000000 - 1)%Z with 0x3fe62e41ffffffff%Z in G2. change (0x3e50000000000000 - 1)%Z with 0x3e4fffffffffffff%Z in G3.
  rewrite (val_lit f64 0x40862e4200000000 726817 1024) in G1 by (vm_compute; reflexivity). rewrite (val_lit f64 0x40862e41ffffffff 6243310490353663 8796093022208) in G1 by (vm_compute; reflexivity).
  rewrite (val_lit f64 0x3fe62e4200000000 726817 1048576), (val_lit f64 0x3fe62e41ffffffff 6243310490353663 9007199254740992) in G2 by (vm_compute; reflexivity). rewrite (val_lit f64 0x3e50000000000000 1 67108864), (val_lit f64 0x3e4fffffffffffff 9007199254740991 604462909807314587353088) in G3 by (vm_compute; reflexivity). rewrite vx0 in G4. fold X in G1, G2, G3, G4.
  pose proof ln2_lo as L2. pose proof (bpow_gt_0 radix2 (bias f64 + 1)) as MP. assert (MB : 16 <= bpow radix2 (bias f64 + 1)). { change 16 with (bpow radix2 4). apply bpow_le. vm_compute; discriminate. }
  assert (EQ : rs_cosh x = if (0x3fe62e4200000000 <=? a64 x)%Z then (if (0x40862e4200000000 <=? a64 x)%Z then rs_k_expo2 (a64 x) else let* t := rs_exp (a64 x) in Some (fmul f64 0x3fe0000000000000 (fadd f64 t (fdiv f64 0x3ff0000000000000 t)))) else if (0x3e50000000000000 <=? a64 x)%Z then (let* t := rs_expm1 (a64 x) in Some (fadd f64 0x3ff0000000000000 (fdiv f64 (fmul f64 t t) (fmul f64 0x4000000000000000 (fadd f64 0x3ff0000000000000 t))))) else Some 0x3ff0000000000000%Z).
  { unfold rs_cosh. cbv zeta. rewrite land_a64, Z.shiftr_div_pow2 by lia. rewrite !ltge, !hi_le by lia. change (0x40862e42 * 2 ^ 32)%Z with 0x40862e4200000000%Z. change (0x3fe62e42 * 2 ^ 32)%Z with 0x3fe62e4200000000%Z. change (0x3e500000 * 2 ^ 32)%Z with 0x3e50000000000000%Z.
    destruct (0x3fe62e4200000000 <=? a64 x)%Z; cbn [negb]; [destruct (0x40862e4200000000 <=? a64 x)%Z; reflexivity|]. destruct (0x3e50000000000000 <=? a64 x)%Z; reflexivity. }
  rewrite EQ. clear EQ. destruct (0x3fe62e4200000000 <=? a64 x)%Z.
  - destruct G2 as [G2 _]. specialize (G2 eq_refl). destruct (0x40862e4200000000 <=? a64 x)%Z.
    + destruct G1 as [G1 _]. specialize (G1 eq_refl). destruct (x1 <=? a64 x)%Z.
      * destruct G4 as [G4 _]. specialize (G4 eq_refl). destruct (ko_inf (a64 x) B1 B3 ltac:(rewrite B4; exact G4)) as [U E]. rewrite B4 in U. fold X in U. destruct (ge_big f64 A1 A2 A3 A4 _ _ o64 w64 (bpow radix2 (bias f64 + 1)) eq_refl X U) as [_ Q]. split; [lra|intros _]. exact E.
      * destruct G4 as [_ G4]. specialize (G4 eq_refl). destruct (ko_fin (a64 x) B1 B3 ltac:(rewrite B4; fold X; lra)) as (U & r & E & R). rewrite B4 in U, R. fold X in U, R. pose proof (e60 X G1) as E6. destruct (lt_big f64 A1 A2 A3 A4 _ _ o64 w64 (bpow radix2 (bias f64 + 1)) eq_refl X E6 U) as [_ Q]. split; [intros _|lra]. exists r. split; [exact E|].
        destruct (big_sinh f64 A1 A2 A3 A4 _ _ o64 w64 (bpow radix2 (bias f64 + 1)) eq_refl r X R E6) as [_ R2]. apply (re_rel f64 A1 A2 A3 A4) with (k := 4); [lra|lra|exact R2].
    + destruct G1 as [_ G1]. specialize (G1 eq_refl). pose proof (below64 X G1) as EU. destruct (exp_within (a64 x) B1 B3) as [E _]. rewrite B4 in E. fold X in E. destruct (E ltac:(lra)) as (t & Et & Rt). rewrite Et. cbn [bind].
      assert (EL : 19 / 10 <= exp X). { pose proof (e_above 1 0 (X - (726817 / 1048576 - ln 2) + 0) ltac:(lra) ltac:(lra)) as Q. change (bpow radix2 1) with 2 in Q. replace X with ((X - (726817 / 1048576 - ln 2) + 0) + (726817 / 1048576 - ln 2)) by ring. rewrite exp_plus. pose proof (exp_ineq1_le (726817 / 1048576 - ln 2)). nra. }
      split; [intros _|]. { eexists. split; [reflexivity|]. apply (cosh_mid f64 A1 A2 A3 A4 _ _ o64 w64 (bpow radix2 (bias f64 + 1)) eq_refl); try assumption; apply h64p. }
      intros Q. exfalso. unfold cosh in Q. rewrite exp_Ropp in Q. pose proof (inv01 (exp X) ltac:(lra)). lra.
  - destruct G2 as [_ G2]. specialize (G2 eq_refl). assert (E2 : exp X <= 2) by (change 2 with (bpow radix2 1); apply e_pu; lra). assert (CS : cosh X < bpow radix2 (bias f64 + 1)). { unfold cosh. rewrite exp_Ropp. pose proof (exp_ineq1_le X). pose proof (inv01 (exp X) ltac:(lra)). lra. } split; [intros _|lra]. destruct (0x3e50000000000000 <=? a64 x)%Z.
    + destruct G3 as [G3 _]. specialize (G3 eq_refl). destruct (em64 (a64 x) B1 B3) as (t & Et & Rt). { rewrite B4. fold X. change 1024%Z with (bias f64 + 1)%Z. lra. } rewrite B4 in Rt. fold X in Rt. rewrite Et. cbn [bind]. eexists. split; [reflexivity|]. apply (cosh_small f64 A1 A2 A3 A4 _ _ o64 w64 (bpow radix2 (bias f64 + 1)) eq_refl); try assumption. lra.
    + destruct G3 as [_ G3]. specialize (G3 eq_refl). eexists. split; [reflexivity|]. apply (tiny_cosh f64 A1 A2 A3 A4 _ _ o64 w64); [lra|rewrite Rabs_pos_eq by lra; lra|]. rewrite !(Rabs_pos_eq X) by lra. rewrite pp. nra.
Qed.

(** Sign symmetry of [sinf], [cosf], [tanf]. *)
From Coq Require Import ZArith Reals Lia Lra Bool List Psatz.
From Flocq Require Import Core.
From Verif Require Import Base Spec SpecFun SpecAcc SpecSym Format P_format Ieee P_ieee P_real P_lit P_neg M_basic M_elib M_rempio2 M_trig
  P_elem P_elem2 P_tot P_sym P_sym2 P_sym3 P_err P_fx P_poly P_acc P_kerf P_kerf2 P_medf P_smallf P_rplf P_trigf P_tanf P_tanf2.
Open Scope Z_scope.
(** rounding to the nearest integer commutes with adding an even one *)
Lemma Zfloor_add x k : Zfloor (x + IZR k) = Zfloor x + k.
Proof. apply Zfloor_imp. rewrite !plus_IZR. pose proof (Zfloor_lb x). pose proof (Zfloor_ub x). cbn [IZR]. change (IPR 1) with 1%R. lra. Qed.
Lemma Zceil_add x k : Zceil (x + IZR k) = Zceil x + k.
Proof. unfold Zceil. replace (- (x + IZR k))%R with (- x + IZR (- k))%R by (rewrite opp_IZR; ring). rewrite Zfloor_add. lia. Qed.
Lemma ZnearestE_add x k : Z.even k = true -> ZnearestE (x + IZR k) = ZnearestE x + k.
Proof.
  intros E. unfold Znearest. rewrite Zfloor_add, Zceil_add. replace (x + IZR k - IZR (Zfloor x + k))%R with (x - IZR (Zfloor x))%R by (rewrite plus_IZR; ring).
  rewrite Z.even_add, E. destruct (Z.even (Zfloor x)); destruct (Rcompare _ _); reflexivity.
Qed.
Lemma ZnearestE_opp x : ZnearestE (- x) = - ZnearestE x.
Proof.
  rewrite Znearest_opp. f_equal. unfold Znearest. destruct (Rcompare _ _); try reflexivity. rewrite Z.even_opp, Z.even_add. change (Z.even 1) with false. destruct (Z.even (Zfloor x)); reflexivity.
Qed.
Lemma toint_E q : finite f64 q = true -> (Rabs (val f64 q) <= 1073741824)%R -> fx (fsub f64 (fadd f64 q TOINT_f) TOINT_f) (ZnearestE (val f64 q)) 0.
Proof.
  intros Fq Hq. apply Rabs_le_inv in Hq. replace TOINT_f with 0x4338000000000000 by (vm_compute; reflexivity).
  assert (VT : val f64 0x4338000000000000 = 6755399441055744%R) by (replace 6755399441055744%R with (6755399441055744 / 1)%R by lra; lit).
  assert (FT : finite f64 0x4338000000000000 = true) by (vm_compute; reflexivity).
  set (v := (val f64 q + 6755399441055744)%R).
  destruct (rounds_fin f64 _ _ _ (fadd_spec f64 q 0x4338000000000000 Fq FT)) as [Fs Es].
  { rewrite VT. fold v. apply Rabs_le. assert (bpow radix2 53 <= bpow radix2 (bias f64))%R by (apply bpow_le; vm_compute; discriminate). change (bpow radix2 53) with 9007199254740992%R in *. unfold v. lra. }
  rewrite VT in Es. fold v in Es.
  assert (Mg : mag radix2 v = 53%Z :> Z). { apply mag_unique. change (bpow radix2 (53 - 1)) with 4503599627370496%R. change (bpow radix2 53) with 9007199254740992%R. rewrite Rabs_pos_eq; unfold v; lra. }
  assert (RV : rnd f64 v = IZR (ZnearestE v)).
  { unfold rnd, Generic_fmt.round, F2R, scaled_mantissa, cexp. cbn [Fnum Fexp]. rewrite !Mg. change (FLT_exp (1 - bias f64 - mw f64) (mw f64 + 1) 53) with 0. cbn [Fnum Fexp bpow]. cbn [Z.opp bpow]. now rewrite !Rmult_1_r. }
  assert (EV : ZnearestE v = ZnearestE (val f64 q) + 6755399441055744) by (unfold v; apply ZnearestE_add; reflexivity).
  assert (NE : (Rabs (IZR (ZnearestE v) - v) <= / 2)%R) by (rewrite Rabs_minus_sym; apply Znearest_half).
  apply Rabs_le_inv in NE. rewrite EV, plus_IZR in NE. set (n := ZnearestE (val f64 q)) in *.
  assert (LO : -1073741825 <= n <= 1073741825).
  { assert (-1073741826 < n) by (apply lt_IZR; unfold v in NE; lra). assert (n < 1073741826) by (apply lt_IZR; unfold v in NE; lra). lia. }
  replace n with ((n + 6755399441055744) - 6755399441055744) by ring. apply fx_sub; [|split; [vm_compute; split; [discriminate|reflexivity]|split; [exact FT|rewrite VT; change (bpow radix2 0) with 1%R; ring]]|lia|lia].
  split; [apply fadd_isbits|]. split; [exact Fs|]. rewrite Es, RV, EV. change (bpow radix2 0) with 1%R. ring.
Qed.
(** exact opposites *)
Lemma fcvt_fneg x : isbits f32 x -> finite f64 (fcvt f32 f64 x) = true -> fcvt f32 f64 (fneg f32 x) = fneg f64 (fcvt f32 f64 x).
Proof.
  intros B F. pose proof (rel_fcvt f32 f64 true true _ _ (rel_fneg f32 true x B)) as R. apply (rel_eq f64 true _ _ R). now apply finite_not_nan.
Qed.
Lemma fx_neg a b n : fx a n 0 -> fx b (- n) 0 -> n <> 0 -> b = fneg f64 a.
Proof.
  intros (Ba & Fa & Va) (Bb & Fb & Vb) N. apply neg_by_val; try assumption.
  - rewrite Va. change (bpow radix2 0) with 1%R. rewrite Rmult_1_r. now apply IZR_neq.
  - rewrite Vb, Va, opp_IZR. ring.
Qed.

(** the reduction of the opposite argument *)
Lemma rem_neg_medium b x n y : isbits f32 x -> 0x40e231d5 < a32 x < 0x4dc90fdb -> rs_rem_pio2f_gen b x = Some (n, y) -> rs_rem_pio2f_gen b (fneg f32 x) = Some (- n, fneg f64 y).
Proof.
  intros B H E0. destruct (rem_pio2f_medium b x B ltac:(lia)) as (n1 & y1 & E1 & R & RN). rewrite E0 in E1. assert (Q : n = n1 /\ y = y1) by (split; congruence). destruct Q as [<- <-]. clear E1.
  pose proof (red_nz _ _ _ R) as NZ. destruct R as (By & Fy & _ & _ & _ & HR).
  revert E0. unfold rs_rem_pio2f_gen. cbv zeta. rewrite !land_a32, (a32_fneg x B). rewrite (proj2 (Z.ltb_lt _ _)) by lia.
  destruct (dec32 x B) as (M & HM & (B6 & F6 & V6) & VX & _ & _); [lia|]. rewrite (fcvt_fneg x B F6). rewrite <- VX in V6. set (x64 := fcvt f32 f64 x) in *.
  assert (XB : (7 <= Rabs (val f32 x) <= 536870912)%R).
  { assert (E1 : val f32 0x40e231d5 = (14823893 / 2097152)%R) by lit. assert (E2 : val f32 0x4dc90fdb = (421657440 / 1)%R) by lit. destruct (signbit f32 x) eqn:S.
    - destruct (P_ival2.IN_neg32 0x40e231d5 0x4dc90fdb x B S ltac:(lia) ltac:(lia) ltac:(lia)) as (_ & _ & I). cbn [fst snd] in I. rewrite !fneg_val in I by (split; [lia|reflexivity]). rewrite E1, E2 in I. rewrite Rabs_left by lra. lra.
    - destruct (P_ival2.IN_pos32 0x40e231d5 0x4dc90fdb x B S ltac:(lia) ltac:(lia) ltac:(lia)) as (_ & _ & I). cbn [fst snd] in I. rewrite E1, E2 in I. rewrite Rabs_pos_eq by lra. lra. }
  assert (N0 : n <> 0). { intros ->. replace (val f32 x - 0 * (PI / 2))%R with (val f32 x) in HR by ring. lra. }
  assert (FI : finite f64 INV_PIO2 = true) by (vm_compute; reflexivity).
  destruct (mul64 x64 INV_PIO2 536870912 F6 FI) as [Fq Eq]; [|apply big1000; lra|].
  { rewrite V6, INV_val, Rabs_mult. rewrite (Rabs_pos_eq (_ / _)) by lra. pose proof (Rabs_pos (val f32 x)). lra. }
  pose proof (fmul_isbits f64 x64 INV_PIO2) as Bq. pose proof (rel_fneg f64 false x64 B6) as Rx.
  assert (Rq : fmul f64 (fneg f64 x64) INV_PIO2 = fneg f64 (fmul f64 x64 INV_PIO2)).
  { pose proof (rel_fmul f64 true true false _ _ _ _ (rel_fneg f64 true x64 B6) (c_rel true INV_PIO2 ltac:(vm_compute; reflexivity))) as RM. apply (rel_eq f64 true _ _ RM). now apply finite_not_nan. }
  rewrite Rq. set (q := fmul f64 x64 INV_PIO2) in *.
  assert (QB : (Rabs (val f64 q) <= 1073741824)%R).
  { rewrite Eq. pose proof (rnd64_err (val f64 x64 * val f64 INV_PIO2)) as Qe. pose proof tiny200 as T. rewrite V6, INV_val in *. rewrite Rabs_mult, (Rabs_pos_eq (_ / _)) in Qe by lra.
    set (v := rnd f64 _) in *. replace v with ((v - val f32 x * (5734161139222659 / 9007199254740992)) + val f32 x * (5734161139222659 / 9007199254740992))%R by ring. eapply Rle_trans; [apply Rabs_triang|]. rewrite (Rabs_mult (val f32 x)), (Rabs_pos_eq (_ / _)) by lra. lra. }
  pose proof (toint_E q Fq QB) as T1. destruct (okv_neg q _ Bq Fq eq_refl) as (Bq' & Fq' & Vq').
  pose proof (toint_E (fneg f64 q) Fq' ltac:(rewrite Vq', Rabs_Ropp; exact QB)) as T2. rewrite Vq', ZnearestE_opp in T2.
  set (k := ZnearestE (val f64 q)) in *. set (fn := fsub f64 (fadd f64 q TOINT_f) TOINT_f) in *. set (fn' := fsub f64 (fadd f64 (fneg f64 q) TOINT_f) TOINT_f) in *.
  intros EE. assert (KN : to_i32 f64 fn = n) by congruence. assert (KB : -1073741825 <= k <= 1073741825).
  { pose proof (Znearest_half (fun x => negb (Z.even x)) (val f64 q)) as ZH. fold k in ZH. apply Rabs_le_inv in ZH. apply Rabs_le_inv in QB. split; apply Z.lt_succ_r, lt_IZR; [change (Z.succ k) with (k + 1)|change (Z.succ 1073741825) with 1073741826]; rewrite ?plus_IZR; lra. }
  rewrite (fx_toint_s fn k ltac:(lia) T1) in KN. subst k. rewrite KN in *. rewrite (fx_toint_s fn' (- n) ltac:(lia) T2). rewrite (fx_neg fn fn' n T1 T2 N0).
  do 2 f_equal. assert (YE : fsub f64 (fsub f64 x64 (fmul f64 fn PIO2_1f)) (fmul f64 fn PIO2_1Tf) = y) by congruence.
  assert (RF := rel_fneg f64 false fn (proj1 T1)).
  assert (RY : rel f64 false true y (fsub f64 (fsub f64 (fneg f64 x64) (fmul f64 (fneg f64 fn) PIO2_1f)) (fmul f64 (fneg f64 fn) PIO2_1Tf))).
  { rewrite <- YE. apply (rel_fsub f64 false true); [apply (rel_fsub f64 false true); [exact Rx|]|]; apply (rel_fmul f64 false true false); try exact RF; apply c_rel; vm_compute; reflexivity. }
  apply (rel_eq f64 true _ _ (rel_strict _ _ _ _ RY (fun _ => NZ))). now apply finite_not_nan.
Qed.
Lemma rem_neg_large b x n y : isbits f32 x -> 0x4dc90fdb <= a32 x < 0x7f800000 -> rs_rem_pio2f_gen b x = Some (n, y) -> rs_rem_pio2f_gen b (fneg f32 x) = Some (- n, fneg f64 y).
Proof.
  intros B H E0. destruct (fneg_fields f32 x B) as (B' & S' & _). destruct (rem_pio2f_large b _ B' ltac:(rewrite (a32_fneg x B); lia)) as (n2 & y2 & k2 & E2 & _ & R2 & _).
  destruct (rem_pio2f_large b x B H) as (n1 & y1 & k1 & E1 & _ & R1 & _).
  pose proof (proj1 R2) as By2. pose proof (proj1 R1) as By1. assert (y1 = y) as -> by congruence. clear E1 R1 R2 n1 k1 k2. rewrite E2. revert E0 E2. unfold rs_rem_pio2f_gen. cbv zeta. rewrite !land_a32, (a32_fneg x B), !sg32, S' by assumption.
  rewrite (proj2 (Z.ltb_ge _ _)) by lia. rewrite (proj2 (Z.leb_gt _ _)) by lia.
  destruct (usub 32 (Z.shiftr (a32 x) 23) _) as [d|]; [|discriminate]. cbn [bind]. destruct (usub 32 (a32 x) _) as [c|]; [|discriminate]. cbn [bind].
  destruct (rem_pio2_large b _ _ _ _) as [[ty m]|]; [|discriminate]. cbn [bind]. destruct (arr_get ty 0) as [a|]; [|discriminate]. cbn [bind].
  destruct (signbit f32 x); cbn [negb bs Z.eqb].
  - destruct (sneg 32 m) as [m'|] eqn:SM; [|discriminate]. cbn [bind]. intros Q1 Q2. assert (m' = - m) by (unfold sneg, chk in SM; destruct (in_i 32 (- m)); congruence). subst m'.
    assert (n = - m) by congruence. assert (y = fneg f64 a) by congruence. assert (n2 = m) by congruence. assert (y2 = a) by congruence. subst. rewrite fneg_fneg by exact By2. do 2 f_equal. lia.
  - destruct (sneg 32 m) as [m'|] eqn:SM; [|discriminate]. cbn [bind]. intros Q1 Q2. assert (m' = - m) by (unfold sneg, chk in SM; destruct (in_i 32 (- m)); congruence). subst m'.
    congruence.
Qed.

(** the selections *)
Lemma sel_neg X n n' y : red_ok X n y -> n' mod 4 = (- n) mod 4 -> selS n' (fneg f64 y) = fneg f32 (selS n y) /\ selC n' (fneg f64 y) = selC n y.
Proof.
  intros R M. unfold selS, selC. rewrite M, (red_sin_odd _ _ _ R), (red_cos_even _ _ _ R).
  assert (BS : isbits f32 (rs_k_sinf y)) by (destruct (red_sin _ _ _ R) as [(A & _) _]; exact A). assert (BC : isbits f32 (rs_k_cosf y)) by (destruct (red_cos _ _ _ R) as (A & _); exact A).
  assert (D : n mod 4 = 0 /\ (- n) mod 4 = 0 \/ n mod 4 = 1 /\ (- n) mod 4 = 3 \/ n mod 4 = 2 /\ (- n) mod 4 = 2 \/ n mod 4 = 3 /\ (- n) mod 4 = 1).
  { pose proof (Z.mod_pos_bound n 4 ltac:(lia)). destruct (Z.eq_dec (n mod 4) 0) as [Q | Q]; [rewrite Z.mod_opp_l_z by lia|rewrite Z.mod_opp_l_nz by lia]; lia. }
  destruct D as [[-> ->] | [[-> ->] | [[-> ->] | [-> ->]]]]; cbn [Z.eqb Pos.eqb]; rewrite ?fneg_fneg by assumption; auto.
Qed.
Lemma body_nz X n y : red_ok X n y -> finite f64 (k_tanf_body y) = true /\ val f64 (k_tanf_body y) <> 0%R.
Proof.
  intros R. pose proof (red_small _ _ _ R) as S. destruct R as (B & Fy & E1 & E2 & L). destruct (k_tanf_acc y B Fy S) as (a & EK & Ba & Fa & Ea). rewrite <- EK. split; [exact Fa|]. intros E0.
  cbv zeta in E1, E2, L. set (r := (X - IZR n * (PI / 2))%R) in *. pose proof (tan_rel_err _ _ r (proj2 S) Ea E1 E2 (proj2 L)) as T. rewrite E0, Rmult_0_l, Rminus_0_l, Rabs_Ropp in T.
  pose proof (sin_rel r (proj2 L)) as SR. pose proof (bpow_gt_0 radix2 (-70)). lra.
Qed.
Lemma body_weak y : isbits f64 y -> rel f64 false true (k_tanf_body y) (k_tanf_body (fneg f64 y)).
Proof.
  intros B. pose proof (rel_fneg f64 false y B) as R. pose proof (rel_weaken _ _ _ _ _ (rel_square _ _ _ _ _ R)) as RZ. unfold k_tanf_body. cbv zeta.
  set (z := fmul f64 y y) in *. set (z' := fmul f64 (fneg f64 y) (fneg f64 y)) in *.
  assert (RW : rel f64 false false (fmul f64 z z) (fmul f64 z' z')) by exact (rel_weaken _ _ _ _ _ (rel_square _ _ _ _ _ RZ)).
  assert (RS : rel f64 false true (fmul f64 z y) (fmul f64 z' (fneg f64 y))) by exact (rel_fmul f64 false false true _ _ _ _ RZ R).
  assert (LIN : forall a b, ((0 <=? a) && (a <? 2 ^ 64))%bool = true -> ((0 <=? b) && (b <? 2 ^ 64))%bool = true -> rel f64 false false (fadd f64 a (fmul f64 z b)) (fadd f64 a (fmul f64 z' b))).
  { intros a b Ha Hb. apply (rel_fadd f64 false false); [now apply c_rel|]. apply (rel_fmul f64 false false false); [exact RZ|now apply c_rel]. }
  apply (rel_fadd f64 false true).
  - apply (rel_fadd f64 false true); [exact R|]. apply (rel_fmul f64 false true false); [exact RS|]. apply LIN; reflexivity.
  - apply (rel_fmul f64 false true false); [apply (rel_fmul f64 false true false); [exact RS|exact RW]|]. apply (rel_fadd f64 false false); [apply LIN; reflexivity|]. apply (rel_fmul f64 false false false); [exact RW|]. apply LIN; reflexivity.
Qed.
Lemma tanf_neg X n y odd : red_ok X n y -> rel f32 true true (rs_k_tanf y odd) (rs_k_tanf (fneg f64 y) odd).
Proof.
  intros R. destruct (body_nz _ _ _ R) as [Fa Na]. pose proof (rel_strict _ _ _ _ (body_weak y (proj1 R)) (fun _ => Na)) as RB. rewrite !k_tanf_body_eq. apply rel_fcvt. destruct odd; [|exact RB].
  apply (rel_fdiv f64 true false true); [apply c_rel; reflexivity|exact RB].
Qed.
(** the three functions at opposite arguments *)
Definition sym_at (x : Z) : Prop := exists s c t, rs_sinf x = Some s /\ rs_cosf x = Some c /\ rs_tanf x = Some t /\ isbits f32 s /\ isbits f32 c /\
  rs_sinf (fneg f32 x) = Some (fneg f32 s) /\ rs_cosf (fneg f32 x) = Some c /\ exists t', rs_tanf (fneg f32 x) = Some t' /\ rel f32 true true t t'.
Lemma sym_from x n n' y : trig_at x n y -> trig_at (fneg f32 x) n' (fneg f64 y) -> n' mod 4 = (- n) mod 4 ->
  rs_tanf x = Some (rs_k_tanf y (negb (n mod 2 =? 0))) -> rs_tanf (fneg f32 x) = Some (rs_k_tanf (fneg f64 y) (negb (n' mod 2 =? 0))) -> sym_at x.
Proof.
  intros (R & S & C & _) (_ & S' & C' & _) M T T'. exists (selS n y), (selC n y), (rs_k_tanf y (negb (n mod 2 =? 0))). destruct (sel_neg _ _ _ _ R M) as [ES EC]. rewrite ES in S'. rewrite EC in C'.
  destruct (sel_faithful _ _ _ R) as [(BS & _) (BC & _)]. repeat (split; [assumption|]). eexists. split; [exact T'|].
  assert (E2 : n' mod 2 = n mod 2). { assert (H : forall k, k mod 2 = (k mod 4) mod 2) by (intros k; rewrite <- Znumtheory.Zmod_div_mod; try lia; exists 2; reflexivity). rewrite H, M, <- H. pose proof (Z.mod_pos_bound n 2 ltac:(lia)). destruct (Z.eq_dec (n mod 2) 0) as [Q | Q]; [rewrite Z.mod_opp_l_z by lia|rewrite Z.mod_opp_l_nz by lia]; lia. }
  rewrite E2. exact (tanf_neg _ _ _ _ R).
Qed.
Lemma red32_neg x S k : isbits f32 x -> 0x39800000 <= a32 x <= 0x40e231d5 -> isbits f64 S -> finite f64 S = true -> (0 <= val f64 S <= 10)%R -> red_ok (val f32 x) k (red32 x S) -> red32 (fneg f32 x) S = fneg f64 (red32 x S).
Proof.
  intros B H BS FS VS R. destruct (sm64 x B H) as (B6 & F6 & V6). pose proof (red_nz _ _ _ R) as NZ. unfold red32 in *. rewrite (proj1 (proj2 (fneg_fields f32 x B))), (fcvt_fneg x B F6). set (X := fcvt f32 f64 x) in *.
  destruct (okv_neg X _ B6 F6 eq_refl) as (Bn & Fn & Vn). apply Rabs_le_inv in V6.
  destruct (signbit f32 x); cbn [negb].
  - apply sub_neg; try assumption. apply Rabs_le. lra.
  - assert (E : (val f64 (fneg f64 X) + val f64 S = - (val f64 X - val f64 S))%R) by (rewrite Vn; ring). assert (A : (Rabs (val f64 X - val f64 S) <= 100)%R) by (apply Rabs_le; lra).
    destruct (add64 (fneg f64 X) S 100 Fn FS ltac:(rewrite E, Rabs_Ropp; exact A) ltac:(apply big1000; lra)) as [F1 E1]. destruct (sub64 X S 100 F6 FS A ltac:(apply big1000; lra)) as [F2 E2].
    apply neg_by_val; try apply fadd_isbits; try apply fsub_isbits; try assumption. rewrite E1, E2, E. apply rnd_opp.
Qed.
Lemma litS c (v : R) : isbits f64 c -> finite f64 c = true -> val f64 c = v -> (0 <= v <= 10)%R -> isbits f64 c /\ finite f64 c = true /\ (0 <= val f64 c <= 10)%R.
Proof. intros A B -> D. auto. Qed.
Ltac okc c v := destruct (litS c v) as (?BS & ?FS & ?VS); [vm_compute; split; [discriminate|reflexivity]|vm_compute; reflexivity|lit|lra|].
Ltac open_tan B := unfold rs_tanf; cbv zeta; destruct kT as (-> & -> & -> & ->); rewrite !(sgb _ B), !land_a32; brs.
Lemma small_sym x k S : isbits f32 x -> 0x39800000 <= a32 x <= 0x40e231d5 -> isbits f64 S -> finite f64 S = true -> (0 <= val f64 S <= 10)%R ->
  (forall z, isbits f32 z -> a32 z = a32 x -> trig_at z (if signbit f32 z then - k else k) (red32 z S)) ->
  (forall z, isbits f32 z -> a32 z = a32 x -> rs_tanf z = Some (rs_k_tanf (red32 z S) (negb (k mod 2 =? 0)))) -> sym_at x.
Proof.
  intros B H BS FS VS T1 T2. destruct (fneg_fields f32 x B) as (B' & S' & _). pose proof (T1 x B eq_refl) as A1. pose proof (T1 _ B' (a32_fneg x B)) as A2. pose proof (T2 x B eq_refl) as C1. pose proof (T2 _ B' (a32_fneg x B)) as C2.
  pose proof (proj1 A1) as R. rewrite S' in A2. rewrite (red32_neg x S _ B H BS FS VS R) in A2, C2.
  assert (K2 : (- k) mod 2 = k mod 2) by (pose proof (Z.mod_pos_bound k 2 ltac:(lia)); destruct (Z.eq_dec (k mod 2) 0) as [Q | Q]; [rewrite Z.mod_opp_l_z by lia|rewrite Z.mod_opp_l_nz by lia]; lia).
  apply (sym_from x _ _ _ A1 A2).
  - destruct (signbit f32 x); cbn [negb]; rewrite ?Z.opp_involutive; reflexivity.
  - rewrite C1. destruct (signbit f32 x); rewrite ?K2; reflexivity.
  - rewrite C2. destruct (signbit f32 x); cbn [negb]; rewrite ?K2; reflexivity.
Qed.
Lemma sym_all x : isbits f32 x -> 0x39800000 <= a32 x < 0x7f800000 -> sym_at x.
Proof.
  intros B H. destruct (fneg_fields f32 x B) as (B' & S' & _). pose proof (a32_fneg x B) as A'.
  destruct (Z_le_gt_dec (a32 x) 0x3f490fda).
  { pose proof (tr_0 x B ltac:(lia)) as A1. pose proof (tr_0 _ B' ltac:(lia)) as A2. destruct (sm64 x B ltac:(lia)) as (B6 & F6 & _). rewrite (fcvt_fneg x B F6) in A2.
    apply (sym_from x 0 0 _ A1 A2); [reflexivity| |]; [open_tan B|open_tan B'; rewrite (fcvt_fneg x B F6)]; reflexivity. }
  destruct (Z_le_gt_dec (a32 x) 0x4016cbe3).
  { okc 0x3ff921fb54442d18 (884279719003555/562949953421312)%R. apply (small_sym x 1 0x3ff921fb54442d18); try assumption; [lia| |]; intros z Bz Az; [apply tr_1; [exact Bz|lia]|open_tan Bz; reflexivity]. }
  destruct (Z_le_gt_dec (a32 x) 0x407b53d1).
  { okc 0x400921fb54442d18 (884279719003555/281474976710656)%R. apply (small_sym x 2 0x400921fb54442d18); try assumption; [lia| |]; intros z Bz Az; [apply tr_2; [exact Bz|lia]|open_tan Bz; reflexivity]. }
  destruct (Z_le_gt_dec (a32 x) 0x40afeddf).
  { okc 0x4012d97c7f3321d2 (2652839157010665/562949953421312)%R. apply (small_sym x 3 0x4012d97c7f3321d2); try assumption; [lia| |]; intros z Bz Az; [apply tr_3; [exact Bz|lia]|open_tan Bz; reflexivity]. }
  destruct (Z_le_gt_dec (a32 x) 0x40e231d5).
  { okc 0x401921fb54442d18 (884279719003555/140737488355328)%R. apply (small_sym x 4 0x401921fb54442d18); try assumption; [lia| |]; intros z Bz Az; [apply tr_4; [exact Bz|lia]|open_tan Bz; reflexivity]. }
  assert (G : exists n y n', rs_rem_pio2f x = Some (n, y) /\ rs_rem_pio2f (fneg f32 x) = Some (- n, fneg f64 y) /\ n' mod 8 = n mod 8 /\ red_ok (val f32 x) n' y).
  { destruct (Z_lt_le_dec (a32 x) 0x4dc90fdb).
    - destruct (rem_pio2f_medium true x B ltac:(lia)) as (n & y & E & R & _). exists n, y, n. split; [exact E|]. split; [apply rem_neg_medium; [exact B|lia|exact E]|]. auto.
    - destruct (rem_pio2f_large true x B ltac:(lia)) as (n & y & n' & E & M & R & _). exists n, y, n'. split; [exact E|]. split; [apply rem_neg_large; [exact B|lia|exact E]|]. auto. }
  destruct G as (n & y & n' & E & E' & M8 & R).
  assert (MM : forall j, (0 < j)%Z -> (j | 8) -> n' mod j = n mod j /\ (- n') mod j = (- n) mod j).
  { intros j Hj D. assert (Q : n' mod j = n mod j) by (rewrite (Znumtheory.Zmod_div_mod j 8 n'), (Znumtheory.Zmod_div_mod j 8 n), M8 by (try lia; assumption); reflexivity). split; [exact Q|].
    pose proof (Z.mod_pos_bound n j Hj). destruct (Z.eq_dec (n mod j) 0) as [Q0 | Q0]; [rewrite !Z.mod_opp_l_z by lia|rewrite !Z.mod_opp_l_nz by lia]; lia. }
  destruct (MM 4 ltac:(lia) ltac:(exists 2; reflexivity)) as [M4 M4']. destruct (MM 2 ltac:(lia) ltac:(exists 4; reflexivity)) as [M2 M2'].
  pose proof (red_ok_neg _ _ _ R) as R'. rewrite <- (fneg_val f32 x B) in R'.
  pose proof (tr_rem x n y n' B ltac:(lia) E M4 R) as A1. pose proof (tr_rem (fneg f32 x) (- n) (fneg f64 y) (- n') B' ltac:(lia) E' M4' R') as A2.
  apply (sym_from x _ _ _ A1 A2); [reflexivity| |].
  - open_tan B. rewrite E. cbn [bind]. rewrite land1, M2. reflexivity.
  - open_tan B'. rewrite E'. cbn [bind]. rewrite land1, M2'. reflexivity.
Qed.
Lemma odd_or x r r' : isbits f32 x -> r' = fneg f32 r -> isbits f32 r -> isnan f32 r = true /\ isnan f32 r' = true \/ isnan f32 r = false /\ r' = opposite f32 r.
Proof. intros _ -> B. destruct (isnan f32 r) eqn:N; [left; split; [reflexivity|]|right; split; [reflexivity|now rewrite opposite_fneg]]. rewrite <- N. exact (rel_nan _ _ _ _ _ (rel_fneg f32 true r B)). Qed.
Lemma small_tan x : isbits f32 x -> a32 x < 0x39800000 -> rs_tanf x = Some x.
Proof. intros B H. unfold rs_tanf. cbv zeta. rewrite !land_a32. brs. reflexivity. Qed.
Lemma inf_all x : isbits f32 x -> 0x7f800000 <= a32 x -> rs_sinf x = Some (fsub f32 x x) /\ rs_cosf x = Some (fsub f32 x x) /\ rs_tanf x = Some (fsub f32 x x).
Proof. intros B H. unfold rs_sinf, rs_cosf, rs_tanf. cbv zeta. rewrite !land_a32. brs. auto. Qed.
Lemma inf_nan x : isbits f32 x -> 0x7f800000 <= a32 x -> isnan f32 (fsub f32 x x) = true.
Proof.
  intros B H. assert (NF : finite f32 x = false) by (rewrite (fin32 x B); apply Z.ltb_ge; exact H). destruct (isnan f32 x) eqn:N; [apply fsub_nan; now rewrite N|].
  destruct (fin_or_inf f32 x N) as [Fx | I]; [congruence|]. pose proof (fsub_inf_inf f32 x x I I) as Q. destruct (signbit f32 x); cbn [Bool.eqb negb] in Q; exact Q.
Qed.
Theorem sinf_odd : odd_fn f32 rs_sinf.
Proof.
  intros x B N. rewrite opposite_fneg by exact B. pose proof (proj1 (fneg_fields f32 x B)) as B'. pose proof (a32_fneg x B) as A'. destruct (Z_lt_le_dec (a32 x) 0x39800000) as [H | H].
  - destruct (tiny_all x B H) as (-> & _). destruct (tiny_all _ B' ltac:(lia)) as (-> & _). eexists _, _. repeat (split; [reflexivity|]). now apply (odd_or x).
  - destruct (Z_lt_le_dec (a32 x) 0x7f800000) as [H2 | H2].
    + destruct (sym_all x B ltac:(lia)) as (s & c & t & -> & _ & _ & Bs & _ & -> & _). eexists _, _. repeat (split; [reflexivity|]). now apply (odd_or x).
    + destruct (inf_all x B H2) as (-> & _). destruct (inf_all _ B' ltac:(lia)) as (-> & _). eexists _, _. repeat (split; [reflexivity|]). left. split; apply inf_nan; try assumption; lia.
Qed.
Theorem cosf_even : even_fn f32 rs_cosf.
Proof.
  intros x B N. rewrite opposite_fneg by exact B. pose proof (proj1 (fneg_fields f32 x B)) as B'. pose proof (a32_fneg x B) as A'. destruct (Z_lt_le_dec (a32 x) 0x39800000) as [H | H].
  - destruct (tiny_all x B H) as (_ & -> & _). destruct (tiny_all _ B' ltac:(lia)) as (_ & -> & _). eexists _, _. repeat (split; [reflexivity|]). now right.
  - destruct (Z_lt_le_dec (a32 x) 0x7f800000) as [H2 | H2].
    + destruct (sym_all x B ltac:(lia)) as (s & c & t & _ & -> & _ & _ & _ & _ & -> & _). eexists _, _. repeat (split; [reflexivity|]). now right.
    + destruct (inf_all x B H2) as (_ & -> & _). destruct (inf_all _ B' ltac:(lia)) as (_ & -> & _). eexists _, _. repeat (split; [reflexivity|]). left. split; apply inf_nan; try assumption; lia.
Qed.
Theorem tanf_odd : odd_fn f32 rs_tanf.
Proof.
  intros x B N. rewrite opposite_fneg by exact B. pose proof (proj1 (fneg_fields f32 x B)) as B'. pose proof (a32_fneg x B) as A'. destruct (Z_lt_le_dec (a32 x) 0x39800000) as [H | H].
  - rewrite (small_tan x B H), (small_tan _ B') by lia. eexists _, _. repeat (split; [reflexivity|]). now apply (odd_or x).
  - destruct (Z_lt_le_dec (a32 x) 0x7f800000) as [H2 | H2].
    + destruct (sym_all x B ltac:(lia)) as (s & c & t & _ & _ & -> & _ & _ & _ & _ & t' & -> & R). eexists _, _. repeat (split; [reflexivity|]). destruct (isnan f32 t) eqn:Nt; [left; split; [reflexivity|now rewrite (rel_nan _ _ _ _ _ R)]|right; split; [reflexivity|]].
      rewrite opposite_fneg by (destruct R as (A & _); exact A). exact (rel_eq f32 true _ _ R Nt).
    + destruct (inf_all x B H2) as (_ & _ & ->). destruct (inf_all _ B' ltac:(lia)) as (_ & _ & ->). eexists _, _. repeat (split; [reflexivity|]). left. split; apply inf_nan; try assumption; lia.
Qed.

(** [sinf], [cosf], [sincosf]: one reduction serves all three. *)
From Coq Require Import ZArith Reals Lia Lra Bool List Psatz.
From Flocq Require Import Core.
From Verif Require Import Base Spec SpecFun SpecAcc Format P_format Ieee P_ieee P_real P_lit P_neg M_basic M_elib M_rempio2 M_trig
  P_elem P_elem2 P_ival P_ival2 P_tot P_sym P_err P_rem P_fx P_acc P_kerf P_kerf2 P_medf P_smallf P_rplf.
Open Scope Z_scope.
Open Scope fl_scope.

Definition selS (n y : Z) : Z :=
  if n mod 4 =? 0 then rs_k_sinf y else if n mod 4 =? 1 then rs_k_cosf y else if n mod 4 =? 2 then fneg f32 (rs_k_sinf y) else fneg f32 (rs_k_cosf y).
Definition selC (n y : Z) : Z :=
  if n mod 4 =? 0 then rs_k_cosf y else if n mod 4 =? 1 then fneg f32 (rs_k_sinf y) else if n mod 4 =? 2 then fneg f32 (rs_k_cosf y) else rs_k_sinf y.
Lemma sel_faithful X n y : red_ok X n y -> faithful f32 (sin X) (selS n y) /\ faithful f32 (cos X) (selC n y).
Proof.
  intros H. pose proof (proj1 (red_sin _ _ _ H)) as S. pose proof (red_cos _ _ _ H) as C. pose proof (quad X n) as Q. cbv zeta in Q. unfold selS, selC.
  set (r := (X - IZR n * (PI / 2))%R) in *. pose proof (Z.mod_pos_bound n 4 ltac:(lia)) as R. set (m := n mod 4) in *. clearbody m r.
  assert (D : m = 0 \/ m = 1 \/ m = 2 \/ m = 3) by lia. destruct D as [-> | [-> | [-> | ->]]]; destruct Q as [-> ->];
  [change (0 =? 0) with true|change (1 =? 0) with false; change (1 =? 1) with true|change (2 =? 0) with false; change (2 =? 1) with false; change (2 =? 2) with true|change (3 =? 0) with false; change (3 =? 1) with false; change (3 =? 2) with false]; cbv iota; split; try apply faithful_neg; assumption.
Qed.
Lemma neg_by_val p q : isbits f64 p -> isbits f64 q -> finite f64 p = true -> finite f64 q = true -> val f64 p <> 0%R -> val f64 q = (- val f64 p)%R -> q = fneg f64 p.
Proof.
  intros Bp Bq Fp Fq N V. destruct (okv_neg p _ Bp Fp eq_refl) as (B' & F' & V'). apply (val_sign_inj f64); auto; [congruence|].
  rewrite (fin_sign f64 true p q Bp Fp N V). rewrite (proj1 (proj2 (fneg_fields f64 p Bp))). reflexivity.
Qed.
Lemma sub_swap a b : isbits f64 a -> isbits f64 b -> finite f64 a = true -> finite f64 b = true -> (Rabs (val f64 a - val f64 b) <= 100)%R -> val f64 (fsub f64 a b) <> 0%R -> fsub f64 b a = fneg f64 (fsub f64 a b).
Proof.
  intros Ba Bb Fa Fb H N. destruct (sub64 a b 100 Fa Fb H ltac:(apply big1000; lra)) as [F1 E1]. destruct (sub64 b a 100 Fb Fa ltac:(rewrite Rabs_minus_sym; exact H) ltac:(apply big1000; lra)) as [F2 E2].
  apply neg_by_val; try apply fsub_isbits; try assumption. rewrite E2, E1. rewrite <- rnd_opp. f_equal. ring.
Qed.
Lemma sub_neg a b : isbits f64 a -> isbits f64 b -> finite f64 a = true -> finite f64 b = true -> (Rabs (val f64 a + val f64 b) <= 100)%R -> val f64 (fadd f64 a b) <> 0%R -> fsub f64 (fneg f64 a) b = fneg f64 (fadd f64 a b).
Proof.
  intros Ba Bb Fa Fb H N. destruct (add64 a b 100 Fa Fb H ltac:(apply big1000; lra)) as [F1 E1]. destruct (okv_neg a _ Ba Fa eq_refl) as (Bn & Fn & Vn).
  assert (EQ : (val f64 (fneg f64 a) - val f64 b = - (val f64 a + val f64 b))%R) by (rewrite Vn; ring).
  destruct (sub64 (fneg f64 a) b 100 Fn Fb ltac:(rewrite EQ, Rabs_Ropp; exact H) ltac:(apply big1000; lra)) as [F2 E2].
  apply neg_by_val; try apply fsub_isbits; try apply fadd_isbits; try assumption. rewrite E2, E1, EQ. apply rnd_opp.
Qed.
Lemma sm64 x : isbits f32 x -> 0x39800000 <= a32 x <= 0x40e231d5 -> isbits f64 (fcvt f32 f64 x) /\ finite f64 (fcvt f32 f64 x) = true /\ (Rabs (val f64 (fcvt f32 f64 x)) <= 10)%R.
Proof.
  intros B H. destruct (mult32 x 0x39800000 0x40e231d5 40 B ltac:(lia) H ltac:(lia) ltac:(vm_compute; discriminate)) as (m & EX & HM & B6 & F6 & V6).
  split; [exact B6|]. split; [exact F6|]. rewrite V6, EX, Rabs_mult. assert (0 <= val f32 0x39800000)%R by (apply pos_val32; lia). rewrite (Rabs_pos_eq (IZR m * _)) by lra.
  assert (E2 : val f32 0x40e231d5 = (14823893 / 2097152)%R) by lit. rewrite E2 in HM. assert (Rabs (sgn32 x) = 1%R) as -> by (unfold sgn32; destruct (signbit f32 x); [rewrite Rabs_left by lra; ring|apply Rabs_R1]). lra.
Qed.
Lemma ge_neg a : (-100 <= a)%R -> (a <= 100)%R -> (Rabs a <= 100)%R.
Proof. intros. apply Rabs_le. lra. Qed.
(** the constants *)
Lemma kS : rs_sinf_S1_PIO2 = 0x3ff921fb54442d18 /\ rs_sinf_S2_PIO2 = 0x400921fb54442d18 /\ rs_sinf_S3_PIO2 = 0x4012d97c7f3321d2 /\ rs_sinf_S4_PIO2 = 0x401921fb54442d18.
Proof. vm_compute. auto. Qed.
Lemma kC : rs_cosf_C1_PIO2 = 0x3ff921fb54442d18 /\ rs_cosf_C2_PIO2 = 0x400921fb54442d18 /\ rs_cosf_C3_PIO2 = 0x4012d97c7f3321d2 /\ rs_cosf_C4_PIO2 = 0x401921fb54442d18.
Proof. vm_compute. auto. Qed.
Lemma kSC : rs_sincosf_S1PIO2 = 0x3ff921fb54442d18 /\ rs_sincosf_S2PIO2 = 0x400921fb54442d18 /\ rs_sincosf_S3PIO2 = 0x4012d97c7f3321d2 /\ rs_sincosf_S4PIO2 = 0x401921fb54442d18.
Proof. vm_compute. auto. Qed.
Lemma red_nz X n y : red_ok X n y -> val f64 y <> 0%R.
Proof. intros H E. pose proof (red_small _ _ _ H) as [S _]. rewrite E, Rabs_R0 in S. pose proof (bpow_gt_0 radix2 (-100)). lra. Qed.
(** one reduction per argument *)
Definition trig_at (x n y : Z) : Prop := red_ok (val f32 x) n y /\ rs_sinf x = Some (selS n y) /\ rs_cosf x = Some (selC n y) /\ rs_sincosf x = Some (selS n y, selC n y).
Definition trig_ok (x : Z) : Prop := exists n y, trig_at x n y.
Ltac brs := repeat match goal with |- context [?a <=? ?b] => first [rewrite (proj2 (Z.leb_le a b)) by lia|rewrite (proj2 (Z.leb_gt a b)) by lia] | |- context [?a <? ?b] => first [rewrite (proj2 (Z.ltb_lt a b)) by lia|rewrite (proj2 (Z.ltb_ge a b)) by lia] end; cbv iota.
Lemma sgb x : isbits f32 x -> negb (Z.shiftr x 31 =? 0) = signbit f32 x.
Proof. intros B. rewrite (sg32 x B). destruct (signbit f32 x); reflexivity. Qed.
Ltac open_trig B := unfold rs_sinf, rs_cosf, rs_sincosf; cbv zeta; destruct kS as (-> & -> & -> & ->); destruct kC as (-> & -> & -> & ->); destruct kSC as (-> & -> & -> & ->); rewrite !(sgb _ B), !land_a32; brs.
Lemma tr_0 x : isbits f32 x -> 0x39800000 <= a32 x <= 0x3f490fda -> trig_at x 0 (fcvt f32 f64 x).
Proof.
  intros B H. split; [apply red_0; [exact B|lia]|]. open_trig B. unfold selS, selC. change (0 mod 4 =? 0) with true. cbv iota. auto.
Qed.
Lemma tr_1 x : isbits f32 x -> 0x3f490fda < a32 x <= 0x4016cbe3 -> trig_at x (if signbit f32 x then - (1) else 1) (red32 x 0x3ff921fb54442d18).
Proof.
  intros B H. pose proof (red_1 x B H) as R. split; [exact R|]. open_trig B. destruct (sm64 x B ltac:(lia)) as (B6 & F6 & V6).
  unfold selS, selC, red32 in *. destruct (signbit f32 x).
  - change (- (1) mod 4 =? 0) with false. change (- (1) mod 4 =? 1) with false. change (- (1) mod 4 =? 2) with false. cbv iota. auto.
  - change (1 mod 4 =? 0) with false. change (1 mod 4 =? 1) with true. cbv iota.
    assert (SW : fsub f64 0x3ff921fb54442d18 (fcvt f32 f64 x) = fneg f64 (fsub f64 (fcvt f32 f64 x) 0x3ff921fb54442d18)).
    { apply sub_swap; [exact B6|vm_compute; split; [discriminate|reflexivity]|exact F6|vm_compute; reflexivity| |exact (red_nz _ _ _ R)].
      assert (E : val f64 0x3ff921fb54442d18 = (884279719003555/562949953421312)%R) by lit. rewrite E. apply Rabs_le_inv in V6. apply Rabs_le. lra. }
    rewrite SW, (red_cos_even _ _ _ R), (red_sin_odd _ _ _ R). auto.
Qed.
Lemma tr_2 x : isbits f32 x -> 0x4016cbe3 < a32 x <= 0x407b53d1 -> trig_at x (if signbit f32 x then - (2) else 2) (red32 x 0x400921fb54442d18).
Proof.
  intros B H. pose proof (red_2 x B H) as R. split; [exact R|]. open_trig B.
  unfold selS, selC. unfold red32 in *. destruct (signbit f32 x).
  - change (- (2) mod 4 =? 0) with false. change (- (2) mod 4 =? 1) with false. change (- (2) mod 4 =? 2) with true. cbv iota. rewrite (red_sin_odd _ _ _ R). auto.
  - change (2 mod 4 =? 0) with false. change (2 mod 4 =? 1) with false. change (2 mod 4 =? 2) with true. cbv iota. rewrite (red_sin_odd _ _ _ R). auto.
Qed.
Lemma tr_3 x : isbits f32 x -> 0x407b53d1 < a32 x <= 0x40afeddf -> trig_at x (if signbit f32 x then - (3) else 3) (red32 x 0x4012d97c7f3321d2).
Proof.
  intros B H. pose proof (red_3 x B H) as R. split; [exact R|]. open_trig B. destruct (sm64 x B ltac:(lia)) as (B6 & F6 & V6).
  unfold selS, selC. unfold red32 in *. destruct (signbit f32 x).
  - change (- (3) mod 4 =? 0) with false. change (- (3) mod 4 =? 1) with true. cbv iota.
    assert (SW : fsub f64 (fneg f64 (fcvt f32 f64 x)) 0x4012d97c7f3321d2 = fneg f64 (fadd f64 (fcvt f32 f64 x) 0x4012d97c7f3321d2)).
    { apply sub_neg; [exact B6|vm_compute; split; [discriminate|reflexivity]|exact F6|vm_compute; reflexivity| |exact (red_nz _ _ _ R)].
      assert (E : val f64 0x4012d97c7f3321d2 = (2652839157010665/562949953421312)%R) by lit. rewrite E. apply Rabs_le_inv in V6. apply Rabs_le. lra. }
    rewrite SW, (red_sin_odd _ _ _ R). auto.
  - change (3 mod 4 =? 0) with false. change (3 mod 4 =? 1) with false. change (3 mod 4 =? 2) with false. cbv iota. auto.
Qed.
Lemma tr_4 x : isbits f32 x -> 0x40afeddf < a32 x <= 0x40e231d5 -> trig_at x (if signbit f32 x then - (4) else 4) (red32 x 0x401921fb54442d18).
Proof.
  intros B H. pose proof (red_4 x B H) as R. split; [exact R|]. open_trig B.
  unfold selS, selC. unfold red32 in *. destruct (signbit f32 x).
  - change (- (4) mod 4 =? 0) with true. cbv iota. auto.
  - change (4 mod 4 =? 0) with true. cbv iota. auto.
Qed.
Lemma land3 n : Z.land n 3 = n mod 4.
Proof. change 3 with (Z.ones 2). rewrite Z.land_ones by lia. reflexivity. Qed.
Lemma tr_rem x n y n' : isbits f32 x -> 0x40e231d5 < a32 x < 0x7f800000 -> rs_rem_pio2f x = Some (n, y) -> n' mod 4 = n mod 4 -> red_ok (val f32 x) n' y -> trig_at x n' y.
Proof.
  intros B H E M R. split; [exact R|]. open_trig B. rewrite E. cbn [bind]. rewrite !land3. unfold selS, selC. rewrite M. rewrite ?(red_sin_odd _ _ _ R), ?(red_cos_even _ _ _ R).
  pose proof (Z.mod_pos_bound n 4 ltac:(lia)). destruct (Z.eqb_spec (n mod 4) 0); [auto|]. destruct (Z.eqb_spec (n mod 4) 1); [auto|]. destruct (Z.eqb_spec (n mod 4) 2); [auto|]. assert (n mod 4 = 3) as -> by lia. auto.
Qed.
Lemma trigf x : isbits f32 x -> 0x39800000 <= a32 x < 0x7f800000 -> trig_ok x.
Proof.
  intros B H. destruct (Z_le_gt_dec (a32 x) 0x3f490fda); [eexists _, _; apply tr_0; [exact B|lia]|]. destruct (Z_le_gt_dec (a32 x) 0x4016cbe3); [eexists _, _; apply tr_1; [exact B|lia]|].
  destruct (Z_le_gt_dec (a32 x) 0x407b53d1); [eexists _, _; apply tr_2; [exact B|lia]|]. destruct (Z_le_gt_dec (a32 x) 0x40afeddf); [eexists _, _; apply tr_3; [exact B|lia]|].
  destruct (Z_le_gt_dec (a32 x) 0x40e231d5); [eexists _, _; apply tr_4; [exact B|lia]|]. destruct (Z_lt_le_dec (a32 x) 0x4dc90fdb).
  - destruct (rem_pio2f_medium true x B ltac:(lia)) as (n & y & E & R & _). exists n, y. apply (tr_rem x n y n); [exact B|lia|exact E|reflexivity|exact R].
  - destruct (rem_pio2f_large true x B ltac:(lia)) as (n & y & n' & E & M & R & _). exists n', y. apply (tr_rem x n y n'); [exact B|lia|exact E| |exact R].
    change 8 with (4 * 2) in M. rewrite !Z.rem_mul_r in M by lia. pose proof (Z.mod_pos_bound n 4 ltac:(lia)). pose proof (Z.mod_pos_bound n' 4 ltac:(lia)). lia.
Qed.
(** below 2^-12 *)
Lemma tiny_val x : isbits f32 x -> a32 x < 0x39800000 -> finite f32 x = true /\ (Rabs (val f32 x) <= / 4096)%R.
Proof.
  intros B H. assert (E : val f32 0x39800000 = (/ 4096)%R) by (assert (val f32 0x39800000 = (1 / 4096)%R) as -> by lit; lra).
  assert (A0 : 0 <= a32 x) by (unfold a32; apply Z.mod_pos_bound; lia).
  destruct (signbit f32 x) eqn:S.
  - destruct (IN_neg32 0 0x39800000 x B S ltac:(lia) ltac:(lia) ltac:(lia)) as (_ & Fi & I). cbn [fst snd] in I. rewrite !fneg_val in I by (split; [lia|reflexivity]). rewrite E in I. assert (val f32 0 = 0%R) as Z0 by (apply zero_ok). rewrite Z0 in I. split; [exact Fi|]. apply Rabs_le. lra.
  - destruct (IN_pos32 0 0x39800000 x B S ltac:(lia) ltac:(lia) ltac:(lia)) as (_ & Fi & I). cbn [fst snd] in I. rewrite E in I. assert (val f32 0 = 0%R) as Z0 by (apply zero_ok). rewrite Z0 in I. split; [exact Fi|]. apply Rabs_le. lra.
Qed.
Lemma sin_near X : (Rabs X <= / 4096)%R -> X <> 0%R -> sin X <> 0%R /\ (Rabs (X - sin X) <= 15 / 8 * bpow radix2 (-26) * Rabs (sin X))%R.
Proof.
  intros H N. change (bpow radix2 (-26)) with (/ 67108864)%R. assert (P : (0 < Rabs X)%R) by (apply Rabs_pos_lt; exact N). pose proof (sin_low_abs X ltac:(lra)) as L.
  assert (C : (Rabs X * Rabs X * Rabs X <= / 16777216 * Rabs X)%R) by (assert (Rabs X * Rabs X <= / 16777216)%R by nra; nra).
  assert (SN : (0 < Rabs (sin X))%R) by lra. split; [intros E; rewrite E, Rabs_R0 in SN; lra|].
  assert (U : (Rabs (X - sin X) <= Rabs X - Rabs (sin X))%R); [|lra].
  destruct (Rle_lt_dec 0 X) as [Q | Q].
  - pose proof (sin_low X ltac:(rewrite Rabs_pos_eq in H by exact Q; lra)) as L1. rewrite (Rabs_pos_eq X) in * by exact Q. pose proof (sin_lt_x X ltac:(lra)) as L2. rewrite (Rabs_pos_eq (sin X)) by nra. rewrite Rabs_pos_eq by lra. lra.
  - rewrite (Rabs_left X) in * by exact Q. pose proof (sin_low (- X) ltac:(lra)) as L1. pose proof (sin_lt_x (- X) ltac:(lra)) as L2. rewrite sin_neg in L1, L2. rewrite (Rabs_left (sin X)) by nra. rewrite Rabs_left1 by lra. lra.
Qed.
Lemma faithful_exact x v : isbits f32 x -> finite f32 x = true -> v <> 0%R -> (Rabs (val f32 x - v) <= 15 / 8 * bpow radix2 (-26) * Rabs v)%R -> faithful f32 v x.
Proof.
  intros B F N E. split; [exact B|]. split; [exact F|]. pose proof (near f32 ltac:(vm_compute; discriminate) (val f32 x) v N E) as D. rewrite (repr_rnd f32 (val f32 x)) in D; [exact D|now apply repr_val].
Qed.
Lemma tiny_all x : isbits f32 x -> a32 x < 0x39800000 -> rs_sinf x = Some x /\ rs_cosf x = Some 0x3f800000 /\ rs_sincosf x = Some (x, 0x3f800000).
Proof. intros B H. unfold rs_sinf, rs_cosf, rs_sincosf. cbv zeta. rewrite !land_a32. brs. auto. Qed.
Lemma faithful_0 x : isbits f32 x -> finite f32 x = true -> val f32 x = 0%R -> faithful f32 0 x.
Proof. intros B F E. split; [exact B|]. split; [exact F|]. left. rewrite E. symmetry. apply round_0. typeclasses eauto. Qed.
Theorem sinf_faithful : faithful_fn f32 rs_sinf sin.
Proof.
  intros x B F. destruct (Z_lt_le_dec (a32 x) 0x39800000) as [H | H].
  - destruct (tiny_all x B H) as (-> & _). exists x. split; [reflexivity|]. destruct (tiny_val x B H) as [_ V]. destruct (Req_dec (val f32 x) 0) as [Z0 | NZ].
    + rewrite Z0, sin_0. now apply faithful_0.
    + destruct (sin_near _ V NZ) as [S1 S2]. now apply faithful_exact.
  - destruct (trigf x B) as (n & y & R & E & _); [rewrite (fin32 x B) in F; lia|]. exists (selS n y). split; [exact E|]. exact (proj1 (sel_faithful _ _ _ R)).
Qed.
Theorem cosf_faithful : faithful_fn f32 rs_cosf cos.
Proof.
  intros x B F. destruct (Z_lt_le_dec (a32 x) 0x39800000) as [H | H].
  - destruct (tiny_all x B H) as (_ & -> & _). eexists. split; [reflexivity|]. destruct (tiny_val x B H) as [_ V].
    assert (C1 : (1 - cos (val f32 x) <= / 33554432)%R /\ (cos (val f32 x) <= 1)%R).
    { pose proof (COS_bound (val f32 x)). split; [|lra]. replace (cos (val f32 x)) with (cos (2 * (val f32 x / 2))) by (f_equal; field). rewrite cos_2a_sin. pose proof (sin_lip (val f32 x / 2) 0) as L. rewrite sin_0, !Rminus_0_r in L.
      assert (Rabs (val f32 x / 2) <= / 8192)%R by (apply Rabs_le_inv in V; apply Rabs_le; lra). assert (Q : (Rabs (sin (val f32 x / 2)) <= / 8192)%R) by lra. apply Rabs_le_inv in Q. set (s := sin (val f32 x / 2)) in *. clearbody s. assert (s * s <= / 67108864)%R by (clear - Q; nra). lra. }
    assert (E1 : val f32 0x3f800000 = (1 / 1)%R) by lit.
    split; [vm_compute; split; [discriminate|reflexivity]|]. split; [vm_compute; reflexivity|]. right. rewrite E1. symmetry. replace (1 / 1)%R with (bpow radix2 0) by (change (bpow radix2 0) with 1%R; field).
    assert (VE : Valid_exp (FLT_exp (1 - bias f32 - mw f32) (mw f32 + 1))) by apply fmt_valid_exp.
    apply round_UP_eq; [exact VE|apply generic_format_bpow; vm_compute; discriminate|]. rewrite pred_bpow by exact VE. change (FLT_exp (1 - bias f32 - mw f32) (mw f32 + 1) 0) with (-24)%Z. change (bpow radix2 0) with 1%R. change (bpow radix2 (-24)) with (/ 16777216)%R. lra.
  - destruct (trigf x B) as (n & y & R & _ & E & _); [rewrite (fin32 x B) in F; lia|]. exists (selC n y). split; [exact E|]. exact (proj2 (sel_faithful _ _ _ R)).
Qed.
Theorem sincosf_ok x : isbits f32 x -> exists s c, rs_sincosf x = Some (s, c) /\ rs_sinf x = Some s /\ rs_cosf x = Some c.
Proof.
  intros B. destruct (Z_lt_le_dec (a32 x) 0x39800000) as [H | H].
  - destruct (tiny_all x B H) as (-> & -> & ->). eauto.
  - destruct (Z_lt_le_dec (a32 x) 0x7f800000) as [H2 | H2].
    + destruct (trigf x B ltac:(lia)) as (n & y & R & -> & -> & ->). eauto.
    + unfold rs_sinf, rs_cosf, rs_sincosf. cbv zeta. rewrite !land_a32. brs. eauto.
Qed.

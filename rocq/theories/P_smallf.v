(** The reductions by a constant in sinf, cosf, tanf and sincosf. *)
From Coq Require Import ZArith Reals Lia Lra Bool List Psatz.
From Flocq Require Import Core.
From Verif Require Import Base Spec Format P_format Ieee P_ieee P_real P_neg P_elem P_lit P_err P_apx P_fx P_elem2 P_key P_ival P_ival2 P_sym P_sym3 M_basic M_elib M_rempio2 M_trig P_medf.
Import ListNotations.
Open Scope R_scope.

Lemma sm_red (sg X A c Y g d : R) (k K m : Z) (u : R) : sg = 1 \/ sg = -1 -> X = sg * A -> A = IZR m * u -> 0 < u -> Rabs (c - IZR k * (PI / 2)) <= d -> d <= 145 / 100 * / 67108864 * g -> / 1000000000 <= g <= 1 -> d <= / 1000000000000000 ->
  IZR K * u + g <= IZR k * (PI / 2) <= IZR (K + 1) * u - g -> Rabs (A - IZR k * (PI / 2)) <= 0.785399 ->
  Rabs (Y - (X - sg * c)) <= / 9007199254740992 * Rabs (X - sg * c) + bpow radix2 (-200) ->
  let r := X - sg * (IZR k * (PI / 2)) in
  Rabs (Y - r) <= 3 / 2 * bpow radix2 (-26) * Rabs r /\ Rabs (Y - r) <= bpow radix2 (-49) /\ bpow radix2 (-32) <= Rabs r <= 0.785399.
Proof.
  intros HS EX EA U Hc Hd Hg Hd2 HK HA HY r. set (q := IZR k * (PI / 2)) in *. pose proof tiny200 as T. set (t := bpow radix2 (-200)) in *.
  assert (SA : forall z, Rabs (sg * z) = Rabs z) by (intros z; rewrite Rabs_mult; destruct HS as [-> | ->]; [rewrite Rabs_R1|rewrite (Rabs_left (-1)) by lra]; ring).
  assert (Er : r = sg * (A - q)) by (unfold r; rewrite EX; ring).
  assert (Rr : Rabs r = Rabs (A - q)) by (rewrite Er; apply SA).
  assert (G : g <= Rabs r).
  { rewrite Rr. destruct (Z_le_gt_dec m K) as [L | L].
    - assert (IZR m * u <= IZR K * u) by (apply Rmult_le_compat_r; [lra|now apply IZR_le]). rewrite EA. rewrite Rabs_left1 by lra. lra.
    - assert (IZR (K + 1) * u <= IZR m * u) by (apply Rmult_le_compat_r; [lra|apply IZR_le; lia]). rewrite EA. rewrite Rabs_pos_eq by lra. lra. }
  assert (E1 : Rabs (Y - r) <= d + / 9007199254740992 * (Rabs r + d) + t).
  { replace (Y - r) with ((Y - (X - sg * c)) + sg * - (c - q)) by (unfold r; ring). eapply Rle_trans; [apply Rabs_triang|]. rewrite SA, Rabs_Ropp.
    assert (Rabs (X - sg * c) <= Rabs r + d). { replace (X - sg * c) with (r + sg * - (c - q)) by (unfold r; ring). eapply Rle_trans; [apply Rabs_triang|]. rewrite SA, Rabs_Ropp. lra. }
    lra. }
  rewrite <- Rr in HA. change (bpow radix2 (-26)) with (/ 67108864). change (bpow radix2 (-49)) with (/ 562949953421312). change (bpow radix2 (-32)) with (/ 4294967296). repeat split; lra.
Qed.
(** an argument in [lo, hi] as a multiple of 2^-p *)
Lemma pos_val32 a : (0 <= a < 2 ^ 31)%Z -> 0 <= val f32 a.
Proof. intros H. destruct (pos32 a H) as (B & _ & S). apply val_sign_nonneg. exact S. Qed.
Definition sgn32 (x : Z) : R := if signbit f32 x then -1 else 1.
Lemma mult32 x lo hi p : isbits f32 x -> (2 ^ 23 <= lo)%Z -> (lo <= a32 x <= hi)%Z -> (hi < 0x7f800000)%Z -> (150 - lo / 2 ^ 23 <= p)%Z ->
  exists m, val f32 x = sgn32 x * (IZR m * bpow radix2 (- p)) /\ val f32 lo <= IZR m * bpow radix2 (- p) <= val f32 hi /\ isbits f64 (fcvt f32 f64 x) /\ finite f64 (fcvt f32 f64 x) = true /\ val f64 (fcvt f32 f64 x) = val f32 x.
Proof.
  intros B L H Hh Hp. destruct (dec32 x B ltac:(lia)) as (M & HM & (B6 & F6 & V6) & VX & SG & _). set (E := (a32 x / 2 ^ 23)%Z) in *.
  assert (HE : (lo / 2 ^ 23 <= E)%Z) by (apply Z.div_le_mono; lia).
  exists (Z.abs M * 2 ^ (E - 150 + p))%Z.
  assert (EQ : IZR (Z.abs M * 2 ^ (E - 150 + p)) * bpow radix2 (- p) = Rabs (val f32 x)).
  { rewrite mult_IZR. change 2%Z with (radix_val radix2). rewrite IZR_Zpower by lia. rewrite Rmult_assoc, <- bpow_plus. replace (E - 150 + p + - p)%Z with (E - 150)%Z by lia.
    rewrite VX, Rabs_mult, (Rabs_pos_eq (bpow _ _)) by apply bpow_ge_0. now rewrite abs_IZR. }
  rewrite EQ. split; [|split; [|rewrite V6, VX; auto]].
  - unfold sgn32. rewrite <- SG. rewrite VX, Rabs_mult, (Rabs_pos_eq (bpow _ _)) by apply bpow_ge_0. rewrite <- abs_IZR. destruct (Z.ltb_spec M 0).
    + rewrite Z.abs_neq, opp_IZR by lia. ring.
    + rewrite Z.abs_eq by lia. ring.
  - destruct (signbit f32 x) eqn:S.
    + destruct (IN_neg32 lo hi x B S ltac:(lia) H Hh) as (_ & _ & [I1 I2]). cbn [fst snd] in *. rewrite !fneg_val in I1, I2.
      * assert (0 <= val f32 lo) by (apply pos_val32; lia). rewrite Rabs_left1 by lra. lra.
      * split; [|change (2 ^ width f32)%Z with (2 ^ 32)%Z]; lia.
      * split; [|change (2 ^ width f32)%Z with (2 ^ 32)%Z]; lia.
    + destruct (IN_pos32 lo hi x B S ltac:(lia) H Hh) as (_ & _ & [I1 I2]). cbn [fst snd] in *.
      assert (0 <= val f32 lo) by (apply pos_val32; lia). rewrite Rabs_pos_eq by lra. lra.
Qed.
Definition red32 (x S : Z) : Z := if signbit f32 x then fadd f64 (fcvt f32 f64 x) S else fsub f64 (fcvt f32 f64 x) S.
Lemma small_k x lo hi p k K S (c g d : R) : isbits f32 x -> (2 ^ 23 <= lo)%Z -> (lo <= a32 x <= hi)%Z -> (hi < 0x7f800000)%Z -> (150 - lo / 2 ^ 23 <= p)%Z ->
  isbits f64 S -> finite f64 S = true -> val f64 S = c -> 0 <= c <= 10 -> val f32 hi <= 10 ->
  Rabs (c - IZR k * (PI / 2)) <= d -> d <= 145 / 100 * / 67108864 * g -> / 1000000000 <= g <= 1 -> d <= / 1000000000000000 ->
  IZR K * bpow radix2 (- p) + g <= IZR k * (PI / 2) <= IZR (K + 1) * bpow radix2 (- p) - g -> IZR k * (PI / 2) - 0.785399 <= val f32 lo -> val f32 hi <= IZR k * (PI / 2) + 0.785399 ->
  red_ok (val f32 x) (if signbit f32 x then - k else k) (red32 x S).
Proof.
  intros B L H Hh Hp BS FS VS Hc10 H10 Hc Hd Hg Hd2 HK H1 H2. destruct (mult32 x lo hi p B L H Hh Hp) as (m & EX & HM & B6 & F6 & V6).
  set (X := val f32 x) in *. set (A := IZR m * bpow radix2 (- p)) in *. set (y := red32 x S).
  assert (LO : 0 <= val f32 lo) by (apply pos_val32; lia).
  assert (Y : isbits f64 y /\ finite f64 y = true /\ val f64 y = rnd f64 (X - sgn32 x * c)).
  { unfold y, red32. unfold sgn32 in *. destruct (signbit f32 x).
    - destruct (add64 (fcvt f32 f64 x) S 20 F6 FS) as [Fy Ey]; [rewrite V6, VS; apply Rabs_le; lra|apply big1000; lra|]. split; [apply fadd_isbits|]. split; [exact Fy|]. rewrite Ey, V6, VS. f_equal. fold X. ring.
    - destruct (sub64 (fcvt f32 f64 x) S 20 F6 FS) as [Fy Ey]; [rewrite V6, VS; apply Rabs_le; lra|apply big1000; lra|]. split; [apply fsub_isbits|]. split; [exact Fy|]. rewrite Ey, V6, VS. f_equal. fold X. ring. }
  destruct Y as (By & Fy & Vy). clearbody y.
  assert (SG : sgn32 x = 1 \/ sgn32 x = -1) by (unfold sgn32; destruct (signbit f32 x); auto).
  destruct (sm_red (sgn32 x) X A c (val f64 y) g d k K m (bpow radix2 (- p)) SG EX eq_refl (bpow_gt_0 _ _) Hc Hd Hg Hd2 HK) as (R1 & R2 & R3).
  - apply Rabs_le. lra.
  - rewrite Vy. apply rnd64_err.
  - assert (ER : X - IZR (if signbit f32 x then - k else k) * (PI / 2) = X - sgn32 x * (IZR k * (PI / 2))) by (unfold sgn32; destruct (signbit f32 x); rewrite ?opp_IZR; ring).
    split; [exact By|]. split; [exact Fy|]. cbv zeta. rewrite ER. split; [exact R1|]. split; [eapply Rle_trans; [exact R2|apply bpow_le; lia]|]. destruct R3 as [R3 R4]. split; [eapply Rle_trans; [|exact R3]; apply bpow_le; lia|exact R4].
Qed.
Ltac sk lo hi p K S c g d := intros B H; pose proof PI_lo_hi as HP; apply (small_k _ lo hi p _ K S c g d); [exact B|lia|lia|lia|vm_compute; discriminate|vm_compute; split; [discriminate|reflexivity]|vm_compute; reflexivity|lit|lra|
  match goal with |- val f32 ?h <= _ => let H := fresh in assert (H : val f32 h = (IZR (fst (litq f32 h)) / IZR (snd (litq f32 h)))) by (apply val_lit; vm_compute; reflexivity); rewrite H; let a := eval vm_compute in (fst (litq f32 h)) in let b := eval vm_compute in (snd (litq f32 h)) in change (fst (litq f32 h)) with a; change (snd (litq f32 h)) with b; lra end|apply Rabs_le; lra|lra|lra|lra|match goal with |- context [bpow radix2 (- p)] => let q := eval vm_compute in (2 ^ p)%Z in change (bpow radix2 (- p)) with (/ IZR q) end; let K1 := eval vm_compute in (K + 1)%Z in change (K + 1)%Z with K1; lra|
  match goal with |- _ <= val f32 ?h => let H := fresh in assert (H : val f32 h = (IZR (fst (litq f32 h)) / IZR (snd (litq f32 h)))) by (apply val_lit; vm_compute; reflexivity); rewrite H; let a := eval vm_compute in (fst (litq f32 h)) in let b := eval vm_compute in (snd (litq f32 h)) in change (fst (litq f32 h)) with a; change (snd (litq f32 h)) with b; lra end|
  match goal with |- val f32 ?h <= _ => let H := fresh in assert (H : val f32 h = (IZR (fst (litq f32 h)) / IZR (snd (litq f32 h)))) by (apply val_lit; vm_compute; reflexivity); rewrite H; let a := eval vm_compute in (fst (litq f32 h)) in let b := eval vm_compute in (snd (litq f32 h)) in change (fst (litq f32 h)) with a; change (snd (litq f32 h)) with b; lra end].
Lemma red_1 x : isbits f32 x -> (0x3f490fda < a32 x <= 0x4016cbe3)%Z -> red_ok (val f32 x) (if signbit f32 x then - (1) else 1) (red32 x 0x3ff921fb54442d18).
Proof. sk 0x3f490fdb%Z 0x4016cbe3%Z 24%Z 26353589%Z 0x3ff921fb54442d18%Z (884279719003555/562949953421312) (15/1000000000) (6.2/100000000000000000). Qed.
Lemma red_2 x : isbits f32 x -> (0x4016cbe3 < a32 x <= 0x407b53d1)%Z -> red_ok (val f32 x) (if signbit f32 x then - (2) else 2) (red32 x 0x400921fb54442d18).
Proof. sk 0x4016cbe4%Z 0x407b53d1%Z 22%Z 13176794%Z 0x400921fb54442d18%Z (884279719003555/281474976710656) (80/1000000000) (1.3/10000000000000000). Qed.
Lemma red_3 x : isbits f32 x -> (0x407b53d1 < a32 x <= 0x40afeddf)%Z -> red_ok (val f32 x) (if signbit f32 x then - (3) else 3) (red32 x 0x4012d97c7f3321d2).
Proof. sk 0x407b53d2%Z 0x40afeddf%Z 22%Z 19765191%Z 0x4012d97c7f3321d2%Z (2652839157010665/562949953421312) (11.92/1000000000) (1.9/10000000000000000). Qed.
Lemma red_4 x : isbits f32 x -> (0x40afeddf < a32 x <= 0x40e231d5)%Z -> red_ok (val f32 x) (if signbit f32 x then - (4) else 4) (red32 x 0x401921fb54442d18).
Proof. sk 0x40afede0%Z 0x40e231d5%Z 21%Z 13176794%Z 0x401921fb54442d18%Z (884279719003555/140737488355328) (170/1000000000) (2.5/10000000000000000). Qed.
Lemma red_0 x : isbits f32 x -> (0x39800000 <= a32 x <= 0x3f490fda)%Z -> red_ok (val f32 x) 0 (fcvt f32 f64 x).
Proof.
  intros B H. destruct (mult32 x 0x39800000 0x3f490fda 40 B ltac:(lia) H ltac:(lia) ltac:(vm_compute; discriminate)) as (m & EX & HM & B6 & F6 & V6).
  change (- (40))%Z with (-40)%Z in *.
  split; [exact B6|]. split; [exact F6|]. cbv zeta. rewrite V6. replace (val f32 x - 0 * (PI / 2)) with (val f32 x) by ring. replace (val f32 x - val f32 x) with 0 by ring. rewrite Rabs_R0.
  assert (Rabs (val f32 x) = IZR m * bpow radix2 (-40)).
  { rewrite EX, Rabs_mult. assert (0 <= val f32 0x39800000) by (apply pos_val32; lia). rewrite (Rabs_pos_eq (IZR m * _)) by lra.
    unfold sgn32. destruct (signbit f32 x); [rewrite (Rabs_left (-1)) by lra|rewrite Rabs_R1]; ring. }
  assert (E1 : val f32 0x39800000 = 1 / 4096) by lit. assert (E2 : val f32 0x3f490fda = 6588397 / 8388608) by lit. rewrite E1, E2 in HM. rewrite H0.
  pose proof (bpow_gt_0 radix2 (-26)). pose proof (bpow_gt_0 radix2 (-40)). change (bpow radix2 (-70)) with (/ 1180591620717411303424). split; [nra|]. split; [lra|]. lra.
Qed.

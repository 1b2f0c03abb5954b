(** Interval evaluation of floating-point expressions. The operations round monotonically, so running the very same
    operations on the end points of the arguments bounds the result. *)
From Coq Require Import ZArith Reals Lia Lra Bool.
From Flocq Require Import Core.
From Verif Require Import Base Spec Format P_format Ieee P_ieee P_real P_key P_neg.
Open Scope Z_scope.

Section Ival.
Variable F : fmt.

(** [x] is a finite number between the finite end points of [p]. *)
Definition IN (p : Z * Z) (x : Z) : Prop :=
  isbits F x /\ finite F x = true /\ (val F (fst p) <= val F x <= val F (snd p))%R.
Definition fin2b (p : Z * Z) : bool := finite F (fst p) && finite F (snd p).

Lemma rounds_mono r sz u r1 s1 u1 r2 s2 u2 : rounds_to F r sz u -> rounds_to F r1 s1 u1 -> rounds_to F r2 s2 u2 ->
  (r1 <= r <= r2)%R -> finite F u1 = true -> finite F u2 = true -> IN (u1, u2) u.
Proof.
  intros [B H] [B1 H1] [B2 H2] L F1 F2.
  assert (NI : forall s, finite F (infinity F s) = false).
  { intros s. apply infinity_fields. }
  destruct (Rlt_bool (Rabs (rnd F r1)) _) eqn:E1.
  2:{ rewrite H1, NI in F1. discriminate. }
  destruct (Rlt_bool (Rabs (rnd F r2)) _) eqn:E2.
  2:{ rewrite H2, NI in F2. discriminate. }
  destruct H1 as (_ & V1 & _), H2 as (_ & V2 & _).
  assert (G1 : (Rabs (rnd F r1) < bpow radix2 (bias F + 1))%R) by (destruct (Rlt_bool_spec (Rabs (rnd F r1)) (bpow radix2 (bias F + 1))); [assumption|discriminate]).
  assert (G2 : (Rabs (rnd F r2) < bpow radix2 (bias F + 1))%R) by (destruct (Rlt_bool_spec (Rabs (rnd F r2)) (bpow radix2 (bias F + 1))); [assumption|discriminate]).
  pose proof (rnd_le F r1 r (proj1 L)) as L1. pose proof (rnd_le F r r2 (proj2 L)) as L2.
  rewrite Rlt_bool_true in H.
  - destruct H as (Fu & V & _). split; [exact B|]. split; [exact Fu|]. cbn [fst snd]. rewrite V, V1, V2. lra.
  - apply Rabs_lt. apply Rabs_lt_inv in G1. apply Rabs_lt_inv in G2. lra.
Qed.

Lemma IN_const c : 0 <= c < 2 ^ width F -> finite F c = true -> IN (c, c) c.
Proof. intros B H. split; [exact B|]. split; [exact H|]. cbn [fst snd]. lra. Qed.
Lemma IN_weaken p q x : IN p x -> (val F (fst q) <= val F (fst p))%R -> (val F (snd p) <= val F (snd q))%R -> IN q x.
Proof. intros (B & H & L) L1 L2. split; [exact B|]. split; [exact H|]. lra. Qed.

Lemma fleR a b : finite F a = true -> finite F b = true -> fle F a b = Rle_bool (val F a) (val F b).
Proof.
  intros Fa Fb. unfold fle. rewrite fcmp_finite by assumption.
  destruct (Rcompare_spec (val F a) (val F b)).
  - rewrite Rle_bool_true by lra. reflexivity.
  - rewrite Rle_bool_true by lra. reflexivity.
  - rewrite Rle_bool_false by lra. reflexivity.
Qed.
Definition minf a b := if fle F a b then a else b.
Definition maxf a b := if fle F a b then b else a.
Lemma minf_ok a b : finite F a = true -> finite F b = true ->
  finite F (minf a b) = true /\ val F (minf a b) = Rmin (val F a) (val F b).
Proof.
  intros Fa Fb. unfold minf. rewrite fleR by assumption.
  destruct (Rle_bool_spec (val F a) (val F b)); split; try assumption.
  - now rewrite Rmin_left.
  - rewrite Rmin_right by lra. reflexivity.
Qed.
Lemma maxf_ok a b : finite F a = true -> finite F b = true ->
  finite F (maxf a b) = true /\ val F (maxf a b) = Rmax (val F a) (val F b).
Proof.
  intros Fa Fb. unfold maxf. rewrite fleR by assumption.
  destruct (Rle_bool_spec (val F a) (val F b)); split; try assumption.
  - now rewrite Rmax_right.
  - rewrite Rmax_left by lra. reflexivity.
Qed.

(** sums and differences *)
Definition iadd (p q : Z * Z) : option (Z * Z) :=
  let r := (fadd F (fst p) (fst q), fadd F (snd p) (snd q)) in
  if fin2b p && fin2b q && fin2b r then Some r else None.
Definition isub (p q : Z * Z) : option (Z * Z) :=
  let r := (fsub F (fst p) (snd q), fsub F (snd p) (fst q)) in
  if fin2b p && fin2b q && fin2b r then Some r else None.
Lemma fin2b_inv p : fin2b p = true -> finite F (fst p) = true /\ finite F (snd p) = true.
Proof. unfold fin2b. intros H. apply andb_prop in H. exact H. Qed.
Ltac opn H := match type of H with (if ?c then _ else None) = Some _ => destruct c eqn:?E; [|discriminate]; injection H as <- end.
Ltac fins := repeat match goal with
  | H : _ && _ = true |- _ => apply andb_prop in H; destruct H
  | H : fin2b _ = true |- _ => apply fin2b_inv in H; cbn [fst snd] in H; destruct H
  end.
Lemma iadd_ok p q r x y : IN p x -> IN q y -> iadd p q = Some r -> IN r (fadd F x y).
Proof.
  intros (Bx & Fx & Lx) (By & Fy & Ly) H. unfold iadd in H. cbv zeta in H. opn H. fins.
  eapply rounds_mono; try apply fadd_spec; try assumption. lra.
Qed.
Lemma isub_ok p q r x y : IN p x -> IN q y -> isub p q = Some r -> IN r (fsub F x y).
Proof.
  intros (Bx & Fx & Lx) (By & Fy & Ly) H. unfold isub in H. cbv zeta in H. opn H. fins.
  eapply rounds_mono; try apply fsub_spec; try assumption. lra.
Qed.

(** products: the extremes are among the four products of end points *)
Lemma mul4 a b c d x y : (a <= x <= b)%R -> (c <= y <= d)%R ->
  ((a * c <= x * y \/ a * d <= x * y \/ b * c <= x * y \/ b * d <= x * y) /\
   (x * y <= a * c \/ x * y <= a * d \/ x * y <= b * c \/ x * y <= b * d))%R.
Proof.
  intros Hx Hy.
  assert (P : forall u v w t : R, (0 <= u)%R -> (v <= w)%R -> t = t -> (u * v <= u * w)%R) by (intros; nra).
  assert (N : forall u v w t : R, (u <= 0)%R -> (v <= w)%R -> t = t -> (u * w <= u * v)%R) by (intros; nra).
  destruct (Rle_lt_dec 0 y) as [Y|Y].
  - assert (a * y <= x * y <= b * y)%R by nra.
    split.
    + destruct (Rle_lt_dec 0 a); [left|right; left]; nra.
    + destruct (Rle_lt_dec 0 b); [right; right; right|right; right; left]; nra.
  - assert (b * y <= x * y <= a * y)%R by nra.
    split.
    + destruct (Rle_lt_dec 0 b); [right; right; left|right; right; right]; nra.
    + destruct (Rle_lt_dec 0 a); [right; left|left]; nra.
Qed.
Definition imul (p q : Z * Z) : option (Z * Z) :=
  let ac := fmul F (fst p) (fst q) in let ad := fmul F (fst p) (snd q) in
  let bc := fmul F (snd p) (fst q) in let bd := fmul F (snd p) (snd q) in
  let r := (minf (minf ac ad) (minf bc bd), maxf (maxf ac ad) (maxf bc bd)) in
  if fin2b p && fin2b q && (fin2b (ac, ad) && fin2b (bc, bd)) then Some r else None.
Lemma imul_ok p q r x y : IN p x -> IN q y -> imul p q = Some r -> IN r (fmul F x y).
Proof.
  intros (Bx & Fx & Lx) (By & Fy & Ly) H. unfold imul in H. cbv zeta in H. opn H. fins.
  set (ac := fmul F (fst p) (fst q)) in *. set (ad := fmul F (fst p) (snd q)) in *.
  set (bc := fmul F (snd p) (fst q)) in *. set (bd := fmul F (snd p) (snd q)) in *.
  assert (Rac := fmul_spec F (fst p) (fst q)). assert (Rad := fmul_spec F (fst p) (snd q)).
  assert (Rbc := fmul_spec F (snd p) (fst q)). assert (Rbd := fmul_spec F (snd p) (snd q)).
  fold ac in Rac. fold ad in Rad. fold bc in Rbc. fold bd in Rbd.
  specialize (Rac ltac:(assumption) ltac:(assumption)). specialize (Rad ltac:(assumption) ltac:(assumption)).
  specialize (Rbc ltac:(assumption) ltac:(assumption)). specialize (Rbd ltac:(assumption) ltac:(assumption)).
  destruct (mul4 _ _ _ _ _ _ Lx Ly) as [Lo Hi].
  pose proof (fmul_spec F x y Fx Fy) as R.
  pose proof (minf_ok ac ad ltac:(assumption) ltac:(assumption)) as [m1 m2].
  pose proof (minf_ok bc bd ltac:(assumption) ltac:(assumption)) as [m3 m4].
  pose proof (minf_ok _ _ m1 m3) as [m5 m6].
  pose proof (maxf_ok ac ad ltac:(assumption) ltac:(assumption)) as [n1 n2].
  pose proof (maxf_ok bc bd ltac:(assumption) ltac:(assumption)) as [n3 n4].
  pose proof (maxf_ok _ _ n1 n3) as [n5 n6].
  rewrite m2, m4 in m6. rewrite n2, n4 in n6.
  pose proof (Rmin_l (val F ac) (val F ad)). pose proof (Rmin_r (val F ac) (val F ad)).
  pose proof (Rmin_l (val F bc) (val F bd)). pose proof (Rmin_r (val F bc) (val F bd)).
  pose proof (Rmin_l (Rmin (val F ac) (val F ad)) (Rmin (val F bc) (val F bd))).
  pose proof (Rmin_r (Rmin (val F ac) (val F ad)) (Rmin (val F bc) (val F bd))).
  pose proof (Rmax_l (val F ac) (val F ad)). pose proof (Rmax_r (val F ac) (val F ad)).
  pose proof (Rmax_l (val F bc) (val F bd)). pose proof (Rmax_r (val F bc) (val F bd)).
  pose proof (Rmax_l (Rmax (val F ac) (val F ad)) (Rmax (val F bc) (val F bd))).
  pose proof (Rmax_r (Rmax (val F ac) (val F ad)) (Rmax (val F bc) (val F bd))).
  set (LO := minf (minf ac ad) (minf bc bd)) in *. set (HI := maxf (maxf ac ad) (maxf bc bd)) in *.
  assert (M1 : exists u1 r1 s1, rounds_to F r1 s1 u1 /\ finite F u1 = true /\ (r1 <= val F x * val F y)%R /\ (val F LO <= val F u1)%R).
  { destruct Lo as [Lo|[Lo|[Lo|Lo]]]; [exists ac|exists ad|exists bc|exists bd]; do 2 eexists;
      (split; [eassumption|]; split; [assumption|]; split; [assumption|]; lra). }
  assert (M2 : exists u2 r2 s2, rounds_to F r2 s2 u2 /\ finite F u2 = true /\ (val F x * val F y <= r2)%R /\ (val F u2 <= val F HI)%R).
  { destruct Hi as [Hi|[Hi|[Hi|Hi]]]; [exists ac|exists ad|exists bc|exists bd]; do 2 eexists;
      (split; [eassumption|]; split; [assumption|]; split; [assumption|]; lra). }
  destruct M1 as (u1 & r1 & s1 & G1 & G2 & G3 & G4). destruct M2 as (u2 & r2 & s2 & K1 & K2 & K3 & K4).
  apply (IN_weaken (u1, u2)); [|exact G4|exact K4].
  eapply rounds_mono; [exact R|exact G1|exact K1| |exact G2|exact K2]. lra.
Qed.
(** squares *)
Definition isqr (p : Z * Z) : option (Z * Z) :=
  let m := maxf (fmul F (fst p) (fst p)) (fmul F (snd p) (snd p)) in
  let lo := if fle F 0 (fst p) then fmul F (fst p) (fst p) else if fle F (snd p) 0 then fmul F (snd p) (snd p) else 0 in
  if fin2b p && (fin2b (fmul F (fst p) (fst p), fmul F (snd p) (snd p))) then Some (lo, m) else None.
Lemma zero_ok : isbits F 0 /\ finite F 0 = true /\ val F 0 = 0%R.
Proof.
  pose proof (fmt_facts F) as K. assert (E : zero F false = 0) by (unfold zero, mkbits; lia).
  rewrite <- E. destruct (zero_fields F false) as (A & B & C & D). repeat split; try assumption; try apply A. apply val_zero.
Qed.
Lemma isqr_ok p r x : IN p x -> isqr p = Some r -> IN r (fmul F x x).
Proof.
  intros (Bx & Fx & Lx) H. unfold isqr in H. cbv zeta in H. opn H. fins.
  destruct zero_ok as (Z1 & Z2 & Z3).
  set (aa := fmul F (fst p) (fst p)) in *. set (bb := fmul F (snd p) (snd p)) in *.
  assert (Ra := fmul_spec F (fst p) (fst p)). assert (Rb := fmul_spec F (snd p) (snd p)).
  fold aa in Ra. fold bb in Rb.
  specialize (Ra ltac:(assumption) ltac:(assumption)). specialize (Rb ltac:(assumption) ltac:(assumption)).
  destruct (maxf_ok aa bb ltac:(assumption) ltac:(assumption)) as [n1 n2].
  set (HI := maxf aa bb) in *. pose proof (Rmax_l (val F aa) (val F bb)). pose proof (Rmax_r (val F aa) (val F bb)).
  pose proof (fmul_spec F x x Fx Fx) as R.
  assert (R0 : rounds_to F 0 false 0).
  { split; [exact Z1|]. rewrite rnd_0, Rabs_R0, Rlt_bool_true by apply bpow_gt_0. rewrite Rcompare_Eq by reflexivity.
    split; [exact Z2|]. split; [exact Z3|]. pose proof (fmt_facts F) as K. unfold signbit.
    apply Z.leb_gt. apply Z.pow_pos_nonneg; lia. }
  assert (M2 : exists u2 r2 s2, rounds_to F r2 s2 u2 /\ finite F u2 = true /\ (val F x * val F x <= r2)%R /\ (val F u2 <= val F HI)%R).
  { destruct (Rle_lt_dec 0 (val F x)).
    - exists bb. do 2 eexists. split; [exact Rb|]. split; [assumption|]. split; [nra|lra].
    - exists aa. do 2 eexists. split; [exact Ra|]. split; [assumption|]. split; [nra|lra]. }
  destruct M2 as (u2 & r2 & s2 & K1 & K2 & K3 & K4).
  rewrite !fleR, Z3 by assumption.
  destruct (Rle_bool_spec 0 (val F (fst p))).
  { apply (IN_weaken (aa, u2)); [|cbn; lra|exact K4]. eapply rounds_mono; [exact R|exact Ra|exact K1| |assumption|exact K2]. nra. }
  destruct (Rle_bool_spec (val F (snd p)) 0).
  { apply (IN_weaken (bb, u2)); [|cbn; lra|exact K4]. eapply rounds_mono; [exact R|exact Rb|exact K1| |assumption|exact K2]. nra. }
  apply (IN_weaken (0, u2)); [|cbn; lra|exact K4]. eapply rounds_mono; [exact R|exact R0|exact K1| |assumption|exact K2]. nra.
Qed.
(** quotients by a positive divisor *)
Definition idivp (p q : Z * Z) : option (Z * Z) :=
  let ac := fdiv F (fst p) (fst q) in let ad := fdiv F (fst p) (snd q) in
  let bc := fdiv F (snd p) (fst q) in let bd := fdiv F (snd p) (snd q) in
  let r := (minf ac ad, maxf bc bd) in
  if fin2b p && fin2b q && (fin2b (ac, ad) && fin2b (bc, bd)) && flt F 0 (fst q) then Some r else None.
Lemma fltR a b : finite F a = true -> finite F b = true -> flt F a b = Rlt_bool (val F a) (val F b).
Proof.
  intros Fa Fb. unfold flt. rewrite fcmp_finite by assumption.
  destruct (Rcompare_spec (val F a) (val F b)).
  - rewrite Rlt_bool_true by lra. reflexivity.
  - rewrite Rlt_bool_false by lra. reflexivity.
  - rewrite Rlt_bool_false by lra. reflexivity.
Qed.
Lemma idivp_ok p q r x y : IN p x -> IN q y -> idivp p q = Some r -> IN r (fdiv F x y).
Proof.
  intros (Bx & Fx & Lx) (By & Fy & Ly) H. unfold idivp in H. cbv zeta in H. opn H. fins.
  destruct zero_ok as (Z1 & Z2 & Z3).
  match goal with K : flt F 0 _ = true |- _ => rewrite fltR, Z3 in K by assumption; rename K into PQ end.
  assert (P : (0 < val F (fst q))%R) by (destruct (Rlt_bool_spec 0 (val F (fst q))); [assumption|discriminate]).
  set (ac := fdiv F (fst p) (fst q)) in *. set (ad := fdiv F (fst p) (snd q)) in *.
  set (bc := fdiv F (snd p) (fst q)) in *. set (bd := fdiv F (snd p) (snd q)) in *.
  assert (Rac := fdiv_spec F (fst p) (fst q)). assert (Rad := fdiv_spec F (fst p) (snd q)).
  assert (Rbc := fdiv_spec F (snd p) (fst q)). assert (Rbd := fdiv_spec F (snd p) (snd q)).
  fold ac in Rac. fold ad in Rad. fold bc in Rbc. fold bd in Rbd.
  specialize (Rac ltac:(assumption) ltac:(assumption) ltac:(lra)). specialize (Rad ltac:(assumption) ltac:(assumption) ltac:(lra)).
  specialize (Rbc ltac:(assumption) ltac:(assumption) ltac:(lra)). specialize (Rbd ltac:(assumption) ltac:(assumption) ltac:(lra)).
  destruct (minf_ok ac ad ltac:(assumption) ltac:(assumption)) as [m1 m2].
  destruct (maxf_ok bc bd ltac:(assumption) ltac:(assumption)) as [n1 n2].
  pose proof (Rmin_l (val F ac) (val F ad)). pose proof (Rmin_r (val F ac) (val F ad)).
  pose proof (Rmax_l (val F bc) (val F bd)). pose proof (Rmax_r (val F bc) (val F bd)).
  set (LO := minf ac ad) in *. set (HI := maxf bc bd) in *.
  pose proof (fdiv_spec F x y Fx Fy ltac:(lra)) as R.
  assert (I1 : (/ val F (snd q) <= / val F y <= / val F (fst q))%R) by (split; apply Rinv_le; lra).
  assert (I0 : (0 < / val F (snd q))%R) by (apply Rinv_0_lt_compat; lra).
  assert (M1 : exists u1 r1 s1, rounds_to F r1 s1 u1 /\ finite F u1 = true /\ (r1 <= val F x / val F y)%R /\ (val F LO <= val F u1)%R).
  { destruct (Rle_lt_dec 0 (val F (fst p))).
    - exists ad. do 2 eexists. split; [exact Rad|]. split; [assumption|]. split; [unfold Rdiv; nra|lra].
    - exists ac. do 2 eexists. split; [exact Rac|]. split; [assumption|]. split; [unfold Rdiv; nra|lra]. }
  assert (M2 : exists u2 r2 s2, rounds_to F r2 s2 u2 /\ finite F u2 = true /\ (val F x / val F y <= r2)%R /\ (val F u2 <= val F HI)%R).
  { destruct (Rle_lt_dec 0 (val F (snd p))).
    - exists bc. do 2 eexists. split; [exact Rbc|]. split; [assumption|]. split; [unfold Rdiv; nra|lra].
    - exists bd. do 2 eexists. split; [exact Rbd|]. split; [assumption|]. split; [unfold Rdiv; nra|lra]. }
  destruct M1 as (u1 & r1 & s1 & G1 & G2 & G3 & G4). destruct M2 as (u2 & r2 & s2 & K1 & K2 & K3 & K4).
  apply (IN_weaken (u1, u2)); [|exact G4|exact K4].
  eapply rounds_mono; [exact R|exact G1|exact K1| |exact G2|exact K2]. lra.
Qed.
(** integers *)
Definition iint (p : Z * Z) : option (Z * Z) :=
  let r := (of_int F (fst p), of_int F (snd p)) in if fin2b r then Some r else None.
Lemma iint_ok a b n r : a <= n <= b -> iint (a, b) = Some r -> IN r (of_int F n).
Proof.
  intros L H. unfold iint in H. cbv zeta in H. cbn [fst snd] in H. opn H. fins.
  eapply rounds_mono; try apply of_int_spec; try assumption. split; apply IZR_le; lia.
Qed.
End Ival.

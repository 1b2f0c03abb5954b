(** Property C29: special values and symmetries of hypot and hypotf. *)
From Coq Require Import ZArith Reals Lia Bool.
From Flocq Require Import Core.
From Verif Require Import Base Spec SpecFun3 SpecElem Format P_format Ieee P_ieee P_real P_round P_round2 P_neg M_sqrt Prop_sqrt M_elib M_pow P_elem P_elem2.
Open Scope Z_scope.

(** hypot on the ordered magnitudes *)
Lemma hypot_mag x y : rs_hypot x y = rs_hypot (Z.max (a64 x) (a64 y)) (Z.min (a64 x) (a64 y)).
Proof.
  pose proof (Z.mod_pos_bound x (2 ^ 63)) as Hx. pose proof (Z.mod_pos_bound y (2 ^ 63)) as Hy.
  fold (a64 x) in Hx. fold (a64 y) in Hy.
  unfold rs_hypot. rewrite !land_a64.
  assert (E : forall a, 0 <= a < 2 ^ 63 -> a64 a = a) by (intros; now apply Z.mod_small).
  rewrite (E (Z.max _ _)), (E (Z.min _ _)) by lia.
  destruct (Z.ltb_spec (a64 x) (a64 y)), (Z.ltb_spec (Z.max (a64 x) (a64 y)) (Z.min (a64 x) (a64 y))); try lia.
  - rewrite Z.max_r, Z.min_l by lia. reflexivity.
  - rewrite Z.max_l, Z.min_r by lia. reflexivity.
Qed.
Lemma ovf64 a : 0 <= a < 2 ^ 63 -> to_i 64 (Z.shiftr a 52) = a / 2 ^ 52 /\ 0 <= a / 2 ^ 52 < 2 ^ 11.
Proof.
  intros H. assert (0 <= a / 2 ^ 52 < 2 ^ 11) by (split; [apply Z.div_pos; lia|apply Z.div_lt_upper_bound; lia]).
  split; [|assumption]. rewrite Z.shiftr_div_pow2 by lia. unfold to_i.
  rewrite Z.mod_small by lia. cbv zeta. zdec; reflexivity.
Qed.
(** the ordered case *)
Lemma hypot_ord a b : 0 <= b <= a -> a < 2 ^ 63 -> exists r, rs_hypot a b = Some r /\ isbits f64 r /\
  (a = 0x7ff0000000000000 \/ b = 0x7ff0000000000000 -> r = 0x7ff0000000000000) /\
  (0x7ff0000000000000 < a -> b <> 0x7ff0000000000000 -> isnan f64 r = true) /\
  (b = 0 -> r = a).
Proof.
  intros Hb Ha. unfold rs_hypot. rewrite !land_a64.
  unfold a64. rewrite !Z.mod_small by lia.
  destruct (Z.ltb_spec a b); try lia.
  destruct (ovf64 a) as [E1 R1]; [lia|]. destruct (ovf64 b) as [E2 R2]; [lia|].
  rewrite E1, E2.
  pose proof (Z.div_mod a (2 ^ 52)) as D1. pose proof (Z.mod_pos_bound a (2 ^ 52)) as M1.
  pose proof (Z.div_mod b (2 ^ 52)) as D2. pose proof (Z.mod_pos_bound b (2 ^ 52)) as M2.
  set (ea := a / 2 ^ 52) in *. set (eb := b / 2 ^ 52) in *. clearbody ea eb.
  destruct (Z.eqb_spec eb 2047).
  { exists b. split; [reflexivity|]. destruct (pos64 b) as (P1 & P2 & P3); [lia|]. split; [exact P1|].
    split; [lia|]. split; [|lia]. intros. rewrite nan64 by assumption. rewrite P2. apply Z.ltb_lt. lia. }
  destruct (Z.eqb_spec ea 2047); cbn [orb].
  { exists a. split; [reflexivity|]. destruct (pos64 a) as (P1 & P2 & P3); [lia|]. split; [exact P1|].
    split; [lia|]. split; [|lia]. intros. rewrite nan64 by assumption. rewrite P2. apply Z.ltb_lt. lia. }
  destruct (Z.eqb_spec b 0).
  { exists a. split; [reflexivity|]. destruct (pos64 a) as (P1 & P2 & P3); [lia|]. split; [exact P1|]. lia. }
  rewrite ssub_ok by (change (2 ^ (64 - 1)) with (2 ^ 63); lia).
  cbn [bind].
  assert (KK : forall r, isbits f64 r -> exists r', Some r = Some r' /\ isbits f64 r' /\
    (a = 0x7ff0000000000000 \/ b = 0x7ff0000000000000 -> r' = 0x7ff0000000000000) /\
    (0x7ff0000000000000 < a -> b <> 0x7ff0000000000000 -> isnan f64 r' = true) /\
    (b = 0 -> r' = a)).
  { intros r Hr. exists r. repeat split; try apply Hr; lia. }
  destruct (Z.ltb_spec 64 (ea - eb)). { apply KK. apply fadd_isbits. }
  match goal with |- context[let '(_, _) := ?p in _] => destruct p as [[z x] y] end.
  destruct (rs_hypot_sq x) as [hx lx]. destruct (rs_hypot_sq y) as [hy ly].
  destruct (sqrt_total ((((ly +: lx) +: hy) +: hx)%fl)) as (q & -> & _); [apply fadd_isbits|].
  cbn [bind]. apply KK. apply fmul_isbits.
Qed.

Lemma inf64_ x s : isbits f64 x -> isinf f64 x = true -> with_sign f64 s x = infinity f64 s.
Proof. intros B H. rewrite ws64 by assumption. rewrite inf64 in H by assumption. apply Z.eqb_eq in H. rewrite H. destruct s; reflexivity. Qed.

Theorem C29_hypot : hypot_spec f64 rs_hypot.
Proof.
  intros x y Hx Hy. destruct (bits64 x Hx) as [_ Rx]. destruct (bits64 y Hy) as [_ Ry].
  destruct (hypot_ord (Z.max (a64 x) (a64 y)) (Z.min (a64 x) (a64 y))) as (r & E & B & I & N & Z0); [lia|lia|].
  exists r. rewrite !(inf64 x), !(inf64 y), !(nan64 x), !(nan64 y), (zer64 y), (ws64 false x) by assumption.
  rewrite !Z.eqb_eq, !Z.eqb_neq, !Z.ltb_lt, !Z.ltb_ge. cbn [bs].
  split; [now rewrite hypot_mag|]. split; [exact B|].
  split; [rewrite hypot_mag, Z.max_comm, Z.min_comm; exact E|].
  split. { intros s t. rewrite hypot_mag, !a64_ws by assumption. exact E. }
  split; [intros; apply I; lia|].
  split; [intros; apply N; lia|].
  intros. rewrite Z0; lia.
Qed.
Print Assumptions C29_hypot.

(** ** hypotf *)
Lemma hypotf_mag x y : rs_hypotf x y = rs_hypotf (Z.max (a32 x) (a32 y)) (Z.min (a32 x) (a32 y)).
Proof.
  pose proof (Z.mod_pos_bound x (2 ^ 31)) as Hx. pose proof (Z.mod_pos_bound y (2 ^ 31)) as Hy.
  fold (a32 x) in Hx. fold (a32 y) in Hy.
  unfold rs_hypotf. rewrite !land_a32.
  assert (E : forall a, 0 <= a < 2 ^ 31 -> a32 a = a) by (intros; now apply Z.mod_small).
  rewrite (E (Z.max _ _)), (E (Z.min _ _)) by lia.
  destruct (Z.ltb_spec (a32 x) (a32 y)), (Z.ltb_spec (Z.max (a32 x) (a32 y)) (Z.min (a32 x) (a32 y))); try lia.
  - rewrite Z.max_r, Z.min_l by lia. reflexivity.
  - rewrite Z.max_l, Z.min_r by lia. reflexivity.
Qed.
Lemma fadd_pos0 a : 0 <= a <= 0x7f800000 -> a +' 0 = a.
Proof.
  intros Ha. destruct (pos32 a) as (B & E & S); [lia|].
  destruct (Z.eq_dec a 0x7f800000) as [->|N].
  { vm_compute. reflexivity. }
  assert (Fa : finite f32 a = true). { rewrite fin32 by assumption. rewrite E. apply Z.ltb_lt. lia. }
  destruct (Z.eq_dec a 0) as [->|N0]. { vm_compute. reflexivity. }
  apply fadd_zero_r; try assumption; [|reflexivity]. rewrite zer32 by assumption. rewrite E. now apply Z.eqb_neq.
Qed.
Lemma hypotf_ord a b : 0 <= b <= a -> a < 2 ^ 31 -> exists r, rs_hypotf a b = Some r /\ isbits f32 r /\
  (a = 0x7f800000 \/ b = 0x7f800000 -> r = 0x7f800000) /\
  (0x7f800000 < a -> b <> 0x7f800000 -> isnan f32 r = true) /\
  (a <= 0x7f800000 -> b = 0 -> r = a).
Proof.
  intros Hb Ha. unfold rs_hypotf. rewrite !land_a32.
  unfold a32. rewrite !Z.mod_small by lia.
  destruct (pos32 a) as (P1 & P2 & P3); [lia|]. destruct (pos32 b) as (Q1 & Q2 & Q3); [lia|].
  destruct (Z.ltb_spec a b); try lia.
  destruct (Z.eqb_spec b 0x7f800000).
  { exists b. repeat split; try apply Q1; lia. }
  assert (AN : 0x7f800000 < a -> isnan f32 (a +' b) = true).
  { intros. apply fadd_nan. rewrite nan32 by assumption. rewrite P2. replace (2139095040 <? a) with true; [reflexivity|].
    symmetry. apply Z.ltb_lt. lia. }
  assert (AI : a = 0x7f800000 -> a +' b = 0x7f800000).
  { intros ->. rewrite fadd_inf_l; [reflexivity|reflexivity|]. rewrite fin32 by assumption. apply Z.ltb_lt. rewrite Q2. lia. }
  assert (AZ : a <= 0x7f800000 -> b = 0 -> a +' b = a).
  { intros L ->. apply fadd_pos0. lia. }
  assert (S1 : exists r, Some (a +' b) = Some r /\ isbits f32 r /\
    (a = 0x7f800000 \/ b = 0x7f800000 -> r = 0x7f800000) /\
    (0x7f800000 < a -> b <> 0x7f800000 -> isnan f32 r = true) /\
    (a <= 0x7f800000 -> b = 0 -> r = a)).
  { exists (a +' b). split; [reflexivity|]. split; [apply fadd_isbits|]. split; [|split].
    - intros [E|E]; [now apply AI|contradiction].
    - intros; now apply AN.
    - exact AZ. }
  destruct (Z.leb_spec 0x7f800000 a); cbn [orb bind]; [exact S1|].
  destruct (Z.eqb_spec b 0); cbn [orb bind]; [exact S1|].
  rewrite usub_ok by lia. cbn [bind].
  destruct (Z.leb_spec 0xc800000 (a - b)); [exact S1|].
  match goal with |- context[let '(_, _) := ?p in _] => destruct p as [[z x] y] end.
  match goal with |- context[M_sqrt.sqrtf ?t] => destruct (sqrtf_total t) as (q & -> & _); [apply fcvt_isbits|] end.
  cbn [bind]. eexists. split; [reflexivity|]. split; [apply fmul_isbits|]. lia.
Qed.

Theorem C29_hypotf : hypot_spec f32 rs_hypotf.
Proof.
  intros x y Hx Hy. destruct (bits32 x Hx) as [_ Rx]. destruct (bits32 y Hy) as [_ Ry].
  destruct (hypotf_ord (Z.max (a32 x) (a32 y)) (Z.min (a32 x) (a32 y))) as (r & E & B & I & N & Z0); [lia|lia|].
  exists r. rewrite !(inf32 x), !(inf32 y), !(nan32 x), !(nan32 y), (zer32 y), (ws32 false x) by assumption.
  rewrite !Z.eqb_eq, !Z.eqb_neq, !Z.ltb_lt, !Z.ltb_ge. cbn [bs].
  split; [now rewrite hypotf_mag|]. split; [exact B|].
  split; [rewrite hypotf_mag, Z.max_comm, Z.min_comm; exact E|].
  split. { intros s t. rewrite hypotf_mag, !a32_ws by assumption. exact E. }
  split; [intros; apply I; lia|].
  split; [intros; apply N; lia|].
  intros. rewrite Z0; lia.
Qed.
Print Assumptions C29_hypotf.

(** hypot(3, -4) = 5, hypot(NaN, -inf) = +inf, hypot(0, NaN) = NaN, hypotf(3, 4) = 5, hypotf(-2^127, 2^127) does not overflow early *)
Example C29_ex1 : rs_hypot 0x4008000000000000 0xc010000000000000 = Some 0x4014000000000000. Proof. vm_compute. reflexivity. Qed.
Example C29_ex2 : rs_hypot 0x7ff8000000000000 0xfff0000000000000 = Some 0x7ff0000000000000. Proof. vm_compute. reflexivity. Qed.
Example C29_ex3 : rs_hypot 0 0x7ff8000000000000 = Some 0x7ff8000000000000. Proof. vm_compute. reflexivity. Qed.
Example C29_ex4 : rs_hypotf 0x40400000 0x40800000 = Some 0x40a00000. Proof. vm_compute. reflexivity. Qed.
Example C29_ex5 : rs_hypotf 0xfe800000 0x7e800000 = Some 0x7eb504f3. Proof. vm_compute. reflexivity. Qed.

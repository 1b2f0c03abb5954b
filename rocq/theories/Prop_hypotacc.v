(** Property C61: hypot and hypotf are within 9/10 of a machine epsilon of sqrt(x^2 + y^2), without spurious overflow or underflow. *)
From Coq Require Import ZArith Reals Lia Lra Bool.
From Flocq Require Import Core.
From Verif Require Import Base Spec SpecHypot2 Format P_format Ieee P_ieee P_real M_sqrt M_elib M_pow P_elem P_elem2 P_dom Prop_hypot P_hp2 P_hp5.
Open Scope Z_scope.

Lemma sq_a64 x : isbits f64 x -> (val f64 (a64 x) * val f64 (a64 x) = val f64 x * val f64 x)%R.
Proof. intros B. destruct (val_a64 x B) as (_ & _ & _ & ->). rewrite <- Rabs_mult. apply Rabs_pos_eq. apply Rle_0_sqr. Qed.
Lemma sq_a32 x : isbits f32 x -> (val f32 (a32 x) * val f32 (a32 x) = val f32 x * val f32 x)%R.
Proof. intros B. destruct (val_a32 x B) as (_ & _ & _ & ->). rewrite <- Rabs_mult. apply Rabs_pos_eq. apply Rle_0_sqr. Qed.
Theorem C61_hypot : hypot_acc f64 (9 / 10) rs_hypot.
Proof.
  intros x y Bx By Fx Fy h. rewrite fin64 in Fx, Fy by assumption. apply Z.ltb_lt in Fx, Fy. destruct (bits64 x Bx) as [_ Rx]. destruct (bits64 y By) as [_ Ry].
  destruct (hypot_ordacc (Z.max (a64 x) (a64 y)) (Z.min (a64 x) (a64 y)) ltac:(lia) ltac:(lia)) as (r & E & H & _). rewrite <- hypot_mag in E. exists r. split; [exact E|].
  unfold h. destruct (Z.max_spec (a64 x) (a64 y)) as [[L M] | [L M]].
  - rewrite M, Z.min_l in H by lia. rewrite (sq_a64 x Bx), (sq_a64 y By), Rplus_comm in H. exact H.
  - rewrite M, Z.min_r in H by lia. rewrite (sq_a64 x Bx), (sq_a64 y By) in H. exact H.
Qed.
Print Assumptions C61_hypot.
Theorem C61_hypotf : hypot_acc f32 (9 / 10) rs_hypotf.
Proof.
  intros x y Bx By Fx Fy h. rewrite fin32 in Fx, Fy by assumption. apply Z.ltb_lt in Fx, Fy. destruct (bits32 x Bx) as [_ Rx]. destruct (bits32 y By) as [_ Ry].
  destruct (hypotf_ordacc (Z.max (a32 x) (a32 y)) (Z.min (a32 x) (a32 y)) ltac:(lia) ltac:(lia)) as (r & E & H). rewrite <- hypotf_mag in E. exists r. split; [exact E|].
  unfold h. destruct (Z.max_spec (a32 x) (a32 y)) as [[L M] | [L M]].
  - rewrite M, Z.min_l in H by lia. rewrite (sq_a32 x Bx), (sq_a32 y By), Rplus_comm in H. exact H.
  - rewrite M, Z.min_r in H by lia. rewrite (sq_a32 x Bx), (sq_a32 y By) in H. exact H.
Qed.
Print Assumptions C61_hypotf.
(** No spurious overflow: the result is finite whenever the exact value is below 2^emax reduced by the error bound. *)
Theorem C61_no_overflow : forall F c f, hypot_acc F c f -> forall x y, isbits F x -> isbits F y -> finite F x = true -> finite F y = true ->
  (R_sqrt.sqrt (val F x * val F x + val F y * val F y) < (1 - c * bpow radix2 (- mw F)) * bpow radix2 (bias F + 1))%R -> exists r, f x y = Some r /\ finite F r = true.
Proof.
  intros F c f H x y Bx By Fx Fy L. destruct (H x y Bx By Fx Fy) as (r & E & _ & [[G _] | [_ G]]); [exists r; now split|]. exfalso. lra.
Qed.
Print Assumptions C61_no_overflow.

(** hypot(3, 4) = 5, hypot(2^1000, 2^1000) is finite, hypot(5e-324, 5e-324) = 5e-324, hypot(max, max) overflows *)
Example C61_ex1 : rs_hypot 0x4008000000000000 0x4010000000000000 = Some 0x4014000000000000. Proof. vm_compute. reflexivity. Qed.
Example C61_ex2 : rs_hypot 0x7e70000000000000 0x7e70000000000000 = Some 0x7e76a09e667f3bcd. Proof. vm_compute. reflexivity. Qed.
Example C61_ex3 : rs_hypot 1 1 = Some 1. Proof. vm_compute. reflexivity. Qed.
Example C61_ex4 : rs_hypot 0x7fefffffffffffff 0x7fefffffffffffff = Some (infinity f64 false). Proof. vm_compute. reflexivity. Qed.
Example C61_ex5 : rs_hypotf 0x40400000 0x40800000 = Some 0x40a00000. Proof. vm_compute. reflexivity. Qed.

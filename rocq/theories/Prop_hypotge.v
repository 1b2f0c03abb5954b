(** Property C62: hypot(x, y) and hypotf(x, y) are never smaller than |x| or |y|. *)
From Coq Require Import ZArith Reals Lia Lra Bool.
From Flocq Require Import Core.
From Verif Require Import Base Spec SpecHypot2 SpecHypot3 Format P_format Ieee P_ieee P_real M_sqrt M_elib M_pow P_elem P_elem2 P_dom Prop_hypot P_hp4 P_hp5 P_hp7 Prop_hypotacc.
Open Scope Z_scope.

Theorem C62_hypotf : hypot_dominates f32 rs_hypotf.
Proof.
  intros x y Bx By Fx Fy. destruct (C61_hypotf x y Bx By Fx Fy) as (r & E & _ & D). exists r. split; [exact E|].
  destruct D as [[G _] | [G _]]; [right|now left]. split; [exact G|].
  destruct (val_a32 x Bx) as (_ & _ & _ & <-). destruct (val_a32 y By) as (_ & _ & _ & <-).
  rewrite fin32 in Fx, Fy by assumption. apply Z.ltb_lt in Fx, Fy. destruct (bits32 x Bx) as [_ Rx]. destruct (bits32 y By) as [_ Ry].
  destruct (hypotf_ordge (Z.max (a32 x) (a32 y)) (Z.min (a32 x) (a32 y)) ltac:(lia) ltac:(lia)) as (r' & E' & H). rewrite <- hypotf_mag, E in E'. injection E' as <-. specialize (H G).
  destruct (pos_mono f32 w32' (Z.max (a32 x) (a32 y)) (a32 x) ltac:(lia) ltac:(change (top f32) with 0x7f800000; lia)) as [_ K1].
  destruct (pos_mono f32 w32' (Z.max (a32 x) (a32 y)) (a32 y) ltac:(lia) ltac:(change (top f32) with 0x7f800000; lia)) as [_ K2]. lra.
Qed.
Print Assumptions C62_hypotf.

Theorem C62_hypot : hypot_dominates f64 rs_hypot.
Proof.
  intros x y Bx By Fx Fy. destruct (C61_hypot x y Bx By Fx Fy) as (r & E & _ & D). exists r. split; [exact E|].
  destruct D as [[G _] | [G _]]; [right|now left]. split; [exact G|].
  destruct (val_a64 x Bx) as (_ & _ & _ & <-). destruct (val_a64 y By) as (_ & _ & _ & <-).
  rewrite fin64 in Fx, Fy by assumption. apply Z.ltb_lt in Fx, Fy. destruct (bits64 x Bx) as [_ Rx]. destruct (bits64 y By) as [_ Ry].
  destruct (hypot_ordacc (Z.max (a64 x) (a64 y)) (Z.min (a64 x) (a64 y)) ltac:(lia) ltac:(lia)) as (r' & E' & _ & H). rewrite <- hypot_mag, E in E'. injection E' as <-. specialize (H G).
  destruct (pos_mono f64 w64' (Z.max (a64 x) (a64 y)) (a64 x) ltac:(lia) ltac:(change (top f64) with 0x7ff0000000000000; lia)) as [_ K1].
  destruct (pos_mono f64 w64' (Z.max (a64 x) (a64 y)) (a64 y) ltac:(lia) ltac:(change (top f64) with 0x7ff0000000000000; lia)) as [_ K2]. lra.
Qed.
Print Assumptions C62_hypot.

(** the bound is attained with a nonzero second argument: hypotf(1, 2^-13) = 1; and with subnormals *)
Example C62_ex1 : rs_hypotf 0x3f800000 0x39000000 = Some 0x3f800000. Proof. vm_compute. reflexivity. Qed.
Example C62_ex2 : rs_hypotf 0x80000003 1 = Some 3. Proof. vm_compute. reflexivity. Qed.

(** Property C37: exp10 and exp10f. *)
From Coq Require Import ZArith Reals Lia Lra Bool List.
From Flocq Require Import Core.
From Verif Require Import Base Spec SpecElem SpecAnnexF SpecPow SpecFun Format P_format Ieee P_ieee M_bits P_bits M_elib M_exp M_pow P_elem P_elem2 P_ival P_tot P_exp
  P_lit P_nan P_pow Prop_pow P_exp10.
Open Scope Z_scope.

(** Integers within the table: the power of ten, correctly rounded. *)
Theorem C37_exp10_exact : exp10_exact f64 15 rs_exp10.
Proof. unfold exp10_exact. apply exp10_ints; vm_compute; reflexivity. Qed.
Theorem C37_exp10f_exact : exp10_exact f32 7 rs_exp10f.
Proof. unfold exp10_exact. apply exp10_ints; vm_compute; reflexivity. Qed.
(** exp10f returns for every argument (in particular it never indexes outside its table). *)
Theorem C37_exp10f_total : total1 f32 f32 rs_exp10f.
Proof. exact exp10f_tot. Qed.
(** exp10 returns from its table branch for every argument; the other branch is the call pow(10, x). *)
Theorem C37_exp10_total : forall x, isbits f64 x -> rs_exp10 x = rs_pow 0x4024000000000000 x \/ exists r, rs_exp10 x = Some r /\ isbits f64 r.
Proof. exact exp10_tab. Qed.

Lemma exp10f_nan : nan_to_nan f32 rs_exp10f.
Proof.
  intros x B N. unfold to_nan, rs_exp10f. destruct (modff_ok x B) as (y & n & -> & S). cbn [bind]. cbv beta iota zeta. destruct S as (_ & _ & (_ & _ & R) & _).
  assert (Fx : finite f32 x = false). { rewrite fin32, Z.ltb_ge by assumption. rewrite nan32, Z.ltb_lt in N by assumption. lia. }
  rewrite (R Fx). change (Z.land (Z.shiftr x 23) 255) with (Z.land (Z.shiftr x 23) (2 ^ 8 - 1)). rewrite land_pow2m1, Z.shiftr_div_pow2 by lia.
  change ((x / 2 ^ 23) mod 2 ^ 8) with (expf f32 x). unfold finite in Fx. apply Z.ltb_ge in Fx. change (2 ^ ew f32 - 1) with 255 in Fx.
  destruct (Z.ltb_spec (expf f32 x) 130); [lia|].
  destruct (exp2_nan (rs_exp10f_LN10_F64 *: fcvt f32 f64 x)%fl) as (r & -> & Br & Nr); [bitsok|nanok|]. cbn [bind]. eexists. split; [reflexivity|]. split; [bitsok|nanok].
Qed.
Lemma exp10_nan : nan_to_nan f64 rs_exp10.
Proof.
  intros x B N. unfold to_nan, rs_exp10. destruct (modf_ok x B) as (y & n & -> & S). cbn [bind]. cbv beta iota zeta. destruct S as (_ & _ & (_ & _ & R) & _).
  assert (Fx : finite f64 x = false). { rewrite fin64, Z.ltb_ge by assumption. rewrite nan64, Z.ltb_lt in N by assumption. lia. }
  rewrite (R Fx). change (Z.land (Z.shiftr x 52) 2047) with (Z.land (Z.shiftr x 52) (2 ^ 11 - 1)). rewrite land_pow2m1, Z.shiftr_div_pow2 by lia.
  change ((x / 2 ^ 52) mod 2 ^ 11) with (expf f64 x). unfold finite in Fx. apply Z.ltb_ge in Fx. change (2 ^ ew f64 - 1) with 2047 in Fx.
  destruct (Z.ltb_spec (expf f64 x) 1027); [lia|].
  apply (pow_nan f64 rs_pow C32_pow); [vm_compute; split; [discriminate|reflexivity]|assumption|now right| |discriminate].
  rewrite zer64 by assumption. rewrite nan64, Z.ltb_lt in N by assumption. apply Z.eqb_neq. lia.
Qed.
Theorem C37_exp10_special : exp_special f64 rs_exp10.
Proof.
  split; [exact exp10_nan|]. split; [vm_compute; reflexivity|]. split; [vm_compute; reflexivity|]. intros []; vm_compute; reflexivity.
Qed.
Theorem C37_exp10f_special : exp_special f32 rs_exp10f.
Proof.
  split; [exact exp10f_nan|]. split; [vm_compute; reflexivity|]. split; [vm_compute; reflexivity|]. intros []; vm_compute; reflexivity.
Qed.
Print Assumptions C37_exp10_exact.
Print Assumptions C37_exp10f_exact.
Print Assumptions C37_exp10f_total.
Print Assumptions C37_exp10_total.
Print Assumptions C37_exp10_special.
Print Assumptions C37_exp10f_special.

Example C37_ex : rs_exp10 0xc008000000000000 = Some 0x3f50624dd2f1a9fc. (* exp10(-3) = 0.001 *)
Proof. vm_compute. reflexivity. Qed.
Example C37_exf : rs_exp10f 0x40e00000 = Some 0x4b189680. (* exp10f(7) = 1e7 *)
Proof. vm_compute. reflexivity. Qed.

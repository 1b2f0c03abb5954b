(** C58: the inverse hyperbolic functions are within three machine epsilons on their whole domains. *)
From Coq Require Import ZArith Reals List Bool Lra Psatz.
From Flocq Require Import Core.
From Verif Require Import Base Spec SpecLog2 SpecHyp M_log P_hy5 P_hy6.
Open Scope Z_scope.

Theorem C58_asinh : asinh_like f64 3 rs_asinh.
Proof. exact asinh_within. Qed.
Print Assumptions C58_asinh.
Theorem C58_acosh : acosh_like f64 3 rs_acosh.
Proof. exact acosh_within. Qed.
Print Assumptions C58_acosh.
Theorem C58_atanh : atanh_like f64 3 rs_atanh.
Proof. exact atanh_within. Qed.
Print Assumptions C58_atanh.
Theorem C58_asinhf : asinh_like f32 3 rs_asinhf.
Proof. exact asinhf_within. Qed.
Print Assumptions C58_asinhf.
Theorem C58_acoshf : acosh_like f32 3 rs_acoshf.
Proof. exact acoshf_within. Qed.
Print Assumptions C58_acoshf.
Theorem C58_atanhf : atanh_like f32 3 rs_atanhf.
Proof. exact atanhf_within. Qed.
Print Assumptions C58_atanhf.

(** the specification is not vacuous: the hyperbolic sine undoes the real asinh, and likewise for the others *)
Lemma C58_asinh_inverse x : (sinh (Rasinh x) = x)%R.
Proof.
  unfold Rasinh. assert (A : (0 <= x * x)%R) by apply Rle_0_sqr. pose proof (sqrt_sqrt (x * x + 1) ltac:(lra)) as S. pose proof (sqrt_pos (x * x + 1)) as P. set (s := sqrt (x * x + 1)) in *.
  assert (Q : (0 < x + s)%R). { destruct (Rlt_le_dec 0 (x + s)) as [C | C]; [exact C|]. exfalso. assert (s * s <= x * x)%R; [|lra]. replace (x * x)%R with (- x * - x)%R by ring. apply Rmult_le_compat; lra. }
  unfold sinh. rewrite exp_Ropp, exp_ln by exact Q. apply Rmult_eq_reg_r with (2 * (x + s))%R; [|lra]. replace ((x + s - / (x + s)) / 2 * (2 * (x + s)))%R with ((x + s) * (x + s) - 1)%R by (field; lra). nra.
Qed.
Lemma C58_acosh_inverse x : (1 <= x -> cosh (Racosh x) = x)%R.
Proof.
  intros H. unfold Racosh. assert (A : (1 * 1 <= x * x)%R) by (apply Rmult_le_compat; lra). pose proof (sqrt_sqrt (x * x - 1) ltac:(lra)) as S. pose proof (sqrt_pos (x * x - 1)) as P. set (s := sqrt (x * x - 1)) in *.
  unfold cosh. rewrite exp_Ropp, exp_ln by lra. apply Rmult_eq_reg_r with (2 * (x + s))%R; [|lra]. replace ((x + s + / (x + s)) / 2 * (2 * (x + s)))%R with ((x + s) * (x + s) + 1)%R by (field; lra). nra.
Qed.
Lemma C58_atanh_inverse x : (-1 < x < 1 -> tanh (Ratanh x) = x)%R.
Proof.
  intros H. unfold Ratanh. set (q := ((1 + x) / (1 - x))%R). assert (Q : (0 < q)%R) by (unfold q; apply Rdiv_lt_0_compat; lra).
  assert (E : (exp (ln q / 2) * exp (ln q / 2) = q)%R). { rewrite <- exp_plus. replace (ln q / 2 + ln q / 2)%R with (ln q) by field. apply exp_ln. exact Q. }
  unfold tanh, sinh, cosh. rewrite exp_Ropp. pose proof (exp_pos (ln q / 2)) as P. set (e := exp (ln q / 2)) in *. assert (0 < e * e)%R by lra.
  replace ((e - / e) / 2 / ((e + / e) / 2))%R with ((e * e - 1) / (e * e + 1))%R by (field; repeat split; nra). rewrite E. unfold q. field. split; lra.
Qed.
(** 1, -1/4, the largest finite number, the float after 1, 1/2, the float above -1 *)
Example C58_asinh_1 : rs_asinh 0x3ff0000000000000 = Some 4606113927061427239. Proof. vm_compute. reflexivity. Qed.
Example C58_asinh_q : rs_asinh 0xbfd0000000000000 = Some 13821455976057398839. Proof. vm_compute. reflexivity. Qed.
Example C58_asinh_top : rs_asinh 0x7fefffffffffffff = Some 4649460627574225021. Proof. vm_compute. reflexivity. Qed.
Example C58_acosh_1 : rs_acosh 0x3ff0000000000000 = Some 0. Proof. vm_compute. reflexivity. Qed.
Example C58_acosh_next : rs_acosh 0x3ff0000000000001 = Some 4491954280533539789. Proof. vm_compute. reflexivity. Qed.
Example C58_acosh_top : rs_acosh 0x7fefffffffffffff = Some 4649460627574225021. Proof. vm_compute. reflexivity. Qed.
Example C58_atanh_half : rs_atanh 0x3fe0000000000000 = Some 4603122929439146762. Proof. vm_compute. reflexivity. Qed.
Example C58_atanh_low : rs_atanh 0xbfefffffffffffff = Some 13849333051372544226. Proof. vm_compute. reflexivity. Qed.
Example C58_asinhf_1 : rs_asinhf 0x3f800000 = Some 1063362995. Proof. vm_compute. reflexivity. Qed.
Example C58_acoshf_next : rs_acoshf 0x3f800001 = Some 973078527. Proof. vm_compute. reflexivity. Qed.
Example C58_atanhf_half : rs_atanhf 0x3f000000 = Some 1057791828. Proof. vm_compute. reflexivity. Qed.

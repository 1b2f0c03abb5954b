(** C60: sinh and tanh are within four, cosh within three machine epsilons, with exact overflow thresholds; sinhf returns NaN on an interval of ordinary arguments. *)
From Coq Require Import ZArith Reals List Bool Lra Psatz.
From Flocq Require Import Core.
From Verif Require Import Base Spec SpecLog2 SpecHyp2 M_exp P_sh5 P_sh6 P_sh7.
Open Scope Z_scope.

Theorem C60_sinh : sinh_like f64 4 rs_sinh.
Proof. exact sinh_within. Qed.
Print Assumptions C60_sinh.
Theorem C60_cosh : cosh_like f64 3 rs_cosh.
Proof. exact cosh_within. Qed.
Print Assumptions C60_cosh.
Theorem C60_coshf : cosh_like f32 3 rs_coshf.
Proof. exact coshf_within. Qed.
Print Assumptions C60_coshf.
Theorem C60_tanh : tanh_like f64 4 rs_tanh.
Proof. exact tanh_within. Qed.
Print Assumptions C60_tanh.
Theorem C60_tanhf : tanh_like f32 4 rs_tanhf.
Proof. exact tanhf_within. Qed.
Print Assumptions C60_tanhf.
(** The full statement for sinhf is [sinh_like f32 4 rs_sinhf]; it fails exactly for 90851/1024 < |x| < 11629079/131072 (88.72168 and 88.722831), where expm1f has already overflowed and the source divides infinity by infinity. *)
Theorem C60_sinhf_partial :
  sinh_on f32 4 (fun x => ~ (90851 / 1024 < Rabs (val f32 x) /\ Rabs (val f32 x) < 11629079 / 131072)%R) rs_sinhf.
Proof. exact sinhf_within. Qed.
Print Assumptions C60_sinhf_partial.
(** Every argument of that interval gives NaN, although the exact result is below 2^127. *)
Theorem C60_sinhf_nan_refuted : forall x, isbits f32 x -> finite f32 x = true ->
  (90851 / 1024 < Rabs (val f32 x) /\ Rabs (val f32 x) < 11629079 / 131072)%R -> exists r, rs_sinhf x = Some r /\ isnan f32 r = true.
Proof. exact sinhf_gap. Qed.
Print Assumptions C60_sinhf_nan_refuted.
Theorem C60_sinhf_refuted : forall c, ~ sinh_like f32 c rs_sinhf.
Proof. exact sinhf_not. Qed.
Print Assumptions C60_sinhf_refuted.
(** the witness: 11628929/131072 = 88.72168731689453125 *)
Theorem C60_sinhf_witness_refuted : rs_sinhf 0x42b17181 = Some 0x7fc00000 /\ (Rabs (sinh (val f32 0x42b17181)) < bpow radix2 127)%R.
Proof. exact sinhf_witness. Qed.
Print Assumptions C60_sinhf_witness_refuted.

(** 1, the two floats next to 1025 ln 2, 1/2, -32, 2^-60; the last argument giving NaN and the next *)
Example C60_s1 : rs_sinh 0x3ff0000000000000 = Some 0x3ff2cd9fc44eb982. Proof. vm_compute. reflexivity. Qed.
Example C60_stop : rs_sinh 0xc08633ce8fb9f87d = Some 0xffeffffffffffd3b. Proof. vm_compute. reflexivity. Qed.
Example C60_sover : rs_sinh 0xc08633ce8fb9f87e = Some 0xfff0000000000000. Proof. vm_compute. reflexivity. Qed.
Example C60_ctop : rs_cosh 0x408633ce8fb9f87d = Some 0x7feffffffffffd3b. Proof. vm_compute. reflexivity. Qed.
Example C60_cover : rs_cosh 0x408633ce8fb9f87e = Some 0x7ff0000000000000. Proof. vm_compute. reflexivity. Qed.
Example C60_thalf : rs_tanh 0x3fe0000000000000 = Some 0x3fdd9353d7568af3. Proof. vm_compute. reflexivity. Qed.
Example C60_tone : rs_tanh 0xc040000000000000 = Some 0xbff0000000000000. Proof. vm_compute. reflexivity. Qed.
Example C60_ttiny : rs_tanh 0x3c30000000000000 = Some 0x3c30000000000000. Proof. vm_compute. reflexivity. Qed.
Example C60_sf : rs_sinhf 0x3f800000 = Some 0x3f966cfe. Proof. vm_compute. reflexivity. Qed.
Example C60_cftop : rs_coshf 0x42b2d4fc = Some 0x7f7fffed. Proof. vm_compute. reflexivity. Qed.
Example C60_cfover : rs_coshf 0x42b2d4fd = Some 0x7f800000. Proof. vm_compute. reflexivity. Qed.
Example C60_sfnan : rs_sinhf 0x42b17216 = Some 0x7fc00000. Proof. vm_compute. reflexivity. Qed.
Example C60_sfok : rs_sinhf 0x42b17217 = Some 0x7effff85. Proof. vm_compute. reflexivity. Qed.

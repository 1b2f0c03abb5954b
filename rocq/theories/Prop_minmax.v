(** C07-C11: sign manipulation, minimum / maximum families, positive difference. *)
From Coq Require Import ZArith Reals Bool Lia.
From Flocq Require Import Core.
From Verif Require Import Base Spec SpecFun Format Ieee M_basic P_round2 P_minmax P_round3.
Open Scope Z_scope.

(** C07 *)
Theorem C07_fabs_clears_sign : forall F x, isbits F x -> fabs F x = with_sign F false x.
Proof. exact fabs_eq. Qed.
Print Assumptions C07_fabs_clears_sign.
Theorem C07_copysign_sets_sign : forall F x y, isbits F x -> isbits F y ->
  copysign F x y = with_sign F (signbit F y) x.
Proof. exact copysign_eq. Qed.
Print Assumptions C07_copysign_sets_sign.
(** [with_sign] means what it says: only the sign field changes. *)
Theorem C07_with_sign_fields : forall F s x,
  isbits F (with_sign F s x) /\ signbit F (with_sign F s x) = s /\
  expf F (with_sign F s x) = expf F x /\ sigf F (with_sign F s x) = sigf F x.
Proof. exact with_sign_fields. Qed.
Print Assumptions C07_with_sign_fields.
Example C07_ex : isbits f64 0xFFF8000000000123 /\ fabs f64 0xFFF8000000000123 = 0x7FF8000000000123
  /\ copysign f32 0x3F800000 0xFFC00001 = 0xBF800000.
Proof. unfold isbits. repeat split; vm_compute; congruence. Qed.

(** C08 *)
Theorem C08_fmin : forall F x y, isbits F x -> isbits F y -> minmax_num F true x y (fmin F x y).
Proof. exact fmin_ok. Qed.
Print Assumptions C08_fmin.
Theorem C08_fmax : forall F x y, isbits F x -> isbits F y -> minmax_num F false x y (fmax F x y).
Proof. exact fmax_ok. Qed.
Print Assumptions C08_fmax.
Example C08_ex : isbits f32 0x3F800000 /\ isbits f32 0x7FC00000
  /\ fmin f32 0x3F800000 0x7FC00000 = 0x3F800000 /\ fmin f32 0x3F800000 0x40000000 = 0x3F800000
  /\ fmax f32 0x7FC00000 0x3F800000 = 0x3F800000 /\ fmax f32 0x3F800000 0x40000000 = 0x40000000.
Proof. unfold isbits. repeat split; vm_compute; congruence. Qed.

(** C09 *)
Theorem C09_fminimum : forall F x y, isbits F x -> isbits F y -> minmax_prop F true x y (fminimum F x y).
Proof. exact fminimum_ok. Qed.
Print Assumptions C09_fminimum.
Theorem C09_fmaximum : forall F x y, isbits F x -> isbits F y -> minmax_prop F false x y (fmaximum F x y).
Proof. exact fmaximum_ok. Qed.
Print Assumptions C09_fmaximum.
(** The specification determines the result: two numbers are ordered or identical. *)
Theorem C09_below_total : forall F x y, isbits F x -> isbits F y -> isnan F x = false -> isnan F y = false ->
  below F x y \/ x = y \/ below F y x.
Proof. exact below_total. Qed.
Print Assumptions C09_below_total.
Example C09_ex : isbits f32 0x80000000 /\ isbits f32 0 /\ below f32 0x80000000 0
  /\ fminimum f32 0 0x80000000 = 0x80000000 /\ fmaximum f32 0x80000000 0 = 0
  /\ isnan f32 (fminimum f32 0x7FC00000 0x3F800000) = true.
Proof.
  unfold isbits. repeat split; try (vm_compute; congruence). right. repeat split.
Qed.

(** C10 *)
Theorem C10_fminimum_num : forall F x y, isbits F x -> isbits F y ->
  minmax_ord F true x y (fminimum_num F x y).
Proof. exact fminimum_num_ok. Qed.
Print Assumptions C10_fminimum_num.
(** The same statement for fmaximum_num is false: fmaximum_num(-0.0, NaN) is NaN. *)
Theorem C10_fmaximum_num_refuted :
  ~ (forall F x y, isbits F x -> isbits F y -> minmax_ord F false x y (fmaximum_num F x y)).
Proof. exact fmaximum_num_refuted. Qed.
Print Assumptions C10_fmaximum_num_refuted.
(** It holds for all other pairs. *)
Theorem C10_fmaximum_num_partial : forall F x y, isbits F x -> isbits F y ->
  ~ (x = zero F true /\ isnan F y = true /\ signbit F y = false) ->
  minmax_ord F false x y (fmaximum_num F x y).
Proof. exact fmaximum_num_ok. Qed.
Print Assumptions C10_fmaximum_num_partial.
Example C10_ex : isbits f64 0x3FF0000000000000 /\ isbits f64 0x7FF8000000000000
  /\ ~ (0x3FF0000000000000 = zero f64 true /\ isnan f64 0x7FF8000000000000 = true /\ signbit f64 0x7FF8000000000000 = false)
  /\ fmaximum_num f64 0x3FF0000000000000 0x7FF8000000000000 = 0x3FF0000000000000
  /\ isnan f64 (fmaximum_num f64 0x8000000000000000 0x7FF8000000000000) = true.
Proof.
  unfold isbits. repeat split; try (vm_compute; congruence). intros [H _]. revert H. vm_compute. congruence.
Qed.

(** C11 *)
Theorem C11_fdim : forall F x y, isbits F x -> isbits F y ->
  let r := fdim F x y in
  isbits F r /\
  (isnan F x = true \/ isnan F y = true -> isnan F r = true) /\
  (lt_bits F x y \/ eq_bits F x y -> r = zero F false) /\
  (lt_bits F y x -> finite F x = true -> finite F y = true -> rounds_to F (val F x - val F y) false r) /\
  (lt_bits F y x -> finite F x = false \/ finite F y = false -> r = infinity F false).
Proof. exact fdim_ok. Qed.
Print Assumptions C11_fdim.
Example C11_ex : isbits f32 0x40400000 /\ fdim f32 0x40400000 0x3F800000 = 0x40000000
  /\ fdim f32 0x3F800000 0x40400000 = 0 /\ fdim f32 0x7F7FFFFF 0xFF7FFFFF = infinity f32 false.
Proof. unfold isbits. repeat split; vm_compute; congruence. Qed.

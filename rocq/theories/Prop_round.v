(** C01-C06, C35: rounding to an integer. *)
From Coq Require Import ZArith Reals Bool Lia.
From Flocq Require Import Core.
From Verif Require Import Base Spec SpecFun Format Ieee M_basic P_round P_round2 P_minmax P_round3.
Open Scope Z_scope.

(** C01 *)
Theorem C01_floor_exact : forall F x, isbits F x ->
  exists r, floor F x = Some r /\ rounded_by F Zfloor x r.
Proof. exact floor_ok. Qed.
Print Assumptions C01_floor_exact.
(** -2.5 (f64) to -3.0; -0.0 (f32) to -0.0; 1.999 (f16) to 1.0; the largest f128 below 2 to 1.0 *)
Example C01_ex : isbits f64 0xC004000000000000 /\ floor f64 0xC004000000000000 = Some 0xC008000000000000
  /\ floor f32 0x80000000 = Some 0x80000000 /\ floor f16 0x3FFF = Some 0x3C00
  /\ floor f128 0x3FFFFFFFFFFFFFFFFFFFFFFFFFFFFFFF = Some 0x3FFF0000000000000000000000000000.
Proof. unfold isbits. repeat split; vm_compute; congruence. Qed.

(** C02 *)
Theorem C02_ceil_exact : forall F x, isbits F x ->
  exists r, ceil F x = Some r /\ rounded_by F Zceil x r.
Proof. exact ceil_ok. Qed.
Print Assumptions C02_ceil_exact.
Example C02_ex : isbits f32 0xBF000000 /\ ceil f32 0xBF000000 = Some 0x80000000
  /\ ceil f64 0x3FFFFFFFFFFFFFFF = Some 0x4000000000000000 /\ ceil f16 0x3C01 = Some 0x4000.
Proof. unfold isbits. repeat split; vm_compute; congruence. Qed.

(** C03 *)
Theorem C03_trunc_exact : forall F x, isbits F x ->
  exists r, trunc F x = Some r /\ rounded_by F Ztrunc x r.
Proof. exact trunc_ok. Qed.
Print Assumptions C03_trunc_exact.
Example C03_ex : isbits f64 0xC007333333333333 /\ trunc f64 0xC007333333333333 = Some 0xC000000000000000
  /\ trunc f32 0xFFC01234 = Some 0xFFC01234.
Proof. unfold isbits. repeat split; vm_compute; congruence. Qed.

(** C04 *)
Theorem C04_round_nearest_away : forall F x, isbits F x ->
  exists r, M_basic.round F x = Some r /\ isbits F r /\
  (finite F x = true -> finite F r = true /\ val F r = IZR (ZnearestA (val F x)) /\ signbit F r = signbit F x) /\
  (isinf F x = true -> r = x) /\ (isnan F x = true -> isnan F r = true).
Proof. exact round_ok. Qed.
Print Assumptions C04_round_nearest_away.
(** 0.49999999999999994 rounds to 0, 2.5 to 3, -0.5 to -1 *)
Example C04_ex : isbits f64 0x3FDFFFFFFFFFFFFF /\ M_basic.round f64 0x3FDFFFFFFFFFFFFF = Some 0
  /\ M_basic.round f64 0x4004000000000000 = Some 0x4008000000000000
  /\ M_basic.round f32 0xBF000000 = Some 0xBF800000.
Proof. unfold isbits. repeat split; vm_compute; congruence. Qed.

(** C05 *)
Theorem C05_rint_nearest_even : forall F x, isbits F x ->
  exists r, rint F x = Some r /\ roundeven F x = Some r /\ rounded_by F ZnearestE x r.
Proof. exact rint_roundeven_ok. Qed.
Print Assumptions C05_rint_nearest_even.
(** 2.5 to 2, 3.5 to 4, -0.5 to -0.0 *)
Example C05_ex : isbits f32 0x40200000 /\ rint f32 0x40200000 = Some 0x40000000
  /\ rint f64 0x400C000000000000 = Some 0x4010000000000000 /\ roundeven f16 0xB800 = Some 0x8000.
Proof. unfold isbits. repeat split; vm_compute; congruence. Qed.

(** C06.  Full statement: the status is INEXACT exactly when the result differs from the argument.
    It is false: floor, ceil and trunc of 0.5 report OK. *)
Definition status_exact (f : fmt -> Z -> option (Z * Z)) : Prop :=
  forall F x, isbits F x -> exists r st, f F x = Some (r, st) /\ (st = ST_INEXACT <-> r <> x).
Theorem C06_status_refuted :
  ~ status_exact floor_status /\ ~ status_exact ceil_status /\ ~ status_exact trunc_status.
Proof. exact status_refuted. Qed.
Print Assumptions C06_status_refuted.
(** What holds: the status is right unless x is a power of two below one in magnitude (exponent
    field below the bias and nonzero, significand field zero); for those it is always OK. *)
Theorem C06_status_partial : forall f, f = floor_status \/ f = ceil_status \/ f = trunc_status ->
  forall F x, isbits F x -> exists r st, f F x = Some (r, st) /\ (st = ST_OK \/ st = ST_INEXACT) /\
  (~ (0 < expf F x < bias F /\ sigf F x = 0) -> (st = ST_INEXACT <-> r <> x)) /\
  (0 < expf F x < bias F /\ sigf F x = 0 -> st = ST_OK /\ r <> x).
Proof. exact status_partial. Qed.
Print Assumptions C06_status_partial.
Example C06_ex : isbits f32 0x3F400000 /\ ~ (0 < expf f32 0x3F400000 < bias f32 /\ sigf f32 0x3F400000 = 0)
  /\ floor_status f32 0x3F400000 = Some (0, ST_INEXACT) /\ floor_status f32 0x3F000000 = Some (0, ST_OK).
Proof. unfold isbits. repeat split; try (vm_compute; congruence). intros [_ H]; revert H; vm_compute; congruence. Qed.

(** C35.  Full statement: the i586 functions return the same bits as the generic ones.  False for
    negative zero results. *)
Theorem C35_i586_refuted :
  ~ (forall x, isbits f64 x -> Some (i586_floor x) = floor f64 x) /\
  ~ (forall x, isbits f64 x -> Some (i586_ceil x) = ceil f64 x).
Proof. exact i586_refuted. Qed.
Print Assumptions C35_i586_refuted.
(** They agree on every argument whose floor (ceiling) is not a negative zero. *)
Theorem C35_i586_partial : forall x, isbits f64 x ->
  (x <> zero f64 true -> Some (i586_floor x) = floor f64 x) /\
  (~ (signbit f64 x = true /\ finite f64 x = true /\ (-1 < val f64 x)%R) -> Some (i586_ceil x) = ceil f64 x).
Proof. exact i586_partial. Qed.
Print Assumptions C35_i586_partial.
Example C35_ex : isbits f64 0xC004000000000000 /\ 0xC004000000000000 <> zero f64 true
  /\ i586_floor 0xC004000000000000 = 0xC008000000000000 /\ i586_ceil 0x4004000000000000 = 0x4008000000000000.
Proof. unfold isbits. repeat split; vm_compute; congruence. Qed.

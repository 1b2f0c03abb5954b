(** C48-C50: the Bessel functions of integer order [jn], [yn], [jnf], [ynf]: they return for every order and
    argument, they satisfy the reflection formulas, and they have the documented special values. *)
From Coq Require Import ZArith Reals Bool List Lia.
From Verif Require Import Base Spec SpecSym SpecBes Format Ieee M_bessel M_jn P_jn2 P_jn4.
Open Scope Z_scope.

(** ** C48 *)
(** [jn] returns for every [i32] order, [i32::MIN] included, and every argument: no counter overflows and every loop ends. *)
Theorem C48_jn : total_n f64 rs_jn.
Proof. apply total_of. exact jn_tot. Qed.
Print Assumptions C48_jn.
(** [jnf] returns for every [i32] order, [i32::MIN] included, and every argument: no counter overflows and every loop ends. *)
Theorem C48_jnf : total_n f32 rs_jnf.
Proof. apply total_of. exact jnf_tot. Qed.
Print Assumptions C48_jnf.
(** [yn] returns for every [i32] order, [i32::MIN] included, and every argument: no counter overflows and every loop ends. *)
Theorem C48_yn : total_n f64 rs_yn.
Proof. apply total_of. exact yn_tot. Qed.
Print Assumptions C48_yn.
(** [ynf] returns for every [i32] order, [i32::MIN] included, and every argument: no counter overflows and every loop ends. *)
Theorem C48_ynf : total_n f32 rs_ynf.
Proof. apply total_of. exact ynf_tot. Qed.
Print Assumptions C48_ynf.
Example ex_jn_2_1 : rs_jn 2 0x3ff0000000000000 = Some 4592944089333930983.
Proof. vm_compute. reflexivity. Qed.
Example ex_yn_2_1 : rs_yn 2 0x3ff0000000000000 = Some 13833484869600387362.
Proof. vm_compute. reflexivity. Qed.
Example ex_jnf_5 : rs_jnf 5 0x41200000 = Some 3194990037.
Proof. vm_compute. reflexivity. Qed.
Example ex_ynf_2 : rs_ynf 2 0x3f800000 = Some 3218295185.
Proof. vm_compute. reflexivity. Qed.


(** ** C49 *)
(** Orders 0 and 1 are the functions of their own; J(-n, x) = J(n, -x); J(n, -x) = (-1)^n J(n, x); Y(-n, x) = (-1)^n Y(n, x): the same bits, signs of zeros included. *)
Theorem C49_jn_low : forall x, isbits f64 x -> agree f64 (rs_jn 0 x) (rs_j0 x) /\ agree f64 (rs_jn 1 x) (rs_j1 x).
Proof. intros x B. split; [now apply jn_0|now apply jn_1]. Qed.
Print Assumptions C49_jn_low.
Theorem C49_yn_low : forall x, isbits f64 x -> agree f64 (rs_yn 0 x) (rs_y0 x) /\ agree f64 (rs_yn 1 x) (rs_y1 x).
Proof. intros x B. split; [now apply yn_0|now apply yn_1]. Qed.
Print Assumptions C49_yn_low.
Theorem C49_jn_order : forall n x, is_i32 n -> is_i32 (- n) -> isbits f64 x -> agree f64 (rs_jn (- n) x) (rs_jn n (opposite f64 x)).
Proof. exact jn_reflect. Qed.
Print Assumptions C49_jn_order.
(** For the orders -1 and 1 the argument must be finite: see [C49_j1_inf_boundary]. *)
Theorem C49_jn_parity : forall n x, is_i32 n -> isbits f64 x -> finite f64 x = true \/ 2 <= Z.abs n ->
  exists r s, rs_jn n x = Some r /\ rs_jn n (opposite f64 x) = Some s /\ same f64 s (alternate f64 n r).
Proof. exact jn_parity. Qed.
Print Assumptions C49_jn_parity.
(** J(1, +-inf) is +0 for both signs, while J(n, -inf) is -0 for the other odd orders. *)
Theorem C49_j1_inf_boundary : rs_jn 1 (infinity f64 false) = Some 0 /\ rs_jn 1 (opposite f64 (infinity f64 false)) = Some 0 /\ ~ same f64 0 (alternate f64 1 0).
Proof. split; [vm_compute; reflexivity|]. split; [vm_compute; reflexivity|]. intros [E|[E _]]; vm_compute in E; discriminate E. Qed.
Print Assumptions C49_j1_inf_boundary.
(** At infinity [yn] is +0 for all orders, see [C50_yn_inf]. *)
Theorem C49_yn_order : forall n x, is_i32 n -> is_i32 (- n) -> isbits f64 x -> isinf f64 x = false ->
  exists r s, rs_yn n x = Some r /\ rs_yn (- n) x = Some s /\ same f64 s (alternate f64 n r).
Proof. exact yn_reflect. Qed.
Print Assumptions C49_yn_order.
(** Orders 0 and 1 are the functions of their own; J(-n, x) = J(n, -x); J(n, -x) = (-1)^n J(n, x); Y(-n, x) = (-1)^n Y(n, x): the same bits, signs of zeros included. *)
Theorem C49_jnf_low : forall x, isbits f32 x -> agree f32 (rs_jnf 0 x) (rs_j0f x) /\ agree f32 (rs_jnf 1 x) (rs_j1f x).
Proof. intros x B. split; [now apply jnf_0|now apply jnf_1]. Qed.
Print Assumptions C49_jnf_low.
Theorem C49_ynf_low : forall x, isbits f32 x -> agree f32 (rs_ynf 0 x) (rs_y0f x) /\ agree f32 (rs_ynf 1 x) (rs_y1f x).
Proof. intros x B. split; [now apply ynf_0|now apply ynf_1]. Qed.
Print Assumptions C49_ynf_low.
Theorem C49_jnf_order : forall n x, is_i32 n -> is_i32 (- n) -> isbits f32 x -> agree f32 (rs_jnf (- n) x) (rs_jnf n (opposite f32 x)).
Proof. exact jnf_reflect. Qed.
Print Assumptions C49_jnf_order.
(** For the orders -1 and 1 the argument must be finite: see [C49_j1f_inf_boundary]. *)
Theorem C49_jnf_parity : forall n x, is_i32 n -> isbits f32 x -> finite f32 x = true \/ 2 <= Z.abs n ->
  exists r s, rs_jnf n x = Some r /\ rs_jnf n (opposite f32 x) = Some s /\ same f32 s (alternate f32 n r).
Proof. exact jnf_parity. Qed.
Print Assumptions C49_jnf_parity.
(** J(1, +-inf) is +0 for both signs, while J(n, -inf) is -0 for the other odd orders. *)
Theorem C49_j1f_inf_boundary : rs_jnf 1 (infinity f32 false) = Some 0 /\ rs_jnf 1 (opposite f32 (infinity f32 false)) = Some 0 /\ ~ same f32 0 (alternate f32 1 0).
Proof. split; [vm_compute; reflexivity|]. split; [vm_compute; reflexivity|]. intros [E|[E _]]; vm_compute in E; discriminate E. Qed.
Print Assumptions C49_j1f_inf_boundary.
(** At infinity [ynf] is +0 for all orders, see [C50_ynf_inf]. *)
Theorem C49_ynf_order : forall n x, is_i32 n -> is_i32 (- n) -> isbits f32 x -> isinf f32 x = false ->
  exists r s, rs_ynf n x = Some r /\ rs_ynf (- n) x = Some s /\ same f32 s (alternate f32 n r).
Proof. exact ynf_reflect. Qed.
Print Assumptions C49_ynf_order.
Example ex_jn_odd : rs_jn 3 0xc000000000000000 = Some 13817185727307590096 /\ rs_jn (-3) 0x4000000000000000 = Some 13817185727307590096.
Proof. vm_compute. repeat split. Qed.
Example ex_yn_odd : rs_yn 3 0x4000000000000000 = Some 13831129942624555762 /\ rs_yn (-3) 0x4000000000000000 = Some 4607757905769779954.
Proof. vm_compute. repeat split. Qed.
Example ex_jnf_even : rs_jnf 4 0xc0000000 = Some 1024147225 /\ rs_jnf 4 0x40000000 = Some 1024147225.
Proof. vm_compute. repeat split. Qed.


(** ** C50 *)
Theorem C50_jn_nan : forall n x, is_i32 n -> isbits f64 x -> isnan f64 x = true -> rs_jn n x = Some x.
Proof. exact jn_nan. Qed.
Print Assumptions C50_jn_nan.
(** J(0, +-0) = 1; J(n, +-0) is a zero whose sign is that of x^n for n > 0 and of (-x)^|n| for n < 0. *)
Theorem C50_jn_zero : forall n x, is_i32 n -> isbits f64 x -> iszero f64 x = true ->
  rs_jn n x = Some (if n =? 0 then 0x3ff0000000000000 else zero f64 (xorb (n <? 0) (signbit f64 x) && Z.odd n)).
Proof. intros n x N B Z. destruct (Z.eqb_spec n 0) as [->|N0]; [now apply jn_zero0|now apply jn_zero]. Qed.
Print Assumptions C50_jn_zero.
Theorem C50_jn_inf : forall n x, is_i32 n -> isbits f64 x -> isinf f64 x = true -> exists r, rs_jn n x = Some r /\ iszero f64 r = true.
Proof. exact jn_inf. Qed.
Print Assumptions C50_jn_inf.
Theorem C50_yn_nan : forall n x, is_i32 n -> isbits f64 x -> isnan f64 x = true -> rs_yn n x = Some x.
Proof. exact yn_nan. Qed.
Print Assumptions C50_yn_nan.
Theorem C50_yn_neg : forall n x, is_i32 n -> isbits f64 x -> isnan f64 x = false -> signbit f64 x = true -> iszero f64 x = false ->
  exists r, rs_yn n x = Some r /\ isnan f64 r = true.
Proof. exact yn_neg. Qed.
Print Assumptions C50_yn_neg.
Theorem C50_yn_inf : forall n, is_i32 n -> rs_yn n (infinity f64 false) = Some 0.
Proof. exact yn_inf. Qed.
Print Assumptions C50_yn_inf.
(** Y(n, +-0) = -inf, except +inf for negative odd n. *)
Theorem C50_yn_zero : forall n x, is_i32 n -> isbits f64 x -> iszero f64 x = true ->
  rs_yn n x = Some (infinity f64 (negb ((n <? 0) && Z.odd n))).
Proof. exact yn_zero. Qed.
Print Assumptions C50_yn_zero.
Theorem C50_jnf_nan : forall n x, is_i32 n -> isbits f32 x -> isnan f32 x = true -> rs_jnf n x = Some x.
Proof. exact jnf_nan. Qed.
Print Assumptions C50_jnf_nan.
(** J(0, +-0) = 1; J(n, +-0) is a zero whose sign is that of x^n for n > 0 and of (-x)^|n| for n < 0. *)
Theorem C50_jnf_zero : forall n x, is_i32 n -> isbits f32 x -> iszero f32 x = true ->
  rs_jnf n x = Some (if n =? 0 then 0x3f800000 else zero f32 (xorb (n <? 0) (signbit f32 x) && Z.odd n)).
Proof. intros n x N B Z. destruct (Z.eqb_spec n 0) as [->|N0]; [now apply jnf_zero0|now apply jnf_zero]. Qed.
Print Assumptions C50_jnf_zero.
Theorem C50_jnf_inf : forall n x, is_i32 n -> isbits f32 x -> isinf f32 x = true -> exists r, rs_jnf n x = Some r /\ iszero f32 r = true.
Proof. exact jnf_inf. Qed.
Print Assumptions C50_jnf_inf.
Theorem C50_ynf_nan : forall n x, is_i32 n -> isbits f32 x -> isnan f32 x = true -> rs_ynf n x = Some x.
Proof. exact ynf_nan. Qed.
Print Assumptions C50_ynf_nan.
Theorem C50_ynf_neg : forall n x, is_i32 n -> isbits f32 x -> isnan f32 x = false -> signbit f32 x = true -> iszero f32 x = false ->
  exists r, rs_ynf n x = Some r /\ isnan f32 r = true.
Proof. exact ynf_neg. Qed.
Print Assumptions C50_ynf_neg.
Theorem C50_ynf_inf : forall n, is_i32 n -> rs_ynf n (infinity f32 false) = Some 0.
Proof. exact ynf_inf. Qed.
Print Assumptions C50_ynf_inf.
(** Y(n, +-0) = -inf, except +inf for negative odd n. *)
Theorem C50_ynf_zero : forall n x, is_i32 n -> isbits f32 x -> iszero f32 x = true ->
  rs_ynf n x = Some (infinity f32 (negb ((n <? 0) && Z.odd n))).
Proof. exact ynf_zero. Qed.
Print Assumptions C50_ynf_zero.
Example ex_jn_zero : rs_jn 3 0x8000000000000000 = Some 0x8000000000000000 /\ rs_jn 0 0x8000000000000000 = Some 0x3ff0000000000000.
Proof. vm_compute. repeat split. Qed.
Example ex_yn_zero : rs_yn 7 0 = Some 0xfff0000000000000 /\ rs_yn (-7) 0 = Some 0x7ff0000000000000.
Proof. vm_compute. repeat split. Qed.
Example ex_ynf_neg : isnan f32 0x7fc00000 = true /\ rs_ynf 2 0xbf800000 = Some 0x7fc00000.
Proof. vm_compute. repeat split. Qed.


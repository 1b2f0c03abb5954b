(** Model of the [Float] trait (libm/src/math/support/float_traits.rs): derived constants and
    bit-level accessors.  [to_bits]/[from_bits] are the identity: a float is its bit pattern. *)
From Coq Require Import ZArith Bool.
From Verif Require Import Base Spec.
Open Scope Z_scope.

Section Float.
Variable F : fmt.

(** float_traits.rs 221-222 [BITS], [SIG_BITS]; line 54 [EXP_BITS].  In Rust [EXP_BITS] is
    derived from the other two; here [BITS] is the sum. *)
Definition BITS : Z := width F.
Definition SIG_BITS : Z := mw F.
Definition EXP_BITS : Z := BITS - SIG_BITS - 1.
(** lines 60, 63, 66, 69, 72 *)
Definition EXP_SAT : Z := Z.shiftl 1 EXP_BITS - 1.
Definition EXP_BIAS : Z := Z.shiftr EXP_SAT 1.
Definition EXP_MAX : Z := EXP_BIAS.
Definition EXP_MIN : Z := - (EXP_MAX - 1).
Definition EXP_MIN_SUBNORM : Z := EXP_MIN - SIG_BITS.
(** lines 224-227 *)
Definition SIGN_MASK : Z := Z.shiftl 1 (BITS - 1).
Definition SIG_MASK : Z := Z.shiftl 1 SIG_BITS - 1.
Definition EXP_MASK : Z := unot BITS (Z.lor SIGN_MASK SIG_MASK).
Definition IMPLICIT_BIT : Z := Z.shiftl 1 SIG_BITS.
(** [Self::Int::MAX] *)
Definition INT_MAX : Z := 2 ^ BITS - 1.

(** line 132-134 [ex] *)
Definition ex (x : Z) : option Z :=
  let* a := ushr BITS x SIG_BITS in
  let* b := ucast 32 a in
  Some (Z.land b EXP_SAT).
(** line 137-139 [exp_unbiased]; [signed] is an [as] cast. *)
Definition exp_unbiased (x : Z) : option Z :=
  let* e := ex x in
  ssub 32 (to_i 32 e) (to_i 32 EXP_BIAS).
(** line 143-145 [frac] *)
Definition frac (x : Z) : Z := Z.land x SIG_MASK.
(** line 151-158 [from_parts] *)
Definition from_parts (negative : bool) (exponent significand : Z) : option Z :=
  let sign := if negative then 1 else 0 in
  let* a := ushl BITS sign (BITS - 1) in
  let* e := ucast BITS (Z.land exponent EXP_SAT) in
  let* b := ushl BITS e SIG_BITS in
  Some (Z.lor (Z.lor a b) (Z.land significand SIG_MASK)).
(** line 238-240 [is_sign_negative] (the primitive method, which reads the sign bit);
    line 121-123 [is_sign_positive] *)
Definition is_sign_negative (x : Z) : bool := negb (Z.land x SIGN_MASK =? 0).
Definition is_sign_positive (x : Z) : bool := negb (is_sign_negative x).
(** line 232-237: primitive [is_nan] ([self != self]) and [is_infinite], on bit patterns:
    magnitude above, respectively equal to, the pattern of infinity. *)
Definition is_nan (x : Z) : bool := EXP_MASK <? Z.land x (unot BITS SIGN_MASK).
Definition is_infinite (x : Z) : bool := EXP_MASK =? Z.land x (unot BITS SIGN_MASK).
(** line 127-129 [is_subnormal] *)
Definition is_subnormal (x : Z) : bool := Z.land x EXP_MASK =? 0.
(** line 107-109 [eq_repr], line 97-99 [biteq] *)
Definition biteq (x y : Z) : bool := x =? y.
Definition eq_repr (x y : Z) : bool := if is_nan x && is_nan y then true else biteq x y.
(** line 274-277 [normalize]; the shift amount is reduced by Rust only through the overflow
    check, [shift as Self::Int] is the value of [shift] itself (it fits). *)
Definition normalize (significand : Z) : option (Z * Z) :=
  let shift := wsub 32 (lzcnt BITS significand) EXP_BITS in
  let* s := ushl BITS significand (to_u BITS shift) in
  Some (to_i 32 (1 - to_i 32 shift), s).

(** Constants of the trait: lines 199-215. *)
Definition ZERO : Z := 0.
Definition NEG_ZERO : Z := SIGN_MASK.
Definition ONE : Z := Z.shiftl EXP_BIAS SIG_BITS.
Definition NEG_ONE : Z := Z.lor SIGN_MASK ONE.
Definition INFINITY : Z := EXP_MASK.
Definition NEG_INFINITY : Z := Z.lor SIGN_MASK EXP_MASK.
(** [core]'s [NAN]: the quiet NaN with an otherwise zero payload. *)
Definition NAN : Z := Z.lor EXP_MASK (Z.shiftl 1 (SIG_BITS - 1)).
Definition MIN_FLOAT : Z := Z.land INT_MAX (unot BITS (Z.shiftl 1 SIG_BITS)).
(** [-Self::MIN] *)
Definition MAX_FLOAT : Z := Z.lxor MIN_FLOAT SIGN_MASK.
Definition MIN_POSITIVE_NORMAL : Z := Z.shiftl 1 SIG_BITS.
(** [core]'s [EPSILON] = 2^-SIG_BITS *)
Definition EPSILON : Z := Z.shiftl (EXP_BIAS - SIG_BITS) SIG_BITS.

(** IEEE negation flips the sign bit. *)
Definition fneg (x : Z) : Z := Z.lxor x SIGN_MASK.
End Float.

(** Models of the bit-level and comparison-based generic functions
    (libm/src/math/generic/*.rs).  All are generic in the format, as in Rust. *)
From Coq Require Import ZArith Bool.
From Verif Require Import Base Spec Format Ieee.
Open Scope Z_scope.

(** env.rs 50-89: status flags (only the ones produced here). *)
Definition ST_OK : Z := 0.
Definition ST_INEXACT : Z := Z.shiftl 1 5.

Section Generic.
Variable F : fmt.

(** generic/fabs.rs 5-8 *)
Definition fabs (x : Z) : Z :=
  let abs_mask := unot (BITS F) (SIGN_MASK F) in
  Z.land x abs_mask.

(** generic/copysign.rs 5-11 *)
Definition copysign (x y : Z) : Z :=
  let ux := x in
  let uy := y in
  let ux := Z.land ux (unot (BITS F) (SIGN_MASK F)) in
  let ux := Z.lor ux (Z.land uy (SIGN_MASK F)) in
  ux.

(** generic/floor.rs 19-69 *)
Definition floor_status (x : Z) : option (Z * Z) :=
  let zero := 0 in
  let ix := x in
  let* e := exp_unbiased F x in
  if to_i 32 (SIG_BITS F) <=? e then Some (x, ST_OK)
  else if 0 <=? e then
    let* m := ushr (BITS F) (SIG_MASK F) (to_u 32 e) in
    if Z.land ix m =? zero then Some (x, ST_OK)
    else
      let status := ST_INEXACT in
      let* ix := (if is_sign_negative F x then uadd (BITS F) ix m else Some ix) in
      let ix := Z.land ix (unot (BITS F) m) in
      Some (ix, status)
  else
    let status := if Z.land ix (SIG_MASK F) =? 0 then ST_OK else ST_INEXACT in
    let* sh := ushl (BITS F) ix 1 in
    let res := if is_sign_positive F x then ZERO
               else if negb (sh =? zero) then NEG_ONE F
               else x in
    Some (res, status).
(** generic/floor.rs 14-16 *)
Definition floor (x : Z) : option Z := let* r := floor_status x in Some (fst r).

(** generic/ceil.rs 19-69 *)
Definition ceil_status (x : Z) : option (Z * Z) :=
  let zero := 0 in
  let ix := x in
  let* e := exp_unbiased F x in
  if to_i 32 (SIG_BITS F) <=? e then Some (x, ST_OK)
  else if 0 <=? e then
    let* m := ushr (BITS F) (SIG_MASK F) (to_u 32 e) in
    if Z.land ix m =? zero then Some (x, ST_OK)
    else
      let status := ST_INEXACT in
      let* ix := (if is_sign_positive F x then uadd (BITS F) ix m else Some ix) in
      let ix := Z.land ix (unot (BITS F) m) in
      Some (ix, status)
  else
    let status := if Z.land ix (SIG_MASK F) =? 0 then ST_OK else ST_INEXACT in
    let* sh := ushl (BITS F) ix 1 in
    let res := if is_sign_negative F x then NEG_ZERO F
               else if negb (sh =? zero) then ONE F
               else x in
    Some (res, status).
(** generic/ceil.rs 14-16 *)
Definition ceil (x : Z) : option Z := let* r := ceil_status x in Some (fst r).

(** generic/trunc.rs 13-42 *)
Definition trunc_status (x : Z) : option (Z * Z) :=
  let xi := x in
  let* e := exp_unbiased F x in
  if to_i 32 (SIG_BITS F) <=? e then Some (x, ST_OK)
  else
    let* mask := (if e <? 0 then Some (SIGN_MASK F)
                  else let* m := ushr (BITS F) (SIG_MASK F) (to_u 32 e) in
                       Some (unot (BITS F) m)) in
    if Z.land xi (unot (BITS F) mask) =? 0 then Some (x, ST_OK)
    else
      let status := if Z.land xi (SIG_MASK F) =? 0 then ST_OK else ST_INEXACT in
      let xi := Z.land xi mask in
      Some (xi, status).
(** generic/trunc.rs 8-10 *)
Definition trunc (x : Z) : option Z := let* r := trunc_status x in Some (fst r).

(** generic/round.rs 5-10 *)
Definition round (x : Z) : option Z :=
  let* e1 := usub 32 (EXP_BIAS F) 1 in
  let* f0p5 := from_parts F false e1 0 in
  let* e2 := usub 32 (EXP_BIAS F) 2 in
  let* f0p25 := from_parts F false e2 0 in
  trunc (fadd F x (copysign (fsub F f0p5 (fmul F f0p25 (EPSILON F))) x)).

(** generic/rint.rs 10-42.  [force] is the identity (storage to memory on x87). *)
Definition rint_round (x : Z) : option (Z * Z) :=
  let toint := fdiv F (ONE F) (EPSILON F) in
  let* e := ex F x in
  let positive := is_sign_positive F x in
  let* lim := uadd 32 (EXP_BIAS F) (SIG_BITS F) in
  let res :=
    if lim <=? e then x
    else
      let y := if positive then fsub F (fadd F x toint) toint
               else fadd F (fsub F x toint) toint in
      if feq F y ZERO then (if positive then ZERO else NEG_ZERO F)
      else y in
  Some (res, ST_OK).
(** rint.rs (rint, rintf, ...) and roundeven.rs 36-38 [roundeven_impl] *)
Definition rint (x : Z) : option Z := let* r := rint_round x in Some (fst r).
Definition roundeven (x : Z) : option Z := let* r := rint_round x in Some (fst r).

(** generic/fmin.rs 20-24 *)
Definition fmin (x y : Z) : Z :=
  let res := if is_nan F y || flt F x y then x else y in
  fmul F res (ONE F).
(** generic/fmax.rs 20-24 *)
Definition fmax (x y : Z) : Z :=
  let res := if is_nan F x || flt F x y then y else x in
  fmul F res (ONE F).
(** generic/fminimum.rs 15-28 *)
Definition fminimum (x y : Z) : Z :=
  let res := if is_nan F x then x
             else if is_nan F y then y
             else if flt F x y || ((x =? NEG_ZERO F) && is_sign_positive F y) then x
             else y in
  fmul F res (ONE F).
(** generic/fmaximum.rs 15-28 *)
Definition fmaximum (x y : Z) : Z :=
  let res := if is_nan F x then x
             else if is_nan F y then y
             else if fgt F x y || ((y =? NEG_ZERO F) && is_sign_positive F x) then x
             else y in
  fmul F res (ONE F).
(** generic/fminimum_num.rs 17-27 *)
Definition fminimum_num (x y : Z) : Z :=
  let res := if is_nan F y || flt F x y || ((x =? NEG_ZERO F) && is_sign_positive F y) then x
             else y in
  fmul F res (ONE F).
(** generic/fmaximum_num.rs 17-27 *)
Definition fmaximum_num (x y : Z) : Z :=
  let res := if is_nan F x || flt F x y || ((x =? NEG_ZERO F) && is_sign_positive F y) then y
             else x in
  fmul F res (ONE F).

(** generic/fdim.rs 4-6 *)
Definition fdim (x y : Z) : Z := if fle F x y then ZERO else fsub F x y.
End Generic.

(** arch/i586.rs 9-20 [ceil].  The comparison constant is 2^52 as an f64;
    the code compares bit patterns. *)
Definition i586_ceil (x : Z) : Z :=
  if fabs f64 x <? 0x4330000000000000 then
    let truncated := of_int f64 (to_i64 f64 x) in
    if flt f64 truncated x then fadd f64 truncated (ONE f64) else truncated
  else x.
(** arch/i586.rs 26-37 [floor] *)
Definition i586_floor (x : Z) : Z :=
  if fabs f64 x <? 0x4330000000000000 then
    let truncated := of_int f64 (to_i64 f64 x) in
    if fgt f64 truncated x then fsub f64 truncated (ONE f64) else truncated
  else x.

(** float_traits.rs 174-177 [signum] (trait default method) *)
Definition signum (F : fmt) (x : Z) : Z := if is_nan F x then x else copysign F (ONE F) x.

(** Models of the fused multiply-add functions (libm/src/math/fma.rs, fma_wide.rs).
    Only the value of [FpResult] is kept: [fma], [fmaf] and [fmaf128] drop the status.
    [m.widen_mul(m').lo_hi()] is written as the two halves of the exact product (theorems C39 and C23
    prove the integer traits return these). *)
From Coq Require Import ZArith Bool.
From Verif Require Import Base Spec Format Ieee M_basic M_scalbn.
Open Scope Z_scope.

(** [Int::from(bool)] *)
Definition ofb (b : bool) : Z := if b then 1 else 0.

Section Fma.
Variable F : fmt.
Let w := BITS F.

(** fma.rs 244-245 and 247-249 *)
Definition EXP_UNBIAS : Z := EXP_BIAS F + SIG_BITS F + 1.
Definition ZERO_INF_NAN : Z := EXP_SAT F - EXP_UNBIAS.

(** fma.rs 251-281 [Norm::from_float]: (m, e, neg) *)
Definition from_float (x : Z) : option (Z * Z * bool) :=
  let ix := x in
  let* e0 := ex F x in
  let e := to_i 32 e0 in
  let neg := is_sign_negative F x in
  let* ie :=
    (if e =? 0 then
       let scale_i := BITS F - 1 in
       let* scale_f := from_parts F false (scale_i + EXP_BIAS F) 0 in
       let scaled := fmul F x scale_f in
       let ix := scaled in
       let* e0 := ex F scaled in
       let e := to_i 32 e0 in
       let* e := (if e =? 0 then Some (Z.shiftl 1 (EXP_BITS F)) else ssub 32 e (to_i 32 scale_i)) in
       Some (ix, e)
     else Some (ix, e)) in
  let (ix, e) := ie in
  let* e := ssub 32 e (to_i 32 EXP_UNBIAS) in
  let ix := Z.land ix (SIG_MASK F) in
  let ix := Z.lor ix (IMPLICIT_BIT F) in
  let* ix := ushl w ix 1 in
  Some (ix, e, neg).

(** fma.rs 283-292, on the exponent *)
Definition is_zero_nan_inf (e : Z) : bool := to_i 32 ZERO_INF_NAN <=? e.
Definition norm_is_zero (e : Z) : bool := to_i 32 ZERO_INF_NAN <? e.

(** fma.rs 70-122: alignment; returns (zhi, zlo, rhi, rlo, e) *)
Definition fma_align (nzm nze rhi rlo e : Z) : option (Z * Z * Z * Z * Z) :=
  let* d := ssub 32 nze e in
  let sbits := to_i 32 (BITS F) in
  if 0 <? d then
    if d <? sbits then
      let* zlo := ushl w nzm d in
      let* zhi := ushr w nzm (sbits - d) in
      Some (zhi, zlo, rhi, rlo, e)
    else
      let zlo := 0 in
      let zhi := nzm in
      let* d := ssub 32 d sbits in
      let* e := ssub 32 nze sbits in
      if d =? 0 then Some (zhi, zlo, rhi, rlo, e)
      else if d <? sbits then
        let* a := ushl w rhi (sbits - d) in
        let* b := ushr w rlo d in
        let rlo := Z.lor a b in
        let* c := ushl w rlo (sbits - d) in
        let rlo := Z.lor rlo (ofb (negb (c =? 0))) in
        let* rhi := ushr w rhi d in
        Some (zhi, zlo, rhi, rlo, e)
      else Some (zhi, zlo, 0, 1, e)
  else
    let zhi := 0 in
    let* d := sneg 32 d in
    if d =? 0 then Some (zhi, nzm, rhi, rlo, e)
    else if d <? sbits then
      let* a := ushl w nzm (sbits - d) in
      let sticky := ofb (negb (a =? 0)) in
      let* b := ushr w nzm d in
      Some (zhi, Z.lor b sticky, rhi, rlo, e)
    else Some (zhi, 1, rhi, rlo, e).

(** fma.rs 126-145: addition; returns (rhi, rlo, neg, rhi_nonzero) *)
Definition fma_add (zhi zlo rhi rlo : Z) (neg nzneg : bool) : option (Z * Z * bool * bool) :=
  let samesign := xorb (negb neg) nzneg in
  if samesign then
    let rlo := wadd w rlo zlo in
    let* t := uadd w zhi (ofb (rlo <? zlo)) in
    let* rhi := uadd w rhi t in
    Some (rhi, rlo, neg, true)
  else
    let borrow := rlo <? zlo in
    let rlo := wsub w rlo zlo in
    let rhi := wsub w rhi (wadd w zhi (ofb borrow)) in
    let* t := ushr w rhi (BITS F - 1) in
    let* r :=
      (if negb (t =? 0) then
         let rlo := wneg w rlo in
         let* rhi := usub w (wneg w rhi) (ofb (negb (rlo =? 0))) in
         Some (rhi, rlo, negb neg)
       else Some (rhi, rlo, neg)) in
    let '(rhi, rlo, neg) := r in
    Some (rhi, rlo, neg, negb (rhi =? 0)).

(** fma.rs 149-171: [None] inside is the exact zero; returns (rhi, e) *)
Definition fma_shift (rhi rlo e : Z) (rhi_nonzero : bool) : option (option (Z * Z)) :=
  let sbits := to_i 32 (BITS F) in
  if rhi_nonzero then
    let* e := sadd 32 e sbits in
    let d := to_i 32 (lzcnt w rhi) - 1 in
    let* a := ushl w rhi d in
    let* b := ushr w rlo (sbits - d) in
    let rhi := Z.lor a b in
    let* c := ushl w rlo d in
    let rhi := Z.lor rhi (ofb (negb (c =? 0))) in
    let* e := ssub 32 e d in
    Some (Some (rhi, e))
  else if negb (rlo =? 0) then
    let d := to_i 32 (lzcnt w rlo) - 1 in
    let* rhi :=
      (if d <? 0 then
         let* a := ushr w rlo 1 in
         Some (Z.lor a (Z.land rlo 1))
       else ushl w rlo d) in
    let* e := ssub 32 e d in
    Some (Some (rhi, e))
  else Some None.

(** [i] negated if [neg] and converted to a float (fma.rs 175-182) *)
Definition cast_signed (rhi : Z) (neg : bool) : option Z :=
  let i := to_i w rhi in
  let* i := (if neg then sneg w i else Some i) in
  Some (of_int F i).

(** fma.rs 173-235: conversion, subnormal handling and scaling *)
Definition fma_pack (rhi e : Z) (neg : bool) : option Z :=
  let* r := cast_signed rhi neg in
  let max_pow := BITS F - 1 + EXP_BIAS F in
  if e <? - (to_i 32 max_pow - 2) then
    if e =? - (to_i 32 max_pow - 1) then
      let* c := from_parts F false max_pow 0 in
      let c := if neg then fneg F c else c in
      if feq F r c then Some (copysign F (MIN_POSITIVE_NORMAL F) r)
      else
        let* t := ushl w rhi (SIG_BITS F + 1) in
        let* r :=
          (if negb (t =? 0) then
             let* a := ushr w rhi 1 in
             let* b := ushl w 1 (BITS F - 2) in
             let iu := Z.lor (Z.lor a (Z.land rhi 1)) b in
             let* r := cast_signed iu neg in
             Some (fsub F (fmul F (of_int F 2) r) c)
           else Some r) in
        scalbn F r e
    else
      let d := to_i 32 (EXP_BITS F) - 1 in
      let* t := ushl w rhi (to_i 32 (BITS F) - d) in
      let sticky := ofb (negb (t =? 0)) in
      let* a := ushr w rhi d in
      let* b := ushl w (Z.lor a sticky) d in
      let* r := cast_signed b neg in
      scalbn F r e
  else scalbn F r e.

(** fma.rs 33-236 [fma_round], value part *)
Definition fma_round (x y z : Z) : option Z :=
  let* nx := from_float x in
  let* ny := from_float y in
  let* nz := from_float z in
  let '(nxm, nxe, nxneg) := nx in
  let '(nym, nye, nyneg) := ny in
  let '(nzm, nze, nzneg) := nz in
  if is_zero_nan_inf nxe || is_zero_nan_inf nye then Some (fadd F (fmul F x y) z)
  else if is_zero_nan_inf nze then
    if norm_is_zero nze then Some (fmul F x y) else Some z
  else
    let p := nxm * nym in
    let rlo := p mod 2 ^ w in
    let rhi := p / 2 ^ w in
    let* e := sadd 32 nxe nye in
    let* al := fma_align nzm nze rhi rlo e in
    let '(zhi, zlo, rhi, rlo, e) := al in
    let neg := xorb nxneg nyneg in
    let* ad := fma_add zhi zlo rhi rlo neg nzneg in
    let '(rhi, rlo, neg, rhi_nonzero) := ad in
    let* sh := fma_shift rhi rlo e rhi_nonzero in
    match sh with
    | None => Some (fadd F (fmul F x y) z)
    | Some (rhi, e) => fma_pack rhi e neg
    end.
End Fma.

(** fma.rs 11-19 (the software path) and 25-29 *)
Definition fma (x y z : Z) : option Z := fma_round f64 x y z.
Definition fmaf128 (x y z : Z) : option Z := fma_round f128 x y z.

(** fma_wide.rs 33-96 with F = f32, B = f64 and Round::Nearest; the branch on [status.inexact()]
    (lines 62-74) is dead because the status was just set to OK. *)
Definition fmaf (x y z : Z) : option Z :=
  let xy := fmul f64 (fcvt f32 f64 x) (fcvt f32 f64 y) in
  let result := fadd f64 xy (fcvt f32 f64 z) in
  let ui := result in
  let* re := ex f64 result in
  let zb := fcvt f32 f64 z in
  let prec_diff := SIG_BITS f64 - SIG_BITS f32 in
  let* a := ushl 64 1 prec_diff in
  let* a := usub 64 a 1 in
  let excess_prec := Z.land ui a in
  let* halfway := ushl 64 1 (prec_diff - 1) in
  if negb (excess_prec =? halfway) || (re =? EXP_SAT f64) ||
     (feq f64 (fsub f64 result xy) zb && feq f64 (fsub f64 result zb) xy)
  then Some (fcvt f64 f32 result)
  else
    let* t := ushr 64 ui 63 in
    let neg := negb (t =? 0) in
    let err := if Bool.eqb neg (fgt f64 zb xy)
               then fadd f64 (fsub f64 xy result) zb
               else fadd f64 (fsub f64 zb result) xy in
    let* ui := (if Bool.eqb neg (flt f64 err ZERO) then uadd 64 ui 1 else usub 64 ui 1) in
    Some (fcvt f64 f32 ui).

(** fma_wide.rs 11-13: [fmaf16] is [unimplemented!()] *)
Definition fmaf16 (x y z : Z) : option Z := None.

(** Models of frexp, modf, ilogb and nextafter (f64 and f32 files, one definition per Rust
    function, with the literal constants of the source). *)
From Coq Require Import ZArith Bool.
From Verif Require Import Base Spec Format Ieee.
Open Scope Z_scope.

(** frexp.rs 2-21.  The function is recursive (line 9); [n] bounds the depth, [None] when it is
    exhausted. *)
Fixpoint frexp_n (n : nat) (x : Z) : option (Z * Z) :=
  match n with
  | O => None
  | S n =>
    let y := x in
    let* ys := ushr 64 y 52 in
    let ee := to_i 32 (Z.land ys 0x7ff) in
    if ee =? 0 then
      if fne f64 x 0 then
        let x1p64 := 0x43f0000000000000 in
        let* r := frexp_n n (fmul f64 x x1p64) in
        let* e := ssub 32 (snd r) 64 in
        Some (fst r, e)
      else Some (x, 0)
    else if ee =? 0x7ff then Some (x, 0)
    else
      let* e := ssub 32 ee 0x3fe in
      let y := Z.land y 0x800fffffffffffff in
      let y := Z.lor y 0x3fe0000000000000 in
      Some (y, e)
  end.
Definition frexp (x : Z) : option (Z * Z) := frexp_n 2 x.

(** frexpf.rs 2-22 *)
Fixpoint frexpf_n (n : nat) (x : Z) : option (Z * Z) :=
  match n with
  | O => None
  | S n =>
    let y := x in
    let* ys := ushr 32 y 23 in
    let ee := to_i 32 (Z.land ys 0xff) in
    if ee =? 0 then
      if fne f32 x 0 then
        let x1p64 := 0x5f800000 in
        let* r := frexpf_n n (fmul f32 x x1p64) in
        let* e := ssub 32 (snd r) 64 in
        Some (fst r, e)
      else Some (x, 0)
    else if ee =? 0xff then Some (x, 0)
    else
      let* e := ssub 32 ee 0x7e in
      let y := Z.land y 0x807fffff in
      let y := Z.lor y 0x3f000000 in
      Some (y, e)
  end.
Definition frexpf (x : Z) : option (Z * Z) := frexpf_n 2 x.

(** modf.rs 2-35.  Result: (fractional part, integral part). *)
Definition modf (x : Z) : option (Z * Z) :=
  let u := x in
  let* us := ushr 64 u 52 in
  let* e := ssub 32 (to_i 32 (Z.land us 0x7ff)) 0x3ff in
  let* sbit := ushl 64 1 63 in
  if 52 <=? e then
    let rv2 := x in
    let* ul := ushl 64 u 12 in
    if (e =? 0x400) && negb (ul =? 0) then Some (x, rv2)
    else Some (Z.land u sbit, rv2)
  else if e <? 0 then
    let u := Z.land u sbit in
    Some (x, u)
  else
    let* m1 := ushr 64 (unot 64 0) 12 in
    let* mask := ushr 64 m1 e in
    if Z.land u mask =? 0 then Some (Z.land u sbit, x)
    else
      let rv2 := Z.land u (unot 64 mask) in
      Some (fsub f64 x rv2, rv2).

(** modff.rs 2-34 *)
Definition modff (x : Z) : option (Z * Z) :=
  let u := x in
  let* us := ushr 32 u 23 in
  let* e := ssub 32 (to_i 32 (Z.land us 0xff)) 0x7f in
  if 23 <=? e then
    let rv2 := x in
    let* ul := ushl 32 u 9 in
    if (e =? 0x80) && negb (ul =? 0) then Some (x, rv2)
    else Some (Z.land u 0x80000000, rv2)
  else if e <? 0 then
    let u := Z.land u 0x80000000 in
    Some (x, u)
  else
    let* mask := ushr 32 0x007fffff e in
    if Z.land u mask =? 0 then Some (Z.land u 0x80000000, x)
    else
      let rv2 := Z.land u (unot 32 mask) in
      Some (fsub f32 x rv2, rv2).

(** ilogb.rs 1-2 *)
Definition FP_ILOGBNAN : Z := -1 - 0x7fffffff.
Definition FP_ILOGB0 : Z := FP_ILOGBNAN.
(** ilogb.rs 17-20: the normalising loop, state (e, i). *)
Definition ilogb_step (w : Z) (s : Z * Z) : option (ctl (Z * Z) Z) :=
  let '(e, i) := s in
  let* top := ushr w i (w - 1) in
  if top =? 0 then
    let* e := ssub 32 e 1 in
    let* i := ushl w i 1 in
    Some (Cont (e, i))
  else Some (Ret e).
(** ilogb.rs 5-28.  [force_eval!] has no effect on the result. *)
Definition ilogb (x : Z) : option Z :=
  let i := x in
  let* sh := ushr 64 i 52 in
  let e := to_i 32 (Z.land sh 0x7ff) in
  if e =? 0 then
    let* i := ushl 64 i 12 in
    if i =? 0 then Some FP_ILOGB0
    else run 100 (ilogb_step 64) (-0x3ff, i)
  else if e =? 0x7ff then
    let* i := ushl 64 i 12 in
    if negb (i =? 0) then Some FP_ILOGBNAN else Some (2 ^ 31 - 1)
  else ssub 32 e 0x3ff.
(** ilogbf.rs 5-28 *)
Definition ilogbf (x : Z) : option Z :=
  let i := x in
  let* sh := ushr 32 i 23 in
  let e := to_i 32 (Z.land sh 0xff) in
  if e =? 0 then
    let* i := ushl 32 i 9 in
    if i =? 0 then Some FP_ILOGB0
    else run 100 (ilogb_step 32) (-0x7f, i)
  else if e =? 0xff then
    let* i := ushl 32 i 9 in
    if negb (i =? 0) then Some FP_ILOGBNAN else Some (2 ^ 31 - 1)
  else ssub 32 e 0x7f.

(** nextafter.rs 2-37 *)
Definition nextafter (x y : Z) : option Z :=
  if is_nan f64 x || is_nan f64 y then Some (fadd f64 x y)
  else
    let ux_i := x in
    let uy_i := y in
    if ux_i =? uy_i then Some y
    else
      let ax := Z.land ux_i (unot 64 1 / 2) in
      let ay := Z.land uy_i (unot 64 1 / 2) in
      let* s := ushl 64 1 63 in
      if ax =? 0 then
        if ay =? 0 then Some y
        else Some (Z.lor (Z.land uy_i s) 1)
      else if (ay <? ax) || negb (Z.land (Z.lxor ux_i uy_i) s =? 0) then usub 64 ux_i 1
      else uadd 64 ux_i 1.
(** nextafterf.rs 2-37 *)
Definition nextafterf (x y : Z) : option Z :=
  if is_nan f32 x || is_nan f32 y then Some (fadd f32 x y)
  else
    let ux_i := x in
    let uy_i := y in
    if ux_i =? uy_i then Some y
    else
      let ax := Z.land ux_i 0x7fffffff in
      let ay := Z.land uy_i 0x7fffffff in
      if ax =? 0 then
        if ay =? 0 then Some y
        else Some (Z.lor (Z.land uy_i 0x80000000) 1)
      else if (ay <? ax) || negb (Z.land (Z.lxor ux_i uy_i) 0x80000000 =? 0) then usub 32 ux_i 1
      else uadd 32 ux_i 1.

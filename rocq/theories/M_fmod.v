(** Models of fmod (generic), remquo, remquof, remainder and remainderf. *)
From Coq Require Import ZArith Bool.
From Verif Require Import Base Spec Format Ieee.
Open Scope Z_scope.

(** ** generic/fmod.rs *)
(** lines 30-46: the two identical normalisation blocks; [e] is the exponent field as i32. *)
Definition fmod_norm (F : fmt) (ix e : Z) : option (Z * Z) :=
  if e =? 0 then
    let* i := ushl (BITS F) ix (EXP_BITS F + 1) in
    let* e := ssub 32 e (to_i 32 (lzcnt (BITS F) i)) in
    let* ne := sneg 32 e in
    let* k := sadd 32 ne 1 in
    let* ix := ushl (BITS F) ix k in
    Some (ix, e)
  else
    let* m := ushr (BITS F) (INT_MAX F) (EXP_BITS F) in
    let* one := ushl (BITS F) 1 (SIG_BITS F) in
    Some (Z.lor (Z.land ix m) one, e).

(** lines 49-60, loop body; state (ix, ex).  [Ret None] is the early return of a zero, [Ret (Some ..)]
    the normal exit. *)
Definition fmod_step (F : fmt) (iy ey : Z) (s : Z * Z) : option (ctl (Z * Z) (option (Z * Z))) :=
  let (ix, ex) := s in
  if ey <? ex then
    let i := wsub (BITS F) ix iy in
    let* t := ushr (BITS F) i (BITS F - 1) in
    if (t =? 0) && (i =? 0) then Some (Ret None)
    else
      let ix := if t =? 0 then i else ix in
      let* ix := ushl (BITS F) ix 1 in
      let* ex := ssub 32 ex 1 in
      Some (Cont (ix, ex))
  else Some (Ret (Some (ix, ex))).

(** Fuel: one more than the largest possible number of iterations. *)
Definition fmod_fuel (F : fmt) : positive := Z.to_pos (2 ^ ew F + BITS F).

(** lines 7-86 *)
Definition fmod (F : fmt) (x y : Z) : option Z :=
  let ix := x in
  let iy := y in
  let* ex0 := ex F x in
  let ex0 := to_i 32 ex0 in
  let* ey0 := ex F y in
  let ey0 := to_i 32 ey0 in
  let sx := Z.land ix (SIGN_MASK F) in
  let* iy2 := ushl (BITS F) iy 1 in
  if (iy2 =? 0) || is_nan F y || (ex0 =? to_i 32 (EXP_SAT F)) then
    Some (fdiv F (fmul F x y) (fmul F x y))
  else
  let* ix2 := ushl (BITS F) ix 1 in
  if ix2 <=? iy2 then
    if ix2 =? iy2 then Some (fmul F ZERO x) else Some x
  else
  let* nx := fmod_norm F ix ex0 in
  let* ny := fmod_norm F iy ey0 in
  let (iy, ey) := ny in
  let* o := run (fmod_fuel F) (fmod_step F iy ey) nx in
  match o with
  | None => Some (fmul F ZERO x)
  | Some (ix, ex) =>
    let i := wsub (BITS F) ix iy in
    let* t := ushr (BITS F) i (BITS F - 1) in
    if (t =? 0) && (i =? 0) then Some (fmul F ZERO x)
    else
      let ix := if t =? 0 then i else ix in
      let shift := Z.max 0 (lzcnt (BITS F) ix - EXP_BITS F) in
      let* ix := ushl (BITS F) ix shift in
      let* ex := ssub 32 ex (to_i 32 shift) in
      let* one := ushl (BITS F) 1 (SIG_BITS F) in
      let* r :=
        (if 0 <? ex then
           let* ix := usub (BITS F) ix one in
           let* e := ucast (BITS F) ex in
           let* es := ushl (BITS F) e (SIG_BITS F) in
           Some (Z.lor ix es)
         else
           let* ne := sneg 32 ex in
           let* k := sadd 32 ne 1 in
           ushr (BITS F) ix k) in
      Some (Z.lor r sx)
  end.

(** ** remquo.rs *)
(** lines 23-26 and 34-37: [while (i >> 63) == 0 { ex -= 1; i <<= 1 }]; state (i, ex) *)
Definition remquo_nstep (s : Z * Z) : option (ctl (Z * Z) (Z * Z)) :=
  let (i, ex) := s in
  let* t := ushr 64 i 63 in
  if t =? 0 then
    let* ex := ssub 32 ex 1 in
    let* i := ushl 64 i 1 in
    Some (Cont (i, ex))
  else Some (Ret (i, ex)).
(** lines 21-31 and 32-42 *)
Definition remquo_norm (uxi ex : Z) : option (Z * Z) :=
  if ex =? 0 then
    let* i := ushl 64 uxi 12 in
    let* r := run 64 remquo_nstep (i, ex) in
    let ex := snd r in
    let* ne := sneg 32 ex in
    let* k := sadd 32 ne 1 in
    let* uxi := ushl 64 uxi k in
    Some (uxi, ex)
  else
    let* m := ushr 64 (unot 64 0) 12 in
    let* one := ushl 64 1 52 in
    Some (Z.lor (Z.land uxi m) one, ex).
(** lines 51-60: state (uxi, q, ex) *)
Definition remquo_step (uy ey : Z) (s : Z * Z * Z) : option (ctl (Z * Z * Z) (Z * Z * Z)) :=
  let '(uxi, q, ex) := s in
  if ey <? ex then
    let i := wsub 64 uxi uy in
    let* t := ushr 64 i 63 in
    let* q := (if t =? 0 then uadd 32 q 1 else Some q) in
    let uxi := if t =? 0 then i else uxi in
    let* uxi := ushl 64 uxi 1 in
    let* q := ushl 32 q 1 in
    let* ex := ssub 32 ex 1 in
    Some (Cont (uxi, q, ex))
  else Some (Ret (uxi, q, ex)).
(** lines 69-72: [while (uxi >> 52) == 0 { uxi <<= 1; ex -= 1 }] *)
Definition remquo_rstep (s : Z * Z) : option (ctl (Z * Z) (Z * Z)) :=
  let (uxi, ex) := s in
  let* t := ushr 64 uxi 52 in
  if t =? 0 then
    let* uxi := ushl 64 uxi 1 in
    let* ex := ssub 32 ex 1 in
    Some (Cont (uxi, ex))
  else Some (Ret (uxi, ex)).
(** lines 46-74 below the early return: (uxi, q, ex) after the reduction *)
Definition remquo_reduce (uxi ex uy ey : Z) : option (Z * Z * Z) :=
  let* r := run 2200 (remquo_step uy ey) (uxi, 0, ex) in
  let '(uxi, q, ex) := r in
  let i := wsub 64 uxi uy in
  let* t := ushr 64 i 63 in
  let* q := (if t =? 0 then uadd 32 q 1 else Some q) in
  let uxi := if t =? 0 then i else uxi in
  if uxi =? 0 then Some (uxi, q, -60)
  else
    let* r := run 64 remquo_rstep (uxi, ex) in
    Some (fst r, q, snd r).
(** lines 77-95 *)
Definition remquo_finish (sx sy : bool) (y uxi q ex ey : Z) : option (Z * Z) :=
  let* one := ushl 64 1 52 in
  let* uxi :=
    (if 0 <? ex then
       let* u := usub 64 uxi one in
       let* es := ushl 64 (to_u 64 ex) 52 in
       Some (Z.lor u es)
     else
       let* ne := sneg 32 ex in
       let* k := sadd 32 ne 1 in
       ushr 64 uxi k) in
  let x := uxi in
  let y := if sy then fneg f64 y else y in
  let* ex1 := sadd 32 ex 1 in
  let two := 0x4000000000000000 in
  let c := (ex =? ey) || ((ex1 =? ey) &&
             (fgt f64 (fmul f64 two x) y || (feq f64 (fmul f64 two x) y && negb (q mod 2 =? 0)))) in
  let x := if c then fsub f64 x y else x in
  let q := if c then wadd 32 q 1 else q in
  let q := Z.land q 0x7fffffff in
  let* quo := (if xorb sx sy then sneg 32 (to_i 32 q) else Some (to_i 32 q)) in
  Some (if sx then fneg f64 x else x, quo).
(** lines 2-96 *)
Definition remquo (x y : Z) : option (Z * Z) :=
  let ux := x in
  let uy := y in
  let* u := ushr 64 ux 52 in
  let ex := to_i 32 (Z.land u 0x7ff) in
  let* u := ushr 64 uy 52 in
  let ey := to_i 32 (Z.land u 0x7ff) in
  let* u := ushr 64 ux 63 in
  let sx := negb (u =? 0) in
  let* u := ushr 64 uy 63 in
  let sy := negb (u =? 0) in
  let* uy2 := ushl 64 uy 1 in
  if (uy2 =? 0) || is_nan f64 y || (ex =? 0x7ff) then
    Some (fdiv f64 (fmul f64 x y) (fmul f64 x y), 0)
  else
  let* ux2 := ushl 64 ux 1 in
  if ux2 =? 0 then Some (x, 0)
  else
  let* nx := remquo_norm ux ex in
  let (uxi, ex) := nx in
  let* ny := remquo_norm uy ey in
  let (uy, ey) := ny in
  let* ex1 := sadd 32 ex 1 in
  if negb (ex1 =? ey) then
    if ex <? ey then Some (x, 0)
    else
      let* r := remquo_reduce uxi ex uy ey in
      let '(uxi, q, ex) := r in
      remquo_finish sx sy y uxi q ex ey
  else remquo_finish sx sy y uxi 0 ex ey.

(** ** remquof.rs (same structure; line 88 uses a checked [q += 1]) *)
Definition remquof_nstep (s : Z * Z) : option (ctl (Z * Z) (Z * Z)) :=
  let (i, ex) := s in
  let* t := ushr 32 i 31 in
  if t =? 0 then
    let* ex := ssub 32 ex 1 in
    let* i := ushl 32 i 1 in
    Some (Cont (i, ex))
  else Some (Ret (i, ex)).
(** lines 21-42 *)
Definition remquof_norm (uxi ex : Z) : option (Z * Z) :=
  if ex =? 0 then
    let* i := ushl 32 uxi 9 in
    let* r := run 32 remquof_nstep (i, ex) in
    let ex := snd r in
    let* ne := sneg 32 ex in
    let* k := sadd 32 ne 1 in
    let* uxi := ushl 32 uxi k in
    Some (uxi, ex)
  else
    let* m := ushr 32 (unot 32 0) 9 in
    let* one := ushl 32 1 23 in
    Some (Z.lor (Z.land uxi m) one, ex).
(** lines 50-59 *)
Definition remquof_step (uy ey : Z) (s : Z * Z * Z) : option (ctl (Z * Z * Z) (Z * Z * Z)) :=
  let '(uxi, q, ex) := s in
  if ey <? ex then
    let i := wsub 32 uxi uy in
    let* t := ushr 32 i 31 in
    let* q := (if t =? 0 then uadd 32 q 1 else Some q) in
    let uxi := if t =? 0 then i else uxi in
    let* uxi := ushl 32 uxi 1 in
    let* q := ushl 32 q 1 in
    let* ex := ssub 32 ex 1 in
    Some (Cont (uxi, q, ex))
  else Some (Ret (uxi, q, ex)).
(** lines 68-71 *)
Definition remquof_rstep (s : Z * Z) : option (ctl (Z * Z) (Z * Z)) :=
  let (uxi, ex) := s in
  let* t := ushr 32 uxi 23 in
  if t =? 0 then
    let* uxi := ushl 32 uxi 1 in
    let* ex := ssub 32 ex 1 in
    Some (Cont (uxi, ex))
  else Some (Ret (uxi, ex)).
(** lines 45-73 *)
Definition remquof_reduce (uxi ex uy ey : Z) : option (Z * Z * Z) :=
  let* r := run 300 (remquof_step uy ey) (uxi, 0, ex) in
  let '(uxi, q, ex) := r in
  let i := wsub 32 uxi uy in
  let* t := ushr 32 i 31 in
  let* q := (if t =? 0 then uadd 32 q 1 else Some q) in
  let uxi := if t =? 0 then i else uxi in
  if uxi =? 0 then Some (uxi, q, -30)
  else
    let* r := run 32 remquof_rstep (uxi, ex) in
    Some (fst r, q, snd r).
(** lines 76-93 *)
Definition remquof_finish (sx sy : bool) (y uxi q ex ey : Z) : option (Z * Z) :=
  let* one := ushl 32 1 23 in
  let* uxi :=
    (if 0 <? ex then
       let* u := usub 32 uxi one in
       let* es := ushl 32 (to_u 32 ex) 23 in
       Some (Z.lor u es)
     else
       let* ne := sneg 32 ex in
       let* k := sadd 32 ne 1 in
       ushr 32 uxi k) in
  let x := uxi in
  let y := if sy then fneg f32 y else y in
  let* ex1 := sadd 32 ex 1 in
  let two := 0x40000000 in
  let c := (ex =? ey) || ((ex1 =? ey) &&
             (fgt f32 (fmul f32 two x) y || (feq f32 (fmul f32 two x) y && negb (q mod 2 =? 0)))) in
  let x := if c then fsub f32 x y else x in
  let* q := (if c then uadd 32 q 1 else Some q) in
  let q := Z.land q 0x7fffffff in
  let* quo := (if xorb sx sy then sneg 32 (to_i 32 q) else Some (to_i 32 q)) in
  Some (if sx then fneg f32 x else x, quo).
(** lines 2-94 *)
Definition remquof (x y : Z) : option (Z * Z) :=
  let ux := x in
  let uy := y in
  let* u := ushr 32 ux 23 in
  let ex := to_i 32 (Z.land u 0xff) in
  let* u := ushr 32 uy 23 in
  let ey := to_i 32 (Z.land u 0xff) in
  let* u := ushr 32 ux 31 in
  let sx := negb (u =? 0) in
  let* u := ushr 32 uy 31 in
  let sy := negb (u =? 0) in
  let* uy2 := ushl 32 uy 1 in
  if (uy2 =? 0) || is_nan f32 y || (ex =? 0xff) then
    Some (fdiv f32 (fmul f32 x y) (fmul f32 x y), 0)
  else
  let* ux2 := ushl 32 ux 1 in
  if ux2 =? 0 then Some (x, 0)
  else
  let* nx := remquof_norm ux ex in
  let (uxi, ex) := nx in
  let* ny := remquof_norm uy ey in
  let (uy, ey) := ny in
  let* ex1 := sadd 32 ex 1 in
  if negb (ex1 =? ey) then
    if ex <? ey then Some (x, 0)
    else
      let* r := remquof_reduce uxi ex uy ey in
      let '(uxi, q, ex) := r in
      remquof_finish sx sy y uxi q ex ey
  else remquof_finish sx sy y uxi 0 ex ey.

(** remainder.rs 2-5, remainderf.rs 2-5 *)
Definition remainder (x y : Z) : option Z := let* r := remquo x y in Some (fst r).
Definition remainderf (x y : Z) : option Z := let* r := remquof x y in Some (fst r).

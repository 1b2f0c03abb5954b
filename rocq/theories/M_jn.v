(** The Bessel functions of integer order: [jn], [yn] (libm/src/math/jn.rs) and [jnf], [ynf]
    (libm/src/math/jnf.rs).  Written by hand, since tools/rs2v.py does not read [while] loops: each loop is a
    step function run with fuel 2^33.  Simplifications: the calls of [cos], [sin], [sqrt] in the asymptotic
    branch are made before the [match] instead of inside each arm, and the assignments to [b] in the
    branches are the values of the branches. *)
From Coq Require Import ZArith Bool List.
From Verif Require Import Base Spec Format Ieee M_basic M_bits M_scalbn M_fma M_sqrt M_elib M_trig M_log M_bessel.
Import ListNotations.
Open Scope Z_scope.
Open Scope fl_scope.

(** More rounds than any of the loops makes: their counters are [i32] and change by one in every round. *)
Definition fuel : positive := 8589934592.

(** * jn.rs *)
(** libm/src/math/jn.rs line 39 *)
Definition rs_jn_INVSQRTPI : Z := 0x3fe20dd750429b6d (* 5.64189583547756279280e-01 *).
(** [jn], jn.rs lines 116-121: the body of the forward recurrence; the state is (i, a, b) *)
Definition rs_jn_fwd (nm1 x : Z) (s : Z * Z * Z) : option (ctl (Z * Z * Z) Z) :=
  let '(i, a, b) := s in
  if i <? nm1 then
    let* i := sadd 32 i 1 in
    let temp := b in
    let b := (b *: ((0x4000000000000000 (* 2.0 *) *: (of_int f64 i)) /: x)) -: a in
    let a := temp in
    Some (Cont (i, a, b))
  else Some (Ret b).
(** [jn], jn.rs lines 136-140: the body of the Taylor loop; the state is (i, a, b) *)
Definition rs_jn_tiny (nm1 temp : Z) (s : Z * Z * Z) : option (ctl (Z * Z * Z) (Z * Z)) :=
  let '(i, a, b) := s in
  let* n := sadd 32 nm1 1 in
  if i <=? n then
    let a := a *: (of_int f64 i) in
    let b := b *: temp in
    let* i := sadd 32 i 1 in
    Some (Cont (i, a, b))
  else Some (Ret (a, b)).
(** [jn], jn.rs lines 191-197: the loop which determines k; the state is (k, z, q0, q1) *)
Definition rs_jn_q (h : Z) (s : Z * Z * Z * Z) : option (ctl (Z * Z * Z * Z) Z) :=
  let '(k, z, q0, q1) := s in
  if flt f64 q1 0x41cdcd6500000000 (* 1.0e9 *) then
    let* k := sadd 32 k 1 in
    let z := z +: h in
    let tmp := (z *: q1) -: q0 in
    let q0 := q1 in
    let q1 := tmp in
    Some (Cont (k, z, q0, q1))
  else Some (Ret k).
(** [jn], jn.rs lines 200-203: the continued fraction; the state is (i, t) *)
Definition rs_jn_t (nf x : Z) (s : Z * Z) : option (ctl (Z * Z) Z) :=
  let '(i, t) := s in
  if 0 <=? i then
    let t := 0x3ff0000000000000 (* 1.0 *) /: (((0x4000000000000000 (* 2.0 *) *: ((of_int f64 i) +: nf)) /: x) -: t) in
    let* i := ssub 32 i 1 in
    Some (Cont (i, t))
  else Some (Ret t).
(** [jn], jn.rs lines 217-222: the backward recurrence without scaling; the state is (i, a, b) *)
Definition rs_jn_back (x : Z) (s : Z * Z * Z) : option (ctl (Z * Z * Z) (Z * Z)) :=
  let '(i, a, b) := s in
  if 0 <? i then
    let temp := b in
    let b := ((b *: (0x4000000000000000 (* 2.0 *) *: (of_int f64 i))) /: x) -: a in
    let a := temp in
    let* i := ssub 32 i 1 in
    Some (Cont (i, a, b))
  else Some (Ret (a, b)).
(** [jn], jn.rs lines 225-237: the backward recurrence with scaling; the state is (i, a, b, t) *)
Definition rs_jn_scaled (x : Z) (s : Z * Z * Z * Z) : option (ctl (Z * Z * Z * Z) (Z * Z * Z)) :=
  let '(i, a, b, t) := s in
  if 0 <? i then
    let temp := b in
    let b := ((b *: (0x4000000000000000 (* 2.0 *) *: (of_int f64 i))) /: x) -: a in
    let a := temp in
    let x1p500 := 0x5f30000000000000 in
    let '(a, b, t) := (if fgt f64 b x1p500 then (a /: b, 0x3ff0000000000000 (* 1.0 *), t /: b) else (a, b, t)) in
    let* i := ssub 32 i 1 in
    Some (Cont (i, a, b, t))
  else Some (Ret (a, b, t)).
(** [jn], jn.rs lines 184-245: the backward recurrence; [x] is finite and positive and x <= nm1 *)
Definition rs_jn_backward (nm1 x : Z) : option Z :=
    let nf := (of_int f64 nm1) +: 0x3ff0000000000000 (* 1.0 *) in
    let w := (0x4000000000000000 (* 2.0 *) *: nf) /: x in
    let h := 0x4000000000000000 (* 2.0 *) /: x in
    let z := w +: h in
    let q0 := w in
    let q1 := (w *: z) -: 0x3ff0000000000000 (* 1.0 *) in
    let* k := run fuel (rs_jn_q h) (1, z, q0, q1) in
    let* t := run fuel (rs_jn_t nf x) (k, 0 (* 0.0 *)) in
    let a := t in
    let b := 0x3ff0000000000000 (* 1.0 *) in
    let* l := rs_log (fabs f64 w) in
    let tmp := nf *: l in
    let* (a, b, t) :=
      (if flt f64 tmp 0x40862e42fefa39ef (* 7.09782712893383973096e+02 *) then
         let* (a, b) := run fuel (rs_jn_back x) (nm1, a, b) in
         Some (a, b, t)
       else run fuel (rs_jn_scaled x) (nm1, a, b, t)) in
    let* z := rs_j0 x in
    let* w := rs_j1 x in
    Some (if fge f64 (fabs f64 z) (fabs f64 w) then (t *: z) /: b else (t *: w) /: a).
(** [jn], jn.rs lines 104-111: the asymptotic value for x >= 2^302 *)
Definition rs_jn_large (nm1 x : Z) : option Z :=
  let* c := rs_cos x in
  let* s := rs_sin x in
  let m := Z.land nm1 3 in
  let temp :=
    (if m =? 0 then (fneg f64 c) +: s
     else if m =? 1 then (fneg f64 c) -: s
     else if m =? 2 then c -: s
     else c +: s) in
  let* r := M_sqrt.sqrt x in
  Some ((rs_jn_INVSQRTPI *: temp) /: r).
(** [jn], jn.rs lines 84-246: the value for |n| = nm1 + 1 >= 2 and |x|; [ix] and [lx] are the words of |x| *)
Definition rs_jn_pos (nm1 x ix lx : Z) : option Z :=
  if (Z.lor ix lx =? 0) || (ix =? 0x7ff00000) then Some 0 (* 0.0 *)
  else if flt f64 (of_int f64 nm1) x then
    if 0x52d00000 <=? ix then rs_jn_large nm1 x
    else
      let* a := rs_j0 x in
      let* b := rs_j1 x in
      run fuel (rs_jn_fwd nm1 x) (0, a, b)
  else if ix <? 0x3e100000 then
    if 32 <? nm1 then Some 0 (* 0.0 *)
    else
      let temp := x *: 0x3fe0000000000000 (* 0.5 *) in
      let* (a, b) := run fuel (rs_jn_tiny nm1 temp) (2, 0x3ff0000000000000 (* 1.0 *), temp) in
      Some (b /: a)
  else rs_jn_backward nm1 x.
(** The test for NaN of jn.rs lines 59 and 270, on the two words of the argument *)
Definition rs_jn_isnan (ix lx : Z) : bool :=
  0x7ff00000 <? Z.lor ix (Z.shiftr (Z.lor lx (wadd 32 (unot 32 lx) 1)) 31).
(** [jn], jn.rs lines 43-249 *)
Definition rs_jn (n x : Z) : option Z :=
  let ix := get_high_word x in
  let lx := get_low_word x in
  let sign := negb (Z.shiftr ix 31 =? 0) in
  let ix := Z.land ix 0x7fffffff in
  if rs_jn_isnan ix lx then Some x
  else if n =? 0 then rs_j0 x
  else
    let* (nm1, x, sign) :=
      (if n <? 0 then
         let* m := sadd 32 n 1 in
         let* nm1 := sneg 32 m in
         Some (nm1, fneg f64 x, negb sign)
       else
         let* nm1 := ssub 32 n 1 in
         Some (nm1, x, sign)) in
    if nm1 =? 0 then rs_j1 x
    else
      let sign := sign && negb (Z.land n 1 =? 0) in
      let x := fabs f64 x in
      let* b := rs_jn_pos nm1 x ix lx in
      Some (if sign then fneg f64 b else b).
(** [yn], jn.rs lines 315-322: the asymptotic value for x >= 2^302 *)
Definition rs_yn_large (nm1 x : Z) : option Z :=
  let* s := rs_sin x in
  let* c := rs_cos x in
  let m := Z.land nm1 3 in
  let temp :=
    (if m =? 0 then (fneg f64 s) -: c
     else if m =? 1 then (fneg f64 s) +: c
     else if m =? 2 then s +: c
     else s -: c) in
  let* r := M_sqrt.sqrt x in
  Some ((rs_jn_INVSQRTPI *: temp) /: r).
(** [yn], jn.rs lines 329-335: the body of the forward recurrence; the state is (i, a, b, ib) *)
Definition rs_yn_fwd (nm1 x : Z) (s : Z * Z * Z * Z) : option (ctl (Z * Z * Z * Z) Z) :=
  let '(i, a, b, ib) := s in
  if (i <? nm1) && negb (ib =? 0xfff00000) then
    let* i := sadd 32 i 1 in
    let temp := b in
    let b := (((0x4000000000000000 (* 2.0 *) *: (of_int f64 i)) /: x) *: b) -: a in
    let ib := get_high_word b in
    let a := temp in
    Some (Cont (i, a, b, ib))
  else Some (Ret b).
(** [yn], jn.rs lines 300-336: the value for |n| = nm1 + 1 >= 2 and x >= 0 *)
Definition rs_yn_pos (nm1 x ix : Z) : option Z :=
  if 0x52d00000 <=? ix then rs_yn_large nm1 x
  else
    let* a := rs_y0 x in
    let* b := rs_y1 x in
    run fuel (rs_yn_fwd nm1 x) (0, a, b, get_high_word b).
(** [yn], jn.rs lines 253-339 *)
Definition rs_yn (n x : Z) : option Z :=
  let ix := get_high_word x in
  let lx := get_low_word x in
  let sign := negb (Z.shiftr ix 31 =? 0) in
  let ix := Z.land ix 0x7fffffff in
  if rs_jn_isnan ix lx then Some x
  else if sign && negb (Z.lor ix lx =? 0) then Some (0 (* 0.0 *) /: 0 (* 0.0 *))
  else if ix =? 0x7ff00000 then Some 0 (* 0.0 *)
  else if n =? 0 then rs_y0 x
  else
    let* (nm1, sign) :=
      (if n <? 0 then
         let* m := sadd 32 n 1 in
         let* nm1 := sneg 32 m in
         Some (nm1, negb (Z.land n 1 =? 0))
       else
         let* nm1 := ssub 32 n 1 in
         Some (nm1, false)) in
    if nm1 =? 0 then
      let* r := rs_y1 x in
      Some (if sign : bool then fneg f64 r else r)
    else
      let* b := rs_yn_pos nm1 x ix in
      Some (if sign then fneg f64 b else b).

(** * jnf.rs *)
(** [jnf], jnf.rs lines 62-67: the body of the forward recurrence; the state is (i, a, b) *)
Definition rs_jnf_fwd (nm1 x : Z) (s : Z * Z * Z) : option (ctl (Z * Z * Z) Z) :=
  let '(i, a, b) := s in
  if i <? nm1 then
    let* i := sadd 32 i 1 in
    let temp := b in
    let b := (b *' ((0x40000000 (* 2.0 *) *' (of_int f32 i)) /' x)) -' a in
    let a := temp in
    Some (Cont (i, a, b))
  else Some (Ret b).
(** [jnf], jnf.rs lines 81-85: the body of the Taylor loop; the state is (i, a, b) *)
Definition rs_jnf_tiny (nm1 temp : Z) (s : Z * Z * Z) : option (ctl (Z * Z * Z) (Z * Z)) :=
  let '(i, a, b) := s in
  let* n := sadd 32 nm1 1 in
  if i <=? n then
    let a := a *' (of_int f32 i) in
    let b := b *' temp in
    let* i := sadd 32 i 1 in
    Some (Cont (i, a, b))
  else Some (Ret (a, b)).
(** [jnf], jnf.rs lines 134-140: the loop which determines k; the state is (k, z, q0, q1) *)
Definition rs_jnf_q (h : Z) (s : Z * Z * Z * Z) : option (ctl (Z * Z * Z * Z) Z) :=
  let '(k, z, q0, q1) := s in
  if flt f32 q1 0x461c4000 (* 1.0e4 *) then
    let* k := sadd 32 k 1 in
    let z := z +' h in
    let tmp := (z *' q1) -' q0 in
    let q0 := q1 in
    let q1 := tmp in
    Some (Cont (k, z, q0, q1))
  else Some (Ret k).
(** [jnf], jnf.rs lines 143-146: the continued fraction; the state is (i, t) *)
Definition rs_jnf_t (nf x : Z) (s : Z * Z) : option (ctl (Z * Z) Z) :=
  let '(i, t) := s in
  if 0 <=? i then
    let t := 0x3f800000 (* 1.0 *) /' (((0x40000000 (* 2.0 *) *' ((of_int f32 i) +' nf)) /' x) -' t) in
    let* i := ssub 32 i 1 in
    Some (Cont (i, t))
  else Some (Ret t).
(** [jnf], jnf.rs lines 160-165: the backward recurrence without scaling; the state is (i, a, b) *)
Definition rs_jnf_back (x : Z) (s : Z * Z * Z) : option (ctl (Z * Z * Z) (Z * Z)) :=
  let '(i, a, b) := s in
  if 0 <? i then
    let temp := b in
    let b := (((0x40000000 (* 2.0 *) *' (of_int f32 i)) *' b) /' x) -' a in
    let a := temp in
    let* i := ssub 32 i 1 in
    Some (Cont (i, a, b))
  else Some (Ret (a, b)).
(** [jnf], jnf.rs lines 168-180: the backward recurrence with scaling; the state is (i, a, b, t) *)
Definition rs_jnf_scaled (x : Z) (s : Z * Z * Z * Z) : option (ctl (Z * Z * Z * Z) (Z * Z * Z)) :=
  let '(i, a, b, t) := s in
  if 0 <? i then
    let temp := b in
    let b := (((0x40000000 (* 2.0 *) *' (of_int f32 i)) *' b) /' x) -' a in
    let a := temp in
    let x1p60 := 0x5d800000 in
    let '(a, b, t) := (if fgt f32 b x1p60 then (a /' b, 0x3f800000 (* 1.0 *), t /' b) else (a, b, t)) in
    let* i := ssub 32 i 1 in
    Some (Cont (i, a, b, t))
  else Some (Ret (a, b, t)).
(** [jnf], jnf.rs lines 127-188: the backward recurrence; [x] is finite and positive and x <= nm1 *)
Definition rs_jnf_backward (nm1 x : Z) : option Z :=
    let nf := (of_int f32 nm1) +' 0x3f800000 (* 1.0 *) in
    let w := (0x40000000 (* 2.0 *) *' nf) /' x in
    let h := 0x40000000 (* 2.0 *) /' x in
    let z := w +' h in
    let q0 := w in
    let q1 := (w *' z) -' 0x3f800000 (* 1.0 *) in
    let* k := run fuel (rs_jnf_q h) (1, z, q0, q1) in
    let* t := run fuel (rs_jnf_t nf x) (k, 0 (* 0.0 *)) in
    let a := t in
    let b := 0x3f800000 (* 1.0 *) in
    let* l := rs_logf (fabs f32 w) in
    let tmp := nf *' l in
    let* (a, b, t) :=
      (if flt f32 tmp 0x42b17180 (* 88.721679688 *) then
         let* (a, b) := run fuel (rs_jnf_back x) (nm1, a, b) in
         Some (a, b, t)
       else run fuel (rs_jnf_scaled x) (nm1, a, b, t)) in
    let* z := rs_j0f x in
    let* w := rs_j1f x in
    Some (if fge f32 (fabs f32 z) (fabs f32 w) then (t *' z) /' b else (t *' w) /' a).
(** [jnf], jnf.rs lines 54-189: the value for |n| = nm1 + 1 >= 2 and |x|; [ix] is the bits of |x| *)
Definition rs_jnf_pos (nm1 x ix : Z) : option Z :=
  if (ix =? 0) || (ix =? 0x7f800000) then Some 0 (* 0.0 *)
  else if flt f32 (of_int f32 nm1) x then
    let* a := rs_j0f x in
    let* b := rs_j1f x in
    run fuel (rs_jnf_fwd nm1 x) (0, a, b)
  else if ix <? 0x35800000 then
    let nm1 := (if 8 <? nm1 then 8 else nm1) in
    let temp := 0x3f000000 (* 0.5 *) *' x in
    let* (a, b) := run fuel (rs_jnf_tiny nm1 temp) (2, 0x3f800000 (* 1.0 *), temp) in
    Some (b /' a)
  else rs_jnf_backward nm1 x.
(** [jnf], jnf.rs lines 20-192 *)
Definition rs_jnf (n x : Z) : option Z :=
  let ix := x in
  let sign := negb (Z.shiftr ix 31 =? 0) in
  let ix := Z.land ix 0x7fffffff in
  if 0x7f800000 <? ix then Some x
  else if n =? 0 then rs_j0f x
  else
    let* (nm1, x, sign) :=
      (if n <? 0 then
         let* m := sadd 32 n 1 in
         let* nm1 := sneg 32 m in
         Some (nm1, fneg f32 x, negb sign)
       else
         let* nm1 := ssub 32 n 1 in
         Some (nm1, x, sign)) in
    if nm1 =? 0 then rs_j1f x
    else
      let sign := sign && negb (Z.land n 1 =? 0) in
      let x := fabs f32 x in
      let* b := rs_jnf_pos nm1 x ix in
      Some (if sign then fneg f32 b else b).
(** [ynf], jnf.rs lines 244-250: the body of the forward recurrence; the state is (i, a, b, ib) *)
Definition rs_ynf_fwd (nm1 x : Z) (s : Z * Z * Z * Z) : option (ctl (Z * Z * Z * Z) Z) :=
  let '(i, a, b, ib) := s in
  if (i <? nm1) && negb (ib =? 0xff800000) then
    let* i := sadd 32 i 1 in
    let temp := b in
    let b := (((0x40000000 (* 2.0 *) *' (of_int f32 i)) /' x) *' b) -' a in
    let ib := b in
    let a := temp in
    Some (Cont (i, a, b, ib))
  else Some (Ret b).
(** [ynf], jnf.rs lines 239-250: the value for |n| = nm1 + 1 >= 2 and x >= 0 *)
Definition rs_ynf_pos (nm1 x : Z) : option Z :=
  let* a := rs_y0f x in
  let* b := rs_y1f x in
  run fuel (rs_ynf_fwd nm1 x) (0, a, b, b).
(** [ynf], jnf.rs lines 196-253 *)
Definition rs_ynf (n x : Z) : option Z :=
  let ix := x in
  let sign := negb (Z.shiftr ix 31 =? 0) in
  let ix := Z.land ix 0x7fffffff in
  if 0x7f800000 <? ix then Some x
  else if sign && negb (ix =? 0) then Some (0 (* 0.0 *) /' 0 (* 0.0 *))
  else if ix =? 0x7f800000 then Some 0 (* 0.0 *)
  else if n =? 0 then rs_y0f x
  else
    let* (nm1, sign) :=
      (if n <? 0 then
         let* m := sadd 32 n 1 in
         let* nm1 := sneg 32 m in
         Some (nm1, negb (Z.land n 1 =? 0))
       else
         let* nm1 := ssub 32 n 1 in
         Some (nm1, false)) in
    if nm1 =? 0 then
      let* r := rs_y1f x in
      Some (if sign : bool then fneg f32 r else r)
    else
      let* b := rs_ynf_pos nm1 x in
      Some (if sign then fneg f32 b else b).

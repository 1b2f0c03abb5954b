(** Generated by tools/rs2v.py from the Rust sources named in the comments.  [rs_f] is the Rust function [f];
    constants and private functions carry the name of their file.  See DESIGN.md for the reading of Rust. *)
From Coq Require Import ZArith Bool List.
From Verif Require Import Base Spec Format Ieee M_basic M_bits M_scalbn M_fma M_sqrt M_elib M_rempio2.
Import ListNotations.
Open Scope Z_scope.
Open Scope fl_scope.

(** * k_sinf.rs *)
(** libm/src/math/k_sinf.rs line 18 *)
Definition rs_k_sinf_S1 : Z := 0xbfc5555554cbac77 (* -0.166666666416265235595 *).
(** libm/src/math/k_sinf.rs line 19 *)
Definition rs_k_sinf_S2 : Z := 0x3f811110896efbb2 (* 0.0083333293858894631756 *).
(** libm/src/math/k_sinf.rs line 20 *)
Definition rs_k_sinf_S3 : Z := 0xbf2a00f9e2cae774 (* -0.000198393348360966317347 *).
(** libm/src/math/k_sinf.rs line 21 *)
Definition rs_k_sinf_S4 : Z := 0x3ec6cd878c3b46a7 (* 0.0000027183114939898219064 *).
(** [k_sinf], libm/src/math/k_sinf.rs lines 24-30 *)
Definition rs_k_sinf (x : Z) : Z :=
  let z := x *: x in
  let w := z *: z in
  let r := rs_k_sinf_S3 +: (z *: rs_k_sinf_S4) in
  let s := z *: x in
  (fcvt f64 f32 ((x +: (s *: (rs_k_sinf_S1 +: (z *: rs_k_sinf_S2)))) +: ((s *: w) *: r))).

(** * k_cosf.rs *)
(** libm/src/math/k_cosf.rs line 18 *)
Definition rs_k_cosf_C0 : Z := 0xbfdffffffd0c5e81 (* -0.499999997251031003120 *).
(** libm/src/math/k_cosf.rs line 19 *)
Definition rs_k_cosf_C1 : Z := 0x3fa55553e1053a42 (* 0.0416666233237390631894 *).
(** libm/src/math/k_cosf.rs line 20 *)
Definition rs_k_cosf_C2 : Z := 0xbf56c087e80f1e27 (* -0.00138867637746099294692 *).
(** libm/src/math/k_cosf.rs line 21 *)
Definition rs_k_cosf_C3 : Z := 0x3ef99342e0ee5069 (* 0.0000243904487962774090654 *).
(** [k_cosf], libm/src/math/k_cosf.rs lines 24-29 *)
Definition rs_k_cosf (x : Z) : Z :=
  let z := x *: x in
  let w := z *: z in
  let r := rs_k_cosf_C2 +: (z *: rs_k_cosf_C3) in
  (fcvt f64 f32 (((0x3ff0000000000000 (* 1.0 *) +: (z *: rs_k_cosf_C0)) +: (w *: rs_k_cosf_C1)) +: ((w *: z) *: r))).

(** * k_tanf.rs *)
(** libm/src/math/k_tanf.rs lines 13-20 *)
Definition rs_k_tanf_T : list Z :=
  [0x3fd5554d3418c99f (* 0.333331395030791399758 *);
   0x3fc112fd38999f72 (* 0.133392002712976742718 *);
   0x3fab54c91d865afe (* 0.0533812378445670393523 *);
   0x3f991df3908c33ce (* 0.0245283181166547278873 *);
   0x3f685dadfcecf44e (* 0.00297435743359967304927 *);
   0x3f8362b9bf971bcd (* 0.00946564784943673166728 *)].
(** [k_tanf], libm/src/math/k_tanf.rs lines 23-46 *)
Definition rs_k_tanf (x : Z) (odd : bool) : Z :=
  let z := x *: x in
  let r := (nth 4 rs_k_tanf_T 0) +: (z *: (nth 5 rs_k_tanf_T 0)) in
  let t := (nth 2 rs_k_tanf_T 0) +: (z *: (nth 3 rs_k_tanf_T 0)) in
  let w := z *: z in
  let s := z *: x in
  let u := (nth 0 rs_k_tanf_T 0) +: (z *: (nth 1 rs_k_tanf_T 0)) in
  let r := (x +: (s *: u)) +: ((s *: w) *: (t +: (w *: r))) in
  (fcvt f64 f32 (if odd then (0xbff0000000000000 (* -1.0 *) /: r) else r)).

(** * sinf.rs *)
(** libm/src/math/sinf.rs line 22 *)
Definition rs_sinf_S1_PIO2 : Z := 0x3ff0000000000000 (* 1.0 *) *: 0x3ff921fb54442d18 (* FRAC_PI_2 *).
(** libm/src/math/sinf.rs line 23 *)
Definition rs_sinf_S2_PIO2 : Z := 0x4000000000000000 (* 2.0 *) *: 0x3ff921fb54442d18 (* FRAC_PI_2 *).
(** libm/src/math/sinf.rs line 24 *)
Definition rs_sinf_S3_PIO2 : Z := 0x4008000000000000 (* 3.0 *) *: 0x3ff921fb54442d18 (* FRAC_PI_2 *).
(** libm/src/math/sinf.rs line 25 *)
Definition rs_sinf_S4_PIO2 : Z := 0x4010000000000000 (* 4.0 *) *: 0x3ff921fb54442d18 (* FRAC_PI_2 *).
(** [sinf], libm/src/math/sinf.rs lines 31-88 *)
Definition rs_sinf (x : Z) : option Z :=
  let x64 := fcvt f32 f64 x in
  let x1p120 := 0x7b800000 in
  let ix := x in
  let sign := negb ((Z.shiftr ix 31) =? 0) in
  let ix := Z.land ix 0x7fffffff in
  if ix <=? 0x3f490fda then
    if ix <? 0x39800000 then Some x
    else Some (rs_k_sinf x64)
  else if ix <=? 0x407b53d1 then
    if ix <=? 0x4016cbe3 then
      if sign then Some (fneg f32 (rs_k_cosf (x64 +: rs_sinf_S1_PIO2)))
      else Some (rs_k_cosf (x64 -: rs_sinf_S1_PIO2))
    else Some (rs_k_sinf (if sign then (fneg f64 (x64 +: rs_sinf_S2_PIO2)) else (fneg f64 (x64 -: rs_sinf_S2_PIO2))))
  else if ix <=? 0x40e231d5 then
    if ix <=? 0x40afeddf then
      if sign then Some (rs_k_cosf (x64 +: rs_sinf_S3_PIO2))
      else Some (fneg f32 (rs_k_cosf (x64 -: rs_sinf_S3_PIO2)))
    else Some (rs_k_sinf (if sign then (x64 +: rs_sinf_S4_PIO2) else (x64 -: rs_sinf_S4_PIO2)))
  else if 0x7f800000 <=? ix then Some (x -' x)
  else 
    let* (n, y) := rs_rem_pio2f x in
    if (Z.land n 3) =? 0 then Some (rs_k_sinf y)
    else if (Z.land n 3) =? 1 then Some (rs_k_cosf y)
    else if (Z.land n 3) =? 2 then Some (rs_k_sinf (fneg f64 y))
    else Some (fneg f32 (rs_k_cosf y)).

(** * cosf.rs *)
(** libm/src/math/cosf.rs line 22 *)
Definition rs_cosf_C1_PIO2 : Z := 0x3ff0000000000000 (* 1.0 *) *: 0x3ff921fb54442d18 (* FRAC_PI_2 *).
(** libm/src/math/cosf.rs line 23 *)
Definition rs_cosf_C2_PIO2 : Z := 0x4000000000000000 (* 2.0 *) *: 0x3ff921fb54442d18 (* FRAC_PI_2 *).
(** libm/src/math/cosf.rs line 24 *)
Definition rs_cosf_C3_PIO2 : Z := 0x4008000000000000 (* 3.0 *) *: 0x3ff921fb54442d18 (* FRAC_PI_2 *).
(** libm/src/math/cosf.rs line 25 *)
Definition rs_cosf_C4_PIO2 : Z := 0x4010000000000000 (* 4.0 *) *: 0x3ff921fb54442d18 (* FRAC_PI_2 *).
(** [cosf], libm/src/math/cosf.rs lines 31-86 *)
Definition rs_cosf (x : Z) : option Z :=
  let x64 := fcvt f32 f64 x in
  let x1p120 := 0x7b800000 in
  let ix := x in
  let sign := negb ((Z.shiftr ix 31) =? 0) in
  let ix := Z.land ix 0x7fffffff in
  if ix <=? 0x3f490fda then
    if ix <? 0x39800000 then Some 0x3f800000 (* 1.0 *)
    else Some (rs_k_cosf x64)
  else if ix <=? 0x407b53d1 then
    if 0x4016cbe3 <? ix then
      Some (fneg f32 (rs_k_cosf (if sign then (x64 +: rs_cosf_C2_PIO2) else (x64 -: rs_cosf_C2_PIO2))))
    else if sign then Some (rs_k_sinf (x64 +: rs_cosf_C1_PIO2))
    else Some (rs_k_sinf (rs_cosf_C1_PIO2 -: x64))
  else if ix <=? 0x40e231d5 then
    if 0x40afeddf <? ix then
      Some (rs_k_cosf (if sign then (x64 +: rs_cosf_C4_PIO2) else (x64 -: rs_cosf_C4_PIO2)))
    else if sign then Some (rs_k_sinf ((fneg f64 x64) -: rs_cosf_C3_PIO2))
    else Some (rs_k_sinf (x64 -: rs_cosf_C3_PIO2))
  else if 0x7f800000 <=? ix then Some (x -' x)
  else 
    let* (n, y) := rs_rem_pio2f x in
    if (Z.land n 3) =? 0 then Some (rs_k_cosf y)
    else if (Z.land n 3) =? 1 then Some (rs_k_sinf (fneg f64 y))
    else if (Z.land n 3) =? 2 then Some (fneg f32 (rs_k_cosf y))
    else Some (rs_k_sinf y).

(** * tanf.rs *)
(** libm/src/math/tanf.rs line 22 *)
Definition rs_tanf_T1_PIO2 : Z := 0x3ff0000000000000 (* 1.0 *) *: 0x3ff921fb54442d18 (* FRAC_PI_2 *).
(** libm/src/math/tanf.rs line 23 *)
Definition rs_tanf_T2_PIO2 : Z := 0x4000000000000000 (* 2.0 *) *: 0x3ff921fb54442d18 (* FRAC_PI_2 *).
(** libm/src/math/tanf.rs line 24 *)
Definition rs_tanf_T3_PIO2 : Z := 0x4008000000000000 (* 3.0 *) *: 0x3ff921fb54442d18 (* FRAC_PI_2 *).
(** libm/src/math/tanf.rs line 25 *)
Definition rs_tanf_T4_PIO2 : Z := 0x4010000000000000 (* 4.0 *) *: 0x3ff921fb54442d18 (* FRAC_PI_2 *).
(** [tanf], libm/src/math/tanf.rs lines 31-77 *)
Definition rs_tanf (x : Z) : option Z :=
  let x64 := fcvt f32 f64 x in
  let x1p120 := 0x7b800000 in
  let ix := x in
  let sign := negb ((Z.shiftr ix 31) =? 0) in
  let ix := Z.land ix 0x7fffffff in
  if ix <=? 0x3f490fda then
    if ix <? 0x39800000 then Some x
    else Some (rs_k_tanf x64 false)
  else if ix <=? 0x407b53d1 then
    if ix <=? 0x4016cbe3 then
      Some (rs_k_tanf (if sign then (x64 +: rs_tanf_T1_PIO2) else (x64 -: rs_tanf_T1_PIO2)) true)
    else Some (rs_k_tanf (if sign then (x64 +: rs_tanf_T2_PIO2) else (x64 -: rs_tanf_T2_PIO2)) false)
  else if ix <=? 0x40e231d5 then
    if ix <=? 0x40afeddf then
      Some (rs_k_tanf (if sign then (x64 +: rs_tanf_T3_PIO2) else (x64 -: rs_tanf_T3_PIO2)) true)
    else Some (rs_k_tanf (if sign then (x64 +: rs_tanf_T4_PIO2) else (x64 -: rs_tanf_T4_PIO2)) false)
  else if 0x7f800000 <=? ix then Some (x -' x)
  else 
    let* (n, y) := rs_rem_pio2f x in
    Some (rs_k_tanf y (negb ((Z.land n 1) =? 0))).

(** * sincosf.rs *)
(** libm/src/math/sincosf.rs line 20 *)
Definition rs_sincosf_PI_2 : Z := 0x3fe0000000000000 (* 0.5 *) *: 0x400921fb54442d18 (* 3.1415926535897931160E+00 *).
(** libm/src/math/sincosf.rs line 21 *)
Definition rs_sincosf_S1PIO2 : Z := 0x3ff0000000000000 (* 1.0 *) *: rs_sincosf_PI_2.
(** libm/src/math/sincosf.rs line 22 *)
Definition rs_sincosf_S2PIO2 : Z := 0x4000000000000000 (* 2.0 *) *: rs_sincosf_PI_2.
(** libm/src/math/sincosf.rs line 23 *)
Definition rs_sincosf_S3PIO2 : Z := 0x4008000000000000 (* 3.0 *) *: rs_sincosf_PI_2.
(** libm/src/math/sincosf.rs line 24 *)
Definition rs_sincosf_S4PIO2 : Z := 0x4010000000000000 (* 4.0 *) *: rs_sincosf_PI_2.
(** [sincosf], libm/src/math/sincosf.rs lines 30-123 *)
Definition rs_sincosf (x : Z) : option (Z * Z) :=
  let ix := x in
  let sign := negb ((Z.shiftr ix 31) =? 0) in
  let ix := Z.land ix 0x7fffffff in
  if ix <=? 0x3f490fda then
    if ix <? 0x39800000 then
      let x1p120 := 0x7b800000 in
      Some (x, 0x3f800000 (* 1.0 *))
    else Some ((rs_k_sinf (fcvt f32 f64 x)), (rs_k_cosf (fcvt f32 f64 x)))
  else if ix <=? 0x407b53d1 then
    let '(s, c) :=
      (if ix <=? 0x4016cbe3 then
         let '(s, c) :=
           (if sign then
              let s := fneg f32 (rs_k_cosf ((fcvt f32 f64 x) +: rs_sincosf_S1PIO2)) in
              let c := rs_k_sinf ((fcvt f32 f64 x) +: rs_sincosf_S1PIO2) in
              (s, c)
            else 
              let s := rs_k_cosf (rs_sincosf_S1PIO2 -: (fcvt f32 f64 x)) in
              let c := rs_k_sinf (rs_sincosf_S1PIO2 -: (fcvt f32 f64 x)) in
              (s, c)) in
         (s, c)
       else 
         let '(s, c) :=
           (if sign then
              let s := fneg f32 (rs_k_sinf ((fcvt f32 f64 x) +: rs_sincosf_S2PIO2)) in
              let c := fneg f32 (rs_k_cosf ((fcvt f32 f64 x) +: rs_sincosf_S2PIO2)) in
              (s, c)
            else 
              let s := fneg f32 (rs_k_sinf ((fcvt f32 f64 x) -: rs_sincosf_S2PIO2)) in
              let c := fneg f32 (rs_k_cosf ((fcvt f32 f64 x) -: rs_sincosf_S2PIO2)) in
              (s, c)) in
         (s, c)) in
    Some (s, c)
  else if ix <=? 0x40e231d5 then
    let '(s, c) :=
      (if ix <=? 0x40afeddf then
         let '(s, c) :=
           (if sign then
              let s := rs_k_cosf ((fcvt f32 f64 x) +: rs_sincosf_S3PIO2) in
              let c := fneg f32 (rs_k_sinf ((fcvt f32 f64 x) +: rs_sincosf_S3PIO2)) in
              (s, c)
            else 
              let s := fneg f32 (rs_k_cosf ((fcvt f32 f64 x) -: rs_sincosf_S3PIO2)) in
              let c := rs_k_sinf ((fcvt f32 f64 x) -: rs_sincosf_S3PIO2) in
              (s, c)) in
         (s, c)
       else 
         let '(s, c) :=
           (if sign then
              let s := rs_k_sinf ((fcvt f32 f64 x) +: rs_sincosf_S4PIO2) in
              let c := rs_k_cosf ((fcvt f32 f64 x) +: rs_sincosf_S4PIO2) in
              (s, c)
            else 
              let s := rs_k_sinf ((fcvt f32 f64 x) -: rs_sincosf_S4PIO2) in
              let c := rs_k_cosf ((fcvt f32 f64 x) -: rs_sincosf_S4PIO2) in
              (s, c)) in
         (s, c)) in
    Some (s, c)
  else if 0x7f800000 <=? ix then
    let rv := x -' x in
    Some (rv, rv)
  else 
    let* (n, y) := rs_rem_pio2f x in
    let s := rs_k_sinf y in
    let c := rs_k_cosf y in
    if (Z.land n 3) =? 0 then Some (s, c)
    else if (Z.land n 3) =? 1 then Some (c, (fneg f32 s))
    else if (Z.land n 3) =? 2 then Some ((fneg f32 s), (fneg f32 c))
    else if (Z.land n 3) =? 3 then Some ((fneg f32 c), s)
    else None.

(** * k_sin.rs *)
(** libm/src/math/k_sin.rs line 12 *)
Definition rs_k_sin_S1 : Z := 0xbfc5555555555549 (* -1.66666666666666324348e-01 *).
(** libm/src/math/k_sin.rs line 13 *)
Definition rs_k_sin_S2 : Z := 0x3f8111111110f8a6 (* 8.33333333332248946124e-03 *).
(** libm/src/math/k_sin.rs line 14 *)
Definition rs_k_sin_S3 : Z := 0xbf2a01a019c161d5 (* -1.98412698298579493134e-04 *).
(** libm/src/math/k_sin.rs line 15 *)
Definition rs_k_sin_S4 : Z := 0x3ec71de357b1fe7d (* 2.75573137070700676789e-06 *).
(** libm/src/math/k_sin.rs line 16 *)
Definition rs_k_sin_S5 : Z := 0xbe5ae5e68a2b9ceb (* -2.50507602534068634195e-08 *).
(** libm/src/math/k_sin.rs line 17 *)
Definition rs_k_sin_S6 : Z := 0x3de5d93a5acfd57c (* 1.58969099521155010221e-10 *).
(** [k_sin], libm/src/math/k_sin.rs lines 47-53 *)
Definition rs_k_sin (x y iy : Z) : Z :=
  let z := x *: x in
  let w := z *: z in
  let r := (rs_k_sin_S2 +: (z *: (rs_k_sin_S3 +: (z *: rs_k_sin_S4)))) +: ((z *: w) *: (rs_k_sin_S5 +: (z *: rs_k_sin_S6))) in
  let v := z *: x in
  if iy =? 0 then (x +: (v *: (rs_k_sin_S1 +: (z *: r))))
  else (x -: (((z *: ((0x3fe0000000000000 (* 0.5 *) *: y) -: (v *: r))) -: y) -: (v *: rs_k_sin_S1))).

(** * k_cos.rs *)
(** libm/src/math/k_cos.rs line 12 *)
Definition rs_k_cos_C1 : Z := 0x3fa555555555554c (* 4.16666666666666019037e-02 *).
(** libm/src/math/k_cos.rs line 13 *)
Definition rs_k_cos_C2 : Z := 0xbf56c16c16c15177 (* -1.38888888888741095749e-03 *).
(** libm/src/math/k_cos.rs line 14 *)
Definition rs_k_cos_C3 : Z := 0x3efa01a019cb1590 (* 2.48015872894767294178e-05 *).
(** libm/src/math/k_cos.rs line 15 *)
Definition rs_k_cos_C4 : Z := 0xbe927e4f809c52ad (* -2.75573143513906633035e-07 *).
(** libm/src/math/k_cos.rs line 16 *)
Definition rs_k_cos_C5 : Z := 0x3e21ee9ebdb4b1c4 (* 2.08757232129817482790e-09 *).
(** libm/src/math/k_cos.rs line 17 *)
Definition rs_k_cos_C6 : Z := 0xbda8fae9be8838d4 (* -1.13596475577881948265e-11 *).
(** [k_cos], libm/src/math/k_cos.rs lines 55-62 *)
Definition rs_k_cos (x y : Z) : Z :=
  let z := x *: x in
  let w := z *: z in
  let r := (z *: (rs_k_cos_C1 +: (z *: (rs_k_cos_C2 +: (z *: rs_k_cos_C3))))) +: ((w *: w) *: (rs_k_cos_C4 +: (z *: (rs_k_cos_C5 +: (z *: rs_k_cos_C6))))) in
  let hz := 0x3fe0000000000000 (* 0.5 *) *: z in
  let w_1 := 0x3ff0000000000000 (* 1.0 *) -: hz in
  (w_1 +: (((0x3ff0000000000000 (* 1.0 *) -: w_1) -: hz) +: ((z *: r) -: (x *: y)))).

(** * k_tan.rs *)
(** libm/src/math/k_tan.rs lines 43-57 *)
Definition rs_k_tan_T : list Z :=
  [0x3fd5555555555563 (* 3.33333333333334091986e-01 *);
   0x3fc111111110fe7a (* 1.33333333333201242699e-01 *);
   0x3faba1ba1bb341fe (* 5.39682539762260521377e-02 *);
   0x3f9664f48406d637 (* 2.18694882948595424599e-02 *);
   0x3f8226e3e96e8493 (* 8.86323982359930005737e-03 *);
   0x3f6d6d22c9560328 (* 3.59207910759131235356e-03 *);
   0x3f57dbc8fee08315 (* 1.45620945432529025516e-03 *);
   0x3f4344d8f2f26501 (* 5.88041240820264096874e-04 *);
   0x3f3026f71a8d1068 (* 2.46463134818469906812e-04 *);
   0x3f147e88a03792a6 (* 7.81794442939557092300e-05 *);
   0x3f12b80f32f0a7e9 (* 7.14072491382608190305e-05 *);
   0xbef375cbdb605373 (* -1.85586374855275456654e-05 *);
   0x3efb2a7074bf7ad4 (* 2.59073051863633712884e-05 *)].
(** libm/src/math/k_tan.rs line 58 *)
Definition rs_k_tan_PIO4 : Z := 0x3fe921fb54442d18 (* 7.85398163397448278999e-01 *).
(** libm/src/math/k_tan.rs line 59 *)
Definition rs_k_tan_PIO4_LO : Z := 0x3c81a62633145c07 (* 3.06161699786838301793e-17 *).
(** [zero_low_word], libm/src/math/k_tan.rs lines 103-105 *)
Definition rs_k_tan_zero_low_word (x : Z) : Z :=
  (Z.land x 0xffffffff00000000).
(** [k_tan], libm/src/math/k_tan.rs lines 62-101 *)
Definition rs_k_tan (x y odd : Z) : Z :=
  let hx := to_u 32 (Z.shiftr x 32) in
  let big := 0x3fe59428 <=? (Z.land hx 0x7fffffff) in
  let '(x, y) :=
    (if big then
       let sign := Z.shiftr hx 31 in
       let '(x, y) :=
         (if negb (sign =? 0) then
            let x := fneg f64 x in
            let y := fneg f64 y in
            (x, y)
          else (x, y)) in
       let x := (rs_k_tan_PIO4 -: x) +: (rs_k_tan_PIO4_LO -: y) in
       let y := 0 (* 0.0 *) in
       (x, y)
     else (x, y)) in
  let z := x *: x in
  let w := z *: z in
  let r := (nth 1 rs_k_tan_T 0) +: (w *: ((nth 3 rs_k_tan_T 0) +: (w *: ((nth 5 rs_k_tan_T 0) +: (w *: ((nth 7 rs_k_tan_T 0) +: (w *: ((nth 9 rs_k_tan_T 0) +: (w *: (nth 11 rs_k_tan_T 0)))))))))) in
  let v := z *: ((nth 2 rs_k_tan_T 0) +: (w *: ((nth 4 rs_k_tan_T 0) +: (w *: ((nth 6 rs_k_tan_T 0) +: (w *: ((nth 8 rs_k_tan_T 0) +: (w *: ((nth 10 rs_k_tan_T 0) +: (w *: (nth 12 rs_k_tan_T 0))))))))))) in
  let s := z *: x in
  let r_1 := (y +: (z *: ((s *: (r +: v)) +: y))) +: (s *: (nth 0 rs_k_tan_T 0)) in
  let w_1 := x +: r_1 in
  if big then
    let sign_1 := Z.shiftr hx 31 in
    let s_1 := 0x3ff0000000000000 (* 1.0 *) -: (0x4000000000000000 (* 2.0 *) *: (of_int f64 odd)) in
    let v_1 := s_1 -: (0x4000000000000000 (* 2.0 *) *: (x +: (r_1 -: ((w_1 *: w_1) /: (w_1 +: s_1))))) in
    if negb (sign_1 =? 0) then (fneg f64 v_1)
    else v_1
  else if odd =? 0 then w_1
  else 
    let w0 := rs_k_tan_zero_low_word w_1 in
    let v_2 := r_1 -: (w0 -: x) in
    let a := 0xbff0000000000000 (* -1.0 *) /: w_1 in
    let a0 := rs_k_tan_zero_low_word a in
    (a0 +: (a *: ((0x3ff0000000000000 (* 1.0 *) +: (a0 *: w0)) +: (a0 *: v_2)))).

(** * sin.rs *)
(** [sin], libm/src/math/sin.rs lines 48-82 *)
Definition rs_sin (x : Z) : option Z :=
  let x1p120 := 0x4770000000000000 in
  let ix := Z.land (to_u 32 (Z.shiftr x 32)) 0x7fffffff in
  if ix <=? 0x3fe921fb then
    if ix <? 0x3e500000 then Some x
    else Some (rs_k_sin x 0 (* 0.0 *) 0)
  else if 0x7ff00000 <=? ix then Some (x -: x)
  else 
    let* (n, y0, y1) := rs_rem_pio2 x in
    if (Z.land n 3) =? 0 then Some (rs_k_sin y0 y1 1)
    else if (Z.land n 3) =? 1 then Some (rs_k_cos y0 y1)
    else if (Z.land n 3) =? 2 then Some (fneg f64 (rs_k_sin y0 y1 1))
    else Some (fneg f64 (rs_k_cos y0 y1)).

(** * cos.rs *)
(** the continuation shared by several branches of [cos] *)
Definition rs_cos_1 (x : Z) : option Z :=
  Some (rs_k_cos x 0 (* 0.0 *)).
(** [cos], libm/src/math/cos.rs lines 49-77 *)
Definition rs_cos (x : Z) : option Z :=
  let ix := Z.land (to_u 32 (Z.shiftr x 32)) 0x7fffffff in
  if ix <=? 0x3fe921fb then
    if ix <? 0x3e46a09e then
      if (to_i32 f64 x) =? 0 then Some 0x3ff0000000000000 (* 1.0 *)
      else rs_cos_1 x
    else rs_cos_1 x
  else if 0x7ff00000 <=? ix then Some (x -: x)
  else 
    let* (n, y0, y1) := rs_rem_pio2 x in
    if (Z.land n 3) =? 0 then Some (rs_k_cos y0 y1)
    else if (Z.land n 3) =? 1 then Some (fneg f64 (rs_k_sin y0 y1 1))
    else if (Z.land n 3) =? 2 then Some (fneg f64 (rs_k_cos y0 y1))
    else Some (rs_k_sin y0 y1 1).

(** * tan.rs *)
(** [tan], libm/src/math/tan.rs lines 47-70 *)
Definition rs_tan (x : Z) : option Z :=
  let x1p120 := 0x7b800000 in
  let ix := Z.land (to_u 32 (Z.shiftr x 32)) 0x7fffffff in
  if ix <=? 0x3fe921fb then
    if ix <? 0x3e400000 then Some x
    else Some (rs_k_tan x 0 (* 0.0 *) 0)
  else if 0x7ff00000 <=? ix then Some (x -: x)
  else 
    let* (n, y0, y1) := rs_rem_pio2 x in
    Some (rs_k_tan y0 y1 (Z.land n 1)).

(** * sincos.rs *)
(** [sincos], libm/src/math/sincos.rs lines 19-63 *)
Definition rs_sincos (x : Z) : option (Z * Z) :=
  let ix := get_high_word x in
  let ix := Z.land ix 0x7fffffff in
  if ix <=? 0x3fe921fb then
    if ix <? 0x3e46a09e then
      let x1p120 := 0x4770000000000000 in
      Some (x, 0x3ff0000000000000 (* 1.0 *))
    else Some ((rs_k_sin x 0 (* 0.0 *) 0), (rs_k_cos x 0 (* 0.0 *)))
  else if 0x7ff00000 <=? ix then
    let rv := x -: x in
    Some (rv, rv)
  else 
    let* (n, y0, y1) := rs_rem_pio2 x in
    let s := rs_k_sin y0 y1 1 in
    let c := rs_k_cos y0 y1 in
    if (Z.land n 3) =? 0 then Some (s, c)
    else if (Z.land n 3) =? 1 then Some (c, (fneg f64 s))
    else if (Z.land n 3) =? 2 then Some ((fneg f64 s), (fneg f64 c))
    else if (Z.land n 3) =? 3 then Some ((fneg f64 c), s)
    else None.

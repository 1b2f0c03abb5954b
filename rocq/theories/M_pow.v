(** Generated by tools/rs2v.py from the Rust sources named in the comments.  [rs_f] is the Rust function [f];
    constants and private functions carry the name of their file.  See DESIGN.md for the reading of Rust. *)
From Coq Require Import ZArith Bool List.
From Verif Require Import Base Spec Format Ieee M_basic M_bits M_scalbn M_fma M_sqrt M_elib M_exp.
Import ListNotations.
Open Scope Z_scope.
Open Scope fl_scope.

(** * hypotf.rs *)
(** [hypotf], libm/src/math/hypotf.rs lines 6-43 *)
Definition rs_hypotf (x y : Z) : option Z :=
  let x1p90 := 0x6c800000 in
  let x1p_90 := 0x12800000 in
  let uxi := x in
  let uyi := y in
  let uxi := Z.land uxi 0x7fffffff in
  let uyi := Z.land uyi 0x7fffffff in
  let '(uxi, uyi) :=
    (if uxi <? uyi then
       let uti := uxi in
       let uxi := uyi in
       let uyi := uti in
       (uxi, uyi)
     else (uxi, uyi)) in
  let x := uxi in
  let y := uyi in
  if uyi =? 0x7f800000 then Some y
  else 
    let* v1 := if ((0x7f800000 <=? uxi) || (uyi =? 0)) then Some true else let* v0 := usub 32 uxi uyi in Some (0xc800000 <=? v0) in
    if v1 then Some (x +' y)
    else 
      let z := 0x3f800000 (* 1.0 *) in
      let '(z, x, y) :=
        (if 0x5d800000 <=? uxi then
           let z := x1p90 in
           let x := x *' x1p_90 in
           let y := y *' x1p_90 in
           (z, x, y)
         else 
           let '(z, x, y) :=
             (if uyi <? 0x21800000 then
                let z := x1p_90 in
                let x := x *' x1p90 in
                let y := y *' x1p90 in
                (z, x, y)
              else (z, x, y)) in
           (z, x, y)) in
      let* v2 := M_sqrt.sqrtf (fcvt f64 f32 (((fcvt f32 f64 x) *: (fcvt f32 f64 x)) +: ((fcvt f32 f64 y) *: (fcvt f32 f64 y)))) in
      Some (z *' v2).

(** * hypot.rs *)
(** libm/src/math/hypot.rs line 5 *)
Definition rs_hypot_SPLIT : Z := 0x41a0000000000000 (* 134217728.0 *) +: 0x3ff0000000000000 (* 1.0 *).
(** [sq], libm/src/math/hypot.rs lines 7-18 *)
Definition rs_hypot_sq (x : Z) : Z * Z :=
  let xc := x *: rs_hypot_SPLIT in
  let xh := (x -: xc) +: xc in
  let xl := x -: xh in
  let hi := x *: x in
  let lo := (((xh *: xh) -: hi) +: ((0x4000000000000000 (* 2.0 *) *: xh) *: xl)) +: (xl *: xl) in
  (hi, lo).
(** [hypot], libm/src/math/hypot.rs lines 21-74 *)
Definition rs_hypot (x y : Z) : option Z :=
  let x1p700 := 0x6bb0000000000000 in
  let x1p_700 := 0x1430000000000000 in
  let uxi := x in
  let uyi := y in
  let uxi := Z.land uxi 0x7fffffffffffffff in
  let uyi := Z.land uyi 0x7fffffffffffffff in
  let '(uxi, uyi) :=
    (if uxi <? uyi then
       let uti := uxi in
       let uxi := uyi in
       let uyi := uti in
       (uxi, uyi)
     else (uxi, uyi)) in
  let ex := to_i 64 (Z.shiftr uxi 52) in
  let ey := to_i 64 (Z.shiftr uyi 52) in
  let x := uxi in
  let y := uyi in
  if ey =? 2047 then Some y
  else if (ex =? 2047) || (uyi =? 0) then Some x
  else 
    let* v0 := ssub 64 ex ey in
    if 64 <? v0 then Some (x +: y)
    else 
      let z := 0x3ff0000000000000 (* 1.0 *) in
      let '(z, x, y) :=
        (if 1533 <? ex then
           let z := x1p700 in
           let x := x *: x1p_700 in
           let y := y *: x1p_700 in
           (z, x, y)
         else 
           let '(z, x, y) :=
             (if ey <? 573 then
                let z := x1p_700 in
                let x := x *: x1p700 in
                let y := y *: x1p700 in
                (z, x, y)
              else (z, x, y)) in
           (z, x, y)) in
      let '(hx, lx) := rs_hypot_sq x in
      let '(hy, ly) := rs_hypot_sq y in
      let* v1 := M_sqrt.sqrt (((ly +: lx) +: hy) +: hx) in
      Some (z *: v1).

(** * cbrtf.rs *)
(** libm/src/math/cbrtf.rs line 22 *)
Definition rs_cbrtf_B1 : Z := 0x2a5119f2.
(** libm/src/math/cbrtf.rs line 23 *)
Definition rs_cbrtf_B2 : Z := 0x265119f2.
(** the continuation shared by several branches of [cbrtf] *)
Definition rs_cbrtf_1 (x ui hx : Z) : option Z :=
  let ui := Z.land ui 0x80000000 in
  let ui := Z.lor ui hx in
  let t := fcvt f32 f64 ui in
  let r := (t *: t) *: t in
  let t := (t *: (((fcvt f32 f64 x) +: (fcvt f32 f64 x)) +: r)) /: (((fcvt f32 f64 x) +: r) +: r) in
  let r := (t *: t) *: t in
  let t := (t *: (((fcvt f32 f64 x) +: (fcvt f32 f64 x)) +: r)) /: (((fcvt f32 f64 x) +: r) +: r) in
  Some (fcvt f64 f32 t).
(** [cbrtf], libm/src/math/cbrtf.rs lines 29-75 *)
Definition rs_cbrtf (x : Z) : option Z :=
  let x1p24 := 0x4b800000 in
  let ui := x in
  let hx := Z.land ui 0x7fffffff in
  if 0x7f800000 <=? hx then Some (x +' x)
  else if hx <? 0x800000 then
    if hx =? 0 then Some x
    else 
      let ui := x *' x1p24 in
      let hx := Z.land ui 0x7fffffff in
      let* hx := uadd 32 (hx / 3) rs_cbrtf_B2 in
      rs_cbrtf_1 x ui hx
  else 
    let* hx := uadd 32 (hx / 3) rs_cbrtf_B1 in
    rs_cbrtf_1 x ui hx.

(** * cbrt.rs *)
(** libm/src/math/cbrt.rs lines 17-21 *)
Definition rs_cbrt_round_ESCALE : list Z :=
  [0x3ff0000000000000 (* 1.0 *);
   0x3ff428a2f98d728b (* 0x1.428a2f98d728bp+0 *);
   0x3ff965fea53d6e3d (* 0x1.965fea53d6e3dp+0 *)].
(** libm/src/math/cbrt.rs lines 25-30 *)
Definition rs_cbrt_round_C : list Z :=
  [0x3fe1b0babccfef9c (* 0x1.1b0babccfef9cp-1 *);
   0x3fe2c9a3e94d1da5 (* 0x1.2c9a3e94d1da5p-1 *);
   0xbfc4dc30b1a1ddba (* -0x1.4dc30b1a1ddbap-3 *);
   0x3f97a8d3e4ec9b07 (* 0x1.7a8d3e4ec9b07p-6 *)].
(** the continuation shared by several branches of [cbrt_round] *)
Definition rs_cbrt_cbrt_round_1 (u0 u1 : Z) (rsc off : list Z) (mant sign e_ : Z) : option Z :=
  let e_ := wadd 32 e_ 3072 in
  let cvt1 := Z.lor mant 0x3ff0000000000000 in
  let cvt5 := cvt1 in
  let et := e_ / 3 in
  let it := e_ mod 3 in
  let* cvt5 := uadd 64 cvt5 (shlu 64 it 52) in
  let cvt5 := Z.lor cvt5 (shlu 64 sign 63) in
  let zz := cvt5 in
  let* isc := tab_get rs_cbrt_round_ESCALE it in
  let isc := Z.lor isc (shlu 64 sign 63) in
  let cvt2 := isc in
  let z := cvt1 in
  let r := 0x3ff0000000000000 (* 1.0 *) /: z in
  let* v6 := tab_get rsc (Z.lor (shlu 64 it 1) sign) in
  let rr := r *: v6 in
  let z2 := z *: z in
  let c0 := (nth 0 rs_cbrt_round_C 0) +: (z *: (nth 1 rs_cbrt_round_C 0)) in
  let c2 := (nth 2 rs_cbrt_round_C 0) +: (z *: (nth 3 rs_cbrt_round_C 0)) in
  let y := c0 +: (z2 *: c2) in
  let y2 := y *: y in
  let h := (y2 *: (y *: r)) -: 0x3ff0000000000000 (* 1.0 *) in
  let y := y -: ((h *: y) *: (u0 -: (u1 *: h))) in
  let y := y *: cvt2 in
  let y2 := y *: y in
  let* y2l := fma y y (fneg f64 y2) in
  let y3 := y2 *: y in
  let* v8 := fma y y2 (fneg f64 y3) in
  let y3l := v8 +: (y *: y2l) in
  let h := ((y3 -: zz) +: y3l) *: rr in
  let dy := h *: (y *: u0) in
  let y1 := y -: dy in
  let dy := (y -: y1) -: dy in
  let ady := fabs f64 dy in
  let ady0 := fabs f64 (ady -: (nth 0 off 0)) in
  let ady1 := fabs f64 (ady -: (0x3cb0000000000000 (* 0x1p-52 *) +: (nth 0 off 0))) in
  let* (dy, y1) :=
    (if (flt f64 ady0 0x3b40000000000000 (* 0x1p-75 *)) || (flt f64 ady1 0x3b40000000000000 (* 0x1p-75 *)) then
       let y2 := y1 *: y1 in
       let* y2l := fma y1 y1 (fneg f64 y2) in
       let y3 := y2 *: y1 in
       let* v11 := fma y1 y2 (fneg f64 y3) in
       let y3l := v11 +: (y1 *: y2l) in
       let h := ((y3 -: zz) +: y3l) *: rr in
       let dy := h *: (y1 *: u0) in
       let y := y1 -: dy in
       let dy := (y1 -: y) -: dy in
       let y1 := y in
       let ady := fabs f64 dy in
       let ady0 := fabs f64 (ady -: (nth 0 off 0)) in
       let ady1 := fabs f64 (ady -: (0x3cb0000000000000 (* 0x1p-52 *) +: (nth 0 off 0))) in
       let y1 :=
         (if (flt f64 ady0 0x39d0000000000000 (* 0x1p-98 *)) || (flt f64 ady1 0x39d0000000000000 (* 0x1p-98 *)) then
            let azz := fabs f64 zz in
            let y1 :=
              (if feq f64 azz 0x4009b78223aa307c (* 0x1.9b78223aa307cp+1 *) then
                 let y1 := copysign f64 0x3ff79d15d0e8d59c (* 0x1.79d15d0e8d59cp+0 *) zz in
                 y1
               else y1) in
            let y1 :=
              (if feq f64 azz 0x401a202bfc89ddff (* 0x1.a202bfc89ddffp+2 *) then
                 let y1 := copysign f64 0x3ffde87aa837820f (* 0x1.de87aa837820fp+0 *) zz in
                 y1
               else y1) in
            y1
          else y1) in
       Some (dy, y1)
     else Some (dy, y1)) in
  let cvt3 := y1 in
  let cvt3 := wadd 64 cvt3 (shlu 64 (wsub 32 (wsub 32 et 342) 1023) 52) in
  let m0 := shlu 64 cvt3 30 in
  let m1 := Z.shiftr m0 63 in
  let* cvt3 :=
    (if (Z.lxor m0 m1) <=? 0x40000000 then
       let cvt4 := y1 in
       let* v13 := uadd 64 cvt4 0x520000 in
       let cvt4 := Z.land v13 0xffffffffffff0000 in
       let* cvt3 :=
         (if (flt f64 (fabs f64 ((cvt4 -: y1) -: dy)) 0x3c30000000000000 (* 0x1p-60 *)) || (feq f64 (fabs f64 zz) 0x3ff0000000000000 (* 1.0 *)) then
            let* v15 := uadd 64 cvt3 32768 in
            let cvt3 := Z.land v15 0xffffffffffff0000 in
            Some cvt3
          else Some cvt3) in
       Some cvt3
     else Some cvt3) in
  Some cvt3.
(** [cbrt_round], libm/src/math/cbrt.rs lines 16-199 *)
Definition rs_cbrt_cbrt_round (x : Z) : option Z :=
  let u0 := 0x3fd5555555555555 (* 0x1.5555555555555p-2 *) in
  let u1 := 0x3fcc71c71c71c71c (* 0x1.c71c71c71c71cp-3 *) in
  let rsc := [0x3ff0000000000000 (* 1.0 *); 0xbff0000000000000 (* -1.0 *); 0x3fe0000000000000 (* 0.5 *); 0xbfe0000000000000 (* -0.5 *); 0x3fd0000000000000 (* 0.25 *); 0xbfd0000000000000 (* -0.25 *)] in
  let off := [0x3ca0000000000000 (* 0x1p-53 *); 0 (* 0.0 *); 0 (* 0.0 *); 0 (* 0.0 *)] in
  let hx := x in
  let mant := Z.land hx (SIG_MASK f64) in
  let sign := Z.shiftr hx 63 in
  let e_ := Z.land (to_u 32 (Z.shiftr hx 52)) (EXP_SAT f64) in
  let* v0 := uadd 32 e_ 1 in
  if (Z.land v0 (EXP_SAT f64)) <? 2 then
    let ix := Z.land hx (unot 64 (SIGN_MASK f64)) in
    if (e_ =? (EXP_SAT f64)) || (ix =? 0) then Some (x +: x)
    else 
      let* nz := usub 32 (lzcnt 64 ix) 11 in
      let* mant := ushl 64 mant nz in
      let mant := Z.land mant (SIG_MASK f64) in
      let* v3 := usub 32 nz 1 in
      let e_ := wsub 32 e_ v3 in
      rs_cbrt_cbrt_round_1 u0 u1 rsc off mant sign e_
  else rs_cbrt_cbrt_round_1 u0 u1 rsc off mant sign e_.
(** [cbrt], libm/src/math/cbrt.rs lines 12-14 *)
Definition rs_cbrt (x : Z) : option Z :=
  rs_cbrt_cbrt_round x.

(** * powf.rs *)
(** libm/src/math/powf.rs line 20 *)
Definition rs_powf_BP : list Z :=
  [0x3f800000 (* 1.0 *);
   0x3fc00000 (* 1.5 *)].
(** libm/src/math/powf.rs line 21 *)
Definition rs_powf_DP_H : list Z :=
  [0 (* 0.0 *);
   0x3f15c000 (* 5.84960938e-01 *)].
(** libm/src/math/powf.rs line 22 *)
Definition rs_powf_DP_L : list Z :=
  [0 (* 0.0 *);
   0x35d1cfdc (* 1.56322085e-06 *)].
(** libm/src/math/powf.rs line 23 *)
Definition rs_powf_TWO24 : Z := 0x4b800000 (* 16777216.0 *).
(** libm/src/math/powf.rs line 24 *)
Definition rs_powf_HUGE : Z := 0x7149f2ca (* 1.0e30 *).
(** libm/src/math/powf.rs line 25 *)
Definition rs_powf_TINY : Z := 0xda24260 (* 1.0e-30 *).
(** libm/src/math/powf.rs line 26 *)
Definition rs_powf_L1 : Z := 0x3f19999a (* 6.0000002384e-01 *).
(** libm/src/math/powf.rs line 27 *)
Definition rs_powf_L2 : Z := 0x3edb6db7 (* 4.2857143283e-01 *).
(** libm/src/math/powf.rs line 28 *)
Definition rs_powf_L3 : Z := 0x3eaaaaab (* 3.3333334327e-01 *).
(** libm/src/math/powf.rs line 29 *)
Definition rs_powf_L4 : Z := 0x3e8ba305 (* 2.7272811532e-01 *).
(** libm/src/math/powf.rs line 30 *)
Definition rs_powf_L5 : Z := 0x3e6c3255 (* 2.3066075146e-01 *).
(** libm/src/math/powf.rs line 31 *)
Definition rs_powf_L6 : Z := 0x3e53f142 (* 2.0697501302e-01 *).
(** libm/src/math/powf.rs line 32 *)
Definition rs_powf_P1 : Z := 0x3e2aaaab (* 1.6666667163e-01 *).
(** libm/src/math/powf.rs line 33 *)
Definition rs_powf_P2 : Z := 0xbb360b61 (* -2.7777778450e-03 *).
(** libm/src/math/powf.rs line 34 *)
Definition rs_powf_P3 : Z := 0x388ab355 (* 6.6137559770e-05 *).
(** libm/src/math/powf.rs line 35 *)
Definition rs_powf_P4 : Z := 0xb5ddea0e (* -1.6533901999e-06 *).
(** libm/src/math/powf.rs line 36 *)
Definition rs_powf_P5 : Z := 0x3331bb4c (* 4.1381369442e-08 *).
(** libm/src/math/powf.rs line 37 *)
Definition rs_powf_LG2 : Z := 0x3f317218 (* 6.9314718246e-01 *).
(** libm/src/math/powf.rs line 38 *)
Definition rs_powf_LG2_H : Z := 0x3f317200 (* 6.93145752e-01 *).
(** libm/src/math/powf.rs line 39 *)
Definition rs_powf_LG2_L : Z := 0x35bfbe8c (* 1.42860654e-06 *).
(** libm/src/math/powf.rs line 40 *)
Definition rs_powf_OVT : Z := 0x3338aa3c (* 4.2995665694e-08 *).
(** libm/src/math/powf.rs line 41 *)
Definition rs_powf_CP : Z := 0x3f76384f (* 9.6179670095e-01 *).
(** libm/src/math/powf.rs line 42 *)
Definition rs_powf_CP_H : Z := 0x3f764000 (* 9.6191406250e-01 *).
(** libm/src/math/powf.rs line 43 *)
Definition rs_powf_CP_L : Z := 0xb8f623c6 (* -1.1736857402e-04 *).
(** libm/src/math/powf.rs line 44 *)
Definition rs_powf_IVLN2 : Z := 0x3fb8aa3b (* 1.4426950216e+00 *).
(** libm/src/math/powf.rs line 45 *)
Definition rs_powf_IVLN2_H : Z := 0x3fb8aa00 (* 1.4426879883e+00 *).
(** libm/src/math/powf.rs line 46 *)
Definition rs_powf_IVLN2_L : Z := 0x36eca570 (* 7.0526075433e-06 *).
(** the continuation shared by several branches of [powf] *)
Definition rs_powf_3 (p_h p_l sn j : Z) : option Z :=
  let i := Z.land j 0x7fffffff in
  let* k := ssub 32 (Z.shiftr i 23) 127 in
  let n := 0 in
  let* (n, p_h) :=
    (if 0x3f000000 <? i then
       let* v33 := sadd 32 k 1 in
       let* v34 := sshr 32 0x800000 v33 in
       let* n := sadd 32 j v34 in
       let* k := ssub 32 (Z.shiftr (Z.land n 0x7fffffff) 23) 127 in
       let* v37 := ushr 32 0x7fffff k in
       let t := Z.land (to_u 32 n) (unot 32 v37) in
       let* v38 := ssub 32 23 k in
       let* n := sshr 32 (Z.lor (Z.land n 0x7fffff) 0x800000) v38 in
       let* n :=
         (if j <? 0 then sneg 32 n
          else Some n) in
       let p_h := p_h -' t in
       Some (n, p_h)
     else Some (n, p_h)) in
  let t := p_l +' p_h in
  let is := to_i 32 t in
  let t := Z.land (to_u 32 is) 0xffff8000 in
  let u := t *' rs_powf_LG2_H in
  let v := ((p_l -' (t -' p_h)) *' rs_powf_LG2) +' (t *' rs_powf_LG2_L) in
  let z := u +' v in
  let w := v -' (z -' u) in
  let t := z *' z in
  let t1 := z -' (t *' (rs_powf_P1 +' (t *' (rs_powf_P2 +' (t *' (rs_powf_P3 +' (t *' (rs_powf_P4 +' (t *' rs_powf_P5))))))))) in
  let r := ((z *' t1) /' (t1 -' 0x40000000 (* 2.0 *))) -' (w +' (z *' w)) in
  let z := 0x3f800000 (* 1.0 *) -' (r -' z) in
  let j := to_i 32 z in
  let* j := sadd 32 j (shli 32 n 23) in
  let* z :=
    (if (Z.shiftr j 23) <=? 0 then scalbn f32 z n
     else 
       let z := to_u 32 j in
       Some z) in
  Some (sn *' z).
(** the continuation shared by several branches of [powf] *)
Definition rs_powf_2 (y t1 t2 sn : Z) : option Z :=
  let is := to_i 32 y in
  let y1 := Z.land (to_u 32 is) 0xfffff000 in
  let p_l := ((y -' y1) *' t1) +' (y *' t2) in
  let p_h := y1 *' t1 in
  let z := p_l +' p_h in
  let j := to_i 32 z in
  if 0x43000000 <? j then Some ((sn *' rs_powf_HUGE) *' rs_powf_HUGE)
  else if j =? 0x43000000 then
    if fgt f32 (p_l +' rs_powf_OVT) (z -' p_h) then Some ((sn *' rs_powf_HUGE) *' rs_powf_HUGE)
    else rs_powf_3 p_h p_l sn j
  else if 0x43160000 <? (Z.land j 0x7fffffff) then Some ((sn *' rs_powf_TINY) *' rs_powf_TINY)
  else if ((to_u 32 j) =? 0xc3160000) && (fle f32 p_l (z -' p_h)) then Some ((sn *' rs_powf_TINY) *' rs_powf_TINY)
  else rs_powf_3 p_h p_l sn j.
(** the continuation shared by several branches of [powf] *)
Definition rs_powf_1 (y ax sn hy ix iy : Z) : option Z :=
  if 0x4d000000 <? iy then
    if ix <? 0x3f7ffff8 then
      if hy <? 0 then Some ((sn *' rs_powf_HUGE) *' rs_powf_HUGE)
      else Some ((sn *' rs_powf_TINY) *' rs_powf_TINY)
    else if 0x3f800007 <? ix then
      if 0 <? hy then Some ((sn *' rs_powf_HUGE) *' rs_powf_HUGE)
      else Some ((sn *' rs_powf_TINY) *' rs_powf_TINY)
    else 
      let t := ax -' 0x3f800000 (* 1.0 *) in
      let w := (t *' t) *' (0x3f000000 (* 0.5 *) -' (t *' (0x3eaaaaab (* 0.333333333333 *) -' (t *' 0x3e800000 (* 0.25 *))))) in
      let u := rs_powf_IVLN2_H *' t in
      let v := (t *' rs_powf_IVLN2_L) -' (w *' rs_powf_IVLN2) in
      let t1 := u +' v in
      let is := to_i 32 t1 in
      let t1 := Z.land (to_u 32 is) 0xfffff000 in
      let t2 := v -' (t1 -' u) in
      rs_powf_2 y t1 t2 sn
  else 
    let n := 0 in
    let* (n, ix) :=
      (if ix <? 0x800000 then
         let ax := ax *' rs_powf_TWO24 in
         let* n := ssub 32 n 24 in
         let ix := to_i 32 ax in
         Some (n, ix)
       else Some (n, ix)) in
    let* v15 := ssub 32 (Z.shiftr ix 23) 127 in
    let* n := sadd 32 n v15 in
    let j := Z.land ix 0x7fffff in
    let ix := Z.lor j 0x3f800000 in
    let* (k, n, ix) :=
      (if j <=? 0x1cc471 then
         let k := 0 in
         Some (k, n, ix)
       else 
         let* (k, n, ix) :=
           (if j <? 0x5db3d7 then
              let k := 1 in
              Some (k, n, ix)
            else 
              let k := 0 in
              let* n := sadd 32 n 1 in
              let* ix := ssub 32 ix 0x800000 in
              Some (k, n, ix)) in
         Some (k, n, ix)) in
    let ax := to_u 32 ix in
    let* v21 := tab_get rs_powf_BP (to_u 64 k) in
    let u := ax -' v21 in
    let* v22 := tab_get rs_powf_BP (to_u 64 k) in
    let v := 0x3f800000 (* 1.0 *) /' (ax +' v22) in
    let s := u *' v in
    let s_h := s in
    let is := to_i 32 s_h in
    let s_h := Z.land (to_u 32 is) 0xfffff000 in
    let is := to_i 32 (Z.lor (Z.land (Z.shiftr (to_u 32 ix) 1) 0xfffff000) 0x20000000) in
    let* v23 := uadd 32 (to_u 32 is) 0x400000 in
    let* t_h := uadd 32 v23 (shlu 32 (to_u 32 k) 21) in
    let* v25 := tab_get rs_powf_BP (to_u 64 k) in
    let t_l := ax -' (t_h -' v25) in
    let s_l := v *' ((u -' (s_h *' t_h)) -' (s_h *' t_l)) in
    let s2 := s *' s in
    let r := (s2 *' s2) *' (rs_powf_L1 +' (s2 *' (rs_powf_L2 +' (s2 *' (rs_powf_L3 +' (s2 *' (rs_powf_L4 +' (s2 *' (rs_powf_L5 +' (s2 *' rs_powf_L6)))))))))) in
    let r := r +' (s_l *' (s_h +' s)) in
    let s2 := s_h *' s_h in
    let t_h := (0x40400000 (* 3.0 *) +' s2) +' r in
    let is := to_i 32 t_h in
    let t_h := Z.land (to_u 32 is) 0xfffff000 in
    let t_l := r -' ((t_h -' 0x40400000 (* 3.0 *)) -' s2) in
    let u := s_h *' t_h in
    let v := (s_l *' t_h) +' (t_l *' s) in
    let p_h := u +' v in
    let is := to_i 32 p_h in
    let p_h := Z.land (to_u 32 is) 0xfffff000 in
    let p_l := v -' (p_h -' u) in
    let z_h := rs_powf_CP_H *' p_h in
    let* v26 := tab_get rs_powf_DP_L (to_u 64 k) in
    let z_l := ((rs_powf_CP_L *' p_h) +' (p_l *' rs_powf_CP)) +' v26 in
    let t := of_int f32 n in
    let* v27 := tab_get rs_powf_DP_H (to_u 64 k) in
    let t1 := ((z_h +' z_l) +' v27) +' t in
    let is := to_i 32 t1 in
    let t1 := Z.land (to_u 32 is) 0xfffff000 in
    let* v28 := tab_get rs_powf_DP_H (to_u 64 k) in
    let t2 := z_l -' (((t1 -' t) -' v28) -' z_h) in
    rs_powf_2 y t1 t2 sn.
(** [powf], libm/src/math/powf.rs lines 50-335 *)
Definition rs_powf (x y : Z) : option Z :=
  let hx := to_i 32 x in
  let hy := to_i 32 y in
  let ix := Z.land hx 0x7fffffff in
  let iy := Z.land hy 0x7fffffff in
  if iy =? 0 then Some 0x3f800000 (* 1.0 *)
  else if hx =? 0x3f800000 then Some 0x3f800000 (* 1.0 *)
  else if (0x7f800000 <? ix) || (0x7f800000 <? iy) then Some (x +' y)
  else 
    let yisint := 0 in
    let* yisint :=
      (if hx <? 0 then
         let* yisint :=
           (if 0x4b800000 <=? iy then
              let yisint := 2 in
              Some yisint
            else 
              let* yisint :=
                (if 0x3f800000 <=? iy then
                   let* k := ssub 32 (Z.shiftr iy 23) 127 in
                   let* v4 := ssub 32 23 k in
                   let* j := sshr 32 iy v4 in
                   let* v6 := ssub 32 23 k in
                   let* v7 := sshl 32 j v6 in
                   let* yisint :=
                     (if v7 =? iy then ssub 32 2 (Z.land j 1)
                      else Some yisint) in
                   Some yisint
                 else Some yisint) in
              Some yisint) in
         Some yisint
       else Some yisint) in
    if iy =? 0x7f800000 then
      if ix =? 0x3f800000 then Some 0x3f800000 (* 1.0 *)
      else if 0x3f800000 <? ix then
        if 0 <=? hy then Some y
        else Some 0 (* 0.0 *)
      else if 0 <=? hy then Some 0 (* 0.0 *)
      else Some (fneg f32 y)
    else if iy =? 0x3f800000 then
      if 0 <=? hy then Some x
      else Some (0x3f800000 (* 1.0 *) /' x)
    else if hy =? 0x40000000 then Some (x *' x)
    else if (hy =? 0x3f000000) && (0 <=? hx) then M_sqrt.sqrtf x
    else 
      let ax := fabs f32 x in
      if ((ix =? 0x7f800000) || (ix =? 0)) || (ix =? 0x3f800000) then
        let z := ax in
        let z :=
          (if hy <? 0 then
             let z := 0x3f800000 (* 1.0 *) /' z in
             z
           else z) in
        let* z :=
          (if hx <? 0 then
             let* v12 := ssub 32 ix 0x3f800000 in
             let z :=
               (if (Z.lor v12 yisint) =? 0 then
                  let z := (z -' z) /' (z -' z) in
                  z
                else 
                  let z :=
                    (if yisint =? 1 then
                       let z := fneg f32 z in
                       z
                     else z) in
                  z) in
             Some z
           else Some z) in
        Some z
      else 
        let sn := 0x3f800000 (* 1.0 *) in
        if hx <? 0 then
          if yisint =? 0 then Some ((x -' x) /' (x -' x))
          else 
            let sn :=
              (if yisint =? 1 then
                 let sn := 0xbf800000 (* -1.0 *) in
                 sn
               else sn) in
            rs_powf_1 y ax sn hy ix iy
        else rs_powf_1 y ax sn hy ix iy.

(** * pow.rs *)
(** libm/src/math/pow.rs line 62 *)
Definition rs_pow_BP : list Z :=
  [0x3ff0000000000000 (* 1.0 *);
   0x3ff8000000000000 (* 1.5 *)].
(** libm/src/math/pow.rs line 63 *)
Definition rs_pow_DP_H : list Z :=
  [0 (* 0.0 *);
   0x3fe2b80340000000 (* 5.84962487220764160156e-01 *)].
(** libm/src/math/pow.rs line 64 *)
Definition rs_pow_DP_L : list Z :=
  [0 (* 0.0 *);
   0x3e4cfdeb43cfd006 (* 1.35003920212974897128e-08 *)].
(** libm/src/math/pow.rs line 65 *)
Definition rs_pow_TWO53 : Z := 0x4340000000000000 (* 9007199254740992.0 *).
(** libm/src/math/pow.rs line 66 *)
Definition rs_pow_HUGE : Z := 0x7e37e43c8800759c (* 1.0e300 *).
(** libm/src/math/pow.rs line 67 *)
Definition rs_pow_TINY : Z := 0x1a56e1fc2f8f359 (* 1.0e-300 *).
(** libm/src/math/pow.rs line 70 *)
Definition rs_pow_L1 : Z := 0x3fe3333333333303 (* 5.99999999999994648725e-01 *).
(** libm/src/math/pow.rs line 71 *)
Definition rs_pow_L2 : Z := 0x3fdb6db6db6fabff (* 4.28571428578550184252e-01 *).
(** libm/src/math/pow.rs line 72 *)
Definition rs_pow_L3 : Z := 0x3fd55555518f264d (* 3.33333329818377432918e-01 *).
(** libm/src/math/pow.rs line 73 *)
Definition rs_pow_L4 : Z := 0x3fd17460a91d4101 (* 2.72728123808534006489e-01 *).
(** libm/src/math/pow.rs line 74 *)
Definition rs_pow_L5 : Z := 0x3fcd864a93c9db65 (* 2.30660745775561754067e-01 *).
(** libm/src/math/pow.rs line 75 *)
Definition rs_pow_L6 : Z := 0x3fca7e284a454eef (* 2.06975017800338417784e-01 *).
(** libm/src/math/pow.rs line 76 *)
Definition rs_pow_P1 : Z := 0x3fc555555555553e (* 1.66666666666666019037e-01 *).
(** libm/src/math/pow.rs line 77 *)
Definition rs_pow_P2 : Z := 0xbf66c16c16bebd93 (* -2.77777777770155933842e-03 *).
(** libm/src/math/pow.rs line 78 *)
Definition rs_pow_P3 : Z := 0x3f11566aaf25de2c (* 6.61375632143793436117e-05 *).
(** libm/src/math/pow.rs line 79 *)
Definition rs_pow_P4 : Z := 0xbebbbd41c5d26bf1 (* -1.65339022054652515390e-06 *).
(** libm/src/math/pow.rs line 80 *)
Definition rs_pow_P5 : Z := 0x3e66376972bea4d0 (* 4.13813679705723846039e-08 *).
(** libm/src/math/pow.rs line 81 *)
Definition rs_pow_LG2 : Z := 0x3fe62e42fefa39ef (* 6.93147180559945286227e-01 *).
(** libm/src/math/pow.rs line 82 *)
Definition rs_pow_LG2_H : Z := 0x3fe62e4300000000 (* 6.93147182464599609375e-01 *).
(** libm/src/math/pow.rs line 83 *)
Definition rs_pow_LG2_L : Z := 0xbe205c610ca86c39 (* -1.90465429995776804525e-09 *).
(** libm/src/math/pow.rs line 84 *)
Definition rs_pow_OVT : Z := 0x3c971547652b82fe (* 8.0085662595372944372e-017 *).
(** libm/src/math/pow.rs line 85 *)
Definition rs_pow_CP : Z := 0x3feec709dc3a03fd (* 9.61796693925975554329e-01 *).
(** libm/src/math/pow.rs line 86 *)
Definition rs_pow_CP_H : Z := 0x3feec709e0000000 (* 9.61796700954437255859e-01 *).
(** libm/src/math/pow.rs line 87 *)
Definition rs_pow_CP_L : Z := 0xbe3e2fe0145b01f5 (* -7.02846165095275826516e-09 *).
(** libm/src/math/pow.rs line 88 *)
Definition rs_pow_IVLN2 : Z := 0x3ff71547652b82fe (* 1.44269504088896338700e+00 *).
(** libm/src/math/pow.rs line 89 *)
Definition rs_pow_IVLN2_H : Z := 0x3ff7154760000000 (* 1.44269502162933349609e+00 *).
(** libm/src/math/pow.rs line 90 *)
Definition rs_pow_IVLN2_L : Z := 0x3e54ae0bf85ddf44 (* 1.92596299112661746887e-08 *).
(** the continuation shared by several branches of [pow] *)
Definition rs_pow_6 (s p_l_1 p_h_1 j_1 : Z) : option Z :=
  let i_1 := Z.land j_1 0x7fffffff in
  let* k := ssub 32 (Z.shiftr i_1 20) 1023 in
  let n_1 := 0 in
  let* (n_1, p_h_1) :=
    (if 0x3fe00000 <? i_1 then
       let* v46 := sadd 32 k 1 in
       let* v47 := sshr 32 0x100000 v46 in
       let* n_1 := sadd 32 j_1 v47 in
       let* k := ssub 32 (Z.shiftr (Z.land n_1 0x7fffffff) 20) 1023 in
       let* v50 := sshr 32 0xfffff k in
       let t_2 := with_set_high_word 0 (* 0.0 *) (to_u 32 (Z.land n_1 (Z.lnot v50))) in
       let* v51 := ssub 32 20 k in
       let* n_1 := sshr 32 (Z.lor (Z.land n_1 0xfffff) 0x100000) v51 in
       let* n_1 :=
         (if j_1 <? 0 then sneg 32 n_1
          else Some n_1) in
       let p_h_1 := p_h_1 -: t_2 in
       Some (n_1, p_h_1)
     else Some (n_1, p_h_1)) in
  let t_3 := with_set_low_word (p_l_1 +: p_h_1) 0 in
  let u_3 := t_3 *: rs_pow_LG2_H in
  let v_3 := ((p_l_1 -: (t_3 -: p_h_1)) *: rs_pow_LG2) +: (t_3 *: rs_pow_LG2_L) in
  let z_2 := u_3 +: v_3 in
  let w_1 := v_3 -: (z_2 -: u_3) in
  let t_4 := z_2 *: z_2 in
  let t1_1 := z_2 -: (t_4 *: (rs_pow_P1 +: (t_4 *: (rs_pow_P2 +: (t_4 *: (rs_pow_P3 +: (t_4 *: (rs_pow_P4 +: (t_4 *: rs_pow_P5))))))))) in
  let r_1 := ((z_2 *: t1_1) /: (t1_1 -: 0x4000000000000000 (* 2.0 *))) -: (w_1 +: (z_2 *: w_1)) in
  let z_2 := 0x3ff0000000000000 (* 1.0 *) -: (r_1 -: z_2) in
  let j_1 := to_i 32 (get_high_word z_2) in
  let* j_1 := sadd 32 j_1 (shli 32 n_1 20) in
  let* z_2 :=
    (if (Z.shiftr j_1 20) <=? 0 then scalbn f64 z_2 n_1
     else 
       let z_2 := with_set_high_word z_2 (to_u 32 j_1) in
       Some z_2) in
  Some (s *: z_2).
(** the continuation shared by several branches of [pow] *)
Definition rs_pow_4 (y t1 t2 s : Z) : option Z :=
  let y1 := with_set_low_word y 0 in
  let p_l_1 := ((y -: y1) *: t1) +: (y *: t2) in
  let p_h_1 := y1 *: t1 in
  let z_1 := p_l_1 +: p_h_1 in
  let j_1 := to_i 32 (Z.shiftr z_1 32) in
  let i := to_i 32 z_1 in
  if 0x40900000 <=? j_1 then
    let* v40 := ssub 32 j_1 0x40900000 in
    if negb ((Z.lor v40 i) =? 0) then Some ((s *: rs_pow_HUGE) *: rs_pow_HUGE)
    else if fgt f64 (p_l_1 +: rs_pow_OVT) (z_1 -: p_h_1) then Some ((s *: rs_pow_HUGE) *: rs_pow_HUGE)
    else rs_pow_6 s p_l_1 p_h_1 j_1
  else if 0x4090cc00 <=? (Z.land j_1 0x7fffffff) then
    let* v41 := usub 32 (to_u 32 j_1) 0xc090cc00 in
    if negb ((Z.lor v41 (to_u 32 i)) =? 0) then Some ((s *: rs_pow_TINY) *: rs_pow_TINY)
    else if fle f64 p_l_1 (z_1 -: p_h_1) then Some ((s *: rs_pow_TINY) *: rs_pow_TINY)
    else rs_pow_6 s p_l_1 p_h_1 j_1
  else rs_pow_6 s p_l_1 p_h_1 j_1.
(** the continuation shared by several branches of [pow] *)
Definition rs_pow_5 (y hy ix ax s : Z) : option Z :=
  if ix <? 0x3fefffff then
    if hy <? 0 then Some ((s *: rs_pow_HUGE) *: rs_pow_HUGE)
    else Some ((s *: rs_pow_TINY) *: rs_pow_TINY)
  else if 0x3ff00000 <? ix then
    if 0 <? hy then Some ((s *: rs_pow_HUGE) *: rs_pow_HUGE)
    else Some ((s *: rs_pow_TINY) *: rs_pow_TINY)
  else 
    let t := ax -: 0x3ff0000000000000 (* 1.0 *) in
    let w := (t *: t) *: (0x3fe0000000000000 (* 0.5 *) -: (t *: (0x3fd5555555555555 (* 0.3333333333333333333333 *) -: (t *: 0x3fd0000000000000 (* 0.25 *))))) in
    let u := rs_pow_IVLN2_H *: t in
    let v := (t *: rs_pow_IVLN2_L) -: (w *: rs_pow_IVLN2) in
    let t1 := with_set_low_word (u +: v) 0 in
    let t2 := v -: (t1 -: u) in
    rs_pow_4 y t1 t2 s.
(** the continuation shared by several branches of [pow] *)
Definition rs_pow_3 (y hy ix iy ax s : Z) : option Z :=
  if 0x41e00000 <? iy then
    if 0x43f00000 <? iy then
      if ix <=? 0x3fefffff then
        if hy <? 0 then Some (rs_pow_HUGE *: rs_pow_HUGE)
        else Some (rs_pow_TINY *: rs_pow_TINY)
      else if 0x3ff00000 <=? ix then
        if 0 <? hy then Some (rs_pow_HUGE *: rs_pow_HUGE)
        else Some (rs_pow_TINY *: rs_pow_TINY)
      else rs_pow_5 y hy ix ax s
    else rs_pow_5 y hy ix ax s
  else 
    let n := 0 in
    let* (ax, n, ix) :=
      (if ix <? 0x100000 then
         let ax := ax *: rs_pow_TWO53 in
         let* n := ssub 32 n 53 in
         let ix := to_i 32 (get_high_word ax) in
         Some (ax, n, ix)
       else Some (ax, n, ix)) in
    let* v26 := ssub 32 (Z.shiftr ix 20) 1023 in
    let* n := sadd 32 n v26 in
    let j := Z.land ix 0xfffff in
    let ix := Z.lor j 0x3ff00000 in
    let* (k_1, n, ix) :=
      (if j <=? 0x3988e then
         let k_1 := 0 in
         Some (k_1, n, ix)
       else 
         let* (k_1, n, ix) :=
           (if j <? 0xbb67a then
              let k_1 := 1 in
              Some (k_1, n, ix)
            else 
              let k_1 := 0 in
              let* n := sadd 32 n 1 in
              let* ix := ssub 32 ix 0x100000 in
              Some (k_1, n, ix)) in
         Some (k_1, n, ix)) in
    let ax := with_set_high_word ax (to_u 32 ix) in
    let* v32 := tab_get rs_pow_BP (to_u 64 k_1) in
    let u_1 := ax -: v32 in
    let* v33 := tab_get rs_pow_BP (to_u 64 k_1) in
    let v_1 := 0x3ff0000000000000 (* 1.0 *) /: (ax +: v33) in
    let ss := u_1 *: v_1 in
    let s_h := with_set_low_word ss 0 in
    let* v34 := uadd 32 (Z.lor (Z.shiftr (to_u 32 ix) 1) 0x20000000) 0x80000 in
    let* v35 := uadd 32 v34 (shlu 32 (to_u 32 k_1) 18) in
    let t_h := with_set_high_word 0 (* 0.0 *) v35 in
    let* v36 := tab_get rs_pow_BP (to_u 64 k_1) in
    let t_l := ax -: (t_h -: v36) in
    let s_l := v_1 *: ((u_1 -: (s_h *: t_h)) -: (s_h *: t_l)) in
    let s2 := ss *: ss in
    let r := (s2 *: s2) *: (rs_pow_L1 +: (s2 *: (rs_pow_L2 +: (s2 *: (rs_pow_L3 +: (s2 *: (rs_pow_L4 +: (s2 *: (rs_pow_L5 +: (s2 *: rs_pow_L6)))))))))) in
    let r := r +: (s_l *: (s_h +: ss)) in
    let s2_1 := s_h *: s_h in
    let t_h_1 := with_set_low_word ((0x4008000000000000 (* 3.0 *) +: s2_1) +: r) 0 in
    let t_l_1 := r -: ((t_h_1 -: 0x4008000000000000 (* 3.0 *)) -: s2_1) in
    let u_2 := s_h *: t_h_1 in
    let v_2 := (s_l *: t_h_1) +: (t_l_1 *: ss) in
    let p_h := with_set_low_word (u_2 +: v_2) 0 in
    let p_l := v_2 -: (p_h -: u_2) in
    let z_h := rs_pow_CP_H *: p_h in
    let* v37 := tab_get rs_pow_DP_L (to_u 64 k_1) in
    let z_l := ((rs_pow_CP_L *: p_h) +: (p_l *: rs_pow_CP)) +: v37 in
    let t_1 := of_int f64 n in
    let* v38 := tab_get rs_pow_DP_H (to_u 64 k_1) in
    let t1 := with_set_low_word (((z_h +: z_l) +: v38) +: t_1) 0 in
    let* v39 := tab_get rs_pow_DP_H (to_u 64 k_1) in
    let t2 := z_l -: (((t1 -: t_1) -: v39) -: z_h) in
    rs_pow_4 y t1 t2 s.
(** the continuation shared by several branches of [pow] *)
Definition rs_pow_2 (x y hx hy ix iy yisint ax : Z) : option Z :=
  let s := 0x3ff0000000000000 (* 1.0 *) in
  if hx <? 0 then
    if yisint =? 0 then Some ((x -: x) /: (x -: x))
    else 
      let s :=
        (if yisint =? 1 then
           let s := 0xbff0000000000000 (* -1.0 *) in
           s
         else s) in
      rs_pow_3 y hy ix iy ax s
  else rs_pow_3 y hy ix iy ax s.
(** the continuation shared by several branches of [pow] *)
Definition rs_pow_1 (x y hx lx hy ix iy yisint : Z) : option Z :=
  let ax := fabs f64 x in
  if lx =? 0 then
    if ((ix =? 0x7ff00000) || (ix =? 0)) || (ix =? 0x3ff00000) then
      let z := ax in
      let z :=
        (if hy <? 0 then
           let z := 0x3ff0000000000000 (* 1.0 *) /: z in
           z
         else z) in
      let* z :=
        (if hx <? 0 then
           let* v23 := ssub 32 ix 0x3ff00000 in
           let z :=
             (if (Z.lor v23 yisint) =? 0 then
                let z := (z -: z) /: (z -: z) in
                z
              else 
                let z :=
                  (if yisint =? 1 then
                     let z := fneg f64 z in
                     z
                   else z) in
                z) in
           Some z
         else Some z) in
      Some z
    else rs_pow_2 x y hx hy ix iy yisint ax
  else rs_pow_2 x y hx hy ix iy yisint ax.
(** [pow], libm/src/math/pow.rs lines 94-394 *)
Definition rs_pow (x y : Z) : option Z :=
  let hx := to_i 32 (Z.shiftr x 32) in
  let lx := to_u 32 x in
  let hy := to_i 32 (Z.shiftr y 32) in
  let ly := to_u 32 y in
  let ix := Z.land hx 0x7fffffff in
  let iy := Z.land hy 0x7fffffff in
  if (Z.lor (to_u 32 iy) ly) =? 0 then Some 0x3ff0000000000000 (* 1.0 *)
  else if (hx =? 0x3ff00000) && (lx =? 0) then Some 0x3ff0000000000000 (* 1.0 *)
  else if (((0x7ff00000 <? ix) || ((ix =? 0x7ff00000) && (negb (lx =? 0)))) || (0x7ff00000 <? iy)) || ((iy =? 0x7ff00000) && (negb (ly =? 0))) then Some (x +: y)
  else 
    let yisint := 0 in
    let* yisint :=
      (if hx <? 0 then
         let* yisint :=
           (if 0x43400000 <=? iy then
              let yisint := 2 in
              Some yisint
            else 
              let* yisint :=
                (if 0x3ff00000 <=? iy then
                   let* k := ssub 32 (Z.shiftr iy 20) 1023 in
                   let* yisint :=
                     (if 20 <? k then
                        let* v6 := ssub 32 52 k in
                        let* v7 := ushr 32 ly v6 in
                        let j := to_i 32 v7 in
                        let* v8 := ssub 32 52 k in
                        let* v9 := sshl 32 j v8 in
                        let* yisint :=
                          (if v9 =? (to_i 32 ly) then ssub 32 2 (Z.land j 1)
                           else Some yisint) in
                        Some yisint
                      else 
                        let* yisint :=
                          (if ly =? 0 then
                             let* v14 := ssub 32 20 k in
                             let* j := sshr 32 iy v14 in
                             let* v16 := ssub 32 20 k in
                             let* v17 := sshl 32 j v16 in
                             let* yisint :=
                               (if v17 =? iy then ssub 32 2 (Z.land j 1)
                                else Some yisint) in
                             Some yisint
                           else Some yisint) in
                        Some yisint) in
                   Some yisint
                 else Some yisint) in
              Some yisint) in
         Some yisint
       else Some yisint) in
    if ly =? 0 then
      if iy =? 0x7ff00000 then
        let* v20 := ssub 32 ix 0x3ff00000 in
        if (Z.lor v20 (to_i 32 lx)) =? 0 then Some 0x3ff0000000000000 (* 1.0 *)
        else if 0x3ff00000 <=? ix then
          if 0 <=? hy then Some y
          else Some 0 (* 0.0 *)
        else if 0 <=? hy then Some 0 (* 0.0 *)
        else Some (fneg f64 y)
      else if iy =? 0x3ff00000 then
        if 0 <=? hy then Some x
        else Some (0x3ff0000000000000 (* 1.0 *) /: x)
      else if hy =? 0x40000000 then Some (x *: x)
      else if hy =? 0x3fe00000 then
        if 0 <=? hx then M_sqrt.sqrt x
        else rs_pow_1 x y hx lx hy ix iy yisint
      else rs_pow_1 x y hx lx hy ix iy yisint
    else rs_pow_1 x y hx lx hy ix iy yisint.

(** * exp10f.rs *)
(** libm/src/math/exp10f.rs line 3 *)
Definition rs_exp10f_LN10_F32 : Z := 0x40549a78 (* 3.32192809488736234787031942948939 *).
(** libm/src/math/exp10f.rs line 4 *)
Definition rs_exp10f_LN10_F64 : Z := 0x400a934f0979a371 (* 3.32192809488736234787031942948939 *).
(** libm/src/math/exp10f.rs lines 5-6 *)
Definition rs_exp10f_P10 : list Z :=
  [0x33d6bf95 (* 1e-7 *);
   0x358637bd (* 1e-6 *);
   0x3727c5ac (* 1e-5 *);
   0x38d1b717 (* 1e-4 *);
   0x3a83126f (* 1e-3 *);
   0x3c23d70a (* 1e-2 *);
   0x3dcccccd (* 1e-1 *);
   0x3f800000 (* 1e0 *);
   0x41200000 (* 1e1 *);
   0x42c80000 (* 1e2 *);
   0x447a0000 (* 1e3 *);
   0x461c4000 (* 1e4 *);
   0x47c35000 (* 1e5 *);
   0x49742400 (* 1e6 *);
   0x4b189680 (* 1e7 *)].
(** [exp10f], libm/src/math/exp10f.rs lines 10-22 *)
Definition rs_exp10f (x : Z) : option Z :=
  let* (y, n) := modff x in
  let u := n in
  if (Z.land (Z.shiftr u 23) 255) <? 130 then
    if feq f32 y 0 (* 0.0 *) then
      let* v1 := sadd 64 (to_isize f32 n) 7 in
      tab_get rs_exp10f_P10 (to_u 64 v1)
    else 
      let* y := rs_exp2f (rs_exp10f_LN10_F32 *' y) in
      let* v4 := sadd 64 (to_isize f32 n) 7 in
      let* v5 := tab_get rs_exp10f_P10 (to_u 64 v4) in
      Some (y *' v5)
  else 
    let* v6 := rs_exp2 (rs_exp10f_LN10_F64 *: (fcvt f32 f64 x)) in
    Some (fcvt f64 f32 v6).

(** * exp10.rs *)
(** libm/src/math/exp10.rs line 3 *)
Definition rs_exp10_LN10 : Z := 0x400a934f0979a371 (* 3.32192809488736234787031942948939 *).
(** libm/src/math/exp10.rs lines 4-7 *)
Definition rs_exp10_P10 : list Z :=
  [0x3cd203af9ee75616 (* 1e-15 *);
   0x3d06849b86a12b9b (* 1e-14 *);
   0x3d3c25c268497682 (* 1e-13 *);
   0x3d719799812dea11 (* 1e-12 *);
   0x3da5fd7fe1796495 (* 1e-11 *);
   0x3ddb7cdfd9d7bdbb (* 1e-10 *);
   0x3e112e0be826d695 (* 1e-9 *);
   0x3e45798ee2308c3a (* 1e-8 *);
   0x3e7ad7f29abcaf48 (* 1e-7 *);
   0x3eb0c6f7a0b5ed8d (* 1e-6 *);
   0x3ee4f8b588e368f1 (* 1e-5 *);
   0x3f1a36e2eb1c432d (* 1e-4 *);
   0x3f50624dd2f1a9fc (* 1e-3 *);
   0x3f847ae147ae147b (* 1e-2 *);
   0x3fb999999999999a (* 1e-1 *);
   0x3ff0000000000000 (* 1e0 *);
   0x4024000000000000 (* 1e1 *);
   0x4059000000000000 (* 1e2 *);
   0x408f400000000000 (* 1e3 *);
   0x40c3880000000000 (* 1e4 *);
   0x40f86a0000000000 (* 1e5 *);
   0x412e848000000000 (* 1e6 *);
   0x416312d000000000 (* 1e7 *);
   0x4197d78400000000 (* 1e8 *);
   0x41cdcd6500000000 (* 1e9 *);
   0x4202a05f20000000 (* 1e10 *);
   0x42374876e8000000 (* 1e11 *);
   0x426d1a94a2000000 (* 1e12 *);
   0x42a2309ce5400000 (* 1e13 *);
   0x42d6bcc41e900000 (* 1e14 *);
   0x430c6bf526340000 (* 1e15 *)].
(** [exp10], libm/src/math/exp10.rs lines 11-23 *)
Definition rs_exp10 (x : Z) : option Z :=
  let* (y, n) := modf x in
  let u := n in
  if (Z.land (Z.shiftr u 52) 2047) <? 1027 then
    if feq f64 y 0 (* 0.0 *) then
      let* v1 := sadd 64 (to_isize f64 n) 15 in
      tab_get rs_exp10_P10 (to_u 64 v1)
    else 
      let* y := rs_exp2 (rs_exp10_LN10 *: y) in
      let* v4 := sadd 64 (to_isize f64 n) 15 in
      let* v5 := tab_get rs_exp10_P10 (to_u 64 v4) in
      Some (y *: v5)
  else rs_pow 0x4024000000000000 (* 10.0 *) x.

(** Generated by tools/rs2v.py from the Rust sources named in the comments.  [rs_f] is the Rust function [f];
    constants and private functions carry the name of their file.  See DESIGN.md for the reading of Rust. *)
From Coq Require Import ZArith Bool List.
From Verif Require Import Base Spec Format Ieee M_basic M_bits M_scalbn M_fma M_sqrt M_elib M_trig M_exp M_log M_pow.
Import ListNotations.
Open Scope Z_scope.
Open Scope fl_scope.

(** * lgammaf_r.rs *)
(** libm/src/math/lgammaf_r.rs line 18 *)
Definition rs_lgammaf_r_PI : Z := 0x40490fdb (* 3.1415927410e+00 *).
(** libm/src/math/lgammaf_r.rs line 19 *)
Definition rs_lgammaf_r_A0 : Z := 0x3d9e233f (* 7.7215664089e-02 *).
(** libm/src/math/lgammaf_r.rs line 20 *)
Definition rs_lgammaf_r_A1 : Z := 0x3ea51a66 (* 3.2246702909e-01 *).
(** libm/src/math/lgammaf_r.rs line 21 *)
Definition rs_lgammaf_r_A2 : Z := 0x3d89f001 (* 6.7352302372e-02 *).
(** libm/src/math/lgammaf_r.rs line 22 *)
Definition rs_lgammaf_r_A3 : Z := 0x3ca89915 (* 2.0580807701e-02 *).
(** libm/src/math/lgammaf_r.rs line 23 *)
Definition rs_lgammaf_r_A4 : Z := 0x3bf2027e (* 7.3855509982e-03 *).
(** libm/src/math/lgammaf_r.rs line 24 *)
Definition rs_lgammaf_r_A5 : Z := 0x3b3d6ec6 (* 2.8905137442e-03 *).
(** libm/src/math/lgammaf_r.rs line 25 *)
Definition rs_lgammaf_r_A6 : Z := 0x3a9c54a1 (* 1.1927076848e-03 *).
(** libm/src/math/lgammaf_r.rs line 26 *)
Definition rs_lgammaf_r_A7 : Z := 0x3a05b634 (* 5.1006977446e-04 *).
(** libm/src/math/lgammaf_r.rs line 27 *)
Definition rs_lgammaf_r_A8 : Z := 0x39679767 (* 2.2086278477e-04 *).
(** libm/src/math/lgammaf_r.rs line 28 *)
Definition rs_lgammaf_r_A9 : Z := 0x38e28445 (* 1.0801156895e-04 *).
(** libm/src/math/lgammaf_r.rs line 29 *)
Definition rs_lgammaf_r_A10 : Z := 0x37d383a2 (* 2.5214456400e-05 *).
(** libm/src/math/lgammaf_r.rs line 30 *)
Definition rs_lgammaf_r_A11 : Z := 0x383c2c75 (* 4.4864096708e-05 *).
(** libm/src/math/lgammaf_r.rs line 31 *)
Definition rs_lgammaf_r_TC : Z := 0x3fbb16c3 (* 1.4616321325e+00 *).
(** libm/src/math/lgammaf_r.rs line 32 *)
Definition rs_lgammaf_r_TF : Z := 0xbdf8cdcd (* -1.2148628384e-01 *).
(** libm/src/math/lgammaf_r.rs line 34 *)
Definition rs_lgammaf_r_TT : Z := 0x31e61c52 (* 6.6971006518e-09 *).
(** libm/src/math/lgammaf_r.rs line 35 *)
Definition rs_lgammaf_r_T0 : Z := 0x3ef7b95e (* 4.8383611441e-01 *).
(** libm/src/math/lgammaf_r.rs line 36 *)
Definition rs_lgammaf_r_T1 : Z := 0xbe17213c (* -1.4758771658e-01 *).
(** libm/src/math/lgammaf_r.rs line 37 *)
Definition rs_lgammaf_r_T2 : Z := 0x3d845a15 (* 6.4624942839e-02 *).
(** libm/src/math/lgammaf_r.rs line 38 *)
Definition rs_lgammaf_r_T3 : Z := 0xbd064d47 (* -3.2788541168e-02 *).
(** libm/src/math/lgammaf_r.rs line 39 *)
Definition rs_lgammaf_r_T4 : Z := 0x3c93373d (* 1.7970675603e-02 *).
(** libm/src/math/lgammaf_r.rs line 40 *)
Definition rs_lgammaf_r_T5 : Z := 0xbc28fcfe (* -1.0314224288e-02 *).
(** libm/src/math/lgammaf_r.rs line 41 *)
Definition rs_lgammaf_r_T6 : Z := 0x3bc7e707 (* 6.1005386524e-03 *).
(** libm/src/math/lgammaf_r.rs line 42 *)
Definition rs_lgammaf_r_T7 : Z := 0xbb7177fe (* -3.6845202558e-03 *).
(** libm/src/math/lgammaf_r.rs line 43 *)
Definition rs_lgammaf_r_T8 : Z := 0x3b141699 (* 2.2596477065e-03 *).
(** libm/src/math/lgammaf_r.rs line 44 *)
Definition rs_lgammaf_r_T9 : Z := 0xbab7f476 (* -1.4034647029e-03 *).
(** libm/src/math/lgammaf_r.rs line 45 *)
Definition rs_lgammaf_r_T10 : Z := 0x3a66f867 (* 8.8108185446e-04 *).
(** libm/src/math/lgammaf_r.rs line 46 *)
Definition rs_lgammaf_r_T11 : Z := 0xba0d3085 (* -5.3859531181e-04 *).
(** libm/src/math/lgammaf_r.rs line 47 *)
Definition rs_lgammaf_r_T12 : Z := 0x39a57b6b (* 3.1563205994e-04 *).
(** libm/src/math/lgammaf_r.rs line 48 *)
Definition rs_lgammaf_r_T13 : Z := 0xb9a3f927 (* -3.1275415677e-04 *).
(** libm/src/math/lgammaf_r.rs line 49 *)
Definition rs_lgammaf_r_T14 : Z := 0x39afe9f7 (* 3.3552918467e-04 *).
(** libm/src/math/lgammaf_r.rs line 50 *)
Definition rs_lgammaf_r_U0 : Z := 0xbd9e233f (* -7.7215664089e-02 *).
(** libm/src/math/lgammaf_r.rs line 51 *)
Definition rs_lgammaf_r_U1 : Z := 0x3f2200f4 (* 6.3282704353e-01 *).
(** libm/src/math/lgammaf_r.rs line 52 *)
Definition rs_lgammaf_r_U2 : Z := 0x3fba3ae7 (* 1.4549225569e+00 *).
(** libm/src/math/lgammaf_r.rs line 53 *)
Definition rs_lgammaf_r_U3 : Z := 0x3f7a4bb2 (* 9.7771751881e-01 *).
(** libm/src/math/lgammaf_r.rs line 54 *)
Definition rs_lgammaf_r_U4 : Z := 0x3e6a7578 (* 2.2896373272e-01 *).
(** libm/src/math/lgammaf_r.rs line 55 *)
Definition rs_lgammaf_r_U5 : Z := 0x3c5b3c5e (* 1.3381091878e-02 *).
(** libm/src/math/lgammaf_r.rs line 56 *)
Definition rs_lgammaf_r_V1 : Z := 0x401d2ebe (* 2.4559779167e+00 *).
(** libm/src/math/lgammaf_r.rs line 57 *)
Definition rs_lgammaf_r_V2 : Z := 0x4008392d (* 2.1284897327e+00 *).
(** libm/src/math/lgammaf_r.rs line 58 *)
Definition rs_lgammaf_r_V3 : Z := 0x3f44efdf (* 7.6928514242e-01 *).
(** libm/src/math/lgammaf_r.rs line 59 *)
Definition rs_lgammaf_r_V4 : Z := 0x3dd572af (* 1.0422264785e-01 *).
(** libm/src/math/lgammaf_r.rs line 60 *)
Definition rs_lgammaf_r_V5 : Z := 0x3b52d5db (* 3.2170924824e-03 *).
(** libm/src/math/lgammaf_r.rs line 61 *)
Definition rs_lgammaf_r_S0 : Z := 0xbd9e233f (* -7.7215664089e-02 *).
(** libm/src/math/lgammaf_r.rs line 62 *)
Definition rs_lgammaf_r_S1 : Z := 0x3e5c245a (* 2.1498242021e-01 *).
(** libm/src/math/lgammaf_r.rs line 63 *)
Definition rs_lgammaf_r_S2 : Z := 0x3ea6cc7a (* 3.2577878237e-01 *).
(** libm/src/math/lgammaf_r.rs line 64 *)
Definition rs_lgammaf_r_S3 : Z := 0x3e15dce6 (* 1.4635047317e-01 *).
(** libm/src/math/lgammaf_r.rs line 65 *)
Definition rs_lgammaf_r_S4 : Z := 0x3cda40e4 (* 2.6642270386e-02 *).
(** libm/src/math/lgammaf_r.rs line 66 *)
Definition rs_lgammaf_r_S5 : Z := 0x3af135b4 (* 1.8402845599e-03 *).
(** libm/src/math/lgammaf_r.rs line 67 *)
Definition rs_lgammaf_r_S6 : Z := 0x3805ff67 (* 3.1947532989e-05 *).
(** libm/src/math/lgammaf_r.rs line 68 *)
Definition rs_lgammaf_r_R1 : Z := 0x3fb22d3b (* 1.3920053244e+00 *).
(** libm/src/math/lgammaf_r.rs line 69 *)
Definition rs_lgammaf_r_R2 : Z := 0x3f38d0c5 (* 7.2193557024e-01 *).
(** libm/src/math/lgammaf_r.rs line 70 *)
Definition rs_lgammaf_r_R3 : Z := 0x3e300f6e (* 1.7193385959e-01 *).
(** libm/src/math/lgammaf_r.rs line 71 *)
Definition rs_lgammaf_r_R4 : Z := 0x3c98bf54 (* 1.8645919859e-02 *).
(** libm/src/math/lgammaf_r.rs line 72 *)
Definition rs_lgammaf_r_R5 : Z := 0x3a4beed6 (* 7.7794247773e-04 *).
(** libm/src/math/lgammaf_r.rs line 73 *)
Definition rs_lgammaf_r_R6 : Z := 0x36f5d7bd (* 7.3266842264e-06 *).
(** libm/src/math/lgammaf_r.rs line 74 *)
Definition rs_lgammaf_r_W0 : Z := 0x3ed67f1d (* 4.1893854737e-01 *).
(** libm/src/math/lgammaf_r.rs line 75 *)
Definition rs_lgammaf_r_W1 : Z := 0x3daaaaab (* 8.3333335817e-02 *).
(** libm/src/math/lgammaf_r.rs line 76 *)
Definition rs_lgammaf_r_W2 : Z := 0xbb360b61 (* -2.7777778450e-03 *).
(** libm/src/math/lgammaf_r.rs line 77 *)
Definition rs_lgammaf_r_W3 : Z := 0x3a500cfd (* 7.9365057172e-04 *).
(** libm/src/math/lgammaf_r.rs line 78 *)
Definition rs_lgammaf_r_W4 : Z := 0xba1c065c (* -5.9518753551e-04 *).
(** libm/src/math/lgammaf_r.rs line 79 *)
Definition rs_lgammaf_r_W5 : Z := 0x3a5b3dd2 (* 8.3633989561e-04 *).
(** libm/src/math/lgammaf_r.rs line 80 *)
Definition rs_lgammaf_r_W6 : Z := 0xbad5c4e8 (* -1.6309292987e-03 *).
(** [sin_pi], libm/src/math/lgammaf_r.rs lines 83-101 *)
Definition rs_lgammaf_r_sin_pi (x : Z) : option Z :=
  let* v0 := floor f32 (x *' 0x3f000000 (* 0.5 *)) in
  let x := 0x40000000 (* 2.0 *) *' ((x *' 0x3f000000 (* 0.5 *)) -' v0) in
  let n := to_isize f32 (x *' 0x40800000 (* 4.0 *)) in
  let* v1 := sadd 64 n 1 in
  let n := Z.quot v1 2 in
  let y := (fcvt f32 f64 x) -: ((of_int f64 n) *: 0x3fe0000000000000 (* 0.5 *)) in
  let y := y *: 0x400921fb54442d18 (* 3.14159265358979323846 *) in
  if n =? 1 then Some (rs_k_cosf y)
  else if n =? 2 then Some (rs_k_sinf (fneg f64 y))
  else if n =? 3 then Some (fneg f32 (rs_k_cosf y))
  else Some (rs_k_sinf y).
(** the continuation shared by several branches of [lgammaf_r] *)
Definition rs_lgammaf_r_1 (x nadj ix : Z) (sign : bool) (signgam : Z) : option (Z * Z) :=
  let* r :=
    (if (ix =? 0x3f800000) || (ix =? 0x40000000) then
       let r := 0 (* 0.0 *) in
       Some r
     else 
       let* r :=
         (if ix <? 0x40000000 then
            let* (r, y, i) :=
              (if ix <=? 0x3f666666 then
                 let* v6 := rs_logf x in
                 let r := fneg f32 v6 in
                 let '(y, i) :=
                   (if 0x3f3b4a20 <=? ix then
                      let y := 0x3f800000 (* 1.0 *) -' x in
                      let i := 0 in
                      (y, i)
                    else 
                      let '(y, i) :=
                        (if 0x3e6d3308 <=? ix then
                           let y := x -' (rs_lgammaf_r_TC -' 0x3f800000 (* 1.0 *)) in
                           let i := 1 in
                           (y, i)
                         else 
                           let y := x in
                           let i := 2 in
                           (y, i)) in
                      (y, i)) in
                 Some (r, y, i)
               else 
                 let r := 0 (* 0.0 *) in
                 let '(y, i) :=
                   (if 0x3fdda618 <=? ix then
                      let y := 0x40000000 (* 2.0 *) -' x in
                      let i := 0 in
                      (y, i)
                    else 
                      let '(y, i) :=
                        (if 0x3f9da620 <=? ix then
                           let y := x -' rs_lgammaf_r_TC in
                           let i := 1 in
                           (y, i)
                         else 
                           let y := x -' 0x3f800000 (* 1.0 *) in
                           let i := 2 in
                           (y, i)) in
                      (y, i)) in
                 Some (r, y, i)) in
            let* r :=
              (if i =? 0 then
                 let z := y *' y in
                 let p1 := rs_lgammaf_r_A0 +' (z *' (rs_lgammaf_r_A2 +' (z *' (rs_lgammaf_r_A4 +' (z *' (rs_lgammaf_r_A6 +' (z *' (rs_lgammaf_r_A8 +' (z *' rs_lgammaf_r_A10))))))))) in
                 let p2 := z *' (rs_lgammaf_r_A1 +' (z *' (rs_lgammaf_r_A3 +' (z *' (rs_lgammaf_r_A5 +' (z *' (rs_lgammaf_r_A7 +' (z *' (rs_lgammaf_r_A9 +' (z *' rs_lgammaf_r_A11)))))))))) in
                 let p := (y *' p1) +' p2 in
                 let r := r +' (p -' (0x3f000000 (* 0.5 *) *' y)) in
                 Some r
               else 
                 let* r :=
                   (if i =? 1 then
                      let z := y *' y in
                      let w := z *' y in
                      let p1 := rs_lgammaf_r_T0 +' (w *' (rs_lgammaf_r_T3 +' (w *' (rs_lgammaf_r_T6 +' (w *' (rs_lgammaf_r_T9 +' (w *' rs_lgammaf_r_T12))))))) in
                      let p2 := rs_lgammaf_r_T1 +' (w *' (rs_lgammaf_r_T4 +' (w *' (rs_lgammaf_r_T7 +' (w *' (rs_lgammaf_r_T10 +' (w *' rs_lgammaf_r_T13))))))) in
                      let p3 := rs_lgammaf_r_T2 +' (w *' (rs_lgammaf_r_T5 +' (w *' (rs_lgammaf_r_T8 +' (w *' (rs_lgammaf_r_T11 +' (w *' rs_lgammaf_r_T14))))))) in
                      let p := (z *' p1) -' (rs_lgammaf_r_TT -' (w *' (p2 +' (y *' p3)))) in
                      let r := r +' (rs_lgammaf_r_TF +' p) in
                      Some r
                    else 
                      let* r :=
                        (if i =? 2 then
                           let p1 := y *' (rs_lgammaf_r_U0 +' (y *' (rs_lgammaf_r_U1 +' (y *' (rs_lgammaf_r_U2 +' (y *' (rs_lgammaf_r_U3 +' (y *' (rs_lgammaf_r_U4 +' (y *' rs_lgammaf_r_U5)))))))))) in
                           let p2 := 0x3f800000 (* 1.0 *) +' (y *' (rs_lgammaf_r_V1 +' (y *' (rs_lgammaf_r_V2 +' (y *' (rs_lgammaf_r_V3 +' (y *' (rs_lgammaf_r_V4 +' (y *' rs_lgammaf_r_V5))))))))) in
                           let r := r +' ((0xbf000000 (* -0.5 *) *' y) +' (p1 /' p2)) in
                           Some r
                         else None) in
                      Some r) in
                 Some r) in
            Some r
          else 
            let* r :=
              (if ix <? 0x41000000 then
                 let i := to_i32 f32 x in
                 let y := x -' (of_int f32 i) in
                 let p := y *' (rs_lgammaf_r_S0 +' (y *' (rs_lgammaf_r_S1 +' (y *' (rs_lgammaf_r_S2 +' (y *' (rs_lgammaf_r_S3 +' (y *' (rs_lgammaf_r_S4 +' (y *' (rs_lgammaf_r_S5 +' (y *' rs_lgammaf_r_S6)))))))))))) in
                 let q := 0x3f800000 (* 1.0 *) +' (y *' (rs_lgammaf_r_R1 +' (y *' (rs_lgammaf_r_R2 +' (y *' (rs_lgammaf_r_R3 +' (y *' (rs_lgammaf_r_R4 +' (y *' (rs_lgammaf_r_R5 +' (y *' rs_lgammaf_r_R6))))))))))) in
                 let r := (0x3f000000 (* 0.5 *) *' y) +' (p /' q) in
                 let z := 0x3f800000 (* 1.0 *) in
                 let z :=
                   (if 7 <=? i then
                      let z := z *' (y +' 0x40c00000 (* 6.0 *)) in
                      z
                    else z) in
                 let z :=
                   (if 6 <=? i then
                      let z := z *' (y +' 0x40a00000 (* 5.0 *)) in
                      z
                    else z) in
                 let z :=
                   (if 5 <=? i then
                      let z := z *' (y +' 0x40800000 (* 4.0 *)) in
                      z
                    else z) in
                 let z :=
                   (if 4 <=? i then
                      let z := z *' (y +' 0x40400000 (* 3.0 *)) in
                      z
                    else z) in
                 let* r :=
                   (if 3 <=? i then
                      let z := z *' (y +' 0x40000000 (* 2.0 *)) in
                      let* v9 := rs_logf z in
                      let r := r +' v9 in
                      Some r
                    else Some r) in
                 Some r
               else 
                 let* r :=
                   (if ix <? 0x5c800000 then
                      let* t := rs_logf x in
                      let z := 0x3f800000 (* 1.0 *) /' x in
                      let y := z *' z in
                      let w := rs_lgammaf_r_W0 +' (z *' (rs_lgammaf_r_W1 +' (y *' (rs_lgammaf_r_W2 +' (y *' (rs_lgammaf_r_W3 +' (y *' (rs_lgammaf_r_W4 +' (y *' (rs_lgammaf_r_W5 +' (y *' rs_lgammaf_r_W6))))))))))) in
                      let r := ((x -' 0x3f000000 (* 0.5 *)) *' (t -' 0x3f800000 (* 1.0 *))) +' w in
                      Some r
                    else 
                      let* v12 := rs_logf x in
                      let r := x *' (v12 -' 0x3f800000 (* 1.0 *)) in
                      Some r) in
                 Some r) in
            Some r) in
       Some r) in
  let r :=
    (if sign then
       let r := nadj -' r in
       r
     else r) in
  Some (r, signgam).
(** [lgammaf_r], libm/src/math/lgammaf_r.rs lines 104-256 *)
Definition rs_lgammaf_r (x : Z) : option (Z * Z) :=
  let u := x in
  let signgam := 1 in
  let sign := negb ((Z.shiftr u 31) =? 0) in
  let ix := Z.land u 0x7fffffff in
  if 0x7f800000 <=? ix then Some ((x *' x), signgam)
  else if ix <? 0x35000000 then
    let '(signgam, x) :=
      (if sign then
         let signgam := -1 in
         let x := fneg f32 x in
         (signgam, x)
       else (signgam, x)) in
    let* v0 := rs_logf x in
    Some ((fneg f32 v0), signgam)
  else if sign then
    let x := fneg f32 x in
    let* t := rs_lgammaf_r_sin_pi x in
    if feq f32 t 0 (* 0.0 *) then Some ((0x3f800000 (* 1.0 *) /' (x -' x)), signgam)
    else 
      let '(signgam, t) :=
        (if fgt f32 t 0 (* 0.0 *) then
           let signgam := -1 in
           (signgam, t)
         else 
           let t := fneg f32 t in
           (signgam, t)) in
      let* nadj := rs_logf (rs_lgammaf_r_PI /' (t *' x)) in
      rs_lgammaf_r_1 x nadj ix sign signgam
  else 
    let nadj := 0 (* 0.0 *) in
    rs_lgammaf_r_1 x nadj ix sign signgam.

(** * lgammaf.rs *)
(** [lgammaf], libm/src/math/lgammaf.rs lines 6-8 *)
Definition rs_lgammaf (x : Z) : option Z :=
  let* v0 := rs_lgammaf_r x in
  Some (fst v0).

(** * lgamma_r.rs *)
(** libm/src/math/lgamma_r.rs line 83 *)
Definition rs_lgamma_r_PI : Z := 0x400921fb54442d18 (* 3.14159265358979311600e+00 *).
(** libm/src/math/lgamma_r.rs line 84 *)
Definition rs_lgamma_r_A0 : Z := 0x3fb3c467e37db0c8 (* 7.72156649015328655494e-02 *).
(** libm/src/math/lgamma_r.rs line 85 *)
Definition rs_lgamma_r_A1 : Z := 0x3fd4a34cc4a60fad (* 3.22467033424113591611e-01 *).
(** libm/src/math/lgamma_r.rs line 86 *)
Definition rs_lgamma_r_A2 : Z := 0x3fb13e001a5562a7 (* 6.73523010531292681824e-02 *).
(** libm/src/math/lgamma_r.rs line 87 *)
Definition rs_lgamma_r_A3 : Z := 0x3f951322ac92547b (* 2.05808084325167332806e-02 *).
(** libm/src/math/lgamma_r.rs line 88 *)
Definition rs_lgamma_r_A4 : Z := 0x3f7e404fb68fefe8 (* 7.38555086081402883957e-03 *).
(** libm/src/math/lgamma_r.rs line 89 *)
Definition rs_lgamma_r_A5 : Z := 0x3f67add8ccb7926b (* 2.89051383673415629091e-03 *).
(** libm/src/math/lgamma_r.rs line 90 *)
Definition rs_lgamma_r_A6 : Z := 0x3f538a94116f3f5d (* 1.19270763183362067845e-03 *).
(** libm/src/math/lgamma_r.rs line 91 *)
Definition rs_lgamma_r_A7 : Z := 0x3f40b6c689b99c00 (* 5.10069792153511336608e-04 *).
(** libm/src/math/lgamma_r.rs line 92 *)
Definition rs_lgamma_r_A8 : Z := 0x3f2cf2eced10e54d (* 2.20862790713908385557e-04 *).
(** libm/src/math/lgamma_r.rs line 93 *)
Definition rs_lgamma_r_A9 : Z := 0x3f1c5088987dfb07 (* 1.08011567247583939954e-04 *).
(** libm/src/math/lgamma_r.rs line 94 *)
Definition rs_lgamma_r_A10 : Z := 0x3efa7074428cfa52 (* 2.52144565451257326939e-05 *).
(** libm/src/math/lgamma_r.rs line 95 *)
Definition rs_lgamma_r_A11 : Z := 0x3f07858e90a45837 (* 4.48640949618915160150e-05 *).
(** libm/src/math/lgamma_r.rs line 96 *)
Definition rs_lgamma_r_TC : Z := 0x3ff762d86356be3f (* 1.46163214496836224576e+00 *).
(** libm/src/math/lgamma_r.rs line 97 *)
Definition rs_lgamma_r_TF : Z := 0xbfbf19b9bcc38a42 (* -1.21486290535849611461e-01 *).
(** libm/src/math/lgamma_r.rs line 99 *)
Definition rs_lgamma_r_TT : Z := 0xbc50c7caa48a971f (* -3.63867699703950536541e-18 *).
(** libm/src/math/lgamma_r.rs line 100 *)
Definition rs_lgamma_r_T0 : Z := 0x3fdef72bc8ee38a2 (* 4.83836122723810047042e-01 *).
(** libm/src/math/lgamma_r.rs line 101 *)
Definition rs_lgamma_r_T1 : Z := 0xbfc2e4278dc6c509 (* -1.47587722994593911752e-01 *).
(** libm/src/math/lgamma_r.rs line 102 *)
Definition rs_lgamma_r_T2 : Z := 0x3fb08b4294d5419b (* 6.46249402391333854778e-02 *).
(** libm/src/math/lgamma_r.rs line 103 *)
Definition rs_lgamma_r_T3 : Z := 0xbfa0c9a8df35b713 (* -3.27885410759859649565e-02 *).
(** libm/src/math/lgamma_r.rs line 104 *)
Definition rs_lgamma_r_T4 : Z := 0x3f9266e7970af9ec (* 1.79706750811820387126e-02 *).
(** libm/src/math/lgamma_r.rs line 105 *)
Definition rs_lgamma_r_T5 : Z := 0xbf851f9fba91ec6a (* -1.03142241298341437450e-02 *).
(** libm/src/math/lgamma_r.rs line 106 *)
Definition rs_lgamma_r_T6 : Z := 0x3f78fce0e370e344 (* 6.10053870246291332635e-03 *).
(** libm/src/math/lgamma_r.rs line 107 *)
Definition rs_lgamma_r_T7 : Z := 0xbf6e2effb3e914d7 (* -3.68452016781138256760e-03 *).
(** libm/src/math/lgamma_r.rs line 108 *)
Definition rs_lgamma_r_T8 : Z := 0x3f6282d32e15c915 (* 2.25964780900612472250e-03 *).
(** libm/src/math/lgamma_r.rs line 109 *)
Definition rs_lgamma_r_T9 : Z := 0xbf56fe8ebf2d1af1 (* -1.40346469989232843813e-03 *).
(** libm/src/math/lgamma_r.rs line 110 *)
Definition rs_lgamma_r_T10 : Z := 0x3f4cdf0cef61a8e9 (* 8.81081882437654011382e-04 *).
(** libm/src/math/lgamma_r.rs line 111 *)
Definition rs_lgamma_r_T11 : Z := 0xbf41a6109c73e0ec (* -5.38595305356740546715e-04 *).
(** libm/src/math/lgamma_r.rs line 112 *)
Definition rs_lgamma_r_T12 : Z := 0x3f34af6d6c0ebbf7 (* 3.15632070903625950361e-04 *).
(** libm/src/math/lgamma_r.rs line 113 *)
Definition rs_lgamma_r_T13 : Z := 0xbf347f24ecc38c38 (* -3.12754168375120860518e-04 *).
(** libm/src/math/lgamma_r.rs line 114 *)
Definition rs_lgamma_r_T14 : Z := 0x3f35fd3ee8c2d3f4 (* 3.35529192635519073543e-04 *).
(** libm/src/math/lgamma_r.rs line 115 *)
Definition rs_lgamma_r_U0 : Z := 0xbfb3c467e37db0c8 (* -7.72156649015328655494e-02 *).
(** libm/src/math/lgamma_r.rs line 116 *)
Definition rs_lgamma_r_U1 : Z := 0x3fe4401e8b005dff (* 6.32827064025093366517e-01 *).
(** libm/src/math/lgamma_r.rs line 117 *)
Definition rs_lgamma_r_U2 : Z := 0x3ff7475cd119bd6f (* 1.45492250137234768737e+00 *).
(** libm/src/math/lgamma_r.rs line 118 *)
Definition rs_lgamma_r_U3 : Z := 0x3fef497644ea8450 (* 9.77717527963372745603e-01 *).
(** libm/src/math/lgamma_r.rs line 119 *)
Definition rs_lgamma_r_U4 : Z := 0x3fcd4eaef6010924 (* 2.28963728064692451092e-01 *).
(** libm/src/math/lgamma_r.rs line 120 *)
Definition rs_lgamma_r_U5 : Z := 0x3f8b678bbf2bab09 (* 1.33810918536787660377e-02 *).
(** libm/src/math/lgamma_r.rs line 121 *)
Definition rs_lgamma_r_V1 : Z := 0x4003a5d7c2bd619c (* 2.45597793713041134822e+00 *).
(** libm/src/math/lgamma_r.rs line 122 *)
Definition rs_lgamma_r_V2 : Z := 0x40010725a42b18f5 (* 2.12848976379893395361e+00 *).
(** libm/src/math/lgamma_r.rs line 123 *)
Definition rs_lgamma_r_V3 : Z := 0x3fe89dfbe45050af (* 7.69285150456672783825e-01 *).
(** libm/src/math/lgamma_r.rs line 124 *)
Definition rs_lgamma_r_V4 : Z := 0x3fbaae55d6537c88 (* 1.04222645593369134254e-01 *).
(** libm/src/math/lgamma_r.rs line 125 *)
Definition rs_lgamma_r_V5 : Z := 0x3f6a5abb57d0cf61 (* 3.21709242282423911810e-03 *).
(** libm/src/math/lgamma_r.rs line 126 *)
Definition rs_lgamma_r_S0 : Z := 0xbfb3c467e37db0c8 (* -7.72156649015328655494e-02 *).
(** libm/src/math/lgamma_r.rs line 127 *)
Definition rs_lgamma_r_S1 : Z := 0x3fcb848b36e20878 (* 2.14982415960608852501e-01 *).
(** libm/src/math/lgamma_r.rs line 128 *)
Definition rs_lgamma_r_S2 : Z := 0x3fd4d98f4f139f59 (* 3.25778796408930981787e-01 *).
(** libm/src/math/lgamma_r.rs line 129 *)
Definition rs_lgamma_r_S3 : Z := 0x3fc2bb9cbee5f2f7 (* 1.46350472652464452805e-01 *).
(** libm/src/math/lgamma_r.rs line 130 *)
Definition rs_lgamma_r_S4 : Z := 0x3f9b481c7e939961 (* 2.66422703033638609560e-02 *).
(** libm/src/math/lgamma_r.rs line 131 *)
Definition rs_lgamma_r_S5 : Z := 0x3f5e26b67368f239 (* 1.84028451407337715652e-03 *).
(** libm/src/math/lgamma_r.rs line 132 *)
Definition rs_lgamma_r_S6 : Z := 0x3f00bfecdd17e945 (* 3.19475326584100867617e-05 *).
(** libm/src/math/lgamma_r.rs line 133 *)
Definition rs_lgamma_r_R1 : Z := 0x3ff645a762c4ab74 (* 1.39200533467621045958e+00 *).
(** libm/src/math/lgamma_r.rs line 134 *)
Definition rs_lgamma_r_R2 : Z := 0x3fe71a1893d3dcdc (* 7.21935547567138069525e-01 *).
(** libm/src/math/lgamma_r.rs line 135 *)
Definition rs_lgamma_r_R3 : Z := 0x3fc601edccfbdf27 (* 1.71933865632803078993e-01 *).
(** libm/src/math/lgamma_r.rs line 136 *)
Definition rs_lgamma_r_R4 : Z := 0x3f9317ea742ed475 (* 1.86459191715652901344e-02 *).
(** libm/src/math/lgamma_r.rs line 137 *)
Definition rs_lgamma_r_R5 : Z := 0x3f497ddaca41a95b (* 7.77942496381893596434e-04 *).
(** libm/src/math/lgamma_r.rs line 138 *)
Definition rs_lgamma_r_R6 : Z := 0x3edebaf7a5b38140 (* 7.32668430744625636189e-06 *).
(** libm/src/math/lgamma_r.rs line 139 *)
Definition rs_lgamma_r_W0 : Z := 0x3fdacfe390c97d69 (* 4.18938533204672725052e-01 *).
(** libm/src/math/lgamma_r.rs line 140 *)
Definition rs_lgamma_r_W1 : Z := 0x3fb555555555553b (* 8.33333333333329678849e-02 *).
(** libm/src/math/lgamma_r.rs line 141 *)
Definition rs_lgamma_r_W2 : Z := 0xbf66c16c16b02e5c (* -2.77777777728775536470e-03 *).
(** libm/src/math/lgamma_r.rs line 142 *)
Definition rs_lgamma_r_W3 : Z := 0x3f4a019f98cf38b6 (* 7.93650558643019558500e-04 *).
(** libm/src/math/lgamma_r.rs line 143 *)
Definition rs_lgamma_r_W4 : Z := 0xbf4380cb8c0fe741 (* -5.95187557450339963135e-04 *).
(** libm/src/math/lgamma_r.rs line 144 *)
Definition rs_lgamma_r_W5 : Z := 0x3f4b67ba4cdad5d1 (* 8.36339918996282139126e-04 *).
(** libm/src/math/lgamma_r.rs line 145 *)
Definition rs_lgamma_r_W6 : Z := 0xbf5ab89d0b9e43e4 (* -1.63092934096575273989e-03 *).
(** [sin_pi], libm/src/math/lgamma_r.rs lines 148-166 *)
Definition rs_lgamma_r_sin_pi (x : Z) : option Z :=
  let* v0 := floor f64 (x *: 0x3fe0000000000000 (* 0.5 *)) in
  let x := 0x4000000000000000 (* 2.0 *) *: ((x *: 0x3fe0000000000000 (* 0.5 *)) -: v0) in
  let n := to_i32 f64 (x *: 0x4010000000000000 (* 4.0 *)) in
  let* v1 := sadd 32 n 1 in
  let n := Z.quot v1 2 in
  let x := x -: ((of_int f64 n) *: 0x3fe0000000000000 (* 0.5 *)) in
  let x := x *: rs_lgamma_r_PI in
  if n =? 1 then Some (rs_k_cos x 0 (* 0.0 *))
  else if n =? 2 then Some (rs_k_sin (fneg f64 x) 0 (* 0.0 *) 0)
  else if n =? 3 then Some (fneg f64 (rs_k_cos x 0 (* 0.0 *)))
  else Some (rs_k_sin x 0 (* 0.0 *) 0).
(** the continuation shared by several branches of [lgamma_r] *)
Definition rs_lgamma_r_1 (x u nadj ix : Z) (sign : bool) (signgam : Z) : option (Z * Z) :=
  let* r :=
    (if ((ix =? 0x3ff00000) || (ix =? 0x40000000)) && ((Z.land u 0xffffffff) =? 0) then
       let r := 0 (* 0.0 *) in
       Some r
     else 
       let* r :=
         (if ix <? 0x40000000 then
            let* (r, y, i) :=
              (if ix <=? 0x3feccccc then
                 let* v6 := rs_log x in
                 let r := fneg f64 v6 in
                 let '(y, i) :=
                   (if 0x3fe76944 <=? ix then
                      let y := 0x3ff0000000000000 (* 1.0 *) -: x in
                      let i := 0 in
                      (y, i)
                    else 
                      let '(y, i) :=
                        (if 0x3fcda661 <=? ix then
                           let y := x -: (rs_lgamma_r_TC -: 0x3ff0000000000000 (* 1.0 *)) in
                           let i := 1 in
                           (y, i)
                         else 
                           let y := x in
                           let i := 2 in
                           (y, i)) in
                      (y, i)) in
                 Some (r, y, i)
               else 
                 let r := 0 (* 0.0 *) in
                 let '(y, i) :=
                   (if 0x3ffbb4c3 <=? ix then
                      let y := 0x4000000000000000 (* 2.0 *) -: x in
                      let i := 0 in
                      (y, i)
                    else 
                      let '(y, i) :=
                        (if 0x3ff3b4c4 <=? ix then
                           let y := x -: rs_lgamma_r_TC in
                           let i := 1 in
                           (y, i)
                         else 
                           let y := x -: 0x3ff0000000000000 (* 1.0 *) in
                           let i := 2 in
                           (y, i)) in
                      (y, i)) in
                 Some (r, y, i)) in
            let* r :=
              (if i =? 0 then
                 let z := y *: y in
                 let p1 := rs_lgamma_r_A0 +: (z *: (rs_lgamma_r_A2 +: (z *: (rs_lgamma_r_A4 +: (z *: (rs_lgamma_r_A6 +: (z *: (rs_lgamma_r_A8 +: (z *: rs_lgamma_r_A10))))))))) in
                 let p2 := z *: (rs_lgamma_r_A1 +: (z *: (rs_lgamma_r_A3 +: (z *: (rs_lgamma_r_A5 +: (z *: (rs_lgamma_r_A7 +: (z *: (rs_lgamma_r_A9 +: (z *: rs_lgamma_r_A11)))))))))) in
                 let p := (y *: p1) +: p2 in
                 let r := r +: (p -: (0x3fe0000000000000 (* 0.5 *) *: y)) in
                 Some r
               else 
                 let* r :=
                   (if i =? 1 then
                      let z := y *: y in
                      let w := z *: y in
                      let p1 := rs_lgamma_r_T0 +: (w *: (rs_lgamma_r_T3 +: (w *: (rs_lgamma_r_T6 +: (w *: (rs_lgamma_r_T9 +: (w *: rs_lgamma_r_T12))))))) in
                      let p2 := rs_lgamma_r_T1 +: (w *: (rs_lgamma_r_T4 +: (w *: (rs_lgamma_r_T7 +: (w *: (rs_lgamma_r_T10 +: (w *: rs_lgamma_r_T13))))))) in
                      let p3 := rs_lgamma_r_T2 +: (w *: (rs_lgamma_r_T5 +: (w *: (rs_lgamma_r_T8 +: (w *: (rs_lgamma_r_T11 +: (w *: rs_lgamma_r_T14))))))) in
                      let p := (z *: p1) -: (rs_lgamma_r_TT -: (w *: (p2 +: (y *: p3)))) in
                      let r := r +: (rs_lgamma_r_TF +: p) in
                      Some r
                    else 
                      let* r :=
                        (if i =? 2 then
                           let p1 := y *: (rs_lgamma_r_U0 +: (y *: (rs_lgamma_r_U1 +: (y *: (rs_lgamma_r_U2 +: (y *: (rs_lgamma_r_U3 +: (y *: (rs_lgamma_r_U4 +: (y *: rs_lgamma_r_U5)))))))))) in
                           let p2 := 0x3ff0000000000000 (* 1.0 *) +: (y *: (rs_lgamma_r_V1 +: (y *: (rs_lgamma_r_V2 +: (y *: (rs_lgamma_r_V3 +: (y *: (rs_lgamma_r_V4 +: (y *: rs_lgamma_r_V5))))))))) in
                           let r := r +: ((0xbfe0000000000000 (* -0.5 *) *: y) +: (p1 /: p2)) in
                           Some r
                         else None) in
                      Some r) in
                 Some r) in
            Some r
          else 
            let* r :=
              (if ix <? 0x40200000 then
                 let i := to_i32 f64 x in
                 let y := x -: (of_int f64 i) in
                 let p := y *: (rs_lgamma_r_S0 +: (y *: (rs_lgamma_r_S1 +: (y *: (rs_lgamma_r_S2 +: (y *: (rs_lgamma_r_S3 +: (y *: (rs_lgamma_r_S4 +: (y *: (rs_lgamma_r_S5 +: (y *: rs_lgamma_r_S6)))))))))))) in
                 let q := 0x3ff0000000000000 (* 1.0 *) +: (y *: (rs_lgamma_r_R1 +: (y *: (rs_lgamma_r_R2 +: (y *: (rs_lgamma_r_R3 +: (y *: (rs_lgamma_r_R4 +: (y *: (rs_lgamma_r_R5 +: (y *: rs_lgamma_r_R6))))))))))) in
                 let r := (0x3fe0000000000000 (* 0.5 *) *: y) +: (p /: q) in
                 let z := 0x3ff0000000000000 (* 1.0 *) in
                 let z :=
                   (if 7 <=? i then
                      let z := z *: (y +: 0x4018000000000000 (* 6.0 *)) in
                      z
                    else z) in
                 let z :=
                   (if 6 <=? i then
                      let z := z *: (y +: 0x4014000000000000 (* 5.0 *)) in
                      z
                    else z) in
                 let z :=
                   (if 5 <=? i then
                      let z := z *: (y +: 0x4010000000000000 (* 4.0 *)) in
                      z
                    else z) in
                 let z :=
                   (if 4 <=? i then
                      let z := z *: (y +: 0x4008000000000000 (* 3.0 *)) in
                      z
                    else z) in
                 let* r :=
                   (if 3 <=? i then
                      let z := z *: (y +: 0x4000000000000000 (* 2.0 *)) in
                      let* v9 := rs_log z in
                      let r := r +: v9 in
                      Some r
                    else Some r) in
                 Some r
               else 
                 let* r :=
                   (if ix <? 0x43900000 then
                      let* t := rs_log x in
                      let z := 0x3ff0000000000000 (* 1.0 *) /: x in
                      let y := z *: z in
                      let w := rs_lgamma_r_W0 +: (z *: (rs_lgamma_r_W1 +: (y *: (rs_lgamma_r_W2 +: (y *: (rs_lgamma_r_W3 +: (y *: (rs_lgamma_r_W4 +: (y *: (rs_lgamma_r_W5 +: (y *: rs_lgamma_r_W6))))))))))) in
                      let r := ((x -: 0x3fe0000000000000 (* 0.5 *)) *: (t -: 0x3ff0000000000000 (* 1.0 *))) +: w in
                      Some r
                    else 
                      let* v12 := rs_log x in
                      let r := x *: (v12 -: 0x3ff0000000000000 (* 1.0 *)) in
                      Some r) in
                 Some r) in
            Some r) in
       Some r) in
  let r :=
    (if sign then
       let r := nadj -: r in
       r
     else r) in
  Some (r, signgam).
(** [lgamma_r], libm/src/math/lgamma_r.rs lines 169-321 *)
Definition rs_lgamma_r (x : Z) : option (Z * Z) :=
  let u := x in
  let signgam := 1 in
  let sign := negb ((Z.shiftr u 63) =? 0) in
  let ix := Z.land (to_u 32 (Z.shiftr u 32)) 0x7fffffff in
  if 0x7ff00000 <=? ix then Some ((x *: x), signgam)
  else if ix <? 0x3b900000 then
    let '(x, signgam) :=
      (if sign then
         let x := fneg f64 x in
         let signgam := -1 in
         (x, signgam)
       else (x, signgam)) in
    let* v0 := rs_log x in
    Some ((fneg f64 v0), signgam)
  else if sign then
    let x := fneg f64 x in
    let* t := rs_lgamma_r_sin_pi x in
    if feq f64 t 0 (* 0.0 *) then Some ((0x3ff0000000000000 (* 1.0 *) /: (x -: x)), signgam)
    else 
      let '(signgam, t) :=
        (if fgt f64 t 0 (* 0.0 *) then
           let signgam := -1 in
           (signgam, t)
         else 
           let t := fneg f64 t in
           (signgam, t)) in
      let* nadj := rs_log (rs_lgamma_r_PI /: (t *: x)) in
      rs_lgamma_r_1 x u nadj ix sign signgam
  else 
    let nadj := 0 (* 0.0 *) in
    rs_lgamma_r_1 x u nadj ix sign signgam.

(** * lgamma.rs *)
(** [lgamma], libm/src/math/lgamma.rs lines 6-8 *)
Definition rs_lgamma (x : Z) : option Z :=
  let* v0 := rs_lgamma_r x in
  Some (fst v0).

(** * tgamma.rs *)
(** libm/src/math/tgamma.rs line 27 *)
Definition rs_tgamma_PI : Z := 0x400921fb54442d18 (* 3.141592653589793238462643383279502884 *).
(** libm/src/math/tgamma.rs line 53 *)
Definition rs_tgamma_N : Z := 12.
(** libm/src/math/tgamma.rs line 55 *)
Definition rs_tgamma_GMHALF : Z := 0x40161945b9800000 (* 5.524680040776729583740234375 *).
(** libm/src/math/tgamma.rs lines 56-70 *)
Definition rs_tgamma_SNUM : list Z :=
  [0x4215ea5143c1a49e (* 23531376880.410759688572007674451636754734846804940 *);
   0x4223fc7075f54c57 (* 42919803642.649098768957899047001988850926355848959 *);
   0x4220a132818ab61a (* 35711959237.355668049440185451547166705960488635843 *);
   0x4210b0b522e8261a (* 17921034426.037209699919755754458931112671403265390 *);
   0x41f67fc1b3a5a1e8 (* 6039542586.3520280050642916443072979210699388420708 *);
   0x41d57418f5d3f33f (* 1439720407.3117216736632230727949123939715485786772 *);
   0x41adab0c7bb95f2a (* 248874557.86205415651146038641322942321632125127801 *);
   0x417df876f95dcc98 (* 31426415.585400194380614231628318205362874684987640 *);
   0x4145f1e95080f44c (* 2876370.6289353724412254090516208496135991145378768 *);
   0x4106b6421f8787eb (* 186056.26539522349504029498971604569928220784236328 *);
   0x40bf87ac0858d804 (* 8071.6720023658162106380029022722506138218516325024 *);
   0x406a5a607bbc3b52 (* 210.82427775157934587250973392071336271166969580291 *);
   0x40040d931ff62705 (* 2.5066282746310002701649081771338373386264310793408 *)].
(** libm/src/math/tgamma.rs lines 71-85 *)
Definition rs_tgamma_SDEN : list Z :=
  [0 (* 0.0 *);
   0x418308a800000000 (* 39916800.0 *);
   0x419cbd6980000000 (* 120543840.0 *);
   0x41a1fda6b0000000 (* 150917976.0 *);
   0x4199187170000000 (* 105258076.0 *);
   0x4185eeb690000000 (* 45995730.0 *);
   0x41697171e0000000 (* 13339535.0 *);
   0x41441f7b00000000 (* 2637558.0 *);
   0x4115d0bc00000000 (* 357423.0 *);
   0x40dfe78000000000 (* 32670.0 *);
   0x409e140000000000 (* 1925.0 *);
   0x4050800000000000 (* 66.0 *);
   0x3ff0000000000000 (* 1.0 *)].
(** libm/src/math/tgamma.rs lines 87-111 *)
Definition rs_tgamma_FACT : list Z :=
  [0x3ff0000000000000 (* 1.0 *);
   0x3ff0000000000000 (* 1.0 *);
   0x4000000000000000 (* 2.0 *);
   0x4018000000000000 (* 6.0 *);
   0x4038000000000000 (* 24.0 *);
   0x405e000000000000 (* 120.0 *);
   0x4086800000000000 (* 720.0 *);
   0x40b3b00000000000 (* 5040.0 *);
   0x40e3b00000000000 (* 40320.0 *);
   0x4116260000000000 (* 362880.0 *);
   0x414baf8000000000 (* 3628800.0 *);
   0x418308a800000000 (* 39916800.0 *);
   0x41bc8cfc00000000 (* 479001600.0 *);
   0x41f7328cc0000000 (* 6227020800.0 *);
   0x42344c3b28000000 (* 87178291200.0 *);
   0x4273077775800000 (* 1307674368000.0 *);
   0x42b3077775800000 (* 20922789888000.0 *);
   0x42f437eeecd80000 (* 355687428096000.0 *);
   0x4336beecca730000 (* 6402373705728000.0 *);
   0x437b02b930689000 (* 121645100408832000.0 *);
   0x43c0e1b3be415a00 (* 2432902008176640000.0 *);
   0x4406283be9b5c620 (* 51090942171709440000.0 *);
   0x444e77526159f06c (* 1124000727777607680000.0 *)].
(** [sinpi], libm/src/math/tgamma.rs lines 30-51 *)
Definition rs_tgamma_sinpi (x : Z) : option Z :=
  let x := x *: 0x3fe0000000000000 (* 0.5 *) in
  let* v0 := floor f64 x in
  let x := 0x4000000000000000 (* 2.0 *) *: (x -: v0) in
  let n := to_isize f64 (0x4010000000000000 (* 4.0 *) *: x) in
  let* v1 := sadd 64 n 1 in
  let n := Z.quot v1 2 in
  let x := x -: ((of_int f64 n) *: 0x3fe0000000000000 (* 0.5 *)) in
  let x := x *: rs_tgamma_PI in
  if n =? 1 then Some (rs_k_cos x 0 (* 0.0 *))
  else if n =? 2 then Some (rs_k_sin (fneg f64 x) 0 (* 0.0 *) 0)
  else if n =? 3 then Some (fneg f64 (rs_k_cos x 0 (* 0.0 *)))
  else Some (rs_k_sin x 0 (* 0.0 *) 0).
(** [s], libm/src/math/tgamma.rs lines 114-131 *)
Definition rs_tgamma_s (x : Z) : Z :=
  let num := 0 (* 0.0 *) in
  let den := 0 (* 0.0 *) in
  let '(num, den) :=
    (if flt f64 x 0x4020000000000000 (* 8.0 *) then
       let num := (num *: x) +: (nth 12 rs_tgamma_SNUM 0) in
       let den := (den *: x) +: (nth 12 rs_tgamma_SDEN 0) in
       let num := (num *: x) +: (nth 11 rs_tgamma_SNUM 0) in
       let den := (den *: x) +: (nth 11 rs_tgamma_SDEN 0) in
       let num := (num *: x) +: (nth 10 rs_tgamma_SNUM 0) in
       let den := (den *: x) +: (nth 10 rs_tgamma_SDEN 0) in
       let num := (num *: x) +: (nth 9 rs_tgamma_SNUM 0) in
       let den := (den *: x) +: (nth 9 rs_tgamma_SDEN 0) in
       let num := (num *: x) +: (nth 8 rs_tgamma_SNUM 0) in
       let den := (den *: x) +: (nth 8 rs_tgamma_SDEN 0) in
       let num := (num *: x) +: (nth 7 rs_tgamma_SNUM 0) in
       let den := (den *: x) +: (nth 7 rs_tgamma_SDEN 0) in
       let num := (num *: x) +: (nth 6 rs_tgamma_SNUM 0) in
       let den := (den *: x) +: (nth 6 rs_tgamma_SDEN 0) in
       let num := (num *: x) +: (nth 5 rs_tgamma_SNUM 0) in
       let den := (den *: x) +: (nth 5 rs_tgamma_SDEN 0) in
       let num := (num *: x) +: (nth 4 rs_tgamma_SNUM 0) in
       let den := (den *: x) +: (nth 4 rs_tgamma_SDEN 0) in
       let num := (num *: x) +: (nth 3 rs_tgamma_SNUM 0) in
       let den := (den *: x) +: (nth 3 rs_tgamma_SDEN 0) in
       let num := (num *: x) +: (nth 2 rs_tgamma_SNUM 0) in
       let den := (den *: x) +: (nth 2 rs_tgamma_SDEN 0) in
       let num := (num *: x) +: (nth 1 rs_tgamma_SNUM 0) in
       let den := (den *: x) +: (nth 1 rs_tgamma_SDEN 0) in
       let num := (num *: x) +: (nth 0 rs_tgamma_SNUM 0) in
       let den := (den *: x) +: (nth 0 rs_tgamma_SDEN 0) in
       (num, den)
     else 
       let num := (num /: x) +: (nth 0 rs_tgamma_SNUM 0) in
       let den := (den /: x) +: (nth 0 rs_tgamma_SDEN 0) in
       let num := (num /: x) +: (nth 1 rs_tgamma_SNUM 0) in
       let den := (den /: x) +: (nth 1 rs_tgamma_SDEN 0) in
       let num := (num /: x) +: (nth 2 rs_tgamma_SNUM 0) in
       let den := (den /: x) +: (nth 2 rs_tgamma_SDEN 0) in
       let num := (num /: x) +: (nth 3 rs_tgamma_SNUM 0) in
       let den := (den /: x) +: (nth 3 rs_tgamma_SDEN 0) in
       let num := (num /: x) +: (nth 4 rs_tgamma_SNUM 0) in
       let den := (den /: x) +: (nth 4 rs_tgamma_SDEN 0) in
       let num := (num /: x) +: (nth 5 rs_tgamma_SNUM 0) in
       let den := (den /: x) +: (nth 5 rs_tgamma_SDEN 0) in
       let num := (num /: x) +: (nth 6 rs_tgamma_SNUM 0) in
       let den := (den /: x) +: (nth 6 rs_tgamma_SDEN 0) in
       let num := (num /: x) +: (nth 7 rs_tgamma_SNUM 0) in
       let den := (den /: x) +: (nth 7 rs_tgamma_SDEN 0) in
       let num := (num /: x) +: (nth 8 rs_tgamma_SNUM 0) in
       let den := (den /: x) +: (nth 8 rs_tgamma_SDEN 0) in
       let num := (num /: x) +: (nth 9 rs_tgamma_SNUM 0) in
       let den := (den /: x) +: (nth 9 rs_tgamma_SDEN 0) in
       let num := (num /: x) +: (nth 10 rs_tgamma_SNUM 0) in
       let den := (den /: x) +: (nth 10 rs_tgamma_SDEN 0) in
       let num := (num /: x) +: (nth 11 rs_tgamma_SNUM 0) in
       let den := (den /: x) +: (nth 11 rs_tgamma_SDEN 0) in
       let num := (num /: x) +: (nth 12 rs_tgamma_SNUM 0) in
       let den := (den /: x) +: (nth 12 rs_tgamma_SDEN 0) in
       (num, den)) in
  (num /: den).
(** the continuation shared by several branches of [tgamma] *)
Definition rs_tgamma_1 (x ix : Z) (sign : bool) : option Z :=
  if 0x40670000 <=? ix then
    if sign then
      let x1p_126 := 0x3810000000000000 in
      let* v3 := floor f64 x in
      let* v4 := floor f64 (x *: 0x3fe0000000000000 (* 0.5 *)) in
      if feq f64 (v3 *: 0x3fe0000000000000 (* 0.5 *)) v4 then Some 0 (* 0.0 *)
      else Some (fneg f64 0 (* 0.0 *))
    else 
      let x1p1023 := 0x7fe0000000000000 in
      let x := x *: x1p1023 in
      Some x
  else 
    let absx :=
      (if sign then (fneg f64 x)
       else x) in
    let y := absx +: rs_tgamma_GMHALF in
    let dy :=
      (if fgt f64 absx rs_tgamma_GMHALF then
         let dy := y -: absx in
         let dy := dy -: rs_tgamma_GMHALF in
         dy
       else 
         let dy := y -: rs_tgamma_GMHALF in
         let dy := dy -: absx in
         dy) in
    let z := absx -: 0x3fe0000000000000 (* 0.5 *) in
    let* v5 := rs_exp (fneg f64 y) in
    let r := (rs_tgamma_s absx) *: v5 in
    let* (r, dy, z) :=
      (if flt f64 x 0 (* 0.0 *) then
         let* v7 := rs_tgamma_sinpi absx in
         let r := (fneg f64 rs_tgamma_PI) /: ((v7 *: absx) *: r) in
         let dy := fneg f64 dy in
         let z := fneg f64 z in
         Some (r, dy, z)
       else Some (r, dy, z)) in
    let r := r +: (((dy *: (rs_tgamma_GMHALF +: 0x3fe0000000000000 (* 0.5 *))) *: r) /: y) in
    let* z := rs_pow y (0x3fe0000000000000 (* 0.5 *) *: z) in
    let y := (r *: z) *: z in
    Some y.
(** [tgamma], libm/src/math/tgamma.rs lines 135-209 *)
Definition rs_tgamma (x : Z) : option Z :=
  let u := x in
  let ix := Z.land (to_u 32 (Z.shiftr u 32)) 0x7fffffff in
  let sign := negb ((Z.shiftr u 63) =? 0) in
  if 0x7ff00000 <=? ix then Some (x +: 0x7ff0000000000000 (* INFINITY *))
  else if ix <? 0x3c900000 then Some (0x3ff0000000000000 (* 1.0 *) /: x)
  else 
    let* v0 := floor f64 x in
    if feq f64 x v0 then
      if sign then Some (0 (* 0.0 *) /: 0 (* 0.0 *))
      else if fle f64 x (of_int f64 (Z.of_nat (length rs_tgamma_FACT))) then
        let* v1 := usub 64 (to_u64 f64 x) 1 in
        tab_get rs_tgamma_FACT v1
      else rs_tgamma_1 x ix sign
    else rs_tgamma_1 x ix sign.

(** * tgammaf.rs *)
(** [tgammaf], libm/src/math/tgammaf.rs lines 5-7 *)
Definition rs_tgammaf (x : Z) : option Z :=
  let* v0 := rs_tgamma (fcvt f32 f64 x) in
  Some (fcvt f64 f32 v0).

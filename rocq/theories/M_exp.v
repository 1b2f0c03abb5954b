(** Generated by tools/rs2v.py from the Rust sources named in the comments.  [rs_f] is the Rust function [f];
    constants and private functions carry the name of their file.  See DESIGN.md for the reading of Rust. *)
From Coq Require Import ZArith Bool List.
From Verif Require Import Base Spec Format Ieee M_basic M_bits M_scalbn M_fma M_sqrt M_elib.
Import ListNotations.
Open Scope Z_scope.
Open Scope fl_scope.

(** * expf.rs *)
(** libm/src/math/expf.rs line 18 *)
Definition rs_expf_HALF : list Z :=
  [0x3f000000 (* 0.5 *);
   0xbf000000 (* -0.5 *)].
(** libm/src/math/expf.rs line 19 *)
Definition rs_expf_LN2_HI : Z := 0x3f317200 (* 6.9314575195e-01 *).
(** libm/src/math/expf.rs line 20 *)
Definition rs_expf_LN2_LO : Z := 0x35bfbe8e (* 1.4286067653e-06 *).
(** libm/src/math/expf.rs line 21 *)
Definition rs_expf_INV_LN2 : Z := 0x3fb8aa3b (* 1.4426950216e+00 *).
(** libm/src/math/expf.rs line 26 *)
Definition rs_expf_P1 : Z := 0x3e2aaa8f (* 1.6666625440e-1 *).
(** libm/src/math/expf.rs line 27 *)
Definition rs_expf_P2 : Z := 0xbb355215 (* -2.7667332906e-3 *).
(** the continuation shared by several branches of [expf] *)
Definition rs_expf_2 (x k hi lo : Z) : option Z :=
  let xx := x *' x in
  let c := x -' (xx *' (rs_expf_P1 +' (xx *' rs_expf_P2))) in
  let y := 0x3f800000 (* 1.0 *) +' ((((x *' c) /' (0x40000000 (* 2.0 *) -' c)) -' lo) +' hi) in
  if k =? 0 then Some y
  else scalbn f32 y k.
(** the continuation shared by several branches of [expf] *)
Definition rs_expf_1 (x x1p127 hx sign : Z) : option Z :=
  if 0x3eb17218 <? hx then
    let* k :=
      (if 0x3f851592 <? hx then
         let* v1 := tab_get rs_expf_HALF (to_u 64 sign) in
         let k := to_i32 f32 ((rs_expf_INV_LN2 *' x) +' v1) in
         Some k
       else 
         let* v2 := ssub 32 1 sign in
         ssub 32 v2 sign) in
    let kf := of_int f32 k in
    let hi := x -' (kf *' rs_expf_LN2_HI) in
    let lo := kf *' rs_expf_LN2_LO in
    let x := hi -' lo in
    rs_expf_2 x k hi lo
  else if 0x39000000 <? hx then
    let k := 0 in
    let hi := x in
    let lo := 0 (* 0.0 *) in
    rs_expf_2 x k hi lo
  else Some (0x3f800000 (* 1.0 *) +' x).
(** [expf], libm/src/math/expf.rs lines 34-97 *)
Definition rs_expf (x : Z) : option Z :=
  let x1p127 := 0x7f000000 in
  let x1p_126 := 0x800000 in
  let hx := x in
  let sign := to_i 32 (Z.shiftr hx 31) in
  let signb := negb (sign =? 0) in
  let hx := Z.land hx 0x7fffffff in
  if 0x42aeac50 <=? hx then
    if 0x7f800000 <? hx then Some x
    else if (0x42b17218 <=? hx) && (negb signb) then
      let x := x *' x1p127 in
      Some x
    else if signb then
      if 0x42cff1b5 <=? hx then Some 0 (* 0.0 *)
      else rs_expf_1 x x1p127 hx sign
    else rs_expf_1 x x1p127 hx sign
  else rs_expf_1 x x1p127 hx sign.

(** * exp2f.rs *)
(** libm/src/math/exp2f.rs line 27 *)
Definition rs_exp2f_TBLSIZE : Z := 16.
(** libm/src/math/exp2f.rs lines 29-46 *)
Definition rs_exp2f_EXP2FT : list Z :=
  [0x3fe6a09e667f3bcd;
   0x3fe7a11473eb0187;
   0x3fe8ace5422aa0db;
   0x3fe9c49182a3f090;
   0x3feae89f995ad3ad;
   0x3fec199bdd85529c;
   0x3fed5818dcfba487;
   0x3feea4afa2a490da;
   0x3ff0000000000000;
   0x3ff0b5586cf9890f;
   0x3ff172b83c7d517b;
   0x3ff2387a6e756238;
   0x3ff306fe0a31b715;
   0x3ff3dea64c123422;
   0x3ff4bfdad5362a27;
   0x3ff5ab07dd485429].
(** the continuation shared by several branches of [exp2f] *)
Definition rs_exp2f_1 (x redux p1 p2 p3 p4 : Z) : option Z :=
  let ui_1 := x +' redux in
  let i0 := ui_1 in
  let* i0 := uadd 32 i0 8 in
  let k := i0 / 16 in
  let* v1 := uadd 32 1023 k in
  let ukf := shlu 64 v1 52 in
  let i0 := Z.land i0 15 in
  let uf := ui_1 in
  let uf := uf -' redux in
  let z := fcvt f32 f64 (x -' uf) in
  let* r := tab_get rs_exp2f_EXP2FT i0 in
  let t := r *: z in
  let r_1 := (r +: (t *: ((fcvt f32 f64 p1) +: (z *: (fcvt f32 f64 p2))))) +: ((t *: (z *: z)) *: ((fcvt f32 f64 p3) +: (z *: (fcvt f32 f64 p4)))) in
  Some (fcvt f64 f32 (r_1 *: ukf)).
(** [exp2f], libm/src/math/exp2f.rs lines 77-135 *)
Definition rs_exp2f (x : Z) : option Z :=
  let redux := 0x4b400000 /' (of_int f32 rs_exp2f_TBLSIZE) in
  let p1 := 0x3f317218 in
  let p2 := 0x3e75fdf0 in
  let p3 := 0x3d6359a4 in
  let p4 := 0x3c1d964e in
  let x1p127 := 0x7f000000 in
  let ui := x in
  let ix := Z.land ui 0x7fffffff in
  if 0x42fc0000 <? ix then
    if 0x7f800000 <? ix then Some x
    else if (0x43000000 <=? ui) && (ui <? 0x80000000) then
      let x := x *' x1p127 in
      Some x
    else if 0x80000000 <=? ui then
      if 0xc3160000 <=? ui then Some 0 (* 0.0 *)
      else rs_exp2f_1 x redux p1 p2 p3 p4
    else rs_exp2f_1 x redux p1 p2 p3 p4
  else if ix <=? 0x33000000 then Some (0x3f800000 (* 1.0 *) +' x)
  else rs_exp2f_1 x redux p1 p2 p3 p4.

(** * expm1f.rs *)
(** libm/src/math/expm1f.rs line 16 *)
Definition rs_expm1f_O_THRESHOLD : Z := 0x42b17180 (* 8.8721679688e+01 *).
(** libm/src/math/expm1f.rs line 17 *)
Definition rs_expm1f_LN2_HI : Z := 0x3f317180 (* 6.9313812256e-01 *).
(** libm/src/math/expm1f.rs line 18 *)
Definition rs_expm1f_LN2_LO : Z := 0x3717f7d1 (* 9.0580006145e-06 *).
(** libm/src/math/expm1f.rs line 19 *)
Definition rs_expm1f_INV_LN2 : Z := 0x3fb8aa3b (* 1.4426950216e+00 *).
(** libm/src/math/expm1f.rs line 25 *)
Definition rs_expm1f_Q1 : Z := 0xbd088868 (* -3.3333212137e-2 *).
(** libm/src/math/expm1f.rs line 26 *)
Definition rs_expm1f_Q2 : Z := 0x3acf3010 (* 1.5807170421e-3 *).
(** the continuation shared by several branches of [expm1f] *)
Definition rs_expm1f_2 (x x1p127 k c : Z) : option Z :=
  let hfx := 0x3f000000 (* 0.5 *) *' x in
  let hxs := x *' hfx in
  let r1 := 0x3f800000 (* 1.0 *) +' (hxs *' (rs_expm1f_Q1 +' (hxs *' rs_expm1f_Q2))) in
  let t_1 := 0x40400000 (* 3.0 *) -' (r1 *' hfx) in
  let e_ := hxs *' ((r1 -' t_1) /' (0x40c00000 (* 6.0 *) -' (x *' t_1))) in
  if k =? 0 then Some (x -' ((x *' e_) -' hxs))
  else 
    let e_ := (x *' (e_ -' c)) -' c in
    let e_ := e_ -' hxs in
    if k =? (-1) then
      Some ((0x3f000000 (* 0.5 *) *' (x -' e_)) -' 0x3f000000 (* 0.5 *))
    else if k =? 1 then
      if flt f32 x 0xbe800000 (* -0.25 *) then
        Some (0xc0000000 (* -2.0 *) *' (e_ -' (x +' 0x3f000000 (* 0.5 *))))
      else Some (0x3f800000 (* 1.0 *) +' (0x40000000 (* 2.0 *) *' (x -' e_)))
    else 
      let* v0 := sadd 32 127 k in
      let twopk := to_u 32 (shli 32 v0 23) in
      if negb ((0 <=? k) && (k <=? 56)) then
        let y := (x -' e_) +' 0x3f800000 (* 1.0 *) in
        let y :=
          (if k =? 128 then
             let y := (y *' 0x40000000 (* 2.0 *)) *' x1p127 in
             y
           else 
             let y := y *' twopk in
             y) in
        Some (y -' 0x3f800000 (* 1.0 *))
      else 
        let* v1 := ssub 32 127 k in
        let uf := to_u 32 (shli 32 v1 23) in
        if k <? 23 then Some (((x -' e_) +' (0x3f800000 (* 1.0 *) -' uf)) *' twopk)
        else Some (((x -' (e_ +' uf)) +' 0x3f800000 (* 1.0 *)) *' twopk).
(** the continuation shared by several branches of [expm1f] *)
Definition rs_expm1f_1 (x x1p127 hx : Z) (sign : bool) : option Z :=
  let c := 0 (* 0 *) in
  if 0x3eb17218 <? hx then
    let '(hi, lo, k) :=
      (if hx <? 0x3f851592 then
         let '(hi, lo, k) :=
           (if negb sign then
              let hi := x -' rs_expm1f_LN2_HI in
              let lo := rs_expm1f_LN2_LO in
              let k := 1 in
              (hi, lo, k)
            else 
              let hi := x +' rs_expm1f_LN2_HI in
              let lo := fneg f32 rs_expm1f_LN2_LO in
              let k := -1 in
              (hi, lo, k)) in
         (hi, lo, k)
       else 
         let k := to_i32 f32 ((rs_expm1f_INV_LN2 *' x) +' (if sign then 0xbf000000 (* -0.5 *) else 0x3f000000 (* 0.5 *))) in
         let t := of_int f32 k in
         let hi := x -' (t *' rs_expm1f_LN2_HI) in
         let lo := t *' rs_expm1f_LN2_LO in
         (hi, lo, k)) in
    let x := hi -' lo in
    let c := (hi -' x) -' lo in
    rs_expm1f_2 x x1p127 k c
  else if hx <? 0x33000000 then Some x
  else 
    let k := 0 in
    rs_expm1f_2 x x1p127 k c.
(** [expm1f], libm/src/math/expm1f.rs lines 36-130 *)
Definition rs_expm1f (x : Z) : option Z :=
  let x1p127 := 0x7f000000 in
  let hx := x in
  let sign := negb ((Z.shiftr hx 31) =? 0) in
  let hx := Z.land hx 0x7fffffff in
  if 0x4195b844 <=? hx then
    if 0x7f800000 <? hx then Some x
    else if sign then Some 0xbf800000 (* -1.0 *)
    else if fgt f32 x rs_expm1f_O_THRESHOLD then
      let x := x *' x1p127 in
      Some x
    else rs_expm1f_1 x x1p127 hx sign
  else rs_expm1f_1 x x1p127 hx sign.

(** * exp.rs *)
(** libm/src/math/exp.rs line 70 *)
Definition rs_exp_HALF : list Z :=
  [0x3fe0000000000000 (* 0.5 *);
   0xbfe0000000000000 (* -0.5 *)].
(** libm/src/math/exp.rs line 71 *)
Definition rs_exp_LN2HI : Z := 0x3fe62e42fee00000 (* 6.93147180369123816490e-01 *).
(** libm/src/math/exp.rs line 72 *)
Definition rs_exp_LN2LO : Z := 0x3dea39ef35793c76 (* 1.90821492927058770002e-10 *).
(** libm/src/math/exp.rs line 73 *)
Definition rs_exp_INVLN2 : Z := 0x3ff71547652b82fe (* 1.44269504088896338700e+00 *).
(** libm/src/math/exp.rs line 74 *)
Definition rs_exp_P1 : Z := 0x3fc555555555553e (* 1.66666666666666019037e-01 *).
(** libm/src/math/exp.rs line 75 *)
Definition rs_exp_P2 : Z := 0xbf66c16c16bebd93 (* -2.77777777770155933842e-03 *).
(** libm/src/math/exp.rs line 76 *)
Definition rs_exp_P3 : Z := 0x3f11566aaf25de2c (* 6.61375632143793436117e-05 *).
(** libm/src/math/exp.rs line 77 *)
Definition rs_exp_P4 : Z := 0xbebbbd41c5d26bf1 (* -1.65339022054652515390e-06 *).
(** libm/src/math/exp.rs line 78 *)
Definition rs_exp_P5 : Z := 0x3e66376972bea4d0 (* 4.13813679705723846039e-08 *).
(** the continuation shared by several branches of [exp] *)
Definition rs_exp_2 (x hi lo k : Z) : option Z :=
  let xx := x *: x in
  let c := x -: (xx *: (rs_exp_P1 +: (xx *: (rs_exp_P2 +: (xx *: (rs_exp_P3 +: (xx *: (rs_exp_P4 +: (xx *: rs_exp_P5))))))))) in
  let y := 0x3ff0000000000000 (* 1.0 *) +: ((((x *: c) /: (0x4000000000000000 (* 2.0 *) -: c)) -: lo) +: hi) in
  if k =? 0 then Some y
  else scalbn f64 y k.
(** the continuation shared by several branches of [exp] *)
Definition rs_exp_1 (x x1p1023 sign hx : Z) : option Z :=
  if 0x3fd62e42 <? hx then
    let* k :=
      (if 0x3ff0a2b2 <=? hx then
         let* v1 := tab_get rs_exp_HALF (to_u 64 sign) in
         let k := to_i32 f64 ((rs_exp_INVLN2 *: x) +: v1) in
         Some k
       else 
         let* v2 := ssub 32 1 sign in
         ssub 32 v2 sign) in
    let hi := x -: ((of_int f64 k) *: rs_exp_LN2HI) in
    let lo := (of_int f64 k) *: rs_exp_LN2LO in
    let x := hi -: lo in
    rs_exp_2 x hi lo k
  else if 0x3e300000 <? hx then
    let k := 0 in
    let hi := x in
    let lo := 0 (* 0.0 *) in
    rs_exp_2 x hi lo k
  else Some (0x3ff0000000000000 (* 1.0 *) +: x).
(** [exp], libm/src/math/exp.rs lines 85-150 *)
Definition rs_exp (x : Z) : option Z :=
  let x1p1023 := 0x7fe0000000000000 in
  let x1p_149 := 0x36a0000000000000 in
  let hx := to_u 32 (Z.shiftr x 32) in
  let sign := to_i 32 (Z.shiftr hx 31) in
  let hx := Z.land hx 0x7fffffff in
  if 0x4086232b <=? hx then
    if is_nan f64 x then Some x
    else if fgt f64 x 0x40862e42fefa39ef (* 709.782712893383973096 *) then
      let x := x *: x1p1023 in
      Some x
    else if flt f64 x 0xc086232bdd7abcd2 (* -708.39641853226410622 *) then
      if flt f64 x 0xc0874910d52d3051 (* -745.13321910194110842 *) then Some 0 (* 0.0 *)
      else rs_exp_1 x x1p1023 sign hx
    else rs_exp_1 x x1p1023 sign hx
  else rs_exp_1 x x1p1023 sign hx.

(** * exp2.rs *)
(** libm/src/math/exp2.rs line 29 *)
Definition rs_exp2_TBLSIZE : Z := 256.
(** libm/src/math/exp2.rs lines 32-290 *)
Definition rs_exp2_TBL : list Z :=
  [0x3fe6a09e667f3d5d;
   0x3d39880000000000;
   0x3fe6b052fa751744;
   0x3cd8000000000000;
   0x3fe6c012750bd9fe;
   0xbd28780000000000;
   0x3fe6cfdcddd476bf;
   0x3d1ec00000000000;
   0x3fe6dfb23c651a29;
   0xbcd8000000000000;
   0x3fe6ef9298593ae3;
   0xbcbc000000000000;
   0x3fe6ff7df9519386;
   0xbd2fd80000000000;
   0x3fe70f7466f42da3;
   0xbd2c880000000000;
   0x3fe71f75e8ec5fc3;
   0x3d13c00000000000;
   0x3fe72f8286eacf05;
   0xbd38300000000000;
   0x3fe73f9a48a58152;
   0xbd00c00000000000;
   0x3fe74fbd35d7ccfc;
   0x3d2f880000000000;
   0x3fe75feb564267f1;
   0x3d03e00000000000;
   0x3fe77024b1ab6d48;
   0xbd27d00000000000;
   0x3fe780694fde5d38;
   0xbcdd000000000000;
   0x3fe790b938ac1d00;
   0x3ce3000000000000;
   0x3fe7a11473eb0178;
   0xbced000000000000;
   0x3fe7b17b0976d060;
   0x3d20400000000000;
   0x3fe7c1ed0130c133;
   0x3ca0000000000000;
   0x3fe7d26a62ff8636;
   0xbd26900000000000;
   0x3fe7e2f336cf4e3b;
   0xbd02e00000000000;
   0x3fe7f3878491c3e8;
   0xbd24580000000000;
   0x3fe80427543e1b4e;
   0x3d33000000000000;
   0x3fe814d2add1071a;
   0x3d0f000000000000;
   0x3fe82589994ccd7e;
   0xbd21c00000000000;
   0x3fe8364c1eb942d0;
   0x3d29d00000000000;
   0x3fe8471a4623cab5;
   0x3d47100000000000;
   0x3fe857f4179f5bbc;
   0x3d22600000000000;
   0x3fe868d99b4491af;
   0xbd32c40000000000;
   0x3fe879cad931a395;
   0xbd23000000000000;
   0x3fe88ac7d98a65b8;
   0xbd2a800000000000;
   0x3fe89bd0a4785800;
   0xbced000000000000;
   0x3fe8ace5422aa223;
   0x3d33280000000000;
   0x3fe8be05bad619fa;
   0x3d42b40000000000;
   0x3fe8cf3216b54383;
   0xbd2ed00000000000;
   0x3fe8e06a5e08664c;
   0xbd20500000000000;
   0x3fe8f1ae99157807;
   0x3d28280000000000;
   0x3fe902fed0282c0e;
   0xbd1cb00000000000;
   0x3fe9145b0b91ff96;
   0xbd05e00000000000;
   0x3fe925c353aa2ff9;
   0x3cf5400000000000;
   0x3fe93737b0cdc64a;
   0x3d17200000000000;
   0x3fe948b82b5f98ae;
   0xbd09000000000000;
   0x3fe95a44cbc852cb;
   0x3d25680000000000;
   0x3fe96bdd9a766f21;
   0xbd36d00000000000;
   0x3fe97d829fde4e2a;
   0xbd01000000000000;
   0x3fe98f33e47a23a3;
   0x3d2d000000000000;
   0x3fe9a0f170ca0604;
   0xbd38a40000000000;
   0x3fe9b2bb4d53ff89;
   0x3d355c0000000000;
   0x3fe9c49182a3f15b;
   0x3d26b80000000000;
   0x3fe9d674194bb8c5;
   0xbcec000000000000;
   0x3fe9e86319e3238e;
   0x3d17d00000000000;
   0x3fe9fa5e8d07f302;
   0x3d16400000000000;
   0x3fea0c667b5de54d;
   0xbcf5000000000000;
   0x3fea1e7aed8eb8f6;
   0x3d09e00000000000;
   0x3fea309bec4a2e27;
   0x3d2ad80000000000;
   0x3fea42c980460a5d;
   0xbd1af00000000000;
   0x3fea5503b23e259b;
   0x3d0b600000000000;
   0x3fea674a8af46213;
   0x3d38880000000000;
   0x3fea799e1330b3a7;
   0x3d11200000000000;
   0x3fea8bfe53c12e8d;
   0x3d06c00000000000;
   0x3fea9e6b5579fcd2;
   0xbd29b80000000000;
   0x3feab0e521356fb8;
   0x3d2b700000000000;
   0x3feac36bbfd3f381;
   0x3cd9000000000000;
   0x3fead5ff3a3c2780;
   0x3ce4000000000000;
   0x3feae89f995ad2a3;
   0xbd2c900000000000;
   0x3feafb4ce622f367;
   0x3d16500000000000;
   0x3feb0e07298db790;
   0x3d2fd40000000000;
   0x3feb20ce6c9a89a9;
   0x3d12700000000000;
   0x3feb33a2b84f1a4b;
   0x3d4d470000000000;
   0x3feb468415b747e7;
   0xbd38380000000000;
   0x3feb59728de5593a;
   0x3c98000000000000;
   0x3feb6c6e29f1c56a;
   0x3d0ad00000000000;
   0x3feb7f76f2fb5e50;
   0x3cde800000000000;
   0x3feb928cf22749b2;
   0xbd04c00000000000;
   0x3feba5b030a10603;
   0xbd0d700000000000;
   0x3febb8e0b79a6f66;
   0x3d0d900000000000;
   0x3febcc1e904bc1ff;
   0x3d02a00000000000;
   0x3febdf69c3f3a16f;
   0xbd1f780000000000;
   0x3febf2c25bd71db8;
   0xbd10a00000000000;
   0x3fec06286141b2e9;
   0xbd11400000000000;
   0x3fec199bdd8552e0;
   0x3d0be00000000000;
   0x3fec2d1cd9fa64ee;
   0xbd09400000000000;
   0x3fec40ab5fffd02f;
   0xbd0ed00000000000;
   0x3fec544778fafd15;
   0x3d39660000000000;
   0x3fec67f12e57d0cb;
   0xbd1a100000000000;
   0x3fec7ba88988c1b6;
   0xbd58458000000000;
   0x3fec8f6d9406e733;
   0xbd1a480000000000;
   0x3feca3405751c4df;
   0x3ccb000000000000;
   0x3fecb720dcef9094;
   0x3d01400000000000;
   0x3feccb0f2e6d1689;
   0x3cf0200000000000;
   0x3fecdf0b555dc412;
   0x3cf3600000000000;
   0x3fecf3155b5bab3b;
   0xbd06900000000000;
   0x3fed072d4a0789bc;
   0x3d09a00000000000;
   0x3fed1b532b08c8fa;
   0xbd15e00000000000;
   0x3fed2f87080d8a85;
   0x3d1d280000000000;
   0x3fed43c8eacaa203;
   0x3d01a00000000000;
   0x3fed5818dcfba491;
   0x3cdf000000000000;
   0x3fed6c76e862e6a1;
   0xbd03a00000000000;
   0x3fed80e316c9834e;
   0xbd0cd80000000000;
   0x3fed955d71ff6090;
   0x3cf4c00000000000;
   0x3feda9e603db32ae;
   0x3cff900000000000;
   0x3fedbe7cd63a8325;
   0x3ce9800000000000;
   0x3fedd321f301b445;
   0xbcf5200000000000;
   0x3fede7d5641c05bf;
   0xbd1d700000000000;
   0x3fedfc97337b9aec;
   0xbd16140000000000;
   0x3fee11676b197d5e;
   0x3d0b480000000000;
   0x3fee264614f5a3e7;
   0x3d40ce0000000000;
   0x3fee3b333b16ee5c;
   0x3d0c680000000000;
   0x3fee502ee78b3fb4;
   0xbd09300000000000;
   0x3fee653924676d68;
   0xbce5000000000000;
   0x3fee7a51fbc74c44;
   0xbd07f80000000000;
   0x3fee8f7977cdb726;
   0xbcf3700000000000;
   0x3feea4afa2a490e8;
   0x3ce5d00000000000;
   0x3feeb9f4867ccae4;
   0x3d161a0000000000;
   0x3feecf482d8e680d;
   0x3cf5500000000000;
   0x3feee4aaa2188514;
   0x3cc6400000000000;
   0x3feefa1bee615a13;
   0xbcee800000000000;
   0x3fef0f9c1cb64106;
   0xbcfa880000000000;
   0x3fef252b376bb963;
   0xbd2c900000000000;
   0x3fef3ac948dd7275;
   0x3caa000000000000;
   0x3fef50765b6e4524;
   0xbcf4f00000000000;
   0x3fef6632798844fd;
   0x3cca800000000000;
   0x3fef7bfdad9cbe38;
   0x3cfabc0000000000;
   0x3fef91d802243c82;
   0xbcd4600000000000;
   0x3fefa7c1819e908e;
   0xbd0b0c0000000000;
   0x3fefbdba3692d511;
   0xbcc0e00000000000;
   0x3fefd3c22b8f7194;
   0xbd10de8000000000;
   0x3fefe9d96b2a23ee;
   0x3cee430000000000;
   0x3ff0000000000000;
   0;
   0x3ff00b1afa5abcbe;
   0xbcb3400000000000;
   0x3ff0163da9fb3303;
   0xbd12170000000000;
   0x3ff02168143b0282;
   0x3cba400000000000;
   0x3ff02c9a3e77806c;
   0x3cef980000000000;
   0x3ff037d42e11bbca;
   0xbcc7400000000000;
   0x3ff04315e86e7f89;
   0x3cd8300000000000;
   0x3ff04e5f72f65467;
   0xbd1a3f0000000000;
   0x3ff059b0d315855a;
   0xbd02840000000000;
   0x3ff0650a0e3c1f95;
   0x3cf1600000000000;
   0x3ff0706b29ddf71a;
   0x3d15240000000000;
   0x3ff07bd42b72a82d;
   0xbce9a00000000000;
   0x3ff0874518759bd0;
   0x3ce6400000000000;
   0x3ff092bdf66607c8;
   0xbd00780000000000;
   0x3ff09e3ecac6f383;
   0xbc98000000000000;
   0x3ff0a9c79b1f3930;
   0x3cffa00000000000;
   0x3ff0b5586cf988fc;
   0xbcfac80000000000;
   0x3ff0c0f145e46c8a;
   0x3cd9c00000000000;
   0x3ff0cc922b724816;
   0x3d05200000000000;
   0x3ff0d83b23395dd8;
   0xbcfad00000000000;
   0x3ff0e3ec32d3d1f3;
   0x3d1bac0000000000;
   0x3ff0efa55fdfa9a6;
   0xbd04e80000000000;
   0x3ff0fb66affed2f0;
   0xbd0d300000000000;
   0x3ff1073028d7234b;
   0x3cf1500000000000;
   0x3ff11301d0125b5b;
   0x3cec000000000000;
   0x3ff11edbab5e2af9;
   0x3d16bc0000000000;
   0x3ff12abdc06c31d5;
   0x3ce8400000000000;
   0x3ff136a814f2047d;
   0xbd0ed00000000000;
   0x3ff1429aaea92de9;
   0x3ce8e00000000000;
   0x3ff14e95934f3138;
   0x3ceb400000000000;
   0x3ff15a98c8a58e71;
   0x3d05300000000000;
   0x3ff166a45471c3df;
   0x3d03380000000000;
   0x3ff172b83c7d5211;
   0x3d28d40000000000;
   0x3ff17ed48695bb9f;
   0xbd05d00000000000;
   0x3ff18af9388c8d93;
   0xbd1c880000000000;
   0x3ff1972658375d66;
   0x3d11f00000000000;
   0x3ff1a35beb6fcba7;
   0x3d10480000000000;
   0x3ff1af99f81387e3;
   0xbd47390000000000;
   0x3ff1bbe084045d54;
   0x3d24e40000000000;
   0x3ff1c82f95281c43;
   0xbd0a200000000000;
   0x3ff1d4873168b9b2;
   0x3ce3800000000000;
   0x3ff1e0e75eb44031;
   0x3ceac00000000000;
   0x3ff1ed5022fcd938;
   0x3d01900000000000;
   0x3ff1f9c18438cdf7;
   0xbd1b780000000000;
   0x3ff2063b88628d8f;
   0x3d2d940000000000;
   0x3ff212be3578a81e;
   0x3cd8000000000000;
   0x3ff21f49917ddd41;
   0x3d2b340000000000;
   0x3ff22bdda2791323;
   0x3d19f80000000000;
   0x3ff2387a6e7561e7;
   0xbd19c80000000000;
   0x3ff2451ffb821427;
   0x3d02300000000000;
   0x3ff251ce4fb2a602;
   0xbd13480000000000;
   0x3ff25e85711eceb0;
   0x3d12700000000000;
   0x3ff26b4565e27d16;
   0x3d11d00000000000;
   0x3ff2780e341de00f;
   0x3d31ee0000000000;
   0x3ff284dfe1f5633e;
   0xbd14c00000000000;
   0x3ff291ba7591bb30;
   0xbd13d80000000000;
   0x3ff29e9df51fdf09;
   0x3d08b00000000000;
   0x3ff2ab8a66d10e9b;
   0xbd227c0000000000;
   0x3ff2b87fd0dada3a;
   0x3d2a340000000000;
   0x3ff2c57e39771af9;
   0xbd10800000000000;
   0x3ff2d285a6e402d9;
   0xbd0ed00000000000;
   0x3ff2df961f641579;
   0xbcf4200000000000;
   0x3ff2ecafa93e2ecf;
   0xbd24980000000000;
   0x3ff2f9d24abd8822;
   0xbd16300000000000;
   0x3ff306fe0a31b625;
   0xbd32360000000000;
   0x3ff31432edeea50b;
   0xbd70df8000000000;
   0x3ff32170fc4cd7b8;
   0xbd22480000000000;
   0x3ff32eb83ba8e9a2;
   0xbd25980000000000;
   0x3ff33c08b2641766;
   0x3d1ed00000000000;
   0x3ff3496266e3fa27;
   0xbcdc000000000000;
   0x3ff356c55f929f0f;
   0xbd30d80000000000;
   0x3ff36431a2de88b9;
   0x3d22c80000000000;
   0x3ff371a7373aaa39;
   0x3d20600000000000;
   0x3ff37f26231e74fe;
   0xbd16600000000000;
   0x3ff38cae6d05d838;
   0xbd0ae00000000000;
   0x3ff39a401b713ec3;
   0xbd44720000000000;
   0x3ff3a7db34e5a020;
   0x3d08200000000000;
   0x3ff3b57fbfec6e95;
   0x3d3e800000000000;
   0x3ff3c32dc313a8f2;
   0x3cef800000000000;
   0x3ff3d0e544ede122;
   0xbd17a00000000000;
   0x3ff3dea64c1234bb;
   0x3d26300000000000;
   0x3ff3ec70df1c4ecc;
   0xbd48a60000000000;
   0x3ff3fa4504ac7e8c;
   0xbd3cdc0000000000;
   0x3ff40822c367a0bb;
   0x3d25b80000000000;
   0x3ff4160a21f72e95;
   0x3d1ec00000000000;
   0x3ff423fb27094646;
   0xbd13600000000000;
   0x3ff431f5d950a920;
   0x3d23980000000000;
   0x3ff43ffa3f84b9eb;
   0x3cfa000000000000;
   0x3ff44e0860618919;
   0xbcf6c00000000000;
   0x3ff45c2042a7d201;
   0xbd0bc00000000000;
   0x3ff46a41ed1d0016;
   0xbd12800000000000;
   0x3ff4786d668b3326;
   0x3d30e00000000000;
   0x3ff486a2b5c13c00;
   0xbd2d400000000000;
   0x3ff494e1e192af04;
   0x3d0c200000000000;
   0x3ff4a32af0d7d372;
   0xbd1e500000000000;
   0x3ff4b17dea6db801;
   0x3d07800000000000;
   0x3ff4bfdad53629e1;
   0xbd13800000000000;
   0x3ff4ce41b817c132;
   0x3d00800000000000;
   0x3ff4dcb299fddddb;
   0x3d2c700000000000;
   0x3ff4eb2d81d8ab96;
   0xbd1ce00000000000;
   0x3ff4f9b2769d2d02;
   0x3d19200000000000;
   0x3ff508417f4531c1;
   0xbd08c00000000000;
   0x3ff516daa2cf662a;
   0xbcfa000000000000;
   0x3ff5257de83f51ea;
   0x3d4a080000000000;
   0x3ff5342b569d4eda;
   0xbd26d80000000000;
   0x3ff542e2f4f6ac1a;
   0xbd32440000000000;
   0x3ff551a4ca5d94db;
   0x3d483c0000000000;
   0x3ff56070dde9116b;
   0x3d24b00000000000;
   0x3ff56f4736b529de;
   0x3d415a0000000000;
   0x3ff57e27dbe2c40e;
   0xbd29e00000000000;
   0x3ff58d12d497c76f;
   0xbd23080000000000;
   0x3ff59c0827ff0b4c;
   0x3d4dec0000000000;
   0x3ff5ab07dd485427;
   0xbcc4000000000000;
   0x3ff5ba11fba87af4;
   0x3d30080000000000;
   0x3ff5c9268a59460b;
   0xbd26c80000000000;
   0x3ff5d84590998e3f;
   0x3d469a0000000000;
   0x3ff5e76f15ad20e1;
   0xbd1b400000000000;
   0x3ff5f6a320dcebca;
   0x3d17700000000000;
   0x3ff605e1b976dcb8;
   0x3d26f80000000000;
   0x3ff6152ae6cdf715;
   0x3d01000000000000;
   0x3ff6247eb03a5531;
   0xbd15d00000000000;
   0x3ff633dd1d1929b5;
   0xbd12d00000000000;
   0x3ff6434634ccc313;
   0xbcea800000000000;
   0x3ff652b9febc8efa;
   0xbd28600000000000;
   0x3ff6623882553397;
   0x3d71fe0000000000;
   0x3ff671c1c708328e;
   0xbd37200000000000;
   0x3ff68155d44ca97e;
   0x3ce6800000000000;
   0x3ff690f4b19e9471;
   0xbd29780000000000].
(** the continuation shared by several branches of [exp2] *)
Definition rs_exp2_1 (x redux p1 p2 p3 p4 p5 : Z) : option Z :=
  let ui_1 := x +: redux in
  let i0 := to_u 32 ui_1 in
  let i0 := wadd 32 i0 128 in
  let* ku := umul 32 (i0 / 256) 256 in
  let ki := Z.quot (to_i 32 ku) 256 in
  let i0 := i0 mod 256 in
  let uf := ui_1 -: redux in
  let z := x -: uf in
  let* v1 := umul 64 2 i0 in
  let* t := tab_get rs_exp2_TBL v1 in
  let* v3 := umul 64 2 i0 in
  let* v4 := uadd 64 v3 1 in
  let* v5 := tab_get rs_exp2_TBL v4 in
  let z := z -: v5 in
  let r := t +: ((t *: z) *: (p1 +: (z *: (p2 +: (z *: (p3 +: (z *: (p4 +: (z *: p5))))))))) in
  scalbn f64 r ki.
(** [exp2], libm/src/math/exp2.rs lines 326-388 *)
Definition rs_exp2 (x : Z) : option Z :=
  let redux := 0x4338000000000000 /: (of_int f64 rs_exp2_TBLSIZE) in
  let p1 := 0x3fe62e42fefa39ef in
  let p2 := 0x3fcebfbdff82c575 in
  let p3 := 0x3fac6b08d704a0a6 in
  let p4 := 0x3f83b2ab88f70400 in
  let p5 := 0x3f55d88003875c74 in
  let x1p1023 := 0x7fe0000000000000 in
  let x1p52 := 0x4330000000000000 in
  let c0x1p_149 := 0xb6a0000000000000 in
  let ui := x in
  let ix := Z.land (Z.shiftr ui 32) 0x7fffffff in
  if 0x408ff000 <=? ix then
    if (0x40900000 <=? ix) && ((Z.shiftr ui 63) =? 0) then
      let x := x *: x1p1023 in
      Some x
    else if 0x7ff00000 <=? ix then Some (0xbff0000000000000 (* -1.0 *) /: x)
    else if negb ((Z.shiftr ui 63) =? 0) then
      if fle f64 x 0xc090cc0000000000 (* -1075.0 *) then Some 0 (* 0.0 *)
      else rs_exp2_1 x redux p1 p2 p3 p4 p5
    else rs_exp2_1 x redux p1 p2 p3 p4 p5
  else if ix <? 0x3c900000 then Some (0x3ff0000000000000 (* 1.0 *) +: x)
  else rs_exp2_1 x redux p1 p2 p3 p4 p5.

(** * expm1.rs *)
(** libm/src/math/expm1.rs line 15 *)
Definition rs_expm1_O_THRESHOLD : Z := 0x40862e42fefa39ef (* 7.09782712893383973096e+02 *).
(** libm/src/math/expm1.rs line 16 *)
Definition rs_expm1_LN2_HI : Z := 0x3fe62e42fee00000 (* 6.93147180369123816490e-01 *).
(** libm/src/math/expm1.rs line 17 *)
Definition rs_expm1_LN2_LO : Z := 0x3dea39ef35793c76 (* 1.90821492927058770002e-10 *).
(** libm/src/math/expm1.rs line 18 *)
Definition rs_expm1_INVLN2 : Z := 0x3ff71547652b82fe (* 1.44269504088896338700e+00 *).
(** libm/src/math/expm1.rs line 20 *)
Definition rs_expm1_Q1 : Z := 0xbfa11111111110f4 (* -3.33333333333331316428e-02 *).
(** libm/src/math/expm1.rs line 21 *)
Definition rs_expm1_Q2 : Z := 0x3f5a01a019fe5585 (* 1.58730158725481460165e-03 *).
(** libm/src/math/expm1.rs line 22 *)
Definition rs_expm1_Q3 : Z := 0xbf14ce199eaadbb7 (* -7.93650757867487942473e-05 *).
(** libm/src/math/expm1.rs line 23 *)
Definition rs_expm1_Q4 : Z := 0x3ed0cfca86e65239 (* 4.00821782732936239552e-06 *).
(** libm/src/math/expm1.rs line 24 *)
Definition rs_expm1_Q5 : Z := 0xbe8afdb76e09c32d (* -2.01099218183624371326e-07 *).
(** the continuation shared by several branches of [expm1] *)
Definition rs_expm1_2 (x k c : Z) : option Z :=
  let hfx := 0x3fe0000000000000 (* 0.5 *) *: x in
  let hxs := x *: hfx in
  let r1 := 0x3ff0000000000000 (* 1.0 *) +: (hxs *: (rs_expm1_Q1 +: (hxs *: (rs_expm1_Q2 +: (hxs *: (rs_expm1_Q3 +: (hxs *: (rs_expm1_Q4 +: (hxs *: rs_expm1_Q5))))))))) in
  let t := 0x4008000000000000 (* 3.0 *) -: (r1 *: hfx) in
  let e_ := hxs *: ((r1 -: t) /: (0x4018000000000000 (* 6.0 *) -: (x *: t))) in
  if k =? 0 then Some (x -: ((x *: e_) -: hxs))
  else 
    let e_ := (x *: (e_ -: c)) -: c in
    let e_ := e_ -: hxs in
    if k =? (-1) then
      Some ((0x3fe0000000000000 (* 0.5 *) *: (x -: e_)) -: 0x3fe0000000000000 (* 0.5 *))
    else if k =? 1 then
      if flt f64 x 0xbfd0000000000000 (* -0.25 *) then
        Some (0xc000000000000000 (* -2.0 *) *: (e_ -: (x +: 0x3fe0000000000000 (* 0.5 *))))
      else Some (0x3ff0000000000000 (* 1.0 *) +: (0x4000000000000000 (* 2.0 *) *: (x -: e_)))
    else 
      let* v0 := sadd 32 1023 k in
      let ui := shlu 64 (to_u 64 v0) 52 in
      let twopk := ui in
      if negb ((0 <=? k) && (k <=? 56)) then
        let y := (x -: e_) +: 0x3ff0000000000000 (* 1.0 *) in
        let y :=
          (if k =? 1024 then
             let y := (y *: 0x4000000000000000 (* 2.0 *)) *: 0x7fe0000000000000 in
             y
           else 
             let y := y *: twopk in
             y) in
        Some (y -: 0x3ff0000000000000 (* 1.0 *))
      else 
        let* v1 := ssub 32 1023 k in
        let ui := shlu 64 (to_u 64 v1) 52 in
        let uf := ui in
        let y :=
          (if k <? 20 then
             let y := ((x -: e_) +: (0x3ff0000000000000 (* 1.0 *) -: uf)) *: twopk in
             y
           else 
             let y := ((x -: (e_ +: uf)) +: 0x3ff0000000000000 (* 1.0 *)) *: twopk in
             y) in
        Some y.
(** the continuation shared by several branches of [expm1] *)
Definition rs_expm1_1 (x hx sign : Z) : option Z :=
  if 0x3fd62e42 <? hx then
    let '(hi, lo, k) :=
      (if hx <? 0x3ff0a2b2 then
         let '(hi, lo, k) :=
           (if sign =? 0 then
              let hi := x -: rs_expm1_LN2_HI in
              let lo := rs_expm1_LN2_LO in
              let k := 1 in
              (hi, lo, k)
            else 
              let hi := x +: rs_expm1_LN2_HI in
              let lo := fneg f64 rs_expm1_LN2_LO in
              let k := -1 in
              (hi, lo, k)) in
         (hi, lo, k)
       else 
         let k := to_i32 f64 ((rs_expm1_INVLN2 *: x) +: (if negb (sign =? 0) then 0xbfe0000000000000 (* -0.5 *) else 0x3fe0000000000000 (* 0.5 *))) in
         let t := of_int f64 k in
         let hi := x -: (t *: rs_expm1_LN2_HI) in
         let lo := t *: rs_expm1_LN2_LO in
         (hi, lo, k)) in
    let x := hi -: lo in
    let c := (hi -: x) -: lo in
    rs_expm1_2 x k c
  else if hx <? 0x3c900000 then Some x
  else 
    let c := 0 (* 0.0 *) in
    let k := 0 in
    rs_expm1_2 x k c.
(** [expm1], libm/src/math/expm1.rs lines 34-136 *)
Definition rs_expm1 (x : Z) : option Z :=
  let ui := x in
  let hx := to_u 32 (Z.land (Z.shiftr ui 32) 0x7fffffff) in
  let sign := to_i 32 (Z.shiftr ui 63) in
  if 0x4043687a <=? hx then
    if is_nan f64 x then Some x
    else if negb (sign =? 0) then Some 0xbff0000000000000 (* -1.0 *)
    else if fgt f64 x rs_expm1_O_THRESHOLD then
      let x := x *: 0x7fe0000000000000 in
      Some x
    else rs_expm1_1 x hx sign
  else rs_expm1_1 x hx sign.

(** * k_expo2f.rs *)
(** libm/src/math/k_expo2f.rs line 4 *)
Definition rs_k_expo2f_K : Z := 235.
(** [k_expo2f], libm/src/math/k_expo2f.rs lines 8-14 *)
Definition rs_k_expo2f (x : Z) : option Z :=
  let k_ln2 := 0x4322e3bc in
  let scale := 0x7a000000 in
  let* v0 := rs_expf (x -' k_ln2) in
  Some ((v0 *' scale) *' scale).

(** * k_expo2.rs *)
(** libm/src/math/k_expo2.rs line 4 *)
Definition rs_k_expo2_K : Z := 2043.
(** [k_expo2], libm/src/math/k_expo2.rs lines 8-14 *)
Definition rs_k_expo2 (x : Z) : option Z :=
  let k_ln2 := 0x40962066151add8b in
  let scale := 0x7fc0000000000000 in
  let* v0 := rs_exp (x -: k_ln2) in
  Some ((v0 *: scale) *: scale).

(** * expo2.rs *)
(** libm/src/math/expo2.rs line 7 *)
Definition rs_expo2_K : Z := 2043.
(** [expo2], libm/src/math/expo2.rs lines 5-14 *)
Definition rs_expo2 (x : Z) : option Z :=
  let kln2 := 0x40962066151add8b in
  let* v0 := sadd 32 1023 (Z.quot rs_expo2_K 2) in
  let scale := combine_words (shlu 32 (to_u 32 v0) 20) 0 in
  let* v1 := rs_exp (x -: kln2) in
  Some ((v1 *: scale) *: scale).

(** * sinhf.rs *)
(** [sinhf], libm/src/math/sinhf.rs lines 5-30 *)
Definition rs_sinhf (x : Z) : option Z :=
  let h := 0x3f000000 (* 0.5 *) in
  let ix := x in
  let h :=
    (if negb ((Z.shiftr ix 31) =? 0) then
       let h := fneg f32 h in
       h
     else h) in
  let ix := Z.land ix 0x7fffffff in
  let absx := ix in
  let w := ix in
  if w <? 0x42b17217 then
    let* t := rs_expm1f absx in
    if w <? 0x3f800000 then
      if w <? 0x39800000 then Some x
      else Some (h *' ((0x40000000 (* 2.0 *) *' t) -' ((t *' t) /' (t +' 0x3f800000 (* 1.0 *)))))
    else Some (h *' (t +' (t /' (t +' 0x3f800000 (* 1.0 *)))))
  else 
    let* v1 := rs_k_expo2f absx in
    Some ((0x40000000 (* 2.0 *) *' h) *' v1).

(** * coshf.rs *)
(** [coshf], libm/src/math/coshf.rs lines 9-36 *)
Definition rs_coshf (x : Z) : option Z :=
  let x1p120 := 0x7b800000 in
  let ix := x in
  let ix := Z.land ix 0x7fffffff in
  let x := ix in
  let w := ix in
  if w <? 0x3f317217 then
    if w <? 0x39800000 then Some 0x3f800000 (* 1.0 *)
    else 
      let* t := rs_expm1f x in
      Some (0x3f800000 (* 1.0 *) +' ((t *' t) /' (0x40000000 (* 2.0 *) *' (0x3f800000 (* 1.0 *) +' t))))
  else if w <? 0x42b17217 then
    let* t_1 := rs_expf x in
    Some (0x3f000000 (* 0.5 *) *' (t_1 +' (0x3f800000 (* 1.0 *) /' t_1)))
  else rs_k_expo2f x.

(** * tanhf.rs *)
(** [tanhf], libm/src/math/tanhf.rs lines 7-38 *)
Definition rs_tanhf (x : Z) : option Z :=
  let ix := x in
  let sign := negb ((Z.shiftr ix 31) =? 0) in
  let ix := Z.land ix 0x7fffffff in
  let x := ix in
  let w := ix in
  let* tt_ :=
    (if 0x3f0c9f54 <? w then
       if 0x41200000 <? w then Some (0x3f800000 (* 1.0 *) +' (0 (* 0.0 *) /' x))
       else 
         let* t := rs_expm1f (0x40000000 (* 2.0 *) *' x) in
         Some (0x3f800000 (* 1.0 *) -' (0x40000000 (* 2.0 *) /' (t +' 0x40000000 (* 2.0 *))))
     else if 0x3e82c578 <? w then
       let* t_1 := rs_expm1f (0x40000000 (* 2.0 *) *' x) in
       Some (t_1 /' (t_1 +' 0x40000000 (* 2.0 *)))
     else if 0x800000 <=? w then
       let* t_2 := rs_expm1f (0xc0000000 (* -2.0 *) *' x) in
       Some ((fneg f32 t_2) /' (t_2 +' 0x40000000 (* 2.0 *)))
     else Some x) in
  if sign then Some (fneg f32 tt_)
  else Some tt_.

(** * sinh.rs *)
(** [sinh], libm/src/math/sinh.rs lines 10-51 *)
Definition rs_sinh (x : Z) : option Z :=
  let uf := x in
  let ui := uf in
  let h := 0x3fe0000000000000 (* 0.5 *) in
  let h :=
    (if negb ((Z.shiftr ui 63) =? 0) then
       let h := fneg f64 h in
       h
     else h) in
  let ui := Z.land ui ((unot 64 1) / 2) in
  let uf := ui in
  let absx := uf in
  let w := to_u 32 (Z.shiftr ui 32) in
  if w <? 0x40862e42 then
    let* t := rs_expm1 absx in
    if w <? 0x3ff00000 then
      if w <? 0x3e500000 then Some x
      else Some (h *: ((0x4000000000000000 (* 2.0 *) *: t) -: ((t *: t) /: (t +: 0x3ff0000000000000 (* 1.0 *)))))
    else Some (h *: (t +: (t /: (t +: 0x3ff0000000000000 (* 1.0 *)))))
  else 
    let* v1 := rs_expo2 absx in
    let t := (0x4000000000000000 (* 2.0 *) *: h) *: v1 in
    Some t.

(** * cosh.rs *)
(** [cosh], libm/src/math/cosh.rs lines 9-36 *)
Definition rs_cosh (x : Z) : option Z :=
  let ix := x in
  let ix := Z.land ix 0x7fffffffffffffff in
  let x := ix in
  let w := Z.shiftr ix 32 in
  if w <? 0x3fe62e42 then
    if w <? 0x3e500000 then
      let x1p120 := 0x4770000000000000 in
      Some 0x3ff0000000000000 (* 1.0 *)
    else 
      let* t := rs_expm1 x in
      Some (0x3ff0000000000000 (* 1.0 *) +: ((t *: t) /: (0x4000000000000000 (* 2.0 *) *: (0x3ff0000000000000 (* 1.0 *) +: t))))
  else if w <? 0x40862e42 then
    let* t_1 := rs_exp x in
    Some (0x3fe0000000000000 (* 0.5 *) *: (t_1 +: (0x3ff0000000000000 (* 1.0 *) /: t_1)))
  else rs_k_expo2 x.

(** * tanh.rs *)
(** [tanh], libm/src/math/tanh.rs lines 12-53 *)
Definition rs_tanh (x : Z) : option Z :=
  let uf := x in
  let ui := uf in
  let sign := negb ((Z.shiftr ui 63) =? 0) in
  let ui := Z.land ui ((unot 64 1) / 2) in
  let uf := ui in
  let x := uf in
  let w := to_u 32 (Z.shiftr ui 32) in
  let* t :=
    (if 0x3fe193ea <? w then
       let* t :=
         (if 0x40340000 <? w then
            let t := 0x3ff0000000000000 (* 1.0 *) -: (0 (* 0.0 *) /: x) in
            Some t
          else 
            let* t := rs_expm1 (0x4000000000000000 (* 2.0 *) *: x) in
            let t := 0x3ff0000000000000 (* 1.0 *) -: (0x4000000000000000 (* 2.0 *) /: (t +: 0x4000000000000000 (* 2.0 *))) in
            Some t) in
       Some t
     else 
       let* t :=
         (if 0x3fd058ae <? w then
            let* t := rs_expm1 (0x4000000000000000 (* 2.0 *) *: x) in
            let t := t /: (t +: 0x4000000000000000 (* 2.0 *)) in
            Some t
          else 
            let* t :=
              (if 0x100000 <=? w then
                 let* t := rs_expm1 (0xc000000000000000 (* -2.0 *) *: x) in
                 let t := (fneg f64 t) /: (t +: 0x4000000000000000 (* 2.0 *)) in
                 Some t
               else 
                 let t := x in
                 Some t) in
            Some t) in
       Some t) in
  if sign then Some (fneg f64 t)
  else Some t.

(** Generated by tools/rs2v.py from the Rust sources named in the comments.  [rs_f] is the Rust function [f];
    constants and private functions carry the name of their file.  See DESIGN.md for the reading of Rust. *)
From Coq Require Import ZArith Bool List.
From Verif Require Import Base Spec Format Ieee M_basic M_bits M_scalbn M_fma M_sqrt M_elib.
Import ListNotations.
Open Scope Z_scope.
Open Scope fl_scope.

(** * asinf.rs *)
(** libm/src/math/asinf.rs line 19 *)
Definition rs_asinf_PIO2 : Z := 0x3ff921fb54442d18 (* 1.570796326794896558e+00 *).
(** libm/src/math/asinf.rs line 22 *)
Definition rs_asinf_P_S0 : Z := 0x3e2aaa75 (* 1.6666586697e-01 *).
(** libm/src/math/asinf.rs line 23 *)
Definition rs_asinf_P_S1 : Z := 0xbd2f13ba (* -4.2743422091e-02 *).
(** libm/src/math/asinf.rs line 24 *)
Definition rs_asinf_P_S2 : Z := 0xbc0dd36b (* -8.6563630030e-03 *).
(** libm/src/math/asinf.rs line 25 *)
Definition rs_asinf_Q_S1 : Z := 0xbf34e5ae (* -7.0662963390e-01 *).
(** [r], libm/src/math/asinf.rs lines 27-31 *)
Definition rs_asinf_r (z : Z) : Z :=
  let p := z *' (rs_asinf_P_S0 +' (z *' (rs_asinf_P_S1 +' (z *' rs_asinf_P_S2)))) in
  let q := 0x3f800000 (* 1.0 *) +' (z *' rs_asinf_Q_S1) in
  (p /' q).
(** [asinf], libm/src/math/asinf.rs lines 39-68 *)
Definition rs_asinf (x : Z) : option Z :=
  let x1p_120 := 0x3870000000000000 in
  let hx := x in
  let ix := Z.land hx 0x7fffffff in
  if 0x3f800000 <=? ix then
    if ix =? 0x3f800000 then
      Some (fcvt f64 f32 (((fcvt f32 f64 x) *: rs_asinf_PIO2) +: x1p_120))
    else Some (0 (* 0.0 *) /' (x -' x))
  else if ix <? 0x3f000000 then
    if (0x800000 <=? ix) && (ix <? 0x39800000) then Some x
    else Some (x +' (x *' (rs_asinf_r (x *' x))))
  else 
    let z := (0x3f800000 (* 1.0 *) -' (fabs f32 x)) *' 0x3f000000 (* 0.5 *) in
    let* s := M_sqrt.sqrt (fcvt f32 f64 z) in
    let x := fcvt f64 f32 (rs_asinf_PIO2 -: (0x4000000000000000 (* 2.0 *) *: (s +: (s *: (fcvt f32 f64 (rs_asinf_r z)))))) in
    if negb ((Z.shiftr hx 31) =? 0) then Some (fneg f32 x)
    else Some x.

(** * acosf.rs *)
(** libm/src/math/acosf.rs line 18 *)
Definition rs_acosf_PIO2_HI : Z := 0x3fc90fda (* 1.5707962513e+00 *).
(** libm/src/math/acosf.rs line 19 *)
Definition rs_acosf_PIO2_LO : Z := 0x33a22168 (* 7.5497894159e-08 *).
(** libm/src/math/acosf.rs line 20 *)
Definition rs_acosf_P_S0 : Z := 0x3e2aaa75 (* 1.6666586697e-01 *).
(** libm/src/math/acosf.rs line 21 *)
Definition rs_acosf_P_S1 : Z := 0xbd2f13ba (* -4.2743422091e-02 *).
(** libm/src/math/acosf.rs line 22 *)
Definition rs_acosf_P_S2 : Z := 0xbc0dd36b (* -8.6563630030e-03 *).
(** libm/src/math/acosf.rs line 23 *)
Definition rs_acosf_Q_S1 : Z := 0xbf34e5ae (* -7.0662963390e-01 *).
(** [r], libm/src/math/acosf.rs lines 25-29 *)
Definition rs_acosf_r (z : Z) : Z :=
  let p := z *' (rs_acosf_P_S0 +' (z *' (rs_acosf_P_S1 +' (z *' rs_acosf_P_S2)))) in
  let q := 0x3f800000 (* 1.0 *) +' (z *' rs_acosf_Q_S1) in
  (p /' q).
(** [acosf], libm/src/math/acosf.rs lines 37-79 *)
Definition rs_acosf (x : Z) : option Z :=
  let x1p_120 := 0x3800000 in
  let hx := x in
  let ix := Z.land hx 0x7fffffff in
  if 0x3f800000 <=? ix then
    if ix =? 0x3f800000 then
      if negb ((Z.shiftr hx 31) =? 0) then Some ((0x40000000 (* 2.0 *) *' rs_acosf_PIO2_HI) +' x1p_120)
      else Some 0 (* 0.0 *)
    else Some (0 (* 0.0 *) /' (x -' x))
  else if ix <? 0x3f000000 then
    if ix <=? 0x32800000 then Some (rs_acosf_PIO2_HI +' x1p_120)
    else Some (rs_acosf_PIO2_HI -' (x -' (rs_acosf_PIO2_LO -' (x *' (rs_acosf_r (x *' x))))))
  else if negb ((Z.shiftr hx 31) =? 0) then
    let z := (0x3f800000 (* 1.0 *) +' x) *' 0x3f000000 (* 0.5 *) in
    let* s := M_sqrt.sqrtf z in
    let w := ((rs_acosf_r z) *' s) -' rs_acosf_PIO2_LO in
    Some (0x40000000 (* 2.0 *) *' (rs_acosf_PIO2_HI -' (s +' w)))
  else 
    let z := (0x3f800000 (* 1.0 *) -' x) *' 0x3f000000 (* 0.5 *) in
    let* s := M_sqrt.sqrtf z in
    let hx := s in
    let df := Z.land hx 0xfffff000 in
    let c := (z -' (df *' df)) /' (s +' df) in
    let w := ((rs_acosf_r z) *' s) +' c in
    Some (0x40000000 (* 2.0 *) *' (df +' w)).

(** * atanf.rs *)
(** libm/src/math/atanf.rs lines 18-23 *)
Definition rs_atanf_ATAN_HI : list Z :=
  [0x3eed6338 (* 4.6364760399e-01 *);
   0x3f490fda (* 7.8539812565e-01 *);
   0x3f7b985e (* 9.8279368877e-01 *);
   0x3fc90fda (* 1.5707962513e+00 *)].
(** libm/src/math/atanf.rs lines 25-30 *)
Definition rs_atanf_ATAN_LO : list Z :=
  [0x31ac3769 (* 5.0121582440e-09 *);
   0x33222168 (* 3.7748947079e-08 *);
   0x33140fb4 (* 3.4473217170e-08 *);
   0x33a22168 (* 7.5497894159e-08 *)].
(** libm/src/math/atanf.rs lines 32-33 *)
Definition rs_atanf_A_T : list Z :=
  [0x3eaaaaa9 (* 3.3333328366e-01 *);
   0xbe4cca98 (* -1.9999158382e-01 *);
   0x3e11f50d (* 1.4253635705e-01 *);
   0xbdda1247 (* -1.0648017377e-01 *);
   0x3d7cac25 (* 6.1687607318e-02 *)].
(** the continuation shared by several branches of [atanf] *)
Definition rs_atanf_1 (x : Z) (sign : bool) (id : Z) : option Z :=
  let z := x *' x in
  let w := z *' z in
  let s1 := z *' ((nth 0 rs_atanf_A_T 0) +' (w *' ((nth 2 rs_atanf_A_T 0) +' (w *' (nth 4 rs_atanf_A_T 0))))) in
  let s2 := w *' ((nth 1 rs_atanf_A_T 0) +' (w *' (nth 3 rs_atanf_A_T 0))) in
  if id <? 0 then Some (x -' (x *' (s1 +' s2)))
  else 
    let id_1 := to_u 64 id in
    let* v0 := tab_get rs_atanf_ATAN_HI id_1 in
    let* v1 := tab_get rs_atanf_ATAN_LO id_1 in
    let z_1 := v0 -' (((x *' (s1 +' s2)) -' v1) -' x) in
    if sign then Some (fneg f32 z_1)
    else Some z_1.
(** [atanf], libm/src/math/atanf.rs lines 40-103 *)
Definition rs_atanf (x : Z) : option Z :=
  let x1p_120 := 0x3800000 in
  let ix := x in
  let sign := negb ((Z.shiftr ix 31) =? 0) in
  let ix := Z.land ix 0x7fffffff in
  if 0x4c800000 <=? ix then
    if is_nan f32 x then Some x
    else 
      let z := (nth 3 rs_atanf_ATAN_HI 0) +' x1p_120 in
      if sign then Some (fneg f32 z)
      else Some z
  else if ix <? 0x3ee00000 then
    if ix <? 0x39800000 then Some x
    else 
      let id := -1 in
      rs_atanf_1 x sign id
  else 
    let x := fabs f32 x in
    let '(x, id) :=
      (if ix <? 0x3f980000 then
         let '(x, id) :=
           (if ix <? 0x3f300000 then
              let x := ((0x40000000 (* 2.0 *) *' x) -' 0x3f800000 (* 1.0 *)) /' (0x40000000 (* 2.0 *) +' x) in
              let id := 0 in
              (x, id)
            else 
              let x := (x -' 0x3f800000 (* 1.0 *)) /' (x +' 0x3f800000 (* 1.0 *)) in
              let id := 1 in
              (x, id)) in
         (x, id)
       else 
         let '(x, id) :=
           (if ix <? 0x401c0000 then
              let x := (x -' 0x3fc00000 (* 1.5 *)) /' (0x3f800000 (* 1.0 *) +' (0x3fc00000 (* 1.5 *) *' x)) in
              let id := 2 in
              (x, id)
            else 
              let x := 0xbf800000 (* -1.0 *) /' x in
              let id := 3 in
              (x, id)) in
         (x, id)) in
    rs_atanf_1 x sign id.

(** * atan2f.rs *)
(** libm/src/math/atan2f.rs line 18 *)
Definition rs_atan2f_PI : Z := 0x40490fdb (* 3.1415927410e+00 *).
(** libm/src/math/atan2f.rs line 19 *)
Definition rs_atan2f_PI_LO : Z := 0xb3bbbd2e (* -8.7422776573e-08 *).
(** [atan2f], libm/src/math/atan2f.rs lines 27-90 *)
Definition rs_atan2f (y x : Z) : option Z :=
  if (is_nan f32 x) || (is_nan f32 y) then Some (x +' y)
  else 
    let ix := x in
    let iy := y in
    if ix =? 0x3f800000 then rs_atanf y
    else 
      let m := Z.lor (Z.land (Z.shiftr iy 31) 1) (Z.land (Z.shiftr ix 30) 2) in
      let ix := Z.land ix 0x7fffffff in
      let iy := Z.land iy 0x7fffffff in
      if iy =? 0 then
        if (m =? 0) || (m =? 1) then Some y
        else if m =? 2 then Some rs_atan2f_PI
        else Some (fneg f32 rs_atan2f_PI)
      else if ix =? 0 then
        if negb ((Z.land m 1) =? 0) then Some ((fneg f32 rs_atan2f_PI) /' 0x40000000 (* 2.0 *))
        else Some (rs_atan2f_PI /' 0x40000000 (* 2.0 *))
      else if ix =? 0x7f800000 then
        if iy =? 0x7f800000 then
          if m =? 0 then Some (rs_atan2f_PI /' 0x40800000 (* 4.0 *))
          else if m =? 1 then Some ((fneg f32 rs_atan2f_PI) /' 0x40800000 (* 4.0 *))
          else if m =? 2 then
            Some ((0x40400000 (* 3.0 *) *' rs_atan2f_PI) /' 0x40800000 (* 4.0 *))
          else Some ((0xc0400000 (* -3.0 *) *' rs_atan2f_PI) /' 0x40800000 (* 4.0 *))
        else if m =? 0 then Some 0 (* 0.0 *)
        else if m =? 1 then Some (fneg f32 0 (* 0.0 *))
        else if m =? 2 then Some rs_atan2f_PI
        else Some (fneg f32 rs_atan2f_PI)
      else 
        let* v1 := uadd 32 ix 0xd000000 in
        if (v1 <? iy) || (iy =? 0x7f800000) then
          if negb ((Z.land m 1) =? 0) then Some ((fneg f32 rs_atan2f_PI) /' 0x40000000 (* 2.0 *))
          else Some (rs_atan2f_PI /' 0x40000000 (* 2.0 *))
        else 
          let* z :=
            (let* v6 := if (negb ((Z.land m 2) =? 0)) then let* v5 := uadd 32 iy 0xd000000 in Some (v5 <? ix) else Some false in
             if v6 then Some 0 (* 0.0 *)
             else rs_atanf (fabs f32 (y /' x))) in
          if m =? 0 then Some z
          else if m =? 1 then Some (fneg f32 z)
          else if m =? 2 then Some (rs_atan2f_PI -' (z -' rs_atan2f_PI_LO))
          else Some ((z -' rs_atan2f_PI_LO) -' rs_atan2f_PI).

(** * asin.rs *)
(** libm/src/math/asin.rs line 44 *)
Definition rs_asin_PIO2_HI : Z := 0x3ff921fb54442d18 (* 1.57079632679489655800e+00 *).
(** libm/src/math/asin.rs line 45 *)
Definition rs_asin_PIO2_LO : Z := 0x3c91a62633145c07 (* 6.12323399573676603587e-17 *).
(** libm/src/math/asin.rs line 47 *)
Definition rs_asin_P_S0 : Z := 0x3fc5555555555555 (* 1.66666666666666657415e-01 *).
(** libm/src/math/asin.rs line 48 *)
Definition rs_asin_P_S1 : Z := 0xbfd4d61203eb6f7d (* -3.25565818622400915405e-01 *).
(** libm/src/math/asin.rs line 49 *)
Definition rs_asin_P_S2 : Z := 0x3fc9c1550e884455 (* 2.01212532134862925881e-01 *).
(** libm/src/math/asin.rs line 50 *)
Definition rs_asin_P_S3 : Z := 0xbfa48228b5688f3b (* -4.00555345006794114027e-02 *).
(** libm/src/math/asin.rs line 51 *)
Definition rs_asin_P_S4 : Z := 0x3f49efe07501b288 (* 7.91534994289814532176e-04 *).
(** libm/src/math/asin.rs line 52 *)
Definition rs_asin_P_S5 : Z := 0x3f023de10dfdf709 (* 3.47933107596021167570e-05 *).
(** libm/src/math/asin.rs line 53 *)
Definition rs_asin_Q_S1 : Z := 0xc0033a271c8a2d4b (* -2.40339491173441421878e+00 *).
(** libm/src/math/asin.rs line 54 *)
Definition rs_asin_Q_S2 : Z := 0x40002ae59c598ac8 (* 2.02094576023350569471e+00 *).
(** libm/src/math/asin.rs line 55 *)
Definition rs_asin_Q_S3 : Z := 0xbfe6066c1b8d0159 (* -6.88283971605453293030e-01 *).
(** libm/src/math/asin.rs line 56 *)
Definition rs_asin_Q_S4 : Z := 0x3fb3b8c5b12e9282 (* 7.70381505559019352791e-02 *).
(** [comp_r], libm/src/math/asin.rs lines 58-62 *)
Definition rs_asin_comp_r (z : Z) : Z :=
  let p := z *: (rs_asin_P_S0 +: (z *: (rs_asin_P_S1 +: (z *: (rs_asin_P_S2 +: (z *: (rs_asin_P_S3 +: (z *: (rs_asin_P_S4 +: (z *: rs_asin_P_S5)))))))))) in
  let q := 0x3ff0000000000000 (* 1.0 *) +: (z *: (rs_asin_Q_S1 +: (z *: (rs_asin_Q_S2 +: (z *: (rs_asin_Q_S3 +: (z *: rs_asin_Q_S4))))))) in
  (p /: q).
(** [asin], libm/src/math/asin.rs lines 70-115 *)
Definition rs_asin (x : Z) : option Z :=
  let hx := get_high_word x in
  let ix := Z.land hx 0x7fffffff in
  if 0x3ff00000 <=? ix then
    let lx := get_low_word x in
    let* v0 := usub 32 ix 0x3ff00000 in
    if (Z.lor v0 lx) =? 0 then Some ((x *: rs_asin_PIO2_HI) +: 0x3870000000000000)
    else Some (0 (* 0.0 *) /: (x -: x))
  else if ix <? 0x3fe00000 then
    if (0x100000 <=? ix) && (ix <? 0x3e500000) then Some x
    else Some (x +: (x *: (rs_asin_comp_r (x *: x))))
  else 
    let z := (0x3ff0000000000000 (* 1.0 *) -: (fabs f64 x)) *: 0x3fe0000000000000 (* 0.5 *) in
    let* s := M_sqrt.sqrt z in
    let r := rs_asin_comp_r z in
    let x :=
      (if 0x3fef3333 <=? ix then
         let x := rs_asin_PIO2_HI -: ((0x4000000000000000 (* 2.0 *) *: (s +: (s *: r))) -: rs_asin_PIO2_LO) in
         x
       else 
         let f := with_set_low_word s 0 in
         let c := (z -: (f *: f)) /: (s +: f) in
         let x := (0x3fe0000000000000 (* 0.5 *) *: rs_asin_PIO2_HI) -: ((((0x4000000000000000 (* 2.0 *) *: s) *: r) -: (rs_asin_PIO2_LO -: (0x4000000000000000 (* 2.0 *) *: c))) -: ((0x3fe0000000000000 (* 0.5 *) *: rs_asin_PIO2_HI) -: (0x4000000000000000 (* 2.0 *) *: f))) in
         x) in
    if negb ((Z.shiftr hx 31) =? 0) then Some (fneg f64 x)
    else Some x.

(** * acos.rs *)
(** libm/src/math/acos.rs line 38 *)
Definition rs_acos_PIO2_HI : Z := 0x3ff921fb54442d18 (* 1.57079632679489655800e+00 *).
(** libm/src/math/acos.rs line 39 *)
Definition rs_acos_PIO2_LO : Z := 0x3c91a62633145c07 (* 6.12323399573676603587e-17 *).
(** libm/src/math/acos.rs line 40 *)
Definition rs_acos_PS0 : Z := 0x3fc5555555555555 (* 1.66666666666666657415e-01 *).
(** libm/src/math/acos.rs line 41 *)
Definition rs_acos_PS1 : Z := 0xbfd4d61203eb6f7d (* -3.25565818622400915405e-01 *).
(** libm/src/math/acos.rs line 42 *)
Definition rs_acos_PS2 : Z := 0x3fc9c1550e884455 (* 2.01212532134862925881e-01 *).
(** libm/src/math/acos.rs line 43 *)
Definition rs_acos_PS3 : Z := 0xbfa48228b5688f3b (* -4.00555345006794114027e-02 *).
(** libm/src/math/acos.rs line 44 *)
Definition rs_acos_PS4 : Z := 0x3f49efe07501b288 (* 7.91534994289814532176e-04 *).
(** libm/src/math/acos.rs line 45 *)
Definition rs_acos_PS5 : Z := 0x3f023de10dfdf709 (* 3.47933107596021167570e-05 *).
(** libm/src/math/acos.rs line 46 *)
Definition rs_acos_QS1 : Z := 0xc0033a271c8a2d4b (* -2.40339491173441421878e+00 *).
(** libm/src/math/acos.rs line 47 *)
Definition rs_acos_QS2 : Z := 0x40002ae59c598ac8 (* 2.02094576023350569471e+00 *).
(** libm/src/math/acos.rs line 48 *)
Definition rs_acos_QS3 : Z := 0xbfe6066c1b8d0159 (* -6.88283971605453293030e-01 *).
(** libm/src/math/acos.rs line 49 *)
Definition rs_acos_QS4 : Z := 0x3fb3b8c5b12e9282 (* 7.70381505559019352791e-02 *).
(** [r], libm/src/math/acos.rs lines 51-55 *)
Definition rs_acos_r (z : Z) : Z :=
  let p := z *: (rs_acos_PS0 +: (z *: (rs_acos_PS1 +: (z *: (rs_acos_PS2 +: (z *: (rs_acos_PS3 +: (z *: (rs_acos_PS4 +: (z *: rs_acos_PS5)))))))))) in
  let q := 0x3ff0000000000000 (* 1.0 *) +: (z *: (rs_acos_QS1 +: (z *: (rs_acos_QS2 +: (z *: (rs_acos_QS3 +: (z *: rs_acos_QS4))))))) in
  (p /: q).
(** [acos], libm/src/math/acos.rs lines 63-112 *)
Definition rs_acos (x : Z) : option Z :=
  let x1p_120f := 0x3870000000000000 in
  let hx := to_u 32 (Z.shiftr x 32) in
  let ix := Z.land hx 0x7fffffff in
  if 0x3ff00000 <=? ix then
    let lx := to_u 32 x in
    let* v0 := usub 32 ix 0x3ff00000 in
    if (Z.lor v0 lx) =? 0 then
      if negb ((Z.shiftr hx 31) =? 0) then
        Some ((0x4000000000000000 (* 2.0 *) *: rs_acos_PIO2_HI) +: x1p_120f)
      else Some 0 (* 0.0 *)
    else Some (0 (* 0.0 *) /: (x -: x))
  else if ix <? 0x3fe00000 then
    if ix <=? 0x3c600000 then Some (rs_acos_PIO2_HI +: x1p_120f)
    else Some (rs_acos_PIO2_HI -: (x -: (rs_acos_PIO2_LO -: (x *: (rs_acos_r (x *: x))))))
  else if negb ((Z.shiftr hx 31) =? 0) then
    let z := (0x3ff0000000000000 (* 1.0 *) +: x) *: 0x3fe0000000000000 (* 0.5 *) in
    let* s := M_sqrt.sqrt z in
    let w := ((rs_acos_r z) *: s) -: rs_acos_PIO2_LO in
    Some (0x4000000000000000 (* 2.0 *) *: (rs_acos_PIO2_HI -: (s +: w)))
  else 
    let z := (0x3ff0000000000000 (* 1.0 *) -: x) *: 0x3fe0000000000000 (* 0.5 *) in
    let* s := M_sqrt.sqrt z in
    let df := Z.land s 0xffffffff00000000 in
    let c := (z -: (df *: df)) /: (s +: df) in
    let w := ((rs_acos_r z) *: s) +: c in
    Some (0x4000000000000000 (* 2.0 *) *: (df +: w)).

(** * atan.rs *)
(** libm/src/math/atan.rs lines 36-41 *)
Definition rs_atan_ATANHI : list Z :=
  [0x3fddac670561bb4f (* 4.63647609000806093515e-01 *);
   0x3fe921fb54442d18 (* 7.85398163397448278999e-01 *);
   0x3fef730bd281f69b (* 9.82793723247329054082e-01 *);
   0x3ff921fb54442d18 (* 1.57079632679489655800e+00 *)].
(** libm/src/math/atan.rs lines 43-48 *)
Definition rs_atan_ATANLO : list Z :=
  [0x3c7a2b7f222f65e2 (* 2.26987774529616870924e-17 *);
   0x3c81a62633145c07 (* 3.06161699786838301793e-17 *);
   0x3c7007887af0cbbd (* 1.39033110312309984516e-17 *);
   0x3c91a62633145c07 (* 6.12323399573676603587e-17 *)].
(** libm/src/math/atan.rs lines 50-62 *)
Definition rs_atan_AT : list Z :=
  [0x3fd555555555550d (* 3.33333333333329318027e-01 *);
   0xbfc999999998ebc4 (* -1.99999999998764832476e-01 *);
   0x3fc24924920083ff (* 1.42857142725034663711e-01 *);
   0xbfbc71c6fe231671 (* -1.11111104054623557880e-01 *);
   0x3fb745cdc54c206e (* 9.09088713343650656196e-02 *);
   0xbfb3b0f2af749a6d (* -7.69187620504482999495e-02 *);
   0x3fb10d66a0d03d51 (* 6.66107313738753120669e-02 *);
   0xbfadde2d52defd9a (* -5.83357013379057348645e-02 *);
   0x3fa97b4b24760deb (* 4.97687799461593236017e-02 *);
   0xbfa2b4442c6a6c2f (* -3.65315727442169155270e-02 *);
   0x3f90ad3ae322da11 (* 1.62858201153657823623e-02 *)].
(** the continuation shared by several branches of [atan] *)
Definition rs_atan_1 (x_1 sign id : Z) : option Z :=
  let z_1 := x_1 *: x_1 in
  let w := z_1 *: z_1 in
  let s1 := z_1 *: ((nth 0 rs_atan_AT 0) +: (w *: ((nth 2 rs_atan_AT 0) +: (w *: ((nth 4 rs_atan_AT 0) +: (w *: ((nth 6 rs_atan_AT 0) +: (w *: ((nth 8 rs_atan_AT 0) +: (w *: (nth 10 rs_atan_AT 0))))))))))) in
  let s2 := w *: ((nth 1 rs_atan_AT 0) +: (w *: ((nth 3 rs_atan_AT 0) +: (w *: ((nth 5 rs_atan_AT 0) +: (w *: ((nth 7 rs_atan_AT 0) +: (w *: (nth 9 rs_atan_AT 0))))))))) in
  if id <? 0 then Some (x_1 -: (x_1 *: (s1 +: s2)))
  else 
    let* v0 := tab_get rs_atan_ATANHI (to_u 64 id) in
    let* v1 := tab_get rs_atan_ATANLO (to_u 64 id) in
    let z_2 := v0 -: (((x_1 *: (s1 +: s2)) -: v1) -: x_1) in
    if negb (sign =? 0) then Some (fneg f64 z_2)
    else Some z_2.
(** [atan], libm/src/math/atan.rs lines 69-133 *)
Definition rs_atan (x : Z) : option Z :=
  let x_1 := x in
  let ix := to_u 32 (Z.shiftr x_1 32) in
  let sign := Z.shiftr ix 31 in
  let ix := Z.land ix 0x7fffffff in
  if 0x44100000 <=? ix then
    if is_nan f64 x_1 then Some x_1
    else 
      let z := (nth 3 rs_atan_ATANHI 0) +: 0x3800000 in
      if negb (sign =? 0) then Some (fneg f64 z)
      else Some z
  else if ix <? 0x3fdc0000 then
    if ix <? 0x3e400000 then Some x_1
    else 
      let id := -1 in
      rs_atan_1 x_1 sign id
  else 
    let x_1 := fabs f64 x_1 in
    let '(x_1, id) :=
      (if ix <? 0x3ff30000 then
         let '(x_1, id) :=
           (if ix <? 0x3fe60000 then
              let x_1 := ((0x4000000000000000 (* 2.0 *) *: x_1) -: 0x3ff0000000000000 (* 1.0 *)) /: (0x4000000000000000 (* 2.0 *) +: x_1) in
              let id := 0 in
              (x_1, id)
            else 
              let x_1 := (x_1 -: 0x3ff0000000000000 (* 1.0 *)) /: (x_1 +: 0x3ff0000000000000 (* 1.0 *)) in
              let id := 1 in
              (x_1, id)) in
         (x_1, id)
       else 
         let '(x_1, id) :=
           (if ix <? 0x40038000 then
              let x_1 := (x_1 -: 0x3ff8000000000000 (* 1.5 *)) /: (0x3ff0000000000000 (* 1.0 *) +: (0x3ff8000000000000 (* 1.5 *) *: x_1)) in
              let id := 2 in
              (x_1, id)
            else 
              let x_1 := 0xbff0000000000000 (* -1.0 *) /: x_1 in
              let id := 3 in
              (x_1, id)) in
         (x_1, id)) in
    rs_atan_1 x_1 sign id.

(** * atan2.rs *)
(** libm/src/math/atan2.rs line 42 *)
Definition rs_atan2_PI : Z := 0x400921fb54442d18 (* 3.1415926535897931160E+00 *).
(** libm/src/math/atan2.rs line 43 *)
Definition rs_atan2_PI_LO : Z := 0x3ca1a62633145c07 (* 1.2246467991473531772E-16 *).
(** [atan2], libm/src/math/atan2.rs lines 51-115 *)
Definition rs_atan2 (y x : Z) : option Z :=
  if (is_nan f64 x) || (is_nan f64 y) then Some (x +: y)
  else 
    let ix := to_u 32 (Z.shiftr x 32) in
    let lx := to_u 32 x in
    let iy := to_u 32 (Z.shiftr y 32) in
    let ly := to_u 32 y in
    if (Z.lor (wsub 32 ix 0x3ff00000) lx) =? 0 then rs_atan y
    else 
      let m := Z.lor (Z.land (Z.shiftr iy 31) 1) (Z.land (Z.shiftr ix 30) 2) in
      let ix := Z.land ix 0x7fffffff in
      let iy := Z.land iy 0x7fffffff in
      if (Z.lor iy ly) =? 0 then
        if (m =? 0) || (m =? 1) then Some y
        else if m =? 2 then Some rs_atan2_PI
        else Some (fneg f64 rs_atan2_PI)
      else if (Z.lor ix lx) =? 0 then
        if negb ((Z.land m 1) =? 0) then
          Some ((fneg f64 rs_atan2_PI) /: 0x4000000000000000 (* 2.0 *))
        else Some (rs_atan2_PI /: 0x4000000000000000 (* 2.0 *))
      else if ix =? 0x7ff00000 then
        if iy =? 0x7ff00000 then
          if m =? 0 then Some (rs_atan2_PI /: 0x4010000000000000 (* 4.0 *))
          else if m =? 1 then
            Some ((fneg f64 rs_atan2_PI) /: 0x4010000000000000 (* 4.0 *))
          else if m =? 2 then
            Some ((0x4008000000000000 (* 3.0 *) *: rs_atan2_PI) /: 0x4010000000000000 (* 4.0 *))
          else Some ((0xc008000000000000 (* -3.0 *) *: rs_atan2_PI) /: 0x4010000000000000 (* 4.0 *))
        else if m =? 0 then Some 0 (* 0.0 *)
        else if m =? 1 then Some (fneg f64 0 (* 0.0 *))
        else if m =? 2 then Some rs_atan2_PI
        else Some (fneg f64 rs_atan2_PI)
      else if ((wadd 32 ix 0x4000000) <? iy) || (iy =? 0x7ff00000) then
        if negb ((Z.land m 1) =? 0) then
          Some ((fneg f64 rs_atan2_PI) /: 0x4000000000000000 (* 2.0 *))
        else Some (rs_atan2_PI /: 0x4000000000000000 (* 2.0 *))
      else 
        let* z :=
          (if (negb ((Z.land m 2) =? 0)) && ((wadd 32 iy 0x4000000) <? ix) then Some 0 (* 0.0 *)
           else rs_atan (fabs f64 (y /: x))) in
        if m =? 0 then Some z
        else if m =? 1 then Some (fneg f64 z)
        else if m =? 2 then Some (rs_atan2_PI -: (z -: rs_atan2_PI_LO))
        else Some ((z -: rs_atan2_PI_LO) -: rs_atan2_PI).

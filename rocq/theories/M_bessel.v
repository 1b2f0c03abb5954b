(** Generated by tools/rs2v.py from the Rust sources named in the comments.  [rs_f] is the Rust function [f];
    constants and private functions carry the name of their file.  See DESIGN.md for the reading of Rust. *)
From Coq Require Import ZArith Bool List.
From Verif Require Import Base Spec Format Ieee M_basic M_bits M_scalbn M_fma M_sqrt M_elib M_trig M_log.
Import ListNotations.
Open Scope Z_scope.
Open Scope fl_scope.

(** * j0f.rs *)
(** libm/src/math/j0f.rs line 18 *)
Definition rs_j0f_INVSQRTPI : Z := 0x3f106ebb (* 5.6418961287e-01 *).
(** libm/src/math/j0f.rs line 19 *)
Definition rs_j0f_TPI : Z := 0x3f22f983 (* 6.3661974669e-01 *).
(** libm/src/math/j0f.rs line 56 *)
Definition rs_j0f_R02 : Z := 0x3c800000 (* 1.5625000000e-02 *).
(** libm/src/math/j0f.rs line 57 *)
Definition rs_j0f_R03 : Z := 0xb947352e (* -1.8997929874e-04 *).
(** libm/src/math/j0f.rs line 58 *)
Definition rs_j0f_R04 : Z := 0x35f58e88 (* 1.8295404516e-06 *).
(** libm/src/math/j0f.rs line 59 *)
Definition rs_j0f_R05 : Z := 0xb19eaf3c (* -4.6183270541e-09 *).
(** libm/src/math/j0f.rs line 60 *)
Definition rs_j0f_S01 : Z := 0x3c7fe744 (* 1.5619102865e-02 *).
(** libm/src/math/j0f.rs line 61 *)
Definition rs_j0f_S02 : Z := 0x38f53697 (* 1.1692678527e-04 *).
(** libm/src/math/j0f.rs line 62 *)
Definition rs_j0f_S03 : Z := 0x3509daa6 (* 5.1354652442e-07 *).
(** libm/src/math/j0f.rs line 63 *)
Definition rs_j0f_S04 : Z := 0x30a045e8 (* 1.1661400734e-09 *).
(** libm/src/math/j0f.rs line 100 *)
Definition rs_j0f_U00 : Z := 0xbd9726b5 (* -7.3804296553e-02 *).
(** libm/src/math/j0f.rs line 101 *)
Definition rs_j0f_U01 : Z := 0x3e34e80d (* 1.7666645348e-01 *).
(** libm/src/math/j0f.rs line 102 *)
Definition rs_j0f_U02 : Z := 0xbc626746 (* -1.3818567619e-02 *).
(** libm/src/math/j0f.rs line 103 *)
Definition rs_j0f_U03 : Z := 0x39b62a69 (* 3.4745343146e-04 *).
(** libm/src/math/j0f.rs line 104 *)
Definition rs_j0f_U04 : Z := 0xb67ff53c (* -3.8140706238e-06 *).
(** libm/src/math/j0f.rs line 105 *)
Definition rs_j0f_U05 : Z := 0x32a802ba (* 1.9559013964e-08 *).
(** libm/src/math/j0f.rs line 106 *)
Definition rs_j0f_U06 : Z := 0xae2f21eb (* -3.9820518410e-11 *).
(** libm/src/math/j0f.rs line 107 *)
Definition rs_j0f_V01 : Z := 0x3c509385 (* 1.2730483897e-02 *).
(** libm/src/math/j0f.rs line 108 *)
Definition rs_j0f_V02 : Z := 0x389f65e0 (* 7.6006865129e-05 *).
(** libm/src/math/j0f.rs line 109 *)
Definition rs_j0f_V03 : Z := 0x348b216c (* 2.5915085189e-07 *).
(** libm/src/math/j0f.rs line 110 *)
Definition rs_j0f_V04 : Z := 0x2ff280c2 (* 4.4111031494e-10 *).
(** libm/src/math/j0f.rs lines 155-163 *)
Definition rs_j0f_PR8 : list Z :=
  [0 (* 0.0000000000e+00 *);
   0xbd900000 (* -7.0312500000e-02 *);
   0xc1014e86 (* -8.0816707611e+00 *);
   0xc3808814 (* -2.5706311035e+02 *);
   0xc51b5376 (* -2.4852163086e+03 *);
   0xc5a4285a (* -5.2530439453e+03 *)].
(** libm/src/math/j0f.rs lines 164-170 *)
Definition rs_j0f_PS8 : list Z :=
  [0x42e91198 (* 1.1653436279e+02 *);
   0x456f9beb (* 3.8337448730e+03 *);
   0x471e95db (* 4.0597855469e+04 *);
   0x47e4087c (* 1.1675296875e+05 *);
   0x473a0bba (* 4.7627726562e+04 *)].
(** libm/src/math/j0f.rs lines 171-179 *)
Definition rs_j0f_PR5 : list Z :=
  [0xad48c58a (* -1.1412546255e-11 *);
   0xbd8fffff (* -7.0312492549e-02 *);
   0xc0851b88 (* -4.1596107483e+00 *);
   0xc287597b (* -6.7674766541e+01 *);
   0xc3a59d9b (* -3.3123129272e+02 *);
   0xc3ad3779 (* -3.4643338013e+02 *)].
(** libm/src/math/j0f.rs lines 180-186 *)
Definition rs_j0f_PS5 : list Z :=
  [0x42730408 (* 6.0753936768e+01 *);
   0x44836813 (* 1.0512523193e+03 *);
   0x45bad7c4 (* 5.9789707031e+03 *);
   0x461665c8 (* 9.6254453125e+03 *);
   0x451660ee (* 2.4060581055e+03 *)].
(** libm/src/math/j0f.rs lines 188-196 *)
Definition rs_j0f_PR3 : list Z :=
  [0xb12f081b (* -2.5470459075e-09 *);
   0xbd8fffb8 (* -7.0311963558e-02 *);
   0xc01a2d95 (* -2.4090321064e+00 *);
   0xc1afba52 (* -2.1965976715e+01 *);
   0xc2685112 (* -5.8079170227e+01 *);
   0xc1fb9565 (* -3.1447946548e+01 *)].
(** libm/src/math/j0f.rs lines 197-203 *)
Definition rs_j0f_PS3 : list Z :=
  [0x420f6c94 (* 3.5856033325e+01 *);
   0x43b4c1ca (* 3.6151397705e+02 *);
   0x44953373 (* 1.1936077881e+03 *);
   0x448cffe6 (* 1.1279968262e+03 *);
   0x432d94b8 (* 1.7358093262e+02 *)].
(** libm/src/math/j0f.rs lines 205-213 *)
Definition rs_j0f_PR2 : list Z :=
  [0xb3be98b7 (* -8.8753431271e-08 *);
   0xbd8ffb12 (* -7.0303097367e-02 *);
   0xbfb9b1cc (* -1.4507384300e+00 *);
   0xc0f4579f (* -7.6356959343e+00 *);
   0xc1331736 (* -1.1193166733e+01 *);
   0xc04ef40d (* -3.2336456776e+00 *)].
(** libm/src/math/j0f.rs lines 214-220 *)
Definition rs_j0f_PS2 : list Z :=
  [0x41b1c32d (* 2.2220300674e+01 *);
   0x430834f0 (* 1.3620678711e+02 *);
   0x43873c32 (* 2.7047027588e+02 *);
   0x4319e01a (* 1.5387539673e+02 *);
   0x416a859a (* 1.4657617569e+01 *)].
(** libm/src/math/j0f.rs lines 262-270 *)
Definition rs_j0f_QR8 : list Z :=
  [0 (* 0.0000000000e+00 *);
   0x3d960000 (* 7.3242187500e-02 *);
   0x413c4a93 (* 1.1768206596e+01 *);
   0x440b6b19 (* 5.5767340088e+02 *);
   0x460a6cca (* 8.8591972656e+03 *);
   0x471096a0 (* 3.7014625000e+04 *)].
(** libm/src/math/j0f.rs lines 271-278 *)
Definition rs_j0f_QS8 : list Z :=
  [0x4323c6aa (* 1.6377603149e+02 *);
   0x45fd12c2 (* 8.0983447266e+03 *);
   0x480b3293 (* 1.4253829688e+05 *);
   0x49441ed4 (* 8.0330925000e+05 *);
   0x494d3359 (* 8.4050156250e+05 *);
   0xc8a7eb69 (* -3.4389928125e+05 *)].
(** libm/src/math/j0f.rs lines 280-288 *)
Definition rs_j0f_QR5 : list Z :=
  [0x2da1ec79 (* 1.8408595828e-11 *);
   0x3d95ffff (* 7.3242180049e-02 *);
   0x40babd86 (* 5.8356351852e+00 *);
   0x43071c90 (* 1.3511157227e+02 *);
   0x448067cd (* 1.0272437744e+03 *);
   0x44f8bf4b (* 1.9899779053e+03 *)].
(** libm/src/math/j0f.rs lines 289-296 *)
Definition rs_j0f_QS5 : list Z :=
  [0x42a58da0 (* 8.2776611328e+01 *);
   0x4501dd07 (* 2.0778142090e+03 *);
   0x46933e94 (* 1.8847289062e+04 *);
   0x475daf1d (* 5.6751113281e+04 *);
   0x470c88c1 (* 3.5976753906e+04 *);
   0xc5a752be (* -5.3543427734e+03 *)].
(** libm/src/math/j0f.rs lines 298-306 *)
Definition rs_j0f_QR3 : list Z :=
  [0x3196681b (* 4.3774099900e-09 *);
   0x3d95ff70 (* 7.3241114616e-02 *);
   0x405607e3 (* 3.3442313671e+00 *);
   0x422a7cc5 (* 4.2621845245e+01 *);
   0x432acedf (* 1.7080809021e+02 *);
   0x4326bbe4 (* 1.6673394775e+02 *)].
(** libm/src/math/j0f.rs lines 307-314 *)
Definition rs_j0f_QS3 : list Z :=
  [0x42430916 (* 4.8758872986e+01 *);
   0x44316c1c (* 7.0968920898e+02 *);
   0x4567825f (* 3.7041481934e+03 *);
   0x45c9e367 (* 6.4604252930e+03 *);
   0x451d4557 (* 2.5163337402e+03 *);
   0xc3153f59 (* -1.4924745178e+02 *)].
(** libm/src/math/j0f.rs lines 316-324 *)
Definition rs_j0f_QR2 : list Z :=
  [0x342189db (* 1.5044444979e-07 *);
   0x3d95f62a (* 7.3223426938e-02 *);
   0x3fffc4bf (* 1.9981917143e+00 *);
   0x4167edfd (* 1.4495602608e+01 *);
   0x41fd5471 (* 3.1666231155e+01 *);
   0x4182058c (* 1.6252708435e+01 *)].
(** libm/src/math/j0f.rs lines 325-332 *)
Definition rs_j0f_QS2 : list Z :=
  [0x41f2ecb8 (* 3.0365585327e+01 *);
   0x4386ac8f (* 2.6934811401e+02 *);
   0x44533229 (* 8.4478375244e+02 *);
   0x445cbbe5 (* 8.8293585205e+02 *);
   0x4354aa98 (* 2.1266638184e+02 *);
   0xc0a9f358 (* -5.3109550476e+00 *)].
(** [pzerof], libm/src/math/j0f.rs lines 222-251 *)
Definition rs_j0f_pzerof (x : Z) : Z :=
  let ix := x in
  let ix := Z.land ix 0x7fffffff in
  let '(p, q) :=
    (if 0x41000000 <=? ix then
       let p := rs_j0f_PR8 in
       let q := rs_j0f_PS8 in
       (p, q)
     else 
       let '(p, q) :=
         (if 0x409173eb <=? ix then
            let p := rs_j0f_PR5 in
            let q := rs_j0f_PS5 in
            (p, q)
          else 
            let '(p, q) :=
              (if 0x4036d917 <=? ix then
                 let p := rs_j0f_PR3 in
                 let q := rs_j0f_PS3 in
                 (p, q)
               else 
                 let p := rs_j0f_PR2 in
                 let q := rs_j0f_PS2 in
                 (p, q)) in
            (p, q)) in
       (p, q)) in
  let z := 0x3f800000 (* 1.0 *) /' (x *' x) in
  let r := (nth 0 p 0) +' (z *' ((nth 1 p 0) +' (z *' ((nth 2 p 0) +' (z *' ((nth 3 p 0) +' (z *' ((nth 4 p 0) +' (z *' (nth 5 p 0)))))))))) in
  let s := 0x3f800000 (* 1.0 *) +' (z *' ((nth 0 q 0) +' (z *' ((nth 1 q 0) +' (z *' ((nth 2 q 0) +' (z *' ((nth 3 q 0) +' (z *' (nth 4 q 0)))))))))) in
  (0x3f800000 (* 1.0 *) +' (r /' s)).
(** [qzerof], libm/src/math/j0f.rs lines 334-363 *)
Definition rs_j0f_qzerof (x : Z) : Z :=
  let ix := x in
  let ix := Z.land ix 0x7fffffff in
  let '(p, q) :=
    (if 0x41000000 <=? ix then
       let p := rs_j0f_QR8 in
       let q := rs_j0f_QS8 in
       (p, q)
     else 
       let '(p, q) :=
         (if 0x409173eb <=? ix then
            let p := rs_j0f_QR5 in
            let q := rs_j0f_QS5 in
            (p, q)
          else 
            let '(p, q) :=
              (if 0x4036d917 <=? ix then
                 let p := rs_j0f_QR3 in
                 let q := rs_j0f_QS3 in
                 (p, q)
               else 
                 let p := rs_j0f_QR2 in
                 let q := rs_j0f_QS2 in
                 (p, q)) in
            (p, q)) in
       (p, q)) in
  let z := 0x3f800000 (* 1.0 *) /' (x *' x) in
  let r := (nth 0 p 0) +' (z *' ((nth 1 p 0) +' (z *' ((nth 2 p 0) +' (z *' ((nth 3 p 0) +' (z *' ((nth 4 p 0) +' (z *' (nth 5 p 0)))))))))) in
  let s := 0x3f800000 (* 1.0 *) +' (z *' ((nth 0 q 0) +' (z *' ((nth 1 q 0) +' (z *' ((nth 2 q 0) +' (z *' ((nth 3 q 0) +' (z *' ((nth 4 q 0) +' (z *' (nth 5 q 0)))))))))))) in
  ((0xbe000000 (* -0.125 *) +' (r /' s)) /' x).
(** [common], libm/src/math/j0f.rs lines 21-53 *)
Definition rs_j0f_common (ix x : Z) (y0 : bool) : option Z :=
  let* s := rs_sinf x in
  let* c := rs_cosf x in
  let c :=
    (if y0 then
       let c := fneg f32 c in
       c
     else c) in
  let cc := s +' c in
  let* cc :=
    (if ix <? 0x7f000000 then
       let ss := s -' c in
       let* v3 := rs_cosf (0x40000000 (* 2.0 *) *' x) in
       let z := fneg f32 v3 in
       let '(cc, ss) :=
         (if flt f32 (s *' c) 0 (* 0.0 *) then
            let cc := z /' ss in
            (cc, ss)
          else 
            let ss := z /' cc in
            (cc, ss)) in
       let cc :=
         (if ix <? 0x58800000 then
            let ss :=
              (if y0 then
                 let ss := fneg f32 ss in
                 ss
               else ss) in
            let cc := ((rs_j0f_pzerof x) *' cc) -' ((rs_j0f_qzerof x) *' ss) in
            cc
          else cc) in
       Some cc
     else Some cc) in
  let* v4 := M_sqrt.sqrtf x in
  Some ((rs_j0f_INVSQRTPI *' cc) /' v4).
(** [j0f], libm/src/math/j0f.rs lines 67-98 *)
Definition rs_j0f (x : Z) : option Z :=
  let ix := x in
  let ix := Z.land ix 0x7fffffff in
  if 0x7f800000 <=? ix then Some (0x3f800000 (* 1.0 *) /' (x *' x))
  else 
    let x := fabs f32 x in
    if 0x40000000 <=? ix then rs_j0f_common ix x false
    else if 0x3a000000 <=? ix then
      let z := x *' x in
      let r := z *' (rs_j0f_R02 +' (z *' (rs_j0f_R03 +' (z *' (rs_j0f_R04 +' (z *' rs_j0f_R05)))))) in
      let s := 0x3f800000 (* 1.0 *) +' (z *' (rs_j0f_S01 +' (z *' (rs_j0f_S02 +' (z *' (rs_j0f_S03 +' (z *' rs_j0f_S04))))))) in
      Some (((0x3f800000 (* 1.0 *) +' (x /' 0x40000000 (* 2.0 *))) *' (0x3f800000 (* 1.0 *) -' (x /' 0x40000000 (* 2.0 *)))) +' (z *' (r /' s)))
    else 
      let x :=
        (if 0x21800000 <=? ix then
           let x := (0x3e800000 (* 0.25 *) *' x) *' x in
           x
         else x) in
      Some (0x3f800000 (* 1.0 *) -' x).
(** [y0f], libm/src/math/j0f.rs lines 114-144 *)
Definition rs_y0f (x : Z) : option Z :=
  let ix := x in
  if (Z.land ix 0x7fffffff) =? 0 then Some (0xbf800000 (* -1.0 *) /' 0 (* 0.0 *))
  else if negb ((Z.shiftr ix 31) =? 0) then Some (0 (* 0.0 *) /' 0 (* 0.0 *))
  else if 0x7f800000 <=? ix then Some (0x3f800000 (* 1.0 *) /' x)
  else if 0x40000000 <=? ix then rs_j0f_common ix x true
  else if 0x39000000 <=? ix then
    let z := x *' x in
    let u := rs_j0f_U00 +' (z *' (rs_j0f_U01 +' (z *' (rs_j0f_U02 +' (z *' (rs_j0f_U03 +' (z *' (rs_j0f_U04 +' (z *' (rs_j0f_U05 +' (z *' rs_j0f_U06))))))))))) in
    let v := 0x3f800000 (* 1.0 *) +' (z *' (rs_j0f_V01 +' (z *' (rs_j0f_V02 +' (z *' (rs_j0f_V03 +' (z *' rs_j0f_V04))))))) in
    let* v1 := rs_j0f x in
    let* v2 := rs_logf x in
    Some ((u /' v) +' (rs_j0f_TPI *' (v1 *' v2)))
  else 
    let* v3 := rs_logf x in
    Some (rs_j0f_U00 +' (rs_j0f_TPI *' v3)).

(** * j1f.rs *)
(** libm/src/math/j1f.rs line 18 *)
Definition rs_j1f_INVSQRTPI : Z := 0x3f106ebb (* 5.6418961287e-01 *).
(** libm/src/math/j1f.rs line 19 *)
Definition rs_j1f_TPI : Z := 0x3f22f983 (* 6.3661974669e-01 *).
(** libm/src/math/j1f.rs line 56 *)
Definition rs_j1f_R00 : Z := 0xbd800000 (* -6.2500000000e-02 *).
(** libm/src/math/j1f.rs line 57 *)
Definition rs_j1f_R01 : Z := 0x3ab86cfd (* 1.4070566976e-03 *).
(** libm/src/math/j1f.rs line 58 *)
Definition rs_j1f_R02 : Z := 0xb7862e36 (* -1.5995563444e-05 *).
(** libm/src/math/j1f.rs line 59 *)
Definition rs_j1f_R03 : Z := 0x335557d2 (* 4.9672799207e-08 *).
(** libm/src/math/j1f.rs line 60 *)
Definition rs_j1f_S01 : Z := 0x3c9ce859 (* 1.9153760746e-02 *).
(** libm/src/math/j1f.rs line 61 *)
Definition rs_j1f_S02 : Z := 0x3942fab6 (* 1.8594678841e-04 *).
(** libm/src/math/j1f.rs line 62 *)
Definition rs_j1f_S03 : Z := 0x359dffc2 (* 1.1771846857e-06 *).
(** libm/src/math/j1f.rs line 63 *)
Definition rs_j1f_S04 : Z := 0x31ad6446 (* 5.0463624390e-09 *).
(** libm/src/math/j1f.rs line 64 *)
Definition rs_j1f_S05 : Z := 0x2d59567e (* 1.2354227016e-11 *).
(** libm/src/math/j1f.rs lines 97-103 *)
Definition rs_j1f_U0 : list Z :=
  [0xbe48c331 (* -1.9605709612e-01 *);
   0x3d4e9e3c (* 5.0443872809e-02 *);
   0xbafaaf2a (* -1.9125689287e-03 *);
   0x37c5581c (* 2.3525259166e-05 *);
   0xb3c56003 (* -9.1909917899e-08 *)].
(** libm/src/math/j1f.rs lines 104-110 *)
Definition rs_j1f_V0 : list Z :=
  [0x3ca3286a (* 1.9916731864e-02 *);
   0x3954644b (* 2.0255257550e-04 *);
   0x35b602d4 (* 1.3560879779e-06 *);
   0x31d5f8eb (* 6.2274145840e-09 *);
   0x2d9281cf (* 1.6655924903e-11 *)].
(** libm/src/math/j1f.rs lines 154-162 *)
Definition rs_j1f_PR8 : list Z :=
  [0 (* 0.0000000000e+00 *);
   0x3df00000 (* 1.1718750000e-01 *);
   0x4153d4ea (* 1.3239480972e+01 *);
   0x43ce06a3 (* 4.1205184937e+02 *);
   0x45722bed (* 3.8747453613e+03 *);
   0x45f753d6 (* 7.9144794922e+03 *)].
(** libm/src/math/j1f.rs lines 163-169 *)
Definition rs_j1f_PS8 : list Z :=
  [0x42e46a2c (* 1.1420736694e+02 *);
   0x45642ee5 (* 3.6509309082e+03 *);
   0x47105c35 (* 3.6956207031e+04 *);
   0x47bea166 (* 9.7602796875e+04 *);
   0x46f0a88b (* 3.0804271484e+04 *)].
(** libm/src/math/j1f.rs lines 171-179 *)
Definition rs_j1f_PR5 : list Z :=
  [0x2d68333f (* 1.3199052094e-11 *);
   0x3defffff (* 1.1718749255e-01 *);
   0x40d9b023 (* 6.8027510643e+00 *);
   0x42d89dca (* 1.0830818176e+02 *);
   0x440168b7 (* 5.1763616943e+02 *);
   0x44042dc6 (* 5.2871520996e+02 *)].
(** libm/src/math/j1f.rs lines 180-186 *)
Definition rs_j1f_PS5 : list Z :=
  [0x426d1f55 (* 5.9280597687e+01 *);
   0x4477d9b1 (* 9.9140142822e+02 *);
   0x45a74a23 (* 5.3532670898e+03 *);
   0x45f52586 (* 7.8446904297e+03 *);
   0x44bc0180 (* 1.5040468750e+03 *)].
(** libm/src/math/j1f.rs lines 188-195 *)
Definition rs_j1f_PR3 : list Z :=
  [0x314fe10d (* 3.0250391081e-09 *);
   0x3defffab (* 1.1718686670e-01 *);
   0x407bb5e7 (* 3.9329774380e+00 *);
   0x420c7a45 (* 3.5119403839e+01 *);
   0x42b61c2a (* 9.1055007935e+01 *);
   0x42423c7c (* 4.8559066772e+01 *)].
(** libm/src/math/j1f.rs lines 196-202 *)
Definition rs_j1f_PS3 : list Z :=
  [0x420b2a4d (* 3.4791309357e+01 *);
   0x43a86198 (* 3.3676245117e+02 *);
   0x4482dbe3 (* 1.0468714600e+03 *);
   0x445eb3ed (* 8.9081134033e+02 *);
   0x42cf936c (* 1.0378793335e+02 *)].
(** libm/src/math/j1f.rs lines 204-212 *)
Definition rs_j1f_PR2 : list Z :=
  [0x33e74ea8 (* 1.0771083225e-07 *);
   0x3deffa16 (* 1.1717621982e-01 *);
   0x401795c0 (* 2.3685150146e+00 *);
   0x4143e1bc (* 1.2242610931e+01 *);
   0x418d8d41 (* 1.7693971634e+01 *);
   0x40a25a4d (* 5.0735230446e+00 *)].
(** libm/src/math/j1f.rs lines 213-219 *)
Definition rs_j1f_PS2 : list Z :=
  [0x41ab7dec (* 2.1436485291e+01 *);
   0x42fa9499 (* 1.2529022980e+02 *);
   0x436846c7 (* 2.3227647400e+02 *);
   0x42eb5bd7 (* 1.1767937469e+02 *);
   0x4105d590 (* 8.3646392822e+00 *)].
(** libm/src/math/j1f.rs lines 262-270 *)
Definition rs_j1f_QR8 : list Z :=
  [0 (* 0.0000000000e+00 *);
   0xbdd20000 (* -1.0253906250e-01 *);
   0xc1822c8d (* -1.6271753311e+01 *);
   0xc43de683 (* -7.5960174561e+02 *);
   0xc639273a (* -1.1849806641e+04 *);
   0xc73d3683 (* -4.8438511719e+04 *)].
(** libm/src/math/j1f.rs lines 271-278 *)
Definition rs_j1f_QS8 : list Z :=
  [0x43216537 (* 1.6139537048e+02 *);
   0x45f48b17 (* 7.8253862305e+03 *);
   0x4802bcd6 (* 1.3387534375e+05 *);
   0x492fb29c (* 7.1965775000e+05 *);
   0x4922be94 (* 6.6660125000e+05 *);
   0xc88fcb48 (* -2.9449025000e+05 *)].
(** libm/src/math/j1f.rs lines 280-288 *)
Definition rs_j1f_QR5 : list Z :=
  [0xadb7d219 (* -2.0897993405e-11 *);
   0xbdd1fffe (* -1.0253904760e-01 *);
   0xc100e736 (* -8.0564479828e+00 *);
   0xc337ab6b (* -1.8366960144e+02 *);
   0xc4aba633 (* -1.3731937256e+03 *);
   0xc523471c (* -2.6124443359e+03 *)].
(** libm/src/math/j1f.rs lines 289-296 *)
Definition rs_j1f_QS5 : list Z :=
  [0x42a28d98 (* 8.1276550293e+01 *);
   0x44f8f98f (* 1.9917987061e+03 *);
   0x468878f8 (* 1.7468484375e+04 *);
   0x4742bb6d (* 4.9851425781e+04 *);
   0x46da5826 (* 2.7948074219e+04 *);
   0xc5937978 (* -4.7191835938e+03 *)].
(** libm/src/math/j1f.rs lines 298-305 *)
Definition rs_j1f_QR3 : list Z :=
  [0xb1ae7d4f (* -5.0783124372e-09 *);
   0xbdd1ff5b (* -1.0253783315e-01 *);
   0xc0938612 (* -4.6101160049e+00 *);
   0xc267638e (* -5.7847221375e+01 *);
   0xc3643e9a (* -2.2824453735e+02 *);
   0xc35b35cb (* -2.1921012878e+02 *)].
(** libm/src/math/j1f.rs lines 306-313 *)
Definition rs_j1f_QS3 : list Z :=
  [0x423ea91e (* 4.7665153503e+01 *);
   0x4428775e (* 6.7386511230e+02 *);
   0x45534272 (* 3.3801528320e+03 *);
   0x45ad5dd5 (* 5.5477290039e+03 *);
   0x44ede3d0 (* 1.9031191406e+03 *);
   0xc3073381 (* -1.3520118713e+02 *)].
(** libm/src/math/j1f.rs lines 315-323 *)
Definition rs_j1f_QR2 : list Z :=
  [0xb43f8932 (* -1.7838172539e-07 *);
   0xbdd1f475 (* -1.0251704603e-01 *);
   0xc0302423 (* -2.7522056103e+00 *);
   0xc19d4f16 (* -1.9663616180e+01 *);
   0xc2294d1f (* -4.2325313568e+01 *);
   0xc1aaf9b2 (* -2.1371921539e+01 *)].
(** libm/src/math/j1f.rs lines 324-331 *)
Definition rs_j1f_QS2 : list Z :=
  [0x41ec4454 (* 2.9533363342e+01 *);
   0x437cfb47 (* 2.5298155212e+02 *);
   0x443d602e (* 7.5750280762e+02 *);
   0x4438d92a (* 7.3939318848e+02 *);
   0x431bf2f2 (* 1.5594900513e+02 *);
   0xc09eb437 (* -4.9594988823e+00 *)].
(** [ponef], libm/src/math/j1f.rs lines 221-250 *)
Definition rs_j1f_ponef (x : Z) : Z :=
  let ix := x in
  let ix := Z.land ix 0x7fffffff in
  let '(p, q) :=
    (if 0x41000000 <=? ix then
       let p := rs_j1f_PR8 in
       let q := rs_j1f_PS8 in
       (p, q)
     else 
       let '(p, q) :=
         (if 0x409173eb <=? ix then
            let p := rs_j1f_PR5 in
            let q := rs_j1f_PS5 in
            (p, q)
          else 
            let '(p, q) :=
              (if 0x4036d917 <=? ix then
                 let p := rs_j1f_PR3 in
                 let q := rs_j1f_PS3 in
                 (p, q)
               else 
                 let p := rs_j1f_PR2 in
                 let q := rs_j1f_PS2 in
                 (p, q)) in
            (p, q)) in
       (p, q)) in
  let z := 0x3f800000 (* 1.0 *) /' (x *' x) in
  let r := (nth 0 p 0) +' (z *' ((nth 1 p 0) +' (z *' ((nth 2 p 0) +' (z *' ((nth 3 p 0) +' (z *' ((nth 4 p 0) +' (z *' (nth 5 p 0)))))))))) in
  let s := 0x3f800000 (* 1.0 *) +' (z *' ((nth 0 q 0) +' (z *' ((nth 1 q 0) +' (z *' ((nth 2 q 0) +' (z *' ((nth 3 q 0) +' (z *' (nth 4 q 0)))))))))) in
  (0x3f800000 (* 1.0 *) +' (r /' s)).
(** [qonef], libm/src/math/j1f.rs lines 333-362 *)
Definition rs_j1f_qonef (x : Z) : Z :=
  let ix := x in
  let ix := Z.land ix 0x7fffffff in
  let '(p, q) :=
    (if 0x41000000 <=? ix then
       let p := rs_j1f_QR8 in
       let q := rs_j1f_QS8 in
       (p, q)
     else 
       let '(p, q) :=
         (if 0x409173eb <=? ix then
            let p := rs_j1f_QR5 in
            let q := rs_j1f_QS5 in
            (p, q)
          else 
            let '(p, q) :=
              (if 0x4036d917 <=? ix then
                 let p := rs_j1f_QR3 in
                 let q := rs_j1f_QS3 in
                 (p, q)
               else 
                 let p := rs_j1f_QR2 in
                 let q := rs_j1f_QS2 in
                 (p, q)) in
            (p, q)) in
       (p, q)) in
  let z := 0x3f800000 (* 1.0 *) /' (x *' x) in
  let r := (nth 0 p 0) +' (z *' ((nth 1 p 0) +' (z *' ((nth 2 p 0) +' (z *' ((nth 3 p 0) +' (z *' ((nth 4 p 0) +' (z *' (nth 5 p 0)))))))))) in
  let s := 0x3f800000 (* 1.0 *) +' (z *' ((nth 0 q 0) +' (z *' ((nth 1 q 0) +' (z *' ((nth 2 q 0) +' (z *' ((nth 3 q 0) +' (z *' ((nth 4 q 0) +' (z *' (nth 5 q 0)))))))))))) in
  ((0x3ec00000 (* 0.375 *) +' (r /' s)) /' x).
(** [common], libm/src/math/j1f.rs lines 21-53 *)
Definition rs_j1f_common (ix x : Z) (y1 sign : bool) : option Z :=
  let* v0 := rs_sinf x in
  let s := fcvt f32 f64 v0 in
  let s :=
    (if y1 then
       let s := fneg f64 s in
       s
     else s) in
  let* v1 := rs_cosf x in
  let c := fcvt f32 f64 v1 in
  let cc := s -: c in
  let* cc :=
    (if ix <? 0x7f000000 then
       let ss := (fneg f64 s) -: c in
       let* v3 := rs_cosf (0x40000000 (* 2.0 *) *' x) in
       let z := fcvt f32 f64 v3 in
       let '(cc, ss) :=
         (if fgt f64 (s *: c) 0 (* 0.0 *) then
            let cc := z /: ss in
            (cc, ss)
          else 
            let ss := z /: cc in
            (cc, ss)) in
       let cc :=
         (if ix <? 0x58800000 then
            let ss :=
              (if y1 then
                 let ss := fneg f64 ss in
                 ss
               else ss) in
            let cc := ((fcvt f32 f64 (rs_j1f_ponef x)) *: cc) -: ((fcvt f32 f64 (rs_j1f_qonef x)) *: ss) in
            cc
          else cc) in
       Some cc
     else Some cc) in
  let cc :=
    (if sign then
       let cc := fneg f64 cc in
       cc
     else cc) in
  let* v4 := M_sqrt.sqrtf x in
  Some (fcvt f64 f32 (((fcvt f32 f64 rs_j1f_INVSQRTPI) *: cc) /: (fcvt f32 f64 v4))).
(** [j1f], libm/src/math/j1f.rs lines 68-95 *)
Definition rs_j1f (x : Z) : option Z :=
  let ix := x in
  let sign := negb ((Z.shiftr ix 31) =? 0) in
  let ix := Z.land ix 0x7fffffff in
  if 0x7f800000 <=? ix then Some (0x3f800000 (* 1.0 *) /' (x *' x))
  else if 0x40000000 <=? ix then rs_j1f_common ix (fabs f32 x) false sign
  else 
    let z :=
      (if 0x39000000 <=? ix then
         let z := x *' x in
         let r := z *' (rs_j1f_R00 +' (z *' (rs_j1f_R01 +' (z *' (rs_j1f_R02 +' (z *' rs_j1f_R03)))))) in
         let s := 0x3f800000 (* 1.0 *) +' (z *' (rs_j1f_S01 +' (z *' (rs_j1f_S02 +' (z *' (rs_j1f_S03 +' (z *' (rs_j1f_S04 +' (z *' rs_j1f_S05))))))))) in
         let z := 0x3f000000 (* 0.5 *) +' (r /' s) in
         z
       else 
         let z := 0x3f000000 (* 0.5 *) in
         z) in
    Some (z *' x).
(** [y1f], libm/src/math/j1f.rs lines 114-142 *)
Definition rs_y1f (x : Z) : option Z :=
  let ix := x in
  if (Z.land ix 0x7fffffff) =? 0 then Some (0xbf800000 (* -1.0 *) /' 0 (* 0.0 *))
  else if negb ((Z.shiftr ix 31) =? 0) then Some (0 (* 0.0 *) /' 0 (* 0.0 *))
  else if 0x7f800000 <=? ix then Some (0x3f800000 (* 1.0 *) /' x)
  else if 0x40000000 <=? ix then rs_j1f_common ix x true false
  else if ix <? 0x33000000 then Some ((fneg f32 rs_j1f_TPI) /' x)
  else 
    let z := x *' x in
    let u := (nth 0 rs_j1f_U0 0) +' (z *' ((nth 1 rs_j1f_U0 0) +' (z *' ((nth 2 rs_j1f_U0 0) +' (z *' ((nth 3 rs_j1f_U0 0) +' (z *' (nth 4 rs_j1f_U0 0)))))))) in
    let v := 0x3f800000 (* 1.0 *) +' (z *' ((nth 0 rs_j1f_V0 0) +' (z *' ((nth 1 rs_j1f_V0 0) +' (z *' ((nth 2 rs_j1f_V0 0) +' (z *' ((nth 3 rs_j1f_V0 0) +' (z *' (nth 4 rs_j1f_V0 0)))))))))) in
    let* v1 := rs_j1f x in
    let* v2 := rs_logf x in
    Some ((x *' (u /' v)) +' (rs_j1f_TPI *' ((v1 *' v2) -' (0x3f800000 (* 1.0 *) /' x)))).

(** * j0.rs *)
(** libm/src/math/j0.rs line 58 *)
Definition rs_j0_INVSQRTPI : Z := 0x3fe20dd750429b6d (* 5.64189583547756279280e-01 *).
(** libm/src/math/j0.rs line 59 *)
Definition rs_j0_TPI : Z := 0x3fe45f306dc9c883 (* 6.36619772367581382433e-01 *).
(** libm/src/math/j0.rs line 103 *)
Definition rs_j0_R02 : Z := 0x3f8ffffffffffffd (* 1.56249999999999947958e-02 *).
(** libm/src/math/j0.rs line 104 *)
Definition rs_j0_R03 : Z := 0xbf28e6a5b61ac6e9 (* -1.89979294238854721751e-04 *).
(** libm/src/math/j0.rs line 105 *)
Definition rs_j0_R04 : Z := 0x3ebeb1d10c503919 (* 1.82954049532700665670e-06 *).
(** libm/src/math/j0.rs line 106 *)
Definition rs_j0_R05 : Z := 0xbe33d5e773d63fce (* -4.61832688532103189199e-09 *).
(** libm/src/math/j0.rs line 107 *)
Definition rs_j0_S01 : Z := 0x3f8ffce882c8c2a4 (* 1.56191029464890010492e-02 *).
(** libm/src/math/j0.rs line 108 *)
Definition rs_j0_S02 : Z := 0x3f1ea6d2dd57dbf4 (* 1.16926784663337450260e-04 *).
(** libm/src/math/j0.rs line 109 *)
Definition rs_j0_S03 : Z := 0x3ea13b54ce84d5a9 (* 5.13546550207318111446e-07 *).
(** libm/src/math/j0.rs line 110 *)
Definition rs_j0_S04 : Z := 0x3e1408bcf4745d8f (* 1.16614003333790000205e-09 *).
(** libm/src/math/j0.rs line 155 *)
Definition rs_j0_U00 : Z := 0xbfb2e4d699cbd01f (* -7.38042951086872317523e-02 *).
(** libm/src/math/j0.rs line 156 *)
Definition rs_j0_U01 : Z := 0x3fc69d019de9e3fc (* 1.76666452509181115538e-01 *).
(** libm/src/math/j0.rs line 157 *)
Definition rs_j0_U02 : Z := 0xbf8c4ce8b16cfa97 (* -1.38185671945596898896e-02 *).
(** libm/src/math/j0.rs line 158 *)
Definition rs_j0_U03 : Z := 0x3f36c54d20b29b6b (* 3.47453432093683650238e-04 *).
(** libm/src/math/j0.rs line 159 *)
Definition rs_j0_U04 : Z := 0xbecffea773d25cad (* -3.81407053724364161125e-06 *).
(** libm/src/math/j0.rs line 160 *)
Definition rs_j0_U05 : Z := 0x3e5500573b4eabd4 (* 1.95590137035022920206e-08 *).
(** libm/src/math/j0.rs line 161 *)
Definition rs_j0_U06 : Z := 0xbdc5e43d693fb3c8 (* -3.98205194132103398453e-11 *).
(** libm/src/math/j0.rs line 162 *)
Definition rs_j0_V01 : Z := 0x3f8a127091c9c71a (* 1.27304834834123699328e-02 *).
(** libm/src/math/j0.rs line 163 *)
Definition rs_j0_V02 : Z := 0x3f13ecbbf578c6c1 (* 7.60068627350353253702e-05 *).
(** libm/src/math/j0.rs line 164 *)
Definition rs_j0_V03 : Z := 0x3e91642d7ff202fd (* 2.59150851840457805467e-07 *).
(** libm/src/math/j0.rs line 165 *)
Definition rs_j0_V04 : Z := 0x3dfe50183bd6d9ef (* 4.41110311332675467403e-10 *).
(** libm/src/math/j0.rs lines 217-225 *)
Definition rs_j0_PR8 : list Z :=
  [0 (* 0.00000000000000000000e+00 *);
   0xbfb1fffffffffd32 (* -7.03124999999900357484e-02 *);
   0xc02029d0b44fa779 (* -8.08167041275349795626e+00 *);
   0xc07011027b19e863 (* -2.57063105679704847262e+02 *);
   0xc0a36a6ecd4dcafc (* -2.48521641009428822144e+03 *);
   0xc0b4850b36cc643d (* -5.25304380490729545272e+03 *)].
(** libm/src/math/j0.rs lines 226-232 *)
Definition rs_j0_PS8 : list Z :=
  [0x405d223307a96751 (* 1.16534364619668181717e+02 *);
   0x40adf37d50596938 (* 3.83374475364121826715e+03 *);
   0x40e3d2bb6eb6b05f (* 4.05978572648472545552e+04 *);
   0x40fc810f8f9fa9bd (* 1.16752972564375915681e+05 *);
   0x40e741774f2c49dc (* 4.76277284146730962675e+04 *)].
(** libm/src/math/j0.rs lines 234-242 *)
Definition rs_j0_PR5 : list Z :=
  [0xbda918b147e495cc (* -1.14125464691894502584e-11 *);
   0xbfb1ffffe69afbc6 (* -7.03124940873599280078e-02 *);
   0xc010a370f90c6bbf (* -4.15961064470587782438e+00 *);
   0xc050eb2f5a7d1783 (* -6.76747652265167261021e+01 *);
   0xc074b3b36742cc63 (* -3.31231299649172967747e+02 *);
   0xc075a6ef28a38bd7 (* -3.46433388365604912451e+02 *)].
(** libm/src/math/j0.rs lines 243-249 *)
Definition rs_j0_PS5 : list Z :=
  [0x404e60810c98c5de (* 6.07539382692300335975e+01 *);
   0x40906d025c7e2864 (* 1.05125230595704579173e+03 *);
   0x40b75af88fbe1d60 (* 5.97897094333855784498e+03 *);
   0x40c2ccb8fa76fa38 (* 9.62544514357774460223e+03 *);
   0x40a2cc1dc70be864 (* 2.40605815922939109441e+03 *)].
(** libm/src/math/j0.rs lines 251-259 *)
Definition rs_j0_PR3 : list Z :=
  [0xbe25e1036fe1aa86 (* -2.54704601771951915620e-09 *);
   0xbfb1fff6f7c0e24b (* -7.03119616381481654654e-02 *);
   0xc00345b2aea48074 (* -2.40903221549529611423e+00 *);
   0xc035f74a4cb94e14 (* -2.19659774734883086467e+01 *);
   0xc04d0a22420a1a45 (* -5.80791704701737572236e+01 *);
   0xc03f72aca892d80f (* -3.14479470594888503854e+01 *)].
(** libm/src/math/j0.rs lines 260-266 *)
Definition rs_j0_PS3 : list Z :=
  [0x4041ed9284077dd3 (* 3.58560338055209726349e+01 *);
   0x40769839464a7c0e (* 3.61513983050303863820e+02 *);
   0x4092a66e6d1061d6 (* 1.19360783792111533330e+03 *);
   0x40919ffcb8c39b7e (* 1.12799679856907414432e+03 *);
   0x4065b296fc379081 (* 1.73580930813335754692e+02 *)].
(** libm/src/math/j0.rs lines 268-276 *)
Definition rs_j0_PR2 : list Z :=
  [0xbe77d316e927026d (* -8.87534333032526411254e-08 *);
   0xbfb1ff62495e1e42 (* -7.03030995483624743247e-02 *);
   0xbff736398a24a843 (* -1.45073846780952986357e+00 *);
   0xc01e8af3edafa7f3 (* -7.63569613823527770791e+00 *);
   0xc02662e6c5246303 (* -1.11931668860356747786e+01 *);
   0xc009de81af8fe70f (* -3.23364579351335335033e+00 *)].
(** libm/src/math/j0.rs lines 277-283 *)
Definition rs_j0_PS2 : list Z :=
  [0x40363865908b5959 (* 2.22202997532088808441e+01 *);
   0x4061069e0ee8878f (* 1.36206794218215208048e+02 *);
   0x4070e78642ea079b (* 2.70470278658083486789e+02 *);
   0x40633c033ab6faff (* 1.53875394208320329881e+02 *);
   0x402d50b344391809 (* 1.46576176948256193810e+01 *)].
(** libm/src/math/j0.rs lines 325-333 *)
Definition rs_j0_QR8 : list Z :=
  [0 (* 0.00000000000000000000e+00 *);
   0x3fb2bffffffffe2c (* 7.32421874999935051953e-02 *);
   0x402789525bb334d6 (* 1.17682064682252693899e+01 *);
   0x40816d6315301825 (* 5.57673380256401856059e+02 *);
   0x40c14d993e18f46d (* 8.85919720756468632317e+03 *);
   0x40e212d40e901566 (* 3.70146267776887834771e+04 *)].
(** libm/src/math/j0.rs lines 334-341 *)
Definition rs_j0_QS8 : list Z :=
  [0x406478d5365b39bc (* 1.63776026895689824414e+02 *);
   0x40bfa2584e6b0563 (* 8.09834494656449805916e+03 *);
   0x4101665254d38c3f (* 1.42538291419120476348e+05 *);
   0x412883da83a52b43 (* 8.03309257119514397345e+05 *);
   0x4129a66b28de0b3d (* 8.40501579819060512818e+05 *);
   0xc114fd6d2c9530c5 (* -3.43899293537866615225e+05 *)].
(** libm/src/math/j0.rs lines 343-351 *)
Definition rs_j0_QR5 : list Z :=
  [0x3db43d8f29cc8cd9 (* 1.84085963594515531381e-11 *);
   0x3fb2bfffd172b04c (* 7.32421766612684765896e-02 *);
   0x401757b0b9953dd3 (* 5.83563508962056953777e+00 *);
   0x4060e3920a8788e9 (* 1.35111577286449829671e+02 *);
   0x40900cf99dc8c481 (* 1.02724376596164097464e+03 *);
   0x409f17e953c6e3a6 (* 1.98997785864605384631e+03 *)].
(** libm/src/math/j0.rs lines 352-359 *)
Definition rs_j0_QS5 : list Z :=
  [0x4054b1b3fb5e1543 (* 8.27766102236537761883e+01 *);
   0x40a03ba0da21c0ce (* 2.07781416421392987104e+03 *);
   0x40d267d27b591e6d (* 1.88472887785718085070e+04 *);
   0x40ebb5e397e02372 (* 5.67511122894947329769e+04 *);
   0x40e191181f7a54a0 (* 3.59767538425114471465e+04 *);
   0xc0b4ea57bedbc609 (* -5.35434275601944773371e+03 *)].
(** libm/src/math/j0.rs lines 361-369 *)
Definition rs_j0_QR3 : list Z :=
  [0x3e32cd036adecb82 (* 4.37741014089738620906e-09 *);
   0x3fb2bfee0e8d0842 (* 7.32411180042911447163e-02 *);
   0x400ac0fc61149cf5 (* 3.34423137516170720929e+00 *);
   0x40454f98962daedd (* 4.26218440745412650017e+01 *);
   0x406559dbe25efd1f (* 1.70808091340565596283e+02 *);
   0x4064d77c81fa21e0 (* 1.66733948696651168575e+02 *)].
(** libm/src/math/j0.rs lines 370-377 *)
Definition rs_j0_QS3 : list Z :=
  [0x40486122bfe343a6 (* 4.87588729724587182091e+01 *);
   0x40862d8386544eb3 (* 7.09689221056606015736e+02 *);
   0x40acf04be44dfc63 (* 3.70414822620111362994e+03 *);
   0x40b93c6cd7c76a28 (* 6.46042516752568917582e+03 *);
   0x40a3a8aad94fb1c0 (* 2.51633368920368957333e+03 *);
   0xc062a7eb201cf40f (* -1.49247451836156386662e+02 *)].
(** libm/src/math/j0.rs lines 379-387 *)
Definition rs_j0_QR2 : list Z :=
  [0x3e84313b54f76bdb (* 1.50444444886983272379e-07 *);
   0x3fb2bec53e883e34 (* 7.32234265963079278272e-02 *);
   0x3ffff897e727779c (* 1.99819174093815998816e+00 *);
   0x402cfdbfaaf96fe5 (* 1.44956029347885735348e+01 *);
   0x403faa8e29fbdc4a (* 3.16662317504781540833e+01 *);
   0x403040b171814bb4 (* 1.62527075710929267416e+01 *)].
(** libm/src/math/j0.rs lines 388-395 *)
Definition rs_j0_QS2 : list Z :=
  [0x403e5d96f7c07aed (* 3.03655848355219184498e+01 *);
   0x4070d591e4d14b40 (* 2.69348118608049844624e+02 *);
   0x408a664522b3bf22 (* 8.44783757595320139444e+02 *);
   0x408b977c9c5cc214 (* 8.82935845112488550512e+02 *);
   0x406a95530e001365 (* 2.12666388511798828631e+02 *);
   0xc0153e6af8b32931 (* -5.31095493882666946917e+00 *)].
(** [pzero], libm/src/math/j0.rs lines 285-314 *)
Definition rs_j0_pzero (x : Z) : Z :=
  let ix := get_high_word x in
  let ix := Z.land ix 0x7fffffff in
  let '(p, q) :=
    (if 0x40200000 <=? ix then
       let p := rs_j0_PR8 in
       let q := rs_j0_PS8 in
       (p, q)
     else 
       let '(p, q) :=
         (if 0x40122e8b <=? ix then
            let p := rs_j0_PR5 in
            let q := rs_j0_PS5 in
            (p, q)
          else 
            let '(p, q) :=
              (if 0x4006db6d <=? ix then
                 let p := rs_j0_PR3 in
                 let q := rs_j0_PS3 in
                 (p, q)
               else 
                 let p := rs_j0_PR2 in
                 let q := rs_j0_PS2 in
                 (p, q)) in
            (p, q)) in
       (p, q)) in
  let z := 0x3ff0000000000000 (* 1.0 *) /: (x *: x) in
  let r := (nth 0 p 0) +: (z *: ((nth 1 p 0) +: (z *: ((nth 2 p 0) +: (z *: ((nth 3 p 0) +: (z *: ((nth 4 p 0) +: (z *: (nth 5 p 0)))))))))) in
  let s := 0x3ff0000000000000 (* 1.0 *) +: (z *: ((nth 0 q 0) +: (z *: ((nth 1 q 0) +: (z *: ((nth 2 q 0) +: (z *: ((nth 3 q 0) +: (z *: (nth 4 q 0)))))))))) in
  (0x3ff0000000000000 (* 1.0 *) +: (r /: s)).
(** [qzero], libm/src/math/j0.rs lines 397-426 *)
Definition rs_j0_qzero (x : Z) : Z :=
  let ix := get_high_word x in
  let ix := Z.land ix 0x7fffffff in
  let '(p, q) :=
    (if 0x40200000 <=? ix then
       let p := rs_j0_QR8 in
       let q := rs_j0_QS8 in
       (p, q)
     else 
       let '(p, q) :=
         (if 0x40122e8b <=? ix then
            let p := rs_j0_QR5 in
            let q := rs_j0_QS5 in
            (p, q)
          else 
            let '(p, q) :=
              (if 0x4006db6d <=? ix then
                 let p := rs_j0_QR3 in
                 let q := rs_j0_QS3 in
                 (p, q)
               else 
                 let p := rs_j0_QR2 in
                 let q := rs_j0_QS2 in
                 (p, q)) in
            (p, q)) in
       (p, q)) in
  let z := 0x3ff0000000000000 (* 1.0 *) /: (x *: x) in
  let r := (nth 0 p 0) +: (z *: ((nth 1 p 0) +: (z *: ((nth 2 p 0) +: (z *: ((nth 3 p 0) +: (z *: ((nth 4 p 0) +: (z *: (nth 5 p 0)))))))))) in
  let s := 0x3ff0000000000000 (* 1.0 *) +: (z *: ((nth 0 q 0) +: (z *: ((nth 1 q 0) +: (z *: ((nth 2 q 0) +: (z *: ((nth 3 q 0) +: (z *: ((nth 4 q 0) +: (z *: (nth 5 q 0)))))))))))) in
  ((0xbfc0000000000000 (* -0.125 *) +: (r /: s)) /: x).
(** [common], libm/src/math/j0.rs lines 62-100 *)
Definition rs_j0_common (ix x : Z) (y0 : bool) : option Z :=
  let* s := rs_sin x in
  let* c := rs_cos x in
  let c :=
    (if y0 then
       let c := fneg f64 c in
       c
     else c) in
  let cc := s +: c in
  let* cc :=
    (if ix <? 0x7fe00000 then
       let ss := s -: c in
       let* v3 := rs_cos (0x4000000000000000 (* 2.0 *) *: x) in
       let z := fneg f64 v3 in
       let '(cc, ss) :=
         (if flt f64 (s *: c) 0 (* 0.0 *) then
            let cc := z /: ss in
            (cc, ss)
          else 
            let ss := z /: cc in
            (cc, ss)) in
       let cc :=
         (if ix <? 0x48000000 then
            let ss :=
              (if y0 then
                 let ss := fneg f64 ss in
                 ss
               else ss) in
            let cc := ((rs_j0_pzero x) *: cc) -: ((rs_j0_qzero x) *: ss) in
            cc
          else cc) in
       Some cc
     else Some cc) in
  let* v4 := M_sqrt.sqrt x in
  Some ((rs_j0_INVSQRTPI *: cc) /: v4).
(** [j0], libm/src/math/j0.rs lines 114-153 *)
Definition rs_j0 (x : Z) : option Z :=
  let ix := get_high_word x in
  let ix := Z.land ix 0x7fffffff in
  if 0x7ff00000 <=? ix then Some (0x3ff0000000000000 (* 1.0 *) /: (x *: x))
  else 
    let x := fabs f64 x in
    if 0x40000000 <=? ix then rs_j0_common ix x false
    else if 0x3f200000 <=? ix then
      let z := x *: x in
      let r := z *: (rs_j0_R02 +: (z *: (rs_j0_R03 +: (z *: (rs_j0_R04 +: (z *: rs_j0_R05)))))) in
      let s := 0x3ff0000000000000 (* 1.0 *) +: (z *: (rs_j0_S01 +: (z *: (rs_j0_S02 +: (z *: (rs_j0_S03 +: (z *: rs_j0_S04))))))) in
      Some (((0x3ff0000000000000 (* 1.0 *) +: (x /: 0x4000000000000000 (* 2.0 *))) *: (0x3ff0000000000000 (* 1.0 *) -: (x /: 0x4000000000000000 (* 2.0 *)))) +: (z *: (r /: s)))
    else 
      let x :=
        (if 0x38000000 <=? ix then
           let x := (0x3fd0000000000000 (* 0.25 *) *: x) *: x in
           x
         else x) in
      Some (0x3ff0000000000000 (* 1.0 *) -: x).
(** [y0], libm/src/math/j0.rs lines 169-206 *)
Definition rs_y0 (x : Z) : option Z :=
  let ix := get_high_word x in
  let lx := get_low_word x in
  if (Z.lor (shlu 32 ix 1) lx) =? 0 then Some (0xbff0000000000000 (* -1.0 *) /: 0 (* 0.0 *))
  else if negb ((Z.shiftr ix 31) =? 0) then Some (0 (* 0.0 *) /: 0 (* 0.0 *))
  else if 0x7ff00000 <=? ix then Some (0x3ff0000000000000 (* 1.0 *) /: x)
  else if 0x40000000 <=? ix then rs_j0_common ix x true
  else if 0x3e400000 <=? ix then
    let z := x *: x in
    let u := rs_j0_U00 +: (z *: (rs_j0_U01 +: (z *: (rs_j0_U02 +: (z *: (rs_j0_U03 +: (z *: (rs_j0_U04 +: (z *: (rs_j0_U05 +: (z *: rs_j0_U06))))))))))) in
    let v := 0x3ff0000000000000 (* 1.0 *) +: (z *: (rs_j0_V01 +: (z *: (rs_j0_V02 +: (z *: (rs_j0_V03 +: (z *: rs_j0_V04))))))) in
    let* v1 := rs_j0 x in
    let* v2 := rs_log x in
    Some ((u /: v) +: (rs_j0_TPI *: (v1 *: v2)))
  else 
    let* v3 := rs_log x in
    Some (rs_j0_U00 +: (rs_j0_TPI *: v3)).

(** * j1.rs *)
(** libm/src/math/j1.rs line 59 *)
Definition rs_j1_INVSQRTPI : Z := 0x3fe20dd750429b6d (* 5.64189583547756279280e-01 *).
(** libm/src/math/j1.rs line 60 *)
Definition rs_j1_TPI : Z := 0x3fe45f306dc9c883 (* 6.36619772367581382433e-01 *).
(** libm/src/math/j1.rs line 106 *)
Definition rs_j1_R00 : Z := 0xbfb0000000000000 (* -6.25000000000000000000e-02 *).
(** libm/src/math/j1.rs line 107 *)
Definition rs_j1_R01 : Z := 0x3f570d9f98472c61 (* 1.40705666955189706048e-03 *).
(** libm/src/math/j1.rs line 108 *)
Definition rs_j1_R02 : Z := 0xbef0c5c6ba169668 (* -1.59955631084035597520e-05 *).
(** libm/src/math/j1.rs line 109 *)
Definition rs_j1_R03 : Z := 0x3e6aaafa46ca0bd9 (* 4.96727999609584448412e-08 *).
(** libm/src/math/j1.rs line 110 *)
Definition rs_j1_S01 : Z := 0x3f939d0b12637e53 (* 1.91537599538363460805e-02 *).
(** libm/src/math/j1.rs line 111 *)
Definition rs_j1_S02 : Z := 0x3f285f56b9cdf664 (* 1.85946785588630915560e-04 *).
(** libm/src/math/j1.rs line 112 *)
Definition rs_j1_S03 : Z := 0x3eb3bff8333f8498 (* 1.17718464042623683263e-06 *).
(** libm/src/math/j1.rs line 113 *)
Definition rs_j1_S04 : Z := 0x3e35ac88c97dff2c (* 5.04636257076217042715e-09 *).
(** libm/src/math/j1.rs line 114 *)
Definition rs_j1_S05 : Z := 0x3dab2acfcfb97ed8 (* 1.23542274426137913908e-11 *).
(** libm/src/math/j1.rs lines 148-154 *)
Definition rs_j1_U0 : list Z :=
  [0xbfc91866143cbc8a (* -1.96057090646238940668e-01 *);
   0x3fa9d3c776292cd1 (* 5.04438716639811282616e-02 *);
   0xbf5f55e54844f50f (* -1.91256895875763547298e-03 *);
   0x3ef8ab038fa6b88e (* 2.35252600561610495928e-05 *);
   0xbe78ac00569105b8 (* -9.19099158039878874504e-08 *)].
(** libm/src/math/j1.rs lines 155-161 *)
Definition rs_j1_V0 : list Z :=
  [0x3f94650d3f4da9f0 (* 1.99167318236649903973e-02 *);
   0x3f2a8c896c257764 (* 2.02552581025135171496e-04 *);
   0x3eb6c05a894e8ca6 (* 1.35608801097516229404e-06 *);
   0x3e3abf1d5ba69a86 (* 6.22741452364621501295e-09 *);
   0x3db25039daca772a (* 1.66559246207992079114e-11 *)].
(** libm/src/math/j1.rs lines 210-218 *)
Definition rs_j1_PR8 : list Z :=
  [0 (* 0.00000000000000000000e+00 *);
   0x3fbdfffffffffcce (* 1.17187499999988647970e-01 *);
   0x402a7a9d357f7fce (* 1.32394806593073575129e+01 *);
   0x4079c0d4652ea590 (* 4.12051854307378562225e+02 *);
   0x40ae457da3a532cc (* 3.87474538913960532227e+03 *);
   0x40beea7ac32782dd (* 7.91447954031891731574e+03 *)].
(** libm/src/math/j1.rs lines 219-225 *)
Definition rs_j1_PS8 : list Z :=
  [0x405c8d458e656cac (* 1.14207370375678408436e+02 *);
   0x40ac85dc964d274f (* 3.65093083420853463394e+03 *);
   0x40e20b8697c5bb7f (* 3.69562060269033463555e+04 *);
   0x40f7d42cb28f17bb (* 9.76027935934950801311e+04 *);
   0x40de1511697a0b2d (* 3.08042720627888811578e+04 *)].
(** libm/src/math/j1.rs lines 227-235 *)
Definition rs_j1_PR5 : list Z :=
  [0x3dad0667dae1ca7d (* 1.31990519556243522749e-11 *);
   0x3fbdffffe2c10043 (* 1.17187493190614097638e-01 *);
   0x401b36046e6315e3 (* 6.80275127868432871736e+00 *);
   0x405b13b9452602ed (* 1.08308182990189109773e+02 *);
   0x40802d16d052d649 (* 5.17636139533199752805e+02 *);
   0x408085b8bb7e0cb7 (* 5.28715201363337541807e+02 *)].
(** libm/src/math/j1.rs lines 236-242 *)
Definition rs_j1_PS5 : list Z :=
  [0x404da3eaa8af633d (* 5.92805987221131331921e+01 *);
   0x408efb361b066701 (* 9.91401418733614377743e+02 *);
   0x40b4e9445706b6fb (* 5.35326695291487976647e+03 *);
   0x40bea4b0b8a5bb15 (* 7.84469031749551231769e+03 *);
   0x40978030036f5e51 (* 1.50404688810361062679e+03 *)].
(** libm/src/math/j1.rs lines 244-251 *)
Definition rs_j1_PR3 : list Z :=
  [0x3e29fc21a7ad9edd (* 3.02503916137373618024e-09 *);
   0x3fbdfff55b21d17b (* 1.17186865567253592491e-01 *);
   0x400f76bce85ead8a (* 3.93297750033315640650e+00 *);
   0x40418f489da6d129 (* 3.51194035591636932736e+01 *);
   0x4056c3854d2c1837 (* 9.10550110750781271918e+01 *);
   0x4048478f8ea83ee5 (* 4.85590685197364919645e+01 *)].
(** libm/src/math/j1.rs lines 252-258 *)
Definition rs_j1_PS3 : list Z :=
  [0x40416549a134069c (* 3.47913095001251519989e+01 *);
   0x40750c3307f1a75f (* 3.36762458747825746741e+02 *);
   0x40905b7c5037d523 (* 1.04687139975775130551e+03 *);
   0x408bd67da32e31e9 (* 8.90811346398256432622e+02 *);
   0x4059f26d7c2eed53 (* 1.03787932439639277504e+02 *)].
(** libm/src/math/j1.rs lines 260-268 *)
Definition rs_j1_PR2 : list Z :=
  [0x3e7ce9d4f65544f4 (* 1.07710830106873743082e-07 *);
   0x3fbdff42be760d83 (* 1.17176219462683348094e-01 *);
   0x4002f2b7f98faec0 (* 2.36851496667608785174e+00 *);
   0x40287c377f71a964 (* 1.22426109148261232917e+01 *);
   0x4031b1a8177f8ee2 (* 1.76939711271687727390e+01 *);
   0x40144b49a574c1fe (* 5.07352312588818499250e+00 *)].
(** libm/src/math/j1.rs lines 269-275 *)
Definition rs_j1_PS2 : list Z :=
  [0x40356fbd8ad5ecdc (* 2.14364859363821409488e+01 *);
   0x405f529314f92cd5 (* 1.25290227168402751090e+02 *);
   0x406d08d8d5a2dbd9 (* 2.32276469057162813669e+02 *);
   0x405d6b7ada1884a9 (* 1.17679373287147100768e+02 *);
   0x4020bab1f44e5192 (* 8.36463893371618283368e+00 *)].
(** libm/src/math/j1.rs lines 318-326 *)
Definition rs_j1_QR8 : list Z :=
  [0 (* 0.00000000000000000000e+00 *);
   0xbfba3ffffffffdf3 (* -1.02539062499992714161e-01 *);
   0xc0304591a26779f7 (* -1.62717534544589987888e+01 *);
   0xc087bcd053e4b576 (* -7.59601722513950107896e+02 *);
   0xc0c724e740f87415 (* -1.18498066702429587167e+04 *);
   0xc0e7a6d065d09c6a (* -4.84385124285750353010e+04 *)].
(** libm/src/math/j1.rs lines 327-334 *)
Definition rs_j1_QS8 : list Z :=
  [0x40642ca6de5bcde5 (* 1.61395369700722909556e+02 *);
   0x40be9162d0d88419 (* 7.82538599923348465381e+03 *);
   0x4100579ab0b75e98 (* 1.33875336287249578163e+05 *);
   0x4125f65372869c19 (* 7.19657723683240939863e+05 *);
   0x412457d27719ad5c (* 6.66601232617776375264e+05 *);
   0xc111f9690ea5aa18 (* -2.94490264303834643215e+05 *)].
(** libm/src/math/j1.rs lines 336-344 *)
Definition rs_j1_QR5 : list Z :=
  [0xbdb6fa431aa1a098 (* -2.08979931141764104297e-11 *);
   0xbfba3fffcb597fef (* -1.02539050241375426231e-01 *);
   0xc0201ce6ca03ad4b (* -8.05644828123936029840e+00 *);
   0xc066f56d6ca7b9b0 (* -1.83669607474888380239e+02 *);
   0xc09574c66931734f (* -1.37319376065508163265e+03 *);
   0xc0a468e388fda79d (* -2.61244440453215656817e+03 *)].
(** libm/src/math/j1.rs lines 345-352 *)
Definition rs_j1_QS5 : list Z :=
  [0x405451b2ff5a11b2 (* 8.12765501384335777857e+01 *);
   0x409f1f31e77bf839 (* 1.99179873460485964642e+03 *);
   0x40d10f1f0d64ce29 (* 1.74684851924908907677e+04 *);
   0x40e8576daabad197 (* 4.98514270910352279316e+04 *);
   0x40db4b04cf7c364b (* 2.79480751638918118260e+04 *);
   0xc0b26f2efcffa004 (* -4.71918354795128470869e+03 *)].
(** libm/src/math/j1.rs lines 354-361 *)
Definition rs_j1_QR3 : list Z :=
  [0xbe35cfa9d38fc84f (* -5.07831226461766561369e-09 *);
   0xbfba3feb51aeed54 (* -1.02537829820837089745e-01 *);
   0xc01270c23302d9ff (* -4.61011581139473403113e+00 *);
   0xc04cec71c25d16da (* -5.78472216562783643212e+01 *);
   0xc06c87d34718d55f (* -2.28244540737631695038e+02 *);
   0xc06b66b95f5c1bf6 (* -2.19210128478909325622e+02 *)].
(** libm/src/math/j1.rs lines 362-369 *)
Definition rs_j1_QS3 : list Z :=
  [0x4047d523ccd367e4 (* 4.76651550323729509273e+01 *);
   0x40850eebc031ee3e (* 6.73865112676699709482e+02 *);
   0x40aa684e448e7c9a (* 3.38015286679526343505e+03 *);
   0x40b5abbaa61d54a6 (* 5.54772909720722782367e+03 *);
   0x409dbc7a0dd4df4b (* 1.90311919338810798763e+03 *);
   0xc060e670290a311f (* -1.35201191444307340817e+02 *)].
(** libm/src/math/j1.rs lines 371-379 *)
Definition rs_j1_QR2 : list Z :=
  [0xbe87f12644c626d2 (* -1.78381727510958865572e-07 *);
   0xbfba3e8e9148b010 (* -1.02517042607985553460e-01 *);
   0xc006048469bb4eda (* -2.75220568278187460720e+00 *);
   0xc033a9e2c168907f (* -1.96636162643703720221e+01 *);
   0xc04529a3de104aaa (* -4.23253133372830490089e+01 *);
   0xc0355f3639cf6e52 (* -2.13719211703704061733e+01 *)].
(** libm/src/math/j1.rs lines 380-387 *)
Definition rs_j1_QS2 : list Z :=
  [0x403d888a78ae64ff (* 2.95333629060523854548e+01 *);
   0x406f9f68db821cba (* 2.52981549982190529136e+02 *);
   0x4087ac05ce49a0f7 (* 7.57502834868645436472e+02 *);
   0x40871b2548d4c029 (* 7.39393205320467245656e+02 *);
   0x40637e5e3c3ed8d4 (* 1.55949003336666123687e+02 *);
   0xc013d686e71be86b (* -4.95949898822628210127e+00 *)].
(** [pone], libm/src/math/j1.rs lines 277-306 *)
Definition rs_j1_pone (x : Z) : Z :=
  let ix := get_high_word x in
  let ix := Z.land ix 0x7fffffff in
  let '(p, q) :=
    (if 0x40200000 <=? ix then
       let p := rs_j1_PR8 in
       let q := rs_j1_PS8 in
       (p, q)
     else 
       let '(p, q) :=
         (if 0x40122e8b <=? ix then
            let p := rs_j1_PR5 in
            let q := rs_j1_PS5 in
            (p, q)
          else 
            let '(p, q) :=
              (if 0x4006db6d <=? ix then
                 let p := rs_j1_PR3 in
                 let q := rs_j1_PS3 in
                 (p, q)
               else 
                 let p := rs_j1_PR2 in
                 let q := rs_j1_PS2 in
                 (p, q)) in
            (p, q)) in
       (p, q)) in
  let z := 0x3ff0000000000000 (* 1.0 *) /: (x *: x) in
  let r := (nth 0 p 0) +: (z *: ((nth 1 p 0) +: (z *: ((nth 2 p 0) +: (z *: ((nth 3 p 0) +: (z *: ((nth 4 p 0) +: (z *: (nth 5 p 0)))))))))) in
  let s := 0x3ff0000000000000 (* 1.0 *) +: (z *: ((nth 0 q 0) +: (z *: ((nth 1 q 0) +: (z *: ((nth 2 q 0) +: (z *: ((nth 3 q 0) +: (z *: (nth 4 q 0)))))))))) in
  (0x3ff0000000000000 (* 1.0 *) +: (r /: s)).
(** [qone], libm/src/math/j1.rs lines 389-418 *)
Definition rs_j1_qone (x : Z) : Z :=
  let ix := get_high_word x in
  let ix := Z.land ix 0x7fffffff in
  let '(p, q) :=
    (if 0x40200000 <=? ix then
       let p := rs_j1_QR8 in
       let q := rs_j1_QS8 in
       (p, q)
     else 
       let '(p, q) :=
         (if 0x40122e8b <=? ix then
            let p := rs_j1_QR5 in
            let q := rs_j1_QS5 in
            (p, q)
          else 
            let '(p, q) :=
              (if 0x4006db6d <=? ix then
                 let p := rs_j1_QR3 in
                 let q := rs_j1_QS3 in
                 (p, q)
               else 
                 let p := rs_j1_QR2 in
                 let q := rs_j1_QS2 in
                 (p, q)) in
            (p, q)) in
       (p, q)) in
  let z := 0x3ff0000000000000 (* 1.0 *) /: (x *: x) in
  let r := (nth 0 p 0) +: (z *: ((nth 1 p 0) +: (z *: ((nth 2 p 0) +: (z *: ((nth 3 p 0) +: (z *: ((nth 4 p 0) +: (z *: (nth 5 p 0)))))))))) in
  let s := 0x3ff0000000000000 (* 1.0 *) +: (z *: ((nth 0 q 0) +: (z *: ((nth 1 q 0) +: (z *: ((nth 2 q 0) +: (z *: ((nth 3 q 0) +: (z *: ((nth 4 q 0) +: (z *: (nth 5 q 0)))))))))))) in
  ((0x3fd8000000000000 (* 0.375 *) +: (r /: s)) /: x).
(** [common], libm/src/math/j1.rs lines 62-103 *)
Definition rs_j1_common (ix x : Z) (y1 sign : bool) : option Z :=
  let* s := rs_sin x in
  let s :=
    (if y1 then
       let s := fneg f64 s in
       s
     else s) in
  let* c := rs_cos x in
  let cc := s -: c in
  let* cc :=
    (if ix <? 0x7fe00000 then
       let ss := (fneg f64 s) -: c in
       let* z := rs_cos (0x4000000000000000 (* 2.0 *) *: x) in
       let '(cc, ss) :=
         (if fgt f64 (s *: c) 0 (* 0.0 *) then
            let cc := z /: ss in
            (cc, ss)
          else 
            let ss := z /: cc in
            (cc, ss)) in
       let cc :=
         (if ix <? 0x48000000 then
            let ss :=
              (if y1 then
                 let ss := fneg f64 ss in
                 ss
               else ss) in
            let cc := ((rs_j1_pone x) *: cc) -: ((rs_j1_qone x) *: ss) in
            cc
          else cc) in
       Some cc
     else Some cc) in
  let cc :=
    (if sign then
       let cc := fneg f64 cc in
       cc
     else cc) in
  let* v4 := M_sqrt.sqrt x in
  Some ((rs_j1_INVSQRTPI *: cc) /: v4).
(** [j1], libm/src/math/j1.rs lines 118-146 *)
Definition rs_j1 (x : Z) : option Z :=
  let ix := get_high_word x in
  let sign := negb ((Z.shiftr ix 31) =? 0) in
  let ix := Z.land ix 0x7fffffff in
  if 0x7ff00000 <=? ix then Some (0x3ff0000000000000 (* 1.0 *) /: (x *: x))
  else if 0x40000000 <=? ix then rs_j1_common ix (fabs f64 x) false sign
  else 
    let z :=
      (if 0x38000000 <=? ix then
         let z := x *: x in
         let r := z *: (rs_j1_R00 +: (z *: (rs_j1_R01 +: (z *: (rs_j1_R02 +: (z *: rs_j1_R03)))))) in
         let s := 0x3ff0000000000000 (* 1.0 *) +: (z *: (rs_j1_S01 +: (z *: (rs_j1_S02 +: (z *: (rs_j1_S03 +: (z *: (rs_j1_S04 +: (z *: rs_j1_S05))))))))) in
         let z := r /: s in
         z
       else 
         let z := x in
         z) in
    Some ((0x3fe0000000000000 (* 0.5 *) +: z) *: x).
(** [y1], libm/src/math/j1.rs lines 165-198 *)
Definition rs_y1 (x : Z) : option Z :=
  let ix := get_high_word x in
  let lx := get_low_word x in
  if (Z.lor (shlu 32 ix 1) lx) =? 0 then Some (0xbff0000000000000 (* -1.0 *) /: 0 (* 0.0 *))
  else if negb ((Z.shiftr ix 31) =? 0) then Some (0 (* 0.0 *) /: 0 (* 0.0 *))
  else if 0x7ff00000 <=? ix then Some (0x3ff0000000000000 (* 1.0 *) /: x)
  else if 0x40000000 <=? ix then rs_j1_common ix x true false
  else if ix <? 0x3c900000 then Some ((fneg f64 rs_j1_TPI) /: x)
  else 
    let z := x *: x in
    let u := (nth 0 rs_j1_U0 0) +: (z *: ((nth 1 rs_j1_U0 0) +: (z *: ((nth 2 rs_j1_U0 0) +: (z *: ((nth 3 rs_j1_U0 0) +: (z *: (nth 4 rs_j1_U0 0)))))))) in
    let v := 0x3ff0000000000000 (* 1.0 *) +: (z *: ((nth 0 rs_j1_V0 0) +: (z *: ((nth 1 rs_j1_V0 0) +: (z *: ((nth 2 rs_j1_V0 0) +: (z *: ((nth 3 rs_j1_V0 0) +: (z *: (nth 4 rs_j1_V0 0)))))))))) in
    let* v1 := rs_j1 x in
    let* v2 := rs_log x in
    Some ((x *: (u /: v)) +: (rs_j1_TPI *: ((v1 *: v2) -: (0x3ff0000000000000 (* 1.0 *) /: x)))).

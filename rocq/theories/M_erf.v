(** Generated by tools/rs2v.py from the Rust sources named in the comments.  [rs_f] is the Rust function [f];
    constants and private functions carry the name of their file.  See DESIGN.md for the reading of Rust. *)
From Coq Require Import ZArith Bool List.
From Verif Require Import Base Spec Format Ieee M_basic M_bits M_scalbn M_fma M_sqrt M_elib M_exp.
Import ListNotations.
Open Scope Z_scope.
Open Scope fl_scope.

(** * erff.rs *)
(** libm/src/math/erff.rs line 18 *)
Definition rs_erff_ERX : Z := 0x3f58560b (* 8.4506291151e-01 *).
(** libm/src/math/erff.rs line 22 *)
Definition rs_erff_EFX8 : Z := 0x3f8375d4 (* 1.0270333290e+00 *).
(** libm/src/math/erff.rs line 23 *)
Definition rs_erff_PP0 : Z := 0x3e0375d4 (* 1.2837916613e-01 *).
(** libm/src/math/erff.rs line 24 *)
Definition rs_erff_PP1 : Z := 0xbea66beb (* -3.2504209876e-01 *).
(** libm/src/math/erff.rs line 25 *)
Definition rs_erff_PP2 : Z := 0xbce9528f (* -2.8481749818e-02 *).
(** libm/src/math/erff.rs line 26 *)
Definition rs_erff_PP3 : Z := 0xbbbd1489 (* -5.7702702470e-03 *).
(** libm/src/math/erff.rs line 27 *)
Definition rs_erff_PP4 : Z := 0xb7c756b1 (* -2.3763017452e-05 *).
(** libm/src/math/erff.rs line 28 *)
Definition rs_erff_QQ1 : Z := 0x3ecbbbce (* 3.9791721106e-01 *).
(** libm/src/math/erff.rs line 29 *)
Definition rs_erff_QQ2 : Z := 0x3d852a63 (* 6.5022252500e-02 *).
(** libm/src/math/erff.rs line 30 *)
Definition rs_erff_QQ3 : Z := 0x3ba68116 (* 5.0813062117e-03 *).
(** libm/src/math/erff.rs line 31 *)
Definition rs_erff_QQ4 : Z := 0x390aee49 (* 1.3249473704e-04 *).
(** libm/src/math/erff.rs line 32 *)
Definition rs_erff_QQ5 : Z := 0xb684e21a (* -3.9602282413e-06 *).
(** libm/src/math/erff.rs line 36 *)
Definition rs_erff_PA0 : Z := 0xbb1acdc6 (* -2.3621185683e-03 *).
(** libm/src/math/erff.rs line 37 *)
Definition rs_erff_PA1 : Z := 0x3ed46805 (* 4.1485610604e-01 *).
(** libm/src/math/erff.rs line 38 *)
Definition rs_erff_PA2 : Z := 0xbebe9208 (* -3.7220788002e-01 *).
(** libm/src/math/erff.rs line 39 *)
Definition rs_erff_PA3 : Z := 0x3ea2fe54 (* 3.1834661961e-01 *).
(** libm/src/math/erff.rs line 40 *)
Definition rs_erff_PA4 : Z := 0xbde31cc2 (* -1.1089469492e-01 *).
(** libm/src/math/erff.rs line 41 *)
Definition rs_erff_PA5 : Z := 0x3d1151b3 (* 3.5478305072e-02 *).
(** libm/src/math/erff.rs line 42 *)
Definition rs_erff_PA6 : Z := 0xbb0df9c0 (* -2.1663755178e-03 *).
(** libm/src/math/erff.rs line 43 *)
Definition rs_erff_QA1 : Z := 0x3dd9f331 (* 1.0642088205e-01 *).
(** libm/src/math/erff.rs line 44 *)
Definition rs_erff_QA2 : Z := 0x3f0a5785 (* 5.4039794207e-01 *).
(** libm/src/math/erff.rs line 45 *)
Definition rs_erff_QA3 : Z := 0x3d931ae7 (* 7.1828655899e-02 *).
(** libm/src/math/erff.rs line 46 *)
Definition rs_erff_QA4 : Z := 0x3e013307 (* 1.2617121637e-01 *).
(** libm/src/math/erff.rs line 47 *)
Definition rs_erff_QA5 : Z := 0x3c5f6e13 (* 1.3637083583e-02 *).
(** libm/src/math/erff.rs line 48 *)
Definition rs_erff_QA6 : Z := 0x3c445aa3 (* 1.1984500103e-02 *).
(** libm/src/math/erff.rs line 52 *)
Definition rs_erff_RA0 : Z := 0xbc21a093 (* -9.8649440333e-03 *).
(** libm/src/math/erff.rs line 53 *)
Definition rs_erff_RA1 : Z := 0xbf31a0b7 (* -6.9385856390e-01 *).
(** libm/src/math/erff.rs line 54 *)
Definition rs_erff_RA2 : Z := 0xc128f022 (* -1.0558626175e+01 *).
(** libm/src/math/erff.rs line 55 *)
Definition rs_erff_RA3 : Z := 0xc2798057 (* -6.2375331879e+01 *).
(** libm/src/math/erff.rs line 56 *)
Definition rs_erff_RA4 : Z := 0xc322658c (* -1.6239666748e+02 *).
(** libm/src/math/erff.rs line 57 *)
Definition rs_erff_RA5 : Z := 0xc3389ae7 (* -1.8460508728e+02 *).
(** libm/src/math/erff.rs line 58 *)
Definition rs_erff_RA6 : Z := 0xc2a2932b (* -8.1287437439e+01 *).
(** libm/src/math/erff.rs line 59 *)
Definition rs_erff_RA7 : Z := 0xc11d077e (* -9.8143291473e+00 *).
(** libm/src/math/erff.rs line 60 *)
Definition rs_erff_SA1 : Z := 0x419d35ce (* 1.9651271820e+01 *).
(** libm/src/math/erff.rs line 61 *)
Definition rs_erff_SA2 : Z := 0x4309a863 (* 1.3765776062e+02 *).
(** libm/src/math/erff.rs line 62 *)
Definition rs_erff_SA3 : Z := 0x43d9486f (* 4.3456588745e+02 *).
(** libm/src/math/erff.rs line 63 *)
Definition rs_erff_SA4 : Z := 0x442158c9 (* 6.4538726807e+02 *).
(** libm/src/math/erff.rs line 64 *)
Definition rs_erff_SA5 : Z := 0x43d6810b (* 4.2900814819e+02 *).
(** libm/src/math/erff.rs line 65 *)
Definition rs_erff_SA6 : Z := 0x42d9451f (* 1.0863500214e+02 *).
(** libm/src/math/erff.rs line 66 *)
Definition rs_erff_SA7 : Z := 0x40d23f7c (* 6.5702495575e+00 *).
(** libm/src/math/erff.rs line 67 *)
Definition rs_erff_SA8 : Z := 0xbd777f97 (* -6.0424413532e-02 *).
(** libm/src/math/erff.rs line 71 *)
Definition rs_erff_RB0 : Z := 0xbc21a092 (* -9.8649431020e-03 *).
(** libm/src/math/erff.rs line 72 *)
Definition rs_erff_RB1 : Z := 0xbf4c9dd4 (* -7.9928326607e-01 *).
(** libm/src/math/erff.rs line 73 *)
Definition rs_erff_RB2 : Z := 0xc18e104b (* -1.7757955551e+01 *).
(** libm/src/math/erff.rs line 74 *)
Definition rs_erff_RB3 : Z := 0xc320a2ea (* -1.6063638306e+02 *).
(** libm/src/math/erff.rs line 75 *)
Definition rs_erff_RB4 : Z := 0xc41f6441 (* -6.3756646729e+02 *).
(** libm/src/math/erff.rs line 76 *)
Definition rs_erff_RB5 : Z := 0xc480230b (* -1.0250950928e+03 *).
(** libm/src/math/erff.rs line 77 *)
Definition rs_erff_RB6 : Z := 0xc3f1c275 (* -4.8351919556e+02 *).
(** libm/src/math/erff.rs line 78 *)
Definition rs_erff_SB1 : Z := 0x41f2b459 (* 3.0338060379e+01 *).
(** libm/src/math/erff.rs line 79 *)
Definition rs_erff_SB2 : Z := 0x43a2e571 (* 3.2579251099e+02 *).
(** libm/src/math/erff.rs line 80 *)
Definition rs_erff_SB3 : Z := 0x44c01759 (* 1.5367296143e+03 *).
(** libm/src/math/erff.rs line 81 *)
Definition rs_erff_SB4 : Z := 0x4547fdbb (* 3.1998581543e+03 *).
(** libm/src/math/erff.rs line 82 *)
Definition rs_erff_SB5 : Z := 0x451f90ce (* 2.5530502930e+03 *).
(** libm/src/math/erff.rs line 83 *)
Definition rs_erff_SB6 : Z := 0x43ed43a7 (* 4.7452853394e+02 *).
(** libm/src/math/erff.rs line 84 *)
Definition rs_erff_SB7 : Z := 0xc1b38712 (* -2.2440952301e+01 *).
(** [erfc1], libm/src/math/erff.rs lines 86-95 *)
Definition rs_erff_erfc1 (x : Z) : Z :=
  let s := (fabs f32 x) -' 0x3f800000 (* 1.0 *) in
  let p := rs_erff_PA0 +' (s *' (rs_erff_PA1 +' (s *' (rs_erff_PA2 +' (s *' (rs_erff_PA3 +' (s *' (rs_erff_PA4 +' (s *' (rs_erff_PA5 +' (s *' rs_erff_PA6))))))))))) in
  let q := 0x3f800000 (* 1.0 *) +' (s *' (rs_erff_QA1 +' (s *' (rs_erff_QA2 +' (s *' (rs_erff_QA3 +' (s *' (rs_erff_QA4 +' (s *' (rs_erff_QA5 +' (s *' rs_erff_QA6))))))))))) in
  ((0x3f800000 (* 1.0 *) -' rs_erff_ERX) -' (p /' q)).
(** [erfc2], libm/src/math/erff.rs lines 97-126 *)
Definition rs_erff_erfc2 (ix x : Z) : option Z :=
  if ix <? 0x3fa00000 then Some (rs_erff_erfc1 x)
  else 
    let x := fabs f32 x in
    let s := 0x3f800000 (* 1.0 *) /' (x *' x) in
    let '(r, big_s) :=
      (if ix <? 0x4036db6d then
         let r := rs_erff_RA0 +' (s *' (rs_erff_RA1 +' (s *' (rs_erff_RA2 +' (s *' (rs_erff_RA3 +' (s *' (rs_erff_RA4 +' (s *' (rs_erff_RA5 +' (s *' (rs_erff_RA6 +' (s *' rs_erff_RA7))))))))))))) in
         let big_s := 0x3f800000 (* 1.0 *) +' (s *' (rs_erff_SA1 +' (s *' (rs_erff_SA2 +' (s *' (rs_erff_SA3 +' (s *' (rs_erff_SA4 +' (s *' (rs_erff_SA5 +' (s *' (rs_erff_SA6 +' (s *' (rs_erff_SA7 +' (s *' rs_erff_SA8))))))))))))))) in
         (r, big_s)
       else 
         let r := rs_erff_RB0 +' (s *' (rs_erff_RB1 +' (s *' (rs_erff_RB2 +' (s *' (rs_erff_RB3 +' (s *' (rs_erff_RB4 +' (s *' (rs_erff_RB5 +' (s *' rs_erff_RB6))))))))))) in
         let big_s := 0x3f800000 (* 1.0 *) +' (s *' (rs_erff_SB1 +' (s *' (rs_erff_SB2 +' (s *' (rs_erff_SB3 +' (s *' (rs_erff_SB4 +' (s *' (rs_erff_SB5 +' (s *' (rs_erff_SB6 +' (s *' rs_erff_SB7))))))))))))) in
         (r, big_s)) in
    let ix := x in
    let z := Z.land ix 0xffffe000 in
    let* v0 := rs_expf (((fneg f32 z) *' z) -' 0x3f100000 (* 0.5625 *)) in
    let* v1 := rs_expf (((z -' x) *' (z +' x)) +' (r /' big_s)) in
    Some ((v0 *' v1) /' x).
(** [erff], libm/src/math/erff.rs lines 134-171 *)
Definition rs_erff (x : Z) : option Z :=
  let ix := x in
  let sign := Z.shiftr ix 31 in
  let ix := Z.land ix 0x7fffffff in
  if 0x7f800000 <=? ix then
    Some ((0x3f800000 (* 1.0 *) -' (0x40000000 (* 2.0 *) *' (of_int f32 sign))) +' (0x3f800000 (* 1.0 *) /' x))
  else if ix <? 0x3f580000 then
    if ix <? 0x31800000 then
      Some (0x3e000000 (* 0.125 *) *' ((0x41000000 (* 8.0 *) *' x) +' (rs_erff_EFX8 *' x)))
    else 
      let z := x *' x in
      let r := rs_erff_PP0 +' (z *' (rs_erff_PP1 +' (z *' (rs_erff_PP2 +' (z *' (rs_erff_PP3 +' (z *' rs_erff_PP4))))))) in
      let s := 0x3f800000 (* 1.0 *) +' (z *' (rs_erff_QQ1 +' (z *' (rs_erff_QQ2 +' (z *' (rs_erff_QQ3 +' (z *' (rs_erff_QQ4 +' (z *' rs_erff_QQ5))))))))) in
      let y := r /' s in
      Some (x +' (x *' y))
  else 
    let* y :=
      (if ix <? 0x40c00000 then
         let* v1 := rs_erff_erfc2 ix x in
         let y := 0x3f800000 (* 1.0 *) -' v1 in
         Some y
       else 
         let x1p_120 := 0x3800000 in
         let y := 0x3f800000 (* 1.0 *) -' x1p_120 in
         Some y) in
    if negb (sign =? 0) then Some (fneg f32 y)
    else Some y.
(** [erfcf], libm/src/math/erff.rs lines 179-222 *)
Definition rs_erfcf (x : Z) : option Z :=
  let ix := x in
  let sign := Z.shiftr ix 31 in
  let ix := Z.land ix 0x7fffffff in
  if 0x7f800000 <=? ix then
    Some ((0x40000000 (* 2.0 *) *' (of_int f32 sign)) +' (0x3f800000 (* 1.0 *) /' x))
  else if ix <? 0x3f580000 then
    if ix <? 0x23800000 then Some (0x3f800000 (* 1.0 *) -' x)
    else 
      let z := x *' x in
      let r := rs_erff_PP0 +' (z *' (rs_erff_PP1 +' (z *' (rs_erff_PP2 +' (z *' (rs_erff_PP3 +' (z *' rs_erff_PP4))))))) in
      let s := 0x3f800000 (* 1.0 *) +' (z *' (rs_erff_QQ1 +' (z *' (rs_erff_QQ2 +' (z *' (rs_erff_QQ3 +' (z *' (rs_erff_QQ4 +' (z *' rs_erff_QQ5))))))))) in
      let y := r /' s in
      if (negb (sign =? 0)) || (ix <? 0x3e800000) then Some (0x3f800000 (* 1.0 *) -' (x +' (x *' y)))
      else Some (0x3f000000 (* 0.5 *) -' ((x -' 0x3f000000 (* 0.5 *)) +' (x *' y)))
  else if ix <? 0x41e00000 then
    if negb (sign =? 0) then
      let* v0 := rs_erff_erfc2 ix x in
      Some (0x40000000 (* 2.0 *) -' v0)
    else rs_erff_erfc2 ix x
  else 
    let x1p_120 := 0x3800000 in
    if negb (sign =? 0) then Some (0x40000000 (* 2.0 *) -' x1p_120)
    else Some (x1p_120 *' x1p_120).

(** * erf.rs *)
(** libm/src/math/erf.rs line 107 *)
Definition rs_erf_ERX : Z := 0x3feb0ac160000000 (* 8.45062911510467529297e-01 *).
(** libm/src/math/erf.rs line 111 *)
Definition rs_erf_EFX8 : Z := 0x3ff06eba8214db69 (* 1.02703333676410069053e+00 *).
(** libm/src/math/erf.rs line 112 *)
Definition rs_erf_PP0 : Z := 0x3fc06eba8214db68 (* 1.28379167095512558561e-01 *).
(** libm/src/math/erf.rs line 113 *)
Definition rs_erf_PP1 : Z := 0xbfd4cd7d691cb913 (* -3.25042107247001499370e-01 *).
(** libm/src/math/erf.rs line 114 *)
Definition rs_erf_PP2 : Z := 0xbf9d2a51dbd7194f (* -2.84817495755985104766e-02 *).
(** libm/src/math/erf.rs line 115 *)
Definition rs_erf_PP3 : Z := 0xbf77a291236668e4 (* -5.77027029648944159157e-03 *).
(** libm/src/math/erf.rs line 116 *)
Definition rs_erf_PP4 : Z := 0xbef8ead6120016ac (* -2.37630166566501626084e-05 *).
(** libm/src/math/erf.rs line 117 *)
Definition rs_erf_QQ1 : Z := 0x3fd97779cddadc09 (* 3.97917223959155352819e-01 *).
(** libm/src/math/erf.rs line 118 *)
Definition rs_erf_QQ2 : Z := 0x3fb0a54c5536ceba (* 6.50222499887672944485e-02 *).
(** libm/src/math/erf.rs line 119 *)
Definition rs_erf_QQ3 : Z := 0x3f74d022c4d36b0f (* 5.08130628187576562776e-03 *).
(** libm/src/math/erf.rs line 120 *)
Definition rs_erf_QQ4 : Z := 0x3f215dc9221c1a10 (* 1.32494738004321644526e-04 *).
(** libm/src/math/erf.rs line 121 *)
Definition rs_erf_QQ5 : Z := 0xbed09c4342a26120 (* -3.96022827877536812320e-06 *).
(** libm/src/math/erf.rs line 125 *)
Definition rs_erf_PA0 : Z := 0xbf6359b8bef77538 (* -2.36211856075265944077e-03 *).
(** libm/src/math/erf.rs line 126 *)
Definition rs_erf_PA1 : Z := 0x3fda8d00ad92b34d (* 4.14856118683748331666e-01 *).
(** libm/src/math/erf.rs line 127 *)
Definition rs_erf_PA2 : Z := 0xbfd7d240fbb8c3f1 (* -3.72207876035701323847e-01 *).
(** libm/src/math/erf.rs line 128 *)
Definition rs_erf_PA3 : Z := 0x3fd45fca805120e4 (* 3.18346619901161753674e-01 *).
(** libm/src/math/erf.rs line 129 *)
Definition rs_erf_PA4 : Z := 0xbfbc63983d3e28ec (* -1.10894694282396677476e-01 *).
(** libm/src/math/erf.rs line 130 *)
Definition rs_erf_PA5 : Z := 0x3fa22a36599795eb (* 3.54783043256182359371e-02 *).
(** libm/src/math/erf.rs line 131 *)
Definition rs_erf_PA6 : Z := 0xbf61bf380a96073f (* -2.16637559486879084300e-03 *).
(** libm/src/math/erf.rs line 132 *)
Definition rs_erf_QA1 : Z := 0x3fbb3e6618eee323 (* 1.06420880400844228286e-01 *).
(** libm/src/math/erf.rs line 133 *)
Definition rs_erf_QA2 : Z := 0x3fe14af092eb6f33 (* 5.40397917702171048937e-01 *).
(** libm/src/math/erf.rs line 134 *)
Definition rs_erf_QA3 : Z := 0x3fb2635cd99fe9a7 (* 7.18286544141962662868e-02 *).
(** libm/src/math/erf.rs line 135 *)
Definition rs_erf_QA4 : Z := 0x3fc02660e763351f (* 1.26171219808761642112e-01 *).
(** libm/src/math/erf.rs line 136 *)
Definition rs_erf_QA5 : Z := 0x3f8bedc26b51dd1c (* 1.36370839120290507362e-02 *).
(** libm/src/math/erf.rs line 137 *)
Definition rs_erf_QA6 : Z := 0x3f888b545735151d (* 1.19844998467991074170e-02 *).
(** libm/src/math/erf.rs line 141 *)
Definition rs_erf_RA0 : Z := 0xbf843412600d6435 (* -9.86494403484714822705e-03 *).
(** libm/src/math/erf.rs line 142 *)
Definition rs_erf_RA1 : Z := 0xbfe63416e4ba7360 (* -6.93858572707181764372e-01 *).
(** libm/src/math/erf.rs line 143 *)
Definition rs_erf_RA2 : Z := 0xc0251e0441b0e726 (* -1.05586262253232909814e+01 *).
(** libm/src/math/erf.rs line 144 *)
Definition rs_erf_RA3 : Z := 0xc04f300ae4cba38d (* -6.23753324503260060396e+01 *).
(** libm/src/math/erf.rs line 145 *)
Definition rs_erf_RA4 : Z := 0xc0644cb184282266 (* -1.62396669462573470355e+02 *).
(** libm/src/math/erf.rs line 146 *)
Definition rs_erf_RA5 : Z := 0xc067135cebccabb2 (* -1.84605092906711035994e+02 *).
(** libm/src/math/erf.rs line 147 *)
Definition rs_erf_RA6 : Z := 0xc054526557e4d2f2 (* -8.12874355063065934246e+01 *).
(** libm/src/math/erf.rs line 148 *)
Definition rs_erf_RA7 : Z := 0xc023a0efc69ac25c (* -9.81432934416914548592e+00 *).
(** libm/src/math/erf.rs line 149 *)
Definition rs_erf_SA1 : Z := 0x4033a6b9bd707687 (* 1.96512716674392571292e+01 *).
(** libm/src/math/erf.rs line 150 *)
Definition rs_erf_SA2 : Z := 0x4061350c526ae721 (* 1.37657754143519042600e+02 *).
(** libm/src/math/erf.rs line 151 *)
Definition rs_erf_SA3 : Z := 0x407b290dd58a1a71 (* 4.34565877475229228821e+02 *).
(** libm/src/math/erf.rs line 152 *)
Definition rs_erf_SA4 : Z := 0x40842b1921ec2868 (* 6.45387271733267880336e+02 *).
(** libm/src/math/erf.rs line 153 *)
Definition rs_erf_SA5 : Z := 0x407ad02157700314 (* 4.29008140027567833386e+02 *).
(** libm/src/math/erf.rs line 154 *)
Definition rs_erf_SA6 : Z := 0x405b28a3ee48ae2c (* 1.08635005541779435134e+02 *).
(** libm/src/math/erf.rs line 155 *)
Definition rs_erf_SA7 : Z := 0x401a47ef8e484a93 (* 6.57024977031928170135e+00 *).
(** libm/src/math/erf.rs line 156 *)
Definition rs_erf_SA8 : Z := 0xbfaeeff2ee749a62 (* -6.04244152148580987438e-02 *).
(** libm/src/math/erf.rs line 160 *)
Definition rs_erf_RB0 : Z := 0xbf84341239e86f4a (* -9.86494292470009928597e-03 *).
(** libm/src/math/erf.rs line 161 *)
Definition rs_erf_RB1 : Z := 0xbfe993ba70c285de (* -7.99283237680523006574e-01 *).
(** libm/src/math/erf.rs line 162 *)
Definition rs_erf_RB2 : Z := 0xc031c209555f995a (* -1.77579549177547519889e+01 *).
(** libm/src/math/erf.rs line 163 *)
Definition rs_erf_RB3 : Z := 0xc064145d43c5ed98 (* -1.60636384855821916062e+02 *).
(** libm/src/math/erf.rs line 164 *)
Definition rs_erf_RB4 : Z := 0xc083ec881375f228 (* -6.37566443368389627722e+02 *).
(** libm/src/math/erf.rs line 165 *)
Definition rs_erf_RB5 : Z := 0xc09004616a2e5992 (* -1.02509513161107724954e+03 *).
(** libm/src/math/erf.rs line 166 *)
Definition rs_erf_RB6 : Z := 0xc07e384e9bdc383f (* -4.83519191608651397019e+02 *).
(** libm/src/math/erf.rs line 167 *)
Definition rs_erf_SB1 : Z := 0x403e568b261d5190 (* 3.03380607434824582924e+01 *).
(** libm/src/math/erf.rs line 168 *)
Definition rs_erf_SB2 : Z := 0x40745cae221b9f0a (* 3.25792512996573918826e+02 *).
(** libm/src/math/erf.rs line 169 *)
Definition rs_erf_SB3 : Z := 0x409802eb189d5118 (* 1.53672958608443695994e+03 *).
(** libm/src/math/erf.rs line 170 *)
Definition rs_erf_SB4 : Z := 0x40a8ffb7688c246a (* 3.19985821950859553908e+03 *).
(** libm/src/math/erf.rs line 171 *)
Definition rs_erf_SB5 : Z := 0x40a3f219cedf3be6 (* 2.55305040643316442583e+03 *).
(** libm/src/math/erf.rs line 172 *)
Definition rs_erf_SB6 : Z := 0x407da874e79fe763 (* 4.74528541206955367215e+02 *).
(** libm/src/math/erf.rs line 173 *)
Definition rs_erf_SB7 : Z := 0xc03670e242712d62 (* -2.24409524465858183362e+01 *).
(** [erfc1], libm/src/math/erf.rs lines 175-185 *)
Definition rs_erf_erfc1 (x : Z) : Z :=
  let s := (fabs f64 x) -: 0x3ff0000000000000 (* 1.0 *) in
  let p := rs_erf_PA0 +: (s *: (rs_erf_PA1 +: (s *: (rs_erf_PA2 +: (s *: (rs_erf_PA3 +: (s *: (rs_erf_PA4 +: (s *: (rs_erf_PA5 +: (s *: rs_erf_PA6))))))))))) in
  let q := 0x3ff0000000000000 (* 1.0 *) +: (s *: (rs_erf_QA1 +: (s *: (rs_erf_QA2 +: (s *: (rs_erf_QA3 +: (s *: (rs_erf_QA4 +: (s *: (rs_erf_QA5 +: (s *: rs_erf_QA6))))))))))) in
  ((0x3ff0000000000000 (* 1.0 *) -: rs_erf_ERX) -: (p /: q)).
(** [erfc2], libm/src/math/erf.rs lines 187-215 *)
Definition rs_erf_erfc2 (ix x : Z) : option Z :=
  if ix <? 0x3ff40000 then Some (rs_erf_erfc1 x)
  else 
    let x := fabs f64 x in
    let s := 0x3ff0000000000000 (* 1.0 *) /: (x *: x) in
    let '(r, big_s) :=
      (if ix <? 0x4006db6d then
         let r := rs_erf_RA0 +: (s *: (rs_erf_RA1 +: (s *: (rs_erf_RA2 +: (s *: (rs_erf_RA3 +: (s *: (rs_erf_RA4 +: (s *: (rs_erf_RA5 +: (s *: (rs_erf_RA6 +: (s *: rs_erf_RA7))))))))))))) in
         let big_s := 0x3ff0000000000000 (* 1.0 *) +: (s *: (rs_erf_SA1 +: (s *: (rs_erf_SA2 +: (s *: (rs_erf_SA3 +: (s *: (rs_erf_SA4 +: (s *: (rs_erf_SA5 +: (s *: (rs_erf_SA6 +: (s *: (rs_erf_SA7 +: (s *: rs_erf_SA8))))))))))))))) in
         (r, big_s)
       else 
         let r := rs_erf_RB0 +: (s *: (rs_erf_RB1 +: (s *: (rs_erf_RB2 +: (s *: (rs_erf_RB3 +: (s *: (rs_erf_RB4 +: (s *: (rs_erf_RB5 +: (s *: rs_erf_RB6))))))))))) in
         let big_s := 0x3ff0000000000000 (* 1.0 *) +: (s *: (rs_erf_SB1 +: (s *: (rs_erf_SB2 +: (s *: (rs_erf_SB3 +: (s *: (rs_erf_SB4 +: (s *: (rs_erf_SB5 +: (s *: (rs_erf_SB6 +: (s *: rs_erf_SB7))))))))))))) in
         (r, big_s)) in
    let z := with_set_low_word x 0 in
    let* v0 := rs_exp (((fneg f64 z) *: z) -: 0x3fe2000000000000 (* 0.5625 *)) in
    let* v1 := rs_exp (((z -: x) *: (z +: x)) +: (r /: big_s)) in
    Some ((v0 *: v1) /: x).
(** [erf], libm/src/math/erf.rs lines 223-260 *)
Definition rs_erf (x : Z) : option Z :=
  let ix := get_high_word x in
  let sign := Z.shiftr ix 31 in
  let ix := Z.land ix 0x7fffffff in
  if 0x7ff00000 <=? ix then
    Some ((0x3ff0000000000000 (* 1.0 *) -: (0x4000000000000000 (* 2.0 *) *: (of_int f64 sign))) +: (0x3ff0000000000000 (* 1.0 *) /: x))
  else if ix <? 0x3feb0000 then
    if ix <? 0x3e300000 then
      Some (0x3fc0000000000000 (* 0.125 *) *: ((0x4020000000000000 (* 8.0 *) *: x) +: (rs_erf_EFX8 *: x)))
    else 
      let z := x *: x in
      let r := rs_erf_PP0 +: (z *: (rs_erf_PP1 +: (z *: (rs_erf_PP2 +: (z *: (rs_erf_PP3 +: (z *: rs_erf_PP4))))))) in
      let s := 0x3ff0000000000000 (* 1.0 *) +: (z *: (rs_erf_QQ1 +: (z *: (rs_erf_QQ2 +: (z *: (rs_erf_QQ3 +: (z *: (rs_erf_QQ4 +: (z *: rs_erf_QQ5))))))))) in
      let y := r /: s in
      Some (x +: (x *: y))
  else 
    let* y :=
      (if ix <? 0x40180000 then
         let* v1 := rs_erf_erfc2 ix x in
         let y := 0x3ff0000000000000 (* 1.0 *) -: v1 in
         Some y
       else 
         let x1p_1022 := 0x10000000000000 in
         let y := 0x3ff0000000000000 (* 1.0 *) -: x1p_1022 in
         Some y) in
    if negb (sign =? 0) then Some (fneg f64 y)
    else Some y.
(** [erfc], libm/src/math/erf.rs lines 268-310 *)
Definition rs_erfc (x : Z) : option Z :=
  let ix := get_high_word x in
  let sign := Z.shiftr ix 31 in
  let ix := Z.land ix 0x7fffffff in
  if 0x7ff00000 <=? ix then
    Some ((0x4000000000000000 (* 2.0 *) *: (of_int f64 sign)) +: (0x3ff0000000000000 (* 1.0 *) /: x))
  else if ix <? 0x3feb0000 then
    if ix <? 0x3c700000 then Some (0x3ff0000000000000 (* 1.0 *) -: x)
    else 
      let z := x *: x in
      let r := rs_erf_PP0 +: (z *: (rs_erf_PP1 +: (z *: (rs_erf_PP2 +: (z *: (rs_erf_PP3 +: (z *: rs_erf_PP4))))))) in
      let s := 0x3ff0000000000000 (* 1.0 *) +: (z *: (rs_erf_QQ1 +: (z *: (rs_erf_QQ2 +: (z *: (rs_erf_QQ3 +: (z *: (rs_erf_QQ4 +: (z *: rs_erf_QQ5))))))))) in
      let y := r /: s in
      if (negb (sign =? 0)) || (ix <? 0x3fd00000) then Some (0x3ff0000000000000 (* 1.0 *) -: (x +: (x *: y)))
      else Some (0x3fe0000000000000 (* 0.5 *) -: ((x -: 0x3fe0000000000000 (* 0.5 *)) +: (x *: y)))
  else if ix <? 0x403c0000 then
    if negb (sign =? 0) then
      let* v0 := rs_erf_erfc2 ix x in
      Some (0x4000000000000000 (* 2.0 *) -: v0)
    else rs_erf_erfc2 ix x
  else 
    let x1p_1022 := 0x10000000000000 in
    if negb (sign =? 0) then Some (0x4000000000000000 (* 2.0 *) -: x1p_1022)
    else Some (x1p_1022 *: x1p_1022).

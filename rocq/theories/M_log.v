(** Generated by tools/rs2v.py from the Rust sources named in the comments.  [rs_f] is the Rust function [f];
    constants and private functions carry the name of their file.  See DESIGN.md for the reading of Rust. *)
From Coq Require Import ZArith Bool List.
From Verif Require Import Base Spec Format Ieee M_basic M_bits M_scalbn M_fma M_sqrt M_elib.
Import ListNotations.
Open Scope Z_scope.
Open Scope fl_scope.

(** * logf.rs *)
(** libm/src/math/logf.rs line 16 *)
Definition rs_logf_LN2_HI : Z := 0x3f317180 (* 6.9313812256e-01 *).
(** libm/src/math/logf.rs line 17 *)
Definition rs_logf_LN2_LO : Z := 0x3717f7d1 (* 9.0580006145e-06 *).
(** libm/src/math/logf.rs line 19 *)
Definition rs_logf_LG1 : Z := 0x3f2aaaaa (* 0.66666662693 *).
(** libm/src/math/logf.rs line 20 *)
Definition rs_logf_LG2 : Z := 0x3eccce13 (* 0.40000972152 *).
(** libm/src/math/logf.rs line 21 *)
Definition rs_logf_LG3 : Z := 0x3e91e9ee (* 0.28498786688 *).
(** libm/src/math/logf.rs line 22 *)
Definition rs_logf_LG4 : Z := 0x3e789e26 (* 0.24279078841 *).
(** the continuation shared by several branches of [logf] *)
Definition rs_logf_1 (ix k : Z) : option Z :=
  let* ix := uadd 32 ix 0x4afb0d in
  let* v2 := ssub 32 (to_i 32 (Z.shiftr ix 23)) 127 in
  let* k := sadd 32 k v2 in
  let* ix := uadd 32 (Z.land ix 0x7fffff) 0x3f3504f3 in
  let x := ix in
  let f := x -' 0x3f800000 (* 1.0 *) in
  let s := f /' (0x40000000 (* 2.0 *) +' f) in
  let z := s *' s in
  let w := z *' z in
  let t1 := w *' (rs_logf_LG2 +' (w *' rs_logf_LG4)) in
  let t2 := z *' (rs_logf_LG1 +' (w *' rs_logf_LG3)) in
  let r := t2 +' t1 in
  let hfsq := (0x3f000000 (* 0.5 *) *' f) *' f in
  let dk := of_int f32 k in
  Some (((((s *' (hfsq +' r)) +' (dk *' rs_logf_LN2_LO)) -' hfsq) +' f) +' (dk *' rs_logf_LN2_HI)).
(** [logf], libm/src/math/logf.rs lines 26-66 *)
Definition rs_logf (x : Z) : option Z :=
  let x1p25 := 0x4c000000 in
  let ix := x in
  let k := 0 in
  if (ix <? 0x800000) || (negb ((Z.shiftr ix 31) =? 0)) then
    if (shlu 32 ix 1) =? 0 then Some (0xbf800000 (* -1.0 *) /' (x *' x))
    else if negb ((Z.shiftr ix 31) =? 0) then Some ((x -' x) /' 0 (* 0.0 *))
    else 
      let* k := ssub 32 k 25 in
      let x := x *' x1p25 in
      let ix := x in
      rs_logf_1 ix k
  else if 0x7f800000 <=? ix then Some x
  else if ix =? 0x3f800000 then Some 0 (* 0.0 *)
  else rs_logf_1 ix k.

(** * log2f.rs *)
(** libm/src/math/log2f.rs line 18 *)
Definition rs_log2f_IVLN2HI : Z := 0x3fb8b000 (* 1.4428710938e+00 *).
(** libm/src/math/log2f.rs line 19 *)
Definition rs_log2f_IVLN2LO : Z := 0xb9389ad4 (* -1.7605285393e-04 *).
(** libm/src/math/log2f.rs line 21 *)
Definition rs_log2f_LG1 : Z := 0x3f2aaaaa (* 0.66666662693 *).
(** libm/src/math/log2f.rs line 22 *)
Definition rs_log2f_LG2 : Z := 0x3eccce13 (* 0.40000972152 *).
(** libm/src/math/log2f.rs line 23 *)
Definition rs_log2f_LG3 : Z := 0x3e91e9ee (* 0.28498786688 *).
(** libm/src/math/log2f.rs line 24 *)
Definition rs_log2f_LG4 : Z := 0x3e789e26 (* 0.24279078841 *).
(** the continuation shared by several branches of [log2f] *)
Definition rs_log2f_1 (ix k : Z) : option Z :=
  let* ix := uadd 32 ix 0x4afb0d in
  let* v2 := ssub 32 (to_i 32 (Z.shiftr ix 23)) 127 in
  let* k := sadd 32 k v2 in
  let* ix := uadd 32 (Z.land ix 0x7fffff) 0x3f3504f3 in
  let ui := ix in
  let x := ui in
  let f := x -' 0x3f800000 (* 1.0 *) in
  let s := f /' (0x40000000 (* 2.0 *) +' f) in
  let z := s *' s in
  let w := z *' z in
  let t1 := w *' (rs_log2f_LG2 +' (w *' rs_log2f_LG4)) in
  let t2 := z *' (rs_log2f_LG1 +' (w *' rs_log2f_LG3)) in
  let r := t2 +' t1 in
  let hfsq := (0x3f000000 (* 0.5 *) *' f) *' f in
  let hi := f -' hfsq in
  let ui := hi in
  let ui := Z.land ui 0xfffff000 in
  let hi := ui in
  let lo := ((f -' hi) -' hfsq) +' (s *' (hfsq +' r)) in
  Some (((((lo +' hi) *' rs_log2f_IVLN2LO) +' (lo *' rs_log2f_IVLN2HI)) +' (hi *' rs_log2f_IVLN2HI)) +' (of_int f32 k)).
(** [log2f], libm/src/math/log2f.rs lines 28-88 *)
Definition rs_log2f (x : Z) : option Z :=
  let x1p25f := 0x4c000000 in
  let ui := x in
  let ix := ui in
  let k := 0 in
  if (ix <? 0x800000) || (0 <? (Z.shiftr ix 31)) then
    if (shlu 32 ix 1) =? 0 then Some (0xbf800000 (* -1.0 *) /' (x *' x))
    else if 0 <? (Z.shiftr ix 31) then Some ((x -' x) /' 0 (* 0.0 *))
    else 
      let* k := ssub 32 k 25 in
      let x := x *' x1p25f in
      let ui := x in
      let ix := ui in
      rs_log2f_1 ix k
  else if 0x7f800000 <=? ix then Some x
  else if ix =? 0x3f800000 then Some 0 (* 0.0 *)
  else rs_log2f_1 ix k.

(** * log10f.rs *)
(** libm/src/math/log10f.rs line 18 *)
Definition rs_log10f_IVLN10HI : Z := 0x3ede6000 (* 4.3432617188e-01 *).
(** libm/src/math/log10f.rs line 19 *)
Definition rs_log10f_IVLN10LO : Z := 0xb804ead9 (* -3.1689971365e-05 *).
(** libm/src/math/log10f.rs line 20 *)
Definition rs_log10f_LOG10_2HI : Z := 0x3e9a2080 (* 3.0102920532e-01 *).
(** libm/src/math/log10f.rs line 21 *)
Definition rs_log10f_LOG10_2LO : Z := 0x355427db (* 7.9034151668e-07 *).
(** libm/src/math/log10f.rs line 23 *)
Definition rs_log10f_LG1 : Z := 0x3f2aaaaa (* 0.66666662693 *).
(** libm/src/math/log10f.rs line 24 *)
Definition rs_log10f_LG2 : Z := 0x3eccce13 (* 0.40000972152 *).
(** libm/src/math/log10f.rs line 25 *)
Definition rs_log10f_LG3 : Z := 0x3e91e9ee (* 0.28498786688 *).
(** libm/src/math/log10f.rs line 26 *)
Definition rs_log10f_LG4 : Z := 0x3e789e26 (* 0.24279078841 *).
(** the continuation shared by several branches of [log10f] *)
Definition rs_log10f_1 (ix k : Z) : option Z :=
  let* ix := uadd 32 ix 0x4afb0d in
  let* v2 := ssub 32 (to_i 32 (Z.shiftr ix 23)) 127 in
  let* k := sadd 32 k v2 in
  let* ix := uadd 32 (Z.land ix 0x7fffff) 0x3f3504f3 in
  let ui := ix in
  let x := ui in
  let f := x -' 0x3f800000 (* 1.0 *) in
  let s := f /' (0x40000000 (* 2.0 *) +' f) in
  let z := s *' s in
  let w := z *' z in
  let t1 := w *' (rs_log10f_LG2 +' (w *' rs_log10f_LG4)) in
  let t2 := z *' (rs_log10f_LG1 +' (w *' rs_log10f_LG3)) in
  let r := t2 +' t1 in
  let hfsq := (0x3f000000 (* 0.5 *) *' f) *' f in
  let hi := f -' hfsq in
  let ui := hi in
  let ui := Z.land ui 0xfffff000 in
  let hi := ui in
  let lo := ((f -' hi) -' hfsq) +' (s *' (hfsq +' r)) in
  let dk := of_int f32 k in
  Some (((((dk *' rs_log10f_LOG10_2LO) +' ((lo +' hi) *' rs_log10f_IVLN10LO)) +' (lo *' rs_log10f_IVLN10HI)) +' (hi *' rs_log10f_IVLN10HI)) +' (dk *' rs_log10f_LOG10_2HI)).
(** [log10f], libm/src/math/log10f.rs lines 30-92 *)
Definition rs_log10f (x : Z) : option Z :=
  let x1p25f := 0x4c000000 in
  let ui := x in
  let ix := ui in
  let k := 0 in
  if (ix <? 0x800000) || (0 <? (Z.shiftr ix 31)) then
    if (shlu 32 ix 1) =? 0 then Some (0xbf800000 (* -1.0 *) /' (x *' x))
    else if 0 <? (Z.shiftr ix 31) then Some ((x -' x) /' 0 (* 0.0 *))
    else 
      let* k := ssub 32 k 25 in
      let x := x *' x1p25f in
      let ui := x in
      let ix := ui in
      rs_log10f_1 ix k
  else if 0x7f800000 <=? ix then Some x
  else if ix =? 0x3f800000 then Some 0 (* 0.0 *)
  else rs_log10f_1 ix k.

(** * log1pf.rs *)
(** libm/src/math/log1pf.rs line 15 *)
Definition rs_log1pf_LN2_HI : Z := 0x3f317180 (* 6.9313812256e-01 *).
(** libm/src/math/log1pf.rs line 16 *)
Definition rs_log1pf_LN2_LO : Z := 0x3717f7d1 (* 9.0580006145e-06 *).
(** libm/src/math/log1pf.rs line 18 *)
Definition rs_log1pf_LG1 : Z := 0x3f2aaaaa (* 0.66666662693 *).
(** libm/src/math/log1pf.rs line 19 *)
Definition rs_log1pf_LG2 : Z := 0x3eccce13 (* 0.40000972152 *).
(** libm/src/math/log1pf.rs line 20 *)
Definition rs_log1pf_LG3 : Z := 0x3e91e9ee (* 0.28498786688 *).
(** libm/src/math/log1pf.rs line 21 *)
Definition rs_log1pf_LG4 : Z := 0x3e789e26 (* 0.24279078841 *).
(** the continuation shared by several branches of [log1pf] *)
Definition rs_log1pf_1 (x f c k : Z) : option Z :=
  let* (k, c, f) :=
    (if 0 <? k then
       let ui := 0x3f800000 (* 1.0 *) +' x in
       let iu := ui in
       let* iu := uadd 32 iu 0x4afb0d in
       let* k := ssub 32 (to_i 32 (Z.shiftr iu 23)) 127 in
       let c :=
         (if k <? 25 then
            let c :=
              (if 2 <=? k then (0x3f800000 (* 1.0 *) -' (ui -' x))
               else (x -' (ui -' 0x3f800000 (* 1.0 *)))) in
            let c := c /' ui in
            c
          else 
            let c := 0 (* 0.0 *) in
            c) in
       let* iu := uadd 32 (Z.land iu 0x7fffff) 0x3f3504f3 in
       let ui := iu in
       let f := ui -' 0x3f800000 (* 1.0 *) in
       Some (k, c, f)
     else Some (k, c, f)) in
  let s := f /' (0x40000000 (* 2.0 *) +' f) in
  let z := s *' s in
  let w := z *' z in
  let t1 := w *' (rs_log1pf_LG2 +' (w *' rs_log1pf_LG4)) in
  let t2 := z *' (rs_log1pf_LG1 +' (w *' rs_log1pf_LG3)) in
  let r := t2 +' t1 in
  let hfsq := (0x3f000000 (* 0.5 *) *' f) *' f in
  let dk := of_int f32 k in
  Some (((((s *' (hfsq +' r)) +' ((dk *' rs_log1pf_LN2_LO) +' c)) -' hfsq) +' f) +' (dk *' rs_log1pf_LN2_HI)).
(** [log1pf], libm/src/math/log1pf.rs lines 25-95 *)
Definition rs_log1pf (x : Z) : option Z :=
  let ui := x in
  let f := 0 (* 0.0 *) in
  let c := 0 (* 0.0 *) in
  let ix := ui in
  let k := 1 in
  if (ix <? 0x3ed413d0) || (0 <? (Z.shiftr ix 31)) then
    if 0xbf800000 <=? ix then
      if feq f32 x 0xbf800000 (* -1.0 *) then Some (x /' 0 (* 0.0 *))
      else Some ((x -' x) /' 0 (* 0.0 *))
    else if (shlu 32 ix 1) <? 0x67000000 then Some x
    else 
      let '(k, c, f) :=
        (if ix <=? 0xbe95f619 then
           let k := 0 in
           let c := 0 (* 0.0 *) in
           let f := x in
           (k, c, f)
         else (k, c, f)) in
      rs_log1pf_1 x f c k
  else if 0x7f800000 <=? ix then Some x
  else rs_log1pf_1 x f c k.

(** * log.rs *)
(** libm/src/math/log.rs line 63 *)
Definition rs_log_LN2_HI : Z := 0x3fe62e42fee00000 (* 6.93147180369123816490e-01 *).
(** libm/src/math/log.rs line 64 *)
Definition rs_log_LN2_LO : Z := 0x3dea39ef35793c76 (* 1.90821492927058770002e-10 *).
(** libm/src/math/log.rs line 65 *)
Definition rs_log_LG1 : Z := 0x3fe5555555555593 (* 6.666666666666735130e-01 *).
(** libm/src/math/log.rs line 66 *)
Definition rs_log_LG2 : Z := 0x3fd999999997fa04 (* 3.999999999940941908e-01 *).
(** libm/src/math/log.rs line 67 *)
Definition rs_log_LG3 : Z := 0x3fd2492494229359 (* 2.857142874366239149e-01 *).
(** libm/src/math/log.rs line 68 *)
Definition rs_log_LG4 : Z := 0x3fcc71c51d8e78af (* 2.222219843214978396e-01 *).
(** libm/src/math/log.rs line 69 *)
Definition rs_log_LG5 : Z := 0x3fc7466496cb03de (* 1.818357216161805012e-01 *).
(** libm/src/math/log.rs line 70 *)
Definition rs_log_LG6 : Z := 0x3fc39a09d078c69f (* 1.531383769920937332e-01 *).
(** libm/src/math/log.rs line 71 *)
Definition rs_log_LG7 : Z := 0x3fc2f112df3e5244 (* 1.479819860511658591e-01 *).
(** the continuation shared by several branches of [log] *)
Definition rs_log_1 (ui hx k : Z) : option Z :=
  let* hx := uadd 32 hx 0x95f62 in
  let* v2 := ssub 32 (to_i 32 (Z.shiftr hx 20)) 1023 in
  let* k := sadd 32 k v2 in
  let* hx := uadd 32 (Z.land hx 0xfffff) 0x3fe6a09e in
  let ui := Z.lor (shlu 64 hx 32) (Z.land ui 0xffffffff) in
  let x := ui in
  let f := x -: 0x3ff0000000000000 (* 1.0 *) in
  let hfsq := (0x3fe0000000000000 (* 0.5 *) *: f) *: f in
  let s := f /: (0x4000000000000000 (* 2.0 *) +: f) in
  let z := s *: s in
  let w := z *: z in
  let t1 := w *: (rs_log_LG2 +: (w *: (rs_log_LG4 +: (w *: rs_log_LG6)))) in
  let t2 := z *: (rs_log_LG1 +: (w *: (rs_log_LG3 +: (w *: (rs_log_LG5 +: (w *: rs_log_LG7)))))) in
  let r := t2 +: t1 in
  let dk := of_int f64 k in
  Some (((((s *: (hfsq +: r)) +: (dk *: rs_log_LN2_LO)) -: hfsq) +: f) +: (dk *: rs_log_LN2_HI)).
(** [log], libm/src/math/log.rs lines 75-118 *)
Definition rs_log (x : Z) : option Z :=
  let x1p54 := 0x4350000000000000 in
  let ui := x in
  let hx := to_u 32 (Z.shiftr ui 32) in
  let k := 0 in
  if (hx <? 0x100000) || (negb ((Z.shiftr hx 31) =? 0)) then
    if (shlu 64 ui 1) =? 0 then Some (0xbff0000000000000 (* -1.0 *) /: (x *: x))
    else if negb ((Z.shiftr hx 31) =? 0) then Some ((x -: x) /: 0 (* 0.0 *))
    else 
      let* k := ssub 32 k 54 in
      let x := x *: x1p54 in
      let ui := x in
      let hx := to_u 32 (Z.shiftr ui 32) in
      rs_log_1 ui hx k
  else if 0x7ff00000 <=? hx then Some x
  else if (hx =? 0x3ff00000) && ((shlu 64 ui 32) =? 0) then Some 0 (* 0.0 *)
  else rs_log_1 ui hx k.

(** * log2.rs *)
(** libm/src/math/log2.rs line 22 *)
Definition rs_log2_IVLN2HI : Z := 0x3ff7154765200000 (* 1.44269504072144627571e+00 *).
(** libm/src/math/log2.rs line 23 *)
Definition rs_log2_IVLN2LO : Z := 0x3de705fc2eefa200 (* 1.67517131648865118353e-10 *).
(** libm/src/math/log2.rs line 24 *)
Definition rs_log2_LG1 : Z := 0x3fe5555555555593 (* 6.666666666666735130e-01 *).
(** libm/src/math/log2.rs line 25 *)
Definition rs_log2_LG2 : Z := 0x3fd999999997fa04 (* 3.999999999940941908e-01 *).
(** libm/src/math/log2.rs line 26 *)
Definition rs_log2_LG3 : Z := 0x3fd2492494229359 (* 2.857142874366239149e-01 *).
(** libm/src/math/log2.rs line 27 *)
Definition rs_log2_LG4 : Z := 0x3fcc71c51d8e78af (* 2.222219843214978396e-01 *).
(** libm/src/math/log2.rs line 28 *)
Definition rs_log2_LG5 : Z := 0x3fc7466496cb03de (* 1.818357216161805012e-01 *).
(** libm/src/math/log2.rs line 29 *)
Definition rs_log2_LG6 : Z := 0x3fc39a09d078c69f (* 1.531383769920937332e-01 *).
(** libm/src/math/log2.rs line 30 *)
Definition rs_log2_LG7 : Z := 0x3fc2f112df3e5244 (* 1.479819860511658591e-01 *).
(** the continuation shared by several branches of [log2] *)
Definition rs_log2_1 (ui hx k : Z) : option Z :=
  let* hx := uadd 32 hx 0x95f62 in
  let* v2 := ssub 32 (to_i 32 (Z.shiftr hx 20)) 1023 in
  let* k := sadd 32 k v2 in
  let* hx := uadd 32 (Z.land hx 0xfffff) 0x3fe6a09e in
  let ui := Z.lor (shlu 64 hx 32) (Z.land ui 0xffffffff) in
  let x := ui in
  let f := x -: 0x3ff0000000000000 (* 1.0 *) in
  let hfsq := (0x3fe0000000000000 (* 0.5 *) *: f) *: f in
  let s := f /: (0x4000000000000000 (* 2.0 *) +: f) in
  let z := s *: s in
  let w := z *: z in
  let t1 := w *: (rs_log2_LG2 +: (w *: (rs_log2_LG4 +: (w *: rs_log2_LG6)))) in
  let t2 := z *: (rs_log2_LG1 +: (w *: (rs_log2_LG3 +: (w *: (rs_log2_LG5 +: (w *: rs_log2_LG7)))))) in
  let r := t2 +: t1 in
  let hi := f -: hfsq in
  let ui := hi in
  let ui := Z.land ui 0xffffffff00000000 in
  let hi := ui in
  let lo := ((f -: hi) -: hfsq) +: (s *: (hfsq +: r)) in
  let val_hi := hi *: rs_log2_IVLN2HI in
  let val_lo := ((lo +: hi) *: rs_log2_IVLN2LO) +: (lo *: rs_log2_IVLN2HI) in
  let y := of_int f64 k in
  let w := y +: val_hi in
  let val_lo := val_lo +: ((y -: w) +: val_hi) in
  let val_hi := w in
  Some (val_lo +: val_hi).
(** [log2], libm/src/math/log2.rs lines 34-107 *)
Definition rs_log2 (x : Z) : option Z :=
  let x1p54 := 0x4350000000000000 in
  let ui := x in
  let hx := to_u 32 (Z.shiftr ui 32) in
  let k := 0 in
  if (hx <? 0x100000) || (0 <? (Z.shiftr hx 31)) then
    if (shlu 64 ui 1) =? 0 then Some (0xbff0000000000000 (* -1.0 *) /: (x *: x))
    else if 0 <? (Z.shiftr hx 31) then Some ((x -: x) /: 0 (* 0.0 *))
    else 
      let* k := ssub 32 k 54 in
      let x := x *: x1p54 in
      let ui := x in
      let hx := to_u 32 (Z.shiftr ui 32) in
      rs_log2_1 ui hx k
  else if 0x7ff00000 <=? hx then Some x
  else if (hx =? 0x3ff00000) && ((shlu 64 ui 32) =? 0) then Some 0 (* 0.0 *)
  else rs_log2_1 ui hx k.

(** * log10.rs *)
(** libm/src/math/log10.rs line 22 *)
Definition rs_log10_IVLN10HI : Z := 0x3fdbcb7b15200000 (* 4.34294481878168880939e-01 *).
(** libm/src/math/log10.rs line 23 *)
Definition rs_log10_IVLN10LO : Z := 0x3dbb9438ca9aadd5 (* 2.50829467116452752298e-11 *).
(** libm/src/math/log10.rs line 24 *)
Definition rs_log10_LOG10_2HI : Z := 0x3fd34413509f6000 (* 3.01029995663611771306e-01 *).
(** libm/src/math/log10.rs line 25 *)
Definition rs_log10_LOG10_2LO : Z := 0x3d59fef311f12b36 (* 3.69423907715893078616e-13 *).
(** libm/src/math/log10.rs line 26 *)
Definition rs_log10_LG1 : Z := 0x3fe5555555555593 (* 6.666666666666735130e-01 *).
(** libm/src/math/log10.rs line 27 *)
Definition rs_log10_LG2 : Z := 0x3fd999999997fa04 (* 3.999999999940941908e-01 *).
(** libm/src/math/log10.rs line 28 *)
Definition rs_log10_LG3 : Z := 0x3fd2492494229359 (* 2.857142874366239149e-01 *).
(** libm/src/math/log10.rs line 29 *)
Definition rs_log10_LG4 : Z := 0x3fcc71c51d8e78af (* 2.222219843214978396e-01 *).
(** libm/src/math/log10.rs line 30 *)
Definition rs_log10_LG5 : Z := 0x3fc7466496cb03de (* 1.818357216161805012e-01 *).
(** libm/src/math/log10.rs line 31 *)
Definition rs_log10_LG6 : Z := 0x3fc39a09d078c69f (* 1.531383769920937332e-01 *).
(** libm/src/math/log10.rs line 32 *)
Definition rs_log10_LG7 : Z := 0x3fc2f112df3e5244 (* 1.479819860511658591e-01 *).
(** the continuation shared by several branches of [log10] *)
Definition rs_log10_1 (ui hx k : Z) : option Z :=
  let* hx := uadd 32 hx 0x95f62 in
  let* v2 := ssub 32 (to_i 32 (Z.shiftr hx 20)) 1023 in
  let* k := sadd 32 k v2 in
  let* hx := uadd 32 (Z.land hx 0xfffff) 0x3fe6a09e in
  let ui := Z.lor (shlu 64 hx 32) (Z.land ui 0xffffffff) in
  let x := ui in
  let f := x -: 0x3ff0000000000000 (* 1.0 *) in
  let hfsq := (0x3fe0000000000000 (* 0.5 *) *: f) *: f in
  let s := f /: (0x4000000000000000 (* 2.0 *) +: f) in
  let z := s *: s in
  let w := z *: z in
  let t1 := w *: (rs_log10_LG2 +: (w *: (rs_log10_LG4 +: (w *: rs_log10_LG6)))) in
  let t2 := z *: (rs_log10_LG1 +: (w *: (rs_log10_LG3 +: (w *: (rs_log10_LG5 +: (w *: rs_log10_LG7)))))) in
  let r := t2 +: t1 in
  let hi := f -: hfsq in
  let ui := hi in
  let ui := Z.land ui 0xffffffff00000000 in
  let hi := ui in
  let lo := ((f -: hi) -: hfsq) +: (s *: (hfsq +: r)) in
  let val_hi := hi *: rs_log10_IVLN10HI in
  let dk := of_int f64 k in
  let y := dk *: rs_log10_LOG10_2HI in
  let val_lo := ((dk *: rs_log10_LOG10_2LO) +: ((lo +: hi) *: rs_log10_IVLN10LO)) +: (lo *: rs_log10_IVLN10HI) in
  let w := y +: val_hi in
  let val_lo := val_lo +: ((y -: w) +: val_hi) in
  let val_hi := w in
  Some (val_lo +: val_hi).
(** [log10], libm/src/math/log10.rs lines 36-118 *)
Definition rs_log10 (x : Z) : option Z :=
  let x1p54 := 0x4350000000000000 in
  let ui := x in
  let hx := to_u 32 (Z.shiftr ui 32) in
  let k := 0 in
  if (hx <? 0x100000) || (0 <? (Z.shiftr hx 31)) then
    if (shlu 64 ui 1) =? 0 then Some (0xbff0000000000000 (* -1.0 *) /: (x *: x))
    else if 0 <? (Z.shiftr hx 31) then Some ((x -: x) /: 0 (* 0.0 *))
    else 
      let* k := ssub 32 k 54 in
      let x := x *: x1p54 in
      let ui := x in
      let hx := to_u 32 (Z.shiftr ui 32) in
      rs_log10_1 ui hx k
  else if 0x7ff00000 <=? hx then Some x
  else if (hx =? 0x3ff00000) && ((shlu 64 ui 32) =? 0) then Some 0 (* 0.0 *)
  else rs_log10_1 ui hx k.

(** * log1p.rs *)
(** libm/src/math/log1p.rs line 58 *)
Definition rs_log1p_LN2_HI : Z := 0x3fe62e42fee00000 (* 6.93147180369123816490e-01 *).
(** libm/src/math/log1p.rs line 59 *)
Definition rs_log1p_LN2_LO : Z := 0x3dea39ef35793c76 (* 1.90821492927058770002e-10 *).
(** libm/src/math/log1p.rs line 60 *)
Definition rs_log1p_LG1 : Z := 0x3fe5555555555593 (* 6.666666666666735130e-01 *).
(** libm/src/math/log1p.rs line 61 *)
Definition rs_log1p_LG2 : Z := 0x3fd999999997fa04 (* 3.999999999940941908e-01 *).
(** libm/src/math/log1p.rs line 62 *)
Definition rs_log1p_LG3 : Z := 0x3fd2492494229359 (* 2.857142874366239149e-01 *).
(** libm/src/math/log1p.rs line 63 *)
Definition rs_log1p_LG4 : Z := 0x3fcc71c51d8e78af (* 2.222219843214978396e-01 *).
(** libm/src/math/log1p.rs line 64 *)
Definition rs_log1p_LG5 : Z := 0x3fc7466496cb03de (* 1.818357216161805012e-01 *).
(** libm/src/math/log1p.rs line 65 *)
Definition rs_log1p_LG6 : Z := 0x3fc39a09d078c69f (* 1.531383769920937332e-01 *).
(** libm/src/math/log1p.rs line 66 *)
Definition rs_log1p_LG7 : Z := 0x3fc2f112df3e5244 (* 1.479819860511658591e-01 *).
(** the continuation shared by several branches of [log1p] *)
Definition rs_log1p_1 (x f c k : Z) : option Z :=
  let* (k, c, f) :=
    (if 0 <? k then
       let ui := 0x3ff0000000000000 (* 1.0 *) +: x in
       let hu := to_u 32 (Z.shiftr ui 32) in
       let* hu := uadd 32 hu 0x95f62 in
       let* k := ssub 32 (to_i 32 (Z.shiftr hu 20)) 1023 in
       let c :=
         (if k <? 54 then
            let c :=
              (if 2 <=? k then (0x3ff0000000000000 (* 1.0 *) -: (ui -: x))
               else (x -: (ui -: 0x3ff0000000000000 (* 1.0 *)))) in
            let c := c /: ui in
            c
          else 
            let c := 0 (* 0.0 *) in
            c) in
       let* hu := uadd 32 (Z.land hu 0xfffff) 0x3fe6a09e in
       let ui := Z.lor (shlu 64 hu 32) (Z.land ui 0xffffffff) in
       let f := ui -: 0x3ff0000000000000 (* 1.0 *) in
       Some (k, c, f)
     else Some (k, c, f)) in
  let hfsq := (0x3fe0000000000000 (* 0.5 *) *: f) *: f in
  let s := f /: (0x4000000000000000 (* 2.0 *) +: f) in
  let z := s *: s in
  let w := z *: z in
  let t1 := w *: (rs_log1p_LG2 +: (w *: (rs_log1p_LG4 +: (w *: rs_log1p_LG6)))) in
  let t2 := z *: (rs_log1p_LG1 +: (w *: (rs_log1p_LG3 +: (w *: (rs_log1p_LG5 +: (w *: rs_log1p_LG7)))))) in
  let r := t2 +: t1 in
  let dk := of_int f64 k in
  Some (((((s *: (hfsq +: r)) +: ((dk *: rs_log1p_LN2_LO) +: c)) -: hfsq) +: f) +: (dk *: rs_log1p_LN2_HI)).
(** [log1p], libm/src/math/log1p.rs lines 70-140 *)
Definition rs_log1p (x : Z) : option Z :=
  let ui := x in
  let f := 0 (* 0.0 *) in
  let c := 0 (* 0.0 *) in
  let hx := to_u 32 (Z.shiftr ui 32) in
  let k := 1 in
  if (hx <? 0x3fda827a) || (0 <? (Z.shiftr hx 31)) then
    if 0xbff00000 <=? hx then
      if feq f64 x 0xbff0000000000000 (* -1.0 *) then Some (x /: 0 (* 0.0 *))
      else Some ((x -: x) /: 0 (* 0.0 *))
    else if (shlu 32 hx 1) <? 0x79400000 then Some x
    else 
      let '(k, c, f) :=
        (if hx <=? 0xbfd2bec4 then
           let k := 0 in
           let c := 0 (* 0.0 *) in
           let f := x in
           (k, c, f)
         else (k, c, f)) in
      rs_log1p_1 x f c k
  else if 0x7ff00000 <=? hx then Some x
  else rs_log1p_1 x f c k.

(** * asinhf.rs *)
(** libm/src/math/asinhf.rs line 3 *)
Definition rs_asinhf_LN2 : Z := 0x3f317218 (* 0.693147180559945309417232121458176568 *).
(** [asinhf], libm/src/math/asinhf.rs lines 11-35 *)
Definition rs_asinhf (x : Z) : option Z :=
  let u := x in
  let i := Z.land u 0x7fffffff in
  let sign := negb ((Z.shiftr u 31) =? 0) in
  let x := i in
  let* x :=
    (if 0x45800000 <=? i then
       let* v1 := rs_logf x in
       let x := v1 +' rs_asinhf_LN2 in
       Some x
     else 
       let* x :=
         (if 0x40000000 <=? i then
            let* v4 := M_sqrt.sqrtf ((x *' x) +' 0x3f800000 (* 1.0 *)) in
            rs_logf ((0x40000000 (* 2.0 *) *' x) +' (0x3f800000 (* 1.0 *) /' (v4 +' x)))
          else 
            let* x :=
              (if 0x39800000 <=? i then
                 let* v8 := M_sqrt.sqrtf ((x *' x) +' 0x3f800000 (* 1.0 *)) in
                 rs_log1pf (x +' ((x *' x) /' (v8 +' 0x3f800000 (* 1.0 *))))
               else 
                 let x1p120 := 0x7b800000 in
                 Some x) in
            Some x) in
       Some x) in
  if sign then Some (fneg f32 x)
  else Some x.

(** * acoshf.rs *)
(** libm/src/math/acoshf.rs line 3 *)
Definition rs_acoshf_LN2 : Z := 0x3f317218 (* 0.693147180559945309417232121458176568 *).
(** [acoshf], libm/src/math/acoshf.rs lines 11-26 *)
Definition rs_acoshf (x : Z) : option Z :=
  let u := x in
  let a := Z.land u 0x7fffffff in
  if a <? 0x40000000 then
    let* v0 := M_sqrt.sqrtf (((x -' 0x3f800000 (* 1.0 *)) *' (x -' 0x3f800000 (* 1.0 *))) +' (0x40000000 (* 2.0 *) *' (x -' 0x3f800000 (* 1.0 *)))) in
    rs_log1pf ((x -' 0x3f800000 (* 1.0 *)) +' v0)
  else if a <? 0x45800000 then
    let* v2 := M_sqrt.sqrtf ((x *' x) -' 0x3f800000 (* 1.0 *)) in
    rs_logf ((0x40000000 (* 2.0 *) *' x) -' (0x3f800000 (* 1.0 *) /' (x +' v2)))
  else 
    let* v4 := rs_logf x in
    Some (v4 +' rs_acoshf_LN2).

(** * atanhf.rs *)
(** [atanhf], libm/src/math/atanhf.rs lines 9-33 *)
Definition rs_atanhf (x : Z) : option Z :=
  let u := x in
  let sign := negb ((Z.shiftr u 31) =? 0) in
  let u := Z.land u 0x7fffffff in
  let x := u in
  let* x :=
    (if u <? 0x3f000000 then
       let* x :=
         (if u <? 0x2f800000 then Some x
          else 
            let* v2 := rs_log1pf ((0x40000000 (* 2.0 *) *' x) +' (((0x40000000 (* 2.0 *) *' x) *' x) /' (0x3f800000 (* 1.0 *) -' x))) in
            let x := 0x3f000000 (* 0.5 *) *' v2 in
            Some x) in
       Some x
     else 
       let* v3 := rs_log1pf (0x40000000 (* 2.0 *) *' (x /' (0x3f800000 (* 1.0 *) -' x))) in
       let x := 0x3f000000 (* 0.5 *) *' v3 in
       Some x) in
  if sign then Some (fneg f32 x)
  else Some x.

(** * asinh.rs *)
(** libm/src/math/asinh.rs line 3 *)
Definition rs_asinh_LN2 : Z := 0x3fe62e42fefa39ef (* 0.693147180559945309417232121458176568 *).
(** [asinh], libm/src/math/asinh.rs lines 11-36 *)
Definition rs_asinh (x : Z) : option Z :=
  let u := x in
  let e_ := Z.land (Z.shiftr u 52) 2047 in
  let sign := negb ((Z.shiftr u 63) =? 0) in
  let u := Z.land u (Z.shiftr (unot 64 0) 1) in
  let x := u in
  let* x :=
    (if 1049 <=? e_ then
       let* v1 := rs_log x in
       let x := v1 +: rs_asinh_LN2 in
       Some x
     else 
       let* x :=
         (if 1024 <=? e_ then
            let* v4 := M_sqrt.sqrt ((x *: x) +: 0x3ff0000000000000 (* 1.0 *)) in
            rs_log ((0x4000000000000000 (* 2.0 *) *: x) +: (0x3ff0000000000000 (* 1.0 *) /: (v4 +: x)))
          else 
            let* x :=
              (if 997 <=? e_ then
                 let* v8 := M_sqrt.sqrt ((x *: x) +: 0x3ff0000000000000 (* 1.0 *)) in
                 rs_log1p (x +: ((x *: x) /: (v8 +: 0x3ff0000000000000 (* 1.0 *))))
               else 
                 let x1p120 := 0x4770000000000000 in
                 Some x) in
            Some x) in
       Some x) in
  if sign then Some (fneg f64 x)
  else Some x.

(** * acosh.rs *)
(** libm/src/math/acosh.rs line 3 *)
Definition rs_acosh_LN2 : Z := 0x3fe62e42fefa39ef (* 0.693147180559945309417232121458176568 *).
(** [acosh], libm/src/math/acosh.rs lines 11-27 *)
Definition rs_acosh (x : Z) : option Z :=
  let u := x in
  let e_ := Z.land (Z.shiftr u 52) 2047 in
  if e_ <? 1024 then
    let* v0 := M_sqrt.sqrt (((x -: 0x3ff0000000000000 (* 1.0 *)) *: (x -: 0x3ff0000000000000 (* 1.0 *))) +: (0x4000000000000000 (* 2.0 *) *: (x -: 0x3ff0000000000000 (* 1.0 *)))) in
    rs_log1p ((x -: 0x3ff0000000000000 (* 1.0 *)) +: v0)
  else if e_ <? 1049 then
    let* v2 := M_sqrt.sqrt ((x *: x) -: 0x3ff0000000000000 (* 1.0 *)) in
    rs_log ((0x4000000000000000 (* 2.0 *) *: x) -: (0x3ff0000000000000 (* 1.0 *) /: (x +: v2)))
  else 
    let* v4 := rs_log x in
    Some (v4 +: rs_acosh_LN2).

(** * atanh.rs *)
(** [atanh], libm/src/math/atanh.rs lines 9-33 *)
Definition rs_atanh (x : Z) : option Z :=
  let u := x in
  let e_ := Z.land (Z.shiftr u 52) 2047 in
  let sign := negb ((Z.shiftr u 63) =? 0) in
  let y := Z.land u 0x7fffffffffffffff in
  let* y :=
    (if e_ <? 1022 then
       let* y :=
         (if e_ <? 991 then Some y
          else 
            let* v2 := rs_log1p ((0x4000000000000000 (* 2.0 *) *: y) +: (((0x4000000000000000 (* 2.0 *) *: y) *: y) /: (0x3ff0000000000000 (* 1.0 *) -: y))) in
            let y := 0x3fe0000000000000 (* 0.5 *) *: v2 in
            Some y) in
       Some y
     else 
       let* v3 := rs_log1p (0x4000000000000000 (* 2.0 *) *: (y /: (0x3ff0000000000000 (* 1.0 *) -: y))) in
       let y := 0x3fe0000000000000 (* 0.5 *) *: v3 in
       Some y) in
  if sign then Some (fneg f64 y)
  else Some y.

(** Models of scalbn and ldexp (libm/src/math/generic/scalbn.rs, scalbn.rs, ldexp.rs).
    The debug assertions of lines 51 and 75 are kept: [None] when they fail. *)
From Coq Require Import ZArith Bool.
From Verif Require Import Base Spec Format Ieee.
Open Scope Z_scope.

Section Scalbn.
Variable F : fmt.

(** [clamp] on i32: panics if the bounds are crossed *)
Definition iclamp (a lo hi : Z) : option Z :=
  if lo <=? hi then Some (if a <? lo then lo else if hi <? a then hi else a) else None.

(** generic/scalbn.rs 96-97 (and 103-104): the scale used for formats of at most 16 bits *)
Definition scalbn_small (n : Z) : option (Z * Z) :=
  let sig_total_bits := SIG_BITS F + 1 in
  let* t := sadd 32 n (to_i 32 sig_total_bits) in
  let* c := iclamp t (EXP_MIN F) (to_i 32 sig_total_bits) in
  let* add := sneg 32 c in
  let* e := ssub 32 (to_i 32 (EXP_BIAS F)) add in
  let* mul := from_parts F false (to_u 32 e) 0 in
  Some (add, mul).

(** generic/scalbn.rs 20-120 *)
Definition scalbn (x n : Z) : option Z :=
  let* sig_total_bits := uadd 32 (SIG_BITS F) 1 in
  let exp_max := EXP_MAX F in
  let exp_min := EXP_MIN F in
  let* e2 := ushl 32 (EXP_BIAS F) 1 in
  let* f_exp_max := from_parts F false e2 0 in
  let* f_exp_min := from_parts F false 1 0 in
  let* es := uadd 32 sig_total_bits (EXP_BIAS F) in
  let* f_pow_subnorm := from_parts F false es 0 in
  let* xn :=
    (if exp_max <? n then
       if negb (- exp_min + to_i 32 (SIG_BITS F) + exp_max <=? exp_max * 3) then None else
       let x := fmul F x f_exp_max in
       let* n := ssub 32 n exp_max in
       if exp_max <? n then
         let x := fmul F x f_exp_max in
         let* n := ssub 32 n exp_max in
         Some (x, if exp_max <? n then exp_max else n)
       else Some (x, n)
     else if n <? exp_min then
       if 16 <? BITS F then
         let mul := fmul F f_exp_min f_pow_subnorm in
         let* ne := sneg 32 exp_min in
         let* add := ssub 32 ne (to_i 32 sig_total_bits) in
         if negb (- exp_min + to_i 32 (SIG_BITS F) + exp_max <=? add * 2 + - exp_min) then None else
         let x := fmul F x mul in
         let* n := sadd 32 n add in
         if n <? exp_min then
           let x := fmul F x mul in
           let* n := sadd 32 n add in
           Some (x, if n <? exp_min then exp_min else n)
         else Some (x, n)
       else
         let* am := scalbn_small n in
         let (add, mul) := am in
         let x := fmul F x mul in
         let* n := sadd 32 n add in
         if n <? exp_min then
           let* am := scalbn_small n in
           let (add, mul) := am in
           let x := fmul F x mul in
           let* n := sadd 32 n add in
           Some (x, if n <? exp_min then exp_min else n)
         else Some (x, n)
     else Some (x, n)) in
  let (x, n) := xn in
  let* e := sadd 32 (to_i 32 (EXP_BIAS F)) n in
  let* scale := from_parts F false (to_u 32 e) 0 in
  Some (fmul F x scale).

(** ldexp.rs 3-22 *)
Definition ldexp (x n : Z) : option Z := scalbn x n.
End Scalbn.

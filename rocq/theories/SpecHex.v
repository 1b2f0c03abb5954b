(** Hexadecimal floating-point literals: their grammar and meaning, and rounding in the four IEEE
    directions with status flags.  Nothing here refers to the code under study. *)
From Coq Require Import ZArith Reals Bool List.
From Flocq Require Import Core.
From Verif Require Import Spec.
Import ListNotations.
Open Scope Z_scope.

(** ** Grammar.  Characters are bytes. *)
Definition hexdig (c d : Z) : Prop :=
  (48 <= c <= 57 /\ d = c - 48) \/ (97 <= c <= 102 /\ d = c - 87) \/ (65 <= c <= 70 /\ d = c - 55).
Definition decdig (c d : Z) : Prop := 48 <= c <= 57 /\ d = c - 48.
(** the number written by digits, most significant first *)
Definition number (base : Z) (ds : list Z) : Z := fold_left (fun a d => a * base + d) ds 0.
(** an optional sign *)
Inductive opt_sign : list Z -> bool -> Prop :=
  | no_sign : opt_sign [] false
  | plus_sign : opt_sign [43] false
  | minus_sign : opt_sign [45] true.
(** an optional fraction *)
Inductive opt_frac : list Z -> list Z -> Prop :=
  | no_frac : opt_frac [] []
  | with_frac cs ds : Forall2 hexdig cs ds -> opt_frac (46 :: cs) ds.

(** [H.HpSD]: hexadecimal digits with at most one point, [p] or [P], an optional sign and decimal digits.
    The digits form the integer [N], [k] of them behind the point; [D] is the written exponent and [ng] its sign. *)
Definition hex_body (s : list Z) (N k D : Z) (ng : bool) : Prop :=
  exists ip di fp df pc sg ep de,
    s = ip ++ fp ++ pc :: sg ++ ep /\
    Forall2 hexdig ip di /\ opt_frac fp df /\ di ++ df <> [] /\
    (pc = 112 \/ pc = 80) /\ opt_sign sg ng /\ Forall2 decdig ep de /\ de <> [] /\
    N = number 16 (di ++ df) /\ k = Z.of_nat (length df) /\ D = number 10 de.
(** a literal: optional sign, [0x] or [0X], body *)
Definition hex_lit (s : list Z) (neg : bool) (N k D : Z) (ng : bool) : Prop :=
  exists sg xc body, s = sg ++ 48 :: xc :: body /\ opt_sign sg neg /\ (xc = 120 \/ xc = 88) /\ hex_body body N k D ng.
(** its magnitude *)
Definition hex_mag (N k D : Z) (ng : bool) : R := (IZR N * bpow radix2 ((if ng then - D else D) - 4 * k))%R.

(** the words [inf] and [nan] in any case, with an optional sign *)
Definition same_letter (c l : Z) : Prop := c = l \/ c = l - 32.
Definition word (s : list Z) (neg : bool) (l0 l1 l2 : Z) : Prop :=
  exists sg c0 c1 c2, s = sg ++ [c0; c1; c2] /\ opt_sign sg neg /\ same_letter c0 l0 /\ same_letter c1 l1 /\ same_letter c2 l2.
Definition inf_word s neg := word s neg 105 110 102.
Definition nan_word s neg := word s neg 110 97 110.
(** the strings that denote a number *)
Definition accepted (s : list Z) : Prop :=
  exists neg, (exists N k D ng, hex_lit s neg N k D ng) \/ inf_word s neg \/ nan_word s neg.

(** ** Rounding in a direction *)
Inductive rmode := ToNearest | Down | Up | ToZero.
Definition rfun (m : rmode) : R -> Z :=
  match m with ToNearest => ZnearestE | Down => Zfloor | Up => Zceil | ToZero => Ztrunc end.
Definition rnd_in (F : fmt) (m : rmode) (r : R) : R :=
  round radix2 (FLT_exp (1 - bias F - mw F) (mw F + 1)) (rfun m) r.
Definition max_finite (F : fmt) (s : bool) : Z := mkbits F s (2 ^ ew F - 2) (2 ^ mw F - 1).
(** the result of an overflow: infinity, or the largest finite number when rounding towards zero *)
Definition overflow_to (F : fmt) (m : rmode) (s : bool) : Z :=
  match m, s with
  | ToNearest, _ | Up, false | Down, true => infinity F s
  | _, _ => max_finite F s
  end.

(** [y] is [sval neg r] rounded in direction [m], and the flags overflow, underflow and inexact say what happened. *)
Definition rounds_in (F : fmt) (m : rmode) (neg : bool) (r : R) (y : Z) (ovf unf inx : bool) : Prop :=
  let v := sval neg r in
  let z := rnd_in F m v in
  isbits F y /\
  if Rlt_bool (Rabs z) (bpow radix2 (bias F + 1)) then
    finite F y = true /\ val F y = z /\ signbit F y = neg /\ ovf = false /\
    (inx = true <-> z <> v) /\
    (unf = true <-> z <> v /\ (Rabs z < bpow radix2 (1 - bias F))%R)
  else y = overflow_to F m neg /\ ovf = true /\ unf = false /\ inx = true.

(** ** Text that need not be a literal: the decimal digits that follow the first [p] (and sign). *)
Fixpoint after_p (s : list Z) : list Z :=
  match s with c :: r => if (c =? 112) || (c =? 80) then r else after_p r | [] => [] end.
Fixpoint lead_dec (s : list Z) : list Z :=
  match s with c :: r => if (48 <=? c) && (c <=? 57) then c - 48 :: lead_dec r else [] | [] => [] end.
Definition skip_sign (s : list Z) : list Z :=
  match s with c :: r => if (c =? 43) || (c =? 45) then r else s | [] => [] end.
Definition exp_field (s : list Z) : Z := number 10 (lead_dec (skip_sign (after_p s))).

(** Small vocabulary of the generated models of the elementary functions (tools/rs2v.py). *)
From Coq Require Import ZArith Bool List.
From Verif Require Import Base Spec Format Ieee.
Import ListNotations.
Open Scope Z_scope.

(** Rust's float operators: [+:] etc. on f64, [+'] etc. on f32. *)
Declare Scope fl_scope.
Delimit Scope fl_scope with fl.
Notation "a '+:' b" := (fadd f64 a b) (at level 50, left associativity) : fl_scope.
Notation "a '-:' b" := (fsub f64 a b) (at level 50, left associativity) : fl_scope.
Notation "a '*:' b" := (fmul f64 a b) (at level 40, left associativity) : fl_scope.
Notation "a '/:' b" := (fdiv f64 a b) (at level 40, left associativity) : fl_scope.
Notation "a '+'' b" := (fadd f32 a b) (at level 50, left associativity) : fl_scope.
Notation "a '-'' b" := (fsub f32 a b) (at level 50, left associativity) : fl_scope.
Notation "a '*'' b" := (fmul f32 a b) (at level 40, left associativity) : fl_scope.
Notation "a '/'' b" := (fdiv f32 a b) (at level 40, left associativity) : fl_scope.

(** [<<] with a constant amount below the width: unsigned and signed *)
Definition shlu (w a n : Z) : Z := Z.shiftl a n mod 2 ^ w.
Definition shli (w a n : Z) : Z := to_i w (Z.shiftl a n).
(** [<<] and [>>] of signed integers by a computed amount: panic when it is not below the width *)
Definition sshl (w a n : Z) : option Z :=
  if (0 <=? n) && (n <? w) then Some (to_i w (Z.shiftl a n)) else None.
Definition sshr (w a n : Z) : option Z :=
  if (0 <=? n) && (n <? w) then Some (Z.shiftr a n) else None.

(** [as u64] of a float *)
Definition to_u64 F x := to_intZ F 0 (2 ^ 64 - 1) x.

(** [as isize] of a float on a target with 64-bit pointers *)
Definition to_isize F x := to_i64 F x.

(** mod.rs 368-396 *)
Definition get_high_word (x : Z) : Z := to_u 32 (Z.shiftr x 32).
Definition get_low_word (x : Z) : Z := to_u 32 x.
Definition with_set_high_word (f hi : Z) : Z := Z.lor (Z.land f 0xffffffff) (shlu 64 hi 32).
Definition with_set_low_word (f lo : Z) : Z := Z.lor (Z.land f 0xffffffff00000000) lo.
Definition combine_words (hi lo : Z) : Z := Z.lor (shlu 64 hi 32) lo.

(** Arrays: [get(i).unwrap()] and assignment; the index is a [usize]. *)
Definition arr_get (l : list Z) (i : Z) : option Z :=
  if i <? 0 then None else nth_error l (Z.to_nat i).
Fixpoint set_nth (l : list Z) (n : nat) (v : Z) : option (list Z) :=
  match l, n with
  | [], _ => None
  | _ :: t, O => Some (v :: t)
  | a :: t, S m => match set_nth t m v with Some t' => Some (a :: t') | None => None end
  end.
Definition arr_set (l : list Z) (i v : Z) : option (list Z) :=
  if i <? 0 then None else set_nth l (Z.to_nat i) v.

(** [for i in lo..=hi] and [for i in (lo..=hi).rev()] over a state *)
Fixpoint for_up {S} (n : nat) (i : Z) (f : Z -> S -> option S) (s : S) : option S :=
  match n with
  | O => Some s
  | Datatypes.S m => match f i s with Some s' => for_up m (i + 1) f s' | None => None end
  end.
Definition for_incl {S} (lo hi : Z) (f : Z -> S -> option S) (s : S) : option S :=
  for_up (Z.to_nat (hi - lo + 1)) lo f s.
Fixpoint for_dn {S} (n : nat) (i : Z) (f : Z -> S -> option S) (s : S) : option S :=
  match n with
  | O => Some s
  | Datatypes.S m => match f i s with Some s' => for_dn m (i - 1) f s' | None => None end
  end.
Definition for_rev {S} (lo hi : Z) (f : Z -> S -> option S) (s : S) : option S :=
  for_dn (Z.to_nat (hi - lo + 1)) hi f s.

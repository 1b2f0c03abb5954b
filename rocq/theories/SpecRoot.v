(** Cube roots (C34). *)
From Coq Require Import ZArith Reals.
From Flocq Require Import Core.
From Verif Require Import Spec SpecAcc.

(** [v] is the real cube root of the number with pattern [x]. *)
Definition cube_root (F : fmt) (x : Z) (v : R) : Prop := (v * v * v = val F x)%R.
(** [v] is within [eps] gaps of the midpoint of the two floats around it, and is not a float. *)
Definition near_tie (F : fmt) (eps v : R) : Prop :=
  (below F v < above F v /\ Rabs (v - (below F v + above F v) / 2) <= eps * (above F v - below F v))%R.
(** One of the two floats next to [v], and the nearest one unless [v] is within [eps] gaps of a midpoint. *)
Definition nearly_correct (F : fmt) (eps v : R) (r : Z) : Prop :=
  faithful F v r /\ (val F r = rnd F v \/ near_tie F eps v).

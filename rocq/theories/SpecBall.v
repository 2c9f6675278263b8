(** What C102 says: a point beside a line, at a distance along a chain of lines. *)
From Coq Require Import Reals.
From Verif Require Import Curves SpecArc SpecLength.
From Coq Require Import List.
Open Scope R_scope.

(** [q] is within [e], in either direction, of the point that is the fraction
    [s] of the way from the first to the second end of [l]. *)
Definition beside (e : R) (l : linear) (s : R) (q : vec) : Prop :=
  Rabs (px q - ((1 - s) * px (ln_p1 l) + s * px (ln_p2 l))) <= e /\ Rabs (py q - ((1 - s) * py (ln_p1 l) + s * py (ln_p2 l))) <= e.
(** The length of the first [i] lines and the fraction [s] of line [l] after them. *)
Definition walked (ls : list linear) (i : nat) (l : linear) (s : R) : R := path_length (firstn i ls) + s * gap l.
(** [t] cut to the range from 0 to 1. *)
Definition fraction (t : R) : R := Rmax 0 (Rmin 1 t).

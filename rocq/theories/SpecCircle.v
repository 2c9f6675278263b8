(** What C100 says: lines along the circle through three points. *)
From Coq Require Import Reals.
From Flocq Require Import Core BinarySingleNaN.
From Verif Require Import Curves SpecArc.
Open Scope R_scope.

(** The distance of a point from (X, Y). *)
Definition gap (X Y : R) (p : vec) : R := sqrt ((px p - X) * (px p - X) + (py p - Y) * (py p - Y)).
(** All ends of the lines are, up to [e], as far from (X, Y) as [a] is. *)
Definition round_lines (e X Y : R) (a : vec) (ls : list linear) : Prop :=
  forall l, In l ls -> Rabs (gap X Y (ln_p1 l) - gap X Y a) <= e /\ Rabs (gap X Y (ln_p2 l) - gap X Y a) <= e.
(** The first line starts at [a], the last one ends at [c], up to [e]. *)
Definition joins (e : R) (a c : vec) (ls : list linear) : Prop :=
  (forall l r, ls = (l :: r)%list -> close e (ln_p1 l) (px a) (py a)) /\ (forall r l, ls = (r ++ l :: nil)%list -> close e (ln_p2 l) (px c) (py c)).
(** One of the lines has an end no further than [e] from [b] in either direction. *)
Definition passes (e : R) (b : vec) (ls : list linear) : Prop :=
  exists l, In l ls /\ (close e (ln_p1 l) (px b) (py b) \/ close e (ln_p2 l) (px b) (py b)).

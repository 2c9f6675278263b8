(** Plane length of a chain of lines, in real numbers. *)
From Coq Require Import Reals.
From Flocq Require Import Core BinarySingleNaN.
From Verif Require Import Curves.
Import ListNotations.
Open Scope R_scope.
(** Distance between the two ends. *)
Definition gap (l : linear) : R :=
  sqrt ((B2R (vx (ln_p2 l)) - B2R (vx (ln_p1 l))) ^ 2 + (B2R (vy (ln_p2 l)) - B2R (vy (ln_p1 l))) ^ 2).
Fixpoint path_length (ls : list linear) : R :=
  match ls with [] => 0 | l :: r => gap l + path_length r end.
(** The two ends of the last line differ. *)
Definition ends_open (ls : list linear) : Prop := forall ls' l, ls = ls' ++ [l] ->
  vec_eqb (ln_p1 l) (ln_p2 l) = false.

(** What C99 says: lists of strain peaks that go on, and larger lists. *)
From Coq Require Import Reals Permutation.
From Flocq Require Import Core BinarySingleNaN.
From Verif Require Import GoFloat.
Open Scope R_scope.

(** [l'] goes on where [l] stopped: all peaks but the last are kept, the last
    one can only rise, and more may follow. *)
Definition goes_on (l l' : list f64) : Prop :=
  l = l' \/ exists a x y rest, l = (a ++ x :: nil)%list /\ l' = (a ++ y :: rest)%list /\ fle x y = true.

(** [l'] has, for each number of [l], one that is at least as large. *)
Definition exceeds (l' l : list f64) : Prop :=
  exists m rest, Permutation l' (m ++ rest) /\ Forall2 (fun x y => fle x y = true) l m.

(** The cube root preserves the order. *)
Definition cbrt_order {M : libm} : Prop := forall x x', is_finite x = true -> is_finite x' = true ->
  is_finite (mcbrt x) = true -> is_finite (mcbrt x') = true -> 0 <= B2R x <= B2R x' -> B2R (mcbrt x) <= B2R (mcbrt x').

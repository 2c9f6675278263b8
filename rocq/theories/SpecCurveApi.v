(** Specification vocabulary for the curve objects of the API. *)
From Coq Require Import Reals.
From Flocq Require Import Core BinarySingleNaN.
From Verif Require Import Helpers.
Import ListNotations.
Open Scope R_scope.

(** De Casteljau's construction: mix neighbours until one point is left. *)
Fixpoint mix (t : R) (l : list R) : list R :=
  match l with
  | a :: ((b :: _) as r) => ((1 - t) * a + t * b) :: mix t r
  | _ => []
  end.
Fixpoint mixed (rounds : nat) (t : R) (l : list R) : R :=
  match rounds with
  | O => hd 0 l
  | S r => mixed r t (mix t l)
  end.
Definition casteljau (l : list R) (t : R) : R := mixed (length l - 1) t l.

(** What is asked of math.Pow: the powers up to the third of numbers from 0 to 1, up to 2^-40. *)
Definition pow_small {M : libm} : Prop := forall x y i, is_finite x = true -> 0 <= B2R x <= 1 -> is_finite y = true -> B2R y = INR i -> (i <= 3)%nat ->
  is_finite (mpow x y) = true /\ Rabs (B2R (mpow x y) - B2R x ^ i) <= bpow radix2 (-40).

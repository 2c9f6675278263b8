(** Specification vocabulary for the approximate lengths of the curve objects. *)
From Coq Require Import Reals List.
From Flocq Require Import Core BinarySingleNaN.
From Verif Require Import Helpers SpecCurves SpecArc SpecApi.
Open Scope R_scope.

(** [qs] are the ends of [n] sections of the curve (x, y), which starts at 0 and
    ends at 1: the parameters are the n-ths up to 2^-24, in order, and every
    point is off by at most [e]. *)
Definition sectioned (e : R) (x y : R -> R) (n : nat) (u : nat -> R) (qs : list vec) : Prop :=
  length qs = S n /\ u O = 0 /\ ((0 < n)%nat -> u n = 1) /\ (forall i, (i < n)%nat -> u i <= u (S i)) /\
  forall i, (i <= n)%nat -> 0 <= u i <= 1 /\ Rabs (u i - INR i / INR n) <= bpow radix2 (-24) /\ exists q, nth_error qs i = Some q /\ close e q (x (u i)) (y (u i)).
(** [L] is the sum [S] of [n] distances, up to the rounding errors of the sum. *)
Definition summed (n : nat) (L : f32) (S : R) : Prop := is_finite L = true /\
  Rabs (B2R L - S) <= S * (bpow radix2 (-21) + INR n * bpow radix2 (-23)) + INR n * bpow radix2 (-68).
(** [n] is [d] rounded up, but for an error [e] of [d]. *)
Definition rounded_up (e d : R) (n : nat) : Prop := d - e <= INR n < d + 1 + e.

(** The length of the polyline inscribed in the curve (x, y) at the parameters u 0, ..., u n. *)
Fixpoint inscribed (x y : R -> R) (u : nat -> R) (n : nat) : R :=
  match n with
  | O => 0
  | S m => inscribed x y u m + sqrt ((x (u (S m)) - x (u m)) * (x (u (S m)) - x (u m)) + (y (u (S m)) - y (u m)) * (y (u (S m)) - y (u m)))
  end.

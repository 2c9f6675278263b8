(** Specification vocabulary for when the score points of a slider are due. *)
From Coq Require Import Reals List Arith.
From Flocq Require Import Core BinarySingleNaN.
From Verif Require Import Objects.
Import ListNotations.
Open Scope R_scope.

(** Pixels between two ticks: a part of the distance of one beat, never more than the length the row gives. *)
Definition tick_gap (sm rate m pix : R) : R := Rmin (100 * sm / (rate * m)) pix.
(** How much of span i has passed when the ball is at x, in lengths of the curve from its start. *)
Definition passed (i : nat) (x : R) : R := if Nat.even i then x else 1 - x.
(** Times and kinds (true for a repeat) of the points of span i of n: N ticks a gap T
    apart, then the repeat, or at last the tail 36 ms early but past the middle. *)
Definition span_times (start D len T : R) (n N i : nat) : list (R * bool) :=
  map (fun j => (start + (INR i + passed i (INR j * T / len)) * D, false)) (seq 1 N) ++
  [if Nat.ltb (S i) n then (start + INR (S i) * D, true)
   else (Rmax (start + INR n * D / 2) (start + INR n * D - 36), false)].
(** N is how many gaps fit up to 10 ms before the end of a span, give or take w pixels. *)
Definition tick_count (D len T w : R) (N : nat) : Prop :=
  (N = 0%nat \/ INR N * T <= len - len * 10 / D + w) /\ len - len * 10 / D - w <= INR (S N) * T.
(** A score point due at the time and of the kind, give or take E ms. *)
Definition due (E : R) (k : tick) (r : R * bool) : Prop := is_finite (tk_Time k) = true /\ Rabs (B2R (tk_Time k) - fst r) <= E /\ tk_Reverse k = snd r.

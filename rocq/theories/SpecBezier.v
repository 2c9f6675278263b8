(** What C101 says: a polyline along a Bezier curve. *)
From Coq Require Import Reals List.
From Flocq Require Import Core BinarySingleNaN.
From Verif Require Import Curves SpecArc SpecShape.
Import ListNotations.
Open Scope R_scope.

(** The Bezier curve of the numbers c, in Bernstein's form. *)
Definition bezier (c : list R) (t : R) : R :=
  let n := (length c - 1)%nat in sum_f_R0 (fun i => Binomial.C n i * t ^ i * (1 - t) ^ (n - i) * nth i c 0) n.
(** The points are those of the curve at parameters growing from t to t', and
    going evenly along each of the lines between them keeps within e of the
    curve in either direction. *)
Inductive follows (e : R) (x y : R -> R) : R -> list vec -> R -> Prop :=
| follows_end t q : Rabs (px q - x t) <= e -> Rabs (py q - y t) <= e -> follows e x y t [q] t
| follows_line t t' t'' q q' r : t < t' ->
    (forall s, 0 <= s <= 1 -> Rabs ((1 - s) * px q + s * px q' - x ((1 - s) * t + s * t')) <= e /\
                              Rabs ((1 - s) * py q + s * py q' - y ((1 - s) * t + s * t')) <= e) ->
    follows e x y t' (q' :: r) t'' -> follows e x y t (q :: q' :: r) t''.
(** From the start of the Bezier curve of the control points to its end. *)
Definition along (e : R) (cp qs : list vec) : Prop := follows e (bezier (map px cp)) (bezier (map py cp)) 0 qs 1.
(** How far off: n control points, coordinates up to 2^k. *)
Definition bezier_gap (k : Z) (n : nat) : R :=
  let u := bpow radix2 (k - 23) in (/ 2 + 10 * u) * (INR (n - 1) ^ 2 + 2) / 16 + 16 * INR n * u.

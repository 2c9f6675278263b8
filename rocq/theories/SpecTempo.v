(** How fast sliders are, in real numbers. *)
From Coq Require Import Reals.
From Flocq Require Import Core BinarySingleNaN.
From Verif Require Import Timing.
Open Scope R_scope.

(** What an inherited point does to the beat: -100 leaves it as it is, -50
    halves it, -200 doubles it; from a tenth to ten times. *)
Definition stretch (b : R) : R := if Rle_dec 0 b then 1 else Rmin 1000 (Rmax 10 (- b)) / 100.
Definition stretched (p : cpoint) (m : R) : Prop :=
  (is_nan (cp_beat p) = true /\ m = 1) \/ (is_finite (cp_beat p) = true /\ m = stretch (B2R (cp_beat p))).
(** Equal but for one part in a million. *)
Definition about (x r : R) : Prop := Rabs (x - r) <= Rabs r / 1000000.
(** The time a slider of multiplier [sm] takes over [px] pixels: 100 [sm] pixels per beat. *)
Definition slide_time (sm base m px : R) : R := px / (100 * sm) * (base * m).

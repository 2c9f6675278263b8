(** Which curves and files the parser is sure to finish with. *)
From Coq Require Import Reals.
From Verif Require Import Parser SpecParser SpecCurves SpecSafety.
Open Scope Z_scope.

(** Once the step budget is large enough the outcome is v. *)
Definition settles_on {A} (f : nat -> res A) (v : A) : Prop := exists n, forall m, (n <= m)%nat -> f m = Ok v.

Section WithLibm.
Context {M : libm}.
(** Coordinates at most 2^k, and not too many of them for their size. *)
Definition small_curve (pts : list vec) : Prop :=
  exists k, 0 <= k <= 100 /\ Forall (within k) pts /\ (Z.of_nat (length pts) + 8) * 2 ^ k <= 2 ^ 22.
(** The types and sizes that flatten a Bezier curve. *)
Definition uses_bezier (typ : str) (pts : list vec) : Prop := typ = lit "B" \/ typ = lit "P" /\ (3 < length pts)%nat.
(** Every arc the type and points ask for has a radius of at most 2^22. *)
Definition tame_arc (typ : str) (pts : list vec) : Prop :=
  forall a b c, typ = lit "P" -> pts = [a; b; c] -> is_straight a b c = false -> radius_upto 4194304 a b c.

(** The curve of a slider row. *)
Definition row_type (fs : list str) : str := hd [] (bars (field 5 fs)).
Definition row_curve (fuel : nat) (fs : list str) : res multicurve :=
  new_multicurve_t fuel (row_type fs) (slider_points fs) (parse_f64 (field 7 fs)).
(** Not less than 1/16 of a pixel asked for, and the curve made is not longer
    than 2^40 pixels. *)
Definition slider_tame (fs : list str) : Prop :=
  (uses_bezier (row_type fs) (slider_points fs) -> small_curve (slider_points fs)) /\
  tame_arc (row_type fs) (slider_points fs) /\
  flt (parse_f64 (field 7 fs)) (fq 1 16) = false /\
  (forall fuel mc, row_curve fuel fs = Ok mc -> ggt (mc_length mc) (gq (2 ^ 40) 1) = false).
Definition sliders_tame (ls : list str) : Prop :=
  forall r fs, section_rows ls "HitObjects" r -> In fs r -> type_of fs = TSlider -> slider_tame fs.
(** SliderMultiplier and SliderTickRate between 1/16 and 16. *)
Definition moderate (x : f64) : Prop := fle (fq 1 16) x = true /\ fle x (fq 16 1) = true.
Definition rates_ok (ls : list str) : Prop := forall ds, settings ls "Difficulty" ds ->
  moderate (last_value "SliderMultiplier" ds parse_f64 f0) /\ moderate (last_value "SliderTickRate" ds parse_f64 f0).
End WithLibm.

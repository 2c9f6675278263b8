(** The star rating of a map from its aim, speed and flashlight ratings, in real
    numbers, and what is assumed of math.Cbrt. *)
From Coq Require Import Reals.
From Flocq Require Import Raux Zaux Core BinarySingleNaN.
From Verif Require Import GoFloat SpecFormula.
Open Scope R_scope.

(** The values of the ratings are added up with the exponent 1.1, as in pp, and
    the cube root makes stars of them again; [fl] is the flashlight rating, if
    it counts. *)
Definition flash_base (fl : option R) : R := match fl with Some f => f ^ 2 * 25 | None => 0 end.
Definition joint_value (aim speed : R) (fl : option R) : R :=
  rpow (rpow (base_value aim) (11 / 10) + rpow (base_value speed) (11 / 10) + rpow (flash_base fl) (11 / 10)) (10 / 11).
Definition cube_root (x : R) : R := Rpower x (1 / 3).
Definition total_stars (aim speed : R) (fl : option R) : R :=
  cube_root (112 / 100) * (27 / 1000) * (cube_root (100000 / Rpower 2 (10 / 11) * joint_value aim speed fl) + 4).

Section WithLibm.
Context {M : libm}.
(** Cbrt within 2^-40 of the cube root. *)
Definition cbrt_close : Prop := forall x, is_finite x = true -> bpow radix2 (-300) <= B2R x <= bpow radix2 300 ->
  is_finite (mcbrt x) = true /\ Rabs (B2R (mcbrt x) - cube_root (B2R x)) <= cube_root (B2R x) * bpow radix2 (-40).
End WithLibm.

(** How far the floats' rating may be from the real one [r] where it matters,
    that is above the 0.0675 stars below which ratings count alike. *)
Definition drift (rel large r : R) : R := (21 / 10 * rel * r ^ 2 + 6 * large) / (Rmax r (675 / 10000) + 675 / 10000).
(** A flashlight rating that is zero or not vanishingly small. *)
Definition flash_ok (x : f64) : Prop := is_finite x = true /\ (B2R x = 0 \/ bpow radix2 (-100) <= B2R x <= bpow radix2 60).

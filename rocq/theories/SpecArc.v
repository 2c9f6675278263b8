(** Specification vocabulary for circular arcs. *)
From Coq Require Import Reals.
From Flocq Require Import Core BinarySingleNaN.
From Verif Require Import Parser SpecCurves.
Import ListNotations.
Open Scope R_scope.

(** ** What is asked of math.Sin, math.Cos and math.Atan2: an error of at most 2^-40 *)
Section WithLibm.
Context {M : libm}.
Definition trig_near : Prop := forall x, is_finite x = true -> Rabs (B2R x) <= 16 ->
  (is_finite (mcos x) = true /\ Rabs (B2R (mcos x) - cos (B2R x)) <= bpow radix2 (-40)) /\
  (is_finite (msin x) = true /\ Rabs (B2R (msin x) - sin (B2R x)) <= bpow radix2 (-40)).
(** an angle of the vector (x, y); any angle will do for the null vector *)
Definition angle_of (x y t : R) : Prop := let h := sqrt (x * x + y * y) in h * cos t = x /\ h * sin t = y.
Definition atan2_near : Prop := forall y x, is_finite y = true -> is_finite x = true ->
  is_finite (matan2 y x) = true /\ exists t, - PI <= t <= PI /\ angle_of (B2R x) (B2R y) t /\ Rabs (B2R (matan2 y x) - t) <= bpow radix2 (-40).
End WithLibm.

(** ** The arc in the real plane *)
Definition px (p : vec) : R := B2R (vx p).
Definition py (p : vec) : R := B2R (vy p).
Definition dist (a b : vec) : R := sqrt ((px b - px a) * (px b - px a) + (py b - py a) * (py b - py a)).
(** The point at a fraction [u] of a turn by [T] from angle [al] on the circle around [o] of radius [rho]. *)
Definition arc_x (o : vec) (rho al T u : R) : R := px o + rho * cos (al + u * T).
Definition arc_y (o : vec) (rho al T u : R) : R := py o + rho * sin (al + u * T).
Definition close (e : R) (q : vec) (x y : R) : Prop :=
  is_finite (vx q) = true /\ is_finite (vy q) = true /\ Rabs (px q - x) <= e /\ Rabs (py q - y) <= e.
(** On which side of the line from a to c the point (x, y) is: twice the signed area. *)
Definition side (ax ay cx cy x y : R) : R := (cy - ay) * (x - ax) - (cx - ax) * (y - ay).

(** The lines [ls] follow the arc around [o] that starts at [a], ends in the
    direction of [c], and turns to the side [b] is on. *)
Definition follows_arc (k : Z) (o a b c : vec) (ls : list linear) : Prop :=
  exists al T, let rho := dist o a in let e := bpow radix2 (k - 14) in let tiny := bpow radix2 (-17) in
  (** it starts at a *)
  arc_x o rho al T 0 = px a /\ arc_y o rho al T 0 = py a /\
  (** and ends in the direction of c *)
  px o + dist o c * cos (al + T) = px c /\ py o + dist o c * sin (al + T) = py c /\
  (** turning at most once around, and to the side of b *)
  ((- tiny <= T <= 2 * PI + tiny /\ - bpow radix2 (2 * k - 18) <= side (px a) (py a) (px c) (py c) (px b) (py b)) \/
   (- (2 * PI + tiny) <= T <= tiny /\ side (px a) (py a) (px c) (py c) (px b) (py b) <= bpow radix2 (2 * k - 18))) /\
  (** in whole lines of eight pixels' arc *)
  rho * Rabs T / 8 - 1 - e <= INR (length ls) <= rho * Rabs T / 8 + e /\
  (** each from one point of the arc to the next *)
  forall j l, nth_error ls j = Some l ->
    close e (ln_p1 l) (arc_x o rho al T (INR j / INR (length ls))) (arc_y o rho al T (INR j / INR (length ls))) /\
    close e (ln_p2 l) (arc_x o rho al T (INR (S j) / INR (length ls))) (arc_y o rho al T (INR (S j) / INR (length ls))).

(** ** The centre *)
(** A point of whole coordinates of magnitude at most m. *)
Definition whole (m : Z) (p : vec) : Prop := is_finite (vx p) = true /\ is_finite (vy p) = true /\
  exists x y, (Z.abs x <= m)%Z /\ (Z.abs y <= m)%Z /\ px p = IZR x /\ py p = IZR y.
(** (X, Y) is as far from a as from b and c. *)
Definition circumcentre (a b c : vec) (X Y : R) : Prop :=
  let d p := (X - px p) * (X - px p) + (Y - py p) * (Y - py p) in d a = d b /\ d a = d c.
Definition area2 (a b c : vec) : R := Rabs (side (px a) (py a) (px c) (py c) (px b) (py b)).

(** What C104 says: lines along a spline, and along a circle. *)
From Coq Require Import Reals.
From Verif Require Import Curves SpecArc.
Open Scope R_scope.

(** The greatest second derivative of the Catmull-Rom polynomial of a, b, c, d
    between b and c: it is linear, so that at one of the ends. *)
Definition bend (a b c d : R) : R := Rmax (Rabs (2 * a - 5 * b + 4 * c - d)) (Rabs (2 * d - 5 * c + 4 * b - a)).
(** The coordinates of the point that is the fraction [s] of the way along [l]. *)
Definition on_x (l : linear) (s : R) : R := (1 - s) * px (ln_p1 l) + s * px (ln_p2 l).
Definition on_y (l : linear) (s : R) : R := (1 - s) * py (ln_p1 l) + s * py (ln_p2 l).
(** The square of the distance of (x, y) from (X, Y). *)
Definition far2 (X Y x y : R) : R := (x - X) * (x - X) + (y - Y) * (y - Y).

(** Specification vocabulary for stacks on sliders, breaks and stack heights. *)
From Coq Require Import Reals.
From Flocq Require Import Raux Zaux BinarySingleNaN.
From Verif Require Import Objects SpecStacking.
Open Scope R_scope.

(** Start and end of an object as real numbers (ms). *)
Definition when (o : hobj) : R := B2R (ho_start o).
Definition till (o : hobj) : R := B2R (ho_end o).
Definition sound (x : f64) : Prop := is_finite x = true /\ Rabs (B2R x) <= bpow radix2 50.
Definition timed (o : hobj) : Prop := sound (ho_start o) /\ sound (ho_end o).
Definition placed (p : vec) : Prop := is_finite (vx p) = true /\ is_finite (vy p) = true.

(** A circle at p. *)
Definition circle_at (p : vec) (o : hobj) : Prop := ho_kind o = KCircle /\ ho_startPos o = p /\ ho_endPos o = p /\ till o = when o.
(** Each object starts at most th after the end of the one before. *)
Definition linked (th : f64) (l : list hobj) : Prop := forall i a b, at2 l i (S i) a b -> when b - till a <= B2R th.
(** Circles at p, a slider from p to q, circles at q, without a pause; q is not near p. *)
Record tower (th : f64) (p q : vec) (before : list hobj) (s : hobj) (after : list hobj) : Prop := {
  tw_p : placed p; tw_q : placed q; tw_far : ~ close p q /\ ~ close q p; tw_th : sound th;
  tw_before : Forall (circle_at p) before;
  tw_slider : (exists x, ho_kind s = KSlider x) /\ ho_startPos s = p /\ ho_endPos s = q;
  tw_after : Forall (circle_at q) after;
  tw_timed : Forall timed (before ++ s :: after);
  tw_linked : linked th (before ++ s :: after) }.

(** A pause: everything in l' starts more than th + 1 ms after the end, and after the start, of everything in l. *)
Definition pause (th : f64) (l l' : list hobj) : Prop := forall a b, In a l -> In b l' ->
  B2R th + 1 <= when b - till a /\ B2R th + 1 <= when b - when a.
(** No circle or slider starts near the tail of an earlier slider; a circle or spinner ends where it starts. *)
Definition tails_clear (l : list hobj) : Prop := forall i j a b, at2 l i j a b -> (exists x, ho_kind a = KSlider x) ->
  ~ close (ho_endPos a) (ho_startPos b) /\ ~ close (ho_startPos b) (ho_endPos a).
Definition stay (o : hobj) : Prop := (forall x, ho_kind o <> KSlider x) -> ho_endPos o = ho_startPos o.

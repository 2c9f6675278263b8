(** Specification vocabulary for slider rows and the shapes of curves. *)
From Coq Require Import Reals.
From Flocq Require Import Core BinarySingleNaN.
From Verif Require Import Parser SpecParser SpecCurves.
Import ListNotations.
Open Scope Z_scope.

(** ** The text of a slider row *)
(** Fields separated by a bar, at least one. *)
Definition barred (text : str) (fs : list str) : Prop :=
  exists f r, fs = f :: r /\ text = f ++ concat (map (fun g => "|"%char :: g) r) /\ Forall (fun g => ~ In "|"%char g) fs.
(** "x:y", anything after a second colon ignored. *)
Definition point_text (s : str) (p : vec) : Prop :=
  exists x y r, s = x ++ ":"%char :: y ++ r /\ ~ In ":"%char x /\ ~ In ":"%char y /\ (r = [] \/ exists t, r = ":"%char :: t) /\
    p = mkVec (parse_f32 x) (parse_f32 y).
(** Sounds of the edges: as listed in field 8, the object's sound for those not listed. *)
Definition edge_texts (fs : list str) (es : list str) : Prop :=
  match nth_error fs 8 with Some _ => barred (field 8 fs) es | None => es = [] end.

(** ** Polylines *)
(** The lines joining consecutive points. *)
Fixpoint polyline (p : list vec) : list linear :=
  match p with a :: ((b :: _) as r) => mkLinear a b :: polyline r | _ => [] end.
Definition has_length (l : linear) : bool := negb (vec_eqb (ln_p1 l) (ln_p2 l)).

(** ** Bezier curves in pieces *)
(** Points i and i+1 coincide and are not the last two. *)
Definition doubled (p : list vec) (i : nat) : Prop :=
  (i + 2 < length p)%nat /\ exists a b, nth_error p i = Some a /\ nth_error p (S i) = Some b /\ vec_eqb a b = true.
(** The pieces: cut after the first doubled point from position [from] on; the
    second copy starts the next piece, and is not compared with its successor. *)
Inductive pieces : nat -> list vec -> list (list vec) -> Prop :=
| pieces_whole from p : (forall i, (from <= i)%nat -> ~ doubled p i) -> pieces from p [p]
| pieces_cut from p i ps : (from <= i)%nat -> doubled p i -> (forall j, (from <= j < i)%nat -> ~ doubled p j) ->
    pieces 1 (skipn (S i) p) ps -> pieces from p (firstn (S i) p :: ps).
Section WithLibm.
Context {M : libm}.
(** A piece of two points is a line, any other a flattened Bezier curve. *)
Definition drawn (p : list vec) (ls : list linear) : Prop :=
  (length p = 2%nat /\ ls = polyline p) \/
  (length p <> 2%nat /\ exists o, flattens p o /\ ls = polyline (o ++ [last p vzero])).
Definition bezier_lines (p : list vec) (ls : list linear) : Prop :=
  exists ps lss, pieces 0 p ps /\ Forall2 drawn ps lss /\ ls = concat lss.

(** ** Catmull-Rom splines: 50 lines per pair of points, with the neighbours of
    the pair as tangents, the first point doubled and the last mirrored. *)
Definition neighbours (pts : list vec) (i : nat) (p1 p2 p3 p4 : vec) : Prop :=
  nth_error pts i = Some p2 /\ nth_error pts (S i) = Some p3 /\
  p1 = match i with O => p2 | S j => nth j pts vzero end /\
  p4 = match nth_error pts (S (S i)) with Some p => p | None => vadd p3 (vsub p3 p2) end.
End WithLibm.
(** The Catmull-Rom polynomial. *)
Definition spline (a b c d t : R) : R :=
  ((2 * b + (c - a) * t + (2 * a - 5 * b + 4 * c - d) * (t * t) + (3 * b - a - 3 * c + d) * (t * t * t)) / 2)%R.
(** A point of the spline through p2 and p3, up to 2^(k-16). *)
Definition on_spline (k : Z) (p1 p2 p3 p4 : vec) (t : R) (q : vec) : Prop :=
  is_finite (vx q) = true /\ is_finite (vy q) = true /\
  (Rabs (B2R (vx q) - spline (B2R (vx p1)) (B2R (vx p2)) (B2R (vx p3)) (B2R (vx p4)) t) <= bpow radix2 (k - 16))%R /\
  (Rabs (B2R (vy q) - spline (B2R (vy p1)) (B2R (vy p2)) (B2R (vy p3)) (B2R (vy p4)) t) <= bpow radix2 (k - 16))%R.

(** Specification vocabulary for curves and slider timing. *)
From Coq Require Import Reals.
From Flocq Require Import Core BinarySingleNaN.
From Verif Require Import Curves.
Open Scope Z_scope.

Section WithLibm.
Context {M : libm}.

(** ** de Casteljau subdivision at 1/2, on plain lists *)
Definition mid (a b : vec) : vec := vscl (vadd a b) (gq 1 2).
(** One row of the de Casteljau triangle. *)
Fixpoint row (p : list vec) : list vec :=
  match p with a :: ((b :: _) as r) => mid a b :: row r | _ => [] end.
(** The first n rows, the control points first. *)
Fixpoint triangle (n : nat) (p : list vec) : list (list vec) :=
  match n with O => [] | S n' => p :: triangle n' (row p) end.
(** Control points of the two halves: first points of the rows from the top
    down, last points of the rows from the bottom up. *)
Definition left_half (p : list vec) : list vec := map (fun r => hd vzero r) (triangle (length p) p).
Definition right_half (p : list vec) : list vec := rev (map (fun r => last r vzero) (triangle (length p) p)).

(** Second differences all at most 1/4 squared. *)
Definition bent (a b c : vec) : Prop :=
  ggt (vlensq (vadd (vsub a (vscl b (gq 2 1))) c)) (gq 1 4) = true.
Definition flat_enough (p : list vec) : Prop := forall i a b c,
  nth_error p i = Some a -> nth_error p (S i) = Some b -> nth_error p (S (S i)) = Some c -> ~ bent a b c.

(** The points drawn for a flat piece: its first point, then smoothed points
    of the polygon of both halves joined. *)
Definition smooth (a b c : vec) : vec := vscl (vadd (vadd a (vscl b (gq 2 1))) c) (gq 1 4).
Definition both_halves (p : list vec) : list vec := left_half p ++ tl (right_half p).
Definition piece (p : list vec) : list vec :=
  hd vzero p ::
  map (fun i => smooth (nth (2 * i - 1) (both_halves p) vzero) (nth (2 * i) (both_halves p) vzero)
                       (nth (2 * i + 1) (both_halves p) vzero)) (seq 1 (length p - 2)).
(** Recursive flattening, last point left out. *)
Inductive flattens : list vec -> list vec -> Prop :=
| flattens_flat p : flat_enough p -> flattens p (piece p)
| flattens_split p l r : ~ flat_enough p ->
    flattens (left_half p) l -> flattens (right_half p) r -> flattens p (l ++ r).

(** ** Polylines *)
(** Finite coordinates of magnitude at most 2^k. *)
Definition within (k : Z) (p : vec) : Prop :=
  (is_finite (vx p) = true /\ (Rabs (B2R (vx p)) <= bpow radix2 k)%R) /\
  (is_finite (vy p) = true /\ (Rabs (B2R (vy p)) <= bpow radix2 k)%R).
Definition finite_point (p : vec) : Prop := is_finite (vx p) = true /\ is_finite (vy p) = true.
(** The points do not ask for a circular arc (type P, three points not on a line). *)
Definition not_arc (typ : str) (pts : list vec) : Prop :=
  match pts with [a; b; c] => typ = lit "P" -> is_straight a b c = true | _ => True end.
(** Two equal ends, or at least 2^-20 of measured length. *)
Definition not_tiny (l : linear) : Prop :=
  vec_eqb (ln_p1 l) (ln_p2 l) = true \/ gle (gq 1 1048576) (ln_length l) = true.
Definition connected (ls : list linear) : Prop := forall i a b,
  nth_error ls i = Some a -> nth_error ls (S i) = Some b -> ln_p2 a = ln_p1 b.
End WithLibm.

(** Specification vocabulary for distances, times and angles between objects. *)
From Coq Require Import Reals.
From Flocq Require Import Core BinarySingleNaN.
From Verif Require Import DiffCalc.
Open Scope Z_scope.

Section WithLibm.
Context {M : libm}.
(** where an object leaves the cursor: a slider at its lazy end position,
    anything else at its stacked start *)
Definition leaves (d : difficulty) (o : hobj) (v : vec) : Prop :=
  match ho_kind o with
  | KSlider sd => exists l, new_lazy d o sd = Ok l /\ v = lz_EndPos l
  | _ => v = stacked_start o (d_Mods d)
  end.
Definition is_slider (o : hobj) : bool := match ho_kind o with KSlider _ => true | _ => false end.
Open Scope R_scope.
(** distance of two points in the plane *)
Definition plane_dist (a b : vec) : R :=
  sqrt ((B2R (vx b) - B2R (vx a)) * (B2R (vx b) - B2R (vx a)) + (B2R (vy b) - B2R (vy a)) * (B2R (vy b) - B2R (vy a))).
(** normalised distances per px: circles of radius r count as circles of radius
    50, and those under 30 px as up to a tenth more *)
Definition unit_scale (r : R) : R := 50 / r * (if Rlt_dec r 30 then 1 + Rmin (30 - r) 5 / 50 else 1).
End WithLibm.

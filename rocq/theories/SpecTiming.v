(** Specification vocabulary for timing data, in terms of the added points
    and IEEE comparisons of their times only. *)
From Coq Require Import Permutation.
From Verif Require Import Timing.

(** A Timings on which AddPoint was called for each of [l] in turn. *)
Definition added (l : list cpoint) : timings := fold_left add_point l new_timings.
(** Points as AddPoint builds them: one beat length, time not NaN. *)
Definition fresh (p : cpoint) : Prop := cp_base p = cp_beat p /\ fisnan (cp_Time p) = false.

(** q is the point of l governing time t: the latest one not after t, and
    among equally late ones the last added. *)
Definition last_active (l : list cpoint) (t : f64) (q : cpoint) : Prop :=
  exists l1 l2, l = l1 ++ q :: l2 /\ fle (cp_Time q) t = true /\
    (forall r, In r l1 -> fle (cp_Time r) t = true -> fle (cp_Time r) (cp_Time q) = true) /\
    (forall r, In r l2 -> fle (cp_Time r) t = true -> flt (cp_Time r) (cp_Time q) = true).
(** q is the earliest point of l, and among equally early ones the first added. *)
Definition earliest (l : list cpoint) (q : cpoint) : Prop :=
  exists l1 l2, l = l1 ++ q :: l2 /\
    (forall r, In r l1 -> flt (cp_Time q) (cp_Time r) = true) /\
    (forall r, In r l2 -> fle (cp_Time q) (cp_Time r) = true).
(** The lookup rule. *)
Definition looked_up (l : list cpoint) (t : f64) (q : cpoint) : Prop :=
  ((exists r, In r l /\ fle (cp_Time r) t = true) -> last_active l t q) /\
  ((forall r, In r l -> fle (cp_Time r) t = false) -> earliest l q).

(** Equal except for the base beat length. *)
Definition same_but_base (p q : cpoint) : Prop := p = set_base q (cp_base p).

(** Time-ordered. *)
Definition time_ordered (l : list cpoint) : Prop :=
  forall i j p q, (i < j)%nat -> nth_error l i = Some p -> nth_error l j = Some q ->
    fle (cp_Time p) (cp_Time q) = true.

(** [head_or_red l]: the points of a stored list that are uninherited, plus the
    first whatever it is. *)
Definition uninherited_or_first (l : list cpoint) : list cpoint :=
  match l with [] => [] | p :: r => p :: filter (fun q => negb (cp_Inherited q)) r end.

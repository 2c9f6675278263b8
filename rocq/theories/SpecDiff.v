(** Specification vocabulary for the difficulty calculator. *)
From Coq Require Import Reals Permutation.
From Flocq Require Import Raux Zaux Core BinarySingleNaN.
From Verif Require Import DiffCalc FloatLemmas.
Open Scope Z_scope.

(** The outcome of a computation apart from its value. *)
Inductive outcome := Returns | Panics | Hangs.
Definition outcome_of {A} (r : res A) : outcome :=
  match r with Ok _ => Returns | Panic => Panics | Hang => Hangs end.

(** Numbers of objects of each kind, and slider score points. *)
Definition how_many (f : hobj -> bool) (l : list hobj) : Z := zlen (filter f l).
Definition score_points (o : hobj) : Z :=
  match ho_kind o with KSlider sd => zlen (sl_ticks sd) | _ => 0 end.
Definition sum_points (l : list hobj) : Z := fold_right (fun o n => score_points o + n) 0 l.
Definition counts_of (l : list hobj) (a : attributes) : Prop :=
  at_ObjectCount a = zlen l /\
  at_Circles a = how_many (fun o => match ho_kind o with KCircle => true | _ => false end) l /\
  at_Sliders a = how_many (fun o => match ho_kind o with KSlider _ => true | _ => false end) l /\
  at_Spinners a = how_many (fun o => match ho_kind o with KSpinner => true | _ => false end) l /\
  at_MaxCombo a = zlen l + sum_points l.
Definition no_ratings (a : attributes) : Prop :=
  at_Total a = f0 /\ at_Aim a = f0 /\ at_SliderFactor a = f0 /\ at_Speed a = f0 /\ at_Flashlight a = f0.

Section WithLibm.
Context {M : libm}.
(** Sliders as the parser makes them: their curve comes from the curve
    constructor.  [playable] in addition have a score point. *)
Definition real_curve (mc : multicurve) : Prop := exists fuel typ pts len, new_multicurve_t fuel typ pts len = Ok mc.
Definition real_slider (o : hobj) : Prop := forall sd, ho_kind o = KSlider sd -> real_curve (sl_curve sd).
Definition playable (o : hobj) : Prop := forall sd, ho_kind o = KSlider sd -> sl_ticks sd <> [].
(** A slider without score points. *)
Definition pointless (o : hobj) : Prop := exists sd, ho_kind o = KSlider sd /\ sl_ticks sd = [].
Definition no_slider (o : hobj) : Prop := forall sd, ho_kind o <> KSlider sd.
End WithLibm.

(** ** Sections of 400 ms *)
Open Scope R_scope.
(** the section a time belongs to: ]400 (k-1), 400 k] *)
Definition section_of (t : R) : Z := Zceil (t / 400).
(** the largest section of a sequence of times, and the number of the 400 ms
    boundaries between the first section and it *)
Definition last_section (t : R) (ts : list R) : Z := fold_left (fun k u => Z.max k (section_of u)) ts (section_of t).
Definition boundaries (ts : list R) : Z :=
  match ts with [] => 0%Z | t :: r => (last_section t r - section_of t)%Z end.
(** A time as the skills see it is in range: at most 2^53 in size, and either 0
    or not so small that its 400th part is rounded with loss. *)
Definition time_ok (t : f64) : Prop :=
  is_finite t = true /\ Rabs (B2R t) <= 9007199254740992 /\ (B2R t = 0 \/ bpow radix2 (-1000) <= Rabs (B2R t)).
(** the times of the difficulty objects: those of the second and later hit
    objects, divided by the clock rate *)
Definition clock_times (objs : list hobj) (d : difficulty) : list f64 := map (fun o => fdiv (ho_start o) (d_Speed d)) (tl objs).

(** ** The weighting of strain peaks *)
(** a descending list of numbers *)
Fixpoint descending (l : list f64) : Prop :=
  match l with x :: ((y :: _) as r) => fge x y = true /\ descending r | _ => True end.
(** any sorting algorithm: a descending permutation of every list of numbers *)
Definition sorts (srt : list f64 -> list f64) : Prop :=
  forall l, Forall (fun x => is_nan x = false) l -> Permutation l (srt l) /\ descending (srt l).

(** What is assumed of log10 between 1 and 10: a finite value, or one between 0
    and 1. *)
Section Log.
Context {M : libm}.
Definition log_finite : Prop := forall x, is_finite x = true -> 1 <= B2R x <= 10 -> is_finite (mlog10 x) = true.
Definition log_unit : Prop := forall x, is_finite x = true -> 1 <= B2R x <= 10 -> is_finite (mlog10 x) = true /\ 0 <= B2R (mlog10 x) <= 1.
End Log.

(** Vocabulary for C95: maps that are the same up to their place in time and
    on the playfield. *)
From Coq Require Import Reals List.
From Flocq Require Import Core BinarySingleNaN.
From Verif Require Import DiffCalc SpecDiff.
Import ListNotations.
Open Scope R_scope.

(** everything the package computes from a map: CalculateSingle,
    CalculateSingleWithPeaks, CalculateStep, CalculateStepWithPeaks,
    CalculateStrainPeaks *)
Definition all_results {M : libm} (fuel : nat) (objs : list hobj) (d : difficulty) :=
  (calculate_single fuel objs d, calculate_single_with_peaks fuel objs d, calculate_step fuel objs d,
   calculate_step_with_peaks fuel objs d, calculate_strain_peaks fuel objs d).

(** ** Fields that are read *)
(** two objects that agree on kind, positions, times and stack offsets; ids,
    sounds, combo numbers and colours and stack indices may be anything *)
Definition same_play (o o' : hobj) : Prop :=
  ho_kind o' = ho_kind o /\ ho_startPos o' = ho_startPos o /\ ho_endPos o' = ho_endPos o /\
  ho_start o' = ho_start o /\ ho_end o' = ho_end o /\
  ho_off o' = ho_off o /\ ho_offEZ o' = ho_offEZ o /\ ho_offHR o' = ho_offHR o.
(** two settings that agree on what the calculator needs to know: the mods, the
    circle radius, the clock rate and the hit window of 300s *)
Definition same_rules (d d' : difficulty) : Prop :=
  d_Mods d' = d_Mods d /\ d_CircleRadius d' = d_CircleRadius d /\ d_Speed d' = d_Speed d /\ d_Hit300 d' = d_Hit300 d.

(** ** Time *)
(** the clock rate is a positive multiple of 1/1024, at most 4: 1, 3/2 for
    DoubleTime, 3/4 for HalfTime *)
Definition clean_rate (d : difficulty) : Prop :=
  is_finite (d_Speed d) = true /\ exists a, (1 <= a <= 4096)%Z /\ B2R (d_Speed d) = IZR a / 1024.
(** the object is reached [t] whole milliseconds of real time after the start
    of the song *)
Definition reached_at (d : difficulty) (o : hobj) (t : Z) : Prop :=
  is_finite (ho_start o) = true /\ Bsign (ho_start o) = false /\ (0 <= t <= 2 ^ 40)%Z /\
  B2R (ho_start o) = B2R (d_Speed d) * IZR t.
(** same kind, shown at the same place, and [late] ms later *)
Definition later (late : Z) (d d' : difficulty) (o o' : hobj) : Prop :=
  (forall sd, ho_kind o <> KSlider sd) /\ ho_kind o' = ho_kind o /\
  stacked_start o' (d_Mods d') = stacked_start o (d_Mods d) /\ stacked_end o' (d_Mods d') = stacked_end o (d_Mods d) /\
  exists t, reached_at d o t /\ reached_at d' o' (t + late).
(** two settings with the same mods apart from the clock, the same radius and
    the same 300 window in real time *)
Definition same_feel (d d' : difficulty) : Prop :=
  check_mod d' Relax = check_mod d Relax /\ check_mod d' Flashlight = check_mod d Flashlight /\
  d_CircleRadius d' = d_CircleRadius d /\ fdiv (d_Hit300 d') (d_Speed d') = fdiv (d_Hit300 d) (d_Speed d).

(** ** Place *)
(** a symmetry of the square: exchange the axes or not, then reverse each or
    not *)
Record symmetry := mkSym { swap : bool; rev_x : bool; rev_y : bool }.
Definition flips (b : bool) (x x' : f32) : Prop :=
  is_finite x = true /\ is_finite x' = true /\ B2R x' = if b then - B2R x else B2R x.
Definition image (s : symmetry) (p p' : vec) : Prop :=
  flips (rev_x s) (if swap s then vy p else vx p) (vx p') /\ flips (rev_y s) (if swap s then vx p else vy p) (vy p').
Definition mirrored (s : symmetry) (m : modifier) (o o' : hobj) : Prop :=
  (forall sd, ho_kind o <> KSlider sd) /\ ho_kind o' = ho_kind o /\ ho_start o' = ho_start o /\
  (is_spinner o = false -> image s (stacked_start o m) (stacked_start o' m) /\ image s (stacked_end o m) (stacked_end o' m)).
(** coordinates in steps of 2^-30, at most 2^20 *)
Definition tidy (x : f32) : Prop :=
  is_finite x = true /\ exists z, (Z.abs z <= 2 ^ 50)%Z /\ B2R x = IZR z * bpow radix2 (-30).
Definition tidy_place (m : modifier) (o : hobj) : Prop :=
  is_spinner o = false -> tidy (vx (stacked_start o m)) /\ tidy (vy (stacked_start o m)).
(** no circle is shown exactly where the object before it is *)
Definition moves (m : modifier) (objs : list hobj) : Prop :=
  forall i a b, nth_error objs i = Some a -> nth_error objs (S i) = Some b -> is_spinner a = false -> is_spinner b = false ->
  B2R (vx (stacked_start a m)) <> B2R (vx (stacked_start b m)) \/ B2R (vy (stacked_start a m)) <> B2R (vy (stacked_start b m)).
(** the size of the angle of a direction does not depend on the side of the
    x-axis it is on, and the signs of zeros only matter when both coordinates
    are zero *)
Definition atan2_even {M : libm} : Prop := forall y x y' x' : f64,
  is_finite y = true -> is_finite x = true -> is_finite y' = true -> is_finite x' = true ->
  B2R x' = B2R x -> B2R y' = B2R y \/ B2R y' = - B2R y -> B2R y <> 0 \/ B2R x <> 0 ->
  fabs (matan2 y' x') = fabs (matan2 y x).

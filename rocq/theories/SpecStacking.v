(** Specification vocabulary for stacking. *)
From Verif Require Import Objects Difficulty SpecMods.

(** The three independent sets of stack data an object carries. *)
Inductive group := GNM | GEZ | GHR.
Definition idx_of (g : group) (o : hobj) : Z :=
  match g with GNM => ho_idx o | GEZ => ho_idxEZ o | GHR => ho_idxHR o end.
Definition off_of (g : group) (o : hobj) : vec :=
  match g with GNM => ho_off o | GEZ => ho_offEZ o | GHR => ho_offHR o end.
(** The group a mod mask selects: HardRock first, then Easy. *)
Definition group_of (m : Z) : group :=
  if Z.testbit m bHR then GHR else if Z.testbit m bEZ then GEZ else GNM.
Definition mask_of (g : group) : Z := match g with GNM => 0 | GEZ => 2 | GHR => 16 end.

(** Everything about an object except its stack data. *)
Definition same_but_stack (o o' : hobj) : Prop :=
  ho_kind o' = ho_kind o /\ ho_startPos o' = ho_startPos o /\ ho_endPos o' = ho_endPos o /\
  ho_start o' = ho_start o /\ ho_end o' = ho_end o /\ ho_id o' = ho_id o /\ ho_sounds o' = ho_sounds o /\
  ho_newCombo o' = ho_newCombo o /\ ho_comboNumber o' = ho_comboNumber o /\ ho_comboSet o' = ho_comboSet o /\
  ho_comboSetHax o' = ho_comboSetHax o /\ ho_colorOffset o' = ho_colorOffset o.

(** Two positions less than 3 pixels apart, in the code's float32 distance. *)
Definition close (a b : vec) : Prop := glt (vdst a b) (gq 3 1) = true.
(** Objects i and j of a list. *)
Definition at2 (l : list hobj) (i j : nat) (a b : hobj) : Prop :=
  (i < j)%nat /\ nth_error l i = Some a /\ nth_error l j = Some b.
(** No hit circle or slider head near an earlier head or tail. *)
Definition spread (l : list hobj) : Prop := forall i j a b, at2 l i j a b ->
  ho_kind a <> KSpinner -> ho_kind b <> KSpinner ->
  ~ close (ho_startPos a) (ho_startPos b) /\ ~ close (ho_endPos a) (ho_startPos b).
(** The same with spinners counted too, and the argument order of the old algorithm. *)
Definition spread_all (l : list hobj) : Prop := forall i j a b, at2 l i j a b ->
  ~ close (ho_startPos b) (ho_startPos a) /\ ~ close (ho_startPos b) (ho_endPos a).
(** Every two circles/sliders further apart in time than the threshold. *)
Definition slow (th : f64) (l : list hobj) : Prop := forall i j a b, at2 l i j a b ->
  ho_kind a <> KSpinner -> ho_kind b <> KSpinner ->
  flt th (fsub (ho_start b) (ho_end a)) = true /\ flt th (fsub (ho_start b) (ho_start a)) = true.
(** Circles at one finite position, each at most th after the end of the one before. *)
Definition pile (th : f64) (p : vec) (l : list hobj) : Prop :=
  BinarySingleNaN.is_finite (vx p) = true /\ BinarySingleNaN.is_finite (vy p) = true /\
  Forall (fun o => ho_kind o = KCircle /\ ho_startPos o = p) l /\
  forall i a b, at2 l i (S i) a b -> fle (fsub (ho_start b) (ho_end a)) th = true.

(** The Difficulty of the map's base values under a group's mods, and the
    time (ms) within which objects stack. *)
Definition diff_for (g : group) (d : difficulty) : difficulty :=
  set_mods (new_difficulty (d_hp d) (d_cs d) (d_od d) (d_ar d)) (mask_of g).
Definition threshold (d : difficulty) (len : f64) : f64 := ffloor (fmul (d_Preempt d) len).
(** A point with integer coordinates of magnitude at most 1024. *)
Definition int_point (p : vec) (x y : Z) : Prop :=
  BinarySingleNaN.is_finite (vx p) = true /\ BinarySingleNaN.is_finite (vy p) = true /\
  BinarySingleNaN.B2R (vx p) = Rdefinitions.IZR x /\ BinarySingleNaN.B2R (vy p) = Rdefinitions.IZR y /\
  Z.abs x <= 1024 /\ Z.abs y <= 1024.

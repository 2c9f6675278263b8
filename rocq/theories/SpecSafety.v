(** Which .osu files the parser can take without a run-time panic. *)
From Verif Require Import Parser SpecParser.

(** An event the parser interprets needs its third field. *)
Definition event_ok (fs : list str) : Prop :=
  In (field 0 fs) [lit "Background"; lit "0"; lit "Break"; lit "2"] -> (3 <= length fs)%nat.
(** Slider rows: x,y,time,type,sound,curve,repeats,length[,edge sounds].
    Each control point has a colon; the repeats + 1 edge sounds of 8 bytes each
    are allocated at once; no more of them may be given. *)
Definition bars (t : str) : list str := split "|" t.
Definition slider_ok (fs : list str) : Prop :=
  (8 <= length fs)%nat /\
  Forall (fun p => In ":"%char p) (tl (bars (field 5 fs))) /\
  0 <= parse_int (field 6 fs) + 1 <= 2 ^ 45 /\
  ((9 <= length fs)%nat -> zlen (bars (field 8 fs)) <= parse_int (field 6 fs) + 1).
Definition object_ok (fs : list str) : Prop :=
  match type_of fs with
  | TCircle => (5 <= length fs)%nat
  | TSpinner | THold => (6 <= length fs)%nat
  | TSlider => slider_ok fs
  | TOther => (4 <= length fs)%nat
  end.
(** Rows that lack a field, or a control point's colon. *)
Definition object_short (fs : list str) : Prop :=
  match type_of fs with
  | TCircle => (length fs < 5)%nat
  | TSpinner | THold => (length fs < 6)%nat
  | TSlider => (length fs < 8)%nat \/ exists p, In p (tl (bars (field 5 fs))) /\ ~ In ":"%char p
  | TOther => (length fs < 4)%nat
  end.
(** The file: every row of the two sections. *)
Definition rows_ok (ls : list str) : Prop :=
  (forall r, section_rows ls "Events" r -> Forall event_ok r) /\
  (forall r, section_rows ls "HitObjects" r -> Forall object_ok r).

(** ** Circular arcs *)
Definition control_point (t : str) : vec :=
  let l := split ":" t in mkVec (parse_f32 (nth 0 l [])) (parse_f32 (nth 1 l [])).
Definition slider_points (fs : list str) : list vec :=
  mkVec (parse_f32 (field 0 fs)) (parse_f32 (field 1 fs)) :: map control_point (tl (bars (field 5 fs))).
Section WithLibm.
Context {M : libm}.
(** The slider of this row, if any, is a circular arc through three points. *)
Definition arc_row (fs : list str) (a b c : vec) : Prop :=
  type_of fs = TSlider /\ hd [] (bars (field 5 fs)) = lit "P" /\ slider_points fs = [a; b; c] /\ is_straight a b c = false.
(** The radius the arc is given is at most n. *)
Definition radius_upto (n : Z) (a b c : vec) : Prop := gle (vdst a (arc_centre_of a b c)) (g_of_Z n) = true.
Definition arcs_upto (n : Z) (ls : list str) : Prop :=
  forall r fs a b c, section_rows ls "HitObjects" r -> In fs r -> arc_row fs a b c -> radius_upto n a b c.
(** What is assumed of math.Atan2: on numbers, an angle of at most Pi in magnitude. *)
Definition atan2_range : Prop := forall y x, fisnan y = false -> fisnan x = false ->
  fle (fneg fpi) (matan2 y x) = true /\ fle (matan2 y x) fpi = true.
End WithLibm.

(** beatmap/timing/timing.go *)
From Verif Require Export Difficulty GoSort.

(** type ControlPoint struct -- timing.go:9-25 *)
Record cpoint := mkCpoint {
  cp_Time : f64;
  cp_base : f64;   (* beatLengthBase *)
  cp_beat : f64;   (* beatLength *)
  cp_SampleSet : Z; cp_SampleIndex : Z; cp_SampleVolume : f64;
  cp_Signature : Z; cp_Inherited : bool; cp_Kiai : bool; cp_Omit : bool }.

(** func (t ControlPoint) GetRatio -- timing.go:27-33 *)
Definition get_ratio (t : cpoint) : f64 :=
  if fge (cp_beat t) f0 || fisnan (cp_beat t) then fq 1 1
  else f_of_g (gdiv (g_of_f (clampF64 (fneg (cp_beat t)) (fq 10 1) (fq 1000 1))) (gq 100 1)).

(** GetBaseBeatLength, GetRawBeatLength, GetBeatLength -- timing.go:35-45 *)
Definition get_base_beat_length (t : cpoint) : f64 := cp_base t.
Definition get_raw_beat_length (t : cpoint) : f64 := cp_beat t.
Definition get_beat_length (t : cpoint) : f64 := fmul (cp_base t) (get_ratio t).

(** type Timings struct -- timing.go:47-55 (the default point is constant) *)
Record timings := mkTimings {
  t_SliderMult : f64;
  t_TickRate : f64;
  t_points : list cpoint;
  t_original : list cpoint }.

(** func NewTimings -- timing.go:57-72 *)
Definition default_point : cpoint :=
  {| cp_Time := f0; cp_base := fq 1000 1; cp_beat := fq 1000 1; cp_SampleSet := 0;
     cp_SampleIndex := 1; cp_SampleVolume := fq 1 1; cp_Signature := 4;
     cp_Inherited := false; cp_Kiai := false; cp_Omit := false |}.
Definition new_timings : timings :=
  {| t_SliderMult := f0; t_TickRate := f0; t_points := []; t_original := [] |}.

(** func (tim) AddPoint -- timing.go:74-89 *)
Definition mk_point (time beat : f64) (sset sidx : Z) (vol : f64) (sig : Z) (inh kiai omit : bool) : cpoint :=
  {| cp_Time := time; cp_base := beat; cp_beat := beat; cp_SampleSet := sset;
     cp_SampleIndex := sidx; cp_SampleVolume := vol; cp_Signature := sig;
     cp_Inherited := inh; cp_Kiai := kiai; cp_Omit := omit |}.
Definition add_point (tim : timings) (p : cpoint) : timings :=
  {| t_SliderMult := t_SliderMult tim; t_TickRate := t_TickRate tim;
     t_points := t_points tim ++ [p]; t_original := t_original tim |}.

(** the comparison and the loop of FinalizePoints -- timing.go:92-105.
    [last] is tim.points[i-1] after its own update, [None] for i = 0. *)
Definition point_lt (a b : cpoint) : bool := flt (cp_Time a) (cp_Time b).
Definition set_base (p : cpoint) (b : f64) : cpoint :=
  {| cp_Time := cp_Time p; cp_base := b; cp_beat := cp_beat p; cp_SampleSet := cp_SampleSet p;
     cp_SampleIndex := cp_SampleIndex p; cp_SampleVolume := cp_SampleVolume p;
     cp_Signature := cp_Signature p; cp_Inherited := cp_Inherited p; cp_Kiai := cp_Kiai p;
     cp_Omit := cp_Omit p |}.
Fixpoint finalize_loop (last : option cpoint) (l : list cpoint) : list cpoint * list cpoint :=
  match l with
  | [] => ([], [])
  | p :: r =>
      match cp_Inherited p, last with
      | true, Some lp =>
          let p' := set_base p (cp_base lp) in
          let '(ps, os) := finalize_loop (Some p') r in (p' :: ps, os)
      | _, _ =>
          let '(ps, os) := finalize_loop (Some p) r in (p :: ps, p :: os)
      end
  end.
(** func (tim) FinalizePoints -- timing.go:91-106 *)
Definition finalize_points (tim : timings) : timings :=
  let '(ps, os) := finalize_loop None (stable_sort point_lt (t_points tim)) in
  {| t_SliderMult := t_SliderMult tim; t_TickRate := t_TickRate tim;
     t_points := ps; t_original := t_original tim ++ os |}.

(** func (tim) GetPointAt / GetOriginalPointAt -- timing.go:112-130 *)
Definition point_at (pts : list cpoint) (time : f64) : res cpoint :=
  let index := search (length pts) (fun i =>
    match nth_error pts i with Some p => flt time (cp_Time p) | None => true end) in
  idx pts (maxI 0 (Z.of_nat index - 1)).
Definition get_point_at (tim : timings) (time : f64) : res cpoint := point_at (t_points tim) time.
Definition get_original_point_at (tim : timings) (time : f64) : res cpoint := point_at (t_original tim) time.

(** func (tim) GetScoringDistance -- timing.go:132-134 *)
Definition get_scoring_distance (tim : timings) : f64 :=
  fdiv (fmul (fq 100 1) (t_SliderMult tim)) (t_TickRate tim).

(** func (tim) GetSliderTimeP -- timing.go:136-138 *)
Definition get_slider_time_p (tim : timings) (p : cpoint) (pixelLength : f64) : f64 :=
  f_of_g (gdiv (g_of_f (fmul (fq 1000 1) pixelLength))
               (g_of_f (fmul (fmul (fq 100 1) (t_SliderMult tim)) (fdiv (fq 1000 1) (get_beat_length p))))).

(** func (tim) GetVelocity -- timing.go:140-150 *)
Definition get_velocity (tim : timings) (p : cpoint) : f64 :=
  let velocity := fmul (get_scoring_distance tim) (t_TickRate tim) in
  let beatLength := get_beat_length p in
  if fge beatLength f0 then fmul velocity (fdiv (fq 1000 1) beatLength) else velocity.

(** func (tim) GetTickDistance -- timing.go:152-154 *)
Definition get_tick_distance (tim : timings) (p : cpoint) : f64 :=
  fdiv (get_scoring_distance tim) (get_ratio p).

(** func (tim) HasPoints -- timing.go:156-158 *)
Definition has_points (tim : timings) : bool := match t_points tim with [] => false | _ => true end.

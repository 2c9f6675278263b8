(** performance/osu/preprocessing *)
From Verif Require Export Objects.

Section WithLibm.
Context {M : libm}.

(** type LazySlider (the fields added to *objects.Slider) -- lazyslider.go:16-24 *)
Record lazy := mkLazy { lz_EndPos : vec; lz_Distance : f32; lz_Time : f64 }.
(** an IHitObject as CreateDifficultyObjects sees it: sliders are wrapped *)
Record pobj := mkPobj { po_obj : hobj; po_lazy : option lazy }.

(** one iteration of the score point loop -- lazyslider.go:44-87.
    State: cursor, travel distance. *)
Definition lazy_step (o : hobj) (m : modifier) (lazyEnd : vec) (scaling : f64) (is_last : bool)
    (st : vec * f32) (t : tick) : res (vec * f32) :=
  let '(cursor, dist) := st in
  let* pos := stacked_position_at o (if is_last then ho_end o else tk_Time t) m in
  let mov := vsub pos cursor in
  let lazyMov := vsub lazyEnd cursor in
  let mov := if is_last && glt (vlen lazyMov) (vlen mov) then lazyMov else mov in
  let len := fmul scaling (f_of_g (vlen mov)) in
  let req := if is_last then fq 90 1 else if tk_Reverse t then fq 50 1 else fq 90 1 in
  if fgt len req then
    let ratio := fdiv (fsub len req) len in
    Ok (vadd cursor (vscl mov (g_of_f ratio)), gadd dist (g_of_f (fmul len ratio)))
  else Ok (cursor, dist).
Fixpoint lazy_loop (o : hobj) (m : modifier) (lazyEnd : vec) (scaling : f64) (st : vec * f32)
    (ts : list tick) : res (vec * f32) :=
  match ts with
  | [] => Ok st
  | t :: r =>
      let* st' := lazy_step o m lazyEnd scaling (match r with [] => true | _ => false end) st t in
      lazy_loop o m lazyEnd scaling st' r
  end.
(** calculateEndPosition -- lazyslider.go:37-90 *)
Definition new_lazy (d : difficulty) (o : hobj) (sd : slider_data) : res lazy :=
  let m := d_Mods d in
  let* lt := idx (sl_ticks sd) (zlen (sl_ticks sd) - 1) in
  let travelTime := fsub (tk_Time lt) (ho_start o) in
  let* lazyEnd := stacked_position_at o (fadd travelTime (ho_start o)) m in
  let scaling := fdiv (fq 50 1) (d_CircleRadius d) in
  let* st := lazy_loop o m lazyEnd scaling (stacked_start o m, g0) (sl_ticks sd) in
  let bonus := g_of_f (mpow (fadd (fq 1 1) (fdiv (f_of_Z (wrap64 (sl_repeat sd - 1))) (fq 5 2))) (fq 2 5)) in
  Ok {| lz_EndPos := fst st; lz_Distance := gmul (snd st) bonus; lz_Time := travelTime |}.
(** wrapping -- objects.go:12-18 *)
Definition wrap_object (d : difficulty) (o : hobj) : res pobj :=
  match ho_kind o with
  | KSlider sd => let* l := new_lazy d o sd in Ok (mkPobj o (Some l))
  | _ => Ok (mkPobj o None)
  end.

(** type DifficultyObject -- object.go:17-45 (lastObject and lastLastObject
    are only used by setDistances) *)
Record dobj := mkDobj {
  do_base : pobj;
  do_DeltaTime : f64; do_StartTime : f64; do_EndTime : f64;
  do_Jump : f64; do_Movement : f64; do_Travel : f64; do_Angle : f64;
  do_MovementTime : f64; do_TravelTime : f64; do_StrainTime : f64 }.

(** getEndCursorPosition -- object.go:118-126 *)
Definition end_cursor (p : pobj) (m : modifier) : vec :=
  match po_lazy p with
  | Some l => lz_EndPos l
  | None => stacked_start (po_obj p) m
  end.
(** scalingFactor -- object.go:74-79 *)
Definition scaling_factor (d : difficulty) : f32 :=
  let r := g_of_f (d_CircleRadius d) in
  let s := gdiv (gq 50 1) r in
  if flt (d_CircleRadius d) (fq 30 1) then
    gmul s (gadd (gq 1 1) (gdiv (gmin (gsub (gq 30 1) r) (gq 5 1)) (gq 50 1)))
  else s.
(** the angle -- object.go:110-114 *)
Definition angle_of (d : difficulty) (cur lastLast last : pobj) : f64 :=
  let m := d_Mods d in
  let v1 := vsub (end_cursor lastLast m) (stacked_start (po_obj last) m) in
  let v2 := vsub (stacked_start (po_obj cur) m) (end_cursor last m) in
  let dot := vdot v1 v2 in
  let det := gsub (gmul (vx v1) (vy v2)) (gmul (vy v1) (vx v2)) in
  f_of_g (gabs (gatan2 det dot)).
(** NewDifficultyObject and setDistances -- object.go:47-116 *)
Definition new_dobj (d : difficulty) (cur : pobj) (lastLast : option pobj) (last : pobj) : dobj :=
  let m := d_Mods d in
  let delta := fdiv (fsub (ho_start (po_obj cur)) (ho_start (po_obj last))) (d_Speed d) in
  let start := fdiv (ho_start (po_obj cur)) (d_Speed d) in
  let en := fdiv (ho_end (po_obj cur)) (d_Speed d) in
  let strain := fmax delta (fq 25 1) in
  if is_spinner (po_obj cur) || is_spinner (po_obj last) then
    {| do_base := cur; do_DeltaTime := delta; do_StartTime := start; do_EndTime := en;
       do_Jump := f0; do_Movement := f0; do_Travel := f0; do_Angle := fnan;
       do_MovementTime := f0; do_TravelTime := f0; do_StrainTime := strain |}
  else
    let s := scaling_factor d in
    let lastCursor := end_cursor last m in
    let jump := f_of_g (vdst (vscl (stacked_start (po_obj cur) m) s) (vscl lastCursor s)) in
    let '(movement, movementTime, travel, travelTime) :=
      match po_lazy last with
      | Some l =>
          let tt := fmax (fdiv (lz_Time l) (d_Speed d)) (fq 25 1) in
          let tail := gmul (vdst (stacked_end (po_obj last) m) (stacked_start (po_obj cur) m)) s in
          (fmax f0 (fmin (fsub jump (fq 30 1)) (f_of_g (gsub tail (gq 120 1)))),
           fmax (fsub strain tt) (fq 25 1), f_of_g (lz_Distance l), tt)
      | None => (jump, strain, f0, f0)
      end in
    let angle := match lastLast with
                 | Some ll => if is_spinner (po_obj ll) then fnan else angle_of d cur ll last
                 | None => fnan
                 end in
    {| do_base := cur; do_DeltaTime := delta; do_StartTime := start; do_EndTime := en;
       do_Jump := jump; do_Movement := movement; do_Travel := travel; do_Angle := angle;
       do_MovementTime := movementTime; do_TravelTime := travelTime; do_StrainTime := strain |}.

(** the loop of CreateDifficultyObjects -- objects.go:22-33 *)
Fixpoint diff_objects (d : difficulty) (lastLast : option pobj) (last : pobj) (l : list pobj) : list dobj :=
  match l with
  | [] => []
  | cur :: r => new_dobj d cur lastLast last :: diff_objects d (Some last) cur r
  end.
(** CreateDifficultyObjects -- objects.go:9-36 *)
Definition create_difficulty_objects (objs : list hobj) (d : difficulty) : res (list dobj) :=
  let* ps := mapM (wrap_object d) objs in
  Ok (match ps with [] => [] | p :: r => diff_objects d None p r end).
End WithLibm.

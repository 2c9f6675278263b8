(** beatmap/objects *)
From Verif Require Export Curves Timing GoString.

Section WithLibm.
Context {M : libm}.

(** Type constants -- util.go:20-28 *)
Definition CIRCLE : Z := 1.
Definition SLIDER : Z := 2.
Definition NEWCOMBO : Z := 4.
Definition SPINNER : Z := 8.
Definition LONGNOTE : Z := 128.
Definition has_type (t flag : Z) : bool := 0 <? Z.land t flag.

(** type TickPoint -- slider.go:16-19 *)
Record tick := mkTick { tk_Time : f64; tk_Reverse : bool }.

(** type Slider -- slider.go:21-37 (Timings and diff pointers are never read
    by modelled code except through SetTiming's argument) *)
Record slider_data := mkSlider {
  sl_curve : multicurve; sl_tpoint : option cpoint; sl_pixelLength : f64; sl_repeat : Z;
  sl_ticks : list tick; sl_span : f64 }.

(** the dynamic type of an IHitObject *)
Inductive kind := KCircle | KSpinner | KSlider (s : slider_data).

(** type HitObject -- hitobject.go:52-78; PositionDelegate is set exactly for
    sliders, so the kind stands for it *)
Record hobj := mkHobj {
  ho_kind : kind;
  ho_startPos : vec; ho_endPos : vec;
  ho_start : f64; ho_end : f64;
  ho_off : vec; ho_offEZ : vec; ho_offHR : vec;
  ho_idx : Z; ho_idxEZ : Z; ho_idxHR : Z;
  ho_id : Z; ho_sounds : list Z; ho_newCombo : bool;
  ho_comboNumber : Z; ho_comboSet : Z; ho_comboSetHax : Z; ho_colorOffset : Z }.

Definition is_spinner (o : hobj) : bool := match ho_kind o with KSpinner => true | _ => false end.
Definition is_slider (o : hobj) : bool := match ho_kind o with KSlider _ => true | _ => false end.
Definition is_circle (o : hobj) : bool := match ho_kind o with KCircle => true | _ => false end.

(** commonParse -- baseobject.go:9-31, with the kind of the caller *)
Definition common_parse (k : kind) (data : list str) : res hobj :=
  let* d0 := idx data 0 in
  let* d1 := idx data 1 in
  let* d2 := idx data 2 in
  let* d3 := idx data 3 in
  let* d4 := idx data 4 in
  let objType := atoi d3 in
  let pos := mkVec (parse_f32 d0) (parse_f32 d1) in
  let time := parse_f64 d2 in
  Ok {| ho_kind := k; ho_startPos := pos; ho_endPos := pos; ho_start := time; ho_end := time;
        ho_off := vzero; ho_offEZ := vzero; ho_offHR := vzero;
        ho_idx := 0; ho_idxEZ := 0; ho_idxHR := 0; ho_id := -1;
        ho_sounds := [atoi d4];
        ho_newCombo := Z.land objType NEWCOMBO =? NEWCOMBO;
        ho_comboNumber := 0; ho_comboSet := 0; ho_comboSetHax := 0;
        ho_colorOffset := Z.land (Z.shiftr objType 4) 7 |}.

(** field updates used below *)
Definition with_kind (o : hobj) (k : kind) : hobj :=
  {| ho_kind := k; ho_startPos := ho_startPos o; ho_endPos := ho_endPos o; ho_start := ho_start o;
     ho_end := ho_end o; ho_off := ho_off o; ho_offEZ := ho_offEZ o; ho_offHR := ho_offHR o;
     ho_idx := ho_idx o; ho_idxEZ := ho_idxEZ o; ho_idxHR := ho_idxHR o; ho_id := ho_id o;
     ho_sounds := ho_sounds o; ho_newCombo := ho_newCombo o; ho_comboNumber := ho_comboNumber o;
     ho_comboSet := ho_comboSet o; ho_comboSetHax := ho_comboSetHax o; ho_colorOffset := ho_colorOffset o |}.
Definition with_end (o : hobj) (t : f64) (p : vec) : hobj :=
  {| ho_kind := ho_kind o; ho_startPos := ho_startPos o; ho_endPos := p; ho_start := ho_start o;
     ho_end := t; ho_off := ho_off o; ho_offEZ := ho_offEZ o; ho_offHR := ho_offHR o;
     ho_idx := ho_idx o; ho_idxEZ := ho_idxEZ o; ho_idxHR := ho_idxHR o; ho_id := ho_id o;
     ho_sounds := ho_sounds o; ho_newCombo := ho_newCombo o; ho_comboNumber := ho_comboNumber o;
     ho_comboSet := ho_comboSet o; ho_comboSetHax := ho_comboSetHax o; ho_colorOffset := ho_colorOffset o |}.
Definition with_sounds (o : hobj) (s : list Z) : hobj :=
  {| ho_kind := ho_kind o; ho_startPos := ho_startPos o; ho_endPos := ho_endPos o; ho_start := ho_start o;
     ho_end := ho_end o; ho_off := ho_off o; ho_offEZ := ho_offEZ o; ho_offHR := ho_offHR o;
     ho_idx := ho_idx o; ho_idxEZ := ho_idxEZ o; ho_idxHR := ho_idxHR o; ho_id := ho_id o;
     ho_sounds := s; ho_newCombo := ho_newCombo o; ho_comboNumber := ho_comboNumber o;
     ho_comboSet := ho_comboSet o; ho_comboSetHax := ho_comboSetHax o; ho_colorOffset := ho_colorOffset o |}.
(** SetNewCombo, SetID, SetComboNumber, SetComboSet, SetComboSetHax -- hitobject.go:144-166, 213-215 *)
Definition with_combo (o : hobj) (nc : bool) (id num set hax : Z) : hobj :=
  {| ho_kind := ho_kind o; ho_startPos := ho_startPos o; ho_endPos := ho_endPos o; ho_start := ho_start o;
     ho_end := ho_end o; ho_off := ho_off o; ho_offEZ := ho_offEZ o; ho_offHR := ho_offHR o;
     ho_idx := ho_idx o; ho_idxEZ := ho_idxEZ o; ho_idxHR := ho_idxHR o; ho_id := id;
     ho_sounds := ho_sounds o; ho_newCombo := nc; ho_comboNumber := num;
     ho_comboSet := set; ho_comboSetHax := hax; ho_colorOffset := ho_colorOffset o |}.
Definition with_stack (o : hobj) (i iE iH : Z) (f fE fH : vec) : hobj :=
  {| ho_kind := ho_kind o; ho_startPos := ho_startPos o; ho_endPos := ho_endPos o; ho_start := ho_start o;
     ho_end := ho_end o; ho_off := f; ho_offEZ := fE; ho_offHR := fH;
     ho_idx := i; ho_idxEZ := iE; ho_idxHR := iH; ho_id := ho_id o;
     ho_sounds := ho_sounds o; ho_newCombo := ho_newCombo o; ho_comboNumber := ho_comboNumber o;
     ho_comboSet := ho_comboSet o; ho_comboSetHax := ho_comboSetHax o; ho_colorOffset := ho_colorOffset o |}.

(** NewCircle -- circle.go:13-17 *)
Definition new_circle (data : list str) : res hobj := common_parse KCircle data.
(** NewSpinner -- spinner.go:14-22 *)
Definition new_spinner (data : list str) : res hobj :=
  let* o := common_parse KSpinner data in
  let* d5 := idx data 5 in
  Ok (with_end o (parse_f64 d5) (ho_endPos o)).

(** the control points of a slider -- slider.go:49-57 *)
Definition slider_point (s : str) : res vec :=
  let l := split ":" s in
  let* x := idx l 0 in
  let* y := idx l 1 in
  Ok (mkVec (parse_f32 x) (parse_f32 y)).
(** edge sounds -- slider.go:72-78 *)
Fixpoint edge_sounds (i : Z) (sounds : list Z) (subs : list str) : res (list Z) :=
  match subs with
  | [] => Ok sounds
  | v :: r => let* s := set_idx sounds i (atoi v) in edge_sounds (i + 1) s r
  end.
(** NewSlider -- slider.go:39-81 *)
Definition new_slider (fuel : nat) (data : list str) : res hobj :=
  let* o := common_parse KCircle data in
  let* d7 := idx data 7 in
  let* d6 := idx data 6 in
  let* d5 := idx data 5 in
  let pixelLength := parse_f64 d7 in
  let rep := parse_int d6 in
  let l := split "|" d5 in
  let* typ := idx l 0 in
  let* pts := mapM slider_point (tl l) in
  let* mc := new_multicurve_t fuel typ (ho_startPos o :: pts) pixelLength in
  let* endPos := mc_point_at mc (gq 1 1) in
  let* base := idx (ho_sounds o) 0 in
  let n := wrap64 (rep + 1) in
  if make_ok n 8 then
    let sounds := repeat base (Z.to_nat n) in
    let* sounds := match nth_error data 8 with
                   | Some d8 => edge_sounds 0 sounds (split "|" d8)
                   | None => Ok sounds
                   end in
    let sd := {| sl_curve := mc; sl_tpoint := None; sl_pixelLength := pixelLength; sl_repeat := rep;
                 sl_ticks := []; sl_span := f0 |} in
    Ok (with_kind (with_sounds (with_end o (ho_start o) endPos) sounds) (KSlider sd))
  else Panic.

(** CreateObject -- util.go:5-18 *)
Definition create_object (fuel : nat) (data : list str) : res (option hobj) :=
  let* d3 := idx data 3 in
  let t := atoi d3 in
  if has_type t CIRCLE then rmap Some (new_circle data)
  else if has_type t SPINNER then rmap Some (new_spinner data)
  else if has_type t SLIDER then rmap Some (new_slider fuel data)
  else Ok None.

(** IsRetarded -- slider.go:165-167 *)
Definition is_retarded (start en : f64) : bool := feq start en.
(** (Slider).PositionAt -- slider.go:83-98 *)
Definition slider_progress (start en span time : f64) : f64 :=
  let t1 := clampF64 time start en in
  let p := fdiv (fsub t1 start) span in
  let p := fmod p (fq 2 1) in
  if fge p (fq 1 1) then fsub (fq 2 1) p else p.
Definition slider_position_at (startPos : vec) (start en : f64) (sd : slider_data) (time : f64) : res vec :=
  if is_retarded start en then Ok startPos
  else mc_point_at (sl_curve sd) (g_of_f (slider_progress start en (sl_span sd) time)).

(** one span's ticks -- slider.go:126-140; [d] the running distance.
    Returns the times in order of generation. *)
Fixpoint tick_loop (fuel : nat) (d tickDistance cLength minDist : f64)
    (reversed : bool) (spanStart span : f64) : res (list tick) :=
  if fle d cLength then
    if fge d (fsub cLength minDist) then Ok []
    else
      match fuel with
      | O => Hang
      | S fuel' =>
          let tp := fdiv d cLength in
          let tp := if reversed then fsub (fq 1 1) tp else tp in
          let* rest := tick_loop fuel' (fadd d tickDistance) tickDistance cLength minDist reversed spanStart span in
          Ok (mkTick (fadd spanStart (fmul tp span)) false :: rest)
      end
  else Ok [].
(** the span loop -- slider.go:121-152 *)
Definition span_ticks (fuel : nat) (nan : bool) (tickDistance cLength minDist start en span : f64)
    (rep : Z) (i : nat) : res (list tick) :=
  let spanStart := fadd start (fmul (f_of_Z (Z.of_nat i)) span) in
  let reversed := Nat.odd i in
  let* ts := if nan then Ok []
             else tick_loop fuel tickDistance tickDistance cLength minDist reversed spanStart span in
  let tail := if Z.of_nat i <? rep - 1
              then mkTick (fadd spanStart span) true
              else mkTick (fmax (fadd start (fdiv (fsub en start) (fq 2 1))) (fsub en (fq 36 1))) false in
  Ok (ts ++ [tail]).
Definition tick_lt (a b : tick) : bool := flt (tk_Time a) (tk_Time b).
(** (Slider).SetTiming -- slider.go:100-159.  [int(RepeatCount)] is the
    identity on 64-bit. *)
Definition slider_set_timing (fuel : nat) (tim : timings) (o : hobj) (sd : slider_data) : res hobj :=
  let* tp := get_point_at tim (ho_start o) in
  let nan := fisnan (get_raw_beat_length tp) in
  let velocity := get_velocity tim tp in
  let cLength := f_of_g (mc_length (sl_curve sd)) in
  let span := fdiv (fmul cLength (fq 1000 1)) velocity in
  let en := fadd (ho_start o)
              (fdiv (fmul (fmul cLength (fq 1000 1)) (f_of_Z (sl_repeat sd))) velocity) in
  let minDist := fmul velocity (fq 1 100) in
  let td := get_tick_distance tim tp in
  let td := if ggt (mc_length (sl_curve sd)) g0 && fgt td (sl_pixelLength sd)
            then sl_pixelLength sd else td in
  let* tss := mapM (span_ticks fuel nan td cLength minDist (ho_start o) en span (sl_repeat sd))
                (seq 0 (Z.to_nat (sl_repeat sd))) in
  let ticks := stable_sort tick_lt (sl_ticks sd ++ concat tss) in
  let sd' := {| sl_curve := sl_curve sd; sl_tpoint := Some tp; sl_pixelLength := sl_pixelLength sd;
                sl_repeat := sl_repeat sd; sl_ticks := ticks; sl_span := span |} in
  let* p := slider_position_at (ho_startPos o) (ho_start o) en sd' en in
  Ok (with_end (with_kind o (KSlider sd')) en p).
(** SetTiming of any object -- hitobject.go:82, spinner.go:24-26, slider.go:100 *)
Definition set_timing (fuel : nat) (tim : timings) (o : hobj) : res hobj :=
  match ho_kind o with
  | KSlider sd => slider_set_timing fuel tim o sd
  | _ => Ok o
  end.

(** GetPositionAt -- hitobject.go:100-106 *)
Definition position_at (o : hobj) (time : f64) : res vec :=
  match ho_kind o with
  | KSlider sd => slider_position_at (ho_startPos o) (ho_start o) (ho_end o) sd time
  | _ => Ok (ho_startPos o)
  end.

(** GetStackIndex / SetStackIndex / SetStackOffset -- hitobject.go:168-199 *)
Definition get_stack_index (m : modifier) (o : hobj) : Z :=
  if mactive m HardRock then ho_idxHR o else if mactive m Easy then ho_idxEZ o else ho_idx o.
Definition set_stack_index (m : modifier) (i : Z) (o : hobj) : hobj :=
  if mactive m HardRock then with_stack o (ho_idx o) (ho_idxEZ o) i (ho_off o) (ho_offEZ o) (ho_offHR o)
  else if mactive m Easy then with_stack o (ho_idx o) i (ho_idxHR o) (ho_off o) (ho_offEZ o) (ho_offHR o)
  else with_stack o i (ho_idxEZ o) (ho_idxHR o) (ho_off o) (ho_offEZ o) (ho_offHR o).
Definition set_stack_offset (m : modifier) (f : f32) (o : hobj) : hobj :=
  let v := vscl (mkVec (gq 1 1) (gq 1 1)) f in
  if mactive m HardRock then with_stack o (ho_idx o) (ho_idxEZ o) (ho_idxHR o) (ho_off o) (ho_offEZ o) v
  else if mactive m Easy then with_stack o (ho_idx o) (ho_idxEZ o) (ho_idxHR o) (ho_off o) v (ho_offHR o)
  else with_stack o (ho_idx o) (ho_idxEZ o) (ho_idxHR o) v (ho_offEZ o) (ho_offHR o).

(** modifyPosition -- hitobject.go:217-227 *)
Definition modify_position (o : hobj) (p : vec) (m : modifier) : vec :=
  if mactive m HardRock then vadd (mkVec (vx p) (gsub (gq 384 1) (vy p))) (ho_offHR o)
  else if mactive m Easy then vadd p (ho_offEZ o)
  else vadd p (ho_off o).
(** GetStackedPositionAtMod / StartPositionMod / EndPositionMod -- hitobject.go:112-138 *)
Definition stacked_position_at (o : hobj) (time : f64) (m : modifier) : res vec :=
  let* p := position_at o time in Ok (modify_position o p m).
Definition stacked_start (o : hobj) (m : modifier) : vec := modify_position o (ho_startPos o) m.
Definition stacked_end (o : hobj) (m : modifier) : vec := modify_position o (ho_endPos o) m.
End WithLibm.

(** beatmap/beatmap.go, beatmap/pause.go, beatmap/parser.go, files/utf.go *)
From Verif Require Export Stacking.

Section WithLibm.
Context {M : libm}.

(** ** Records.  type BeatMap -- beatmap.go:12-57, grouped by the section that
    fills the fields *)
Record metadata := mkMeta {
  md_Title : str; md_TitleUnicode : str; md_Artist : str; md_ArtistUnicode : str;
  md_Version : str; md_Creator : str; md_Source : str; md_Tags : str; md_SetID : Z; md_MapID : Z }.
Record general := mkGeneral {
  gn_Mode : Z; gn_StackLeniency : f64; gn_Audio : str; gn_PreviewTime : Z }.
Record diffsec := mkDiffsec {
  ds_SliderMultiplier : f64; ds_Difficulty : difficulty; ds_arSpecified : bool;
  ds_SliderMult : f64;  (* Timings.SliderMult *)
  ds_TickRate : f64     (* Timings.TickRate *) }.
(** type Pause -- pause.go:7-10 *)
Record pause := mkPause { ps_Start : f64; ps_End : f64 }.
Record events := mkEvents { ev_Bg : str; ev_Pauses : list pause }.
(** the timing section: Timings.points so far, MinBPM, MaxBPM, and the local
    [counter] of ParseFromReader *)
Record timesec := mkTimesec {
  ts_points : list cpoint; ts_MinBPM : f64; ts_MaxBPM : f64; ts_counter : Z }.
Record objsec := mkObjsec {
  os_Length : Z; os_Circles : Z; os_Sliders : Z; os_Spinners : Z; os_objects : list hobj }.
(** state of the line loop: currentSection and the map being filled *)
Record pstate := mkPstate {
  st_section : str; st_FileVersion : Z; st_meta : metadata; st_general : general;
  st_diff : diffsec; st_events : events; st_time : timesec; st_objs : objsec }.

(** NewBeatMap -- beatmap.go:59-68 *)
Definition meta0 : metadata := mkMeta [] [] [] [] [] [] [] [] 0 0.
Definition general0 : general := mkGeneral 0 (fq 7 10) [] 0.
Definition diffsec0 : diffsec :=
  mkDiffsec f0 (new_difficulty (fq 5 1) (fq 5 1) (fq 5 1) (fq 5 1)) false
    (t_SliderMult new_timings) (t_TickRate new_timings).
Definition timesec0 : timesec := mkTimesec [] finf f0 0.
Definition pstate0 : pstate :=
  mkPstate [] 0 meta0 general0 diffsec0 (mkEvents [] []) timesec0 (mkObjsec 0 0 0 0 []).

(** ** Section parsers *)
(** parseGeneral -- parser.go:18-44 *)
Definition parse_general (key v : str) (g : general) : general :=
  if str_eqb key (lit "Mode") then mkGeneral (atoi v) (gn_StackLeniency g) (gn_Audio g) (gn_PreviewTime g)
  else if str_eqb key (lit "StackLeniency") then
    let x := parse_f64 v in
    mkGeneral (gn_Mode g) (if fisnan x then f0 else x) (gn_Audio g) (gn_PreviewTime g)
  else if str_eqb key (lit "AudioFilename") then
    mkGeneral (gn_Mode g) (gn_StackLeniency g) (gn_Audio g ++ v) (gn_PreviewTime g)
  else if str_eqb key (lit "PreviewTime") then
    mkGeneral (gn_Mode g) (gn_StackLeniency g) (gn_Audio g) (parse_int v)
  else g.

(** parseMetadata -- parser.go:46-69 *)
Definition parse_metadata (key v : str) (m : metadata) : metadata :=
  let '(mkMeta ti tu ar au ve cr so ta si mi) := m in
  if str_eqb key (lit "Title") then mkMeta v tu ar au ve cr so ta si mi
  else if str_eqb key (lit "TitleUnicode") then mkMeta ti v ar au ve cr so ta si mi
  else if str_eqb key (lit "Artist") then mkMeta ti tu v au ve cr so ta si mi
  else if str_eqb key (lit "ArtistUnicode") then mkMeta ti tu ar v ve cr so ta si mi
  else if str_eqb key (lit "Creator") then mkMeta ti tu ar au ve v so ta si mi
  else if str_eqb key (lit "FileVersion") then mkMeta ti tu ar au v cr so ta si mi
  else if str_eqb key (lit "Source") then mkMeta ti tu ar au ve cr v ta si mi
  else if str_eqb key (lit "Tags") then mkMeta ti tu ar au ve cr so v si mi
  else if str_eqb key (lit "BeatmapID") then mkMeta ti tu ar au ve cr so ta si (parse_int v)
  else if str_eqb key (lit "BeatmapSetID") then mkMeta ti tu ar au ve cr so ta (parse_int v) mi
  else m.

(** parseDifficulty -- parser.go:71-96 *)
Definition clamp10 (x : f64) : f64 := clampF64 x f0 (fq 10 1).
Definition parse_difficulty (key v : str) (s : diffsec) : diffsec :=
  let '(mkDiffsec sm d arS tsm tr) := s in
  if str_eqb key (lit "SliderMultiplier") then mkDiffsec (parse_f64 v) d arS (parse_f64 v) tr
  else if str_eqb key (lit "ApproachRate") then mkDiffsec sm (set_ar d (clamp10 (parse_f64 v))) true tsm tr
  else if str_eqb key (lit "CircleSize") then mkDiffsec sm (set_cs d (clamp10 (parse_f64 v))) arS tsm tr
  else if str_eqb key (lit "SliderTickRate") then mkDiffsec sm d arS tsm (parse_f64 v)
  else if str_eqb key (lit "HPDrainRate") then mkDiffsec sm (set_hp d (clamp10 (parse_f64 v))) arS tsm tr
  else if str_eqb key (lit "OverallDifficulty") then
    let d := set_od d (clamp10 (parse_f64 v)) in
    mkDiffsec sm (if arS then d else set_ar d (d_od d)) arS tsm tr
  else s.

(** NewPause -- pause.go:12-17 *)
Definition new_pause (line : list str) : res pause :=
  let* a := idx line 1 in
  let* b := idx line 2 in
  Ok (mkPause (parse_f64 a) (parse_f64 b)).
(** parseEvents -- parser.go:98-105 *)
Definition parse_events (line : list str) (e : events) : res events :=
  let* k := idx line 0 in
  if str_eqb k (lit "Background") || str_eqb k (lit "0") then
    let* v := idx line 2 in Ok (mkEvents (remove_byte (chr 34) v) (ev_Pauses e))
  else if str_eqb k (lit "Break") || str_eqb k (lit "2") then
    let* p := new_pause line in Ok (mkEvents (ev_Bg e) (ev_Pauses e ++ [p]))
  else Ok e.

(** ParsePoint -- beatmap.go:70-121, plus counter++ (parser.go:189) *)
Definition parse_point (line : str) (t : timesec) : res timesec :=
  let l := split "," line in
  let* l0 := idx l 0 in
  let* l1 := idx l 1 in
  let time := f_of_Z (parse_int l0) in
  let bpm := parse_f64 l1 in
  let opt {A} (i : nat) (f : str -> A) (dflt : A) : A :=
    match nth_error l i with Some s => f s | None => dflt end in
  let rbpm := fdiv (fq 60000 1) bpm in
  let upd_bpm := negb (fisnan bpm) && fge bpm f0 in
  let ki := opt 7%nat atoi 0 in
  let p := mk_point time bpm
             (opt 3%nat atoi 0)
             (opt 4%nat atoi 1)
             (opt 5%nat (fun s => fdiv (f_of_Z (atoi s)) (fq 100 1)) (fq 1 1))
             (opt 2%nat (fun s => if atoi s =? 0 then 4 else atoi s) 4)
             (opt 6%nat (fun s => atoi s =? 0) false)
             (0 <? Z.land ki 1) (0 <? Z.land ki 8) in
  Ok (mkTimesec (ts_points t ++ [p])
        (if upd_bpm then fmin (ts_MinBPM t) rbpm else ts_MinBPM t)
        (if upd_bpm then fmax (ts_MaxBPM t) rbpm else ts_MaxBPM t)
        (ts_counter t + 1)).

(** the HitObjects case of the loop -- parser.go:192-215 and parseHitObjects,
    parser.go:107-113 *)
Definition parse_hit_object (fuel : nat) (arr : list str) (s : objsec) : res objsec :=
  let* a3 := idx arr 3 in
  let t := atoi a3 in
  let* r :=
    if has_type t CIRCLE then let* a := idx arr 2 in Ok (1, 0, 0, a)
    else if has_type t SPINNER then let* a := idx arr 5 in Ok (0, 0, 1, a)
    else if has_type t SLIDER then let* a := idx arr 2 in Ok (0, 1, 0, a)
    else if has_type t LONGNOTE then
      let* a := idx arr 5 in let* h := idx (split ":" a) 0 in Ok (0, 1, 0, h)
    else Ok (0, 0, 0, []) in
  let '(c, sl, sp, time) := r in
  let* o := create_object fuel arr in
  Ok (mkObjsec (maxI (os_Length s) (atoi time)) (os_Circles s + c) (os_Sliders s + sl)
        (os_Spinners s + sp)
        (match o with Some o => os_objects s ++ [o] | None => os_objects s end)).

(** tokenize / tokenizeN -- parser.go:115-131; None is Go's nil *)
Definition tokenize (line : str) (c : ascii) : option (list str) :=
  if has_prefix line (lit "//") || negb (contains line c) then None
  else Some (map trim_space (split c line)).
Definition tokenize2 (line : str) (c : ascii) : option (list str) :=
  if has_prefix line (lit "//") || negb (contains line c) then None
  else Some (map trim_space (split2 c line)).

(** getSection -- parser.go:133-140 *)
Definition get_section (line : str) : str :=
  let line := trim_space line in
  if has_prefix line (lit "[") then trim_right1 "]" (trim_left1 "[" line) else [].

(** one line inside a section -- parser.go:169-216 *)
Definition with_section (st : pstate) (s : str) : pstate :=
  mkPstate s (st_FileVersion st) (st_meta st) (st_general st) (st_diff st) (st_events st) (st_time st) (st_objs st).
Definition key_value (line : str) (f : str -> str -> pstate) (st : pstate) : pstate :=
  match tokenize2 line ":" with
  | Some (k :: v :: _) => f k v
  | _ => st
  end.
Definition section_line (fuel : nat) (line : str) (st : pstate) : res pstate :=
  let '(mkPstate sec fv me ge di ev ti obs) := st in
  if str_eqb sec (lit "General") then
    Ok (key_value line (fun k v => mkPstate sec fv me (parse_general k v ge) di ev ti obs) st)
  else if str_eqb sec (lit "Metadata") then
    Ok (key_value line (fun k v => mkPstate sec fv (parse_metadata k v me) ge di ev ti obs) st)
  else if str_eqb sec (lit "Difficulty") then
    Ok (key_value line (fun k v => mkPstate sec fv me ge (parse_difficulty k v di) ev ti obs) st)
  else if str_eqb sec (lit "Events") then
    match tokenize line "," with
    | Some ((_ :: _ :: _) as arr) =>
        let* e := parse_events arr ev in Ok (mkPstate sec fv me ge di e ti obs)
    | _ => Ok st
    end
  else if str_eqb sec (lit "TimingPoints") then
    match tokenize line "," with
    | Some (_ :: _ :: _) =>
        let* t := parse_point line ti in Ok (mkPstate sec fv me ge di ev t obs)
    | _ => Ok st
    end
  else if str_eqb sec (lit "HitObjects") then
    match tokenize line "," with
    | Some arr => let* o := parse_hit_object fuel arr obs in Ok (mkPstate sec fv me ge di ev ti o)
    | None => Ok st
    end
  else Ok st.
(** the body of the scan loop -- parser.go:155-217 *)
Definition version_line (line : str) (st : pstate) : pstate :=
  if has_prefix line (lit "osu file format v") then
    mkPstate (st_section st) (atoi (trim_prefix line (lit "osu file format v")))
      (st_meta st) (st_general st) (st_diff st) (st_events st) (st_time st) (st_objs st)
  else st.
Definition parse_line (fuel : nat) (st : pstate) (line : str) : res pstate :=
  let st := version_line line st in
  match get_section line with
  | [] => section_line fuel line st
  | s => Ok (with_section st s)
  end.

(** ** After the loop *)
Record beatmap := mkBeatmap {
  bm_FileVersion : Z; bm_meta : metadata; bm_general : general; bm_SliderMultiplier : f64;
  bm_Difficulty : difficulty; bm_arSpecified : bool; bm_events : events;
  bm_Length : Z; bm_Circles : Z; bm_Sliders : Z; bm_Spinners : Z;
  bm_MinBPM : f64; bm_MaxBPM : f64; bm_Timings : timings; bm_HitObjects : list hobj }.

(** combo numbering -- parser.go:229-254 *)
Fixpoint number_objects (num comboNumber comboSet hax : Z) (force : bool) (l : list hobj) : list hobj :=
  match l with
  | [] => []
  | o :: r =>
      if is_spinner o then
        with_combo o (ho_newCombo o) num comboNumber comboSet hax
          :: number_objects (num + 1) (comboNumber + 1) comboSet hax true r
      else if ho_newCombo o || force then
        let set' := comboSet + 1 in
        let hax' := hax + (ho_colorOffset o + 1) in
        with_combo o true num 1 set' hax' :: number_objects (num + 1) 2 set' hax' false r
      else
        with_combo o (ho_newCombo o) num comboNumber comboSet hax
          :: number_objects (num + 1) (comboNumber + 1) comboSet hax force r
  end.

Definition obj_lt (a b : hobj) : bool := flt (ho_start a) (ho_start b).

(** parser.go:219-262; None is the "corrupted file" error *)
Definition finish_parse (fuel : nat) (st : pstate) : res (option beatmap) :=
  let tim := finalize_points
    {| t_SliderMult := ds_SliderMult (st_diff st); t_TickRate := ds_TickRate (st_diff st);
       t_points := ts_points (st_time st); t_original := [] |} in
  let m := st_meta st in
  if str_eqb (md_Title m ++ md_Artist m ++ md_Creator m) [] || (ts_counter (st_time st) =? 0)
  then Ok None
  else
    let objs := stable_sort obj_lt (os_objects (st_objs st)) in
    let objs := number_objects 0 1 0 0 false objs in
    let* objs := mapM (set_timing fuel tim) objs in
    let d := ds_Difficulty (st_diff st) in
    let objs := stack_leniency d (st_FileVersion st) (gn_StackLeniency (st_general st)) objs in
    Ok (Some {|
      bm_FileVersion := st_FileVersion st; bm_meta := m; bm_general := st_general st;
      bm_SliderMultiplier := ds_SliderMultiplier (st_diff st);
      bm_Difficulty := d; bm_arSpecified := ds_arSpecified (st_diff st); bm_events := st_events st;
      bm_Length := os_Length (st_objs st); bm_Circles := os_Circles (st_objs st);
      bm_Sliders := os_Sliders (st_objs st); bm_Spinners := os_Spinners (st_objs st);
      bm_MinBPM := ts_MinBPM (st_time st); bm_MaxBPM := ts_MaxBPM (st_time st);
      bm_Timings := tim; bm_HitObjects := objs |}).

(** the whole line loop on a list of scanned lines *)
Definition parse_lines (fuel : nat) (ls : list str) : res (option beatmap) :=
  let* st := foldM (parse_line fuel) pstate0 ls in
  finish_parse fuel st.

(** bufferSize -- parser.go:16 *)
Definition buffer_size : Z := 10 * 1024 * 1024.
(** ParseFromReader on decoded text -- parser.go:146-263 *)
Definition parse_text (fuel : nat) (text : str) : res (option beatmap) :=
  parse_lines fuel (scan_lines buffer_size [] 0 text).

(** ** Text decoding: files.NewUnicodeReader -- utf.go:10-12.
    [unicode.BOMOverride(unicode.UTF8.NewDecoder())] is golang.org/x/text code,
    which is not in /repo; modelled from its documentation: a UTF-16 byte
    order mark selects UTF-16 (unpaired surrogates become U+FFFD), a UTF-8
    mark is dropped and the rest passed through, otherwise each invalid UTF-8
    byte becomes U+FFFD. *)
Definition utf8_encode (r : Z) : str :=
  let b n := chr (Z.to_N n) in
  if r <? 128 then [b r]
  else if r <? 2048 then [b (192 + r / 64); b (128 + r mod 64)]
  else if r <? 65536 then [b (224 + r / 4096); b (128 + r / 64 mod 64); b (128 + r mod 64)]
  else [b (240 + r / 262144); b (128 + r / 4096 mod 64); b (128 + r / 64 mod 64); b (128 + r mod 64)].
Fixpoint utf8_valid_loop (fuel : nat) (s : str) : str :=
  match fuel with
  | O => []
  | S fuel' =>
      match s with
      | [] => []
      | _ => let '(w, txt) := decode_rune s in txt ++ utf8_valid_loop fuel' (skipn w s)
      end
  end.
Definition unit16 (le : bool) (a b : ascii) : Z :=
  if le then byte_of a + 256 * byte_of b else 256 * byte_of a + byte_of b.
(** [hi]: a pending high surrogate *)
Fixpoint utf16_loop (le : bool) (hi : option Z) (s : str) : str :=
  match s with
  | a :: b :: r =>
      let u := unit16 le a b in
      let plain := if (55296 <=? u) && (u <? 56320) then utf16_loop le (Some u) r
                   else if (56320 <=? u) && (u <? 57344) then rune_error ++ utf16_loop le None r
                   else utf8_encode u ++ utf16_loop le None r in
      match hi with
      | Some h =>
          if (56320 <=? u) && (u <? 57344)
          then utf8_encode (65536 + (h - 55296) * 1024 + (u - 56320)) ++ utf16_loop le None r
          else rune_error ++ plain
      | None => plain
      end
  | [_] => (match hi with Some _ => rune_error | None => [] end) ++ rune_error
  | [] => match hi with Some _ => rune_error | None => [] end
  end.
Definition decode_text (s : str) : str :=
  match s with
  | a :: b :: r =>
      if (byte_of a =? 255) && (byte_of b =? 254) then utf16_loop true None r
      else if (byte_of a =? 254) && (byte_of b =? 255) then utf16_loop false None r
      else match r with
           | c :: r' =>
               if (byte_of a =? 239) && (byte_of b =? 187) && (byte_of c =? 191) then r'
               else utf8_valid_loop (length s) s
           | [] => utf8_valid_loop (length s) s
           end
  | _ => utf8_valid_loop (length s) s
  end.

(** ParseFromByte -- parser.go:142-144 *)
Definition parse_bytes (fuel : nat) (data : str) : res (option beatmap) :=
  parse_text fuel (decode_text data).
End WithLibm.

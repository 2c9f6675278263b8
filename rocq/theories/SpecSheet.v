(** Specification vocabulary: a map on paper, and the file it is written to. *)
From Coq Require Import Reals Permutation Sorted.
From Flocq Require Import Core BinarySingleNaN.
From Verif Require Import Parser SpecNumbers SpecParser SpecSpace SpecText SpecTiming.
Open Scope Z_scope.

(** circles, spinners with an end, or sliders with the letter of their curve, further
    points, spans and length; numbers are given by their decimal digits *)
Inductive shape := Circle | Spin (until : list Z) | Slide (letter : ascii) (points : list (list Z * list Z)) (spans : list Z) (pixels : literal).
Record note := mkNote { nt_x : list Z; nt_y : list Z; nt_time : list Z; nt_combo : bool; nt_shape : shape }.
(** the time of a tempo and the milliseconds of a beat; or a change of the slider speed, with
    minus the percentage of a beat that 100 pixels take *)
Record tempo := mkTempo { tp_time : list Z; tp_beat : literal; tp_speed : bool }.
Record sheet := mkSheet {
  sh_version : list Z; sh_leniency : literal; sh_title : str; sh_artist : str; sh_creator : str;
  sh_hp : literal; sh_cs : literal; sh_od : literal; sh_ar : literal; sh_speed : literal; sh_ticks : literal;
  sh_tempos : list tempo; sh_notes : list note }.

(** ** Writing *)
Definition setting (key : string) (v : str) : str := lit key ++ ":"%char :: v.
Definition path_text (letter : ascii) (points : list (list Z * list Z)) : str :=
  letter :: concat (map (fun p => "|"%char :: show (fst p) ++ ":"%char :: show (snd p)) points).
Definition note_fields (n : note) : list str :=
  [show (nt_x n); show (nt_y n); show (nt_time n);
   lit (match nt_shape n, nt_combo n with
        | Circle, false => "1" | Circle, true => "5" | Slide _ _ _ _, false => "2" | Slide _ _ _ _, true => "6"
        | Spin _, false => "8" | Spin _, true => "12" end); lit "0"] ++
  match nt_shape n with Circle => [] | Spin e => [show e] | Slide c ps k l => [path_text c ps; show k; written l] end.
Definition tempo_fields (p : tempo) : list str :=
  [show (tp_time p); written (tp_beat p); lit "4"; lit "2"; lit "1"; lit "60"; lit (if tp_speed p then "0" else "1"); lit "0"].
Definition sheet_lines (s : sheet) : list str :=
  [lit "osu file format v" ++ show (sh_version s); []; lit "[General]"; setting "StackLeniency" (written (sh_leniency s)); [];
   lit "[Metadata]"; setting "Title" (sh_title s); setting "Artist" (sh_artist s); setting "Creator" (sh_creator s); [];
   lit "[Difficulty]"; setting "HPDrainRate" (written (sh_hp s)); setting "CircleSize" (written (sh_cs s));
   setting "OverallDifficulty" (written (sh_od s)); setting "ApproachRate" (written (sh_ar s));
   setting "SliderMultiplier" (written (sh_speed s)); setting "SliderTickRate" (written (sh_ticks s)); [];
   lit "[TimingPoints]"] ++ map (fun p => join (tempo_fields p)) (sh_tempos s) ++
  [[]; lit "[HitObjects]"] ++ map (fun n => join (note_fields n)) (sh_notes s).
Definition file_of (s : sheet) : str := concat (map (fun l => l ++ [newline]) (sheet_lines s)).

(** ** What can be written *)
Definition natural (ds : list Z) (bound : Z) : Prop := digits ds /\ ds <> [] /\ dec ds < bound.
Definition name_ok (t : str) : Prop := bare t /\ ~ In newline t /\ SpecText.well_formed t.
(** the difficulty settings run from 0 to 10 *)
Definition level (l : literal) : Prop := SpecNumbers.well_formed l /\ (0 <= value l <= 10)%R.
Definition note_ok (n : note) : Prop :=
  natural (nt_x n) (2 ^ 24) /\ natural (nt_y n) (2 ^ 24) /\ natural (nt_time n) (2 ^ 53) /\
  match nt_shape n with
  | Circle => True
  | Spin e => natural e (2 ^ 53)
  | Slide c ps k l => In c (lit "LBPC") /\ Forall (fun p => natural (fst p) (2 ^ 24) /\ natural (snd p) (2 ^ 24)) ps /\ natural k (2 ^ 45) /\ SpecNumbers.well_formed l
  end.
Definition tempo_ok (p : tempo) : Prop := natural (tp_time p) (2 ^ 53) /\ SpecNumbers.well_formed (tp_beat p).
Definition sheet_ok (s : sheet) : Prop :=
  natural (sh_version s) (2 ^ 63) /\ SpecNumbers.well_formed (sh_leniency s) /\
  name_ok (sh_title s) /\ name_ok (sh_artist s) /\ name_ok (sh_creator s) /\ sh_title s ++ sh_artist s ++ sh_creator s <> [] /\
  level (sh_hp s) /\ level (sh_cs s) /\ level (sh_od s) /\ level (sh_ar s) /\
  SpecNumbers.well_formed (sh_speed s) /\ SpecNumbers.well_formed (sh_ticks s) /\
  sh_tempos s <> [] /\ Forall tempo_ok (sh_tempos s) /\ Forall note_ok (sh_notes s) /\
  Forall (fun l => zlen l < 10485760) (sheet_lines s).

(** ** What is to be read *)
Definition nearest (l : literal) (f : f64) : Prop := nearest_float 53 1024 (is_minus (lt_sign l)) (value l) f.
(** the double nearest to the value, up to the sign of zero *)
Definition stored (l : literal) (f : f64) : Prop :=
  is_finite f = true /\ B2R f = round radix2 (FLT_exp (3 - 1024 - 53) 53) ZnearestE (value l).
Definition exactly {p e} (ds : list Z) (f : binary_float p e) : Prop := is_finite f = true /\ B2R f = IZR (dec ds).
Definition point_read (p : list Z * list Z) (v : vec) : Prop := exactly (fst p) (vx v) /\ exactly (snd p) (vy v).
Section WithLibm.
Context {M : libm}.
Definition note_read (n : note) (o : hobj) : Prop :=
  exactly (nt_x n) (vx (ho_startPos o)) /\ exactly (nt_y n) (vy (ho_startPos o)) /\ exactly (nt_time n) (ho_start o) /\
  match nt_shape n with
  | Circle => ho_kind o = KCircle /\ ho_end o = ho_start o /\ ho_endPos o = ho_startPos o
  | Spin e => ho_kind o = KSpinner /\ exactly e (ho_end o) /\ ho_endPos o = ho_startPos o
  | Slide c ps k l => exists sd vs, ho_kind o = KSlider sd /\ sl_repeat sd = dec k /\ nearest l (sl_pixelLength sd) /\ Forall2 point_read ps vs /\
      (exists fuel, new_multicurve_t fuel [c] (ho_startPos o :: vs) (sl_pixelLength sd) = Ok (sl_curve sd)) /\
      position_at o (ho_end o) = Ok (ho_endPos o)
  end.
End WithLibm.
Definition tempo_read (p : tempo) (c : cpoint) : Prop :=
  exactly (tp_time p) (cp_Time c) /\ nearest (tp_beat p) (cp_beat c) /\ cp_base c = cp_beat c /\ cp_Inherited c = tp_speed p /\ cp_Signature c = 4 /\ cp_Kiai c = false.
(** the notes by time, those of one time as they were written *)
Definition earlier (a b : note) : Prop := dec (nt_time a) <= dec (nt_time b).
Definition by_time (file played : list note) : Prop :=
  Permutation file played /\ StronglySorted earlier played /\
  forall t, filter (fun n => dec (nt_time n) =? t) played = filter (fun n => dec (nt_time n) =? t) file.
Definition is_spin (n : note) : bool := match nt_shape n with Spin _ => true | _ => false end.
Definition is_slide (n : note) : bool := match nt_shape n with Slide _ _ _ _ => true | _ => false end.
(** combos are counted from a marked circle or slider, and from the first after a spinner *)
Definition combo_start (ns : list note) (i : nat) : Prop :=
  exists n, nth_error ns i = Some n /\ is_spin n = false /\
    (nt_combo n = true \/ exists j m, i = S j /\ nth_error ns j = Some m /\ is_spin m = true).
Inductive combo_at (ns : list note) : nat -> Z -> Prop :=
| combo_marked i : combo_start ns i -> combo_at ns i 1
| combo_first : ~ combo_start ns 0 -> combo_at ns 0 1
| combo_next i k : ~ combo_start ns (S i) -> combo_at ns i k -> combo_at ns (S i) (k + 1).
Definition how_many (P : note -> bool) (s : sheet) : Z := zlen (filter P (sh_notes s)).
(** ** The map read: the texts to the byte, the times and positions exactly, the other
    numbers to the nearest double *)
Definition reproduces {M : libm} (s : sheet) (b : beatmap) : Prop :=
  bm_FileVersion b = dec (sh_version s) /\
  md_Title (bm_meta b) = sh_title s /\ md_Artist (bm_meta b) = sh_artist s /\ md_Creator (bm_meta b) = sh_creator s /\
  nearest (sh_leniency s) (gn_StackLeniency (bm_general b)) /\
  (stored (sh_hp s) (d_hp (bm_Difficulty b)) /\ stored (sh_cs s) (d_cs (bm_Difficulty b)) /\ stored (sh_od s) (d_od (bm_Difficulty b)) /\ stored (sh_ar s) (d_ar (bm_Difficulty b))) /\
  nearest (sh_speed s) (bm_SliderMultiplier b) /\ nearest (sh_ticks s) (t_TickRate (bm_Timings b)) /\
  (exists ps, Forall2 tempo_read (sh_tempos s) ps /\
    forall t, fisnan t = false -> exists p q, get_point_at (bm_Timings b) t = Ok p /\ same_but_base p q /\ looked_up ps t q) /\
  (exists played, by_time (sh_notes s) played /\ Forall2 note_read played (bm_HitObjects b) /\
    forall i o, nth_error (bm_HitObjects b) i = Some o -> ho_id o = Z.of_nat i /\ combo_at played i (ho_comboNumber o)) /\
  bm_Circles b = how_many (fun n => negb (is_spin n || is_slide n)) s /\ bm_Spinners b = how_many is_spin s /\ bm_Sliders b = how_many is_slide s.

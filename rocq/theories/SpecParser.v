(** Specification vocabulary for .osu files, on lists of text lines. *)
From Coq Require Import Permutation.
From Verif Require Import Parser.

(** ** Lines *)
Definition comment (line : str) : Prop := exists t, line = lit "//" ++ t.
(** A section header: square brackets around a nonempty name. *)
Definition header (line name : str) : Prop :=
  exists i j, trim_space line = repeat "["%char (S i) ++ name ++ repeat "]"%char j /\ name <> [] /\
    (forall r, name <> "["%char :: r) /\ (forall r, name <> r ++ ["]"%char]).
Definition version (line : str) (v : Z) : Prop := exists t, line = lit "osu file format v" ++ t /\ v = atoi t.
(** The lines that are not headers, each with the section it is in. *)
Inductive contents : str -> list str -> list (str * str) -> Prop :=
| contents_nil s : contents s [] []
| contents_header s name l ls c : header l name -> contents name ls c -> contents s (l :: ls) c
| contents_line s l ls c : (forall name, ~ header l name) -> contents s ls c -> contents s (l :: ls) ((s, l) :: c).
(** The lines of one section, in file order (from all its occurrences). *)
Definition section_lines (ls : list str) (sec : string) (b : list str) : Prop :=
  exists c, contents [] ls c /\ b = map snd (filter (fun p => str_eqb (fst p) (lit sec)) c).

(** ** "key: value" lines *)
Definition kv (line k v : str) : Prop :=
  ~ comment line /\ exists a b, line = a ++ ":"%char :: b /\ ~ In ":"%char a /\ k = trim_space a /\ v = trim_space b.
Inductive kvs : list str -> list (str * str) -> Prop :=
| kvs_nil : kvs [] []
| kvs_some l k v b r : kv l k v -> kvs b r -> kvs (l :: b) ((k, v) :: r)
| kvs_none l b r : (forall k v, ~ kv l k v) -> kvs b r -> kvs (l :: b) r.
(** The settings of a section, in file order; the values of one key. *)
Definition settings (ls : list str) (sec : string) (s : list (str * str)) : Prop :=
  exists b, section_lines ls sec b /\ kvs b s.
Definition values (key : string) (s : list (str * str)) : list str :=
  map snd (filter (fun p => str_eqb (fst p) (lit key)) s).
(** The last value of a key. *)
Definition last_value {A} (key : string) (s : list (str * str)) (f : str -> A) (dflt : A) : A :=
  last (map f (values key s)) dflt.

(** The text is a NaN literal. *)
Definition nan_text (v : str) : bool := str_eqb (lowers v) (lit "nan").
(** y is x brought into [0,10]; NaN is let through. *)
Definition clamped (x y : f64) : Prop :=
  (fisnan x = true -> fisnan y = true) /\ (flt x f0 = true -> y = f0) /\
  (flt (fq 10 1) x = true -> feq y (fq 10 1) = true) /\
  (fle f0 x = true -> fle x (fq 10 1) = true -> feq y x = true).

(** ** Comma-separated lines *)
Fixpoint join (l : list str) : str :=
  match l with [] => [] | [f] => f | f :: r => f ++ ","%char :: join r end.
(** raw fields: separated by commas, at least one comma *)
Definition raw_fields (line : str) (fs : list str) : Prop :=
  ~ comment line /\ (2 <= length fs)%nat /\ line = join fs /\ Forall (fun f => ~ In ","%char f) fs.
Inductive rows : list str -> list (list str) -> Prop :=
| rows_nil : rows [] []
| rows_some l fs b r : raw_fields l fs -> rows b r -> rows (l :: b) (fs :: r)
| rows_none l b r : (forall fs, ~ raw_fields l fs) -> rows b r -> rows (l :: b) r.
Definition section_rows (ls : list str) (sec : string) (r : list (list str)) : Prop :=
  exists b, section_lines ls sec b /\ rows b r.
(** Field n, trimmed. *)
Definition field (n : nat) (fs : list str) : str := trim_space (nth n fs []).

(** ** Timing points.  The fields are not trimmed here; missing ones have defaults. *)
Definition given {A} (n : nat) (fs : list str) (f : str -> A) (dflt : A) : A :=
  match nth_error fs n with Some s => f s | None => dflt end.
Definition timing_point (fs : list str) : cpoint :=
  {| cp_Time := f_of_Z (parse_int (nth 0 fs []));
     cp_base := parse_f64 (nth 1 fs []); cp_beat := parse_f64 (nth 1 fs []);
     cp_Signature := given 2 fs (fun s => if atoi s =? 0 then 4 else atoi s) 4;
     cp_SampleSet := given 3 fs atoi 0; cp_SampleIndex := given 4 fs atoi 1;
     cp_SampleVolume := given 5 fs (fun s => fdiv (f_of_Z (atoi s)) (fq 100 1)) (fq 1 1);
     cp_Inherited := given 6 fs (fun s => atoi s =? 0) false;
     cp_Kiai := given 7 fs (fun s => Z.testbit (atoi s) 0) false; cp_Omit := given 7 fs (fun s => Z.testbit (atoi s) 3) false |}.

(** ** Hit objects *)
(** The type byte, and the kind by the order in which the bits are tried. *)
Inductive obj_type := TCircle | TSpinner | TSlider | THold | TOther.
Definition type_of (fs : list str) : obj_type :=
  let t := atoi (field 3 fs) in
  if Z.testbit t 0 then TCircle else if Z.testbit t 3 then TSpinner
  else if Z.testbit t 1 then TSlider else if Z.testbit t 7 then THold else TOther.
Definition is_object (fs : list str) : bool :=
  match type_of fs with TCircle | TSpinner | TSlider => true | _ => false end.
Definition count_type (ok : obj_type -> bool) (r : list (list str)) : Z :=
  zlen (filter (fun fs => ok (type_of fs)) r).
Definition start_of (fs : list str) : f64 := parse_f64 (field 2 fs).
(** The object a row describes (everything stated by the row itself). *)
Definition describes (fs : list str) (o : hobj) : Prop :=
  ho_start o = start_of fs /\ ho_startPos o = mkVec (parse_f32 (field 0 fs)) (parse_f32 (field 1 fs)) /\
  ho_colorOffset o = Z.land (Z.shiftr (atoi (field 3 fs)) 4) 7 /\
  match type_of fs with
  | TCircle => ho_kind o = KCircle /\ ho_end o = ho_start o /\ ho_endPos o = ho_startPos o
  | TSpinner => ho_kind o = KSpinner /\ ho_end o = parse_f64 (field 5 fs) /\ ho_endPos o = ho_startPos o
  | TSlider => exists sd, ho_kind o = KSlider sd /\ sl_repeat sd = parse_int (field 6 fs) /\ sl_pixelLength sd = parse_f64 (field 7 fs)
  | _ => False
  end.
(** The rows in playing order: a rearrangement, ordered by time, that keeps
    rows of equal time in file order. *)
Definition play_order (file played : list (list str)) : Prop :=
  Permutation file played /\
  (forall i j a b, (i < j)%nat -> nth_error played i = Some a -> nth_error played j = Some b -> fle (start_of a) (start_of b) = true) /\
  (forall t, filter (fun fs => feq (start_of fs) t) played = filter (fun fs => feq (start_of fs) t) file).

(** ** Combos, on the objects in playing order *)
Definition new_combo_flag (fs : list str) : bool := Z.testbit (atoi (field 3 fs)) 2.
Definition spinner_row (fs : list str) : bool := match type_of fs with TSpinner => true | _ => false end.
Definition row (rs : list (list str)) (i : nat) : list str := nth i rs [].
(** Object i starts a combo: not a spinner, and flagged or right after a spinner. *)
Definition starts_combo (rs : list (list str)) (i : nat) : bool :=
  negb (spinner_row (row rs i)) &&
  (new_combo_flag (row rs i) || match i with O => false | S j => spinner_row (row rs j) end).
Definition colour_offset (fs : list str) : Z := Z.land (Z.shiftr (atoi (field 3 fs)) 4) 7.
Fixpoint combo_number (rs : list (list str)) (i : nat) : Z :=
  if starts_combo rs i then 1 else match i with O => 1 | S j => combo_number rs j + 1 end.
Definition sumZ (l : list Z) : Z := fold_right Z.add 0 l.
Definition starts_upto (rs : list (list str)) (i : nat) : list nat := filter (starts_combo rs) (seq 0 (S i)).
Definition combo_set (rs : list (list str)) (i : nat) : Z := zlen (starts_upto rs i).
Definition combo_set_hax (rs : list (list str)) (i : nat) : Z :=
  sumZ (map (fun j => 1 + colour_offset (row rs j)) (starts_upto rs i)).

(** ** Sections in force *)
Definition known_sections : list str :=
  [lit "General"; lit "Metadata"; lit "Difficulty"; lit "Events"; lit "TimingPoints"; lit "HitObjects"].
Definition no_header (l : str) : Prop := forall n, ~ header l n.
(** After the lines ls the section in force is sec ([] before the first header). *)
Definition in_section (ls : list str) (sec : str) : Prop :=
  (exists a h b, ls = a ++ h :: b /\ header h sec /\ Forall no_header b) \/
  (sec = [] /\ Forall no_header ls).
(** A line of text: no newline, and short enough for the scanner's buffer. *)
Definition newline : ascii := chr 10.
Definition scannable (l : str) : Prop := ~ In newline l /\ zlen l < buffer_size.
(** Text that ends where a line starts. *)
Definition line_start (t : str) : Prop := t = [] \/ exists u, t = u ++ [newline].
(** A line as written, ended by CR LF when flagged (the LF not included). *)
Definition carriage : ascii := chr 13.
Definition ended (p : str * bool) : str := fst p ++ if snd p then [carriage] else [].
Definition no_final_cr (l : str) : Prop := forall r, l <> r ++ [carriage].

(** Properties C16-C22, C24 and C54-C56: reading .osu files.
    All are about [parse_lines] on arbitrary lists of lines; [C22_text] and
    [C56_lines] relate lines to text.  [section_rows] and [settings] are total and
    functional (last section), so they restrict nothing. *)
From Coq Require Import Permutation.
From Verif Require Import Parser SpecParser SpecTiming SpecMods SpecStacking SpecDifficulty BaseLemmas FloatLemmas SortLemmas TimingProofs
  StackingProofs StringLemmas ParserProofs ObjectProofs FinishProofs SettingsProofs InertProofs MapProofs ScanProofs PropStacking.
Import ListNotations.
Open Scope Z_scope.

Definition txt (v : str) : str := v.
Definition sample_map : list str := map lit [
  "osu file format v14"; "[General]"; "AudioFilename: a.mp3"; "Mode: 0"; "// [Events]"; "StackLeniency: 0.5"; "AudioFilename: b";
  "[Metadata]"; "Title:old"; "Title: A: b"; "Artist:X"; "Creator:Y"; "Version:Hard"; "[Unknown]"; "CircleSize:9"; "[Difficulty]";
  "ApproachRate:9.5"; "CircleSize:12"; "OverallDifficulty:8"; "HPDrainRate:-3"; "SliderMultiplier:1.4"; "SliderTickRate:1";
  "[TimingPoints]"; "0,300,4,1,0,100,1,0"; "2000,-50,4,1,0,100,0,1";
  "[HitObjects]"; "256,192,1000,1,0"; "256,192,500,21,0"; "100,100,500,1,0"; "100,100,2000,12,0,3000"; "100,100,3500,1,0";
  "100,100,4000,2,0,L|200:100,1,100"; "100,300,5000,1,0"]%string.
Definition sample_nan : list str := map lit [
  "[Metadata]"; "Title:A"; "[Difficulty]"; "CircleSize:NaN"; "OverallDifficulty: 11"; "HPDrainRate:1e400"; "[TimingPoints]"; "0,300"]%string.
Definition sample_rows : list (list str) := map (map lit) [
  ["256"; "192"; "1000"; "1"; "0"]; ["256"; "192"; "500"; "21"; "0"]; ["100"; "100"; "500"; "1"; "0"]; ["100"; "100"; "2000"; "12"; "0"; "3000"];
  ["100"; "100"; "3500"; "1"; "0"]; ["100"; "100"; "4000"; "2"; "0"; "L|200:100"; "1"; "100"]; ["100"; "300"; "5000"; "1"; "0"]]%string.
Definition sample_points : list (list str) := map (map lit) [
  ["0"; "300"; "4"; "1"; "0"; "100"; "1"; "0"]; ["2000"; "-50"; "4"; "1"; "0"; "100"; "0"; "1"]]%string.

Section WithLibm.
Context {M : libm}.

(** a view of a parse result that can be computed *)
Definition view {A} (f : beatmap -> A) (r : res (option beatmap)) : option (option A) :=
  match r with Ok (Some b) => Some (Some (f b)) | Ok None => Some None | _ => None end.

(** C16.  Error exactly when there is no identity or no timing row; on success
    every slider has the timing point governing its start. *)
Theorem C16_error_iff : forall fuel ls r tr ms, parse_lines fuel ls = Ok r ->
  section_rows ls "TimingPoints" tr -> settings ls "Metadata" ms ->
  (r = None <-> (last_value "Title" ms txt [] = [] /\ last_value "Artist" ms txt [] = [] /\ last_value "Creator" ms txt [] = []) \/ tr = []).
Proof. exact none_facts. Qed.
Lemma all_functional ls : exists hr tr ms gs ds, section_rows ls "HitObjects" hr /\ section_rows ls "TimingPoints" tr /\
  settings ls "Metadata" ms /\ settings ls "General" gs /\ settings ls "Difficulty" ds.
Proof. eexists _, _, _, _, _. rewrite !section_rows_iff, !settings_iff. repeat split. Qed.
Theorem C16_points : forall fuel ls b tr, parse_lines fuel ls = Ok (Some b) -> section_rows ls "TimingPoints" tr ->
  t_points (bm_Timings b) <> [] /\
  forall o sd, In o (bm_HitObjects b) -> ho_kind o = KSlider sd ->
    exists p, sl_tpoint sd = Some p /\ In p (t_points (bm_Timings b)) /\
      (fisnan (ho_start o) = false -> exists q, same_but_base p q /\ looked_up (map timing_point tr) (ho_start o) q).
Proof.
  intros fuel ls b tr H Ht. destruct (all_functional ls) as (hr & tr' & ms & gs & ds & Hh & _ & Hm & Hg & Hd).
  assert (N : tr <> []).
  { intros E. pose proof (proj2 (none_facts fuel ls (Some b) tr ms H Ht Hm) (or_intror E)). discriminate. }
  destruct (map_facts fuel ls b hr tr ms gs ds H Hh Ht Hm Hg Hd) as (_ & _ & _ & _ & _ & ET & _ & _ & _ & F & _).
  rewrite ET. split; [now apply tim_nonempty|]. intros o sd Ho K. destruct (Forall2_In_r _ _ _ F o Ho) as (fs & _ & _ & S & _).
  destruct (S sd K) as (p & E & G & I). exists p. split; [exact E|]. split; [exact I|]. intros Nn.
  match type of G with get_point_at (tim_of ?a ?c _) _ = _ => destruct (tim_lookup a c tr (ho_start o) N Nn) as (p' & q & E' & S' & L) end.
  rewrite G in E'. injection E' as <-. exists q. auto.
Qed.
Example C16_instance :
  section_rows sample_map "TimingPoints" sample_points /\
  view (fun b => map (fun o => match ho_kind o with KSlider sd => option_map cp_Kiai (sl_tpoint sd) | _ => None end) (bm_HitObjects b))
    (parse_lines 9 sample_map) = Some (Some [None; None; None; None; None; Some true; None]) /\
  parse_lines 9 (map lit ["[Metadata]"; "Title:"; "[TimingPoints]"; "0,300"]%string) = Ok None /\
  parse_lines 9 (map lit ["[Metadata]"; "Title:A"; "[TimingPoints]"; "0"]%string) = Ok None.
Proof. split; [apply section_rows_iff; vm_compute; reflexivity|]. split; [vm_compute; reflexivity|]. split; vm_compute; reflexivity. Qed.

(** C17.  The objects are the object rows in playing order, numbered from 0. *)
Theorem C17_sorted_numbered : forall fuel ls b hr, parse_lines fuel ls = Ok (Some b) -> section_rows ls "HitObjects" hr ->
  Forall (fun fs => fisnan (start_of fs) = false) (filter is_object hr) ->
  exists played, play_order (filter is_object hr) played /\ Forall2 describes played (bm_HitObjects b) /\
    forall i o, nth_error (bm_HitObjects b) i = Some o -> ho_id o = Z.of_nat i.
Proof.
  intros fuel ls b hr H Hh N. destruct (all_functional ls) as (hr' & tr & ms & gs & ds & _ & Ht & Hm & Hg & Hd).
  destruct (map_facts fuel ls b hr tr ms gs ds H Hh Ht Hm Hg Hd) as (_ & _ & _ & _ & _ & _ & _ & _ & _ & F & C & _).
  exists (stable_sort row_lt (filter is_object hr)). split; [now apply row_play_order|]. split.
  - eapply F2_impl; [|exact F]. now intros x y (D & _).
  - intros i o Ho. exact (proj1 (C i o Ho)).
Qed.
Example C17_instance : section_rows sample_map "HitObjects" sample_rows /\
  Forall (fun fs => fisnan (start_of fs) = false) (filter is_object sample_rows) /\
  view (fun b => map (fun o => (ho_id o, int_of_f (ho_start o), is_slider o)) (bm_HitObjects b)) (parse_lines 9 sample_map) =
  Some (Some [(0, 500, false); (1, 500, false); (2, 1000, false); (3, 2000, false); (4, 3500, false); (5, 4000, true); (6, 5000, false)]).
Proof.
  split; [apply section_rows_iff; vm_compute; reflexivity|]. split; [|vm_compute; reflexivity].
  apply Forall_forall. intros fs H. apply negb_true_iff. revert fs H. apply forallb_forall. vm_compute. reflexivity.
Qed.

(** C18.  Combo numbers and sets. *)
Theorem C18_combos : forall fuel ls b hr, parse_lines fuel ls = Ok (Some b) -> section_rows ls "HitObjects" hr ->
  exists played, Permutation (filter is_object hr) played /\ Forall2 describes played (bm_HitObjects b) /\
  (Forall (fun fs => fisnan (start_of fs) = false) (filter is_object hr) -> play_order (filter is_object hr) played) /\
  forall i o, nth_error (bm_HitObjects b) i = Some o ->
    ho_comboNumber o = combo_number played i /\ ho_comboSet o = combo_set played i /\ ho_comboSetHax o = combo_set_hax played i /\
    ho_newCombo o = new_combo_flag (row played i) || starts_combo played i.
Proof.
  intros fuel ls b hr H Hh. destruct (all_functional ls) as (hr' & tr & ms & gs & ds & _ & Ht & Hm & Hg & Hd).
  destruct (map_facts fuel ls b hr tr ms gs ds H Hh Ht Hm Hg Hd) as (_ & _ & _ & _ & _ & _ & _ & _ & _ & F & C & _).
  exists (stable_sort row_lt (filter is_object hr)). split; [apply sort_perm|]. split; [|split; [intros; now apply row_play_order|]].
  - eapply F2_impl; [|exact F]. now intros x y (D & _).
  - intros i o Ho. exact (proj2 (C i o Ho)).
Qed.
(** the flagged object has colour offset 1; the circle after the spinner starts a combo without a flag *)
Example C18_instance :
  view (fun b => map (fun o => (ho_newCombo o, ho_comboNumber o, ho_comboSet o, ho_comboSetHax o)) (bm_HitObjects b)) (parse_lines 9 sample_map) =
  Some (Some [(true, 1, 1, 2); (false, 2, 1, 2); (false, 3, 1, 2); (true, 4, 1, 2); (true, 1, 2, 3); (false, 2, 2, 3); (false, 3, 2, 3)]).
Proof. vm_compute. reflexivity. Qed.

(** C19.  The counters. *)
Theorem C19_counters : forall fuel ls b hr, parse_lines fuel ls = Ok (Some b) -> section_rows ls "HitObjects" hr ->
  let count t := zlen (filter (fun fs => match type_of fs, t with
    | TCircle, TCircle | TSlider, TSlider | TSpinner, TSpinner | THold, THold => true | _, _ => false end) hr) in
  bm_Circles b = count TCircle /\ bm_Sliders b = count TSlider + count THold /\ bm_Spinners b = count TSpinner /\
  zlen (filter is_circle (bm_HitObjects b)) = count TCircle /\ zlen (filter is_slider (bm_HitObjects b)) = count TSlider /\
  zlen (filter is_spinner (bm_HitObjects b)) = count TSpinner /\
  zlen (bm_HitObjects b) = count TCircle + count TSlider + count TSpinner.
Proof.
  intros fuel ls b hr H Hh count. destruct (all_functional ls) as (hr' & tr & ms & gs & ds & _ & Ht & Hm & Hg & Hd).
  destruct (map_facts fuel ls b hr tr ms gs ds H Hh Ht Hm Hg Hd) as (_ & _ & _ & _ & _ & _ & C1 & C2 & C3 & F & _).
  assert (K1 : count TCircle = count_type is_TC hr) by (unfold count, count_type; f_equal; apply filter_ext; intros f; now destruct (type_of f)).
  assert (K2 : count TSpinner = count_type is_TP hr) by (unfold count, count_type; f_equal; apply filter_ext; intros f; now destruct (type_of f)).
  assert (K3 : count TSlider = count_type is_TSlider hr) by (unfold count, count_type; f_equal; apply filter_ext; intros f; now destruct (type_of f)).
  assert (K4 : count_type is_TS hr = count TSlider + count THold).
  { unfold count, count_type, zlen. clear. induction hr as [|f r IH]; [reflexivity|]. cbn [filter]. destruct (type_of f); cbn [is_TS length]; lia. }
  assert (D : Forall2 describes (stable_sort row_lt (filter is_object hr)) (bm_HitObjects b)).
  { eapply F2_impl; [|exact F]. now intros x y (D & _). }
  apply count_kinds in D as (D1 & D2 & D3 & D4).
  pose proof (sort_perm row_lt (filter is_object hr)) as P.
  rewrite <- (count_perm _ _ _ P) in D1. rewrite <- (count_perm _ _ _ P) in D2. rewrite <- (count_perm _ _ _ P) in D3. unfold zlen in D4 at 2. rewrite <- (Permutation_length P) in D4.
  rewrite count_filter in D1 by (intros fs; unfold is_object; destruct (type_of fs); discriminate || reflexivity).
  rewrite count_filter in D2 by (intros fs; unfold is_object; destruct (type_of fs); discriminate || reflexivity).
  rewrite count_filter in D3 by (intros fs; unfold is_object; destruct (type_of fs); discriminate || reflexivity).
  split; [congruence|]. split; [congruence|]. split; [congruence|]. split; [congruence|]. split; [congruence|]. split; [congruence|].
  rewrite D4. unfold count, zlen. clear. induction hr as [|f r IH]; [reflexivity|]. cbn [filter]. unfold is_object.
  fold is_object. destruct (type_of f); cbn [length]; lia.
Qed.
Example C19_instance :
  view (fun b => (bm_Circles b, bm_Sliders b, bm_Spinners b, zlen (bm_HitObjects b)))
    (parse_lines 9 (sample_map ++ map lit ["100,300,5000,128,0,5500:0"; "100,300,5000,64,0"]%string)) = Some (Some (5, 2, 1, 7)).
Proof. vm_compute. reflexivity. Qed.

(** C20.  The difficulty settings are in [0,10] or NaN, and NaN exactly for a NaN literal. *)
Theorem C20_range : forall fuel ls b ds, parse_lines fuel ls = Ok (Some b) -> settings ls "Difficulty" ds ->
  let d := bm_Difficulty b in
  let ok (x : f64) (nan : bool) := if nan then fisnan x = true else base_ok x in
  ok (d_hp d) (last_value "HPDrainRate" ds nan_text false) /\ ok (d_cs d) (last_value "CircleSize" ds nan_text false) /\
  ok (d_od d) (last_value "OverallDifficulty" ds nan_text false) /\
  ok (d_ar d) (match values "ApproachRate" ds with
    | [] => last_value "OverallDifficulty" ds nan_text false | _ => last_value "ApproachRate" ds nan_text false end).
Proof.
  intros fuel ls b ds H Hd d ok. destruct (all_functional ls) as (hr & tr & ms & gs & ds' & Hh & Ht & Hm & Hg & _).
  destruct (map_facts fuel ls b hr tr ms gs ds H Hh Ht Hm Hg Hd) as (_ & _ & _ & ED & _). unfold d. clear d. rewrite ED, dif_value.
  change (d_hp (new_difficulty ?a ?b ?c ?d)) with a. change (d_cs (new_difficulty ?a ?b ?c ?d)) with b.
  change (d_od (new_difficulty ?a ?b ?c ?d)) with c. change (d_ar (new_difficulty ?a ?b ?c ?d)) with d.
  assert (B5 : base_ok (fq 5 1)) by (split; vm_compute; reflexivity).
  assert (K : forall vs dx dn, ok dx dn -> ok (last (map cparse vs) dx) (last (map nan_text vs) dn)).
  { induction vs as [|v vs IH]; intros dx dn Hx; [exact Hx|]. cbn [map]. rewrite !last_cons. apply IH. unfold ok.
    rewrite <- parse_nan. pose proof (clamped_range _ _ (clamp10_spec (parse_f64 v))) as C. exact C. }
  assert (K5 : forall key, ok (last_value key ds cparse (fq 5 1)) (last_value key ds nan_text false)) by (intros key; apply K; exact B5).
  repeat split; try apply K5. destruct (values "ApproachRate" ds); apply K5.
Qed.
Theorem C20_nan_possible : exists ls, view (fun b => (fisnan (d_cs (bm_Difficulty b)), fisnan (d_od (bm_Difficulty b)))) (parse_lines 0 ls) = Some (Some (true, false)).
Proof. exists sample_nan. vm_compute. reflexivity. Qed.

(** C21.  Difficulty settings: last value, brought into [0,10]; AR follows OD only when absent. *)
Theorem C21_difficulty : forall fuel ls b ds, parse_lines fuel ls = Ok (Some b) -> settings ls "Difficulty" ds ->
  let d := bm_Difficulty b in
  let set key (x : f64) := (values key ds = [] -> x = fq 5 1) /\
    (forall vs v, values key ds = vs ++ [v] -> clamped (parse_f64 v) x) in
  set "HPDrainRate"%string (d_hp d) /\ set "CircleSize"%string (d_cs d) /\ set "OverallDifficulty"%string (d_od d) /\
  (values "ApproachRate" ds = [] -> d_ar d = d_od d) /\
  (forall vs v, values "ApproachRate" ds = vs ++ [v] -> clamped (parse_f64 v) (d_ar d)) /\
  d = new_difficulty (d_hp d) (d_cs d) (d_od d) (d_ar d).
Proof.
  intros fuel ls b ds H Hd d set. destruct (all_functional ls) as (hr & tr & ms & gs & ds' & Hh & Ht & Hm & Hg & _).
  destruct (map_facts fuel ls b hr tr ms gs ds H Hh Ht Hm Hg Hd) as (_ & _ & _ & ED & _). unfold d. clear d. rewrite ED, dif_value.
  change (d_hp (new_difficulty ?a ?b ?c ?d)) with a. change (d_cs (new_difficulty ?a ?b ?c ?d)) with b.
  change (d_od (new_difficulty ?a ?b ?c ?d)) with c. change (d_ar (new_difficulty ?a ?b ?c ?d)) with d.
  assert (L : forall key dx vs v, values key ds = vs ++ [v] -> clamped (parse_f64 v) (last_value key ds cparse dx)).
  { intros key dx vs v E. unfold last_value. rewrite E, map_app. change (map cparse [v]) with [cparse v]. rewrite last_last. apply clamp10_spec. }
  assert (K : forall key, set key (last_value key ds cparse (fq 5 1))).
  { intros key. split; [intros E; unfold last_value; rewrite E; reflexivity|]. apply L. }
  split; [apply K|]. split; [apply K|]. split; [apply K|]. split; [intros ->; reflexivity|]. split; [|reflexivity].
  intros vs v E. rewrite E. destruct (vs ++ [v]) eqn:N; [destruct vs; discriminate|]. rewrite <- N in E. eapply L; eauto.
Qed.
Example C21_instance :
  settings sample_map "Difficulty" (map (fun p => (lit (fst p), lit (snd p))) [("ApproachRate", "9.5"); ("CircleSize", "12"); ("OverallDifficulty", "8");
    ("HPDrainRate", "-3"); ("SliderMultiplier", "1.4"); ("SliderTickRate", "1")]%string) /\
  view (fun b => let d := bm_Difficulty b in (feq (d_hp d) f0, feq (d_cs d) (fq 10 1), feq (d_od d) (fq 8 1), feq (d_ar d) (fq 95 10))) (parse_lines 9 sample_map)
    = Some (Some (true, true, true, true)) /\
  view (fun b => let d := bm_Difficulty b in (feq (d_hp d) (fq 10 1), feq (d_od d) (fq 10 1), feq (d_ar d) (fq 10 1))) (parse_lines 9 sample_nan)
    = Some (Some (true, true, true)).
Proof. split; [apply settings_iff; vm_compute; reflexivity|]. split; vm_compute; reflexivity. Qed.

(** C22.  Comments are inert anywhere; so is any line in a section the parser does not
    know (and before the first section), unless it is a header or an
    "osu file format v" line; so is a whole unknown section. *)
Theorem C22_comment : forall fuel a c b, comment c -> parse_lines fuel (a ++ c :: b) = parse_lines fuel (a ++ b).
Proof. intros. unfold parse_lines. rewrite fold_insert; [reflexivity|]. intros. now apply comment_inert. Qed.
Theorem C22_text : forall fuel t1 c t2, line_start t1 -> comment c -> scannable c ->
  parse_text fuel (t1 ++ c ++ newline :: t2) = parse_text fuel (t1 ++ t2).
Proof. exact text_comment. Qed.
Theorem C22_unknown_line : forall fuel a l b sec, in_section a sec -> ~ In sec known_sections -> no_header l -> (forall v, ~ version l v) ->
  parse_lines fuel (a ++ l :: b) = parse_lines fuel (a ++ b).
Proof.
  intros fuel a l b sec Hs K Hh Hv. unfold parse_lines. rewrite fold_insert; [reflexivity|]. intros st Hst.
  apply unknown_inert; auto. now rewrite (st_section_in fuel a sec st Hs Hst).
Qed.
Theorem C22_unknown_section : forall fuel a h name block b, header h name -> ~ In name known_sections ->
  Forall no_header block -> Forall (fun l => forall v, ~ version l v) block ->
  (b = [] \/ exists h2 n2 b', b = h2 :: b' /\ header h2 n2) ->
  parse_lines fuel (a ++ h :: block ++ b) = parse_lines fuel (a ++ b).
Proof. exact block_inert. Qed.
(** the version prefix is honoured anywhere, even in an unknown section *)
Theorem C22_version_not_inert : exists a l b sec, in_section a sec /\ ~ In sec known_sections /\ no_header l /\
  view bm_FileVersion (parse_lines 9 (a ++ l :: b)) <> view bm_FileVersion (parse_lines 9 (a ++ b)).
Proof.
  exists (map lit ["osu file format v14"; "[Editor]"]%string), (lit "osu file format v3"), (map lit ["[Metadata]"; "Title:A"; "[TimingPoints]"; "0,300"]%string), (lit "Editor").
  split; [|split; [|split]].
  - left. exists [lit "osu file format v14"], (lit "[Editor]"), []. split; [reflexivity|]. split; [|constructor]. apply header_iff. split; [discriminate|vm_compute; reflexivity].
  - unfold known_sections. cbn [In]. intros H. repeat (destruct H as [H|H]; [vm_compute in H; discriminate H|]). exact H.
  - refine (proj2 (header_none _) _). vm_compute. reflexivity.
  - vm_compute. discriminate.
Qed.
Example C22_instance : comment (lit "// [Metadata]") /\ header (lit " [[Editor]] ") (lit "Editor") /\ ~ In (lit "Editor") known_sections /\
  no_header (lit "Bookmarks: 1") /\ in_section (map lit ["[General]"; "[Colours]"; "Combo1 : 0,0,0"]%string) (lit "Colours").
Proof.
  split; [exists (lit " [Metadata]"); reflexivity|]. split; [apply header_iff; split; [discriminate|vm_compute; reflexivity]|].
  split; [unfold known_sections; cbn [In]; intros H; repeat (destruct H as [H|H]; [vm_compute in H; discriminate H|]); exact H|].
  split; [refine (proj2 (header_none _) _); vm_compute; reflexivity|]. left. exists [lit "[General]"], (lit "[Colours]"), [lit "Combo1 : 0,0,0"].
  split; [reflexivity|]. split; [apply header_iff; split; [discriminate|vm_compute; reflexivity]|].
  constructor; [|constructor]. refine (proj2 (header_none _) _). vm_compute. reflexivity.
Qed.

(** C24.  Metadata: the last value of each key; "Version" is not a key. *)
Theorem C24_metadata : forall fuel ls b ms, parse_lines fuel ls = Ok (Some b) -> settings ls "Metadata" ms ->
  let m := bm_meta b in
  md_Title m = last_value "Title" ms txt [] /\ md_TitleUnicode m = last_value "TitleUnicode" ms txt [] /\
  md_Artist m = last_value "Artist" ms txt [] /\ md_ArtistUnicode m = last_value "ArtistUnicode" ms txt [] /\
  md_Creator m = last_value "Creator" ms txt [] /\ md_Source m = last_value "Source" ms txt [] /\ md_Tags m = last_value "Tags" ms txt [] /\
  md_MapID m = last_value "BeatmapID" ms parse_int 0 /\ md_SetID m = last_value "BeatmapSetID" ms parse_int 0 /\
  md_Version m = last_value "FileVersion" ms txt [].
Proof.
  intros fuel ls b ms H Hm m. destruct (all_functional ls) as (hr & tr & ms' & gs & ds & Hh & Ht & _ & Hg & Hd).
  destruct (map_facts fuel ls b hr tr ms gs ds H Hh Ht Hm Hg Hd) as (_ & EM & _). unfold m. clear m. rewrite EM.
  split; [apply meta_title|]. split; [apply meta_titleU|]. split; [apply meta_artist|]. split; [apply meta_artistU|]. split; [apply meta_creator|].
  split; [apply meta_source|]. split; [apply meta_tags|]. split; [apply meta_map|]. split; [apply meta_set|apply meta_version].
Qed.
(** so a file's difficulty name is not read *)
Theorem C24_version_unread : forall fuel ls b ms, parse_lines fuel ls = Ok (Some b) -> settings ls "Metadata" ms ->
  values "FileVersion" ms = [] -> md_Version (bm_meta b) = [].
Proof.
  intros fuel ls b ms H Hm E. destruct (C24_metadata fuel ls b ms H Hm) as (_ & _ & _ & _ & _ & _ & _ & _ & _ & ->).
  unfold last_value. now rewrite E.
Qed.
Theorem C24_version_inert : forall fuel a l v b, in_section a (lit "Metadata") -> kv l (lit "Version") v -> no_header l ->
  parse_lines fuel (a ++ l :: b) = parse_lines fuel (a ++ b).
Proof.
  intros fuel a l v b Hs Hk Hh. unfold parse_lines. rewrite fold_insert; [reflexivity|]. intros st Hst.
  apply (st_section_in fuel a (lit "Metadata") st Hs) in Hst. apply kv_iff in Hk. unfold parse_line. rewrite (proj1 (header_none l) Hh).
  assert (V : version_line l st = st).
  { unfold version_line. destruct (has_prefix l (lit "osu file format v")) eqn:E; [|reflexivity]. exfalso.
    apply has_prefix_iff in E as [t ->]. apply kv_iff in Hk. destruct Hk as (_ & x & y & E & N & EV & _).
    assert (exists x', x = lit "osu file format v" ++ x') as [x' ->].
    { clear -E N. revert E. unfold lit. cbn. do 17 (destruct x as [|? x]; [intros E; discriminate E|]; let q := fresh in intros q; injection q as <- q; revert q).
      intros _. eexists. reflexivity. }
    assert (F := f_equal (@rev ascii) EV). clear -EV.
    assert (Hd : trim_space (lit "osu file format v" ++ x') = [] \/ exists r, trim_space (lit "osu file format v" ++ x') = "o"%char :: r).
    { apply (trim_space_first "o"%char). apply sp_len_0; reflexivity. }
    destruct Hd as [Hd|[r Hd]]; rewrite Hd in EV; discriminate EV. }
  rewrite V. destruct st as [sec fv me ge di ev ti obs]. cbn [st_section] in Hst. subst sec. unfold section_line.
  change (str_eqb (lit "Metadata") (lit "General")) with false. change (str_eqb (lit "Metadata") (lit "Metadata")) with true. cbn iota.
  unfold key_value. rewrite Hk. do 2 f_equal. destruct me. reflexivity.
Qed.
Example C24_instance :
  settings sample_map "Metadata" (map (fun p => (lit (fst p), lit (snd p))) [("Title", "old"); ("Title", "A: b"); ("Artist", "X"); ("Creator", "Y"); ("Version", "Hard")]%string) /\
  view (fun b => (md_Title (bm_meta b), md_Version (bm_meta b))) (parse_lines 9 sample_map) = Some (Some (lit "A: b", [])).
Proof. split; [apply settings_iff; vm_compute; reflexivity|vm_compute; reflexivity]. Qed.

(** C25, C29 for parsed maps. *)
Theorem C25_parsed : forall fuel ls b, parse_lines fuel ls = Ok (Some b) ->
  forall o, In o (bm_HitObjects b) -> ho_kind o = KSpinner -> forall g, idx_of g o = 0 /\ off_of g o = vzero.
Proof.
  intros fuel ls b H o Ho K. destruct (all_functional ls) as (hr & tr & ms & gs & ds & Hh & Ht & Hm & Hg & Hd).
  destruct (map_facts fuel ls b hr tr ms gs ds H Hh Ht Hm Hg Hd) as (_ & _ & _ & _ & _ & _ & _ & _ & _ & F & _).
  destruct (Forall2_In_r _ _ _ F o Ho) as (fs & _ & _ & _ & S). exact (S K).
Qed.
Theorem C29_parsed : forall fuel ls b g, parse_lines fuel ls = Ok (Some b) ->
  forall o, In o (bm_HitObjects b) -> ho_kind o <> KSpinner ->
  let f := gdiv (gmul (gneg (g_of_Z (idx_of g o))) (g_of_f (d_CircleRadius (diff_for g (bm_Difficulty b))))) (gq 10 1) in
  off_of g o = mkVec f f.
Proof.
  intros fuel ls b g H o Ho K. destruct (all_functional ls) as (hr & tr & ms & gs & ds & Hh & Ht & Hm & Hg & Hd).
  destruct (map_facts fuel ls b hr tr ms gs ds H Hh Ht Hm Hg Hd) as (_ & _ & _ & _ & _ & _ & _ & _ & _ & _ & _ & objs & E).
  rewrite E in Ho. exact (C29_offset g _ _ _ objs o Ho K).
Qed.
(** two circles of the sample lie on one point, within the threshold *)
Example C29_parsed_instance :
  view (fun b => map (fun o => (ho_idx o, ho_idxEZ o)) (bm_HitObjects b)) (parse_lines 9 sample_map) =
  Some (Some [(0, 1); (0, 0); (0, 0); (0, 0); (0, 1); (0, 0); (0, 0)]).
Proof. vm_compute. reflexivity. Qed.

(** C54.  The file version is that of the last version line; General settings. *)
Theorem C54_file_version : forall fuel ls b, parse_lines fuel ls = Ok (Some b) ->
  ((forall l v, In l ls -> ~ version l v) -> bm_FileVersion b = 0) /\
  (forall a l v r, ls = a ++ l :: r -> version l v -> (forall l' v', In l' r -> ~ version l' v') -> bm_FileVersion b = v).
Proof.
  intros fuel ls b H. destruct (all_functional ls) as (hr & tr & ms & gs & ds & Hh & Ht & Hm & Hg & Hd).
  destruct (map_facts fuel ls b hr tr ms gs ds H Hh Ht Hm Hg Hd) as (-> & _). clear.
  assert (N : forall r, (forall l v, In l r -> ~ version l v) -> versions r = []).
  { unfold versions. induction r as [|l r IH]; intros K; [reflexivity|]. cbn [filter]. change (has_prefix l vpre) with (has_prefix l (lit "osu file format v")). rewrite (version_none l) by (intros v; apply K; now left).
    apply IH. intros; apply K; now right. }
  split; [intros K; now rewrite N|]. intros a l v r -> (t & -> & ->) K. unfold versions in *. rewrite filter_app, map_app. cbn [filter].
  rewrite (proj2 (has_prefix_iff vpre (lit "osu file format v" ++ t))) by (exists t; reflexivity). cbn [map].
  specialize (N r K). destruct (map _ (filter _ r)); [|discriminate].
  rewrite last_last. unfold trim_prefix. rewrite (proj2 (has_prefix_iff vpre (lit "osu file format v" ++ t))) by (exists t; reflexivity).
  reflexivity.
Qed.
Theorem C54_general : forall fuel ls b gs, parse_lines fuel ls = Ok (Some b) -> settings ls "General" gs ->
  let g := bm_general b in
  gn_Mode g = last_value "Mode" gs atoi 0 /\ gn_PreviewTime g = last_value "PreviewTime" gs parse_int 0 /\
  gn_StackLeniency g = last_value "StackLeniency" gs (fun v => if nan_text v then f0 else parse_f64 v) (fq 7 10) /\
  gn_Audio g = concat (values "AudioFilename" gs).
Proof.
  intros fuel ls b gs H Hg g. destruct (all_functional ls) as (hr & tr & ms & gs' & ds & Hh & Ht & Hm & _ & Hd).
  destruct (map_facts fuel ls b hr tr ms gs ds H Hh Ht Hm Hg Hd) as (_ & _ & EG & _). unfold g. clear g. rewrite EG.
  split; [apply gen_mode|]. split; [apply gen_preview|]. split; [|apply (gen_audio gs general0)]. rewrite gen_len. unfold last_value.
  f_equal. apply map_ext. intros v. now rewrite parse_nan.
Qed.
(** two AudioFilename lines are run together *)
Example C54_instance :
  settings sample_map "General" (map (fun p => (lit (fst p), lit (snd p))) [("AudioFilename", "a.mp3"); ("Mode", "0"); ("StackLeniency", "0.5"); ("AudioFilename", "b")]%string) /\
  view (fun b => (gn_Audio (bm_general b), feq (gn_StackLeniency (bm_general b)) (fq 1 2), bm_FileVersion b)) (parse_lines 9 sample_map) = Some (Some (lit "a.mp3b", true, 14)).
Proof. split; [apply settings_iff; vm_compute; reflexivity|vm_compute; reflexivity]. Qed.

(** C55.  The timing data is that of the timing rows, in file order, with the slider
    settings of the Difficulty section (0 when absent). *)
Theorem C55_timing : forall fuel ls b tr ds, parse_lines fuel ls = Ok (Some b) -> section_rows ls "TimingPoints" tr -> settings ls "Difficulty" ds ->
  let t := bm_Timings b in
  t_points t = t_points (finalize_points (added (map timing_point tr))) /\
  t_original t = t_original (finalize_points (added (map timing_point tr))) /\
  t_SliderMult t = last_value "SliderMultiplier" ds parse_f64 f0 /\ t_TickRate t = last_value "SliderTickRate" ds parse_f64 f0 /\
  bm_SliderMultiplier b = t_SliderMult t.
Proof.
  intros fuel ls b tr ds H Ht Hd t. destruct (all_functional ls) as (hr & tr' & ms & gs & ds' & Hh & _ & Hm & Hg & _).
  destruct (map_facts fuel ls b hr tr ms gs ds H Hh Ht Hm Hg Hd) as (_ & _ & _ & _ & ES & ET & _). unfold t. clear t. rewrite ES, ET.
  match goal with |- context [tim_of ?a ?c ?p] => destruct (tim_points a c p) as (P1 & P2 & P3 & P4) end. rewrite P1, P2, P3, P4. auto.
Qed.
Theorem C55_lookup : forall fuel ls b tr t, parse_lines fuel ls = Ok (Some b) -> section_rows ls "TimingPoints" tr -> fisnan t = false ->
  exists p q, get_point_at (bm_Timings b) t = Ok p /\ same_but_base p q /\ looked_up (map timing_point tr) t q.
Proof.
  intros fuel ls b tr t H Ht N. destruct (all_functional ls) as (hr & tr' & ms & gs & ds & Hh & _ & Hm & Hg & Hd).
  assert (NE : tr <> []).
  { intros E. pose proof (proj2 (none_facts fuel ls (Some b) tr ms H Ht Hm) (or_intror E)). discriminate. }
  destruct (map_facts fuel ls b hr tr ms gs ds H Hh Ht Hm Hg Hd) as (_ & _ & _ & _ & _ & -> & _). now apply tim_lookup.
Qed.
Example C55_instance : view (fun b => (map cp_Inherited (t_points (bm_Timings b)), feq (t_SliderMult (bm_Timings b)) (fq 14 10),
    match get_point_at (bm_Timings b) (fq 2500 1) with Ok p => feq (get_beat_length p) (fq 150 1) | _ => false end)) (parse_lines 9 sample_map)
  = Some (Some ([false; true], true, true)).
Proof. vm_compute. reflexivity. Qed.

(** C56.  The scanner: text made of lines that fit the buffer, each ended by LF or
    CRLF, is read as those lines; the first line that does not fit ends the file. *)
Theorem C56_lines : forall (ls : list (str * bool)),
  Forall (fun p => ~ In newline (fst p) /\ zlen (ended p) < 10485760 /\ (snd p = false -> no_final_cr (fst p))) ls ->
  forall fuel, parse_text fuel (concat (map (fun p => ended p ++ [newline]) ls)) = parse_lines fuel (map fst ls).
Proof. exact text_lines. Qed.
Theorem C56_long_line : forall (ls : list (str * bool)) l t,
  Forall (fun p => ~ In newline (fst p) /\ zlen (ended p) < 10485760 /\ (snd p = false -> no_final_cr (fst p))) ls ->
  ~ In newline l -> 10485760 <= zlen l ->
  forall fuel, parse_text fuel (concat (map (fun p => ended p ++ [newline]) ls) ++ l ++ t) = parse_lines fuel (map fst ls).
Proof. exact text_truncated. Qed.
Example C56_instance : Forall (fun p => ~ In newline (fst p) /\ zlen (ended p) < 10485760 /\ (snd p = false -> no_final_cr (fst p)))
    [(lit "[General]", true); (lit "Mode:1", false)] /\
  10485760 <= zlen (repeat "a"%char (Z.to_nat 10485760)).
Proof.
  split.
  - repeat constructor; cbn [fst snd]; try (intros H; vm_compute in H; repeat (destruct H as [H|H]; [discriminate H|]); exact H); try discriminate;
      try (intros _ r E; apply (f_equal (@rev ascii)) in E; rewrite rev_app_distr in E; vm_compute in E; discriminate E).
  - unfold zlen. rewrite repeat_length. rewrite Z2Nat.id; lia.
Qed.
End WithLibm.
Print Assumptions C16_error_iff.
Print Assumptions C16_points.
Print Assumptions C17_sorted_numbered.
Print Assumptions C18_combos.
Print Assumptions C19_counters.
Print Assumptions C20_range.
Print Assumptions C20_nan_possible.
Print Assumptions C21_difficulty.
Print Assumptions C22_comment.
Print Assumptions C22_text.
Print Assumptions C22_unknown_line.
Print Assumptions C22_unknown_section.
Print Assumptions C22_version_not_inert.
Print Assumptions C24_metadata.
Print Assumptions C24_version_unread.
Print Assumptions C24_version_inert.
Print Assumptions C25_parsed.
Print Assumptions C29_parsed.
Print Assumptions C54_file_version.
Print Assumptions C54_general.
Print Assumptions C55_timing.
Print Assumptions C55_lookup.
Print Assumptions C56_lines.
Print Assumptions C56_long_line.

(** A map on paper: its sections, and that it is read without failing. *)
From Coq Require Import Reals Lra Permutation Sorting.Sorted.
From Flocq Require Import Core BinarySingleNaN.
From Verif Require Import Parser SpecNumbers SpecParser SpecSpace SpecText SpecSheet BaseLemmas StringLemmas ParserProofs InertProofs TextProofs FloatLemmas Float32Lemmas SortLemmas.
From Verif Require Import PropSpace PropNumbers PropText SheetProofs.
Open Scope Z_scope.

Section WithLibm.
Context {M : libm}.

Definition block (n : string) (l : list str) : list (str * str) := map (pair (lit n)) l.
Lemma body_app sec a b : body sec (a ++ b) = body sec a ++ body sec b.
Proof. unfold body. now rewrite filter_app, map_app. Qed.
Lemma body_block sec n l : body sec (block n l) = if str_eqb (lit n) (lit sec) then l else [].
Proof.
  unfold body, block. destruct (str_eqb (lit n) (lit sec)) eqn:E.
  - induction l as [|x l IH]; [reflexivity|]. cbn [map filter fst]. rewrite E. cbn [map snd]. now rewrite IH.
  - induction l as [|x l IH]; [reflexivity|]. cbn [map filter fst]. now rewrite E.
Qed.
Lemma ann_lines n l r : Forall (fun x => get_section x = []) l -> annotate (lit n) (l ++ r) = block n l ++ annotate (lit n) r.
Proof. induction 1 as [|x l E F IH]; [reflexivity|]. cbn [app annotate block map]. rewrite E. f_equal. exact IH. Qed.
Lemma ann_header cur h n r : lit n <> [] -> get_section h = lit n -> annotate cur (h :: r) = annotate (lit n) r.
Proof. intros N E. cbn [annotate]. rewrite E. destruct (lit n); [congruence|reflexivity]. Qed.

Definition general_lines s := [setting "StackLeniency" (written (sh_leniency s)); []].
Definition metadata_lines s := [setting "Title" (sh_title s); setting "Artist" (sh_artist s); setting "Creator" (sh_creator s); []].
Definition difficulty_lines s := [setting "HPDrainRate" (written (sh_hp s)); setting "CircleSize" (written (sh_cs s));
   setting "OverallDifficulty" (written (sh_od s)); setting "ApproachRate" (written (sh_ar s));
   setting "SliderMultiplier" (written (sh_speed s)); setting "SliderTickRate" (written (sh_ticks s)); []].
Definition tempo_lines s := map (fun p => join (tempo_fields p)) (sh_tempos s).
Definition note_lines s := map (fun n => join (note_fields n)) (sh_notes s).
Lemma lines_eq s : sheet_lines s = [lit "osu file format v" ++ show (sh_version s); []] ++ lit "[General]" :: general_lines s ++ lit "[Metadata]" :: metadata_lines s ++
  lit "[Difficulty]" :: difficulty_lines s ++ lit "[TimingPoints]" :: (tempo_lines s ++ [[]]) ++ lit "[HitObjects]" :: note_lines s.
Proof. unfold sheet_lines, general_lines, metadata_lines, difficulty_lines, tempo_lines, note_lines. cbn [app]. rewrite <- app_assoc. reflexivity. Qed.

(** the settings written *)
Definition wordy (key : string) : bool :=
  match lit key with
  | [] => false
  | c :: _ => forallb (fun c => (33 <=? byte_of c) && (byte_of c <=? 126)) (lit key) && negb (contains (lit key) ":") && negb (byte_of c =? 91) && negb (byte_of c =? 47) && negb (byte_of c =? 111)
  end.
Lemma wordy_line key v : wordy key = true -> bare v ->
  get_section (setting key v) = [] /\ tokenize2 (setting key v) ":" = Some [lit key; v] /\ has_prefix (setting key v) (lit "osu file format v") = false.
Proof.
  intros W B. unfold wordy in W. destruct (lit key) as [|c r] eqn:E; [discriminate|]. rewrite <- E in *. repeat rewrite andb_true_iff in W. destruct W as ((((W1 & W2) & W3) & W4) & W5).
  apply negb_true_iff in W2, W3, W4, W5. apply Z.eqb_neq in W3, W4, W5. apply contains_false in W2. apply (setting_line key v c); auto; [now apply lit_plain|now exists r].
Qed.
Lemma written_bare l : SpecNumbers.well_formed l -> bare (written l).
Proof. intros W. apply plain_bare, numeric_plain. now apply written_numeric. Qed.
Lemma no_section_nil : get_section [] = []. Proof. vm_compute. reflexivity. Qed.

Lemma no_headers s : sheet_ok s -> let quiet := Forall (fun x => get_section x = []) in
  quiet [lit "osu file format v" ++ show (sh_version s); []] /\ quiet (general_lines s) /\ quiet (metadata_lines s) /\ quiet (difficulty_lines s) /\ quiet (tempo_lines s ++ [[]]) /\ quiet (note_lines s).
Proof.
  intros (V & LN & (T & _) & (A & _) & (CR & _) & _ & (HP & _) & (CS & _) & (OD & _) & (AR & _) & SP & TK & _ & TP & NT & _) quiet. unfold quiet.
  assert (Z0 : forall k v, wordy k = true -> bare v -> get_section (setting k v) = []) by (intros k v W B; apply (wordy_line k v W B)).
  split; [constructor; [apply visible_no_header; [split; vm_compute; discriminate|vm_compute; discriminate]|repeat constructor; apply no_section_nil]|].
  split; [constructor; [apply Z0; [reflexivity|now apply written_bare]|repeat constructor; apply no_section_nil]|].
  split; [repeat (constructor; [apply Z0; [reflexivity|assumption]|]); repeat constructor; apply no_section_nil|].
  split; [repeat (constructor; [apply Z0; [reflexivity|now apply written_bare]|]); repeat constructor; apply no_section_nil|].
  split; [apply Forall_app; split; [|repeat constructor; apply no_section_nil]|]; apply Forall_map.
  - eapply Forall_impl; [|exact TP]. intros p P. destruct (tempo_row p P) as (ds & g & fs & E & D & N & F). cbv beta. rewrite E. apply (row_line ds g fs D N F).
  - eapply Forall_impl; [|exact NT]. intros p P. destruct (note_row p P) as (ds & g & fs & E & D & N & F). cbv beta. rewrite E. apply (row_line ds g fs D N F).
Qed.
Lemma sheet_sections s : sheet_ok s -> annotate [] (sheet_lines s) = block "" [lit "osu file format v" ++ show (sh_version s); []] ++ block "General" (general_lines s) ++ block "Metadata" (metadata_lines s) ++
  block "Difficulty" (difficulty_lines s) ++ block "TimingPoints" (tempo_lines s ++ [[]]) ++ block "HitObjects" (note_lines s).
Proof.
  intros OK. destruct (no_headers s OK) as (H1 & H2 & H3 & H4 & H5 & H6). rewrite lines_eq. change (@nil ascii) with (lit "") at 1. rewrite ann_lines by exact H1. f_equal.
  rewrite (ann_header _ _ "General") by (discriminate || (vm_compute; reflexivity)). rewrite ann_lines by exact H2. f_equal.
  rewrite (ann_header _ _ "Metadata") by (discriminate || (vm_compute; reflexivity)). rewrite ann_lines by exact H3. f_equal.
  rewrite (ann_header _ _ "Difficulty") by (discriminate || (vm_compute; reflexivity)). rewrite ann_lines by exact H4. f_equal.
  rewrite (ann_header _ _ "TimingPoints") by (discriminate || (vm_compute; reflexivity)). rewrite ann_lines by exact H5. f_equal.
  rewrite (ann_header _ _ "HitObjects") by (discriminate || (vm_compute; reflexivity)). rewrite <- (app_nil_r (note_lines s)) at 1. rewrite ann_lines by exact H6. cbn [annotate]. now rewrite app_nil_r.
Qed.
Ltac bodies s OK := rewrite (sheet_sections s OK), !body_app, !body_block;
  repeat match goal with |- context [str_eqb (lit ?a) (lit ?b)] => let v := eval vm_compute in (str_eqb (lit a) (lit b)) in change (str_eqb (lit a) (lit b)) with v end; cbv iota; cbn [app].
Lemma kvs_step key v r : wordy key = true -> bare v -> kvs_of (setting key v :: r) = (lit key, v) :: kvs_of r.
Proof. intros W B. cbn [kvs_of]. destruct (wordy_line key v W B) as (_ & -> & _). reflexivity. Qed.
Lemma kvs_nil_line : kvs_of [[]] = []. Proof. vm_compute. reflexivity. Qed.
Lemma general_of s : sheet_ok s -> settings (sheet_lines s) "General" [(lit "StackLeniency", written (sh_leniency s))].
Proof.
  intros OK. apply settings_iff. bodies s OK. destruct OK as (V & LN & _). unfold general_lines. rewrite ?app_nil_r, kvs_step by (reflexivity || now apply written_bare). rewrite kvs_nil_line. reflexivity.
Qed.
Lemma metadata_of s : sheet_ok s -> settings (sheet_lines s) "Metadata" [(lit "Title", sh_title s); (lit "Artist", sh_artist s); (lit "Creator", sh_creator s)].
Proof.
  intros OK. apply settings_iff. bodies s OK. destruct OK as (V & LN & (T & _) & (A & _) & (CR & _) & _). unfold metadata_lines. rewrite ?app_nil_r, !kvs_step by (reflexivity || assumption). rewrite kvs_nil_line. reflexivity.
Qed.
Lemma difficulty_of s : sheet_ok s -> settings (sheet_lines s) "Difficulty" [(lit "HPDrainRate", written (sh_hp s)); (lit "CircleSize", written (sh_cs s)); (lit "OverallDifficulty", written (sh_od s));
  (lit "ApproachRate", written (sh_ar s)); (lit "SliderMultiplier", written (sh_speed s)); (lit "SliderTickRate", written (sh_ticks s))].
Proof.
  intros OK. apply settings_iff. bodies s OK. destruct OK as (V & LN & _ & _ & _ & _ & (HP & _) & (CS & _) & (OD & _) & (AR & _) & SP & TK & _). unfold difficulty_lines. rewrite ?app_nil_r, !kvs_step by (reflexivity || now apply written_bare). rewrite kvs_nil_line. reflexivity.
Qed.
Lemma rows_app a b : rows_of (a ++ b) = rows_of a ++ rows_of b.
Proof. induction a as [|x a IH]; [reflexivity|]. cbn [app rows_of]. destruct (tokenize x ","); [cbn [app]; now rewrite IH|exact IH]. Qed.
Lemma rows_lines {A} (f : A -> list str) l : Forall (fun x => raw_fields (join (f x)) (f x)) l -> rows_of (map (fun x => join (f x)) l) = map f l.
Proof. intros F. symmetry. apply rows_iff. induction F as [|x l R F IH]; [constructor|]. cbn [map]. now apply rows_some. Qed.
Lemma timing_of s : sheet_ok s -> section_rows (sheet_lines s) "TimingPoints" (map tempo_fields (sh_tempos s)).
Proof.
  intros OK. apply section_rows_iff. bodies s OK. destruct OK as (_ & _ & _ & _ & _ & _ & _ & _ & _ & _ & _ & _ & _ & TP & _). unfold tempo_lines. rewrite app_nil_r, rows_app, rows_lines.
  - change (rows_of [[]]) with (@nil (list str)). now rewrite app_nil_r.
  - eapply Forall_impl; [|exact TP]. intros p P. destruct (tempo_row p P) as (ds & g & fs & E & D & N & F). cbv beta. rewrite E. apply (row_line ds g fs D N F).
Qed.
Lemma objects_of s : sheet_ok s -> section_rows (sheet_lines s) "HitObjects" (map note_fields (sh_notes s)).
Proof.
  intros OK. apply section_rows_iff. bodies s OK. destruct OK as (_ & _ & _ & _ & _ & _ & _ & _ & _ & _ & _ & _ & _ & _ & NT & _). unfold note_lines. rewrite rows_lines; [reflexivity|].
  eapply Forall_impl; [|exact NT]. intros p P. destruct (note_row p P) as (ds & g & fs & E & D & N & F). cbv beta. rewrite E. apply (row_line ds g fs D N F).
Qed.

(** ** Reading does not fail *)
Definition no_sliders (st : pstate) : Prop := Forall (fun o => is_slider o = false) (os_objects (st_objs st)).
Lemma note_object fuel n s : is_slide n = false -> exists s' o, parse_hit_object fuel (note_fields n) s = Ok s' /\ os_objects s' = os_objects s ++ [o] /\ is_slider o = false.
Proof.
  unfold note_fields, is_slide. destruct (nt_shape n) as [|e|], (nt_combo n); intros NS; try discriminate NS; clear NS; cbn [app]; unfold parse_hit_object, create_object, new_circle, new_spinner, common_parse, rmap;
    cbn [idx Z.ltb Z.compare Z.to_nat Pos.to_nat Pos.iter_op Nat.add nth_error bind];
    change (atoi (lit "1")) with 1; change (atoi (lit "5")) with 5; change (atoi (lit "8")) with 8; change (atoi (lit "12")) with 12;
    change (has_type 1 CIRCLE) with true; change (has_type 5 CIRCLE) with true; change (has_type 8 CIRCLE) with false; change (has_type 12 CIRCLE) with false; change (has_type 8 SPINNER) with true; change (has_type 12 SPINNER) with true;
    cbv iota; cbn [bind]; eexists _, _; (split; [exact eq_refl|]; split; [exact eq_refl|exact eq_refl]).
Qed.
Lemma good_line fuel st l : str_eqb (st_section st) (lit "Events") = false -> no_sliders st ->
  (get_section l = [] -> st_section st = lit "HitObjects" -> tokenize l "," = None \/ exists n, tokenize l "," = Some (note_fields n) /\ is_slide n = false) ->
  exists st', parse_line fuel st l = Ok st' /\ no_sliders st'.
Proof.
  intros NE NS H. unfold parse_line. assert (V : st_section (version_line l st) = st_section st /\ st_objs (version_line l st) = st_objs st) by (unfold version_line; destruct (has_prefix l _); split; reflexivity).
  destruct V as (V1 & V2). set (st1 := version_line l st) in *. clearbody st1. destruct (get_section l) as [|x g] eqn:G; [|eexists; split; [reflexivity|]; unfold no_sliders; cbn [with_section st_objs]; now rewrite V2].
  specialize (H eq_refl). rewrite <- V1 in NE, H. unfold no_sliders in *. rewrite <- V2 in NS. clear V1 V2 st. destruct st1 as [sec fv me ge di ev ti obs]. cbn [st_section st_objs] in *. unfold section_line.
  assert (KV : forall f st, (forall k v, st_objs (f k v) = obs) -> st_objs st = obs -> st_objs (key_value l f st) = obs). { intros f st F S0. unfold key_value. destruct (tokenize2 l ":") as [[|k [|v r]]|]; auto. }
  destruct (str_eqb sec (lit "General")). { eexists. split; [reflexivity|]. rewrite KV; auto. }
  destruct (str_eqb sec (lit "Metadata")). { eexists. split; [reflexivity|]. rewrite KV; auto. }
  destruct (str_eqb sec (lit "Difficulty")). { eexists. split; [reflexivity|]. rewrite KV; auto. }
  rewrite NE. destruct (str_eqb sec (lit "TimingPoints")).
  { destruct (tokenize_cases l) as [(E & R)|(E & _)]; rewrite E; [|eexists; split; [reflexivity|exact NS]]. destruct R as (_ & R & _). unfold parse_point.
    destruct (split "," l) as [|a [|b r]]; [cbn in R; lia..|]. cbn [map]. cbn [idx Z.ltb Z.compare Z.to_nat Pos.to_nat Pos.iter_op Nat.add nth_error bind]. eexists. split; [exact eq_refl|exact NS]. }
  destruct (str_eqb sec (lit "HitObjects")) eqn:HO; [|eexists; split; [reflexivity|exact NS]]. apply str_eqb_eq in HO. destruct (H HO) as [E|(n & E & NSL)]; rewrite E; [eexists; split; [reflexivity|exact NS]|].
  destruct (note_object fuel n obs NSL) as (s' & o & E1 & E2 & E3). rewrite E1. cbn [bind]. eexists. split; [reflexivity|]. cbn [st_objs]. rewrite E2. apply Forall_app. split; [exact NS|]. constructor; [exact E3|constructor].
Qed.
Lemma good_lines fuel ls : forall st, no_sliders st -> Forall (fun l => get_section l <> lit "Events") ls -> st_section st <> lit "Events" ->
  Forall (fun p => fst p = lit "HitObjects" -> tokenize (snd p) "," = None \/ exists n, tokenize (snd p) "," = Some (note_fields n) /\ is_slide n = false) (annotate (st_section st) ls) ->
  exists st', foldM (parse_line fuel) st ls = Ok st' /\ no_sliders st'.
Proof.
  induction ls as [|l ls IH]; intros st NS EV NE F; [exists st; split; [reflexivity|exact NS]|]. inversion EV as [|? ? E1 E2]; subst.
  assert (H : get_section l = [] -> st_section st = lit "HitObjects" -> tokenize l "," = None \/ exists n, tokenize l "," = Some (note_fields n) /\ is_slide n = false).
  { intros G S. cbn [annotate] in F. rewrite G in F. inversion F as [|? ? F1 F2]; subst. apply F1. exact S. }
  assert (NE' : str_eqb (st_section st) (lit "Events") = false) by (destruct (str_eqb (st_section st) (lit "Events")) eqn:Q; [apply str_eqb_eq in Q; congruence|reflexivity]).
  destruct (good_line fuel st l NE' NS H) as (st' & E & NS'). cbn [foldM]. rewrite E. cbn [bind]. pose proof (st_section_step fuel st l st' E) as SS. apply IH; [exact NS'|exact E2| |].
  - rewrite SS. destruct (get_section l); [exact NE|exact E1].
  - rewrite SS. cbn [annotate] in F. destruct (get_section l); [now inversion F|exact F].
Qed.
Lemma mapM_id {A} (f : A -> res A) l : Forall (fun x => f x = Ok x) l -> mapM f l = Ok l.
Proof. induction 1 as [|x l E F IH]; [reflexivity|]. cbn [mapM]. rewrite E. cbn [bind]. rewrite IH. reflexivity. Qed.
Lemma number_kinds l : forall a b c d e, Forall (fun o => is_slider o = false) l -> Forall (fun o => is_slider o = false) (number_objects a b c d e l).
Proof. induction l as [|o l IH]; intros a b c d e F; [constructor|]. inversion F as [|? ? F1 F2]; subst. cbn [number_objects]. destruct (is_spinner o); [|destruct (ho_newCombo o || e)]; (constructor; [exact F1|now apply IH]). Qed.
Lemma finish_ok fuel st : no_sliders st -> exists r, finish_parse fuel st = Ok r.
Proof.
  intros NS. unfold finish_parse. cbv zeta. destruct (_ || _); [eexists; reflexivity|]. rewrite mapM_id; [eexists; reflexivity|].
  apply Forall_forall. intros o I. assert (K : is_slider o = false).
  { assert (F : Forall (fun o => is_slider o = false) (stable_sort obj_lt (os_objects (st_objs st)))).
    { apply Forall_forall. intros x J. unfold no_sliders in NS. rewrite Forall_forall in NS. apply NS. eapply Permutation_in; [|exact J]. apply Permutation_sym, sort_perm. }
    pose proof (number_kinds _ 0 1 0 0 false F) as G. rewrite Forall_forall in G. now apply G. }
  unfold set_timing. unfold is_slider in K. destruct (ho_kind o); try reflexivity; discriminate K.
Qed.
Lemma block_fst n l (P : str * str -> Prop) : (forall x, P (lit n, x)) -> Forall P (block n l).
Proof. intros H. apply Forall_map. apply Forall_forall. intros x _. apply H. Qed.
Lemma sheet_reads fuel s : sheet_ok s -> Forall (fun n => is_slide n = false) (sh_notes s) -> exists r, parse_lines fuel (sheet_lines s) = Ok r.
Proof.
  intros OK FS. unfold parse_lines. destruct (good_lines fuel (sheet_lines s) pstate0) as (st & -> & NS).
  - constructor.
  - destruct (no_headers s OK) as (H1 & H2 & H3 & H4 & H5 & H6). assert (Q : forall l, Forall (fun x => get_section x = []) l -> Forall (fun x => get_section x <> lit "Events") l) by (intros l; apply Forall_impl; intros x ->; discriminate).
    assert (HD : forall h r, str_eqb (get_section h) (lit "Events") = false -> Forall (fun x => get_section x <> lit "Events") r -> Forall (fun x => get_section x <> lit "Events") (h :: r)).
    { intros h r E F. constructor; [|exact F]. intros C. rewrite C in E. vm_compute in E. discriminate E. }
    rewrite lines_eq. apply Forall_app. split; [now apply Q|]. apply HD; [vm_compute; reflexivity|]. apply Forall_app. split; [now apply Q|]. apply HD; [vm_compute; reflexivity|]. apply Forall_app. split; [now apply Q|].
    apply HD; [vm_compute; reflexivity|]. apply Forall_app. split; [now apply Q|]. apply HD; [vm_compute; reflexivity|]. apply Forall_app. split; [now apply Q|]. apply HD; [vm_compute; reflexivity|]. now apply Q.
  - discriminate.
  - change (st_section pstate0) with (@nil ascii). rewrite (sheet_sections s OK). repeat (apply Forall_app; split; [apply block_fst; intros x E; vm_compute in E; discriminate E|]).
    destruct OK as (_ & _ & _ & _ & _ & _ & _ & _ & _ & _ & _ & _ & _ & _ & NT & _). unfold block, note_lines. apply Forall_map, Forall_map. apply Forall_forall. intros n I _. rewrite Forall_forall in NT, FS. pose proof (NT n I) as P. right. exists n. split; [|now apply FS]. cbn [snd].
    destruct (note_row n P) as (ds & g & fs & E & D & N & F). rewrite E. apply (row_line ds g fs D N F).
  - cbn [bind]. now apply finish_ok.
Qed.
End WithLibm.

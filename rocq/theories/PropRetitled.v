(** C119: what of a file the objects, the timing and the difficulty depend on. *)
From Coq Require Import Permutation Reals Lra ZArith Lia Bool Ascii String List.
From Verif Require Import Parser DiffCalc SpecParser SpecMap SpecTiming SpecRearrange BaseLemmas FloatLemmas SortLemmas TimingProofs StringLemmas ParserProofs
  ObjectProofs FinishProofs InertProofs EventProofs MapProofs RearrangeProofs PropMap PropParser PropRearrange.
Import ListNotations.
Open Scope Z_scope.

(** The two files agree on the version, the stack leniency, the settings under
    [Difficulty] and the rows of timing points and objects, each in any order
    that keeps the order of one key and of one time.  Nothing is said of
    [Metadata], [Events], the other settings under [General] or any other line. *)
Definition same_play (ls ls' : list str) : Prop :=
  (exists v, latest_version ls v /\ latest_version ls' v) /\
  (exists s s', settings ls "General" s /\ settings ls' "General" s' /\ values "StackLeniency" s = values "StackLeniency" s') /\
  (exists s s', settings ls "Difficulty" s /\ settings ls' "Difficulty" s' /\ same_values s s') /\
  (exists t t', section_rows ls "TimingPoints" t /\ section_rows ls' "TimingPoints" t' /\ same_schedule (fun _ => true) point_time t t') /\
  (exists h h', section_rows ls "HitObjects" h /\ section_rows ls' "HitObjects" h' /\ same_schedule is_object start_of h h').

Section WithLibm.
Context {M : libm}.
Lemma finish_some fuel st b : finish_parse fuel st = Ok (Some b) ->
  bm_FileVersion b = st_FileVersion st /\ bm_general b = st_general st /\ bm_Difficulty b = ds_Difficulty (st_diff st) /\ bm_SliderMultiplier b = ds_SliderMultiplier (st_diff st) /\
  bm_Timings b = finalize_points {| t_SliderMult := ds_SliderMult (st_diff st); t_TickRate := ds_TickRate (st_diff st); t_points := ts_points (st_time st); t_original := [] |} /\
  bm_Length b = os_Length (st_objs st) /\ bm_Circles b = os_Circles (st_objs st) /\ bm_Sliders b = os_Sliders (st_objs st) /\ bm_Spinners b = os_Spinners (st_objs st) /\
  bm_MinBPM b = ts_MinBPM (st_time st) /\ bm_MaxBPM b = ts_MaxBPM (st_time st) /\
  exists objs, mapM (set_timing fuel (bm_Timings b)) (number_objects 0 1 0 0 false (stable_sort obj_lt (os_objects (st_objs st)))) = Ok objs /\
    bm_HitObjects b = stack_leniency (bm_Difficulty b) (bm_FileVersion b) (gn_StackLeniency (bm_general b)) objs.
Proof.
  unfold finish_parse. cbv zeta. destruct (_ || _); [intros H; apply CurveStart.Ok_inj in H; discriminate H|]. intros H. apply bind_ok in H as (objs & E & H). apply CurveStart.Ok_inj in H.
  assert (G : forall x y : beatmap, Some x = Some y -> x = y) by congruence. apply G in H. subst b. cbn [bm_FileVersion bm_general bm_Difficulty bm_SliderMultiplier bm_Timings bm_Length bm_Circles bm_Sliders bm_Spinners bm_MinBPM bm_MaxBPM bm_HitObjects].
  repeat (split; [reflexivity|]). exists objs. split; [exact E|reflexivity].
Qed.

(** Two such files, if both are accepted, have the same objects, timing and difficulty. *)
Theorem C119_same_play : forall fuel ls ls' hr b b', same_play ls ls' -> section_rows ls "HitObjects" hr ->
  Forall (fun fs => is_object fs = true -> fisnan (start_of fs) = false) hr ->
  parse_lines fuel ls = Ok (Some b) -> parse_lines fuel ls' = Ok (Some b') ->
  bm_HitObjects b' = bm_HitObjects b /\ bm_Difficulty b' = bm_Difficulty b /\ bm_Timings b' = bm_Timings b /\ bm_FileVersion b' = bm_FileVersion b /\ bm_SliderMultiplier b' = bm_SliderMultiplier b /\
  bm_Length b' = bm_Length b /\ bm_Circles b' = bm_Circles b /\ bm_Sliders b' = bm_Sliders b /\ bm_Spinners b' = bm_Spinners b /\ bm_MinBPM b' = bm_MinBPM b /\ bm_MaxBPM b' = bm_MaxBPM b.
Proof.
  intros fuel ls ls' hr b b' ((v & V & V') & (g & g' & Sg & Sg' & Eg) & (d & d' & Sd & Sd' & Ed) & (t & t' & Ht & Ht' & St) & (h & h' & Hh & Hh' & So)) Hr Nn H H'.
  assert (hr = h) by (apply section_rows_iff in Hr, Hh; congruence). subst hr.
  assert (GL : gn_StackLeniency (bm_general b') = gn_StackLeniency (bm_general b)).
  { destruct (C54_general fuel ls b g H Sg) as (_ & _ & -> & _). destruct (C54_general fuel ls' b' g' H' Sg') as (_ & _ & -> & _). unfold last_value. now rewrite Eg. }
  apply section_rows_iff in Ht, Ht', Hh, Hh'. apply settings_iff in Sd, Sd'.
  apply parsed in H as (st & (_ & _ & Rd & _ & Rt & Ro) & Vs & F). apply parsed in H' as (st' & (_ & _ & Rd' & _ & Rt' & Ro') & Vs' & F').
  subst t t' h h' d d'.
  pose proof (time_rows _ _ Rt) as [_ Pt]. pose proof (time_rows _ _ Rt') as [_ Pt'].
  pose proof (pt_fold_bpm _ (rows_ok _) _ _ Rt) as [Mi Ma]. pose proof (pt_fold_bpm _ (rows_ok _) _ _ Rt') as [Mi' Ma'].
  pose proof (tempos_perm _ _ (proj1 St)) as PT. pose proof (tempos_pz (rows_of (body "TimingPoints" (annotate [] ls)))) as PZ.
  pose proof (ob_fold_time _ _ _ _ Ro) as (ts & Fts & Lt). pose proof (ob_fold_time _ _ _ _ Ro') as (ts' & Fts' & Lt').
  apply ob_fold_ok in Ro as (C1 & C2 & C3 & os & Fo & Ff & Eo). apply ob_fold_ok in Ro' as (C1' & C2' & C3' & os' & Fo' & Ff' & Eo').
  cbn [pstate0 st_events st_time st_objs timesec0 ts_points ts_MinBPM ts_MaxBPM ts_counter os_Length os_Circles os_Sliders os_Spinners os_objects app st_diff st_FileVersion] in *.
  assert (D : st_diff st' = st_diff st) by (rewrite Rd, Rd'; symmetry; apply kv_same; [intros; now apply diff_comm|exact Ed]).
  assert (O : stable_sort obj_lt (os_objects (st_objs st')) = stable_sort obj_lt (os_objects (st_objs st))).
  { rewrite Eo, Eo'. symmetry. eapply objects_same; [exact So| |exact Fo|exact Ff|exact Fo'|exact Ff']. rewrite Forall_forall in *. intros x I. apply filter_In in I as [I J]. now apply Nn. }
  assert (P : stable_sort point_lt (ts_points (st_time st')) = stable_sort point_lt (ts_points (st_time st))) by (rewrite Pt, Pt'; symmetry; now apply points_same).
  destruct (finish_some _ _ _ F) as (B1 & _ & B3 & B4 & B5 & B6 & B7 & B8 & B9 & B10 & B11 & objs & B12 & B13). destruct (finish_some _ _ _ F') as (A1 & _ & A3 & A4 & A5 & A6 & A7 & A8 & A9 & A10 & A11 & objs' & A12 & A13).
  assert (EV : bm_FileVersion b' = bm_FileVersion b) by (rewrite A1, B1, Vs, Vs', (latest_last _ _ V), (latest_last _ _ V'); reflexivity).
  assert (ED : bm_Difficulty b' = bm_Difficulty b) by (rewrite A3, B3, D; reflexivity).
  assert (ET : bm_Timings b' = bm_Timings b) by (rewrite A5, B5, D; unfold finalize_points; cbn [t_points t_SliderMult t_TickRate t_original]; rewrite P; reflexivity).
  split. { rewrite O, ET, B12 in A12. apply CurveStart.Ok_inj in A12. subst objs'. rewrite A13, B13, ED, EV, GL. reflexivity. }
  split; [exact ED|]. split; [exact ET|]. split; [exact EV|]. split; [rewrite A4, B4, D; reflexivity|].
  split; [rewrite A6, B6, Lt, Lt'; symmetry; eapply length_same; [exact (proj1 So)|exact Fts|exact Fts']|].
  split; [rewrite A7, B7, C1, C1'; f_equal; apply count_perm, Permutation_sym, (proj1 So)|].
  split; [rewrite A8, B8, C2, C2'; f_equal; apply count_perm, Permutation_sym, (proj1 So)|].
  split; [rewrite A9, B9, C3, C3'; f_equal; apply count_perm, Permutation_sym, (proj1 So)|].
  split; [rewrite A10, B10, Mi, Mi'; symmetry; apply fmin_perm; [exact PT|exact PZ|split; vm_compute; reflexivity]|].
  rewrite A11, B11, Ma, Ma'. symmetry. apply fmax_perm; [exact PT|exact PZ|split; vm_compute; reflexivity].
Qed.
(** So every rating of them is the same too, whatever the names, the storyboard and the breaks. *)
Theorem C119_same_ratings : forall fuel fuel' ls ls' hr b b' mods speed, same_play ls ls' -> section_rows ls "HitObjects" hr ->
  Forall (fun fs => is_object fs = true -> fisnan (start_of fs) = false) hr ->
  parse_lines fuel ls = Ok (Some b) -> parse_lines fuel ls' = Ok (Some b') ->
  let d := set_custom_speed (set_mods (bm_Difficulty b) mods) speed in let d' := set_custom_speed (set_mods (bm_Difficulty b') mods) speed in
  calculate_single fuel' (bm_HitObjects b') d' = calculate_single fuel' (bm_HitObjects b) d /\
  calculate_step fuel' (bm_HitObjects b') d' = calculate_step fuel' (bm_HitObjects b) d /\
  calculate_strain_peaks fuel' (bm_HitObjects b') d' = calculate_strain_peaks fuel' (bm_HitObjects b) d.
Proof.
  intros fuel fuel' ls ls' hr b b' mods speed S Hr Nn H H' d d'. destruct (C119_same_play fuel ls ls' hr b b' S Hr Nn H H') as (E1 & E2 & _). unfold d', d. rewrite E1, E2. auto.
Qed.

(** ** An instance: the sample map under other names, with a break and another song *)
Definition retitled : list str := map lit [
  "[Metadata]"; "Creator:Someone"; "Tags: none"; "osu file format v14"; "[General]"; "AudioFilename: c.ogg"; "StackLeniency: 0.5"; "Mode: 3"; "PreviewTime: 9"; "[Events]"; "2,100,400"; "0,0,bg.png";
  "[Difficulty]"; "CircleSize:12"; "OverallDifficulty:8"; "HPDrainRate:-3"; "ApproachRate:9.5"; "SliderMultiplier:1.4"; "SliderTickRate:1"; "[TimingPoints]"; "0,300,4,1,0,100,1,0"; "2000,-50,4,1,0,100,0,1";
  "[HitObjects]"; "256,192,500,21,0"; "100,100,500,1,0"; "256,192,1000,1,0"; "100,100,2000,12,0,3000"; "100,100,3500,1,0"; "100,100,4000,2,0,L|200:100,1,100"; "100,300,5000,1,0"]%string.
Ltac perm := cbn [app]; match goal with
  | |- Permutation [] [] => constructor
  | |- Permutation (?a :: ?l) ?r =>
    let rec go pre rest := match rest with
      | a :: ?q => change (Permutation (a :: l) (pre ++ a :: q)); apply Permutation_cons_app; perm
      | ?b :: ?q => let p := eval cbn [app] in (pre ++ [b]) in go p q end in
    let n := constr:(@nil (list str)) in go n r end.
Example C119_play : same_play sample_map retitled.
Proof.
  split.
  { exists 14. split; right.
    - exists [], (lit "osu file format v14"), (tl sample_map). split; [reflexivity|]. split; [exists (lit "14"); split; vm_compute; reflexivity|]. intros l w I (t & -> & _). cbn in I. repeat (destruct I as [I|I]; [discriminate I|]). destruct I.
    - exists (firstn 3 retitled), (lit "osu file format v14"), (skipn 4 retitled). split; [vm_compute; reflexivity|]. split; [exists (lit "14"); split; vm_compute; reflexivity|]. intros l w I (t & -> & _). cbn in I. repeat (destruct I as [I|I]; [discriminate I|]). destruct I. }
  split. { eexists; eexists; (split; [apply settings_iff; reflexivity|]); (split; [apply settings_iff; reflexivity|]). vm_compute. reflexivity. }
  split. { eexists; eexists; (split; [apply settings_iff; reflexivity|]); (split; [apply settings_iff; reflexivity|]); apply values_check; vm_compute; reflexivity. }
  split. { eexists; eexists; (split; [apply section_rows_iff; vm_compute; reflexivity|]); (split; [apply section_rows_iff; vm_compute; reflexivity|]). apply schedule_check; [perm|vm_compute; reflexivity]. }
  eexists; eexists; (split; [apply section_rows_iff; vm_compute; reflexivity|]); (split; [apply section_rows_iff; vm_compute; reflexivity|]). apply schedule_check; [perm|vm_compute; reflexivity].
Qed.
(** Both are accepted, under different names and with different breaks. *)
Example C119_instance : section_rows sample_map "HitObjects" sample_rows /\ Forall (fun fs => is_object fs = true -> fisnan (start_of fs) = false) sample_rows /\
  view (fun b => (zlen (bm_HitObjects b), md_Creator (bm_meta b), zlen (ev_Pauses (bm_events b)))) (parse_lines 9 sample_map) = Some (Some (7, lit "Y", 0)) /\
  view (fun b => (zlen (bm_HitObjects b), md_Creator (bm_meta b), zlen (ev_Pauses (bm_events b)))) (parse_lines 9 retitled) = Some (Some (7, lit "Someone", 1)).
Proof.
  split; [exact (proj1 C17_instance)|]. split; [apply filter_fine; exact (proj1 (proj2 C17_instance))|]. split; vm_compute; reflexivity.
Qed.
End WithLibm.
Print Assumptions C119_same_play.
Print Assumptions C119_same_ratings.

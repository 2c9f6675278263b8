(** C23: which files the parser takes without a run-time panic. *)
From Coq Require Import Reals.
From Flocq Require Import BinarySingleNaN.
From Verif Require Import Parser SpecParser SpecSafety BaseLemmas FloatLemmas StringLemmas ParserProofs ObjectProofs InertProofs FinishProofs CurveProofs CurveStart ArcProofs SafetyProofs PropParser.
Open Scope Z_scope.

Section WithLibm.
Context {M : libm}.

(** C23.  If the rows are well formed and no arc has a radius over 2^22, the
    parser does not panic, whatever the rest of the text holds. *)
Theorem C23_no_panic : forall fuel ls, atan2_range -> rows_ok ls -> arcs_upto 4194304 ls -> parse_lines fuel ls <> Panic.
Proof.
  intros fuel ls HA [HE HO] AU. unfold parse_lines. destruct (foldM (parse_line fuel) pstate0 ls) as [st| |] eqn:E; cbn [bind]; [|intros _|discriminate].
  - now apply (finish_no_panic fuel ls).
  - apply loop_panic in E as (sec & fs & I & P). cbn [pstate0 st_section] in I.
    pose proof (proj2 (section_rows_iff ls sec _) eq_refl) as SR.
    destruct P as [[-> (e & P)]|[-> (s & P)]].
    + specialize (HE _ SR). rewrite Forall_forall in HE. apply event_panic in P; [|now apply rows_of_raw in I]. exact (P (HE fs I)).
    + pose proof (HO _ SR) as HO'. rewrite Forall_forall in HO'. revert P. apply object_no_panic; [now apply HO'|].
      intros T. apply slider_safe; [specialize (HO' fs I); unfold object_ok in HO'; now rewrite T in HO'|].
      intros a b c H5 Hp Hs. apply arc_no_panic; [exact HA|]. exact (AU _ fs a b c SR I (conj T (conj H5 (conj Hp Hs)))).
Qed.
(** Conversely a file that is accepted has well-formed rows, and arcs of finite
    radius: no malformed row is ever skipped or reported, it is a panic (or the
    parser does not return). *)
Theorem C23_accepted : forall fuel ls r, parse_lines fuel ls = Ok r ->
  rows_ok ls /\
  forall hr fs a b c, section_rows ls "HitObjects" hr -> In fs hr -> arc_row fs a b c -> fin (vdst a (arc_centre_of a b c)).
Proof.
  intros fuel ls r H. apply parsed in H as (st & (_ & _ & _ & EV & _ & OB) & _ & _).
  assert (F : forall {A} (step : A -> list str -> res A) (P : list str -> Prop) rs, (forall s fs s', In fs rs -> step s fs = Ok s' -> P fs) ->
    forall s s', foldM step s rs = Ok s' -> Forall P rs).
  { intros A step P rs. induction rs as [|fs rs IH]; intros K s s' H; [constructor|]. cbn [foldM] in H. apply bind_ok in H as (s1 & H1 & H). constructor.
    - apply (K s fs s1); [now left|exact H1].
    - apply (IH (fun s fs s' I => K s fs s' (or_intror I)) s1 s' H). }
  split; [split; intros rs HR; apply section_rows_iff in HR; subst rs|].
  - refine (F _ ev_step _ _ _ _ _ EV). intros s fs s' I H. apply (event_ok_of s fs s'); [now apply rows_of_raw in I|exact H].
  - refine (F _ (ob_step fuel) _ _ _ _ _ OB). intros s fs s' I H. now apply (object_ok_of fuel s fs s').
  - intros hr fs a b c HR I (T & H5 & HP & HS). apply section_rows_iff in HR. subst hr.
    pose proof (F _ (ob_step fuel) (fun fs => type_of fs = TSlider -> exists o, new_slider fuel (trims fs) = Ok o) _
      ltac:(intros s0 fs0 s' _ K T0; apply ob_step_ok in K as (_ & _ & _ & q & K & _); unfold create_object in K; apply bind_ok in K as (d3 & E3 & K);
        apply (field_idx fs0 3) in E3; subst d3; change CIRCLE with (2 ^ 0) in K; change SPINNER with (2 ^ 3) in K; change SLIDER with (2 ^ 1) in K;
        rewrite !has_type_bit in K by lia; unfold type_of in T0; cbv zeta in T0;
        destruct (Z.testbit (atoi (field 3 fs0)) 0); [discriminate T0|]; destruct (Z.testbit (atoi (field 3 fs0)) 3); [discriminate T0|];
        destruct (Z.testbit (atoi (field 3 fs0)) 1); [|destruct (Z.testbit (atoi (field 3 fs0)) 7); discriminate T0];
        unfold rmap in K; apply bind_ok in K as (o & K & _); eauto) _ _ OB) as G.
    rewrite Forall_forall in G. destruct (G fs I T) as (o & Ho). destruct (slider_needs fuel fs o Ho) as ((L & FC & _) & _).
    destruct (new_slider_eq fuel fs L FC) as (o' & s & _ & E). rewrite E in Ho. apply bind_ok in Ho as (mc & EM & _).
    apply new_multicurve_t_built in EM as (lines & p & q & EC & _ & _). rewrite H5, HP in EC. unfold curve_lines in EC.
    change (str_eqb (lit "P") (lit "P")) with true in EC. cbn iota in EC. unfold process_perfect in EC. rewrite HS in EC.
    exact (arc_finite fuel a b c lines HS EC).
Qed.
(** A row short of a field (or of a control point's colon) panics at once,
    whatever follows. *)
Theorem C23_short_row : forall fuel pre line rest fs, in_section pre (lit "HitObjects") -> no_header line -> raw_fields line fs -> object_short fs ->
  parse_lines fuel pre <> Hang -> parse_lines fuel (pre ++ line :: rest) = Panic.
Proof.
  intros fuel pre line rest fs HI HN HR HS NH. unfold parse_lines in *. rewrite foldM_app. destruct (foldM (parse_line fuel) pstate0 pre) as [st| |] eqn:E; cbn [bind foldM] in *; [|reflexivity|congruence].
  assert (P : parse_line fuel st line = Panic); [|now rewrite P].
  pose proof (st_section_in fuel pre _ st HI E) as S. unfold parse_line. destruct (version_line_f line st) as (Fs & _).
  rewrite (proj1 (header_none line) HN). destruct (version_line line st) as [sec fv me ge di ev ti obs]. cbn [st_section] in Fs. rewrite S in Fs. subst sec.
  unfold section_line. lits. rewrite (tokenize_some line fs HR). pose proof (object_panic fuel obs fs HS) as X. unfold ob_step, trims in X. now rewrite X.
Qed.
Theorem C23_short_event : forall fuel pre line rest fs, in_section pre (lit "Events") -> no_header line -> raw_fields line fs -> ~ event_ok fs ->
  parse_lines fuel pre <> Hang -> parse_lines fuel (pre ++ line :: rest) = Panic.
Proof.
  intros fuel pre line rest fs HI HN HR HS NH. unfold parse_lines in *. rewrite foldM_app. destruct (foldM (parse_line fuel) pstate0 pre) as [st| |] eqn:E; cbn [bind foldM] in *; [|reflexivity|congruence].
  assert (P : parse_line fuel st line = Panic); [|now rewrite P].
  pose proof (st_section_in fuel pre _ st HI E) as S. unfold parse_line. destruct (version_line_f line st) as (Fs & _).
  rewrite (proj1 (header_none line) HN). destruct (version_line line st) as [sec fv me ge di ev ti obs]. cbn [st_section] in Fs. rewrite S in Fs. subst sec.
  unfold section_line. lits. rewrite (tokenize_some line fs HR). pose proof HR as (_ & L & _).
  apply (event_panic ev fs L) in HS. unfold ev_step, trims in HS. destruct fs as [|x [|y fs]]; cbn [length] in L; try lia. cbn [map] in *. now rewrite HS.
Qed.
(** C58.  Building an arc terminates: the loop that brings the end angle past
    the start angle turns at most once. *)
Theorem C58_arc_terminates : forall fuel a b c, atan2_range -> radius_upto 4194304 a b c ->
  exists ls, approximate_arc (S fuel) a b c (gq 1 8) = Ok ls.
Proof. exact arc_returns. Qed.
End WithLibm.

(** ** Concrete cases *)
(** a map with an arc, edge sounds and events, in the scope of C23_no_panic *)
Definition safe_map : list str := map lit [
  "[Metadata]"; "Title:A"; "[Events]"; "0,0,bg.jpg"; "2,1000,2000"; "Sprite,x"; "[Difficulty]"; "SliderMultiplier:1.4"; "SliderTickRate:1"; "[TimingPoints]"; "0,300";
  "[HitObjects]"; "100,100,0,1,0"; "200,100,500,2,0,P|250:150|300:100,2,140,2|0|2"; "256,192,3000,12,0,4000"; "0,0,5000,128,0,6000:0"; "1,2,3,0"]%string.
Definition arc_check (n : Z) (fs : list str) : bool :=
  match slider_points fs with [a; b; c] => gle (vdst a (arc_centre_of a b c)) (g_of_Z n) | _ => true end.
Lemma arc_check_ok n ls : forallb (arc_check n) (rows_of (body "HitObjects" (annotate [] ls))) = true -> forall M : libm, arcs_upto n ls.
Proof.
  intros H M r fs a b c HR I (_ & _ & HP & _). apply section_rows_iff in HR. subst r. rewrite forallb_forall in H. specialize (H fs I).
  unfold arc_check in H. rewrite HP in H. exact H.
Qed.
(** a math library meeting the assumption on Atan2 *)
Definition zero_libm : libm :=
  {| mpow := fun _ _ => f0; mlog10 := fun _ => f0; mcbrt := fun _ => f0; msin := fun _ => f0; mcos := fun _ => f0; macos := fun _ => f0; matan2 := fun _ _ => f0 |}.
Example C23_instance : @atan2_range zero_libm /\ rows_ok safe_map /\ (forall M : libm, arcs_upto 4194304 safe_map) /\
  view (fun b => map (fun o => zlen (ho_sounds o)) (bm_HitObjects b)) (@parse_lines zero_libm 9 safe_map) = Some (Some [1; 3; 1]).
Proof.
  split; [intros y x _ _; split; vm_compute; reflexivity|]. split; [|split; [apply arc_check_ok; vm_compute; reflexivity|vm_compute; reflexivity]].
  split; intros r H; apply section_rows_iff in H; subst r.
  - set (l := rows_of _). vm_compute in l. subst l. repeat (apply Forall_cons; [unfold event_ok; intros _; cbn [length]; lia|]).
    apply Forall_cons; [|constructor]. intros H. exfalso. cbv in H. repeat (destruct H as [H|H]; [discriminate H|]). exact H.
  - set (l := rows_of _). vm_compute in l. subst l. repeat apply Forall_cons; [| | | | |constructor]; unfold object_ok.
    + change (type_of _) with TCircle. cbn. lia.
    + change (type_of _) with TSlider. split; [cbn; lia|]. split; [|split; vm_compute; intuition congruence].
      apply Forall_forall. intros p H. apply contains_iff. revert p H. apply forallb_forall. vm_compute. reflexivity.
    + change (type_of _) with TSpinner. cbn. lia.
    + change (type_of _) with THold. cbn. lia.
    + change (type_of _) with TOther. cbn. lia.
Qed.
(** every kind of malformed row panics, in a file that is otherwise accepted *)
Definition with_row (sec row : string) : list str := map lit ["[Metadata]"; "Title:A"; "[TimingPoints]"; "0,300"; "[HitObjects]"; "100,100,0,1,0"; sec; row]%string.
Example C23_instance_rows : forall M : libm, Forall (fun p => parse_lines 9 (with_row (fst p) (snd p)) = Panic) [
  ("[HitObjects]", "100,100,0"); ("[HitObjects]", "100,100,0,1"); ("[HitObjects]", "100,100,0,8,0"); ("[HitObjects]", "100,100,0,128,0");
  ("[HitObjects]", "100,100,0,2,0,L|200:100,1"); ("[HitObjects]", "100,100,0,2,0,L|200,1,100"); ("[HitObjects]", "100,100,0,2,0,L|200:100,-2,100");
  ("[HitObjects]", "100,100,0,2,0,L|200:100,99999999999999,100"); ("[HitObjects]", "100,100,0,2,0,L|200:100,1,100,0|0|0");
  ("[Events]", "0,0"); ("[Events]", "Break,100")]%string /\
  match parse_lines 9 (with_row "[HitObjects]" "100,100,0,2,0,L|200:100,-1,100,")%string with Ok _ => False | _ => True end /\
  match parse_lines 9 (with_row "[Events]" "1,0")%string with Ok (Some _) => True | _ => False end.
Proof. intros M. split; [repeat (apply Forall_cons; [vm_compute; reflexivity|]); constructor|]. split; vm_compute; exact I. Qed.
Example C23_instance_short : in_section (with_row "[Colours]" "[HitObjects]") (lit "HitObjects") /\ no_header (lit "100,100,0,1") /\
  raw_fields (lit "100,100,0,1") (map lit ["100"; "100"; "0"; "1"]%string) /\ object_short (map lit ["100"; "100"; "0"; "1"]%string) /\
  (forall M : libm, parse_lines 9 (with_row "[Colours]" "[HitObjects]") <> Hang) /\
  raw_fields (lit "0,0") (map lit ["0"; "0"]%string) /\ ~ event_ok (map lit ["0"; "0"]%string).
Proof.
  split; [left; exists (map lit ["[Metadata]"; "Title:A"; "[TimingPoints]"; "0,300"; "[HitObjects]"; "100,100,0,1,0"; "[Colours]"]%string), (lit "[HitObjects]"), []; split; [reflexivity|]; split; [apply header_iff; split; [discriminate|reflexivity]|constructor]|].
  split; [exact (proj2 (header_none (lit "100,100,0,1")) eq_refl)|]. split; [apply raw_fields_iff; split; [apply comment_false; reflexivity|split; [cbn; tauto|reflexivity]]|].
  split; [unfold object_short; change (type_of _) with TCircle; cbn; lia|]. split; [intros M H; assert (X : match parse_lines 9 (with_row "[Colours]" "[HitObjects]") with Hang => false | _ => true end = true) by (vm_compute; reflexivity); rewrite H in X; discriminate X|].
  split; [apply raw_fields_iff; split; [apply comment_false; reflexivity|split; [cbn; tauto|reflexivity]]|].
  intros H. unfold event_ok in H. assert (I : In (field 0 (map lit ["0"; "0"]%string)) [lit "Background"; lit "0"; lit "Break"; lit "2"]) by (right; left; reflexivity).
  apply H in I. cbn in I. lia.
Qed.
(** An ordinary-looking slider through three nearly collinear points: no maths
    library and no amount of time makes the parser accept it. *)
Definition arc_map : list str := with_row "[HitObjects]" "307.8,31.8,0,2,0,P|314.7:58.4|335.4:138.2,1,100".
Definition arc_fields : list str := map lit ["307.8"; "31.8"; "0"; "2"; "0"; "P|314.7:58.4|335.4:138.2"; "1"; "100"]%string.
Example C23_instance_arc : forall (M : libm) fuel r, parse_lines fuel arc_map <> Ok r.
Proof.
  intros M fuel r H. apply C23_accepted in H as [_ H].
  specialize (H _ arc_fields (nth 0 (slider_points arc_fields) vzero) (nth 1 (slider_points arc_fields) vzero) (nth 2 (slider_points arc_fields) vzero) (proj2 (section_rows_iff arc_map "HitObjects" _) eq_refl)).
  assert (I : In arc_fields (rows_of (body "HitObjects" (annotate [] arc_map)))) by (vm_compute; right; left; reflexivity).
  specialize (H I). assert (A : arc_row arc_fields (nth 0 (slider_points arc_fields) vzero) (nth 1 (slider_points arc_fields) vzero) (nth 2 (slider_points arc_fields) vzero)).
  { split; [vm_compute; reflexivity|]. split; [vm_compute; reflexivity|]. split; [|vm_compute; reflexivity].
    assert (L : length (slider_points arc_fields) = 3%nat) by (vm_compute; reflexivity).
    destruct (slider_points arc_fields) as [|x [|y [|z [|w q]]]]; try discriminate L. reflexivity. }
  specialize (H A). unfold fin in H. revert H. 
  assert (B : is_finite (vdst (nth 0 (slider_points arc_fields) vzero) (arc_centre_of (nth 0 (slider_points arc_fields) vzero) (nth 1 (slider_points arc_fields) vzero) (nth 2 (slider_points arc_fields) vzero))) = false) by (vm_compute; reflexivity).
  rewrite B. discriminate.
Qed.
Example C23_instance_arc_panics : @parse_lines zero_libm 9 arc_map = Panic.
Proof. vm_compute. reflexivity. Qed.

Example C58_instance : (forall M : libm, radius_upto 4194304 (mkVec (gq 200 1) (gq 100 1)) (mkVec (gq 250 1) (gq 150 1)) (mkVec (gq 300 1) (gq 100 1))) /\
  @atan2_range zero_libm.
Proof. split; [intros M; vm_compute; reflexivity|apply C23_instance]. Qed.

Print Assumptions C58_arc_terminates.
Print Assumptions C23_no_panic.
Print Assumptions C23_accepted.
Print Assumptions C23_short_row.
Print Assumptions C23_short_event.

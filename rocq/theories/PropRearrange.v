(** C98: the order of sections, settings and rows does not matter. *)
From Coq Require Import Permutation Reals Lra ZArith Lia Bool Ascii String List.
From Verif Require Import Parser SpecParser SpecMap SpecTiming SpecRearrange BaseLemmas FloatLemmas SortLemmas TimingProofs StringLemmas ParserProofs
  ObjectProofs FinishProofs InertProofs EventProofs MapProofs RearrangeProofs PropMap PropParser.
Import ListNotations.
Open Scope Z_scope.

Section WithLibm.
Context {M : libm}.

Lemma versions_none r : (forall l v, In l r -> ~ version l v) -> versions r = [].
Proof.
  unfold versions. induction r as [|l r IH]; intros K; [reflexivity|]. cbn [filter]. change (has_prefix l vpre) with (has_prefix l (lit "osu file format v")). rewrite (version_none l) by (intros v; apply K; now left).
  apply IH. intros; apply K; now right.
Qed.
Lemma latest_last ls v : latest_version ls v -> last (versions ls) 0 = v.
Proof.
  intros [[K ->]|(a & l & r & -> & (t & -> & ->) & K)]; [now rewrite (versions_none ls K)|].
  pose proof (versions_none r K) as N. unfold versions in *. rewrite filter_app, map_app. cbn [filter].
  rewrite (proj2 (has_prefix_iff vpre (lit "osu file format v" ++ t))) by (exists t; reflexivity). cbn [map].
  destruct (map _ (filter _ r)); [|discriminate].
  rewrite last_last. unfold trim_prefix. rewrite (proj2 (has_prefix_iff vpre (lit "osu file format v" ++ t))) by (exists t; reflexivity). reflexivity.
Qed.
Lemma length_same h h' ts ts' m : Permutation h h' -> Forall2 row_time h ts -> Forall2 row_time h' ts' -> fold_left Z.max ts m = fold_left Z.max ts' m.
Proof.
  intros P F F'. destruct (Permutation_Forall2 P F) as (t2 & P2 & F2). rewrite (fold_max_perm ts t2 m P2). f_equal. eapply F2_fun; [|exact F2|exact F']. exact row_time_fun.
Qed.
Lemma finish_same fuel st st' : st_FileVersion st = st_FileVersion st' -> st_meta st = st_meta st' -> st_general st = st_general st' -> st_diff st = st_diff st' -> st_events st = st_events st' ->
  stable_sort point_lt (ts_points (st_time st)) = stable_sort point_lt (ts_points (st_time st')) -> ts_MinBPM (st_time st) = ts_MinBPM (st_time st') -> ts_MaxBPM (st_time st) = ts_MaxBPM (st_time st') -> ts_counter (st_time st) = ts_counter (st_time st') ->
  os_Length (st_objs st) = os_Length (st_objs st') -> os_Circles (st_objs st) = os_Circles (st_objs st') -> os_Sliders (st_objs st) = os_Sliders (st_objs st') -> os_Spinners (st_objs st) = os_Spinners (st_objs st') ->
  stable_sort obj_lt (os_objects (st_objs st)) = stable_sort obj_lt (os_objects (st_objs st')) -> finish_parse fuel st = finish_parse fuel st'.
Proof.
  intros V Me G D E P Mi Ma C L C1 C2 C3 O. unfold finish_parse, finalize_points. cbn [t_points t_SliderMult t_TickRate t_original]. rewrite V, Me, G, D, E, P, Mi, Ma, C, L, C1, C2, C3, O. reflexivity.
Qed.

(** A file that says the same in another order yields the same map, or the same refusal. *)
Theorem C98_rearranged : forall fuel ls ls' hr r, rearranged ls ls' -> section_rows ls "HitObjects" hr ->
  Forall (fun fs => is_object fs = true -> fisnan (start_of fs) = false) hr ->
  parse_lines fuel ls = Ok r -> parse_lines fuel ls' = Ok r.
Proof.
  intros fuel ls ls' hr r ((v & V & V') & S & (e & e' & He & He' & Bg & Br) & (t & t' & Ht & Ht' & St) & (h & h' & Hh & Hh' & So)) Hr Nn H.
  assert (hr = h) by (apply section_rows_iff in Hr, Hh; congruence). subst hr.
  apply section_rows_iff in He, He', Ht, Ht', Hh, Hh'.
  apply parsed in H as (st & (Rm & Rg & Rd & Re & Rt & Ro) & Vs & F). rewrite <- He in Re. rewrite <- Ht in Rt. rewrite <- Hh in Ro.
  assert (K : exists st', foldM (parse_line fuel) pstate0 ls' = Ok st').
  { apply run_back; cbn [st_section pstate0].
    - rewrite <- He'. intros fs ev I. destruct (is_background fs) eqn:E1; [|destruct (is_break fs) eqn:E2].
      + assert (J : In fs (filter is_background e)) by (rewrite Bg; apply filter_In; split; assumption). apply filter_In in J as [J _]. destruct (fold_any _ _ _ _ Re fs J) as (s & s' & Q). exact (ev_any fs ev s s' Q).
      + assert (J : In fs (filter is_break e)) by (rewrite Br; apply filter_In; split; assumption). apply filter_In in J as [J _]. destruct (fold_any _ _ _ _ Re fs J) as (s & s' & Q). exact (ev_any fs ev s s' Q).
      + apply ev_other; [exact E1|exact E2|]. subst e'. exact (rows_len _ _ I).
    - rewrite <- Hh'. intros fs ob I. apply (Permutation_in _ (Permutation_sym (proj1 So))) in I. destruct (fold_any _ _ _ _ Ro fs I) as (s & s' & Q). exact (ob_any fuel fs ob s s' Q). }
  destruct K as (st' & K). unfold parse_lines. rewrite K. cbn [bind]. apply run_ok in K as [(Rm' & Rg' & Rd' & Re' & Rt' & Ro') Vs']. cbn [st_section pstate0] in *.
  rewrite <- He' in Re'. rewrite <- Ht' in Rt'. rewrite <- Hh' in Ro'. rewrite <- F. symmetry.
  inversion S as [|? ? (g & g' & Sg & Sg' & Eg) S1]; subst. inversion S1 as [|? ? (m & m' & Sm & Sm' & Em) S2]; subst. inversion S2 as [|? ? (d & d' & Sd & Sd' & Ed) _]; subst. clear S S1 S2.
  apply settings_iff in Sg, Sg', Sm, Sm', Sd, Sd'. rewrite <- Sm in Rm. rewrite <- Sm' in Rm'. rewrite <- Sg in Rg. rewrite <- Sg' in Rg'. rewrite <- Sd in Rd. rewrite <- Sd' in Rd'.
  pose proof (time_rows _ _ Rt) as [Ct Pt]. pose proof (time_rows _ _ Rt') as [Ct' Pt'].
  pose proof (pt_fold_bpm _ (rows_ok _) _ _ Rt) as [Mi Ma]. pose proof (pt_fold_bpm _ (rows_ok _) _ _ Rt') as [Mi' Ma'].
  pose proof (tempos_perm _ _ (proj1 St)) as PT. pose proof (tempos_pz (rows_of (body "TimingPoints" (annotate [] ls)))) as PZ.
  pose proof (ob_fold_time _ _ _ _ Ro) as (ts & Fts & Lt). pose proof (ob_fold_time _ _ _ _ Ro') as (ts' & Fts' & Lt').
  apply ob_fold_ok in Ro as (C1 & C2 & C3 & os & Fo & Ff & Eo). apply ob_fold_ok in Ro' as (C1' & C2' & C3' & os' & Fo' & Ff' & Eo').
  pose proof (ev_fold _ _ _ Re) as [Eb Ep]. pose proof (ev_fold _ _ _ Re') as [Eb' Ep'].
  cbn [pstate0 st_events st_time st_objs timesec0 ts_points ts_MinBPM ts_MaxBPM ts_counter os_Length os_Circles os_Sliders os_Spinners os_objects app ev_Bg ev_Pauses st_meta st_general st_diff st_FileVersion] in *.
  apply finish_same.
  - rewrite Vs, Vs', (latest_last _ _ V), (latest_last _ _ V'). reflexivity.
  - rewrite Rm, Rm'. now apply kv_same; [intros; apply meta_comm|].
  - rewrite Rg, Rg'. now apply kv_same; [intros; apply general_comm|].
  - rewrite Rd, Rd'. apply kv_same; [intros; now apply diff_comm|exact Ed].
  - destruct (st_events st) as [b1 p1], (st_events st') as [b2 p2]. cbn [ev_Bg ev_Pauses] in *. rewrite Eb, Eb', Ep, Ep', Bg, Br. reflexivity.
  - rewrite Pt, Pt'. now apply points_same.
  - rewrite Mi, Mi'. apply fmin_perm; [exact PT|exact PZ|]. split; vm_compute; reflexivity.
  - rewrite Ma, Ma'. apply fmax_perm; [exact PT|exact PZ|]. split; vm_compute; reflexivity.
  - rewrite Ct, Ct'. unfold zlen. now rewrite (Permutation_length (proj1 St)).
  - rewrite Lt, Lt'. eapply length_same; [exact (proj1 So)|exact Fts|exact Fts'].
  - rewrite C1, C1'. f_equal. apply count_perm, (proj1 So).
  - rewrite C2, C2'. f_equal. apply count_perm, (proj1 So).
  - rewrite C3, C3'. f_equal. apply count_perm, (proj1 So).
  - rewrite Eo, Eo'. eapply objects_same; [exact So| |exact Fo|exact Ff|exact Fo'|exact Ff']. rewrite Forall_forall in *. intros x I. apply filter_In in I as [I J]. now apply Nn.
Qed.

(** ** An instance: the sample map with its sections split and moved *)
Definition shuffled_map : list str := map lit [
  "[HitObjects]"; "100,300,5000,1,0"; "256,192,500,21,0"; "[TimingPoints]"; "2000,-50,4,1,0,100,0,1"; "[Difficulty]"; "SliderTickRate:1"; "HPDrainRate:-3";
  "[HitObjects]"; "100,100,4000,2,0,L|200:100,1,100"; "100,100,500,1,0"; "256,192,1000,1,0"; "Nothing here"; "[Metadata]"; "Artist:X"; "Title:old"; "Version:Hard"; "Creator:Y"; "Title: A: b";
  "[TimingPoints]"; "// a comment, ignored"; "0,300,4,1,0,100,1,0"; "[Difficulty]"; "OverallDifficulty:8"; "ApproachRate:9.5"; "SliderMultiplier:1.4"; "CircleSize:12"; "[Colours]"; "Combo1 : 1,2,3";
  "[Events]"; "Video,1,2"; "osu file format v14"; "[General]"; "StackLeniency: 0.5"; "AudioFilename: a.mp3"; "AudioFilename: b"; "Mode: 0";
  "[HitObjects]"; "100,100,3500,1,0"; "100,100,2000,12,0,3000"]%string.
Definition rows_eqb (a b : list (list str)) : bool := if list_eq_dec (list_eq_dec (list_eq_dec ascii_dec)) a b then true else false.
Lemma schedule_check kind time r r' : Permutation r r' -> forallb (fun w => rows_eqb (filter (fun fs => kind fs && feq (time fs) (time w)) r) (filter (fun fs => kind fs && feq (time fs) (time w)) r')) r = true -> same_schedule kind time r r'.
Proof.
  intros P C. split; [exact P|]. intros t. rewrite forallb_forall in C.
  assert (Q : forall w, In w r -> feq (time w) t = true -> forall x, feq (time x) t = feq (time x) (time w)).
  { intros w _ Hw x. apply feq_iff in Hw as (A & B & C1). destruct (feq (time x) (time w)) eqn:E; [apply feq_iff in E as (A1 & B1 & C2); apply feq_iff; split; [exact A1|]; split; [exact B|congruence]|].
    destruct (feq (time x) t) eqn:E2; [|reflexivity]. rewrite <- E. apply feq_iff in E2 as (A1 & B1 & C2). symmetry. apply feq_iff. split; [exact A1|]. split; [exact A|congruence]. }
  destruct (existsb (fun w => feq (time w) t) r) eqn:X.
  - apply existsb_exists in X as (w & I & Hw). specialize (C w I). unfold rows_eqb in C. destruct (list_eq_dec _ _ _) as [E|]; [|discriminate C].
    rewrite !(filter_agree (fun fs => kind fs && feq (time fs) t) (fun fs => kind fs && feq (time fs) (time w))); [exact E| |]; intros x _; now rewrite (Q w I Hw).
  - assert (Z : forall l, (forall x, In x l -> In x r) -> filter (fun fs => kind fs && feq (time fs) t) l = []).
    { intros l Hl. apply TimingProofs.filter_none. intros x I. destruct (feq (time x) t) eqn:E; [|apply andb_false_r]. assert (existsb (fun w => feq (time w) t) r = true) by (apply existsb_exists; exists x; split; [now apply Hl|exact E]). congruence. }
    rewrite (Z r), (Z r'); auto. intros x I. exact (Permutation_in _ (Permutation_sym P) I).
Qed.
Definition values_eqb (s s' : list (str * str)) : bool := forallb (fun k => if list_eq_dec (list_eq_dec ascii_dec) (map snd (filter (fun p => str_eqb (fst p) k) s)) (map snd (filter (fun p => str_eqb (fst p) k) s')) then true else false) (map fst s ++ map fst s').
Lemma values_check s s' : values_eqb s s' = true -> same_values s s'.
Proof.
  intros H k. unfold values_eqb in H. rewrite forallb_forall in H. destruct (in_dec (list_eq_dec ascii_dec) k (map fst s ++ map fst s')) as [I|N].
  - specialize (H k I). destruct (list_eq_dec _ _ _) as [E|]; [exact E|discriminate H].
  - assert (Z : forall l : list (str * str), ~ In k (map fst l) -> filter (fun p => str_eqb (fst p) k) l = []).
    { intros l Nl. apply TimingProofs.filter_none. intros p I. destruct (str_eqb (fst p) k) eqn:E; [|reflexivity]. apply str_eqb_eq in E. exfalso. apply Nl. rewrite <- E. now apply in_map. }
    rewrite !Z; [reflexivity| |]; intros I; apply N; apply in_or_app; auto.
Qed.
Ltac perm := cbn [app]; match goal with
  | |- Permutation [] [] => constructor
  | |- Permutation (?a :: ?l) ?r =>
    let rec go pre rest := match rest with
      | a :: ?q => change (Permutation (a :: l) (pre ++ a :: q)); apply Permutation_cons_app; perm
      | ?b :: ?q => let p := eval cbn [app] in (pre ++ [b]) in go p q end in
    let n := constr:(@nil (list str)) in go n r end.
Example C98_shuffled : rearranged sample_map shuffled_map.
Proof.
  split.
  { exists 14. split; right.
    - exists [], (lit "osu file format v14"), (tl sample_map). split; [reflexivity|]. split; [exists (lit "14"); split; vm_compute; reflexivity|]. intros l w I (t & -> & _). cbn in I. repeat (destruct I as [I|I]; [discriminate I|]). destruct I.
    - exists (firstn 31 shuffled_map), (lit "osu file format v14"), (skipn 32 shuffled_map). split; [vm_compute; reflexivity|]. split; [exists (lit "14"); split; vm_compute; reflexivity|]. intros l w I (t & -> & _). cbn in I. repeat (destruct I as [I|I]; [discriminate I|]). destruct I. }
  split.
  { repeat constructor; eexists; eexists; (split; [apply settings_iff; reflexivity|]); (split; [apply settings_iff; reflexivity|]); apply values_check; vm_compute; reflexivity. }
  split.
  { eexists; eexists; (split; [apply section_rows_iff; reflexivity|]); (split; [apply section_rows_iff; reflexivity|]). split; vm_compute; reflexivity. }
  split.
  { eexists; eexists; (split; [apply section_rows_iff; vm_compute; reflexivity|]); (split; [apply section_rows_iff; vm_compute; reflexivity|]). apply schedule_check; [perm|vm_compute; reflexivity]. }
  eexists; eexists; (split; [apply section_rows_iff; vm_compute; reflexivity|]); (split; [apply section_rows_iff; vm_compute; reflexivity|]). apply schedule_check; [perm|vm_compute; reflexivity].
Qed.
(** It parses, so the theorem applies; the two files do give the same map. *)
Lemma view_some {A} (f : beatmap -> A) r x : view f r = Some (Some x) -> exists b, r = Ok (Some b) /\ f b = x.
Proof. unfold view. intros K. destruct r as [[b|]| |]; try discriminate K. exists b. split; [reflexivity|congruence]. Qed.
Lemma filter_fine (P : list str -> Prop) (k : list str -> bool) (l : list (list str)) : Forall P (filter k l) -> Forall (fun fs => k fs = true -> P fs) l.
Proof. intros N. rewrite Forall_forall in *. intros fs I J. apply N. apply filter_In. split; assumption. Qed.
Lemma rearr_instance fuel ls ls' hr n : rearranged ls ls' -> section_rows ls "HitObjects" hr -> Forall (fun fs => fisnan (start_of fs) = false) (filter is_object hr) ->
  view (fun b => zlen (bm_HitObjects b)) (parse_lines fuel ls) = Some (Some n) -> exists b, parse_lines fuel ls = Ok (Some b) /\ parse_lines fuel ls' = Ok (Some b) /\ zlen (bm_HitObjects b) = n.
Proof.
  intros R Hr N K. apply view_some in K as (b & K & L). exists b. split; [exact K|]. split; [|exact L]. exact (C98_rearranged fuel ls ls' hr (Some b) R Hr (filter_fine _ _ _ N) K).
Qed.
Example C98_instance : exists b, parse_lines 9 sample_map = Ok (Some b) /\ parse_lines 9 shuffled_map = Ok (Some b) /\ zlen (bm_HitObjects b) = 7.
Proof.
  apply (rearr_instance 9 sample_map shuffled_map sample_rows 7); [exact C98_shuffled|exact (proj1 C17_instance)|exact (proj1 (proj2 C17_instance))|]. vm_compute. reflexivity.
Qed.
(** Rows of the same time keep their order for a reason: it shows in the map. *)
Definition tied (a b : string) : list str := map lit ["[Metadata]"; "Title:A"; "[TimingPoints]"; "0,300"; "[HitObjects]"; a; b]%string.
Example C98_ties : view (fun b => map (fun o => (ho_id o, int_of_f (f_of_g (vx (ho_startPos o))))) (bm_HitObjects b)) (parse_lines 0 (tied "1,1,500,1,0" "9,9,500,1,0")) = Some (Some [(0, 1); (1, 9)]) /\
  view (fun b => map (fun o => (ho_id o, int_of_f (f_of_g (vx (ho_startPos o))))) (bm_HitObjects b)) (parse_lines 0 (tied "9,9,500,1,0" "1,1,500,1,0")) = Some (Some [(0, 9); (1, 1)]).
Proof. split; vm_compute; reflexivity. Qed.
End WithLibm.

Print Assumptions C98_rearranged.

(** What a successful parse gives, in terms of the file's sections. *)
From Coq Require Import Permutation.
From Verif Require Import Parser SpecParser SpecTiming SpecStacking SpecDifficulty BaseLemmas FloatLemmas SortLemmas TimingProofs
  StackingProofs StringLemmas ParserProofs ObjectProofs FinishProofs SettingsProofs.
Import ListNotations.
Open Scope Z_scope.

Section WithLibm.
Context {M : libm}.

Lemma Forall2_In_r {A B} (R : A -> B -> Prop) l l' : Forall2 R l l' -> forall y, In y l' -> exists x, In x l /\ R x y.
Proof.
  induction 1 as [|x y l l' H F IH]; [intros ? []|]. intros z [<-|Hz]; [exists x; split; [now left|exact H]|].
  destruct (IH z Hz) as (w & Hw & Rw). exists w. split; [now right|exact Rw].
Qed.
Lemma rows_len b r : In r (rows_of b) -> (2 <= length r)%nat.
Proof.
  induction b as [|l b IH]; [intros []|]. cbn [rows_of]. destruct (tokenize_cases l) as [[E H]|[E H]]; rewrite E; [|exact IH].
  intros [<-|Hr]; [|auto]. now destruct H as (_ & H & _).
Qed.
Lemma rows_ok b r : In r (rows_of b) -> (2 <= length r)%nat /\ Forall (fun f => ~ In ","%char f) r.
Proof. intros H. split; [now apply (rows_len b)|now apply (rows_of_commas b)]. Qed.
Lemma time_rows b s' : foldM pt_step timesec0 (rows_of b) = Ok s' ->
  ts_counter s' = zlen (rows_of b) /\ ts_points s' = map timing_point (rows_of b).
Proof.
  intros H. destruct (pt_fold (rows_of b) (rows_ok b) timesec0) as (t' & E & C & P). rewrite H in E. injection E as <-. auto.
Qed.

Lemma map_facts fuel ls b hr tr ms gs ds : parse_lines fuel ls = Ok (Some b) ->
  section_rows ls "HitObjects" hr -> section_rows ls "TimingPoints" tr ->
  settings ls "Metadata" ms -> settings ls "General" gs -> settings ls "Difficulty" ds ->
  let tim := tim_of (last_value "SliderMultiplier" ds parse_f64 f0) (last_value "SliderTickRate" ds parse_f64 f0) (map timing_point tr) in
  bm_FileVersion b = last (versions ls) 0 /\ bm_meta b = kvfold parse_metadata ms meta0 /\ bm_general b = kvfold parse_general gs general0 /\
  bm_Difficulty b = ds_Difficulty (kvfold parse_difficulty ds diffsec0) /\
  bm_SliderMultiplier b = last_value "SliderMultiplier" ds parse_f64 f0 /\ bm_Timings b = tim /\
  bm_Circles b = count_type is_TC hr /\ bm_Sliders b = count_type is_TS hr /\ bm_Spinners b = count_type is_TP hr /\
  Forall2 (done tim) (stable_sort row_lt (filter is_object hr)) (bm_HitObjects b) /\
  (forall k o, nth_error (bm_HitObjects b) k = Some o -> combo_of (stable_sort row_lt (filter is_object hr)) k o) /\
  exists objs, bm_HitObjects b = stack_leniency (bm_Difficulty b) (bm_FileVersion b) (gn_StackLeniency (bm_general b)) objs.
Proof.
  intros H Hh Ht Hm Hg Hd tim. apply section_rows_iff in Hh, Ht. apply settings_iff in Hm, Hg, Hd.
  apply parsed in H as (st & R & V & F). destruct R as (Rm & Rg & Rd & _ & Rt & Ro).
  change (st_meta pstate0) with meta0 in Rm. change (st_general pstate0) with general0 in Rg. change (st_diff pstate0) with diffsec0 in Rd.
  change (st_time pstate0) with timesec0 in Rt. rewrite <- Hm in Rm. rewrite <- Hg in Rg. rewrite <- Hd in Rd.
  apply time_rows in Rt as [_ Pt]. rewrite <- Ht in Pt. rewrite <- Hh in Ro.
  apply ob_fold_ok in Ro as (C1 & C2 & C3 & objs & _ & FO & EO). cbn [os_Circles os_Sliders os_Spinners os_objects st_objs pstate0 app] in C1, C2, C3, EO.
  rewrite Z.add_0_l in C1, C2, C3.
  apply finish_some in F as (E1 & E2 & E3 & E4 & E5 & _ & _ & E6 & E7 & E8 & _ & _ & E9 & objs3 & E10 & E11).
  assert (Ti : tim_of (ds_SliderMult (st_diff st)) (ds_TickRate (st_diff st)) (ts_points (st_time st)) = tim).
  { unfold tim. rewrite Pt, Rd, dif_tsm, dif_tr. reflexivity. }
  rewrite Ti in E9, E10. rewrite EO in E10.
  destruct (finish_objects fuel tim (filter is_object hr) objs objs3 (bm_Difficulty b) (bm_FileVersion b) (gn_StackLeniency (bm_general b)) FO E10) as [D C].
  rewrite <- E11 in D, C.
  split; [congruence|]. split; [congruence|]. split; [congruence|]. split; [congruence|].
  split; [rewrite E4, Rd, dif_sm; reflexivity|]. split; [exact E9|]. split; [congruence|]. split; [congruence|]. split; [congruence|].
  split; [exact D|]. split; [exact C|]. exists objs3. exact E11.
Qed.

Lemma none_facts fuel ls r tr ms : parse_lines fuel ls = Ok r -> section_rows ls "TimingPoints" tr -> settings ls "Metadata" ms ->
  (r = None <-> (last_value "Title" ms ident [] = [] /\ last_value "Artist" ms ident [] = [] /\ last_value "Creator" ms ident [] = []) \/ tr = []).
Proof.
  intros H Ht Hm. apply section_rows_iff in Ht. apply settings_iff in Hm.
  apply parsed in H as (st & R & _ & F). destruct R as (Rm & _ & _ & _ & Rt & _).
  change (st_meta pstate0) with meta0 in Rm. change (st_time pstate0) with timesec0 in Rt. rewrite <- Hm in Rm.
  apply time_rows in Rt as [Ct _]. rewrite <- Ht in Ct.
  rewrite (finish_none fuel st r F), Rm, meta_title, meta_artist, meta_creator, Ct.
  change (md_Title meta0) with (@nil ascii). change (md_Artist meta0) with (@nil ascii). change (md_Creator meta0) with (@nil ascii).
  assert (E : zlen tr = 0 <-> tr = []) by (destruct tr; unfold zlen; cbn [length]; split; intros; try congruence; lia). rewrite E. reflexivity.
Qed.

(** counting *)
Lemma count_perm ok a b : Permutation a b -> count_type ok a = count_type ok b.
Proof.
  intros P. induction P; rewrite ?count_cons; try lia; try reflexivity.
Qed.
Lemma count_filter ok rs : (forall fs, ok (type_of fs) = true -> is_object fs = true) -> count_type ok (filter is_object rs) = count_type ok rs.
Proof.
  intros H. induction rs as [|fs rs IH]; [reflexivity|]. cbn [filter]. rewrite (count_cons ok fs rs).
  destruct (is_object fs) eqn:E; [rewrite count_cons; lia|]. unfold counts_as. destruct (ok (type_of fs)) eqn:K; [apply H in K; congruence|lia].
Qed.
Definition is_TSlider t := match t with TSlider => true | _ => false end.
Lemma count_kinds rs os : Forall2 describes rs os ->
  zlen (filter is_circle os) = count_type is_TC rs /\ zlen (filter is_slider os) = count_type is_TSlider rs /\
  zlen (filter is_spinner os) = count_type is_TP rs /\ zlen os = zlen rs.
Proof.
  induction 1 as [|fs o rs os D F IH]; [repeat split|]. destruct IH as (I1 & I2 & I3 & I4). rewrite !count_cons.
  destruct D as (_ & _ & _ & D). unfold counts_as. unfold zlen in *. cbn [filter].
  assert (K : is_circle o = is_TC (type_of fs) /\ is_slider o = is_TSlider (type_of fs) /\ is_spinner o = is_TP (type_of fs)).
  { unfold is_circle, is_slider, is_spinner. destruct (type_of fs); cbn; try contradiction.
    - destruct D as (-> & _). auto.
    - destruct D as (-> & _). auto.
    - destruct D as (sd & -> & _). auto. }
  destruct K as (-> & -> & ->). destruct (is_TC _), (is_TSlider _), (is_TP _); cbn [length]; repeat split; lia.
Qed.
Lemma no_holds rs : Forall (fun fs => type_of fs <> THold) rs -> count_type is_TSlider rs = count_type is_TS rs.
Proof.
  induction 1 as [|fs rs H F IH]; [reflexivity|]. rewrite !count_cons, IH. f_equal. unfold counts_as. destruct (type_of fs); try reflexivity. congruence.
Qed.

(** the timing points *)
Lemma timing_point_fresh fs : fresh (timing_point fs).
Proof.
  split; [reflexivity|]. cbn [timing_point cp_Time]. unfold f_of_Z. apply normalize_num.
Qed.
Lemma timing_fresh rs : Forall fresh (map timing_point rs).
Proof. induction rs; cbn [map]; constructor; auto using timing_point_fresh. Qed.
Lemma tim_nonempty sm tr rs : rs <> [] -> t_points (tim_of sm tr (map timing_point rs)) <> [].
Proof.
  intros H E. rewrite (proj1 (tim_points sm tr (map timing_point rs))) in E.
  destruct (c12 (map timing_point rs) (timing_fresh rs)) as (l' & F & P & _). rewrite E in F. inversion F; subst.
  apply Permutation_length in P. rewrite map_length in P. destruct rs; [congruence|discriminate].
Qed.
Lemma tim_lookup sm tr rs t : rs <> [] -> fisnan t = false -> exists p q,
  get_point_at (tim_of sm tr (map timing_point rs)) t = Ok p /\ same_but_base p q /\ looked_up (map timing_point rs) t q.
Proof.
  intros H N. destruct (c11 (map timing_point rs) t (timing_fresh rs) N) as (p & q & E & S & L); [destruct rs; [congruence|discriminate]|].
  exists p, q. unfold get_point_at in *. rewrite (proj1 (tim_points sm tr (map timing_point rs))). auto.
Qed.
End WithLibm.

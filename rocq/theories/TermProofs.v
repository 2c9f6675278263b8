(** The parser returns: no row and no slider keeps it busy forever. *)
From Coq Require Import Reals Lra.
From Flocq Require Import Core BinarySingleNaN.
From Verif Require Import Parser SpecParser SpecSafety SpecTerm SpecCurves SpecSliders BaseLemmas SortLemmas FloatLemmas Float32Lemmas KeyLemmas BoundLemmas
  StringLemmas ParserProofs ObjectProofs FinishProofs InertProofs SettingsProofs MapProofs TimingProofs CurveProofs CurveStart ArcProofs SliderProofs SliderLoops FuelProofs SafetyProofs CurveTerm.
Open Scope Z_scope.

Section WithLibm.
Context {M : libm}.

Lemma tame_settles fs : atan2_range -> slider_tame fs -> settles (fun n => row_curve n fs).
Proof.
  intros HA (HB & HC & _). apply curve_settles; [discriminate|exact HB|].
  unfold arc_settles. fold (row_type fs). destruct (slider_points fs) as [|a [|b [|c [|]]]] eqn:E; auto. intros T S.
  destruct (arc_returns 0 a b c HA (HC a b c T eq_refl S)) as (ls & EL). apply (settles_up _ 1%nat ls); [|exact EL].
  intros n m L. now apply approximate_arc_up.
Qed.

(** ** The line loop does not hang *)
Lemma object_hang fuel s fs : ob_step fuel s fs = Hang -> type_of fs = TSlider /\ new_slider fuel (trims fs) = Hang.
Proof.
  unfold ob_step, parse_hit_object, create_object. intros H.
  assert (I : forall n, idx (trims fs) n <> Hang) by (intros n; unfold idx; destruct (n <? 0); [discriminate|]; destruct (nth_error _ _); discriminate).
  destruct (idx (trims fs) 3) as [d3| |] eqn:E3; cbn [bind] in H; [|discriminate|now apply I in E3].
  apply (field_idx fs 3) in E3. subst d3.
  change CIRCLE with (2 ^ 0) in H. change SPINNER with (2 ^ 3) in H. change SLIDER with (2 ^ 1) in H. change LONGNOTE with (2 ^ 7) in H.
  rewrite !has_type_bit in H by lia. unfold type_of. cbv zeta.
  assert (C : forall k, common_parse k (trims fs) <> Hang).
  { intros k. unfold common_parse. do 5 (match goal with |- context [idx (trims fs) ?n] => pose proof (I n); destruct (idx (trims fs) n); cbn [bind]; [|discriminate|congruence] end). discriminate. }
  destruct (Z.testbit (atoi (field 3 fs)) 0).
  { destruct (idx (trims fs) 2) eqn:E2; cbn [bind] in H; [|discriminate|now apply I in E2]. unfold rmap, new_circle in H. specialize (C KCircle).
    destruct (common_parse KCircle (trims fs)); cbn [bind] in H; [discriminate|discriminate|congruence]. }
  destruct (Z.testbit (atoi (field 3 fs)) 3).
  { destruct (idx (trims fs) 5) eqn:E5; cbn [bind] in H; [|discriminate|now apply I in E5]. unfold rmap, new_spinner in H. specialize (C KSpinner).
    destruct (common_parse KSpinner (trims fs)); cbn [bind] in H; [|discriminate|congruence]. rewrite E5 in H. cbn [bind] in H. discriminate. }
  destruct (Z.testbit (atoi (field 3 fs)) 1).
  { destruct (idx (trims fs) 2) eqn:E2; cbn [bind] in H; [|discriminate|now apply I in E2]. split; [reflexivity|]. unfold rmap in H.
    destruct (new_slider fuel (trims fs)); cbn [bind] in H; [discriminate|discriminate|reflexivity]. }
  exfalso. destruct (Z.testbit (atoi (field 3 fs)) 7).
  - destruct (idx (trims fs) 5) as [d5| |] eqn:E5; cbn [bind] in H; [|discriminate|now apply I in E5].
    destruct (hold_head d5) as (h & Eh). rewrite Eh in H. cbn [bind] in H. discriminate.
  - cbn [bind] in H. discriminate.
Qed.
Lemma slider_hang fuel fs : new_slider fuel (trims fs) = Hang -> row_curve fuel fs = Hang.
Proof.
  intros H. assert (L : (8 <= length fs)%nat).
  { destruct (le_lt_dec 8 (length fs)) as [G|G]; [exact G|]. unfold new_slider in H.
    destruct (le_lt_dec 5 (length fs)) as [G5|G5]; [|rewrite (common_short KCircle fs G5) in H; discriminate H].
    destruct (common_ok KCircle fs G5) as (o & s & E & _). rewrite E in H. cbn [bind] in H.
    change 7 with (Z.of_nat 7) in H. rewrite trims_out in H by lia. discriminate H. }
  destruct (Forall_dec (fun p => In ":"%char p) (fun p => in_dec Ascii.ascii_dec ":"%char p) (tl (bars (field 5 fs)))) as [F|F].
  - destruct (new_slider_eq fuel fs L F) as (o & s & _ & E). rewrite E in H. unfold row_curve, row_type.
    destruct (new_multicurve_t fuel _ _ _) as [mc| |] eqn:EM; cbn [bind] in H; [|discriminate|reflexivity]. exfalso.
    apply new_multicurve_t_built in EM as (ls & p & r & _ & _ & ->).
    match type of H with context [mc_point_at (finish_curve ?l ?p) ?t] => destruct (point_at_total l p t) as (q & Eq) end. rewrite Eq in H. cbn [bind] in H.
    destruct (make_ok _ 8) eqn:R; [|discriminate H]. destruct (Nat.ltb 8 (length fs)); [|discriminate H].
    match type of H with context [edge_sounds 0 ?r ?l] => destruct (edge_sounds_ok l 0 r ltac:(lia)) as [A B]; destruct (Z_le_gt_dec (0 + zlen l) (zlen r)) as [G|G] end.
    + destruct A as (x & Ex); [lia|]. rewrite Ex in H. discriminate H.
    + rewrite B in H; [discriminate H|lia|unfold zlen; lia].
  - exfalso. unfold new_slider in H. destruct (common_ok KCircle fs ltac:(lia)) as (o & s & E & _). rewrite E in H. cbn [bind] in H.
    pose proof (trims_idx fs 7 ltac:(lia)) as E7. pose proof (trims_idx fs 6 ltac:(lia)) as E6. pose proof (trims_idx fs 5 ltac:(lia)) as E5.
    change (Z.of_nat 7) with 7 in E7. change (Z.of_nat 6) with 6 in E6. change (Z.of_nat 5) with 5 in E5.
    rewrite E7, E6, E5 in H. cbn [bind] in H. rewrite bars_split in H. cbn [idx Z.ltb Z.compare Z.to_nat nth_error tl bind] in H.
    rewrite (slider_points_panic _ F) in H. discriminate H.
Qed.
Definition row_hangs (fuel : nat) (fs : list str) : Prop := type_of fs = TSlider /\ row_curve fuel fs = Hang.
Lemma events_no_hang d e : parse_events d e <> Hang.
Proof.
  unfold parse_events. assert (I : forall n, idx d n <> Hang) by (intros n; unfold idx; destruct (n <? 0); [discriminate|]; destruct (nth_error _ _); discriminate).
  pose proof (I 0) as I0. pose proof (I 1) as I1. pose proof (I 2) as I2. destruct (idx d 0) as [k| |]; cbn [bind]; [|discriminate|congruence].
  destruct (_ || _). { destruct (idx d 2); cbn [bind]; [discriminate|discriminate|congruence]. }
  destruct (_ || _); [|discriminate]. unfold new_pause. destruct (idx d 1); cbn [bind]; [|discriminate|congruence].
  destruct (idx d 2); cbn [bind]; [discriminate|discriminate|congruence].
Qed.
Lemma line_hang fuel st l : parse_line fuel st l = Hang ->
  get_section l = [] /\ st_section st = lit "HitObjects" /\ raw_fields l (split "," l) /\ row_hangs fuel (split "," l).
Proof.
  unfold parse_line. destruct (version_line_f l st) as (Fs & _). destruct (get_section l); [|discriminate]. intros H. split; [reflexivity|].
  rewrite <- Fs. clear Fs. destruct (version_line l st) as [sec fv me ge di ev ti obs]. unfold section_line in H. cbn [st_section].
  destruct (str_eqb sec (lit "General")); [discriminate|]. destruct (str_eqb sec (lit "Metadata")); [discriminate|].
  destruct (str_eqb sec (lit "Difficulty")); [discriminate|].
  destruct (tokenize_cases l) as [[E R]|[E _]]; rewrite E in H.
  2:{ destruct (str_eqb sec _); [discriminate|]. destruct (str_eqb sec _); [discriminate|]. destruct (str_eqb sec _); discriminate. }
  pose proof R as (_ & L & J & C).
  destruct (str_eqb sec (lit "Events")) eqn:E1.
  { exfalso. destruct (split "," l) as [|x [|y fs]] eqn:S; cbn [length] in L; try lia. cbn [map] in *.
    pose proof (events_no_hang (trim_space x :: trim_space y :: map trim_space fs) ev). destruct (parse_events _ ev); cbn [bind] in H; congruence. }
  destruct (str_eqb sec (lit "TimingPoints")) eqn:E2.
  { exfalso. destruct (pt_fold [split "," l]) with (t := ti) as (t' & F & _).
    { intros r [<-|[]]. auto. }
    cbn [foldM] in F. unfold pt_step in F. rewrite <- J in F.
    destruct (split "," l) as [|x [|y fs]] eqn:S; cbn [length] in L; try lia. cbn [map] in H.
    destruct (parse_point l ti); cbn [bind] in F, H; discriminate. }
  destruct (str_eqb sec (lit "HitObjects")) eqn:E3; [|discriminate].
  apply str_eqb_eq in E3. split; [exact E3|]. split; [exact R|].
  assert (OH : ob_step fuel obs (split "," l) = Hang).
  { unfold ob_step, trims. destruct (parse_hit_object fuel (map trim_space (split "," l)) obs); [discriminate H|discriminate H|reflexivity]. }
  apply object_hang in OH as [T OH]. split; [exact T|now apply slider_hang].
Qed.
Lemma loop_hang fuel ls : forall st, foldM (parse_line fuel) st ls = Hang ->
  exists fs, In fs (rows_of (body "HitObjects" (annotate (st_section st) ls))) /\ row_hangs fuel fs.
Proof.
  induction ls as [|l ls IH]; intros st; cbn [foldM annotate]; [discriminate|].
  destruct (parse_line fuel st l) as [st'| |] eqn:E; cbn [bind]; [|discriminate|intros _].
  - intros H. apply IH in H as (fs & I & P). exists fs. split; [|exact P]. apply st_section_step in E. rewrite E in I. clear E.
    destruct (get_section l); [|exact I]. rewrite body_cons. destruct (str_eqb _ _); [|exact I]. cbn [rows_of]. destruct (tokenize l ","); [now right|exact I].
  - apply line_hang in E as (G & S & R & P). exists (split "," l). split; [|exact P]. rewrite G, body_cons.
    rewrite (proj2 (str_eqb_eq _ _) S). cbn [rows_of]. rewrite (tokenize_some _ _ R). now left.
Qed.

(** ** The objects that come out of the rows *)
Definition row_slider (rs : list (list str)) (o : hobj) : Prop := forall sd, ho_kind o = KSlider sd ->
  exists fuel fs, In fs rs /\ type_of fs = TSlider /\ row_curve fuel fs = Ok (sl_curve sd) /\ sl_pixelLength sd = parse_f64 (field 7 fs).
Lemma create_row fuel fs o : create_object fuel (trims fs) = Ok (Some o) -> row_slider [fs] o.
Proof.
  intros H. unfold create_object in H. apply bind_ok in H as (d3 & E3 & H). apply (field_idx fs 3) in E3. subst d3.
  change CIRCLE with (2 ^ 0) in H. change SPINNER with (2 ^ 3) in H. change SLIDER with (2 ^ 1) in H. rewrite !has_type_bit in H by lia.
  destruct (Z.testbit (atoi (field 3 fs)) 0) eqn:T0. { unfold rmap in H. apply bind_ok in H as (o' & H & E). apply Ok_inj in E. injection E as <-. apply common_kind in H. intros sd K. congruence. }
  destruct (Z.testbit (atoi (field 3 fs)) 3) eqn:T3. { unfold rmap in H. apply bind_ok in H as (o' & H & E). apply Ok_inj in E. injection E as <-. unfold new_spinner in H. apply bind_ok in H as (o1 & H & E). apply bind_ok in E as (d5 & _ & E).
    apply Ok_inj in E. subst o'. apply common_kind in H. intros sd K. cbn [ho_kind with_end] in K. congruence. }
  destruct (Z.testbit (atoi (field 3 fs)) 1) eqn:T1; [|apply Ok_inj in H; discriminate H].
  unfold rmap in H. apply bind_ok in H as (o' & H & E). apply Ok_inj in E. injection E as <-. pose proof H as H'. apply slider_needs in H' as ((L & F & _) & _).
  destruct (new_slider_eq fuel fs L F) as (o1 & s & _ & E). rewrite E in H. apply bind_ok in H as (mc & EM & H). apply bind_ok in H as (ep & _ & H).
  destruct (make_ok _ 8); [|discriminate H]. apply bind_ok in H as (snd & _ & H). apply Ok_inj in H. subst o'. intros sd. cbn [ho_kind with_kind]. intros K.
  assert (K' : forall x y, KSlider x = KSlider y -> x = y) by (intros x y Q; now injection Q). apply K' in K. subst sd. cbn [sl_curve sl_pixelLength].
  exists fuel, fs. split; [now left|]. split; [unfold type_of; now rewrite T0, T3, T1|]. split; [exact EM|reflexivity].
Qed.
Lemma ob_fold_rows fuel rs0 rs : (forall fs, In fs rs -> In fs rs0) -> forall s s', foldM (ob_step fuel) s rs = Ok s' -> Forall (row_slider rs0) (os_objects s) -> Forall (row_slider rs0) (os_objects s').
Proof.
  induction rs as [|fs rs IH]; intros I s s' H F; cbn [foldM] in H; [apply Ok_inj in H; now subst|].
  apply bind_ok in H as (s1 & H1 & H). apply IH in H; [exact H|intros; apply I; now right|]. apply ob_step_ok in H1 as (_ & _ & _ & r & Hr & ->).
  apply Forall_app. split; [exact F|]. destruct r as [o|]; [|constructor]. constructor; [|constructor].
  intros sd K. apply create_row in Hr. destruct (Hr sd K) as (n & fs' & [<-|[]] & R). exists n, fs. split; [apply I; now left|exact R].
Qed.
Lemma number_rows rs l : forall a b c d e, Forall (row_slider rs) l -> Forall (row_slider rs) (number_objects a b c d e l).
Proof.
  induction l as [|o l IH]; intros a b c d e F; [constructor|]. inversion F as [|x y B F']; subst. cbn [number_objects].
  assert (W : forall nc n k h g, row_slider rs (with_combo o nc n k h g)) by (intros nc n k h g sd K; cbn [ho_kind with_combo] in K; now apply B).
  destruct (is_spinner o); [constructor; auto|]. destruct (_ || _); constructor; auto.
Qed.

(** ** Slider timing returns *)
Lemma moderate_val x : moderate x -> fin x /\ (/ 16 <= B2R x <= 16)%R.
Proof.
  intros [A B]. apply fle_iff in A as (_ & N & A). apply fle_iff in B as (_ & _ & B).
  assert (F1 : fin (fq 1 16)) by (vm_compute; reflexivity). assert (F2 : fin (fq 16 1)) by (vm_compute; reflexivity).
  rewrite (key_fin 53 1024 _ F1) in A. rewrite (key_fin 53 1024 _ F2) in B.
  assert (V1 : B2R (fq 1 16) = (/ 16)%R) by (bval (fq 1 16); lra). assert (V2 : B2R (fq 16 1) = 16%R) by (bval (fq 16 1); lra).
  assert (F : fin x). { apply (fin_of_key 53 1024); [exact N|]. assert (bpow radix2 5 < bpow radix2 1024)%R by (apply bpow_lt; lia). change (bpow radix2 5) with 32%R in H. lra. }
  split; [exact F|]. rewrite (key_fin 53 1024 _ F) in A, B. lra.
Qed.
Lemma tick_distance_val tim tp : moderate (t_SliderMult tim) -> moderate (t_TickRate tim) ->
  fin (get_tick_distance tim tp) /\ (/ 64 <= B2R (get_tick_distance tim tp))%R.
Proof.
  intros HS HT. apply moderate_val in HS as [Fs Bs]. apply moderate_val in HT as [Ft Bt].
  destruct (ratio_range tp) as (_ & R1 & R2). unfold get_tick_distance, get_scoring_distance.
  set (r := get_ratio tp) in *. clearbody r. set (sm := t_SliderMult tim) in *. set (tr := t_TickRate tim) in *. clearbody sm tr.
  assert (Fr : fin r /\ (0.09 <= B2R r <= 10)%R).
  { apply fle_iff in R1 as (_ & N & A). apply fle_iff in R2 as (_ & _ & B).
    assert (F1 : fin (fq 1 10)) by (vm_compute; reflexivity). assert (F2 : fin (fq 10 1)) by (vm_compute; reflexivity).
    rewrite (key_fin 53 1024 _ F1) in A. rewrite (key_fin 53 1024 _ F2) in B.
    assert (V1 : (0.09 <= B2R (fq 1 10))%R) by (bval (fq 1 10); rewrite V; lra). assert (V2 : B2R (fq 10 1) = 10%R) by (bval (fq 10 1); lra).
    assert (F : fin r). { apply (fin_of_key 53 1024); [exact N|]. assert (bpow radix2 5 < bpow radix2 1024)%R by (apply bpow_lt; lia). change (bpow radix2 5) with 32%R in H. lra. }
    split; [exact F|]. rewrite (key_fin 53 1024 _ F) in A, B. lra. }
  destruct Fr as [Fr Br]. destruct (fq1_exact 100 ltac:(lia)) as [F1 V1].
  assert (B20 : (bpow radix2 40 <= bpow radix2 1023)%R) by (apply bpow_le; lia). change (bpow radix2 40) with 1099511627776%R in B20.
  assert (Q1 : (6.25 <= 100 * B2R sm <= 1600)%R) by lra.
  destruct (fmul_fin (fq 100 1) sm F1 Fs) as [Fm Vm]; [rewrite V1; apply Rabs_le; lra|]. rewrite V1 in Vm.
  assert (Bm : (6 <= B2R (fmul (fq 100 1) sm) <= 1600)%R).
  { rewrite Vm. split; [rewrite <- (rnd64_Z 6) by lia|rewrite <- (rnd64_Z 1600) by lia]; apply rnd64_le; lra. }
  set (m := fmul (fq 100 1) sm) in *. clearbody m.
  assert (It : (/ 16 <= / B2R tr <= 16)%R).
  { split; [apply Rinv_le; lra|]. replace 16%R with (/ / 16)%R by lra. apply Rinv_le; lra. }
  assert (Q2 : (6 / 16 <= B2R m / B2R tr <= 25600)%R) by (unfold Rdiv; nra).
  destruct (fdiv_fin m tr Fm Ft) as [Fd Vd]; [lra|apply Rabs_le; lra|].
  assert (V14 : rnd64 (/ 4) = (/ 4)%R) by (apply round_generic; [typeclasses eauto|]; change (/ 4)%R with (bpow radix2 (-2)); apply (bpow_fmt 53 1024); cbn; lia).
  assert (Bd : (/ 4 <= B2R (fdiv m tr) <= 25600)%R).
  { rewrite Vd. split; [rewrite <- V14|rewrite <- (rnd64_Z 25600) by lia]; apply rnd64_le; lra. }
  set (s := fdiv m tr) in *. clearbody s.
  assert (Ir : (/ 10 <= / B2R r <= 12)%R).
  { split; [apply Rinv_le; lra|]. apply Rle_trans with (/ 0.09)%R; [apply Rinv_le; lra|lra]. }
  assert (Q3 : (/ 40 <= B2R s / B2R r <= 307200)%R) by (unfold Rdiv; nra).
  destruct (fdiv_fin s r Fd Fr) as [Fq Vq]; [lra|apply Rabs_le; lra|]. split; [exact Fq|]. rewrite Vq.
  assert (V132 : rnd64 (/ 64) = (/ 64)%R) by (apply round_generic; [typeclasses eauto|]; change (/ 64)%R with (bpow radix2 (-6)); apply (bpow_fmt 53 1024); cbn; lia).
  apply Rle_trans with (rnd64 (/ 64)).
  2:{ apply rnd64_le. lra. }
  rewrite V132. lra.
Qed.
Lemma tick_step_val tim tp sd : moderate (t_SliderMult tim) -> moderate (t_TickRate tim) -> flt (sl_pixelLength sd) (fq 1 16) = false ->
  fin (tick_step tim tp sd) /\ (/ 64 <= B2R (tick_step tim tp sd))%R.
Proof.
  intros HS HT HP. destruct (tick_distance_val tim tp HS HT) as [F B]. unfold tick_step.
  destruct (ggt _ _ && _) eqn:E; [|split; assumption]. apply andb_true_iff in E as [_ E]. unfold fgt in E. apply flt_iff in E as (N1 & N2 & K).
  rewrite (key_fin 53 1024 _ F) in K. set (x := sl_pixelLength sd) in *. clearbody x.
  assert (F1 : fin (fq 1 16)) by (vm_compute; reflexivity). assert (V1 : B2R (fq 1 16) = (/ 16)%R) by (bval (fq 1 16); lra).
  assert (G : (/ 16 <= key x)%R).
  { destruct (Rle_dec (/ 16) (key x)) as [G|G]; [exact G|]. apply Rnot_le_lt in G. exfalso. enough (flt x (fq 1 16) = true) by congruence.
    apply flt_iff. split; [exact N1|]. split; [reflexivity|]. rewrite (key_fin 53 1024 _ F1), V1. exact G. }
  assert (Fx : fin x).
  { apply (fin_of_key 53 1024); [exact N1|]. pose proof (B2R_lt 53 1024 _ F). lra. }
  split; [exact Fx|]. rewrite (key_fin 53 1024 _ Fx) in G. lra.
Qed.
Lemma short_returns fuel tim o sd tp : get_point_at tim (ho_start o) = Ok tp -> fle (tick_step tim tp sd) (f_of_g (mc_length (sl_curve sd))) = false ->
  built (sl_curve sd) -> exists o', slider_set_timing fuel tim o sd = Ok o'.
Proof.
  intros EP S (ls & p & B). unfold slider_set_timing. rewrite EP. cbn [bind]. fold (tick_step tim tp sd).
  match goal with |- context [mapM ?f ?l] => assert (MO : exists r, mapM f l = Ok r) end.
  { generalize (seq 0 (Z.to_nat (sl_repeat sd))). induction l as [|i l IH]; [eexists; reflexivity|]. cbn [mapM].
    unfold span_ticks at 1. assert (T : forall rv ss sp, tick_loop fuel (tick_step tim tp sd) (tick_step tim tp sd) (f_of_g (mc_length (sl_curve sd))) (fmul (get_velocity tim tp) (fq 1 100)) rv ss sp = Ok []).
    { intros. destruct fuel; cbn [tick_loop]; now rewrite S. }
    rewrite T. destruct (fisnan (get_raw_beat_length tp)); cbn [bind]; destruct IH as (r & ->); eexists; reflexivity. }
  destruct MO as (r & ->). cbn [bind]. unfold slider_position_at. destruct (is_retarded _ _); cbn [bind]; [eexists; reflexivity|].
  cbn [sl_curve]. rewrite B. match goal with |- context [mc_point_at _ ?t] => destruct (point_at_total ls p t) as (q & ->) end. eexists. reflexivity.
Qed.
Lemma timing_settles tim o : t_points tim <> [] -> moderate (t_SliderMult tim) -> moderate (t_TickRate tim) ->
  (forall sd, ho_kind o = KSlider sd -> built (sl_curve sd) /\ flt (sl_pixelLength sd) (fq 1 16) = false /\ ggt (mc_length (sl_curve sd)) (gq (2 ^ 40) 1) = false) ->
  settles (fun n => set_timing n tim o).
Proof.
  intros NE HS HT H. unfold set_timing. destruct (ho_kind o) as [| |sd] eqn:K; [apply settles_ok|apply settles_ok|].
  destruct (H sd eq_refl) as (B & HP & HL). destruct (point_at_ok (t_points tim) (ho_start o) NE) as (tp & EP).
  assert (U : forall n m, (n <= m)%nat -> upto (slider_set_timing n tim o sd) (slider_set_timing m tim o sd)).
  { intros n m L. pose proof (set_timing_up n m L tim o) as U. unfold set_timing in U. rewrite K in U. exact U. }
  destruct (tick_step_val tim tp sd HS HT HP) as [Ft Bt].
  destruct (fle (tick_step tim tp sd) (f_of_g (mc_length (sl_curve sd)))) eqn:S.
  2:{ destruct (short_returns 0 tim o sd tp EP S B) as (o' & E). exact (settles_up _ 0%nat o' U E). }
  apply fle_iff in S as (_ & N & S). rewrite (key_fin 53 1024 _ Ft) in S.
  assert (NL : num (mc_length (sl_curve sd))) by (destruct (mc_length (sl_curve sd)); try reflexivity; discriminate N).
  assert (F40 : fin (gq (2 ^ 40) 1)) by (vm_compute; reflexivity). assert (V40 : B2R (gq (2 ^ 40) 1) = bpow radix2 40) by (bval (gq (2 ^ 40) 1); rewrite V; change (bpow radix2 40) with 1099511627776%R; lra).
  assert (KL : (key (mc_length (sl_curve sd)) <= bpow radix2 40)%R).
  { apply Rnot_lt_le. intros G. enough (ggt (mc_length (sl_curve sd)) (gq (2 ^ 40) 1) = true) by congruence. unfold ggt. apply glt_iff. split; [reflexivity|]. split; [exact NL|]. rewrite (key_fin 24 128 _ F40), V40. exact G. }
  assert (B128 : (bpow radix2 40 < bpow radix2 128)%R) by (apply bpow_lt; lia).
  assert (Fl : fin (mc_length (sl_curve sd))).
  { destruct (mc_length (sl_curve sd)) as [s|[]| |s m e b] eqn:EL; try reflexivity; try discriminate NL; exfalso.
    - cbn in S. pose proof (bpow_gt_0 radix2 1024). lra.
    - cbn [key] in KL. lra. }
  rewrite (key_fin 24 128 _ Fl) in KL.
  destruct (set_timing_returns tim o sd tp EP Ft) as (n & E); [lra|exact Fl| |exact B|].
  { change (bpow radix2 50) with (bpow radix2 (40 + 10)). rewrite bpow_plus. change (bpow radix2 10) with 1024%R. pose proof (bpow_gt_0 radix2 40). nra. }
  destruct (E n (Nat.le_refl _)) as (o' & E'). exact (settles_up _ n o' U E').
Qed.

(** ** The whole parser *)
Lemma rows_settle (P : list str -> Prop) rs : (forall fs, In fs rs -> P fs -> settles (fun n => row_curve n fs)) ->
  exists n, forall m fs, (n <= m)%nat -> In fs rs -> P fs -> row_curve m fs <> Hang.
Proof.
  induction rs as [|fs rs IH]; intros H; [exists 0%nat; intros m fs _ []|].
  destruct IH as (n & IH); [intros; apply H; auto; now right|].
  assert (D : exists n', forall m, (n' <= m)%nat -> P fs -> row_curve m fs <> Hang).
  { destruct (Classical_Prop.classic (P fs)) as [Q|Q]; [|exists 0%nat; intros m _ Q'; contradiction].
    destruct (H fs ltac:(now left) Q) as (n' & v & E). exists n'. intros m L _. rewrite E by exact L. discriminate. }
  destruct D as (n' & D). exists (n + n')%nat. intros m fs' L [<-|I] Q; [apply D; [lia|exact Q]|apply IH; [lia|exact I|exact Q]].
Qed.
Theorem parse_returns ls : atan2_range -> SpecSafety.rows_ok ls -> sliders_tame ls -> rates_ok ls -> settles (fun n => parse_lines n ls).
Proof.
  intros HA HR HT HD. set (rs := rows_of (body "HitObjects" (annotate [] ls))).
  pose proof (proj2 (section_rows_iff ls "HitObjects" rs) eq_refl) as SR.
  destruct (rows_settle (fun fs => type_of fs = TSlider) rs) as (n0 & N0).
  { intros fs I T. apply tame_settles; [exact HA|]. exact (HT rs fs SR I T). }
  assert (NP : forall n, parse_lines n ls <> Panic).
  { intros n. unfold parse_lines. destruct (foldM (parse_line n) pstate0 ls) as [st| |] eqn:E; cbn [bind]; [|intros _|discriminate].
    - now apply (finish_no_panic n ls).
    - apply loop_panic in E as (sec & fs & I & P). cbn [pstate0 st_section] in I. pose proof (proj2 (section_rows_iff ls sec _) eq_refl) as SR'. destruct HR as [HE HO].
      destruct P as [[-> (e & P)]|[-> (s & P)]].
      + specialize (HE _ SR'). rewrite Forall_forall in HE. apply event_panic in P; [|now apply rows_of_raw in I]. exact (P (HE fs I)).
      + pose proof (HO _ SR') as HO'. rewrite Forall_forall in HO'. revert P. apply object_no_panic; [now apply HO'|].
        intros T. apply slider_safe; [specialize (HO' fs I); unfold object_ok in HO'; now rewrite T in HO'|].
        intros a b c H5 Hp Hs. apply arc_no_panic; [exact HA|]. destruct (HT _ fs SR' I T) as (_ & TA & _). exact (TA a b c H5 Hp Hs). }
  destruct (foldM (parse_line n0) pstate0 ls) as [st| |] eqn:E.
  2:{ exfalso. apply (NP n0). unfold parse_lines. now rewrite E. }
  2:{ exfalso. apply loop_hang in E as (fs & I & T & H). exact (N0 n0 fs (Nat.le_refl _) I T H). }
  assert (FE : forall m, (n0 <= m)%nat -> foldM (parse_line m) pstate0 ls = Ok st).
  { intros m L. destruct (upto_foldM (parse_line n0) (parse_line m) ls (fun s a => parse_line_up n0 m L s a) pstate0) as [H|H]; congruence. }
  assert (FS : settles (fun n => finish_parse n st)).
  { pose proof E as E'. apply run_ok in E' as ((_ & _ & Rd & _ & Rt & Ro) & _). change (st_section pstate0) with (@nil ascii) in *.
    change (st_diff pstate0) with diffsec0 in Rd. change (st_time pstate0) with timesec0 in Rt.
    pose proof (proj2 (settings_iff ls "Difficulty" _) eq_refl) as SD. destruct (HD _ SD) as [HS HTR].
    unfold finish_parse. cbv zeta. fold (tim_of (ds_SliderMult (st_diff st)) (ds_TickRate (st_diff st)) (ts_points (st_time st))).
    destruct (_ || (_ =? 0)) eqn:EC; [apply settles_ok|]. apply orb_false_iff in EC as [_ EC]. apply Z.eqb_neq in EC.
    set (tim := tim_of _ _ _). match goal with |- settles (fun n => bind (mapM (set_timing n tim) ?l) _) => apply (settles_bind (fun n => mapM (set_timing n tim) l)) end; [|intros objs _; apply settles_ok].
    apply settles_mapM. apply Forall_forall. intros o I.
    assert (Tm : t_SliderMult tim = last_value "SliderMultiplier" (kvs_of (body "Difficulty" (annotate [] ls))) parse_f64 f0 /\
                 t_TickRate tim = last_value "SliderTickRate" (kvs_of (body "Difficulty" (annotate [] ls))) parse_f64 f0 /\ t_points tim <> []).
    { destruct (tim_points (ds_SliderMult (st_diff st)) (ds_TickRate (st_diff st)) (ts_points (st_time st))) as (TP & _ & T1 & T2). fold tim in TP, T1, T2. rewrite T1, T2, Rd, dif_tsm, dif_tr.
      split; [reflexivity|]. split; [reflexivity|]. apply time_rows in Rt as [C P]. intros X. apply (f_equal (@length _)) in X. rewrite TP in X. apply EC. rewrite C. unfold zlen.
      cbn [length] in X. destruct (added_points (ts_points (st_time st))) as [A1 A2]. unfold finalize_points in X. rewrite A1 in X.
      assert (LF : forall l q, length (fst (finalize_loop q l)) = length l).
      { clear. induction l as [|p l IH]; intros q; [reflexivity|]. cbn [finalize_loop]. specialize (IH (Some p)) as IH1.
        destruct (cp_Inherited p); [destruct q as [lp|]|].
        - specialize (IH (Some (set_base p (cp_base lp)))). destruct (finalize_loop _ l). cbn [fst length] in *. congruence.
        - destruct (finalize_loop _ l). cbn [fst length] in *. congruence.
        - destruct (finalize_loop _ l). cbn [fst length] in *. congruence. }
      match type of X with context [finalize_loop None ?l] => specialize (LF l None); destruct (finalize_loop None l) end. cbn [fst t_points] in *.
      rewrite X, sort_length, P, map_length in LF. now rewrite <- LF. }
    destruct Tm as (T1 & T2 & TP).
    apply timing_settles; [exact TP|now rewrite T1|now rewrite T2|]. intros sd K.
    assert (RS : Forall (row_slider rs) (number_objects 0 1 0 0 false (stable_sort obj_lt (os_objects (st_objs st))))).
    { apply number_rows. apply (ob_fold_rows n0 rs) in Ro; [|auto|constructor]. rewrite Forall_forall in *. intros x Hx. apply Ro.
      eapply Permutation.Permutation_in; [apply Permutation.Permutation_sym, sort_perm|exact Hx]. }
    rewrite Forall_forall in RS. destruct (RS o I sd K) as (n & fs & If & Tf & EM & EL). destruct (HT rs fs SR If Tf) as (_ & _ & H7 & HL).
    split; [|split; [now rewrite EL|exact (HL n _ EM)]]. apply new_multicurve_t_built in EM as (l' & p' & r' & _ & _ & ->). eexists _, _. reflexivity. }
  destruct FS as (n1 & v & F1). exists (n0 + n1)%nat, v. intros m L. unfold parse_lines. rewrite FE by lia. cbn [bind]. apply F1. lia.
Qed.
End WithLibm.

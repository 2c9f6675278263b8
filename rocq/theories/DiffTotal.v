(** When the difficulty calculation returns, panics or runs for ever. *)
From Coq Require Import Reals Lra.
From Flocq Require Import Core BinarySingleNaN.
From Verif Require Import DiffCalc SpecDiff BaseLemmas FloatLemmas Float32Lemmas CurveProofs CurveStart DiffProofs SectionProofs.
Open Scope Z_scope.

Section WithLibm.
Context {M : libm}.

(** ** Preprocessing *)
Definition not_hang {A} (r : res A) : Prop := r <> Hang.
Lemma idx_nohang {A} (l : list A) i : idx l i <> Hang.
Proof. destruct (Z.ltb_spec i 0); [rewrite idx_out by lia; discriminate|]. destruct (Z.lt_ge_cases i (zlen l)) as [H'|H']; [|rewrite idx_out by lia; discriminate]. destruct (idx_range l i) as (x & -> & _); [lia|discriminate]. Qed.
Lemma bind_nohang {A B} (r : res A) (f : A -> res B) : r <> Hang -> (forall x, f x <> Hang) -> bind r f <> Hang.
Proof. destruct r; cbn [bind]; auto. discriminate. Qed.
Lemma mc_point_nohang mc t : mc_point_at mc t <> Hang.
Proof.
  unfold mc_point_at. destruct (mc_lines mc); [discriminate|]. destruct (geq _ _); [discriminate|]. destruct (mc_index mc t) as [i q].
  apply bind_nohang; [apply idx_nohang|]. intros hi. apply bind_nohang; [apply idx_nohang|]. intros lo. apply bind_nohang; [apply idx_nohang|]. intros x. destruct (geq _ _); discriminate.
Qed.
Lemma position_nohang o t m : stacked_position_at o t m <> Hang.
Proof.
  unfold stacked_position_at. apply bind_nohang; [|discriminate]. unfold position_at. destruct (ho_kind o); try discriminate. unfold slider_position_at.
  destruct (is_retarded _ _); [discriminate|]. apply mc_point_nohang.
Qed.
Lemma lazy_loop_nohang o m e sc ts : forall st, lazy_loop o m e sc st ts <> Hang.
Proof.
  induction ts as [|t r IH]; intros st; cbn [lazy_loop]; [discriminate|]. apply bind_nohang; [|auto]. unfold lazy_step. destruct st as [c q].
  apply bind_nohang; [apply position_nohang|]. intros pos. cbv zeta. match goal with |- (if ?b then _ else _) <> _ => destruct b end; discriminate.
Qed.
Lemma wrap_nohang d o : wrap_object d o <> Hang.
Proof.
  unfold wrap_object. destruct (ho_kind o) as [| |sd]; [discriminate|discriminate|]. apply bind_nohang; [|discriminate]. unfold new_lazy.
  apply bind_nohang; [apply idx_nohang|]. intros lt. cbv zeta. apply bind_nohang; [apply position_nohang|]. intros le. apply bind_nohang; [apply lazy_loop_nohang|]. discriminate.
Qed.
Lemma wrap_pointless d o : pointless o -> wrap_object d o = Panic.
Proof. intros (sd & E & T). unfold wrap_object. rewrite E. unfold new_lazy. rewrite T. reflexivity. Qed.
Lemma create_pointless objs d : Exists pointless objs -> create_difficulty_objects objs d = Panic.
Proof.
  intros H. unfold create_difficulty_objects. enough (E : mapM (wrap_object d) objs = Panic) by now rewrite E.
  induction H as [o r P|o r H IH]; cbn [mapM].
  - now rewrite (wrap_pointless d o P).
  - rewrite IH. pose proof (wrap_nohang d o). destruct (wrap_object d o); cbn [bind]; congruence.
Qed.
Lemma real_position o t m : real_slider o -> exists p, stacked_position_at o t m = Ok p.
Proof.
  intros R. unfold stacked_position_at, position_at. destruct (ho_kind o) as [| |sd] eqn:E; cbn [bind]; eauto. unfold slider_position_at.
  destruct (is_retarded _ _); cbn [bind]; [eauto|]. destruct (R sd E) as (fuel & typ & pts & len & H). apply new_multicurve_t_built in H as (ls & p & r & _ & _ & ->).
  match goal with |- context [mc_point_at (finish_curve ?a ?b) ?t] => destruct (point_at_total a b t) as (q & ->) end. cbn [bind]. eauto.
Qed.
Lemma real_lazy_loop o m e sc ts : real_slider o -> forall st, exists st', lazy_loop o m e sc st ts = Ok st'.
Proof.
  intros R. induction ts as [|t r IH]; intros st; cbn [lazy_loop]; [eauto|]. unfold lazy_step at 1. destruct st as [c q].
  match goal with |- context [stacked_position_at o ?t m] => destruct (real_position o t m R) as (p & ->) end. cbn [bind]. cbv zeta.
  match goal with |- context [if ?b then Ok ?x else Ok ?y] => destruct b end; cbn [bind]; apply IH.
Qed.
Lemma wrap_ok d o : real_slider o -> playable o -> exists p, wrap_object d o = Ok p.
Proof.
  intros R P. unfold wrap_object. destruct (ho_kind o) as [| |sd] eqn:E; eauto. unfold new_lazy. specialize (P sd E).
  destruct (idx_range (sl_ticks sd) (zlen (sl_ticks sd) - 1)) as (lt & -> & _); [unfold zlen; destruct (sl_ticks sd); [contradiction|cbn [length]; lia]|]. cbn [bind]. cbv zeta.
  match goal with |- context [stacked_position_at o ?t ?m] => destruct (real_position o t m R) as (p & ->) end. cbn [bind].
  match goal with |- context [lazy_loop o ?m ?e ?sc ?st ?ts] => destruct (real_lazy_loop o m e sc ts R st) as (st' & ->) end. cbn [bind]. eauto.
Qed.
Lemma create_ok objs d : Forall real_slider objs -> Forall playable objs -> exists dos, create_difficulty_objects objs d = Ok dos.
Proof.
  intros R P. unfold create_difficulty_objects. destruct (mapM_total (wrap_object d) objs) as (ps & ->); [|cbn [bind]; eauto].
  intros o Ho. rewrite Forall_forall in R, P. apply wrap_ok; auto.
Qed.
Lemma wrap_obj d o p : wrap_object d o = Ok p -> po_obj p = o.
Proof. unfold wrap_object. destruct (ho_kind o); intros H; try (apply Ok_inj in H; now subst). apply bind_ok in H as (l & _ & H). apply Ok_inj in H. now subst. Qed.
Lemma mapM_wrap d objs : forall ps, mapM (wrap_object d) objs = Ok ps -> map po_obj ps = objs.
Proof.
  induction objs as [|o r IH]; intros ps H; cbn [mapM] in H; [apply Ok_inj in H; now subst|]. apply bind_ok in H as (p & Hp & H). apply bind_ok in H as (q & Hq & H). apply Ok_inj in H. subst ps.
  cbn [map]. rewrite (wrap_obj d o p Hp), (IH q Hq). reflexivity.
Qed.
Lemma start_new d c ll l : do_StartTime (new_dobj d c ll l) = fdiv (ho_start (po_obj c)) (d_Speed d).
Proof. unfold new_dobj. destruct (_ || _); [reflexivity|]. destruct (po_lazy l); reflexivity. Qed.
Lemma diff_times d l : forall ll last, map do_StartTime (diff_objects d ll last l) = map (fun p => fdiv (ho_start (po_obj p)) (d_Speed d)) l.
Proof. induction l as [|c l IH]; intros ll last; [reflexivity|]. cbn [diff_objects map]. now rewrite IH, start_new. Qed.
Lemma create_times objs d dos : create_difficulty_objects objs d = Ok dos -> map do_StartTime dos = clock_times objs d.
Proof.
  intros H. unfold create_difficulty_objects in H. apply bind_ok in H as (ps & Hp & H). apply Ok_inj in H. subst dos. apply mapM_wrap in Hp. subst objs.
  destruct ps as [|p r]; [reflexivity|]. rewrite diff_times. unfold clock_times. cbn [map tl]. now rewrite map_map.
Qed.

(** ** Returning *)
Lemma in_range objs d dos : create_difficulty_objects objs d = Ok dos -> Forall time_ok (clock_times objs d) ->
  Forall (fun o => time_ok (do_StartTime o)) dos /\ map (fun o => B2R (do_StartTime o)) dos = map (@B2R 53 1024) (clock_times objs d).
Proof.
  intros C T. apply create_times in C. rewrite <- C in T |- *. rewrite map_map. split; [|reflexivity]. now rewrite Forall_map in T.
Qed.
Lemma run_ok fuel objs d : Forall real_slider objs -> Forall playable objs -> Forall time_ok (clock_times objs d) ->
  boundaries (map (@B2R 53 1024) (clock_times objs d)) <= Z.of_nat fuel ->
  exists dos s, create_difficulty_objects objs d = Ok dos /\ foldM (process_all fuel d) (new_skills d) dos = Ok s /\
    zlen (sk_peaks (cs_aim s)) = boundaries (map (@B2R 53 1024) (clock_times objs d)).
Proof.
  intros R P T B. destruct (create_ok objs d R P) as (dos & C). destruct (in_range objs d dos C T) as (T' & E). rewrite <- E in B.
  destruct (run_sections fuel d dos T' B) as (s & F & L). exists dos, s. rewrite <- E. auto.
Qed.
Lemma peaks_count objs fuel d p : Forall real_slider objs -> Forall time_ok (clock_times objs d) ->
  boundaries (map (@B2R 53 1024) (clock_times objs d)) <= Z.of_nat fuel ->
  calculate_strain_peaks fuel objs d = Ok p -> zlen (pk_Aim p) = boundaries (map (@B2R 53 1024) (clock_times objs d)) + 1.
Proof.
  intros R T B H. destruct (create_difficulty_objects objs d) as [dos| |] eqn:C; [|unfold calculate_strain_peaks in H; rewrite C in H; discriminate H|unfold calculate_strain_peaks in H; rewrite C in H; discriminate H].
  destruct (in_range objs d dos C T) as (T' & E). rewrite <- E in B |- *. destruct (run_sections fuel d dos T' B) as (s & F & L). pose proof (peaks_eq fuel objs d dos C) as PE.
  rewrite F in PE. destruct PE as (EP & _ & _). rewrite H in EP. symmetry in EP. unfold get_peaks in EP. cbv zeta in EP. apply bind_ok in EP as (tot & _ & EP). apply Ok_inj in EP. subst p. cbn [pk_Aim].
  unfold current_peaks, zlen in *. rewrite app_length. cbn [length]. lia.
Qed.

(** ** Running for ever *)
Definition big : f64 := f_of_Z (2 ^ 62).
Lemma big_val : fin big /\ B2R big = IZR (2 ^ 62).
Proof.
  unfold big. destruct (f_of_Z_rnd (2 ^ 62)) as (F & E); [lia|]. split; [exact F|]. rewrite E. apply round_generic; [typeclasses eauto|].
  change (IZR (2 ^ 62)) with (bpow radix2 62). apply (bpow_fmt 53 1024 62). vm_compute. discriminate.
Qed.
Lemma big_step : (rnd64 (IZR (2 ^ 62) + 400) = IZR (2 ^ 62))%R.
Proof.
  destruct big_val as (F & E). destruct section_length_val as (Fl & El).
  destruct (fadd_fin big section_length F Fl) as (_ & E'); [rewrite E, El; apply small_1023; rewrite Rabs_pos_eq; lra|].
  rewrite E, El in E'. rewrite <- E'. replace (fadd big section_length) with big; [exact E|]. apply B2SF_eq. vm_compute. reflexivity.
Qed.
Definition low_end (e : f64) : Prop := fin e /\ (Rabs (B2R e) <= IZR (2 ^ 62))%R.
Lemma low_step e : low_end e -> low_end (fadd e section_length).
Proof.
  intros (F & B). destruct section_length_val as (Fl & El). apply Rabs_le_inv in B.
  destruct (fadd_fin e section_length F Fl) as (F' & E'); [rewrite El; apply small_1023; apply Rabs_le; lra|]. split; [exact F'|]. rewrite E', El. apply Rabs_le. split.
  - destruct big_val as (Fb & Eb). rewrite <- Eb. rewrite <- (proj2 (fneg_fin big Fb)). apply rnd64_ge_f. rewrite (proj2 (fneg_fin big Fb)), Eb. lra.
  - rewrite <- big_step. apply rnd64_le. lra.
Qed.
Lemma low_late e t : low_end e -> fgt t big = true -> fgt t e = true.
Proof.
  intros (F & B) H. destruct big_val as (Fb & Eb). apply fgt_iff in H as (H1 & H2 & H3). apply fgt_iff. split; [exact H1|]. split; [now apply fin_num|].
  rewrite key_fin in * by assumption. rewrite Eb in H3. apply Rabs_le_inv in B. lra.
Qed.
Lemma loop_late k t fuel : fgt t big = true -> forall s, sk_prev s <> [] -> low_end (sk_end s) -> section_loop fuel k t s = Hang.
Proof.
  intros T. induction fuel as [|fuel IH]; intros s P L; cbn [section_loop]; rewrite (low_late _ _ L T); [reflexivity|].
  unfold initial_strain. destruct (sk_prev s) eqn:E; [contradiction|]. cbn [bind]. apply IH; cbn [sk_prev sk_end]; [congruence|now apply low_step].
Qed.
Lemma loop_alive k t fuel : forall s, sk_prev s <> [] -> low_end (sk_end s) ->
  section_loop fuel k t s = Hang \/ exists s', section_loop fuel k t s = Ok s' /\ low_end (sk_end s').
Proof.
  induction fuel as [|fuel IH]; intros s P L; cbn [section_loop]; (destruct (fgt t (sk_end s)); [|right; eauto]); [now left|].
  unfold initial_strain. destruct (sk_prev s) eqn:E; [contradiction|]. cbn [bind]. apply IH; cbn [sk_prev sk_end]; [congruence|now apply low_step].
Qed.
Definition alive (s : skill) : Prop := sk_prev s <> [] /\ low_end (sk_end s).
Lemma process_late fuel k d s o : alive s -> fgt (do_StartTime o) big = true -> process fuel k d s o = Hang.
Proof.
  intros (P & L) T. unfold process. destruct (history_pos k) as (h & ->). destruct (firstn (S h) (sk_prev s)) as [|p r] eqn:EP; [apply firstn_nil_iff in EP; contradiction|].
  rewrite loop_late; [reflexivity|exact T|discriminate|exact L].
Qed.
Lemma process_alive fuel k d s o : alive s -> process fuel k d s o = Hang \/ exists s', process fuel k d s o = Ok s' /\ alive s'.
Proof.
  intros (P & L). unfold process. destruct (history_pos k) as (h & ->). destruct (firstn (S h) (sk_prev s)) as [|p r] eqn:EP; [apply firstn_nil_iff in EP; contradiction|].
  match goal with |- context [section_loop fuel k ?t ?s1] => destruct (loop_alive k t fuel s1) as [->|(s' & -> & L')] end; cbn [sk_prev sk_end]; [discriminate|exact L|now left|]. right.
  cbn [bind]. assert (exists rh, match k with Speed => speed_bonus d (p :: r) o | _ => Ok (sk_rhythm s') end = Ok rh) as (rh & ->) by (destruct k; [eauto|apply speed_bonus_ok|eauto]).
  cbn [bind]. eexists. split; [reflexivity|]. split; cbn [sk_prev sk_end]; [discriminate|exact L'].
Qed.
Definition all_alive (s : skills) : Prop :=
  alive (cs_aim s) /\ alive (cs_aimNS s) /\ alive (cs_speed s) /\ match cs_flash s with Some f => alive f | None => True end.
Lemma all_late fuel d s o : all_alive s -> fgt (do_StartTime o) big = true -> process_all fuel d s o = Hang.
Proof. intros (A & _) T. unfold process_all. now rewrite (process_late fuel (Aim true) d _ o A T). Qed.
Lemma all_go fuel d s o : all_alive s -> process_all fuel d s o = Hang \/ exists s', process_all fuel d s o = Ok s' /\ all_alive s'.
Proof.
  intros (A1 & A2 & A3 & A4). unfold process_all.
  destruct (process_alive fuel (Aim true) d _ o A1) as [->|(a & -> & Ha)]; [now left|]. cbn [bind].
  destruct (process_alive fuel (Aim false) d _ o A2) as [->|(b & -> & Hb)]; [now left|]. cbn [bind].
  destruct (process_alive fuel Speed d _ o A3) as [->|(c & -> & Hc)]; [now left|]. cbn [bind].
  destruct (cs_flash s) as [f|].
  - destruct (process_alive fuel Flash d _ o A4) as [->|(e & -> & He)]; [now left|]. cbn [rmap bind]. right. eexists. split; [reflexivity|]. exact (conj Ha (conj Hb (conj Hc He))).
  - cbn [bind]. right. eexists. split; [reflexivity|]. exact (conj Ha (conj Hb (conj Hc I))).
Qed.
Lemma fold_late fuel d dos : forall s, all_alive s -> Exists (fun o => fgt (do_StartTime o) big = true) dos -> foldM (process_all fuel d) s dos = Hang.
Proof.
  induction dos as [|o dos IH]; intros s A E; [inversion E|]. cbn [foldM]. inversion E as [? ? H|? ? H]; subst.
  - now rewrite (all_late fuel d s o A H).
  - destruct (all_go fuel d s o A) as [->|(s' & -> & A')]; [reflexivity|]. cbn [bind]. now apply IH.
Qed.
Lemma first_alive fuel d o : time_ok (do_StartTime o) -> exists s, process_all fuel d (new_skills d) o = Ok s /\ all_alive s.
Proof.
  intros T. destruct (all_first fuel d o T) as (s & E & A1 & A2 & A3 & A4). exists s. split; [exact E|]. destruct T as (_ & B & _).
  assert (AA : forall x, at_section (section_of (B2R (do_StartTime o))) 0 x -> alive x).
  { intros x (P & F & V & _). split; [exact P|]. split; [exact F|]. rewrite V. pose proof (section_bound _ B) as SB. rewrite <- (mult_IZR 400), <- abs_IZR. apply IZR_le. lia. }
  split; [auto|]. split; [auto|]. split; [auto|]. destruct (cs_flash s); auto.
Qed.
Lemma run_late fuel objs d t ts : Forall real_slider objs -> Forall playable objs -> clock_times objs d = t :: ts -> time_ok t ->
  Exists (fun u => fgt u big = true) ts ->
  exists dos, create_difficulty_objects objs d = Ok dos /\ foldM (process_all fuel d) (new_skills d) dos = Hang.
Proof.
  intros R P C T E. destruct (create_ok objs d R P) as (dos & Cr). exists dos. split; [exact Cr|]. apply create_times in Cr. rewrite C in Cr.
  destruct dos as [|o dos]; [discriminate Cr|]. cbn [map] in Cr. injection Cr as E1 E2. subst t ts. cbn [foldM].
  destruct (first_alive fuel d o T) as (s & -> & A). cbn [bind]. apply fold_late; [exact A|]. now rewrite Exists_map in E.
Qed.
End WithLibm.

(** Property C108: length alone does not raise the aim and speed ratings. *)
From Coq Require Import Reals Lra List ZArith Lia.
From Flocq Require Import Core BinarySingleNaN.
From Verif Require Import DiffCalc SpecDiff SpecPP SpecSane SpecStrain SpecEval SpecFormula SpecSkill SpecRating BaseLemmas FloatLemmas SectionProofs PPProofs PPBounds SortReal WeighFormula ValueFormula StrainFormula PeakFormula RatingFormula BoundedProofs IdealLibm PropRatings PropStrain PropSkill PropStars PropTotal SpecTotal.
From Verif Require PropDiff.
Import ListNotations.
Open Scope R_scope.

Section WithLibm.
Context {M : libm}.

(** What all objects have in common, for gaps of at least g ms: share of a strain left over the gap. *)
Definition left_over (k : skill_kind) (g : R) : R := Rpower (base_R k) (g / 1000).
Lemma left_in k g : 0 < g -> 0 < left_over k g < 1.
Proof.
  intros G. unfold left_over, Rpower. split; [apply exp_pos|]. rewrite <- exp_0. apply exp_increasing.
  assert (L : ln (base_R k) < 0) by (rewrite <- ln_1; apply ln_increasing; destruct k; cbn [base_R]; lra).
  assert (0 < g / 1000 * - ln (base_R k)) by (apply Rmult_lt_0_compat; lra). lra.
Qed.
Lemma left_mono k g x : g <= x -> Rpower (base_R k) (x / 1000) <= left_over k g.
Proof.
  intros G. unfold left_over, Rpower. assert (L : ln (base_R k) < 0) by (rewrite <- ln_1; apply ln_increasing; destruct k; cbn [base_R]; lra).
  assert (P : x / 1000 * ln (base_R k) <= g / 1000 * ln (base_R k)). { assert (0 <= (x - g) / 1000 * - ln (base_R k)) by (apply Rmult_le_pos; lra). lra. }
  destruct P as [P|P]; [left; now apply exp_increasing|rewrite P; lra].
Qed.
Section Bound.
Context (k : skill_kind) (d : difficulty) (dos : list dobj) (g V W : R).
Context (G : 0 < g) (NF : k <> Flash) (V0 : 0 <= V) (W1 : 1 <= W).
Context (HG : Forall (fun o => g <= B2R (do_DeltaTime o)) dos).
Context (HV : Forall (fun v => 0 <= v <= V) (along (own_R k d) k [] dos)).
Context (HW : Forall (fun b => 0 <= b <= W) (along (bonus_R k d) k [] dos)).
Let q := left_over k g.
Lemma gap_left i : (0 < i < length (gaps_of dos))%nat -> Rpower (base_R k) (nth i (gaps_of dos) 0 / 1000) <= q.
Proof.
  intros I. apply left_mono. unfold gaps_of in I. rewrite map_length in I. destruct (nth_error dos i) as [o|] eqn:E; [|apply nth_error_None in E; lia].
  destruct (nth_error_gap dos i o E) as (-> & _). rewrite Forall_forall in HG. apply HG. now apply nth_error_In in E.
Qed.
Lemma base_in : 0 < base_R k <= 1. Proof. destruct k; cbn [base_R]; lra. Qed.
Lemma shown_upto : Forall (upto (weight_R k * (V / (1 - q)) * W)) (shown_R k d dos).
Proof.
  pose proof (left_in k g G) as Q. fold q in Q. apply Forall_forall. intros x I. apply In_nth_error in I as (i & I).
  assert (L : (i < length dos)%nat). { rewrite <- (shown_R_len d dos k). apply nth_error_Some. congruence. }
  destruct (nth_error dos i) as [o|] eqn:E; [|apply nth_error_None in E; lia]. rewrite (shown_R_nth d dos k i o E) in I. injection I as <-.
  assert (LG : length (gaps_of dos) = length dos) by apply map_length.
  pose proof (faded_upto (base_R k) (gaps_of dos) (along (own_R k d) k [] dos) V q base_in V0 ltac:(lra) HV ltac:(rewrite along_len; lia) gap_left i ltac:(lia)) as S.
  unfold strain_R. set (s := faded_sum _ _ _ _) in *.
  assert (B : 0 <= bonus_R k d (seen k dos i) o <= W). { rewrite Forall_forall in HW. apply HW. eapply nth_error_In. apply along_seen. exact E. }
  set (b := bonus_R _ _ _ _) in *. unfold upto in *. assert (0 < weight_R k) by (destruct k; cbn [weight_R]; lra).
  assert (0 <= weight_R k * s <= weight_R k * (V / (1 - q))) by (split; [apply Rmult_le_pos; lra|apply Rmult_le_compat_l; lra]).
  split; [apply Rmult_le_pos; lra|apply Rmult_le_compat; lra].
Qed.
Lemma load_upto : max_load k dos <= / (1 - q).
Proof.
  pose proof (left_in k g G) as Q. fold q in Q. assert (I1 : 1 <= / (1 - q)) by (rewrite <- Rinv_1 at 1; apply Rinv_le_contravar; lra).
  assert (F : forall i, (i < length dos)%nat -> load k dos i <= / (1 - q)).
  { intros i L. assert (LG : length (gaps_of dos) = length dos) by apply map_length. unfold load. replace (/ (1 - q)) with (1 / (1 - q)) by lra.
    apply (faded_upto (base_R k) (gaps_of dos) _ 1 q base_in); try lra; try lia; [|rewrite map_length; lia|exact gap_left].
    apply Forall_forall. intros x H. apply in_map_iff in H as (y & <- & _). unfold upto. lra. }
  unfold max_load. assert (H : forall l, (forall i, In i l -> (i < length dos)%nat) -> fold_right Rmax 1 (map (load k dos) l) <= / (1 - q)).
  { induction l as [|i l IH]; intros H; cbn [map fold_right]; [exact I1|]. apply Rmax_lub; [apply F, H; now left|apply IH; intros; apply H; now right]. }
  apply H. intros i I. apply in_seq in I. lia.
Qed.
Lemma stars_upto : map_stars k d dos <= 675 / 10000 * sqrt (10 * scale_R k * weight_R k * (V * W)) / sqrt (1 - q).
Proof.
  pose proof (left_in k g G) as Q. fold q in Q. set (X := weight_R k * (V / (1 - q)) * W). assert (W0 : 0 < weight_R k) by (destruct k; cbn [weight_R]; lra).
  assert (VW : 0 <= V * W) by (apply Rmult_le_pos; lra). assert (IQ : 0 < / (1 - q)) by (apply Rinv_0_lt_compat; lra).
  assert (X0 : 0 <= X). { unfold X, Rdiv. repeat apply Rmult_le_pos; lra. }
  pose proof (value_upto k X _ NF X0 (peaks_upto k X (starts_of dos) _ X0 shown_upto)) as U. unfold map_stars, stars_R. unfold upto in U.
  assert (S : sqrt (value_R k (peaks_R k (starts_of dos) (shown_R k d dos))) <= sqrt (10 * X * scale_R k)) by (apply sqrt_le_1_alt; lra).
  assert (E : 10 * X * scale_R k = 10 * scale_R k * weight_R k * (V * W) / (1 - q)) by (unfold X; field; lra). rewrite E in S.
  assert (SC : 0 <= scale_R k) by (destruct k; cbn [scale_R]; lra). rewrite sqrt_div in S by (try lra; repeat apply Rmult_le_pos; lra). unfold Rdiv in *. lra.
Qed.
End Bound.

(** C108.  However many objects a map has: if no object brings more than V (and
    its rhythm no more than W times that) and the gaps are at least g ms, then the
    rating is at most that of all objects being so, forever. *)
Definition ceiling (k : skill_kind) (g x : R) : R :=
  match k with
  | Speed => ((1 + bpow radix2 (-10)) * (675 / 10000 * sqrt (10 * (104 / 100) * 1375 * x)) + bpow radix2 (-8)) / sqrt (1 - Rpower (30 / 100) (g / 1000))
  | _ => ((1 + bpow radix2 (-16)) * (675 / 10000 * sqrt (10 * (106 / 100) * (2325 / 100) * x)) + bpow radix2 (-10)) / sqrt (1 - Rpower (15 / 100) (g / 1000))
  end.
Lemma ceiling_ge k d dos g V W x : plain d dos -> 0 < g -> k <> Flash -> 0 <= V -> 1 <= W ->
  Forall (fun o => g <= B2R (do_DeltaTime o)) dos -> Forall (fun v => 0 <= v <= V) (along (own_R k d) k [] dos) -> Forall (fun b => 0 <= b <= W) (along (bonus_R k d) k [] dos) ->
  Rabs (x - map_stars k d dos) <= rel_slack k dos * map_stars k d dos + small_slack k dos -> x <= ceiling k g (V * W).
Proof.
  intros PL G NF V0 W1 HG HV HW D. pose proof (stars_upto k d dos g V W G NF V0 W1 HG HV HW) as S. assert (L : max_load k dos <= / (1 - left_over k g)) by (eapply load_upto; eassumption). pose proof (left_in k g G) as Q.
  set (r := map_stars k d dos) in *. assert (R0 : 0 <= r) by (unfold r, map_stars, stars_R; apply Rmult_le_pos; [apply sqrt_pos|lra]). apply Rabs_le_inv in D.
  assert (SL : sqrt (max_load k dos) <= / sqrt (1 - left_over k g)).
  { rewrite <- sqrt_inv. apply sqrt_le_1_alt. exact L. }
  assert (RS : rel_slack k dos <= match k with Speed => bpow radix2 (-10) | _ => bpow radix2 (-16) end).
  { pose proof (pl_few _ _ PL) as N. apply IZR_le in N. rewrite <- INR_IZR_INZ in N. unfold rel_slack. destruct k; [|lra|congruence].
    change (bpow radix2 (-25)) with (/ 33554432). change (bpow radix2 (-37)) with (/ 137438953472). change (bpow radix2 (-16)) with (/ 65536). lra. }
  assert (RR : rel_slack k dos * r <= match k with Speed => bpow radix2 (-10) | _ => bpow radix2 (-16) end * r) by (apply Rmult_le_compat_r; lra).
  unfold Rdiv in S. set (i := / sqrt (1 - left_over k g)) in *. unfold ceiling, left_over, small_slack, Rdiv in *.
  destruct k; [| |congruence]; cbn [base_R scale_R weight_R] in *; unfold Rdiv in *; fold i.
  - set (s := 675 * / 10000 * sqrt _) in *. pose proof (bpow_gt_0 radix2 (-10)) as P. pose proof (bpow_gt_0 radix2 (-16)) as P'.
    assert (A : sqrt (max_load (Aim withSliders) dos) * bpow radix2 (-10) <= i * bpow radix2 (-10)) by (apply Rmult_le_compat_r; lra).
    assert (B : (1 + bpow radix2 (-16)) * r <= (1 + bpow radix2 (-16)) * (s * i)) by (apply Rmult_le_compat_l; lra). lra.
  - set (s := 675 * / 10000 * sqrt _) in *. pose proof (bpow_gt_0 radix2 (-10)) as P. pose proof (bpow_gt_0 radix2 (-8)) as P'.
    assert (A : sqrt (max_load Speed dos) * bpow radix2 (-8) <= i * bpow radix2 (-8)) by (apply Rmult_le_compat_r; lra).
    assert (B : (1 + bpow radix2 (-10)) * r <= (1 + bpow radix2 (-10)) * (s * i)) by (apply Rmult_le_compat_l; lra). lra.
Qed.
Theorem C108_bounded : pow_ranges -> trig_ranges -> pow_close -> log_close -> skill_maths ->
  forall fuel objs d dos a g V W, create_difficulty_objects objs d = Ok dos -> plain d dos -> Forall time_ok (clock_times objs d) ->
  calculate_single fuel objs d = Ok a -> 0 < g -> 0 <= V -> 1 <= W -> Forall (fun o => g <= B2R (do_DeltaTime o)) dos ->
  (Forall (fun v => v <= V) (along (own_R (Aim true) d) (Aim true) [] dos) -> B2R (at_Aim a) <= ceiling (Aim true) g V) /\
  (Forall (fun v => v <= V) (along (own_R Speed d) Speed [] dos) -> Forall (fun b => b <= W) (along (bonus_R Speed d) Speed [] dos) ->
   mactive (d_Mods d) Relax = false -> B2R (at_Speed a) <= ceiling Speed g (V * W)).
Proof.
  intros PR TR PC LC SM fuel objs d dos a g V W C PL T H G V0 W1 HG.
  destruct (C89_ratings PR TR PC LC SM fuel objs d dos a C PL T H) as (RA & RS & _). cbv zeta in RA, RS.
  assert (NN : forall k, Forall (fun v => 0 <= v) (along (own_R k d) k [] dos)).
  { intros k. apply Forall_forall. intros x I. apply In_nth_error in I as (i & I). assert (L : (i < length dos)%nat) by (rewrite <- (along_len (own_R k d) k dos []); apply nth_error_Some; congruence).
    destruct (nth_error dos i) as [o|] eqn:E; [|apply nth_error_None in E; lia]. rewrite (along_seen _ k dos i o E) in I. injection I as <-.
    destruct (own_near PR TR PC SM d dos PL k i o E) as (_ & _ & B & _). lra. }
  assert (AND : forall X (P Q : X -> Prop) l, Forall P l -> Forall Q l -> Forall (fun x => P x /\ Q x) l) by (intros X P Q l A B; rewrite Forall_forall in *; intros x I; split; auto).
  split.
  - intros HV. replace V with (V * 1) by lra. destruct RA as (_ & _ & RA & _). apply (ceiling_ge (Aim true) d dos g V 1); auto; try lra; try discriminate.
    + apply Forall_forall. intros x I. apply In_nth_error in I as (i & I). assert (L : (i < length dos)%nat) by (rewrite <- (along_len (bonus_R (Aim true) d) (Aim true) dos []); apply nth_error_Some; congruence).
      destruct (nth_error dos i) as [o|] eqn:E; [|apply nth_error_None in E; lia]. rewrite (along_seen _ (Aim true) dos i o E) in I. injection I as <-. cbn [bonus_R]. lra.
  - intros HV HW RX. destruct (RS RX) as (_ & _ & RS' & _). apply (ceiling_ge Speed d dos g V W); auto; try discriminate.
    apply Forall_forall. intros x I. split; [|rewrite Forall_forall in HW; auto]. apply In_nth_error in I as (i & I). assert (L : (i < length dos)%nat) by (rewrite <- (along_len (bonus_R Speed d) Speed dos []); apply nth_error_Some; congruence).
    destruct (nth_error dos i) as [o|] eqn:E; [|apply nth_error_None in E; lia]. rewrite (along_seen _ Speed dos i o E) in I. injection I as <-. cbn [bonus_R]. destruct (is_spinner _); [lra|].
    pose proof (rhythm_ge (B2R (d_Hit300 d) / B2R (d_Speed d)) (B2R (do_StartTime o)) (map tap_of (seen Speed dos i))). lra.
Qed.
(** A map whose cursor never has to be faster than w (pixels of a circle with
    radius 50 per ms, clock rate included): from the end of the object before,
    along a slider before it and on from its end. *)
Definition no_faster (w : R) (dos : list dobj) : Prop :=
  Forall (fun o => (B2R (do_Jump o) + B2R (do_Travel o)) / B2R (do_StrainTime o) <= w /\
    (B2R (do_TravelTime o) <> 0 -> B2R (do_Travel o) / B2R (do_TravelTime o) <= w /\
       B2R (do_Movement o) / B2R (do_MovementTime o) + B2R (do_Travel o) / B2R (do_TravelTime o) <= w)) dos.
Lemma one_velocity o b w : (base_lazy b = true -> B2R (do_TravelTime o) <> 0) -> 0 <= B2R (do_Travel o) -> 0 < B2R (do_StrainTime o) ->
  (B2R (do_Jump o) + B2R (do_Travel o)) / B2R (do_StrainTime o) <= w /\
  (B2R (do_TravelTime o) <> 0 -> B2R (do_Travel o) / B2R (do_TravelTime o) <= w /\ B2R (do_Movement o) / B2R (do_MovementTime o) + B2R (do_Travel o) / B2R (do_TravelTime o) <= w) ->
  velocity true (motion_of o) (motion_of b) <= w.
Proof.
  intros L T S (A & B). unfold velocity. cbv zeta. cbn [motion_of mo_jump mo_time mo_slide mo_slide_time mo_path mo_path_time mo_slider].
  assert (Z : B2R (do_Jump o) / B2R (do_StrainTime o) <= w). { apply Rle_trans with (2 := A). apply Rmult_le_compat_r; [left; now apply Rinv_0_lt_compat|lra]. }
  unfold base_lazy in L. destruct (po_lazy (do_base b)); cbn [andb]; [|exact Z]. apply Rmax_lub; [exact Z|]. apply B. now apply L.
Qed.
Theorem C108_aim : pow_ranges -> trig_ranges -> pow_close -> log_close -> skill_maths ->
  forall fuel objs d dos a g w, create_difficulty_objects objs d = Ok dos -> plain d dos -> Forall time_ok (clock_times objs d) ->
  calculate_single fuel objs d = Ok a -> 0 < g -> 0 <= w -> Forall (fun o => g <= B2R (do_DeltaTime o)) dos -> no_faster w dos ->
  B2R (at_Aim a) <= ceiling (Aim true) g (19 / 4 * w).
Proof.
  intros PR TR PC LC SM fuel objs d dos a g w C PL T H G W HG NF.
  apply (proj1 (C108_bounded PR TR PC LC SM fuel objs d dos a g (19 / 4 * w) 1 C PL T H G ltac:(lra) ltac:(lra) HG)).
  apply Forall_forall. intros x I. apply In_nth_error in I as (i & I). assert (L : (i < length dos)%nat) by (rewrite <- (along_len (own_R (Aim true) d) (Aim true) dos []); apply nth_error_Some; congruence).
  destruct (nth_error dos i) as [o|] eqn:E; [|apply nth_error_None in E; lia]. rewrite (along_seen _ (Aim true) dos i o E) in I. injection I as <-. unfold own_R.
  destruct (is_spinner (po_obj (do_base o))) eqn:SO; [lra|]. destruct (seen (Aim true) dos i) as [|last [|ll r]] eqn:SE; [lra|lra|]. destruct (is_spinner (po_obj (do_base last))) eqn:SL; [lra|].
  destruct (seen_two d dos PL (Aim true) i o last ll r E SE) as (S1 & _ & _ & L1 & L2 & _). assert (IL : In last dos). { destruct (seen_in (Aim true) dos i last ltac:(lia)) as (j & _ & J); [rewrite SE; now left|]. now apply nth_error_In in J. }
  assert (IO : In o dos) by now apply nth_error_In in E. pose proof (pl_sane _ _ PL) as SN. unfold no_faster in NF. rewrite Forall_forall in SN, NF. pose proof (SN _ IO) as S0.
  destruct S0 as [(_ & J0) _ (_ & T0) _ _ _ (_ & ST0) _ _ _], S1 as [(_ & J1) _ (_ & T1) _ _ _ (_ & ST1) _ _ _]. pose proof (NF _ IO) as NO. pose proof (NF _ IL) as NL.
  replace (19 / 4 * w) with ((13 / 4 + (if true then 3 / 2 else 0)) * w) by (cbv iota; lra). apply aim_le; cbn [motion_of mo_jump mo_time mo_slide mo_slide_time]; try lra.
  constructor.
  - apply one_velocity; [|lra|lra|exact NO]. intros B. destruct (L1 B SO) as (_ & (_ & Q)). lra.
  - apply one_velocity; [|lra|lra|exact NL]. intros B. destruct (L2 B SL) as (_ & (_ & Q)). lra.
  - exact (proj1 NO).
  - exact (proj1 NL).
  - intros _ NZ. exact (proj1 (proj2 NO NZ)).
Qed.
(** Speed is bounded by the gaps alone: no distance, rhythm or hit window makes up for them. *)
Theorem C108_speed : pow_ranges -> trig_ranges -> pow_close -> log_close -> skill_maths ->
  forall fuel objs d dos a g, create_difficulty_objects objs d = Ok dos -> plain d dos -> Forall time_ok (clock_times objs d) ->
  calculate_single fuel objs d = Ok a -> 0 < g -> Forall (fun o => g <= B2R (do_DeltaTime o)) dos -> mactive (d_Mods d) Relax = false ->
  B2R (at_Speed a) <= ceiling Speed g (139 / 100).
Proof.
  intros PR TR PC LC SM fuel objs d dos a g C PL T H G HG RX. replace (139 / 100) with (139 / 800 * 8) by lra.
  destruct (pl_clock _ _ PL) as ((_ & H1) & (_ & H2) & _). assert (WP : 0 < B2R (d_Hit300 d) / B2R (d_Speed d)) by (apply Rmult_lt_0_compat; [lra|apply Rinv_0_lt_compat; lra]).
  assert (NE : forall (f : list dobj -> dobj -> R) (P : R -> Prop), (forall i o, nth_error dos i = Some o -> P (f (seen Speed dos i) o)) -> Forall P (along f Speed [] dos)).
  { intros f P Q. apply Forall_forall. intros x I. apply In_nth_error in I as (i & I). assert (L : (i < length dos)%nat) by (rewrite <- (along_len f Speed dos []); apply nth_error_Some; congruence).
    destruct (nth_error dos i) as [o|] eqn:E; [|apply nth_error_None in E; lia]. rewrite (along_seen _ Speed dos i o E) in I. injection I as <-. now apply Q. }
  apply (proj2 (C108_bounded PR TR PC LC SM fuel objs d dos a g (139 / 800) 8 C PL T H G ltac:(lra) ltac:(lra) HG)); [| |exact RX]; apply NE; intros i o E.
  - unfold own_R. destruct (is_spinner _); [lra|]. pose proof (pl_sane _ _ PL) as SN. rewrite Forall_forall in SN. destruct (SN o ltac:(now apply nth_error_In in E)) as [(_ & J0) _ (_ & T0) _ _ _ (_ & ST0) _ _ _]. apply speed_le; lra.
  - unfold bonus_R. destruct (is_spinner _); [lra|]. apply rhythm_le; [exact WP|]. rewrite map_length. exact (seen_len dos Speed i).
Qed.
(** So the star rating of a map with these gaps and this fastest movement is bounded, too, without the flashlight. *)
Theorem C108_stars : pow_ranges -> trig_ranges -> pow_close -> log_close -> skill_maths -> cbrt_close ->
  forall fuel objs d dos a g w, create_difficulty_objects objs d = Ok dos -> plain d dos -> Forall time_ok (clock_times objs d) ->
  calculate_single fuel objs d = Ok a -> 0 < g -> 0 <= w -> Forall (fun o => g <= B2R (do_DeltaTime o)) dos -> no_faster w dos ->
  mactive (d_Mods d) Relax = false -> mactive (d_Mods d) Flashlight = false ->
  B2R (at_Total a) <= (1 + bpow radix2 (-32)) * total_stars (ceiling (Aim true) g (19 / 4 * w)) (ceiling Speed g (139 / 100)) None.
Proof.
  intros PR TR PC LC SM CC fuel objs d dos a g w C PL T H G W HG NF RX FL.
  pose proof (C108_aim PR TR PC LC SM fuel objs d dos a g w C PL T H G W HG NF) as A. pose proof (C108_speed PR TR PC LC SM fuel objs d dos a g C PL T H G HG RX) as S.
  destruct (C66_ratings fuel objs d dos a C T H) as (P & N & Q & PA & _ & PS & EA & _ & ES & _). destruct (one_skill PR TR PC LC SM (Aim true) d dos P PL PA) as (WA & _). destruct (one_skill PR TR PC LC SM Speed d dos Q PL PS) as (WS & _).
  rewrite <- EA in WA. rewrite <- (ES RX) in WS. destruct (C90_total PC CC fuel objs d a H WA WS) as (_ & D & _); [intros K; rewrite FL in K; discriminate K|].
  unfold flash_of in D. rewrite FL in D. pose proof (C90_grows _ _ _ _ None A S) as M1. set (t := total_stars (B2R _) _ _) in *. set (u := total_stars _ _ None) in *. apply Rabs_le_inv in D. pose proof (bpow_gt_0 radix2 (-32)) as B.
  apply Rle_trans with ((1 + bpow radix2 (-32)) * t); [lra|]. apply Rmult_le_compat_l; lra.
Qed.
(** Not so the flashlight: its peaks are added up without fading, so a map that
    goes on as before gets more and more of it. *)
Theorem C108_flashlight : log_close -> forall peaks, Forall (within 0 (bpow radix2 100)) peaks -> peaks <> [] -> (Z.of_nat (length peaks) <= 1048576)%Z ->
  let sum := fold_right Rplus 0 (map (@B2R 53 1024) peaks) in let x := B2R (difficulty_value_of Flash peaks) in
  79 / 100 * sum - bpow radix2 (-770) <= x <= 107 / 100 * sum + bpow radix2 (-770).
Proof.
  intros LC peaks F NE L sum x. destruct (C87_value Flash peaks LC F NE L) as (_ & V0 & D). cbv zeta in D.
  assert (P : Forall (fun x => 0 <= x) (map (@B2R 53 1024) peaks)). { apply Forall_forall. intros y I. apply in_map_iff in I as (z & <- & I). rewrite Forall_forall in F. apply (F _ I). }
  pose proof (flash_value _ P) as FV. change (rsum (map (@B2R 53 1024) peaks)) with sum in FV. fold x in D. set (v := value_R Flash _) in *. apply Rabs_le_inv in D. change (bpow radix2 (-26)) with (/ 67108864) in D. lra.
Qed.
End WithLibm.

(** ** Concrete cases *)
(** The sample pattern of C89: gaps of at least 100 ms, nowhere faster than 40 px/ms. *)
Definition slow_check (o : dobj) : bool :=
  inb 100 300000 (do_DeltaTime o) && inb 100 300000 (do_StrainTime o) && inb 0 500 (do_Jump o) && inb 0 500 (do_Travel o) && inb 0 500 (do_Movement o) &&
  (inb 0 0 (do_TravelTime o) || (inb 25 300000 (do_TravelTime o) && inb 25 300000 (do_MovementTime o))).
Lemma quot_le a b x y : 0 <= a <= x -> 0 < y <= b -> a / b <= x / y.
Proof. intros A B. apply Rmult_le_compat; try lra; [left; apply Rinv_0_lt_compat; lra|apply Rinv_le_contravar; lra]. Qed.
Example C108_instance : @pow_ranges blend_libm /\ @trig_ranges blend_libm /\ @pow_close blend_libm /\ @log_close blend_libm /\ @skill_maths blend_libm /\ @cbrt_close blend_libm /\
  @create_difficulty_objects blend_libm pattern PropDiff.demo_diff = Ok pattern_dos /\ plain PropDiff.demo_diff pattern_dos /\ Forall time_ok (clock_times pattern PropDiff.demo_diff) /\
  (exists a, @calculate_single blend_libm 5 pattern PropDiff.demo_diff = Ok a) /\ length pattern_dos = 7%nat /\
  Forall (fun o => 100 <= B2R (do_DeltaTime o)) pattern_dos /\ no_faster 40 pattern_dos /\
  mactive (d_Mods PropDiff.demo_diff) Relax = false /\ mactive (d_Mods PropDiff.demo_diff) Flashlight = false.
Proof.
  destruct C90_instance as (B1 & B2 & B3 & B4 & B5 & B6 & B7 & B8 & B9 & B10 & B11). do 9 (split; [assumption|]). split; [exact B11|]. split; [exact pattern_len|].
  assert (A : forallb slow_check pattern_dos = true) by (vm_compute; reflexivity).
  assert (Q : forall i o, nth_error pattern_dos i = Some o -> within 100 300000 (do_DeltaTime o) /\ within 100 300000 (do_StrainTime o) /\ within 0 500 (do_Jump o) /\ within 0 500 (do_Travel o) /\ within 0 500 (do_Movement o) /\
    (B2R (do_TravelTime o) <> 0 -> within 25 300000 (do_TravelTime o) /\ within 25 300000 (do_MovementTime o))).
  { intros i o H. apply (all_dos _ A) in H. unfold slow_check in H. apply andb_prop in H as (H & H0). do 4 (apply andb_prop in H as (H & ?)). repeat match goal with K : inb _ _ _ = true |- _ => apply inb_ok in K; [|lia|lia] end.
    split; [assumption|]. split; [assumption|]. split; [assumption|]. split; [assumption|]. split; [assumption|]. intros NZ. apply orb_prop in H0 as [Z|Z].
    - exfalso. apply NZ. apply inb_ok in Z; [|lia|lia]. destruct Z as (_ & Z). lra.
    - apply andb_prop in Z as (Z1 & Z2). apply inb_ok in Z1, Z2; try lia. auto. }
  split; [apply Forall_nth_error; intros i o H; apply (proj2 (proj1 (Q i o H)))|]. split; [|split; [vm_compute; reflexivity|exact B10]].
  apply Forall_nth_error. intros i o H. destruct (Q i o H) as (_ & (_ & S) & (_ & J) & (_ & T) & (_ & MV) & TT). split.
  - apply Rle_trans with (1000 / 100); [|lra]. apply quot_le; lra.
  - intros NZ. destruct (TT NZ) as ((_ & T1) & (_ & T2)). assert (B2R (do_Travel o) / B2R (do_TravelTime o) <= 500 / 25) by (apply quot_le; lra). assert (B2R (do_Movement o) / B2R (do_MovementTime o) <= 500 / 25) by (apply quot_le; lra). lra.
Qed.
(** A thousand sections with peaks of 20 meet the hypotheses; three of them add up to 60. *)
Example C108_flashlight_instance : let l n := repeat (fq 20 1) n in @log_close exact_libm /\ Forall (within 0 (bpow radix2 100)) (l 1000%nat) /\
  fold_right Rplus 0 (map (@B2R 53 1024) (l 3%nat)) = 60.
Proof.
  intros l. split; [exact exact_log|]. destruct (fq1_exact 20) as (F & E); [lia|]. split.
  - apply Forall_forall. intros x I. apply repeat_spec in I. subst x. split; [exact F|]. rewrite E. split; [lra|]. apply Rle_trans with (bpow radix2 5); [change (bpow radix2 5) with 32; lra|apply bpow_le; lia].
  - unfold l. cbn [repeat map fold_right]. rewrite E. lra.
Qed.
Print Assumptions C108_bounded. Print Assumptions C108_aim. Print Assumptions C108_speed. Print Assumptions C108_stars. Print Assumptions C108_flashlight.

(** C79: how fast sliders are, and when they end, in real numbers. *)
From Coq Require Import Reals Lra ZArith Lia List Bool Permutation String.
From Flocq Require Import Core BinarySingleNaN.
From Verif Require Import GoFloat Curves Objects Timing Parser SpecTiming SpecParser SpecShape SpecTerm SpecPlay SpecTempo BaseLemmas FloatLemmas Float32Lemmas KeyLemmas BoundLemmas StringLemmas
  StackingProofs FinishProofs MapProofs TimingProofs TermProofs LazyProofs PlayTiming RelLemmas TempoProofs TempoBase PropParser PropTiming PropShape.
From Verif Require PropSafety.
Import ListNotations.
Open Scope R_scope.

(** C79.  GetVelocity is 100 times the slider multiplier in pixels per beat,
    the beat being the base beat stretched by the inherited point ... *)
Theorem C79_velocity : forall tim p m, moderate (t_SliderMult tim) -> moderate (t_TickRate tim) -> stretched p m ->
  is_finite (cp_base p) = true -> / 1024 <= B2R (cp_base p) <= 65536 ->
  is_finite (get_velocity tim p) = true /\ about (B2R (get_velocity tim p)) (100 * B2R (t_SliderMult tim) * (1000 / (B2R (cp_base p) * m))).
Proof. intros tim p m HS HT HM FB HB. pose proof (velocity_rel tim p m HS HT HM FB HB) as R. split; [exact (proj1 R)|]. apply (rel_about 15); [lra|exact R]. Qed.
(** ... 100 times the multiplier in pixels per second when the base beat is negative or no number ... *)
Theorem C79_velocity_no_beat : forall tim p, moderate (t_SliderMult tim) -> moderate (t_TickRate tim) ->
  is_nan (cp_base p) = true \/ fle (cp_base p) (fq (-1) 1024) = true ->
  is_finite (get_velocity tim p) = true /\ about (B2R (get_velocity tim p)) (100 * B2R (t_SliderMult tim)).
Proof.
  intros tim p HS HT HB. pose proof (plain_rel tim HS HT) as R. assert (G : fge (get_beat_length p) f0 = false).
  { destruct (fge (get_beat_length p) f0) eqn:G; [exfalso|reflexivity]. destruct (ratio_in p) as (Fr & Br). unfold get_beat_length in G. set (r := get_ratio p) in *. clearbody r. destruct HB as [N|L].
    - destruct (cp_base p) as [| | |]; try discriminate N. destruct r as [| | |]; try discriminate Fr; discriminate G.
    - apply fle_iff in L as (N & _ & L). assert (FQ : fin (fq (-1) 1024)) by (vm_compute; reflexivity). assert (EQ : B2R (fq (-1) 1024) = - / 1024) by (bval (fq (-1) 1024); cbn [Z.opp] in V; lra). rewrite (key_fin 53 1024 _ FQ), EQ in L.
      apply fge_iff in G as (NG & _ & K). change (key f0) with 0 in K. destruct (cp_base p) as [s|s| |s mm e be] eqn:EB; try discriminate N.
      + cbn in L. lra.
      + destruct s; [|cbn [key] in L; pose proof (bpow_gt_0 radix2 1024); cbn in L; lra]. destruct r as [sr| | |[] mr er hr]; try discriminate Fr; try (cbn in Br; lra).
        * apply (Rlt_not_le _ _ (F2R_lt_0 radix2 (Float radix2 (Zneg mr) er) eq_refl)). change (F2R (Float radix2 (Zneg mr) er)) with (B2R (@B754_finite 53 1024 true mr er hr)). lra.
        * cbn in K. lra.
      + rewrite <- EB in *. assert (Fb : fin (cp_base p)) by (now rewrite EB). rewrite (key_fin 53 1024 _ Fb) in L. set (b := cp_base p) in *. clearbody b. clear EB N.
        pose proof (Bmult_correct 53 1024 p53 pe53 mode_NE b r) as C. change (Bmult mode_NE b r) with (fmul b r) in C. change (round radix2 _ _ _) with (rnd64 (B2R b * B2R r)) in C.
        assert (PR : B2R b * B2R r <= - / 11264). { replace (- / 11264) with (- / 1024 * (1 / 11)) by field. assert (/ 1024 * (1 / 11) <= - B2R b * B2R r) by (apply Rmult_le_compat; lra). lra. }
        assert (RN : rnd64 (B2R b * B2R r) <= - / 32768). { assert (E : B2R (fq (-1) 32768) = - / 32768) by (bval (fq (-1) 32768); cbn [Z.opp] in V; lra). rewrite <- E. apply rnd64_le_f. rewrite E. lra. }
        destruct (Rlt_bool_spec (Rabs (rnd64 (B2R b * B2R r))) (bpow radix2 1024)) as [I|I].
        * destruct C as (V & Fm & _). rewrite Fb, Fr in Fm. cbn [andb] in Fm. rewrite (key_fin 53 1024 _ Fm), V in K. lra.
        * assert (SN : Bsign b = true /\ Bsign r = false).
          { split; [destruct b as [| | |[] m' e' h']; try discriminate Fb; try reflexivity; try (cbn in L; lra); exfalso; pose proof (F2R_gt_0 radix2 (Float radix2 (Zpos m') e') eq_refl) as X; change (F2R (Float radix2 (Zpos m') e')) with (B2R (@B754_finite 53 1024 false m' e' h')) in X; lra|].
            destruct r as [sr| | |[] m' e' h']; try discriminate Fr; try reflexivity; try (cbn in Br; lra). exfalso. pose proof (F2R_lt_0 radix2 (Float radix2 (Zneg m') e') eq_refl) as X. change (F2R (Float radix2 (Zneg m') e')) with (B2R (@B754_finite 53 1024 true m' e' h')) in X. lra. }
          destruct SN as (-> & ->) in C. cbn [xorb] in C. unfold binary_overflow in C. cbn in C. destruct (fmul b r) as [|[]| |]; try discriminate C. cbn in K. lra. }
  unfold get_velocity. cbv zeta. rewrite G. split; [exact (proj1 R)|]. apply (rel_about 3); [lra|exact R].
Qed.
(** ... and infinite when the base beat is zero. *)
Theorem C79_velocity_zero : forall tim p, moderate (t_SliderMult tim) -> moderate (t_TickRate tim) -> cp_base p = f0 -> get_velocity tim p = finf.
Proof.
  intros tim p HS HT HB. destruct (plain_rel tim HS HT) as (F & P & B). pose proof (pos26 3 _ _ ltac:(lra) (plain_rel tim HS HT)) as RP. destruct (ratio_in p) as (Fr & Br). unfold get_velocity. cbv zeta. unfold get_beat_length. rewrite HB.
  assert (Z : fmul f0 (get_ratio p) = f0). { destruct (get_ratio p) as [sr| | |[] m' e' h']; try discriminate Fr; try (cbn in Br; lra); [|reflexivity]. exfalso. pose proof (F2R_lt_0 radix2 (Float radix2 (Zneg m') e') eq_refl) as X. change (F2R (Float radix2 (Zneg m') e')) with (B2R (@B754_finite 53 1024 true m' e' h')) in X. lra. }
  rewrite Z. change (fge f0 f0) with true. cbv iota. assert (D : fdiv (fq 1000 1) f0 = finf) by (apply B2SF_inj; vm_compute; reflexivity). rewrite D. set (v := fmul (get_scoring_distance tim) _) in *. clearbody v.
  destruct v as [sr| | |[] m' e' h']; try discriminate F; try (cbn in RP; lra); [|reflexivity]. exfalso. pose proof (F2R_lt_0 radix2 (Float radix2 (Zneg m') e') eq_refl) as X. change (F2R (Float radix2 (Zneg m') e')) with (B2R (@B754_finite 53 1024 true m' e' h')) in X. lra.
Qed.
(** Ticks are 1 / SliderTickRate of a beat of the unstretched tempo apart, stretched back by the inherited point. *)
Theorem C79_tick_distance : forall tim p m, moderate (t_SliderMult tim) -> moderate (t_TickRate tim) -> stretched p m ->
  is_finite (get_tick_distance tim p) = true /\ about (B2R (get_tick_distance tim p)) (100 * B2R (t_SliderMult tim) / (B2R (t_TickRate tim) * m)).
Proof. intros tim p m HS HT HM. pose proof (distance_rel tim p m HS HT HM) as R. split; [exact (proj1 R)|]. apply (rel_about 12); [lra|exact R]. Qed.
(** GetSliderTimeP, though computed in single precision, agrees with the velocity. *)
Theorem C79_slider_time : forall tim p m px, moderate (t_SliderMult tim) -> moderate (t_TickRate tim) -> stretched p m ->
  is_finite (cp_base p) = true -> / 1024 <= B2R (cp_base p) <= 65536 -> is_finite px = true -> / 1000000 <= B2R px <= 1000000 ->
  is_finite (get_slider_time_p tim p px) = true /\ about (B2R (get_slider_time_p tim p px)) (slide_time (B2R (t_SliderMult tim)) (B2R (cp_base p)) m (B2R px)).
Proof. intros tim p m px HS HT HM FB HB FP BP. now apply time_p_rel. Qed.
(** The base beat of the point in force at a time is the beat of the uninherited point in force then. *)
Theorem C79_base : forall l t p q, Forall fresh l -> fisnan t = false -> l <> [] ->
  get_point_at (finalize_points (added l)) t = Ok p -> get_original_point_at (finalize_points (added l)) t = Ok q -> cp_base p = cp_beat q.
Proof. exact base_of_original. Qed.

Section WithLibm.
Context {M : libm}.
(** A slider of n spans of a curve of length len, in a map with slider multiplier sm. *)
Definition slides (tim : timings) (fs : list str) (o : hobj) : Prop := exists sd, ho_kind o = KSlider sd /\
  let sm := B2R (t_SliderMult tim) in let start := start_of fs in let len := B2R (mc_length (sl_curve sd)) in let n := parse_int (field 6 fs) in
  forall p q m, get_point_at tim start = Ok p -> get_original_point_at tim start = Ok q -> stretched p m ->
  is_finite (cp_beat q) = true -> / 1024 <= B2R (cp_beat q) <= 65536 ->
  (1 <= n <= 100000)%Z -> is_finite start = true -> Rabs (B2R start) <= bpow radix2 40 ->
  is_finite (mc_length (sl_curve sd)) = true -> / 1000000 <= len <= 1000000 ->
  let D := slide_time sm (B2R (cp_beat q)) m len in
  is_finite (sl_span sd) = true /\ about (B2R (sl_span sd)) D /\
  is_finite (ho_end o) = true /\ Rabs (B2R (ho_end o) - (B2R start + IZR n * D)) <= IZR n * D / 1000000 + Rabs (B2R start) / 1000000000000000 + / 1000000000000.
Lemma slider_slides fuel ls b ds : parse_lines fuel ls = Ok (Some b) -> settings ls "Difficulty" ds ->
  moderate (last_value "SliderMultiplier" ds parse_f64 f0) -> moderate (last_value "SliderTickRate" ds parse_f64 f0) ->
  t_SliderMult (bm_Timings b) = last_value "SliderMultiplier" ds parse_f64 f0 /\
  forall fs o, slider_of fuel (bm_Timings b) fs o -> slides (bm_Timings b) fs o.
Proof.
  intros H Hd MS MT. destruct (all_functional ls) as (hr' & tr & ms & gs & ds' & _ & Ht & Hm & _ & _).
  destruct (C55_timing fuel ls b tr ds H Ht Hd) as (T1 & T2 & T3 & T4 & _). cbv zeta in T1, T2, T3, T4. split; [exact T3|]. rewrite <- T3 in MS. rewrite <- T4 in MT. clear T3 T4.
  assert (NE : tr <> []). { intros E. pose proof (proj2 (none_facts fuel ls (Some b) tr ms H Ht Hm) (or_intror E)). discriminate. }
  intros fs o SL. destruct SL as (sd & typ & texts & pts & es & K & _ & _ & _ & _ & _ & _ & _ & Y). exists sd. split; [exact K|]. cbv zeta.
  intros p q m Gp Gq HM FQ BQ BN FS BS FL BL. destruct (Y (proj1 BN)) as (tp & dd & Gp' & Y1 & Y2 & _). cbv zeta in Y1, Y2. rewrite Gp in Gp'. injection Gp' as <-.
  assert (EB : cp_base p = cp_beat q).
  { apply (base_of_original (map timing_point tr) (start_of fs)); [apply timing_fresh|now apply (fin_num 53 1024)|intros E; apply map_eq_nil in E; contradiction| |].
    - unfold get_point_at in *. now rewrite <- T1. - unfold get_original_point_at in *. now rewrite <- T2. }
  rewrite <- EB in FQ, BQ |- *. destruct (f_of_g_fin _ FL) as (FLL & ELL). destruct (f_of_Z_exact (parse_int (field 6 fs)) ltac:(lia)) as (FZ & EZ).
  assert (BZ : 1 <= IZR (parse_int (field 6 fs)) <= 100000) by (split; apply IZR_le; lia).
  destruct (slide_rel (bm_Timings b) p m MS MT HM FQ BQ (f_of_g (mc_length (sl_curve sd))) (f_of_Z (parse_int (field 6 fs))) (IZR (parse_int (field 6 fs))) FLL ltac:(rewrite ELL; exact BL) FZ EZ BZ) as (R1 & R2).
  rewrite ELL in R1, R2. rewrite <- Y1 in R1. set (D := slide_time _ _ _ _) in *. set (k := IZR (parse_int (field 6 fs))) in *.
  split; [exact (proj1 R1)|]. split; [apply (rel_about 17); [lra|exact R1]|]. rewrite Y2. destruct R2 as (F2 & P2 & B2). set (dur := fdiv (fmul _ _) _) in *. clearbody dur.
  assert (DM : D <= 100000000000000000).
  { destruct (moderate_val _ MS) as (FSM & BSM). pose proof (beat_range p m HM BQ) as BR. unfold D, slide_time. assert (X : 0 <= B2R (mc_length (sl_curve sd)) / (100 * B2R (t_SliderMult (bm_Timings b))) <= 1000000).
    { destruct (quot_in (B2R (mc_length (sl_curve sd))) (100 * B2R (t_SliderMult (bm_Timings b))) (/ 1000000) 1000000 (25 / 4) 1600 ltac:(lra) ltac:(lra) ltac:(lra) ltac:(lra)). lra. }
    apply Rle_trans with (1000000 * 655360); [|lra]. apply Rmult_le_compat; lra. }
  assert (KD : 0 < k * D <= 10000000000000000000000). { split; [exact P2|]. replace 10000000000000000000000 with (100000 * 100000000000000000) by ring. apply Rmult_le_compat; try lra. apply Rmult_le_reg_l with k; [|rewrite Rmult_0_r]; lra. }
  change (bpow radix2 40) with 1099511627776 in BS. unfold e26 in B2. set (z := k * D) in *. clearbody z.
  assert (ZB : Rabs (B2R (start_of fs) + B2R dur) <= Rabs (B2R (start_of fs)) + (z + z / 1000000)). { apply Rle_trans with (1 := Rabs_triang _ _). rewrite (Rabs_pos_eq (B2R dur)) by lra. lra. }
  assert (T100 : 1000000000000000000000000 <= bpow radix2 100) by (change (bpow radix2 100) with 1267650600228229401496703205376; lra).
  destruct (fadd_fin (start_of fs) dur FS F2) as (FE & EE). { apply Rle_trans with (bpow radix2 100); [lra|apply bpow_le; lia]. }
  split; [exact FE|]. rewrite EE. assert (E6 : Rabs (rnd64 (B2R (start_of fs) + B2R dur) - (B2R (start_of fs) + B2R dur)) <= Rabs (B2R (start_of fs) + B2R dur) * / 9007199254740992 + / 1000000000000).
  { apply err64. apply Rle_trans with (bpow radix2 100); [lra|apply bpow_le; lia]. }
  replace (rnd64 (B2R (start_of fs) + B2R dur) - (B2R (start_of fs) + z)) with (rnd64 (B2R (start_of fs) + B2R dur) - (B2R (start_of fs) + B2R dur) + (B2R dur - z)) by ring.
  apply Rle_trans with (1 := Rabs_triang _ _). pose proof (Rabs_pos (B2R (start_of fs))). assert (DZ : Rabs (B2R dur - z) <= 18 * / 67108864 * z) by (apply Rabs_le; lra). lra.
Qed.
(** Sliders of a parsed map take the time the formula says. *)
Theorem C79_sliders : forall fuel ls b hr ds, parse_lines fuel ls = Ok (Some b) -> section_rows ls "HitObjects" hr -> settings ls "Difficulty" ds ->
  moderate (last_value "SliderMultiplier" ds parse_f64 f0) -> moderate (last_value "SliderTickRate" ds parse_f64 f0) ->
  t_SliderMult (bm_Timings b) = last_value "SliderMultiplier" ds parse_f64 f0 /\
  exists played, Permutation (filter is_object hr) played /\
    Forall2 (fun fs o => describes fs o /\ (type_of fs = TSlider -> slides (bm_Timings b) fs o)) played (bm_HitObjects b).
Proof.
  intros fuel ls b hr ds H Hh Hd MS MT. destruct (slider_slides fuel ls b ds H Hd MS MT) as (E & SS). split; [exact E|].
  destruct (C73_rows fuel ls b hr H Hh) as (played & P & F & _). exists played. split; [exact P|]. eapply F2_impl; [|exact F].
  intros fs o (DS & SL). split; [exact DS|]. intros T. apply SS, SL, T.
Qed.
End WithLibm.

(** 1.4 * 100 px in 300 ms; a point of -50 makes it 150 ms, so 500 px take 3750 / 7 ms. *)
Lemma moderate_14 : moderate (parse_f64 (lit "1.4")).
Proof. split; vm_compute; reflexivity. Qed.
Example C79_instance :
  moderate (parse_f64 (lit "1.4")) /\ moderate (parse_f64 (lit "2")) /\ stretch (-50) = / 2 /\ stretch (-100) = 1 /\ stretch 300 = 1 /\ stretch (-5) = / 10 /\ stretch (-100000) = 10 /\
  slide_time (14 / 10) 300 (/ 2) 500 = 3750 / 7 /\
  view (fun b => match get_point_at (bm_Timings b) (fq 1000 1), get_original_point_at (bm_Timings b) (fq 1000 1) with
                 | Ok p, Ok q => (feq (cp_beat p) (fq (-50) 1), feq (cp_beat q) (fq 300 1), map (fun o => int_of_f (ho_end o)) (bm_HitObjects b))
                 | _, _ => (false, false, []) end) (@parse_lines PropSafety.zero_libm 1000 timed_map) = Some (Some (true, true, [0; 1100; 1535; 2642; 3803; 4428; 6000]%Z)).
Proof.
  split; [exact moderate_14|]. split; [split; vm_compute; reflexivity|].
  assert (ST : forall b r, b < 0 -> Rmin 1000 (Rmax 10 (- b)) / 100 = r -> stretch b = r) by (intros b r L E; unfold stretch; destruct (Rle_dec 0 b); [lra|exact E]).
  split; [apply ST; [lra|]; unfold Rmin, Rmax; repeat destruct Rle_dec; lra|]. split; [apply ST; [lra|]; unfold Rmin, Rmax; repeat destruct Rle_dec; lra|].
  split; [unfold stretch; destruct (Rle_dec 0 300); lra|]. split; [apply ST; [lra|]; unfold Rmin, Rmax; repeat destruct Rle_dec; lra|]. split; [apply ST; [lra|]; unfold Rmin, Rmax; repeat destruct Rle_dec; lra|].
  split; [unfold slide_time; field|]. vm_compute. reflexivity.
Qed.
(** A point before the first uninherited one: its own negative beat is its base. *)
Example C79_no_beat_instance : exists p, get_point_at (finalize_points (added [mk_point f0 (fq (-50) 1) 0 0 f0 4 true false false])) (fq 10 1) = Ok p /\ fle (cp_base p) (fq (-1) 1024) = true.
Proof. eexists. split; [reflexivity|vm_compute; reflexivity]. Qed.

Print Assumptions C79_velocity.
Print Assumptions C79_velocity_no_beat.
Print Assumptions C79_velocity_zero.
Print Assumptions C79_tick_distance.
Print Assumptions C79_slider_time.
Print Assumptions C79_base.
Print Assumptions C79_sliders.

(** C105: when the score points of a slider are due, in real numbers. *)
From Coq Require Import Reals Lra ZArith Lia List Bool Permutation String.
From Flocq Require Import Core BinarySingleNaN.
From Verif Require Import GoFloat Curves Objects Timing Parser SpecTiming SpecParser SpecShape SpecSliders SpecTerm SpecPlay SpecTempo SpecTicks BaseLemmas FloatLemmas Float32Lemmas KeyLemmas BoundLemmas StringLemmas GoSort
  SortLemmas ObjectProofs CurveStart StackingProofs FinishProofs MapProofs TimingProofs TermProofs LazyProofs PlayTiming RelLemmas TempoProofs TempoBase ShapeProofs TickProofs PropParser PropTiming PropShape PropTempo.
From Verif Require PropSafety.
From Coq Require Import List.
Import ListNotations.
Open Scope R_scope.

Section WithLibm.
Context {M : libm}.
(** The row [fs] became [o]: n spans of D ms each along a curve of length len,
    with ticks T pixels apart.  For some count N of ticks in a span, none if
    the timing point is no number, the points of [o] are those of the real
    formula: each off by at most n D / 500000 ms and the rounding of the start. *)
Definition ticked (tim : timings) (fs : list str) (o : hobj) : Prop := exists sd, ho_kind o = KSlider sd /\
  let sm := B2R (t_SliderMult tim) in let start := B2R (start_of fs) in let len := B2R (mc_length (sl_curve sd)) in let pix := parse_f64 (field 7 fs) in let n := Z.to_nat (parse_int (field 6 fs)) in
  forall p q m, get_point_at tim (start_of fs) = Ok p -> get_original_point_at tim (start_of fs) = Ok q -> stretched p m ->
  is_finite (cp_beat q) = true -> / 1024 <= B2R (cp_beat q) <= 65536 ->
  (1 <= parse_int (field 6 fs) <= 100000)%Z -> is_finite (start_of fs) = true -> Rabs start <= bpow radix2 40 ->
  is_finite (mc_length (sl_curve sd)) = true -> / 1000000 <= len <= 1000000 -> is_finite pix = true -> / 100 <= B2R pix ->
  let D := slide_time sm (B2R (cp_beat q)) m len in let T := tick_gap sm (B2R (t_TickRate tim)) m (B2R pix) in
  exists N pts, (if is_nan (cp_beat p) then N = 0%nat else tick_count D len T ((len + len * 10 / D) / 1000000 + / 100000000000) N) /\
    Permutation (sl_ticks sd) pts /\
    Forall2 (due (INR n * D / 500000 + Rabs start / 100000000000000 + / 100000000000)) pts (flat_map (span_times start D len T n N) (seq 0 n)).
Lemma finished_pixels fuel tim fs o sd : finished fuel tim fs o -> type_of fs = TSlider -> ho_kind o = KSlider sd -> sl_pixelLength sd = parse_f64 (field 7 fs).
Proof.
  intros (o0 & o1 & o2 & C & (nc & id & n & s & h & ->) & T & S) HT K0.
  destruct (slider_row fuel fs o0 C HT) as (typ & texts & pts & mc & es & B & P & E & EP & EN & SP & ST & Z0 & K & _).
  unfold set_timing in T. cbn [ho_kind with_combo] in T. rewrite K in T. set (sd0 := mkSlider _ _ _ _ _ _) in T. destruct S as (S1 & _).
  unfold slider_set_timing in T. apply bind_ok in T as (tp & Etp & T). cbv zeta in T. apply bind_ok in T as (tss & Etss & T). apply bind_ok in T as (qq & Eq & T). apply Ok_inj in T.
  rewrite S1, <- T in K0. cbn [ho_kind with_end with_kind] in K0. injection K0 as <-. reflexivity.
Qed.
Lemma F2_flat {A B C} (P : B -> C -> Prop) (f : A -> list B) (g : A -> list C) l : (forall x, In x l -> Forall2 P (f x) (g x)) -> Forall2 P (flat_map f l) (flat_map g l).
Proof. induction l as [|a l IH]; intros H; cbn [flat_map]; [constructor|]. apply Forall2_app; [apply H; now left|apply IH; intros x I; apply H; now right]. Qed.
Lemma slider_ticked fuel ls b ds : parse_lines fuel ls = Ok (Some b) -> settings ls "Difficulty" ds ->
  moderate (last_value "SliderMultiplier" ds parse_f64 f0) -> moderate (last_value "SliderTickRate" ds parse_f64 f0) ->
  forall fs o, slider_of fuel (bm_Timings b) fs o -> (forall sd, ho_kind o = KSlider sd -> sl_pixelLength sd = parse_f64 (field 7 fs)) -> ticked (bm_Timings b) fs o.
Proof.
  intros H Hd MS MT. destruct (all_functional ls) as (hr' & tr & ms & gs & ds' & _ & Ht & Hm & _ & _). destruct (slider_slides fuel ls b ds H Hd MS MT) as (_ & SS).
  destruct (C55_timing fuel ls b tr ds H Ht Hd) as (T1 & T2 & T3 & T4 & _). cbv zeta in T1, T2, T3, T4. rewrite <- T3 in MS. rewrite <- T4 in MT. clear T3 T4.
  assert (NE : tr <> []). { intros E. pose proof (proj2 (none_facts fuel ls (Some b) tr ms H Ht Hm) (or_intror E)). discriminate. }
  intros fs o SL PX. pose proof (SS fs o SL) as (sd' & K' & SLD). destruct SL as (sd & typ & texts & pts & es & K & _ & _ & _ & _ & _ & _ & _ & Y). assert (sd' = sd) by (rewrite K in K'; now injection K'). subst sd'. specialize (PX sd K). exists sd. split; [exact K|]. cbv zeta in SLD |- *.
  intros p q m Gp Gq HM FQ BQ BN FS BS FL BL FP BP. destruct (SLD p q m Gp Gq HM FQ BQ BN FS BS FL BL) as (_ & _ & FEn & NEn). clear SLD. destruct (Y (proj1 BN)) as (tp & dd & Gp' & Y1 & Y2 & Y3 & Y4). cbv zeta in Y1, Y2, Y3, Y4. rewrite Gp in Gp'. injection Gp' as <-.
  assert (EB : cp_base p = cp_beat q).
  { apply (base_of_original (map timing_point tr) (start_of fs)); [apply timing_fresh|now apply (fin_num 53 1024)|intros E; apply map_eq_nil in E; contradiction| |].
    - unfold get_point_at in *. now rewrite <- T1. - unfold get_original_point_at in *. now rewrite <- T2. }
  rewrite <- EB in FQ, BQ, NEn |- *. destruct (f_of_g_fin _ FL) as (FLL & ELL). destruct (f_of_Z_exact (parse_int (field 6 fs)) ltac:(lia)) as (FZ & EZ).
  assert (BZ : 1 <= IZR (parse_int (field 6 fs)) <= 100000) by (split; apply IZR_le; lia).
  destruct (slide_rel (bm_Timings b) p m MS MT HM FQ BQ (f_of_g (mc_length (sl_curve sd))) (f_of_Z (parse_int (field 6 fs))) (IZR (parse_int (field 6 fs))) FLL ltac:(rewrite ELL; exact BL) FZ EZ BZ) as (R1 & _).
  rewrite ELL in R1. rewrite <- Y1 in R1.
  assert (GR : 1 <= 1) by lra. set (tim := bm_Timings b) in *. pose proof (distance_rel tim p m MS MT HM) as RG. pose proof (velocity_rel tim p m MS MT HM FQ BQ) as RV. pose proof (pace_range tim p m MS HM BQ) as PR.
  assert (GX : 0 < 100 * B2R (t_SliderMult tim) / (B2R (t_TickRate tim) * m)) by exact (proj1 (proj2 RG)).
  assert (GB : 25 / 640 <= 100 * B2R (t_SliderMult tim) / (B2R (t_TickRate tim) * m) <= 256000).
  { destruct (moderate_val _ MS) as (FSM & BSM). destruct (moderate_val _ MT) as (FTM & BTM). pose proof (stretched_range _ _ HM) as Bm. assert (X : / 160 <= B2R (t_TickRate tim) * m <= 160) by (split; [apply Rle_trans with (/ 16 * / 10); [lra|]|apply Rle_trans with (16 * 10); [|lra]]; apply Rmult_le_compat; lra).
    destruct (quot_in (100 * B2R (t_SliderMult tim)) (B2R (t_TickRate tim) * m) (25 / 4) 1600 (/ 160) 160 ltac:(lra) ltac:(lra) ltac:(lra) ltac:(lra)). lra. }
  assert (PD : slide_time (B2R (t_SliderMult tim)) (B2R (cp_base p)) m (B2R (mc_length (sl_curve sd))) = B2R (mc_length (sl_curve sd)) * 1000 / pace tim p m).
  { destruct (moderate_val _ MS) as (FSM & BSM). pose proof (beat_range p m HM BQ) as BR. pose proof (stretched_range _ _ HM) as Bm. unfold slide_time, pace. field. lra. }
  assert (PM : forall z, z = B2R (mc_length (sl_curve sd)) * 1000 / pace tim p m -> B2R (mc_length (sl_curve sd)) * 10 / z = pace tim p m / 100) by (intros z ->; field; lra).
  specialize (PM _ PD). assert (DB : 0 < slide_time (B2R (t_SliderMult tim)) (B2R (cp_base p)) m (B2R (mc_length (sl_curve sd))) <= 1000000000000).
  { split; [exact (proj1 (proj2 R1))|]. rewrite PD. destruct (quot_in (B2R (mc_length (sl_curve sd)) * 1000) (pace tim p m) (/ 1000) 1000000000 (/ 1000) 100000000000 ltac:(lra) ltac:(lra) ltac:(lra) ltac:(lra)). lra. }
  clear PD. set (D := slide_time _ _ _ _) in *. clearbody D.
  destruct (gap_near (get_tick_distance tim p) (parse_f64 (field 7 fs)) _ _ RG eq_refl FP ltac:(lra)) as (Ft & Nt). cbv zeta in Ft, Nt.
  change (Rmin (100 * B2R (t_SliderMult tim) / (B2R (t_TickRate tim) * m)) (B2R (parse_f64 (field 7 fs)))) with (tick_gap (B2R (t_SliderMult tim)) (B2R (t_TickRate tim)) m (B2R (parse_f64 (field 7 fs)))) in Nt.
  assert (BT : / 100 <= tick_gap (B2R (t_SliderMult tim)) (B2R (t_TickRate tim)) m (B2R (parse_f64 (field 7 fs))) <= 900000) by (unfold tick_gap, Rmin; destruct (Rle_dec _ _); lra).
  assert (ET : tick_step tim p sd = if fgt (get_tick_distance tim p) (parse_f64 (field 7 fs)) then parse_f64 (field 7 fs) else get_tick_distance tim p).
  { unfold tick_step. rewrite PX. assert (ggt (mc_length (sl_curve sd)) g0 = true) as ->; [|reflexivity]. unfold ggt. apply glt_iff. split; [reflexivity|]. split; [now apply (fin_num 24 128)|]. rewrite (key_fin 24 128 _ FL). change (key g0) with 0. lra. }
  rewrite <- ET in Ft, Nt. set (t := tick_step tim p sd) in *. clearbody t. set (T := tick_gap _ _ _ _) in *. clearbody T. clear ET.
  assert (S1 : step_at t 1 t).
  { split; [exact Ft|]. change (INR 1) with 1. pose proof Nt as N'. apply Rabs_le_inv in N'. unfold e26 in N'. split; [|unfold u52; lra]. replace (B2R t - 1 * B2R t) with 0 by ring. rewrite Rabs_R0. unfold u52. lra. }
  assert (RM : rel e26 17 (fmul (get_velocity tim p) (fq 1 100)) (B2R (mc_length (sl_curve sd)) * 10 / D)).
  { rewrite PM. assert (RC : rel e26 1 (fq 1 100) (/ 100)). { split; [vm_compute; reflexivity|]. split; [lra|]. bval (fq 1 100). cbn [Z.opp] in V. rewrite V. unfold e26. lra. }
    replace 17 with (15 + 1 + 1) by ring. apply (mul26 15 1); [lra|lra|exact RV|exact RC|apply mid_in; lra]. }
  rewrite <- ELL in RM, BL, PM |- *. set (len := f_of_g (mc_length (sl_curve sd))) in *. clearbody len.
  assert (NW : Rabs (B2R (sl_span sd) - D) <= D * (3 / 10000000)) by (destruct R1 as (_ & _ & R1); unfold e26 in R1; apply Rabs_le; lra).
  assert (EN : IZR (parse_int (field 6 fs)) = INR (Z.to_nat (parse_int (field 6 fs)))) by (rewrite INR_IZR_INZ, Z2Nat.id by lia; reflexivity). rewrite EN in NEn, BZ.
  change (bpow radix2 40) with 1099511627776 in BS.
  assert (CT : (if is_nan (cp_beat p) then length dd = 0%nat else tick_count D (B2R len) T ((B2R len + B2R len * 10 / D) / 1000000 + / 100000000000) (length dd)) /\
    Forall2 (fun d k => step_at t k d /\ B2R d <= B2R len /\ fge d (fsub len (fmul (get_velocity tim p) (fq 1 100))) = false) dd (seq 1 (length dd))).
  { unfold fisnan in Y3. destruct (is_nan (cp_beat p)); [subst dd; split; [reflexivity|constructor]|]. apply (count_near t len _ T Ft Nt BT FLL BL dd D (proj1 DB) RM); [rewrite PM; lra|exact S1|exact Y3]. }
  destruct CT as (CT & FD). exists (length dd). eexists. split; [exact CT|]. split; [exact Y4|]. apply F2_flat. intros i I. apply in_seq in I.
  apply (points_near t len _ T Nt BT FLL BL (start_of fs) (ho_end o) (sl_span sd) D _ dd i _ FS ltac:(lra) (proj1 R1) DB NW (proj2 BZ) ltac:(lia) FEn NEn eq_refl FD).
Qed.
Theorem C105_ticks : forall fuel ls b hr ds, parse_lines fuel ls = Ok (Some b) -> section_rows ls "HitObjects" hr -> settings ls "Difficulty" ds ->
  moderate (last_value "SliderMultiplier" ds parse_f64 f0) -> moderate (last_value "SliderTickRate" ds parse_f64 f0) ->
  t_SliderMult (bm_Timings b) = last_value "SliderMultiplier" ds parse_f64 f0 /\ t_TickRate (bm_Timings b) = last_value "SliderTickRate" ds parse_f64 f0 /\
  exists played, Permutation (filter is_object hr) played /\
    Forall2 (fun fs o => describes fs o /\ (type_of fs = TSlider -> ticked (bm_Timings b) fs o)) played (bm_HitObjects b).
Proof.
  intros fuel ls b hr ds H Hh Hd MS MT. destruct (all_functional ls) as (hr' & tr & ms & gs & ds' & _ & Ht & Hm & Hg & _).
  destruct (C55_timing fuel ls b tr ds H Ht Hd) as (_ & _ & T3 & T4 & _). cbv zeta in T3, T4. split; [exact T3|]. split; [exact T4|].
  pose proof (slider_ticked fuel ls b ds H Hd MS MT) as SS. exists (stable_sort row_lt (filter is_object hr)). split; [apply sort_perm|].
  pose proof (pipeline fuel ls b hr H Hh) as F. destruct (map_facts fuel ls b hr tr ms gs ds H Hh Ht Hm Hg Hd) as (_ & _ & _ & _ & _ & _ & _ & _ & _ & F' & _).
  eapply F2_impl; [|exact (F2_and _ _ _ _ F F')]. intros fs o (A & (B & _)). split; [exact B|]. intros T. apply SS; [now apply (finished_slider fuel)|]. intros sd K. exact (finished_pixels fuel _ fs o sd A T K).
Qed.
End WithLibm.

(** The map of C73: 140 px a beat of 300 ms and two ticks a beat.  Its second
    row goes 140 px twice in 300 ms each, with one tick in the middle; its
    fifth, at twice the speed, 250 px three times in 1875 / 7 ms each, with a
    tick 140 px from the start of the curve. *)
Example C105_instance :
  moderate (parse_f64 (lit "1.4")) /\ moderate (parse_f64 (lit "2")) /\
  tick_gap (14 / 10) 2 1 140 = 70 /\ slide_time (14 / 10) 300 1 140 = 300 /\ tick_count 300 140 70 (/ 1000) 1 /\
  span_times 500 300 140 70 2 1 0 ++ span_times 500 300 140 70 2 1 1 = [(650, false); (800, true); (950, false); (1064, false)] /\
  tick_gap (14 / 10) 2 (/ 2) 250 = 140 /\ slide_time (14 / 10) 300 (/ 2) 250 = 1875 / 7 /\ tick_count (1875 / 7) 250 140 (/ 1000) 1 /\
  flat_map (span_times 3000 (1875 / 7) 250 140 3 1) (seq 0 3) =
    [(3150, false); (3000 + 1875 / 7, true); (23700 / 7, false); (3000 + 3750 / 7, true); (25800 / 7, false); (3000 + 5625 / 7 - 36, false)].
Proof.
  split; [exact moderate_14|]. split; [split; vm_compute; reflexivity|]. unfold tick_gap.
  split; [rewrite Rmin_left; lra|]. split; [unfold slide_time; lra|]. split; [unfold tick_count; cbn [INR]; lra|].
  split. { unfold span_times, passed. cbn [map seq app Nat.ltb Nat.leb Nat.even INR]. rewrite Rmax_right by lra. repeat (f_equal; try lra). }
  split; [rewrite Rmin_left; lra|]. split; [unfold slide_time; lra|]. split; [unfold tick_count; cbn [INR]; lra|].
  unfold span_times, passed. cbn [map seq app flat_map Nat.ltb Nat.leb Nat.even INR]. rewrite Rmax_right by lra. repeat (f_equal; try lra).
Qed.
Example C105_map_instance :
  view (fun b => map (fun i => match nth_error (bm_HitObjects b) i with Some o => match ho_kind o with KSlider sd => map (fun k => (int_of_f (tk_Time k), tk_Reverse k)) (sl_ticks sd) | _ => [] end | None => [] end) [1%nat; 4%nat])
    (@parse_lines PropSafety.zero_libm 1000 timed_map) =
  Some (Some [[(650, false); (800, true); (950, false); (1064, false)];
              [(3150, false); (3267, true); (3385, false); (3535, true); (3685, false); (3767, false)]]%Z).
Proof. vm_compute. reflexivity. Qed.

Print Assumptions C105_ticks.

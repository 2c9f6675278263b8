(** Properties C32 and C33: slider score points and the tick loop. *)
From Coq Require Import Reals Lra ZArith Lia Bool Permutation.
From Flocq Require Import Core BinarySingleNaN.
From Verif Require Import GoFloat Curves Objects Parser SpecSliders BaseLemmas SortLemmas FloatLemmas Float32Lemmas
  KeyLemmas BoundLemmas CurveProofs SliderProofs SliderLoops.
Import ListNotations.
Open Scope Z_scope.

Section WithLibm.
Context {M : libm}.

(** C32.  What SetTiming leaves on a fresh slider with r >= 1 spans: the end
    time, the span duration, and the score points of every span, all spans
    having ticks at the same distances, sorted by time. *)
Theorem C32_points : forall fuel tim o sd o', sl_ticks sd = [] -> 1 <= sl_repeat sd -> slider_set_timing fuel tim o sd = Ok o' ->
  exists sd' tp ds, ho_kind o' = KSlider sd' /\ get_point_at tim (ho_start o) = Ok tp /\
    let len := f_of_g (mc_length (sl_curve sd)) in
    let v := get_velocity tim tp in
    let n := Z.to_nat (sl_repeat sd) in
    ho_start o' = ho_start o /\ sl_curve sd' = sl_curve sd /\ sl_repeat sd' = sl_repeat sd /\
    sl_span sd' = fdiv (fmul len (fq 1000 1)) v /\
    ho_end o' = fadd (ho_start o) (fdiv (fmul (fmul len (fq 1000 1)) (f_of_Z (sl_repeat sd))) v) /\
    (if fisnan (cp_beat tp) then ds = [] else tick_distances (tick_step tim tp sd) len (fmul v (fq 1 100)) (tick_step tim tp sd) ds) /\
    Permutation (sl_ticks sd') (flat_map (span_points (ho_start o) (ho_end o') (sl_span sd') len n ds) (seq 0 n)) /\
    length (sl_ticks sd') = (n * (length ds + 1))%nat /\
    length (filter tk_Reverse (sl_ticks sd')) = (n - 1)%nat /\
    (Forall (fun t => fisnan (tk_Time t) = false) (sl_ticks sd') -> forall i j a b, (i <= j)%nat ->
       nth_error (sl_ticks sd') i = Some a -> nth_error (sl_ticks sd') j = Some b -> fle (tk_Time a) (tk_Time b) = true).
Proof.
  intros fuel tim o sd o' NT Hr H. apply set_timing_ok in H as (sd' & tp & ds & T); [|exact Hr].
  destruct T as [TP TK TS TSp TE (TC & TR & _) TD TT]. exists sd', tp, ds. rewrite NT in TT. cbn [app] in TT. cbv zeta.
  pose proof (sort_perm tick_lt (concat (map (span_points (ho_start o) (ho_end o') (sl_span sd') (f_of_g (mc_length (sl_curve sd))) (Z.to_nat (sl_repeat sd)) ds)
    (seq 0 (Z.to_nat (sl_repeat sd)))))) as P. rewrite <- TT in P.
  repeat split; try assumption.
  - rewrite flat_map_concat_map. now symmetry.
  - rewrite <- (Permutation_length P), points_count, seq_length. lia.
  - rewrite <- (Permutation_length (filter_perm tk_Reverse _ _ P)).
    pose proof (reverse_count (ho_start o) (ho_end o') (sl_span sd') (f_of_g (mc_length (sl_curve sd))) (Z.to_nat (sl_repeat sd)) ds (Z.to_nat (sl_repeat sd)) (Nat.le_refl _)) as R.
    rewrite Nat.sub_diag in R. exact R.
  - intros F. rewrite TT in *. apply ticks_sorted. apply Forall_forall. intros t Ht. rewrite Forall_forall in F. apply F. now apply sort_in.
Qed.
(** SetTiming appends: a second call on the same slider sorts its points in
    among those of the first. *)
Theorem C32_again : forall fuel tim o sd o', 1 <= sl_repeat sd -> slider_set_timing fuel tim o sd = Ok o' ->
  exists sd' k, ho_kind o' = KSlider sd' /\
    length (sl_ticks sd') = (length (sl_ticks sd) + Z.to_nat (sl_repeat sd) * (k + 1))%nat /\
    exists new, Permutation (sl_ticks sd') (sl_ticks sd ++ new).
Proof.
  intros fuel tim o sd o' Hr H. apply set_timing_ok in H as (sd' & tp & ds & T); [|exact Hr].
  destruct T as [TP TK TS TSp TE (TC & TR & _) TD TT]. exists sd', (length ds). split; [exact TK|]. split.
  - rewrite TT, (sort_length tick_lt), app_length, points_count, seq_length. lia.
  - eexists. rewrite TT. symmetry. apply sort_perm.
Qed.

(** C33.  The tick loop ends when the step is positive and at least one part
    in 2^50 of the curve length ... *)
Theorem C33_returns : forall tim o sd tp, get_point_at tim (ho_start o) = Ok tp ->
  is_finite (tick_step tim tp sd) = true -> (0 < B2R (tick_step tim tp sd))%R -> is_finite (mc_length (sl_curve sd)) = true ->
  (B2R (mc_length (sl_curve sd)) <= B2R (tick_step tim tp sd) * bpow radix2 50)%R ->
  (exists fuel typ pts, new_multicurve_t fuel typ pts (sl_pixelLength sd) = Ok (sl_curve sd)) ->
  exists fuel0, forall fuel, (fuel0 <= fuel)%nat -> exists o', slider_set_timing fuel tim o sd = Ok o'.
Proof.
  intros tim o sd tp EP Ft Pt Fc R (f & typ & pts & B). apply (set_timing_returns tim o sd tp EP Ft Pt Fc R).
  apply new_multicurve_t_built in B as (ls & p & r & _ & _ & B). rewrite B. eexists. eexists. reflexivity.
Qed.
(** ... and never ends for a slider multiplier of zero or less, on any slider
    of positive length under a proper timing point. *)
Theorem C33_hangs : forall tim o sd tp, get_point_at tim (ho_start o) = Ok tp -> fisnan (cp_beat tp) = false ->
  feq (get_beat_length tp) f0 = false -> fle (t_SliderMult tim) f0 = true ->
  is_finite (t_TickRate tim) = true -> flt f0 (t_TickRate tim) = true ->
  is_finite (mc_length (sl_curve sd)) = true -> glt g0 (mc_length (sl_curve sd)) = true -> 1 <= sl_repeat sd ->
  forall fuel, slider_set_timing fuel tim o sd = Hang.
Proof.
  intros tim o sd tp EP NR NB Hs Ft Pt Fc Pc Hr. apply (set_timing_hangs tim o sd tp); auto.
  - apply fle_iff in Hs as (N & _ & K). split; [exact N|exact K].
  - apply flt_iff in Pt as (_ & _ & K). rewrite (key_fin 53 1024 _ Ft) in K. exact K.
  - apply glt_iff in Pc as (_ & _ & K). rewrite (key_fin 24 128 _ Fc) in K. exact K.
Qed.
(** A file that hangs the parser this way. *)
Definition hang_file : list str := map lit
  ["osu file format v14"; "[Metadata]"; "Title:t"; "[Difficulty]"; "SliderMultiplier:0"; "SliderTickRate:1";
   "[TimingPoints]"; "0,500,4,2,0,100,1,0"; "[HitObjects]"; "100,100,1000,2,0,L|200:100,1,100"]%string.
Definition hangs (st : pstate) : bool :=
  let tim := finalize_points
    {| t_SliderMult := ds_SliderMult (st_diff st); t_TickRate := ds_TickRate (st_diff st);
       t_points := ts_points (st_time st); t_original := [] |} in
  negb (str_eqb (md_Title (st_meta st) ++ md_Artist (st_meta st) ++ md_Creator (st_meta st)) [] || (ts_counter (st_time st) =? 0)) &&
  match os_objects (st_objs st) with
  | [o] => match ho_kind o, get_point_at tim (ho_start o) with
           | KSlider sd, Ok tp =>
               negb (fisnan (cp_beat tp)) && negb (feq (get_beat_length tp) f0) && fle (t_SliderMult tim) f0 &&
               is_finite (t_TickRate tim) && flt f0 (t_TickRate tim) && is_finite (mc_length (sl_curve sd)) &&
               glt g0 (mc_length (sl_curve sd)) && (1 <=? sl_repeat sd)
           | _, _ => false
           end
  | _ => false
  end.
Lemma hangs_finish fuel st : hangs st = true -> finish_parse fuel st = Hang.
Proof.
  unfold hangs, finish_parse. intros H. apply andb_true_iff in H as [H1 H]. apply negb_true_iff in H1. rewrite H1.
  destruct (os_objects (st_objs st)) as [|o [|? ?]]; try discriminate.
  set (tim := finalize_points _) in *. destruct (ho_kind o) as [| |sd] eqn:EK; try discriminate.
  destruct (get_point_at tim (ho_start o)) as [tp| |] eqn:EP; try discriminate.
  rewrite !andb_true_iff, !negb_true_iff in H. destruct H as (((((((H2 & H3) & H4) & H5) & H6) & H7) & H8) & H9). apply Z.leb_le in H9.
  cbn [stable_sort fold_right insert]. set (objs := number_objects 0 1 0 0 false [o]).
  assert (EO : exists o', objs = [o'] /\ ho_kind o' = KSlider sd /\ ho_start o' = ho_start o).
  { unfold objs. cbn [number_objects]. unfold is_spinner. rewrite EK. destruct (ho_newCombo o || false); eexists; (split; [reflexivity|split; [exact EK|reflexivity]]). }
  destruct EO as (o' & -> & EK' & ES). cbn [mapM]. unfold set_timing at 1. rewrite EK'.
  rewrite (C33_hangs tim o' sd tp); auto. now rewrite ES.
Qed.
Theorem C33_file_hangs : forall fuel, parse_lines fuel hang_file = Hang.
Proof.
  intros fuel. unfold parse_lines.
  assert (E : match foldM (parse_line fuel) pstate0 hang_file with Ok st => hangs st | _ => false end = true) by (vm_compute; reflexivity).
  destruct (foldM (parse_line fuel) pstate0 hang_file) as [st| |]; try discriminate. cbn [bind]. now apply hangs_finish.
Qed.
End WithLibm.

(** ** Instances *)
(** three spans of 280 pixels at 140 pixels per beat of 500 ms: a tick in the
    middle of each span, 280 ticks a second = 1 s a span *)
Definition sample_tim : timings := finalize_points
  {| t_SliderMult := fq 14 10; t_TickRate := fq 1 1; t_points := [mk_point f0 (fq 500 1) 0 1 (fq 1 1) 4 false false false]; t_original := [] |}.
Definition sample_mc : multicurve := finish_curve [mkLinear (mkVec g0 g0) (mkVec (gq 280 1) g0)] (mkVec g0 g0).
Definition sample_sd (ticks : list tick) : slider_data := mkSlider sample_mc None (fq 280 1) 3 ticks f0.
Definition sample_slider (ticks : list tick) : hobj :=
  {| ho_kind := KSlider (sample_sd ticks); ho_startPos := vzero; ho_endPos := vzero;
     ho_start := fq 1000 1; ho_end := fq 1000 1; ho_off := vzero; ho_offEZ := vzero; ho_offHR := vzero;
     ho_idx := 0; ho_idxEZ := 0; ho_idxHR := 0; ho_id := 0; ho_sounds := [0]; ho_newCombo := false;
     ho_comboNumber := 0; ho_comboSet := 0; ho_comboSetHax := 0; ho_colorOffset := 0 |}.
Definition times_are (r : res hobj) (l : list (Z * bool)) (en : Z) : bool :=
  match r with
  | Ok o => match ho_kind o with
            | KSlider sd => Nat.eqb (length (sl_ticks sd)) (length l) && feq (ho_end o) (fq en 1) &&
                forallb (fun p => feq (tk_Time (fst p)) (fq (fst (snd p)) 1) && Bool.eqb (tk_Reverse (fst p)) (snd (snd p)))
                        (combine (sl_ticks sd) l)
            | _ => false
            end
  | _ => false
  end.
Example C32_instance : times_are (slider_set_timing 5 sample_tim (sample_slider []) (sample_sd []))
  [(1500, false); (2000, true); (2500, false); (3000, true); (3500, false); (3964, false)] 4000 = true.
Proof. vm_compute. reflexivity. Qed.
(** the same slider timed twice has every point twice *)
Example C32_instance_again :
  match slider_set_timing 5 sample_tim (sample_slider []) (sample_sd []) with
  | Ok o => match ho_kind o with
            | KSlider sd => times_are (slider_set_timing 5 sample_tim o sd)
                [(1500, false); (1500, false); (2000, true); (2000, true); (2500, false); (2500, false);
                 (3000, true); (3000, true); (3500, false); (3500, false); (3964, false); (3964, false)] 4000
            | _ => false
            end
  | _ => false
  end = true.
Proof. vm_compute. reflexivity. Qed.
Example C33_instance_returns : exists tp, get_point_at sample_tim (fq 1000 1) = Ok tp /\
  is_finite (tick_step sample_tim tp (sample_sd [])) = true /\ (0 < B2R (tick_step sample_tim tp (sample_sd [])))%R /\
  is_finite (mc_length sample_mc) = true /\ (B2R (mc_length sample_mc) <= B2R (tick_step sample_tim tp (sample_sd [])) * bpow radix2 50)%R.
Proof.
  eexists. split; [reflexivity|].
  match goal with |- is_finite ?x = true /\ _ => assert (E : B2SF x = B2SF (fq 140 1)) by (vm_compute; reflexivity); apply B2SF_eq in E; rewrite E end.
  assert (E2 : B2SF (mc_length sample_mc) = B2SF (gq 280 1)) by (vm_compute; reflexivity). apply B2SF_eq in E2. rewrite E2.
  split; [vm_compute; reflexivity|]. bval (fq 140 1). rewrite V. split; [lra|]. split; [vm_compute; reflexivity|].
  bval (gq 280 1). rewrite V0. change (bpow radix2 50) with 1125899906842624%R. lra.
Qed.

Print Assumptions C32_points.
Print Assumptions C32_again.
Print Assumptions C33_returns.
Print Assumptions C33_hangs.
Print Assumptions C33_file_hangs.

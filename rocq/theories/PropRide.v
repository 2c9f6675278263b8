(** C103: where the ball of a slider of a file is. *)
From Coq Require Import Reals Lra ZArith Lia List Bool Permutation String.
From Flocq Require Import Core BinarySingleNaN.
From Verif Require Import GoBase GoFloat Curves Objects Timing Parser SpecTiming SpecParser SpecShape SpecArc SpecLength SpecBall SpecTerm SpecPlay SpecTempo SpecSane SpecCurves BaseLemmas FloatLemmas Float32Lemmas KeyLemmas BoundLemmas StringLemmas
  CurveStart StackingProofs MapProofs TermProofs LengthProofs RelLemmas TempoProofs ValueBounds PlayTiming RideProofs PropCurves PropTerm PropParser PropLength PropShape PropTempo PropBall.
From Verif Require PropSafety.
From Coq Require Import List.
Import ListNotations.
Open Scope R_scope.

(** How far off: [n] spans of a curve of [N] lines and length [len], in
    coordinates up to 2^m, a span taking [D] ms and the first starting at [start]. *)
Definition ride_error (m : Z) (N : nat) (n len D start : R) : R :=
  (3 * n + 4) * length_error m N + n * len / 200000 + 2 * (Rabs start / 1000000000000000 + / 1000000000000) * (len / D).

Section WithLibm.
Context {M : libm}.
(** The slider of a row with the type letter, points, number of spans and length
    that are in it: at every time it is beside a line of the curve, having gone
    along it, there and back, at 100 times the multiplier in pixels per beat. *)
Definition rides (fuel : nat) (tim : timings) (fs : list str) (o : hobj) : Prop :=
  exists typ texts pts mc, barred (field 5 fs) (typ :: texts) /\ Forall2 point_text texts pts /\
  new_multicurve fuel typ (mkVec (parse_f32 (field 0 fs)) (parse_f32 (field 1 fs)) :: pts) = Ok mc /\
  let sm := B2R (t_SliderMult tim) in let start := start_of fs in let len := parse_f64 (field 7 fs) in let n := parse_int (field 6 fs) in let N := length (mc_lines mc) in
  forall m p q st time k, (0 <= m <= 28)%Z -> sized m mc len -> 4 * length_error m N <= B2R len <= 500000 ->
  get_point_at tim start = Ok p -> get_original_point_at tim start = Ok q -> stretched p st ->
  is_finite (cp_beat q) = true -> / 1024 <= B2R (cp_beat q) <= 65536 ->
  (1 <= n <= 100000)%Z -> is_finite start = true -> Rabs (B2R start) <= bpow radix2 37 -> time_upto time ->
  let D := slide_time sm (B2R (cp_beat q)) st (B2R len) in 1 <= D -> IZR n * D <= bpow radix2 36 ->
  let x := (Rmax (B2R start) (Rmin (B2R start + IZR n * D) (B2R time)) - B2R start) / D in Rabs (x - 2 * IZR k) <= 1 ->
  exists v i l s, position_at o time = Ok v /\ nth_error (mc_lines mc) i = Some l /\ 0 <= s /\ beside (ball_error m) l s v /\
    (1 < s -> B2R (mc_length mc) < B2R len /\ S i = N) /\
    Rabs (walked (mc_lines mc) i l s - Rabs (x - 2 * IZR k) * B2R len) <= ride_error m N (IZR n) (B2R len) D (B2R start).
Lemma slider_rides fuel tim fs o : describes fs o -> slider_of fuel tim fs o -> slides tim fs o -> rides fuel tim fs o.
Proof.
  intros DS SL SD. destruct SL as (sd & typ & texts & pts & es & K & BT & PT & CV & _ & _ & _ & _ & _). destruct SD as (sd' & K' & SS). rewrite K in K'. injection K' as <-.
  destruct DS as (ST & _). pose proof CV as CV'. unfold new_multicurve_t in CV'. apply bind_ok in CV' as (mc & EM & _).
  exists typ, texts, pts, mc. split; [exact BT|]. split; [exact PT|]. split; [exact EM|]. cbv zeta in SS |- *.
  intros m p q st time k Hm SZ LL Gp Gq HS FQ BQ BN FS BS TT D1 D2 HX.
  destruct SZ as (Z1 & Z2 & Z3 & Z4 & Z5 & Z6 & Z7 & Z8).
  destruct (C64_length fuel typ _ _ mc (sl_curve sd) m EM CV ltac:(lia) ltac:(lia) Z2 Z3 Z4 Z5 Z6 Z7 Z8) as (FL & EL & _).
  set (err := length_error m (length (mc_lines mc))) in *. set (len := parse_f64 (field 7 fs)) in *. set (len' := B2R (mc_length (sl_curve sd))) in *.
  assert (E0 : / 8192 <= err). { unfold err, length_error. change (bpow radix2 (-13)) with (/ 8192). assert (0 <= (INR (length (mc_lines mc)) + 16) * bpow radix2 (m - 22)) by (apply Rmult_le_pos; [pose proof (pos_INR (length (mc_lines mc))); lra|apply bpow_ge_0]). lra. }
  assert (L' : / 1000000 <= len' <= 1000000) by (apply Rabs_le_inv in EL; lra).
  assert (B40 : Rabs (B2R (start_of fs)) <= bpow radix2 40) by (apply Rle_trans with (1 := BS); apply bpow_le; lia).
  destruct (SS p q st Gp Gq HS FQ BQ BN FS B40 FL L') as (FSP & AB & FE & EE). clear SS.
  set (D := slide_time _ _ st (B2R len)) in *. set (D' := slide_time _ _ st len') in *.
  assert (ED : D' = D * (len' / B2R len)). { unfold D, D', slide_time. pose proof (Rinv_r (B2R len) ltac:(lra)) as IV. unfold Rdiv. set (c := / (100 * B2R (t_SliderMult tim))). transitivity (len' * c * (B2R (cp_beat q) * st) * (B2R len * / B2R len)); [rewrite IV; ring|ring]. }
  set (n := IZR (parse_int (field 6 fs))) in *. assert (Bn : 1 <= n <= 100000) by (unfold n; split; apply IZR_le; lia).
  set (h := Rabs (B2R (start_of fs)) / 1000000000000000 + / 1000000000000).
  change (bpow radix2 37) with 137438953472 in BS. change (bpow radix2 36) with 68719476736 in D2. pose proof (Rabs_pos (B2R (start_of fs))) as A0.
  assert (H0 : 0 <= h <= / 1000) by (unfold h; lra).
  assert (DP : 0 < D'). { rewrite ED. apply Rmult_lt_0_compat; [lra|]. apply Rmult_lt_0_compat; [lra|]. apply Rinv_0_lt_compat. lra. }
  unfold about in AB. rewrite (Rabs_pos_eq D') in AB by lra.
  destruct (spans_near (B2R (start_of fs)) (B2R (ho_end o)) (B2R time) D D' (B2R (sl_span sd)) n (B2R len) len' err h) as (X0 & DD & XL & XB); try lra; try assumption.
  { unfold h. lra. }
  set (x := (Rmax _ (Rmin (_ + _) _) - _) / D) in *.
  set (x' := (Rmax _ (Rmin (B2R (ho_end o)) _) - _) / _) in *.
  destruct (even_exists x') as (j & HJ). pose proof (even_lip x' x j k HJ HX) as LP.
  assert (nD : 0 < n * D <= 68719476736) by (split; [apply Rmult_lt_0_compat; lra|exact D2]).
  assert (nD' : n * (3 / 4 * D) <= n * D' <= n * (5 / 4 * D)) by (split; apply Rmult_le_compat_l; lra).
  assert (D34 : 1 * D <= n * D) by (apply Rmult_le_compat_r; lra).
  apply Rabs_le_inv in AB. pose proof (Rabs_le_inv _ _ EE) as EE'. pose proof (Rabs_le_inv _ _ BS) as BS'. fold h in EE'.
  destruct (C102_ball fuel typ _ len mc m o sd time j EM K CV Hm (conj Z1 (conj Z2 (conj Z3 (conj Z4 (conj Z5 (conj Z6 (conj Z7 Z8)))))))) as (v & V & Y).
  - rewrite ST. split; [exact FS|]. change (bpow radix2 38) with 274877906944. lra.
  - split; [exact FE|]. change (bpow radix2 38) with 274877906944. lra.
  - exact TT.
  - rewrite ST. lra.
  - exact FSP.
  - apply Rle_trans with (bpow radix2 (-2)); [apply bpow_le; lia|]. change (bpow radix2 (-2)) with (/ 4). lra.
  - rewrite ST. exact HJ.
  - rewrite ST in Y. fold x' in Y. destruct Y as [(_ & Y)|(i & l & s & Y1 & Y2 & Y3 & Y4 & Y5)].
    { exfalso. apply geq_iff in Y as (_ & _ & Y). rewrite (key_fin 24 128 _ FL) in Y. fold len' in Y. change (key g0) with 0 in Y. lra. }
    exists v, i, l, s. split; [exact V|]. split; [exact Y1|]. split; [exact Y2|]. split; [exact Y3|]. split; [exact Y4|].
    fold err in Y5. unfold ride_error. fold err h. change (bpow radix2 (-51)) with (/ 2251799813685248) in Y5. change (bpow radix2 (-23)) with (/ 8388608) in Y5.
    set (a := Rabs (x' - 2 * IZR j)) in *. set (c := Rabs (x - 2 * IZR k)) in *. set (w := walked _ _ _ _) in *. clearbody w.
    assert (X4 : x' <= 4 * n) by (apply Rabs_le_inv in XB; lra).
    assert (T1 : B2R len * (x' * / 2251799813685248 + / 8388608) <= B2R len * (n * / 1000000)) by (apply Rmult_le_compat_l; lra).
    assert (T2 : Rabs (a * B2R len - c * B2R len) <= B2R len * Rabs (x' - x)).
    { replace (a * B2R len - c * B2R len) with (B2R len * (a - c)) by ring. rewrite Rabs_mult, (Rabs_pos_eq (B2R len)) by lra. apply Rmult_le_compat_l; [lra|exact LP]. }
    apply Rabs_le_inv in Y5, T2. set (u := Rabs (x' - x)) in *. set (z := B2R len) in *. set (g := 2 * h * (z / D)) in *.
    replace ((3 * n + 4) * err + n * z / 200000 + g) with (n * (3 * err + z / 250000) + 4 * err + z * (n * / 1000000) + g) by (field).
    apply Rabs_le. lra.
Qed.
Theorem C103_ball : forall fuel ls b hr ds, parse_lines fuel ls = Ok (Some b) -> section_rows ls "HitObjects" hr -> settings ls "Difficulty" ds ->
  moderate (last_value "SliderMultiplier" ds parse_f64 f0) -> moderate (last_value "SliderTickRate" ds parse_f64 f0) ->
  t_SliderMult (bm_Timings b) = last_value "SliderMultiplier" ds parse_f64 f0 /\
  exists played, Permutation (filter is_object hr) played /\
    Forall2 (fun fs o => describes fs o /\ (type_of fs = TSlider -> rides fuel (bm_Timings b) fs o)) played (bm_HitObjects b).
Proof.
  intros fuel ls b hr ds H Hh Hd MS MT. destruct (slider_slides fuel ls b ds H Hd MS MT) as (E & SS). split; [exact E|].
  destruct (C73_rows fuel ls b hr H Hh) as (played & P & F & _). exists played. split; [exact P|]. eapply F2_impl; [|exact F].
  intros fs o (DS & SL). split; [exact DS|]. intros T. specialize (SL T). apply slider_rides; [exact DS|exact SL|exact (SS fs o SL)].
Qed.
End WithLibm.

(** The second row of the map of C73, 200,100,500,2,4,L|250:100,2,140: from
    (200, 100) through (250, 100) to 140 px, there in 300 ms and back.  At
    950 ms one and a half spans have gone by and it is half-way back. *)
Definition there_back : list vec := [pt 200 100; pt 250 100].
Definition there_back_mc : multicurve := finish_curve (process_linear there_back) (pt 200 100).
Lemma there_back_lines : process_linear there_back = [mkLinear (pt 200 100) (pt 250 100)].
Proof. unfold there_back. cbn [process_linear]. assert (vec_eqb (pt 200 100) (pt 250 100) = false) as -> by (vm_compute; reflexivity). reflexivity. Qed.
Example C103_instance : forall M : libm,
  new_multicurve 1000 (lit "L") there_back = Ok there_back_mc /\ sized 12 there_back_mc (fq 140 1) /\ 4 * length_error 12 (length (mc_lines there_back_mc)) <= B2R (fq 140 1) <= 500000 /\
  slide_time (14 / 10) 300 1 (B2R (fq 140 1)) = 300 /\ time_upto (fq 950 1) /\ Rabs ((Rmax 500 (Rmin (500 + 2 * 300) (B2R (fq 950 1))) - 500) / 300 - 2 * IZR 1) = / 2 /\
  ride_error 12 1 2 140 300 500 <= / 5.
Proof.
  intros M. split; [reflexivity|]. destruct (fq1_exact 140) as (F & V); [lia|]. destruct (fq1_exact 950) as (F9 & V9); [lia|]. split.
  { destruct (fits_ok (process_linear there_back)) as (A & B & C & D); [vm_compute; reflexivity|]. unfold sized, there_back_mc. cbn [mc_lines mc_length finish_curve].
    split; [lia|]. split; [exact B|]. split; [exact C|]. split; [exact D|]. split; [vm_compute; reflexivity|]. split; [exact F|].
    split; [rewrite V; change (bpow radix2 12) with 4096; lra|]. left. intros ls l E. rewrite there_back_lines in E. pose proof (f_equal (@rev _) E) as R. rewrite rev_app_distr in R. cbn [rev app] in R. injection R as <- _. vm_compute. reflexivity. }
  assert (L1 : length_error 12 1 = 17 / 1024 + / 8192). { unfold length_error. cbn [INR]. change (bpow radix2 (12 - 22)) with (/ 1024). change (bpow radix2 (-13)) with (/ 8192). lra. }
  split. { unfold there_back_mc. cbn [mc_lines finish_curve]. rewrite there_back_lines. cbn [length]. rewrite L1, V. lra. }
  split; [rewrite V; unfold slide_time; lra|]. split; [split; [exact F9|rewrite V9; assert (bpow radix2 12 <= bpow radix2 38) by (apply bpow_le; lia); change (bpow radix2 12) with 4096 in *; lra]|]. split.
  - rewrite V9, Rmin_right, Rmax_right by lra. rewrite Rabs_left; lra.
  - unfold ride_error. rewrite L1, Rabs_pos_eq by lra. lra.
Qed.
Example C103_map_instance :
  view (fun b => match nth_error (bm_HitObjects b) 1, get_point_at (bm_Timings b) (fq 500 1), get_original_point_at (bm_Timings b) (fq 500 1) with
                 | Some o, Ok p, Ok q => (match position_at o (fq 950 1) with Ok v => vec_eqb v (pt 270 100) | _ => false end, feq (cp_beat p) (fq 300 1), feq (cp_beat q) (fq 300 1), feq (t_SliderMult (bm_Timings b)) (fq 14 10))
                 | _, _, _ => (false, false, false, false) end) (@parse_lines PropSafety.zero_libm 1000 timed_map) = Some (Some (true, true, true, true)).
Proof. vm_compute. reflexivity. Qed.

Print Assumptions C103_ball.

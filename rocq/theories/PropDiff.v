(** C38-C46: the difficulty calculator. *)
From Coq Require Import Reals Lra Permutation.
From Flocq Require Import Core BinarySingleNaN.
From Verif Require Import DiffCalc SpecDiff BaseLemmas FloatLemmas Float32Lemmas KeyLemmas BoundLemmas SignLemmas CurveProofs CurveStart
  DiffProofs SectionProofs DiffTotal SkillProofs SliderFree.
Open Scope Z_scope.

Section WithLibm.
Context {M : libm}.

(** C38.  One step entry per object; entry i >= 1 is what CalculateSingle
    gives for the first i+1 objects; entry 0 has the counts of the first
    object and no ratings. *)
Theorem C38_entries : forall fuel objs d l, calculate_step fuel objs d = Ok l ->
  length l = length objs /\
  (forall i a, (1 <= i)%nat -> nth_error l i = Some a -> calculate_single fuel (firstn (S i) objs) d = Ok a) /\
  (exists o r a, objs = o :: r /\ nth_error l 0 = Some a /\ no_ratings a /\ counts_of [o] a).
Proof. exact step_facts. Qed.
(** In particular the last one, including whether there is a result at all. *)
Theorem C38_last : forall fuel objs d, (2 <= length objs)%nat ->
  calculate_single fuel objs d = rmap (fun l => last l attr0) (calculate_step fuel objs d).
Proof. exact step_single. Qed.
Theorem C38_outcome : forall fuel objs d, outcome_of (calculate_step fuel objs d) = outcome_of (calculate_single fuel objs d).
Proof. exact step_single_outcome. Qed.
(** Entry 0 is not what CalculateSingle gives for the first object: the slider
    factors are 0 and 1. *)
Lemma value_single0 k : difficulty_value_of k [f0] = f0 \/ is_nan (difficulty_value_of k [f0]) = true.
Proof.
  unfold difficulty_value_of. change (reverse_sort [f0]) with [f0]. cbn [reduce_peaks]. set (c := if Nat.ltb 0 (reduced_sections k) then fmul f0 (reduce_factor k 0) else f0).
  assert (C : (exists s, c = B754_zero s) \/ c = B754_nan).
  { unfold c. destruct (Nat.ltb _ _); [|left; now exists false]. destruct (reduce_factor k 0) as [s|s| |s m e b]; [left; eexists; reflexivity|right; reflexivity|right; reflexivity|left; eexists; reflexivity]. }
  clearbody c. change (reverse_sort [c]) with [c]. cbn [weighted_sum]. destruct C as [(s & ->)| ->].
  - left. destruct (fq1_exact 1) as (F1 & _); [lia|]. destruct (zero_mul s (fq 1 1) F1) as (t & ->). rewrite fadd_zero by apply f0_neg0. destruct k; apply B2SF_eq; vm_compute; reflexivity.
  - right. destruct k; vm_compute; reflexivity.
Qed.
Theorem C38_first : forall fuel o d a l, calculate_single fuel [o] d = Ok a -> calculate_step fuel [o] d = Ok l ->
  at_SliderFactor a = fq 1 1 /\ exists b, l = [b] /\ at_SliderFactor b = f0.
Proof.
  intros fuel o d a l H1 H2. split.
  - unfold calculate_single, rmap in H1. apply bind_ok in H1 as (r & H & E). apply Ok_inj in E. subst a.
    destruct (create_difficulty_objects [o] d) as [dos| |] eqn:C; [|unfold calculate_single_full in H; rewrite C in H; discriminate H|unfold calculate_single_full in H; rewrite C in H; discriminate H].
    rewrite (single_full_eq fuel o [] d dos C) in H. apply create_length in C. destruct dos; [|discriminate C]. cbn [foldM bind] in H. apply Ok_inj in H. subst r. cbn [fst].
    unfold get_stars, stars_from_raw. cbn [at_SliderFactor]. change (difficulty_value (Aim true) (cs_aim (new_skills d))) with (difficulty_value_of (Aim true) [f0]).
    destruct (value_single0 (Aim true)) as [->|N].
    + destruct (fgt _ _) eqn:G; [|reflexivity]. exfalso. revert G. vm_compute. intros G. discriminate G.
    + destruct (difficulty_value_of (Aim true) [f0]); try discriminate N. destruct (fgt _ _) eqn:G; [|reflexivity]. exfalso. revert G. vm_compute. intros G. discriminate G.
  - destruct (step_facts fuel [o] d l H2) as (L & _ & (o' & r & b & _ & N & (_ & _ & S & _) & _)). destruct l as [|x [|y l]]; try discriminate L. cbn in N. injection N as ->. eauto.
Qed.

(** C39.  The peaks of the three entry points are the same, and none of them
    fails where CalculateSingle does not. *)
Theorem C39_single : forall fuel objs d, calculate_single_with_peaks fuel objs d =
  let* a := calculate_single fuel objs d in let* p := calculate_strain_peaks fuel objs d in Ok (a, p).
Proof. exact single_peaks_agree. Qed.
Theorem C39_step : forall fuel objs d, calculate_step_with_peaks fuel objs d =
  let* l := calculate_step fuel objs d in let* p := calculate_strain_peaks fuel objs d in Ok (l, p).
Proof. exact step_peaks_agree. Qed.
Theorem C39_outcome : forall fuel objs d, objs <> [] -> outcome_of (calculate_strain_peaks fuel objs d) = outcome_of (calculate_single fuel objs d).
Proof. exact peaks_outcome. Qed.
(** Equal lengths; Flashlight is nil without the mod. *)
Theorem C39_lengths : forall fuel objs d p, calculate_strain_peaks fuel objs d = Ok p ->
  length (pk_Speed p) = length (pk_Aim p) /\ length (pk_Total p) = length (pk_Aim p) /\
  (if check_mod d Flashlight then length (pk_Flashlight p) = length (pk_Aim p) else pk_Flashlight p = []).
Proof. exact peaks_lengths. Qed.

(** C40.  Counts and max combo ... *)
Theorem C40_counts : forall fuel objs d a, calculate_single fuel objs d = Ok a -> counts_of objs a.
Proof. exact single_counts. Qed.
Theorem C40_kinds : forall objs a, counts_of objs a -> at_Circles a + at_Sliders a + at_Spinners a = at_ObjectCount a.
Proof.
  intros objs a (E1 & E2 & E3 & E4 & _). rewrite E1, E2, E3, E4. clear. induction objs as [|o r IH]; [reflexivity|]. rewrite !how_many_cons, zlen_cons. destruct (ho_kind o); lia.
Qed.
(** ... which never decrease along CalculateStep. *)
Lemma how_many_mono f a b : 0 <= how_many f (a ++ b) - how_many f a.
Proof. unfold how_many, zlen. rewrite filter_app, app_length. lia. Qed.
Lemma sum_points_app a b : sum_points (a ++ b) = sum_points a + sum_points b.
Proof. induction a as [|o a IH]; [reflexivity|]. cbn [app sum_points fold_right]. fold (sum_points (a ++ b)). fold (sum_points a). lia. Qed.
Lemma sum_points_pos a : 0 <= sum_points a.
Proof. induction a as [|o a IH]; [cbn; lia|]. cbn [sum_points fold_right]. fold (sum_points a). unfold score_points. destruct (ho_kind o); unfold zlen; lia. Qed.
Lemma step_counts fuel objs d l i a : calculate_step fuel objs d = Ok l -> nth_error l i = Some a -> counts_of (firstn (S i) objs) a.
Proof.
  intros H N. destruct (step_facts _ _ _ _ H) as (_ & E & (o & r & b & -> & Nb & _ & Cb)). destruct i as [|i].
  - rewrite Nb in N. injection N as <-. exact Cb.
  - eapply single_counts. apply (E (S i) a); [lia|exact N].
Qed.
Theorem C40_grow : forall fuel objs d l i j a b, calculate_step fuel objs d = Ok l -> (i <= j)%nat -> nth_error l i = Some a -> nth_error l j = Some b ->
  counts_of (firstn (S i) objs) a /\ at_ObjectCount a <= at_ObjectCount b /\ at_Circles a <= at_Circles b /\ at_Sliders a <= at_Sliders b /\
  at_Spinners a <= at_Spinners b /\ at_MaxCombo a <= at_MaxCombo b /\ ((i < j)%nat -> at_MaxCombo a < at_MaxCombo b).
Proof.
  intros fuel objs d l i j a b H IJ Na Nb. pose proof (step_counts _ _ _ _ _ _ H Na) as Ca. pose proof (step_counts _ _ _ _ _ _ H Nb) as Cb.
  assert (LJ : (j < length objs)%nat) by (destruct (step_facts _ _ _ _ H) as (<- & _); apply nth_error_Some; congruence).
  split; [exact Ca|]. assert (E : firstn (S j) objs = firstn (S i) objs ++ firstn (j - i) (skipn (S i) objs)).
  { rewrite <- (firstn_skipn (S i) objs) at 1. rewrite firstn_app. rewrite firstn_all2 by (rewrite firstn_length; lia). f_equal. f_equal. rewrite firstn_length. lia. }
  assert (LE : zlen (firstn (S j) objs) = zlen (firstn (S i) objs) + Z.of_nat (j - i)) by (unfold zlen; rewrite !firstn_length; lia).
  destruct Ca as (A1 & A2 & A3 & A4 & A5). destruct Cb as (B1 & B2 & B3 & B4 & B5). rewrite A1, A2, A3, A4, A5, B1, B2, B3, B4, B5, LE, E, sum_points_app.
  set (x := firstn (S i) objs). set (y := firstn (j - i) (skipn (S i) objs)). pose proof (sum_points_pos y).
  pose proof (how_many_mono (fun o => match ho_kind o with KCircle => true | _ => false end) x y). pose proof (how_many_mono (fun o => match ho_kind o with KSlider _ => true | _ => false end) x y).
  pose proof (how_many_mono (fun o => match ho_kind o with KSpinner => true | _ => false end) x y). repeat split; lia.
Qed.

(** C41.  Panics: no objects ... *)
Theorem C41_empty : forall fuel d, calculate_single fuel [] d = Panic /\ calculate_step fuel [] d = Panic /\
  exists t, calculate_strain_peaks fuel [] d = Ok (mkPeaks [f0] [f0] (if check_mod d Flashlight then [f0] else []) [t]).
Proof. intros fuel d. split; [reflexivity|]. split; [reflexivity|]. unfold calculate_strain_peaks. cbn [create_difficulty_objects mapM bind foldM]. destruct (check_mod d Flashlight); eexists; reflexivity. Qed.
(** ... or a slider without score points. *)
Theorem C41_pointless : forall fuel objs d, Exists pointless objs ->
  calculate_single fuel objs d = Panic /\ calculate_step fuel objs d = Panic /\ calculate_strain_peaks fuel objs d = Panic.
Proof.
  intros fuel objs d H. unfold calculate_single, calculate_step, calculate_single_full, calculate_step_full, calculate_strain_peaks. rewrite (create_pointless objs d H). auto.
Qed.
(** Otherwise everything returns, for scaled start times in range. *)
Theorem C41_returns : forall fuel objs d, objs <> [] -> Forall real_slider objs -> Forall playable objs -> Forall time_ok (clock_times objs d) ->
  boundaries (map (@B2R 53 1024) (clock_times objs d)) <= Z.of_nat fuel ->
  exists a l p, calculate_single fuel objs d = Ok a /\ calculate_step fuel objs d = Ok l /\ calculate_strain_peaks fuel objs d = Ok p.
Proof.
  intros fuel objs d NE R P T B. destruct (run_ok fuel objs d R P T B) as (dos & s & C & F & _). destruct objs as [|o r]; [now destruct NE|].
  pose proof (single_full_eq fuel o r d dos C) as E1. rewrite F in E1. cbn [bind] in E1.
  assert (O1 : outcome_of (calculate_single fuel (o :: r) d) = Returns) by (unfold calculate_single; now rewrite E1).
  pose proof (step_single_outcome fuel (o :: r) d) as O2. pose proof (peaks_outcome fuel (o :: r) d ltac:(discriminate)) as O3. rewrite O1 in O2, O3.
  destruct (calculate_single fuel (o :: r) d) as [a| |]; try discriminate O1. destruct (calculate_step fuel (o :: r) d) as [l| |]; try discriminate O2.
  destruct (calculate_strain_peaks fuel (o :: r) d) as [p| |]; try discriminate O3. now exists a, l, p.
Qed.
(** Start times that are 0 or between 1 ms and 2^48 ms, at clock rates between
    1/16 and 16, are in range. *)
Theorem C41_ordinary : forall objs d, is_finite (d_Speed d) = true -> (1 / 16 <= B2R (d_Speed d) <= 16)%R ->
  Forall (fun o => is_finite (ho_start o) = true /\ (B2R (ho_start o) = 0 \/ 1 <= Rabs (B2R (ho_start o)) <= 281474976710656)%R) objs ->
  Forall time_ok (clock_times objs d).
Proof.
  intros objs d Fs Bs H. unfold clock_times. rewrite Forall_map. assert (H' : Forall (fun o => is_finite (ho_start o) = true /\ (B2R (ho_start o) = 0 \/ 1 <= Rabs (B2R (ho_start o)) <= 281474976710656)%R) (tl objs)) by (destruct H; [constructor|assumption]).
  eapply Forall_impl; [|exact H']. clear H H'. intros o (Fo & Bo). cbv beta. set (x := ho_start o) in *. set (s := d_Speed d) in *. clearbody x s.
  assert (Is : (1 / 16 <= / B2R s <= 16)%R).
  { split; [replace (1 / 16)%R with (/ 16)%R by lra|replace 16%R with (/ (1 / 16))%R by lra]; apply Rinv_le_contravar; lra. }
  assert (Ba : (Rabs (B2R x / B2R s) <= 4503599627370496)%R).
  { unfold Rdiv. rewrite Rabs_mult, (Rabs_pos_eq (/ B2R s)) by lra. destruct Bo as [->|Bo]; [rewrite Rabs_R0; lra|]. nra. }
  destruct (fdiv_fin x s Fo Fs) as (Fd & Ed); [lra|apply small_1023; lra|]. split; [exact Fd|]. rewrite Ed. split.
  - apply Rle_trans with 4503599627370496%R; [|lra]. apply (rnd64_abs_Z _ 4503599627370496); [lia|exact Ba].
  - destruct Bo as [E|Bo].
    + left. rewrite E. unfold Rdiv. rewrite Rmult_0_l. apply rnd64_0.
    + right. apply Rle_trans with (bpow radix2 (-4)); [apply bpow_le; lia|].
      assert (E16' : (1 / 16)%R = bpow radix2 (-4)) by (cbn; lra).
      assert (L : (bpow radix2 (-4) <= Rabs (B2R x / B2R s))%R).
      { rewrite <- E16'. unfold Rdiv. rewrite Rabs_mult, (Rabs_pos_eq (/ B2R s)) by lra. nra. }
      change (round_mode mode_NE) with ZnearestE. rewrite <- (round_NE_abs radix2).
      rewrite <- (round_generic radix2 (SpecFloat.fexp 53 1024) ZnearestE (bpow radix2 (-4))).
      2:{ apply (bpow_fmt 53 1024). vm_compute. discriminate. }
      apply round_le; [apply fexp_correct; reflexivity|typeclasses eauto|exact L].
      all: apply fexp_correct; reflexivity.
Qed.
(** C42.  One peak per section of 400 ms: their number is one more than the
    number of multiples of 400 between the first and the last section. *)
Theorem C42_count : forall fuel objs d p, Forall real_slider objs -> Forall time_ok (clock_times objs d) ->
  boundaries (map (@B2R 53 1024) (clock_times objs d)) <= Z.of_nat fuel ->
  calculate_strain_peaks fuel objs d = Ok p -> zlen (pk_Aim p) = boundaries (map (@B2R 53 1024) (clock_times objs d)) + 1.
Proof. intros fuel objs d p. apply peaks_count. Qed.
(** An object after 2^62 ms is never reached: adding 400 to 2^62 gives 2^62. *)
Theorem C42_hangs : forall fuel objs d t ts, Forall real_slider objs -> Forall playable objs -> clock_times objs d = t :: ts -> time_ok t ->
  Exists (fun u => fgt u (f_of_Z (2 ^ 62)) = true) ts ->
  calculate_single fuel objs d = Hang /\ calculate_step fuel objs d = Hang /\ calculate_strain_peaks fuel objs d = Hang.
Proof.
  intros fuel objs d t ts R P C T E. destruct (run_late fuel objs d t ts R P C T E) as (dos & Cr & F). destruct objs as [|o r]; [discriminate C|].
  pose proof (single_full_eq fuel o r d dos Cr) as E1. rewrite F in E1. cbn [bind] in E1.
  assert (O1 : calculate_single fuel (o :: r) d = Hang) by (unfold calculate_single; now rewrite E1).
  pose proof (step_single_outcome fuel (o :: r) d) as O2. pose proof (peaks_outcome fuel (o :: r) d ltac:(discriminate)) as O3. rewrite O1 in O2, O3.
  split; [exact O1|]. destruct (calculate_step fuel (o :: r) d); try discriminate O2. destruct (calculate_strain_peaks fuel (o :: r) d); try discriminate O3. auto.
Qed.

(** C43.  Strain times. *)
Theorem C43_strain : forall objs d dos i o, create_difficulty_objects objs d = Ok dos -> nth_error dos i = Some o ->
  exists a b, nth_error objs i = Some a /\ nth_error objs (S i) = Some b /\
    do_DeltaTime o = fdiv (fsub (ho_start b) (ho_start a)) (d_Speed d) /\
    (is_nan (do_DeltaTime o) = false -> fle (fq 25 1) (do_StrainTime o) = true) /\
    (fge (do_DeltaTime o) (fq 25 1) = true -> do_StrainTime o = do_DeltaTime o).
Proof.
  intros objs d dos i o C N. destruct (create_nth _ _ _ _ _ C N) as (a & b & ll & _ & _ & N1 & N2 & ->). exists (po_obj a), (po_obj b).
  destruct (new_strain d b ll a) as (E1 & E2). split; [exact N1|]. split; [exact N2|]. split; [exact E1|]. rewrite E2. split.
  - intros H. apply floor25_le. now apply floor25.
  - intros H. apply fge_iff in H as (H1 & H2 & H3). destruct fq25 as (F & E). destruct (fmax_key _ _ H1 H2) as (N' & K). rewrite Rmax_left in K by exact H3.
    apply key_inj; [exact N'|exact H1|exact K|]. rewrite K. rewrite (key_fin _ _ _ F), E in H3. lra.
Qed.
(** The delta is a number for finite start times and a finite non-zero clock rate ... *)
Theorem C43_delta : forall a b s, is_finite a = true -> is_finite b = true -> is_finite s = true -> (B2R s <> 0)%R ->
  is_nan (fdiv (fsub b a) s) = false.
Proof. exact delta_num. Qed.
(** ... and the other two times of an object are 0, at least 25, or not a number. *)
Theorem C43_others : forall objs d dos o, create_difficulty_objects objs d = Ok dos -> In o dos ->
  Forall (fun t => t = f0 \/ is_nan t = true \/ fle (fq 25 1) t = true) [do_TravelTime o; do_MovementTime o].
Proof.
  intros objs d dos o C Ho. apply In_nth_error in Ho as (i & N). destruct (create_nth _ _ _ _ _ C N) as (a & b & ll & _ & _ & _ & _ & ->).
  assert (X : forall x, is_nan (fmax x (fq 25 1)) = true \/ fle (fq 25 1) (fmax x (fq 25 1)) = true) by (intros x; destruct (is_nan (fmax x (fq 25 1))) eqn:E; [now left|right; now apply floor25_le]).
  constructor; [destruct (new_times d b ll a) as [(x & ->)| ->]; auto|]. constructor; [destruct (new_move d b ll a) as [(x & ->)| ->]; auto|constructor].
Qed.

(** C44.  Without sliders the slider factor is exactly 1. *)
Theorem C44_factor : forall fuel objs d a, Forall no_slider objs -> calculate_single fuel objs d = Ok a -> at_Aim a <> B754_infinity false ->
  at_SliderFactor a = fq 1 1.
Proof. exact plain_factor_one. Qed.

(** C45.  Relax has no speed; without Flashlight there is no flashlight rating
    and it has no influence on the total. *)
Theorem C45_relax : forall fuel objs d a, calculate_single fuel objs d = Ok a -> mactive (d_Mods d) Relax = true -> at_Speed a = f0.
Proof.
  intros fuel objs d a H R. unfold calculate_single, calculate_single_full, rmap in H. apply bind_ok in H as (r & H & E). apply Ok_inj in E. subst a.
  apply bind_ok in H as (dos & _ & H). apply bind_ok in H as (o & _ & H). apply bind_ok in H as (s & _ & H). apply Ok_inj in H. subst r. cbn [fst]. unfold get_stars, stars_from_raw, check_mod. rewrite R. reflexivity.
Qed.
Lemma fold_flash fuel d dos s : check_mod d Flashlight = false -> foldM (process_all fuel d) (new_skills d) dos = Ok s -> cs_flash s = None.
Proof. intros F H. apply flash_fold in H. apply H. unfold new_skills. now rewrite F. Qed.
Theorem C45_flashlight : forall fuel objs d a, calculate_single fuel objs d = Ok a -> mactive (d_Mods d) Flashlight = false -> at_Flashlight a = f0.
Proof.
  intros fuel objs d a H R. unfold calculate_single, rmap in H. apply bind_ok in H as (r & H & E). apply Ok_inj in E. subst a.
  destruct objs as [|o rs]; [rewrite single_nil in H; discriminate H|].
  destruct (create_difficulty_objects (o :: rs) d) as [dos| |] eqn:C; [|unfold calculate_single_full in H; rewrite C in H; discriminate H|unfold calculate_single_full in H; rewrite C in H; discriminate H].
  rewrite (single_full_eq fuel o rs d dos C) in H. apply bind_ok in H as (s & F & H). apply Ok_inj in H. subst r. cbn [fst].
  unfold get_stars. rewrite (fold_flash fuel d dos s R F). unfold stars_from_raw. cbn [at_Flashlight]. apply B2SF_eq. vm_compute. reflexivity.
Qed.
Theorem C45_total : forall aim aimNS speed fl fl' d a, mactive (d_Mods d) Flashlight = false ->
  at_Total (stars_from_raw aim aimNS speed fl d a) = at_Total (stars_from_raw aim aimNS speed fl' d a).
Proof. intros aim aimNS speed fl fl' d a R. unfold stars_from_raw, check_mod. rewrite R. reflexivity. Qed.
(** with Relax the total does not depend on the speed strains *)
Theorem C45_total_relax : forall aim aimNS speed speed' fl d a, mactive (d_Mods d) Relax = true ->
  stars_from_raw aim aimNS speed fl d a = stars_from_raw aim aimNS speed' fl d a.
Proof. intros aim aimNS speed speed' fl d a R. unfold stars_from_raw, check_mod. rewrite R. reflexivity. Qed.

(** C46.  The weighting only sees the multiset of peaks, for the sort of the
    model and any mathematical library ... *)
Theorem C46_order : forall k l l', Forall (fun x => is_nan x = false) l -> Permutation l l' -> difficulty_value_of k l = difficulty_value_of k l'.
Proof. exact value_perm. Qed.
(** ... and for any sorting algorithm (sort.Slice is not stable), when log10
    maps [1,10] into [0,1]. *)
Theorem C46_any_sort : forall k srt l, log_unit -> sorts srt -> Forall (fun x => is_nan x = false) l ->
  difficulty_value_of k l =
    fmul (weighted_sum (decay_weight k) f0 (fq 1 1) (srt (reduce_peaks k 0 (srt l)))) (difficulty_multiplier k).
Proof.
  intros k srt l L S N. change (value_with reverse_sort k l = value_with srt k l). apply value_any; auto; [apply reverse_sorts| |].
  - apply reduce_nums; [exact L|]. eapply nums_perm; [apply reverse_sorts; exact N|exact N].
  - apply reduce_nums; [exact L|]. eapply nums_perm; [apply S; exact N|exact N].
Qed.
Theorem C46_zero : forall k l, log_finite -> Forall (fun x => feq x f0 = true) l -> difficulty_value_of k l = f0.
Proof.
  intros k l L Z. apply value_zero; [exact L|]. eapply Forall_impl; [|exact Z]. intros x H. cbv beta in H. apply feq_iff in H as (N & _ & K). apply num_key0; [exact N|]. rewrite K. reflexivity.
Qed.
End WithLibm.

(** ** Concrete cases *)
(** a library whose power function is constantly 1 *)
Definition one_libm : libm :=
  {| mpow := fun _ _ => fq 1 1; mlog10 := fun _ => f0; mcbrt := fun x => x; msin := fun _ => f0; mcos := fun _ => f0; macos := fun _ => f0; matan2 := fun _ _ => f0 |}.
Definition at_ms (k : kind) (x y t : Z) : hobj :=
  mkHobj k (mkVec (gq x 1) (gq y 1)) (mkVec (gq x 1) (gq y 1)) (fq t 1) (fq t 1) vzero vzero vzero 0 0 0 0 [] false 0 0 0 0.
Definition demo_curve : multicurve :=
  match @new_multicurve_t one_libm 9 (lit "L") [mkVec (gq 100 1) (gq 100 1); mkVec (gq 200 1) (gq 100 1)] (fq 80 1) with
  | Ok mc => mc | _ => mkMulti [] [] g0 vzero end.
Definition demo_slider : kind :=
  KSlider (mkSlider demo_curve None (fq 80 1) 1 [mkTick (fq 1100 1) false; mkTick (fq 1200 1) true] (fq 200 1)).
Definition demo : list hobj := [at_ms KCircle 0 0 0; at_ms demo_slider 100 100 1000; at_ms KSpinner 256 192 2000; at_ms KCircle 300 50 3000;
  at_ms KCircle 100 300 3100; at_ms KCircle 400 200 3190].
Definition plain_demo : list hobj := [at_ms KCircle 0 0 0; at_ms KCircle 100 100 1000; at_ms KSpinner 256 192 1200; at_ms KCircle 300 50 3000; at_ms KCircle 10 50 3000; at_ms KCircle 400 200 3100].
Definition demo_diff : difficulty := new_difficulty (fq 5 1) (fq 4 1) (fq 8 1) (fq 9 1).
Definition view {A} (r : res A) : option A := match r with Ok a => Some a | _ => None end.
Definition counts (a : attributes) : list Z := [at_ObjectCount a; at_Circles a; at_Sliders a; at_Spinners a; at_MaxCombo a].

Lemma demo_real : Forall (@real_slider one_libm) demo.
Proof.
  repeat (apply Forall_cons); [intros sd H; discriminate H| |intros sd H; discriminate H|intros sd H; discriminate H|intros sd H; discriminate H|intros sd H; discriminate H|constructor].
  intros sd H. assert (E : sl_curve sd = demo_curve) by (cbn in H; injection H as H; rewrite <- H; reflexivity). rewrite E. clear.
  exists 9%nat, (lit "L"), [mkVec (gq 100 1) (gq 100 1); mkVec (gq 200 1) (gq 100 1)], (fq 80 1). unfold demo_curve.
  destruct (new_multicurve_t _ _ _ _) eqn:E; [reflexivity| |]; exfalso; apply (f_equal outcome_of) in E; vm_compute in E; discriminate E.
Qed.
Lemma demo_playable : Forall playable demo.
Proof.
  repeat (apply Forall_cons); [intros sd H; discriminate H| |intros sd H; discriminate H|intros sd H; discriminate H|intros sd H; discriminate H|intros sd H; discriminate H|constructor].
  intros sd H. cbn in H. injection H as <-. cbn [sl_ticks]. intros E. discriminate E.
Qed.
Lemma speed1 : d_Speed demo_diff = fq 1 1. Proof. apply B2SF_eq. vm_compute. reflexivity. Qed.
Lemma ms_val k x y t : Z.abs t <= 2 ^ 53 -> is_finite (ho_start (at_ms k x y t)) = true /\ B2R (ho_start (at_ms k x y t)) = IZR t.
Proof. apply (fq1_exact t). Qed.
Ltac in_ms := cbv beta; match goal with |- context [at_ms ?k ?x ?y ?t] => destruct (ms_val k x y t) as (Fm & Em); [lia|]; split; [exact Fm|rewrite Em] end.
Lemma demo_times : Forall time_ok (clock_times demo demo_diff).
Proof.
  apply C41_ordinary; [rewrite speed1; apply (fq1_exact 1); lia|rewrite speed1; destruct (fq1_exact 1) as (_ & ->); [lia|lra]|].
  apply Forall_cons; [in_ms; now left|]. repeat (apply Forall_cons; [in_ms; right; rewrite Rabs_pos_eq; lra|]). constructor.
Qed.
Lemma ms_clock t : Z.abs t <= 2 ^ 53 -> B2R (fdiv (fq t 1) (fq 1 1)) = IZR t.
Proof.
  intros T. destruct (fq1_exact t T) as (F & E). destruct (fq1_exact 1) as (F1 & E1); [lia|].
  assert (Q : (B2R (fq t 1) / B2R (fq 1 1) = IZR t)%R) by (rewrite E, E1; lra).
  destruct (fdiv_fin _ _ F F1) as (_ & ->); [lra| |].
  - rewrite Q. apply small_1023. apply Rle_trans with (IZR (2 ^ 53)); [rewrite <- abs_IZR; apply IZR_le; exact T|]. change (2 ^ 53) with 9007199254740992. lra.
  - rewrite Q. now apply rnd64_Z.
Qed.
Lemma demo_boundaries : boundaries (map (@B2R 53 1024) (clock_times demo demo_diff)) = 5.
Proof.
  unfold clock_times, demo. cbn [tl map at_ms ho_start]. rewrite speed1, !ms_clock by lia. unfold boundaries, last_section, section_of. cbn [fold_left].
  rewrite (Zceil_imp 3 (1000 / 400)), (Zceil_imp 5 (2000 / 400)), (Zceil_imp 8 (3000 / 400)), (Zceil_imp 8 (3100 / 400)), (Zceil_imp 8 (3190 / 400)) by (cbn [Z.sub Z.add Z.opp Z.pos_sub Pos.pred_double]; lra). reflexivity.
Qed.

Example C38_instance : option_map (map counts) (view (@calculate_step one_libm 5 demo demo_diff)) =
    Some [[1; 1; 0; 0; 1]; [2; 1; 1; 0; 4]; [3; 1; 1; 1; 5]; [4; 2; 1; 1; 6]; [5; 3; 1; 1; 7]; [6; 4; 1; 1; 8]] /\
  (2 <= length demo)%nat /\
  option_map (fun a => (fgt (at_Aim a) (fq 1 100), fgt (at_SliderFactor a) (fq 1 10))) (view (@calculate_single one_libm 5 demo demo_diff)) = Some (true, true).
Proof. split; [vm_compute; reflexivity|]. split; [cbn; lia|]. vm_compute. reflexivity. Qed.
Example C38_instance_first : outcome_of (@calculate_single one_libm 5 [at_ms KCircle 0 0 0] demo_diff) = Returns /\ outcome_of (@calculate_step one_libm 5 [at_ms KCircle 0 0 0] demo_diff) = Returns.
Proof. split; vm_compute; reflexivity. Qed.
Example C39_instance : option_map (fun p => (zlen (pk_Aim p), zlen (pk_Flashlight p))) (view (@calculate_strain_peaks one_libm 5 demo demo_diff)) = Some (6, 0) /\
  option_map (fun p => (zlen (pk_Aim p), zlen (pk_Flashlight p))) (view (@calculate_strain_peaks one_libm 5 demo (set_mods demo_diff Flashlight))) = Some (6, 6).
Proof. split; vm_compute; reflexivity. Qed.
Example C40_instance : option_map counts (view (@calculate_single one_libm 5 demo demo_diff)) = Some [6; 4; 1; 1; 8].
Proof. vm_compute. reflexivity. Qed.
Example C41_instance : demo <> [] /\ Forall (@real_slider one_libm) demo /\ Forall playable demo /\ Forall time_ok (clock_times demo demo_diff) /\
  boundaries (map (@B2R 53 1024) (clock_times demo demo_diff)) = 5.
Proof. split; [discriminate|]. split; [apply demo_real|]. split; [apply demo_playable|]. split; [apply demo_times|apply demo_boundaries]. Qed.
(** with too little fuel the section loop is cut off *)
Example C41_instance_fuel : outcome_of (@calculate_single one_libm 5 demo demo_diff) = Returns /\ outcome_of (@calculate_single one_libm 2 demo demo_diff) = Hangs.
Proof. split; vm_compute; reflexivity. Qed.
Example C41_instance_pointless : Exists pointless [at_ms KCircle 0 0 0; at_ms (KSlider (mkSlider demo_curve None (fq 80 1) 0 [] (fq 200 1))) 9 9 500].
Proof. apply Exists_cons_tl, Exists_cons_hd. eexists. split; reflexivity. Qed.
(** The original claim, for all start times between 0 and 2^53, is false: the
    400th part of 10^-322 is rounded to 0, so the first section ends at 0, and
    the section loop looks for a previous object there is none of. *)
Definition tiny : hobj :=
  mkHobj KCircle vzero vzero (binary_normalize 53 1024 p53 pe53 mode_NE 20 (-1074) false) f0 vzero vzero vzero 0 0 0 0 [] false 0 0 0 0.
Theorem C41_tiny_refuted : flt f0 (ho_start tiny) = true /\ flt (ho_start tiny) (fq 1 1) = true /\ Forall no_slider [at_ms KCircle 0 0 0; tiny] /\
  forall M fuel, @calculate_single M (S fuel) [at_ms KCircle 0 0 0; tiny] demo_diff = Panic.
Proof.
  split; [vm_compute; reflexivity|]. split; [vm_compute; reflexivity|]. split; [repeat constructor; intros sd H; discriminate H|].
  intros M fuel. assert (O : outcome_of (@calculate_single M (S fuel) [at_ms KCircle 0 0 0; tiny] demo_diff) = Panics) by (vm_compute; reflexivity).
  destruct (calculate_single _ _ _); try discriminate O. reflexivity.
Qed.
Example C42_instance : option_map (fun p => zlen (pk_Aim p)) (view (@calculate_strain_peaks one_libm 5 demo demo_diff)) = Some 6 /\
  boundaries (map (@B2R 53 1024) (clock_times demo demo_diff)) = 5.
Proof. split; [vm_compute; reflexivity|apply demo_boundaries]. Qed.
(** an object at 2^63 ms after ordinary ones *)
Example C42_instance_hangs : let objs := [at_ms KCircle 0 0 0; at_ms KCircle 9 9 500; mkHobj KCircle vzero vzero (f_of_Z (2 ^ 63)) f0 vzero vzero vzero 0 0 0 0 [] false 0 0 0 0] in
  Forall (@real_slider one_libm) objs /\ Forall playable objs /\ exists t ts, clock_times objs demo_diff = t :: ts /\ time_ok t /\
    Exists (fun u => fgt u (f_of_Z (2 ^ 62)) = true) ts.
Proof.
  intros objs. split; [repeat constructor; intros sd H; discriminate H|]. split; [repeat constructor; intros sd H; discriminate H|].
  exists (fdiv (fq 500 1) (d_Speed demo_diff)), [fdiv (f_of_Z (2 ^ 63)) (d_Speed demo_diff)]. split; [reflexivity|]. split.
  - assert (A : Forall time_ok (clock_times [at_ms KCircle 0 0 0; at_ms KCircle 9 9 500] demo_diff)).
    { apply C41_ordinary; [rewrite speed1; apply (fq1_exact 1); lia|rewrite speed1; destruct (fq1_exact 1) as (_ & ->); [lia|lra]|].
      apply Forall_cons; [in_ms; now left|]. repeat (apply Forall_cons; [in_ms; right; rewrite Rabs_pos_eq; lra|]). constructor. }
    apply (Forall_inv A).
  - apply Exists_cons_hd. vm_compute. reflexivity.
Qed.
Example C43_instance : option_map (map (fun o => (feq (do_DeltaTime o) f0, feq (do_StrainTime o) (fq 25 1), feq (do_StrainTime o) (fq 1000 1)))) (view (@create_difficulty_objects one_libm plain_demo demo_diff)) =
  Some [(false, false, true); (false, false, false); (false, false, false); (true, true, false); (false, false, false)].
Proof. vm_compute. reflexivity. Qed.
Example C44_instance : Forall no_slider plain_demo /\
  option_map (fun a => (fgt (at_Aim a) (fq 1 100), is_finite (at_Aim a))) (view (@calculate_single one_libm 9 plain_demo demo_diff)) = Some (true, true) /\
  option_map (fun a => flt (at_SliderFactor a) (fq 1 1)) (view (@calculate_single one_libm 9 [at_ms KCircle 0 0 0; at_ms KCircle 300 300 700; at_ms demo_slider 100 100 1000; at_ms KCircle 400 300 1250; at_ms KCircle 100 100 1400] demo_diff)) = Some true.
Proof. split; [repeat constructor; intros sd H; discriminate H|]. split; vm_compute; reflexivity. Qed.
Example C45_instance : option_map (fun a => (fgt (at_Speed a) f0, fgt (at_Flashlight a) f0)) (view (@calculate_single one_libm 9 demo (set_mods demo_diff Flashlight))) = Some (true, true) /\
  outcome_of (@calculate_single one_libm 9 demo (set_mods demo_diff Relax)) = Returns.
Proof. split; vm_compute; reflexivity. Qed.
Example C46_instance : @log_unit one_libm /\ @log_finite one_libm /\
  fgt (@difficulty_value_of one_libm Speed [fq 3 1; fq 1 1; fq 2 1]) (fq 4 1) = true.
Proof.
  split; [|split; [|vm_compute; reflexivity]].
  - intros x H1 H2. cbn. split; [reflexivity|]. change (B2R f0) with 0%R. lra.
  - intros x H1 H2. reflexivity.
Qed.

Print Assumptions C38_entries.
Print Assumptions C38_last.
Print Assumptions C38_outcome.
Print Assumptions C38_first.
Print Assumptions C39_single.
Print Assumptions C39_step.
Print Assumptions C39_outcome.
Print Assumptions C39_lengths.
Print Assumptions C40_counts.
Print Assumptions C40_kinds.
Print Assumptions C40_grow.
Print Assumptions C41_empty.
Print Assumptions C41_pointless.
Print Assumptions C41_returns.
Print Assumptions C41_ordinary.
Print Assumptions C42_count.
Print Assumptions C42_hangs.
Print Assumptions C43_strain.
Print Assumptions C43_delta.
Print Assumptions C43_others.
Print Assumptions C44_factor.
Print Assumptions C45_relax.
Print Assumptions C45_flashlight.
Print Assumptions C45_total.
Print Assumptions C45_total_relax.
Print Assumptions C46_order.
Print Assumptions C46_any_sort.
Print Assumptions C46_zero.
Print Assumptions C41_tiny_refuted.

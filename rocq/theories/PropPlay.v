(** C78: from the lines of an ordinary file to ratings and pp. *)
From Coq Require Import Reals Lra ZArith Lia List Bool.
From Flocq Require Import Core BinarySingleNaN.
From Verif Require Import SpecMods ModsProofs Parser DiffCalc PP SpecParser SpecCurves SpecSafety SpecTerm SpecStacking SpecDifficulty SpecDiff SpecPP SpecSane SpecPlay BaseLemmas FloatLemmas Float32Lemmas KeyLemmas StringLemmas FuelProofs PlayProofs PropParser PropFuel PropDiff PropRatings PropTerm PropChain.
From Verif Require PropDist CurveStart CurveProofs.
Import ListNotations.
Open Scope Z_scope.

Section WithLibm.
Context {M : libm}.
(** The difficulty played: that of the map with mods m and speed sp. *)
Definition played (b : beatmap) (m : Z) (sp : f64) : difficulty := set_custom_speed (set_mods (bm_Difficulty b) m) sp.
Lemma played_built fuel ls b m sp : parse_lines fuel ls = Ok (Some b) ->
  played b m sp = SpecDifficulty.built (d_hp (bm_Difficulty b)) (d_cs (bm_Difficulty b)) (d_od (bm_Difficulty b)) (d_ar (bm_Difficulty b)) m sp.
Proof.
  intros H. destruct (all_functional ls) as (hr & tr & ms & gs & ds & _ & _ & _ & _ & Hd). destruct (C21_difficulty fuel ls b ds H Hd) as (_ & _ & _ & _ & _ & E). cbv zeta in E. unfold played. rewrite E at 1. reflexivity.
Qed.
(** Every calculation on a parsed map settles on numbers. *)
Lemma settles_rated : forall fuel ls b m sp, pow_ranges -> trig_ranges -> log_unit -> rates_ok ls -> ordinary ls ->
  parse_lines fuel ls = Ok (Some b) -> bm_HitObjects b <> [] -> low_stacks b -> within (1 / 4) 4 sp ->
  exists a l p, settles_on (fun fuel => calculate_single fuel (bm_HitObjects b) (played b m sp)) a /\
    settles_on (fun fuel => calculate_step fuel (bm_HitObjects b) (played b m sp)) l /\
    settles_on (fun fuel => calculate_strain_peaks fuel (bm_HitObjects b) (played b m sp)) p /\
    rated a /\ Forall rated l /\ peaks_rated p.
Proof.
  intros fuel ls b m sp PR TR LU RO OR H NE LS SP. pose proof (map_fit fuel ls b H RO OR LS) as F. rewrite (played_built fuel ls b m sp H). set (d := SpecDifficulty.built _ _ _ _ m sp).
  destruct (ft_base _ F) as (B1 & B2 & B3). pose proof (C67_difficulty (d_hp (bm_Difficulty b)) _ _ _ m sp B1 B2 B3 SP) as CD. fold d in CD. pose proof CD as (_ & (Fs & Bs) & _).
  pose proof (C41_ordinary (bm_HitObjects b) d Fs ltac:(lra) (ft_start _ F)) as TO. set (n := Z.to_nat (boundaries (map (@B2R 53 1024) (clock_times (bm_HitObjects b) d)))).
  assert (RE : forall k, (n <= k)%nat -> exists a l p, calculate_single k (bm_HitObjects b) d = Ok a /\ calculate_step k (bm_HitObjects b) d = Ok l /\ calculate_strain_peaks k (bm_HitObjects b) d = Ok p) by (intros k K; apply C41_returns; [exact NE|exact (ft_real _ F)|exact (ft_play _ F)|exact TO|unfold n in K; lia]).
  destruct (RE n (Nat.le_refl n)) as (a & l & p & Ha & Hl & Hp). exists a, l, p. pose proof (ft_tidy _ F d) as TY. pose proof (ft_order _ F) as IO. pose proof (ft_count _ F) as CO. pose proof (sum_points_pos (bm_HitObjects b)).
  split; [exists n; intros k K; rewrite <- Ha; apply (C59_single n k _ d K); rewrite Ha; discriminate|]. split; [exists n; intros k K; rewrite <- Hl; apply (C59_step n k _ d K); rewrite Hl; discriminate|].
  split; [exists n; intros k K; rewrite <- Hp; apply (C59_peaks n k _ d K); rewrite Hp; discriminate|].
  split; [apply (C67_single n (bm_HitObjects b) d); auto; lia|]. split; [apply (C67_step n (bm_HitObjects b) d); auto; lia|apply (C67_peaks n (bm_HitObjects b) d); auto; lia].
Qed.
(** C78.  The parser settles on a result for the file, and if it is a map with
    objects all three calculations settle, on ratings that are numbers, none
    negative. *)
Theorem C78_ratings : forall ls, atan2_range -> pow_ranges -> trig_ranges -> log_unit -> rows_ok ls -> sliders_tame ls -> rates_ok ls -> ordinary ls ->
  exists r, settles_on (fun fuel => parse_lines fuel ls) r /\
    forall b m sp, r = Some b -> bm_HitObjects b <> [] -> low_stacks b -> within (1 / 4) 4 sp ->
    exists a l p, settles_on (fun fuel => calculate_single fuel (bm_HitObjects b) (played b m sp)) a /\
      settles_on (fun fuel => calculate_step fuel (bm_HitObjects b) (played b m sp)) l /\
      settles_on (fun fuel => calculate_strain_peaks fuel (bm_HitObjects b) (played b m sp)) p /\
      rated a /\ Forall rated l /\ peaks_rated p.
Proof.
  intros ls AR PR TR LU HR HT RO OR. destruct (C63_lines ls AR HR HT RO) as (r & n & E). exists r. split; [exists n; exact E|]. intros b m sp -> NE LS SP. exact (settles_rated n ls b m sp PR TR LU RO OR (E n (Nat.le_refl n)) NE LS SP).
Qed.
(** Every play of the map, finished ... *)
Theorem C78_pp : forall fuel fuel' ls b m sp a pp combo n300 n100 n50 nmiss,
  pow_ranges -> trig_ranges -> log_unit -> log_above -> pow_total -> rates_ok ls -> ordinary ls ->
  parse_lines fuel ls = Ok (Some b) -> low_stacks b -> within (1 / 4) 4 sp ->
  calculate_single fuel' (bm_HitObjects b) (played b m sp) = Ok a ->
  hits_upto (zlen (bm_HitObjects b)) n300 n100 n50 nmiss -> 0 <= combo <= at_MaxCombo a ->
  (Z.testbit m bSO = true -> n300 + n100 + n50 + nmiss = zlen (bm_HitObjects b)) ->
  valid_results (pp_Results (ppv2x pp a combo n300 n100 n50 nmiss (played b m sp))).
Proof.
  intros fuel fuel' ls b m sp a pp combo n300 n100 n50 nmiss PR TR LU LA PT RO OR H LS SP HA HI C SO. pose proof (map_fit fuel ls b H RO OR LS) as F. destruct (ft_base _ F) as (B1 & B2 & B3).
  assert (MO : d_Mods (played b m sp) = m) by (rewrite (played_built fuel ls b m sp H); reflexivity). rewrite (played_built fuel ls b m sp H) in *.
  destruct (C68_difficulty (d_hp (bm_Difficulty b)) _ _ _ m sp B1 B2 B3 SP) as (CD & DO). pose proof (C40_counts _ _ _ _ HA) as (_ & _ & _ & _ & C5). rewrite C5 in C.
  apply (C68_valid fuel' (bm_HitObjects b)); auto; first [exact (ft_tidy _ F _)|exact (ft_order _ F)|exact (ft_count _ F)|rewrite MO; exact SO].
Qed.
(** ... or not, is worth a number of pp. *)
Theorem C78_pp_step : forall fuel fuel' ls b m sp l i a pp combo n300 n100 n50 nmiss,
  pow_ranges -> trig_ranges -> log_unit -> log_above -> pow_total -> rates_ok ls -> ordinary ls ->
  parse_lines fuel ls = Ok (Some b) -> low_stacks b -> within (1 / 4) 4 sp ->
  calculate_step fuel' (bm_HitObjects b) (played b m sp) = Ok l -> nth_error l i = Some a ->
  hits_upto (Z.of_nat (S i)) n300 n100 n50 nmiss -> 0 <= combo <= at_MaxCombo a ->
  (Z.testbit m bSO = true -> n300 + n100 + n50 + nmiss = Z.of_nat (S i)) ->
  valid_results (pp_Results (ppv2x pp a combo n300 n100 n50 nmiss (played b m sp))).
Proof.
  intros fuel fuel' ls b m sp l i a pp combo n300 n100 n50 nmiss PR TR LU LA PT RO OR H LS SP HL N HI C SO. pose proof (map_fit fuel ls b H RO OR LS) as F. destruct (ft_base _ F) as (B1 & B2 & B3).
  assert (MO : d_Mods (played b m sp) = m) by (rewrite (played_built fuel ls b m sp H); reflexivity). rewrite (played_built fuel ls b m sp H) in *.
  destruct (C68_difficulty (d_hp (bm_Difficulty b)) _ _ _ m sp B1 B2 B3 SP) as (CD & DO). pose proof (step_counts _ _ _ _ _ _ HL N) as (_ & _ & _ & _ & C5).
  assert (LE : zlen (firstn (S i) (bm_HitObjects b)) + sum_points (firstn (S i) (bm_HitObjects b)) <= zlen (bm_HitObjects b) + sum_points (bm_HitObjects b)).
  { pose proof (sum_points_app (firstn (S i) (bm_HitObjects b)) (skipn (S i) (bm_HitObjects b))) as E. rewrite firstn_skipn in E. pose proof (sum_points_pos (skipn (S i) (bm_HitObjects b))). unfold zlen. rewrite firstn_length. lia. }
  apply (C68_step fuel' (bm_HitObjects b) _ l i); auto; first [exact (ft_tidy _ F _)|exact (ft_order _ F)|exact (ft_count _ F)|rewrite MO; exact SO|lia].
Qed.
End WithLibm.

(** ** A concrete case: the file of [C63_instance], with sliders of every type *)
Definition modest_check (fs : list str) : bool :=
  (1 <=? parse_int (field 6 fs)) && (parse_int (field 6 fs) <=? 8) && is_finite (parse_f64 (field 7 fs)) && fle (fq 1 1) (parse_f64 (field 7 fs)) &&
  match @row_curve calm_libm 2000 fs with
  | Ok mc => is_finite (mc_length mc) && gge (mc_length mc) g0 && gle (mc_length mc) (gq 2048 1) && forallb (fun l => inside 12 (ln_p1 l) && inside 12 (ln_p2 l)) (mc_lines mc)
  | _ => false end.
Lemma calm_unique fuel fs mc mc' : @row_curve calm_libm fuel fs = Ok mc -> @row_curve calm_libm 2000 fs = Ok mc' -> mc = mc'.
Proof.
  unfold row_curve. intros E E2. set (n := Nat.max fuel 2000).
  destruct (@new_multicurve_t_up calm_libm fuel n ltac:(lia) (row_type fs) (slider_points fs) (parse_f64 (field 7 fs))) as [U|U]; [rewrite E in U; discriminate U|].
  destruct (@new_multicurve_t_up calm_libm 2000 n ltac:(lia) (row_type fs) (slider_points fs) (parse_f64 (field 7 fs))) as [V|V]; [rewrite E2 in V; discriminate V|].
  rewrite E in U. rewrite E2 in V. rewrite <- U in V. symmetry. now apply CurveStart.Ok_inj in V.
Qed.
Lemma modest_check_ok sm tr fs : (1 <= 9 * B2R sm / B2R tr)%R -> modest_check fs = true -> @slider_modest calm_libm sm tr fs.
Proof.
  intros Q H. unfold modest_check in H. apply andb_true_iff in H as [H H5]. apply andb_true_iff in H as [H H4]. apply andb_true_iff in H as [H H3]. apply andb_true_iff in H as [H1 H2]. apply Z.leb_le in H1, H2.
  destruct (fq1_exact 1) as (F1 & E1); [lia|]. apply ValueBounds.fle_fin in H4; [|exact F1|exact H3]. rewrite E1 in H4. split; [exact H1|]. split; [exact H3|]. split; [lra|].
  intros fuel mc E. destruct (@row_curve calm_libm 2000 fs) as [mc'| |] eqn:E2; try discriminate H5. rewrite (calm_unique _ _ _ _ E E2). clear mc E E2 fuel. rename mc' into mc.
  apply andb_true_iff in H5 as [H5 H9]. apply andb_true_iff in H5 as [H5 H8]. apply andb_true_iff in H5 as [H6 H7]. apply gge_iff in H7 as (_ & _ & H7). apply gle_iff in H8 as (_ & _ & H8). destruct (gq1_exact 2048) as (F2 & E3); [lia|].
  change (key g0) with 0%R in H7. rewrite (key_fin 24 128 _ H6) in H7, H8. rewrite (key_fin 24 128 _ F2), E3 in H8. set (len := B2R (mc_length mc)) in *.
  split; [exact H6|]. split.
  { apply Forall_forall. intros l I. rewrite forallb_forall in H9. specialize (H9 l I). apply andb_true_iff in H9 as [A B].
    assert (W : forall v, inside 12 v = true -> SpecCurves.within 14 v). { intros v V. assert (L : forallb (inside 12) [v] = true) by (cbn [forallb]; rewrite V; reflexivity). apply inside_ok in L. inversion L as [|x y K _]; subst. apply (BoundLemmas.vbnd_le 12 14); [lia|exact K]. }
    split; now apply W. }
  fold len. assert (N : (1 <= IZR (parse_int (field 6 fs)) <= 8)%R) by (split; apply IZR_le; lia). set (n := IZR (parse_int (field 6 fs))) in *. set (q := Rmin _ _).
  assert (Q1 : (1 <= q)%R) by (apply Rmin_glb; lra). assert (D : (2 * len / q <= 4096)%R). { apply Rle_trans with (2 * len * 1)%R; [|lra]. unfold Rdiv. apply Rmult_le_compat_l; [lra|]. replace 1%R with (/ 1)%R by field. apply Rinv_le_contravar; lra. }
  assert (D0 : (0 <= 2 * len / q)%R) by (unfold Rdiv; apply Rmult_le_pos; [lra|left; apply Rinv_0_lt_compat; lra]).
  split; [apply Rle_trans with (8 * 2048)%R|apply Rle_trans with (8 * 4098)%R]; try lra; apply Rmult_le_compat; lra.
Qed.
Definition calm_tame (fs : list str) : bool :=
  let pts := slider_points fs in
  forallb (inside 12) pts && Nat.leb (length pts) 1016 &&
  match pts with [a; b; c] => gle (vdst a (arc_centre_of a b c)) (g_of_Z 4194304) | _ => true end &&
  negb (flt (parse_f64 (field 7 fs)) (fq 1 16)) && modest_check fs.
Lemma calm_tame_ok fs : calm_tame fs = true -> @slider_tame calm_libm fs.
Proof.
  unfold calm_tame. cbv zeta. intros H. apply andb_true_iff in H as [H H5]. apply andb_true_iff in H as [H H4]. apply andb_true_iff in H as [H H3]. apply andb_true_iff in H as [H1 H2].
  split; [intros _; apply small_ok; [exact H1|now apply Nat.leb_le]|]. split.
  { intros a b c _ E _. rewrite E in H3. exact H3. }
  split; [now apply negb_true_iff|]. intros fuel mc E. unfold modest_check in H5. apply andb_true_iff in H5 as [_ H5]. destruct (@row_curve calm_libm 2000 fs) as [mc'| |] eqn:E2; try discriminate H5. rewrite (calm_unique _ _ _ _ E E2).
  apply andb_true_iff in H5 as [H5 _]. apply andb_true_iff in H5 as [H5 H8]. apply andb_true_iff in H5 as [H6 _]. apply gle_iff in H8 as (_ & _ & H8). destruct (gq1_exact 2048) as (F2 & E3); [lia|]. rewrite (key_fin 24 128 _ H6), (key_fin 24 128 _ F2), E3 in H8.
  destruct (ggt (mc_length mc') (gq (2 ^ 40) 1)) eqn:G; [|reflexivity]. exfalso. apply ggt_iff in G as (_ & _ & G). assert (F : fin (gq (2 ^ 40) 1)) by (vm_compute; reflexivity). bval (gq (2 ^ 40) 1). rewrite (key_fin 24 128 _ H6), (key_fin 24 128 _ F), V in G. lra.
Qed.
Definition place_check (fs : list str) : bool :=
  let t := start_of fs in (feq t f0 || (fle (fq 1 1) t && fle t (fq 100000 1))) && inside 12 (mkVec (parse_f32 (field 0 fs)) (parse_f32 (field 1 fs))).
Lemma place_check_ok fs : place_check fs = true -> place_ok fs.
Proof.
  unfold place_check. cbv zeta. intros H. apply andb_true_iff in H as [H V]. assert (W : SpecCurves.within 14 (mkVec (parse_f32 (field 0 fs)) (parse_f32 (field 1 fs)))).
  { assert (L : forallb (inside 12) [mkVec (parse_f32 (field 0 fs)) (parse_f32 (field 1 fs))] = true) by (cbn [forallb]; rewrite V; reflexivity). apply inside_ok in L. inversion L as [|x y K _]; subst. apply (BoundLemmas.vbnd_le 12 14); [lia|exact K]. }
  unfold place_ok. set (t := start_of fs) in *. clearbody t. assert (B : forall x : f64, (-1000000 <= key x <= 1000000)%R -> num x -> fin x). { intros x B N. apply (fin_of_key 53 1024); [exact N|]. assert (X : (1048576 < bpow radix2 1024)%R) by (change 1048576%R with (bpow radix2 20); apply bpow_lt; lia). lra. }
  apply orb_true_iff in H as [H|H].
  - apply feq_iff in H as (N & _ & K). change (key f0) with 0%R in K. assert (F : fin t) by (apply B; [lra|exact N]). rewrite (key_fin 53 1024 _ F) in K. split; [exact F|]. split; [now left|exact W].
  - apply andb_true_iff in H as [H1 H2]. apply fle_iff in H1 as (_ & N & H1). apply fle_iff in H2 as (_ & _ & H2). destruct (fq1_exact 1) as (F1 & E1); [lia|]. destruct (fq1_exact 100000) as (F2 & E2); [lia|]. rewrite (key_fin 53 1024 _ F1), E1 in H1. rewrite (key_fin 53 1024 _ F2), E2 in H2.
    assert (F : fin t) by (apply B; [lra|exact N]). rewrite (key_fin 53 1024 _ F) in H1, H2. split; [exact F|]. split; [right|exact W]. change (bpow radix2 36) with 68719476736%R. rewrite Rabs_pos_eq; lra.
Qed.
Lemma curvy_ordinary : @ordinary calm_libm curvy_map.
Proof.
  intros hr tr ds Hh Ht Hd. apply section_rows_iff in Hh, Ht. apply settings_iff in Hd. subst hr tr ds. cbv zeta. split; [|split; [|split]].
  - assert (A : forallb (fun fs => negb (is_object fs) || (place_check fs && (negb (is_slider fs) || modest_check fs))) (rows_of (body "HitObjects" (annotate [] curvy_map))) = true) by (vm_compute; reflexivity).
    intros fs I O. rewrite forallb_forall in A. specialize (A fs I). rewrite O in A. cbn [negb orb] in A. apply andb_true_iff in A as [A1 A2]. split; [now apply place_check_ok|]. intros T. unfold is_slider in A2. rewrite T in A2. cbn [negb orb] in A2. apply modest_check_ok; [|exact A2].
    set (sm := last_value _ _ _ _). set (tr := last_value _ _ _ _).
    assert (E1 : sm = fq 14 10) by (apply CurveProofs.B2SF_eq; vm_compute; reflexivity). assert (E2 : tr = fq 2 1) by (apply CurveProofs.B2SF_eq; vm_compute; reflexivity). rewrite E1, E2. destruct (fq1_exact 2) as (_ & ->); [lia|]. bval (fq 14 10). rewrite V. lra.
  - assert (A : forallb (fun fs => let x := parse_f64 (nth 1 fs []) in fle x (fq (-1) 1024) || (fle (fq 1 1) x && fle x (fq 60000 1))) (rows_of (body "TimingPoints" (annotate [] curvy_map))) = true) by (vm_compute; reflexivity).
    intros fs I. rewrite forallb_forall in A. specialize (A fs I). cbv zeta in A. apply orb_true_iff in A as [A|A]; [right; now left|right; right]. apply andb_true_iff in A as [H1 H2]. set (t := parse_f64 _) in *. clearbody t.
    apply fle_iff in H1 as (_ & N & H1). apply fle_iff in H2 as (_ & _ & H2). destruct (fq1_exact 1) as (F1 & E1); [lia|]. destruct (fq1_exact 60000) as (F2 & E2); [lia|]. rewrite (key_fin 53 1024 _ F1), E1 in H1. rewrite (key_fin 53 1024 _ F2), E2 in H2.
    assert (F : fin t). { apply (fin_of_key 53 1024); [exact N|]. assert (X : (1048576 < bpow radix2 1024)%R) by (change 1048576%R with (bpow radix2 20); apply bpow_lt; lia). lra. } rewrite (key_fin 53 1024 _ F) in H1, H2. split; [exact F|lra].
  - vm_compute. reflexivity.
  - repeat constructor.
Qed.
Definition low_check (b : beatmap) : bool := forallb (fun o => forallb (fun g => Z.abs (idx_of g o) <=? 2 ^ 20) [GNM; GEZ; GHR]) (bm_HitObjects b).
Lemma low_check_ok b : low_check b = true -> low_stacks b.
Proof.
  unfold low_check, low_stacks. intros H o g I. rewrite forallb_forall in H. specialize (H o I). rewrite forallb_forall in H. apply Z.leb_le, H. destruct g; cbn [In]; auto.
Qed.
Example C78_instance : @atan2_range calm_libm /\ @pow_ranges calm_libm /\ @trig_ranges calm_libm /\ @log_unit calm_libm /\ @log_above calm_libm /\ @pow_total calm_libm /\
  rows_ok curvy_map /\ @sliders_tame calm_libm curvy_map /\ rates_ok curvy_map /\ @ordinary calm_libm curvy_map /\
  exists b, @parse_lines calm_libm 1000 curvy_map = Ok (Some b) /\ bm_HitObjects b <> [] /\ low_stacks b.
Proof.
  split; [exact PropDist.calm_atan|]. split; [exact calm_pow|]. split; [exact calm_trig|]. split; [exact calm_log|]. split; [exact calm_above|]. split; [exact calm_total|].
  split; [apply C63_instance|]. split.
  { intros r fs HR I T. apply section_rows_iff in HR. subst r. apply calm_tame_ok.
    assert (A : forallb (fun fs => negb (is_slider fs) || calm_tame fs) (rows_of (body "HitObjects" (annotate [] curvy_map))) = true) by (vm_compute; reflexivity).
    rewrite forallb_forall in A. specialize (A fs I). unfold is_slider in A. rewrite T in A. exact A. }
  split; [apply C63_instance|]. split; [exact curvy_ordinary|].
  assert (A : match @parse_lines calm_libm 1000 curvy_map with Ok (Some b) => Nat.ltb 0 (length (bm_HitObjects b)) && low_check b | _ => false end = true) by (vm_compute; reflexivity).
  destruct (@parse_lines calm_libm 1000 curvy_map) as [[b|]| |]; try discriminate A. exists b. split; [reflexivity|]. apply andb_true_iff in A as [A B]. split; [|now apply low_check_ok]. apply Nat.ltb_lt in A. intros E. rewrite E in A. cbn in A. lia.
Qed.
Print Assumptions C78_ratings. Print Assumptions C78_pp. Print Assumptions C78_pp_step.

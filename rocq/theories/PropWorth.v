(** C116.  From a map on paper to ratings and pp. *)
From Coq Require Import Reals Lra Permutation Sorted.
From Flocq Require Import Core BinarySingleNaN.
From Verif Require Import SpecMods Parser DiffCalc PP SpecParser SpecCurves SpecSafety SpecTerm SpecStacking SpecStacks SpecDiff SpecSane SpecPlay SpecSheet SpecPaper SpecShape SpecNumbers SpecSpace SpecText SpecTiming SpecLength.
From Verif Require Import SpecPP SpecDifficulty.
From Verif Require Import BaseLemmas FloatLemmas Float32Lemmas KeyLemmas StringLemmas TextProofs CurveBounds LengthProofs SizeProofs.
From Verif Require Import PropNumbers PropText PropParser PropSafety PropLength PropTerm PropRatings PropChain PropPlay PropStacks SheetProofs SheetBlocks SheetRead PropSheet PropSlides PropPaper.
From Verif Require PropDist CurveStart CurveProofs.
Import ListNotations.
Open Scope Z_scope.

Section WithLibm.
Context {M : libm}.
(** ** Where the lines of a straight slider are *)
Lemma straight_within fuel pts len m mc : 0 <= m <= 30 -> Forall (SpecCurves.within m) pts -> Forall whole pts -> (length pts <= 1000)%nat -> process_linear pts <> [] ->
  (path_length (process_linear pts) <= bpow radix2 m)%R -> is_finite len = true -> (0 <= B2R len <= bpow radix2 m)%R -> new_multicurve_t fuel (lit "L") pts len = Ok mc ->
  Forall (fun l => SpecCurves.within (m + 2) (ln_p1 l) /\ SpecCurves.within (m + 2) (ln_p2 l)) (mc_lines mc).
Proof.
  intros Hm HW HI HN NE HP FL BL E. destruct pts as [|p0 ps]; [exfalso; apply NE; reflexivity|]. set (pts := p0 :: ps) in *. set (ls := process_linear pts) in *.
  assert (N : new_multicurve fuel (lit "L") pts = Ok (finish_curve ls p0)) by reflexivity. unfold new_multicurve_t in E. rewrite N in E. cbn [bind] in E. apply CurveStart.Ok_inj in E. subst mc. cbn [mc_lines mc_length finish_curve].
  pose proof (process_linear_in (fun p => SpecCurves.within m p /\ whole p) pts) as PI. fold ls in PI.
  assert (LW : Forall (lin (fun p => SpecCurves.within m p /\ whole p)) ls) by (apply PI; rewrite Forall_forall in *; intros p I; split; auto).
  pose proof (linear_open pts) as LO. fold ls in LO. pose proof (SizeProofs.linear_size pts) as LN. fold ls in LN.
  assert (NT : Forall not_tiny ls). { rewrite Forall_forall in *. intros l I. destruct (LW l I) as [[W1 I1] [W2 I2]]. specialize (LO l I). destruct l as [p q]. now apply (whole_long m). }
  assert (LB : Forall (lin (SpecCurves.within m)) ls) by (eapply Forall_impl; [|exact LW]; intros l [[A _] [B _]]; split; assumption).
  destruct (ggt (total_length ls) g0).
  - destruct (trimmed_length m Hm ls len LB NT) as (A & _); [lia|exact HP|exact FL|exact BL| |exact A].
    left. split; [|exact NE]. intros ls' l EQ. rewrite Forall_forall in LO. apply LO. rewrite EQ. apply in_or_app. right. now left.
  - eapply Forall_impl; [|exact LB]. intros l [A B]. split; eapply BoundLemmas.vbnd_le; try eassumption; lia.
Qed.
(** ** A written map is ordinary *)
Lemma brief_modest s n : sheet_ok s -> usual (sh_speed s) -> usual (sh_ticks s) -> note_ok n -> playable s n -> type_of (note_fields n) = TSlider ->
  slider_modest (parse_f64 (written (sh_speed s))) (parse_f64 (written (sh_ticks s))) (note_fields n).
Proof.
  intros SOK U1 U2 OK (BX & BY & BT & BR & PL) T. rewrite (note_type n OK) in T. destruct (note_field n OK) as (E0 & E1 & _ & E & _). pose proof OK as (X & Y & _ & S). pose proof BR as BR0. unfold brief in BR. destruct (nt_shape n) as [|e|c ps k l] eqn:SH; try discriminate T. clear T.
  destruct E as (E5 & E6 & E7 & E8). destruct S as (C & P & NK & W). destruct BR as (-> & LEN & V & WK & FD & BK & _). destruct PL as (K1000 & KV & KT).
  assert (RT : row_type (note_fields n) = lit "L") by (unfold row_type, bars; rewrite E5, (path_bars _ ps C P); reflexivity).
  assert (SP : slider_points (note_fields n) = map vec_of ((nt_x n, nt_y n) :: ps)).
  { unfold slider_points, bars. rewrite E0, E1, E5, (path_bars _ ps C P). cbn [tl map]. f_equal. rewrite map_map. apply map_ext_in. intros p I. rewrite Forall_forall in P. destruct (P p I). now apply control_pair. }
  assert (PK : parse_int (field 6 (note_fields n)) = dec k) by (rewrite E6; apply show_int; destruct NK as (N1 & N2 & N3); split; [exact N1|split; [exact N2|lia]]).
  pose proof (C72_f64 l W) as NL. change (nearest l (parse_f64 (written l))) in NL. destruct (near_value l _ NL) as (FL & EL); [rewrite Rabs_pos_eq; lra|]. rewrite (Rabs_pos_eq (value l)) in EL by lra.
  assert (LB : (1 <= B2R (parse_f64 (written l)) <= 2048)%R).
  { destruct (fq1_exact 1) as (A1 & A2); [lia|]. destruct (fq1_exact 2048) as (B1 & B2); [lia|]. destruct (between l (fq 1 1) (fq 2048 1) W A1 B1) as (_ & _ & _ & L); [rewrite A2, B2; exact V|]. rewrite A2, B2 in L. exact L. }
  pose proof SOK as (_ & _ & _ & _ & _ & _ & _ & _ & _ & _ & SPW & TKW & _). unfold usual in U1, U2.
  pose proof (C72_f64 _ SPW) as NS. change (nearest (sh_speed s) (parse_f64 (written (sh_speed s)))) in NS. destruct (near_value _ _ NS) as (_ & ES); [rewrite Rabs_pos_eq; lra|]. rewrite (Rabs_pos_eq (value (sh_speed s))) in ES by lra.
  pose proof (C72_f64 _ TKW) as NTK. change (nearest (sh_ticks s) (parse_f64 (written (sh_ticks s)))) in NTK. destruct (near_value _ _ NTK) as (_ & ET); [rewrite Rabs_pos_eq; lra|]. rewrite (Rabs_pos_eq (value (sh_ticks s))) in ET by lra.
  unfold slider_modest. rewrite PK, E7. split; [lia|]. split; [exact FL|]. split; [lra|].
  intros fuel mc RC. unfold row_curve in RC. rewrite RT, SP, E7 in RC. cbn [map] in RC. unfold curve_modest. cbv zeta. rewrite PK, E7.
  assert (U0 : point_read (nt_x n, nt_y n) (vec_of (nt_x n, nt_y n))) by (split; cbn [fst snd vec_of vx vy]; now apply show_f32).
  assert (UV : Forall2 point_read ps (map vec_of ps)). { clear -P. induction P as [|p ps (P1 & P2) P3 IH]; [constructor|]. cbn [map]. constructor; [split; cbn [vec_of vx vy]; now apply show_f32|exact IH]. }
  set (sd := {| sl_curve := mc; sl_tpoint := None; sl_pixelLength := parse_f64 (written l); sl_repeat := 0; sl_ticks := []; sl_span := f0 |}).
  destruct (brief_length n sd (map vec_of ps) fuel (vec_of (nt_x n, nt_y n)) "L"%char ps k l OK BR0 SH U0 UV NL RC) as (FM & LM). cbn [sl_curve sd] in FM, LM.
  assert (INP : (INR (length ps) <= 999)%R) by (replace 999%R with (INR 999) by (simpl; lra); apply le_INR; lia). pose proof (pos_INR (length ps)) as POS.
  split; [exact FM|]. split.
  { destruct (path_walk ps _ _ _ U0 UV) as (PW & PN).
    assert (IN : Forall (fun v => SpecCurves.within 11 v /\ whole v) (vec_of (nt_x n, nt_y n) :: map vec_of ps)).
    { inversion FD as [|? ? (F1 & F2) F3]; subst. constructor; [apply (read_within (nt_x n, nt_y n)); (exact U0 || exact F1 || exact F2 || apply X || apply Y)|]. clear -UV P F3. revert UV. induction P as [|p ps (P1 & P2) P3 IH]; intros UV; [constructor|]. cbn [map] in *. inversion UV as [|? ? ? ? Q1 Q2]; inversion F3 as [|? ? (B1 & B2) F3']; subst. constructor; [apply (read_within p); (exact Q1 || exact B1 || exact B2 || apply P1 || apply P2)|now apply IH]. }
    eapply Forall_impl; [|apply (straight_within fuel (vec_of (nt_x n, nt_y n) :: map vec_of ps) (parse_f64 (written l)) 11 mc)]; try lia.
    - intros x [A B]. split; eapply BoundLemmas.vbnd_le; try eassumption; lia.
    - eapply Forall_impl; [|exact IN]. intros v Q. apply Q.
    - eapply Forall_impl; [|exact IN]. intros v Q. apply Q.
    - cbn [length]. rewrite map_length. lia.
    - intros N. specialize (PN N). lia.
    - apply Rle_trans with (1 := PW). change (bpow radix2 11) with (IZR 2048). apply IZR_le. lia.
    - exact FL.
    - change (bpow radix2 11) with 2048%R. lra.
    - exact RC. }
  set (len := B2R (mc_length mc)) in *. set (pl := B2R (parse_f64 (written l))) in *. set (sm := B2R (parse_f64 (written (sh_speed s)))) in *. set (tr := B2R (parse_f64 (written (sh_ticks s)))) in *.
  assert (NB : (1 <= IZR (dec k) <= 1000)%R) by (split; apply IZR_le; lia). set (nn := IZR (dec k)) in *. set (pix := value l) in *. set (v := value (sh_speed s)) in *. set (t := value (sh_ticks s)) in *. clearbody len pl sm tr nn pix v t.
  assert (L1 : (0 <= len <= 1.5 * pix)%R) by (apply Rabs_le_inv in LM; lra). assert (NP : (nn * len <= 1.5 * (nn * pix))%R) by (replace (1.5 * (nn * pix))%R with (nn * (1.5 * pix))%R by ring; apply Rmult_le_compat_l; lra).
  split; [lra|]. apply Rabs_le_inv in ES, ET, EL.
  assert (SM : (0.9 * v <= sm)%R) by lra. assert (TR : (0 < tr <= 11 / 10 * t)%R) by lra. assert (PLB : (0.9 * pix <= pl)%R) by lra.
  assert (TD : (7 * (v / t) <= 9 * sm / tr)%R).
  { apply Rmult_le_reg_r with tr; [lra|]. replace (9 * sm / tr * tr)%R with (9 * sm)%R by (field; lra). assert (VT : (0 <= v / t)%R) by (apply Rmult_le_pos; [lra|left; apply Rinv_0_lt_compat; lra]).
    apply Rle_trans with (7 * (v / t) * (11 / 10 * t))%R; [apply Rmult_le_compat_l; lra|]. replace (7 * (v / t) * (11 / 10 * t))%R with (77 / 10 * v)%R by (field; lra). lra. }
  assert (VT : (0 < v / t)%R) by (apply Rmult_lt_0_compat; [lra|apply Rinv_0_lt_compat; lra]).
  replace (1000 * (100 * v / t))%R with (100000 * (v / t))%R in KT by (field; lra). set (q := (v / t)%R) in *. clearbody q.
  set (d := Rmin pl (9 * sm / tr)). assert (DD : (0.9 * pix <= d \/ 7 * q <= d)%R) by (unfold d, Rmin; destruct (Rle_dec pl (9 * sm / tr)); [left|right]; lra). clearbody d.
  assert (DP : (0 < d)%R) by lra. assert (G : (nn * (2 * len) <= 60000 * d)%R).
  { replace (nn * (2 * len))%R with (2 * (nn * len))%R by ring. destruct DD as [DD|DD]; [|lra].
    assert (nn * pix <= 1000 * pix)%R by (apply Rmult_le_compat_r; lra). lra. }
  apply Rmult_le_reg_r with d; [exact DP|]. replace (nn * (2 * len / d + 2) * d)%R with (nn * (2 * len) + 2 * nn * d)%R by (field; lra).
  assert (2 * nn * d <= 2000 * d)%R by (apply Rmult_le_compat_r; lra). lra.
Qed.
Lemma sheet_ordinary s : sheet_ok s -> usual (sh_speed s) -> usual (sh_ticks s) -> Forall lively (sh_tempos s) -> Forall (playable s) (sh_notes s) -> zlen (sh_notes s) < 2 ^ 15 -> ordinary (sheet_lines s).
Proof.
  intros OK U1 U2 LV PL FEW hr tr ds Hh Ht Hd. rewrite (rows_same _ _ _ _ Hh (objects_of s OK)). rewrite (rows_same _ _ _ _ Ht (timing_of s OK)). rewrite (settings_same _ _ _ _ Hd (difficulty_of s OK)).
  clear hr tr ds Hh Ht Hd. cbv zeta. pose proof OK as (_ & _ & _ & _ & _ & _ & _ & (CS & _) & (OD & _) & (AR & _) & _ & _ & _ & TP & NT & _). rewrite Forall_forall in NT, PL, TP, LV.
  split; [|split; [|split]].
  - intros fs I _. apply in_map_iff in I as (n & <- & I). specialize (NT n I). specialize (PL n I). split.
    + destruct (note_start n NT) as (F & E). pose proof PL as (BX & BY & BT & _). pose proof NT as (X & Y & (T & _) & _). pose proof (dec_pos _ T) as T0. split; [exact F|]. split.
      * rewrite E. destruct (Z.eq_dec (dec (nt_time n)) 0) as [->|NZ]; [now left|right]. rewrite Rabs_pos_eq by (apply IZR_le; lia). change (bpow radix2 36) with (IZR (2 ^ 36)). split; apply IZR_le; lia.
      * destruct (note_field n NT) as (-> & -> & _). assert (W : SpecCurves.within 11 (mkVec (parse_f32 (show (nt_x n))) (parse_f32 (show (nt_y n))))).
        { apply (read_within (nt_x n, nt_y n)); cbn [fst snd]; (exact BX || exact BY || apply X || apply Y || (split; cbn [fst snd vx vy]; now apply show_f32)). }
        eapply BoundLemmas.vbnd_le; [|exact W]. lia.
    + intros TY. exact (brief_modest s n OK U1 U2 NT PL TY).
  - intros fs I. apply in_map_iff in I as (p & <- & I). destruct (TP p I) as (_ & W). specialize (LV p I). unfold lively in LV. change (nth 1 (tempo_fields p) []) with (written (tp_beat p)).
    pose proof (C72_f64 _ W) as NL. change (nearest (tp_beat p) (parse_f64 (written (tp_beat p)))) in NL. assert (AB : (Rabs (value (tp_beat p)) <= 100000)%R) by (destruct (tp_speed p); apply Rabs_le; lra). destruct (near_value _ _ NL AB) as (F & E).
    assert (E' : (- / 50000000000 <= B2R (parse_f64 (written (tp_beat p))) - value (tp_beat p) <= / 50000000000)%R) by (apply Rabs_le_inv; apply Rle_trans with (1 := E); lra). destruct (tp_speed p); [right; left|right; right; split; [exact F|lra]].
    assert (FQ : is_finite (fq (-1) 1024) = true) by (vm_compute; reflexivity). bval (fq (-1) 1024). unfold fle. rewrite Bleb_correct by assumption. apply Rle_bool_true. rewrite V, opp_IZR. lra.
  - assert (LE : forall l, (length (filter is_object l) <= length l)%nat) by (induction l as [|x l IH]; [apply le_n|cbn [filter]; destruct (is_object x); cbn [length]; lia]). specialize (LE (map note_fields (sh_notes s))). rewrite map_length in LE. unfold zlen in *. lia.
  - repeat constructor; apply nearest_not_nan; assumption.
Qed.
Lemma as_many s b : reproduces s b -> zlen (bm_HitObjects b) = zlen (sh_notes s).
Proof.
  intros R. destruct R as (_ & _ & _ & _ & _ & _ & _ & _ & _ & (pl & BT & F & _) & _). destruct BT as (PM & _). apply Permutation_length in PM. unfold zlen. rewrite PM. f_equal. clear -F. induction F; cbn [length]; congruence.
Qed.

(** C116.  The file of such a map is read, and all three calculations give ratings that are
    numbers, none negative. *)
Theorem C116_ratings : forall s, atan2_range -> pow_ranges -> trig_ranges -> log_unit ->
  sheet_ok s -> usual (sh_speed s) -> usual (sh_ticks s) -> Forall lively (sh_tempos s) -> Forall (playable s) (sh_notes s) -> zlen (sh_notes s) < 2 ^ 15 -> sh_notes s <> [] ->
  exists b, settles_on (fun fuel => parse_bytes fuel (file_of s)) (Some b) /\ reproduces s b /\
    forall m sp, low_stacks b -> SpecPP.within (1 / 4) 4 sp ->
    exists a l p, settles_on (fun fuel => calculate_single fuel (bm_HitObjects b) (played b m sp)) a /\
      settles_on (fun fuel => calculate_step fuel (bm_HitObjects b) (played b m sp)) l /\
      settles_on (fun fuel => calculate_strain_peaks fuel (bm_HitObjects b) (played b m sp)) p /\
      rated a /\ Forall rated l /\ peaks_rated p.
Proof.
  intros s HA PR TR LU OK U1 U2 LV PL FEW NE. destruct (C115_read s HA OK U1 U2) as (b & (n & E) & RP); [eapply Forall_impl; [|exact PL]; intros x Q; apply Q|].
  exists b. split; [exists n; exact E|]. split; [exact RP|]. intros m sp LS SP. pose proof (E n (le_n n)) as E0. rewrite (sheet_text n s OK) in E0.
  apply (settles_rated n (sheet_lines s) b m sp PR TR LU (sheet_rates s OK U1 U2) (sheet_ordinary s OK U1 U2 LV PL FEW) E0); auto.
  intros Q. pose proof (as_many s b RP) as A. rewrite Q in A. unfold zlen in A. cbn [length] in A. destruct (sh_notes s); [now apply NE|cbn [length] in A; lia].
Qed.
(** Every play of it is worth a number of pp. *)
Theorem C116_pp : forall fuel fuel' s b m sp a pp combo n300 n100 n50 nmiss,
  pow_ranges -> trig_ranges -> log_unit -> log_above -> pow_total ->
  sheet_ok s -> usual (sh_speed s) -> usual (sh_ticks s) -> Forall lively (sh_tempos s) -> Forall (playable s) (sh_notes s) -> zlen (sh_notes s) < 2 ^ 15 ->
  parse_bytes fuel (file_of s) = Ok (Some b) -> low_stacks b -> SpecPP.within (1 / 4) 4 sp ->
  calculate_single fuel' (bm_HitObjects b) (played b m sp) = Ok a ->
  SpecPP.hits_upto (zlen (sh_notes s)) n300 n100 n50 nmiss -> 0 <= combo <= at_MaxCombo a ->
  (Z.testbit m bSO = true -> n300 + n100 + n50 + nmiss = zlen (sh_notes s)) ->
  SpecPP.valid_results (pp_Results (ppv2x pp a combo n300 n100 n50 nmiss (played b m sp))).
Proof.
  intros fuel fuel' s b m sp a pp combo n300 n100 n50 nmiss PR TR LU LA PT OK U1 U2 LV PL FEW R LS SP HA HI C SO. destruct (C114_result fuel s _ OK R) as (b' & E & RP). assert (b' = b) by congruence. subst b'. rewrite <- (as_many s b RP) in HI, SO.
  rewrite (sheet_text fuel s OK) in R. exact (C78_pp fuel fuel' (sheet_lines s) b m sp a pp combo n300 n100 n50 nmiss PR TR LU LA PT (sheet_rates s OK U1 U2) (sheet_ordinary s OK U1 U2 LV PL FEW) R LS SP HA HI C SO).
Qed.
(** Without sliders no stack is too high. *)
Theorem C116_low : forall fuel s b, sheet_ok s -> Forall (fun n => is_slide n = false) (sh_notes s) -> zlen (sh_notes s) <= 2 ^ 20 ->
  parse_bytes fuel (file_of s) = Ok (Some b) -> low_stacks b.
Proof.
  intros fuel s b OK NS FEW R. destruct (C114_result fuel s _ OK R) as (b' & E & RP). assert (b' = b) by congruence. subst b'. pose proof (as_many s b RP) as A. rewrite (sheet_text fuel s OK) in R.
  apply (C83_file fuel (sheet_lines s) b R); [|lia]. intros i j o o' AT (x & K). exfalso. assert (I : In o (bm_HitObjects b)) by (destruct AT as (_ & AT & _); exact (nth_error_In _ _ AT)).
  destruct RP as (_ & _ & _ & _ & _ & _ & _ & _ & _ & (pl & (PM & _) & F & _) & _). destruct (forall2_in_r _ _ _ _ F I) as (n & In1 & RD). assert (IS : is_slide n = false) by (rewrite Forall_forall in NS; apply NS; eapply Permutation_in; [apply Permutation_sym; exact PM|exact In1]).
  destruct RD as (_ & _ & _ & RD). unfold is_slide in IS. destruct (nt_shape n); [destruct RD as (RD & _)| |discriminate IS]; [|destruct RD as (RD & _)]; rewrite RD in K; discriminate K.
Qed.
End WithLibm.

(** The map of C115 can be played. *)
Example C116_instance : @atan2_range calm_libm /\ @pow_ranges calm_libm /\ @trig_ranges calm_libm /\ @log_unit calm_libm /\ @log_above calm_libm /\ @pow_total calm_libm /\
  sheet_ok timed /\ usual (sh_speed timed) /\ usual (sh_ticks timed) /\ Forall lively (sh_tempos timed) /\ Forall (playable timed) (sh_notes timed) /\ zlen (sh_notes timed) < 2 ^ 15 /\
  exists b, @parse_bytes calm_libm 1000 (file_of timed) = Ok (Some b) /\ low_stacks b.
Proof.
  split; [exact PropDist.calm_atan|]. split; [exact calm_pow|]. split; [exact calm_trig|]. split; [exact calm_log|]. split; [exact calm_above|]. split; [exact calm_total|].
  destruct C115_instance as (OK & U1 & U2 & LV & _ & BR & _). repeat (split; [assumption|]). split.
  { assert (E1 : value (L [1; 4; 0] (Some [5])) = (1405 / 10)%R) by level_in. assert (E2 : value (L [8; 0] None) = 80%R) by level_in. assert (E3 : value (L [1] (Some [4])) = (14 / 10)%R) by level_in. assert (E4 : value (L [2] None) = 2%R) by level_in.
    inversion BR as [|? ? B1 BR1]; subst. inversion BR1 as [|? ? B2 BR2]; subst. inversion BR2 as [|? ? B3 _]; subst.
    apply Forall_cons; [|apply Forall_cons; [|apply Forall_cons; [|apply Forall_nil]]].
    all: split; [vm_compute; discriminate|]; split; [vm_compute; discriminate|]; split; [vm_compute; discriminate|]; split; [assumption|]; cbn [nt_shape]; try exact I.
    all: split; [vm_compute; discriminate|]; cbn [sh_speed sh_ticks timed]; rewrite E3, E4.
    - change (dec [3]) with 3. rewrite E1. lra.
    - change (dec [1]) with 1. rewrite E2. lra. }
  split; [reflexivity|].
  assert (A : match @parse_bytes calm_libm 1000 (file_of timed) with Ok (Some b) => low_check b | _ => false end = true) by (vm_compute; reflexivity).
  destruct (@parse_bytes calm_libm 1000 (file_of timed)) as [[b|]| |]; try discriminate A. exists b. split; [reflexivity|]. now apply low_check_ok.
Qed.
(** The map of C113 has no sliders. *)
Example C116_instance_low : sheet_ok paper /\ Forall (fun n => is_slide n = false) (sh_notes paper) /\ zlen (sh_notes paper) <= 2 ^ 20.
Proof. destruct C113_instance as ((OK & NS) & _). split; [exact OK|]. split; [exact NS|vm_compute; discriminate]. Qed.

Print Assumptions C116_ratings.
Print Assumptions C116_pp.
Print Assumptions C116_low.

(** Properties C73-C75: sliders as the file describes them, the shapes of
    curves, and where a slider is at a given time. *)
From Coq Require Import Reals Lra Permutation.
From Flocq Require Import Raux Zaux Core BinarySingleNaN Plus_error Relative.
From Verif Require Import GoFloat Curves Objects Parser SpecParser SpecShape SpecSane SpecSliders SpecStacking BaseLemmas FloatLemmas Float32Lemmas KeyLemmas BoundLemmas
  SortLemmas StackingProofs StringLemmas ObjectProofs FinishProofs MapProofs CurveProofs CurveStart SliderProofs LazyProofs NearLemmas CatmullProofs ShapeProofs PropParser PropSliders PropTerm.
From Verif Require PropCurves PropRatings PropSafety.
From Verif Require Import PPProofs PPBounds PPChains SpecPP SpecCurves SpecParser.
Import ListNotations.
Open Scope Z_scope.

Section WithLibm.
Context {M : libm}.

(** C73.  Every slider row of a parsed map becomes a slider whose curve is made
    of the object's own position and the listed points, with the listed type
    letter and length ... *)
Definition slider_of (fuel : nat) (tim : timings) (fs : list str) (o : hobj) : Prop :=
  exists sd typ texts pts es, ho_kind o = KSlider sd /\
    barred (field 5 fs) (typ :: texts) /\ Forall2 point_text texts pts /\
    new_multicurve_t fuel typ (mkVec (parse_f32 (field 0 fs)) (parse_f32 (field 1 fs)) :: pts) (parse_f64 (field 7 fs)) = Ok (sl_curve sd) /\
    (** ... with one sound for the head, each repeat and the tail ... *)
    edge_texts fs es /\ zlen es <= parse_int (field 6 fs) + 1 /\
    ho_sounds o = map atoi es ++ repeat (atoi (field 4 fs)) (Z.to_nat (parse_int (field 6 fs) + 1) - length es) /\
    (** ... timed once, by the timing point in force at its start, and ending
        where it is at its end time. *)
    position_at o (ho_end o) = Ok (ho_endPos o) /\
    (1 <= parse_int (field 6 fs) -> exists tp ds, get_point_at tim (start_of fs) = Ok tp /\
      let len := f_of_g (mc_length (sl_curve sd)) in
      let v := get_velocity tim tp in
      let n := Z.to_nat (parse_int (field 6 fs)) in
      sl_span sd = fdiv (fmul len (fq 1000 1)) v /\
      ho_end o = fadd (start_of fs) (fdiv (fmul (fmul len (fq 1000 1)) (f_of_Z (parse_int (field 6 fs)))) v) /\
      (if fisnan (cp_beat tp) then ds = [] else tick_distances (tick_step tim tp sd) len (fmul v (fq 1 100)) (tick_step tim tp sd) ds) /\
      Permutation (sl_ticks sd) (flat_map (span_points (start_of fs) (ho_end o) (sl_span sd) len n ds) (seq 0 n))).
Lemma finished_slider fuel tim fs o : finished fuel tim fs o -> type_of fs = TSlider -> slider_of fuel tim fs o.
Proof.
  intros (o0 & o1 & o2 & C & (nc & id & n & s & h & ->) & T & S) HT.
  destruct (slider_row fuel fs o0 C HT) as (typ & texts & pts & mc & es & B & P & E & EP & EN & SP & ST & Z0 & K & ET & R & L & SN).
  unfold set_timing in T. cbn [ho_kind with_combo] in T. rewrite K in T. set (sd0 := mkSlider _ _ _ _ _ _) in T.
  destruct S as (S1 & S2 & S3 & S4 & S5 & S6 & S7 & _). pose proof T as T'.
  unfold slider_set_timing in T'. apply bind_ok in T' as (tp & Etp & T'). cbv zeta in T'. apply bind_ok in T' as (tss & Etss & T'). apply bind_ok in T' as (q & Eq & T'). apply Ok_inj in T'.
  set (sd' := mkSlider (sl_curve sd0) _ _ _ _ _) in *. exists sd', typ, texts, pts, es.
  assert (K' : ho_kind o = KSlider sd') by (rewrite S1, <- T'; reflexivity). split; [exact K'|]. split; [exact B|]. split; [exact P|].
  split; [cbn [sl_curve sd' sd0]; rewrite <- SP; exact E|]. split; [exact ET|]. split; [exact L|]. split; [rewrite S7, <- T'; exact SN|]. split.
  - unfold position_at. rewrite K', S2, S3, S4, S5, <- T'. exact Eq.
  - intros R1. assert (ST' : ho_start (with_combo o0 nc id n s h) = start_of fs) by exact ST. rewrite ST' in Etp.
    destruct (C32_points fuel tim _ sd0 o2 eq_refl R1 T) as (sd2 & tp2 & ds & K2 & Etp2 & Y). cbv zeta in Y.
    destruct Y as (Y1 & Y2 & Y3 & Y4 & Y5 & Y6 & Y7 & _).
    assert (SD : sd2 = sd') by (rewrite <- T' in K2; cbn [ho_kind with_end with_kind] in K2; now injection K2). subst sd2.
    rewrite ST' in *. exists tp2, ds. split; [exact Etp2|]. cbv zeta. split; [exact Y4|]. split; [rewrite S5; exact Y5|]. split; [exact Y6|]. rewrite S5. exact Y7.
Qed.
Theorem C73_rows : forall fuel ls b hr, parse_lines fuel ls = Ok (Some b) -> section_rows ls "HitObjects" hr ->
  exists played, Permutation (filter is_object hr) played /\
    Forall2 (fun fs o => describes fs o /\ (type_of fs = TSlider -> slider_of fuel (bm_Timings b) fs o)) played (bm_HitObjects b) /\
    (Forall (fun fs => fisnan (start_of fs) = false) (filter is_object hr) -> play_order (filter is_object hr) played).
Proof.
  intros fuel ls b hr H Hh. exists (stable_sort row_lt (filter is_object hr)). split; [apply sort_perm|]. split; [|intros; now apply row_play_order].
  pose proof (pipeline fuel ls b hr H Hh) as F. destruct (all_functional ls) as (hr' & tr & ms & gs & ds & _ & Ht & Hm & Hg & Hd).
  destruct (map_facts fuel ls b hr tr ms gs ds H Hh Ht Hm Hg Hd) as (_ & _ & _ & _ & _ & _ & _ & _ & _ & F' & _).
  pose proof (F2_and _ _ _ _ F F') as G. eapply F2_impl; [|exact G]. intros fs o (A & (B & _)). split; [exact B|]. now apply finished_slider.
Qed.

(** C74.  The lines of a curve, by type letter. *)
Theorem C74_linear : forall fuel pts mc, new_multicurve fuel (lit "L") pts = Ok mc -> mc_lines mc = filter has_length (polyline pts).
Proof.
  intros fuel pts mc H. unfold new_multicurve, curve_lines in H. change (str_eqb (lit "L") (lit "P")) with false in H. change (str_eqb (lit "L") (lit "L")) with true in H. cbn [bind] in H.
  destruct pts as [|p pts]; [discriminate H|]. apply Ok_inj in H. subst mc. cbn [mc_lines finish_curve]. apply linear_lines.
Qed.
Theorem C74_bezier : forall fuel pts mc, new_multicurve fuel (lit "B") pts = Ok mc -> bezier_lines pts (mc_lines mc).
Proof.
  intros fuel pts mc H. unfold new_multicurve, curve_lines in H. change (str_eqb (lit "B") (lit "P")) with false in H. change (str_eqb (lit "B") (lit "L")) with false in H. change (str_eqb (lit "B") (lit "B")) with true in H. cbn iota in H.
  apply bind_ok in H as (ls & E & H). destruct pts as [|p pts]; [discriminate H|]. apply Ok_inj in H. subst mc. cbn [mc_lines finish_curve]. apply (bezier_pieces fuel); [discriminate|exact E].
Qed.
(** Type P with fewer than three points, or three on a line, is type L; with more than three it is type B. *)
Theorem C74_perfect : forall fuel pts, (length pts < 3)%nat \/ (exists a b c, pts = [a; b; c] /\ is_straight a b c = true) ->
  new_multicurve fuel (lit "P") pts = new_multicurve fuel (lit "L") pts.
Proof.
  intros fuel pts H. unfold new_multicurve, curve_lines. change (str_eqb (lit "P") (lit "P")) with true. change (str_eqb (lit "L") (lit "P")) with false. change (str_eqb (lit "L") (lit "L")) with true. cbn iota.
  assert (E : process_perfect fuel pts = Ok (process_linear pts)); [|now rewrite E]. destruct H as [H|(a & b & c & -> & H)].
  - destruct pts as [|a [|b [|c r]]]; try reflexivity. cbn in H. lia.
  - unfold process_perfect. now rewrite H.
Qed.
Theorem C74_perfect_many : forall fuel pts, (3 < length pts)%nat -> new_multicurve fuel (lit "P") pts = new_multicurve fuel (lit "B") pts.
Proof.
  intros fuel pts H. unfold new_multicurve, curve_lines. change (str_eqb (lit "P") (lit "P")) with true. change (str_eqb (lit "B") (lit "P")) with false. change (str_eqb (lit "B") (lit "L")) with false. change (str_eqb (lit "B") (lit "B")) with true. cbn iota.
  destruct pts as [|a [|b [|c [|d r]]]]; cbn in H; try lia. reflexivity.
Qed.
(** Any other letter, a lower-case one included, gives no lines: the slider never moves. *)
Theorem C74_other : forall fuel typ pts len, ~ In typ (map lit ["P"; "L"; "B"; "C"]%string) -> pts <> [] ->
  exists mc, new_multicurve_t fuel typ pts len = Ok mc /\ mc_lines mc = [] /\ forall t, mc_point_at mc t = Ok (hd vzero pts).
Proof.
  intros fuel typ pts len N NE. destruct pts as [|p pts]; [congruence|]. exists (finish_curve [] p). split; [|split; reflexivity].
  assert (X : forall s, In (lit s) (map lit ["P"; "L"; "B"; "C"]%string) -> str_eqb typ (lit s) = false).
  { intros s I. apply str_eqb_neq. intros ->. now apply N. }
  unfold new_multicurve_t, new_multicurve, curve_lines. rewrite !X by (cbn; auto). reflexivity.
Qed.
(** Type C: every pair of neighbouring points is joined by fifty lines along the
    Catmull-Rom spline, which passes through both. *)
Theorem C74_catmull : forall fuel pts mc k, new_multicurve fuel (lit "C") pts = Ok mc -> 0 <= k <= 100 ->
  length (mc_lines mc) = (50 * (length pts - 1))%nat /\
  forall i p1 p2 p3 p4, neighbours pts i p1 p2 p3 p4 -> Forall (within k) [p1; p2; p3; p4] ->
  forall j, (j < 50)%nat -> exists l, nth_error (mc_lines mc) (50 * i + j) = Some l /\
    on_spline k p1 p2 p3 p4 (INR j / 50) (ln_p1 l) /\ on_spline k p1 p2 p3 p4 (INR (S j) / 50) (ln_p2 l) /\
    ((S j < 50)%nat -> exists l', nth_error (mc_lines mc) (50 * i + S j) = Some l' /\ ln_p1 l' = ln_p2 l).
Proof.
  intros fuel pts mc k H K. unfold new_multicurve, curve_lines in H. change (str_eqb (lit "C") (lit "P")) with false in H. change (str_eqb (lit "C") (lit "L")) with false in H. change (str_eqb (lit "C") (lit "B")) with false in H. change (str_eqb (lit "C") (lit "C")) with true in H. cbn iota in H. cbn [bind] in H.
  assert (ML : mc_lines mc = process_catmull None pts) by (destruct pts as [|p r]; [discriminate H|]; apply Ok_inj in H; subst mc; reflexivity).
  rewrite ML, catmull_segments. clear H ML mc.
  assert (LS : forall i, (i < length pts - 1)%nat -> length (segment pts i) = 50%nat).
  { intros i Hi. unfold segment. destruct (nth_error pts i) as [p2|] eqn:E2; [|apply nth_error_None in E2; lia]. destruct (nth_error pts (S i)) as [p3|] eqn:E3; [|apply nth_error_None in E3; lia]. unfold approximate_catmull. now rewrite map_length, seq_length. }
  assert (FM : forall n s, (s + n <= length pts - 1)%nat -> length (flat_map (segment pts) (seq s n)) = (50 * n)%nat /\
    forall i j, (i < n)%nat -> (j < 50)%nat -> nth_error (flat_map (segment pts) (seq s n)) (50 * i + j) = nth_error (segment pts (s + i)) j).
  { induction n as [|n IH]; intros s Hs; [split; [reflexivity|intros; lia]|]. cbn [seq flat_map]. destruct (IH (S s) ltac:(lia)) as (I1 & I2). pose proof (LS s ltac:(lia)) as L0. split; [rewrite app_length, I1, L0; lia|].
    intros [|i] j Hi Hj; [rewrite Nat.mul_0_r, Nat.add_0_l, Nat.add_0_r, nth_error_app1 by lia; reflexivity|]. rewrite nth_error_app2 by lia. rewrite L0. replace (50 * S i + j - 50)%nat with (50 * i + j)%nat by lia. rewrite I2 by lia. now rewrite Nat.add_succ_r. }
  destruct (FM (length pts - 1)%nat 0%nat ltac:(lia)) as (F1 & F2). split; [exact F1|].
  intros i p1 p2 p3 p4 (N2 & N3 & N1 & N4) W j Hj. assert (Hi : (i < length pts - 1)%nat) by (assert (S i < length pts)%nat by (apply nth_error_Some; congruence); lia).
  assert (SG : forall m, (m < 50)%nat -> nth_error (segment pts i) m = Some (mkLinear (catmull_point p1 p2 p3 p4 (gdiv (g_of_Z (Z.of_nat m)) (g_of_Z (Z.of_nat 50)))) (catmull_point p1 p2 p3 p4 (gdiv (g_of_Z (Z.of_nat m + 1)) (g_of_Z (Z.of_nat 50)))))).
  { intros m Hm. unfold segment. rewrite N2, N3, <- N1, <- N4. unfold approximate_catmull. rewrite nth_error_map. rewrite (nth_error_nth' _ 0%nat) by (rewrite seq_length; exact Hm). rewrite seq_nth by exact Hm. reflexivity. }
  assert (ON : forall z r, 0 <= z <= 50 -> (IZR z / 50 = r)%R -> on_spline k p1 p2 p3 p4 r (catmull_point p1 p2 p3 p4 (gdiv (g_of_Z z) (g_of_Z (Z.of_nat 50))))).
  { intros z r Hz <-. pose proof (near_div50 z Hz) as T. set (U := bpow radix2 k).
    assert (HU : (1 <= U <= bpow radix2 100)%R) by (unfold U; split; [change 1%R with (bpow radix2 0); apply bpow_le; lia|apply bpow_le; lia]).
    assert (C : forall x : f32, is_finite x = true -> (Rabs (B2R x) <= bpow radix2 k)%R -> near U 1 0 x (B2R x)) by (intros x Fx Bx; apply near_exact; [exact Fx|rewrite Rmult_1_l; exact Bx]).
    inversion W as [|? ? W1 W']; subst. inversion W' as [|? ? W2 W'']; subst. inversion W'' as [|? ? W3 W3']; subst. inversion W3' as [|? ? W4 _]; subst.
    destruct W1 as ((A1 & B1) & (A1' & B1')), W2 as ((A2 & B2) & (A2' & B2')), W3 as ((A3 & B3) & (A3' & B3')), W4 as ((A4 & B4) & (A4' & B4')).
    pose proof (spline_near U _ _ _ _ _ _ HU (C _ A1 B1) (C _ A2 B2) (C _ A3 B3) (C _ A4 B4) T) as (G1 & _ & G2).
    pose proof (spline_near U _ _ _ _ _ _ HU (C _ A1' B1') (C _ A2' B2') (C _ A3' B3') (C _ A4' B4') T) as (G3 & _ & G4).
    assert (UB : (200 * U * ulp24 <= bpow radix2 (k - 16))%R).
    { unfold U, ulp24. replace (k - 16) with (k + (-16)) by lia. rewrite bpow_plus. change (bpow radix2 (-16)) with (/ 65536)%R. pose proof (bpow_gt_0 radix2 k). lra. }
    unfold on_spline. cbn [catmull_point vx vy]. split; [exact G1|]. split; [exact G3|]. split; [exact (Rle_trans _ _ _ G2 UB)|exact (Rle_trans _ _ _ G4 UB)]. }
  eexists. split; [rewrite F2 by assumption; apply SG; exact Hj|]. cbn [ln_p1 ln_p2]. split; [apply ON; [lia|now rewrite <- INR_IZR_INZ]|]. split; [apply ON; [lia|]; rewrite S_INR, INR_IZR_INZ, plus_IZR; reflexivity|].
  intros Hj'. eexists. split; [rewrite F2 by assumption; apply SG; exact Hj'|]. cbn [ln_p1 ln_p2]. do 3 f_equal. lia.
Qed.
(** The ends of the spline are the two points. *)
Theorem C74_through : forall a b c d, spline a b c d 0 = b /\ spline a b c d 1 = c.
Proof. intros a b c d. unfold spline. split; field. Qed.

(** C75.  How far along its curve a slider is: the distance of the number of
    spans gone by from the nearest even number, the number of spans measured
    from the start, by the clamped time, up to rounding. *)
Theorem C75_progress : forall start en span t,
  time_upto start -> time_upto en -> time_upto t -> (B2R start <= B2R en)%R -> is_finite span = true -> (bpow radix2 (-100) <= B2R span)%R ->
  exists p, (0 <= p)%R /\
    (let x := ((Rmax (B2R start) (Rmin (B2R en) (B2R t)) - B2R start) / B2R span)%R in (Rabs (p - x) <= x * bpow radix2 (-51) + bpow radix2 (-39))%R) /\
    is_finite (slider_progress start en span t) = true /\
    forall k, (Rabs (p - 2 * IZR k) <= 1)%R -> B2R (slider_progress start en span t) = Rabs (p - 2 * IZR k).
Proof.
  intros start en span t (Fs & Bs) (Fe & Be) (Ft & Bt) OR Fp Bp. unfold slider_progress, clampF64. destruct (fmax_fin start t Fs Ft) as (F1 & E1). destruct (fmin_fin en _ Fe F1) as (F2 & E2).
  assert (CL : B2R (fmin en (fmax start t)) = Rmax (B2R start) (Rmin (B2R en) (B2R t))).
  { rewrite E2, E1. unfold Rmin, Rmax. destruct (Rle_dec (B2R start) (B2R t)), (Rle_dec (B2R en) (B2R t)), (Rle_dec (B2R en) (B2R start)), (Rle_dec (B2R start) (B2R en)); try destruct (Rle_dec _ _); lra. }
  rewrite <- CL. assert (R : (B2R start <= B2R (fmin en (fmax start t)) <= bpow radix2 38)%R).
  { rewrite E2, E1. split; [apply Rmin_glb; [exact OR|apply Rmax_l]|apply Rle_trans with (1 := Rmin_l _ _); lra]. }
  set (t1 := fmin en (fmax start t)) in *. clearbody t1. clear CL E1 E2 F1.
  assert (P39 : (bpow radix2 39 = bpow radix2 38 + bpow radix2 38)%R) by exact (bpow_S 38). assert (B39 : (bpow radix2 39 <= bpow radix2 1023)%R) by (apply bpow_le; lia).
  destruct (fsub_fin t1 start F2 Fs) as (F3 & E3); [apply Rabs_le; lra|]. set (a := (B2R t1 - B2R start)%R) in *. assert (Ha : (0 <= a <= bpow radix2 39)%R) by (unfold a; lra).
  assert (R3 : (0 <= rnd64 a <= bpow radix2 39)%R) by (split; [apply rnd64_pos; lra|apply rnd_le_pow; [lia|lra]]). rewrite <- E3 in R3.
  pose proof (bpow_gt_0 radix2 (-100)) as P100. set (s := B2R span) in *. assert (Ps : (0 < s)%R) by lra.
  assert (IS : (0 < / s <= bpow radix2 100)%R). { split; [now apply Rinv_0_lt_compat|]. change (bpow radix2 100) with (bpow radix2 (- (-100))). rewrite bpow_opp. apply Rinv_le_contravar; lra. }
  assert (Q : (0 <= B2R (fsub t1 start) / s <= bpow radix2 139)%R).
  { split; [apply Rle_mult_inv_pos; lra|]. unfold Rdiv. change 139 with (39 + 100). rewrite bpow_plus. apply Rmult_le_compat; lra. }
  destruct (fdiv_fin _ _ F3 Fp) as (F4 & E4); [fold s; lra|fold s; rewrite Rabs_pos_eq by lra; apply Rle_trans with (1 := proj2 Q), bpow_le; lia|]. fold s in E4.
  assert (R4 : (0 <= B2R (fdiv (fsub t1 start) span))%R) by (rewrite E4; apply rnd64_pos; lra). destruct (fmod_2_exact _ F4 R4) as (n & F5 & V5 & R5).
  exists (B2R (fdiv (fsub t1 start) span)). split; [exact R4|].
  destruct (fold_back _ n F5 R5) as (F6 & V6). split; [|split; [exact F6|intros k; now apply V6]].
  cbv zeta. rewrite E4. set (x := (a / s)%R). set (y := (B2R (fsub t1 start) / s)%R) in *.
  assert (Hx : (0 <= x)%R) by (apply Rle_mult_inv_pos; lra).
  pose proof (err64 y ltac:(rewrite Rabs_pos_eq by lra; apply Rle_trans with (1 := proj2 Q), bpow_le; lia)) as D1. rewrite (Rabs_pos_eq y) in D1 by lra.
  assert (D2 : (Rabs (y - x) <= x * / 9007199254740992)%R).
  { assert (SB : (Rabs (rnd64 a - a) <= a * / 9007199254740992)%R).
    { destruct (FLT_plus_error_N_ex radix2 (-1074) 53 (fun x => negb (Z.even x)) (B2R t1) (- B2R start)) as (eps & HE & VE).
      - apply (generic_format_B2R 53 1024).
      - apply generic_format_opp, (generic_format_B2R 53 1024).
      - assert (UE : (Rabs eps <= / 9007199254740992)%R).
        { apply Rle_trans with (1 := HE). unfold u_ro. change (bpow radix2 (- (53) + 1)) with (/ 4503599627370496)%R. set (u := (/ 2 * / 4503599627370496)%R). assert (HU : (0 < u <= / 9007199254740992)%R) by (unfold u; lra). clearbody u. apply Rle_trans with (2 := proj2 HU). apply Rmult_le_reg_r with (1 + u)%R; [lra|]. unfold Rdiv. rewrite Rmult_assoc, Rinv_l, Rmult_1_r by lra. assert (0 <= u * u)%R by (apply Rmult_le_pos; lra). lra. }
        change (rnd64 a = a * (1 + eps))%R in VE. rewrite VE. replace (a * (1 + eps) - a)%R with (a * eps)%R by ring. rewrite Rabs_mult, (Rabs_pos_eq a) by lra. apply Rmult_le_compat_l; lra. }
    unfold y, x. rewrite E3. replace (rnd64 a / s - a / s)%R with ((rnd64 a - a) * / s)%R by (unfold Rdiv; ring). rewrite Rabs_mult, (Rabs_pos_eq (/ s)) by lra. replace (a / s * / 9007199254740992)%R with (a * / 9007199254740992 * / s)%R by (unfold Rdiv; ring). apply Rmult_le_compat_r; lra. }
  assert (Y : (y <= x * (1 + / 9007199254740992))%R) by (apply Rabs_le_inv in D2; lra).
  replace (rnd64 y - x)%R with ((rnd64 y - y) + (y - x))%R by ring. apply Rle_trans with (1 := Rabs_triang _ _). change (bpow radix2 (-51)) with (/ 2251799813685248)%R. change (bpow radix2 (-39)) with (/ 549755813888)%R. lra.
Qed.
End WithLibm.

(** ** Instances *)
Local Notation pt := PropCurves.pt.
(** A map with a 300 ms beat, doubled in speed from 1000 on: 140 px take 300 ms
    before, 280 px after.  The second object lists its sounds, the others do not. *)
Definition timed_map : list str := map lit [
  "[Metadata]"; "Title:A"; "[Difficulty]"; "SliderMultiplier:1.4"; "SliderTickRate:2"; "[TimingPoints]"; "0,300,4,1,0,100,1"; "1000,-50,4,1,0,100,0";
  "[HitObjects]"; "100,100,0,1,0"; "200,100,500,2,4,L|250:100,2,140,2|0|2"; "0,0,1000,2,0,B|100:300|100:300|200:0|300:200,1,500"; "0,0,2000,2,0,L|100:0|200:50,1,600";
  "10,10,3000,6,8,C|100:200|300:0,3,250,2|4"; "0,0,4000,2,0,P|100:300|200:0|300:200|400:0,1,400"; "256,192,5000,12,0,6000"]%string.
(** end times: 500 + 2 * 300, 1000 + 500 / 280 * 300, 2000 + 600 / 280 * 300, 3000 + 3 * 250 / 280 * 300, 4000 + 400 / 280 * 300 *)
Example C73_instance : (exists hr, section_rows timed_map "HitObjects" hr /\ length (filter is_object hr) = 7%nat /\ length (filter is_slider hr) = 5%nat) /\
  view (fun b => map (fun o => (ho_sounds o, int_of_f (ho_end o))) (bm_HitObjects b)) (@parse_lines PropSafety.zero_libm 1000 timed_map) =
  Some (Some [([0], 0); ([2; 0; 2], 1100); ([0; 0], 1535); ([0; 0], 2642); ([2; 4; 8; 8], 3803); ([0; 0], 4428); ([0], 6000)]).
Proof.
  split; [|vm_compute; reflexivity]. eexists. split; [apply section_rows_iff; reflexivity|]. split; vm_compute; reflexivity.
Qed.

(** A repeated point gives no line. *)
Example C74_linear_instance : exists mc, @new_multicurve PropSafety.zero_libm 10 (lit "L") [pt 0 0; pt 100 0; pt 100 0; pt 100 50] = Ok mc /\
  map (fun l => (int_of_f (f_of_g (vx (ln_p1 l))), int_of_f (f_of_g (vy (ln_p1 l))), int_of_f (f_of_g (vx (ln_p2 l))), int_of_f (f_of_g (vy (ln_p2 l))))) (mc_lines mc) = [(0, 0, 100, 0); (100, 0, 100, 50)].
Proof. eexists. split; [reflexivity|]. vm_compute. reflexivity. Qed.
(** A doubled point cuts the curve in a line and a parabola. *)
Definition cut_points : list vec := [pt 0 0; pt 100 300; pt 100 300; pt 200 0; pt 300 200].
Lemma same_check p i a b : nth_error p i = Some a -> nth_error p (S i) = Some b -> vec_eqb a b = false -> ~ doubled p i.
Proof. intros A B E (_ & a' & b' & A' & B' & E'). rewrite A in A'. rewrite B in B'. injection A' as ->. injection B' as ->. rewrite E in E'. discriminate E'. Qed.
Example C74_bezier_instance : pieces 0 cut_points [[pt 0 0; pt 100 300]; [pt 100 300; pt 200 0; pt 300 200]] /\
  match @new_multicurve PropSafety.zero_libm 1000 (lit "B") cut_points with Ok mc => Nat.leb 10 (length (mc_lines mc)) | _ => false end = true.
Proof.
  split; [|vm_compute; reflexivity]. apply (pieces_cut 0 cut_points 1 [[pt 100 300; pt 200 0; pt 300 200]]); [lia| | |].
  - split; [cbn; lia|]. exists (pt 100 300), (pt 100 300). split; [reflexivity|]. split; [reflexivity|]. vm_compute. reflexivity.
  - intros j Hj. assert (j = 0)%nat as -> by lia. apply (same_check _ _ (pt 0 0) (pt 100 300)); [reflexivity|reflexivity|]. vm_compute. reflexivity.
  - apply pieces_whole. intros i Hi (L & _). cbn in L. lia.
Qed.
Example C74_perfect_instance : is_straight (pt 0 0) (pt 50 50) (pt 100 100) = true /\ is_straight (pt 0 0) (pt 50 50) (pt 100 0) = false.
Proof. split; vm_compute; reflexivity. Qed.
Example C74_other_instance : ~ In (lit "l") (map lit ["P"; "L"; "B"; "C"]%string).
Proof. cbn. intros [H|[H|[H|[H|[]]]]]; discriminate H. Qed.
(** Three points: the second pair has the first point before it and a mirrored one after it. *)
Example C74_catmull_instance : let pts := [pt 0 0; pt 100 200; pt 300 0] in
  neighbours pts 1 (pt 0 0) (pt 100 200) (pt 300 0) (vadd (pt 300 0) (vsub (pt 300 0) (pt 100 200))) /\
  Forall (SpecCurves.within 12) [pt 0 0; pt 100 200; pt 300 0; vadd (pt 300 0) (vsub (pt 300 0) (pt 100 200))] /\
  match @new_multicurve PropSafety.zero_libm 0 (lit "C") pts with Ok mc => Nat.eqb (length (mc_lines mc)) 100 | _ => false end = true.
Proof.
  cbv zeta. split; [split; [reflexivity|split; [reflexivity|split; reflexivity]]|]. split; [|vm_compute; reflexivity].
  apply inside_ok. vm_compute. reflexivity.
Qed.
(** Two spans of half a second each: 750 ms in, the slider is half-way back. *)
Example C75_instance : let s := fq 1000 1 in let e := fq 2000 1 in let t := fq 1750 1 in
  time_upto s /\ time_upto e /\ time_upto t /\ (B2R s <= B2R e)%R /\ is_finite (fq 500 1) = true /\ (bpow radix2 (-100) <= B2R (fq 500 1))%R /\
  feq (slider_progress s e (fq 500 1) t) (fq 1 2) = true.
Proof.
  cbv zeta. split; [apply PropRatings.ms_upto; lia|]. split; [apply PropRatings.ms_upto; lia|]. split; [apply PropRatings.ms_upto; lia|].
  destruct (fq1_exact 1000 ltac:(lia)) as (_ & ->). destruct (fq1_exact 2000 ltac:(lia)) as (_ & ->). destruct (fq1_exact 500 ltac:(lia)) as (F & ->).
  split; [lra|]. split; [exact F|]. split; [|vm_compute; reflexivity]. apply Rle_trans with (bpow radix2 0); [apply bpow_le; lia|]. change (bpow radix2 0) with 1%R. lra.
Qed.

Print Assumptions C73_rows.
Print Assumptions C74_linear.
Print Assumptions C74_bezier.
Print Assumptions C74_perfect.
Print Assumptions C74_perfect_many.
Print Assumptions C74_other.
Print Assumptions C74_catmull.
Print Assumptions C74_through.
Print Assumptions C75_progress.

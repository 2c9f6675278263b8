(** Properties C30, C31, C34-C36 and C57: curves. *)
From Coq Require Import Reals Lra ZArith Lia Bool.
From Flocq Require Import Core BinarySingleNaN.
From Verif Require Import GoFloat Curves Objects Parser SpecParser SpecCurves BaseLemmas SortLemmas FloatLemmas Float32Lemmas
  KeyLemmas BoundLemmas BezierProofs CurveProofs CurveBounds CurveStart CurveLookup InertProofs ParserProofs SettingsProofs StringLemmas.
Import ListNotations.
Open Scope Z_scope.

Definition pt (x y : Z) : vec := mkVec (gq x 1) (gq y 1).

Section WithLibm.
Context {M : libm}.

(** A curve from either constructor. *)
Definition made (mc : multicurve) : Prop := exists fuel typ pts,
  new_multicurve fuel typ pts = Ok mc \/ exists len, new_multicurve_t fuel typ pts len = Ok mc.
Lemma made_finish mc : made mc -> exists ls p, mc = finish_curve ls p.
Proof.
  intros (fuel & typ & pts & [H|(len & H)]).
  - apply new_multicurve_built in H as (ls & p & r & _ & _ & ->). eauto.
  - apply new_multicurve_t_built in H as (ls & p & r & _ & _ & ->). eauto.
Qed.

(** C30.  No lookup on a curve indexes out of range, whatever t is. *)
Theorem C30_lookups : forall mc t, made mc ->
  (exists p, mc_point_at mc t = Ok p) /\ (exists l, mc_line_at mc t = Ok l) /\
  (exists a, mc_start_angle_at mc t = Ok a) /\ (exists a, mc_end_angle_at mc t = Ok a).
Proof.
  intros mc t H. apply made_finish in H as (ls & p & ->).
  split; [apply point_at_total|]. split; [apply line_at_total|]. apply angles_total.
Qed.
(** One section more than lines, the first 0, the last the length. *)
Theorem C30_last : forall mc, made mc -> length (mc_sections mc) = S (length (mc_lines mc)) /\
  hd_error (mc_sections mc) = Some g0 /\ last (mc_sections mc) g0 = mc_length mc.
Proof.
  intros mc H. apply made_finish in H as (ls & p & ->). cbn [mc_sections mc_lines mc_length finish_curve].
  split; [cbn [length]; now rewrite section_sums_length|]. split; [reflexivity|]. symmetry. apply section_last.
Qed.
(** Section lengths never decrease when all lines have finite ends ... *)
Definition sections_rise (mc : multicurve) : Prop := forall i j a b, (i <= j)%nat ->
  nth_error (mc_sections mc) i = Some a -> nth_error (mc_sections mc) j = Some b -> gle a b = true.
Theorem C30_sections : forall mc, made mc -> (forall l, In l (mc_lines mc) -> finite_point (ln_p1 l) /\ finite_point (ln_p2 l)) ->
  sections_rise mc.
Proof.
  intros mc H F. apply made_finish in H as (ls & p & ->). intros i j a b. apply sections_sorted; [apply nn_0|].
  apply Forall_forall. intros l Hl. destruct (F l Hl). now apply vfin_nlen.
Qed.
(** ... which they have, for points of magnitude up to 2^100 ... *)
Theorem C30_untrimmed : forall fuel typ pts mc, new_multicurve fuel typ pts = Ok mc -> not_arc typ pts -> Forall (within 100) pts ->
  (forall l, In l (mc_lines mc) -> finite_point (ln_p1 l) /\ finite_point (ln_p2 l)) /\ sections_rise mc.
Proof.
  intros fuel typ pts mc H NA B. pose proof H as H'. apply new_multicurve_built in H as (ls & p & r & E & _ & ->).
  pose proof (curve_lines_bnd 100 fuel typ pts ls ltac:(lia) NA B E) as L.
  assert (F : forall l, In l ls -> finite_point (ln_p1 l) /\ finite_point (ln_p2 l)).
  { intros l Hl. rewrite Forall_forall in L. destruct (L l Hl) as [A C]. split; eapply vbnd_vfin; eassumption. }
  split; [exact F|]. apply C30_sections; [exists fuel, typ, pts; auto|exact F].
Qed.
(** ... and still have after trimming to a desired length of at most 2^40, for
    points up to 2^21, when no line is short without having equal ends. *)
Theorem C30_trimmed : forall fuel typ pts len mc mc', new_multicurve fuel typ pts = Ok mc -> new_multicurve_t fuel typ pts len = Ok mc' ->
  not_arc typ pts -> Forall (within 21) pts -> Forall not_tiny (mc_lines mc) ->
  is_finite len = true -> (Rabs (B2R len) <= bpow radix2 40)%R ->
  (forall l, In l (mc_lines mc') -> finite_point (ln_p1 l) /\ finite_point (ln_p2 l)) /\ sections_rise mc'.
Proof.
  intros fuel typ pts len mc mc' H H' NA B T Fl Bl. pose proof H' as H2.
  apply new_multicurve_built in H as (ls & p & r & E & _ & ->). apply new_multicurve_t_built in H' as (ls' & p' & r' & E' & _ & ->).
  rewrite E in E'. apply Ok_inj in E'. subst ls'. cbn [mc_lines finish_curve] in *.
  pose proof (curve_lines_bnd 21 fuel typ pts ls ltac:(lia) NA B E) as L. change (21 + 9) with 30 in L.
  pose proof (trimmed_bnd ls len (ggt (total_length ls) g0) L T Fl Bl) as L'.
  match goal with |- (forall l, In l ?X -> _) /\ _ => set (lst := X) in * end.
  assert (F : forall l, In l lst -> finite_point (ln_p1 l) /\ finite_point (ln_p2 l)).
  { intros l Hl. rewrite Forall_forall in L'. destruct (L' l Hl) as [A C]. split; eapply vbnd_vfin; eassumption. }
  split; [exact F|]. apply C30_sections; [exists fuel, typ, pts; right; exists len; exact H2|exact F].
Qed.
(** Without the last condition trimming may divide by zero: a desired length
    beyond the end of points whose last two are closer than float32 can
    measure gives a NaN length. *)
Definition linear_mc (pts : list vec) (len : f64) (p : vec) : multicurve :=
  let ls := process_linear pts in
  finish_curve (if ggt (total_length ls) g0 then rev (trim_lines (rev ls) (fsub (f_of_g (total_length ls)) len)) else ls) p.
Lemma linear_curve fuel p r len : new_multicurve_t fuel (lit "L") (p :: r) len = Ok (linear_mc (p :: r) len p).
Proof. reflexivity. Qed.
Definition tiny_end := [pt 0 0; pt 100 0; mkVec (gq 100 1) (gq 1 (10 ^ 30))].
Theorem C30_trimmed_refuted : ~ forall fuel typ pts len mc, Forall (within 21) pts -> not_arc typ pts ->
  is_finite len = true -> (Rabs (B2R len) <= bpow radix2 40)%R -> new_multicurve_t fuel typ pts len = Ok mc -> sections_rise mc.
Proof.
  intros H. set (mc := linear_mc tiny_end (fq 200 1) (pt 0 0)).
  assert (S : sections_rise mc).
  { apply (H 0%nat (lit "L") tiny_end (fq 200 1)).
    - unfold tiny_end. repeat apply Forall_cons; [..|apply Forall_nil]; unfold within, pt; cbn [vx vy].
      all: split; (split; [vm_compute; reflexivity|]).
      all: match goal with |- (Rabs (B2R ?x) <= _)%R => bval x; rewrite V; change (bpow radix2 21) with 2097152%R; apply Rabs_le; lra end.
    - intros Z. discriminate Z.
    - vm_compute. reflexivity.
    - bval (fq 200 1). rewrite V. apply Rabs_le. change (bpow radix2 40) with 1099511627776%R. lra.
    - exact (linear_curve 0 (pt 0 0) _ _). }
  destruct (nth_error (mc_sections mc) 2) as [x|] eqn:E.
  - assert (L := S 2%nat 2%nat x x (Nat.le_refl _) E E).
    assert (N : match nth_error (mc_sections mc) 2 with Some x => gle x x | None => true end = false) by (vm_compute; reflexivity).
    rewrite E in N. congruence.
  - assert (N : match nth_error (mc_sections mc) 2 with Some x => true | None => false end = true) by (vm_compute; reflexivity).
    rewrite E in N. discriminate.
Qed.

(** C57.  A lookup walks the polyline by distance: for a curve of finite
    nonzero length the line used is the one whose sections enclose t times the
    length (t clamped to 0..1), and the point is interpolated on that line by
    the remaining distance. *)
Theorem C57_lookup : forall mc t, made mc -> is_finite (mc_length mc) = true -> geq (mc_length mc) g0 = false -> is_nan t = false ->
  let d := gmul (mc_length mc) (clampF32 t g0 (gq 1 1)) in
  exists i lo hi l, nth_error (mc_sections mc) i = Some lo /\ nth_error (mc_sections mc) (S i) = Some hi /\
    nth_error (mc_lines mc) i = Some l /\ (i = 0%nat \/ glt lo d = true) /\ gle d hi = true /\
    mc_point_at mc t = Ok (if geq (gsub hi lo) g0 then ln_p1 l else vlerp (ln_p1 l) (ln_p2 l) (gdiv (gsub d lo) (gsub hi lo))).
Proof.
  intros mc t H F Z N d. apply made_finish in H as (ls & p & ->). cbn [mc_length finish_curve] in *.
  apply (lookup_line ls p t F N); [|exact Z]. intros ->. vm_compute in Z. discriminate.
Qed.
Theorem C57_empty : forall mc t, made mc -> mc_lines mc = [] \/ geq (mc_length mc) g0 = true -> mc_point_at mc t = Ok (mc_first mc).
Proof. intros mc t _ [H|H]; unfold mc_point_at; [rewrite H; reflexivity|destruct (mc_lines mc); [reflexivity|now rewrite H]]. Qed.
(** The clamped parameter, in real numbers. *)
Theorem C57_clamp : forall t, is_nan t = false -> is_finite (clampF32 t g0 (gq 1 1)) = true /\ (0 <= B2R (clampF32 t g0 (gq 1 1)) <= 1)%R /\
  (glt g0 t = true -> glt t (gq 1 1) = true -> clampF32 t g0 (gq 1 1) = t).
Proof. intros t H. destruct (clamp_range t H) as [F B]. split; [exact F|]. split; [exact B|]. apply clamp_mid. Qed.

(** C31.  Beyond the ends a curve stays at its ends. *)
Theorem C31_clamped : forall mc t,
  (gle t g0 = true -> mc_point_at mc t = mc_point_at mc g0) /\
  (gge t (gq 1 1) = true -> mc_point_at mc t = mc_point_at mc (gq 1 1)).
Proof. intros mc t. split; intros H; apply point_clamped; [now apply clamp_low|now apply clamp_high]. Qed.
(** It starts at the first control point (== as Go compares points). *)
Theorem C31_start : forall fuel typ p pts len mc, new_multicurve_t fuel typ (p :: pts) len = Ok mc -> not_arc typ (p :: pts) -> finite_point p ->
  is_finite (mc_length mc) = true -> exists q, mc_point_at mc g0 = Ok q /\ vec_eqb q p = true.
Proof. exact point_at_start. Qed.
(** A slider waits at its head position before it starts and at its tail after it ends. *)
Theorem C31_slider : forall p start en sd t,
  (flt t start = true -> slider_position_at p start en sd t = slider_position_at p start en sd start) /\
  (fisnan start = false -> flt en t = true -> slider_position_at p start en sd t = slider_position_at p start en sd en).
Proof. intros. split; [apply slider_before|apply slider_after]. Qed.

(** C34.  What CreateBezier returns starts and ends at the outer control
    points, and ApproximateBezier's segments are connected and run from the
    first control point to the last. *)
Theorem C34_ends : forall fuel cp out, create_bezier fuel cp = Ok out ->
  exists a z, hd_error cp = Some a /\ hd_error (rev cp) = Some z /\ hd_error out = Some a /\ hd_error (rev out) = Some z /\ (2 <= length out)%nat.
Proof.
  intros fuel cp out E. destruct cp as [|a cp]; [discriminate E|].
  pose proof (create_bezier_result fuel (a :: cp) ltac:(discriminate)) as R. rewrite E in R. destruct R as (o & Fl & ->).
  destruct (flattens_hd (a :: cp) o ltac:(discriminate) Fl) as (x & ->). exists a, (last (a :: cp) vzero).
  split; [reflexivity|]. split.
  - destruct (@exists_last _ (a :: cp) ltac:(discriminate)) as (b & z & ->). rewrite rev_app_distr, last_last. reflexivity.
  - split; [reflexivity|]. rewrite rev_app_distr. split; [reflexivity|]. rewrite app_length. cbn. lia.
Qed.
Theorem C34_connected : forall fuel cp ls, approximate_bezier fuel cp = Ok ls -> connected ls /\
  exists a z l r, hd_error cp = Some a /\ hd_error (rev cp) = Some z /\ hd_error ls = Some l /\ ln_p1 l = a /\ hd_error (rev ls) = Some r /\ ln_p2 r = z.
Proof.
  intros fuel cp ls. unfold approximate_bezier. destruct (create_bezier fuel cp) as [out| |] eqn:E; cbn [bind]; try discriminate.
  destruct (C34_ends fuel cp out E) as (a & z & Ha & Hz & Oa & Oz & L).
  destruct out as [|b out]; [discriminate|]. intros H. apply Ok_inj in H. subst ls. split; [apply pairs_connected|].
  cbn in Oa. injection Oa as ->. destruct (@exists_last _ out) as (o & y & ->); [destruct out; [cbn in L; lia|discriminate]|].
  assert (y = z) as ->. { change (a :: o ++ [y]) with ((a :: o) ++ [y]) in Oz. rewrite rev_app_distr in Oz. cbn in Oz. now injection Oz. }
  destruct (pairs_snoc a o z) as (ls & Els).
  exists a, z. destruct (o ++ [z]) as [|q s] eqn:Eo; [destruct o; discriminate|].
  exists (mkLinear a q). eexists. split; [exact Ha|]. split; [exact Hz|]. split; [reflexivity|]. split; [reflexivity|].
  rewrite Els, rev_app_distr. cbn [rev app hd_error]. split; reflexivity.
Qed.

(** C35.  The buffer-recycling loop computes the recursive subdivision: what
    it returns is the recursive result, and when there is one it returns it. *)
Theorem C35_sound : forall fuel cp, cp <> [] ->
  match create_bezier fuel cp with
  | Ok out => exists o, flattens cp o /\ out = o ++ [last cp vzero]
  | Panic => False
  | Hang => True
  end.
Proof. exact create_bezier_result. Qed.
Theorem C35_complete : forall cp o, cp <> [] -> flattens cp o ->
  exists fuel0, forall fuel, (fuel0 <= fuel)%nat -> create_bezier fuel cp = Ok (o ++ [last cp vzero]).
Proof. exact create_bezier_complete. Qed.
(** The recursive result is unique. *)
Theorem C35_unique : forall cp o o', flattens cp o -> flattens cp o' -> o = o'.
Proof.
  intros cp o o' H. revert o'. induction H as [p Fp|p l r Bp Hl IHl Hr IHr]; intros o' H'; inversion H'; subst; try contradiction; [reflexivity|].
  f_equal; auto.
Qed.

(** C36.  Control points on which halving changes nothing: never flat enough,
    the left half is the whole. *)
Definition stuck : list vec := [pt 8388609 0; pt 8388610 0; pt 8388610 0].
Lemma vec_B2SF (a b : vec) : B2SF (vx a) = B2SF (vx b) -> B2SF (vy a) = B2SF (vy b) -> a = b.
Proof. destruct a, b. cbn. intros H1 H2. apply B2SF_eq in H1, H2. congruence. Qed.
Lemma stuck_left : left_half stuck = stuck.
Proof.
  unfold left_half, stuck. cbn [length triangle map row hd].
  refine (f_equal2 cons _ (f_equal2 cons _ (f_equal2 cons _ eq_refl))); apply vec_B2SF; vm_compute; reflexivity.
Qed.
Lemma stuck_bent : ~ flat_enough stuck.
Proof. intros H. apply (H 0%nat (pt 8388609 0) (pt 8388610 0) (pt 8388610 0) eq_refl eq_refl eq_refl). vm_compute. reflexivity. Qed.
Lemma no_flattening p : left_half p = p -> ~ flat_enough p -> forall o, ~ flattens p o.
Proof. intros L N o H. induction H as [p Fp|p l r Bp Hl IHl Hr IHr]; [contradiction|]. rewrite L in IHl. now apply IHl. Qed.
Theorem C36_diverges : Forall finite_point stuck /\ forall fuel, create_bezier fuel stuck = Hang.
Proof.
  split; [repeat constructor; vm_compute; reflexivity|]. intros fuel. pose proof (create_bezier_result fuel stuck ltac:(discriminate)) as R.
  destruct (create_bezier fuel stuck); [|contradiction|reflexivity]. destruct R as (o & F & _). exfalso.
  eapply no_flattening; [exact stuck_left|exact stuck_bent|exact F].
Qed.

(** So a slider through these points makes the whole file hang, wherever it
    stands in the HitObjects section and whatever follows. *)
Definition stuck_line : str := lit "8388609,0,1000,2,0,B|8388610:0|8388610:0,1,100".
Lemma slider_hang fuel data o d5 d6 d7 typ l pts : common_parse KCircle data = Ok o ->
  idx data 7 = Ok d7 -> idx data 6 = Ok d6 -> idx data 5 = Ok d5 -> split "|" d5 = typ :: l -> mapM slider_point l = Ok pts ->
  new_multicurve_t fuel typ (ho_startPos o :: pts) (parse_f64 d7) = Hang -> new_slider fuel data = Hang.
Proof.
  intros E0 E7 E6 E5 ES EM EH. unfold new_slider. rewrite E0. cbn [bind]. rewrite E7. cbn [bind]. rewrite E6. cbn [bind]. rewrite E5. cbn [bind].
  rewrite ES. cbn [idx Z.ltb Z.compare Z.to_nat nth_error bind tl]. rewrite EM. cbn [bind]. rewrite EH. reflexivity.
Qed.
Lemma bezier_three fuel a b c len : vec_eqb a b = false -> create_bezier fuel [a; b; c] = Hang -> new_multicurve_t fuel (lit "B") [a; b; c] len = Hang.
Proof.
  intros N H. unfold new_multicurve_t, new_multicurve, curve_lines.
  change (str_eqb (lit "B") (lit "P")) with false. change (str_eqb (lit "B") (lit "L")) with false. change (str_eqb (lit "B") (lit "B")) with true. cbn iota.
  unfold process_bezier. cbn [length]. cbn [process_bezier_loop Nat.ltb Nat.leb Nat.add andb nth_error length Nat.eqb orb]. rewrite N. cbn iota.
  cbn [slice firstn skipn Nat.sub]. unfold approximate_bezier. rewrite H. reflexivity.
Qed.
Lemma stuck_fields : map trim_space (split "," stuck_line) = map lit ["8388609"; "0"; "1000"; "2"; "0"; "B|8388610:0|8388610:0"; "1"; "100"]%string.
Proof. vm_compute. reflexivity. Qed.
Lemma stuck_split : split "|" (lit "B|8388610:0|8388610:0") = map lit ["B"; "8388610:0"; "8388610:0"]%string.
Proof. vm_compute. reflexivity. Qed.
Lemma stuck_point : slider_point (lit "8388610:0") = Ok (pt 8388610 0).
Proof.
  unfold slider_point. assert (split ":" (lit "8388610:0") = [lit "8388610"; lit "0"]) as -> by (vm_compute; reflexivity).
  change (idx [lit "8388610"; lit "0"] 0) with (Ok (lit "8388610")). change (idx [lit "8388610"; lit "0"] 1) with (Ok (lit "0")). cbn [bind].
  apply (f_equal Ok). apply vec_B2SF; vm_compute; reflexivity.
Qed.
Lemma stuck_slider fuel : new_slider fuel (map trim_space (split "," stuck_line)) = Hang.
Proof.
  rewrite stuck_fields. cbn [map].
  eapply (slider_hang fuel _ _ (lit "B|8388610:0|8388610:0") (lit "1") (lit "100") (lit "B") [lit "8388610:0"; lit "8388610:0"] [pt 8388610 0; pt 8388610 0]).
  - reflexivity.
  - reflexivity.
  - reflexivity.
  - reflexivity.
  - exact stuck_split.
  - cbn [mapM]. rewrite stuck_point. reflexivity.
  - cbn [ho_startPos].
    assert (E1 : mkVec (parse_f32 (lit "8388609")) (parse_f32 (lit "0")) = pt 8388609 0) by (apply vec_B2SF; vm_compute; reflexivity).
    rewrite E1. apply bezier_three; [vm_compute; reflexivity|apply C36_diverges].
Qed.
Theorem C36_file : forall fuel pre rest, in_section pre (lit "HitObjects") -> parse_lines fuel pre <> Panic ->
  parse_lines fuel (pre ++ stuck_line :: rest) = Hang.
Proof.
  intros fuel pre rest S NP. unfold parse_lines in *. rewrite foldM_app.
  destruct (foldM (parse_line fuel) pstate0 pre) as [st| |] eqn:E; cbn [bind] in *; [|contradiction|reflexivity].
  pose proof (st_section_in fuel pre _ st S E) as SE. cbn [foldM].
  assert (H : parse_line fuel st stuck_line = Hang); [|rewrite H; reflexivity].
  unfold parse_line. assert (get_section stuck_line = []) as -> by (vm_compute; reflexivity).
  assert (version_line stuck_line st = st) as ->.
  { unfold version_line. assert (has_prefix stuck_line (lit "osu file format v") = false) as -> by (vm_compute; reflexivity). reflexivity. }
  unfold section_line. destruct st as [sec fv me ge di ev ti obs]. cbn [st_section] in SE. subst sec.
  change (str_eqb (lit "HitObjects") (lit "General")) with false. change (str_eqb (lit "HitObjects") (lit "Metadata")) with false.
  change (str_eqb (lit "HitObjects") (lit "Difficulty")) with false. change (str_eqb (lit "HitObjects") (lit "Events")) with false.
  change (str_eqb (lit "HitObjects") (lit "TimingPoints")) with false. change (str_eqb (lit "HitObjects") (lit "HitObjects")) with true. cbn iota.
  unfold tokenize. assert (has_prefix stuck_line (lit "//") || negb (contains stuck_line ",") = false) as -> by (vm_compute; reflexivity).
  unfold parse_hit_object. pose proof (stuck_slider fuel) as SS. pose proof stuck_fields as SF. set (arr := map trim_space (split "," stuck_line)) in *.
  assert (I3 : idx arr 3 = Ok (lit "2")) by (rewrite SF; reflexivity). assert (I2 : idx arr 2 = Ok (lit "1000")) by (rewrite SF; reflexivity).
  unfold create_object. rewrite I3. cbn [bind]. assert (atoi (lit "2") = 2) as -> by (vm_compute; reflexivity).
  change (has_type 2 CIRCLE) with false. change (has_type 2 SPINNER) with false. change (has_type 2 SLIDER) with true. cbn iota. rewrite I2. cbn [bind].
  rewrite SS. reflexivity.
Qed.
End WithLibm.

(** ** Instances *)
(** a right angle of 100 and 64 pixels, trimmed to 128 *)
Definition corner := [pt 0 0; pt 100 0; pt 100 64].
Definition no_libm : libm := {| mpow _ _ := f0; mlog10 _ := f0; mcbrt _ := f0; msin _ := f0; mcos _ := f0; macos _ := f0; matan2 _ _ := f0 |}.
Example C30_instance : let mc := @linear_mc corner (fq 128 1) (pt 0 0) in
  @made no_libm mc /\ Forall (within 21) corner /\ @not_arc (lit "L") corner /\ Forall not_tiny (process_linear corner) /\
  length (mc_lines mc) = 2%nat /\ geq (mc_length mc) (gq 128 1) = true /\
  (is_finite (mc_length mc) = true /\ geq (mc_length mc) g0 = false).
Proof.
  cbv zeta. split; [exists 0%nat, (lit "L"), corner; right; exists (fq 128 1); reflexivity|]. split.
  { unfold corner. repeat apply Forall_cons; [..|apply Forall_nil]; unfold within, pt; cbn [vx vy].
    all: split; (split; [vm_compute; reflexivity|]).
    all: match goal with |- (Rabs (B2R ?x) <= _)%R => bval x; rewrite V; change (bpow radix2 21) with 2097152%R; apply Rabs_le; lra end. }
  split; [intros Z; discriminate Z|]. split; [|repeat split; vm_compute; reflexivity].
  assert (E : process_linear corner = [mkLinear (pt 0 0) (pt 100 0); mkLinear (pt 100 0) (pt 100 64)]).
  { unfold corner. cbn [process_linear]. assert (vec_eqb (pt 0 0) (pt 100 0) = false) as -> by (vm_compute; reflexivity).
    assert (vec_eqb (pt 100 0) (pt 100 64) = false) as -> by (vm_compute; reflexivity). reflexivity. }
  rewrite E. repeat apply Forall_cons; [..|apply Forall_nil]; right; vm_compute; reflexivity.
Qed.
(** half of 128 is on the first line at 64; 112 of 128 is on the second *)
Definition point_is (r : res vec) (x y : Z) : bool :=
  match r with Ok p => geq (vx p) (gq x 1) && geq (vy p) (gq y 1) | _ => false end.
Example C57_instance : let mc := linear_mc corner (fq 128 1) (pt 0 0) in
  point_is (mc_point_at mc (gq 1 2)) 64 0 = true /\ point_is (mc_point_at mc (gq 1 1)) 100 28 = true /\
  point_is (mc_point_at mc (gq 7 8)) 100 12 = true.
Proof. repeat split; vm_compute; reflexivity. Qed.
(** C31: before and after the ends, infinities included *)
Example C31_instance : let mc := linear_mc corner (fq 128 1) (pt 0 0) in
  point_is (mc_point_at mc (gq (-3) 1)) 0 0 = true /\ point_is (mc_point_at mc (B754_infinity true)) 0 0 = true /\
  point_is (mc_point_at mc (B754_infinity false)) 100 28 = true /\ finite_point (pt 0 0) /\
  let sd := mkSlider mc None (fq 128 1) 2 [] (fq 500 1) in
  point_is (slider_position_at (pt 0 0) (fq 1000 1) (fq 2000 1) sd (fq 900 1)) 0 0 = true /\
  point_is (slider_position_at (pt 0 0) (fq 1000 1) (fq 2000 1) sd (fq 1500 1)) 100 28 = true /\
  point_is (slider_position_at (pt 0 0) (fq 1000 1) (fq 2000 1) sd (fq 2100 1)) 0 0 = true.
Proof. repeat split; vm_compute; reflexivity. Qed.
(** C34, C35: a parabola that is subdivided before it is flat enough *)
Definition parabola := [pt 0 0; pt 50 100; pt 100 0].
Example C34_instance : match create_bezier 63 parabola with Ok o => Nat.eqb (length o) 65 | _ => false end = true.
Proof. vm_compute. reflexivity. Qed.
Example C35_instance : ~ flat_enough parabola /\ exists o, flattens parabola o.
Proof.
  split.
  - intros H. apply (H 0%nat (pt 0 0) (pt 50 100) (pt 100 0) eq_refl eq_refl eq_refl). vm_compute. reflexivity.
  - pose proof C34_instance as E. pose proof (C35_sound 63 parabola ltac:(discriminate)) as R.
    destruct (create_bezier 63 parabola); [destruct R as (o & H & _); eauto|contradiction|discriminate E].
Qed.
(** C36: a file prefix that parses *)
Definition hang_prefix := map lit ["osu file format v14"; "[HitObjects]"; "100,100,500,1,0"]%string.
Example C36_instance : in_section hang_prefix (lit "HitObjects") /\ @parse_lines no_libm 5 hang_prefix <> Panic.
Proof.
  split.
  - left. exists [lit "osu file format v14"], (lit "[HitObjects]"), [lit "100,100,500,1,0"]. split; [reflexivity|]. split.
    + apply header_iff. split; [discriminate|]. vm_compute. reflexivity.
    + constructor; [|constructor]. intros n H. apply header_iff in H as [N E]. vm_compute in E. congruence.
  - assert (E : match @parse_lines no_libm 5 hang_prefix with Panic => false | _ => true end = true) by (vm_compute; reflexivity).
    intros H. rewrite H in E. discriminate.
Qed.

Print Assumptions C30_lookups.
Print Assumptions C30_last.
Print Assumptions C30_sections.
Print Assumptions C30_untrimmed.
Print Assumptions C30_trimmed.
Print Assumptions C30_trimmed_refuted.
Print Assumptions C57_lookup.
Print Assumptions C57_empty.
Print Assumptions C57_clamp.
Print Assumptions C31_clamped.
Print Assumptions C31_start.
Print Assumptions C31_slider.
Print Assumptions C34_ends.
Print Assumptions C34_connected.
Print Assumptions C35_sound.
Print Assumptions C35_complete.
Print Assumptions C35_unique.
Print Assumptions C36_diverges.
Print Assumptions C36_file.

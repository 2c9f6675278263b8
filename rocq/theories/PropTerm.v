(** C62 and C63: curve flattening and the whole parser return. *)
From Coq Require Import Reals Lra.
From Flocq Require Import Core BinarySingleNaN.
From Verif Require Import Parser SpecParser SpecSafety SpecTerm SpecCurves BaseLemmas FloatLemmas Float32Lemmas StringLemmas ParserProofs ObjectProofs
  FuelProofs BezierProofs CurveTerm ArcProofs TermProofs PropParser PropCurves PropSafety.
Open Scope Z_scope.

Section WithLibm.
Context {M : libm}.

(** C62.  Flattening a Bezier curve ends: control points of magnitude at most
    2^k, fewer than 2^(22-k) of them, are subdivided finitely often, and the
    points come out in the order of the recursive subdivision.  (C36 shows three
    points near 2^23 that are subdivided forever.) *)
Theorem C62_bezier : forall cp, cp <> [] -> small_curve cp ->
  exists o, flattens cp o /\ settles_on (fun fuel => create_bezier fuel cp) (o ++ [last cp vzero]).
Proof.
  intros cp NE S. destruct (small_flattens cp S) as (o & H). exists o. split; [exact H|]. exact (create_bezier_complete cp o NE H).
Qed.
(** Hence building a slider's curve ends, whatever its type and the length asked for. *)
Theorem C62_curve : forall typ pts len, atan2_range -> pts <> [] -> (uses_bezier typ pts -> small_curve pts) -> tame_arc typ pts ->
  exists mc, settles_on (fun fuel => new_multicurve_t fuel typ pts len) mc.
Proof.
  intros typ pts len HA NE HB HC. destruct (curve_settles typ pts len NE HB) as (n & mc & E); [|exists mc, n; exact E].
  unfold arc_settles. destruct pts as [|a [|b [|c [|]]]]; auto. intros T S.
  destruct (arc_returns 0 a b c HA (HC a b c T eq_refl S)) as (ls & EL). apply (settles_up _ 1%nat ls); [|exact EL].
  intros n m L. now apply approximate_arc_up.
Qed.

(** C63.  Parsing returns: a file whose rows are well formed, whose sliders
    have moderate curves and whose slider multiplier and tick rate are
    moderate is parsed in finitely many steps without a panic, and all
    sufficient step budgets give the same outcome. *)
Theorem C63_lines : forall ls, atan2_range -> rows_ok ls -> sliders_tame ls -> rates_ok ls ->
  exists r, settles_on (fun fuel => parse_lines fuel ls) r.
Proof. intros ls HA HR HT HD. destruct (parse_returns ls HA HR HT HD) as (n & r & E). exists r, n. exact E. Qed.
Theorem C63_bytes : forall text, atan2_range -> let ls := scan_lines 10485760 [] 0 (decode_text text) in
  rows_ok ls -> sliders_tame ls -> rates_ok ls -> exists r, settles_on (fun fuel => parse_bytes fuel text) r.
Proof. intros text HA ls HR HT HD. exact (C63_lines ls HA HR HT HD). Qed.
End WithLibm.

(** ** Concrete cases *)
Definition arch : list vec := [mkVec (gq 0 1) (gq 4096 1); mkVec (gq 2048 1) (gq (-4096) 1); mkVec (gq 4096 1) (gq 4096 1)].
Definition inside (k : Z) (p : vec) : bool :=
  gle (gq (- 2 ^ k) 1) (vx p) && gle (vx p) (gq (2 ^ k) 1) && gle (gq (- 2 ^ k) 1) (vy p) && gle (vy p) (gq (2 ^ k) 1).
Lemma inside_ok pts : forallb (inside 12) pts = true -> Forall (within 12) pts.
Proof.
  intros H. apply Forall_forall. intros p I. rewrite forallb_forall in H. specialize (H p I). unfold inside in H.
  apply andb_true_iff in H as [H H4]. apply andb_true_iff in H as [H H3]. apply andb_true_iff in H as [H1 H2].
  assert (G : forall x, gle (gq (- 2 ^ 12) 1) x = true -> gle x (gq (2 ^ 12) 1) = true -> is_finite x = true /\ (Rabs (B2R x) <= bpow radix2 12)%R).
  { intros x A B. apply gle_iff in A as (_ & N & A). apply gle_iff in B as (_ & _ & B).
    assert (F1 : fin (gq (- 2 ^ 12) 1)) by (vm_compute; reflexivity). assert (F2 : fin (gq (2 ^ 12) 1)) by (vm_compute; reflexivity).
    rewrite (key_fin 24 128 _ F1) in A. rewrite (key_fin 24 128 _ F2) in B.
    assert (V1 : B2R (gq (- 2 ^ 12) 1) = (-4096)%R) by (exact (proj2 (gq1_exact (- 2 ^ 12) ltac:(lia)))). assert (V2 : B2R (gq (2 ^ 12) 1) = 4096%R) by (exact (proj2 (gq1_exact (2 ^ 12) ltac:(lia)))).
    assert (F : fin x). { apply (fin_of_key 24 128); [exact N|]. assert (bpow radix2 13 < bpow radix2 128)%R by (apply bpow_lt; lia). change (bpow radix2 13) with 8192%R in H. lra. }
    split; [exact F|]. rewrite (key_fin 24 128 _ F) in A, B. change (bpow radix2 12) with 4096%R. apply Rabs_le. lra. }
  split; apply G; assumption.
Qed.
Lemma small_ok pts : forallb (inside 12) pts = true -> (length pts <= 1016)%nat -> small_curve pts.
Proof. intros H L. exists 12. split; [lia|]. split; [now apply inside_ok|]. change (2 ^ 22) with (1024 * 2 ^ 12). nia. Qed.
Example C62_instance : small_curve arch /\ (forall M : libm, match create_bezier 20 arch, create_bezier 600 arch with Hang, Ok l => Nat.ltb 100 (length l) | _, _ => false end = true).
Proof. split; [apply small_ok; [vm_compute; reflexivity|cbn; lia]|]. intros M. vm_compute. reflexivity. Qed.
Example C62_instance_curve : @atan2_range zero_libm /\ (uses_bezier (lit "B") arch -> small_curve arch) /\ tame_arc (lit "P") [mkVec (gq 200 1) (gq 100 1); mkVec (gq 250 1) (gq 150 1); mkVec (gq 300 1) (gq 100 1)].
Proof.
  split; [apply C23_instance|]. split; [intros _; apply C62_instance|]. intros a b c _ E _. injection E as <- <- <-. vm_compute. reflexivity.
Qed.

(** a file with a slider of every type *)
Definition curvy_map : list str := map lit [
  "[Metadata]"; "Title:A"; "[Events]"; "0,0,bg.jpg"; "[Difficulty]"; "SliderMultiplier:1.4"; "SliderTickRate:2"; "[TimingPoints]"; "0,300"; "1000,-50";
  "[HitObjects]"; "100,100,0,1,0"; "200,100,500,2,0,P|250:150|300:100,2,140,2|0|2"; "0,0,1000,2,0,B|100:300|100:300|200:0|300:200,1,500"; "0,0,2000,2,0,L|100:0|200:50,1,600";
  "10,10,3000,6,0,C|100:200|300:0,3,250"; "0,0,4000,2,0,P|100:300|200:0|300:200|400:0,1,400"; "256,192,5000,12,0,6000"]%string.
Definition tame_check (fs : list str) : bool :=
  let pts := slider_points fs in
  forallb (inside 12) pts && Nat.leb (length pts) 1016 &&
  match pts with [a; b; c] => gle (vdst a (arc_centre_of a b c)) (g_of_Z 4194304) | _ => true end &&
  negb (flt (parse_f64 (field 7 fs)) (fq 1 16)) &&
  match @row_curve zero_libm 2000 fs with Ok mc => negb (ggt (mc_length mc) (gq (2 ^ 40) 1)) | _ => false end.
Definition is_slider (fs : list str) : bool := match type_of fs with TSlider => true | _ => false end.
Lemma tame_check_ok fs : tame_check fs = true -> @slider_tame zero_libm fs.
Proof.
  unfold tame_check. cbv zeta. intros H. apply andb_true_iff in H as [H H5]. apply andb_true_iff in H as [H H4]. apply andb_true_iff in H as [H H3]. apply andb_true_iff in H as [H1 H2].
  split; [intros _; apply small_ok; [exact H1|now apply Nat.leb_le]|]. split.
  { intros a b c _ E _. rewrite E in H3. exact H3. }
  split; [now apply negb_true_iff|]. intros fuel mc E. unfold row_curve in *.
  destruct (@new_multicurve_t zero_libm 2000 _ _ _) as [mc'| |] eqn:E2; try discriminate H5. apply negb_true_iff in H5.
  enough (mc = mc') by congruence. set (n := Nat.max fuel 2000).
  destruct (@new_multicurve_t_up zero_libm fuel n ltac:(lia) (row_type fs) (slider_points fs) (parse_f64 (field 7 fs))) as [U|U]; [rewrite E in U; discriminate U|].
  destruct (@new_multicurve_t_up zero_libm 2000 n ltac:(lia) (row_type fs) (slider_points fs) (parse_f64 (field 7 fs))) as [V|V]; [rewrite E2 in V; discriminate V|].
  rewrite E in U. rewrite E2 in V. rewrite <- U in V. now apply CurveStart.Ok_inj in V.
Qed.
Example C63_instance : @atan2_range zero_libm /\ rows_ok curvy_map /\ @sliders_tame zero_libm curvy_map /\ rates_ok curvy_map /\
  view (fun b => map (fun o => match ho_kind o with KSlider sd => zlen (sl_ticks sd) | _ => -1 end) (bm_HitObjects b)) (@parse_lines zero_libm 1000 curvy_map) = Some (Some [-1; 2; 4; 5; 6; 3; -1]).
Proof.
  split; [apply C23_instance|]. split.
  { split; intros r H; apply section_rows_iff in H; subst r; set (l := rows_of _); vm_compute in l; subst l.
    - repeat (apply Forall_cons; [unfold event_ok; intros _; cbn [length]; lia|]). constructor.
    - assert (SO : forall fs, Nat.leb 8 (length fs) && forallb (fun p => contains p ":"%char) (tl (bars (field 5 fs))) && (0 <=? parse_int (field 6 fs) + 1) && (parse_int (field 6 fs) + 1 <=? 2 ^ 45) &&
        (negb (Nat.leb 9 (length fs)) || (zlen (bars (field 8 fs)) <=? parse_int (field 6 fs) + 1)) = true -> slider_ok fs).
      { intros fs H. apply andb_true_iff in H as [H H5]. apply andb_true_iff in H as [H H4]. apply andb_true_iff in H as [H H3]. apply andb_true_iff in H as [H1 H2].
        split; [now apply Nat.leb_le|]. split. { apply Forall_forall. intros p I. rewrite forallb_forall in H2. now apply contains_iff, H2. }
        split; [split; now apply Z.leb_le|]. intros L. apply Nat.leb_le in L. rewrite L in H5. now apply Z.leb_le. }
      repeat apply Forall_cons; [| | | | | | |constructor]; unfold object_ok.
      + change (type_of _) with TCircle. cbn. lia.
      + change (type_of _) with TSlider. apply SO. vm_compute. reflexivity.
      + change (type_of _) with TSlider. apply SO. vm_compute. reflexivity.
      + change (type_of _) with TSlider. apply SO. vm_compute. reflexivity.
      + change (type_of _) with TSlider. apply SO. vm_compute. reflexivity.
      + change (type_of _) with TSlider. apply SO. vm_compute. reflexivity.
      + change (type_of _) with TSpinner. cbn. lia. }
  split.
  { intros r fs HR I T. apply section_rows_iff in HR. subst r. apply tame_check_ok.
    assert (A : forallb (fun fs => negb (is_slider fs) || tame_check fs) (rows_of (body "HitObjects" (annotate [] curvy_map))) = true) by (vm_compute; reflexivity).
    rewrite forallb_forall in A. specialize (A fs I). unfold is_slider in A. rewrite T in A. exact A. }
  split; [|vm_compute; reflexivity]. intros ds H. apply settings_iff in H. subst ds. split; split; vm_compute; reflexivity.
Qed.

Print Assumptions C62_bezier.
Print Assumptions C62_curve.
Print Assumptions C63_lines.
Print Assumptions C63_bytes.

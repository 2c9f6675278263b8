(** Panics of the parser, row by row. *)
From Coq Require Import Reals Lra.
From Verif Require Import Parser SpecParser SpecSafety SpecCurves BaseLemmas SortLemmas StringLemmas ParserProofs ObjectProofs FinishProofs InertProofs
  TimingProofs CurveProofs CurveStart BezierProofs ArcProofs.
Open Scope Z_scope.

(** ** Integers in text *)
Lemma parse_digits_range s : forall n, 0 <= n <= max_uint64 -> match parse_digits n s with UVal m => 0 <= m <= max_uint64 | _ => True end.
Proof.
  induction s as [|c s IH]; intros n H; cbn [parse_digits]; [exact H|]. destruct (is_digit c) eqn:D; [|exact I].
  destruct (Z.ltb_spec max_uint64 (n * 10 + digit_val c)); [exact I|]. apply IH. unfold is_digit in D. apply andb_true_iff in D as [D _].
  apply Z.leb_le in D. unfold digit_val in *. lia.
Qed.
Lemma parse_int_range s : in_int64 (parse_int s).
Proof.
  unfold parse_int, in_int64. destruct (match s with [] => _ | _ => _ end) as [neg body].
  assert (U : match parse_uint body with UVal m => 0 <= m <= max_uint64 | _ => True end).
  { unfold parse_uint. destruct body; [exact I|]. apply parse_digits_range. unfold max_uint64. lia. }
  unfold max_uint64, min_int64, max_int64 in *. destruct (parse_uint body) as [| |n]; [lia|destruct neg; lia|].
  destruct neg; [destruct (Z.ltb_spec (2 ^ 63) n)|destruct (Z.leb_spec (2 ^ 63) n)]; lia.
Qed.

(** ** Fields *)
Lemma trims_length fs : zlen (trims fs) = zlen fs.
Proof. unfold zlen, trims. now rewrite map_length. Qed.
Lemma trims_idx fs n : (n < length fs)%nat -> idx (trims fs) (Z.of_nat n) = Ok (field n fs).
Proof.
  intros H. destruct (idx_range (trims fs) (Z.of_nat n)) as (x & E & _); [rewrite trims_length; unfold zlen; lia|].
  rewrite E. f_equal. now apply field_idx.
Qed.
Lemma trims_out fs n : (length fs <= n)%nat -> idx (trims fs) (Z.of_nat n) = Panic.
Proof. intros H. apply idx_out. rewrite trims_length. unfold zlen. lia. Qed.
Ltac fld fs n := let E := fresh in assert (E : (n < length fs)%nat) by lia; apply trims_idx in E; cbn [Z.of_nat Pos.of_succ_nat Pos.succ] in E; rewrite E; clear E; cbn [bind].

Ltac lits := repeat match goal with
  | |- context [str_eqb (lit ?a) (lit ?b)] =>
      let r := eval vm_compute in (str_eqb (lit a) (lit b)) in change (str_eqb (lit a) (lit b)) with r
  end; cbn iota.

Section WithLibm.
Context {M : libm}.

(** ** Events *)
Lemma event_panic e fs : (2 <= length fs)%nat -> (ev_step e fs = Panic <-> ~ event_ok fs).
Proof.
  intros L. unfold ev_step, parse_events, event_ok.
  fld fs 0%nat.
  assert (IN : In (field 0 fs) [lit "Background"; lit "0"; lit "Break"; lit "2"] <->
    (str_eqb (field 0 fs) (lit "Background") || str_eqb (field 0 fs) (lit "0")) || (str_eqb (field 0 fs) (lit "Break") || str_eqb (field 0 fs) (lit "2")) = true).
  { rewrite !orb_true_iff, !str_eqb_eq. cbn [In]. intuition. }
  rewrite IN. clear IN. destruct (le_lt_dec 3 (length fs)) as [G|G].
  - destruct (str_eqb _ _ || str_eqb _ _); [fld fs 2%nat; split; [discriminate|tauto]|].
    destruct (str_eqb _ _ || str_eqb _ _); [unfold new_pause; fld fs 1%nat; fld fs 2%nat|]; split; try discriminate; tauto.
  - destruct (str_eqb _ _ || str_eqb _ _); [change 2 with (Z.of_nat 2); rewrite (trims_out fs 2) by lia; cbn [bind orb]; split; [intros _ H; specialize (H eq_refl); lia|reflexivity]|].
    destruct (str_eqb _ _ || str_eqb _ _); cbn [orb].
    + unfold new_pause. fld fs 1%nat. change 2 with (Z.of_nat 2). rewrite (trims_out fs 2) by lia. cbn [bind]. split; [intros _ H; specialize (H eq_refl); lia|reflexivity].
    + split; [discriminate|]. intros H. exfalso. apply H. discriminate.
Qed.
Lemma event_ok_of e fs e' : (2 <= length fs)%nat -> ev_step e fs = Ok e' -> event_ok fs.
Proof.
  intros L H. unfold event_ok. intros HI. destruct (le_lt_dec 3 (length fs)) as [G|G]; [exact G|]. exfalso.
  assert (X : ev_step e fs = Panic); [|congruence]. apply event_panic; [exact L|]. intros K. specialize (K HI). lia.
Qed.

(** ** Sliders *)
Lemma colon_point p : slider_point p = Panic <-> ~ In ":"%char p.
Proof.
  unfold slider_point. split.
  - intros H I. pose proof (split_2 ":" p I) as L. destruct (split ":" p) as [|x [|y r]]; cbn [length] in L; try lia. discriminate H.
  - intros N. rewrite (split_single ":" p N). reflexivity.
Qed.
Lemma colon_point_ok p : In ":"%char p -> slider_point p = Ok (control_point p).
Proof.
  intros I. unfold slider_point, control_point. pose proof (split_2 ":" p I) as L.
  destruct (split ":" p) as [|x [|y r]]; cbn [length] in L; try lia. reflexivity.
Qed.
Lemma slider_point_no_hang p : slider_point p <> Hang.
Proof. unfold slider_point. destruct (split ":" p) as [|x [|y r]]; discriminate. Qed.
Lemma slider_points_ok l : Forall (fun p => In ":"%char p) l -> mapM slider_point l = Ok (map control_point l).
Proof. induction 1 as [|p l H F IH]; [reflexivity|]. cbn [mapM map]. rewrite (colon_point_ok p H), IH. reflexivity. Qed.
Lemma slider_points_of l r : mapM slider_point l = Ok r -> Forall (fun p => In ":"%char p) l.
Proof.
  intros H. apply mapM_ok in H. induction H as [|p v l l' H _ IH]; constructor; auto.
  destruct (in_dec Ascii.ascii_dec ":"%char p) as [I|N]; [exact I|]. apply colon_point in N. congruence.
Qed.
Lemma slider_points_panic l : ~ Forall (fun p => In ":"%char p) l -> mapM slider_point l = Panic.
Proof.
  induction l as [|p l IH]; intros H; [exfalso; apply H; constructor|]. cbn [mapM].
  destruct (in_dec Ascii.ascii_dec ":"%char p) as [I|N].
  - rewrite (colon_point_ok p I). cbn [bind]. rewrite IH; [reflexivity|]. intros F. apply H. now constructor.
  - apply colon_point in N. now rewrite N.
Qed.
(** edge sounds: one slot per entry *)
Lemma edge_sounds_ok subs : forall i l, 0 <= i -> (i + zlen subs <= zlen l -> exists r, edge_sounds i l subs = Ok r) /\
  (zlen l < i + zlen subs -> i <= zlen l -> edge_sounds i l subs = Panic).
Proof.
  induction subs as [|v subs IH]; intros i l Hi; cbn [edge_sounds].
  - split; [eauto|]. unfold zlen. cbn [length]. lia.
  - unfold set_idx. rewrite (proj2 (Z.ltb_ge i 0)) by lia. cbn [orb]. change (Z.of_nat (length l)) with (zlen l).
    assert (LS : zlen (v :: subs) = zlen subs + 1) by (unfold zlen; cbn [length]; lia).
    assert (LU : zlen (upd l (Z.to_nat i) (atoi v)) = zlen l) by (unfold zlen; now rewrite upd_length).
    destruct (IH (i + 1) (upd l (Z.to_nat i) (atoi v)) ltac:(lia)) as [A B]. rewrite LU in A, B.
    assert (NS : 0 <= zlen subs) by (unfold zlen; lia).
    destruct (Z.leb_spec (zlen l) i) as [G|G]; cbn [bind]; split; intros; try lia; [reflexivity|apply A|apply B]; lia.
Qed.

(** ** Curves *)
Lemma bezier_no_panic fuel k pts : forall i la, (la <= i)%nat -> process_bezier_loop fuel k pts i la <> Panic.
Proof.
  induction k as [|k IH]; intros i la L; [discriminate|]. cbn [process_bezier_loop].
  destruct (Nat.ltb_spec i (length pts)) as [Hi|Hi]; [|discriminate].
  destruct (_ || _); [|apply IH; lia].
  assert (NE : slice pts la (S i) <> []).
  { unfold slice. intros E. apply (f_equal (@length _)) in E. rewrite firstn_length, skipn_length in E. cbn [length] in E. lia. }
  assert (NP : match slice pts la (S i) with [a; b] => Ok [mkLinear a b] | _ => approximate_bezier fuel (slice pts la (S i)) end <> Panic).
  { assert (A : approximate_bezier fuel (slice pts la (S i)) <> Panic).
    { unfold approximate_bezier. pose proof (create_bezier_result fuel _ NE) as R. destruct (create_bezier fuel (slice pts la (S i))) as [out| |]; cbn [bind]; [|contradiction|discriminate].
      destruct R as (o & _ & ->). destruct (o ++ _) eqn:E; [|discriminate]. destruct o; discriminate E. }
    destruct (slice pts la (S i)) as [|a [|b [|]]]; try exact A. discriminate. }
  cbv zeta. destruct (match slice pts la (S i) with [a; b] => _ | _ => _ end) as [ls| |]; cbn [bind]; [|congruence|discriminate].
  match goal with |- context [process_bezier_loop fuel k pts ?a ?b] => pose proof (IH a b ltac:(lia)) as IH'; destruct (process_bezier_loop fuel k pts a b) end;
    cbn [bind]; congruence.
Qed.
Lemma curve_no_panic fuel typ pts len : (forall a b c, typ = lit "P" -> pts = [a; b; c] -> is_straight a b c = false -> approximate_arc fuel a b c (gq 1 8) <> Panic) ->
  pts <> [] -> new_multicurve_t fuel typ pts len <> Panic.
Proof.
  intros HA NE. unfold new_multicurve_t, new_multicurve.
  assert (C : curve_lines fuel typ pts <> Panic).
  { unfold curve_lines. destruct (str_eqb typ (lit "P")) eqn:EP.
    - apply str_eqb_eq in EP. unfold process_perfect. destruct pts as [|a [|b [|c [|]]]]; try discriminate; [|apply bezier_no_panic; lia].
      destruct (is_straight a b c) eqn:ES; [discriminate|]. now apply HA.
    - destruct (str_eqb typ (lit "L")); [discriminate|]. destruct (str_eqb typ (lit "B")); [apply bezier_no_panic; lia|].
      destruct (str_eqb typ (lit "C")); discriminate. }
  destruct (curve_lines fuel typ pts); cbn [bind]; [|congruence|discriminate]. destruct pts; [congruence|]. discriminate.
Qed.

(** ** Hit object rows *)
Lemma common_ok k fs : (5 <= length fs)%nat -> exists o s, common_parse k (trims fs) = Ok o /\ ho_sounds o = [s] /\
  ho_startPos o = mkVec (parse_f32 (field 0 fs)) (parse_f32 (field 1 fs)).
Proof.
  intros L. unfold common_parse. fld fs 0%nat. fld fs 1%nat. fld fs 2%nat. fld fs 3%nat. fld fs 4%nat. eexists. eexists. split; [reflexivity|]. split; reflexivity.
Qed.
Lemma common_short k fs : (length fs < 5)%nat -> common_parse k (trims fs) = Panic.
Proof.
  intros L. unfold common_parse.
  assert (G : forall n, (n < length fs)%nat \/ idx (trims fs) (Z.of_nat n) = Panic) by (intros n; destruct (le_lt_dec (length fs) n); [right; now apply trims_out|now left]).
  destruct (G 0%nat) as [G0|G0]; cbn [Z.of_nat Pos.of_succ_nat Pos.succ] in G0; [fld fs 0%nat|now rewrite G0].
  destruct (G 1%nat) as [G1|G1]; cbn [Z.of_nat Pos.of_succ_nat Pos.succ] in G1; [fld fs 1%nat|now rewrite G1].
  destruct (G 2%nat) as [G2|G2]; cbn [Z.of_nat Pos.of_succ_nat Pos.succ] in G2; [fld fs 2%nat|now rewrite G2].
  destruct (G 3%nat) as [G3|G3]; cbn [Z.of_nat Pos.of_succ_nat Pos.succ] in G3; [fld fs 3%nat|now rewrite G3].
  destruct (G 4%nat) as [G4|G4]; cbn [Z.of_nat Pos.of_succ_nat Pos.succ] in G4; [lia|now rewrite G4].
Qed.
Lemma bars_split fs : split "|" (field 5 fs) = hd [] (bars (field 5 fs)) :: tl (bars (field 5 fs)).
Proof. unfold bars. pose proof (split_nonempty "|" (field 5 fs)). destruct (split "|" (field 5 fs)); [congruence|reflexivity]. Qed.
Lemma wrap_int z : in_int64 z -> wrap64 z = z.
Proof. unfold in_int64, min_int64, max_int64, wrap64. intros H. rewrite Z.mod_small; lia. Qed.
Lemma repeats_make z : in_int64 z -> (make_ok (wrap64 (z + 1)) 8 = true <-> 0 <= z + 1 <= 2 ^ 45).
Proof.
  intros H. unfold make_ok. rewrite andb_true_iff, !Z.leb_le. unfold in_int64, min_int64, max_int64 in H.
  destruct (Z.eq_dec z max_int64) as [->|N].
  - change (wrap64 (max_int64 + 1)) with (- 2 ^ 63). unfold max_int64. lia.
  - rewrite wrap_int by (unfold in_int64, min_int64, max_int64 in *; lia). lia.
Qed.
Definition built_slider (o : hobj) : Prop := forall sd, ho_kind o = KSlider sd -> exists ls p, sl_curve sd = finish_curve ls p.
(** a slider row up to the point where its curve is built *)
Lemma new_slider_eq fuel fs : (8 <= length fs)%nat -> Forall (fun p => In ":"%char p) (tl (bars (field 5 fs))) ->
  exists o s, ho_sounds o = [s] /\
  new_slider fuel (trims fs) =
    let* mc := new_multicurve_t fuel (hd [] (bars (field 5 fs))) (slider_points fs) (parse_f64 (field 7 fs)) in
    let* endPos := mc_point_at mc (gq 1 1) in
    if make_ok (wrap64 (parse_int (field 6 fs) + 1)) 8 then
      let* sounds := (if Nat.ltb 8 (length fs) then edge_sounds 0 (repeat s (Z.to_nat (wrap64 (parse_int (field 6 fs) + 1)))) (bars (field 8 fs))
                      else Ok (repeat s (Z.to_nat (wrap64 (parse_int (field 6 fs) + 1))))) in
      Ok (with_kind (with_sounds (with_end o (ho_start o) endPos) sounds)
            (KSlider {| sl_curve := mc; sl_tpoint := None; sl_pixelLength := parse_f64 (field 7 fs); sl_repeat := parse_int (field 6 fs);
                        sl_ticks := []; sl_span := f0 |}))
    else Panic.
Proof.
  intros L F. destruct (common_ok KCircle fs ltac:(lia)) as (o & s & Eo & Es & Ep). exists o, s. split; [exact Es|].
  assert (E8 : nth_error (trims fs) 8 = if Nat.ltb 8 (length fs) then Some (field 8 fs) else None).
  { unfold trims, field. rewrite nth_error_map. destruct (Nat.ltb_spec 8 (length fs)) as [G|G].
    - destruct (nth_error fs 8) eqn:E; [now rewrite (nth_error_nth _ _ _ E)|]. apply nth_error_None in E. lia.
    - apply nth_error_None in G. now rewrite G. }
  unfold new_slider. rewrite E8. rewrite Eo. cbn [bind]. fld fs 7%nat. fld fs 6%nat. fld fs 5%nat. rewrite bars_split.
  cbn [idx Z.ltb Z.compare Z.to_nat nth_error tl bind]. rewrite (slider_points_ok _ F). cbn [bind].
  unfold slider_points. rewrite Ep, Es. cbn [idx Z.ltb Z.compare Z.to_nat nth_error bind].
  destruct (Nat.ltb 8 (length fs)); reflexivity.
Qed.
Lemma slider_safe fuel fs : slider_ok fs ->
  (forall a b c, hd [] (bars (field 5 fs)) = lit "P" -> slider_points fs = [a; b; c] -> is_straight a b c = false -> approximate_arc fuel a b c (gq 1 8) <> Panic) ->
  new_slider fuel (trims fs) <> Panic.
Proof.
  intros (L & F & R & S) HA. destruct (new_slider_eq fuel fs L F) as (o & s & Es & E). rewrite E. clear E.
  pose proof (curve_no_panic fuel (hd [] (bars (field 5 fs))) (slider_points fs) (parse_f64 (field 7 fs)) HA ltac:(discriminate)) as C.
  destruct (new_multicurve_t _ _ _ _) as [mc| |] eqn:EM; cbn [bind]; [|congruence|discriminate].
  apply new_multicurve_t_built in EM as (ls & p & r & _ & _ & ->). destruct (point_at_total (if ggt (total_length ls) g0 then rev (trim_lines (rev ls) (fsub (f_of_g (total_length ls)) (parse_f64 (field 7 fs)))) else ls) p (gq 1 1)) as (q & ->).
  cbn [bind]. rewrite (proj2 (repeats_make _ (parse_int_range (field 6 fs))) R).
  destruct (Nat.ltb_spec 8 (length fs)) as [G|G]; [|discriminate].
  destruct (edge_sounds_ok (bars (field 8 fs)) 0 (repeat s (Z.to_nat (wrap64 (parse_int (field 6 fs) + 1)))) ltac:(lia)) as [A _].
  destruct A as (x & ->); [|discriminate]. unfold zlen at 2. rewrite repeat_length. rewrite wrap_int by (unfold in_int64, min_int64, max_int64; lia).
  specialize (S ltac:(lia)). lia.
Qed.
Lemma slider_needs fuel fs o : new_slider fuel (trims fs) = Ok o -> slider_ok fs /\ built_slider o.
Proof.
  intros H. assert (L : (8 <= length fs)%nat).
  { destruct (le_lt_dec 8 (length fs)) as [G|G]; [exact G|]. unfold new_slider in H. apply bind_ok in H as (o' & _ & H).
    change 7 with (Z.of_nat 7) in H. rewrite trims_out in H by lia. discriminate H. }
  assert (F : Forall (fun p => In ":"%char p) (tl (bars (field 5 fs)))).
  { unfold new_slider in H. apply bind_ok in H as (o' & _ & H). apply bind_ok in H as (d7 & _ & H). apply bind_ok in H as (d6 & _ & H).
    apply bind_ok in H as (d5 & E5 & H). apply (field_idx fs 5) in E5. subst d5. apply bind_ok in H as (typ & _ & H). apply bind_ok in H as (pts & EM & H).
    now apply slider_points_of in EM. }
  destruct (new_slider_eq fuel fs L F) as (o' & s & Es & E). rewrite E in H. clear E.
  apply bind_ok in H as (mc & EM & H). apply bind_ok in H as (ep & _ & H). destruct (make_ok _ 8) eqn:R; [|discriminate H].
  apply (repeats_make _ (parse_int_range (field 6 fs))) in R. apply bind_ok in H as (snd & ES & H). split.
  - split; [exact L|]. split; [exact F|]. split; [exact R|]. intros G. rewrite (proj2 (Nat.ltb_lt 8 (length fs))) in ES by lia.
    destruct (edge_sounds_ok (bars (field 8 fs)) 0 (repeat s (Z.to_nat (wrap64 (parse_int (field 6 fs) + 1)))) ltac:(lia)) as [_ B].
    apply Z.nlt_ge. intros K. rewrite B in ES; [discriminate ES| |unfold zlen; lia]. unfold zlen at 1. rewrite repeat_length.
    rewrite wrap_int by (unfold in_int64, min_int64, max_int64; lia). lia.
  - apply new_multicurve_t_built in EM as (ls & p & r & _ & _ & ->). apply Ok_inj in H. subst o. intros sd. cbn [ho_kind with_kind]. intros K.
    assert (K' : forall x y, KSlider x = KSlider y -> x = y) by (intros x y Q; now injection Q).
    apply K' in K. subst sd. cbn [sl_curve]. eauto.
Qed.

(** ** A row of the HitObjects section *)
Lemma spinner_safe fs : (6 <= length fs)%nat -> exists o, new_spinner (trims fs) = Ok o.
Proof. intros L. unfold new_spinner. destruct (common_ok KSpinner fs ltac:(lia)) as (o & s & -> & _). cbn [bind]. fld fs 5%nat. eauto. Qed.
Lemma hold_head (t : str) : exists h, idx (split ":" t) 0 = Ok h.
Proof. pose proof (split_nonempty ":" t). destruct (split ":" t) as [|h r]; [congruence|]. now exists h. Qed.
Ltac typed fs := unfold type_of in *; cbv zeta in *;
  destruct (Z.testbit (atoi (field 3 fs)) 0) eqn:?T0; [|destruct (Z.testbit (atoi (field 3 fs)) 3) eqn:?T3; [|destruct (Z.testbit (atoi (field 3 fs)) 1) eqn:?T1; [|destruct (Z.testbit (atoi (field 3 fs)) 7) eqn:?T7]]].
Lemma object_no_panic fuel s fs : object_ok fs -> (type_of fs = TSlider -> new_slider fuel (trims fs) <> Panic) -> ob_step fuel s fs <> Panic.
Proof.
  intros O N. unfold ob_step, parse_hit_object, create_object.
  assert (L : (4 <= length fs)%nat).
  { unfold object_ok in O. destruct (type_of fs); try lia. destruct O as (O & _). lia. }
  fld fs 3%nat. change CIRCLE with (2 ^ 0). change SPINNER with (2 ^ 3). change SLIDER with (2 ^ 1). change LONGNOTE with (2 ^ 7).
  rewrite !has_type_bit by lia. unfold object_ok in O. fld fs 2%nat. typed fs.
  - cbn [bind]. unfold new_circle, rmap. destruct (common_ok KCircle fs O) as (o & q & -> & _). discriminate.
  - fld fs 5%nat. destruct (spinner_safe fs O) as (o & ->). discriminate.
  - cbn [bind]. specialize (N eq_refl). unfold rmap. destruct (new_slider fuel (trims fs)); cbn [bind]; congruence.
  - fld fs 5%nat. destruct (hold_head (field 5 fs)) as (h & ->). discriminate.
  - discriminate.
Qed.
Definition fresh_built (fuel : nat) (fs : list str) : Prop := forall o, create_object fuel (trims fs) = Ok (Some o) -> built_slider o.
Lemma common_kind k d o : common_parse k d = Ok o -> ho_kind o = k.
Proof. unfold common_parse. repeat (let H := fresh in intros H; apply bind_ok in H as (? & _ & H); revert H). intros H. apply Ok_inj in H. now subst o. Qed.
Lemma create_built fuel fs : fresh_built fuel fs.
Proof.
  intros o H. unfold create_object in H. apply bind_ok in H as (d3 & _ & H).
  destruct (has_type _ _). { unfold rmap in H. apply bind_ok in H as (o' & H & E). apply Ok_inj in E. injection E as <-. apply common_kind in H. intros sd K. congruence. }
  destruct (has_type _ _). { unfold rmap in H. apply bind_ok in H as (o' & H & E). apply Ok_inj in E. injection E as <-. unfold new_spinner in H. apply bind_ok in H as (o1 & H & E). apply bind_ok in E as (d5 & _ & E).
    apply Ok_inj in E. subst o'. apply common_kind in H. intros sd K. cbn [ho_kind with_end] in K. congruence. }
  destruct (has_type _ _). { unfold rmap in H. apply bind_ok in H as (o' & H & E). apply Ok_inj in E. injection E as <-. now apply slider_needs in H. }
  apply Ok_inj in H. discriminate H.
Qed.
Lemma object_ok_of fuel s fs s' : ob_step fuel s fs = Ok s' -> object_ok fs.
Proof.
  unfold ob_step, parse_hit_object, create_object. intros H. destruct (le_lt_dec 4 (length fs)) as [L|L].
  2:{ change 3 with (Z.of_nat 3) in H. rewrite (trims_out fs 3) in H by lia. discriminate H. }
  pose proof (trims_idx fs 3 ltac:(lia)) as E3. change (Z.of_nat 3) with 3 in E3. rewrite E3 in H. cbn [bind] in H.
  change CIRCLE with (2 ^ 0) in H. change SPINNER with (2 ^ 3) in H. change SLIDER with (2 ^ 1) in H. change LONGNOTE with (2 ^ 7) in H.
  rewrite !has_type_bit in H by lia. unfold object_ok.
  assert (N5 : forall x, idx (trims fs) 5 = Ok x -> (6 <= length fs)%nat).
  { intros x E. destruct (le_lt_dec 6 (length fs)) as [G|G]; [exact G|]. change 5 with (Z.of_nat 5) in E. rewrite (trims_out fs 5) in E by lia. discriminate E. }
  typed fs.
  - apply bind_ok in H as (r & _ & H). destruct r as [[[c sl] sp] time]. apply bind_ok in H as (o & H & _). destruct (le_lt_dec 5 (length fs)) as [G|G]; [exact G|].
    unfold rmap, new_circle in H. rewrite (common_short KCircle fs G) in H. discriminate H.
  - apply bind_ok in H as (r & Hr & H). apply bind_ok in Hr as (d5 & E & _). now apply N5 in E.
  - apply bind_ok in H as (r & _ & H). destruct r as [[[c sl] sp] time]. apply bind_ok in H as (o & H & _). unfold rmap in H. apply bind_ok in H as (o' & H & _).
    now apply slider_needs in H.
  - apply bind_ok in H as (r & Hr & H). apply bind_ok in Hr as (d5 & E & _). now apply N5 in E.
  - exact L.
Qed.
Lemma object_panic fuel s fs : object_short fs -> ob_step fuel s fs = Panic.
Proof.
  intros O. unfold ob_step, parse_hit_object, create_object. destruct (le_lt_dec 4 (length fs)) as [L|L].
  2:{ change 3 with (Z.of_nat 3). now rewrite (trims_out fs 3) by lia. }
  fld fs 3%nat. change CIRCLE with (2 ^ 0). change SPINNER with (2 ^ 3). change SLIDER with (2 ^ 1). change LONGNOTE with (2 ^ 7).
  rewrite !has_type_bit by lia. unfold object_short in O. fld fs 2%nat.
  assert (N5 : (length fs < 6)%nat -> idx (trims fs) 5 = Panic) by (intros G; apply (trims_out fs 5); lia).
  typed fs.
  - cbn [bind]. unfold rmap, new_circle. now rewrite common_short.
  - now rewrite N5.
  - cbn [bind]. unfold rmap. assert (E : new_slider fuel (trims fs) = Panic); [|now rewrite E].
    destruct (le_lt_dec 8 (length fs)) as [G|G].
    + destruct O as [O|(p & I & N)]; [lia|]. unfold new_slider. destruct (common_ok KCircle fs ltac:(lia)) as (o & q & -> & _). cbn [bind].
      fld fs 7%nat. fld fs 6%nat. fld fs 5%nat. rewrite bars_split. cbn [idx Z.ltb Z.compare Z.to_nat nth_error tl bind].
      rewrite slider_points_panic; [reflexivity|]. rewrite Forall_forall. intros F. exact (N (F p I)).
    + unfold new_slider. destruct (le_lt_dec 5 (length fs)) as [G5|G5]; [|now rewrite common_short].
      destruct (common_ok KCircle fs G5) as (o & q & -> & _). cbn [bind]. change 7 with (Z.of_nat 7). now rewrite (trims_out fs 7) by lia.
  - now rewrite N5.
  - lia.
Qed.

(** ** The line loop *)
Lemma mapM_panic {A B} (f : A -> res B) l : mapM f l = Panic -> exists x, In x l /\ f x = Panic.
Proof.
  induction l as [|x l IH]; cbn [mapM]; [discriminate|]. destruct (f x) as [y| |] eqn:E; cbn [bind]; [|exists x; split; [now left|exact E]|discriminate].
  destruct (mapM f l); cbn [bind]; [discriminate| |discriminate]. intros _. destruct (IH eq_refl) as (z & I & F). exists z. split; [now right|exact F].
Qed.
Definition row_panics (fuel : nat) (sec : string) (fs : list str) : Prop :=
  (sec = "Events"%string /\ exists e, ev_step e fs = Panic) \/ (sec = "HitObjects"%string /\ exists s, ob_step fuel s fs = Panic).
Lemma line_panic fuel st l : parse_line fuel st l = Panic ->
  get_section l = [] /\ exists sec, st_section st = lit sec /\ raw_fields l (split "," l) /\ row_panics fuel sec (split "," l).
Proof.
  unfold parse_line. destruct (version_line_f l st) as (Fs & _). destruct (get_section l); [|discriminate]. intros H. split; [reflexivity|].
  rewrite <- Fs. clear Fs. destruct (version_line l st) as [sec fv me ge di ev ti obs]. unfold section_line in H. cbn [st_section].
  destruct (str_eqb sec (lit "General")); [discriminate|]. destruct (str_eqb sec (lit "Metadata")); [discriminate|].
  destruct (str_eqb sec (lit "Difficulty")); [discriminate|].
  destruct (tokenize_cases l) as [[E R]|[E _]]; rewrite E in H.
  2:{ destruct (str_eqb sec _); [discriminate|]. destruct (str_eqb sec _); [discriminate|]. destruct (str_eqb sec _); discriminate. }
  pose proof R as (_ & L & J & C).
  destruct (str_eqb sec (lit "Events")) eqn:E1.
  { apply str_eqb_eq in E1. exists "Events"%string. split; [exact E1|]. split; [exact R|]. left. split; [reflexivity|]. exists ev.
    destruct (split "," l) as [|x [|y fs]] eqn:S; cbn [length] in L; try lia. unfold ev_step, trims. cbn [map] in *.
    destruct (parse_events (trim_space x :: trim_space y :: map trim_space fs) ev); [discriminate H|reflexivity|discriminate H]. }
  destruct (str_eqb sec (lit "TimingPoints")) eqn:E2.
  { exfalso. destruct (pt_fold [split "," l]) with (t := ti) as (t' & F & _).
    { intros r [<-|[]]. auto. }
    cbn [foldM] in F. unfold pt_step in F. rewrite <- J in F.
    destruct (split "," l) as [|x [|y fs]] eqn:S; cbn [length] in L; try lia. cbn [map] in H.
    destruct (parse_point l ti); cbn [bind] in F, H; discriminate. }
  destruct (str_eqb sec (lit "HitObjects")) eqn:E3; [|discriminate].
  apply str_eqb_eq in E3. exists "HitObjects"%string. split; [exact E3|]. split; [exact R|]. right. split; [reflexivity|]. exists obs. unfold ob_step, trims.
  destruct (parse_hit_object fuel (map trim_space (split "," l)) obs); [discriminate H|reflexivity|discriminate H].
Qed.
Lemma loop_panic fuel ls : forall st, foldM (parse_line fuel) st ls = Panic ->
  exists sec fs, In fs (rows_of (body sec (annotate (st_section st) ls))) /\ row_panics fuel sec fs.
Proof.
  induction ls as [|l ls IH]; intros st; cbn [foldM annotate]; [discriminate|].
  destruct (parse_line fuel st l) as [st'| |] eqn:E; cbn [bind]; [|intros _|discriminate].
  - intros H. apply IH in H as (sec & fs & I & P). exists sec, fs. split; [|exact P]. apply st_section_step in E. rewrite E in I. clear E.
    destruct (get_section l); [|exact I]. rewrite body_cons. destruct (str_eqb _ _); [|exact I]. cbn [rows_of]. destruct (tokenize l ","); [now right|exact I].
  - apply line_panic in E as (G & sec & S & R & P). exists sec, (split "," l). split; [|exact P]. rewrite G, body_cons.
    rewrite (proj2 (str_eqb_eq _ _) S). cbn [rows_of]. rewrite (tokenize_some _ _ R). now left.
Qed.

(** ** After the loop *)
Lemma point_at_ok pts t : pts <> [] -> exists p, point_at pts t = Ok p.
Proof.
  intros NE. unfold point_at. match goal with |- context [search ?n ?f] => destruct (search_weak f n) as (R & _) end.
  match goal with |- context [search ?n ?f] => set (r := search n f) in * end.
  destruct (idx_range pts (maxI 0 (Z.of_nat r - 1))) as (p & E & _); [|eauto].
  assert (0 < zlen pts) by (unfold zlen; destruct pts; [congruence|cbn [length]; lia]). unfold maxI, zlen in *. destruct (Z.ltb_spec (Z.of_nat r - 1) 0); destruct (Z.ltb_spec 0 (Z.of_nat r - 1)); lia.
Qed.
Lemma tick_loop_no_panic fuel : forall d td cl md rev ss span, tick_loop fuel d td cl md rev ss span <> Panic.
Proof.
  induction fuel as [|fuel IH]; intros d td cl md rev ss span; cbn [tick_loop]; (destruct (fle d cl); [|discriminate]); (destruct (fge _ _); [discriminate|]); [discriminate|].
  specialize (IH (fadd d td) td cl md rev ss span). destruct (tick_loop fuel _ _ _ _ _ _ _); cbn [bind]; congruence.
Qed.
Lemma set_timing_no_panic fuel tim o : t_points tim <> [] -> built_slider o -> set_timing fuel tim o <> Panic.
Proof.
  intros NE B. unfold set_timing. destruct (ho_kind o) as [| |sd] eqn:K; [discriminate|discriminate|]. unfold slider_set_timing.
  destruct (point_at_ok (t_points tim) (ho_start o) NE) as (tp & E). unfold get_point_at. rewrite E. cbn [bind].
  destruct (mapM _ _) as [tss| |] eqn:EM; cbn [bind]; [| |discriminate].
  - unfold slider_position_at. cbn [sl_curve]. destruct (B sd K) as (ls & p & ->). destruct (is_retarded _ _); [discriminate|].
    match goal with |- context [mc_point_at (finish_curve ls p) ?t] => destruct (point_at_total ls p t) as (q & ->) end. discriminate.
  - exfalso. apply mapM_panic in EM as (i & _ & EM). unfold span_ticks in EM. destruct (fisnan _); [discriminate EM|].
    match type of EM with context [tick_loop ?a ?b ?c ?d ?e ?f ?g ?h] => pose proof (tick_loop_no_panic a b c d e f g h) as T; destruct (tick_loop a b c d e f g h) end; cbn [bind] in EM; congruence.
Qed.
Lemma ob_fold_built fuel rs : forall s s', foldM (ob_step fuel) s rs = Ok s' -> Forall built_slider (os_objects s) -> Forall built_slider (os_objects s').
Proof.
  induction rs as [|fs rs IH]; intros s s' H F; cbn [foldM] in H; [apply Ok_inj in H; now subst|].
  apply bind_ok in H as (s1 & H1 & H). apply IH in H; [exact H|]. apply ob_step_ok in H1 as (_ & _ & _ & r & Hr & ->).
  apply Forall_app. split; [exact F|]. destruct r as [o|]; [|constructor]. constructor; [|constructor]. now apply (create_built fuel fs).
Qed.
Lemma number_built l : forall a b c d e, Forall built_slider l -> Forall built_slider (number_objects a b c d e l).
Proof.
  induction l as [|o l IH]; intros a b c d e F; [constructor|]. inversion F as [|x y B F']; subst. cbn [number_objects].
  assert (W : forall nc n k h g, built_slider (with_combo o nc n k h g)) by (intros nc n k h g sd K; cbn [ho_kind with_combo] in K; now apply B).
  destruct (is_spinner o); [constructor; auto|]. destruct (_ || _); constructor; auto.
Qed.
Lemma finish_no_panic fuel ls st : foldM (parse_line fuel) pstate0 ls = Ok st -> finish_parse fuel st <> Panic.
Proof.
  intros H. apply run_ok in H as ((_ & _ & _ & _ & T & O) & _). unfold finish_parse. cbv zeta.
  destruct (_ || (_ =? 0)) eqn:E; [discriminate|]. apply orb_false_iff in E as [_ E]. apply Z.eqb_neq in E.
  destruct (pt_fold (rows_of (body "TimingPoints" (annotate (st_section pstate0) ls)))) with (t := st_time pstate0) as (t' & F & C & P).
  { intros r I. split; [now apply rows_of_raw in I|now apply rows_of_commas in I]. }
  rewrite F in T. apply Ok_inj in T. subst t'.
  match goal with |- context [mapM (set_timing fuel ?t) _] => assert (NE : t_points t <> []) end.
  { change (t_points (tim_of (ds_SliderMult (st_diff st)) (ds_TickRate (st_diff st)) (ts_points (st_time st))) <> []).
    intros X. apply (f_equal (@length _)) in X. rewrite (proj1 (tim_points _ _ _)) in X. rewrite P in X. cbn [pstate0 st_time timesec0 ts_points app] in X.
    destruct (added_points (map timing_point (rows_of (body "TimingPoints" (annotate (st_section pstate0) ls))))) as [A1 A2].
    unfold finalize_points in X. rewrite A1 in X. 
    assert (LF : forall l q, length (fst (finalize_loop q l)) = length l).
    { clear. induction l as [|p l IH]; intros q; [reflexivity|]. cbn [finalize_loop]. specialize (IH (Some p)) as IH1.
      destruct (cp_Inherited p); [destruct q as [lp|]|].
      - specialize (IH (Some (set_base p (cp_base lp)))). destruct (finalize_loop _ l). cbn [fst length] in *. congruence.
      - destruct (finalize_loop _ l). cbn [fst length] in *. congruence.
      - destruct (finalize_loop _ l). cbn [fst length] in *. congruence. }
    match type of X with context [finalize_loop None ?l] => specialize (LF l None); destruct (finalize_loop None l) end. cbn [fst t_points] in *.
    rewrite X in LF. cbn [length] in LF. rewrite sort_length, map_length in LF. apply E. rewrite C. unfold zlen. transitivity (0 + Z.of_nat 0); [|reflexivity]. f_equal. f_equal. symmetry. exact LF. }
  destruct (mapM _ _) as [objs| |] eqn:EM; cbn [bind]; [discriminate| |discriminate].
  apply mapM_panic in EM as (o & I & EM). exfalso. revert EM. apply set_timing_no_panic; [exact NE|].
  assert (B : Forall built_slider (number_objects 0 1 0 0 false (stable_sort obj_lt (os_objects (st_objs st))))); [|rewrite Forall_forall in B; now apply B].
  apply number_built. apply ob_fold_built in O; [|constructor]. rewrite Forall_forall in *. intros x Hx. apply O.
  eapply Permutation.Permutation_in; [apply Permutation.Permutation_sym, sort_perm|exact Hx].
Qed.
End WithLibm.

(** From slider rows to finished sliders, and the shapes of curves. *)
From Coq Require Import Reals Lra Permutation.
From Flocq Require Import Core BinarySingleNaN.
From Verif Require Import Parser SpecParser SpecShape SpecCurves SpecMods SpecStacking SpecTiming BaseLemmas FloatLemmas SortLemmas ModsProofs
  StringLemmas ParserProofs StackingProofs TimingProofs ObjectProofs FinishProofs SettingsProofs MapProofs BezierProofs CurveProofs CurveBounds CurveStart SafetyProofs.
Import ListNotations.
Open Scope Z_scope.

Section WithLibm.
Context {M : libm}.

(** ** The way of an object through the parser *)
Definition finished fuel tim (fs : list str) (o : hobj) : Prop := exists o0 o1 o2,
  create_object fuel (trims fs) = Ok (Some o0) /\ numbered o0 o1 /\ set_timing fuel tim o1 = Ok o2 /\ same_but_stack o2 o.
Lemma F2_and {A B} (P Q : A -> B -> Prop) l r : Forall2 P l r -> Forall2 Q l r -> Forall2 (fun x y => P x y /\ Q x y) l r.
Proof. intros H. induction H; intros K; inversion K; subst; constructor; auto. Qed.
Lemma pipeline fuel ls b hr : parse_lines fuel ls = Ok (Some b) -> section_rows ls "HitObjects" hr ->
  Forall2 (finished fuel (bm_Timings b)) (stable_sort row_lt (filter is_object hr)) (bm_HitObjects b).
Proof.
  intros H Hh. apply section_rows_iff in Hh. apply parsed in H as (st & R & V & F). destruct R as (_ & _ & _ & _ & _ & Ro). rewrite <- Hh in Ro.
  apply ob_fold_ok in Ro as (_ & _ & _ & objs & F1 & F2 & EO). cbn [os_objects st_objs pstate0 app] in EO.
  apply finish_some in F as (_ & _ & _ & _ & _ & _ & _ & _ & _ & _ & _ & _ & E9 & objs3 & E10 & E11). rewrite EO, <- E9 in E10.
  pose proof (F2_and _ _ _ _ F1 F2) as F3. clear F1 F2.
  assert (F4 : Forall2 (fun fs o => create_object fuel (trims fs) = Ok (Some o) /\ fresh_of fs o) (stable_sort row_lt (filter is_object hr)) (stable_sort obj_lt objs)).
  { apply sort_F2; [exact F3|]. intros a a' c c' (_ & (Ha & _) & _) (_ & (Hb & _) & _). unfold row_lt, obj_lt. now rewrite Ha, Hb. }
  assert (F5 : Forall2 fresh_of (stable_sort row_lt (filter is_object hr)) (stable_sort obj_lt objs)) by (eapply F2_impl; [|exact F4]; now intros x y (_ & K)).
  destruct (number_objects_ok _ _ F5) as (N & _). apply mapM_ok in E10. pose proof (leniency_same (bm_Difficulty b) (bm_FileVersion b) (gn_StackLeniency (bm_general b)) objs3) as S. rewrite <- E11 in S.
  eapply F2_trans; [|exact F4|eapply F2_trans; [|exact N|eapply F2_trans; [|exact E10|exact S]; intros x y z A B; exact (ex_intro (fun y => set_timing fuel (bm_Timings b) x = Ok y /\ same_but_stack y z) y (conj A B))]; intros x y z A B; exact (ex_intro (fun y => numbered x y /\ exists w, set_timing fuel (bm_Timings b) y = Ok w /\ same_but_stack w z) y (conj A B))].
  intros fs o0 o (C & _) (o1 & Nu & o2 & T & Sa). exists o0, o1, o2. auto.
Qed.

(** ** Text *)
Lemma split_barred s : barred s (split "|" s).
Proof.
  assert (E : match split "|" s with f :: r => s = f ++ concat (map (fun g => "|"%char :: g) r) | [] => False end).
  { induction s as [|d s IH]; cbn [split]; [reflexivity|]. destruct (Ascii.eqb_spec "|"%char d) as [<-|N].
    - destruct (split "|" s) as [|f r] eqn:Q; [contradiction|]. cbn [map concat app]. now rewrite <- IH.
    - destruct (split "|" s) as [|f r] eqn:Q; [contradiction|]. cbn [app]. now rewrite <- IH. }
  pose proof (split_no "|" s) as N. destruct (split "|" s) as [|f r]; [contradiction|]. exists f, r. auto.
Qed.
Lemma split_cons c s f r : split c s = f :: r -> s = f ++ concat (map (fun g => c :: g) r).
Proof.
  revert f r. induction s as [|d s IH]; intros f r; cbn [split]; [intros E; injection E as <- <-; reflexivity|]. destruct (Ascii.eqb_spec c d) as [<-|N].
  - intros E. injection E as <- <-. destruct (split c s) as [|g t] eqn:Q; [now apply split_nonempty in Q|]. cbn [map concat app]. f_equal. now apply IH.
  - destruct (split c s) as [|g t] eqn:Q; [now apply split_nonempty in Q|]. intros E. injection E as <- <-. cbn [app]. f_equal. now apply IH.
Qed.
Lemma slider_point_text s p : slider_point s = Ok p -> point_text s p.
Proof.
  unfold slider_point. intros H. apply bind_ok in H as (x & Hx & H). apply bind_ok in H as (y & Hy & H). apply Ok_inj in H. subst p.
  pose proof (split_no ":" s) as N. destruct (split ":" s) as [|x' [|y' r]] eqn:E; [discriminate Hx|discriminate Hy|]. apply Ok_inj in Hx, Hy. subst x' y'.
  apply split_cons in E. inversion N as [|? ? N1 N']; subst. inversion N' as [|? ? N2 N3]; subst. exists x, y, (concat (map (fun g => ":"%char :: g) r)).
  split; [cbn [map concat app]; reflexivity|]. split; [exact N1|]. split; [exact N2|]. split; [|reflexivity]. destruct r as [|g r]; [now left|right]. cbn [map concat app]. now eexists.
Qed.
Lemma edge_sounds_ok es : forall pre sounds out, edge_sounds (zlen pre) (pre ++ sounds) es = Ok out ->
  (length es <= length sounds)%nat /\ out = pre ++ map atoi es ++ skipn (length es) sounds.
Proof.
  induction es as [|e es IH]; intros pre sounds out H; cbn [edge_sounds] in H.
  - apply Ok_inj in H. subst out. split; [cbn; lia|reflexivity].
  - apply bind_ok in H as (s1 & H1 & H). unfold set_idx in H1. destruct (_ || _)%bool eqn:B in H1; [discriminate|]. apply Ok_inj in H1. subst s1.
    apply orb_false_iff in B as [_ B]. apply Z.leb_gt in B. unfold zlen in *. rewrite app_length in B. destruct sounds as [|s0 sounds]; [cbn in B; lia|].
    rewrite Nat2Z.id in H. replace (upd (pre ++ s0 :: sounds) (length pre) (atoi e)) with ((pre ++ [atoi e]) ++ sounds) in H.
    + replace (Z.of_nat (length pre) + 1) with (Z.of_nat (length (pre ++ [atoi e]))) in H by (rewrite app_length; cbn; lia).
      apply IH in H as [L ->]. split; [cbn; lia|]. rewrite <- app_assoc. reflexivity.
    + clear. induction pre as [|q pre IH]; cbn; [reflexivity|]. now rewrite IH.
Qed.
(** a slider row *)
Lemma slider_row fuel fs o : create_object fuel (trims fs) = Ok (Some o) -> type_of fs = TSlider ->
  exists typ texts pts mc es, barred (field 5 fs) (typ :: texts) /\ Forall2 point_text texts pts /\
    new_multicurve_t fuel typ (ho_startPos o :: pts) (parse_f64 (field 7 fs)) = Ok mc /\ mc_point_at mc (gq 1 1) = Ok (ho_endPos o) /\
    ho_end o = ho_start o /\ ho_startPos o = mkVec (parse_f32 (field 0 fs)) (parse_f32 (field 1 fs)) /\ ho_start o = start_of fs /\ zero_stack o /\
    ho_kind o = KSlider {| sl_curve := mc; sl_tpoint := None; sl_pixelLength := parse_f64 (field 7 fs); sl_repeat := parse_int (field 6 fs); sl_ticks := []; sl_span := f0 |} /\
    edge_texts fs es /\ -1 <= parse_int (field 6 fs) < max_int64 /\ zlen es <= parse_int (field 6 fs) + 1 /\
    ho_sounds o = map atoi es ++ repeat (atoi (field 4 fs)) (Z.to_nat (parse_int (field 6 fs) + 1) - length es).
Proof.
  unfold create_object. intros H T. apply bind_ok in H as (d3 & H3 & H). apply (field_idx fs 3) in H3. subst d3.
  change CIRCLE with (2 ^ 0) in H. change SPINNER with (2 ^ 3) in H. change SLIDER with (2 ^ 1) in H.
  rewrite !has_type_bit in H by lia. unfold type_of in T. destruct (Z.testbit (atoi (field 3 fs)) 0); [discriminate T|]. destruct (Z.testbit (atoi (field 3 fs)) 3); [discriminate T|].
  destruct (Z.testbit (atoi (field 3 fs)) 1); [|destruct (Z.testbit _ 7); discriminate T].
  unfold rmap in H. apply bind_ok in H as (o' & H & E). injection E as <-. unfold new_slider in H. apply bind_ok in H as (o0 & H & E).
  assert (S4 : ho_sounds o0 = [atoi (field 4 fs)]).
  { unfold common_parse in H. apply bind_ok in H as (d0 & H0 & H). apply bind_ok in H as (d1 & H1 & H). apply bind_ok in H as (d2 & H2 & H). apply bind_ok in H as (d3 & H3 & H). apply bind_ok in H as (d4 & H4 & H).
    apply (field_idx fs 4) in H4. subst d4. apply Ok_inj in H. subst o0. reflexivity. }
  apply common_parse_ok in H as (K & S & En & P & EP & N & C & Z0).
  apply bind_ok in E as (d7 & H7 & E). apply bind_ok in E as (d6 & H6 & E). apply bind_ok in E as (d5 & H5 & E).
  apply (field_idx fs 5) in H5. apply (field_idx fs 6) in H6. apply (field_idx fs 7) in H7. subst d5 d6 d7. cbv zeta in E.
  apply bind_ok in E as (typ & Et & E). apply bind_ok in E as (pts & Ep & E). apply bind_ok in E as (mc & Em & E).
  apply bind_ok in E as (ep & Ee & E). apply bind_ok in E as (b0 & Eb & E). rewrite S4 in Eb. apply Ok_inj in Eb. subst b0.
  destruct (make_ok _ _) eqn:MK; [|discriminate E]. apply bind_ok in E as (snd & Es & E). apply Ok_inj in E. subst o'.
  assert (R6 : -1 <= parse_int (field 6 fs) < max_int64 /\ wrap64 (parse_int (field 6 fs) + 1) = parse_int (field 6 fs) + 1).
  { unfold make_ok in MK. apply andb_prop in MK as [MK _]. apply Z.leb_le in MK.
    pose proof (parse_int_range (field 6 fs)) as W. unfold in_int64 in W.
    destruct (Z.eq_dec (parse_int (field 6 fs)) max_int64) as [Q|Q]; [rewrite Q in MK; vm_compute in MK; congruence|].
    assert (X : wrap64 (parse_int (field 6 fs) + 1) = parse_int (field 6 fs) + 1) by (apply wrap_int; unfold in_int64, min_int64, max_int64 in *; lia). rewrite X in MK. split; [lia|exact X]. }
  destruct R6 as (R6 & W6). rewrite W6 in *.
  assert (TX : split "|" (field 5 fs) = typ :: tl (split "|" (field 5 fs))) by (destruct (split "|" (field 5 fs)); [discriminate Et|apply Ok_inj in Et; subst; reflexivity]).
  assert (SND : exists es, edge_texts fs es /\ zlen es <= parse_int (field 6 fs) + 1 /\ snd = map atoi es ++ repeat (atoi (field 4 fs)) (Z.to_nat (parse_int (field 6 fs) + 1) - length es)).
  { unfold edge_texts. unfold trims in Es. rewrite nth_error_map in Es. destruct (nth_error fs 8) as [f8|] eqn:E8; cbn [option_map] in Es.
    - assert (F8 : trim_space f8 = field 8 fs) by (unfold field; rewrite (nth_error_nth _ _ _ E8); reflexivity). rewrite F8 in Es.
      apply (edge_sounds_ok _ []) in Es as [L ->]. rewrite repeat_length in L. exists (split "|" (field 8 fs)). split; [apply split_barred|]. split; [unfold zlen; lia|]. cbn [app]. f_equal.
      rewrite <- (firstn_skipn (length (split "|" (field 8 fs))) (repeat (atoi (field 4 fs)) (Z.to_nat (parse_int (field 6 fs) + 1)))) at 1.
      generalize (Z.to_nat (parse_int (field 6 fs) + 1)) as n. generalize (length (split "|" (field 8 fs))) as k. generalize (atoi (field 4 fs)) as z. clear.
      intros z k n. rewrite firstn_skipn. revert k. induction n as [|n IH]; intros [|k]; cbn; auto.
    - apply Ok_inj in Es. subst snd. exists []. split; [reflexivity|]. split; [cbn; lia|]. cbn [map app length]. now rewrite Nat.sub_0_r. }
  destruct SND as (es & ET & EL & ->). exists typ, (tl (split "|" (field 5 fs))), pts, mc, es.
  split; [rewrite <- TX; apply split_barred|]. split; [apply mapM_ok in Ep; eapply F2_impl; [|exact Ep]; intros; now apply slider_point_text|].
  unfold with_kind, with_sounds, with_end. cbn [ho_startPos ho_endPos ho_kind ho_sounds ho_end ho_start]. split; [exact Em|]. split; [exact Ee|]. split; [reflexivity|]. split; [exact P|]. split; [exact S|].
  split; [intros []; apply (Z0 GNM) || apply (Z0 GEZ) || apply (Z0 GHR)|]. split; [reflexivity|]. split; [exact ET|]. split; [exact R6|]. split; [exact EL|reflexivity].
Qed.

(** ** Lines *)
Lemma linear_lines pts : process_linear pts = filter has_length (polyline pts).
Proof.
  induction pts as [|a [|b r] IH]; [reflexivity|reflexivity|]. change (process_linear (a :: b :: r)) with (if vec_eqb a b then process_linear (b :: r) else mkLinear a b :: process_linear (b :: r)).
  change (polyline (a :: b :: r)) with (mkLinear a b :: polyline (b :: r)). cbn [filter]. unfold has_length at 1. cbn [ln_p1 ln_p2]. rewrite IH. now destruct (vec_eqb a b).
Qed.
Lemma pairs_polyline p r : pairs p r = polyline (p :: r).
Proof. revert p. induction r as [|q r IH]; intros p; [reflexivity|]. cbn [pairs]. rewrite IH. reflexivity. Qed.

(** ** Bezier pieces *)
Lemma pieces_later from p ps : pieces (S from) p ps -> ~ doubled p from -> pieces from p ps.
Proof.
  intros H N. inversion H; subst.
  - apply pieces_whole. intros i Hi. destruct (Nat.eq_dec i from) as [->|D]; [exact N|apply H0; lia].
  - apply pieces_cut; auto; [lia|]. intros j Hj. destruct (Nat.eq_dec j from) as [->|D]; [exact N|apply H2; lia].
Qed.
Lemma skip_skip {A} (b a : nat) (l : list A) : skipn a (skipn b l) = skipn (b + a) l.
Proof. revert l. induction b as [|b IH]; intros l; [reflexivity|]. destruct l; [now rewrite !skipn_nil|]. cbn. apply IH. Qed.
Lemma doubled_skip pts last i : doubled (skipn last pts) i <-> doubled pts (last + i).
Proof.
  assert (X : forall n, nth_error (skipn last pts) n = nth_error pts (last + n)) by (intros n; revert pts; induction last as [|l IH]; intros [|p pts]; cbn; auto; now destruct n).
  unfold doubled. rewrite skipn_length, !X, (Nat.add_succ_r last i). split; intros (A & B); (split; [lia|exact B]).
Qed.
Lemma loop_pieces fuel k pts : forall i last ls, process_bezier_loop fuel k pts i last = Ok ls -> (length pts <= k + i)%nat -> (last <= i < length pts)%nat ->
  exists ps lss, pieces (i - last) (skipn last pts) ps /\ Forall2 drawn ps lss /\ ls = concat lss.
Proof.
  induction k as [|k IH]; intros i last ls H L B; [lia|]. cbn [process_bezier_loop] in H. rewrite (proj2 (Nat.ltb_lt _ _) (proj2 B)) in H.
  set (multi := (Nat.ltb (i + 2) (length pts) && _)%bool) in H.
  assert (MD : multi = true <-> doubled pts i).
  { unfold multi, doubled. rewrite andb_true_iff, Nat.ltb_lt. split; intros (A & Q); (split; [exact A|]).
    - destruct (nth_error pts i) as [a|]; [|discriminate]. destruct (nth_error pts (S i)) as [b|]; [|discriminate]. eauto.
    - destruct Q as (a & b & -> & -> & Q). exact Q. }
  assert (DR : forall sub ls1, match sub with [a; b] => Ok [mkLinear a b] | _ => approximate_bezier fuel sub end = Ok ls1 -> drawn sub ls1).
  { intros sub ls1 E. assert (C : length sub = 2%nat \/ (length sub <> 2%nat /\ approximate_bezier fuel sub = Ok ls1)) by (destruct sub as [|a [|b [|c r]]]; [right|right|left|right]; try reflexivity; (split; [cbn; lia|exact E])).
    destruct C as [C|(C & E2)].
    - left. split; [exact C|]. destruct sub as [|a [|b [|c r]]]; try discriminate C. apply Ok_inj in E. subst ls1. reflexivity.
    - right. split; [exact C|]. unfold approximate_bezier in E2. apply bind_ok in E2 as (out & E3 & E4). assert (NE : sub <> []) by (intros ->; discriminate E3).
      pose proof (create_bezier_result fuel sub NE) as R. rewrite E3 in R. destruct R as (o & Fl & ->). exists o. split; [exact Fl|].
      destruct (o ++ [List.last sub vzero]) as [|q r]; [discriminate E4|]. apply Ok_inj in E4. subst ls1. apply pairs_polyline. }
  assert (SL : slice pts last (S i) = firstn (S (i - last)) (skipn last pts)) by (unfold slice; f_equal; lia).
  destruct multi eqn:EM.
  - cbn [orb] in H. apply bind_ok in H as (ls1 & E1 & H). apply bind_ok in H as (rest & E2 & H). apply Ok_inj in H. subst ls.
    pose proof (proj1 MD eq_refl) as D. pose proof (proj1 D) as DL. apply IH in E2 as (ps & lss & P & F & ->); [|lia|lia].
    exists (firstn (S (i - last)) (skipn last pts) :: ps), (ls1 :: lss). split.
    + replace (S (S i) - S i)%nat with 1%nat in P by lia. apply pieces_cut; [lia| |intros j Hj; lia|].
      * apply doubled_skip. now replace (last + (i - last))%nat with i by lia.
      * replace (skipn (S (i - last)) (skipn last pts)) with (skipn (S i) pts); [exact P|]. rewrite skip_skip. f_equal. lia.
    + split; [constructor; [rewrite <- SL; now apply DR|exact F]|reflexivity].
  - cbn [orb] in H. assert (ND : ~ doubled pts i) by (intros D; apply MD in D; discriminate D). destruct (Nat.eqb_spec (S i) (length pts)) as [E|E].
    + apply bind_ok in H as (ls1 & E1 & H). apply bind_ok in H as (rest & E2 & H). apply Ok_inj in H. subst ls.
      assert (rest = []) as -> by (destruct k; cbn [process_bezier_loop] in E2; [now apply Ok_inj in E2|]; rewrite (proj2 (Nat.ltb_ge _ _)) in E2 by lia; now apply Ok_inj in E2).
      assert (WH : firstn (S (i - last)) (skipn last pts) = skipn last pts) by (apply firstn_all2; rewrite skipn_length; lia).
      exists [skipn last pts], [ls1]. split.
      * apply pieces_whole. intros j Hj (A & _). rewrite skipn_length in A. lia.
      * split; [constructor; [rewrite <- WH, <- SL; now apply DR|constructor]|cbn [concat]; now rewrite !app_nil_r].
    + apply IH in H as (ps & lss & P & F & ->); [|lia|lia]. exists ps, lss. split; [|auto]. apply pieces_later; [now replace (S (i - last)) with (S i - last)%nat by lia|].
      rewrite doubled_skip. now replace (last + (i - last))%nat with i by lia.
Qed.
Lemma bezier_pieces fuel pts ls : pts <> [] -> process_bezier fuel pts = Ok ls -> bezier_lines pts ls.
Proof.
  intros N H. apply loop_pieces in H; [exact H|lia|]. destruct pts; [congruence|cbn; lia].
Qed.

(** ** Catmull segments *)
Definition segment (pts : list vec) (i : nat) : list linear :=
  match nth_error pts i, nth_error pts (S i) with
  | Some p2, Some p3 => approximate_catmull (match i with O => p2 | S j => nth j pts vzero end) p2 p3
      (match nth_error pts (S (S i)) with Some p => p | None => vadd p3 (vsub p3 p2) end) 50
  | _, _ => []
  end.
Lemma catmull_segments pts : process_catmull None pts = flat_map (segment pts) (seq 0 (length pts - 1)).
Proof.
  assert (G : forall suf pre, suf <> [] -> process_catmull (hd_error (rev pre)) suf = flat_map (segment (pre ++ suf)) (seq (length pre) (length suf - 1))).
  { induction suf as [|p2 suf IH]; [congruence|]. intros pre _. destruct suf as [|p3 r]; [reflexivity|]. cbn [length Nat.sub seq flat_map].
    change (process_catmull (hd_error (rev pre)) (p2 :: p3 :: r)) with
      (approximate_catmull (match hd_error (rev pre) with Some p => p | None => p2 end) p2 p3 (match r with p :: _ => p | [] => vadd p3 (vsub p3 p2) end) 50 ++ process_catmull (Some p2) (p3 :: r)).
    f_equal.
    - assert (X : forall n, nth_error (pre ++ p2 :: p3 :: r) (length pre + n) = nth_error (p2 :: p3 :: r) n) by (intros n; rewrite nth_error_app2 by lia; f_equal; lia).
      pose proof (X 0%nat) as X0. pose proof (X 1%nat) as X1. pose proof (X 2%nat) as X2. rewrite Nat.add_0_r in X0. rewrite Nat.add_1_r in X1. replace (length pre + 2)%nat with (S (S (length pre))) in X2 by lia.
      unfold segment. rewrite X0, X1, X2. cbn [nth_error]. clear X X0 X1 X2.
      assert (P1 : match hd_error (rev pre) with Some p => p | None => p2 end = match length pre with O => p2 | S j => nth j (pre ++ p2 :: p3 :: r) vzero end).
      { destruct (length pre) as [|j] eqn:E; [apply length_zero_iff_nil in E; subst; reflexivity|]. destruct (@exists_last _ pre) as (q & z & ->); [intros ->; discriminate E|].
        rewrite rev_app_distr. cbn [rev app hd_error]. rewrite app_length in E. cbn in E. rewrite <- app_assoc, app_nth2 by lia. replace (j - length q)%nat with 0%nat by lia. reflexivity. }
      rewrite P1. destruct r; reflexivity.
    - specialize (IH (pre ++ [p2]) ltac:(discriminate)). rewrite rev_app_distr in IH. cbn [rev app hd_error] in IH. rewrite IH, app_length, <- app_assoc. cbn [length app]. rewrite Nat.add_1_r. f_equal. f_equal. lia. }
  destruct pts as [|p pts]; [reflexivity|]. exact (G (p :: pts) [] ltac:(discriminate)).
Qed.
End WithLibm.

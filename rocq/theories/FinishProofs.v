(** The end of the parser: from the line loop's state to the beatmap. *)
From Coq Require Import Reals Lra Permutation Sorting.Sorted.
From Verif Require Import Parser SpecParser SpecMods SpecStacking SpecTiming BaseLemmas FloatLemmas SortLemmas ModsProofs
  StringLemmas ParserProofs StackingProofs TimingProofs ObjectProofs.
Open Scope Z_scope.

Section WithLibm.
Context {M : libm}.

Lemma parsed fuel ls r : parse_lines fuel ls = Ok r ->
  exists st, runs fuel pstate0 st (annotate [] ls) /\ st_FileVersion st = last (versions ls) 0 /\ finish_parse fuel st = Ok r.
Proof.
  unfold parse_lines. intros H. apply bind_ok in H as (st & H1 & H2). apply run_ok in H1 as [R V]. exists st. auto.
Qed.

(** timing rows *)
Lemma rows_of_commas b r : In r (rows_of b) -> Forall (fun f => ~ In ","%char f) r.
Proof.
  induction b as [|l b IH]; [intros []|]. cbn [rows_of]. destruct (tokenize_cases l) as [[E H]|[E H]]; rewrite E; [|exact IH].
  intros [<-|Hr]; [|auto]. now destruct H as (_ & _ & _ & H).
Qed.
Lemma land_test x k : 0 <= k -> (0 <? Z.land x (2 ^ k)) = Z.testbit x k.
Proof.
  intros H. rewrite land_pow2 by exact H. destruct (Z.testbit x k); [|reflexivity]. apply Z.ltb_lt. now apply Z.pow_pos_nonneg.
Qed.
Lemma point_eq a b fs : let l := a :: b :: fs in let opt {A} (i : nat) (f : str -> A) (dflt : A) : A :=
    match nth_error l i with Some s => f s | None => dflt end in
  mk_point (f_of_Z (parse_int a)) (parse_f64 b) (opt 3%nat atoi 0) (opt 4%nat atoi 1)
    (opt 5%nat (fun s => fdiv (f_of_Z (atoi s)) (fq 100 1)) (fq 1 1)) (opt 2%nat (fun s => if atoi s =? 0 then 4 else atoi s) 4)
    (opt 6%nat (fun s => atoi s =? 0) false) (0 <? Z.land (opt 7%nat atoi 0) 1) (0 <? Z.land (opt 7%nat atoi 0) 8) = timing_point l.
Proof.
  cbv zeta. unfold mk_point, timing_point, given. 
  assert (K1 : forall x, (0 <? Z.land x 1) = Z.testbit x 0) by (intros x; exact (land_test x 0 ltac:(lia))).
  assert (K8 : forall x, (0 <? Z.land x 8) = Z.testbit x 3) by (intros x; exact (land_test x 3 ltac:(lia))).
  rewrite K1, K8. cbn [nth]. f_equal; destruct (nth_error (a :: b :: fs) 7); reflexivity.
Qed.
Lemma pt_fold rs : (forall r, In r rs -> (2 <= length r)%nat /\ Forall (fun f => ~ In ","%char f) r) -> forall t,
  exists t', foldM pt_step t rs = Ok t' /\ ts_counter t' = ts_counter t + zlen rs /\ ts_points t' = ts_points t ++ map timing_point rs.
Proof.
  induction rs as [|fs rs IH]; intros H t; cbn [foldM map].
  - exists t. unfold zlen. cbn. rewrite Z.add_0_r, app_nil_r. auto.
  - destruct (H fs (or_introl eq_refl)) as [L C]. unfold pt_step at 1, parse_point.
    rewrite (split_of_join fs); [|destruct fs; [cbn in L; lia|discriminate]|exact C].
    destruct fs as [|a [|b fs]]; cbn [length] in L; try lia.
    change (idx (a :: b :: fs) 0) with (Ok a). change (idx (a :: b :: fs) 1) with (Ok b). cbn [bind].
    match goal with |- context [foldM pt_step ?t1 rs] => set (t1' := t1) end.
    destruct (IH (fun r Hr => H r (or_intror Hr)) t1') as (t' & E1 & E2 & E3).
    exists t'. split; [exact E1|]. split; [rewrite E2; subst t1'; cbn [ts_counter]; unfold zlen; cbn [length]; lia|].
    rewrite E3. subst t1'. cbn [ts_points]. rewrite <- app_assoc. cbn [app]. f_equal. f_equal. apply point_eq.
Qed.

(** the finished timings *)
Definition tim_of (sm tr : f64) (ps : list cpoint) : timings :=
  finalize_points {| t_SliderMult := sm; t_TickRate := tr; t_points := ps; t_original := [] |}.
Lemma tim_points sm tr ps : t_points (tim_of sm tr ps) = t_points (finalize_points (added ps)) /\
  t_original (tim_of sm tr ps) = t_original (finalize_points (added ps)) /\
  t_SliderMult (tim_of sm tr ps) = sm /\ t_TickRate (tim_of sm tr ps) = tr.
Proof.
  destruct (added_points ps) as [E1 E2]. unfold tim_of, finalize_points. cbn [t_points t_original t_SliderMult t_TickRate]. rewrite E1, E2.
  destruct (finalize_loop None (stable_sort point_lt ps)). auto.
Qed.

Definition timed (tim : timings) (o o' : hobj) : Prop :=
  match ho_kind o with
  | KSlider sd => exists sd' tp en p, o' = with_end (with_kind o (KSlider sd')) en p /\
      sl_curve sd' = sl_curve sd /\ sl_repeat sd' = sl_repeat sd /\ sl_pixelLength sd' = sl_pixelLength sd /\
      sl_tpoint sd' = Some tp /\ get_point_at tim (ho_start o) = Ok tp
  | _ => o' = o
  end.
Lemma set_timing_timed fuel tim o o' : set_timing fuel tim o = Ok o' -> timed tim o o'.
Proof.
  unfold set_timing, timed. destruct (ho_kind o) as [| |sd]; [intros H; now injection H as <-|intros H; now injection H as <-|].
  unfold slider_set_timing. intros H. apply bind_ok in H as (tp & Htp & H). apply bind_ok in H as (tss & _ & H).
  apply bind_ok in H as (p & _ & H). injection H as <-. eexists _, tp, _, p. split; [reflexivity|]. cbn. auto 10.
Qed.
Lemma idx_in {A} (l : list A) i x : idx l i = Ok x -> In x l.
Proof. intros H. apply idx_ok in H as [_ H]. eapply nth_error_In; eauto. Qed.

Definition slider_done (tim : timings) (o : hobj) : Prop := forall sd, ho_kind o = KSlider sd ->
  exists p, sl_tpoint sd = Some p /\ get_point_at tim (ho_start o) = Ok p /\ In p (t_points tim).
Definition done (tim : timings) (fs : list str) (o : hobj) : Prop :=
  describes fs o /\ slider_done tim o /\ (ho_kind o = KSpinner -> zero_stack o).

Lemma finish_objects fuel tim rs objs0 objs3 d v len :
  Forall2 fresh_of rs objs0 ->
  mapM (set_timing fuel tim) (number_objects 0 1 0 0 false (stable_sort obj_lt objs0)) = Ok objs3 ->
  Forall2 (done tim) (stable_sort row_lt rs) (stack_leniency d v len objs3) /\
  (forall k o, nth_error (stack_leniency d v len objs3) k = Some o -> combo_of (stable_sort row_lt rs) k o).
Proof.
  intros F H. apply sort_rows in F. set (played := stable_sort row_lt rs) in *. set (objs1 := stable_sort obj_lt objs0) in *.
  destruct (number_objects_ok played objs1 F) as [N C]. set (objs2 := number_objects 0 1 0 0 false objs1) in *.
  apply mapM_ok in H.
  assert (T : Forall2 (timed tim) objs2 objs3) by (eapply F2_impl; [|exact H]; intros; now apply (set_timing_timed fuel)).
  assert (S : Forall2 same_but_stack objs3 (stack_leniency d v len objs3)) by apply leniency_same.
  assert (F2 : Forall2 fresh_of played objs2 \/ True) by auto. clear F2.
  assert (D3 : Forall2 (fun fs o => describes fs o /\ slider_done tim o /\ zero_stack o) played objs3).
  { eapply F2_trans; [|exact F|eapply F2_trans; [|exact N|exact T]; intros x y z A B; exact (ex_intro (fun y => numbered x y /\ timed tim y z) y (conj A B))].
    intros fs o o3 (De & Nc & Zs) (o2 & (nc & id & n & s & h & ->) & Ti).
    assert (De' := De). destruct De as (D1 & D2 & D3 & D4). unfold timed in Ti. cbn [ho_kind with_combo] in Ti.
    assert (Zs' : zero_stack (with_combo o nc id n s h)) by (intros g; destruct (Zs g); destruct g; split; assumption).
    destruct (ho_kind o) as [| |sd] eqn:K.
    - subst o3. split; [|split; [intros sd E; cbn [ho_kind with_combo] in E; congruence|exact Zs']].
      unfold describes in *. cbn [ho_start ho_startPos ho_colorOffset ho_kind ho_end ho_endPos with_combo]. rewrite K in *. auto.
    - subst o3. split; [|split; [intros sd E; cbn [ho_kind with_combo] in E; congruence|exact Zs']].
      unfold describes in *. cbn [ho_start ho_startPos ho_colorOffset ho_kind ho_end ho_endPos with_combo]. rewrite K in *. auto.
    - destruct Ti as (sd' & tp & en & p & -> & Ec & Er & Ep & Et & Eg). split; [|split].
      + unfold describes. cbn [ho_start ho_startPos ho_colorOffset ho_kind ho_end ho_endPos with_combo with_end with_kind].
        split; [exact D1|]. split; [exact D2|]. split; [exact D3|]. destruct (type_of fs).
        * destruct D4 as (D4 & _). congruence.
        * destruct D4 as (D4 & _). congruence.
        * destruct D4 as (sd0 & K0 & R0 & P0). injection K0 as <-. exists sd'. split; [reflexivity|]. split; congruence.
        * exact D4.
        * exact D4.
      + intros sd0 E. cbn [ho_kind with_end with_kind] in E. injection E as <-. exists tp. split; [exact Et|].
        cbn [ho_start with_end with_kind with_combo] in *. split; [exact Eg|]. unfold get_point_at, point_at in Eg. now apply idx_in in Eg.
      + intros g. destruct (Zs' g). destruct g; split; assumption. }
  split.
  - assert (Sp : Forall (fun o => is_spinner o = true -> forall g, idx_of g o = 0 /\ off_of g o = vzero) (stack_leniency d v len objs3)).
    { apply leniency_spinner. clear -D3. induction D3 as [|fs o l l' (_ & _ & Z0) _ IH]; constructor; auto. intros _ g. now apply Z0. }
    assert (S' : Forall2 (fun o o' => same_but_stack o o' /\ (is_spinner o' = true -> zero_stack o')) objs3 (stack_leniency d v len objs3)).
    { clear -S Sp. induction S as [|o o' l l' A _ IH]; [constructor|]. inversion Sp; subst. constructor; auto. }
    eapply F2_trans; [|exact D3|exact S']. clear.
    intros fs o o' (De & Sd & Zs) [(E1 & E2 & E3 & E4 & E5 & E6 & E7 & E8 & E9 & E10 & E11 & E12) Z']. split; [|split].
    + unfold describes in *. rewrite E1, E2, E3, E4, E5, E12. exact De.
    + intros sd. rewrite E1, E4. apply Sd.
    + intros K. apply Z'. unfold is_spinner. now rewrite K.
  - assert (C3 : forall k o, nth_error objs3 k = Some o -> combo_of played k o).
    { intros k o Hk. destruct (F2_nth_r _ _ _ T k o Hk) as (o2 & H2 & Ti). specialize (C k o2 H2).
      unfold timed in Ti. destruct (ho_kind o2); [now subst|now subst|]. destruct Ti as (sd' & tp & en & p & -> & _). exact C. }
    intros k o Hk. destruct (F2_nth_r _ _ _ S k o Hk) as (o3 & H3 & (E1 & E2 & E3 & E4 & E5 & E6 & E7 & E8 & E9 & E10 & E11 & E12)).
    specialize (C3 k o3 H3). unfold combo_of in *. rewrite E6, E8, E9, E10, E11. exact C3.
Qed.
Lemma finish_some fuel st b : finish_parse fuel st = Ok (Some b) ->
  let tim := tim_of (ds_SliderMult (st_diff st)) (ds_TickRate (st_diff st)) (ts_points (st_time st)) in
  bm_FileVersion b = st_FileVersion st /\ bm_meta b = st_meta st /\ bm_general b = st_general st /\
  bm_SliderMultiplier b = ds_SliderMultiplier (st_diff st) /\ bm_Difficulty b = ds_Difficulty (st_diff st) /\
  bm_events b = st_events st /\ bm_Length b = os_Length (st_objs st) /\ bm_Circles b = os_Circles (st_objs st) /\
  bm_Sliders b = os_Sliders (st_objs st) /\ bm_Spinners b = os_Spinners (st_objs st) /\ bm_MinBPM b = ts_MinBPM (st_time st) /\
  bm_MaxBPM b = ts_MaxBPM (st_time st) /\ bm_Timings b = tim /\
  exists objs3, mapM (set_timing fuel tim) (number_objects 0 1 0 0 false (stable_sort obj_lt (os_objects (st_objs st)))) = Ok objs3 /\
    bm_HitObjects b = stack_leniency (bm_Difficulty b) (bm_FileVersion b) (gn_StackLeniency (bm_general b)) objs3.
Proof.
  unfold finish_parse. cbv zeta. fold (tim_of (ds_SliderMult (st_diff st)) (ds_TickRate (st_diff st)) (ts_points (st_time st))).
  destruct (_ || _); [discriminate|]. intros H. apply bind_ok in H as (objs3 & E & H). injection H as <-.
  cbn [bm_FileVersion bm_meta bm_general bm_SliderMultiplier bm_Difficulty bm_events bm_Length bm_Circles bm_Sliders bm_Spinners bm_MinBPM bm_MaxBPM bm_Timings bm_HitObjects].
  repeat (split; [reflexivity|]). exists objs3. auto.
Qed.
Lemma finish_none fuel st r : finish_parse fuel st = Ok r ->
  (r = None <-> (md_Title (st_meta st) = [] /\ md_Artist (st_meta st) = [] /\ md_Creator (st_meta st) = []) \/ ts_counter (st_time st) = 0).
Proof.
  unfold finish_parse. cbv zeta.
  destruct (str_eqb (md_Title (st_meta st) ++ md_Artist (st_meta st) ++ md_Creator (st_meta st)) []) eqn:E.
  - apply str_eqb_eq in E. apply app_eq_nil in E as [E1 E]. apply app_eq_nil in E as [E2 E3]. cbn [orb].
    intros H. injection H as <-. split; auto.
  - apply str_eqb_neq in E. destruct (ts_counter (st_time st) =? 0) eqn:C; cbn [orb].
    + apply Z.eqb_eq in C. intros H. injection H as <-. split; auto.
    + apply Z.eqb_neq in C. intros H. apply bind_ok in H as (objs3 & _ & H). injection H as <-. split; [discriminate|].
      intros [(E1 & E2 & E3)|?]; [|congruence]. rewrite E1, E2, E3 in E. now contradiction E.
Qed.
End WithLibm.

(** The objects of an ordinary map are tidy. *)
From Coq Require Import Reals Lra ZArith Lia List Bool Permutation.
From Flocq Require Import Core BinarySingleNaN.
From Verif Require Import Parser SpecParser SpecCurves SpecSafety SpecTerm SpecStacking SpecSliders SpecTiming SpecDifficulty SpecDiff SpecSane SpecShape SpecPlay BaseLemmas SortLemmas FloatLemmas Float32Lemmas KeyLemmas BoundLemmas CurveProofs CurveLookup CurveStart CurveBounds TimingProofs SliderProofs StackingProofs ParserProofs ObjectProofs FinishProofs MapProofs ShapeProofs TermProofs DifficultyProofs LazyProofs PPBounds ObjectBounds PathBounds PlayTiming PropTiming PropStacking PropParser PropShape PropDiff.
Import ListNotations.
Open Scope R_scope.

Section WithLibm.
Context {M : libm}.

(** ** Timing points *)
Lemma f2_in {A B} (R : A -> B -> Prop) l l' : Forall2 R l l' -> Forall2 (fun x y => R x y /\ In x l) l l'.
Proof.
  induction 1 as [|x y l l' H F IH]; constructor; [split; [exact H|now left]|]. eapply F2_impl; [|exact IH]. cbv beta. intros a c (K & I). split; [exact K|now right].
Qed.
Lemma f2_left {A B} (R : A -> B -> Prop) l l' : Forall2 R l l' -> forall x, In x l -> exists y, In y l' /\ R x y.
Proof. induction 1 as [|x y l l' H F IH]; intros z [].
  - subst. exists y. split; [now left|exact H].
  - destruct (IH z H0) as (w & I & W). exists w. split; [now right|exact W].
Qed.
Lemma beats_in fuel ls b tr : parse_lines fuel ls = Ok (Some b) -> section_rows ls "TimingPoints" tr -> (forall fs, In fs tr -> beat_ok (parse_f64 (nth 1 fs []))) ->
  forall p, In p (t_points (bm_Timings b)) -> beat_ok (cp_base p).
Proof.
  intros H Ht HB p I. destruct (all_functional ls) as (hr & tr' & ms & gs & ds & Hh & _ & Hm & Hg & Hd). destruct (C55_timing fuel ls b tr ds H Ht Hd) as (EP & _). cbv zeta in EP. rewrite EP in I. apply In_nth_error in I as (i & I).
  assert (F1 : Forall (fun p => cp_base p = cp_beat p) (map timing_point tr)) by (apply Forall_forall; intros x X; apply in_map_iff in X as (fs & <- & _); reflexivity).
  pose proof (timing_fresh tr) as F2.
  destruct (C13_base_beat_length _ F1 i p I) as (k & q & _ & Q & _ & -> & _). destruct (C12_stable_sort _ F2) as (l' & S & P & _). apply nth_error_In in Q.
  destruct (f2_left _ _ _ S q Q) as (r & R & SB). apply (Permutation_in _ (Permutation_sym P)) in R. apply in_map_iff in R as (fs & <- & R). rewrite (same_beat _ _ SB). cbn [cp_beat timing_point]. now apply HB.
Qed.
Lemma point_in tim t p : get_point_at tim t = Ok p -> In p (t_points tim).
Proof. apply idx_in. Qed.

(** ** Sliders *)
Lemma within_vbnd k p : SpecCurves.within k p <-> vbnd k p.
Proof. reflexivity. Qed.
Lemma start_upto fs : place_ok fs -> is_finite (start_of fs) = true /\ Rabs (B2R (start_of fs)) <= 68719476736.
Proof. intros (F & [E|B] & _); (split; [exact F|]); [rewrite E, Rabs_R0; lra|]. change (bpow radix2 36) with 68719476736 in B. lra. Qed.
Lemma start_time fs : place_ok fs -> time_upto (start_of fs).
Proof. intros H. destruct (start_upto fs H) as (F & B). apply Rabs_le_inv in B. split; [exact F|]. change (bpow radix2 38) with 274877906944. lra. Qed.
Lemma ticks_bound (n k : nat) (len t0 : R) : 0 < t0 -> 0 <= len -> (k = 0%nat \/ INR k * (t0 / 2) + t0 <= len + t0 / 2) -> INR n * (2 * len / t0 + 2) <= 65536 -> (Z.of_nat (n * (k + 1)) <= 2 ^ 16)%Z.
Proof.
  intros T L K B. assert (I : 0 < / t0) by (now apply Rinv_0_lt_compat). assert (C : INR k + 1 <= 2 * len / t0 + 2).
  { assert (P : 0 <= 2 * len / t0) by (unfold Rdiv; apply Rmult_le_pos; lra). destruct K as [->|K]; [cbn [INR]; lra|]. assert (X : INR k * (t0 / 2) * (2 * / t0) <= (len + t0 / 2 - t0) * (2 * / t0)) by (apply Rmult_le_compat_r; lra).
    replace (INR k * (t0 / 2) * (2 * / t0)) with (INR k) in X by (field; lra). replace ((len + t0 / 2 - t0) * (2 * / t0)) with (2 * len / t0 - 1) in X by (field; lra). lra. }
  assert (N : 0 <= INR n) by apply pos_INR. pose proof (Rmult_le_compat_l (INR n) _ _ N C) as X. apply le_IZR. change (2 ^ 16)%Z with 65536%Z. rewrite <- INR_IZR_INZ, mult_INR, plus_INR. change (INR 1) with 1. lra.
Qed.
Lemma slider_ok fuel tim fs o : finished fuel tim fs o -> type_of fs = TSlider -> moderate (t_SliderMult tim) -> moderate (t_TickRate tim) ->
  (forall p, In p (t_points tim) -> beat_ok (cp_base p)) -> place_ok fs -> slider_modest (t_SliderMult tim) (t_TickRate tim) fs ->
  vbnd 24 (ho_off o) -> vbnd 24 (ho_offEZ o) -> vbnd 24 (ho_offHR o) -> forall d, tidy 28 d o /\ real_slider o /\ playable o.
Proof.
  intros F T HS HT HB HP (R1 & FP & BP & HM) O1 O2 O3 d. destruct (start_upto fs HP) as (Fst & Bst). pose proof (start_time fs HP) as TS. destruct HP as (_ & _ & VS). apply within_vbnd in VS.
  pose proof (finished_slider fuel tim fs o F T) as (sd & typ & texts & pts & es & K & _ & _ & EC & _ & _ & _ & EP & TI). destruct (TI R1) as (tp & ds & Etp & X). clear TI. cbv zeta in X. destruct X as (ES & EE & ED & PE).
  assert (G : ho_start o = start_of fs /\ ho_startPos o = mkVec (parse_f32 (field 0 fs)) (parse_f32 (field 1 fs)) /\ sl_repeat sd = parse_int (field 6 fs) /\ sl_pixelLength sd = parse_f64 (field 7 fs) /\ exists n, row_curve n fs = Ok (sl_curve sd)).
  { destruct F as (o0 & o1 & o2 & C & (nc & id & n & s & h & ->) & Ti & S). destruct S as (S1 & S2 & S3 & S4 & _).
    destruct (slider_row fuel fs o0 C T) as (ty & tx & ps & mc & e & _ & _ & _ & _ & _ & SP & ST & _ & K0 & _). pose proof (create_row fuel fs o0 C _ K0) as (m & fs' & [<-|[]] & _ & RC & _). cbn [sl_curve] in RC.
    unfold set_timing in Ti. cbn [ho_kind with_combo] in Ti. rewrite K0 in Ti. pose proof Ti as Ti'. apply set_timing_ok in Ti as (sd' & tp' & ds' & TD); [|exact R1]. destruct TD as [_ TK TSt _ _ (TC & TR & TPx & _) _ _].
    assert (E : sd' = sd) by (rewrite S1, TK in K; now injection K). subst sd'. cbn [sl_curve sl_repeat sl_pixelLength] in TC, TR, TPx.
    unfold slider_set_timing in Ti'. apply bind_ok in Ti' as (tq & _ & Ti'). cbv zeta in Ti'. apply bind_ok in Ti' as (tss & _ & Ti'). apply bind_ok in Ti' as (q & _ & Ti'). apply Ok_inj in Ti'.
    split; [rewrite S4, TSt; exact ST|]. split; [rewrite S2, <- Ti'; exact SP|]. split; [exact TR|]. split; [exact TPx|]. exists m. now rewrite TC. }
  destruct G as (GS & GP & GR & GX & (m & RC)). destruct (HM m _ RC) as (FL & LI & NL & TN). clear HM.
  pose proof (new_multicurve_t_built _ _ _ _ _ EC) as (ls0 & p & r & _ & PP & EM). assert (P0 : p = ho_startPos o) by (rewrite GP; now injection PP). clear PP. set (ls := if ggt (total_length ls0) g0 then _ else ls0) in EM. clearbody ls.
  rewrite EM in FL, LI, NL, TN, ES, EE, ED, PE. cbn [mc_length mc_lines finish_curve] in FL, LI, NL, TN, ES, EE, ED, PE.
  assert (LP : 0 <= B2R (total_length ls)) by (destruct (distance_range ls g0 FL eq_refl) as (_ & A); lra). pose proof (grainy_g _ FL LP) as GR0. destruct (f_of_g_fin _ FL) as (FLL & ELL).
  set (len := f_of_g (total_length ls)) in *. unfold grainy in GR0. rewrite <- ELL in LP, NL, TN. set (n := parse_int (field 6 fs)) in *.
  destruct (moderate_val _ HS) as (FS & BS). destruct (moderate_val _ HT) as (FT & BT). set (t0 := Rmin (B2R (parse_f64 (field 7 fs))) (9 * B2R (t_SliderMult tim) / B2R (t_TickRate tim))) in *.
  assert (T0 : / 16 * / 16 * / 16 <= t0). { destruct (quot_in (9 * B2R (t_SliderMult tim)) (B2R (t_TickRate tim)) (9 / 16) 144 (/ 16) 16 ltac:(lra) ltac:(lra) ltac:(lra) ltac:(lra)) as (A & _). unfold t0. apply Rmin_glb; lra. }
  assert (Bn : (1 <= n <= 65536)%Z).
  { split; [exact R1|]. apply le_IZR. assert (P : 0 <= 2 * B2R len / t0) by (unfold Rdiv; apply Rmult_le_pos; [lra|left; apply Rinv_0_lt_compat; lra]). assert (N1 : 1 <= IZR n) by (apply IZR_le; lia).
    assert (X : IZR n * 2 <= IZR n * (2 * B2R len / t0 + 2)) by (apply Rmult_le_compat_l; lra). lra. }
  destruct (velocity_in tim tp HS HT (HB tp (point_in _ _ _ Etp))) as (Fv & Bv). set (v := get_velocity tim tp) in *.
  pose proof (len_in len n GR0 Bn NL) as BL.
  destruct (step_in tim tp HS HT sd) as (Fstep & Bstep); [rewrite GX; exact FP|rewrite GX; exact BP|]. rewrite GX in Bstep. fold t0 in Bstep.
  assert (DS : Forall (fun x => fin x /\ 0 < B2R x <= B2R len) ds /\ (length ds = 0%nat \/ INR (length ds) * (t0 / 2) + t0 <= B2R len + t0 / 2)).
  { destruct (fisnan (cp_beat tp)); [subst ds; split; [constructor|now left]|]. destruct (distances_count _ len _ t0 Fstep FLL T0 Bstep BL _ ds Fstep ltac:(lra) ED) as [(A & B)| ->]; [|split; [constructor|now left]].
    split; [eapply Forall_impl; [|exact A]; cbv beta; intros x (Fx & Bx); split; [exact Fx|lra]|right; lra]. }
  destruct DS as (DF & DC). rewrite ES in PE. rewrite EE in PE. pose proof (all_points_in (start_of fs) len v n Fst Bst FLL GR0 Bn NL Fv Bv ds DF) as AP.
  destruct (end_in (start_of fs) len v n Fst Bst FLL GR0 Bn NL Fv Bv) as (Fe & Be). rewrite <- EE in Fe, Be. apply Rabs_le_inv in Bst.
  destruct (span_in len v n FLL GR0 Bn NL Fv Bv) as (Fsp & Bsp & _ & Lsp). rewrite <- ES in Fsp, Bsp, Lsp.
  assert (TE : time_upto (ho_end o)) by (split; [exact Fe|]; change (bpow radix2 38) with 274877906944; lra).
  assert (LN : length (sl_ticks sd) = (Z.to_nat n * (length ds + 1))%nat). { rewrite (Permutation_length PE), flat_map_concat_map, points_count, seq_length. lia. }
  assert (TL : (zlen (sl_ticks sd) <= 2 ^ 16)%Z). { unfold zlen. rewrite LN. apply (ticks_bound _ _ (B2R len) t0); [lra|lra|exact DC|]. rewrite INR_IZR_INZ, Z2Nat.id by lia. exact TN. }
  assert (TT : Forall (fun t => time_upto (tk_Time t)) (sl_ticks sd)). { apply Forall_forall. intros t I. rewrite Forall_forall in AP. apply AP. exact (Permutation_in _ PE I). }
  assert (VP : vbnd 14 p) by (rewrite P0, GP; exact VS). assert (LL : Forall (lin (vbnd 14)) ls) by exact LI.
  assert (SP : (fin (sl_span sd) /\ bpow radix2 (-200) <= B2R (sl_span sd)) \/ geq (total_length ls) g0 = true \/ ls = []).
  { destruct Lsp as [Z0|L]; [right; left|left; auto]. apply geq_iff. rewrite ELL in Z0. split; [apply fin_num, FL|]. split; [reflexivity|]. rewrite (key_fin 24 128 _ FL), Z0. reflexivity. }
  assert (OR : B2R (ho_start o) <= B2R (ho_end o)) by (rewrite GS; lra). rewrite <- GS in TS.
  assert (VE : vbnd 16 (ho_endPos o)).
  { unfold position_at in EP. rewrite K in EP. unfold slider_position_at in EP. destruct (is_retarded _ _); [apply Ok_inj in EP; rewrite <- EP, GP; apply (vbnd_le 14); [lia|exact VS]|]. rewrite EM in EP.
    assert (T40 : forall x, time_upto x -> SpecPP.within (- bpow radix2 40) (bpow radix2 40) x). { intros x (A & B). split; [exact A|]. assert (bpow radix2 38 <= bpow radix2 40) by (apply bpow_le; lia). lra. }
    destruct SP as [(_ & Bs')|DEG].
    - destruct (progress_num _ _ (sl_span sd) _ (T40 _ TS) (T40 _ TE) (T40 _ TE) OR Fsp Bs') as (Fp & Bp). apply (point_near ls p 14 _ _ ltac:(lia) FL) in EP; [exact EP| |exact VP|exact LL]. apply fin_num. apply g_of_f_fin; [exact Fp|]. rewrite Rabs_pos_eq by lra. apply Rle_trans with 1; [lra|]. change 1 with (bpow radix2 0). apply bpow_le. lia.
    - assert (E : mc_point_at (finish_curve ls p) (g_of_f (slider_progress (ho_start o) (ho_end o) (sl_span sd) (ho_end o))) = Ok p). { unfold mc_point_at. cbn [mc_lines finish_curve mc_length mc_first]. destruct ls; [reflexivity|]. destruct DEG as [->|DEG]; [reflexivity|discriminate DEG]. }
      rewrite E in EP. apply Ok_inj in EP. rewrite <- EP. apply (vbnd_le 14); [lia|exact VP]. }
  assert (VS' : vbnd 14 (ho_startPos o)) by (rewrite GP; exact VS).
  split; [|split].
  - apply (slider_tidy d o sd ls p 24); auto; try lia; try (apply (vbnd_le 14); [lia|assumption]); try (apply (vbnd_le 16); [lia|assumption]); try (rewrite GR; exact Bn).
    eapply Forall_impl; [|exact LL]. intros l (A & B). split; apply (vbnd_le 14); try lia; assumption.
  - intros sd' K'. rewrite K in K'. assert (E : sd' = sd) by (now injection K'). subst sd'. exists fuel, typ, (mkVec (parse_f32 (field 0 fs)) (parse_f32 (field 1 fs)) :: pts), (parse_f64 (field 7 fs)). exact EC.
  - intros sd' K'. rewrite K in K'. assert (E : sd' = sd) by (now injection K'). subst sd'. intros E. rewrite E in LN. cbn [length] in LN. lia.
Qed.

(** ** Offsets of stacks *)
Lemma offset_bnd g d v len objs o : In o (stack_leniency d v len objs) -> ho_kind o <> KSpinner -> base_ok (d_cs d) -> base_ok (d_od d) -> base_ok (d_ar d) ->
  (Z.abs (idx_of g o) <= 2 ^ 20)%Z -> vbnd 24 (off_of g o).
Proof.
  intros I K Hc Ho Ha L. destruct (C29_offset_real g d v len objs o I K Hc Ho Ha ltac:(lia)) as (EQ & F & B).
  destruct (attrs_range (d_hp d) (d_cs d) (d_od d) (d_ar d) (mask_of g) (fq 1 1) Hc Ho Ha) as ((R1 & R2) & _). cbv zeta in *. change (d_CircleRadius (SpecDifficulty.built (d_hp d) (d_cs d) (d_od d) (d_ar d) (mask_of g) (fq 1 1))) with (d_CircleRadius (diff_for g d)) in R1, R2.
  destruct (fle_between (fq 96 10) _ (fq 544 10) eq_refl eq_refl R1 R2) as [_ B0]. set (r := B2R (d_CircleRadius (diff_for g d))) in *. bval (fq 96 10). bval (fq 544 10). rewrite V, V0 in B0. clear V V0.
  assert (ID : Rabs (- IZR (idx_of g o) * r / 10) <= 1048576 * 60 / 10).
  { unfold Rdiv. rewrite !Rabs_mult, Rabs_Ropp, (Rabs_pos_eq r), (Rabs_pos_eq (/ 10)) by lra. apply Rmult_le_compat_r; [lra|]. apply Rmult_le_compat; [apply Rabs_pos|lra| |lra]. rewrite <- abs_IZR. apply (IZR_le _ 1048576). lia. }
  assert (X : Rabs (B2R (vx (off_of g o))) <= bpow radix2 24). { change (bpow radix2 24) with 16777216. pose proof (Rabs_triang_inv (B2R (vx (off_of g o))) (- IZR (idx_of g o) * r / 10)) as T. lra. }
  split; split; try (rewrite <- EQ); assumption.
Qed.
Lemma vzero_bnd k : vbnd k vzero.
Proof. split; (split; [reflexivity|]); cbn [vx vy vzero]; change (B2R g0) with 0; rewrite Rabs_R0; apply bpow_ge_0. Qed.
Lemma tidy_up p q d o : (p <= q)%Z -> tidy p d o -> tidy q d o.
Proof.
  intros L [A B C D E]. assert (U : forall v, point_upto p v -> point_upto q v) by (intros v; exact (vbnd_le p q v L)). split; auto. intros t v T H. apply U. exact (C t v T H).
Qed.

(** ** The whole map *)
Record fit (b : beatmap) : Prop := {
  ft_tidy : forall d, Forall (tidy 32 d) (bm_HitObjects b); ft_real : Forall real_slider (bm_HitObjects b); ft_play : Forall playable (bm_HitObjects b);
  ft_order : in_order (bm_HitObjects b);
  ft_start : Forall (fun o => is_finite (ho_start o) = true /\ (B2R (ho_start o) = 0 \/ 1 <= Rabs (B2R (ho_start o)) <= 281474976710656)) (bm_HitObjects b);
  ft_count : (zlen (bm_HitObjects b) + sum_points (bm_HitObjects b) <= 2 ^ 31)%Z;
  ft_base : base_ok (d_cs (bm_Difficulty b)) /\ base_ok (d_od (bm_Difficulty b)) /\ base_ok (d_ar (bm_Difficulty b)) }.
Lemma order_of rs objs : Forall2 (fun fs o => ho_start o = start_of fs /\ is_finite (start_of fs) = true) rs objs ->
  (forall i j a b, (i < j)%nat -> nth_error rs i = Some a -> nth_error rs j = Some b -> fle (start_of a) (start_of b) = true) -> in_order objs.
Proof.
  induction 1 as [|fs o rs objs (E & F) FA IH]; intros H; [exact I|]. assert (IO : in_order objs) by (apply IH; intros i j a c L A C; apply (H (S i) (S j) a c); [lia|exact A|exact C]).
  cbn [in_order]. destruct FA as [|fs' o' rs objs (E' & F') FA]; [exact I|]. split; [|exact IO]. rewrite E, E'. apply ValueBounds.fle_fin; auto. apply (H 0%nat 1%nat); [lia|reflexivity|reflexivity].
Qed.
Lemma points_sum objs d : Forall (tidy 32 d) objs -> (sum_points objs <= zlen objs * 2 ^ 16)%Z.
Proof.
  induction 1 as [|o objs T F IH]; [cbn; lia|]. cbn [sum_points fold_right]. fold (sum_points objs). assert (ZL : zlen (o :: objs) = (1 + zlen objs)%Z) by (unfold zlen; cbn [length]; lia). rewrite ZL. assert (S : (score_points o <= 2 ^ 16)%Z). { unfold score_points. destruct (ho_kind o) as [| |sd] eqn:K; try lia. destruct (ti_slider _ _ _ T sd K) as (_ & A & _). exact A. } lia.
Qed.
Lemma map_fit fuel ls b : parse_lines fuel ls = Ok (Some b) -> rates_ok ls -> ordinary ls -> low_stacks b -> fit b.
Proof.
  intros H HR HO LS. destruct (all_functional ls) as (hr & tr & ms & gs & ds & Hh & Ht & Hm & Hg & Hd). destruct (HO hr tr ds Hh Ht Hd) as (PO & BO & CO & NA). clear HO. destruct (HR ds Hd) as (MS & MT). clear HR.
  destruct (C55_timing fuel ls b tr ds H Ht Hd) as (_ & _ & ES & ET & _). cbv zeta in ES, ET. rewrite <- ES in MS, PO. rewrite <- ET in MT, PO.
  assert (BA : base_ok (d_cs (bm_Difficulty b)) /\ base_ok (d_od (bm_Difficulty b)) /\ base_ok (d_ar (bm_Difficulty b))).
  { inversion NA as [|x y N1 NA1]; subst. inversion NA1 as [|x y N2 NA2]; subst. inversion NA2 as [|x y N3 _]; subst. destruct (C20_range fuel ls b ds H Hd) as (_ & R1 & R2 & R3). cbv zeta in *. rewrite N1 in R1. rewrite N2 in R2, R3. rewrite N3 in R3. split; [exact R1|]. split; [exact R2|]. destruct (values "ApproachRate" ds); exact R3. }
  pose proof BA as (B1 & B2 & B3). pose proof (pipeline fuel ls b hr H Hh) as PI. pose proof (beats_in fuel ls b tr H Ht BO) as BI.
  destruct (map_facts fuel ls b hr tr ms gs ds H Hh Ht Hm Hg Hd) as (_ & _ & _ & _ & _ & _ & _ & _ & _ & FD & _ & (objs0 & EO)).
  set (rows := stable_sort row_lt (filter is_object hr)) in *. assert (PE : Permutation (filter is_object hr) rows) by apply sort_perm.
  assert (RI : forall fs, In fs rows -> In fs hr /\ is_object fs = true) by (intros fs I; apply (Permutation_in _ (Permutation_sym PE)), filter_In in I; exact I).
  pose proof (F2_and _ _ _ _ PI FD) as F3.
  assert (F4 : Forall2 (fun fs o => (finished fuel (bm_Timings b) fs o /\ describes fs o /\ (ho_kind o = KSpinner -> zero_stack o)) /\ place_ok fs /\ (type_of fs = TSlider -> slider_modest (t_SliderMult (bm_Timings b)) (t_TickRate (bm_Timings b)) fs)) rows (bm_HitObjects b)).
  { eapply F2_impl; [|exact (f2_in _ _ _ F3)]. cbv beta. intros fs o ((A & B & _ & C) & I). destruct (RI fs I) as (I1 & I2). destruct (PO fs I1 I2) as (P1 & P2). auto. }
  assert (OB : forall o, In o (bm_HitObjects b) -> (ho_kind o = KSpinner -> zero_stack o) -> forall g, vbnd 24 (off_of g o)).
  { intros o I Z0 g. destruct (ho_kind o) eqn:K.
    2: { rewrite (proj2 (Z0 eq_refl g)). apply vzero_bnd. }
    all: apply (offset_bnd g (bm_Difficulty b) (bm_FileVersion b) (gn_StackLeniency (bm_general b)) objs0); auto; [rewrite <- EO; exact I|rewrite K; discriminate]. }
  assert (EA : Forall (fun o => (forall d, tidy 32 d o) /\ real_slider o /\ playable o /\ is_finite (ho_start o) = true /\ (B2R (ho_start o) = 0 \/ 1 <= Rabs (B2R (ho_start o)) <= 281474976710656)) (bm_HitObjects b)).
  { apply Forall_forall. intros o I. destruct (Forall2_In_r _ _ _ F4 o I) as (fs & IF & (FI & DE & Z0) & PL & SM). pose proof (OB o I Z0) as OF. pose proof (OF GNM) as O1. pose proof (OF GEZ) as O2. pose proof (OF GHR) as O3. cbn [off_of] in O1, O2, O3.
    assert (ST : ho_start o = start_of fs) by apply DE. assert (SP : ho_startPos o = mkVec (parse_f32 (field 0 fs)) (parse_f32 (field 1 fs))) by apply DE.
    assert (PT : is_finite (ho_start o) = true /\ (B2R (ho_start o) = 0 \/ 1 <= Rabs (B2R (ho_start o)) <= 281474976710656)).
    { rewrite ST. destruct PL as (A & B & _). split; [exact A|]. change (bpow radix2 36) with 68719476736 in B. destruct B as [B|B]; [now left|right; lra]. }
    assert (NS : (forall sd, ho_kind o <> KSlider sd) -> ho_endPos o = ho_startPos o -> (forall d, tidy 32 d o) /\ real_slider o /\ playable o).
    { intros NK EN. split; [|split; intros sd K; destruct (NK sd K)]. intros d. apply (tidy_up 28); [lia|]. assert (VS : vbnd 24 (ho_startPos o)) by (rewrite SP; apply (vbnd_le 14); [lia|apply PL]). apply (plain_tidy d o 24); auto; [lia|rewrite EN; exact VS|]. rewrite ST. now apply start_time. }
    destruct (RI fs IF) as (_ & IO). unfold is_object in IO. destruct (type_of fs) eqn:T; try discriminate IO; destruct DE as (_ & _ & _ & DE); rewrite T in DE.
    - destruct DE as (K & _ & EN). destruct NS as (A & B & C); auto. intros sd. now rewrite K.
    - destruct DE as (K & _ & EN). destruct NS as (A & B & C); auto. intros sd. now rewrite K.
    - destruct (slider_ok fuel (bm_Timings b) fs o FI T MS MT BI PL (SM eq_refl) O1 O2 O3 (bm_Difficulty b)) as (_ & B & C). split; [|auto]. intros d. apply (tidy_up 28); [lia|]. apply (slider_ok fuel (bm_Timings b) fs o FI T MS MT BI PL (SM eq_refl) O1 O2 O3 d). }
  assert (TY : forall d, Forall (tidy 32 d) (bm_HitObjects b)) by (intros d; eapply Forall_impl; [|exact EA]; now intros o (A & _)).
  split; auto.
  - eapply Forall_impl; [|exact EA]. now intros o (_ & A & _).
  - eapply Forall_impl; [|exact EA]. now intros o (_ & _ & A & _).
  - apply (order_of rows); [eapply F2_impl; [|exact F4]; intros fs o ((_ & D & _) & P & _); split; [apply D|apply P]|].
    assert (NN : Forall (fun fs => fisnan (start_of fs) = false) (filter is_object hr)). { apply Forall_forall. intros fs I. apply filter_In in I as (I & J). destruct (PO fs I J) as ((F & _) & _). destruct (start_of fs); [reflexivity|discriminate F|discriminate F|reflexivity]. }
    apply (row_play_order _ NN).
  - eapply Forall_impl; [|exact EA]. now intros o (_ & _ & _ & A).
  - pose proof (points_sum _ _ (TY (bm_Difficulty b))) as S. assert (L : zlen (bm_HitObjects b) = zlen (filter is_object hr)) by (unfold zlen; rewrite (Permutation_length PE); f_equal; symmetry; clear - F4; induction F4; cbn [length]; lia). rewrite L in *. lia.
Qed.
End WithLibm.

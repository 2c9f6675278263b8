(** C45 (performance points) and C47-C52: PPv2x. *)
From Coq Require Import Reals Lra.
From Flocq Require Import Raux Zaux Core BinarySingleNaN.
From Verif Require Import SpecMods SpecDifficulty ModsProofs PP SpecPP BaseLemmas FloatLemmas Float32Lemmas SkillProofs CurveProofs PPProofs PPBounds PPChains PPFinal PPMono PPDiff.
Open Scope Z_scope.

Section WithLibm.
Context {M : libm}.

(** C45.  With Relax there is no accuracy pp; without Flashlight there is no
    flashlight pp, and the flashlight rating has no influence on anything. *)
Theorem C45_pp_relax : forall pp a combo n300 n100 n50 nmiss d, Z.testbit (d_Mods d) bRX = true ->
  r_Acc (pp_Results (ppv2x pp a combo n300 n100 n50 nmiss d)) = f0.
Proof. intros pp a combo n300 n100 n50 nmiss d R. rewrite results_at. unfold results_of. cbn [r_Acc]. unfold compute_acc. change Relax with (2 ^ 7). rewrite mactive_bit by lia. unfold bRX in R. rewrite R. reflexivity. Qed.
Theorem C45_pp_flashlight : forall pp a combo n300 n100 n50 nmiss d, Z.testbit (d_Mods d) bFL = false ->
  r_Flashlight (pp_Results (ppv2x pp a combo n300 n100 n50 nmiss d)) = f0 /\
  forall x, pp_Results (ppv2x pp (with_flashlight a x) combo n300 n100 n50 nmiss d) = pp_Results (ppv2x pp a combo n300 n100 n50 nmiss d).
Proof.
  intros pp a combo n300 n100 n50 nmiss d R. assert (K : check_mod d Flashlight = false) by (unfold check_mod; change Flashlight with (2 ^ 10); rewrite mactive_bit by lia; exact R).
  assert (F : forall p, compute_flashlight p d = f0) by (intros p; unfold compute_flashlight; rewrite K; reflexivity).
  split; [rewrite results_at; apply F|]. intros x. refine (eq_trans (results_at _ _ _ _ _ _ _ _) (eq_trans _ (eq_sym (results_at _ _ _ _ _ _ _ _)))). unfold results_of. rewrite !F.
  unfold stated, compute_aim, compute_speed, compute_acc, capped, with_flashlight, effective_miss_count. cbv zeta.
  cbn [pp_Results pp_attribs pp_scoreMaxCombo pp_great pp_ok pp_meh pp_miss pp_effMiss pp_diff pp_totalHits pp_accuracy pp_accObjects at_Total at_Aim at_SliderFactor at_Speed at_Flashlight at_ObjectCount at_Circles at_Sliders at_Spinners at_MaxCombo]. reflexivity.
Qed.


(** C47.  A negative combo means the map's max combo (at least 1), a negative
    300 count the objects left over by the other counts. *)
Theorem C47_combo : forall pp a combo n300 n100 n50 nmiss d, combo < 0 ->
  ppv2x pp a combo n300 n100 n50 nmiss d = ppv2x pp a (Z.max 1 (at_MaxCombo a)) n300 n100 n50 nmiss d.
Proof.
  intros pp a combo n300 n100 n50 nmiss d C. apply ppv2x_ext.
  unfold stated. rewrite (proj2 (Z.ltb_lt combo 0) C), (proj2 (Z.ltb_ge (Z.max 1 (at_MaxCombo a)) 0)) by lia. change (at_MaxCombo (capped a)) with (maxI 1 (at_MaxCombo a)). rewrite maxI_max. reflexivity.
Qed.
Theorem C47_greats : forall pp a combo n300 n100 n50 nmiss d, n300 < 0 ->
  0 <= at_ObjectCount a - n100 - n50 - nmiss < 2 ^ 63 ->
  ppv2x pp a combo n300 n100 n50 nmiss d = ppv2x pp a combo (at_ObjectCount a - n100 - n50 - nmiss) n100 n50 nmiss d.
Proof.
  intros pp a combo n300 n100 n50 nmiss d C B. apply ppv2x_ext.
  unfold stated. rewrite (proj2 (Z.ltb_lt n300 0) C), (proj2 (Z.ltb_ge (at_ObjectCount a - n100 - n50 - nmiss) 0)) by lia. change (at_ObjectCount (capped a)) with (at_ObjectCount a).
  assert (W : wrap64 (wrap64 (wrap64 (at_ObjectCount a - n100) - n50) - nmiss) = at_ObjectCount a - n100 - n50 - nmiss); [|now rewrite W].
  rewrite <- (wrap_id (at_ObjectCount a - n100 - n50 - nmiss)) by (unfold int64; lia). apply wrap_same.
  destruct (wrap_mod (at_ObjectCount a - n100)) as (k & ->). destruct (wrap_mod (at_ObjectCount a - n100 + k * 2 ^ 64 - n50)) as (k' & ->). exists (k + k'). ring.
Qed.

(** C48.  What PPv2x leaves in the receiver and returns depends on its
    arguments only: after any history of calls it is what a fresh PPv2 gives. *)
Theorem C48_no_memory : forall pp pp' s, pp_call pp s = pp_call pp' s.
Proof.
  intros pp pp' s. unfold pp_call, ppv2x, compute_aim, compute_speed, compute_acc, compute_flashlight. cbv zeta.
  cbn [pp_Results pp_attribs pp_scoreMaxCombo pp_great pp_ok pp_meh pp_miss pp_effMiss pp_diff pp_totalHits pp_accuracy pp_accObjects]. reflexivity.
Qed.
Theorem C48_history : forall (h : list score) pp fresh s, fold_left pp_call (h ++ [s]) pp = pp_call fresh s.
Proof. intros h pp fresh s. rewrite fold_left_app. cbn [fold_left]. apply C48_no_memory. Qed.

(** C49.  Accuracy is a number in [0,1] whatever the hit counts, ... *)
Theorem C49_unit : forall pp a combo n300 n100 n50 nmiss d, int64 n300 -> int64 n100 -> int64 n50 ->
  within 0 1 (pp_accuracy (ppv2x pp a combo n300 n100 n50 nmiss d)).
Proof.
  intros pp a combo n300 n100 n50 nmiss d I1 I2 I3. rewrite accuracy_at, accuracy_stated. cbv zeta. apply acc_unit; auto; [|apply wrap_range].
  destruct (n300 <? 0); [apply wrap_range|exact I1].
Qed.
(** ... 1 when everything is a 300, 0 when nothing is hit, ... *)
Theorem C49_perfect : forall pp a combo n d, 0 < n < 2 ^ 63 -> pp_accuracy (ppv2x pp a combo n 0 0 0 d) = fq 1 1.
Proof.
  intros pp a combo n d N. rewrite accuracy_at, accuracy_stated. cbv zeta. rewrite (proj2 (Z.ltb_ge n 0)), !Z.add_0_r, !(wrap_id n) by (unfold int64; lia). now apply acc_perfect.
Qed.
Theorem C49_none : forall pp a combo nmiss d, 0 <= nmiss < 2 ^ 63 -> feq (pp_accuracy (ppv2x pp a combo 0 0 0 nmiss d)) f0 = true.
Proof.
  intros pp a combo n d N. rewrite accuracy_at, accuracy_stated. cbv zeta. cbn [Z.ltb Z.compare]. change (wrap64 (wrap64 (0 + 0) + 0)) with 0. rewrite Z.add_0_l, wrap_id by (unfold int64; lia).
  unfold pp_acc. destruct (Z.eqb_spec n 0) as [E|E]; [reflexivity|].
  replace (fadd (fadd (fmul (f_of_Z 0) (fq 50 1)) (fmul (f_of_Z 0) (fq 100 1))) (fmul (f_of_Z 0) (fq 300 1))) with f0 by (apply B2SF_eq; vm_compute; reflexivity).
  assert (I : int64 n) by (unfold int64; lia). destruct (fZ_int n I) as (F & B & _). destruct (fq1_exact 300) as (F3 & V3); [lia|].
  assert (P1 : (1 <= B2R (f_of_Z n))%R) by (destruct (fZ_rnd n I) as (_ & ->); apply (rnd64_exact_Z' 1); [lia|apply IZR_le; lia]). rewrite Rabs_pos_eq in B by lra.
  destruct (fmul_fin _ _ F F3) as (Fm & Em).
  { rewrite V3, Rabs_pos_eq by lra. apply Rle_trans with (bpow radix2 72); [change (bpow radix2 72) with (IZR (2 ^ 72)); lra|apply bpow_le; lia]. }
  assert (P : (1 <= B2R (fmul (f_of_Z n) (fq 300 1)))%R) by (rewrite Em, V3; apply (rnd64_exact_Z' 1); [lia|lra]).
  set (x := fmul _ _) in *. clearbody x. destruct x as [s|s| |s m e b]; try discriminate Fm; [cbn in P; lra|]. destruct s; [|vm_compute; reflexivity].
  exfalso. pose proof (F2R_lt_0 radix2 (Float radix2 (Zneg m) e) ltac:(reflexivity)) as NEG. change (B2R (B754_finite true m e b)) with (F2R (Float radix2 (Zneg m) e)) in P. lra.
Qed.
(** ... and in general the correctly rounded share of points. *)
Theorem C49_value : forall pp a combo n300 n100 n50 nmiss d, hits_upto (2 ^ 40) n300 n100 n50 nmiss -> 0 < n300 + n100 + n50 + nmiss ->
  let acc := pp_accuracy (ppv2x pp a combo n300 n100 n50 nmiss d) in
  is_finite acc = true /\ B2R acc = rnd64 (IZR (300 * n300 + 100 * n100 + 50 * n50) / IZR (300 * (n300 + n100 + n50 + nmiss))).
Proof.
  intros pp a combo n300 n100 n50 nmiss d (H1 & H2 & H3 & H4 & H5) T. cbv zeta. rewrite accuracy_at, accuracy_stated. cbv zeta.
  rewrite (proj2 (Z.ltb_ge n300 0)) by lia. rewrite (wrap_id (n300 + n100)), (wrap_id (n300 + n100 + n50)), (wrap_id (n300 + n100 + n50 + nmiss)) by (unfold int64; lia).
  apply acc_value; lia.
Qed.

(** C50.  The effective misses lie between the misses and the hits, ... *)
Theorem C50_bounds : forall pp a combo n300 n100 n50 nmiss d, attrs_ok a -> hits_upto (2 ^ 31) n300 n100 n50 nmiss -> 0 <= combo <= 2 ^ 31 ->
  nmiss <= pp_effMiss (ppv2x pp a combo n300 n100 n50 nmiss d) <= n300 + n100 + n50 + nmiss.
Proof. intros pp a combo n300 n100 n50 nmiss d A H C. rewrite eff_at. now apply eff_st. Qed.
(** ... are the misses on maps without sliders and at full combo (outside
    Relax, where 100s and 50s count as misses too), ... *)
Theorem C50_exact : forall pp a combo n300 n100 n50 nmiss d, attrs_ok a -> hits_upto (2 ^ 31) n300 n100 n50 nmiss -> 0 <= combo <= 2 ^ 31 ->
  at_Sliders a = 0 \/ Z.max 1 (at_MaxCombo a) <= combo ->
  pp_effMiss (ppv2x pp a combo n300 n100 n50 nmiss d) = if Z.testbit (d_Mods d) bRX then nmiss + n100 + n50 else nmiss.
Proof.
  intros pp a combo n300 n100 n50 nmiss d A H C F. rewrite eff_at. destruct (st_fields pp a n300 n100 n50 nmiss d A H combo C) as (_ & _ & _ & _ & _ & _ & _ & _ & -> & _).
  destruct (ea_ok a A) as (_ & _ & C64). pose proof H as (H1 & H2 & H3 & H4 & H5). change Relax with (2 ^ 7). rewrite mactive_bit by lia. change bRX with 7. rewrite eff_full; auto; try (unfold int64; lia).
  - destruct (Z.testbit _ _); [|reflexivity]. lia.
  - change (at_Sliders (capped a)) with (at_Sliders a). change (at_MaxCombo (capped a)) with (maxI 1 (at_MaxCombo a)). rewrite maxI_max. exact F.
Qed.
(** ... and do not increase with the combo. *)
Theorem C50_combo : forall pp a combo combo' n300 n100 n50 nmiss d, attrs_ok a -> hits_upto (2 ^ 31) n300 n100 n50 nmiss -> 0 <= combo <= combo' -> combo' <= 2 ^ 31 ->
  pp_effMiss (ppv2x pp a combo' n300 n100 n50 nmiss d) <= pp_effMiss (ppv2x pp a combo n300 n100 n50 nmiss d).
Proof. intros pp a combo combo' n300 n100 n50 nmiss d A H C C'. rewrite (eff_at pp a combo n300), (eff_at pp a combo' n300). now apply eff_st_anti. Qed.

(** C51.  For a real map, difficulty and score every pp value is a
    non-negative finite number. *)
Theorem C51_valid : forall pp a combo n300 n100 n50 nmiss d, pow_ranges -> log_above ->
  attrs_ok a -> diff_ok d -> hits_upto (2 ^ 31) n300 n100 n50 nmiss -> 0 <= combo <= 2 ^ 31 ->
  (Z.testbit (d_Mods d) bSO = true -> at_Spinners a <= n300 + n100 + n50 + nmiss) ->
  valid_results (pp_Results (ppv2x pp a combo n300 n100 n50 nmiss d)).
Proof.
  intros pp a combo n300 n100 n50 nmiss d PR LR A D H C SP. rewrite results_at.
  assert (SO : spun_ok a d (n300 + n100 + n50 + nmiss)) by (intros S; apply SP; change SpunOut with (2 ^ 12) in S; rewrite mactive_bit in S by lia; exact S).
  destruct (all_bd PR LR pp a n300 n100 n50 nmiss d A D H combo C SO) as (B1 & B2 & B3 & B4 & B5). exists (bpow radix2 406).
  split; [apply bd_within, (le2_le 200); [lia|exact B1]|]. split; [apply bd_within, (le2_le 200); [lia|exact B2]|]. split; [apply bd_within, (le2_le 200); [lia|exact B3]|]. split; [apply bd_within, (le2_le 200); [lia|exact B4]|]. apply bd_within. exact B5.
Qed.
(** Negative arguments, meaning "full combo" and "300s on everything else",
    included. *)
Theorem C51_defaults : forall pp a n100 n50 nmiss d, pow_ranges -> log_above -> attrs_ok a -> diff_ok d ->
  0 <= n100 -> 0 <= n50 -> 0 <= nmiss -> n100 + n50 + nmiss <= at_ObjectCount a -> at_Spinners a <= at_ObjectCount a ->
  valid_results (pp_Results (ppv2x pp a (-1) (-1) n100 n50 nmiss d)).
Proof.
  intros pp a n100 n50 nmiss d PR LR A D H1 H2 H3 H4 S. pose proof A as (_ & _ & _ & _ & O & _ & _ & _ & MC). rewrite C47_combo, C47_greats by lia. apply C51_valid; auto; try lia. unfold hits_upto. lia.
Qed.
End WithLibm.

(** The difficulties C51 asks for: any base values in [0,10], all mods, clock
    rates from 1/8 to 8. *)
Theorem C51_difficulty : forall hp cs od ar m sp, base_ok od -> base_ok ar -> within (1 / 8) 8 sp -> diff_ok (SpecDifficulty.built hp cs od ar m sp).
Proof. exact built_ok. Qed.

Section WithLibm.
Context {M : libm}.
(** One object and two misses: the speed value is NaN, and so is the total,
    when math.Pow returns NaN for a negative number to a fractional power and
    for NaN, as documented. *)
Definition pow_nan : Prop :=
  (forall x y, flt x f0 = true -> flt (fq 1 1) y = true -> flt y (fq 2 1) = true -> is_nan (mpow x y) = true) /\
  (forall x y, is_nan x = true -> feq y f0 = false -> is_nan (mpow x y) = true) /\
  fle (fq 3 2) (mpow (fq 2 1) (fq 775 1000)) = true /\ fle (mpow (fq 2 1) (fq 775 1000)) (fq 2 1) = true /\
  flt (fq 1 1) (mpow (fq 2 1) (fq 875 1000)) = true /\ flt (mpow (fq 2 1) (fq 875 1000)) (fq 2 1) = true.
Lemma mul_nan_l x y : is_nan x = true -> fmul x y = fnan. Proof. destruct x; intros H; try discriminate H. reflexivity. Qed.
Lemma mul_nan_r x y : is_nan y = true -> fmul x y = fnan. Proof. destruct y; intros H; try discriminate H. destruct x; reflexivity. Qed.
Lemma add_nan_l x y : is_nan x = true -> fadd x y = fnan. Proof. destruct x; intros H; try discriminate H. reflexivity. Qed.
Lemma add_nan_r x y : is_nan y = true -> fadd x y = fnan. Proof. destruct y; intros H; try discriminate H. destruct x; reflexivity. Qed.
Lemma nan_is x : is_nan x = true -> x = fnan. Proof. destruct x; intros H; try discriminate H. reflexivity. Qed.
Lemma nan_if (b : bool) v m : v = fnan -> (if b then fmul v m else v) = fnan. Proof. intros ->. destruct b; reflexivity. Qed.
Theorem C51_nan : forall pp a combo d, pow_nan -> at_ObjectCount a = 1 -> at_Sliders a = 0 -> Z.testbit (d_Mods d) bRX = false ->
  is_nan (r_Speed (pp_Results (ppv2x pp a combo (-1) 0 0 2 d))) = true /\ is_nan (r_Total (pp_Results (ppv2x pp a combo (-1) 0 0 2 d))) = true.
Proof.
  intros pp a combo d (P1 & P2 & P3 & P4 & P5 & P6) O SL RX. rewrite results_at. set (p := stated _ _ _ _ _ _ _ _). unfold results_of. cbn [r_Speed r_Total].
  assert (T : pp_totalHits p = 1) by (unfold p, stated; cbn [pp_totalHits]; change (at_ObjectCount (capped a)) with (at_ObjectCount a); rewrite O; reflexivity).
  assert (E : pp_effMiss p = 2).
  { unfold p, stated. cbn [pp_effMiss]. change (at_ObjectCount (capped a)) with (at_ObjectCount a). rewrite O. change Relax with (2 ^ 7). rewrite mactive_bit by lia. change 7 with bRX. rewrite RX.
    cbn [Z.ltb Z.compare]. unfold effective_miss_count. change (at_Sliders (capped a)) with (at_Sliders a). rewrite SL. cbn [Z.ltb Z.compare]. vm_compute. reflexivity. }
  assert (V : compute_speed p d = fnan).
  { unfold compute_speed. cbv zeta. rewrite E, T. cbn [Z.ltb Z.compare Pos.compare]. 
    assert (W : miss_penalty 2 1 (mpow (f_of_Z 2) (fq 875 1000)) = fnan).
    { unfold miss_penalty. apply mul_nan_r. replace (fdiv (f_of_Z 2) (f_of_Z 1)) with (fq 2 1) by reflexivity.
      replace (f_of_Z 2) with (fq 2 1) by (apply B2SF_eq; vm_compute; reflexivity). apply P1; [|exact P5|exact P6].
      set (x := mpow (fq 2 1) (fq 775 1000)) in *. clearbody x. destruct one_val as (F1 & E1). destruct (fq1_exact 2) as (F2 & E2); [lia|].
      assert (F3 : fin (fq 3 2)) by (vm_compute; reflexivity). assert (E3 : B2R (fq 3 2) = (3 / 2)%R).
      { unfold B2R. assert (X : B2SF (fq 3 2) = SpecFloat.S754_finite false 6755399441055744 (-52)) by (vm_compute; reflexivity).
        destruct (fq 3 2); cbn in X; try discriminate X. injection X as -> -> ->. unfold F2R. cbn. lra. }
      destruct (fle_between _ x _ F3 F2 P3 P4) as (Fx & Bx). rewrite E2, E3 in Bx.
      destruct (fsub_fin _ x F1 Fx) as (Fs & Es); [rewrite E1; apply Rle_trans with (bpow radix2 2); [change (bpow radix2 2) with 4%R; apply Rabs_le; lra|apply bpow_le; lia]|].
      rewrite E1 in Es. apply flt_fin; [exact Fs|reflexivity|]. rewrite Es. change (B2R f0) with 0%R. apply Rle_lt_trans with (B2R (fneg (fq 1 2))).
      - apply rnd64_le_f. assert (E4 : B2R (fneg (fq 1 2)) = (- (1 / 2))%R).
        { unfold B2R. assert (X : B2SF (fneg (fq 1 2)) = SpecFloat.S754_finite true 4503599627370496 (-53)) by (vm_compute; reflexivity).
          destruct (fneg (fq 1 2)); cbn in X; try discriminate X. injection X as -> -> ->. unfold F2R. cbn. lra. }
        rewrite E4. lra.
      - assert (K : flt (fneg (fq 1 2)) f0 = true) by (vm_compute; reflexivity). apply flt_fin in K; [exact K|vm_compute; reflexivity|reflexivity]. }
    set (v0 := fmul (pp_base _) _). clearbody v0. rewrite W. rewrite (mul_nan_r v0 fnan eq_refl).
    apply mul_nan_l. rewrite (mul_nan_l _ _ (f_equal is_nan (nan_if _ _ _ (mul_nan_l _ _ (f_equal is_nan (nan_if _ _ _ eq_refl)))))). reflexivity. }
  split; [now rewrite V|]. rewrite V. unfold total_of. 
  rewrite (add_nan_l _ (mpow (compute_flashlight p d) _)).
  2:{ rewrite (add_nan_l _ (mpow (compute_acc p d) _)); [reflexivity|]. rewrite add_nan_r; [reflexivity|]. apply P2; [reflexivity|vm_compute; reflexivity]. }
  rewrite mul_nan_l; [reflexivity|]. apply P2; [reflexivity|vm_compute; reflexivity].
Qed.
(** C52.  On maps without sliders no combo gives more than the full combo, ... *)
Theorem C52_full : forall pp a combo n300 n100 n50 nmiss d, pow_ranges -> log_above ->
  attrs_ok a -> diff_ok d -> hits_upto (2 ^ 31) n300 n100 n50 nmiss -> 0 <= combo <= 2 ^ 31 -> at_Sliders a = 0 ->
  no_better (pp_Results (ppv2x pp a combo n300 n100 n50 nmiss d)) (pp_Results (ppv2x pp a (-1) n300 n100 n50 nmiss d)).
Proof.
  intros pp a combo n300 n100 n50 nmiss d PR LR A D H C SL. 
  pose proof (C47_combo pp a (-1) n300 n100 n50 nmiss d ltac:(lia)) as E. apply (f_equal pp_Results) in E. refine (eq_ind_r (fun r => no_better _ r) _ E). clear E. rewrite <- maxI_max.
  refine (eq_ind_r (fun r => no_better r _) _ (results_at pp a combo n300 n100 n50 nmiss d)). refine (eq_ind_r (fun r => no_better _ r) _ (results_at pp a (maxI 1 (at_MaxCombo a)) n300 n100 n50 nmiss d)).
  destruct (all_full PR LR pp a n300 n100 n50 nmiss d A D H combo C SL) as (B1 & B2 & B3 & B4). unfold no_better, results_of. cbn [r_Aim r_Speed r_Acc r_Flashlight].
  change (at_MaxCombo (capped a)) with (maxI 1 (at_MaxCombo a)) in *. split; [exact (le2_fle _ _ _ B1)|]. split; [exact (le2_fle _ _ _ B2)|]. split; [exact (le2_fle _ _ _ B4)|exact (le2_fle _ _ _ B3)].
Qed.
(** ... and when math.Pow is monotone a longer combo is never worse, sliders or
    not, nor in total. *)
Theorem C52_monotone : forall pp a combo combo' n300 n100 n50 nmiss d, pow_ranges -> log_above -> pow_orders ->
  attrs_ok a -> diff_ok d -> hits_upto (2 ^ 31) n300 n100 n50 nmiss -> 0 <= combo <= combo' -> combo' <= 2 ^ 31 ->
  (Z.testbit (d_Mods d) bSO = true -> at_Spinners a <= n300 + n100 + n50 + nmiss) ->
  let r := pp_Results (ppv2x pp a combo n300 n100 n50 nmiss d) in let r' := pp_Results (ppv2x pp a combo' n300 n100 n50 nmiss d) in
  no_better r r' /\ fle (r_Total r) (r_Total r') = true.
Proof.
  intros pp a combo combo' n300 n100 n50 nmiss d PR LR PO A D H C C' SP. cbv zeta. refine (eq_ind_r (fun r => no_better r _ /\ fle (r_Total r) _ = true) _ (results_at pp a combo n300 n100 n50 nmiss d)).
  refine (eq_ind_r (fun r => no_better _ r /\ fle _ (r_Total r) = true) _ (results_at pp a combo' n300 n100 n50 nmiss d)).
  assert (SO : spun_ok a d (n300 + n100 + n50 + nmiss)) by (intros S; apply SP; change SpunOut with (2 ^ 12) in S; rewrite mactive_bit in S by lia; exact S).
  destruct (all_mono PR LR pp a n300 n100 n50 nmiss d A D H combo combo' PO C C' SO) as (B1 & B2 & B3 & B4 & B5). unfold no_better. cbn [results_of r_Aim r_Speed r_Acc r_Flashlight].
  split; [|exact (le2_fle _ _ _ B5)]. split; [exact (le2_fle _ _ _ B1)|]. split; [exact (le2_fle _ _ _ B2)|]. split; [exact (le2_fle _ _ _ B4)|exact (le2_fle _ _ _ B3)].
Qed.
End WithLibm.

(** ** Concrete cases *)
(** a library with the assumed properties: |x| for positive exponents, else 1 *)
Definition abs_libm : libm :=
  {| mpow := fun x y => if fle y f0 then fq 1 1 else fabs x; mlog10 := fun x => x; mcbrt := fun x => x; msin := fun _ => f0; mcos := fun _ => f0; macos := fun _ => f0; matan2 := fun _ _ => f0 |}.
Lemma fle0 (y : f64) : fin y -> fle y f0 = true <-> (B2R y <= 0)%R.
Proof. intros F. rewrite fle_iff, (key_fin _ _ _ F). cbn [key f0 B2R]. pose proof (fin_num _ _ _ F). assert (num f0) by reflexivity. tauto. Qed.
Lemma abs_mpow_neg (x y : f64) : fin y -> (B2R y <= 0)%R -> @mpow abs_libm x y = fq 1 1.
Proof. intros F B. cbn [mpow abs_libm]. now rewrite (proj2 (fle0 y F) B). Qed.
Lemma abs_mpow_pos (x y : f64) : fin y -> (0 < B2R y)%R -> @mpow abs_libm x y = fabs x.
Proof. intros F B. cbn [mpow abs_libm]. destruct (fle y f0) eqn:E; [|reflexivity]. apply fle0 in E; [lra|exact F]. Qed.
Lemma abs_ranges : @pow_ranges abs_libm.
Proof.
  destruct one_val as (F1 & E1). split.
  - intros x y Fx Fy Bx By. destruct (Rle_lt_dec (B2R y) 0) as [L|L].
    + rewrite abs_mpow_neg by auto. split; [exact F1|]. rewrite E1. lra.
    + rewrite abs_mpow_pos by auto. destruct (fabs_fin x Fx) as (F & E). split; [exact F|]. rewrite E, Rabs_pos_eq by lra. lra.
  - intros x y k n Fx Fy K KN Bx By. destruct (Rle_lt_dec (B2R y) 0) as [L|L].
    + rewrite abs_mpow_neg by auto. split; [exact F1|]. rewrite E1. split; [lra|]. change 1%R with (bpow radix2 0). apply bpow_le. assert (0 <= n)%Z by (apply le_IZR; lra). nia.
    + rewrite abs_mpow_pos by auto. destruct (fabs_fin x Fx) as (F & E). split; [exact F|]. rewrite E, Rabs_pos_eq by lra. split; [lra|]. apply Rle_trans with (1 := proj2 Bx). apply bpow_le. assert (0 < n)%Z by (apply lt_IZR; lra). nia.
  - intros x y Fx Fy Bx By. rewrite abs_mpow_neg by auto. split; [exact F1|]. rewrite E1. lra.
  - intros x k Fx K Bx. destruct (fq1_exact 2) as (F2 & E2); [lia|]. rewrite abs_mpow_pos by (auto; lra). destruct (fabs_fin x Fx) as (F & E). split; [exact F|]. rewrite E. split; [apply Rabs_pos|].
    apply Rle_trans with (1 := Bx). apply bpow_le. lia.
Qed.
Lemma abs_log : @log_above abs_libm. Proof. intros x F B. cbn [mlog10 abs_libm]. split; [exact F|lra]. Qed.
Lemma abs_orders : @pow_orders abs_libm.
Proof.
  destruct one_val as (F1 & E1). split.
  - intros x x' y Fx Fx' Fy _ _ B By. destruct (Rle_lt_dec (B2R y) 0) as [L|L].
    + rewrite !abs_mpow_neg by auto. apply Rle_refl.
    + rewrite !abs_mpow_pos by auto. destruct (fabs_fin x Fx) as (_ & ->). destruct (fabs_fin x' Fx') as (_ & ->). rewrite !Rabs_pos_eq by lra. lra.
  - intros x y y' Fx Fy Fy' B By. destruct (fabs_fin x Fx) as (_ & EA). rewrite Rabs_pos_eq in EA by lra. destruct (Rle_lt_dec (B2R y) 0) as [L|L].
    + rewrite (abs_mpow_neg x y) by auto. rewrite E1. destruct (Rle_lt_dec (B2R y') 0) as [L'|L'].
      * rewrite abs_mpow_neg by auto. rewrite E1. lra.
      * rewrite abs_mpow_pos by auto. lra.
    + rewrite !abs_mpow_pos by (auto; lra). apply Rle_refl.
Qed.
(** a 5-star map with sliders and spinners, played with Hidden, Flashlight and
    DoubleTime: 500 objects, 700 combo, 480 300s, 15 100s, 3 50s, 2 misses *)
Definition demo_attrs : attributes := mkAttr (fq 5 1) (fq 26 10) (fq 97 100) (fq 23 10) (fq 2 1) 500 300 198 2 700.
Definition demo_diff : difficulty := SpecDifficulty.built (fq 5 1) (fq 4 1) (fq 8 1) (fq 9 1) 1096 (fq 1 1).
Lemma within_const lo hi (c : f64) : is_finite c = true -> (Z.abs lo <= 2 ^ 53)%Z -> (Z.abs hi <= 2 ^ 53)%Z -> fle (f_of_Z lo) c = true -> fle c (f_of_Z hi) = true -> within (IZR lo) (IZR hi) c.
Proof. intros F L H A B. split; [exact F|]. now apply between_Z. Qed.
Lemma demo_attrs_ok : attrs_ok demo_attrs.
Proof.
  unfold attrs_ok, demo_attrs. cbn [at_Aim at_Speed at_Flashlight at_SliderFactor at_ObjectCount at_Circles at_Sliders at_Spinners at_MaxCombo].
  split; [apply (within_const 0 1048576); [vm_compute; reflexivity|lia|lia|vm_compute; reflexivity|vm_compute; reflexivity]|].
  split; [apply (within_const 0 1048576); [vm_compute; reflexivity|lia|lia|vm_compute; reflexivity|vm_compute; reflexivity]|].
  split; [apply (within_const 0 1048576); [vm_compute; reflexivity|lia|lia|vm_compute; reflexivity|vm_compute; reflexivity]|].
  split; [apply (within_const 0 1); [vm_compute; reflexivity|lia|lia|vm_compute; reflexivity|vm_compute; reflexivity]|]. lia.
Qed.
Lemma demo_diff_ok : diff_ok demo_diff.
Proof.
  apply C51_difficulty; [split; vm_compute; reflexivity|split; vm_compute; reflexivity|]. destruct (within_const 1 1 (fq 1 1)) as (F & B); [vm_compute; reflexivity|lia|lia|vm_compute; reflexivity|vm_compute; reflexivity|]. split; [exact F|lra].
Qed.
Lemma demo_hits : hits_upto (2 ^ 31) 480 15 3 2. Proof. unfold hits_upto. lia. Qed.
Definition pp0 : ppv2 := mkPP (mkResults f0 f0 f0 f0 f0) attr0 0 0 0 0 0 0 None 0 f0 0.
Definition demo_pp (combo : Z) : ppv2 := @ppv2x abs_libm pp0 demo_attrs combo 480 15 3 2 demo_diff.
Example C45_pp_instance : Z.testbit (d_Mods demo_diff) bFL = true /\
  flt f0 (r_Flashlight (pp_Results (demo_pp 400))) = true /\ flt f0 (r_Acc (pp_Results (demo_pp 400))) = true.
Proof. split; vm_compute; auto. Qed.
Example C47_instance : pp_scoreMaxCombo (@ppv2x abs_libm pp0 demo_attrs (-1) (-1) 15 3 2 demo_diff) = 700 /\ pp_great (@ppv2x abs_libm pp0 demo_attrs (-1) (-1) 15 3 2 demo_diff) = 480.
Proof. split; vm_compute; reflexivity. Qed.
(** a receiver left over from another score *)
Example C48_instance : demo_pp 700 <> demo_pp 10 /\ @ppv2x abs_libm (demo_pp 10) demo_attrs 700 480 15 3 2 demo_diff = demo_pp 700.
Proof.
  split; [|exact (@C48_no_memory abs_libm (demo_pp 10) pp0 (mkScore demo_attrs 700 480 15 3 2 demo_diff))].
  intros E. apply (f_equal pp_scoreMaxCombo) in E. vm_compute in E. discriminate E.
Qed.
(** overflowing counts, one miss, and the demo: 0.970 *)
Example C49_instance : flt (fq 969 1000) (pp_accuracy (demo_pp 1)) = true /\ flt (pp_accuracy (demo_pp 1)) (fq 972 1000) = true /\
  feq (pp_accuracy (@ppv2x abs_libm pp0 demo_attrs 0 (2 ^ 62) (2 ^ 62) (2 ^ 62) (2 ^ 62) demo_diff)) f0 = true /\
  feq (pp_accuracy (@ppv2x abs_libm pp0 demo_attrs 0 (2 ^ 62) (2 ^ 62) 0 (- 2 ^ 63 + 1) demo_diff)) (fq 1 1) = true.
Proof. vm_compute. auto. Qed.
(** a combo of 200 out of 700 with 198 sliders: three effective misses, two misses *)
Example C50_instance : pp_effMiss (demo_pp 200) = 3 /\ pp_effMiss (demo_pp 700) = 2 /\ pp_effMiss (demo_pp 100) = 6.
Proof. vm_compute. auto. Qed.
Example C51_instance : @pow_ranges abs_libm /\ @log_above abs_libm /\ attrs_ok demo_attrs /\ diff_ok demo_diff /\ hits_upto (2 ^ 31) 480 15 3 2 /\
  valid_results (pp_Results (demo_pp 400)) /\ flt (fq 1 1) (r_Total (pp_Results (demo_pp 400))) = true.
Proof.
  split; [exact abs_ranges|]. split; [exact abs_log|]. split; [exact demo_attrs_ok|]. split; [exact demo_diff_ok|]. split; [exact demo_hits|].
  split; [|vm_compute; reflexivity]. apply (@C51_valid abs_libm); [exact abs_ranges|exact abs_log|exact demo_attrs_ok|exact demo_diff_ok|exact demo_hits|lia|]. intros S. vm_compute in S. discriminate S.
Qed.
(** NaN for negative bases, 1.75 otherwise *)
Definition nan_libm : libm :=
  {| mpow := fun x y => if flt x f0 || is_nan x then fnan else fq 7 4; mlog10 := fun x => x; mcbrt := fun x => x; msin := fun _ => f0; mcos := fun _ => f0; macos := fun _ => f0; matan2 := fun _ _ => f0 |}.
Example C51_nan_instance : @pow_nan nan_libm /\
  is_nan (r_Total (pp_Results (@ppv2x nan_libm pp0 (mkAttr f0 f0 f0 f0 f0 1 1 0 0 1) 1 (-1) 0 0 2 demo_diff))) = true.
Proof.
  split; [|vm_compute; reflexivity]. split; [|split; [|vm_compute; auto]]; cbn [mpow nan_libm].
  - intros x y X _ _. rewrite X. reflexivity.
  - intros x y X _. rewrite X, orb_true_r. reflexivity.
Qed.
(** full combo: strictly better than 200, and the slider-free case *)
Example C52_instance : @pow_orders abs_libm /\
  flt (r_Aim (pp_Results (demo_pp 200))) (r_Aim (pp_Results (demo_pp 700))) = true /\ flt (r_Total (pp_Results (demo_pp 200))) (r_Total (pp_Results (demo_pp 700))) = true /\
  (let a := mkAttr (fq 5 1) (fq 26 10) (fq 1 1) (fq 23 10) (fq 2 1) 500 498 0 2 700 in
   flt (r_Speed (pp_Results (@ppv2x abs_libm pp0 a 200 480 15 3 2 demo_diff))) (r_Speed (pp_Results (@ppv2x abs_libm pp0 a (-1) 480 15 3 2 demo_diff))) = true).
Proof. split; [exact abs_orders|]. vm_compute. auto. Qed.

Print Assumptions C45_pp_relax.
Print Assumptions C45_pp_flashlight.
Print Assumptions C47_combo.
Print Assumptions C47_greats.
Print Assumptions C48_no_memory.
Print Assumptions C48_history.
Print Assumptions C49_unit.
Print Assumptions C49_perfect.
Print Assumptions C49_none.
Print Assumptions C49_value.
Print Assumptions C50_bounds.
Print Assumptions C50_exact.
Print Assumptions C50_combo.
Print Assumptions C51_valid.
Print Assumptions C51_defaults.
Print Assumptions C51_difficulty.
Print Assumptions C51_nan.
Print Assumptions C52_full.
Print Assumptions C52_monotone.

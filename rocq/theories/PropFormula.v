(** C80: the pp values are the published formulas. *)
From Coq Require Import Reals Lra ZArith Lia.
From Flocq Require Import Raux Zaux Core BinarySingleNaN.
From Verif Require Import PP SpecPP SpecTempo SpecMods SpecDifficulty SpecFormula BaseLemmas FloatLemmas Float32Lemmas KeyLemmas PPProofs PPBounds PPChains PPFinal PPMono PropPP RelLemmas RelPow FormulaParts FormulaRest FormulaProofs IdealLibm ModsProofs DifficultyProofs.
Open Scope Z_scope.

Section WithLibm.
Context {M : libm}.
Lemma map_attrs a : map_ok a -> attrs_ok a.
Proof.
  assert (R : forall x, rating_ok x -> SpecPP.within 0 1048576 x). { intros x (F & H). split; [exact F|]. destruct H as [->|(L & U)]; [lra|]. pose proof (bpow_gt_0 radix2 (-100)). lra. }
  intros (A & B & C & (F & S) & O & CI & SL & SP & MC). unfold attrs_ok. split; [now apply R|]. split; [now apply R|]. split; [now apply R|]. split; [split; [exact F|lra]|]. lia.
Qed.
Lemma nv_about n k x r : (0 <= n <= NN)%R -> nv n k x r -> is_finite x = true /\ about (B2R x) r.
Proof.
  intros N ((F & P & B) & _). split; [exact F|]. unfold about. rewrite (Rabs_pos_eq r) by exact P. apply Rabs_le. assert (n * e40 * r <= r / 1000000)%R; [|lra]. pose proof (unit_small n N) as U. replace (r / 1000000)%R with (/ 1000000 * r)%R by (unfold Rdiv; ring). apply Rmult_le_compat_r; lra.
Qed.

(** C80.  Breaks are guessed from the combo: a tenth of the slider ends may be
    missed, and a combo of 1/n of the rest means n breaks. *)
Theorem C80_breaks : forall pp a combo n300 n100 n50 nmiss d, map_ok a -> hits_upto (2 ^ 20) n300 n100 n50 nmiss -> 0 <= combo <= 2 ^ 31 -> guess_clear a combo ->
  let total := n300 + n100 + n50 + nmiss in
  pp_effMiss (ppv2x pp a combo n300 n100 n50 nmiss d) =
  if Z.testbit (d_Mods d) bRX then Z.min (breaks_of a combo nmiss total + n100 + n50) total else breaks_of a combo nmiss total.
Proof.
  intros pp a combo n300 n100 n50 nmiss d MO H C G total. pose proof (map_attrs a MO) as A. assert (H31 : hits_upto (2 ^ 31) n300 n100 n50 nmiss) by (unfold hits_upto in *; lia).
  rewrite eff_at. destruct (st_fields pp a n300 n100 n50 nmiss d A H31 combo C) as (_ & _ & _ & _ & _ & _ & _ & _ & E & _). rewrite E. unfold capped.
  rewrite (breaks_ok a combo nmiss (n300 + n100 + n50 + nmiss) MO C) by (unfold hits_upto in H; try lia; exact G). change Relax with (2 ^ 7). rewrite mactive_bit by lia. reflexivity.
Qed.

(** The values themselves, to one part in a million, for a math.Pow and
    math.Log10 accurate to 2^-40. *)
Theorem C80_values : pow_close -> log_close -> forall pp a combo n300 n100 n50 nmiss d, map_ok a -> rates_near d -> hits_upto (2 ^ 20) n300 n100 n50 nmiss -> n50 <= 900 -> 0 <= combo <= 2 ^ 31 -> guess_clear a combo ->
  let total := n300 + n100 + n50 + nmiss in let mod_ := Z.testbit (d_Mods d) in
  let breaks := breaks_of a combo nmiss total in let counted := if mod_ bRX then Z.min (breaks + n100 + n50) total else breaks in
  1 <= total -> breaks_mild counted total -> (mod_ bSO = true -> 2 * at_Spinners a <= total) ->
  let y := play_of a combo n300 n100 n50 nmiss counted d in let r := pp_Results (ppv2x pp a combo n300 n100 n50 nmiss d) in
  let aim := SpecFormula.aim_value (mod_ 2) (mod_ bHD) y in let speed := SpecFormula.speed_value (mod_ bHD) y in let acc := SpecFormula.acc_value (mod_ bRX) (mod_ bHD) (mod_ bFL) y in let fl := SpecFormula.fl_value (mod_ 2) (mod_ bHD) (mod_ bFL) y in
  (is_finite (r_Aim r) = true /\ about (B2R (r_Aim r)) aim) /\ (is_finite (r_Speed r) = true /\ about (B2R (r_Speed r)) speed) /\
  (is_finite (r_Acc r) = true /\ about (B2R (r_Acc r)) acc) /\ (is_finite (r_Flashlight r) = true /\ about (B2R (r_Flashlight r)) fl) /\
  is_finite (r_Total r) = true /\ about (B2R (r_Total r)) (total_value aim speed acc fl (final_factor (mod_ bNF) (mod_ bSO) (mod_ bRX) (IZR breaks) (IZR (at_Spinners a)) (IZR total))).
Proof.
  intros PC LC pp a combo n300 n100 n50 nmiss d MO RN H H50 C G total mod_ breaks counted T BM SO y r aim speed acc fl.
  pose proof (map_attrs a MO) as A. assert (H31 : hits_upto (2 ^ 31) n300 n100 n50 nmiss) by (unfold hits_upto in *; lia). destruct H as (H1 & H2 & H3 & H4 & H5).
  destruct (st_fields pp a n300 n100 n50 nmiss d A H31 combo C) as (E1 & E2 & E3 & E4 & E5 & E6 & E7 & E8 & E9 & E10).
  assert (BR : effective_miss_count (capped a) combo nmiss total = breaks) by (apply breaks_ok; auto; lia). fold total in E7, E8, E9. rewrite BR in E9.
  assert (BITS : forall k, 0 <= k -> mactive (d_Mods d) (2 ^ k) = mod_ k) by (intros k K; apply mactive_bit; exact K).
  assert (M2 : mactive (d_Mods d) TouchDevice = mod_ 2) by (apply (BITS 2); lia). assert (M3 : mactive (d_Mods d) Hidden = mod_ bHD) by (apply (BITS 3); lia). assert (M7 : mactive (d_Mods d) Relax = mod_ bRX) by (apply (BITS 7); lia). assert (M10 : mactive (d_Mods d) Flashlight = mod_ bFL) by (apply (BITS 10); lia).
  assert (M0 : mactive (d_Mods d) NoFail = mod_ bNF) by (apply (BITS 0); lia). assert (M12 : mactive (d_Mods d) SpunOut = mod_ bSO) by (apply (BITS 12); lia). assert (M29 : mactive (d_Mods d) ScoreV2 = mod_ 29) by (apply (BITS 29); lia).
  rewrite M7 in E9. fold counted in E9. unfold check_mod in E10. rewrite M29 in E10. change (at_ObjectCount (capped a)) with (at_ObjectCount a) in E10. change (at_Circles (capped a)) with (at_Circles a) in E10.
  assert (CN : 0 <= breaks /\ 0 <= counted) by (unfold counted, breaks, breaks_of; destruct (mod_ bRX); lia). assert (BT : breaks <= total). { unfold breaks, breaks_of. assert (Zfloor (Rmin (guess_of a combo) (IZR total)) <= total); [|lia]. rewrite <- (Zfloor_IZR total) at 2. apply Zfloor_le, Rmin_r. }
  unfold r. rewrite results_at. set (p := stated pp a combo n300 n100 n50 nmiss d) in *. unfold results_of. cbn [r_Aim r_Speed r_Acc r_Flashlight r_Total].
  assert (HT : 1 <= total <= 2 ^ 20) by (unfold total in *; lia). assert (H50' : 0 <= n50 <= 900) by lia.
  assert (QA : nv 18000 410 (compute_aim p d) aim) by (unfold aim; rewrite <- M2, <- M3; apply aim_ok; auto; try tauto; lia).
  assert (QS : nv 18600 540 (compute_speed p d) speed) by (unfold speed; rewrite <- M3; apply speed_ok; auto; try tauto; lia).
  assert (QC : nv 300 610 (compute_acc p d) acc) by (unfold acc; rewrite <- M3, <- M7, <- M10; apply acc_ok; auto; try tauto; lia).
  assert (QF : nv 16300 480 (compute_flashlight p d) fl) by (unfold fl; rewrite <- M2, <- M3, <- M10; apply fl_ok; auto; try tauto; lia).
  assert (QX : nv 60100 5 (final_multiplier (d_Mods d) breaks (at_Spinners a) total) (final_factor (mod_ bNF) (mod_ bSO) (mod_ bRX) (IZR breaks) (IZR (at_Spinners a)) (IZR total))) by (rewrite <- M0, <- M7, <- M12; apply (final_ok PC a MO d n300 n100 n50 nmiss); auto; rewrite ?M12; auto; lia).
  split; [apply (nv_about 18000 410); [unfold NN; lra|exact QA]|]. split; [apply (nv_about 18600 540); [unfold NN; lra|exact QS]|]. split; [apply (nv_about 300 610); [unfold NN; lra|exact QC]|]. split; [apply (nv_about 16300 480); [unfold NN; lra|exact QF]|].
  unfold total_of. rewrite E1, E2, E6, E7. change (at_Spinners (capped a)) with (at_Spinners a). rewrite BR. apply (nv_about 100000 700); [unfold NN; lra|]. now apply total_nv.
Qed.
End WithLibm.

(** For instance the accuracy value of a perfect play: 1.52163^OD * 2.83 * min(1.15, (objects/1000)^0.3). *)
Theorem C80_perfect {M : libm} : pow_close -> log_close -> forall pp a total d, map_ok a -> rates_near d -> 1 <= total <= 2 ^ 20 -> 1 <= at_Circles a -> d_Mods d = 0 ->
  let r := pp_Results (ppv2x pp a (Z.max 1 (at_MaxCombo a)) total 0 0 0 d) in
  about (B2R (r_Acc r)) (Rpower (152163 / 100000) (B2R (d_ODReal d)) * (283 / 100) * Rmin (115 / 100) (rpow (IZR (at_Circles a) / 1000) (3 / 10))).
Proof.
  intros PC LC pp a total d MO RN T CI MODS r. assert (C0 : (0 < IZR (at_Circles a))%R) by (apply IZR_lt; lia). destruct MO as (RA & RS & RF & SF & CNT).
  assert (MO : map_ok a) by (unfold map_ok; tauto). assert (G0 : guess_of a (Z.max 1 (at_MaxCombo a)) = 0%R).
  { unfold guess_of, guessed_breaks. cbv zeta. destruct (Rlt_dec 0 (IZR (at_Sliders a))) as [S|S]; [|reflexivity]. destruct (Rlt_dec _ _); [lra|reflexivity]. }
  assert (GC : guess_clear a (Z.max 1 (at_MaxCombo a))). { split; [|now left]. intros S E. apply IZR_lt in S. lra. }
  assert (B0 : breaks_of a (Z.max 1 (at_MaxCombo a)) 0 (total + 0 + 0 + 0) = 0). { unfold breaks_of. rewrite G0, Rmin_left by (apply IZR_le; lia). now rewrite Zfloor_IZR. }
  assert (HH : hits_upto (2 ^ 20) total 0 0 0) by (unfold hits_upto; lia). assert (CB : 0 <= Z.max 1 (at_MaxCombo a) <= 2 ^ 31) by lia. assert (T1 : 1 <= total + 0 + 0 + 0) by lia.
  pose proof (C80_values PC LC pp a (Z.max 1 (at_MaxCombo a)) total 0 0 0 d MO RN HH ltac:(lia) CB GC) as V. cbv zeta in V. rewrite B0, MODS, !Z.bits_0 in V.
  assert (BM : breaks_mild 0 (total + 0 + 0 + 0)) by (split; [lia|intros X; lia]). specialize (V T1 BM ltac:(discriminate)). destruct V as (_ & _ & (_ & V) & _). fold r in V.
  unfold SpecFormula.acc_value, judged_accuracy, play_of in V. cbn [y_judged y_great y_total y_ok y_meh y_od] in V. rewrite MODS, Z.bits_0 in V. destruct (Rlt_dec 0 (IZR (at_Circles a))) as [_|N] in V; [|lra].
  replace (total + 0 + 0 + 0) with total in V by ring. match type of V with context [Rmax 0 ?q] => replace q with 1%R in V by (field; lra) end. rewrite (Rmax_right 0 1) in V by lra. rewrite rpow_pos in V by lra. unfold Rpower at 2 in V. rewrite ln_1, Rmult_0_r, exp_0, !Rmult_1_r in V. exact V.
Qed.

(** ** An instance: libm as it should be, and a play with more breaks than misses *)
Example C80_instance : @pow_close exact_libm /\ @log_close exact_libm /\ map_ok demo_attrs /\ rates_near PropPP.demo_diff /\ hits_upto (2 ^ 20) 480 15 3 2 /\ guess_clear demo_attrs 200 /\
  breaks_of demo_attrs 200 2 500 = 3 /\ breaks_mild 3 500 /\ Z.testbit (d_Mods PropPP.demo_diff) bSO = false /\ Z.testbit (d_Mods PropPP.demo_diff) bFL = true.
Proof.
  split; [exact exact_close|]. split; [exact exact_log|].
  assert (RAT : forall x : f64, is_finite x = true -> fle (fq 1 1) x = true -> fle x (fq 1000 1) = true -> rating_ok x).
  { intros x F L U. split; [exact F|right]. destruct (fq1_exact 1) as (F1 & E1); [lia|]. destruct (fq1_exact 1000) as (F2 & E2); [lia|]. apply fle_iff in L as (_ & _ & L). apply fle_iff in U as (_ & _ & U). rewrite (key_fin _ _ _ F1), (key_fin _ _ _ F), E1 in L. rewrite (key_fin _ _ _ F2), (key_fin _ _ _ F), E2 in U.
    split; [apply Rle_trans with 1%R; [change 1%R with (bpow radix2 0); apply bpow_le; lia|exact L]|lra]. }
  split. { unfold map_ok, demo_attrs. cbn [at_Aim at_Speed at_Flashlight at_SliderFactor at_ObjectCount at_Circles at_Sliders at_Spinners at_MaxCombo]. split; [apply RAT; vm_compute; reflexivity|]. split; [apply RAT; vm_compute; reflexivity|]. split; [apply RAT; vm_compute; reflexivity|].
    split; [|lia]. split; [vm_compute; reflexivity|]. bval (fq 97 100). rewrite V. lra. }
  split. { split; (split; [vm_compute; reflexivity|]); [pose proof (between_Z (d_ARReal PropPP.demo_diff) (-100) 13) as B|pose proof (between_Z (d_ODReal PropPP.demo_diff) (-40) 14) as B]; apply B; try lia; vm_compute; reflexivity. }
  split; [unfold hits_upto; lia|]. assert (G : guess_of demo_attrs 200 = (3401 / 1000)%R).
  { unfold guess_of, guessed_breaks, demo_attrs. cbn [at_Sliders at_MaxCombo]. cbv zeta. change (Z.max 1 700) with 700. destruct (Rlt_dec 0 198) as [_|N]; [|lra]. destruct (Rlt_dec 200 _) as [_|N]; [|lra]. rewrite Rmax_right by lra. lra. }
  split. { unfold guess_clear. rewrite G. split; [intros _; unfold demo_attrs; cbn [at_Sliders at_MaxCombo]; change (Z.max 1 700) with 700; lra|right]. intros z. destruct (Z_le_gt_dec z 3) as [L|L].
    - apply IZR_le in L. rewrite Rabs_pos_eq by lra. lra.
    - assert (4 <= IZR z)%R by (apply IZR_le; lia). rewrite Rabs_left by lra. lra. }
  split. { unfold breaks_of. rewrite G, Rmin_left by lra. replace (Zfloor (3401 / 1000)) with 3; [reflexivity|]. symmetry. apply Zfloor_imp. change (3 + 1) with 4. lra. }
  split; [|split; vm_compute; reflexivity]. split; [lia|]. intros _. unfold miss_base.
  assert (L2 : (0 < ln 2)%R) by (rewrite <- ln_1; apply ln_increasing; lra). assert (H : (rpow (3 / 500) (775 / 1000) <= / 2)%R).
  { rewrite rpow_pos by lra. unfold Rpower. replace (/ 2)%R with (exp (- ln 2)) by (rewrite exp_Ropp, exp_ln; lra). apply Rlt_le, exp_increasing. assert (ln (3 / 500) < - ln 2 - ln 2)%R; [|lra].
    replace (- ln 2 - ln 2)%R with (ln (/ 4)); [apply ln_increasing; lra|]. rewrite ln_Rinv by lra. replace 4%R with (2 * 2)%R by lra. rewrite ln_mult by lra. ring. }
  apply Rle_trans with (Rpower (/ 2) 3).
  - replace 3%R with (INR 3) by (cbn; lra). rewrite Rpower_pow by lra. apply Rle_trans with (bpow radix2 (-3)); [apply bpow_le; lia|]. unfold bpow. cbn. lra.
  - apply Rle_Rpower_l; lra.
Qed.

Print Assumptions C80_breaks.
Print Assumptions C80_values.
Print Assumptions C80_perfect.

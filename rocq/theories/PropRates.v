(** Property C109: how the pp of the same play depend on OD and AR. *)
From Coq Require Import Reals Lra ZArith Lia List.
From Flocq Require Import Raux Zaux Core BinarySingleNaN.
From Verif Require Import PP SpecPP SpecTempo SpecMods SpecDifficulty SpecFormula SpecBetter BaseLemmas FloatLemmas KeyLemmas ModsProofs PPProofs PPChains PPFinal RelPow IdealLibm PerfectProofs RateProofs
  PropPP PropFormula PropBetter PropStars PropPerfect.
Import ListNotations.
Open Scope Z_scope.

Section WithLibm.
Context {M : libm}.

(** The breaks that count, and the plays C80 speaks of. *)
Definition counted (a : attributes) (t : tally) (d : difficulty) : Z :=
  let b := breaks_of a (t_combo t) (t_miss t) (hits t) in if Z.testbit (d_Mods d) bRX then Z.min (b + t_100 t + t_50 t) (hits t) else b.
Record ordinary (a : attributes) (t : tally) (d : difficulty) : Prop := {
  or_map : map_ok a; or_hits : hits_upto (2 ^ 20) (t_300 t) (t_100 t) (t_50 t) (t_miss t); or_few : t_50 t <= 900; or_combo : 0 <= t_combo t <= 2 ^ 31;
  or_clear : guess_clear a (t_combo t); or_some : 1 <= hits t; or_mild : breaks_mild (counted a t d) (hits t); or_spun : Z.testbit (d_Mods d) bSO = true -> 2 * at_Spinners a <= hits t }.
Definition the_play (a : attributes) (t : tally) (d : difficulty) : play := play_of a (t_combo t) (t_300 t) (t_100 t) (t_50 t) (t_miss t) (counted a t d) d.
Definition the_final (a : attributes) (t : tally) (d : difficulty) : R :=
  final_factor (Z.testbit (d_Mods d) bNF) (Z.testbit (d_Mods d) bSO) (Z.testbit (d_Mods d) bRX) (IZR (breaks_of a (t_combo t) (t_miss t) (hits t))) (IZR (at_Spinners a)) (IZR (hits t)).
Lemma the_values : pow_close -> log_close -> forall a t d, ordinary a t d -> rates_near d ->
  let mod_ := Z.testbit (d_Mods d) in let y := the_play a t d in let r := worth a t d in
  let aim := SpecFormula.aim_value (mod_ 2) (mod_ bHD) y in let speed := SpecFormula.speed_value (mod_ bHD) y in let acc := SpecFormula.acc_value (mod_ bRX) (mod_ bHD) (mod_ bFL) y in let fl := SpecFormula.fl_value (mod_ 2) (mod_ bHD) (mod_ bFL) y in
  about (B2R (r_Aim r)) aim /\ about (B2R (r_Speed r)) speed /\ about (B2R (r_Acc r)) acc /\ about (B2R (r_Flashlight r)) fl /\ about (B2R (r_Total r)) (total_value aim speed acc fl (the_final a t d)).
Proof.
  intros PC LC a t d [O1 O2 O3 O4 O5 O6 O7 O8] RN mod_ y r aim speed acc fl.
  pose proof (C80_values PC LC (mkPP (mkResults f0 f0 f0 f0 f0) a 0 0 0 0 0 0 None 0 f0 0) a (t_combo t) (t_300 t) (t_100 t) (t_50 t) (t_miss t) d O1 RN O2 O3 O4 O5 O6 O7 O8) as V.
  cbv zeta in V. unfold r, worth. tauto.
Qed.
Lemma final_nn a t d : ordinary a t d -> (0 <= the_final a t d)%R.
Proof.
  intros [O1 _ _ _ _ O6 _ O8]. unfold the_final, final_factor. assert (T : (1 <= IZR (hits t))%R) by (apply (IZR_le 1); exact O6). destruct O1 as (_ & _ & _ & _ & (_ & _ & _ & SP & _)).
  assert (X : (0 <= if Z.testbit (d_Mods d) bNF then Rmax (9 / 10) (1 - 2 / 100 * IZR (breaks_of a (t_combo t) (t_miss t) (hits t))) else 1)%R).
  { destruct (Z.testbit (d_Mods d) bNF); [|lra]. apply Rle_trans with (2 := Rmax_l _ _). lra. }
  assert (Y : (0 <= if Z.testbit (d_Mods d) bSO then 1 - rpow (IZR (at_Spinners a) / IZR (hits t)) (85 / 100) else 1)%R).
  { destruct (Z.testbit (d_Mods d) bSO) eqn:E; [|lra]. specialize (O8 eq_refl). assert (Q : (0 <= IZR (at_Spinners a) / IZR (hits t) <= 1)%R).
    { assert (0 <= IZR (at_Spinners a) <= IZR (hits t))%R by (split; apply IZR_le; lia). split; [apply Rmult_le_pos; [lra|left; apply Rinv_0_lt_compat; lra]|]. apply Rmult_le_reg_r with (IZR (hits t)); [lra|]. unfold Rdiv. rewrite Rmult_assoc, Rinv_l by lra. lra. }
    pose proof (rp_le _ 1 (85 / 100) Q ltac:(lra)) as P. rewrite rp_1 in P. lra. }
  assert (Z : (0 <= if Z.testbit (d_Mods d) bRX then 6 / 10 else 1)%R) by (destruct (Z.testbit (d_Mods d) bRX); lra). repeat apply Rmult_le_pos; lra.
Qed.
Lemma the_level a t d : ordinary a t d -> rates_near d -> level (the_play a t d).
Proof.
  intros [O1 (H1 & H2 & H3 & H4 & H5) _ _ _ O6 _ _] ((_ & RA) & (_ & RO)). destruct O1 as (_ & _ & _ & (_ & SF) & (N1 & N2 & _)). unfold level, accuracy, the_play, play_of. cbn [y_total y_great y_ok y_meh y_factor y_judged y_ar y_od].
  assert (T : (1 <= IZR (t_300 t + t_100 t + t_50 t + t_miss t))%R) by (apply (IZR_le 1); exact O6). split; [exact T|]. rewrite !plus_IZR in *.
  apply IZR_le in H1, H2, H3, H4. set (T' := (IZR (t_300 t) + IZR (t_100 t) + IZR (t_50 t) + IZR (t_miss t))%R) in *.
  split. { split; [apply Rmult_le_pos; [lra|left; apply Rinv_0_lt_compat; lra]|]. apply Rmult_le_reg_r with (300 * T')%R; [lra|]. unfold Rdiv. rewrite Rmult_assoc, Rinv_l by lra. unfold T' in *. lra. }
  split; [lra|]. split; [apply (IZR_le 0); destruct (Z.testbit (d_Mods d) 29); lia|]. lra.
Qed.
(** Same mods: only the rates of the play change. *)
Lemma other_rates a t d d' : d_Mods d' = d_Mods d -> the_play a t d' = rated (the_play a t d) (B2R (d_ARReal d')) (B2R (d_ODReal d')) /\ the_final a t d' = the_final a t d /\ (ordinary a t d -> ordinary a t d').
Proof.
  intros E. assert (C : counted a t d' = counted a t d) by (unfold counted; now rewrite E). split; [unfold the_play, play_of, rated; rewrite C, E; reflexivity|]. split; [unfold the_final; now rewrite E|].
  intros [O1 O2 O3 O4 O5 O6 O7 O8]. constructor; try assumption; [now rewrite C|now rewrite E].
Qed.
Lemma no_less a t d d' : pow_close -> log_close -> ordinary a t d -> rates_near d -> rates_near d' -> d_Mods d' = d_Mods d ->
  worth_no_less (Z.testbit (d_Mods d) 2) (Z.testbit (d_Mods d) bRX) (Z.testbit (d_Mods d) bHD) (Z.testbit (d_Mods d) bFL) (the_play a t d) (the_play a t d') -> barely_more (worth a t d) (worth a t d').
Proof.
  intros PC LC O RN RN' E (W1 & W2 & W3 & W4). destruct (other_rates a t d d' E) as (_ & EF & O'). destruct (the_values PC LC a t d O RN) as (A1 & A2 & A3 & A4 & A5). destruct (the_values PC LC a t d' (O' O) RN') as (B1 & B2 & B3 & B4 & B5).
  rewrite E in B1, B2, B3, B4, B5. rewrite EF in B5. pose proof (final_nn a t d O) as FN.
  split; [exact (about_le _ _ _ _ A1 B1 W1)|]. split; [exact (about_le _ _ _ _ A2 B2 W2)|]. split; [exact (about_le _ _ _ _ A3 B3 W3)|]. split; [exact (about_le _ _ _ _ A4 B4 W4)|].
  apply (about_le _ _ _ _ A5 B5). now apply total_grows.
Qed.

(** C109.  A stricter OD, from 0 on, makes the same play worth no less ... *)
Theorem C109_od : pow_close -> log_close -> forall a t d d', ordinary a t d -> rates_near d -> rates_near d' -> d_Mods d' = d_Mods d -> B2R (d_ARReal d') = B2R (d_ARReal d) ->
  (0 <= B2R (d_ODReal d) <= B2R (d_ODReal d'))%R -> barely_more (worth a t d) (worth a t d').
Proof.
  intros PC LC a t d d' O RN RN' E EA OD. apply no_less; auto. destruct (other_rates a t d d' E) as (-> & _). rewrite EA. change (B2R (d_ARReal d)) with (y_ar (the_play a t d)).
  apply od_grows; [now apply the_level|exact OD|]. destruct RN' as (_ & (_ & R)). lra.
Qed.
(** ... but not below 0, where the square of the OD counts: with Relax an OD of -3
    is worth more than one near 0. *)
Theorem C109_od_refuted : pow_close -> log_close -> forall a t d d', ordinary a t d -> rates_near d -> rates_near d' -> d_Mods d' = d_Mods d -> B2R (d_ARReal d') = B2R (d_ARReal d) ->
  Z.testbit (d_Mods d) bRX = true -> (-1 <= B2R (d_ODReal d) <= 1)%R -> (B2R (d_ODReal d') <= -3)%R ->
  (1003 / 1000 * B2R (r_Total (worth a t d)) <= B2R (r_Total (worth a t d')))%R.
Proof.
  intros PC LC a t d d' O RN RN' E EA RX OD OD'. destruct (other_rates a t d d' E) as (EP & EF & O'). destruct (the_values PC LC a t d O RN) as (_ & _ & _ & _ & A5). destruct (the_values PC LC a t d' (O' O) RN') as (_ & _ & _ & _ & B5).
  rewrite E, EF, EP, EA in B5. change (B2R (d_ARReal d)) with (y_ar (the_play a t d)) in B5. pose proof (the_level a t d O RN) as LV. pose proof (final_nn a t d O) as FN.
  destruct (od_below (Z.testbit (d_Mods d) 2) (Z.testbit (d_Mods d) bHD) (Z.testbit (d_Mods d) bFL) (the_play a t d) (B2R (d_ODReal d')) LV OD OD') as ((P1 & Q1) & (P2 & Q2) & (P3 & Q3)). rewrite RX in A5, B5. cbn [SpecFormula.acc_value] in A5, B5.
  set (x1 := SpecFormula.aim_value _ _ (the_play a t d)) in *. set (x2 := SpecFormula.speed_value _ (the_play a t d)) in *. set (x3 := SpecFormula.fl_value _ _ _ (the_play a t d)) in *.
  set (x1' := SpecFormula.aim_value _ _ (rated _ _ _)) in *. set (x2' := SpecFormula.speed_value _ (rated _ _ _)) in *. set (x3' := SpecFormula.fl_value _ _ _ (rated _ _ _)) in *. clearbody x1 x2 x3 x1' x2' x3'.
  pose proof (total_scale x1 x2 0 x3 (10032 / 10000) (the_final a t d) ltac:(lra) P1 P2 ltac:(lra) P3) as TS. rewrite Rmult_0_l in TS.
  assert (PM : forall x, (0 <= x)%R -> (0 <= x * (10032 / 10000))%R) by (intros x X; apply Rmult_le_pos; lra).
  pose proof (total_grows (x1 * (10032 / 10000)) (x2 * (10032 / 10000)) 0 (x3 * (10032 / 10000)) x1' x2' 0 x3' (the_final a t d) ltac:(split; [now apply PM|exact Q1]) ltac:(split; [now apply PM|exact Q2]) ltac:(lra) ltac:(split; [now apply PM|exact Q3]) FN) as TG.
  pose proof (total_grows x1 x2 0 x3 x1 x2 0 x3 (the_final a t d) ltac:(lra) ltac:(lra) ltac:(lra) ltac:(lra) FN) as T0. rewrite TS in TG. set (v := total_value x1 x2 0 x3 _) in *. set (v' := total_value x1' x2' 0 x3' _) in *.
  unfold about in A5, B5. rewrite (Rabs_pos_eq v) in A5 by lra. rewrite (Rabs_pos_eq v') in B5 by lra. apply Rabs_le_inv in A5. apply Rabs_le_inv in B5. lra.
Qed.
(** Hit something and hold a combo of one: the pp are more than 0. *)
Theorem C109_positive : pow_close -> log_close -> forall a t d, ordinary a t d -> rates_near d -> 1 <= t_combo t -> 1 <= t_300 t + t_100 t + t_50 t -> (0 < B2R (r_Total (worth a t d)))%R.
Proof.
  intros PC LC a t d O RN CB HT. destruct (the_values PC LC a t d O RN) as (_ & _ & _ & _ & A5). pose proof (the_level a t d O RN) as LV.
  destruct (cores_nn (Z.testbit (d_Mods d) 2) (Z.testbit (d_Mods d) bHD) (Z.testbit (d_Mods d) bFL) _ LV) as (_ & N2 & N3 & N4). pose proof LV as (LT & LA & LF & LJ & LR & LO).
  assert (L : (0 < length_factor (y_total (the_play a t d)))%R) by (apply (length_le (y_total (the_play a t d)) (y_total (the_play a t d))); lra).
  destruct (ar_factors (Z.testbit (d_Mods d) bHD) (length_factor (y_total (the_play a t d))) (y_ar (the_play a t d)) ltac:(lra) LR) as (_ & AR2 & AR1).
  assert (X1 : (0 < SpecFormula.aim_value (Z.testbit (d_Mods d) 2) (Z.testbit (d_Mods d) bHD) (the_play a t d))%R).
  { rewrite aim_split. assert (OD : (0 < aim_od (y_od (the_play a t d)))%R) by (unfold aim_od; pose proof (pow2_ge_0 (y_od (the_play a t d))); lra). apply Rmult_lt_0_compat; [apply Rmult_lt_0_compat; [|exact AR1]|exact OD]. unfold aim_core.
    assert (B : forall x, (0 < base_value x)%R) by (intros x; apply (base_le x x); lra).
    assert (CF : (0 < combo_factor (y_combo (the_play a t d)) (y_most (the_play a t d)))%R).
    { unfold combo_factor. apply Rmin_glb_lt; [lra|]. unfold the_play, play_of. cbn [y_combo y_most]. assert (C1 : (1 <= IZR (t_combo t))%R) by (apply (IZR_le 1); exact CB). assert (M1 : (1 <= IZR (Z.max 1 (at_MaxCombo a)))%R) by (apply (IZR_le 1); lia).
      rewrite rpow_pos by (apply Rmult_lt_0_compat; [lra|apply Rinv_0_lt_compat; lra]). unfold Rpower. apply exp_pos. }
    assert (NRF : (0 < SpecFormula.nerf (y_sliders (the_play a t d)) (y_factor (the_play a t d)) (Rmin (y_ok (the_play a t d) + y_meh (the_play a t d) + y_miss (the_play a t d)) (y_most (the_play a t d) - y_combo (the_play a t d))))%R).
    { apply Rlt_le_trans with (y_factor (the_play a t d)); [|now apply nerf_ge]. destruct O as [(_ & _ & _ & (_ & SF) & _) _ _ _ _ _ _ _]. unfold the_play, play_of. cbn [y_factor]. lra. }
    assert (AC : (0 < accuracy (the_play a t d))%R).
    { destruct O as [_ (H1 & H2 & H3 & H4 & H5) _ _ _ _ _ _]. unfold accuracy, the_play, play_of in *. cbn [y_total y_great y_ok y_meh] in *. assert (Q : (1 <= IZR (t_300 t) + IZR (t_100 t) + IZR (t_50 t))%R) by (rewrite <- !plus_IZR; apply (IZR_le 1); exact HT).
      apply IZR_le in H1, H2, H3. apply Rmult_lt_0_compat; [lra|apply Rinv_0_lt_compat; lra]. }
    repeat match goal with |- (0 < _ * _)%R => apply Rmult_lt_0_compat end; auto. apply miss_pos. }
  assert (FP : (0 < the_final a t d)%R).
  { pose proof O as [O1 _ _ _ _ O6 _ O8]. unfold the_final, final_factor. assert (T : (1 <= IZR (hits t))%R) by (apply (IZR_le 1); exact O6). destruct O1 as (_ & _ & _ & _ & (_ & _ & _ & SP & _)).
    repeat match goal with |- (0 < _ * _)%R => apply Rmult_lt_0_compat end; try lra.
    - destruct (Z.testbit (d_Mods d) bNF); [|lra]. apply Rlt_le_trans with (2 := Rmax_l _ _). lra.
    - destruct (Z.testbit (d_Mods d) bSO) eqn:E; [|lra]. specialize (O8 eq_refl). assert (Q : (0 <= IZR (at_Spinners a) / IZR (hits t) <= / 2)%R).
      { assert (0 <= IZR (at_Spinners a))%R by (apply IZR_le; lia). assert (2 * IZR (at_Spinners a) <= IZR (hits t))%R by (rewrite <- (mult_IZR 2); apply IZR_le; lia). split; [apply Rmult_le_pos; [lra|left; apply Rinv_0_lt_compat; lra]|]. apply Rmult_le_reg_r with (IZR (hits t)); [lra|]. unfold Rdiv. rewrite Rmult_assoc, Rinv_l by lra. lra. }
      pose proof (rp_le _ (/ 2) (85 / 100) Q ltac:(lra)) as P. assert (rpow (/ 2) (85 / 100) < 1)%R; [|lra]. rewrite rpow_pos by lra. unfold Rpower. rewrite <- exp_0. apply exp_increasing. assert (ln (/ 2) < 0)%R by (rewrite <- ln_1; apply ln_increasing; lra). lra.
    - destruct (Z.testbit (d_Mods d) bRX); lra. }
  set (x1 := SpecFormula.aim_value _ _ _) in *. set (x2 := SpecFormula.speed_value _ _) in *. set (x3 := SpecFormula.acc_value _ _ _ _) in *. set (x4 := SpecFormula.fl_value _ _ _ _) in *.
  assert (TV : (0 < total_value x1 x2 x3 x4 (the_final a t d))%R).
  { unfold total_value. apply Rmult_lt_0_compat; [|exact FP]. pose proof (rp_nn x2 (11 / 10)). pose proof (rp_nn x3 (11 / 10)). pose proof (rp_nn x4 (11 / 10)). assert (0 < rpow x1 (11 / 10))%R by (rewrite rpow_pos by exact X1; unfold Rpower; apply exp_pos). rewrite rpow_pos by lra. unfold Rpower. apply exp_pos. }
  unfold about in A5. rewrite (Rabs_pos_eq (total_value _ _ _ _ _)) in A5 by lra. apply Rabs_le_inv in A5. lra.
Qed.
(** A higher AR makes the same play worth no more up to 10.33, Hidden or not; from 8 on it makes it worth no less without Hidden. *)
Theorem C109_ar : pow_close -> log_close -> forall a t d d', ordinary a t d -> rates_near d -> rates_near d' -> d_Mods d' = d_Mods d -> B2R (d_ODReal d') = B2R (d_ODReal d) ->
  (B2R (d_ARReal d) <= B2R (d_ARReal d'))%R ->
  ((B2R (d_ARReal d') <= 1033 / 100)%R -> barely_more (worth a t d') (worth a t d)) /\
  (Z.testbit (d_Mods d) bHD = false -> (8 <= B2R (d_ARReal d))%R -> barely_more (worth a t d) (worth a t d')).
Proof.
  intros PC LC a t d d' O RN RN' E EO AR. destruct (other_rates a t d d' E) as (EP & _ & O'). pose proof (the_level a t d O RN) as LV. destruct RN' as ((F' & RA') & RO'). pose proof (conj (conj F' RA') RO' : rates_near d') as RN'.
  rewrite EO in EP. change (B2R (d_ODReal d)) with (y_od (the_play a t d)) in EP.
  assert (L : (0 <= length_factor (y_total (the_play a t d)))%R) by (left; apply (length_le (y_total (the_play a t d)) (y_total (the_play a t d))); destruct LV; lra).
  destruct (ar_changes (Z.testbit (d_Mods d) 2) (Z.testbit (d_Mods d) bRX) (Z.testbit (d_Mods d) bHD) (Z.testbit (d_Mods d) bFL) (the_play a t d) (B2R (d_ARReal d')) LV (proj2 RA')) as (U & D). rewrite <- EP in U, D.
  change (y_ar (the_play a t d)) with (B2R (d_ARReal d)) in U, D. split.
  - intros A. apply no_less; auto. rewrite E. apply D. now apply ar_down.
  - intros HD A. apply no_less; auto. apply U. rewrite HD. apply ar_up; [exact L|split; [exact A|exact AR]|apply RA'].
Qed.
(** Between 8 and 10.33 the AR does not matter at all without Hidden, whatever the play and libm. *)
Lemma not_above x : is_finite x = true -> (8 <= B2R x <= 1033 / 100)%R -> fgt x (fq 1033 100) = false /\ flt x (fq 8 1) = false.
Proof.
  intros F B. destruct (fq1_exact 8) as (F8 & E8); [lia|]. destruct (f_of_Z_exact 1033) as (Fn & En); [lia|]. destruct (f_of_Z_exact 100) as (Fd & Ed); [lia|].
  destruct (fdiv_fin (f_of_Z 1033) (f_of_Z 100) Fn Fd) as (FT & ET); [rewrite Ed; lra|rewrite En, Ed, Rabs_pos_eq by lra; apply Rle_trans with (bpow radix2 4); [cbn; lra|apply bpow_le; lia]|]. rewrite En, Ed in ET.
  fold (fq 1033 100) in FT, ET. assert (LE : (B2R x <= B2R (fq 1033 100))%R).
  { rewrite ET. apply rnd64_ge_f. lra. }
  set (c := fq 1033 100) in *. set (e := fq 8 1) in *. clearbody c e. split.
  - unfold fgt, flt. rewrite Bltb_correct by assumption. apply Rlt_bool_false. exact LE.
  - unfold flt. rewrite Bltb_correct by assumption. apply Rlt_bool_false. rewrite E8. lra.
Qed.
Theorem C109_ar_between : forall a t d d', d_Mods d' = d_Mods d -> d_ODReal d' = d_ODReal d -> Z.testbit (d_Mods d) bHD = false ->
  (is_finite (d_ARReal d) = true /\ 8 <= B2R (d_ARReal d) <= 1033 / 100)%R -> (is_finite (d_ARReal d') = true /\ 8 <= B2R (d_ARReal d') <= 1033 / 100)%R -> worth a t d' = worth a t d.
Proof.
  intros a t d d' E EO HD (F & B) (F' & B'). destruct (not_above _ F B) as (G & L). destruct (not_above _ F' B') as (G' & L'). unfold worth. rewrite !results_at.
  set (p := stated _ a _ _ _ _ _ d). set (p' := stated _ a _ _ _ _ _ d').
  assert (HM : mactive (d_Mods d) Hidden = false) by (change Hidden with (2 ^ 3); rewrite mactive_bit by lia; exact HD).
  assert (CA : compute_aim p' d' = compute_aim p d). { unfold compute_aim, p, p', stated. cbv zeta. unfold check_mod. cbn [pp_attribs pp_scoreMaxCombo pp_great pp_ok pp_meh pp_miss pp_effMiss pp_totalHits pp_accuracy]. rewrite E, EO, HM, G, G', L, L'. reflexivity. }
  assert (CS : compute_speed p' d' = compute_speed p d). { unfold compute_speed, p, p', stated. cbv zeta. unfold check_mod. cbn [pp_attribs pp_scoreMaxCombo pp_great pp_ok pp_meh pp_miss pp_effMiss pp_totalHits pp_accuracy]. rewrite E, EO, HM, G, G'. reflexivity. }
  assert (CC : compute_acc p' d' = compute_acc p d). { unfold compute_acc, p, p', stated. cbv zeta. unfold check_mod. cbn [pp_attribs pp_scoreMaxCombo pp_great pp_ok pp_meh pp_miss pp_effMiss pp_totalHits pp_accuracy pp_accObjects]. rewrite E, EO. reflexivity. }
  assert (CF : compute_flashlight p' d' = compute_flashlight p d). { unfold compute_flashlight, p, p', stated. cbv zeta. unfold check_mod. cbn [pp_attribs pp_scoreMaxCombo pp_great pp_ok pp_meh pp_miss pp_effMiss pp_totalHits pp_accuracy pp_accObjects]. rewrite E, EO. reflexivity. }
  unfold results_of. rewrite CA, CS, CC, CF, E. unfold p, p', stated. cbv zeta. cbn [pp_attribs pp_scoreMaxCombo pp_miss pp_totalHits]. reflexivity.
Qed.
(** Of the difficulty, only the mods and the two rates as played matter. *)
Theorem C109_only : forall a t d d', d_Mods d' = d_Mods d -> d_ARReal d' = d_ARReal d -> d_ODReal d' = d_ODReal d -> worth a t d' = worth a t d.
Proof.
  intros a t d d' E EA EO. unfold worth. rewrite !results_at. set (p := stated _ a _ _ _ _ _ d). set (p' := stated _ a _ _ _ _ _ d').
  assert (CA : compute_aim p' d' = compute_aim p d) by (unfold compute_aim, p, p', stated; cbv zeta; unfold check_mod; cbn [pp_attribs pp_scoreMaxCombo pp_great pp_ok pp_meh pp_miss pp_effMiss pp_totalHits pp_accuracy]; rewrite E, EA, EO; reflexivity).
  assert (CS : compute_speed p' d' = compute_speed p d) by (unfold compute_speed, p, p', stated; cbv zeta; unfold check_mod; cbn [pp_attribs pp_scoreMaxCombo pp_great pp_ok pp_meh pp_miss pp_effMiss pp_totalHits pp_accuracy]; rewrite E, EA, EO; reflexivity).
  assert (CC : compute_acc p' d' = compute_acc p d) by (unfold compute_acc, p, p', stated; cbv zeta; unfold check_mod; cbn [pp_attribs pp_scoreMaxCombo pp_great pp_ok pp_meh pp_miss pp_effMiss pp_totalHits pp_accuracy pp_accObjects]; rewrite E, EO; reflexivity).
  assert (CF : compute_flashlight p' d' = compute_flashlight p d) by (unfold compute_flashlight, p, p', stated; cbv zeta; unfold check_mod; cbn [pp_attribs pp_scoreMaxCombo pp_great pp_ok pp_meh pp_miss pp_effMiss pp_totalHits pp_accuracy pp_accObjects]; rewrite E, EO; reflexivity).
  unfold results_of. rewrite CA, CS, CC, CF, E. unfold p, p', stated. cbv zeta. cbn [pp_attribs pp_scoreMaxCombo pp_miss pp_totalHits]. reflexivity.
Qed.
End WithLibm.

(** ** Concrete cases *)
Definition near_b (d : difficulty) : bool :=
  is_finite (d_ARReal d) && is_finite (d_ODReal d) && fle (fq (-100) 1) (d_ARReal d) && fle (d_ARReal d) (fq 13 1) && fle (fq (-40) 1) (d_ODReal d) && fle (d_ODReal d) (fq 14 1).
Lemma fle_R (x y : f64) : fle x y = true -> is_finite x = true -> is_finite y = true -> (B2R x <= B2R y)%R.
Proof. intros L F F'. apply fle_iff in L as (_ & _ & L). rewrite (key_fin _ _ _ F), (key_fin _ _ _ F') in L. lra. Qed.
Lemma near_ok d : near_b d = true -> rates_near d.
Proof.
  unfold near_b. intros B. do 5 (apply andb_prop in B as (B & ?)). destruct (fq1_exact (-100)) as (F1 & E1); [lia|]. destruct (fq1_exact 13) as (F2 & E2); [lia|]. destruct (fq1_exact (-40)) as (F3 & E3); [lia|]. destruct (fq1_exact 14) as (F4 & E4); [lia|].
  split; (split; [assumption|]); [rewrite <- E1, <- E2|rewrite <- E3, <- E4]; split; apply fle_R; assumption.
Qed.
(** 497 of 500 hit, the longest combo 200, on the demo map of C51, three breaks. *)
Definition some_play : tally := mkTally 200 480 15 3 2.
Lemma some_ordinary d : Z.testbit (d_Mods d) bRX = false -> Z.testbit (d_Mods d) bSO = false -> ordinary demo_attrs some_play d.
Proof.
  intros RX SO. destruct C80_instance as (_ & _ & MO & _ & H & G & B & BM & _). unfold some_play. constructor; cbn [t_combo t_300 t_100 t_50 t_miss]; try assumption; try lia; [unfold hits; cbn; lia| |rewrite SO; discriminate].
  unfold counted. rewrite RX. cbn [t_combo t_miss]. unfold hits. cbn [t_300 t_100 t_50 t_miss]. change (480 + 15 + 3 + 2) with 500. cbv zeta. rewrite B. exact BM.
Qed.
(** ... and a play of it without a fault. *)
Lemma clean_ordinary d : Z.testbit (d_Mods d) bSO = false -> ordinary demo_attrs (mkTally 700 500 0 0 0) d.
Proof.
  intros SO. destruct C80_instance as (_ & _ & MO & _). assert (G : guess_of demo_attrs 700 = 0%R).
  { unfold guess_of, guessed_breaks, demo_attrs. cbn [at_Sliders at_MaxCombo]. cbv zeta. change (Z.max 1 700) with 700. destruct (Rlt_dec 0 198) as [_|N]; [|lra]. destruct (Rlt_dec 700 _) as [N|_]; [lra|reflexivity]. }
  assert (B : breaks_of demo_attrs 700 0 500 = 0). { unfold breaks_of. rewrite G, Rmin_left by lra. replace (Zfloor 0) with 0; [reflexivity|]. symmetry. apply Zfloor_imp. cbn. lra. }
  constructor; cbn [t_combo t_300 t_100 t_50 t_miss]; try assumption; try lia; [unfold hits_upto; lia| |unfold hits; cbn; lia| |rewrite SO; discriminate].
  - unfold guess_clear. rewrite G. split; [intros _; unfold demo_attrs; cbn [at_Sliders at_MaxCombo]; change (Z.max 1 700) with 700; lra|now left].
  - unfold counted, hits. cbn [t_combo t_300 t_100 t_50 t_miss]. change (500 + 0 + 0 + 0) with 500. cbv zeta. rewrite B. assert (X : (if Z.testbit (d_Mods d) bRX then Z.min (0 + 0 + 0) 500 else 0) = 0) by (destruct (Z.testbit (d_Mods d) bRX); reflexivity). rewrite X. split; [lia|intros N; lia].
Qed.
Definition with_rates (od ar : f64) (m : Z) : difficulty := SpecDifficulty.built (fq 5 1) (fq 4 1) od ar m (fq 1 1).
(** Hidden, Flashlight and Double Time: OD 8 against OD 9. *)
Example C109_od_instance : let d := with_rates (fq 8 1) (fq 9 1) 1096 in let d' := with_rates (fq 9 1) (fq 9 1) 1096 in
  @pow_close exact_libm /\ @log_close exact_libm /\ ordinary demo_attrs some_play d /\ rates_near d /\ rates_near d' /\ d_Mods d' = d_Mods d /\ d_ARReal d' = d_ARReal d /\ (9 <= B2R (d_ODReal d) < B2R (d_ODReal d'))%R.
Proof.
  intros d d'. split; [exact exact_close|]. split; [exact exact_log|]. split; [apply some_ordinary; vm_compute; reflexivity|]. split; [apply near_ok; vm_compute; reflexivity|]. split; [apply near_ok; vm_compute; reflexivity|]. split; [exact eq_refl|]. split; [apply B2SF_inj; vm_compute; exact eq_refl|].
  destruct (fq1_exact 9) as (F & E); [lia|]. split; [rewrite <- E; apply fle_R; vm_compute; reflexivity|].
  assert (Q : forall x y : f64, flt x y = true -> is_finite x = true -> is_finite y = true -> (B2R x < B2R y)%R). { intros x y L F1 F2. apply flt_iff in L as (_ & _ & L). rewrite (key_fin _ _ _ F1), (key_fin _ _ _ F2) in L. lra. }
  apply Q; vm_compute; reflexivity.
Qed.
(** Relax and Half Time: OD 0, played as -4.4, is worth more than OD 3, played as -0.4. *)
Definition lax : difficulty := with_rates (fq 0 1) (fq 9 1) 384.
Definition less_lax : difficulty := with_rates (fq 3 1) (fq 9 1) 384.
Example C109_od_refuted_instance : ordinary demo_attrs (mkTally 700 500 0 0 0) less_lax /\ rates_near less_lax /\ rates_near lax /\ d_Mods lax = d_Mods less_lax /\ d_ARReal lax = d_ARReal less_lax /\
  Z.testbit (d_Mods less_lax) bRX = true /\ (-1 <= B2R (d_ODReal less_lax) <= 1)%R /\ (B2R (d_ODReal lax) <= -3)%R.
Proof.
  split; [apply clean_ordinary; vm_compute; reflexivity|]. split; [apply near_ok; vm_compute; reflexivity|]. split; [apply near_ok; vm_compute; reflexivity|]. split; [exact eq_refl|]. split; [apply B2SF_inj; vm_compute; exact eq_refl|]. split; [vm_compute; reflexivity|].
  destruct (fq1_exact (-1)) as (F1 & E1); [lia|]. destruct (fq1_exact 1) as (F2 & E2); [lia|]. destruct (fq1_exact (-3)) as (F3 & E3); [lia|].
  split; [split|]; [rewrite <- E1|rewrite <- E2|rewrite <- E3]; apply fle_R; vm_compute; reflexivity.
Qed.
Theorem C109_od_witness : ~ (forall a t d d', ordinary a t d -> rates_near d -> rates_near d' -> d_Mods d' = d_Mods d -> B2R (d_ARReal d') = B2R (d_ARReal d) -> (B2R (d_ODReal d) <= B2R (d_ODReal d'))%R -> barely_more (@worth exact_libm a t d) (@worth exact_libm a t d')).
Proof.
  intros X. destruct C109_od_refuted_instance as (O & R1 & R2 & E & EA & RX & L1 & L2). destruct (@other_rates demo_attrs (mkTally 700 500 0 0 0) less_lax lax E) as (_ & _ & O').
  specialize (X demo_attrs _ lax less_lax (O' O) R2 R1 (eq_sym E) (f_equal B2R (eq_sym EA)) ltac:(lra)). destruct X as (_ & _ & _ & _ & X).
  pose proof (@C109_od_refuted exact_libm exact_close exact_log demo_attrs _ less_lax lax O R1 R2 E (f_equal B2R EA) RX L1 L2) as Y.
  pose proof (@C109_positive exact_libm exact_close exact_log demo_attrs _ less_lax O R1 ltac:(cbn; lia) ltac:(cbn; lia)) as P. lra.
Qed.
(** AR 9 and 10, without mods, and AR 5 and 9 with Hidden; Double Time takes AR 9 above 10.33. *)
Example C109_ar_instance : let d := with_rates (fq 8 1) (fq 9 1) 0 in let d' := with_rates (fq 8 1) (fq 10 1) 0 in let h := with_rates (fq 8 1) (fq 5 1) 8 in let h' := with_rates (fq 8 1) (fq 9 1) 8 in
  let q := with_rates (fq 8 1) (fq 9 1) 64 in let q' := with_rates (fq 8 1) (fq 10 1) 64 in
  ordinary demo_attrs some_play d /\ ordinary demo_attrs some_play h /\ ordinary demo_attrs some_play q /\ Forall rates_near [d; d'; h; h'; q; q'] /\ (d_Mods d' = d_Mods d /\ d_Mods h' = d_Mods h /\ d_Mods q' = d_Mods q) /\ (d_ODReal d' = d_ODReal d /\ d_ODReal h' = d_ODReal h /\ d_ODReal q' = d_ODReal q) /\
  Z.testbit (d_Mods d) bHD = false /\ Z.testbit (d_Mods h) bHD = true /\ Z.testbit (d_Mods q) bHD = false /\
  (8 <= B2R (d_ARReal d) <= 1033 / 100)%R /\ (8 <= B2R (d_ARReal d') <= 1033 / 100)%R /\ (B2R (d_ARReal h) <= B2R (d_ARReal h') <= 1033 / 100)%R /\ (8 <= B2R (d_ARReal q) <= B2R (d_ARReal q'))%R.
Proof.
  intros d d' h h' q q'. do 3 (split; [apply some_ordinary; vm_compute; reflexivity|]). split; [repeat (constructor; [apply near_ok; vm_compute; reflexivity|]); constructor|].
  split; [repeat split; exact eq_refl|]. split; [repeat split; apply B2SF_inj; vm_compute; exact eq_refl|]. do 3 (split; [vm_compute; reflexivity|]).
  destruct (fq1_exact 8) as (F1 & E1); [lia|]. destruct (fq1_exact 10) as (F2 & E2); [lia|].
  assert (U : forall x, fle x (fq 10 1) = true -> is_finite x = true -> (B2R x <= 1033 / 100)%R) by (intros x L F; apply fle_R in L; auto; lra). assert (L : forall x, fle (fq 8 1) x = true -> is_finite x = true -> (8 <= B2R x)%R) by (intros x K F; apply fle_R in K; auto; lra).
  split; [split; [apply L|apply U]; vm_compute; reflexivity|]. split; [split; [apply L|apply U]; vm_compute; reflexivity|]. split; [split; [apply fle_R|apply U]; vm_compute; reflexivity|]. split; [apply L|apply fle_R]; vm_compute; reflexivity.
Qed.
(** HP and CS are not looked at. *)
Example C109_only_instance : let d := with_rates (fq 8 1) (fq 9 1) 64 in let d' := SpecDifficulty.built (fq 2 1) (fq 7 1) (fq 8 1) (fq 9 1) 64 (fq 1 1) in
  d_Mods d' = d_Mods d /\ d_ARReal d' = d_ARReal d /\ d_ODReal d' = d_ODReal d /\ feq (d_CircleRadius d) (d_CircleRadius d') = false.
Proof. intros d d'. split; [exact eq_refl|]. split; [apply B2SF_inj; vm_compute; exact eq_refl|]. split; [apply B2SF_inj; vm_compute; exact eq_refl|]. vm_compute. exact eq_refl. Qed.

Print Assumptions C109_od.
Print Assumptions C109_od_refuted.
Print Assumptions C109_od_witness.
Print Assumptions C109_positive.
Print Assumptions C109_ar.
Print Assumptions C109_ar_between.
Print Assumptions C109_only.

(** C91: a better play is never worth less, with what "better" can and cannot mean. *)
From Coq Require Import Reals Lra ZArith Lia.
From Flocq Require Import Raux Zaux Core BinarySingleNaN.
From Verif Require Import PP SpecPP SpecTempo SpecMods SpecDifficulty SpecFormula SpecBetter BaseLemmas FloatLemmas Float32Lemmas KeyLemmas PPProofs PPBounds PPChains PPFinal PPMono PPBetter PropPP RelLemmas RelPow FormulaParts FormulaRest FormulaProofs IdealLibm ModsProofs DifficultyProofs PropFormula PropStars.
Open Scope Z_scope.

Section WithLibm.
Context {M : libm}.
(** C91.  Of two plays on equally built maps, the one with no fewer 300s, no
    more 50s, no more misses and no shorter combo, on the map with no lower
    ratings, gets no less pp: in each of the four values and in total.  Under
    Relax 100s and 50s count as misses, so there must be no more of them. *)
Theorem C91_better : pow_ranges -> log_above -> pow_orders -> forall a a' t t' d, attrs_ok a -> attrs_ok a' -> harder a a' -> diff_ok d -> tally_ok t -> tally_ok t' -> improved t t' ->
  (Z.testbit (d_Mods d) bRX = true -> t_100 t' + t_50 t' <= t_100 t + t_50 t) ->
  (Z.testbit (d_Mods d) bSO = true -> at_Spinners a <= hits t) ->
  no_better (worth a t d) (worth a' t' d) /\ fle (r_Total (worth a t d)) (r_Total (worth a' t' d)) = true.
Proof.
  intros PR LR PO a a' t t' d A A' HA D T T' I RX SO. set (r0 := mkResults f0 f0 f0 f0 f0).
  assert (W : forall b s, worth b s d = results_of (stated pp0 b (t_combo s) (t_300 s) (t_100 s) (t_50 s) (t_miss s) d) d). { intros b s. unfold worth. rewrite results_at. reflexivity. }
  rewrite !W. assert (RB : mactive (d_Mods d) Relax = Z.testbit (d_Mods d) bRX) by (change Relax with (2 ^ 7); now apply mactive_bit). assert (SB : mactive (d_Mods d) SpunOut = Z.testbit (d_Mods d) bSO) by (change SpunOut with (2 ^ 12); now apply mactive_bit).
  assert (SP : spun_ok a d (hits t)) by (unfold spun_ok; rewrite SB; exact SO). rewrite <- RB in RX.
  destruct (all_better PR LR PO a a' t t' d pp0 A A' HA D T T' I RX SP) as (L1 & L2 & L3 & L4 & L5).
  split; [|now apply le2_fle in L5]. unfold no_better, results_of. cbn [r_Aim r_Speed r_Acc r_Flashlight]. apply le2_fle in L1, L2, L3, L4. auto.
Qed.
(** In particular playing on never helps a full combo of 300s: nothing beats it. *)
Theorem C91_best : pow_ranges -> log_above -> pow_orders -> forall a t d, attrs_ok a -> diff_ok d -> tally_ok t -> t_combo t <= at_MaxCombo a ->
  (Z.testbit (d_Mods d) bSO = true -> at_Spinners a <= hits t) ->
  let best := mkTally (at_MaxCombo a) (hits t) 0 0 0 in no_better (worth a t d) (worth a best d) /\ fle (r_Total (worth a t d)) (r_Total (worth a best d)) = true.
Proof.
  intros PR LR PO a t d A D T C SO best. pose proof A as (_ & _ & _ & _ & O & _ & _ & _ & MC). pose proof T as ((H1 & H2 & H3 & H4 & H5) & H6). fold (hits t) in H5.
  assert (T' : tally_ok best) by (unfold best, tally_ok, hits_upto, hits in *; cbn [t_300 t_100 t_50 t_miss t_combo] in *; lia).
  apply C91_better; auto.
  - unfold harder. repeat split; apply Rle_refl.
  - unfold improved, best, hits in *. cbn [t_300 t_100 t_50 t_miss t_combo] in *. lia.
  - intros _. cbn [t_100 t_50 best]. lia.
Qed.

(** One would also think a 50 is better than a miss.  For the speed value it is
    not, once the combo alone already accounts for the misses: each 50 beyond
    one in 500 hits costs 2%, a miss nothing but its share of the accuracy. *)
Theorem C91_fifty_refuted : pow_close -> log_close -> forall a combo n300 n100 n50 nmiss d, map_ok a -> rates_near d -> hits_upto (2 ^ 20) n300 n100 n50 nmiss -> n50 <= 900 -> 1 <= combo <= 2 ^ 31 -> guess_clear a combo ->
  let total := n300 + n100 + n50 + nmiss in Z.testbit (d_Mods d) bRX = false -> Z.testbit (d_Mods d) bSO = false -> breaks_mild (breaks_of a combo nmiss total) total ->
  nmiss < breaks_of a combo nmiss total -> total <= 500 * (n50 - 1) -> 600 <= 6 * n300 + 2 * n100 + n50 ->
  (101 / 100 * B2R (r_Speed (worth a (mkTally combo n300 n100 n50 nmiss) d)) < B2R (r_Speed (worth a (mkTally combo n300 n100 (n50 - 1) (nmiss + 1)) d)))%R.
Proof.
  intros PC LC a combo n300 n100 n50 nmiss d MO RN H H50 C G total RX SO BM DOM FIFTY MASS.
  assert (T : n300 + n100 + (n50 - 1) + (nmiss + 1) = total) by (unfold total; ring).
  assert (BE : breaks_of a combo (nmiss + 1) total = breaks_of a combo nmiss total) by (unfold breaks_of in *; lia).
  pose proof H as (H1 & H2 & H3 & H4 & H5). fold total in H5. set (r0 := mkPP (mkResults f0 f0 f0 f0 f0) a 0 0 0 0 0 0 None 0 f0 0).
  pose proof (C80_values PC LC r0 a combo n300 n100 n50 nmiss d MO RN H H50 ltac:(lia) G) as V. cbv zeta in V. fold total in V. rewrite RX, SO in V. specialize (V ltac:(lia) BM ltac:(discriminate)). destruct V as (_ & (_ & V) & _).
  assert (H' : hits_upto (2 ^ 20) n300 n100 (n50 - 1) (nmiss + 1)) by (unfold hits_upto; lia).
  pose proof (C80_values PC LC r0 a combo n300 n100 (n50 - 1) (nmiss + 1) d MO RN H' ltac:(lia) ltac:(lia) G) as V'. cbv zeta in V'. rewrite T, BE, RX, SO in V'. specialize (V' ltac:(lia) BM ltac:(discriminate)). destruct V' as (_ & (_ & V') & _).
  unfold worth. cbn [t_combo t_300 t_100 t_50 t_miss]. fold r0.
  set (s := B2R (r_Speed (pp_Results (ppv2x r0 a combo n300 n100 n50 nmiss d)))) in *. set (s' := B2R (r_Speed (pp_Results (ppv2x r0 a combo n300 n100 (n50 - 1) (nmiss + 1) d)))) in *. clearbody s s'.
  unfold SpecFormula.speed_value, play_of, accuracy in V, V'. rewrite T in V'. fold total in V. set (b := breaks_of a combo nmiss total) in *.
  cbn [y_speed y_total y_breaks y_combo y_most y_ar y_od y_great y_ok y_meh] in V, V'. set (n := IZR total) in *. assert (N : (1 <= n)%R) by (apply IZR_le; lia).
  set (e := ((145 / 10 - Rmax (B2R (d_ODReal d)) 8) / 2)%R) in *. destruct RN as ((_ & AR) & (_ & OD)). assert (E : (/ 4 <= e <= 4)%R). { unfold e. unfold Rmax. destruct (Rle_dec (B2R (d_ODReal d)) 8); lra. } clearbody e.
  set (x := (300 * IZR n300 + 100 * IZR n100 + 50 * IZR n50)%R) in *. set (x' := (300 * IZR n300 + 100 * IZR n100 + 50 * IZR (n50 - 1))%R) in *.
  assert (X : (x' = x - 50)%R) by (unfold x, x'; rewrite minus_IZR; lra). assert (XB : (30000 <= x)%R). { unfold x. assert (IZR 600 <= IZR (6 * n300 + 2 * n100 + n50))%R by (apply IZR_le; lia). rewrite !plus_IZR, !mult_IZR in H0. lra. } clearbody x x'. subst x'.
  assert (D : (0 < x / (300 * n))%R) by (apply Rdiv_lt_0_compat; lra). assert (D' : (0 < (x - 50) / (300 * n))%R) by (apply Rdiv_lt_0_compat; lra).
  rewrite (rpow_pos (x / (300 * n))) in V by exact D. rewrite (rpow_pos ((x - 50) / (300 * n))) in V' by exact D'.
  set (rest := (base_value (B2R (at_Speed a)) * length_factor n * miss_factor (IZR b) n (rpow (IZR b) (875 / 1000)) * combo_factor (IZR combo) (IZR (Z.max 1 (at_MaxCombo a))) * (1 + SpecFormula.ar_high (B2R (d_ARReal d)) * length_factor n) * SpecFormula.hidden_factor (Z.testbit (d_Mods d) bHD) (B2R (d_ARReal d)))%R) in *.
  assert (LF : (0 < length_factor n)%R).
  { unfold length_factor. assert (0 <= Rmin 1 (n / 2000))%R by (apply Rmin_glb; lra). destruct (Rlt_dec 2000 n) as [L|L]; [|lra]. assert (0 <= log10 (n / 2000))%R; [|lra]. unfold log10. apply Rmult_le_pos; [rewrite <- ln_1; apply ln_le'; lra|left; apply Rinv_0_lt_compat; rewrite <- ln_1; apply ln_increasing; lra]. }
  assert (RP : (0 < rest)%R).
  { unfold rest. clear V V'. clear rest.
    assert (B1 : (0 < base_value (B2R (at_Speed a)))%R). { unfold base_value. apply Rdiv_lt_0_compat; [|lra]. apply pow_lt. pose proof (Rmax_l 1 (B2R (at_Speed a) / (675 / 10000))). lra. }
    assert (B3 : (0 < miss_factor (IZR b) n (rpow (IZR b) (875 / 1000)))%R). { unfold miss_factor. destruct (Rlt_dec 0 (IZR b)); [|lra]. apply Rmult_lt_0_compat; [lra|apply exp_pos]. }
    assert (B4 : (0 < combo_factor (IZR combo) (IZR (Z.max 1 (at_MaxCombo a))))%R). { unfold combo_factor. apply Rmin_glb_lt; [lra|]. rewrite rpow_pos; [apply exp_pos|]. apply Rdiv_lt_0_compat; apply IZR_lt; lia. }
    assert (B5 : (0 < 1 + SpecFormula.ar_high (B2R (d_ARReal d)) * length_factor n)%R). { unfold SpecFormula.ar_high. pose proof (Rmax_l 0 (B2R (d_ARReal d) - 1033 / 100)). assert (0 <= 3 / 10 * Rmax 0 (B2R (d_ARReal d) - 1033 / 100) * length_factor n)%R by (repeat apply Rmult_le_pos; lra). lra. }
    assert (B6 : (0 < SpecFormula.hidden_factor (Z.testbit (d_Mods d) bHD) (B2R (d_ARReal d)))%R). { unfold SpecFormula.hidden_factor. destruct (Z.testbit (d_Mods d) bHD); lra. }
    repeat (assumption || apply Rmult_lt_0_compat). }
  clearbody rest. set (A := (95 / 100 + B2R (d_ODReal d) ^ 2 / 750)%R) in *. assert (AP : (0 < A)%R). { unfold A. pose proof (pow2_ge_0 (B2R (d_ODReal d))). lra. } clearbody A.
  assert (Q0 : (0 <= IZR (n50 - 1) - n / 500)%R). { assert (n <= IZR (500 * (n50 - 1)))%R by (apply IZR_le; exact FIFTY). rewrite mult_IZR in H0. lra. }
  rewrite (Rmax_right 0 (IZR (n50 - 1) - n / 500)) in V' by exact Q0. rewrite (Rmax_right 0 (IZR n50 - n / 500)) in V by (rewrite minus_IZR in Q0; lra).
  set (Q := Rpower (98 / 100) (IZR (n50 - 1) - n / 500)) in *. assert (QP : (0 < Q)%R) by apply exp_pos.
  assert (QE : Rpower (98 / 100) (IZR n50 - n / 500) = (98 / 100 * Q)%R). { unfold Q. replace (IZR n50 - n / 500)%R with (1 + (IZR (n50 - 1) - n / 500))%R by (rewrite minus_IZR; lra). rewrite Rpower_plus, Rpower_1 by lra. reflexivity. }
  rewrite QE in V. clearbody Q. set (P := Rpower (x / (300 * n)) e) in *. set (P' := Rpower ((x - 50) / (300 * n)) e) in *. assert (PP0 : (0 < P)%R) by apply exp_pos.
  assert (PQ : (99 / 100 * P <= P')%R).
  { unfold P, P'. replace ((x - 50) / (300 * n))%R with ((1 - 50 / x) * (x / (300 * n)))%R by (field; lra). assert (I : (50 / x <= / 600)%R). { apply Rmult_le_reg_r with x; [lra|]. replace (50 / x * x)%R with 50%R by (field; lra). lra. }
    rewrite <- Rpower_mult_distr by (try lra; exact D). apply Rmult_le_compat_r; [left; apply exp_pos|]. apply Rle_trans with (Rpower (599 / 600) 4).
    - replace 4%R with (INR 4) by (cbn; lra). rewrite Rpower_pow by lra. cbn [pow]. lra.
    - apply Rle_trans with (Rpower (599 / 600) e); [|apply Rle_Rpower_l; lra]. unfold Rpower. assert (L : (ln (599 / 600) < 0)%R) by (rewrite <- ln_1; apply ln_increasing; lra). destruct (Req_dec e 4) as [->|NE]; [apply Rle_refl|]. left. apply exp_increasing. nra. }
  clearbody P P'. set (w := (rest * A * Q * P)%R). assert (W : (0 < w)%R) by (unfold w; repeat (assumption || apply Rmult_lt_0_compat)).
  replace (rest * (A * P) * (98 / 100 * Q))%R with (98 / 100 * w)%R in V by (unfold w; ring). assert (W' : (99 / 100 * w <= rest * (A * P') * Q)%R). { unfold w. replace (99 / 100 * (rest * A * Q * P))%R with ((rest * A * Q) * (99 / 100 * P))%R by ring. replace (rest * (A * P') * Q)%R with ((rest * A * Q) * P')%R by ring. apply Rmult_le_compat_l; [|exact PQ]. left. repeat (assumption || apply Rmult_lt_0_compat). }
  set (w' := (rest * (A * P') * Q)%R) in *. clearbody w w'. unfold about in V, V'. rewrite (Rabs_pos_eq (98 / 100 * w)) in V by lra. rewrite (Rabs_pos_eq w') in V' by lra.
  apply Rabs_le_inv in V, V'. lra.
Qed.

(** And under Relax, where 100s count as breaks, a 100 is one break more than
    the miss it replaces, if the combo accounts for the misses. *)
Theorem C91_relax_refuted : forall pp a combo n300 n100 n50 nmiss d, map_ok a -> hits_upto (2 ^ 20) n300 n100 n50 nmiss -> 0 <= combo <= 2 ^ 31 -> guess_clear a combo ->
  let total := n300 + n100 + n50 + nmiss in Z.testbit (d_Mods d) bRX = true -> 1 <= nmiss < breaks_of a combo nmiss total -> breaks_of a combo nmiss total + n100 + n50 < total ->
  pp_effMiss (ppv2x pp a combo n300 (n100 + 1) n50 (nmiss - 1) d) = pp_effMiss (ppv2x pp a combo n300 n100 n50 nmiss d) + 1.
Proof.
  intros pp a combo n300 n100 n50 nmiss d MO H C G total RX DOM LESS. pose proof H as (H1 & H2 & H3 & H4 & H5). assert (H' : hits_upto (2 ^ 20) n300 (n100 + 1) n50 (nmiss - 1)) by (unfold hits_upto; lia).
  rewrite (C80_breaks pp a combo n300 n100 n50 nmiss d MO H C G), (C80_breaks pp a combo n300 (n100 + 1) n50 (nmiss - 1) d MO H' C G), RX.
  replace (n300 + (n100 + 1) + n50 + (nmiss - 1)) with total by (unfold total; ring). fold total. unfold breaks_of in *. lia.
Qed.
End WithLibm.

(** ** Instances *)
(** libm as it should be *)
Lemma of_R_fin r : is_finite (of_R r) = true -> B2R (of_R r) = rnd64 r.
Proof.
  unfold of_R. cbv zeta. set (m := Ztrunc _). set (e := cexp _ _ _). pose proof (binary_normalize_correct 53 1024 eq_refl eq_refl mode_NE m e false) as C. cbv zeta in C.
  assert (G : generic_format radix2 (SpecFloat.fexp 53 1024) (rnd64 r)) by (apply generic_format_round; typeclasses eauto).
  assert (E : F2R (Float radix2 m e) = rnd64 r) by (symmetry; exact G). rewrite E in C.
  assert (I : round radix2 (SpecFloat.fexp 53 1024) (round_mode mode_NE) (rnd64 r) = rnd64 r) by (apply round_generic; [typeclasses eauto|exact G]). rewrite I in C.
  destruct (Rlt_bool _ _); [intros _; apply C|]. intros F. exfalso. set (b := binary_normalize _ _ _ _ _ _ _ _) in *. clearbody b. clear -C F. destruct b; cbn in C, F; try discriminate F; revert C; destruct (Rlt_bool _ 0); intros C; discriminate C.
Qed.
Open Scope R_scope.
Lemma exact_pow_base x x' y : 0 <= x <= x' -> 0 <= y -> exact_pow x y <= exact_pow x' y.
Proof.
  intros X Y. unfold exact_pow. destruct (Req_EM_T x 0) as [Z|N]; destruct (Req_EM_T x' 0) as [Z'|N'].
  - apply Rle_refl.
  - destruct (Rlt_dec 0 y) as [P|P]; [left; apply exp_pos|]. replace y with 0 by lra. rewrite Rpower_O; [apply Rle_refl|]. apply Rabs_pos_lt. exact N'.
  - lra.
  - rewrite !Rabs_pos_eq by lra. apply Rle_Rpower_l; [exact Y|lra].
Qed.
Lemma exact_pow_unit x y : 0 <= x <= 1 -> 0 <= y -> 0 <= exact_pow x y <= 1.
Proof.
  intros X Y. unfold exact_pow. destruct (Req_EM_T x 0) as [Z|N]; [destruct (Rlt_dec 0 y); lra|]. split; [left; apply exp_pos|]. rewrite Rabs_pos_eq by lra. replace 1 with (Rpower 1 y) by (unfold Rpower; rewrite ln_1, Rmult_0_r; apply exp_0). apply Rle_Rpower_l; lra.
Qed.
Lemma exact_pow_anti x y y' : 0 <= x <= 1 -> 0 <= y <= y' -> exact_pow x y' <= exact_pow x y.
Proof.
  intros X Y. unfold exact_pow. destruct (Req_EM_T x 0) as [Z|N]; [destruct (Rlt_dec 0 y'); destruct (Rlt_dec 0 y); lra|]. rewrite Rabs_pos_eq by lra. unfold Rpower. assert (L : ln x <= 0) by (rewrite <- ln_1; apply ln_le'; lra).
  destruct (Req_dec (y' * ln x) (y * ln x)) as [->|NE]; [apply Rle_refl|]. left. apply exp_increasing. nra.
Qed.
Lemma exact_orders : @pow_orders exact_libm.
Proof.
  constructor; cbn [mpow exact_libm].
  - intros x x' y _ _ _ F F' X Y. rewrite !of_R_fin by assumption. apply rnd64_le. now apply exact_pow_base.
  - intros x y y' _ _ _ X Y. assert (U : forall z, 0 <= z -> B2R (of_R (exact_pow (B2R x) z)) = rnd64 (exact_pow (B2R x) z)).
    { intros z Z. apply of_R_ok. pose proof (exact_pow_unit (B2R x) z X Z). rewrite Rabs_pos_eq by lra. apply Rle_trans with 1; [lra|]. change 1 with (bpow radix2 0). apply bpow_le. lia. }
    rewrite !U by lra. apply rnd64_le. now apply exact_pow_anti.
Qed.
Lemma exact_above : @log_above exact_libm.
Proof.
  intros x F B. cbn [mlog10 exact_libm]. assert (X : 0 <= log10 (B2R x) <= B2R x).
  { unfold log10. assert (L1 : 1 <= ln 10). { rewrite <- (ln_exp 1). apply ln_le'; [apply exp_pos|]. pose proof exp_le_3. lra. } assert (L0 : 0 <= ln (B2R x)) by (rewrite <- ln_1; apply ln_le'; lra). assert (LX : ln (B2R x) <= B2R x). { rewrite <- (ln_exp (B2R x)) at 2. apply ln_le'; [lra|]. pose proof (exp_ineq1_le (B2R x)). lra. }
    split; [apply Rmult_le_pos; [exact L0|left; apply Rinv_0_lt_compat; lra]|]. apply Rle_trans with (ln (B2R x)); [|exact LX]. apply Rmult_le_reg_r with (ln 10); [lra|]. unfold Rdiv. rewrite Rmult_assoc, Rinv_l by lra. nra. }
  assert (LN : log10 (B2R x) <= 1024). { pose proof (abs_B2R_lt_emax 53 1024 x) as M. rewrite Rabs_pos_eq in M by lra. unfold log10. assert (L1 : 1 <= ln 10). { rewrite <- (ln_exp 1). apply ln_le'; [apply exp_pos|]. pose proof exp_le_3. lra. }
    assert (Y : ln (B2R x) <= 1024). { apply Rle_trans with (ln (bpow radix2 1024)); [apply ln_le'; lra|]. rewrite bpow_exp, ln_exp. pose proof ln2_le. lra. } assert (L0 : 0 <= ln (B2R x)) by (rewrite <- ln_1; apply ln_le'; lra).
    apply Rmult_le_reg_r with (ln 10); [lra|]. unfold Rdiv. rewrite Rmult_assoc, Rinv_l by lra. nra. }
  destruct (of_R_ok (log10 (B2R x))) as (FO & EO); [rewrite Rabs_pos_eq by lra; apply Rle_trans with (1 := LN); change 1024 with (bpow radix2 10); apply bpow_le; lia|]. split; [exact FO|]. rewrite EO. split; [apply rnd64_pos; lra|].
  apply round_le_generic; [typeclasses eauto|typeclasses eauto|apply generic_format_B2R|lra].
Qed.
Close Scope R_scope.
(** the demo play with 13 hundreds turned into 300s, a 50 into a 100, a miss into a 300 and 300 more combo, on a map a little harder *)
Definition demo_harder : attributes := mkAttr (fq 5 1) (fq 27 10) (fq 97 100) (fq 24 10) (fq 2 1) 500 300 198 2 700.
Definition worse_play : tally := mkTally 400 480 15 3 2.
Definition better_play : tally := mkTally 700 494 3 2 1.
Example C91_instance : @pow_ranges exact_libm /\ @log_above exact_libm /\ @pow_orders exact_libm /\ attrs_ok demo_attrs /\ attrs_ok demo_harder /\ harder demo_attrs demo_harder /\ diff_ok PropPP.demo_diff /\
  tally_ok worse_play /\ tally_ok better_play /\ improved worse_play better_play /\ Z.testbit (d_Mods PropPP.demo_diff) bSO = false.
Proof.
  split; [exact exact_ranges|]. split; [exact exact_above|]. split; [exact exact_orders|]. split; [exact demo_attrs_ok|]. split.
  { unfold attrs_ok, demo_harder. cbn [at_Aim at_Speed at_Flashlight at_SliderFactor at_ObjectCount at_Circles at_Sliders at_Spinners at_MaxCombo].
    split; [apply (within_const 0 1048576); [vm_compute; reflexivity|lia|lia|vm_compute; reflexivity|vm_compute; reflexivity]|].
    split; [apply (within_const 0 1048576); [vm_compute; reflexivity|lia|lia|vm_compute; reflexivity|vm_compute; reflexivity]|].
    split; [apply (within_const 0 1048576); [vm_compute; reflexivity|lia|lia|vm_compute; reflexivity|vm_compute; reflexivity]|].
    split; [apply (within_const 0 1); [vm_compute; reflexivity|lia|lia|vm_compute; reflexivity|vm_compute; reflexivity]|]. lia. }
  split.
  { assert (Q : forall x y : f64, fle x y = true -> is_finite x = true -> is_finite y = true -> (B2R x <= B2R y)%R). { intros x y L F F'. apply fle_iff in L as (_ & _ & L). rewrite (key_fin _ _ _ F), (key_fin _ _ _ F') in L. lra. }
    unfold harder, demo_harder, demo_attrs. cbn [at_Aim at_Speed at_Flashlight at_SliderFactor at_ObjectCount at_Circles at_Sliders at_Spinners at_MaxCombo].
    split; [apply Q; vm_compute; reflexivity|]. split; [apply Q; vm_compute; reflexivity|]. split; [apply Rle_refl|]. auto 10. }
  split; [exact demo_diff_ok|]. split; [unfold tally_ok, hits_upto, worse_play; cbn; lia|]. split; [unfold tally_ok, hits_upto, better_play; cbn; lia|]. split; [unfold improved, hits, worse_play, better_play; cbn; lia|vm_compute; reflexivity].
Qed.
(** each value strictly higher (where Pow is the identity on bases up to 1) *)
Example C91_strict : let w := @worth abs_libm demo_attrs worse_play PropPP.demo_diff in let b := @worth abs_libm demo_harder better_play PropPP.demo_diff in
  flt (r_Aim w) (r_Aim b) = true /\ flt (r_Speed w) (r_Speed b) = true /\ flt (r_Acc w) (r_Acc b) = true /\ flt (r_Flashlight w) (r_Flashlight b) = true /\ flt (r_Total w) (r_Total b) = true.
Proof. vm_compute. auto. Qed.
Lemma guess_100 : guess_of demo_attrs 100 = (6802 / 1000)%R.
Proof.
  unfold guess_of, guessed_breaks, demo_attrs. cbn [at_Sliders at_MaxCombo]. cbv zeta. change (Z.max 1 700) with 700. destruct (Rlt_dec 0 198) as [_|N]; [|lra]. destruct (Rlt_dec 100 _) as [_|N]; [|lra]. rewrite Rmax_right by lra. lra.
Qed.
Lemma clear_100 : guess_clear demo_attrs 100.
Proof.
  unfold guess_clear. rewrite guess_100. split; [intros _; unfold demo_attrs; cbn [at_Sliders at_MaxCombo]; change (Z.max 1 700) with 700; lra|right]. intros z. destruct (Z_le_gt_dec z 6) as [L|L].
  - apply IZR_le in L. rewrite Rabs_pos_eq by lra. lra.
  - assert (7 <= IZR z)%R by (apply IZR_le; lia). rewrite Rabs_left by lra. lra.
Qed.
Lemma breaks_100 n : 0 <= n <= 6 -> breaks_of demo_attrs 100 n 500 = 6.
Proof.
  intros N. unfold breaks_of. rewrite guess_100, Rmin_left by lra. replace (Zfloor (6802 / 1000)) with 6; [lia|]. symmetry. apply Zfloor_imp. change (6 + 1) with 7. lra.
Qed.
(** combo 100 of 700: six breaks, though nothing is missed; 480 300s and 20 50s *)
Example C91_fifty_instance : @pow_close exact_libm /\ @log_close exact_libm /\ map_ok demo_attrs /\ rates_near PropPP.demo_diff /\ hits_upto (2 ^ 20) 480 0 20 0 /\ guess_clear demo_attrs 100 /\
  Z.testbit (d_Mods PropPP.demo_diff) bRX = false /\ Z.testbit (d_Mods PropPP.demo_diff) bSO = false /\ breaks_of demo_attrs 100 0 500 = 6 /\ breaks_mild 6 500 /\ 500 <= 500 * (20 - 1) /\ 600 <= 6 * 480 + 2 * 0 + 20.
Proof.
  destruct C80_instance as (P & L & MO & RN & _). split; [exact P|]. split; [exact L|]. split; [exact MO|]. split; [exact RN|]. split; [unfold hits_upto; lia|]. split; [exact clear_100|]. split; [vm_compute; reflexivity|]. split; [vm_compute; reflexivity|]. split; [now apply breaks_100|].
  split; [|lia]. split; [lia|]. intros _. unfold miss_base.
  assert (L2 : (0 < ln 2)%R) by (rewrite <- ln_1; apply ln_increasing; lra). assert (H : (rpow (6 / 500) (775 / 1000) <= / 2)%R).
  { rewrite rpow_pos by lra. unfold Rpower. replace (/ 2)%R with (exp (- ln 2)) by (rewrite exp_Ropp, exp_ln; lra). apply Rlt_le, exp_increasing. assert (ln (6 / 500) < - ln 2 - ln 2)%R; [|lra].
    replace (- ln 2 - ln 2)%R with (ln (/ 4)); [apply ln_increasing; lra|]. rewrite ln_Rinv by lra. replace 4%R with (2 * 2)%R by lra. rewrite ln_mult by lra. ring. }
  apply Rle_trans with (Rpower (/ 2) 6).
  - replace 6%R with (INR 6) by (cbn; lra). rewrite Rpower_pow by lra. apply Rle_trans with (bpow radix2 (-6)); [apply bpow_le; lia|]. unfold bpow. cbn. lra.
  - apply Rle_Rpower_l; lra.
Qed.
(** and so the claim that a 50 is worth at least a miss is false *)
Example C91_fifty_witness : ~ (forall a t t' d, map_ok a -> rates_near d -> tally_ok t -> tally_ok t' -> t_combo t = t_combo t' -> t_300 t = t_300 t' -> t_100 t = t_100 t' -> t_50 t' = t_50 t + 1 -> t_miss t = t_miss t' + 1 ->
  (B2R (r_Speed (@worth exact_libm a t d)) <= B2R (r_Speed (@worth exact_libm a t' d)))%R).
Proof.
  intros X. destruct C91_fifty_instance as (P & L & MO & RN & H & G & RX & SO & B & BM & _). assert (V := @C91_fifty_refuted exact_libm P L demo_attrs 100 480 0 20 0 PropPP.demo_diff MO RN H ltac:(lia) ltac:(lia) G). cbv zeta in V. change (480 + 0 + 20 + 0) with 500 in V. rewrite B in V. specialize (V RX SO BM ltac:(lia) ltac:(lia) ltac:(lia)).
  assert (T : tally_ok (mkTally 100 480 0 20 0) /\ tally_ok (mkTally 100 480 0 (20 - 1) (0 + 1))) by (unfold tally_ok, hits_upto; cbn; lia).
  specialize (X demo_attrs (mkTally 100 480 0 (20 - 1) (0 + 1)) (mkTally 100 480 0 20 0) PropPP.demo_diff MO RN (proj2 T) (proj1 T) eq_refl eq_refl eq_refl eq_refl eq_refl).
  assert (U : (0 <= B2R (r_Speed (@worth exact_libm demo_attrs (mkTally 100 480 0 20 0) PropPP.demo_diff)))%R).
  { destruct (@C51_valid exact_libm (mkPP (mkResults f0 f0 f0 f0 f0) demo_attrs 0 0 0 0 0 0 None 0 f0 0) demo_attrs 100 480 0 20 0 PropPP.demo_diff exact_ranges exact_above demo_attrs_ok demo_diff_ok) as (b & _ & (_ & V2) & _); [unfold hits_upto; lia|lia|intros S; vm_compute in S; discriminate S|]. exact (proj1 V2). }
  lra.
Qed.
(** with Relax: 3 misses, 6 breaks by combo; turning one miss into a 100 gives 7 *)
Example C91_relax_instance : let d := SpecDifficulty.built (fq 5 1) (fq 4 1) (fq 8 1) (fq 9 1) 128 (fq 1 1) in map_ok demo_attrs /\ hits_upto (2 ^ 20) 497 0 0 3 /\ guess_clear demo_attrs 100 /\ Z.testbit (d_Mods d) bRX = true /\ breaks_of demo_attrs 100 3 500 = 6 /\
  pp_effMiss (@ppv2x abs_libm pp0 demo_attrs 100 497 0 0 3 d) = 6 /\ pp_effMiss (@ppv2x abs_libm pp0 demo_attrs 100 497 1 0 2 d) = 7.
Proof.
  cbv zeta. destruct C80_instance as (_ & _ & MO & _). split; [exact MO|]. split; [unfold hits_upto; lia|]. split; [exact clear_100|]. split; [vm_compute; reflexivity|]. split; [now apply breaks_100|]. vm_compute. auto.
Qed.

Print Assumptions C91_better.
Print Assumptions C91_best.
Print Assumptions C91_fifty_refuted.
Print Assumptions C91_relax_refuted.

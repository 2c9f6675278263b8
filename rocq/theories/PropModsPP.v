(** C94: what a mod does to the pp of the same play on the same ratings. *)
From Coq Require Import Reals Lra ZArith Lia List.
Import ListNotations.
From Flocq Require Import Raux Zaux Core BinarySingleNaN.
From Verif Require Import PP SpecPP SpecTempo SpecMods SpecDifficulty SpecFormula SpecBetter SpecModsPP BaseLemmas FloatLemmas Float32Lemmas KeyLemmas PPProofs PPBounds PPChains PPFinal PPMono PPBetter PPMods PropPP RelLemmas RelPow FormulaParts FormulaRest FormulaProofs IdealLibm ModsProofs DifficultyProofs PropFormula PropStars PropBetter.
Open Scope Z_scope.

Lemma built_rates hp cs od ar m m' sp : (forall k, In k [bEZ; bHR; bDT; bHT] -> Z.testbit m k = Z.testbit m' k) ->
  d_ARReal (built hp cs od ar m sp) = d_ARReal (built hp cs od ar m' sp) /\ d_ODReal (built hp cs od ar m sp) = d_ODReal (built hp cs od ar m' sp).
Proof.
  intros EQ. assert (ME : forall k, In k [bEZ; bHR; bDT; bHT] -> mactive m (2 ^ k) = mactive m' (2 ^ k)).
  { intros k K. assert (0 <= k) by (destruct K as [<-|[<-|[<-|[<-|[]]]]]; unfold bEZ, bHR, bDT, bHT; lia). rewrite !mactive_bit by assumption. now apply EQ. }
  assert (E1 := ME bEZ (or_introl eq_refl)). assert (E2 := ME bHR (or_intror (or_introl eq_refl))). assert (E3 := ME bDT (or_intror (or_intror (or_introl eq_refl)))). assert (E4 := ME bHT (or_intror (or_intror (or_intror (or_introl eq_refl))))).
  change (2 ^ bEZ) with Easy in E1. change (2 ^ bHR) with HardRock in E2. change (2 ^ bDT) with DoubleTime in E3. change (2 ^ bHT) with HalfTime in E4. clear ME.
  unfold built, set_custom_speed, set_mods, with_base, get_modified_time. cbn [calculate d_hp d_cs d_od d_ar d_Mods d_CustomSpeed d_ARReal d_ODReal]. unfold calculate, get_modified_time, modified_time, hr_adjust, ez_adjust. cbn [d_hp d_cs d_od d_ar d_Mods d_CustomSpeed d_ARReal d_ODReal].
  rewrite E1, E2, E3, E4. split; reflexivity.
Qed.

Section WithLibm.
Context {M : libm}.
(** C94.  The same play on the same ratings at the same AR and OD is worth no
    less with Hidden (up to AR 12) or Flashlight added and with NoFail, SpunOut,
    Relax or (from one star up) TouchDevice removed: in each of the four values
    and in total. *)
Theorem C94_mods : pow_ranges -> log_above -> pow_orders -> forall a t d d', attrs_ok a -> diff_ok d -> tally_ok t -> counts_more a d d' ->
  (Z.testbit (d_Mods d) bTD = Z.testbit (d_Mods d') bTD \/ pow_root) ->
  (Z.testbit (d_Mods d) bSO = true -> at_Spinners a <= hits t) ->
  no_better (worth a t d) (worth a t d') /\ fle (r_Total (worth a t d)) (r_Total (worth a t d')) = true.
Proof.
  intros PR LR PO a t d d' A D T CM PT SO.
  assert (W : forall e, worth a t e = results_of (stated pp0 a (t_combo t) (t_300 t) (t_100 t) (t_50 t) (t_miss t) e) e). { intros e. unfold worth. rewrite results_at. reflexivity. }
  rewrite !W. assert (SB : mactive (d_Mods d) SpunOut = Z.testbit (d_Mods d) bSO) by (change SpunOut with (2 ^ 12); now apply mactive_bit).
  assert (SP : spun_ok a d (hits t)) by (unfold spun_ok; rewrite SB; exact SO).
  assert (PT' : mactive (d_Mods d) TouchDevice = mactive (d_Mods d') TouchDevice \/ pow_root) by (change TouchDevice with (2 ^ 2); rewrite !mactive_bit by lia; exact PT).
  destruct (all_mods PR LR PO a t d d' pp0 A D T CM SP PT') as (L1 & L2 & L3 & L4 & L5).
  split; [|now apply le2_fle in L5]. unfold no_better, results_of. cbn [r_Aim r_Speed r_Acc r_Flashlight]. apply le2_fle in L1, L2, L3, L4. auto.
Qed.
(** Together with C91: a better play, on a harder map, under mods that count more. *)
Theorem C94_better : pow_ranges -> log_above -> pow_orders -> pow_root -> forall a a' t t' d d', attrs_ok a -> attrs_ok a' -> harder a a' -> diff_ok d -> tally_ok t -> tally_ok t' -> improved t t' -> counts_more a' d d' ->
  (Z.testbit (d_Mods d) bRX = true -> t_100 t' + t_50 t' <= t_100 t + t_50 t) ->
  (Z.testbit (d_Mods d) bSO = true -> at_Spinners a <= hits t) ->
  no_better (worth a t d) (worth a' t' d') /\ fle (r_Total (worth a t d)) (r_Total (worth a' t' d')) = true.
Proof.
  intros PR LR PO PT a a' t t' d d' A A' HA D T T' I CM RX SO. destruct (C91_better PR LR PO a a' t t' d A A' HA D T T' I RX SO) as ((N1 & N2 & N3 & N4) & N5).
  assert (SO' : Z.testbit (d_Mods d) bSO = true -> at_Spinners a' <= hits t'). { intros S. specialize (SO S). destruct HA as (_ & _ & _ & _ & _ & _ & _ & SPE & _). destruct I as (IH & _). lia. }
  destruct (C94_mods PR LR PO a' t' d d' A' D T' CM (or_intror PT) SO') as ((K1 & K2 & K3 & K4) & K5).
  split; [|exact (fle_trans _ _ _ N5 K5)]. split; [exact (fle_trans _ _ _ N1 K1)|]. split; [exact (fle_trans _ _ _ N2 K2)|]. split; [exact (fle_trans _ _ _ N3 K3)|exact (fle_trans _ _ _ N4 K4)].
Qed.
(** For difficulties built from a map's values: only Hidden, Flashlight, NoFail,
    SpunOut, Relax and whatever mods PPv2x does not look at may differ. *)
Theorem C94_built : pow_ranges -> log_above -> pow_orders -> forall a t hp cs od ar m m' sp, attrs_ok a -> base_ok od -> base_ok ar -> SpecPP.within (1 / 8) 8 sp -> tally_ok t ->
  let d := built hp cs od ar m sp in let d' := built hp cs od ar m' sp in
  (forall k, In k [bEZ; bHR; bDT; bHT; bTD; bV2] -> Z.testbit m k = Z.testbit m' k) ->
  Z.testbit m bHD = Z.testbit m' bHD \/ (Z.testbit m' bHD = true /\ (B2R (d_ARReal d) <= 12)%R) ->
  (Z.testbit m bFL = true -> Z.testbit m' bFL = true) -> (forall k, In k [bNF; bSO; bRX] -> Z.testbit m' k = true -> Z.testbit m k = true) ->
  (Z.testbit m bSO = true -> at_Spinners a <= hits t) ->
  no_better (worth a t d) (worth a t d') /\ fle (r_Total (worth a t d)) (r_Total (worth a t d')) = true.
Proof.
  intros PR LR PO a t hp cs od ar m m' sp A OD AR SPD T d d' EQ HD FL LESS SO.
  assert (RATES : d_ARReal d = d_ARReal d' /\ d_ODReal d = d_ODReal d') by (apply built_rates; intros k K; apply EQ; cbn [In] in *; tauto).
  destruct RATES as (RA & RO). assert (MD : d_Mods d = m) by reflexivity. assert (MD' : d_Mods d' = m') by reflexivity.
  apply C94_mods; auto.
  - now apply C51_difficulty.
  - constructor; rewrite ?MD, ?MD'; auto; try (apply LESS; cbn [In]; auto 10); try (apply EQ; cbn [In]; auto 10). left. apply EQ. cbn [In]. auto 10.
  - left. rewrite MD, MD'. apply EQ. cbn [In]. auto 10.
Qed.

Lemma about_pos r v : (0 <= r)%R -> about r v -> (0 <= v)%R.
Proof. unfold about. intros R A. destruct (Rle_lt_dec 0 v) as [|N]; [assumption|]. rewrite (Rabs_left v) in A by lra. apply Rabs_le_inv in A. lra. Qed.
Lemma about_scale r r' v v' c : (1 <= c <= 2)%R -> (0 <= v)%R -> about r v -> about r' v' -> (c * v <= v')%R -> ((c - / 1000) * r <= r')%R.
Proof.
  unfold about. intros C V A A' L. assert (V' : (0 <= v')%R) by nra. rewrite (Rabs_pos_eq v) in A by lra. rewrite (Rabs_pos_eq v') in A' by lra. apply Rabs_le_inv in A, A'.
  assert (A1 : (r <= v * (1000001 / 1000000))%R) by lra. assert (A2 : (v' * (999999 / 1000000) <= r')%R) by lra. clear A A'.
  apply Rle_trans with ((c - / 1000) * (v * (1000001 / 1000000)))%R; [apply Rmult_le_compat_l; lra|]. apply Rle_trans with (c * v * (999999 / 1000000))%R; [|nra].
  replace ((c - / 1000) * (v * (1000001 / 1000000)))%R with (v * ((c - / 1000) * (1000001 / 1000000)))%R by ring. replace (c * v * (999999 / 1000000))%R with (v * (c * (999999 / 1000000)))%R by ring. apply Rmult_le_compat_l; lra.
Qed.
(** the same mods with one more *)
Definition plus_mod (k : Z) (d d' : difficulty) : Prop :=
  Z.testbit (d_Mods d) k = false /\ d_Mods d' = d_Mods d + 2 ^ k /\ d_ARReal d' = d_ARReal d /\ d_ODReal d' = d_ODReal d.
Lemma plus_bits k d d' : 0 <= k -> plus_mod k d d' -> Z.testbit (d_Mods d') k = true /\ forall j, 0 <= j -> j <> k -> Z.testbit (d_Mods d') j = Z.testbit (d_Mods d) j.
Proof.
  intros K (F & ON & _). assert (LO : d_Mods d + 2 ^ k = Z.lor (d_Mods d) (2 ^ k)).
  { rewrite <- Z.lxor_lor, <- Z.add_nocarry_lxor; [reflexivity| |]; apply Z.bits_inj_0; intros n; rewrite Z.land_spec, Z.pow2_bits_eqb by lia; destruct (Z.eqb_spec k n) as [<-|]; rewrite ?F, ?andb_false_r; reflexivity. }
  rewrite ON, LO. split; [rewrite Z.lor_spec, Z.pow2_bits_eqb, Z.eqb_refl by lia; apply orb_true_r|]. intros j J N. rewrite Z.lor_spec, Z.pow2_bits_eqb by lia. destruct (Z.eqb_spec k j); [congruence|apply orb_false_r].
Qed.
Lemma length_pos n : (0 <= n)%R -> (0 < length_factor n)%R.
Proof.
  intros N. unfold length_factor. assert (0 <= Rmin 1 (n / 2000))%R by (apply Rmin_glb; lra). destruct (Rlt_dec 2000 n) as [L|L]; [|lra]. assert (0 <= log10 (n / 2000))%R; [|lra].
  unfold log10. apply Rmult_le_pos; [rewrite <- ln_1; apply ln_le'; lra|left; apply Rinv_0_lt_compat; rewrite <- ln_1; apply ln_increasing; lra].
Qed.
Lemma nerf_pos s f l : (0 < f <= 1)%R -> (0 < SpecFormula.nerf s f l)%R.
Proof.
  intros F. unfold SpecFormula.nerf. destruct (Rlt_dec 0 s) as [S|S]; [|lra]. cbv zeta. set (h := (15 / 100 * s)%R). assert (HP : (0 < h)%R) by (unfold h; lra). clearbody h. set (m := Rmin h (Rmax 0 l)). assert (MB : (m <= h)%R) by apply Rmin_l. clearbody m.
  assert (Q : (0 <= 1 - m / h)%R). { apply Rmult_le_reg_r with h; [exact HP|]. replace ((1 - m / h) * h)%R with (h - m)%R by (field; lra). lra. }
  assert (0 <= (1 - f) * (1 - m / h) ^ 3)%R; [|lra]. apply Rmult_le_pos; [lra|now apply pow_le].
Qed.
Lemma aim_value_pos td hd y : (1 <= y_total y)%R -> (0 < y_combo y)%R -> (0 < y_most y)%R -> (0 < y_great y)%R -> (0 <= y_ok y)%R -> (0 <= y_meh y)%R -> (0 < y_factor y <= 1)%R -> (y_ar y <= 13)%R -> (0 < SpecFormula.aim_value td hd y)%R.
Proof.
  intros T C MC G O E F AR. unfold SpecFormula.aim_value. assert (LP := length_pos (y_total y) ltac:(lra)).
  assert (B1 : forall x, (0 < base_value x)%R). { intros x. unfold base_value. apply Rdiv_lt_0_compat; [|lra]. apply pow_lt. pose proof (Rmax_l 1 (x / (675 / 10000))). lra. }
  assert (B3 : (0 < miss_factor (y_breaks y) (y_total y) (y_breaks y))%R). { unfold miss_factor. destruct (Rlt_dec 0 _); [|lra]. apply Rmult_lt_0_compat; [lra|apply exp_pos]. }
  assert (D : (0 < y_combo y / y_most y)%R) by now apply Rdiv_lt_0_compat. assert (B4 : (0 < combo_factor (y_combo y) (y_most y))%R). { unfold combo_factor. apply Rmin_glb_lt; [lra|]. rewrite rpow_pos by exact D. apply exp_pos. }
  assert (B5 : (0 < 1 + (SpecFormula.ar_high (y_ar y) + ar_low (y_ar y)) * length_factor (y_total y))%R).
  { assert (0 <= (SpecFormula.ar_high (y_ar y) + ar_low (y_ar y)) * length_factor (y_total y))%R; [|lra]. apply Rmult_le_pos; [|lra]. unfold SpecFormula.ar_high, ar_low. pose proof (Rmax_l 0 (y_ar y - 1033 / 100)). pose proof (Rmax_l 0 (8 - y_ar y)). lra. }
  assert (B6 : (0 < SpecFormula.hidden_factor hd (y_ar y))%R) by (unfold SpecFormula.hidden_factor; destruct hd; lra).
  assert (B7 := nerf_pos (y_sliders y) (y_factor y) (Rmin (y_ok y + y_meh y + y_miss y) (y_most y - y_combo y)) F).
  assert (B8 : (0 < accuracy y)%R) by (unfold accuracy; apply Rdiv_lt_0_compat; lra). assert (B9 : (0 < 98 / 100 + y_od y ^ 2 / 2500)%R) by (pose proof (pow2_ge_0 (y_od y)); lra).
  repeat (apply Rmult_lt_0_compat; [|assumption]). apply B1.
Qed.
Section Pair.
Context (PC : pow_close) (LC : log_close) (PR : pow_ranges) (LR : log_above) (a : attributes) (combo n300 n100 n50 nmiss : Z) (d d' : difficulty).
Context (MO : map_ok a) (RN : rates_near d) (H : hits_upto (2 ^ 20) n300 n100 n50 nmiss) (H50 : n50 <= 900) (C : 0 <= combo <= 2 ^ 31) (G : guess_clear a combo).
Notation total := (n300 + n100 + n50 + nmiss).
Context (T : 1 <= total) (BM : breaks_mild (breaks_of a combo nmiss total) total) (RX : Z.testbit (d_Mods d) bRX = false) (SO : Z.testbit (d_Mods d) bSO = false).
Notation r e := (worth a (mkTally combo n300 n100 n50 nmiss) e).
Notation y := (play_of a combo n300 n100 n50 nmiss (breaks_of a combo nmiss total) d).
Lemma values_nm : about (B2R (r_Aim (r d))) (SpecFormula.aim_value (Z.testbit (d_Mods d) bTD) (Z.testbit (d_Mods d) bHD) y) /\ about (B2R (r_Speed (r d))) (SpecFormula.speed_value (Z.testbit (d_Mods d) bHD) y) /\
  (0 <= B2R (r_Aim (r d)))%R /\ (0 <= B2R (r_Speed (r d)))%R.
Proof.
  set (r0 := mkPP (mkResults f0 f0 f0 f0 f0) a 0 0 0 0 0 0 None 0 f0 0).
  pose proof (C80_values PC LC r0 a combo n300 n100 n50 nmiss d MO RN H H50 C G) as V. cbv zeta in V. rewrite RX, SO in V. specialize (V T BM ltac:(discriminate)). destruct V as ((_ & V1) & (_ & V2) & _).
  split; [exact V1|]. split; [exact V2|]. assert (D : diff_ok d). { destruct RN as ((FA & BA) & (FO & BO)). split; (split; [assumption|lra]). }
  assert (H31 : hits_upto (2 ^ 31) n300 n100 n50 nmiss) by (unfold hits_upto in *; lia). assert (SP : Z.testbit (d_Mods d) bSO = true -> at_Spinners a <= total) by (rewrite SO; discriminate).
  destruct (C51_valid r0 a combo n300 n100 n50 nmiss d PR LR (map_attrs a MO) D H31 C SP) as (b & (_ & B1) & (_ & B2) & _). split; [apply B1|apply B2].
Qed.
Lemma aim_pos : 1 <= n300 -> 1 <= combo -> (0 < B2R (r_Aim (r d)))%R.
Proof.
  intros N3 CB. destruct values_nm as (V & _ & P & _). destruct H as (H1 & H2 & H3 & H4 & H5). destruct RN as ((_ & AR) & _). destruct MO as (_ & _ & _ & (_ & SF) & _).
  assert (Q : (0 < SpecFormula.aim_value (Z.testbit (d_Mods d) bTD) (Z.testbit (d_Mods d) bHD) y)%R).
  { apply aim_value_pos; unfold play_of; cbn [y_total y_combo y_most y_great y_ok y_meh y_factor y_ar]; try (apply IZR_le; lia); try (apply IZR_lt; lia); lra. }
  set (v := SpecFormula.aim_value _ _ _) in *. clearbody v. unfold about in V. rewrite (Rabs_pos_eq v) in V by lra. apply Rabs_le_inv in V. lra.
Qed.
End Pair.

(** "Hidden never lowers pp" is false: from AR 12.5 on (AR 10 on a clock at least
    six times as fast) it lowers aim and speed. *)
Theorem C94_hidden_refuted : pow_close -> log_close -> pow_ranges -> log_above -> forall a combo n300 n100 n50 nmiss d d', map_ok a -> rates_near d -> hits_upto (2 ^ 20) n300 n100 n50 nmiss -> n50 <= 900 -> 0 <= combo <= 2 ^ 31 -> guess_clear a combo ->
  let total := n300 + n100 + n50 + nmiss in 1 <= total -> breaks_mild (breaks_of a combo nmiss total) total ->
  Z.testbit (d_Mods d) bRX = false -> Z.testbit (d_Mods d) bSO = false -> plus_mod bHD d d' -> (125 / 10 <= B2R (d_ARReal d))%R ->
  let r := worth a (mkTally combo n300 n100 n50 nmiss) d in let r' := worth a (mkTally combo n300 n100 n50 nmiss) d' in
  (101 / 100 * B2R (r_Aim r') <= B2R (r_Aim r))%R /\ (101 / 100 * B2R (r_Speed r') <= B2R (r_Speed r))%R /\ (1 <= n300 -> 1 <= combo -> (0 < B2R (r_Aim r'))%R).
Proof.
  intros PC LC PR LR a combo n300 n100 n50 nmiss d d' MO RN H H50 C G total T BM RX SO PM AR r r'.
  destruct (plus_bits bHD d d' ltac:(unfold bHD; lia) PM) as (BH & BITS). destruct PM as (F & _ & EAR & EOD). assert (RN' : rates_near d') by (unfold rates_near; rewrite EAR, EOD; exact RN).
  assert (RX' : Z.testbit (d_Mods d') bRX = false) by (rewrite BITS; [exact RX|unfold bRX; lia|unfold bRX, bHD; lia]). assert (SO' : Z.testbit (d_Mods d') bSO = false) by (rewrite BITS; [exact SO|unfold bSO; lia|unfold bSO, bHD; lia]).
  destruct (values_nm PC LC PR LR a combo n300 n100 n50 nmiss d MO RN H H50 C G T BM RX SO) as (V1 & V2 & P1 & P2). destruct (values_nm PC LC PR LR a combo n300 n100 n50 nmiss d' MO RN' H H50 C G T BM RX' SO') as (V1' & V2' & P1' & P2').
  assert (PL : play_of a combo n300 n100 n50 nmiss (breaks_of a combo nmiss total) d' = play_of a combo n300 n100 n50 nmiss (breaks_of a combo nmiss total) d) by (unfold play_of; rewrite EAR, EOD, (BITS 29) by (unfold bHD; lia); reflexivity).
  fold total in V1, V2, V1', V2'. rewrite PL, BH in V1', V2'. rewrite F in V1, V2. rewrite (BITS bTD) in V1' by (unfold bTD, bHD; lia). assert (YA : y_ar (play_of a combo n300 n100 n50 nmiss (breaks_of a combo nmiss total) d) = B2R (d_ARReal d)) by reflexivity.
  set (y := play_of _ _ _ _ _ _ _ d) in *. clearbody y. set (h := (1 + 4 / 100 * (12 - y_ar y))%R). assert (HB : (/ 2 <= h <= 98 / 100)%R). { unfold h. rewrite YA. destruct RN as ((_ & B) & _). lra. }
  assert (E1 : SpecFormula.aim_value (Z.testbit (d_Mods d) bTD) true y = (h * SpecFormula.aim_value (Z.testbit (d_Mods d) bTD) false y)%R) by (unfold SpecFormula.aim_value, SpecFormula.hidden_factor; fold h; ring).
  assert (E2 : SpecFormula.speed_value true y = (h * SpecFormula.speed_value false y)%R) by (unfold SpecFormula.speed_value, SpecFormula.hidden_factor; fold h; ring).
  rewrite E1 in V1'. rewrite E2 in V2'. apply about_pos in V1 as W1; [|exact P1]. apply about_pos in V2 as W2; [|exact P2]. clearbody h.
  split; [|split; [|exact (aim_pos PC LC PR LR a combo n300 n100 n50 nmiss d' MO RN' H H50 C G T BM RX' SO')]].
  - replace (101 / 100)%R with (1011 / 1000 - / 1000)%R by lra. apply (about_scale _ _ _ _ (1011 / 1000) ltac:(lra)) with (2 := V1') (3 := V1); [apply Rmult_le_pos; lra|]. nra.
  - replace (101 / 100)%R with (1011 / 1000 - / 1000)%R by lra. apply (about_scale _ _ _ _ (1011 / 1000) ltac:(lra)) with (2 := V2') (3 := V2); [apply Rmult_le_pos; lra|]. nra.
Qed.
Lemma root_above x : (1 / 10 <= x <= 9 / 10)%R -> (102 / 100 * x <= rpow x (8 / 10))%R.
Proof.
  intros X. rewrite rpow_pos by lra. replace (8 / 10)%R with (1 + - (2 / 10))%R by lra. rewrite Rpower_plus, Rpower_1 by lra. rewrite Rmult_comm. apply Rmult_le_compat_l; [lra|]. unfold Rpower.
  assert (L : (ln x <= x - 1)%R). { rewrite <- (ln_exp (x - 1)). apply ln_le'; [lra|]. pose proof (exp_ineq1_le (x - 1)). lra. }
  apply Rle_trans with (1 + - (2 / 10) * ln x)%R; [lra|apply exp_ineq1_le].
Qed.
Lemma base_above x x' : (1 / 10 <= x)%R -> (102 / 100 * x <= x')%R -> (102 / 100 * base_value x <= base_value x')%R.
Proof.
  intros X X'. unfold base_value. assert (Q : (0 < / (675 / 10000))%R) by (apply Rinv_0_lt_compat; lra).
  assert (D : (1 <= x / (675 / 10000))%R) by lra. assert (D' : (102 / 100 * (x / (675 / 10000)) <= x' / (675 / 10000))%R) by lra.
  rewrite (Rmax_right 1 (x / _)) by exact D. rewrite (Rmax_right 1 (x' / _)) by lra. set (u := (x / (675 / 10000))%R) in *. set (w := (x' / (675 / 10000))%R) in *. clearbody u w.
  assert (S : (102 / 100 * (5 * u - 4) <= 5 * w - 4)%R) by lra. assert (P : (0 <= 5 * u - 4)%R) by lra. set (g := (5 * u - 4)%R) in *. set (h := (5 * w - 4)%R) in *. clearbody g h.
  assert (K : ((102 / 100 * g) ^ 3 <= h ^ 3)%R) by (apply pow_incr; lra). assert (J : (102 / 100 * g ^ 3 <= (102 / 100 * g) ^ 3)%R). { rewrite Rpow_mult_distr. apply Rmult_le_compat_r; [apply pow_le; lra|]. cbn [pow]. lra. }
  lra.
Qed.
(** "TouchDevice never raises pp" is false: below one star the power 0.8 of the
    rating is more than the rating. *)
Theorem C94_touch_refuted : pow_close -> log_close -> pow_ranges -> log_above -> forall a combo n300 n100 n50 nmiss d d', map_ok a -> rates_near d -> hits_upto (2 ^ 20) n300 n100 n50 nmiss -> n50 <= 900 -> 0 <= combo <= 2 ^ 31 -> guess_clear a combo ->
  let total := n300 + n100 + n50 + nmiss in 1 <= total -> breaks_mild (breaks_of a combo nmiss total) total ->
  Z.testbit (d_Mods d) bRX = false -> Z.testbit (d_Mods d) bSO = false -> plus_mod bTD d d' -> (1 / 10 <= B2R (at_Aim a) <= 9 / 10)%R ->
  let r := worth a (mkTally combo n300 n100 n50 nmiss) d in let r' := worth a (mkTally combo n300 n100 n50 nmiss) d' in
  (101 / 100 * B2R (r_Aim r) <= B2R (r_Aim r'))%R /\ (1 <= n300 -> 1 <= combo -> (0 < B2R (r_Aim r))%R).
Proof.
  intros PC LC PR LR a combo n300 n100 n50 nmiss d d' MO RN H H50 C G total T BM RX SO PM AIM r r'.
  destruct (plus_bits bTD d d' ltac:(unfold bTD; lia) PM) as (BH & BITS). destruct PM as (F & _ & EAR & EOD). assert (RN' : rates_near d') by (unfold rates_near; rewrite EAR, EOD; exact RN).
  assert (RX' : Z.testbit (d_Mods d') bRX = false) by (rewrite BITS; [exact RX|unfold bRX; lia|unfold bRX, bTD; lia]). assert (SO' : Z.testbit (d_Mods d') bSO = false) by (rewrite BITS; [exact SO|unfold bSO; lia|unfold bSO, bTD; lia]).
  destruct (values_nm PC LC PR LR a combo n300 n100 n50 nmiss d MO RN H H50 C G T BM RX SO) as (V1 & _ & P1 & _). destruct (values_nm PC LC PR LR a combo n300 n100 n50 nmiss d' MO RN' H H50 C G T BM RX' SO') as (V1' & _ & P1' & _).
  assert (PL : play_of a combo n300 n100 n50 nmiss (breaks_of a combo nmiss total) d' = play_of a combo n300 n100 n50 nmiss (breaks_of a combo nmiss total) d) by (unfold play_of; rewrite EAR, EOD, (BITS 29) by (unfold bTD; lia); reflexivity).
  fold total in V1, V1'. rewrite PL, BH in V1'. rewrite F in V1. rewrite (BITS bHD) in V1' by (unfold bTD, bHD; lia). assert (YA : y_aim (play_of a combo n300 n100 n50 nmiss (breaks_of a combo nmiss total) d) = B2R (at_Aim a)) by reflexivity.
  set (y := play_of _ _ _ _ _ _ _ d) in *. clearbody y. apply about_pos in V1 as W1; [|exact P1]. rewrite <- YA in AIM. pose proof (root_above _ AIM) as RA. pose proof (base_above (y_aim y) _ (proj1 AIM) RA) as BA.
  unfold SpecFormula.aim_value in V1, V1', W1. set (b := base_value (y_aim y)) in *. set (b' := base_value (rpow (y_aim y) (8 / 10))) in *.
  assert (BP : (0 < b)%R). { unfold b, base_value. apply Rdiv_lt_0_compat; [|lra]. apply pow_lt. pose proof (Rmax_l 1 (y_aim y / (675 / 10000))). lra. } clearbody b b'.
  match type of V1 with about _ (b * ?l * ?m * ?c * ?ar * ?h * ?n * ?ac * ?od) => set (rest := (l * m * c * ar * h * n * ac * od)%R); replace (b * l * m * c * ar * h * n * ac * od)%R with (b * rest)%R in V1, W1 by (unfold rest; ring); replace (b' * l * m * c * ar * h * n * ac * od)%R with (b' * rest)%R in V1' by (unfold rest; ring) end.
  clearbody rest. assert (RP : (0 <= rest)%R). { apply Rmult_le_reg_l with b; [exact BP|]. lra. }
  split; [|exact (aim_pos PC LC PR LR a combo n300 n100 n50 nmiss d MO RN H H50 C G T BM RX SO)].
  replace (101 / 100)%R with (1011 / 1000 - / 1000)%R by lra. apply (about_scale _ _ _ _ (1011 / 1000) ltac:(lra)) with (2 := V1) (3 := V1'); [exact W1|]. nra.
Qed.
End WithLibm.

(** ** Instances *)
Lemma exact_root : @pow_root exact_libm.
Proof.
  intros x F X FF. cbn [mpow exact_libm] in *. rewrite (of_R_fin _ FF). apply round_le_generic; [typeclasses eauto|typeclasses eauto|apply generic_format_B2R|].
  assert (E : (0 <= B2R (fq 8 10) <= 1)%R) by (bval (fq 8 10); rewrite V; lra). unfold exact_pow. destruct (Req_EM_T _ _) as [Z|N]; [lra|]. rewrite Rabs_pos_eq by lra. rewrite <- (Rpower_1 (B2R x)) at 2 by lra. apply Rle_Rpower; lra.
Qed.
(** the demo play with NoFail, SpunOut, Relax, TouchDevice and DoubleTime, and with Hidden, Flashlight and DoubleTime *)
Definition lame_diff : difficulty := built (fq 5 1) (fq 4 1) (fq 8 1) (fq 9 1) (1 + 4096 + 128 + 4 + 64) (fq 1 1).
Lemma lame_counts : counts_more demo_attrs lame_diff PropPP.demo_diff.
Proof.
  destruct (built_rates (fq 5 1) (fq 4 1) (fq 8 1) (fq 9 1) (1 + 4096 + 128 + 4 + 64) 1096 (fq 1 1)) as (E1 & E2). { intros k [<-|[<-|[<-|[<-|[]]]]]; vm_compute; reflexivity. }
  assert (BD : forall x : f64, is_finite x = true -> fle (f_of_Z 1) x = true -> fle x (f_of_Z 12) = true -> (1 <= B2R x <= 12)%R) by (intros x F L U; apply (within_const 1 12 x F); [lia|lia|exact L|exact U]).
  constructor; change (d_Mods lame_diff) with (1 + 4096 + 128 + 4 + 64); change (d_Mods PropPP.demo_diff) with 1096.
  - exact E1.
  - exact E2.
  - right. split; [vm_compute; reflexivity|]. apply BD; vm_compute; reflexivity.
  - intros _. vm_compute. reflexivity.
  - intros _. vm_compute. reflexivity.
  - intros _. vm_compute. reflexivity.
  - intros _. vm_compute. reflexivity.
  - right. split; [vm_compute; reflexivity|]. split; apply BD; vm_compute; reflexivity.
  - vm_compute. reflexivity.
Qed.
Example C94_instance : @pow_ranges exact_libm /\ @log_above exact_libm /\ @pow_orders exact_libm /\ @pow_root exact_libm /\ attrs_ok demo_attrs /\ diff_ok lame_diff /\ tally_ok worse_play /\ counts_more demo_attrs lame_diff PropPP.demo_diff /\
  Z.testbit (d_Mods lame_diff) bSO = true /\ at_Spinners demo_attrs <= hits worse_play.
Proof.
  split; [exact exact_ranges|]. split; [exact exact_above|]. split; [exact exact_orders|]. split; [exact exact_root|]. split; [exact demo_attrs_ok|]. split.
  { apply C51_difficulty; [split; vm_compute; reflexivity|split; vm_compute; reflexivity|]. destruct (within_const 1 1 (fq 1 1)) as (F & B); [vm_compute; reflexivity|lia|lia|vm_compute; reflexivity|vm_compute; reflexivity|]. split; [exact F|lra]. }
  split; [unfold tally_ok, hits_upto, worse_play; cbn; lia|]. split; [exact lame_counts|]. split; [vm_compute; reflexivity|]. vm_compute. intros K. discriminate K.
Qed.
(** each value strictly higher (where Pow is the identity on bases up to 1) *)
Example C94_strict : let w := @worth abs_libm demo_attrs worse_play lame_diff in let b := @worth abs_libm demo_attrs worse_play PropPP.demo_diff in
  flt (r_Aim w) (r_Aim b) = true /\ flt (r_Speed w) (r_Speed b) = true /\ flt (r_Acc w) (r_Acc b) = true /\ flt (r_Flashlight w) (r_Flashlight b) = true /\ flt (r_Total w) (r_Total b) = true.
Proof. vm_compute. auto. Qed.
(** AR 10 on a clock eight times as fast is AR 12.625: without and with Hidden *)
Definition fast_diff (m : Z) : difficulty := built (fq 5 1) (fq 4 1) (fq 8 1) (fq 10 1) m (fq 8 1).
Lemma int_between lo hi (x : f64) : is_finite x = true -> Z.abs lo <= 2 ^ 53 -> Z.abs hi <= 2 ^ 53 -> fle (f_of_Z lo) x = true -> fle x (f_of_Z hi) = true -> SpecPP.within (IZR lo) (IZR hi) x.
Proof. intros F L U A B. exact (within_const lo hi x F L U A B). Qed.
Lemma fast_near m : d_ARReal (fast_diff m) = d_ARReal (fast_diff 0) -> d_ODReal (fast_diff m) = d_ODReal (fast_diff 0) -> rates_near (fast_diff m).
Proof.
  intros E1 E2. unfold rates_near. rewrite E1, E2. split.
  - destruct (int_between 0 13 (d_ARReal (fast_diff 0))) as (F & B); [vm_compute; reflexivity|lia|lia|vm_compute; reflexivity|vm_compute; reflexivity|]. split; [exact F|lra].
  - destruct (int_between 0 14 (d_ODReal (fast_diff 0))) as (F & B); [vm_compute; reflexivity|lia|lia|vm_compute; reflexivity|vm_compute; reflexivity|]. split; [exact F|lra].
Qed.
Lemma plus_of k m m' : m' = m + 2 ^ k -> Z.testbit m k = false -> (k <> bEZ /\ k <> bHR /\ k <> bDT /\ k <> bHT) -> 0 <= k -> forall hp cs od ar sp, plus_mod k (built hp cs od ar m sp) (built hp cs od ar m' sp).
Proof.
  intros -> F (N1 & N2 & N3 & N4) K hp cs od ar sp.
  assert (LO : m + 2 ^ k = Z.lor m (2 ^ k)) by (rewrite <- Z.lxor_lor, <- Z.add_nocarry_lxor; [reflexivity| |]; apply Z.bits_inj_0; intros n; rewrite Z.land_spec, Z.pow2_bits_eqb by lia; destruct (Z.eqb_spec k n) as [<-|]; rewrite ?F, ?andb_false_r; reflexivity).
  destruct (built_rates hp cs od ar m (m + 2 ^ k) sp) as (E1 & E2). { intros j J. rewrite LO, Z.lor_spec, Z.pow2_bits_eqb by lia. destruct (Z.eqb_spec k j) as [<-|]; [|now rewrite orb_false_r]. destruct J as [J|[J|[J|[J|[]]]]]; congruence. }
  unfold plus_mod. split; [exact F|]. split; [reflexivity|]. split; [now rewrite E1|now rewrite E2].
Qed.
Example C94_hidden_instance : @pow_close exact_libm /\ @log_close exact_libm /\ @pow_ranges exact_libm /\ @log_above exact_libm /\ map_ok demo_attrs /\ rates_near (fast_diff 0) /\ hits_upto (2 ^ 20) 480 15 3 2 /\ guess_clear demo_attrs 200 /\
  breaks_of demo_attrs 200 2 500 = 3 /\ breaks_mild 3 500 /\ plus_mod bHD (fast_diff 0) (fast_diff 8) /\ (125 / 10 <= B2R (d_ARReal (fast_diff 0)))%R.
Proof.
  destruct C80_instance as (I1 & I2 & I3 & _ & I5 & I6 & I7 & I8 & _). split; [exact I1|]. split; [exact I2|]. split; [exact exact_ranges|]. split; [exact exact_above|]. split; [exact I3|]. split; [apply fast_near; reflexivity|]. split; [exact I5|]. split; [exact I6|]. split; [exact I7|]. split; [exact I8|]. split.
  { unfold fast_diff. refine (plus_of bHD 0 8 eq_refl _ _ _ _ _ _ _ _); [vm_compute; reflexivity|unfold bHD, bEZ, bHR, bDT, bHT; lia|unfold bHD; lia]. }
  assert (L : fle (fq 125 10) (d_ARReal (fast_diff 0)) = true) by (vm_compute; reflexivity). assert (F : is_finite (d_ARReal (fast_diff 0)) = true) by (vm_compute; reflexivity). assert (F' : is_finite (fq 125 10) = true) by (vm_compute; reflexivity).
  apply fle_iff in L as (_ & _ & L). rewrite (key_fin _ _ _ F), (key_fin _ _ _ F') in L. set (x := d_ARReal _) in *. clearbody x. bval (fq 125 10). rewrite V in L. lra.
Qed.
(** so the claim fails with libm as it should be *)
Example C94_hidden_witness : ~ (forall a t d d', map_ok a -> tally_ok t -> rates_near d -> plus_mod bHD d d' -> (B2R (r_Aim (@worth exact_libm a t d)) <= B2R (r_Aim (@worth exact_libm a t d')))%R).
Proof.
  intros X. destruct C94_hidden_instance as (I1 & I2 & I3 & I4 & I5 & I6 & I7 & I8 & I9 & I10 & I11 & I12).
  assert (V := @C94_hidden_refuted exact_libm I1 I2 I3 I4 demo_attrs 200 480 15 3 2 (fast_diff 0) (fast_diff 8) I5 I6 I7 ltac:(lia) ltac:(lia) I8). cbv zeta in V. change (480 + 15 + 3 + 2) with 500 in V. rewrite I9 in V. destruct (V ltac:(lia) I10 eq_refl eq_refl I11 I12) as (V1 & _ & V3). specialize (V3 ltac:(lia) ltac:(lia)).
  specialize (X demo_attrs (mkTally 200 480 15 3 2) (fast_diff 0) (fast_diff 8) I5 ltac:(unfold tally_ok, hits_upto; cbn; lia) I6 I11). lra.
Qed.
(** a map of half a star *)
Definition half_star : attributes := mkAttr (fq 1 2) (fq 1 2) (fq 97 100) (fq 1 2) (fq 1 2) 500 300 198 2 700.
Example C94_touch_instance : @pow_close exact_libm /\ @log_close exact_libm /\ @pow_ranges exact_libm /\ @log_above exact_libm /\ map_ok half_star /\ rates_near (fast_diff 0) /\ hits_upto (2 ^ 20) 480 15 3 2 /\ guess_clear half_star 200 /\
  breaks_of half_star 200 2 500 = 3 /\ breaks_mild 3 500 /\ plus_mod bTD (fast_diff 0) (fast_diff 4) /\ (1 / 10 <= B2R (at_Aim half_star) <= 9 / 10)%R.
Proof.
  destruct C94_hidden_instance as (I1 & I2 & I3 & I4 & I5 & I6 & I7 & I8 & I9 & I10 & _). assert (HV : B2R (fq 1 2) = (/ 2)%R) by (bval (fq 1 2); rewrite V; lra). assert (HF : is_finite (fq 1 2) = true) by (vm_compute; reflexivity).
  split; [exact I1|]. split; [exact I2|]. split; [exact I3|]. split; [exact I4|]. split.
  { assert (R : rating_ok (fq 1 2)). { split; [exact HF|right]. rewrite HV. split; [|lra]. apply Rle_trans with (bpow radix2 (-1)); [apply bpow_le; lia|]. cbn. lra. }
    destruct I5 as (_ & _ & _ & SF & N). split; [exact R|]. split; [exact R|]. split; [exact R|]. split; [exact SF|exact N]. }
  split; [exact I6|]. split; [exact I7|]. split; [exact I8|]. split; [exact I9|]. split; [exact I10|]. split; [unfold fast_diff; refine (plus_of bTD 0 4 eq_refl _ _ _ _ _ _ _ _); [vm_compute; reflexivity|unfold bTD, bEZ, bHR, bDT, bHT; lia|unfold bTD; lia]|].
  change (at_Aim half_star) with (fq 1 2). rewrite HV. lra.
Qed.
Example C94_touch_witness : ~ (forall a t d d', map_ok a -> tally_ok t -> rates_near d -> plus_mod bTD d d' -> (B2R (r_Aim (@worth exact_libm a t d')) <= B2R (r_Aim (@worth exact_libm a t d)))%R).
Proof.
  intros X. destruct C94_touch_instance as (I1 & I2 & I3 & I4 & I5 & I6 & I7 & I8 & I9 & I10 & I11 & I12).
  assert (V := @C94_touch_refuted exact_libm I1 I2 I3 I4 half_star 200 480 15 3 2 (fast_diff 0) (fast_diff 4) I5 I6 I7 ltac:(lia) ltac:(lia) I8). cbv zeta in V. change (480 + 15 + 3 + 2) with 500 in V. rewrite I9 in V. destruct (V ltac:(lia) I10 eq_refl eq_refl I11 I12) as (V1 & V3). specialize (V3 ltac:(lia) ltac:(lia)).
  specialize (X half_star (mkTally 200 480 15 3 2) (fast_diff 0) (fast_diff 4) I5 ltac:(unfold tally_ok, hits_upto; cbn; lia) I6 I11). lra.
Qed.

Print Assumptions C94_mods.
Print Assumptions C94_better.
Print Assumptions C94_built.
Print Assumptions C94_hidden_refuted.
Print Assumptions C94_touch_refuted.

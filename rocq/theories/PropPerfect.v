(** C106: what playing on without a fault is worth. *)
From Coq Require Import Reals Lra ZArith Lia List.
From Flocq Require Import Raux Zaux Core BinarySingleNaN.
From Verif Require Import PP DiffCalc SpecPP SpecTempo SpecMods SpecDifficulty SpecFormula SpecBetter SpecDiff SpecSane BaseLemmas FloatLemmas KeyLemmas PPProofs PPChains RelPow IdealLibm PerfectProofs
  PropPP PropFormula PropDiff PropRatings PropBetter PropStars PropGrowing.
Import ListNotations.
Open Scope Z_scope.

(** All objects hit for 300, in one combo. *)
Definition perfect (a : attributes) : tally := mkTally (at_MaxCombo a) (at_ObjectCount a) 0 0 0.
(** [r] is worth no more than [r'], but for three parts in a million. *)
Definition barely_more (r r' : pp_results) : Prop :=
  let le x x' := (B2R x <= (1 + 3 / 1000000) * B2R x')%R in
  le (r_Aim r) (r_Aim r') /\ le (r_Speed r) (r_Speed r') /\ le (r_Acc r) (r_Acc r') /\ le (r_Flashlight r) (r_Flashlight r') /\ le (r_Total r) (r_Total r').
(** [b] rates no lower than [a] and has no fewer objects. *)
Definition longer (a b : attributes) : Prop :=
  (B2R (at_Aim a) <= B2R (at_Aim b) /\ B2R (at_Speed a) <= B2R (at_Speed b) /\ B2R (at_Flashlight a) <= B2R (at_Flashlight b))%R /\
  at_ObjectCount a <= at_ObjectCount b /\ at_Circles a <= at_Circles b.

Section WithLibm.
Context {M : libm}.
(** The values of a faultless play. *)
Lemma perfect_values : pow_close -> log_close -> forall a d, map_ok a -> rates_near d -> 1 <= at_ObjectCount a -> 1 <= at_MaxCombo a -> (Z.testbit (d_Mods d) bSO = true -> 2 * at_Spinners a <= at_ObjectCount a) ->
  let mod_ := Z.testbit (d_Mods d) in let y := play_of a (at_MaxCombo a) (at_ObjectCount a) 0 0 0 0 d in let r := worth a (perfect a) d in
  let aim := SpecFormula.aim_value (mod_ 2) (mod_ bHD) y in let speed := SpecFormula.speed_value (mod_ bHD) y in let acc := SpecFormula.acc_value (mod_ bRX) (mod_ bHD) (mod_ bFL) y in let fl := SpecFormula.fl_value (mod_ 2) (mod_ bHD) (mod_ bFL) y in
  faultless y /\ about (B2R (r_Aim r)) aim /\ about (B2R (r_Speed r)) speed /\ about (B2R (r_Acc r)) acc /\ about (B2R (r_Flashlight r)) fl /\
  about (B2R (r_Total r)) (total_value aim speed acc fl (final_factor (mod_ bNF) (mod_ bSO) (mod_ bRX) 0 (IZR (at_Spinners a)) (IZR (at_ObjectCount a)))).
Proof.
  intros PC LC a d MO RN T1 C1 SO mod_ y r aim speed acc fl. pose proof MO as (_ & _ & _ & _ & CNT).
  assert (CM : Z.max 1 (at_MaxCombo a) = at_MaxCombo a) by lia. set (total := at_ObjectCount a) in *. set (combo := at_MaxCombo a) in *.
  assert (G0 : guess_of a combo = 0%R).
  { unfold guess_of, guessed_breaks. fold combo. rewrite CM. cbv zeta. destruct (Rlt_dec 0 (IZR (at_Sliders a))) as [S|S]; [|reflexivity]. destruct (Rlt_dec _ _); [lra|reflexivity]. }
  assert (GC : guess_clear a combo). { split; [|now left]. intros S E. apply IZR_lt in S. fold combo in E. rewrite CM in E. lra. }
  assert (B0 : breaks_of a combo 0 (total + 0 + 0 + 0) = 0). { unfold breaks_of. rewrite G0, Rmin_left by (apply IZR_le; lia). now rewrite Zfloor_IZR. }
  assert (HH : hits_upto (2 ^ 20) total 0 0 0) by (unfold hits_upto; lia). assert (CB : 0 <= combo <= 2 ^ 31) by lia.
  pose proof (C80_values PC LC (mkPP (mkResults f0 f0 f0 f0 f0) a 0 0 0 0 0 0 None 0 f0 0) a combo total 0 0 0 d MO RN HH ltac:(lia) CB GC) as V. cbv zeta in V. rewrite B0 in V.
  replace (if Z.testbit (d_Mods d) bRX then Z.min (0 + 0 + 0) (total + 0 + 0 + 0) else 0) with 0 in V by (destruct (Z.testbit (d_Mods d) bRX); lia).
  assert (BM : breaks_mild 0 (total + 0 + 0 + 0)) by (split; [lia|intros X; lia]). specialize (V ltac:(lia) BM ltac:(intros X; specialize (SO X); lia)).
  change (ppv2x _ a combo total 0 0 0 d) with (ppv2x (mkPP (mkResults f0 f0 f0 f0 f0) a 0 0 0 0 0 0 None 0 f0 0) a (t_combo (perfect a)) (t_300 (perfect a)) (t_100 (perfect a)) (t_50 (perfect a)) (t_miss (perfect a)) d) in V.
  fold (worth a (perfect a) d) in V. fold r y in V. replace (total + 0 + 0 + 0) with total in V by ring. fold mod_ aim speed acc fl in V.
  split. { unfold faultless, y, play_of. cbn [y_most y_combo y_ok y_meh y_miss y_breaks y_total y_great y_judged]. fold combo. rewrite CM. replace (total + 0 + 0 + 0) with total by ring.
    split; [apply (IZR_le 1); lia|]. do 5 (split; [reflexivity|]). split; [apply (IZR_le 1); lia|]. split; [reflexivity|]. apply (IZR_le 0). destruct (Z.testbit (d_Mods d) 29); lia. }
  tauto.
Qed.
Lemma about_le x x' r r' : about x r -> about x' r' -> (0 <= r <= r')%R -> (x <= (1 + 3 / 1000000) * x')%R.
Proof. unfold about. intros A B L. rewrite (Rabs_pos_eq r) in A by lra. rewrite (Rabs_pos_eq r') in B by lra. apply Rabs_le_inv in A. apply Rabs_le_inv in B. lra. Qed.
(** A perfect play of a longer map is not worth less ... *)
Theorem C106_longer : pow_close -> log_close -> forall a b d, map_ok a -> map_ok b -> rates_near d -> longer a b ->
  1 <= at_ObjectCount a -> 1 <= at_MaxCombo a -> 1 <= at_MaxCombo b -> Z.testbit (d_Mods d) bSO = false -> barely_more (worth a (perfect a) d) (worth b (perfect b) d).
Proof.
  intros PC LC a b d MA MB RN ((LA & LS & LF) & LO & LCI) T1 C1 C2 SO. destruct (perfect_values PC LC a d MA RN T1 C1 ltac:(rewrite SO; discriminate)) as (F & A1 & A2 & A3 & A4 & A5). destruct (perfect_values PC LC b d MB RN ltac:(lia) C2 ltac:(rewrite SO; discriminate)) as (F' & B1 & B2 & B3 & B4 & B5). cbv zeta in *.
  set (y := play_of a _ _ _ _ _ _ _) in *. set (y' := play_of b _ _ _ _ _ _ _) in *.
  assert (NN : forall x, rating_ok x -> (0 <= B2R x)%R). { intros x (_ & [->|(L & _)]); [lra|]. pose proof (bpow_gt_0 radix2 (-100)). lra. }
  assert (G : goes_on_as y y').
  { destruct MA as (R1 & R2 & R3 & _). unfold goes_on_as, y, y', play_of. cbn [y_aim y_speed y_fl y_total y_judged y_ar y_od]. split; [auto|]. split; [auto|]. split; [auto|]. split; [apply IZR_le; lia|]. split; [apply IZR_le; destruct (Z.testbit (d_Mods d) 29); lia|]. auto. }
  destruct RN as ((_ & RA) & (_ & RO)). assert (AR : (y_ar y <= 13)%R) by apply RA. assert (OD : (y_od y <= 14)%R) by apply RO.
  pose proof (aim_grows y y' F F' G AR (Z.testbit (d_Mods d) 2) (Z.testbit (d_Mods d) bHD)) as G1. pose proof (speed_grows y y' F F' G AR (Z.testbit (d_Mods d) bHD)) as G2.
  pose proof (acc_grows y y' F F' G (Z.testbit (d_Mods d) bRX) (Z.testbit (d_Mods d) bHD) (Z.testbit (d_Mods d) bFL)) as G3. pose proof (fl_grows y y' F F' G (Z.testbit (d_Mods d) 2) (Z.testbit (d_Mods d) bHD) (Z.testbit (d_Mods d) bFL)) as G4.
  split; [exact (about_le _ _ _ _ A1 B1 G1)|]. split; [exact (about_le _ _ _ _ A2 B2 G2)|]. split; [exact (about_le _ _ _ _ A3 B3 G3)|]. split; [exact (about_le _ _ _ _ A4 B4 G4)|].
  rewrite SO in A5, B5. apply (about_le _ _ _ _ A5 B5).
  assert (K : forall s t, final_factor (Z.testbit (d_Mods d) bNF) false (Z.testbit (d_Mods d) bRX) 0 s t = (112 / 100 * (if Z.testbit (d_Mods d) bRX then 6 / 10 else 1))%R).
  { intros s t. unfold final_factor. destruct (Z.testbit (d_Mods d) bNF); [|ring]. rewrite Rmult_0_r, Rminus_0_r, Rmax_right by lra. ring. }
  rewrite !K. apply total_grows; try assumption. destruct (Z.testbit (d_Mods d) bRX); lra.
Qed.
(** ... so the pp of a play without a fault, step by step, never fall. *)
Theorem C106_step : pow_close -> log_close -> pow_ranges -> trig_ranges -> log_unit -> forall fuel objs d l, clocked d ->
  Forall (tidy 32 d) objs -> in_order objs -> zlen objs <= 2 ^ 31 -> calculate_step fuel objs d = Ok l ->
  forall i j a b, (i <= j)%nat -> nth_error l i = Some a -> nth_error l j = Some b -> map_ok a -> map_ok b -> rates_near d -> Z.testbit (d_Mods d) bSO = false ->
  at_ObjectCount a = Z.of_nat (S i) /\ at_ObjectCount b = Z.of_nat (S j) /\ barely_more (worth a (perfect a) d) (worth b (perfect b) d).
Proof.
  intros PC LC PR TR LU fuel objs d l D T O N H i j a b L I J MA MB RN SO.
  destruct (C99_step fuel objs d l PR TR LU D T O N H i j a b L I J) as (S1 & S2 & S3). destruct (C40_grow fuel objs d l i j a b H L I J) as (CA & G1 & G2 & _ & _ & G5 & _). destruct (C40_grow fuel objs d l j j b b H (le_n j) J J) as (CB & _).
  destruct (C38_entries fuel objs d l H) as (LE & _). assert (LI : (i < length objs)%nat) by (rewrite <- LE; apply nth_error_Some; congruence). assert (LJ : (j < length objs)%nat) by (rewrite <- LE; apply nth_error_Some; congruence).
  assert (OA : at_ObjectCount a = Z.of_nat (S i)). { destruct CA as (-> & _). unfold zlen. rewrite firstn_length. lia. } assert (OB : at_ObjectCount b = Z.of_nat (S j)). { destruct CB as (-> & _). unfold zlen. rewrite firstn_length. lia. }
  split; [exact OA|]. split; [exact OB|].
  assert (MC : 1 <= at_MaxCombo a). { destruct CA as (E & _ & _ & _ & ->). rewrite <- E, OA. assert (0 <= sum_points (firstn (S i) objs)); [|lia]. generalize (firstn (S i) objs). intros q. induction q as [|o q IH]; cbn [sum_points fold_right]; [lia|]. fold (sum_points q). assert (0 <= score_points o); [|lia]. unfold score_points, zlen. destruct (ho_kind o); lia. }
  assert (Q : forall x x', rating_ok x -> rating_ok x' -> fle x x' = true -> (B2R x <= B2R x')%R). { intros x x' (F & _) (F' & _) X. apply fle_iff in X as (_ & _ & X). now rewrite (key_fin 53 1024 _ F), (key_fin 53 1024 _ F') in X. }
  apply (C106_longer PC LC a b d MA MB RN); try lia; [|exact SO]. destruct MA as (A1 & A2 & A3 & _). destruct MB as (B1 & B2 & B3 & _). split; [|lia]. split; [now apply Q|]. split; now apply Q.
Qed.
(** With Spun Out they can: one spinner more, the ratings staying, costs at least 0.5 % of the pp of up to 100 objects. *)
Theorem C106_spun_out_refuted : pow_close -> log_close -> forall a b d, map_ok a -> map_ok b -> rates_near d -> longer a b ->
  1 <= at_ObjectCount a <= 99 -> 1 <= at_MaxCombo a -> 1 <= at_MaxCombo b -> Z.testbit (d_Mods d) bSO = true -> Z.testbit (d_Mods d) 29 = false ->
  at_ObjectCount b = at_ObjectCount a + 1 -> at_Circles b = at_Circles a -> at_Spinners a = 0 -> at_Spinners b = 1 ->
  at_Aim b = at_Aim a -> at_Speed b = at_Speed a -> at_Flashlight b = at_Flashlight a ->
  (B2R (r_Total (worth b (perfect b) d)) <= 995 / 1000 * B2R (r_Total (worth a (perfect a) d)))%R.
Proof.
  intros PC LC a b d MA MB RN _ T1 C1 C2 SO SV EO EC ES ES' EA EP EF. destruct (perfect_values PC LC a d MA RN ltac:(lia) C1 ltac:(lia)) as (F & _ & _ & _ & _ & A5). destruct (perfect_values PC LC b d MB RN ltac:(lia) C2 ltac:(lia)) as (F' & _ & _ & _ & _ & B5). cbv zeta in *.
  set (y := play_of a _ _ _ _ _ _ _) in *. set (y' := play_of b _ _ _ _ _ _ _) in *. rewrite SO in A5, B5.
  assert (G : one_more y y').
  { destruct MA as (_ & _ & (_ & R3) & _). unfold one_more, y, y', play_of. cbn [y_aim y_speed y_fl y_total y_judged y_ar y_od]. rewrite EA, EP, EF, EC, EO, SV. do 3 (split; [reflexivity|]).
    split; [replace (at_ObjectCount a + 1 + 0 + 0 + 0) with (at_ObjectCount a + 0 + 0 + 0 + 1) by ring; now rewrite plus_IZR|]. split; [apply (IZR_le _ 100); lia|]. do 3 (split; [reflexivity|]). destruct R3 as [->|(L & _)]; [lra|]. pose proof (bpow_gt_0 radix2 (-100)). lra. }
  destruct RN as ((_ & RA) & _). assert (AR : (y_ar y <= 13)%R) by apply RA.
  destruct (aim_more y y' F F' G AR (Z.testbit (d_Mods d) 2) (Z.testbit (d_Mods d) bHD)) as (P1 & Q1). destruct (speed_more y y' F F' G AR (Z.testbit (d_Mods d) bHD)) as (P2 & Q2).
  destruct (acc_more y y' F F' G (Z.testbit (d_Mods d) bRX) (Z.testbit (d_Mods d) bHD) (Z.testbit (d_Mods d) bFL)) as (P3 & Q3). destruct (fl_more y y' F F' G (Z.testbit (d_Mods d) 2) (Z.testbit (d_Mods d) bHD) (Z.testbit (d_Mods d) bFL)) as (P4 & Q4).
  set (k := (112 / 100 * (if Z.testbit (d_Mods d) bRX then 6 / 10 else 1))%R). assert (K0 : (0 < k)%R) by (unfold k; destruct (Z.testbit (d_Mods d) bRX); lra).
  assert (K : forall s t, final_factor (Z.testbit (d_Mods d) bNF) true (Z.testbit (d_Mods d) bRX) 0 s t = (k * (1 - rpow (s / t) (85 / 100)))%R).
  { intros s t. unfold final_factor, k. destruct (Z.testbit (d_Mods d) bNF); [|ring]. rewrite Rmult_0_r, Rminus_0_r, Rmax_right by lra. ring. }
  rewrite !K, ES in A5. rewrite !K, ES' in B5. replace (0 / IZR (at_ObjectCount a))%R with 0%R in A5 by (unfold Rdiv; ring). rewrite rpow_0, Rminus_0_r, Rmult_1_r in A5.
  pose proof (share (IZR (at_ObjectCount b)) ltac:(split; [apply (IZR_le 1)|apply (IZR_le _ 100)]; lia)) as SH. set (w := rpow (1 / _) _) in *. assert (W1 : (w <= 1)%R).
  { apply Rle_trans with (rpow 1 (85 / 100)); [|rewrite rp_1; lra]. unfold w. assert (N1 : (1 <= IZR (at_ObjectCount b))%R) by (apply (IZR_le 1); lia). apply rp_le; [|lra]. split; [apply Rmult_le_pos; [lra|left; apply Rinv_0_lt_compat; lra]|]. apply Rmult_le_reg_r with (IZR (at_ObjectCount b)); [lra|]. unfold Rdiv. rewrite Rmult_assoc, Rinv_l by lra. lra. } clearbody w.
  set (a1 := SpecFormula.aim_value _ _ y) in *. set (a2 := SpecFormula.speed_value _ y) in *. set (a3 := SpecFormula.acc_value _ _ _ y) in *. set (a4 := SpecFormula.fl_value _ _ _ y) in *. set (b1 := SpecFormula.aim_value _ _ y') in *. set (b2 := SpecFormula.speed_value _ y') in *. set (b3 := SpecFormula.acc_value _ _ _ y') in *. set (b4 := SpecFormula.fl_value _ _ _ y') in *.
  assert (BT : (0 < bit)%R) by (unfold bit; lra). assert (X : (0 <= total_value b1 b2 b3 b4 (k * (1 - w)) <= total_value a1 a2 a3 a4 k * (bit * (99 / 100)))%R).
  { assert (KW : (0 <= k * (1 - w))%R) by (apply Rmult_le_pos; lra). destruct (total_grows b1 b2 b3 b4 (a1 * bit) (a2 * bit) (a3 * bit) (a4 * bit) (k * (1 - w)) Q1 Q2 Q3 Q4 KW) as (X0 & X1). split; [exact X0|]. apply Rle_trans with (1 := X1). rewrite total_scale by assumption.
    unfold total_value. set (z := rpow _ _). assert (Z0 : (0 <= z)%R) by apply rp_nn. clearbody z. replace (z * (k * (1 - w)) * bit)%R with (z * k * bit * (1 - w))%R by ring. replace (z * k * (bit * (99 / 100)))%R with (z * k * bit * (99 / 100))%R by ring.
    apply Rmult_le_compat_l; [|lra]. apply Rmult_le_pos; [apply Rmult_le_pos|]; lra. }
  set (u := total_value a1 a2 a3 a4 k) in *. set (v := total_value b1 b2 b3 b4 _) in *. assert (U : (0 <= u)%R) by (unfold u, total_value; apply Rmult_le_pos; [apply rp_nn|lra]). clearbody u v. unfold about in A5, B5. rewrite (Rabs_pos_eq u) in A5 by lra. rewrite (Rabs_pos_eq v) in B5 by lra. apply Rabs_le_inv in A5. apply Rabs_le_inv in B5. unfold bit in X. lra.
Qed.
End WithLibm.

(** ** Concrete cases *)
(** The demo map of C51 after 300 of its 500 objects, some of its strain still to come. *)
Definition demo_part : attributes := mkAttr (fq 45 10) (fq 24 10) (fq 97 100) (fq 23 10) (fq 2 1) 300 200 100 0 400.
Definition rating_okb (x : f64) : bool := is_finite x && (feq x f0 || fle (fq 1 1024) x && fle x (fq 1000 1)).
Definition map_okb (a : attributes) : bool :=
  rating_okb (at_Aim a) && rating_okb (at_Speed a) && rating_okb (at_Flashlight a) && is_finite (at_SliderFactor a) && fle (fq 1 2) (at_SliderFactor a) && fle (at_SliderFactor a) (fq 1 1) &&
  forallb (fun n => (0 <=? n) && (n <=? 2 ^ 20)) [at_ObjectCount a; at_Circles a; at_Sliders a; at_Spinners a; at_MaxCombo a].
Lemma map_okb_ok a : map_okb a = true -> map_ok a.
Proof.
  unfold map_okb. intros B. assert (Q : forall x y : f64, fle x y = true -> is_finite x = true -> is_finite y = true -> (B2R x <= B2R y)%R). { intros x y L F F'. apply fle_iff in L as (_ & _ & L). rewrite (key_fin _ _ _ F), (key_fin _ _ _ F') in L. lra. }
  destruct (fq1_exact 1) as (F1 & E1); [lia|]. destruct (fq1_exact 1000) as (F2 & E2); [lia|]. assert (FH : fin (fq 1 2)) by (vm_compute; reflexivity). assert (EH : B2R (fq 1 2) = (/ 2)%R) by (bval (fq 1 2); rewrite V; lra). assert (FT : fin (fq 1 1024)) by (vm_compute; reflexivity). assert (ET : B2R (fq 1 1024) = (/ 1024)%R) by (bval (fq 1 1024); rewrite V; lra).
  assert (RAT : forall x : f64, rating_okb x = true -> rating_ok x).
  { intros x X. unfold rating_okb in X. apply andb_prop in X as (F & X). split; [exact F|]. apply orb_prop in X as [X|X].
    - left. apply feq_iff in X as (_ & _ & X). rewrite (key_fin 53 1024 _ F) in X. exact X.
    - right. apply andb_prop in X as (L & U). apply Q in L; auto. apply Q in U; auto. rewrite ET in L. rewrite E2 in U. split; [apply Rle_trans with (/ 1024)%R; [change (/ 1024)%R with (bpow radix2 (-10)); apply bpow_le; lia|exact L]|lra]. }
  apply andb_prop in B as (B & BN). apply andb_prop in B as (B & BU). apply andb_prop in B as (B & BL). apply andb_prop in B as (B & BF). apply andb_prop in B as (B & B3). apply andb_prop in B as (B1 & B2).
  cbn [forallb] in BN. rewrite !andb_true_iff, !Z.leb_le in BN. split; [now apply RAT|]. split; [now apply RAT|]. split; [now apply RAT|]. split; [|lia]. split; [exact BF|].
  apply (Q _ _ BL FH) in BF as L. apply (Q _ _ BU BF) in F1 as U. rewrite EH in L. rewrite E1 in U. lra.
Qed.
Lemma demo_rates : rates_near PropPP.demo_diff.
Proof. apply C80_instance. Qed.
Example C106_longer_instance : @pow_close exact_libm /\ @log_close exact_libm /\ map_ok demo_part /\ map_ok demo_attrs /\ rates_near PropPP.demo_diff /\ longer demo_part demo_attrs /\ Z.testbit (d_Mods PropPP.demo_diff) bSO = false.
Proof.
  split; [exact exact_close|]. split; [exact exact_log|]. split; [apply map_okb_ok; vm_compute; reflexivity|]. split; [apply map_okb_ok; vm_compute; reflexivity|]. split; [exact demo_rates|]. split; [|vm_compute; reflexivity].
  assert (Q : forall x y : f64, fle x y = true -> is_finite x = true -> is_finite y = true -> (B2R x <= B2R y)%R). { intros x y L F F'. apply fle_iff in L as (_ & _ & L). rewrite (key_fin _ _ _ F), (key_fin _ _ _ F') in L. lra. }
  unfold longer, demo_part, demo_attrs. cbn [at_Aim at_Speed at_Flashlight at_SliderFactor at_ObjectCount at_Circles at_Sliders at_Spinners at_MaxCombo]. split; [|lia]. split; [apply Q; vm_compute; reflexivity|]. split; apply Q; vm_compute; reflexivity.
Qed.
(** The objects of C67: the steps after five and six of them.  The assumptions on the functions are those of libm as it should be. *)
Lemma exact_log_unit : @log_unit exact_libm.
Proof.
  intros x F B. cbn [mlog10 exact_libm]. assert (L10 : (0 < ln 10)%R) by (rewrite <- ln_1; apply ln_increasing; lra). assert (X : (0 <= log10 (B2R x) <= 1)%R).
  { split; [apply log10_nn; lra|]. apply Rle_trans with (log10 10); [apply log10_le; lra|]. unfold log10, Rdiv. rewrite Rinv_r by lra. lra. }
  destruct (of_R_ok (log10 (B2R x))) as (FO & EO); [rewrite Rabs_pos_eq by lra; apply Rle_trans with (1 := proj2 X); change 1%R with (bpow radix2 0); apply bpow_le; lia|]. split; [exact FO|]. rewrite EO. split; [apply rnd64_pos; lra|]. rewrite <- (rnd64_Z 1) by lia. apply rnd64_le. lra.
Qed.
Example C106_step_instance : @pow_close exact_libm /\ @log_close exact_libm /\ @pow_ranges exact_libm /\ @trig_ranges exact_libm /\ @log_unit exact_libm /\ clocked PropDiff.demo_diff /\
  Forall (@tidy 32 PropDiff.demo_diff) long_demo /\ in_order long_demo /\ zlen long_demo <= 2 ^ 31 /\ rates_near PropDiff.demo_diff /\ Z.testbit (d_Mods PropDiff.demo_diff) bSO = false /\
  exists l a b, @calculate_step calm_libm 9 long_demo PropDiff.demo_diff = Ok l /\ nth_error l 4 = Some a /\ nth_error l 5 = Some b /\ map_ok a /\ map_ok b.
Proof.
  split; [exact exact_close|]. split; [exact exact_log|]. split; [exact exact_ranges|]. split; [exact exact_trig|]. split; [exact exact_log_unit|]. split; [apply C99_instance|]. split; [apply C99_instance|]. split; [apply C99_instance|]. split; [vm_compute; discriminate|].
  split. { split; (split; [vm_compute; reflexivity|]); [pose proof (between_Z (d_ARReal PropDiff.demo_diff) (-100) 13) as B|pose proof (between_Z (d_ODReal PropDiff.demo_diff) (-40) 14) as B]; apply B; try lia; vm_compute; reflexivity. }
  split; [vm_compute; reflexivity|]. assert (V : match @calculate_step calm_libm 9 long_demo PropDiff.demo_diff with Ok l => match nth_error l 4, nth_error l 5 with Some a, Some b => map_okb a && map_okb b | _, _ => false end | _ => false end = true) by (vm_compute; reflexivity).
  destruct (calculate_step 9 long_demo PropDiff.demo_diff) as [l| |]; try discriminate V. exists l. destruct (nth_error l 4) as [a|]; [|discriminate V]. destruct (nth_error l 5) as [b|]; [|discriminate V]. exists a, b. apply andb_prop in V as (V1 & V2). repeat split; try apply map_okb_ok; assumption.
Qed.
(** Fifty objects and then a spinner, with Spun Out. *)
Definition fifty : attributes := mkAttr (fq 45 10) (fq 24 10) (fq 97 100) (fq 23 10) (fq 2 1) 50 30 20 0 100.
Definition fifty_one : attributes := mkAttr (fq 45 10) (fq 24 10) (fq 97 100) (fq 23 10) (fq 2 1) 51 30 20 1 101.
Definition spun_diff : difficulty := set_mods (new_difficulty (fq 5 1) (fq 4 1) (fq 8 1) (fq 9 1)) (2 ^ 12).
Example C106_spun_out_instance : map_ok fifty /\ map_ok fifty_one /\ rates_near spun_diff /\ longer fifty fifty_one /\ Z.testbit (d_Mods spun_diff) bSO = true /\ Z.testbit (d_Mods spun_diff) 29 = false.
Proof.
  split; [apply map_okb_ok; vm_compute; reflexivity|]. split; [apply map_okb_ok; vm_compute; reflexivity|]. split. { split; (split; [vm_compute; reflexivity|]); [pose proof (between_Z (d_ARReal spun_diff) (-100) 13) as B|pose proof (between_Z (d_ODReal spun_diff) (-40) 14) as B]; apply B; try lia; vm_compute; reflexivity. }
  split; [|split; vm_compute; reflexivity]. unfold longer, fifty, fifty_one. cbn [at_Aim at_Speed at_Flashlight at_ObjectCount at_Circles]. split; [|lia]. split; [apply Rle_refl|]. split; apply Rle_refl.
Qed.
Example C106_spun_out_witness : (B2R (r_Total (@worth exact_libm fifty_one (perfect fifty_one) spun_diff)) <= 995 / 1000 * B2R (r_Total (@worth exact_libm fifty (perfect fifty) spun_diff)))%R.
Proof. destruct C106_spun_out_instance as (A & B & C & D & E & F). apply (@C106_spun_out_refuted exact_libm exact_close exact_log fifty fifty_one spun_diff A B C D); try reflexivity; try exact E; try exact F; unfold fifty, fifty_one; cbn [at_ObjectCount at_MaxCombo]; lia. Qed.

Print Assumptions C106_longer.
Print Assumptions C106_step.
Print Assumptions C106_spun_out_refuted.

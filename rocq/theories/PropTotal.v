(** C90: the star rating of a map. *)
From Coq Require Import Reals Lra Lia ZArith List.
From Flocq Require Import Core BinarySingleNaN.
From Verif Require Import GoFloat PP CurveProofs CurveStart SpecPP SpecTempo SpecDiff SpecSane SpecStrain SpecFormula SpecSkill SpecRating SpecTotal BaseLemmas FloatLemmas Float32Lemmas KeyLemmas LazyProofs PPProofs PPBounds DiffProofs
  RelLemmas RelPow FormulaParts IdealLibm TotalFormula TotalSteady PropDiff PropStrain PropSkill PropStars.
Import ListNotations.
Open Scope R_scope.

Lemma mapM_at {A B} (f : A -> res B) l r i y : mapM f l = Ok r -> nth_error r i = Some y -> exists x, nth_error l i = Some x /\ f x = Ok y.
Proof.
  revert r i. induction l as [|x l IH]; intros r i H N; cbn [mapM] in H; [apply Ok_inj in H; subst r; destruct i; discriminate N|].
  apply bind_ok in H as (b & E & H). apply bind_ok in H as (bs & E' & H). apply Ok_inj in H. subst r. destruct i as [|i]; cbn [nth_error] in *; [exists x; split; congruence|]. now apply (IH bs).
Qed.
Lemma idx_at {A} (l : list A) i x : idx l (Z.of_nat i) = Ok x -> nth_error l i = Some x.
Proof. intros H. apply (proj1 (idx_ok _ _ _)) in H as (_ & H). now rewrite Nat2Z.id in H. Qed.
Section WithLibm.
Context {M : libm}.
Lemma single_stars fuel objs d a : calculate_single fuel objs d = Ok a -> exists rA rN rS rF b, a = stars_from_raw rA rN rS rF d b.
Proof.
  intros H. unfold calculate_single, calculate_single_full, rmap in H. apply bind_ok in H as (x & H & E). apply Ok_inj in E. subst a. apply bind_ok in H as (dos & _ & H). apply bind_ok in H as (o & _ & H). apply bind_ok in H as (s & _ & H). apply Ok_inj in H. subst x. cbn [fst]. unfold get_stars. eauto 10.
Qed.
Definition flash_of (d : difficulty) (f : R) : option R := if mactive (d_Mods d) Flashlight then Some f else None.
(** The total is within a 2^-32th of the formula, and never below 0.14 stars. *)
Theorem C90_total : pow_close -> cbrt_close -> forall fuel objs d a, calculate_single fuel objs d = Ok a ->
  within 0 (bpow radix2 60) (at_Aim a) -> within 0 (bpow radix2 60) (at_Speed a) -> (mactive (d_Mods d) Flashlight = true -> flash_ok (at_Flashlight a)) ->
  let T := total_stars (B2R (at_Aim a)) (B2R (at_Speed a)) (flash_of d (B2R (at_Flashlight a))) in
  is_finite (at_Total a) = true /\ Rabs (B2R (at_Total a) - T) <= T * bpow radix2 (-32) /\ 14 / 100 <= B2R (at_Total a).
Proof.
  intros PC CC fuel objs d a H A S F T. apply single_stars in H as (rA & rN & rS & rF & b & ->). destruct (total_close PC CC rA rN rS rF d b A S F) as (TF & T0 & TB). change (if check_mod d Flashlight then Some _ else None) with (flash_of d (B2R (at_Flashlight (stars_from_raw rA rN rS rF d b)))) in T0, TB. fold T in T0, TB.
  assert (TG : 1401 / 10000 <= T) by apply total_stars_ge. assert (E : 180 * e40 * T <= T * bpow radix2 (-32)). { rewrite (Rmult_comm T). apply Rmult_le_compat_r; [lra|]. unfold e40. change (bpow radix2 (-32)) with (/ 4294967296). lra. }
  split; [exact TF|]. split; [apply Rabs_le; lra|]. assert (180 * e40 * T <= / 100000 * T) by (apply Rmult_le_compat_r; [lra|unfold e40; lra]). lra.
Qed.
(** ... and so are the totals of the sections. *)
Theorem C90_peaks : pow_close -> cbrt_close -> forall fuel objs d p, calculate_strain_peaks fuel objs d = Ok p ->
  let stars x := fmul (fsqrt x) (fq 675 10000) in
  forall i t, nth_error (pk_Total p) i = Some t -> exists x y z, nth_error (pk_Aim p) i = Some x /\ nth_error (pk_Speed p) i = Some y /\ (mactive (d_Mods d) Flashlight = true -> nth_error (pk_Flashlight p) i = Some z) /\
  let y' := if mactive (d_Mods d) Relax then f0 else stars y in
  (within 0 (bpow radix2 60) (stars x) -> within 0 (bpow radix2 60) y' -> (mactive (d_Mods d) Flashlight = true -> flash_ok (stars z)) ->
   let T := total_stars (B2R (stars x)) (B2R y') (flash_of d (B2R (stars z))) in
   is_finite t = true /\ Rabs (B2R t - T) <= T * bpow radix2 (-32) /\ 14 / 100 <= B2R t).
Proof.
  intros PC CC fuel objs d p H stars i t NT. unfold calculate_strain_peaks in H. apply bind_ok in H as (dos & _ & H). apply bind_ok in H as (((aim & speed) & fl) & FO & H).
  assert (FL : mactive (d_Mods d) Flashlight = true -> fl <> None).
  { intros FA. change (check_mod d Flashlight = true) in FA. rewrite FA in FO. assert (G : forall s, snd s <> None -> foldM (peaks_step fuel d) s dos = Ok (aim, speed, fl) -> fl <> None); [|apply (G (skill0, skill0, Some skill0)); [cbn; congruence|exact FO]].
    clear. induction dos as [|o r IH]; intros ((sa & ss) & sf) N E; cbn [foldM snd] in *; [apply Ok_inj in E; congruence|]. apply bind_ok in E as (s' & E1 & E2). apply (IH s'); [|exact E2]. unfold peaks_step in E1. apply bind_ok in E1 as (u & _ & E1). apply bind_ok in E1 as (v & _ & E1). apply bind_ok in E1 as (w & E3 & E1). apply Ok_inj in E1. subst s'. cbn [snd]. destruct sf as [f|]; [|congruence]. unfold rmap in E3. apply bind_ok in E3 as (q & _ & E3). apply Ok_inj in E3. subst w. congruence. }
  unfold get_peaks in H. cbv zeta in H. apply bind_ok in H as (tot & HT & H). apply Ok_inj in H. subst p. cbn [pk_Total pk_Aim pk_Speed pk_Flashlight] in *.
  destruct (mapM_at _ _ _ _ _ HT NT) as (j & NJ & TP). assert (j = i). { assert (L : (i < length (seq 0 (length (current_peaks aim))))%nat) by (apply nth_error_Some; rewrite NJ; discriminate). rewrite seq_length in L. rewrite (nth_error_nth' _ 0%nat) in NJ by (rewrite seq_length; exact L). rewrite seq_nth in NJ by exact L. rewrite Nat.add_0_l in NJ. now inversion NJ. } subst j.
  unfold total_peak in TP. apply bind_ok in TP as (z & HZ & TP). apply bind_ok in TP as (x & HX & TP). apply bind_ok in TP as (y & HY & TP). apply Ok_inj in TP. subst t. exists x, y, z. apply idx_at in HX, HY.
  split; [exact HX|]. split; [exact HY|]. split.
  { intros FA. specialize (FL FA). destruct fl as [f|]; [|congruence]. cbn [option_map] in *. now apply idx_at in HZ. }
  cbv zeta. intros A S F. set (T := total_stars _ _ _). destruct (total_close PC CC x x y z d attr0 A S F) as (TF & T0 & TB). cbn [stars_from_raw at_Aim at_Speed at_Flashlight] in T0, TB.
  change (total_stars _ _ _) with T in T0, TB. assert (TG : 1401 / 10000 <= T) by apply total_stars_ge. assert (E : 180 * e40 * T <= T * bpow radix2 (-32)). { rewrite (Rmult_comm T). apply Rmult_le_compat_r; [lra|]. unfold e40. change (bpow radix2 (-32)) with (/ 4294967296). lra. }
  split; [exact TF|]. split; [apply Rabs_le; lra|]. assert (180 * e40 * T <= / 100000 * T) by (apply Rmult_le_compat_r; [lra|unfold e40; lra]). lra.
Qed.
End WithLibm.

(** The formula grows with the ratings, and at most 1.7 times as fast. *)
Theorem C90_grows : forall aim speed aim' speed' fl, aim <= aim' -> speed <= speed' -> total_stars aim speed fl <= total_stars aim' speed' fl.
Proof.
  intros aim speed aim' speed' fl A S. rewrite !total_norm. destruct factors as (C & Q). apply Rmult_le_compat_l; [lra|]. apply Rplus_le_compat_r. apply Rmult_le_compat_l; [lra|].
  assert (U : forall r r', r <= r' -> unit_of r <= unit_of r'). { intros r r' L. unfold unit_of. assert (Rmax 1 (r / (675 / 10000)) <= Rmax 1 (r' / (675 / 10000))) by (apply Rle_max_compat_l; lra). lra. }
  pose proof (unit_ge aim). pose proof (unit_ge speed). pose proof (U _ _ A). pose proof (U _ _ S). unfold joint_norm. assert (P : forall u v, 1 <= u <= v -> 0 < rpow u (33 / 10) <= rpow v (33 / 10)) by (intros u v UV; rewrite !rpow_pos by lra; split; [apply Rpower_pos|apply Rpower_le_l; lra]).
  pose proof (P (unit_of aim) (unit_of aim') ltac:(lra)). pose proof (P (unit_of speed) (unit_of speed') ltac:(lra)). pose proof (rpow_nn (flash_unit fl) (33 / 10)). apply Rpower_le_l; lra.
Qed.
Theorem C90_steady : forall aim speed aim' speed' fl, Rabs (total_stars aim' speed' fl - total_stars aim speed fl) <= 17 / 10 * (Rabs (aim' - aim) + Rabs (speed' - speed)).
Proof.
  intros aim speed aim' speed' fl. apply Rle_trans with (1 := total_move _ _ _ _ _ _). replace (flash_unit fl - flash_unit fl) with 0 by ring. rewrite Rabs_R0, Rplus_0_r.
  pose proof (unit_move aim aim'). pose proof (unit_move speed speed'). pose proof (max_move aim' aim (675 / 10000)). pose proof (max_move speed' speed (675 / 10000)). pose proof (Rabs_pos (aim' - aim)). pose proof (Rabs_pos (speed' - speed)). lra.
Qed.

(** ** The whole map *)
Lemma squares x r e s l : 0 <= x -> 0 <= r -> 0 <= e <= / 100 -> 0 <= s -> 0 <= l -> Rabs (x - r) <= e * r + s -> r * Rabs (x - r) <= e * r ^ 2 + l -> Rabs (x ^ 2 - r ^ 2) <= 202 / 100 * e * r ^ 2 + 201 / 100 * l + 3 / 2 * s ^ 2.
Proof.
  intros X R E S L D1 D2. set (d := Rabs (x - r)) in *. assert (D0 : 0 <= d) by apply Rabs_pos.
  assert (A : Rabs (x ^ 2 - r ^ 2) <= 2 * (r * d) + d * d). { replace (x ^ 2 - r ^ 2) with (2 * r * (x - r) + (x - r) * (x - r)) by ring. apply Rle_trans with (1 := Rabs_triang _ _). rewrite !Rabs_mult, (Rabs_pos_eq 2), (Rabs_pos_eq r) by lra. fold d. lra. }
  assert (B : d * d <= d * (e * r + s)) by (apply Rmult_le_compat_l; lra). assert (C : d * (e * r + s) = e * (r * d) + s * d) by ring. assert (C1 : e * (r * d) <= e * (e * r ^ 2 + l)) by (apply Rmult_le_compat_l; lra). assert (C2 : s * d <= s * (e * r + s)) by (apply Rmult_le_compat_l; lra).
  assert (Y : s * (e * r) <= (s ^ 2 + (e * r) ^ 2) / 2) by (pose proof (pow2_ge_0 (s - e * r)) as Q; replace ((s - e * r) ^ 2) with (s ^ 2 - 2 * (s * (e * r)) + (e * r) ^ 2) in Q by ring; lra).
  assert (Z : (e * r) ^ 2 <= / 100 * (e * r ^ 2)). { replace ((e * r) ^ 2) with (e * (e * r ^ 2)) by ring. apply Rmult_le_compat_r; [apply Rmult_le_pos; [lra|apply pow2_ge_0]|lra]. }
  assert (EL : e * l <= / 100 * l) by (apply Rmult_le_compat_r; lra). replace (s * (e * r + s)) with (s * (e * r) + s ^ 2) in C2 by ring. replace (e * (e * r ^ 2 + l)) with ((e * r) ^ 2 + e * l) in C1 by ring. assert (0 <= e * r ^ 2) by (apply Rmult_le_pos; [lra|apply pow2_ge_0]). lra.
Qed.
Lemma max_drift x r B : 0 <= x -> 0 <= r -> Rabs (x ^ 2 - r ^ 2) <= B -> Rabs (Rmax x (675 / 10000) - Rmax r (675 / 10000)) <= B / (Rmax r (675 / 10000) + 675 / 10000).
Proof.
  intros X R H. set (c := 675 / 10000). assert (C : 0 < c) by (unfold c; lra). assert (G : Rabs (Rmax x c ^ 2 - Rmax r c ^ 2) <= Rabs (x ^ 2 - r ^ 2)).
  { assert (SQ : forall a, 0 <= a -> Rmax a c ^ 2 = Rmax (a ^ 2) (c ^ 2)). { intros a A. unfold Rmax at 1. destruct (Rle_dec a c) as [L|L]; [rewrite Rmax_right|rewrite Rmax_left]; auto; rewrite <- !Rsqr_pow2; apply Rsqr_incr_1; lra. } rewrite !SQ by assumption. apply max_move. }
  pose proof (Rmax_r x c) as XC. pose proof (Rmax_r r c) as RC. set (u := Rmax x c) in *. set (v := Rmax r c) in *. apply Rmult_le_reg_r with (v + c); [lra|]. unfold Rdiv. rewrite Rmult_assoc, Rinv_l, Rmult_1_r by lra.
  apply Rle_trans with (Rabs (u - v) * (u + v)); [apply Rmult_le_compat_l; [apply Rabs_pos|lra]|]. rewrite <- (Rabs_pos_eq (u + v)) by lra. rewrite <- Rabs_mult. replace ((u - v) * (u + v)) with (u ^ 2 - v ^ 2) by ring. lra.
Qed.
Lemma cbrt_sub x y : 0 <= x -> 0 <= y -> rpow (x + y) (1 / 3) <= rpow x (1 / 3) + rpow y (1 / 3).
Proof.
  intros X Y. destruct (Rle_lt_or_eq_dec 0 x X) as [P|Z]; [|subst x; rewrite rpow_0, !Rplus_0_l; lra]. destruct (Rle_lt_or_eq_dec 0 y Y) as [Q|Z]; [|subst y; rewrite rpow_0, !Rplus_0_r; lra].
  rewrite !rpow_pos by lra. pose proof (norm_step 3 0 x (Rpower y (1 / 3)) ltac:(lra) ltac:(lra) ltac:(left; apply Rpower_pos) P) as N. rewrite Rplus_0_l, rpow_0, Rplus_0_l in N. rewrite rpow_pos in N by apply Rpower_pos. replace (1 / 3) with (/ 3) in * by lra. rewrite rpow_inv' in N by lra. now rewrite (Rplus_comm x y).
Qed.
Lemma cbrt_mono x y : 0 <= x <= y -> rpow x (1 / 3) <= rpow y (1 / 3).
Proof. intros (X & H). destruct (Rle_lt_or_eq_dec 0 x X) as [P|Z]; [rewrite !rpow_pos by lra; apply Rpower_le_l; lra|subst x; rewrite rpow_0; apply rpow_nn]. Qed.
(** cube roots of close numbers are close *)
Lemma cbrt_near w w' e t : 0 <= w -> 0 <= w' -> 0 <= e <= / 2 -> 0 <= t -> Rabs (w' - w) <= e * w + t -> Rabs (rpow w' (1 / 3) - rpow w (1 / 3)) <= e * rpow w (1 / 3) + rpow t (1 / 3).
Proof.
  intros W W' E T H. apply Rabs_le_inv in H. pose proof (rpow_nn w (1 / 3)) as V.
  assert (UP : rpow w' (1 / 3) <= (1 + e) * rpow w (1 / 3) + rpow t (1 / 3)).
  { apply Rle_trans with (rpow ((1 + e) * w + t) (1 / 3)); [apply cbrt_mono; lra|]. apply Rle_trans with (1 := cbrt_sub ((1 + e) * w) t ltac:(apply Rmult_le_pos; lra) T). apply Rplus_le_compat_r. rewrite rpow_scale by lra. apply Rmult_le_compat_r; [exact V|]. apply cube_root_le; [lra|lra|]. replace ((1 + e) ^ 3) with ((1 + e) + (1 + e) * (2 * e + e * e)) by ring. assert (0 <= (1 + e) * (2 * e + e * e)) by (apply Rmult_le_pos; [lra|]; assert (0 <= e * e) by (apply Rmult_le_pos; lra); lra). lra. }
  assert (LO : (1 - e) * rpow w (1 / 3) <= rpow w' (1 / 3) + rpow t (1 / 3)).
  { apply Rle_trans with (rpow ((1 - e) * w) (1 / 3)); [|apply Rle_trans with (rpow (w' + t) (1 / 3)); [apply cbrt_mono; split; [apply Rmult_le_pos; lra|lra]|now apply cbrt_sub]]. rewrite rpow_scale by lra. apply Rmult_le_compat_r; [exact V|]. apply cube_root_ge; [lra|lra|]. assert (0 <= 1 - e <= 1) by lra. assert ((1 - e) * (1 - e) <= 1) by (rewrite <- (Rmult_1_r 1); apply Rmult_le_compat; lra). replace ((1 - e) ^ 3) with ((1 - e) * ((1 - e) * (1 - e))) by ring. rewrite <- (Rmult_1_r (1 - e)) at 4. apply Rmult_le_compat_l; lra. }
  apply Rabs_le. lra.
Qed.
Lemma flash_share aim speed fl : 2276 / 100000 * flash_unit fl <= 102 / 100 * total_stars aim speed fl.
Proof.
  rewrite total_norm. destruct factors as (C & Q). set (c := cube_root (112 / 100)) in *. set (q := Rpower 2 (- (10 / 33))) in *. pose proof (rpow_nn (100000 * flash_base fl) (1 / 3)) as V. fold (flash_unit fl) in V.
  assert (N : flash_unit fl <= joint_norm (unit_of aim) (unit_of speed) (flash_unit fl)).
  { unfold joint_norm. destruct (Rle_lt_or_eq_dec 0 _ V) as [P|Z]; [|rewrite <- Z; left; apply Rpower_pos]. pose proof (unit_ge aim). pose proof (unit_ge speed). rewrite <- (rpow_inv (flash_unit fl) (33 / 10)) at 1 by lra. rewrite (rpow_pos (flash_unit fl)) by exact P. pose proof (rpow_nn (unit_of aim) (33 / 10)). pose proof (rpow_nn (unit_of speed) (33 / 10)). apply Rpower_le_l; [split; [apply Rpower_pos|lra]|lra]. }
  set (n := joint_norm _ _ _) in *. assert (CQ : 2242 / 100000 <= c * (27 / 1000) * q). { apply Rle_trans with (1038 / 1000 * (27 / 1000) * (8 / 10)); [lra|]. apply Rmult_le_compat; lra. }
  assert (X : 2242 / 100000 * flash_unit fl <= c * (27 / 1000) * q * n) by (apply Rmult_le_compat; lra). assert (0 <= c * (27 / 1000) * 4) by lra. replace (c * (27 / 1000) * (q * n + 4)) with (c * (27 / 1000) * q * n + c * (27 / 1000) * 4) by ring. lra.
Qed.
Section WithLibm.
Context {M : libm}.
Lemma slack_in k d dos : plain d dos -> 0 <= rel_slack k dos <= / 500 /\ 0 <= small_slack k dos <= 8 /\ 0 <= large_slack k dos /\ small_slack k dos ^ 2 <= 2 * large_slack k dos.
Proof.
  intros PL. pose proof (RatingFormula.max_load_in d dos PL k) as ML. pose proof (pl_few d dos PL) as FW. apply IZR_le in FW. rewrite <- INR_IZR_INZ in FW. pose proof (pos_INR (length dos)) as NN.
  assert (SQ : sqrt (max_load k dos) ^ 2 = max_load k dos) by (rewrite <- Rsqr_pow2; apply Rsqr_sqrt; lra). assert (SL : 0 <= sqrt (max_load k dos) <= 1024). { split; [apply sqrt_pos|]. apply Rsqr_incr_0_var; [rewrite Rsqr_sqrt by lra; unfold Rsqr; lra|lra]. }
  split; [unfold rel_slack; destruct k; change (bpow radix2 (-10)) with (/ 1024); change (bpow radix2 (-25)) with (/ 33554432); change (bpow radix2 (-37)) with (/ 137438953472); lra|].
  assert (P7 : 0 < bpow radix2 (-390) <= 1) by (split; [apply bpow_gt_0|apply (bpow_le radix2 _ 0); lia]). assert (P8 : bpow radix2 (-780) = bpow radix2 (-390) ^ 2) by (rewrite <- Rsqr_pow2; unfold Rsqr; rewrite <- bpow_plus; reflexivity). pose proof (bpow_gt_0 radix2 (-780)).
  unfold small_slack, large_slack. destruct k; change (bpow radix2 (-10)) with (/ 1024); change (bpow radix2 (-8)) with (/ 256); change (bpow radix2 (-20)) with (/ 1048576); change (bpow radix2 (-17)) with (/ 131072); rewrite ?Rpow_mult_distr, ?SQ; repeat split; try lra.
Qed.
(** the rating of one skill, seen through the star formula *)
Lemma one_drift k d dos (x : f64) : plain d dos -> let r := map_stars k d dos in 0 <= B2R x -> 0 <= r ->
  Rabs (B2R x - r) <= rel_slack k dos * r + small_slack k dos -> r * Rabs (B2R x - r) <= rel_slack k dos * r ^ 2 + large_slack k dos ->
  Rabs (B2R x ^ 2 - r ^ 2) <= 21 / 10 * rel_slack k dos * r ^ 2 + 6 * large_slack k dos.
Proof.
  intros PL r X R D1 D2. destruct (slack_in k d dos PL) as (E & S & L & SL). assert (Q := squares (B2R x) r (rel_slack k dos) (small_slack k dos) (large_slack k dos) X R ltac:(lra) ltac:(lra) L D1 D2).
  pose proof (pow2_ge_0 r). assert (0 <= rel_slack k dos * r ^ 2) by (apply Rmult_le_pos; lra). lra.
Qed.
Context (PR : pow_ranges) (TR : trig_ranges) (PC : pow_close) (LC : log_close) (SM : skill_maths).
Lemma one_skill k d dos peaks : plain d dos -> peaks_of k d dos peaks -> let x := fmul (fsqrt (difficulty_value_of k peaks)) (fq 675 10000) in let r := map_stars k d dos in
  within 0 (bpow radix2 60) x /\ 0 <= r /\ Rabs (B2R x ^ 2 - r ^ 2) <= 21 / 10 * rel_slack k dos * r ^ 2 + 6 * large_slack k dos.
Proof.
  intros PL P x r. destruct (C89_stars PR TR PC LC SM d dos k peaks PL P) as (F & R0 & D1 & D2). fold x in F, D1, D2. fold r in R0, D1, D2. destruct (RatingFormula.stars_close PR TR PC LC SM d dos PL k peaks P) as (_ & X0 & _). fold x in X0.
  pose proof (RatingFormula.stars_upper PR TR PC LC SM d dos PL k peaks P) as U. fold r in U. destruct (slack_in k d dos PL) as (E & S & _ & _). split; [|split; [exact R0|exact (one_drift k d dos x PL X0 R0 D1 D2)]]. split; [exact F|]. split; [exact X0|]. apply Rabs_le_inv in D1. assert (rel_slack k dos * r <= / 500 * r) by (apply Rmult_le_compat_r; lra). change (bpow radix2 60) with 1152921504606846976. change (bpow radix2 58) with 288230376151711744 in U. lra.
Qed.
(** C90 for whole maps: the star rating CalculateSingle returns, against the formulas in real numbers. *)
Theorem C90_map : cbrt_close -> forall fuel objs d dos a, create_difficulty_objects objs d = Ok dos -> plain d dos -> Forall time_ok (clock_times objs d) ->
  calculate_single fuel objs d = Ok a -> (mactive (d_Mods d) Flashlight = true -> flash_ok (at_Flashlight a)) ->
  let rx := mactive (d_Mods d) Relax in let fl := mactive (d_Mods d) Flashlight in
  let T := total_stars (map_stars (Aim true) d dos) (if rx then 0 else map_stars Speed d dos) (flash_of d (map_stars Flash d dos)) in
  let off k := drift (rel_slack k dos) (large_slack k dos) (map_stars k d dos) in
  is_finite (at_Total a) = true /\
  Rabs (B2R (at_Total a) - T) <= (bpow radix2 (-31) + if fl then 22 / 10 * rel_slack Flash dos else 0) * T + 17 / 10 * (off (Aim true) + if rx then 0 else off Speed) + bpow radix2 (-200).
Proof.
  intros CC fuel objs d dos a C PL T H FO rx fl. cbv zeta. destruct (C66_ratings fuel objs d dos a C T H) as (A & N & S & PA & PN & PS & EA & _ & ES & EF).
  destruct (one_skill (Aim true) d dos A PL PA) as (WA & RA & DA). rewrite <- EA in WA, DA. set (ra := map_stars (Aim true) d dos) in *.
  assert (SP : within 0 (bpow radix2 60) (at_Speed a) /\ Rabs (Rmax (B2R (at_Speed a)) (675 / 10000) - Rmax (if rx then 0 else map_stars Speed d dos) (675 / 10000)) <= if rx then 0 else drift (rel_slack Speed dos) (large_slack Speed dos) (map_stars Speed d dos)).
  { destruct (one_skill Speed d dos S PL PS) as (WS & RS & DS). unfold rx in *. destruct (mactive (d_Mods d) Relax) eqn:RX.
    - rewrite (C45_relax fuel objs d a H RX). split; [split; [reflexivity|]; change (B2R f0) with 0; split; [lra|apply bpow_ge_0]|]. change (B2R f0) with 0. rewrite Rminus_diag_eq, Rabs_R0 by reflexivity. lra.
    - rewrite <- (ES eq_refl) in WS, DS. split; [exact WS|]. unfold drift. apply max_drift; [apply WS|exact RS|exact DS]. }
  destruct SP as (WS & DS). set (rs := if rx then 0 else map_stars Speed d dos) in *. assert (DA' := max_drift (B2R (at_Aim a)) ra _ (proj1 (proj2 WA)) RA DA). fold (drift (rel_slack (Aim true) dos) (large_slack (Aim true) dos) ra) in DA'.
  destruct (C90_total PC CC fuel objs d a H WA WS FO) as (TF & TB & _). set (fa := flash_of d (B2R (at_Flashlight a))) in *. set (fr := flash_of d (map_stars Flash d dos)).
  assert (FU : Rabs (flash_unit fa - flash_unit fr) <= (if fl then 21 / 10 * rel_slack Flash dos else 0) * flash_unit fr + bpow radix2 (-220)).
  { pose proof (bpow_ge_0 radix2 (-220)) as B0. unfold fa, fr, flash_of, fl in *. destruct (mactive (d_Mods d) Flashlight) eqn:FL; [|rewrite Rminus_diag_eq, Rabs_R0 by reflexivity; lra].
    destruct (EF eq_refl) as (F & PF & EQ). destruct (one_skill Flash d dos F PL PF) as (WF & RF & DF). rewrite <- EQ in WF, DF. set (f := map_stars Flash d dos) in *. destruct (slack_in Flash d dos PL) as (E1 & _ & E3 & _). unfold flash_unit. cbn [flash_base].
    assert (W0 : 0 <= 100000 * (f ^ 2 * 25)) by (pose proof (pow2_ge_0 f); lra). assert (W1 : 0 <= 100000 * (B2R (at_Flashlight a) ^ 2 * 25)) by (pose proof (pow2_ge_0 (B2R (at_Flashlight a))); lra).
    set (t := 15000000 * large_slack Flash dos). assert (T0 : 0 <= t) by (unfold t; lra).
    assert (Q := cbrt_near _ _ (21 / 10 * rel_slack Flash dos) t W0 W1 ltac:(lra) T0). apply Rle_trans with (1 := Q ltac:(apply Rabs_le; apply Rabs_le_inv in DF; unfold t; lra)). apply Rplus_le_compat_l.
    assert (TT : t <= bpow radix2 (-660)). { unfold t, large_slack. change (-660)%Z with (120 + -780)%Z. rewrite bpow_plus. change (bpow radix2 120) with 1329227995784915872903807060280344576. pose proof (bpow_gt_0 radix2 (-780)). lra. }
    apply Rle_trans with (1 := cbrt_mono t _ (conj T0 TT)). rewrite rpow_pos by apply bpow_gt_0. apply cube_root_le; [apply bpow_gt_0|apply bpow_gt_0|]. right. cbn [pow]. rewrite Rmult_1_r, <- !bpow_plus. reflexivity. }
  pose proof (total_move ra rs fr (B2R (at_Aim a)) (B2R (at_Speed a)) fa) as MV. pose proof (flash_share ra rs fr) as FS. pose proof (unit_move ra (B2R (at_Aim a))) as UA. pose proof (unit_move rs (B2R (at_Speed a))) as US. fold rx in DS.
  set (T' := total_stars (B2R (at_Aim a)) (B2R (at_Speed a)) fa) in *. set (T0 := total_stars ra rs fr) in *. set (oa := drift _ _ ra) in *. set (os := if rx then 0 else drift _ _ _) in *. assert (TP : 1401 / 10000 <= T0) by apply total_stars_ge.
  split; [exact TF|]. destruct (slack_in Flash d dos PL) as (E1 & _). set (ef := if fl then 21 / 10 * rel_slack Flash dos else 0) in *. assert (EF1 : 0 <= ef <= / 200) by (unfold ef; destruct fl; lra). set (fu := flash_unit fr) in *.
  assert (EFU : ef * (2276 / 100000 * fu) <= ef * (102 / 100 * T0)) by (apply Rmult_le_compat_l; lra). pose proof (bpow_gt_0 radix2 (-220)) as B0.
  assert (MV' : Rabs (T' - T0) <= 1687 / 1000 * (oa + os) + 102 / 100 * ef * T0 + bpow radix2 (-220)). { assert (0 <= oa) by (pose proof (Rabs_pos (Rmax (B2R (at_Aim a)) (675 / 10000) - Rmax ra (675 / 10000))); lra). assert (0 <= os) by (pose proof (Rabs_pos (Rmax (B2R (at_Speed a)) (675 / 10000) - Rmax rs (675 / 10000))); lra). lra. }
  assert (B32 : bpow radix2 (-32) = / 4294967296) by reflexivity. assert (B31 : bpow radix2 (-31) = / 2147483648) by reflexivity. rewrite B32 in TB. rewrite B31. assert (B2 : 2 * bpow radix2 (-220) <= bpow radix2 (-200)) by (change 2 with (bpow radix2 1); rewrite <- bpow_plus; apply bpow_le; lia).
  assert (0 <= oa + os) by (pose proof (Rabs_pos (Rmax (B2R (at_Aim a)) (675 / 10000) - Rmax ra (675 / 10000))); pose proof (Rabs_pos (Rmax (B2R (at_Speed a)) (675 / 10000) - Rmax rs (675 / 10000))); lra).
  assert (G : (if fl then 22 / 10 * rel_slack Flash dos else 0) * T0 >= 104 / 100 * ef * T0) by (apply Rle_ge, Rmult_le_compat_r; [lra|]; unfold ef; destruct fl; lra).
  assert (EFT : 0 <= ef * T0) by (apply Rmult_le_pos; lra). apply Rabs_le_inv in TB. apply Rabs_le_inv in MV'. assert (TT : T' <= 2 * T0 + 1687 / 1000 * (oa + os) + 1). { assert (ef * T0 <= / 200 * T0) by (apply Rmult_le_compat_r; lra). assert (bpow radix2 (-220) <= 1) by (apply (bpow_le radix2 _ 0); lia). lra. }
  rewrite Rmult_plus_distr_r. apply Rabs_le. lra.
Qed.
(** The slider factor is the ratio of the aim ratings without and with sliders,
    or 1 if there is no aim to speak of. *)
Theorem C90_factor : forall fuel objs d dos a, create_difficulty_objects objs d = Ok dos -> plain d dos -> Forall time_ok (clock_times objs d) ->
  calculate_single fuel objs d = Ok a ->
  let r := map_stars (Aim true) d dos in let n := map_stars (Aim false) d dos in let q := B2R (at_SliderFactor a) in
  is_finite (at_SliderFactor a) = true /\
  (99999 / 10000000000 <= B2R (at_Aim a) /\ 0 <= q /\ Rabs (q * r - n) <= rel_slack (Aim true) dos * (q * r + n) + small_slack (Aim true) dos * (q + 1) + (r + n) / 100000000000 + / 10000000000 \/
   B2R (at_Aim a) <= 100001 / 10000000000 /\ q = 1).
Proof.
  intros fuel objs d dos a C PL T H r n q. destruct (C66_ratings fuel objs d dos a C T H) as (A & N & S & PA & PN & PS & EA & EQ & _).
  destruct (C89_stars PR TR PC LC SM d dos (Aim true) A PL PA) as (FA & R0 & DA & _). destruct (C89_stars PR TR PC LC SM d dos (Aim false) N PL PN) as (FN & N0 & DN & _). destruct (slack_in (Aim true) d dos PL) as (E & SB & _). destruct (one_skill (Aim true) d dos A PL PA) as (WA & _). destruct (one_skill (Aim false) d dos N PL PN) as (WN & _).
  change (rel_slack (Aim false) dos) with (rel_slack (Aim true) dos) in DN. change (small_slack (Aim false) dos) with (small_slack (Aim true) dos) in DN. unfold q. rewrite EQ, EA in *. clear q. set (x := fmul (fsqrt (difficulty_value_of (Aim true) A)) _) in *. set (y := fmul (fsqrt (difficulty_value_of (Aim false) N)) _) in *. fold r in R0, DA. fold n in N0, DN. set (e := rel_slack (Aim true) dos) in *. set (s := small_slack (Aim true) dos) in *.
  assert (K : 99999 / 10000000000 <= B2R (fq 1 100000) <= 100001 / 10000000000) by (bval (fq 1 100000); match goal with V : B2R (fq 1 100000) = _ |- _ => rewrite V end; lra). assert (KF : fin (fq 1 100000)) by (vm_compute; reflexivity).
  destruct (fgt x (fq 1 100000)) eqn:G.
  2: { destruct (fq1_exact 1) as (F1 & E1); [lia|]. split; [exact F1|]. right. split; [|exact E1]. destruct (Rle_lt_dec (B2R x) (B2R (fq 1 100000))) as [L|L]; [lra|]. exfalso. assert (fgt x (fq 1 100000) = true) by (unfold fgt; apply flt_fin; assumption). congruence. }
  assert (GX : B2R (fq 1 100000) < B2R x) by (apply flt_fin; [exact KF|exact FA|exact G]). destruct WA as (_ & _ & XU). destruct WN as (_ & Y0 & YU). set (z := B2R y / B2R x).
  assert (Z0 : 0 <= z) by (unfold z; apply Rmult_le_pos; [lra|left; apply Rinv_0_lt_compat; lra]). assert (ZU : z <= bpow radix2 200). { unfold z. apply Rmult_le_reg_r with (B2R x); [lra|]. replace (B2R y / B2R x * B2R x) with (B2R y) by (field; lra). apply Rle_trans with (1 := YU). apply Rle_trans with (bpow radix2 80 * (99999 / 10000000000)); [repeat pw; lra|]. apply Rmult_le_compat; [apply bpow_ge_0|lra|apply bpow_le; lia|lra]. }
  destruct (fdiv_fin y x FN FA) as (DF & DE); [lra|fold z; rewrite Rabs_pos_eq by lra; apply Rle_trans with (1 := ZU), bpow_le; lia|]. fold z in DE. split; [exact DF|]. left. split; [lra|]. set (q := B2R (fdiv y x)) in *. assert (Q0 : 0 <= q) by (rewrite DE; now apply rnd64_pos). split; [exact Q0|].
  pose proof (err64 z ltac:(rewrite Rabs_pos_eq by lra; exact ZU)) as ER. rewrite <- DE, (Rabs_pos_eq z) in ER by lra. apply Rabs_le_inv in ER, DA, DN. assert (ZX : z * B2R x = B2R y) by (unfold z; field; lra).
  assert (ERX : - (B2R y * / 9007199254740992 + / 1000000000000 * B2R x) <= q * B2R x - B2R y <= B2R y * / 9007199254740992 + / 1000000000000 * B2R x).
  { rewrite <- ZX. replace (q * B2R x - z * B2R x) with ((q - z) * B2R x) by ring. replace (z * B2R x * / 9007199254740992 + / 1000000000000 * B2R x) with ((z * / 9007199254740992 + / 1000000000000) * B2R x) by ring. rewrite Ropp_mult_distr_l. split; apply Rmult_le_compat_r; lra. }
  assert (QR : - (q * (e * r + s)) <= q * (B2R x - r) <= q * (e * r + s)) by (rewrite Ropp_mult_distr_r; split; apply Rmult_le_compat_l; lra). assert (er : e * r <= / 500 * r) by (apply Rmult_le_compat_r; lra). assert (en : e * n <= / 500 * n) by (apply Rmult_le_compat_r; lra).
  replace (e * (q * r + n) + s * (q + 1)) with (q * (e * r + s) + (e * n + s)) by ring. replace (q * r - n) with (q * B2R x - B2R y + (B2R y - n) - q * (B2R x - r)) by ring. apply Rabs_le. lra.
Qed.
End WithLibm.

(** ** Concrete cases *)
Lemma exact_cbrt : @cbrt_close exact_libm.
Proof.
  intros x F (L & U). cbn [mcbrt exact_libm]. assert (P : 0 < B2R x) by (pose proof (bpow_gt_0 radix2 (-300)); lra). rewrite (Rabs_pos_eq (B2R x)) by lra. rewrite rpow_pos by exact P. fold (cube_root (B2R x)). set (v := cube_root (B2R x)).
  assert (V : bpow radix2 (-100) <= v <= bpow radix2 100). { apply (Rpower_sz 300 100); [exact P|right; split; [exact L|exact U]|lia|]. rewrite Rabs_pos_eq by lra. lra. } pose proof (bpow_gt_0 radix2 (-100)) as B.
  destruct (of_R_ok v) as (F' & E). { rewrite Rabs_pos_eq by lra. apply Rle_trans with (1 := proj2 V), bpow_le. lia. } split; [exact F'|]. rewrite E. pose proof (rel64 v) as R. rewrite (Rabs_pos_eq v) in R by lra. apply Rle_trans with (1 := R ltac:(apply Rle_trans with (2 := proj1 V), bpow_le; lia)). apply Rmult_le_compat_l; [lra|exact b53].
Qed.
(** What is assumed of libm can be met together, by the map of C89, which is rated. *)
Example C90_instance : @pow_ranges blend_libm /\ @trig_ranges blend_libm /\ @pow_close blend_libm /\ @log_close blend_libm /\ @skill_maths blend_libm /\ @cbrt_close blend_libm /\
  @create_difficulty_objects blend_libm pattern PropDiff.demo_diff = Ok pattern_dos /\ plain PropDiff.demo_diff pattern_dos /\ Forall time_ok (clock_times pattern PropDiff.demo_diff) /\
  mactive (d_Mods PropDiff.demo_diff) Flashlight = false /\ exists a, @calculate_single blend_libm 5 pattern PropDiff.demo_diff = Ok a.
Proof.
  destruct C89_instance as (B1 & B2 & B3 & B4 & B5 & B6 & B7 & _ & B9 & B10). split; [exact B1|]. split; [exact B2|]. split; [exact B3|]. split; [exact B4|]. split; [exact B5|]. split; [exact exact_cbrt|]. split; [exact B6|]. split; [exact B7|]. split; [exact B9|]. split; [vm_compute; reflexivity|exact B10].
Qed.
(** Ratings of no difficulty at all still give 0.14 stars: sqrt3(1.12) * 0.027 * 5. *)
Example C90_nothing : total_stars 0 0 None = cube_root (112 / 100) * (27 / 1000) * 5 /\ 1401 / 10000 <= total_stars 0 0 None <= 1403 / 10000.
Proof.
  assert (E : total_stars 0 0 None = cube_root (112 / 100) * (27 / 1000) * 5).
  { rewrite total_norm. f_equal. assert (U : unit_of 0 = 1) by (unfold unit_of; rewrite Rmax_left; lra). unfold joint_norm, flash_unit. cbn [flash_base]. rewrite U, Rmult_0_r, !rpow_0, !rpow_pos, Rpower_one by lra. replace (1 + 1 + 0) with 2 by ring. rewrite <- Rpower_plus. replace (- (10 / 33) + / (33 / 10)) with 0 by field. rewrite Rpower_O by lra. ring. }
  split; [exact E|]. rewrite E. destruct factors as (C & _). lra.
Qed.
(** Equal aim and speed of 3 stars make 6.2 stars or so. *)
Example C90_three : 62 / 10 <= total_stars 3 3 None <= 63 / 10.
Proof.
  rewrite total_norm. assert (U : unit_of 3 = 1964 / 9) by (unfold unit_of; rewrite Rmax_right; lra). unfold joint_norm, flash_unit. cbn [flash_base]. rewrite U, Rmult_0_r, !rpow_0, !rpow_pos by lra. rewrite Rplus_0_r. replace (Rpower (1964 / 9) (33 / 10) + Rpower (1964 / 9) (33 / 10)) with (2 * Rpower (1964 / 9) (33 / 10)) by ring.
  rewrite <- Rpower_mult_distr by (try apply Rpower_pos; lra). rewrite rpow_inv by lra. rewrite <- Rmult_assoc, <- Rpower_plus. replace (- (10 / 33) + / (33 / 10)) with 0 by field. rewrite Rpower_O by lra. destruct factors as (C & _). lra.
Qed.

Print Assumptions C90_total. Print Assumptions C90_peaks. Print Assumptions C90_grows. Print Assumptions C90_steady. Print Assumptions C90_map. Print Assumptions C90_factor.

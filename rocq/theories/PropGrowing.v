(** C99: a map's ratings never fall as it goes on. *)
From Coq Require Import Reals Lra Permutation.
From Flocq Require Import Raux Zaux Core BinarySingleNaN.
From Verif Require Import SpecDifficulty DiffCalc SpecDiff SpecPP SpecSane SpecGrowing BaseLemmas FloatLemmas Float32Lemmas KeyLemmas BoundLemmas DifficultyProofs CurveProofs CurveBounds CurveStart DiffProofs PPProofs PPBounds PPChains PPDiff ValueBounds RatingBounds ObjectBounds PathBounds PropDifficulty PropPP PropDiff PropStrain PropRatings GrowingProofs.
Import ListNotations.
Open Scope Z_scope.
Notation within := SpecPP.within.

Section WithLibm.
Context {M : libm}.
(** C99.  A list of strain peaks that has a peak at least as large for each
    peak of another one, in any order, has at least its difficulty value. *)
Theorem C99_value : forall k l l', log_unit -> Forall (within 0 (bpow radix2 800)) l -> Forall (within 0 (bpow radix2 800)) l' -> zlen l' <= 2 ^ 37 ->
  exceeds l' l -> fle (difficulty_value_of k l) (difficulty_value_of k l') = true.
Proof.
  intros k l l' LU B B' N (m & rest & P & F).
  assert (W : forall x, Forall (within 0 (bpow radix2 800)) x -> Forall (bd 800) x) by (intros x; apply Forall_impl; intros y Y; apply bd_iff; exact Y). apply W in B. apply W in B'. clear W.
  apply (le2_fle (800 + 38)). apply value_raise; auto; [lia|]. intros c. rewrite (cnt_perm c _ _ P), cnt_app. pose proof (Permutation_Forall P B') as BM. apply Forall_app in BM as (BM & _).
  assert (F' : Forall2 below l m). { clear - F B BM. induction F as [|x y l m H _ IH]; constructor; inversion B; inversion BM; subst; [|auto]. apply fle_below; auto; now apply (bd_fin 800). }
  pose proof (cnt_below c _ _ F'). lia.
Qed.

Section Runs.
Context (PR : pow_ranges) (TR : trig_ranges) (LU : log_unit) (d : difficulty) (D : clocked d) (objs : list hobj) (T : Forall (tidy 32 d) objs) (O : in_order objs) (N : zlen objs <= 2 ^ 31) (dos : list dobj) (C : create_difficulty_objects objs d = Ok dos).
Lemma prefix_ok i : Forall (tidy 32 d) (firstn i objs) /\ in_order (firstn i objs) /\ zlen (firstn i objs) <= 2 ^ 31.
Proof.
  split; [|split; [now apply order_firstn|unfold zlen in *; rewrite firstn_length; lia]]. rewrite Forall_forall in *. intros x X. apply T. rewrite <- (firstn_skipn i objs). apply in_or_app. now left.
Qed.
Lemma skill_fine fuel k i s : foldM (process fuel k d) skill0 (firstn i dos) = Ok s -> Forall (bd 212) (current_peaks s) /\ (Z.of_nat (length (current_peaks s)) <= 2 ^ 37)%Z.
Proof.
  intros H. destruct (prefix_ok (S i)) as (T' & O' & N'). pose proof (create_firstn _ _ _ i C) as C'. destruct (create_sane PR 32 ltac:(lia) d D _ _ T' O' C') as (S & NR & CH). change (32 + 40) with 72 in *.
  pose proof (create_length _ _ _ C') as CL. unfold zlen in N'.
  assert (R : st_ok 72 (firstn i dos) (0 + Z.of_nat (length (firstn i dos))) s). { apply (run_ok PR TR 72 ltac:(lia) d D (firstn i dos) S NR fuel k (firstn i dos) 0 skill0); auto; [intros x I; exact I|intros o r p r' _ X; discriminate X|lia|lia|cbn; lia|apply st_0]. }
  apply peaks_bd in R; [exact R|lia].
Qed.
Lemma skill_goes fuel k i j s s' : (i <= j)%nat -> foldM (process fuel k d) skill0 (firstn i dos) = Ok s -> foldM (process fuel k d) skill0 (firstn j dos) = Ok s' -> goes_on (current_peaks s) (current_peaks s').
Proof.
  intros L H H'. apply (run_goes fuel k d 212 skill0 dos (fun i s X => proj1 (skill_fine fuel k i s X)) (j - i) i s s' H). replace (j - i + i)%nat with j by lia. exact H'.
Qed.
Lemma skill_value fuel k i j s s' : (i <= j)%nat -> foldM (process fuel k d) skill0 (firstn i dos) = Ok s -> foldM (process fuel k d) skill0 (firstn j dos) = Ok s' -> le2 (2 * 125) (difficulty_value k s) (difficulty_value k s').
Proof.
  intros L H H'. destruct (skill_fine _ _ _ _ H) as (B & _). destruct (skill_fine _ _ _ _ H') as (B' & LL). pose proof (skill_goes fuel k i j s s' L H H') as G.
  change (2 * 125) with (212 + 38). apply value_raise; auto; [lia|]. apply raised_more. now apply (goes_raised 212).
Qed.
Lemma folds_value fuel i j s s' : (i <= j)%nat -> foldM (process_all fuel d) (new_skills d) (firstn i dos) = Ok s -> foldM (process_all fuel d) (new_skills d) (firstn j dos) = Ok s' ->
  le2 (2 * 125) (difficulty_value (Aim true) (cs_aim s)) (difficulty_value (Aim true) (cs_aim s')) /\ le2 (2 * 125) (difficulty_value Speed (cs_speed s)) (difficulty_value Speed (cs_speed s')) /\
  le2 (2 * 125) (match cs_flash s with Some f => difficulty_value Flash f | None => f0 end) (match cs_flash s' with Some f => difficulty_value Flash f | None => f0 end).
Proof.
  intros L H H'. destruct (split_folds _ _ _ _ _ H) as (A & _ & S & F). destruct (split_folds _ _ _ _ _ H') as (A' & _ & S' & F'). cbn [new_skills cs_aim cs_aimNS cs_speed cs_flash] in *.
  split; [exact (skill_value _ _ _ _ _ _ L A A')|]. split; [exact (skill_value _ _ _ _ _ _ L S S')|]. destruct (check_mod d Flashlight); destruct (cs_flash s), (cs_flash s'); try contradiction; [exact (skill_value _ _ _ _ _ _ L F F')|apply le2_0].
Qed.
Lemma folds_goes fuel i j s s' : (i <= j)%nat -> foldM (process_all fuel d) (new_skills d) (firstn i dos) = Ok s -> foldM (process_all fuel d) (new_skills d) (firstn j dos) = Ok s' ->
  goes_on (current_peaks (cs_aim s)) (current_peaks (cs_aim s')) /\ goes_on (current_peaks (cs_speed s)) (current_peaks (cs_speed s')) /\
  goes_on (match option_map current_peaks (cs_flash s) with Some l => l | None => [] end) (match option_map current_peaks (cs_flash s') with Some l => l | None => [] end).
Proof.
  intros L H H'. destruct (split_folds _ _ _ _ _ H) as (A & _ & S & F). destruct (split_folds _ _ _ _ _ H') as (A' & _ & S' & F'). cbn [new_skills cs_aim cs_aimNS cs_speed cs_flash] in *.
  split; [exact (skill_goes _ _ _ _ _ _ L A A')|]. split; [exact (skill_goes _ _ _ _ _ _ L S S')|]. destruct (check_mod d Flashlight); destruct (cs_flash s), (cs_flash s'); try contradiction; [exact (skill_goes _ _ _ _ _ _ L F F')|left; reflexivity].
Qed.
End Runs.
(** the stars of a prefix *)
Lemma prefix_stars fuel objs d dos i a : create_difficulty_objects objs d = Ok dos -> (0 < length objs)%nat -> calculate_single fuel (firstn (S i) objs) d = Ok a ->
  exists s a0, foldM (process_all fuel d) (new_skills d) (firstn i dos) = Ok s /\ a = get_stars s d a0.
Proof.
  intros C L H. pose proof (create_firstn _ _ _ i C) as C'. destruct objs as [|o r]; [cbn in L; lia|]. cbn [firstn] in *. unfold calculate_single in H. rewrite (single_full_eq fuel o (firstn i r) d _ C') in H. unfold rmap in H. apply bind_ok in H as (x & H & E). apply Ok_inj in E. subst a.
  apply bind_ok in H as (s & F & H). apply Ok_inj in H. subst x. cbn [fst]. eauto.
Qed.

(** The entries of CalculateStep never fall: for objects within 2^32 px and
    2^38 ms, in order of time, each of aim, speed and flashlight rating is at
    least what it was at any earlier object ... *)
Theorem C99_step : forall fuel objs d l, pow_ranges -> trig_ranges -> log_unit -> clocked d ->
  Forall (tidy 32 d) objs -> in_order objs -> zlen objs <= 2 ^ 31 -> calculate_step fuel objs d = Ok l ->
  forall i j a b, (i <= j)%nat -> nth_error l i = Some a -> nth_error l j = Some b ->
  fle (at_Aim a) (at_Aim b) = true /\ fle (at_Speed a) (at_Speed b) = true /\ fle (at_Flashlight a) (at_Flashlight b) = true.
Proof.
  intros fuel objs d l PR TR LU D T O N H i j a b L I J. pose proof (C67_step fuel objs d l PR TR LU D T O N H) as RT. destruct (C38_entries fuel objs d l H) as (_ & E & (o & r & a0 & EO & E0 & Z0 & _)).
  destruct i as [|i].
  - rewrite E0 in I. injection I as <-. destruct Z0 as (_ & Z1 & _ & Z2 & Z3). rewrite Forall_forall in RT. apply nth_error_In in J. destruct (RT b J) as (R1 & R2 & R3 & _). clear RT.
    assert (Q : forall x k, within 0 (bpow radix2 k) x -> fle f0 x = true). { intros x k (F & B). apply (le2_fle k). split; [reflexivity|]. split; [exact F|]. change (B2R f0) with 0%R. lra. }
    rewrite Z1, Z2, Z3. split; [exact (Q _ _ R1)|]. split; [exact (Q _ _ R2)|exact (Q _ _ R3)].
  - destruct j as [|j]; [lia|]. apply E in I; [|lia]. apply E in J; [|lia]. clear RT E E0 Z0.
    destruct (create_difficulty_objects objs d) as [dos| |] eqn:C; [|unfold calculate_step, calculate_step_full in H; rewrite C in H; discriminate H|unfold calculate_step, calculate_step_full in H; rewrite C in H; discriminate H].
    assert (NE : (0 < length objs)%nat) by (rewrite EO; cbn; lia).
    apply (prefix_stars fuel objs d dos (S i) a C NE) in I as (s & x & F & ->). apply (prefix_stars fuel objs d dos (S j) b C NE) in J as (s' & x' & F' & ->).
    destruct (folds_value PR TR LU d D objs T O N dos C fuel (S i) (S j) s s' L F F') as (V1 & V2 & V3). unfold get_stars.
    destruct (stars_le d 125 _ _ (difficulty_value (Aim false) (cs_aimNS s)) (difficulty_value (Aim false) (cs_aimNS s')) _ _ _ _ x x' ltac:(lia) V1 V2 V3) as (R1 & R2 & R3).
    split; [exact (le2_fle _ _ _ R1)|]. split; [exact (le2_fle _ _ _ R2)|exact (le2_fle _ _ _ R3)].
Qed.
(** ... and, if pow and cbrt preserve the order, so is the star rating. *)
Theorem C99_total : forall fuel objs d l, pow_ranges -> trig_ranges -> log_unit -> pow_orders -> cbrt_order -> clocked d ->
  Forall (tidy 32 d) objs -> in_order objs -> zlen objs <= 2 ^ 31 -> calculate_step fuel objs d = Ok l ->
  forall i j a b, (i <= j)%nat -> nth_error l i = Some a -> nth_error l j = Some b -> fle (at_Total a) (at_Total b) = true.
Proof.
  intros fuel objs d l PR TR LU PO CO D T O N H i j a b L I J. pose proof (C67_step fuel objs d l PR TR LU D T O N H) as RT. destruct (C38_entries fuel objs d l H) as (_ & E & (o & r & a0 & EO & E0 & Z0 & _)).
  destruct i as [|i].
  - rewrite E0 in I. injection I as <-. destruct Z0 as (Z1 & _). rewrite Forall_forall in RT. apply nth_error_In in J. destruct (RT b J) as (_ & _ & _ & _ & (F & B)). clear RT.
    rewrite Z1. apply (le2_fle 850). split; [reflexivity|]. split; [exact F|]. change (B2R f0) with 0%R. lra.
  - destruct j as [|j]; [lia|]. apply E in I; [|lia]. apply E in J; [|lia]. clear RT E E0 Z0.
    destruct (create_difficulty_objects objs d) as [dos| |] eqn:C; [|unfold calculate_step, calculate_step_full in H; rewrite C in H; discriminate H|unfold calculate_step, calculate_step_full in H; rewrite C in H; discriminate H].
    assert (NE : (0 < length objs)%nat) by (rewrite EO; cbn; lia).
    apply (prefix_stars fuel objs d dos (S i) a C NE) in I as (s & x & F & ->). apply (prefix_stars fuel objs d dos (S j) b C NE) in J as (s' & x' & F' & ->).
    destruct (folds_value PR TR LU d D objs T O N dos C fuel (S i) (S j) s s' L F F') as (V1 & V2 & V3). unfold get_stars.
    apply (le2_fle 850). apply (total_le PR PO TR CO d 125); auto; lia.
Qed.
(** CalculateStrainPeaks of a beginning of a map gives the same peaks as of
    the map, but for the last one, which is no larger. *)
Theorem C99_peaks : forall fuel objs d n p p', pow_ranges -> trig_ranges -> log_unit -> clocked d ->
  Forall (tidy 32 d) objs -> in_order objs -> zlen objs <= 2 ^ 31 ->
  calculate_strain_peaks fuel (firstn n objs) d = Ok p -> calculate_strain_peaks fuel objs d = Ok p' ->
  goes_on (pk_Aim p) (pk_Aim p') /\ goes_on (pk_Speed p) (pk_Speed p') /\ goes_on (pk_Flashlight p) (pk_Flashlight p').
Proof.
  intros fuel objs d n p p' PR TR LU D T O N H H'. destruct (create_difficulty_objects objs d) as [dos| |] eqn:C; [|unfold calculate_strain_peaks in H'; rewrite C in H'; discriminate H'|unfold calculate_strain_peaks in H'; rewrite C in H'; discriminate H'].
  rewrite <- (firstn_all2 (n := n + length objs) objs) in H' by lia.
  assert (C0 : forall i, create_difficulty_objects (firstn i objs) d = Ok (firstn (Nat.pred i) dos)) by (intros [|i]; [reflexivity|exact (create_firstn _ _ _ i C)]).
  assert (Q : forall i q, calculate_strain_peaks fuel (firstn i objs) d = Ok q -> exists s, foldM (process_all fuel d) (new_skills d) (firstn (Nat.pred i) dos) = Ok s /\ pk_Aim q = current_peaks (cs_aim s) /\ pk_Speed q = current_peaks (cs_speed s) /\ pk_Flashlight q = match option_map current_peaks (cs_flash s) with Some l => l | None => [] end).
  { intros i q X. pose proof (peaks_eq fuel _ d _ (C0 i)) as PE. destruct (foldM (process_all fuel d) (new_skills d) (firstn (Nat.pred i) dos)) as [s| |] eqn:F; [|rewrite X in PE; discriminate PE|rewrite X in PE; discriminate PE].
    destruct PE as (EP & _ & _). rewrite X in EP. symmetry in EP. unfold get_peaks in EP. cbv zeta in EP. apply bind_ok in EP as (tot & HT & EP). apply Ok_inj in EP. subst q. exists s. auto. }
  destruct (Q _ _ H) as (s & F & -> & -> & ->). destruct (Q _ _ H') as (s' & F' & -> & -> & ->).
  apply (folds_goes PR TR d D objs T O N dos C fuel (Nat.pred n) (Nat.pred (n + length objs))); auto. lia.
Qed.
End WithLibm.

(** ** Concrete cases *)
Lemma calm_orders : @pow_orders calm_libm. Proof. destruct abs_orders as [A B]. split; assumption. Qed.
Lemma calm_cbrt : @cbrt_order calm_libm. Proof. intros x x' _ _ _ _ H. apply H. Qed.
(** The demo of C67: entries in hundredths of aim, speed and stars. *)
Example C99_instance : @pow_ranges calm_libm /\ @trig_ranges calm_libm /\ @log_unit calm_libm /\ @pow_orders calm_libm /\ @cbrt_order calm_libm /\ clocked demo_diff /\
  Forall (@tidy 32 demo_diff) long_demo /\ in_order long_demo /\ zlen long_demo = 6 /\
  option_map (map (fun a => map hundredths [at_Aim a; at_Speed a; at_Total a])) (view (@calculate_step calm_libm 9 long_demo demo_diff)) =
    Some [[0; 0; 0]; [0; 9; 18]; [0; 12; 21]; [0; 13; 23]; [60; 33; 105]; [67; 38; 119]].
Proof.
  split; [exact calm_pow|]. split; [exact calm_trig|]. split; [exact calm_log|]. split; [exact calm_orders|]. split; [exact calm_cbrt|]. split; [unfold demo_diff; rewrite new_built; apply demo_clocked|]. split; [exact demo_tidy|]. split; [exact demo_order|]. split; [reflexivity|]. vm_compute. reflexivity.
Qed.
(** The strain peaks of its first five objects and of all six, in hundredths:
    only the last one of speed rises. *)
Example C99_peaks_instance :
  (option_map (fun p => (map hundredths (pk_Speed p), zlen (pk_Flashlight p))) (view (@calculate_strain_peaks calm_libm 9 (firstn 5 long_demo) demo_diff)),
   option_map (fun p => (map hundredths (pk_Speed p), zlen (pk_Flashlight p))) (view (@calculate_strain_peaks calm_libm 9 long_demo demo_diff))) =
  (Some ([275; 82; 82; 0; 0; 2798], 0), Some ([275; 82; 82; 0; 0; 3895], 0)).
Proof. vm_compute. reflexivity. Qed.
(** A list that has more peaks, in another order, two of them larger. *)
Example C99_value_instance :
  let l := [fq 200 1; fq 300 1] in let l' := [fq 400 1; fq 1 1; fq 250 1] in
  @log_unit calm_libm /\ Forall (within 0 (bpow radix2 800)) l /\ Forall (within 0 (bpow radix2 800)) l' /\ zlen l' <= 2 ^ 37 /\ exceeds l' l /\
  map (fun x => hundredths (@difficulty_value_of calm_libm Speed x)) [l; l'] = [37440; 48813].
Proof.
  cbv zeta. assert (W : forall n, 0 <= n <= 1000 -> within 0 (bpow radix2 800) (fq n 1)). { intros n H. destruct (fq1_exact n) as (F & E); [lia|]. split; [exact F|]. rewrite E. split; [apply (IZR_le 0); lia|]. apply Rle_trans with (bpow radix2 10); [change (bpow radix2 10) with (IZR 1024); apply IZR_le; lia|apply bpow_le; lia]. }
  split; [exact calm_log|]. split; [apply Forall_cons; [apply W; lia|]; apply Forall_cons; [apply W; lia|apply Forall_nil]|]. split; [apply Forall_cons; [apply W; lia|]; apply Forall_cons; [apply W; lia|]; apply Forall_cons; [apply W; lia|apply Forall_nil]|]. split; [unfold zlen; cbn [length]; lia|]. split; [|vm_compute; reflexivity].
  exists [fq 250 1; fq 400 1], [fq 1 1]. split.
  - cbn [app]. apply perm_trans with [fq 400 1; fq 250 1; fq 1 1]; [apply perm_skip, perm_swap|apply perm_swap].
  - apply Forall2_cons; [vm_compute; reflexivity|]. apply Forall2_cons; [vm_compute; reflexivity|]. apply Forall2_nil.
Qed.

Print Assumptions C99_value. Print Assumptions C99_step. Print Assumptions C99_total. Print Assumptions C99_peaks.

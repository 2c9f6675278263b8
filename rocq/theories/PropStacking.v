(** Properties C25-C29: stacking. *)
From Coq Require Import Reals Lra.
From Verif Require Import Stacking SpecMods SpecStacking SpecDifficulty DifficultyProofs FloatLemmas Float32Lemmas
  ModsProofs StackingProofs StackOffsetProofs.
Open Scope Z_scope.

(** Sample objects: kind, start and end time, head and tail. *)
Definition obj (k : kind) (t te x y x' y' : Z) : hobj :=
  {| ho_kind := k; ho_startPos := mkVec (gq x 1) (gq y 1); ho_endPos := mkVec (gq x' 1) (gq y' 1);
     ho_start := fq t 1; ho_end := fq te 1; ho_off := vzero; ho_offEZ := vzero; ho_offHR := vzero;
     ho_idx := 0; ho_idxEZ := 0; ho_idxHR := 0; ho_id := 0; ho_sounds := [0]; ho_newCombo := false;
     ho_comboNumber := 0; ho_comboSet := 0; ho_comboSetHax := 0; ho_colorOffset := 0 |}.
Definition circ t x y := obj KCircle t t x y x y.
Definition spin t te := obj KSpinner t te 256 192 256 192.
Definition slid t te x y x' y' :=
  obj (KSlider (mkSlider (mkMulti [] [] g0 vzero) None f0 1 [] f0)) t te x y x' y'.
(** HP 5, CS 4, OD 8, AR 9: preempt 600 ms, so a threshold of 420 ms at leniency 0.7 *)
Definition sample_diff := new_difficulty (fq 5 1) (fq 4 1) (fq 8 1) (fq 9 1).
Definition sample_len := fq 7 10.

Section WithLibm.
Context {M : libm}.

(** C25.  Spinners are never stacked (objects are created with zero offsets). *)
Theorem C25_spinners : forall d v len objs,
  Forall (fun o => ho_kind o = KSpinner -> forall g, off_of g o = vzero) objs ->
  forall o, In o (stack_leniency d v len objs) -> ho_kind o = KSpinner ->
  forall g, idx_of g o = 0 /\ off_of g o = vzero.
Proof.
  intros d v len objs H o Ho K g.
  assert (H' : Forall (fun o => is_spinner o = true -> forall g, off_of g o = vzero) objs).
  { eapply Forall_impl; [|exact H]. intros a Ha Hs. apply Ha. unfold is_spinner in Hs. destruct (ho_kind a); congruence. }
  pose proof (leniency_spinner d v len objs H') as L. rewrite Forall_forall in L.
  apply (L o Ho). unfold is_spinner. now rewrite K.
Qed.

(** C26.  One pass over a group touches only that group's data of circles and
    sliders; nothing else about the objects changes. *)
Theorem C26_frame : forall objs v d len, Forall2 (fun o o' =>
    same_but_stack o o' /\
    (ho_kind o <> KSpinner -> forall g, g <> group_of (d_Mods d) -> idx_of g o' = idx_of g o /\ off_of g o' = off_of g o))
  objs (process_stacking objs v d len).
Proof.
  intros. eapply F2_impl; [|apply process_frame]. intros o o' (S & F & _). split; [exact S|].
  intros K. apply F. unfold is_spinner. destruct (ho_kind o); congruence.
Qed.
(** The three passes together leave everything but the stack data alone ... *)
Theorem C26_all_passes_frame : forall d v len objs, Forall2 same_but_stack objs (stack_leniency d v len objs).
Proof. exact leniency_same. Qed.
(** ... and each group ends with what its own pass alone gives. *)
Theorem C26_isolated : forall g d v len objs, Forall2 (fun alone o =>
    ho_kind o = ho_kind alone /\ (ho_kind o <> KSpinner -> idx_of g o = idx_of g alone /\ off_of g o = off_of g alone))
  (process_stacking objs v (diff_for g d) len) (stack_leniency d v len objs).
Proof.
  intros. assert (K : Forall2 (fun a o => ho_kind o = ho_kind a) (process_stacking objs v (diff_for g d) len) (stack_leniency d v len objs)).
  { eapply F2_trans; [|apply F2_sym, process_same|apply leniency_same]. intros x y z (E & _) (E' & _). congruence. }
  eapply F2_impl; [|exact (F2_and _ _ _ _ K (leniency_group g d v len objs))].
  intros a o [E [_ G]]. split; [exact E|]. intros N. apply G. rewrite E in N. unfold is_spinner. destruct (ho_kind a); congruence.
Qed.
(** The result depends on the objects' stack data beforehand in no way, so
    computing it again changes nothing. *)
Theorem C26_history_irrelevant : forall g d v len objs objs', Forall2 same_but_stack objs objs' ->
  Forall2 (fun o o' => ho_kind o <> KSpinner -> idx_of g o' = idx_of g o /\ off_of g o' = off_of g o)
    (stack_leniency d v len objs) (stack_leniency d v len objs').
Proof.
  intros g d v len objs objs' H.
  eapply F2_impl; [|eapply F2_trans; [apply (same_group_trans g)| |apply (leniency_group g)]].
  2:{ eapply F2_trans; [apply (same_group_trans g)| |apply (iso_group g objs objs'); exact H].
      eapply F2_impl; [|exact (F2_sym _ _ _ (leniency_group g d v len objs))].
      intros x y [E G]. cbv beta in E, G. split; [congruence|]. intros Hs. rewrite E in Hs. destruct (G Hs). split; congruence. }
  intros x y [E G] N. apply G. unfold is_spinner. destruct (ho_kind x); congruence.
Qed.
Theorem C26_idempotent : forall g d v len objs,
  Forall2 (fun o o' => ho_kind o <> KSpinner -> idx_of g o' = idx_of g o /\ off_of g o' = off_of g o)
    (stack_leniency d v len objs) (stack_leniency d v len (stack_leniency d v len objs)).
Proof. intros. apply C26_history_irrelevant, leniency_same. Qed.

(** C27.  Objects far apart in space are not stacked.  The new algorithm looks
    at circles and sliders only; the old one counts spinners as well. *)
Theorem C27_far_new : forall g d v len objs, 6 <= v -> spread objs ->
  forall o, In o (stack_leniency d v len objs) -> ho_kind o <> KSpinner -> idx_of g o = 0.
Proof.
  intros g d v len objs Hv H o Ho K. pose proof (leniency_zero g d v len objs (or_introl (conj Hv (or_introl H)))) as L.
  rewrite Forall_forall in L. apply (L o Ho). unfold is_spinner. destruct (ho_kind o); congruence.
Qed.
Theorem C27_far_old : forall g d v len objs, v < 6 -> spread_all objs ->
  forall o, In o (stack_leniency d v len objs) -> ho_kind o <> KSpinner -> idx_of g o = 0.
Proof.
  intros g d v len objs Hv H o Ho K. pose proof (leniency_zero g d v len objs (or_intror (conj Hv H))) as L.
  rewrite Forall_forall in L. apply (L o Ho). unfold is_spinner. destruct (ho_kind o); congruence.
Qed.
(** ... nor, under the new algorithm, are objects far apart in time. *)
Theorem C27_slow_new : forall g d v len objs, 6 <= v -> slow (threshold (diff_for g d) len) objs ->
  forall o, In o (stack_leniency d v len objs) -> ho_kind o <> KSpinner -> idx_of g o = 0.
Proof.
  intros g d v len objs Hv H o Ho K. pose proof (leniency_zero g d v len objs (or_introl (conj Hv (or_intror H)))) as L.
  rewrite Forall_forall in L. apply (L o Ho). unfold is_spinner. destruct (ho_kind o); congruence.
Qed.
(** On integer coordinates the code's distance test is the exact one. *)
Theorem C27_close_exact : forall p q x y x' y', int_point p x y -> int_point q x' y' ->
  close p q <-> (x' - x) ^ 2 + (y' - y) ^ 2 < 9.
Proof. exact near_Z. Qed.

(** C28.  A pile of circles. *)
Theorem C28_pile : forall g v d len p objs, 6 <= v -> pile (threshold (diff_for g d) len) p objs ->
  forall k o, nth_error (stack_leniency d v len objs) k = Some o -> idx_of g o = Z.of_nat (length objs - 1 - k).
Proof. exact leniency_pile. Qed.

(** C29.  The offset of every circle and slider is -index*radius/10, computed
    in float32, in both coordinates ... *)
Theorem C29_offset : forall g d v len objs o, In o (stack_leniency d v len objs) -> ho_kind o <> KSpinner ->
  let f := gdiv (gmul (gneg (g_of_Z (idx_of g o))) (g_of_f (d_CircleRadius (diff_for g d)))) (gq 10 1) in
  off_of g o = mkVec f f.
Proof.
  intros g d v len objs o Ho K f. pose proof (leniency_offset g d v len objs) as L. rewrite Forall_forall in L.
  rewrite (L o Ho) by (unfold is_spinner; destruct (ho_kind o); congruence). fold f. unfold vscl. cbn [vx vy].
  now rewrite gmul_1_l.
Qed.
(** ... which is the real number -index*radius/10 up to float32 rounding. *)
Theorem C29_offset_real : forall g d v len objs o, In o (stack_leniency d v len objs) -> ho_kind o <> KSpinner ->
  base_ok (d_cs d) -> base_ok (d_od d) -> base_ok (d_ar d) -> Z.abs (idx_of g o) <= 2 ^ 24 ->
  let r := BinarySingleNaN.B2R (d_CircleRadius (diff_for g d)) in
  let ideal := (- IZR (idx_of g o) * r / 10)%R in
  vx (off_of g o) = vy (off_of g o) /\ BinarySingleNaN.is_finite (vx (off_of g o)) = true /\
  (Rabs (BinarySingleNaN.B2R (vx (off_of g o)) - ideal) <= Rabs ideal / 4000000)%R.
Proof.
  intros g d v len objs o Ho K Hc Hod Har Hi r ideal. rewrite (C29_offset g d v len objs o Ho K). cbn [vx vy].
  destruct (attrs_range (d_hp d) (d_cs d) (d_od d) (d_ar d) (mask_of g) (fq 1 1) Hc Hod Har) as ((R1 & R2) & _).
  assert (E : d_CircleRadius (built (d_hp d) (d_cs d) (d_od d) (d_ar d) (mask_of g) (fq 1 1)) = d_CircleRadius (diff_for g d)).
  { reflexivity. }
  rewrite E in R1, R2.
  destruct (fle_between (fq 96 10) _ (fq 544 10) eq_refl eq_refl R1 R2) as [F B0].
  assert (B : (1 <= r <= 1000)%R).
  { unfold r. bval (fq 96 10). bval (fq 544 10). rewrite V, V0 in B0. lra. }
  destruct (offset_real (idx_of g o) (d_CircleRadius (diff_for g d)) Hi F B) as [Ff Rf].
  split; [reflexivity|]. split; [exact Ff|]. eapply Rle_trans; [exact Rf|]. apply Req_le. unfold ideal, r, Rdiv.
  rewrite !Rabs_mult, Rabs_Ropp, (Rabs_pos_eq (/ 10)), (Rabs_pos_eq (BinarySingleNaN.B2R _)) by (unfold r in B; lra). reflexivity.
Qed.
(** The stacked positions add that offset to the head/tail, mirrored for HardRock. *)
Theorem C29_stacked_position : forall o m,
  let flip (p : vec) := if Z.testbit m bHR then mkVec (vx p) (gsub (gq 384 1) (vy p)) else p in
  let off := off_of (group_of m) o in
  stacked_start o m = mkVec (gadd (vx (flip (ho_startPos o))) (vx off)) (gadd (vy (flip (ho_startPos o))) (vy off)) /\
  stacked_end o m = mkVec (gadd (vx (flip (ho_endPos o))) (vx off)) (gadd (vy (flip (ho_endPos o))) (vy off)).
Proof.
  intros o m. unfold stacked_start, stacked_end, modify_position, group_of. rewrite hr_bit, ez_bit.
  destruct (Z.testbit m bHR), (Z.testbit m bEZ); split; reflexivity.
Qed.
End WithLibm.

(** ** Instances *)
Definition mixed := [circ 1000 100 100; circ 1200 100 100; spin 1300 1400; slid 1500 1700 101 101 200 200; circ 1800 200 201].
Definition indices g (l : list hobj) := map (idx_of g) l.
(** Pairs of objects of a concrete list. *)
Lemma at2_pairs (P : hobj -> hobj -> Prop) l : ForallOrdPairs P l -> forall i j a b, at2 l i j a b -> P a b.
Proof.
  induction 1 as [|x l H F IH]; intros i j a b (Hij & Ha & Hb); [destruct i; discriminate|].
  destruct i as [|i]; destruct j as [|j]; try lia; cbn [nth_error] in *.
  - injection Ha as <-. rewrite Forall_forall in H. apply H. eapply nth_error_In; eauto.
  - apply (IH i j). repeat split; auto. lia.
Qed.
Lemma not_close a b : glt (vdst a b) (gq 3 1) = false -> ~ close a b.
Proof. intros H H'. unfold close in H'. congruence. Qed.
Ltac far := repeat (first [apply FOP_cons | apply FOP_nil | apply Forall_cons | apply Forall_nil]); intros; split; apply not_close; vm_compute; reflexivity.

(** C25: a spinner between stacked circles *)
Example C25_instance : Forall (fun o => ho_kind o = KSpinner -> forall g, off_of g o = vzero) mixed /\
  map is_spinner mixed = [false; false; true; false; false] /\
  indices GNM (stack_leniency sample_diff 14 sample_len mixed) = [2; 1; 0; 0; -1].
Proof. split; [repeat constructor; intros _ []; reflexivity|]. split; vm_compute; reflexivity. Qed.
(** ... which the old algorithm would otherwise have counted: a circle under a
    later spinner does get an index from it. *)
Definition circle_spinner := [circ 1000 256 192; spin 1100 1200].
Example C25_old_counts_spinners :
  indices GNM (stack_leniency sample_diff 5 sample_len circle_spinner) = [1; 0] /\
  indices GNM (stack_leniency sample_diff 14 sample_len circle_spinner) = [0; 0].
Proof. split; vm_compute; reflexivity. Qed.
(** C26: the groups do differ: 500 ms apart stacks only under Easy (preempt 1200 ms) *)
Example C26_instance : map (fun g => indices g (stack_leniency sample_diff 14 sample_len [circ 1000 9 9; circ 1500 9 9])) [GNM; GEZ; GHR] =
  [[0; 0]; [1; 0]; [0; 0]].
Proof. vm_compute; reflexivity. Qed.
Example C26_history_instance : Forall2 same_but_stack mixed (process_stacking mixed 5 (diff_for GEZ sample_diff) sample_len).
Proof. apply process_same. Qed.
(** C27: three pixels apart within 10 ms of each other, and a slider tail three pixels from a later circle *)
Definition spaced := [circ 1000 100 100; circ 1010 103 100; spin 1020 1030; slid 1040 1050 150 100 200 100; circ 1060 200 103].
Example C27_instance_new : spread spaced.
Proof. intros i j a b Hat Ka Kb. generalize (at2_pairs (fun a b => ho_kind a <> KSpinner -> ho_kind b <> KSpinner ->
  ~ close (ho_startPos a) (ho_startPos b) /\ ~ close (ho_endPos a) (ho_startPos b)) spaced ltac:(far) i j a b Hat); auto. Qed.
Example C27_instance_old : spread_all spaced.
Proof. exact (at2_pairs (fun a b => ~ close (ho_startPos b) (ho_startPos a) /\ ~ close (ho_startPos b) (ho_endPos a)) spaced ltac:(far)). Qed.
Example C27_instance_slow : slow (threshold (diff_for GNM sample_diff) sample_len) [circ 1000 9 9; spin 1100 1200; circ 1500 9 9].
Proof.
  intros i j a b Hat Ka Kb. generalize (at2_pairs (fun a b => ho_kind a <> KSpinner -> ho_kind b <> KSpinner ->
   flt (threshold (diff_for GNM sample_diff) sample_len) (fsub (ho_start b) (ho_end a)) = true /\
   flt (threshold (diff_for GNM sample_diff) sample_len) (fsub (ho_start b) (ho_start a)) = true) [circ 1000 9 9; spin 1100 1200; circ 1500 9 9]
   ltac:(repeat (first [apply FOP_cons | apply FOP_nil | apply Forall_cons | apply Forall_nil]); intros Na Nb;
     first [exfalso; apply Na; reflexivity | exfalso; apply Nb; reflexivity | split; vm_compute; reflexivity]) i j a b Hat); auto.
Qed.
(** one pixel closer they stack *)
Example C27_tight : indices GNM (stack_leniency sample_diff 14 sample_len [circ 1000 100 100; circ 1010 102 100]) = [1; 0] /\
  indices GNM (stack_leniency sample_diff 5 sample_len [circ 1000 100 100; circ 1010 102 102]) = [1; 0] /\
  indices GNM (stack_leniency sample_diff 5 sample_len [circ 1000 100 100; circ 1010 102 103]) = [0; 0].
Proof. repeat split; vm_compute; reflexivity. Qed.
Example C27_close_instance : int_point (mkVec (gq 100 1) (gq (-3) 1)) 100 (-3).
Proof.
  destruct (gq1_exact 100 ltac:(vm_compute; discriminate)) as [F1 V1]. destruct (gq1_exact (-3) ltac:(vm_compute; discriminate)) as [F2 V2].
  repeat split; cbn [vx vy]; try assumption; vm_compute; discriminate.
Qed.
(** C28: four circles *)
Definition four := [circ 1000 50 60; circ 1300 50 60; circ 1700 50 60; circ 2120 50 60].
Example C28_instance : pile (threshold (diff_for GNM sample_diff) sample_len) (mkVec (gq 50 1) (gq 60 1)) four /\
  indices GNM (stack_leniency sample_diff 14 sample_len four) = [3; 2; 1; 0].
Proof.
  split; [|vm_compute; reflexivity]. split; [reflexivity|]. split; [reflexivity|].
  split; [repeat constructor|]. intros i a b (_ & Ha & Hb).
  destruct i as [|[|[|i]]]; cbn [nth_error four] in Ha, Hb.
  1-3: injection Ha as <-; injection Hb as <-; vm_compute; reflexivity.
  destruct i; discriminate.
Qed.
(** C29: under HardRock (radius 31.1) the first of two circles moves up-left by 3.11 *)
Example C29_instance : exists o, In o (stack_leniency sample_diff 14 sample_len [circ 1000 50 60; circ 1300 50 60]) /\
  idx_of GHR o = 1 /\ base_ok (d_cs sample_diff) /\ base_ok (d_od sample_diff) /\ base_ok (d_ar sample_diff) /\
  glt (gq (-315) 100) (vx (off_of GHR o)) = true /\ glt (vx (off_of GHR o)) (gq (-305) 100) = true /\
  glt (vy (stacked_start o 16)) (gq (321) 1) = true /\ glt (gq 320 1) (vy (stacked_start o 16)) = true.
Proof.
  exists (nth 0 (stack_leniency sample_diff 14 sample_len [circ 1000 50 60; circ 1300 50 60]) dummy).
  split; [apply nth_In; vm_compute; lia|]. repeat split; vm_compute; reflexivity.
Qed.

Print Assumptions C25_spinners.
Print Assumptions C26_frame.
Print Assumptions C26_all_passes_frame.
Print Assumptions C26_isolated.
Print Assumptions C26_history_irrelevant.
Print Assumptions C26_idempotent.
Print Assumptions C27_far_new.
Print Assumptions C27_far_old.
Print Assumptions C27_slow_new.
Print Assumptions C27_close_exact.
Print Assumptions C28_pile.
Print Assumptions C29_offset.
Print Assumptions C29_offset_real.
Print Assumptions C29_stacked_position.

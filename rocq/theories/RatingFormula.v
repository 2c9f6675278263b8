(** The ratings of a whole map against their real formulas. *)
From Coq Require Import Reals Lra List ZArith Lia Permutation.
From Flocq Require Import Core BinarySingleNaN.
From Verif Require Import DiffCalc SpecDiff SpecPP SpecSane SpecStrain SpecFormula SpecSkill SpecRating BaseLemmas FloatLemmas Float32Lemmas KeyLemmas LazyProofs CurveStart SkillProofs PPProofs PPBounds ValueBounds RelLemmas RelPow FormulaParts AimFormula SpeedFormula RhythmFormula FlashFormula SortReal WeighFormula ValueFormula StrainFormula PeakFormula.
Import ListNotations.
Open Scope R_scope.

(** ** Lists *)
Lemma rev_firstn_nth {A} (l : list A) : forall i j x, (i <= length l)%nat -> nth_error (rev (firstn i l)) j = Some x -> (j < i)%nat /\ nth_error l (i - 1 - j) = Some x.
Proof.
  induction i as [|i IH]; intros j x L H; [destruct j; discriminate H|]. destruct (nth_error l i) as [y|] eqn:Y; [|apply nth_error_None in Y; lia].
  assert (E : firstn (S i) l = firstn i l ++ [y]). { rewrite (firstn_S y) by lia. f_equal. f_equal. now apply nth_error_nth. } rewrite E, rev_app_distr in H. cbn [rev app] in H. destruct j as [|j]; cbn [nth_error] in H.
  - split; [lia|]. replace (S i - 1 - 0)%nat with i by lia. now rewrite Y.
  - destruct (IH j x ltac:(lia) H) as (A1 & A2). split; [lia|]. replace (S i - 1 - S j)%nat with (i - 1 - j)%nat by lia. exact A2.
Qed.
Lemma nth_firstn' {A} (l : list A) : forall h i x, nth_error (firstn h l) i = Some x -> nth_error l i = Some x.
Proof. induction l as [|y l IH]; intros [|h] [|i] x H; cbn in *; try discriminate; auto. now apply (IH h). Qed.
Lemma seen_nth {M : libm} k dos i j x : (i <= length dos)%nat -> nth_error (seen k dos i) j = Some x -> (j < i)%nat /\ nth_error dos (i - 1 - j) = Some x.
Proof. intros L H. unfold seen in H. apply nth_firstn' in H. now apply rev_firstn_nth. Qed.
Lemma seen_in {M : libm} k dos i x : (i <= length dos)%nat -> In x (seen k dos i) -> exists j, (j < i)%nat /\ nth_error dos j = Some x.
Proof. intros L H. apply In_nth_error in H as (j & H). destruct (seen_nth _ _ _ _ _ L H) as (A & B). exists (i - 1 - j)%nat. split; [lia|exact B]. Qed.
Lemma along_nth {A} {M : libm} (f : list dobj -> dobj -> A) k rest : forall before i o, nth_error rest i = Some o -> nth_error (along f k before rest) i = Some (f (firstn (memory k) (rev (firstn i rest) ++ before)) o).
Proof.
  induction rest as [|y rest IH]; intros before i o H; [destruct i; discriminate H|]. destruct i as [|i]; cbn [along nth_error firstn rev app] in *; [now injection H as ->|]. rewrite (IH _ _ _ H). now rewrite <- app_assoc.
Qed.
Lemma along_seen {A} {M : libm} (f : list dobj -> dobj -> A) k dos i o : nth_error dos i = Some o -> nth_error (along f k [] dos) i = Some (f (seen k dos i) o).
Proof. intros H. rewrite (along_nth f k dos [] i o H). now rewrite app_nil_r. Qed.
Lemma along_len {A} {M : libm} (f : list dobj -> dobj -> A) k rest : forall before, length (along f k before rest) = length rest.
Proof. induction rest as [|y rest IH]; intros before; cbn [along length]; auto. Qed.

(** ** The real values are not negative *)
Lemma quot_nn a b : 0 <= a -> 0 < b -> 0 <= a / b.
Proof. intros A B. apply Rmult_le_pos; [exact A|]. left. now apply Rinv_0_lt_compat. Qed.
Lemma wide_in a : 0 <= wideness a <= 1.
Proof. unfold wideness. set (x := 3 / 4 * _). pose proof (SIN_bound x) as S. split; [apply pow2_ge_0|]. rewrite <- (pow1 2), <- pow2_abs. apply pow_incr. split; [apply Rabs_pos|apply Rabs_le; lra]. Qed.
Lemma velocity_nn ws o b : 0 <= mo_jump o -> 0 < mo_time o -> 0 <= velocity ws o b.
Proof. intros J T. unfold velocity. cbv zeta. pose proof (quot_nn _ _ J T) as Q. destruct (mo_slider b && ws)%bool; [|exact Q]. apply Rle_trans with (1 := Q), Rmax_l. Qed.
Lemma aim_nn ws o b b2 : 0 <= mo_jump o -> 0 < mo_time o -> 0 <= mo_jump b -> 0 < mo_time b -> 0 <= mo_slide o -> (mo_slide_time o = 0 \/ 0 < mo_slide_time o) -> 0 <= aim_formula ws o b b2.
Proof.
  intros J T J' T' SL ST. unfold aim_formula. cbv zeta. pose proof (velocity_nn ws o b J T) as V. pose proof (velocity_nn ws b b2 J' T') as V'. set (v := velocity ws o b) in *. set (v' := velocity ws b b2) in *.
  set (angles := match mo_angle o with Some _ => _ | None => _ end).
  assert (W : 0 <= match angles with Some (a, a', _) => wide_term o b v v' a a' | None => 0 end).
  { destruct angles as [((a & a') & a2)|]; [|lra]. unfold wide_term. pose proof (wide_in a) as A. pose proof (Rmin_l (wideness a) (wideness a' ^ 3)). apply Rmult_le_pos; [lra|]. apply Rmult_le_pos; [apply Rmin_glb; lra|lra]. }
  assert (C : 0 <= (if Req_EM_T (Rmax v' v) 0 then 0 else change_term o b)).
  { destruct (Req_EM_T (Rmax v' v) 0); [lra|]. unfold change_term. cbv zeta. apply Rmult_le_pos; [apply Rmult_le_pos; [|apply pow2_ge_0]|apply pow2_ge_0]. apply Rle_trans with (2 := Rmax_r _ _). apply Rmult_le_pos; [apply Rabs_pos|apply pow2_ge_0]. }
  assert (S : 0 <= (if ws then if Req_EM_T (mo_slide_time o) 0 then 0 else 3 / 2 * (mo_slide o / mo_slide_time o) else 0)).
  { destruct ws; [|lra]. destruct (Req_EM_T (mo_slide_time o) 0) as [|N]; [lra|]. destruct ST as [ST|ST]; [contradiction|]. pose proof (quot_nn _ _ SL ST). lra. }
  match goal with |- 0 <= _ + Rmax ?x ?y + _ => pose proof (Rmax_r x y) end. lra.
Qed.
Lemma rpow_nn x y : 0 <= rpow x y.
Proof. unfold rpow. destruct (Req_EM_T x 0); [lra|]. left. apply exp_pos. Qed.
Lemma speed_nn w g before dist : 0 < w -> 0 < g -> 0 <= speed_formula w g before dist.
Proof.
  intros W G. unfold speed_formula. cbv zeta. assert (D : 0 < doubles_gap w g before).
  { unfold doubles_gap. destruct before as [p|]; [|exact G]. destruct (Rlt_dec g w) as [A|A]; [|exact G]. destruct (Rlt_dec g p) as [B|B]; [|exact G]. assert (Q : 0 < g / w < 1). { split; [apply Rmult_lt_0_compat; [exact G|now apply Rinv_0_lt_compat]|]. apply Rmult_lt_reg_r with w; [exact W|]. unfold Rdiv. rewrite Rmult_assoc, Rinv_l, Rmult_1_r by lra. lra. }
    assert (0 <= (p - g) * (1 - g / w)) by (apply Rmult_le_pos; lra). lra. }
  assert (T : 0 < capped_gap w (doubles_gap w g before)). { unfold capped_gap. apply Rmult_lt_0_compat; [exact D|]. apply Rinv_0_lt_compat. apply Rmin_glb_lt; [lra|]. apply Rlt_le_trans with (2 := Rmax_l _ _). lra. }
  set (t := capped_gap w _) in *. apply quot_nn; [|exact T]. set (b := if Rlt_dec t 75 then _ else _). assert (B : 0 <= b). { unfold b. destruct (Rlt_dec t 75); [|lra]. pose proof (pow2_ge_0 ((75 - t) / 40)). lra. } pose proof (Rmult_le_pos b _ B (rpow_nn (Rmin 125 dist / 125) (7 / 2))). lra.
Qed.
Lemma age_nn n i a : 0 <= i <= n -> 0 < n -> 0 <= age_of n i a.
Proof. intros I N. unfold age_of. apply Rmin_glb; [apply quot_nn; lra|]. apply quot_nn; [apply Rmax_l|lra]. Qed.
Lemma beats_nn w now taps : forall i b, (i <= length taps)%nat -> 0 <= be_sum b -> 0 <= be_sum (beats w now taps i b).
Proof.
  induction i as [|i IH]; intros b I B; cbn [beats]; [exact B|]. apply IH; [lia|]. destruct (nth_error taps i) as [c|]; [|exact B]. destruct (nth_error taps (S i)) as [p|]; [|exact B]. destruct (nth_error taps (S (S i))) as [l|]; [|exact B]. destruct (Rlt_dec _ 5000); [|exact B].
  unfold beat_step. cbv zeta. destruct (be_on b); [|destruct (faster _ _); cbn [be_sum]; exact B]. destruct (faster _ _ || slower _ _)%bool; cbn [be_sum]; [|exact B]. set (s := sqrt (_ * be_start b)). assert (AG : 0 <= age_of (INR (length taps)) (INR (S i)) (now - tp_time c)) by (apply age_nn; [split; [apply pos_INR|apply le_INR; exact I]|apply lt_0_INR; lia]).
  assert (0 <= s * age_of (INR (length taps)) (INR (S i)) (now - tp_time c) * (sqrt (4 + IZR (be_size b)) / 2) * (sqrt (4 + IZR (be_last b)) / 2)).
  { apply Rmult_le_pos; [apply Rmult_le_pos; [apply Rmult_le_pos; [apply sqrt_pos|exact AG]|]|]; apply quot_nn; try lra; apply sqrt_pos. } lra.
Qed.
Lemma rhythm_ge w now taps : 1 <= rhythm_formula w now taps.
Proof.
  unfold rhythm_formula. pose proof (beats_nn w now taps (length taps - 2) (mkBeat 0 1 0 false 0) ltac:(lia) (Rle_refl 0)) as B. set (s := be_sum _) in *. assert (2 <= sqrt (4 + 3 / 4 * s)); [|lra]. replace 2 with (sqrt 4) by (replace 4 with (2 * 2) by ring; apply sqrt_square; lra). apply sqrt_le_1_alt. lra.
Qed.

Section WithLibm.
Context {M : libm} (PR : pow_ranges) (TR : trig_ranges) (PC : pow_close) (LC : log_close) (SM : skill_maths).
Context (d : difficulty) (dos : list dobj) (PL : plain d dos).

Lemma obj_sane i o : nth_error dos i = Some o -> sane 16 o /\ brisk o /\ angle_ok o.
Proof.
  intros H. apply nth_error_In in H. pose proof (proj1 (Forall_forall _ _) (pl_sane _ _ PL) o H). pose proof (proj1 (Forall_forall _ _) (pl_brisk _ _ PL) o H) as (_ & B). pose proof (proj1 (Forall_forall _ _) (pl_angles _ _ PL) o H). auto.
Qed.
Lemma here i (o : dobj) : nth_error dos i = Some o -> (i <= length dos)%nat.
Proof. intros H. assert (i < length dos)%nat by (apply nth_error_Some; congruence). lia. Qed.
Lemma seen_sane k i : (i <= length dos)%nat -> Forall (sane 16) (seen k dos i) /\ Forall brisk (seen k dos i).
Proof. intros I. split; apply Forall_forall; intros x H; destruct (seen_in k dos i x I H) as (j & _ & J); now apply obj_sane in J. Qed.
Lemma seen_len k i : (length (seen k dos i) <= memory k)%nat. Proof. unfold seen. rewrite firstn_length. lia. Qed.
Lemma seen_near k i o : nth_error dos i = Some o -> Forall (near 16 d o) (seen k dos i) /\ Forall (fun p => B2R (do_StartTime p) <= B2R (do_StartTime o)) (seen k dos i).
Proof. intros I. split; apply Forall_forall; intros x H; destruct (seen_in k dos i x (here i o I) H) as (j & L & J); now apply (pl_before _ _ PL j i). Qed.
Lemma seen_clear k i o j c p l : nth_error dos i = Some o -> nth_error (seen k dos i) j = Some c -> nth_error (seen k dos i) (S j) = Some p -> nth_error (seen k dos i) (S (S j)) = Some l -> step_clear (B2R (do_StartTime o)) c p l.
Proof.
  intros I C P L. apply (seen_nth _ _ _ _ _ (here i o I)) in C as (C1 & C2), P as (P1 & P2), L as (L1 & L2). apply (pl_clear _ _ PL (i - 1 - S (S j)) i); auto; [lia| |].
  - replace (S (i - 1 - S (S j)))%nat with (i - 1 - S j)%nat by lia. exact P2.
  - replace (S (S (i - 1 - S (S j))))%nat with (i - 1 - j)%nat by lia. exact C2.
Qed.
Lemma seen_two k i o last ll r : nth_error dos i = Some o -> seen k dos i = last :: ll :: r -> sane 16 last /\ angle_ok last /\ angle_ok ll /\ linked o last /\ linked last ll /\ rhythm_clear o last.
Proof.
  intros I E. destruct (seen_nth k dos i 0 last (here i o I)) as (A1 & A2); [now rewrite E|]. destruct (seen_nth k dos i 1 ll (here i o I)) as (B1 & B2); [now rewrite E|].
  destruct (obj_sane _ _ A2) as (S1 & _ & G1). destruct (obj_sane _ _ B2) as (_ & _ & G2). destruct (pl_next _ _ PL (i - 1 - 0) last o A2) as (N1 & N2 & _); [replace (S (i - 1 - 0)) with i by lia; exact I|].
  destruct (pl_next _ _ PL (i - 1 - 1) ll last B2) as (N3 & _); [replace (S (i - 1 - 1)) with (i - 1 - 0)%nat by lia; exact A2|]. auto 10.
Qed.
Lemma seen_one k i o p r : nth_error dos i = Some o -> seen k dos i = p :: r -> sane 16 p /\ brisk p.
Proof. intros I E. destruct (seen_sane k i (here i o I)) as (A & B). rewrite E in A, B. inversion A; inversion B; subst. auto. Qed.

(** ** What objects bring *)
Definition ev_of (k : skill_kind) : R := match k with Flash => bpow radix2 (-30) | _ => 0 end.
Definition ep_of (k : skill_kind) : R := match k with Aim _ => bpow radix2 (-21) | Speed => bpow radix2 (-31) | Flash => bpow radix2 (-900) end.
Lemma ev_in k : 0 <= ev_of k <= / 64. Proof. destruct k; cbn [ev_of]; try lra. pw. lra. Qed.
Lemma ep_in k : bpow radix2 (-900) <= ep_of k <= 1.
Proof. destruct k; cbn [ep_of]; split; try (apply bpow_le; lia); change 1 with (bpow radix2 0); apply bpow_le; lia. Qed.
Lemma vnear_0 k : vnear (ev_of k) (ep_of k) f0 0.
Proof. pose proof (ep_in k) as (E & _). pose proof (bpow_gt_0 radix2 (-900)). split; [reflexivity|]. change (B2R f0) with 0. split; [lra|]. split; [split; [lra|apply bpow_ge_0]|]. rewrite Rminus_diag_eq by reflexivity. rewrite Rabs_R0. lra. Qed.
Lemma own_near k i o : nth_error dos i = Some o -> vnear (ev_of k) (ep_of k) (strain_value k d (seen k dos i) o) (own_R k d (seen k dos i) o).
Proof.
  intros I. destruct (obj_sane i o I) as (SO & BO & AO). destruct (seen_sane k i (here i o I)) as (SS & SB). pose proof (seen_len k i) as SL. unfold own_R. destruct (is_spinner (po_obj (do_base o))) eqn:N.
  { assert (E : strain_value k d (seen k dos i) o = f0). { destruct k; cbn [strain_value]; unfold Skills.aim_value, Skills.speed_value, flash_value, base_spinner; rewrite N; try reflexivity. destruct (seen _ _ _) as [|? [|? ?]]; reflexivity. } rewrite E. apply vnear_0. }
  pose proof (sn_strain _ _ SO) as (TF & TB). destruct k as [ws| |]; cbn [strain_value ev_of ep_of].
  - destruct (seen (Aim ws) dos i) as [|last [|ll r]] eqn:E; [apply (vnear_0 (Aim ws))|apply (vnear_0 (Aim ws))|]. destruct (seen_two _ i o last ll r I E) as (S1 & G1 & G2 & L1 & L2 & RC). destruct (is_spinner (po_obj (do_base last))) eqn:N'.
    { assert (X : Skills.aim_value ws (last :: ll :: r) o = f0) by (unfold Skills.aim_value, base_spinner; rewrite N, N'; reflexivity). rewrite X. apply (vnear_0 (Aim ws)). }
    destruct (aim_ab SM ws o last ll r) as (F & B); auto. assert (BD : bd (16 + 8) (Skills.aim_value ws (last :: ll :: r) o)). { apply (aim_bd PR TR 16); [lia|exact SO|]. intros a b r' Q. injection Q as <- <- _. auto. }
    apply bd_iff in BD as (_ & BD). set (v := Skills.aim_value ws (last :: ll :: r) o) in *. set (V := aim_formula ws (motion_of o) (motion_of last) (motion_of ll)) in *.
    assert (NN : 0 <= V). { apply aim_nn; cbn [motion_of mo_jump mo_time mo_slide mo_slide_time]; [apply (sn_jump _ _ SO)|lra|apply (sn_jump _ _ S1)|pose proof (sn_strain _ _ S1) as (_ & Q); lra|apply (sn_travel _ _ SO)|]. destruct (sn_travel_time _ _ SO) as [->|(_ & Q)]; [left; reflexivity|right; lra]. }
    assert (B' : Rabs (B2R v - V) <= bpow radix2 (-21)) by (apply Rle_trans with (1 := B); unfold e40; repeat pw; lra). split; [exact F|]. split; [lra|]. split; [split; [exact NN|]|lra]. apply Rabs_le_inv in B'. change (bpow radix2 (16 + 8)) with 16777216 in BD. change (bpow radix2 (-21)) with (/ 2097152) in B'. change (bpow radix2 60) with 1152921504606846976. lra.
  - destruct (speed_ab PC d (seen Speed dos i) o) as (F & B); auto; [apply (pl_clock _ _ PL)|intros p r E; now apply (seen_one Speed i o p r)|]. assert (BD : bd 15 (Skills.speed_value d (seen Speed dos i) o)) by (apply (speed_bd PR 16); auto; [lia|apply (pl_clock _ _ PL)]).
    apply bd_iff in BD as (_ & BD). set (v := Skills.speed_value d (seen Speed dos i) o) in *. match goal with |- vnear _ _ _ ?x => set (V := x) in * end.
    assert (NN : 0 <= V). { destruct (pl_clock _ _ PL) as ((_ & H1) & (_ & H2) & _). apply speed_nn; [|lra]. apply Rmult_lt_0_compat; [lra|]. apply Rmult_lt_0_compat; [lra|apply Rinv_0_lt_compat; lra]. }
    assert (B' : Rabs (B2R v - V) <= bpow radix2 (-31)) by (apply Rle_trans with (1 := B); unfold e40; repeat pw; lra). split; [exact F|]. split; [lra|]. split; [split; [exact NN|]|lra]. apply Rabs_le_inv in B'. change (bpow radix2 15) with 32768 in BD. change (bpow radix2 (-31)) with (/ 2147483648) in B'. change (bpow radix2 60) with 1152921504606846976. lra.
  - destruct (seen_near Flash i o I) as (NE & _). cbn [memory] in SL. destruct (flash_close PC d o (seen Flash dos i) (pl_clock _ _ PL) SS NE ltac:(lia) N) as (F & B). assert (BD : bd (2 * 16 + 15) (flash_value d (seen Flash dos i) o)) by (apply (flash_bd PR 16); auto; [lia|apply (pl_clock _ _ PL)|lia]).
    apply bd_iff in BD as (_ & BD). set (v := flash_value d (seen Flash dos i) o) in *. match goal with |- vnear _ _ _ ?x => set (V := x) in * end. assert (NN : 0 <= V) by apply pow2_ge_0.
    assert (TT : bpow radix2 (-1000) <= bpow radix2 (-900)) by (apply bpow_le; lia). assert (T1 : bpow radix2 (-900) <= bpow radix2 0) by (apply bpow_le; lia). change (bpow radix2 0) with 1 in T1. split; [exact F|]. split; [lra|]. rewrite (Rmult_comm (bpow radix2 (-30))). split; [split; [exact NN|]|lra]. apply Rabs_le_inv in B. change (bpow radix2 (2 * 16 + 15)) with 140737488355328 in BD. change (bpow radix2 (-30)) with (/ 1073741824) in B. change (bpow radix2 60) with 1152921504606846976. lra.
Qed.

(** ** What they show *)
Definition beta : R := bpow radix2 (-12).
Lemma bonus_near i o x : nth_error dos i = Some o -> speed_bonus d (seen Speed dos i) o = Ok x ->
  let B := bonus_R Speed d (seen Speed dos i) o in fin x /\ 0 <= B2R x <= 128 /\ ((B = 0 /\ B2R x = 0) \/ (1 <= B <= 129 /\ Rabs (B2R x - B) <= beta)).
Proof.
  intros I H. destruct (obj_sane i o I) as (SO & BO & AO). destruct (seen_sane Speed i (here i o I)) as (SS & SB). pose proof (seen_len Speed i) as SL. cbn [memory] in SL. unfold bonus_R. destruct (is_spinner (po_obj (do_base o))) eqn:N.
  - unfold speed_bonus, base_spinner in H. rewrite N in H. apply Ok_inj in H. subst x. change (B2R f0) with 0. split; [reflexivity|]. split; [lra|]. now left.
  - destruct (seen_near Speed i o I) as (_ & OR). destruct (rhythm_ab SM d o (seen Speed dos i) x (pl_clock _ _ PL) SO SS SB SL OR) as (F & B); auto.
    { intros j c p l. apply (seen_clear Speed i o j c p l I). }
    assert (BD : bd 7 x) by (eapply (bonus_bd TR) with (m := 16%Z); eauto; try lia; apply (pl_clock _ _ PL)). apply bd_iff in BD as (_ & BD). change (bpow radix2 7) with 128 in BD. cbv zeta. split; [exact F|]. split; [exact BD|]. right. pose proof (rhythm_ge (B2R (d_Hit300 d) / B2R (d_Speed d)) (B2R (do_StartTime o)) (map tap_of (seen Speed dos i))) as G.
    split; [|exact B]. split; [exact G|]. apply Rabs_le_inv in B. lra.
Qed.
(** the error of strains: relative, and absolute where the load is at most L *)
Definition Es (k : skill_kind) : R := ev_of k + 6 * e40 * INR (length dos).
Definition As (k : skill_kind) (L : R) : R := (1 + Es k) * (weight_R k * ep_of k) * L.
Lemma few : INR (length dos) <= 1048576.
Proof. rewrite INR_IZR_INZ. apply IZR_le. exact (pl_few _ _ PL). Qed.
Lemma Es_in k : ev_of k <= Es k <= ev_of k + / 100000.
Proof. unfold Es. pose proof few as N. pose proof (pos_INR (length dos)) as P. pose proof e40_pos. assert (6 * e40 * INR (length dos) <= 6 * e40 * 1048576) by (apply Rmult_le_compat_l; lra). assert (0 <= 6 * e40 * INR (length dos)) by (apply Rmult_le_pos; lra). unfold e40 in *. lra. Qed.
Lemma gaps_ok : Forall gap_ok dos.
Proof. apply Forall_forall. intros o H. pose proof (proj1 (Forall_forall _ _) (pl_sane _ _ PL) o H) as S. pose proof (proj1 (Forall_forall _ _) (pl_brisk _ _ PL) o H) as (B & _). destruct (sn_delta _ _ S) as (F & G). split; [exact F|lra]. Qed.
Lemma strain_close k ss : strains_of k d dos ss -> forall L, (forall i, (i < length dos)%nat -> load k dos i <= L) -> forall i s, nth_error ss i = Some s ->
  let S := strain_R k (gaps_of dos) (along (own_R k d) k [] dos) i in
  fin s /\ 0 <= B2R s /\ 0 <= S <= bpow radix2 91 /\ 0 <= L /\ Rabs (B2R s - S) <= Es k * S + As k L.
Proof.
  intros ST L HL i s H S. pose proof few as FW. pose proof (Es_in k) as EI. pose proof (ev_in k) as VI. pose proof (ep_in k) as PI. assert (PP : 0 < ep_of k) by (pose proof (bpow_gt_0 radix2 (-900)); lra).
  assert (VN : forall i o V, nth_error dos i = Some o -> nth_error (along (own_R k d) k [] dos) i = Some V -> vnear (ev_of k) (ep_of k) (strain_value k d (seen k dos i) o) V).
  { intros j o V O Q. rewrite (along_seen _ _ _ _ _ O) in Q. injection Q as <-. now apply own_near. }
  destruct (strains_near PC k (ev_of k) (ep_of k) VI PI d dos ss (along (own_R k d) k [] dos) ST gaps_ok (along_len _ _ _ _) FW VN i s H) as (F & N & S1 & L1 & B). fold S in S1, B. change (faded_sum _ _ (ones _) i) with (load k dos i) in L1, B.
  assert (I : (i < length dos)%nat) by (rewrite <- (proj1 ST); apply nth_error_Some; congruence). specialize (HL i I). assert (IN : INR (Datatypes.S i) <= INR (length dos)) by (apply le_INR; lia). pose proof (pos_INR (Datatypes.S i)) as P0. pose proof e40_pos as E0. destruct (weight_f k) as (_ & W & _).
  assert (EE : ev_of k + 6 * e40 * INR (Datatypes.S i) <= Es k) by (unfold Es; apply Rplus_le_compat_l, Rmult_le_compat_l; lra). set (E1 := ev_of k + 6 * e40 * INR (Datatypes.S i)) in *. assert (E10 : 0 <= E1) by (unfold E1; assert (0 <= 6 * e40 * INR (Datatypes.S i)) by (apply Rmult_le_pos; lra); lra).
  split; [exact F|]. split; [exact N|]. split; [split; [lra|]|].
  { apply Rle_trans with (1 := proj2 S1). change 91%Z with (20 + 71)%Z. rewrite bpow_plus. apply Rmult_le_compat_r; [apply bpow_ge_0|]. change (bpow radix2 20) with 1048576. lra. }
  split; [lra|]. apply Rle_trans with (1 := B). apply Rplus_le_compat; [apply Rmult_le_compat_r; lra|]. unfold As. assert (WP : 0 <= weight_R k * ep_of k) by (apply Rmult_le_pos; lra). apply Rmult_le_compat; [apply Rmult_le_pos; lra|lra|apply Rmult_le_compat_r; lra|exact HL].
Qed.
Definition Ex (k : skill_kind) : R := match k with Speed => Es k + 2 * beta | _ => Es k end.
Definition Ax (k : skill_kind) (L : R) : R := (match k with Speed => 130 | _ => 1 end) * As k L + bpow radix2 (-800).
Lemma As_nn k L : 0 <= L -> 0 <= As k L.
Proof. intros H. pose proof (Es_in k). pose proof (ev_in k). pose proof (ep_in k). pose proof (bpow_gt_0 radix2 (-900)). destruct (weight_f k) as (_ & W & _). unfold As. apply Rmult_le_pos; [apply Rmult_le_pos; [lra|apply Rmult_le_pos; lra]|exact H]. Qed.
Lemma times_near (s b : f64) S B A E : fin s -> fin b -> 0 <= B2R s -> 0 <= S <= bpow radix2 91 -> 0 <= E <= / 1000 -> 0 <= A <= bpow radix2 91 -> Rabs (B2R s - S) <= E * S + A -> 0 <= B2R b <= 128 -> (B = 0 /\ B2R b = 0) \/ (1 <= B <= 129 /\ Rabs (B2R b - B) <= beta) ->
  nears (E + 2 * beta) (130 * A + bpow radix2 (-800)) (fmul s b) (S * B).
Proof.
  intros Fs Fb Ps HS HE HA BS HB CB. assert (B91 : bpow radix2 100 = 512 * bpow radix2 91) by (change 100%Z with (9 + 91)%Z; rewrite bpow_plus; reflexivity). pose proof (bpow_gt_0 radix2 91) as P91. pose proof (bpow_gt_0 radix2 (-800)) as P8. pose proof tn_pos as TP. pose proof u53_in as UI. assert (TN : tn <= bpow radix2 (-800)) by (unfold tn; apply bpow_le; lia).
  assert (BV : beta = / 4096) by reflexivity. assert (BS' := BS). apply Rabs_le_inv in BS'. assert (ES : 0 <= E * S <= S) by (split; [apply Rmult_le_pos; lra|]; assert (E * S <= 1 * S) by (apply Rmult_le_compat_r; lra); lra). assert (SU : B2R s <= 3 * bpow radix2 91) by lra.
  assert (SB0 : 0 <= B2R s * B2R b) by (apply Rmult_le_pos; lra). assert (SBU : B2R s * B2R b <= 3 * bpow radix2 91 * 128) by (apply Rmult_le_compat; lra).
  destruct (op_mix (fmul s b) (B2R s * B2R b)) as (F & D & N).
  { rewrite Rabs_pos_eq by exact SB0. apply Rle_trans with (bpow radix2 100); [lra|apply bpow_le; lia]. }
  { intros H. now apply fmul_fin. }
  rewrite (Rabs_pos_eq (B2R s * B2R b)) in D by exact SB0. split; [exact F|]. destruct CB as [(-> & Zb)|(B1 & DB)].
  - rewrite Zb, Rmult_0_r in *. rewrite Rmult_0_r. split; [split; [split; [lra|apply bpow_ge_0]|apply N; lra]|]. rewrite Rmult_0_l in D. lra.
  - assert (SB : 0 <= S * B <= bpow radix2 91 * 129) by (split; [apply Rmult_le_pos; lra|apply Rmult_le_compat; lra]). split; [split; [lra|apply N; exact SB0]|].
    assert (K : Rabs (B2R s * B2R b - S * B) <= (E * S + A) * B2R b + S * beta).
    { replace (B2R s * B2R b - S * B) with ((B2R s - S) * B2R b + S * (B2R b - B)) by ring. apply Rle_trans with (1 := Rabs_triang _ _). rewrite !Rabs_mult, (Rabs_pos_eq (B2R b)), (Rabs_pos_eq S) by lra. apply Rplus_le_compat; [apply Rmult_le_compat_r; lra|apply Rmult_le_compat_l; lra]. }
    assert (SSB : S <= S * B) by (rewrite <- (Rmult_1_r S) at 1; apply Rmult_le_compat_l; lra). apply Rabs_le_inv in DB.
    assert (X1 : E * S * B2R b <= (E + beta * / 1000) * (S * B)). { apply Rle_trans with (E * S * (B + beta)); [apply Rmult_le_compat_l; lra|]. replace (E * S * (B + beta)) with (E * (S * B) + E * beta * S) by ring. assert (E * beta * S <= / 1000 * beta * (S * B)) by (apply Rmult_le_compat; [apply Rmult_le_pos; lra|lra|apply Rmult_le_compat_r; lra|exact SSB]). lra. }
    assert (X2 : A * B2R b <= A * 128) by (apply Rmult_le_compat_l; lra). assert (X3 : S * beta <= beta * (S * B)) by (rewrite (Rmult_comm S); apply Rmult_le_compat_l; lra).
    set (p := S * B) in *. set (q := B2R s * B2R b) in *. assert (K' := K). apply Rabs_le_inv in K'. assert (E * p <= / 1000 * p) by (apply Rmult_le_compat_r; lra). assert (QU : q <= 2 * p + 130 * A) by (rewrite BV in *; lra). assert (Q2 : q * u53 <= / 1000000000 * (2 * p + 130 * A)). { rewrite (Rmult_comm q). apply Rmult_le_compat; lra. }
    replace (B2R (fmul s b) - p) with ((B2R (fmul s b) - q) + (q - p)) by ring. apply Rle_trans with (1 := Rabs_triang _ _). rewrite BV in *. lra.
Qed.
Lemma max_load_ge k i : (i < length dos)%nat -> load k dos i <= max_load k dos.
Proof.
  intros I. unfold max_load. assert (H : In (load k dos i) (map (load k dos) (seq 0 (length dos)))) by (apply in_map, in_seq; lia). revert H. generalize (map (load k dos) (seq 0 (length dos))). intros l. generalize (load k dos i). intros x. induction l as [|y l IH]; intros []; cbn [fold_right]; [subst; apply Rmax_l|]. apply Rle_trans with (2 := Rmax_r _ _). now apply IH.
Qed.
Lemma max_load_in k : 1 <= max_load k dos <= 1048576.
Proof.
  pose proof few as FW. assert (G : Forall (fun x => x <= 1048576) (map (load k dos) (seq 0 (length dos)))).
  { apply Forall_map, Forall_forall. intros i I. apply in_seq in I. apply Rle_trans with (INR (S i)); [|apply Rle_trans with (2 := FW), le_INR; lia]. apply load_le; [unfold gaps_of; rewrite map_length; lia|]. unfold gaps_of. apply Forall_map. apply Forall_impl with (2 := gaps_ok). intros o (_ & H). lra. }
  unfold max_load. revert G. generalize (map (load k dos) (seq 0 (length dos))). induction l as [|y l IH]; intros G; cbn [fold_right]; [lra|]. inversion G as [|? ? G1 G2]; subst. destruct (IH G2). split; [apply Rle_trans with (2 := Rmax_r _ _); lra|now apply Rmax_lub].
Qed.
Lemma nth_combine_seq {A} (l : list A) : forall n i x, nth_error l i = Some x -> nth_error (combine (seq n (length l)) l) i = Some ((n + i)%nat, x).
Proof. induction l as [|y l IH]; intros n i x H; [destruct i; discriminate H|]. cbn [length seq combine]. destruct i as [|i]; cbn [nth_error] in *; [injection H as ->; now rewrite Nat.add_0_r|]. rewrite (IH (S n) i x H). now rewrite Nat.add_succ_r. Qed.
Lemma shown_R_nth k i o : nth_error dos i = Some o -> nth_error (shown_R k d dos) i = Some (strain_R k (gaps_of dos) (along (own_R k d) k [] dos) i * bonus_R k d (seen k dos i) o).
Proof.
  intros H. unfold shown_R. cbv zeta. apply (along_seen (bonus_R k d) k dos i o) in H. assert (L : length dos = length (along (bonus_R k d) k [] dos)) by (symmetry; apply along_len). rewrite L. apply (nth_combine_seq _ 0) in H. erewrite map_nth_error by exact H. reflexivity.
Qed.
Lemma shown_R_len k : length (shown_R k d dos) = length dos.
Proof. unfold shown_R. cbv zeta. rewrite map_length, combine_length, seq_length, along_len. apply Nat.min_id. Qed.
Lemma shown_near k ss shown : strains_of k d dos ss -> shown_of k d dos ss shown -> Forall2 (nears (Ex k) (Ax k (max_load k dos))) shown (shown_R k d dos).
Proof.
  intros ST (LS & SH). apply F2_nth; [now rewrite LS, shown_R_len|]. intros i x r X Rr. assert (I : (i < length dos)%nat) by (rewrite <- LS; apply nth_error_Some; congruence).
  destruct (nth_error dos i) as [o|] eqn:O; [|apply nth_error_None in O; lia]. destruct (nth_error ss i) as [s|] eqn:Si; [|apply nth_error_None in Si; rewrite (proj1 ST) in Si; lia]. rewrite (shown_R_nth k i o O) in Rr. injection Rr as <-. specialize (SH i o s x O Si X).
  destruct (strain_close k ss ST (max_load k dos) (max_load_ge k) i s Si) as (F & P & B & _ & D). set (S := strain_R k _ _ i) in *. pose proof (max_load_in k) as ML. pose proof (As_nn k (max_load k dos) ltac:(lra)) as AN. pose proof (bpow_gt_0 radix2 (-800)) as P8. assert (B91 : bpow radix2 100 = 512 * bpow radix2 91) by (change 100%Z with (9 + 91)%Z; rewrite bpow_plus; reflexivity).
  pose proof (Es_in k) as EI. pose proof (ev_in k) as VI. destruct k as [ws| |]; cbn [Ex Ax bonus_R].
  1,3: pose proof (bpow_gt_0 radix2 91); subst x; rewrite Rmult_1_r; split; [exact F|]; split; [split; [lra|exact P]|]; apply Rle_trans with (1 := D); unfold Ax; cbv iota; lra.
  destruct SH as (b & HB & ->). destruct (bonus_near i o b O HB) as (Fb & Bb & Cb). cbv zeta in Cb. apply times_near; auto. { cbn [ev_of] in EI, VI. lra. } split; [exact AN|].
  unfold As. destruct (weight_f Speed) as (_ & W & _). pose proof (ep_in Speed) as EP. pose proof (bpow_gt_0 radix2 (-900)). cbn [ev_of] in EI, VI. apply Rle_trans with (2 * (1375 * 1) * 1048576).
  - apply Rmult_le_compat; [apply Rmult_le_pos; [lra|apply Rmult_le_pos; lra]|lra|apply Rmult_le_compat; [lra|apply Rmult_le_pos; lra|lra|apply Rmult_le_compat; lra]|lra].
  - change (bpow radix2 91) with 2475880078570760549798248448. lra.
Qed.
(** ** The number of peaks *)
Lemma sections_from_in lo hi ts : forall K, (lo <= K <= hi)%Z -> Forall (fun t => (lo <= section_of t <= hi)%Z) ts -> Forall (fun K => (lo <= K <= hi)%Z) (sections_from K ts).
Proof. induction ts as [|t ts IH]; intros K H F; cbn [sections_from]; [constructor|]. inversion F; subst. assert (lo <= Z.max K (section_of t) <= hi)%Z by lia. constructor; auto. Qed.
Lemma sections_in lo hi ts : Forall (fun t => (lo <= section_of t <= hi)%Z) ts -> Forall (fun K => (lo <= K <= hi)%Z) (sections ts).
Proof. intros F. destruct ts as [|t ts]; cbn [sections]; [constructor|]. inversion F; subst. constructor; [assumption|]. now apply sections_from_in. Qed.
Lemma starts_map : map (@B2R 53 1024) (map do_StartTime dos) = starts_of dos.
Proof. unfold starts_of. now rewrite map_map. Qed.
Lemma peaks_few peaks : let Ks := sections (starts_of dos) in dos <> [] -> zlen peaks = (last Ks 0 - hd 0 Ks + 1)%Z -> INR (length (A := f64) peaks) <= 1048576.
Proof.
  intros Ks NE Z. assert (F : Forall (fun K => (-500001 <= K <= 500001)%Z) Ks).
  { apply sections_in. unfold starts_of. apply Forall_map. apply Forall_impl with (2 := pl_times _ _ PL). intros o (_ & H). apply Rabs_le_inv in H. unfold section_of. set (t := B2R _) in *. pose proof (Zceil_ub (t / 400)) as U. pose proof (Zceil_lb (t / 400)) as L. split; apply le_IZR; lra. }
  assert (L : Ks <> []) by (intros E; apply NE; apply length_zero_iff_nil; rewrite <- (map_length (fun o => B2R (do_StartTime o))); change (length (starts_of dos) = 0%nat); rewrite <- sections_len; fold Ks; rewrite E; reflexivity).
  rewrite Forall_forall in F. assert (F1 : In (last Ks 0%Z) Ks). { destruct (exists_last L) as (l' & x & E). rewrite E, last_last. apply in_or_app. right. now left. } assert (F2 : In (hd 0%Z Ks) Ks) by (destruct Ks; [contradiction|now left]). apply F in F1, F2.
  rewrite INR_IZR_INZ. apply IZR_le. unfold zlen in Z. lia.
Qed.
Lemma paced_of l : (forall i p o, nth_error l i = Some p -> nth_error l (S i) = Some o -> B2R (do_StartTime o) - B2R (do_StartTime p) <= 300000) -> paced 300000 (map do_StartTime l).
Proof. induction l as [|a l IH]; intros H; [exact I|]. cbn [map paced]. destruct l as [|b l]; [exact I|]. cbn [map]. split; [now apply (H 0%nat)|]. apply IH. intros i. exact (H (S i)). Qed.

(** ** Ratings *)
Definition Bx (k : skill_kind) : R := match k with Flash => bpow radix2 (-778) | Aim _ => / 8192 * max_load k dos | Speed => / 1024 * max_load k dos end.
Lemma Ex_in k : 0 <= Ex k <= / 1000.
Proof. pose proof (Es_in k) as E. destruct k; cbn [Ex ev_of] in *; change (bpow radix2 (-30)) with (/ 1073741824) in *; unfold beta; change (bpow radix2 (-12)) with (/ 4096); lra. Qed.
Lemma Ax_in k : bpow radix2 (-800) <= Ax k (max_load k dos) <= 40000000000000.
Proof.
  pose proof (max_load_in k) as ML. pose proof (As_nn k (max_load k dos) ltac:(lra)) as AN. pose proof (ep_in k) as EP. pose proof (Es_in k) as EI. pose proof (ev_in k) as EV. destruct (weight_f k) as (_ & W & _). pose proof (bpow_gt_0 radix2 (-900)). assert (P8 : bpow radix2 (-800) <= bpow radix2 0) by (apply bpow_le; lia). change (bpow radix2 0) with 1 in P8.
  assert (AU : As k (max_load k dos) <= 2 * (1375 * 1) * 1048576). { unfold As. apply Rmult_le_compat; [apply Rmult_le_pos; [lra|apply Rmult_le_pos; lra]|lra|apply Rmult_le_compat; [lra|apply Rmult_le_pos; lra|lra|apply Rmult_le_compat; lra]|lra]. }
  unfold Ax. destruct k; lra.
Qed.
Lemma Bx_ge k n : INR n <= 1048576 -> 108 / 100 * (Ax k (max_load k dos) * geo (fading_R k) n) <= Bx k.
Proof.
  intros NB. pose proof (max_load_in k) as ML. pose proof (Es_in k) as EI. pose proof (Ax_in k) as AI. pose proof (bpow_gt_0 radix2 (-800)) as P8. assert (T8 : bpow radix2 (-800) <= bpow radix2 (-60)) by (apply bpow_le; lia). change (bpow radix2 (-60)) with (/ 1152921504606846976) in T8. assert (FQ : 0 < fading_R k <= 1) by (destruct k; cbn; lra). pose proof (geo_nn (fading_R k) FQ n) as GN.
  destruct k as [ws| |]; cbn [fading_R Bx].
  - assert (A1 : Ax (Aim ws) (max_load (Aim ws) dos) <= / 90000 * max_load (Aim ws) dos).
    { unfold Ax, As. cbn [weight_R ep_of ev_of] in *. change (bpow radix2 (-21)) with (/ 2097152). set (L := max_load _ _) in *. set (E := Es _) in *. assert (X : (1 + E) * (2325 / 100 * / 2097152) * L <= (1 + / 100000) * (2325 / 100 * / 2097152) * L) by (apply Rmult_le_compat_r; [lra|]; apply Rmult_le_compat_r; lra). lra. }
    pose proof (geo_9 n) as G. cbn [fading_R] in GN. apply Rle_trans with (108 / 100 * (/ 90000 * max_load (Aim ws) dos * 10)); [apply Rmult_le_compat_l; [lra|apply Rmult_le_compat; lra]|lra].
  - assert (A1 : Ax Speed (max_load Speed dos) <= / 12000 * max_load Speed dos).
    { unfold Ax, As. cbn [weight_R ep_of ev_of] in *. change (bpow radix2 (-31)) with (/ 2147483648). set (L := max_load _ _) in *. set (E := Es _) in *. assert (X : (1 + E) * (1375 * / 2147483648) * L <= (1 + / 100000) * (1375 * / 2147483648) * L) by (apply Rmult_le_compat_r; [lra|]; apply Rmult_le_compat_r; lra). lra. }
    pose proof (geo_9 n) as G. cbn [fading_R] in GN. apply Rle_trans with (108 / 100 * (/ 12000 * max_load Speed dos * 10)); [apply Rmult_le_compat_l; [lra|apply Rmult_le_compat; lra]|lra].
  - pose proof (geo_le 1 ltac:(lra) n) as G. cbn [fading_R] in GN. assert (A1 : Ax Flash (max_load Flash dos) <= 2 * bpow radix2 (-800)).
    { unfold Ax, As. cbn [weight_R ep_of ev_of] in *. set (L := max_load _ _) in *. set (E := Es _) in *. pose proof (ev_in Flash) as VI. cbn [ev_of] in VI. pose proof (bpow_gt_0 radix2 (-900)) as P9. assert (S9 : bpow radix2 (-800) = bpow radix2 100 * bpow radix2 (-900)) by (rewrite <- bpow_plus; f_equal). change (bpow radix2 100) with 1267650600228229401496703205376 in S9.
      assert (X : (1 + E) * (15 / 100 * bpow radix2 (-900)) * L <= 2 * (15 / 100 * bpow radix2 (-900)) * 1048576) by (apply Rmult_le_compat; [apply Rmult_le_pos; lra|lra|apply Rmult_le_compat_r; lra|lra]). lra. }
    assert (S7 : bpow radix2 (-778) = bpow radix2 22 * bpow radix2 (-800)) by (rewrite <- bpow_plus; f_equal). change (bpow radix2 22) with 4194304 in S7. apply Rle_trans with (108 / 100 * (2 * bpow radix2 (-800) * 1048576)); [apply Rmult_le_compat_l; [lra|apply Rmult_le_compat; lra]|lra].
Qed.
Lemma Bx_in k : bpow radix2 (-800) <= Bx k <= bpow radix2 200.
Proof.
  pose proof (max_load_in k) as ML. destruct k; cbn [Bx]; [| |split; apply bpow_le; lia]; (assert (T8 : bpow radix2 (-800) <= bpow radix2 (-60)) by (apply bpow_le; lia); change (bpow radix2 (-60)) with (/ 1152921504606846976) in T8; split; [lra|]; apply Rle_trans with (bpow radix2 60); [change (bpow radix2 60) with 1152921504606846976; lra|apply bpow_le; lia]).
Qed.
Lemma peaks_close k peaks : peaks_of k d dos peaks ->
  Forall2 (nears (e' (Ex k)) (A' (Ax k (max_load k dos)))) peaks (peaks_R k (starts_of dos) (shown_R k d dos)) /\ peaks <> [] /\ INR (length peaks) <= 1048576.
Proof.
  intros (ss & shown & ST & SH & P0 & P1 & P2). pose proof (shown_near k ss shown ST SH) as SN. pose proof (Ex_in k) as EI. pose proof (Ax_in k) as AI. rewrite starts_map in P1, P2. assert (TS : map do_StartTime dos = [] <-> dos = []) by (destruct dos; split; intros; try discriminate; reflexivity).
  assert (A99 : 40000000000000 <= bpow radix2 99) by (change (bpow radix2 99) with 633825300114114700748351602688; lra).
  destruct (peaks_near PC k (Ex k) (Ax k (max_load k dos)) ltac:(lra) ltac:(lra) (map do_StartTime dos) shown (shown_R k d dos) peaks SN) as (PN & NE).
  - rewrite map_length. apply SH.
  - apply paced_of. intros i p o A B. now apply (pl_next _ _ PL i p o A B).
  - apply Forall_map. apply Forall_impl with (2 := pl_times _ _ PL). now intros o (H & _).
  - intros H. apply P0. now apply TS.
  - rewrite starts_map. intros H. apply P1. intros E. now apply H, TS.
  - rewrite starts_map. intros n p H. apply P2. intros E. now apply H, TS.
  - rewrite starts_map in PN. split; [exact PN|]. split; [exact NE|]. destruct dos as [|o0 l0] eqn:ED; [rewrite (P0 eq_refl); cbn; lra|]. rewrite <- ED in *. apply peaks_few; [rewrite ED; discriminate|apply P1; rewrite ED; discriminate].
Qed.
Lemma stars_close k peaks : peaks_of k d dos peaks -> let x := fmul (fsqrt (difficulty_value_of k peaks)) (fq 675 10000) in let r := map_stars k d dos in
  fin x /\ 0 <= B2R x /\ 0 <= r /\ Rabs (B2R x - r) <= (Ex k + 21 / 1000000000) * r + 7 / 100 * sqrt (Bx k) /\
  r * Rabs (B2R x - r) <= (Ex k + 21 / 1000000000) * r ^ 2 + 4725 / 1000000 * Bx k.
Proof.
  intros P x r. destruct (peaks_close k peaks P) as (PN & NE & LP). pose proof (Ex_in k) as EI. pose proof (Ax_in k) as AI. pose proof (Bx_in k) as BI.
  assert (A98 : 40000000000000 <= bpow radix2 98) by (change (bpow radix2 98) with 316912650057057350374175801344; lra). assert (A99 : 40000000000000 <= bpow radix2 99) by (change (bpow radix2 99) with 633825300114114700748351602688; lra).
    destruct (rating_near k (Ex k) (Ax k (max_load k dos)) ltac:(lra) ltac:(lra) LC peaks _ PN ltac:(lra) ltac:(lra) NE LP) as (V1 & V2 & V3 & V4). pose proof (Bx_ge k (length peaks) LP) as BG. set (V := value_R k _) in *.
    destruct (stars_near (Ex k + / 50000000) (Bx k) (difficulty_value_of k peaks) V ltac:(lra) BI V1 V2 V3 ltac:(lra)) as (X1 & X2 & X3 & X4). fold x in X1, X2, X3, X4. change (stars_R V) with r in X3, X4. assert (R0 : 0 <= r) by (unfold r, map_stars, stars_R; apply Rmult_le_pos; [apply sqrt_pos|lra]). pose proof (bpow_gt_0 radix2 (-800)) as P8.
    split; [exact X1|]. split; [exact X2|]. split; [exact R0|]. split; [apply Rle_trans with (1 := X3); apply Rplus_le_compat_r, Rmult_le_compat_r; lra|].
    destruct (Rle_lt_or_eq_dec _ _ (proj1 V3)) as [VP|VZ].
    + specialize (X4 VP). assert (SV : 0 < sqrt V) by now apply sqrt_lt_R0. assert (RV : r = sqrt V * (675 / 10000)) by reflexivity. apply Rle_trans with (r * ((Ex k + 21 / 1000000000) * r + 7 / 100 * (Bx k / sqrt V))); [apply Rmult_le_compat_l; [exact R0|]; apply Rle_trans with (1 := X4); apply Rplus_le_compat_r, Rmult_le_compat_r; lra|].
      assert (Q : r * (Bx k / sqrt V) = 675 / 10000 * Bx k) by (rewrite RV; field; lra). replace (r * ((Ex k + 21 / 1000000000) * r + 7 / 100 * (Bx k / sqrt V))) with ((Ex k + 21 / 1000000000) * r ^ 2 + 7 / 100 * (r * (Bx k / sqrt V))) by ring. rewrite Q. lra.
    + assert (RZ : r = 0) by (change r with (sqrt V * (675 / 10000)); rewrite <- VZ, sqrt_0; lra). rewrite RZ, Rmult_0_l. rewrite pow_i, Rmult_0_r by lia. lra.
Qed.
Lemma stars_upper k peaks : peaks_of k d dos peaks -> map_stars k d dos <= bpow radix2 58.
Proof.
  intros P. destruct (peaks_close k peaks P) as (PN & NE & LP). pose proof (Ex_in k) as EI. pose proof (Ax_in k) as AI. assert (A98 : 40000000000000 <= bpow radix2 98) by (change (bpow radix2 98) with 316912650057057350374175801344; lra). assert (A99 : 40000000000000 <= bpow radix2 99) by (change (bpow radix2 99) with 633825300114114700748351602688; lra).
  destruct (rating_near k (Ex k) (Ax k (max_load k dos)) ltac:(lra) ltac:(lra) LC peaks _ PN ltac:(lra) ltac:(lra) NE LP) as (_ & _ & V3 & _). unfold map_stars, stars_R. set (V := value_R k _) in *.
  assert (Q : sqrt V <= bpow radix2 61). { rewrite <- (sqrt_square (bpow radix2 61)) by apply bpow_ge_0. apply sqrt_le_1_alt. rewrite <- bpow_plus. apply Rle_trans with (1 := proj2 V3). apply bpow_le. lia. }
  replace (bpow radix2 58) with (bpow radix2 61 * / 8) by (change 61%Z with (58 + 3)%Z; rewrite bpow_plus; change (bpow radix2 3) with 8; lra). pose proof (sqrt_pos V). lra.
Qed.
End WithLibm.

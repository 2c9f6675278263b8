(** C70: distances, times and angles between objects. *)
From Coq Require Import Reals Lra.
From Flocq Require Import Core BinarySingleNaN.
From Verif Require Import DiffCalc DifficultyProofs SpecPP SpecSane SpecDist SpecDiff SpecSafety BaseLemmas FloatLemmas Float32Lemmas KeyLemmas BoundLemmas CurveProofs CurveBounds CurveStart ArcProofs PPProofs PPBounds ValueBounds BezierTerm LengthProofs RatingBounds ObjectBounds DistProofs DiffProofs DiffTotal PropDiff PropStrain PropRatings PropChain.
From Verif Require Import Preprocessing.
Import ListNotations.
Open Scope Z_scope.

Section WithLibm.
Context {M : libm}.
(** the object before the last one *)
Definition earlier (ps : list pobj) (i : nat) : option pobj := match i with O => None | S j => nth_error ps j end.
Lemma diff_nth3 d : forall l ll last i o, nth_error (diff_objects d ll last l) i = Some o ->
  exists cur pr, nth_error l i = Some cur /\ nth_error (last :: l) i = Some pr /\ o = new_dobj d cur (match i with O => ll | S j => nth_error (last :: l) j end) pr.
Proof.
  induction l as [|x r IH]; intros ll last [|i] o H; cbn [diff_objects nth_error] in H; try discriminate H.
  - exists x, last. injection H as <-. auto.
  - destruct (IH _ _ _ _ H) as (cur & pr & H1 & H2 & ->). exists cur, pr. split; [exact H1|]. split; [exact H2|]. destruct i; reflexivity.
Qed.
Lemma create_nth3 objs d dos i o : create_difficulty_objects objs d = Ok dos -> nth_error dos i = Some o ->
  exists ps cur last, mapM (wrap_object d) objs = Ok ps /\ nth_error ps (S i) = Some cur /\ nth_error ps i = Some last /\ o = new_dobj d cur (earlier ps i) last.
Proof.
  intros H N. unfold create_difficulty_objects in H. apply bind_ok in H as (ps & Hp & H). apply Ok_inj in H. subst dos. exists ps.
  destruct ps as [|p r]; [destruct i; discriminate N|]. apply diff_nth3 in N as (cur & pr & H1 & H2 & ->). exists cur, pr. auto.
Qed.
Lemma wrapped_nth d objs ps i p : mapM (wrap_object d) objs = Ok ps -> nth_error ps i = Some p ->
  nth_error objs i = Some (po_obj p) /\ wrap_object d (po_obj p) = Ok p.
Proof.
  intros H. revert ps i H. induction objs as [|o r IH]; intros ps i H N; cbn [mapM] in H; [apply Ok_inj in H; subst ps; destruct i; discriminate N|].
  apply bind_ok in H as (q & Hq & H). apply bind_ok in H as (qs & Hqs & H). apply Ok_inj in H. subst ps. destruct i as [|i]; cbn [nth_error] in *; [|now apply (IH qs)].
  injection N as <-. now rewrite (wrap_obj _ _ _ Hq).
Qed.
Lemma wrapped_some d objs ps i o : mapM (wrap_object d) objs = Ok ps -> nth_error objs i = Some o -> exists p, nth_error ps i = Some p /\ po_obj p = o.
Proof.
  intros H N. pose proof (mapM_length _ _ _ H) as L. destruct (nth_error ps i) as [p|] eqn:E; [|apply nth_error_None in E; assert (X : nth_error objs i <> None) by congruence; apply nth_error_Some in X; lia].
  exists p. split; [reflexivity|]. destruct (wrapped_nth _ _ _ _ _ H E) as (E' & _). congruence.
Qed.
Lemma cursor_leaves d p v : wrap_object d (po_obj p) = Ok p -> leaves d (po_obj p) v -> end_cursor p (d_Mods d) = v.
Proof.
  unfold wrap_object, leaves, end_cursor. destruct (ho_kind (po_obj p)) as [| |sd]; intros H L.
  - apply Ok_inj in H. rewrite <- H. cbn [po_lazy po_obj]. now rewrite L.
  - apply Ok_inj in H. rewrite <- H. cbn [po_lazy po_obj]. now rewrite L.
  - apply bind_ok in H as (l & Hl & H). apply Ok_inj in H. destruct L as (l' & Hl' & ->). rewrite Hl' in Hl. apply Ok_inj in Hl. subst l'. rewrite <- H. reflexivity.
Qed.
Lemma lazy_kind d p : wrap_object d (po_obj p) = Ok p -> (is_slider (po_obj p) = false -> po_lazy p = None) /\
  forall sd, ho_kind (po_obj p) = KSlider sd -> exists l, new_lazy d (po_obj p) sd = Ok l /\ po_lazy p = Some l.
Proof.
  unfold wrap_object, is_slider. intros H. destruct (ho_kind (po_obj p)) as [| |sd].
  - apply Ok_inj in H. rewrite <- H. split; [reflexivity|discriminate].
  - apply Ok_inj in H. rewrite <- H. split; [reflexivity|discriminate].
  - apply bind_ok in H as (l & Hl & H). apply Ok_inj in H. split; [discriminate|]. intros sd' E. injection E as <-. exists l. split; [exact Hl|]. rewrite <- H. reflexivity.
Qed.

Section Pair.
Context (objs : list hobj) (d : difficulty) (dos : list dobj) (i : nat) (a b : hobj) (o : dobj).
Context (C : create_difficulty_objects objs d = Ok dos) (HA : nth_error objs i = Some a) (HB : nth_error objs (S i) = Some b) (HO : nth_error dos i = Some o).
Lemma pair_facts : exists ps cur last, mapM (wrap_object d) objs = Ok ps /\ po_obj cur = b /\ po_obj last = a /\ wrap_object d b = Ok cur /\ wrap_object d a = Ok last /\ o = new_dobj d cur (earlier ps i) last.
Proof.
  destruct (create_nth3 _ _ _ _ _ C HO) as (ps & cur & last & Hp & N1 & N2 & E). exists ps, cur, last. destruct (wrapped_nth _ _ _ _ _ Hp N1) as (O1 & W1). destruct (wrapped_nth _ _ _ _ _ Hp N2) as (O2 & W2).
  assert (EB : po_obj cur = b) by congruence. assert (EA : po_obj last = a) by congruence. rewrite EB in W1. rewrite EA in W2. auto 10.
Qed.
End Pair.

(** C70.  Next to a spinner there are no distances, no movement and no angle. *)
Theorem C70_spinner : forall objs d dos i a b o, create_difficulty_objects objs d = Ok dos ->
  nth_error objs i = Some a -> nth_error objs (S i) = Some b -> nth_error dos i = Some o ->
  is_spinner a = true \/ is_spinner b = true ->
  do_Jump o = f0 /\ do_Movement o = f0 /\ do_Travel o = f0 /\ do_MovementTime o = f0 /\ do_TravelTime o = f0 /\ fisnan (do_Angle o) = true.
Proof.
  intros objs d dos i a b o C HA HB HO S. destruct (pair_facts _ _ _ _ _ _ _ C HA HB HO) as (ps & cur & last & _ & EB & EA & _ & _ & ->).
  assert (X : is_spinner (po_obj cur) || is_spinner (po_obj last) = true) by (rewrite EA, EB; destruct S as [-> | ->]; [apply orb_true_r|reflexivity]).
  unfold new_dobj. rewrite X. cbn [do_Jump do_Movement do_Travel do_MovementTime do_TravelTime do_Angle]. auto 10.
Qed.
(** After a circle the movement is the jump. *)
Theorem C70_after_circle : forall objs d dos i a b o, create_difficulty_objects objs d = Ok dos ->
  nth_error objs i = Some a -> nth_error objs (S i) = Some b -> nth_error dos i = Some o ->
  is_spinner a = false -> is_spinner b = false -> is_slider a = false ->
  do_Travel o = f0 /\ do_TravelTime o = f0 /\ do_Movement o = do_Jump o /\ do_MovementTime o = do_StrainTime o.
Proof.
  intros objs d dos i a b o C HA HB HO NA NB NS. destruct (pair_facts _ _ _ _ _ _ _ C HA HB HO) as (ps & cur & last & _ & EB & EA & _ & WA & ->). rewrite <- EA in WA. destruct (lazy_kind _ _ WA) as (L & _).
  unfold new_dobj. rewrite EA, EB, NA, NB. cbn [orb]. rewrite <- EA in NS. rewrite (L NS). cbn [do_Travel do_TravelTime do_Movement do_StrainTime do_Jump do_MovementTime]. auto.
Qed.
(** After a slider the travel time is the time to its last score point, and what
    is left of the strain time is for the movement, both at least 25 ms. *)
Theorem C70_slider_times : forall objs d dos i a b o sd ts t, create_difficulty_objects objs d = Ok dos ->
  nth_error objs i = Some a -> nth_error objs (S i) = Some b -> nth_error dos i = Some o ->
  is_spinner b = false -> ho_kind a = KSlider sd -> sl_ticks sd = ts ++ [t] ->
  do_TravelTime o = fmax (fdiv (fsub (tk_Time t) (ho_start a)) (d_Speed d)) (fq 25 1) /\
  do_MovementTime o = fmax (fsub (do_StrainTime o) (do_TravelTime o)) (fq 25 1).
Proof.
  intros objs d dos i a b o sd ts t C HA HB HO NB K TS. destruct (pair_facts _ _ _ _ _ _ _ C HA HB HO) as (ps & cur & last & _ & EB & EA & _ & WA & ->). rewrite <- EA in WA. destruct (lazy_kind _ _ WA) as (_ & L).
  rewrite EA in L. destruct (L sd K) as (l & NL & PL). unfold new_dobj. rewrite EA, EB, NB. assert (NA : is_spinner a = false) by (unfold is_spinner; now rewrite K). rewrite NA. cbn [orb]. rewrite PL. cbn [do_Travel do_TravelTime do_Movement do_StrainTime do_Jump do_MovementTime].
  split; [|reflexivity]. unfold new_lazy in NL. cbv zeta in NL. apply bind_ok in NL as (lt & LT & NL). apply bind_ok in NL as (le & _ & NL). apply bind_ok in NL as (st & _ & NL). apply Ok_inj in NL. subst l. cbn [lz_Time].
  rewrite TS in LT. unfold zlen in LT. rewrite app_length in LT. cbn [length] in LT. apply idx_ok in LT. replace (Z.to_nat (Z.of_nat (length ts + 1) - 1)) with (length ts) in LT by lia. destruct LT as (_ & LT).
  rewrite nth_error_app2, Nat.sub_diag in LT by lia. cbn [nth_error] in LT. injection LT as <-. reflexivity.
Qed.
End WithLibm.

Section Accuracy.
Context {M : libm} (PR : pow_ranges) (p : Z) (Hp : 0 <= p <= 32) (d : difficulty) (D : clocked d).
Open Scope R_scope.
Lemma jump_form cur ll last v : is_spinner (po_obj cur) = false -> is_spinner (po_obj last) = false -> wrapped p d cur -> wrapped p d last -> wrap_object d (po_obj last) = Ok last -> leaves d (po_obj last) v ->
  fin (do_Jump (new_dobj d cur ll last)) /\ 0 <= B2R (do_Jump (new_dobj d cur ll last)) <= bpow radix2 p * 64 /\ Rabs (B2R (do_Jump (new_dobj d cur ll last)) - unit_scale (B2R (d_CircleRadius d)) * plane_dist v (stacked_start (po_obj cur) (d_Mods d))) <= bpow radix2 (p - 13).
Proof.
  intros NC NL (TC & CC & _) (TL & CL & LZ) W L. pose proof (cursor_leaves _ _ _ W L) as EV. unfold new_dobj. rewrite NC, NL. cbn [orb].
  assert (V1 : vbnd (p + 1) (stacked_start (po_obj cur) (d_Mods d))) by (apply (start_vbnd p d); [exact TC|lia]). rewrite EV in *.
  pose proof (jump_near d D (p + 1) _ _ ltac:(lia) V1 CL) as J. replace (p + 1 - 14)%Z with (p - 13)%Z in J by lia.
  destruct (scaling_ok d D) as (SB & _). destruct (vdst_bnd (p + 1 + 3) (vscl (stacked_start (po_obj cur) (d_Mods d)) (scaling_factor d)) (vscl v (scaling_factor d)) ltac:(lia)) as ((F & B) & P0); [apply vbnd_scl; [lia|exact V1|exact SB]|apply vbnd_scl; [lia|exact CL|exact SB]|].
  destruct (f_of_g_fin _ F) as (F' & E'). rewrite Rabs_pos_eq in B by exact P0. replace (p + 1 + 3 + 2)%Z with (p + 6)%Z in B by lia. rewrite bpow_plus in B. change (bpow radix2 6) with 64 in B. destruct (po_lazy last); cbn [do_Jump]; rewrite E'; auto.
Qed.
Lemma move_form cur ll last v : is_spinner (po_obj cur) = false -> is_spinner (po_obj last) = false -> is_slider (po_obj last) = true -> wrapped p d cur -> wrapped p d last -> wrap_object d (po_obj last) = Ok last -> leaves d (po_obj last) v ->
  let u := unit_scale (B2R (d_CircleRadius d)) in
  fle f0 (do_Movement (new_dobj d cur ll last)) = true /\
  Rabs (B2R (do_Movement (new_dobj d cur ll last)) - Rmax 0 (Rmin (u * plane_dist v (stacked_start (po_obj cur) (d_Mods d)) - 30) (u * plane_dist (stacked_end (po_obj last) (d_Mods d)) (stacked_start (po_obj cur) (d_Mods d)) - 120))) <= bpow radix2 (p - 12).
Proof.
  intros NC NL SL WC WL W L u. destruct (jump_form cur ll last v NC NL WC WL W L) as (FJ & BJ & J). fold u in J.
  destruct (lazy_kind _ _ W) as (_ & LK). unfold is_slider in SL. destruct (ho_kind (po_obj last)) as [| |sd] eqn:K; try discriminate SL. destruct (LK sd eq_refl) as (l & _ & PL).
  unfold new_dobj in *. rewrite NC, NL, PL in *. cbn [orb do_Jump do_Movement] in *. set (jump := f_of_g (vdst (vscl _ _) _)) in *. clearbody jump.
  destruct WC as (TC & _), WL as (TL & _).
  assert (VE : vbnd p (stacked_end (po_obj last) (d_Mods d))) by apply (ti_end _ _ _ TL). assert (VS : vbnd p (stacked_start (po_obj cur) (d_Mods d))) by apply (ti_start _ _ _ TC).
  set (e := stacked_end _ _) in *. set (c := stacked_start (po_obj cur) _) in *. clearbody e c.
  destruct (vdst_acc e c p ltac:(lia) VE VS) as (Fd & Pd & Ed). pose proof (geo_up p e c VE VS) as GU. assert (G0 : 0 <= geo e c) by apply nrm_pos.
  destruct (scaling_ok d D) as (SB & S0). pose proof (scaling_near d D) as SN. fold u in SN. set (s := scaling_factor d) in *. clearbody s u. rewrite (geo_dist e c). set (g := geo e c) in *. clearbody g. set (t := vdst e c) in *. clearbody t.
  destruct SB as (Fs & Bs). rewrite Rabs_pos_eq in Bs by exact S0. change (bpow radix2 3) with 8 in Bs. change (bpow radix2 (-21)) with (/ 2097152) in Ed.
  assert (T69 : bpow radix2 (-69) <= / 1000000000000) by (apply Rle_trans with (bpow radix2 (-40)); [apply bpow_le; lia|change (bpow radix2 (-40)) with (/ 1099511627776); lra]).
  assert (P1 : 1 <= bpow radix2 p) by (change 1 with (bpow radix2 0); apply bpow_le; lia). assert (E13 : bpow radix2 (p - 13) = bpow radix2 p * / 8192) by (unfold Z.sub; rewrite bpow_plus; reflexivity). assert (E12 : bpow radix2 (p - 12) = bpow radix2 p * / 4096) by (unfold Z.sub; rewrite bpow_plus; reflexivity).
  assert (B60 : bpow radix2 p * 64 <= bpow radix2 127) by (change 64 with (bpow radix2 6); rewrite <- bpow_plus; apply bpow_le; lia). assert (B70 : bpow radix2 p * 64 <= bpow radix2 1023) by (change 64 with (bpow radix2 6); rewrite <- bpow_plus; apply bpow_le; lia). rewrite E13 in J. rewrite E12.
  assert (B77 : 128 <= bpow radix2 127 - bpow radix2 p * 60). { apply Rle_trans with (bpow radix2 126); [apply Rle_trans with (bpow radix2 7); [change (bpow radix2 7) with 128; lra|apply bpow_le; lia]|]. assert (bpow radix2 p * 64 <= bpow radix2 126) by (change 64 with (bpow radix2 6); rewrite <- bpow_plus; apply bpow_le; lia). assert (bpow radix2 127 = bpow radix2 126 + bpow radix2 126) by exact (bpow_S 126). lra. }
  assert (Bt : 0 <= B2R t <= 5 * bpow radix2 p) by (apply Rabs_le_inv in Ed; lra).
  assert (TS : 0 <= B2R t * B2R s <= 40 * bpow radix2 p) by (split; [apply Rmult_le_pos; lra|apply Rle_trans with (5 * bpow radix2 p * 8); [apply Rmult_le_compat; lra|lra]]).
  destruct (gmul_fin _ _ Fd Fs) as (Fm & Em); [rewrite Rabs_pos_eq; lra|]. pose proof (rnd32_errR (B2R t * B2R s) (40 * bpow radix2 p) ltac:(rewrite Rabs_pos_eq; lra)) as E1. rewrite <- Em, u24 in E1. pose proof tiny150 as T150.
  destruct (gq1_exact 120) as (F120 & E120); [lia|]. assert (Bm : - bpow radix2 p <= B2R (gmul t s) <= 41 * bpow radix2 p) by (apply Rabs_le_inv in E1; lra).
  destruct (gsub_fin _ _ Fm F120) as (Fu & Eu); [rewrite E120; apply Rabs_le; lra|]. pose proof (rnd32_errR (B2R (gmul t s) - B2R (gq 120 1)) (121 + 41 * bpow radix2 p) ltac:(rewrite E120; apply Rabs_le; lra)) as E2. rewrite <- Eu, E120, u24 in E2.
  assert (X : Rabs (B2R t * B2R s - u * g) <= bpow radix2 p * (25 * / 524288)).
  { replace (B2R t * B2R s - u * g) with ((B2R t - g) * B2R s + (B2R s - u) * g) by ring.
    assert (Rabs ((B2R t - g) * B2R s) <= (4 * bpow radix2 p * / 2097152 + / 1000000000000) * 8) by (rewrite Rabs_mult, (Rabs_pos_eq (B2R s)) by lra; apply Rmult_le_compat; [apply Rabs_pos|lra|lra|lra]).
    assert (Rabs ((B2R s - u) * g) <= / 131072 * (4 * bpow radix2 p)) by (rewrite Rabs_mult, (Rabs_pos_eq g) by lra; apply Rmult_le_compat; [apply Rabs_pos|lra|lra|lra]). apply Rabs_le_inv in H, H0. apply Rabs_le. lra. }
  destruct (f_of_g_fin _ Fu) as (Fw & Ew). set (w := f_of_g (gsub _ _)) in *. assert (WE : Rabs (B2R w - (u * g - 120)) <= bpow radix2 p * / 15000). { rewrite Ew. apply Rabs_le_inv in E1, E2, X. apply Rabs_le. lra. } clearbody w.
  destruct (fq1_exact 30) as (F30 & E30); [lia|]. set (uj := u * plane_dist v c) in *.
  clearbody uj. set (ut := u * g) in *. clearbody ut.
  assert (B71 : bpow radix2 p * 64 + 30 <= bpow radix2 1023). { apply Rle_trans with (bpow radix2 p * 128); [lra|]. change 128 with (bpow radix2 7). rewrite <- bpow_plus. apply bpow_le. lia. }
  destruct (fsub_fin _ _ FJ F30) as (Fk & Ek); [rewrite E30; apply Rabs_le; lra|]. rewrite E30 in Ek.
  assert (KE : Rabs (B2R (fsub jump (fq 30 1)) - (uj - 30)) <= bpow radix2 p * / 5000).
  { pose proof (rnd64_err (B2R jump - 30) (p + 7) ltac:(lia)) as E. rewrite Ek. assert (E' : bpow radix2 (p + 7 - 53) <= bpow radix2 p * / 1000000) by (replace (p + 7 - 53)%Z with (p + -46)%Z by lia; rewrite bpow_plus; apply Rmult_le_compat_l; [lra|]; change (bpow radix2 (-46)) with (/ 70368744177664); lra).
    assert (Rabs (B2R jump - 30) <= bpow radix2 (p + 7)) by (rewrite bpow_plus; change (bpow radix2 7) with 128; apply Rabs_le; lra). specialize (E H). apply Rabs_le_inv in E, J. apply Rabs_le. lra. }
  set (k := fsub jump _) in *. clearbody k. destruct (fmin_fin _ _ Fk Fw) as (Fn & En). destruct (fmax_fin f0 _ eq_refl Fn) as (Fx & Ex). change (B2R f0) with 0 in Ex.
  split.
  - apply fle_iff. split; [reflexivity|]. split; [now apply fin_num|]. rewrite !(key_fin 53 1024) by (assumption || reflexivity). rewrite Ex. change (B2R f0) with 0. apply Rmax_l.
  - rewrite Ex, En. apply Rabs_le_inv in KE, WE. apply Rabs_le. unfold Rmax, Rmin. repeat destruct (Rle_dec _ _); lra.
Qed.
Lemma gabs_val (g : f32) : fin g -> - PI32 <= B2R g <= PI32 -> fin (gabs g) /\ B2R (gabs g) = Rabs (B2R g).
Proof.
  intros F B. unfold gabs. destruct (f_of_g_fin _ F) as (F1 & E1). destruct (fabs_fin _ F1) as (F2 & E2). rewrite E1 in E2. assert (RB : Rabs (B2R g) <= PI32) by (apply Rabs_le; lra).
  destruct (g_of_f_fin _ F2) as (F3 & E3); [rewrite E2, Rabs_Rabsolu; apply b127; lra|]. split; [exact F3|]. rewrite E3, E2.
  unfold Rabs. destruct (Rcase_abs _); [|apply rnd32_id]. pose proof (rnd32_id (gneg g)) as X. unfold gneg in X. rewrite B2R_Bopp in X. exact X.
Qed.
Section Pair2.
Context (objs : list hobj) (dos : list dobj) (i : nat) (a b : hobj) (o : dobj) (T : Forall (tidy p d) objs).
Context (C : create_difficulty_objects objs d = Ok dos) (HA : nth_error objs i = Some a) (HB : nth_error objs (S i) = Some b) (HO : nth_error dos i = Some o).
Lemma wrapped_at q : tidy p d (po_obj q) -> wrap_object d (po_obj q) = Ok q -> wrapped p d q.
Proof. intros H W. apply (wrap_wrapped PR p ltac:(lia) d D (po_obj q)); assumption. Qed.
(** The jump is the distance from where the last object leaves the cursor, in
    normalised px, up to rounding. *)
Theorem C70_jump : forall v, is_spinner a = false -> is_spinner b = false -> leaves d a v ->
  is_finite (do_Jump o) = true /\
  Rabs (B2R (do_Jump o) - unit_scale (B2R (d_CircleRadius d)) * plane_dist v (stacked_start b (d_Mods d))) <= bpow radix2 (p - 13).
Proof.
  intros v NA NB L. destruct (pair_facts _ _ _ _ _ _ _ C HA HB HO) as (ps & cur & last & _ & EB & EA & WB & WA & ->). rewrite Forall_forall in T. pose proof (T _ (nth_error_In _ _ HA)) as TA. pose proof (T _ (nth_error_In _ _ HB)) as TB.
  rewrite <- EA in *. rewrite <- EB in *. destruct (jump_form cur (earlier ps i) last v) as (F & _ & E); auto using wrapped_at.
Qed.
(** After a slider, movement starts at the edge of the follow circle: 30
    normalised px less than the jump and 120 less than the distance from the real
    end, but never below 0. *)
Theorem C70_movement : forall v, is_slider a = true -> is_spinner b = false -> leaves d a v ->
  let u := unit_scale (B2R (d_CircleRadius d)) in
  fle f0 (do_Movement o) = true /\
  Rabs (B2R (do_Movement o) - Rmax 0 (Rmin (u * plane_dist v (stacked_start b (d_Mods d)) - 30) (u * plane_dist (stacked_end a (d_Mods d)) (stacked_start b (d_Mods d)) - 120))) <= bpow radix2 (p - 12).
Proof.
  intros v SA NB L. destruct (pair_facts _ _ _ _ _ _ _ C HA HB HO) as (ps & cur & last & _ & EB & EA & WB & WA & ->). rewrite Forall_forall in T. pose proof (T _ (nth_error_In _ _ HA)) as TA. pose proof (T _ (nth_error_In _ _ HB)) as TB.
  assert (NA : is_spinner a = false) by (unfold is_slider, is_spinner in *; destruct (ho_kind a); try discriminate SA; reflexivity).
  rewrite <- EA in *. rewrite <- EB in *. apply (move_form cur (earlier ps i) last v); auto using wrapped_at.
Qed.
(** The angle is a number from 0 to pi if there are three objects, none of them a
    spinner, and not a number otherwise. *)
Theorem C70_angle : atan2_range ->
  (forall j z, i = S j -> nth_error objs j = Some z -> is_spinner z = false -> is_spinner a = false -> is_spinner b = false -> within 0 PI32 (do_Angle o)) /\
  (i = 0%nat \/ (exists j z, i = S j /\ nth_error objs j = Some z /\ is_spinner z = true) \/ is_spinner a = true \/ is_spinner b = true -> fisnan (do_Angle o) = true).
Proof.
  intros AT. destruct (pair_facts _ _ _ _ _ _ _ C HA HB HO) as (ps & cur & last & Hp' & EB & EA & WB & WA & ->). rewrite Forall_forall in T. pose proof (T _ (nth_error_In _ _ HA)) as TA. pose proof (T _ (nth_error_In _ _ HB)) as TB. split.
  - intros j z Ei Z NZ NA NB. destruct (wrapped_some _ _ _ _ _ Hp' Z) as (q & Nq & Eq). destruct (wrapped_nth _ _ _ _ _ Hp' Nq) as (_ & Wq). pose proof (T _ (nth_error_In _ _ Z)) as TZ. subst z. rewrite <- EA in *. rewrite <- EB in *.
    destruct (wrapped_at q TZ Wq) as (_ & CQ & _). destruct (wrapped_at last TA WA) as (_ & CL & _).
    assert (AN : within 0 PI32 (angle_of d cur q last)).
    { unfold angle_of. cbv zeta. assert (S1 : vbnd (p + 1) (stacked_start (po_obj last) (d_Mods d))) by (apply (start_vbnd p d); [exact TA|lia]). assert (S2 : vbnd (p + 1) (stacked_start (po_obj cur) (d_Mods d))) by (apply (start_vbnd p d); [exact TB|lia]).
      pose proof (vbnd_sub (p + 1) _ _ ltac:(lia) CQ S1) as V1. pose proof (vbnd_sub (p + 1) _ _ ltac:(lia) S2 CL) as V2. set (v1 := vsub _ _) in *. set (v2 := vsub (stacked_start (po_obj cur) _) _) in *. clearbody v1 v2. destruct V1 as (X1 & Y1), V2 as (X2 & Y2).
      assert (N1 : bnd (p + 1 + 1 + (p + 1 + 1) + 1) (gsub (gmul (vx v1) (vy v2)) (gmul (vy v1) (vx v2)))) by (apply bnd_sub; [lia| |]; apply bnd_mul; auto; lia).
      assert (N2 : bnd (p + 1 + 1 + (p + 1 + 1) + 1) (vdot v1 v2)) by (unfold vdot; apply bnd_add; [lia| |]; apply bnd_mul; auto; lia).
      destruct (gatan2_angle (gsub (gmul (vx v1) (vy v2)) (gmul (vy v1) (vx v2))) (vdot v1 v2) AT) as (F & B); [apply fin_num, N1|apply fin_num, N2|]. set (g := gatan2 _ _) in *. clearbody g.
      assert (GA : fin (gabs g) /\ B2R (gabs g) = Rabs (B2R g)) by (exact (gabs_val g F B)). destruct GA as (FG & EG). destruct (f_of_g_fin _ FG) as (F' & E'). split; [exact F'|]. rewrite E', EG. split; [apply Rabs_pos|apply Rabs_le; lra]. }
    unfold new_dobj. rewrite NA, NB, Ei. cbn [earlier orb]. rewrite Nq, NZ. destruct (po_lazy last); cbn [do_Angle]; exact AN.
  - intros H. unfold new_dobj. destruct (is_spinner (po_obj cur) || is_spinner (po_obj last)) eqn:SP; [reflexivity|]. apply orb_false_iff in SP as (S1 & S2). rewrite EB in S1. rewrite EA in S2.
    assert (X : match earlier ps i with Some ll => if is_spinner (po_obj ll) then fnan else angle_of d cur ll last | None => fnan end = fnan).
    { destruct H as [-> |[(j & z & -> & Z & SZ)|[X|X]]]; [reflexivity| |congruence|congruence]. destruct (wrapped_some _ _ _ _ _ Hp' Z) as (q & Nq & Eq). cbn [earlier]. rewrite Nq, Eq, SZ. reflexivity. }
    destruct (po_lazy last); cbn [do_Angle]; rewrite X; reflexivity.
Qed.
End Pair2.
End Accuracy.
Open Scope Z_scope.

(** ** Concrete cases *)
Definition small10 (x : f32) : bool := is_finite x && gle x (gq 1024 1) && gge x (gq (-1024) 1).
Lemma small10_ok x : small10 x = true -> bnd 10 x.
Proof.
  intros H. apply andb_true_iff in H as (H & L). apply andb_true_iff in H as (F & U). split; [exact F|]. destruct (gq1_exact 1024) as (F1 & E1); [lia|]. destruct (gq1_exact (-1024)) as (F2 & E2); [lia|].
  apply gle_iff in U as (_ & _ & U). apply gge_iff in L as (_ & _ & L). rewrite !(key_fin 24 128) in U, L by assumption. rewrite E1 in U. rewrite E2 in L. change (bpow radix2 10) with 1024%R. apply Rabs_le. lra.
Qed.
Lemma circle_tidy x y t : Z.abs t <= 2 ^ 30 -> small10 (vx (stacked_start (at_ms KCircle x y t) 0)) = true -> small10 (vy (stacked_start (at_ms KCircle x y t) 0)) = true -> @tidy 10 PropDiff.demo_diff (at_ms KCircle x y t).
Proof.
  intros T X Y. assert (V : vbnd 10 (stacked_start (at_ms KCircle x y t) 0)) by (split; now apply small10_ok). assert (E : d_Mods PropDiff.demo_diff = 0) by reflexivity. constructor; rewrite ?E.
  - exact V.
  - exact V.
  - intros u v _ H. unfold stacked_position_at in H. apply bind_ok in H as (q & H & H'). apply Ok_inj in H'. subst v. unfold position_at in H. cbn [at_ms ho_kind] in H. apply Ok_inj in H. subst q. exact V.
  - cbn [at_ms ho_start]. now apply ms_upto.
  - intros sd K. discriminate K.
Qed.
(** three circles on the playfield, then one at the place of the third *)
Definition four : list hobj := [at_ms KCircle 300 50 3000; at_ms KCircle 100 300 3100; at_ms KCircle 400 200 3190; at_ms KCircle 400 200 3290].
Lemma four_tidy : Forall (@tidy 10 PropDiff.demo_diff) four.
Proof. unfold four. repeat (apply Forall_cons; [apply circle_tidy; [lia|vm_compute; reflexivity|vm_compute; reflexivity]|]). constructor. Qed.
Lemma demo_clocked : clocked PropDiff.demo_diff.
Proof. assert (E : PropDiff.demo_diff = SpecDifficulty.built (fq 5 1) (fq 4 1) (fq 8 1) (fq 9 1) 0 (fq 1 1)) by (unfold PropDiff.demo_diff; rewrite new_built; reflexivity). rewrite E. exact (proj1 (diff_sane 0)). Qed.
Lemma calm_atan : @atan2_range calm_libm.
Proof.
  intros y x _ _. change (@matan2 calm_libm y x) with f0. split; vm_compute; reflexivity.
Qed.
(** a circle after a slider *)
Definition slid : list hobj := [long_slider; at_ms KCircle 300 50 3000].
Lemma slid_tidy : Forall (@tidy 32 PropDiff.demo_diff) slid.
Proof. pose proof demo_tidy as T. rewrite Forall_forall in T. repeat (apply Forall_cons; [apply T; unfold long_demo; repeat (try (left; reflexivity); right)|]). constructor. Qed.
Definition spacing (l : list dobj) : list (list Z * bool) := map (fun o => (map hundredths [do_Jump o; do_Movement o; do_Travel o; do_MovementTime o; do_TravelTime o], fisnan (do_Angle o))) l.
Example C70_instance : @pow_ranges calm_libm /\ @atan2_range calm_libm /\ clocked PropDiff.demo_diff /\ Forall (@tidy 10 PropDiff.demo_diff) four /\
  option_map spacing (view (@create_difficulty_objects calm_libm four PropDiff.demo_diff)) = Some [([43881; 43881; 0; 10000; 0], true); ([43342; 43342; 0; 9000; 0], false); ([0; 0; 0; 10000; 0], false)] /\
  Forall (@tidy 32 PropDiff.demo_diff) slid /\
  option_map spacing (view (@create_difficulty_objects calm_libm slid PropDiff.demo_diff)) = Some [([26353; 5817; 1964; 180000; 20000], true)].
Proof.
  split; [exact calm_pow|]. split; [exact calm_atan|]. split; [exact demo_clocked|]. split; [exact four_tidy|]. split; [vm_compute; reflexivity|]. split; [exact slid_tidy|]. vm_compute. reflexivity.
Qed.

Print Assumptions C70_spinner. Print Assumptions C70_after_circle. Print Assumptions C70_slider_times. Print Assumptions C70_jump. Print Assumptions C70_movement. Print Assumptions C70_angle.

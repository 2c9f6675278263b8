(** Two runs of the calculator whose difficulty objects differ only in ways
    the skills cannot see (proof scripts for C95). *)
From Coq Require Import Reals List Lia.
From Verif Require Import DiffCalc FloatLemmas SpecDiff SpecMoved.
Import ListNotations.
Open Scope Z_scope.

Section Sim.
Context {M : libm}.
Context (d d' : difficulty) (T E : f64 -> f64 -> Prop) (Q : vec -> vec -> Prop).
Definition first_end_of (t : f64) : f64 := fmul (fceil (fdiv t section_length)) section_length.
Record laws : Prop := {
  L_relax : check_mod d Relax = check_mod d' Relax;
  L_flash : check_mod d Flashlight = check_mod d' Flashlight;
  L_radius : d_CircleRadius d = d_CircleRadius d';
  L_window : fdiv (d_Hit300 d) (d_Speed d) = fdiv (d_Hit300 d') (d_Speed d');
  L_sub : forall a a' b b', T a a' -> T b b' -> fsub a b = fsub a' b';
  L_first : forall a a', T a a' -> E (first_end_of a) (first_end_of a');
  L_gt : forall t t' e e', T t t' -> E e e' -> fgt t e = fgt t' e';
  L_esub : forall e e' t t', E e e' -> T t t' -> fsub e t = fsub e' t';
  L_next : forall t t' e e', T t t' -> E e e' -> fgt t e = true -> E (fadd e section_length) (fadd e' section_length);
  L_dst : forall p p' q q', Q p p' -> Q q q' -> vdst p q = vdst p' q' }.
Context (L : laws).
Record alike (o o' : dobj) : Prop := {
  A_delta : do_DeltaTime o = do_DeltaTime o'; A_start : T (do_StartTime o) (do_StartTime o');
  A_jump : do_Jump o = do_Jump o'; A_movement : do_Movement o = do_Movement o';
  A_travel : do_Travel o = do_Travel o'; A_angle : do_Angle o = do_Angle o';
  A_mtime : do_MovementTime o = do_MovementTime o'; A_ttime : do_TravelTime o = do_TravelTime o';
  A_strain : do_StrainTime o = do_StrainTime o';
  A_spin : base_spinner o = base_spinner o'; A_lazy : base_lazy o = base_lazy o';
  A_pos : base_spinner o = false -> Q (stacked_start (po_obj (do_base o)) (d_Mods d)) (stacked_start (po_obj (do_base o')) (d_Mods d'));
  A_end : base_spinner o = false -> Q (stacked_end (po_obj (do_base o)) (d_Mods d)) (stacked_end (po_obj (do_base o')) (d_Mods d')) }.

Lemma aim_like ws prev prev' cur cur' : Forall2 alike prev prev' -> alike cur cur' -> aim_value ws prev cur = aim_value ws prev' cur'.
Proof.
  intros F C. destruct F as [|a a' l l' A F]; [reflexivity|]. destruct F as [|b b' l l' B F]; [reflexivity|]. clear F.
  unfold aim_value, aim_velocity, aim_angles, aim_velocity_change.
  rewrite (A_spin _ _ C), (A_spin _ _ A), (A_lazy _ _ A), (A_lazy _ _ B), (A_jump _ _ C), (A_jump _ _ A), (A_strain _ _ C), (A_strain _ _ A).
  rewrite (A_movement _ _ C), (A_movement _ _ A), (A_mtime _ _ C), (A_mtime _ _ A), (A_travel _ _ C), (A_travel _ _ A), (A_ttime _ _ C), (A_ttime _ _ A).
  rewrite (A_angle _ _ C), (A_angle _ _ A), (A_angle _ _ B). reflexivity.
Qed.
Lemma speed_like prev prev' cur cur' : Forall2 alike prev prev' -> alike cur cur' -> speed_value d prev cur = speed_value d' prev' cur'.
Proof.
  intros F C. unfold speed_value. rewrite (A_spin _ _ C), (A_travel _ _ C), (A_jump _ _ C), (A_strain _ _ C), (L_window L).
  destruct F as [|a a' l l' A F]; [reflexivity|]. rewrite (A_strain _ _ A). reflexivity.
Qed.
Lemma flash_loop_like cur cur' sc prev prev' : Forall2 alike prev prev' -> alike cur cur' -> base_spinner cur = false -> forall i small cum result,
  flash_loop d cur sc i small cum result prev = flash_loop d' cur' sc i small cum result prev'.
Proof.
  intros F C S. induction F as [|a a' l l' A F IH]; intros i small cum result; [reflexivity|]. cbn [flash_loop].
  rewrite <- (A_spin _ _ A). destruct (base_spinner a) eqn:Sa; [apply IH|].
  rewrite <- (L_dst L _ _ _ _ (A_pos _ _ C S) (A_end _ _ A Sa)), <- (A_strain _ _ A), <- (A_jump _ _ A). apply IH.
Qed.
Lemma flash_like prev prev' cur cur' : Forall2 alike prev prev' -> alike cur cur' -> flash_value d prev cur = flash_value d' prev' cur'.
Proof.
  intros F C. unfold flash_value. rewrite <- (A_spin _ _ C), <- (L_radius L). destruct (base_spinner cur) eqn:S; [reflexivity|].
  rewrite (flash_loop_like cur cur' _ _ _ F C S). reflexivity.
Qed.
Lemma strain_like k prev prev' cur cur' : Forall2 alike prev prev' -> alike cur cur' -> strain_value k d prev cur = strain_value k d' prev' cur'.
Proof. intros F C. destruct k; [apply aim_like|apply speed_like|apply flash_like]; assumption. Qed.

Definition rrel {A B} (P : A -> B -> Prop) (x : res A) (y : res B) : Prop :=
  match x, y with Ok a, Ok b => P a b | Panic, Panic => True | Hang, Hang => True | _, _ => False end.
Lemma rrel_bind {A B A' B'} (P : A -> A' -> Prop) (R : B -> B' -> Prop) x x' (f : A -> res B) (f' : A' -> res B') :
  rrel P x x' -> (forall a a', P a a' -> rrel R (f a) (f' a')) -> rrel R (bind x f) (bind x' f').
Proof. intros H K. destruct x, x'; cbn in *; try contradiction; auto. Qed.
Lemma rrel_eq {A} (x y : res A) : rrel eq x y <-> x = y.
Proof. split; [|intros ->; destruct y; cbn; auto]. destruct x, y; cbn; intros H; try contradiction; try reflexivity. now rewrite H. Qed.
Lemma idx_rel {A B} (P : A -> B -> Prop) l l' i : Forall2 P l l' -> rrel P (idx l i) (idx l' i).
Proof.
  intros F. unfold idx. destruct (i <? 0); [exact I|]. generalize (Z.to_nat i). induction F as [|a b l l' H F IH]; intros [|n]; cbn [nth_error]; try exact I; [exact H|apply IH].
Qed.
Lemma mapM_rel {A B A' B'} (P : A -> A' -> Prop) (R : B -> B' -> Prop) (f : A -> res B) (f' : A' -> res B') l l' :
  (forall a a', P a a' -> rrel R (f a) (f' a')) -> Forall2 P l l' -> rrel (Forall2 R) (mapM f l) (mapM f' l').
Proof.
  intros H F. induction F as [|a b l l' Hab F IH]; cbn [mapM]; [constructor|].
  apply (rrel_bind _ _ _ _ _ _ (H _ _ Hab)). intros x x' X. apply (rrel_bind _ _ _ _ _ _ IH). intros y y' Y. constructor; assumption.
Qed.
Lemma foldM_rel {S S' A A'} (P : S -> S' -> Prop) (R : A -> A' -> Prop) (f : S -> A -> res S) (f' : S' -> A' -> res S') l l' :
  (forall s s' a a', P s s' -> R a a' -> rrel P (f s a) (f' s' a')) -> Forall2 R l l' -> forall s s', P s s' -> rrel P (foldM f s l) (foldM f' s' l').
Proof.
  intros H F. induction F as [|a b l l' Hab F IH]; intros s s' Ps; cbn [foldM]; [exact Ps|].
  apply (rrel_bind _ _ _ _ _ _ (H _ _ _ _ Ps Hab)). exact IH.
Qed.

Lemma rhythm_step_like cur cur' w n i c c' p p' l l' r : alike cur cur' -> alike c c' -> alike p p' -> alike l l' ->
  rhythm_step cur w n i c p l r = rhythm_step cur' w n i c' p' l' r.
Proof.
  intros C A B D. unfold rhythm_step. rewrite (L_sub L _ _ _ _ (A_start _ _ C) (A_start _ _ A)), (A_strain _ _ A), (A_strain _ _ B), (A_strain _ _ D), (A_lazy _ _ A), (A_lazy _ _ B). reflexivity.
Qed.
Lemma rhythm_like cur cur' w prev prev' : alike cur cur' -> Forall2 alike prev prev' -> forall i r, rhythm_loop cur w prev i r = rhythm_loop cur' w prev' i r.
Proof.
  intros C F. induction i as [|i IH]; intros r; [reflexivity|]. cbn [rhythm_loop]. apply rrel_eq.
  apply (rrel_bind alike); [apply idx_rel, F|]. intros c c' A. apply (rrel_bind alike); [apply idx_rel, F|]. intros p p' B.
  apply (rrel_bind alike); [apply idx_rel, F|]. intros l l' D. apply rrel_eq. rewrite IH, (rhythm_step_like cur cur' w _ _ c c' p p' l l' r C A B D).
  f_equal. f_equal. clear - F. induction F; cbn; [reflexivity|]. now f_equal.
Qed.
Lemma bonus_like prev prev' cur cur' : Forall2 alike prev prev' -> alike cur cur' -> speed_bonus d prev cur = speed_bonus d' prev' cur'.
Proof.
  intros F C. unfold speed_bonus. rewrite (A_spin _ _ C), (L_window L), (rhythm_like cur cur' _ prev prev' C F).
  assert (Hl : length prev = length prev') by (clear - F; induction F; cbn; [reflexivity|now f_equal]). rewrite Hl. reflexivity.
Qed.

(** skills in the same state *)
Record sk_like (s s' : skill) : Prop := {
  K_prev : Forall2 alike (sk_prev s) (sk_prev s'); K_strain : sk_strain s = sk_strain s'; K_rhythm : sk_rhythm s = sk_rhythm s';
  K_peak : sk_peak s = sk_peak s'; K_peaks : sk_peaks s = sk_peaks s'; K_end : sk_prev s <> [] -> E (sk_end s) (sk_end s') }.
Lemma initial_like k s s' e e' : sk_like s s' -> E e e' -> initial_strain k s e = initial_strain k s' e'.
Proof.
  intros [F S R _ _ _] Ee. unfold initial_strain. destruct F as [|a a' l l' A F]; [reflexivity|].
  rewrite (L_esub L _ _ _ _ Ee (A_start _ _ A)), S, R. reflexivity.
Qed.
Lemma section_like k t t' : T t t' -> forall fuel s s', sk_like s s' -> E (sk_end s) (sk_end s') -> rrel (fun x y => sk_like x y /\ E (sk_end x) (sk_end y)) (section_loop fuel k t s) (section_loop fuel k t' s').
Proof.
  intros Ht. induction fuel as [|fuel IH]; intros s s' H Ee; cbn [section_loop]; rewrite <- (L_gt L _ _ _ _ Ht Ee); destruct (fgt t (sk_end s)) eqn:G; cbn [rrel]; try exact I; try (split; assumption).
  apply (rrel_bind eq); [apply rrel_eq, initial_like; assumption|]. intros p p' <-.
  pose proof (L_next L _ _ _ _ Ht Ee G) as N. destruct H as [F S R P Ps _]. apply IH; [constructor; cbn [sk_prev sk_strain sk_rhythm sk_peak sk_peaks sk_end]; auto; now rewrite Ps, P|exact N].
Qed.
Lemma firstn_rel {A B} (P : A -> B -> Prop) n : forall l l', Forall2 P l l' -> Forall2 P (firstn n l) (firstn n l').
Proof. induction n as [|n IH]; intros l l' F; [constructor|]. destruct F; cbn [firstn]; constructor; auto. Qed.
Lemma process_like fuel k s s' o o' : sk_like s s' -> alike o o' -> rrel sk_like (process fuel k d s o) (process fuel k d' s' o').
Proof.
  intros [F S R P Ps En] A. unfold process.
  pose proof (firstn_rel _ (history_length k) _ _ F) as Fp.
  assert (Ne : firstn (history_length k) (sk_prev s) <> [] -> sk_prev s <> []) by (intros H1 H2; apply H1; rewrite H2; now destruct k).
  set (prev := firstn (history_length k) (sk_prev s)) in *. set (prev' := firstn (history_length k) (sk_prev s')) in *.
  set (en := match prev with [] => _ | _ => _ end). set (en' := match prev' with [] => _ | _ => _ end).
  assert (Ee : E en en').
  { unfold en, en'. destruct Fp as [|a a' l l' _ _]; [exact (L_first L _ _ (A_start _ _ A))|]. apply En, Ne. discriminate. }
  clearbody en en' prev prev'.
  refine (rrel_bind _ _ _ _ _ _ (section_like k _ _ (A_start _ _ A) fuel _ _ _ _) _).
  - constructor; cbn [sk_prev sk_strain sk_rhythm sk_peak sk_peaks sk_end]; auto.
  - exact Ee.
  - intros u u' ([Fu Su Ru Pu Psu _] & Eu).
    apply (rrel_bind eq).
    + apply rrel_eq. destruct k; [now rewrite Ru| |now rewrite Ru]. apply bonus_like; assumption.
    + intros rh rh' <-. cbn [rrel]. constructor; cbn [sk_prev sk_strain sk_rhythm sk_peak sk_peaks sk_end].
      * constructor; assumption.
      * rewrite Su, (A_delta _ _ A), (strain_like k _ _ _ _ Fp A). reflexivity.
      * reflexivity.
      * rewrite Su, Pu, (A_delta _ _ A), (strain_like k _ _ _ _ Fp A). reflexivity.
      * exact Psu.
      * intros _. exact Eu.
Qed.
Lemma skill0_like : sk_like skill0 skill0.
Proof. constructor; cbn; auto. intros H. contradiction. Qed.
Definition orel {A B} (P : A -> B -> Prop) (x : option A) (y : option B) : Prop :=
  match x, y with Some a, Some b => P a b | None, None => True | _, _ => False end.
Record sks_like (s s' : skills) : Prop := {
  S_aim : sk_like (cs_aim s) (cs_aim s'); S_aimNS : sk_like (cs_aimNS s) (cs_aimNS s'); S_speed : sk_like (cs_speed s) (cs_speed s');
  S_flash : orel sk_like (cs_flash s) (cs_flash s') }.
Lemma flash_opt_like fuel f f' o o' : orel sk_like f f' -> alike o o' ->
  rrel (orel sk_like) (match f with Some f => rmap Some (process fuel Flash d f o) | None => Ok None end)
    (match f' with Some f => rmap Some (process fuel Flash d' f o') | None => Ok None end).
Proof.
  intros H A. destruct f, f'; cbn in H; try contradiction; [|exact I].
  pose proof (process_like fuel Flash _ _ _ _ H A) as K. destruct (process fuel Flash d s o), (process fuel Flash d' s0 o'); cbn in *; auto.
Qed.
Lemma process_all_like fuel s s' o o' : sks_like s s' -> alike o o' -> rrel sks_like (process_all fuel d s o) (process_all fuel d' s' o').
Proof.
  intros [S1 S2 S3 S4] A. unfold process_all.
  apply (rrel_bind _ _ _ _ _ _ (process_like fuel (Aim true) _ _ _ _ S1 A)). intros a a' Ha.
  apply (rrel_bind _ _ _ _ _ _ (process_like fuel (Aim false) _ _ _ _ S2 A)). intros n n' Hn.
  apply (rrel_bind _ _ _ _ _ _ (process_like fuel Speed _ _ _ _ S3 A)). intros p p' Hp.
  apply (rrel_bind _ _ _ _ _ _ (flash_opt_like fuel _ _ _ _ S4 A)). intros f f' Hf.
  constructor; assumption.
Qed.
Lemma value_like k s s' : sk_like s s' -> difficulty_value k s = difficulty_value k s'.
Proof. intros [_ _ _ P Ps _]. unfold difficulty_value, current_peaks. now rewrite P, Ps. Qed.
Lemma stars_like a b c e x : stars_from_raw a b c e d x = stars_from_raw a b c e d' x.
Proof. unfold stars_from_raw. rewrite (L_relax L), (L_flash L). reflexivity. Qed.
Lemma get_stars_like s s' a : sks_like s s' -> get_stars s d a = get_stars s' d' a.
Proof.
  intros [S1 S2 S3 S4]. unfold get_stars. rewrite stars_like, (value_like _ _ _ S1), (value_like _ _ _ S2), (value_like _ _ _ S3).
  destruct (cs_flash s), (cs_flash s'); cbn in S4; try contradiction; [now rewrite (value_like _ _ _ S4)|reflexivity].
Qed.
Lemma current_like s s' : sk_like s s' -> current_peaks s = current_peaks s'.
Proof. intros [_ _ _ P Ps _]. unfold current_peaks. now rewrite P, Ps. Qed.
Lemma get_peaks_like a a' s s' f f' : sk_like a a' -> sk_like s s' -> orel sk_like f f' -> get_peaks a s f d = get_peaks a' s' f' d'.
Proof.
  intros A S F. unfold get_peaks. rewrite (current_like _ _ A), (current_like _ _ S).
  replace (option_map current_peaks f') with (option_map current_peaks f) by (destruct f, f'; cbn in F; try contradiction; cbn; [now rewrite (current_like _ _ F)|reflexivity]).
  f_equal. apply rrel_eq. apply (fun H => proj2 (rrel_eq _ _) H).
  induction (seq 0 (length (current_peaks a'))) as [|i l IH]; [reflexivity|]. cbn [mapM].
  replace (total_peak d' (current_peaks a') (current_peaks s') (option_map current_peaks f) i) with (total_peak d (current_peaks a') (current_peaks s') (option_map current_peaks f) i).
  - rewrite IH. reflexivity.
  - unfold total_peak. apply rrel_eq. apply (rrel_bind eq); [apply rrel_eq; reflexivity|]. intros x ? <-. apply (rrel_bind eq); [apply rrel_eq; reflexivity|]. intros y ? <-.
    apply (rrel_bind eq); [apply rrel_eq; reflexivity|]. intros z ? <-. cbn [rrel]. now rewrite stars_like.
Qed.
Definition same_kind (o o' : hobj) : Prop := add_object o = add_object o'.
Lemma single_like fuel objs objs' dos dos' : Forall2 same_kind objs objs' -> Forall2 alike dos dos' -> forall i s s' a, sks_like s s' ->
  rrel (fun x y => sks_like (fst x) (fst y) /\ snd x = snd y) (single_loop fuel d s a objs dos i) (single_loop fuel d' s' a objs' dos' i).
Proof.
  intros K F. induction F as [|o o' l l' A F IH]; intros i s s' a S; cbn [single_loop]; [split; [exact S|reflexivity]|].
  apply (rrel_bind same_kind); [apply idx_rel, K|]. intros h h' Hh. apply (rrel_bind _ _ _ _ _ _ (process_all_like fuel _ _ _ _ S A)). intros u u' U. rewrite Hh. apply IH, U.
Qed.
Lemma step_like fuel objs objs' dos dos' : Forall2 same_kind objs objs' -> Forall2 alike dos dos' -> forall i s s' a, sks_like s s' ->
  rrel (fun x y => sks_like (fst x) (fst y) /\ snd x = snd y) (step_loop fuel d s a objs dos i) (step_loop fuel d' s' a objs' dos' i).
Proof.
  intros K F. induction F as [|o o' l l' A F IH]; intros i s s' a S; cbn [step_loop]; [split; [exact S|reflexivity]|].
  apply (rrel_bind eq); [apply rrel_eq; reflexivity|]. intros x ? <-.
  apply (rrel_bind same_kind); [apply idx_rel, K|]. intros h h' Hh. apply (rrel_bind _ _ _ _ _ _ (process_all_like fuel _ _ _ _ S A)). intros u u' U.
  rewrite Hh, (get_stars_like _ _ _ U). apply IH, U.
Qed.
Lemma new_like : sks_like (new_skills d) (new_skills d').
Proof. unfold new_skills. rewrite (L_flash L). constructor; cbn [cs_aim cs_aimNS cs_speed cs_flash]; [apply skill0_like|apply skill0_like|apply skill0_like|]. destruct (check_mod d' Flashlight); [apply skill0_like|exact I]. Qed.
Lemma peaks_step_like fuel s s' o o' : (let '(a, p, f) := s in let '(a', p', f') := s' in sk_like a a' /\ sk_like p p' /\ orel sk_like f f') -> alike o o' ->
  rrel (fun s s' => let '(a, p, f) := s in let '(a', p', f') := s' in sk_like a a' /\ sk_like p p' /\ orel sk_like f f') (peaks_step fuel d s o) (peaks_step fuel d' s' o').
Proof.
  destruct s as [[a p] f], s' as [[a' p'] f']. intros (Ha & Hp & Hf) A. unfold peaks_step.
  apply (rrel_bind _ _ _ _ _ _ (process_like fuel (Aim true) _ _ _ _ Ha A)). intros x x' Hx.
  apply (rrel_bind _ _ _ _ _ _ (process_like fuel Speed _ _ _ _ Hp A)). intros y y' Hy.
  apply (rrel_bind _ _ _ _ _ _ (flash_opt_like fuel _ _ _ _ Hf A)). intros z z' Hz. cbn [rrel]. auto.
Qed.

Lemma results_like fuel objs objs' : Forall2 same_kind objs objs' -> rrel (Forall2 alike) (create_difficulty_objects objs d) (create_difficulty_objects objs' d') ->
  all_results fuel objs d = all_results fuel objs' d'.
Proof.
  intros K C. unfold all_results.
  assert (H1 : rrel (fun x y => fst x = fst y /\ sks_like (snd x) (snd y)) (calculate_single_full fuel objs d) (calculate_single_full fuel objs' d')).
  { unfold calculate_single_full. apply (rrel_bind _ _ _ _ _ _ C). intros dos dos' D. apply (rrel_bind same_kind); [apply idx_rel, K|]. intros h h' Hh. rewrite Hh.
    apply (rrel_bind _ _ _ _ _ _ (single_like fuel _ _ _ _ K D 0%nat _ _ _ new_like)). intros x y (X & Y). cbn. rewrite Y, (get_stars_like _ _ _ X). auto. }
  assert (H2 : rrel (fun x y => fst x = fst y /\ sks_like (snd x) (snd y)) (calculate_step_full fuel objs d) (calculate_step_full fuel objs' d')).
  { unfold calculate_step_full. apply (rrel_bind _ _ _ _ _ _ C). intros dos dos' D. apply (rrel_bind same_kind); [apply idx_rel, K|]. intros h h' Hh. rewrite Hh.
    apply (rrel_bind _ _ _ _ _ _ (step_like fuel _ _ _ _ K D 0%nat _ _ _ new_like)). intros x y (X & Y). cbn. rewrite Y. auto. }
  assert (H3 : calculate_strain_peaks fuel objs d = calculate_strain_peaks fuel objs' d').
  { unfold calculate_strain_peaks. apply rrel_eq. apply (rrel_bind _ _ _ _ _ _ C). intros dos dos' D.
    refine (rrel_bind _ _ _ _ _ _ (foldM_rel _ _ _ _ _ _ (peaks_step_like fuel) D _ _ _) _).
    - rewrite (L_flash L). split; [apply skill0_like|split; [apply skill0_like|]]. destruct (check_mod d' Flashlight); [apply skill0_like|exact I].
    - intros [[a p] f] [[a' p'] f'] (Ha & Hp & Hf). apply rrel_eq. apply get_peaks_like; assumption. }
  rewrite H3. f_equal. f_equal; [f_equal; [f_equal|]|].
  - unfold calculate_single. destruct (calculate_single_full fuel objs d), (calculate_single_full fuel objs' d'); cbn in *; try contradiction; try reflexivity. now rewrite (proj1 H1).
  - unfold calculate_single_with_peaks. apply rrel_eq. apply (rrel_bind _ _ _ _ _ _ H1). intros x y (X & [Y1 Y2 Y3 Y4]). rewrite X, (get_peaks_like _ _ _ _ _ _ Y1 Y3 Y4). apply rrel_eq. reflexivity.
  - unfold calculate_step. destruct (calculate_step_full fuel objs d), (calculate_step_full fuel objs' d'); cbn in *; try contradiction; try reflexivity. now rewrite (proj1 H2).
  - unfold calculate_step_with_peaks. apply rrel_eq. apply (rrel_bind _ _ _ _ _ _ H2). intros x y (X & [Y1 Y2 Y3 Y4]). rewrite X, (get_peaks_like _ _ _ _ _ _ Y1 Y3 Y4). apply rrel_eq. reflexivity.
Qed.
End Sim.

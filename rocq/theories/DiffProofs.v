(** The loops of the difficulty calculator. *)
From Coq Require Import Reals Lra.
From Flocq Require Import BinarySingleNaN.
From Verif Require Import DiffCalc SpecDiff BaseLemmas FloatLemmas CurveProofs CurveStart.
Open Scope Z_scope.

Section WithLibm.
Context {M : libm}.

(** ** Preprocessing of a prefix *)
Lemma mapM_firstn {A B} (f : A -> res B) l : forall ys n, mapM f l = Ok ys -> mapM f (firstn n l) = Ok (firstn n ys).
Proof.
  induction l as [|x l IH]; intros ys [|n] H; cbn [mapM] in H; try reflexivity.
  - apply Ok_inj in H. now subst.
  - apply bind_ok in H as (y & Hy & H). apply bind_ok in H as (ys' & Hys & H). apply Ok_inj in H. subst ys.
    cbn [firstn mapM]. rewrite Hy. cbn [bind]. now rewrite (IH _ n Hys).
Qed.
Lemma diff_objects_length d l : forall ll last, length (diff_objects d ll last l) = length l.
Proof. induction l as [|c l IH]; intros ll last; [reflexivity|]. cbn [diff_objects length]. now rewrite IH. Qed.
Lemma diff_objects_firstn d l : forall ll last n, diff_objects d ll last (firstn n l) = firstn n (diff_objects d ll last l).
Proof. induction l as [|c l IH]; intros ll last [|n]; try reflexivity. cbn [firstn diff_objects]. now rewrite IH. Qed.
Lemma create_length objs d dos : create_difficulty_objects objs d = Ok dos -> length dos = (length objs - 1)%nat.
Proof.
  intros H. unfold create_difficulty_objects in H. apply bind_ok in H as (ps & Hp & H). apply Ok_inj in H. subst dos. apply mapM_length in Hp. rewrite <- Hp.
  destruct ps as [|p r]; [reflexivity|]. rewrite diff_objects_length. cbn [length]. lia.
Qed.
Lemma create_firstn objs d dos n : create_difficulty_objects objs d = Ok dos ->
  create_difficulty_objects (firstn (S n) objs) d = Ok (firstn n dos).
Proof.
  intros H. unfold create_difficulty_objects in *. apply bind_ok in H as (ps & Hp & H). apply Ok_inj in H. subst dos.
  rewrite (mapM_firstn _ _ _ (S n) Hp). cbn [bind]. destruct ps as [|p r]; [now destruct n|]. cbn [firstn]. now rewrite diff_objects_firstn.
Qed.

(** ** Attributes *)
Definition same_counts (a b : attributes) : Prop :=
  at_ObjectCount a = at_ObjectCount b /\ at_Circles a = at_Circles b /\ at_Sliders a = at_Sliders b /\
  at_Spinners a = at_Spinners b /\ at_MaxCombo a = at_MaxCombo b.
Lemma stars_counts r1 r2 r3 r4 d a b : same_counts a b -> stars_from_raw r1 r2 r3 r4 d a = stars_from_raw r1 r2 r3 r4 d b.
Proof. intros (E1 & E2 & E3 & E4 & E5). unfold stars_from_raw. now rewrite E1, E2, E3, E4, E5. Qed.
Lemma stars_same s d a : same_counts (get_stars s d a) a.
Proof. unfold get_stars, stars_from_raw, same_counts. cbn [at_ObjectCount at_Circles at_Sliders at_Spinners at_MaxCombo]. auto. Qed.
Lemma get_stars_counts s d a b : same_counts a b -> get_stars s d a = get_stars s d b.
Proof. intros H. unfold get_stars. now apply stars_counts. Qed.
Lemma add_counts o a b : same_counts a b -> same_counts (add_object o a) (add_object o b).
Proof.
  intros (E1 & E2 & E3 & E4 & E5). unfold add_object, same_counts. destruct (ho_kind o); cbn [at_ObjectCount at_Circles at_Sliders at_Spinners at_MaxCombo];
    repeat split; congruence.
Qed.
Lemma same_trans a b c : same_counts a b -> same_counts b c -> same_counts a c.
Proof. intros (E1 & E2 & E3 & E4 & E5) (F1 & F2 & F3 & F4 & F5). repeat split; congruence. Qed.
Lemma same_refl a : same_counts a a. Proof. repeat split. Qed.
Definition add_all (a : attributes) (l : list hobj) : attributes := fold_left (fun a o => add_object o a) l a.
Lemma add_all_same l : forall a b, same_counts a b -> same_counts (add_all a l) (add_all b l).
Proof. induction l as [|o l IH]; intros a b H; [exact H|]. cbn [add_all fold_left]. apply IH. now apply add_counts. Qed.
Lemma how_many_cons f o l : how_many f (o :: l) = (if f o then 1 else 0) + how_many f l.
Proof. unfold how_many, zlen. cbn [filter]. destruct (f o); cbn [length]; lia. Qed.
Lemma zlen_cons {A} (x : A) l : zlen (x :: l) = zlen l + 1. Proof. unfold zlen. cbn [length]. lia. Qed.
Lemma counts_add l : forall a,
  at_ObjectCount (add_all a l) = at_ObjectCount a + zlen l /\
  at_Circles (add_all a l) = at_Circles a + how_many (fun o => match ho_kind o with KCircle => true | _ => false end) l /\
  at_Sliders (add_all a l) = at_Sliders a + how_many (fun o => match ho_kind o with KSlider _ => true | _ => false end) l /\
  at_Spinners (add_all a l) = at_Spinners a + how_many (fun o => match ho_kind o with KSpinner => true | _ => false end) l /\
  at_MaxCombo (add_all a l) = at_MaxCombo a + zlen l + sum_points l.
Proof.
  induction l as [|o l IH]; intros a.
  - unfold add_all, how_many, zlen. cbn. rewrite !Z.add_0_r. auto.
  - destruct (IH (add_object o a)) as (H1 & H2 & H3 & H4 & H5). change (add_all a (o :: l)) with (add_all (add_object o a) l).
    rewrite H1, H2, H3, H4, H5, !how_many_cons, zlen_cons. cbn [sum_points fold_right]. fold (sum_points l). unfold add_object, score_points.
    destruct (ho_kind o); cbn [at_ObjectCount at_Circles at_Sliders at_Spinners at_MaxCombo]; lia.
Qed.
Lemma counts_all l : counts_of l (add_all attr0 l).
Proof. destruct (counts_add l attr0) as (H1 & H2 & H3 & H4 & H5). unfold counts_of. now rewrite H1, H2, H3, H4, H5. Qed.
Lemma counts_same l a b : same_counts a b -> counts_of l a -> counts_of l b.
Proof. unfold same_counts, counts_of. intros (E1 & E2 & E3 & E4 & E5). now rewrite E1, E2, E3, E4, E5. Qed.

(** ** The loops as folds *)
Lemma idx_mid {A} (pre : list A) h rest i : length pre = S i -> idx (pre ++ h :: rest) (Z.of_nat i + 1) = Ok h.
Proof. intros L. replace (Z.of_nat i + 1) with (Z.of_nat (length pre)) by lia. apply idx_app. Qed.
Lemma single_fold fuel d dos : forall s a pre rest i, length pre = S i -> length rest = length dos ->
  single_loop fuel d s a (pre ++ rest) dos i = let* s' := foldM (process_all fuel d) s dos in Ok (s', add_all a rest).
Proof.
  induction dos as [|o dos IH]; intros s a pre rest i L1 L2; cbn [single_loop foldM].
  - destruct rest; [reflexivity|discriminate L2].
  - destruct rest as [|h rest]; [discriminate L2|]. rewrite (idx_mid pre h rest i L1). cbn [bind].
    destruct (process_all fuel d s o) as [s'| |]; cbn [bind]; [|reflexivity|reflexivity].
    replace (pre ++ h :: rest) with ((pre ++ [h]) ++ rest) by now rewrite <- app_assoc.
    change (add_all a (h :: rest)) with (add_all (add_object h a) rest).
    apply (IH s' (add_object h a) (pre ++ [h]) rest (S i)); [rewrite app_length; cbn [length]; lia|cbn [length] in L2; lia].
Qed.
Lemma step_fold fuel d dos : forall s a0 stars a pre rest i, length pre = S i -> length rest = length dos -> length stars = i -> same_counts a0 a ->
  match foldM (process_all fuel d) s dos with
  | Ok sf => exists l, step_loop fuel d s (stars ++ [a0]) (pre ++ rest) dos i = Ok (sf, stars ++ a0 :: l) /\ length l = length dos /\
      (forall j, (j < length dos)%nat -> exists sj, foldM (process_all fuel d) s (firstn (S j) dos) = Ok sj /\
        nth_error l j = Some (get_stars sj d (add_all a (firstn (S j) rest))))
  | Panic => step_loop fuel d s (stars ++ [a0]) (pre ++ rest) dos i = Panic
  | Hang => step_loop fuel d s (stars ++ [a0]) (pre ++ rest) dos i = Hang
  end.
Proof.
  induction dos as [|o dos IH]; intros s a0 stars a pre rest i L1 L2 L3 SC; cbn [foldM step_loop].
  - exists []. split; [reflexivity|]. split; [reflexivity|]. cbn [length]. lia.
  - destruct rest as [|h rest]; [discriminate L2|].
    assert (EI : idx (stars ++ [a0]) (Z.of_nat i) = Ok a0) by (rewrite <- L3; apply idx_app).
    rewrite EI. cbn [bind]. rewrite (idx_mid pre h rest i L1). cbn [bind].
    destruct (process_all fuel d s o) as [s'| |] eqn:EP; cbn [bind]; [|reflexivity|reflexivity].
    replace (pre ++ h :: rest) with ((pre ++ [h]) ++ rest) by now rewrite <- app_assoc.
    specialize (IH s' (get_stars s' d (add_object h a0)) (stars ++ [a0]) (add_object h a) (pre ++ [h]) rest (S i)).
    specialize (IH ltac:(rewrite app_length; cbn [length]; lia) ltac:(cbn [length] in L2; lia) ltac:(rewrite app_length; cbn [length]; lia)).
    specialize (IH (same_trans _ _ _ (stars_same _ _ _) (add_counts h _ _ SC))).
    destruct (foldM (process_all fuel d) s' dos) as [sf| |]; [|exact IH|exact IH].
    destruct IH as (l & E & LL & N). exists (get_stars s' d (add_object h a0) :: l). split; [rewrite E; f_equal; f_equal; now rewrite <- app_assoc|].
    split; [cbn [length]; lia|]. intros [|j] Hj.
    + exists s'. cbn [firstn foldM nth_error]. rewrite EP. cbn [bind]. split; [reflexivity|]. f_equal. apply get_stars_counts. cbn [add_all fold_left]. now apply add_counts.
    + destruct (N j ltac:(cbn [length] in Hj; lia)) as (sj & E1 & E2). exists sj. change (firstn (S (S j)) (o :: dos)) with (o :: firstn (S j) dos).
      change (firstn (S (S j)) (h :: rest)) with (h :: firstn (S j) rest). cbn [foldM nth_error]. rewrite EP. cbn [bind]. auto.
Qed.
(** the two calculators on a nonempty list *)
Lemma single_full_eq fuel o r d dos : create_difficulty_objects (o :: r) d = Ok dos ->
  calculate_single_full fuel (o :: r) d =
    let* s := foldM (process_all fuel d) (new_skills d) dos in Ok (get_stars s d (add_all attr0 (o :: r)), s).
Proof.
  intros H. unfold calculate_single_full. rewrite H. cbn [bind idx Z.ltb Z.compare Z.to_nat nth_error]. apply create_length in H. cbn [length] in H.
  change (o :: r) with ([o] ++ r) at 1. rewrite single_fold; [|reflexivity|lia]. destruct (foldM _ _ _); reflexivity.
Qed.
Lemma step_full_eq fuel o r d dos : create_difficulty_objects (o :: r) d = Ok dos ->
  match foldM (process_all fuel d) (new_skills d) dos with
  | Ok sf => exists l, calculate_step_full fuel (o :: r) d = Ok (add_object o attr0 :: l, sf) /\ length l = length dos /\
      (forall j, (j < length dos)%nat -> exists sj, foldM (process_all fuel d) (new_skills d) (firstn (S j) dos) = Ok sj /\
        nth_error l j = Some (get_stars sj d (add_all attr0 (firstn (S (S j)) (o :: r)))))
  | Panic => calculate_step_full fuel (o :: r) d = Panic
  | Hang => calculate_step_full fuel (o :: r) d = Hang
  end.
Proof.
  intros H. unfold calculate_step_full. rewrite H. cbn [bind idx Z.ltb Z.compare Z.to_nat nth_error]. apply create_length in H. cbn [length] in H.
  pose proof (step_fold fuel d dos (new_skills d) (add_object o attr0) [] (add_object o attr0) [o] r 0 eq_refl ltac:(lia) eq_refl (same_refl _)) as S.
  cbn [app] in S. destruct (foldM _ _ dos) as [sf| |]; [|now rewrite S|now rewrite S].
  destruct S as (l & E & LL & N). exists l. rewrite E. split; [reflexivity|]. split; [exact LL|exact N].
Qed.

(** ** Peaks *)
(** the part of a skill that decides the number of sections *)
Definition in_step (s t : skill) : Prop :=
  sk_end s = sk_end t /\ length (sk_peaks s) = length (sk_peaks t) /\ (sk_prev s = [] <-> sk_prev t = []).
Lemma initial_in_step k k' s t time : in_step s t -> outcome_of (initial_strain k s time) = outcome_of (initial_strain k' t time).
Proof. intros (_ & _ & P). unfold initial_strain. destruct (sk_prev s), (sk_prev t); try reflexivity; destruct P as [P1 P2]; [specialize (P1 eq_refl)|specialize (P2 eq_refl)]; discriminate. Qed.
Definition lock (r1 r2 : res skill) : Prop :=
  match r1, r2 with Ok s, Ok t => in_step s t | Panic, Panic => True | Hang, Hang => True | _, _ => False end.
Lemma section_in_step k k' start fuel : forall s t, in_step s t -> lock (section_loop fuel k start s) (section_loop fuel k' start t).
Proof.
  induction fuel as [|fuel IH]; intros s t I; cbn [section_loop]; pose proof I as (E & L & P); rewrite <- E; (destruct (fgt start (sk_end s)); [|exact I]).
  - exact Logic.I.
  - pose proof (initial_in_step k k' s t (sk_end s) I) as O. destruct (initial_strain k s (sk_end s)), (initial_strain k' t (sk_end s)); cbn in O; try discriminate O; cbn [bind]; try exact Logic.I.
    apply IH. split; [reflexivity|]. cbn [sk_peaks sk_prev]. split; [rewrite !app_length; cbn [length]; lia|exact P].
Qed.
Lemma rhythm_ok cur w prev i : forall r, (i + 2 <= length prev)%nat \/ i = O -> exists r', rhythm_loop cur w prev i r = Ok r'.
Proof.
  induction i as [|i IH]; intros r H; cbn [rhythm_loop]; [eauto|]. destruct H as [H|H]; [|discriminate].
  destruct (idx_range prev (Z.of_nat (S i) - 1)) as (c & -> & _); [unfold zlen; lia|]. cbn [bind].
  destruct (idx_range prev (Z.of_nat (S i))) as (p & -> & _); [unfold zlen; lia|]. cbn [bind].
  destruct (idx_range prev (Z.of_nat (S i) + 1)) as (q & -> & _); [unfold zlen; lia|]. cbn [bind]. apply IH. lia.
Qed.
Lemma speed_bonus_ok d prev cur : exists b, speed_bonus d prev cur = Ok b.
Proof.
  unfold speed_bonus. destruct (base_spinner cur); [eauto|].
  match goal with |- context [rhythm_loop cur ?w prev ?i ?r] => destruct (rhythm_ok cur w prev i r) as (r' & ->); [lia|] end. cbn [bind]. eauto.
Qed.
Lemma history_pos k : exists n, history_length k = S n.
Proof. destruct k; cbn; eauto. Qed.
Lemma firstn_nil_iff {A} n (l : list A) : firstn (S n) l = [] <-> l = [].
Proof. destruct l; cbn; split; intros; congruence. Qed.
Lemma section_prev k start fuel : forall s s', section_loop fuel k start s = Ok s' ->
  sk_prev s' = sk_prev s /\ sk_strain s' = sk_strain s /\ sk_rhythm s' = sk_rhythm s.
Proof.
  induction fuel as [|fuel IH]; intros s s' H; cbn [section_loop] in H; (destruct (fgt _ _); [|apply Ok_inj in H; now subst]); [discriminate H|].
  apply bind_ok in H as (p & _ & H). apply IH in H. exact H.
Qed.
Lemma process_in_step fuel k k' d s t o : in_step s t -> lock (process fuel k d s o) (process fuel k' d t o).
Proof.
  intros (E & L & P). unfold process. destruct (history_pos k) as (n & ->). destruct (history_pos k') as (n' & ->).
  set (ps := firstn (S n) (sk_prev s)). set (pt := firstn (S n') (sk_prev t)).
  assert (PN : ps = [] <-> pt = []) by (unfold ps, pt; rewrite !firstn_nil_iff; exact P). clearbody ps pt. clear P.
  match goal with |- lock (bind (section_loop fuel k ?st ?s0) _) (bind (section_loop fuel k' ?st ?t0) _) => pose proof (section_in_step k k' st fuel s0 t0) as S end.
  match type of S with ?A -> _ => assert (I : A) end.
  { split; [|split; [exact L|exact PN]]. cbn [sk_end]. destruct ps, pt; try reflexivity; try exact E; destruct PN as [P1 P2]; [specialize (P1 eq_refl)|specialize (P2 eq_refl)]; discriminate. }
  specialize (S I). clear I.
  match goal with |- lock (bind ?a _) (bind ?b _) => destruct a as [s1| |], b as [t1| |]; cbn [lock] in S; try contradiction; cbn [bind]; try exact Logic.I end.
  destruct S as (E1 & L1 & P1).
  assert (B1 : forall r, exists rh, match k with Speed => speed_bonus d ps o | _ => Ok r end = Ok rh) by (intros r; destruct k; [eauto|apply speed_bonus_ok|eauto]).
  assert (B2 : forall r, exists rh, match k' with Speed => speed_bonus d pt o | _ => Ok r end = Ok rh) by (intros r; destruct k'; [eauto|apply speed_bonus_ok|eauto]).
  destruct (B1 (sk_rhythm s1)) as (r1 & ->). destruct (B2 (sk_rhythm t1)) as (r2 & ->). cbn [bind lock]. split; [exact E1|]. split; [exact L1|]. cbn [sk_prev]. split; discriminate.
Qed.
(** all skills advance together *)
Definition all_in_step (s : skills) : Prop :=
  in_step (cs_aim s) (cs_aimNS s) /\ in_step (cs_aim s) (cs_speed s) /\ match cs_flash s with Some f => in_step (cs_aim s) f | None => True end.
Lemma in_step_refl s : in_step s s. Proof. repeat split; auto. Qed.
Lemma new_in_step d : all_in_step (new_skills d).
Proof. unfold all_in_step, new_skills. cbn [cs_aim cs_aimNS cs_speed cs_flash]. destruct (check_mod d Flashlight); repeat split; auto. Qed.
Definition proj (s : skills) : skill * skill * option skill := (cs_aim s, cs_speed s, cs_flash s).
Lemma process_all_in_step fuel d s o : all_in_step s ->
  match process_all fuel d s o with
  | Ok s' => all_in_step s' /\ peaks_step fuel d (proj s) o = Ok (proj s')
  | Panic => peaks_step fuel d (proj s) o = Panic
  | Hang => peaks_step fuel d (proj s) o = Hang
  end.
Proof.
  intros (A1 & A2 & A3). unfold process_all, peaks_step, proj.
  pose proof (process_in_step fuel (Aim true) (Aim false) d _ _ o A1) as S1. pose proof (process_in_step fuel (Aim true) Speed d _ _ o A2) as S2.
  assert (S3 : match cs_flash s with Some f => lock (process fuel (Aim true) d (cs_aim s) o) (process fuel Flash d f o) | None => True end).
  { destruct (cs_flash s) as [f|]; [|exact Logic.I]. now apply process_in_step. }
  destruct (process fuel (Aim true) d (cs_aim s) o) as [a| |]; cbn [bind]; [|reflexivity|reflexivity].
  destruct (process fuel (Aim false) d (cs_aimNS s) o) as [n| |]; cbn [lock] in S1; try contradiction; cbn [bind].
  destruct (process fuel Speed d (cs_speed s) o) as [p| |]; cbn [lock] in S2; try contradiction; cbn [bind].
  destruct (cs_flash s) as [f|]; [|cbn [bind]; unfold all_in_step; cbn [cs_aim cs_aimNS cs_speed cs_flash]; auto].
  destruct (process fuel Flash d f o) as [f'| |]; cbn [lock] in S3; try contradiction; cbn [rmap bind].
  unfold all_in_step; cbn [cs_aim cs_aimNS cs_speed cs_flash]; auto.
Qed.
Lemma fold_in_step fuel d dos : forall s, all_in_step s ->
  match foldM (process_all fuel d) s dos with
  | Ok s' => all_in_step s' /\ foldM (peaks_step fuel d) (proj s) dos = Ok (proj s')
  | Panic => foldM (peaks_step fuel d) (proj s) dos = Panic
  | Hang => foldM (peaks_step fuel d) (proj s) dos = Hang
  end.
Proof.
  induction dos as [|o dos IH]; intros s A; cbn [foldM]; [auto|].
  pose proof (process_all_in_step fuel d s o A) as P. destruct (process_all fuel d s o) as [s'| |]; cbn [bind].
  - destruct P as (A' & ->). cbn [bind]. now apply IH.
  - now rewrite P.
  - now rewrite P.
Qed.

(** ** The entry points *)
Lemma idx0_nil {A} : idx (@nil A) 0 = Panic. Proof. reflexivity. Qed.
Lemma create_nil d : create_difficulty_objects [] d = Ok []. Proof. reflexivity. Qed.
Lemma single_nil fuel d : calculate_single_full fuel [] d = Panic. Proof. reflexivity. Qed.
Lemma step_nil fuel d : calculate_step_full fuel [] d = Panic. Proof. reflexivity. Qed.

Lemma step_facts fuel objs d l : calculate_step fuel objs d = Ok l ->
  length l = length objs /\
  (forall i a, (1 <= i)%nat -> nth_error l i = Some a -> calculate_single fuel (firstn (S i) objs) d = Ok a) /\
  (exists o r a, objs = o :: r /\ nth_error l 0 = Some a /\ no_ratings a /\ counts_of [o] a).
Proof.
  intros H. unfold calculate_step, rmap in H. apply bind_ok in H as ((l' & sf) & H & E). apply Ok_inj in E. cbn [fst] in E. subst l'.
  destruct objs as [|o r]; [rewrite step_nil in H; discriminate H|].
  destruct (create_difficulty_objects (o :: r) d) as [dos| |] eqn:C; [|unfold calculate_step_full in H; rewrite C in H; discriminate H|unfold calculate_step_full in H; rewrite C in H; discriminate H].
  pose proof (step_full_eq fuel o r d dos C) as S. destruct (foldM (process_all fuel d) (new_skills d) dos) as [sf'| |] eqn:F; [|rewrite S in H; discriminate H|rewrite S in H; discriminate H].
  destruct S as (l' & E & L & N). rewrite H in E. apply Ok_inj in E. assert (El : l = add_object o attr0 :: l') by exact (f_equal fst E). subst l.
  pose proof (create_length _ _ _ C) as LC. cbn [length] in LC. split; [cbn [length]; lia|]. split.
  - intros [|j] a Hi Na; [lia|]. cbn [nth_error] in Na. assert (Hj : (j < length dos)%nat) by (rewrite <- L; apply nth_error_Some; now rewrite Na).
    destruct (N j Hj) as (sj & F' & Na'). rewrite Na in Na'. assert (a = get_stars sj d (add_all attr0 (firstn (S (S j)) (o :: r)))) by congruence. subst a.
    pose proof (create_firstn _ _ _ (S j) C) as C'. change (firstn (S (S j)) (o :: r)) with (o :: firstn (S j) r) in *.
    unfold calculate_single, rmap. rewrite (single_full_eq fuel o (firstn (S j) r) d _ C'), F'. reflexivity.
  - exists o, r, (add_object o attr0). split; [reflexivity|]. split; [reflexivity|]. split; [|exact (counts_all [o])].
    unfold add_object, no_ratings. destruct (ho_kind o); cbn [at_Total at_Aim at_SliderFactor at_Speed at_Flashlight attr0]; auto.
Qed.
(** the last step entry is the single result, and the outcomes agree *)
Lemma last_nth {A} (l : list A) d : forall n x, nth_error l n = Some x -> length l = S n -> last l d = x.
Proof.
  induction l as [|y l IH]; intros [|n] x H L; try discriminate H.
  - destruct l; [cbn in *; congruence|discriminate L].
  - destruct l as [|z l]; [destruct n; discriminate H|]. apply (IH n x H). cbn [length] in *. lia.
Qed.
Lemma step_single fuel objs d : (2 <= length objs)%nat ->
  calculate_single fuel objs d = rmap (fun l => last l attr0) (calculate_step fuel objs d).
Proof.
  intros L. destruct objs as [|o r]; [cbn in L; lia|]. unfold calculate_single, calculate_step.
  destruct (create_difficulty_objects (o :: r) d) as [dos| |] eqn:C; [|unfold calculate_step_full, calculate_single_full; rewrite C; reflexivity|unfold calculate_step_full, calculate_single_full; rewrite C; reflexivity].
  rewrite (single_full_eq fuel o r d dos C). pose proof (step_full_eq fuel o r d dos C) as S. pose proof (create_length _ _ _ C) as LC. cbn [length] in LC, L.
  destruct (foldM (process_all fuel d) (new_skills d) dos) as [sf| |] eqn:F; [|now rewrite S|now rewrite S].
  destruct S as (l & -> & Ll & N). cbn [rmap bind fst].
  destruct (N (length dos - 1)%nat ltac:(lia)) as (sj & F' & Nl). replace (S (length dos - 1)) with (length dos) in * by lia. rewrite firstn_all, F in F'. apply Ok_inj in F'. subst sj.
  rewrite firstn_all2 in Nl by (cbn [length]; lia).
  rewrite (last_nth (add_object o attr0 :: l) attr0 (length dos) (get_stars sf d (add_all attr0 (o :: r)))); [reflexivity| |cbn [length]; lia].
  destruct dos as [|q dos]; [cbn [length] in LC; lia|]. cbn [length nth_error] in *. now replace (S (length dos) - 1)%nat with (length dos) in Nl by lia.
Qed.
Lemma step_single_outcome fuel objs d : outcome_of (calculate_step fuel objs d) = outcome_of (calculate_single fuel objs d).
Proof.
  destruct objs as [|o r]; [reflexivity|]. unfold calculate_single, calculate_step.
  destruct (create_difficulty_objects (o :: r) d) as [dos| |] eqn:C; [|unfold calculate_step_full, calculate_single_full; rewrite C; reflexivity|unfold calculate_step_full, calculate_single_full; rewrite C; reflexivity].
  rewrite (single_full_eq fuel o r d dos C). pose proof (step_full_eq fuel o r d dos C) as S.
  destruct (foldM (process_all fuel d) (new_skills d) dos) as [sf| |]; [|now rewrite S|now rewrite S]. destruct S as (l & -> & _). reflexivity.
Qed.

(** counts *)
Lemma single_counts fuel objs d a : calculate_single fuel objs d = Ok a -> counts_of objs a.
Proof.
  intros H. unfold calculate_single, rmap in H. apply bind_ok in H as (r & H & E). apply Ok_inj in E. subst a.
  destruct objs as [|o rs]; [rewrite single_nil in H; discriminate H|].
  destruct (create_difficulty_objects (o :: rs) d) as [dos| |] eqn:C; [|unfold calculate_single_full in H; rewrite C in H; discriminate H|unfold calculate_single_full in H; rewrite C in H; discriminate H].
  rewrite (single_full_eq fuel o rs d dos C) in H. apply bind_ok in H as (s & _ & H). apply Ok_inj in H. subst r. cbn [fst].
  eapply counts_same; [|apply counts_all]. destruct (stars_same s d (add_all attr0 (o :: rs))) as (E1 & E2 & E3 & E4 & E5). repeat split; now symmetry.
Qed.

(** peaks *)
Lemma total_peak_ok d pa ps pf i : (i < length pa)%nat -> length ps = length pa -> match pf with Some l => length l = length pa | None => True end ->
  exists t, total_peak d pa ps pf i = Ok t.
Proof.
  intros H1 H2 H3. unfold total_peak.
  assert (exists f, match pf with Some l => idx l (Z.of_nat i) | None => Ok f0 end = Ok f) as (f & ->).
  { destruct pf as [l|]; [|eauto]. destruct (idx_range l (Z.of_nat i)) as (x & -> & _); [unfold zlen; lia|]. eauto. }
  cbn [bind]. destruct (idx_range pa (Z.of_nat i)) as (x & -> & _); [unfold zlen; lia|]. cbn [bind].
  destruct (idx_range ps (Z.of_nat i)) as (y & -> & _); [unfold zlen; lia|]. cbn [bind]. eauto.
Qed.
Lemma mapM_total {A B} (f : A -> res B) l : (forall x, In x l -> exists y, f x = Ok y) -> exists ys, mapM f l = Ok ys.
Proof.
  induction l as [|x l IH]; intros H; cbn [mapM]; [eauto|]. destruct (H x (or_introl eq_refl)) as (y & ->). cbn [bind].
  destruct IH as (ys & ->); [intros z Hz; apply H; now right|]. cbn [bind]. eauto.
Qed.
Lemma get_peaks_ok s d : all_in_step s -> exists p, get_peaks (cs_aim s) (cs_speed s) (cs_flash s) d = Ok p /\
  length (pk_Speed p) = length (pk_Aim p) /\ length (pk_Total p) = length (pk_Aim p) /\
  match cs_flash s with Some _ => length (pk_Flashlight p) = length (pk_Aim p) | None => pk_Flashlight p = [] end.
Proof.
  intros (A1 & A2 & A3). unfold get_peaks.
  assert (L2 : length (current_peaks (cs_speed s)) = length (current_peaks (cs_aim s))) by (unfold current_peaks; rewrite !app_length; cbn [length]; destruct A2 as (_ & -> & _); reflexivity).
  assert (L3 : match cs_flash s with Some f => length (current_peaks f) = length (current_peaks (cs_aim s)) | None => True end).
  { destruct (cs_flash s); [|exact I]. unfold current_peaks; rewrite !app_length; cbn [length]; destruct A3 as (_ & -> & _); reflexivity. }
  destruct (mapM_total (total_peak d (current_peaks (cs_aim s)) (current_peaks (cs_speed s)) (option_map current_peaks (cs_flash s))) (seq 0 (length (current_peaks (cs_aim s))))) as (tot & E).
  { intros i Hi. apply in_seq in Hi. apply total_peak_ok; [lia|exact L2|]. destruct (cs_flash s); exact L3. }
  rewrite E. cbn [bind]. eexists. split; [reflexivity|]. cbn [pk_Aim pk_Speed pk_Total pk_Flashlight]. apply mapM_length in E. rewrite seq_length in E.
  split; [exact L2|]. split; [exact E|]. destruct (cs_flash s); [exact L3|reflexivity].
Qed.
Lemma flash_fold fuel d dos : forall s s', foldM (process_all fuel d) s dos = Ok s' -> (cs_flash s' = None <-> cs_flash s = None).
Proof.
  induction dos as [|o dos IH]; intros s s' H; cbn [foldM] in H; [apply Ok_inj in H; now subst|]. apply bind_ok in H as (s1 & H1 & H). rewrite (IH _ _ H). clear IH H.
  unfold process_all in H1. apply bind_ok in H1 as (a & _ & H1). apply bind_ok in H1 as (n & _ & H1). apply bind_ok in H1 as (p & _ & H1). apply bind_ok in H1 as (f & Hf & H1).
  apply Ok_inj in H1. subst s1. cbn [cs_flash]. destruct (cs_flash s) as [g|].
  - unfold rmap in Hf. apply bind_ok in Hf as (g' & _ & Hf). apply Ok_inj in Hf. subst f. split; discriminate.
  - apply Ok_inj in Hf. now subst f.
Qed.
Lemma peaks_eq fuel objs d dos : create_difficulty_objects objs d = Ok dos ->
  match foldM (process_all fuel d) (new_skills d) dos with
  | Ok s => calculate_strain_peaks fuel objs d = get_peaks (cs_aim s) (cs_speed s) (cs_flash s) d /\ all_in_step s /\
      (cs_flash s = None <-> check_mod d Flashlight = false)
  | Panic => calculate_strain_peaks fuel objs d = Panic
  | Hang => calculate_strain_peaks fuel objs d = Hang
  end.
Proof.
  intros C. unfold calculate_strain_peaks. rewrite C. cbn [bind]. pose proof (fold_in_step fuel d dos (new_skills d) (new_in_step d)) as F.
  pose proof (flash_fold fuel d dos (new_skills d)) as FF.
  change (proj (new_skills d)) with (skill0, skill0, if check_mod d Flashlight then Some skill0 else None) in F.
  destruct (foldM (process_all fuel d) (new_skills d) dos) as [s| |]; [|now rewrite F|now rewrite F].
  destruct F as (A & ->). cbn [bind proj]. split; [reflexivity|]. split; [exact A|]. rewrite (FF _ eq_refl). unfold new_skills. cbn [cs_flash]. destruct (check_mod d Flashlight); split; congruence.
Qed.
Lemma single_peaks_agree fuel objs d : calculate_single_with_peaks fuel objs d =
  let* a := calculate_single fuel objs d in let* p := calculate_strain_peaks fuel objs d in Ok (a, p).
Proof.
  destruct objs as [|o r]; [reflexivity|]. unfold calculate_single_with_peaks, calculate_single.
  destruct (create_difficulty_objects (o :: r) d) as [dos| |] eqn:C; [|unfold calculate_single_full; rewrite C; reflexivity|unfold calculate_single_full; rewrite C; reflexivity].
  rewrite (single_full_eq fuel o r d dos C). pose proof (peaks_eq fuel (o :: r) d dos C) as P.
  destruct (foldM (process_all fuel d) (new_skills d) dos) as [s| |]; [|reflexivity|reflexivity]. destruct P as (-> & _). cbn [rmap bind fst snd].
  destruct (get_peaks _ _ _ d); reflexivity.
Qed.
Lemma step_peaks_agree fuel objs d : calculate_step_with_peaks fuel objs d =
  let* l := calculate_step fuel objs d in let* p := calculate_strain_peaks fuel objs d in Ok (l, p).
Proof.
  destruct objs as [|o r]; [reflexivity|]. unfold calculate_step_with_peaks, calculate_step.
  destruct (create_difficulty_objects (o :: r) d) as [dos| |] eqn:C; [|unfold calculate_step_full; rewrite C; reflexivity|unfold calculate_step_full; rewrite C; reflexivity].
  pose proof (step_full_eq fuel o r d dos C) as S. pose proof (peaks_eq fuel (o :: r) d dos C) as P.
  destruct (foldM (process_all fuel d) (new_skills d) dos) as [s| |]; [|now rewrite S|now rewrite S]. destruct P as (-> & _). destruct S as (l & -> & _). cbn [rmap bind fst snd].
  destruct (get_peaks _ _ _ d); reflexivity.
Qed.
Lemma peaks_outcome fuel objs d : objs <> [] -> outcome_of (calculate_strain_peaks fuel objs d) = outcome_of (calculate_single fuel objs d).
Proof.
  intros NE. destruct objs as [|o r]; [now destruct NE|]. unfold calculate_single.
  destruct (create_difficulty_objects (o :: r) d) as [dos| |] eqn:C; [|unfold calculate_strain_peaks, calculate_single_full; rewrite C; reflexivity|unfold calculate_strain_peaks, calculate_single_full; rewrite C; reflexivity].
  rewrite (single_full_eq fuel o r d dos C). pose proof (peaks_eq fuel (o :: r) d dos C) as P.
  destruct (foldM (process_all fuel d) (new_skills d) dos) as [s| |]; [|now rewrite P|now rewrite P].
  destruct P as (-> & A & _). destruct (get_peaks_ok s d A) as (p & -> & _). reflexivity.
Qed.
Lemma peaks_lengths fuel objs d p : calculate_strain_peaks fuel objs d = Ok p ->
  length (pk_Speed p) = length (pk_Aim p) /\ length (pk_Total p) = length (pk_Aim p) /\
  (if check_mod d Flashlight then length (pk_Flashlight p) = length (pk_Aim p) else pk_Flashlight p = []).
Proof.
  intros H. destruct (create_difficulty_objects objs d) as [dos| |] eqn:C; [|unfold calculate_strain_peaks in H; rewrite C in H; discriminate H|unfold calculate_strain_peaks in H; rewrite C in H; discriminate H].
  pose proof (peaks_eq fuel objs d dos C) as P. destruct (foldM (process_all fuel d) (new_skills d) dos) as [s| |]; [|rewrite P in H; discriminate H|rewrite P in H; discriminate H].
  destruct P as (E & A & F). destruct (get_peaks_ok s d A) as (p' & E' & L1 & L2 & L3). rewrite E, E' in H. apply Ok_inj in H. subst p'.
  split; [exact L1|]. split; [exact L2|]. destruct (check_mod d Flashlight).
  - destruct (cs_flash s); [exact L3|]. destruct F as [F _]. specialize (F eq_refl). discriminate.
  - destruct F as [_ F]. rewrite (F eq_refl) in L3. exact L3.
Qed.
End WithLibm.

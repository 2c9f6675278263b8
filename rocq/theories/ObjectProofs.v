(** From hit object rows to the final object list. *)
From Coq Require Import Reals Lra Permutation Sorting.Sorted.
From Verif Require Import Parser SpecParser SpecMods SpecStacking SpecTiming BaseLemmas FloatLemmas SortLemmas ModsProofs
  StringLemmas ParserProofs StackingProofs TimingProofs.
Open Scope Z_scope.

Section WithLibm.
Context {M : libm}.

Lemma has_type_bit t k : 0 <= k -> has_type t (2 ^ k) = Z.testbit t k.
Proof.
  intros H. unfold has_type. rewrite land_pow2 by exact H. destruct (Z.testbit t k); [|reflexivity].
  apply Z.ltb_lt. now apply Z.pow_pos_nonneg.
Qed.
Lemma field_idx fs n x : idx (trims fs) (Z.of_nat n) = Ok x -> x = field n fs.
Proof.
  intros H. apply idx_ok in H as [_ H]. rewrite Nat2Z.id in H. unfold trims in H. rewrite nth_error_map in H.
  unfold field. destruct (nth_error fs n) eqn:E; [|discriminate]. rewrite (nth_error_nth _ _ _ E). now injection H as <-.
Qed.
Definition zero_stack (o : hobj) : Prop := forall g, idx_of g o = 0 /\ off_of g o = vzero.
Definition fresh_of (fs : list str) (o : hobj) : Prop :=
  describes fs o /\ ho_newCombo o = new_combo_flag fs /\ zero_stack o.
(** the fields set by commonParse *)
Definition common (fs : list str) (k : kind) (o : hobj) : Prop :=
  ho_kind o = k /\ ho_start o = start_of fs /\ ho_end o = start_of fs /\
  ho_startPos o = mkVec (parse_f32 (field 0 fs)) (parse_f32 (field 1 fs)) /\ ho_endPos o = ho_startPos o /\
  ho_newCombo o = new_combo_flag fs /\ ho_colorOffset o = colour_offset fs /\ zero_stack o.
Lemma common_parse_ok k fs o : common_parse k (trims fs) = Ok o -> common fs k o.
Proof.
  unfold common_parse. intros H.
  apply bind_ok in H as (d0 & H0 & H). apply bind_ok in H as (d1 & H1 & H). apply bind_ok in H as (d2 & H2 & H).
  apply bind_ok in H as (d3 & H3 & H). apply bind_ok in H as (d4 & H4 & H).
  apply (field_idx fs 0) in H0. apply (field_idx fs 1) in H1. apply (field_idx fs 2) in H2. apply (field_idx fs 3) in H3. subst.
  injection H as <-. unfold common, zero_stack. cbn [ho_kind ho_start ho_end ho_startPos ho_endPos ho_newCombo ho_colorOffset].
  repeat split.
  - unfold new_combo_flag. change NEWCOMBO with (2 ^ 2). rewrite land_pow2 by lia. now destruct (Z.testbit _ _).
  - now destruct g.
  - now destruct g.
Qed.
Lemma create_ok fuel fs r : create_object fuel (trims fs) = Ok r ->
  match r with Some o => fresh_of fs o /\ is_object fs = true | None => is_object fs = false end.
Proof.
  unfold create_object. intros H. apply bind_ok in H as (d3 & H3 & H). apply (field_idx fs 3) in H3. subst d3.
  change CIRCLE with (2 ^ 0) in H. change SPINNER with (2 ^ 3) in H. change SLIDER with (2 ^ 1) in H.
  rewrite !has_type_bit in H by lia. unfold is_object, fresh_of, describes.
  destruct (Z.testbit (atoi (field 3 fs)) 0) eqn:T0.
  { unfold rmap in H. apply bind_ok in H as (o & H & E). injection E as <-. apply common_parse_ok in H as (K & S & En & P & EP & N & C & Z0).
    assert (T : type_of fs = TCircle) by (unfold type_of; now rewrite T0). rewrite T.
    repeat split; auto; try congruence; now apply Z0. }
  destruct (Z.testbit (atoi (field 3 fs)) 3) eqn:T3.
  { unfold rmap in H. apply bind_ok in H as (o & H & E). injection E as <-. unfold new_spinner in H. apply bind_ok in H as (o0 & H & E).
    apply bind_ok in E as (d5 & H5 & E). apply (field_idx fs 5) in H5. subst d5. injection E as <-.
    apply common_parse_ok in H as (K & S & En & P & EP & N & C & Z0).
    assert (T : type_of fs = TSpinner) by (unfold type_of; now rewrite T0, T3). rewrite T.
    unfold with_end; cbn [ho_kind ho_start ho_end ho_startPos ho_endPos ho_newCombo ho_colorOffset].
    repeat split; auto; try congruence; destruct g; now apply (Z0 GNM) || now apply (Z0 GEZ) || now apply (Z0 GHR). }
  destruct (Z.testbit (atoi (field 3 fs)) 1) eqn:T1.
  { unfold rmap in H. apply bind_ok in H as (o & H & E). injection E as <-. unfold new_slider in H. apply bind_ok in H as (o0 & H & E).
    apply common_parse_ok in H as (K & S & En & P & EP & N & C & Z0).
    apply bind_ok in E as (d7 & H7 & E). apply bind_ok in E as (d6 & H6 & E). apply bind_ok in E as (d5 & H5 & E).
    apply (field_idx fs 5) in H5. apply (field_idx fs 6) in H6. apply (field_idx fs 7) in H7. subst.
    apply bind_ok in E as (typ & _ & E). apply bind_ok in E as (pts & _ & E). apply bind_ok in E as (mc & _ & E).
    apply bind_ok in E as (ep & _ & E). apply bind_ok in E as (b0 & _ & E).
    destruct (make_ok _ _); [|discriminate]. apply bind_ok in E as (snd & _ & E). injection E as <-.
    assert (T : type_of fs = TSlider) by (unfold type_of; now rewrite T0, T3, T1). rewrite T.
    unfold with_end, with_kind, with_sounds; cbn [ho_kind ho_start ho_end ho_startPos ho_endPos ho_newCombo ho_colorOffset].
    split; [|reflexivity]. split.
    - split; [exact S|]. split; [exact P|]. split; [exact C|]. eexists. split; [reflexivity|]. split; reflexivity.
    - split; [exact N|]. intros []; apply (Z0 GNM) || apply (Z0 GEZ) || apply (Z0 GHR). }
  injection H as <-. unfold type_of. rewrite T0, T3, T1. now destruct (Z.testbit _ 7).
Qed.

(** the HitObjects loop *)
Definition counts_as (n : obj_type -> bool) (fs : list str) : Z := if n (type_of fs) then 1 else 0.
Definition is_TC t := match t with TCircle => true | _ => false end.
Definition is_TS t := match t with TSlider | THold => true | _ => false end.
Definition is_TP t := match t with TSpinner => true | _ => false end.
Lemma ob_step_ok fuel s fs s' : ob_step fuel s fs = Ok s' ->
  os_Circles s' = os_Circles s + counts_as is_TC fs /\ os_Sliders s' = os_Sliders s + counts_as is_TS fs /\
  os_Spinners s' = os_Spinners s + counts_as is_TP fs /\
  exists r, create_object fuel (trims fs) = Ok r /\ os_objects s' = os_objects s ++ match r with Some o => [o] | None => [] end.
Proof.
  unfold ob_step, parse_hit_object. intros H. apply bind_ok in H as (a3 & H3 & H). apply (field_idx fs 3) in H3. subst a3.
  change CIRCLE with (2 ^ 0) in H. change SPINNER with (2 ^ 3) in H. change SLIDER with (2 ^ 1) in H. change LONGNOTE with (2 ^ 7) in H.
  rewrite !has_type_bit in H by lia. apply bind_ok in H as ([[[c sl] sp] time] & Hr & H).
  apply bind_ok in H as (o & Ho & H). injection H as <-. cbn [os_Circles os_Sliders os_Spinners os_objects].
  assert (K : c = counts_as is_TC fs /\ sl = counts_as is_TS fs /\ sp = counts_as is_TP fs).
  { unfold counts_as, type_of.
    destruct (Z.testbit (atoi (field 3 fs)) 0). { apply bind_ok in Hr as (? & _ & Hr). injection Hr as <- <- <- <-. auto. }
    destruct (Z.testbit (atoi (field 3 fs)) 3). { apply bind_ok in Hr as (? & _ & Hr). injection Hr as <- <- <- <-. auto. }
    destruct (Z.testbit (atoi (field 3 fs)) 1). { apply bind_ok in Hr as (? & _ & Hr). injection Hr as <- <- <- <-. auto. }
    destruct (Z.testbit (atoi (field 3 fs)) 7). { apply bind_ok in Hr as (? & _ & Hr). apply bind_ok in Hr as (? & _ & Hr). injection Hr as <- <- <- <-. auto. }
    injection Hr as <- <- <- <-. auto. }
  destruct K as (-> & -> & ->). repeat split. exists o. split; [exact Ho|]. destruct o; [reflexivity|now rewrite app_nil_r].
Qed.
Lemma count_cons ok fs r : count_type ok (fs :: r) = counts_as ok fs + count_type ok r.
Proof. unfold count_type, counts_as, zlen. cbn [filter]. destruct (ok (type_of fs)); cbn [length]; lia. Qed.
Lemma ob_fold_ok fuel rs : forall s s', foldM (ob_step fuel) s rs = Ok s' ->
  os_Circles s' = os_Circles s + count_type is_TC rs /\ os_Sliders s' = os_Sliders s + count_type is_TS rs /\
  os_Spinners s' = os_Spinners s + count_type is_TP rs /\
  exists objs, Forall2 (fun fs o => create_object fuel (trims fs) = Ok (Some o)) (filter is_object rs) objs /\
    Forall2 fresh_of (filter is_object rs) objs /\ os_objects s' = os_objects s ++ objs.
Proof.
  induction rs as [|fs rs IH]; intros s s' H; cbn [foldM] in H.
  - injection H as <-. unfold count_type, zlen. cbn. rewrite !Z.add_0_r. repeat split. exists []. rewrite app_nil_r. repeat split; constructor.
  - apply bind_ok in H as (s1 & H1 & H). apply ob_step_ok in H1 as (C1 & S1 & P1 & r & Hr & O1).
    apply IH in H as (C & S & P & objs & F1 & F2 & O). rewrite !count_cons. split; [lia|]. split; [lia|]. split; [lia|].
    pose proof (create_ok _ _ _ Hr) as K. rewrite O1 in O. cbn [filter]. destruct r as [o|].
    + destruct K as [K1 K2]. rewrite K2. exists (o :: objs). split; [now constructor|]. split; [now constructor|].
      rewrite <- app_assoc in O. exact O.
    + rewrite K, app_nil_r in *. exists objs. auto.
Qed.

(** sorting related lists *)
Lemma insert_F2 {A B} (R : A -> B -> Prop) lt lt' x x' l l' : R x x' -> Forall2 R l l' ->
  (forall a a' b b', R a a' -> R b b' -> lt a b = lt' a' b') -> Forall2 R (insert lt x l) (insert lt' x' l').
Proof.
  intros Hx H E. induction H as [|y y' l l' Hy H IH]; cbn [insert]; [repeat constructor; auto|].
  rewrite (E y y' x x' Hy Hx). destruct (lt' y' x'); constructor; auto.
Qed.
Lemma sort_F2 {A B} (R : A -> B -> Prop) lt lt' l l' : Forall2 R l l' ->
  (forall a a' b b', R a a' -> R b b' -> lt a b = lt' a' b') -> Forall2 R (stable_sort lt l) (stable_sort lt' l').
Proof.
  intros H E. induction H; cbn [stable_sort fold_right]; [constructor|]. apply insert_F2; auto.
Qed.
Definition row_lt (a b : list str) : bool := flt (start_of a) (start_of b).
Lemma sort_rows rs objs : Forall2 fresh_of rs objs -> Forall2 fresh_of (stable_sort row_lt rs) (stable_sort obj_lt objs).
Proof.
  intros H. apply sort_F2; [exact H|]. intros a a' b b' ((Ha & _) & _) ((Hb & _) & _). unfold row_lt, obj_lt. now rewrite Ha, Hb.
Qed.
Definition row_k (fs : list str) : R := key (start_of fs).
Lemma row_keyed rs : Forall (fun fs => fisnan (start_of fs) = false) rs -> keyed row_lt row_k rs.
Proof.
  intros H x y Hx Hy. rewrite Forall_forall in H. unfold row_lt, row_k. rewrite flt_iff. split; [tauto|].
  intros L. split; [now apply H|]. split; [now apply H|exact L].
Qed.
Lemma row_play_order rs : Forall (fun fs => fisnan (start_of fs) = false) rs -> play_order rs (stable_sort row_lt rs).
Proof.
  intros H. pose proof (row_keyed rs H) as K. split; [apply sort_perm|]. split.
  - intros i j a b Hij Ha Hb. assert (O := sort_ordered row_lt row_k rs K).
    assert (Na : In a rs) by (eapply sort_in; eapply nth_error_In; eauto). assert (Nb : In b rs) by (eapply sort_in; eapply nth_error_In; eauto).
    rewrite Forall_forall in H. apply fle_iff. split; [now apply H|]. split; [now apply H|]. fold (row_k a) (row_k b).
    clear -O Hij Ha Hb. revert i j Hij Ha Hb. induction O as [|x l O IH F]; intros i j Hij Ha Hb; [destruct i; discriminate|].
    destruct i as [|i]; destruct j as [|j]; try lia; cbn in *.
    + injection Ha as ->. rewrite Forall_forall in F. apply F. eapply nth_error_In; eauto.
    + apply (IH i j); auto. lia.
  - intros t. apply (sort_stable row_lt row_k); [exact K|]. intros x y _ _ Hx Hy. apply feq_iff in Hx, Hy. unfold row_k.
    destruct Hx as (_ & _ & ->), Hy as (_ & _ & ->). reflexivity.
Qed.

(** combo numbering *)
Definition combo_of (rs : list (list str)) (i : nat) (o : hobj) : Prop :=
  ho_id o = Z.of_nat i /\ ho_comboNumber o = combo_number rs i /\ ho_comboSet o = combo_set rs i /\
  ho_comboSetHax o = combo_set_hax rs i /\ ho_newCombo o = new_combo_flag (row rs i) || starts_combo rs i.
Definition numbered (o o' : hobj) : Prop := exists nc id n s h, o' = with_combo o nc id n s h.
Lemma describes_spinner fs o : describes fs o -> is_spinner o = spinner_row fs.
Proof.
  intros (_ & _ & _ & H). unfold is_spinner, spinner_row. destruct (type_of fs); try (destruct H as (-> & _); reflexivity); try contradiction.
  destruct H as (sd & -> & _). reflexivity.
Qed.
Definition before (rs : list (list str)) (n : nat) : list nat := filter (starts_combo rs) (seq 0 n).
Lemma before_S rs n : before rs (S n) = before rs n ++ if starts_combo rs n then [n] else [].
Proof. unfold before. rewrite seq_S, filter_app. cbn [filter Nat.add]. now destruct (starts_combo rs n). Qed.
Lemma sumZ_app a b : sumZ (a ++ b) = sumZ a + sumZ b.
Proof. unfold sumZ. induction a as [|x a IH]; cbn [app fold_right]; [reflexivity|]. rewrite IH. lia. Qed.
Lemma number_spec rs l : forall n pre, rs = pre ++ skipn n rs -> length pre = n -> Forall2 fresh_of (skipn n rs) l ->
  let num := match n with O => 1 | S j => combo_number rs j + 1 end in
  let force := match n with O => false | S j => spinner_row (row rs j) end in
  let out := number_objects (Z.of_nat n) num (zlen (before rs n)) (sumZ (map (fun j => 1 + colour_offset (row rs j)) (before rs n))) force l in
  Forall2 numbered l out /\ forall k o, nth_error out k = Some o -> combo_of rs (n + k) o.
Proof.
  induction l as [|o l IH]; intros n pre Epre Lpre F num force.
  { cbn [number_objects]. split; [constructor|]. intros [|k] o; discriminate. }
  inversion F as [|fs o' r l' Hf Fr Er El]; subst o' l'.
  assert (Rn : row rs n = fs). { unfold row. rewrite Epre, app_nth2, Lpre, Nat.sub_diag by lia. now rewrite <- Er. }
  assert (Sk : skipn (S n) rs = r).
  { rewrite Epre, <- Er. rewrite <- Lpre. clear. induction pre; cbn; auto. }
  destruct Hf as (D & N & _). pose proof (describes_spinner _ _ D) as Hs.
  assert (Hoff : ho_colorOffset o = colour_offset fs) by (destruct D as (_ & _ & E & _); exact E).
  specialize (IH (S n) (pre ++ [fs])). cbv zeta in IH.
  assert (HS : combo_number rs n = if starts_combo rs n then 1 else num) by (destruct n; reflexivity).
  assert (Hst : starts_combo rs n = negb (is_spinner o) && (ho_newCombo o || force)).
  { unfold starts_combo. rewrite Rn, Hs, N. reflexivity. }
  rewrite Sk, before_S in IH. rewrite app_length, Lpre in IH. cbn [length] in IH.
  assert (IH' := IH ltac:(rewrite <- app_assoc; cbn [app]; rewrite Er; exact Epre) ltac:(lia) Fr). clear IH.
  rewrite Rn, <- Hs, HS in IH'.
  assert (Out : forall b nc, ho_newCombo (with_combo o nc (Z.of_nat n) (combo_number rs n) (combo_set rs n) (combo_set_hax rs n)) = b ->
     b = new_combo_flag (row rs n) || starts_combo rs n -> combo_of rs n (with_combo o nc (Z.of_nat n) (combo_number rs n) (combo_set rs n) (combo_set_hax rs n))).
  { intros b nc E1 E2. unfold combo_of. rewrite E1, E2. repeat split. }
  assert (Hset : combo_set rs n = zlen (before rs (S n))) by reflexivity.
  assert (Hhax : combo_set_hax rs n = sumZ (map (fun j => 1 + colour_offset (row rs j)) (before rs (S n)))) by reflexivity.
  rewrite before_S in Hset, Hhax.
  cbn [number_objects]. destruct (is_spinner o) eqn:Es.
  - cbn [negb andb] in Hst. rewrite Hst in *. rewrite app_nil_r in *.
    rewrite <- Hset, <- Hhax, Nat2Z.inj_succ in *. unfold Z.succ in *. rewrite <- HS in *.
    destruct IH' as [I1 I2]. split; [constructor; [repeat eexists|exact I1]|].
    intros [|k] o1 Hk; cbn in Hk.
    + injection Hk as <-. rewrite Nat.add_0_r. eapply Out; [reflexivity|]. cbn [ho_newCombo with_combo]. now rewrite N, Rn, orb_false_r.
    + rewrite Nat.add_succ_r. now apply I2.
  - cbn [negb andb] in Hst. destruct (ho_newCombo o || force) eqn:Ef; rewrite Hst in *.
    + rewrite map_app, sumZ_app in *. cbn [map sumZ fold_right] in *. unfold zlen in *. rewrite app_length in *. cbn [length] in *.
      rewrite Nat2Z.inj_succ, Nat2Z.inj_add in *. unfold Z.succ in *. cbn [Z.of_nat Pos.of_succ_nat] in *. rewrite Z.add_0_r in *.
      rewrite Rn in *. replace (1 + colour_offset fs) with (ho_colorOffset o + 1) in * by lia.
      rewrite <- Hset, <- Hhax in *. change (1 + 1) with 2 in IH'. rewrite HS in Out.
      destruct IH' as [I1 I2]. split; [constructor; [repeat eexists|exact I1]|].
      intros [|k] o1 Hk; cbn in Hk.
      * injection Hk as <-. rewrite Nat.add_0_r. eapply Out; [reflexivity|]. cbn [ho_newCombo with_combo]. now rewrite orb_true_r.
      * rewrite Nat.add_succ_r. now apply I2.
    + apply orb_false_iff in Ef as [En Ef]. rewrite app_nil_r in *. rewrite <- Hset, <- Hhax, Nat2Z.inj_succ in *. unfold Z.succ in *.
      rewrite Ef, <- HS in *.
      destruct IH' as [I1 I2]. split; [constructor; [repeat eexists|exact I1]|].
      intros [|k] o1 Hk; cbn in Hk.
      * injection Hk as <-. rewrite Nat.add_0_r. eapply Out; [reflexivity|]. cbn [ho_newCombo with_combo]. now rewrite N, Rn, orb_false_r.
      * rewrite Nat.add_succ_r. now apply I2.
Qed.
Lemma number_objects_ok rs l : Forall2 fresh_of rs l ->
  let out := number_objects 0 1 0 0 false l in
  Forall2 numbered l out /\ forall k o, nth_error out k = Some o -> combo_of rs k o.
Proof. intros F. exact (number_spec rs l 0 [] eq_refl eq_refl F). Qed.
End WithLibm.

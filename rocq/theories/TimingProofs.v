From Coq Require Import Reals Lra Permutation Sorted.
From Verif Require Import Timing SpecTiming BaseLemmas SortLemmas FloatLemmas.

Definition tk (p : cpoint) : R := key (cp_Time p).
Definition tnum (p : cpoint) : Prop := num (cp_Time p).

Lemma added_points l : t_points (added l) = l /\ t_original (added l) = [].
Proof.
  unfold added. assert (H : forall tim, t_points (fold_left add_point l tim) = t_points tim ++ l /\
    t_original (fold_left add_point l tim) = t_original tim).
  { induction l as [|p l IH]; intros tim; cbn [fold_left]; [now rewrite app_nil_r|].
    destruct (IH (add_point tim p)) as [-> ->]. cbn. now rewrite <- app_assoc. }
  apply H.
Qed.

Lemma point_lt_keyed l : Forall tnum l -> keyed point_lt tk l.
Proof.
  intros H x y Hx Hy. rewrite Forall_forall in H. unfold point_lt, tk. rewrite flt_iff.
  pose proof (H x Hx). pose proof (H y Hy). unfold tnum in *. tauto.
Qed.

(** finalize_loop only changes bases *)
Lemma same_refl p : same_but_base p p.
Proof. destruct p; reflexivity. Qed.
Lemma same_time p q : same_but_base p q -> cp_Time p = cp_Time q.
Proof. intros H. rewrite H. reflexivity. Qed.
Lemma same_inh p q : same_but_base p q -> cp_Inherited p = cp_Inherited q.
Proof. intros H. rewrite H. reflexivity. Qed.
Lemma same_beat p q : same_but_base p q -> cp_beat p = cp_beat q.
Proof. intros H. rewrite H. reflexivity. Qed.

Lemma finalize_loop_same l : forall last, Forall2 same_but_base (fst (finalize_loop last l)) l.
Proof.
  induction l as [|p l IH]; intros last; cbn [finalize_loop]; [constructor|].
  assert (D : forall lp, Forall2 same_but_base (fst (let '(ps, os) := finalize_loop (Some p) l in (p :: ps, p :: os : list cpoint))) (p :: l)
    /\ Forall2 same_but_base (fst (let '(ps, os) := finalize_loop (Some (set_base p lp)) l in (set_base p lp :: ps, os))) (p :: l)).
  { intros lp. split.
    - specialize (IH (Some p)). destruct (finalize_loop (Some p) l). constructor; [apply same_refl|exact IH].
    - specialize (IH (Some (set_base p lp))). destruct (finalize_loop _ l). constructor; [reflexivity|exact IH]. }
  destruct (cp_Inherited p), last as [lp|]; try apply (proj1 (D f0)). apply D.
Qed.
Lemma finalize_loop_originals l : forall last,
  snd (finalize_loop last l) = match last with
    | None => uninherited_or_first (fst (finalize_loop None l))
    | Some lp => filter (fun q => negb (cp_Inherited q)) (fst (finalize_loop (Some lp) l)) end.
Proof.
  induction l as [|p l IH]; intros last; cbn [finalize_loop]; [now destruct last|].
  destruct last as [lp|].
  - destruct (cp_Inherited p) eqn:E.
    + specialize (IH (Some (set_base p (cp_base lp)))). cbv iota beta in IH. destruct (finalize_loop (Some (set_base p (cp_base lp))) l) as [ps os].
      cbn [fst snd filter set_base cp_Inherited] in *. rewrite E. cbn [negb]. exact IH.
    + specialize (IH (Some p)). cbv iota beta in IH. destruct (finalize_loop (Some p) l) as [ps os].
      cbn [fst snd filter] in *. rewrite E. cbn [negb]. now rewrite IH.
  - specialize (IH (Some p)). cbv iota beta in IH. destruct (cp_Inherited p); destruct (finalize_loop (Some p) l) as [ps os];
    cbn [fst snd uninherited_or_first] in *; now rewrite IH.
Qed.
(** running it again on its own output changes nothing *)
Lemma finalize_loop_idem l : forall last, finalize_loop last (fst (finalize_loop last l)) = finalize_loop last l.
Proof.
  induction l as [|p l IH]; intros last; cbn [finalize_loop]; [reflexivity|].
  destruct (cp_Inherited p) eqn:E, last as [lp|].
  - specialize (IH (Some (set_base p (cp_base lp)))). destruct (finalize_loop (Some (set_base p (cp_base lp))) l) as [ps os] eqn:F.
    cbn [fst finalize_loop]. cbn [set_base cp_Inherited]. rewrite E.
    change (set_base (set_base p (cp_base lp)) (cp_base lp)) with (set_base p (cp_base lp)).
    change {| cp_Time := cp_Time p; cp_base := cp_base lp; cp_beat := cp_beat p; cp_SampleSet := cp_SampleSet p;
     cp_SampleIndex := cp_SampleIndex p; cp_SampleVolume := cp_SampleVolume p;
     cp_Signature := cp_Signature p; cp_Inherited := cp_Inherited p; cp_Kiai := cp_Kiai p;
     cp_Omit := cp_Omit p |} with (set_base p (cp_base lp)).
    cbn [fst] in IH. rewrite IH. reflexivity.
  - specialize (IH (Some p)). destruct (finalize_loop (Some p) l) as [ps os] eqn:F.
    cbn [fst finalize_loop]. rewrite E. cbn [fst] in IH. rewrite IH. reflexivity.
  - specialize (IH (Some p)). destruct (finalize_loop (Some p) l) as [ps os] eqn:F.
    cbn [fst finalize_loop]. rewrite E. cbn [fst] in IH. rewrite IH. reflexivity.
  - specialize (IH (Some p)). destruct (finalize_loop (Some p) l) as [ps os] eqn:F.
    cbn [fst finalize_loop]. rewrite E. cbn [fst] in IH. rewrite IH. reflexivity.
Qed.
(** bases *)
Lemma finalize_loop_base l : forall last, Forall (fun p => cp_base p = cp_beat p) l ->
  forall i p, nth_error (fst (finalize_loop last l)) i = Some p ->
  (exists k q, (k <= i)%nat /\ nth_error (fst (finalize_loop last l)) k = Some q /\
     (cp_Inherited q = false \/ k = 0%nat /\ last = None) /\ cp_base p = cp_beat q /\
     (forall j r, (k < j <= i)%nat -> nth_error (fst (finalize_loop last l)) j = Some r -> cp_Inherited r = true))
  \/ (exists lp, last = Some lp /\ cp_base p = cp_base lp /\
     forall j r, (j <= i)%nat -> nth_error (fst (finalize_loop last l)) j = Some r -> cp_Inherited r = true).
Proof.
  induction l as [|p0 l IH]; intros last HF i p; cbn [finalize_loop]; [destruct i; discriminate|].
  inversion HF as [|? ? Hb HF']; subst.
  assert (Keep : cp_Inherited p0 = false \/ last = None ->
    nth_error (p0 :: fst (finalize_loop (Some p0) l)) i = Some p ->
    exists k q, (k <= i)%nat /\ nth_error (p0 :: fst (finalize_loop (Some p0) l)) k = Some q /\
     (cp_Inherited q = false \/ k = 0%nat /\ last = None) /\ cp_base p = cp_beat q /\
     (forall j r, (k < j <= i)%nat -> nth_error (p0 :: fst (finalize_loop (Some p0) l)) j = Some r -> cp_Inherited r = true)).
  { intros Hk Hn. destruct i as [|i].
    - injection Hn as <-. exists 0%nat, p0. repeat split; auto; [tauto|intros; lia].
    - cbn [nth_error] in Hn. destruct (IH (Some p0) HF' i p Hn) as [(k & q & Hki & Hq & Hg & Hbq & Hr)|(lp & [= <-] & Hbp & Hr)].
      + exists (S k), q. split; [lia|]. split; [exact Hq|]. split; [destruct Hg as [|[_ ?]]; [now left|discriminate]|].
        split; [exact Hbq|]. intros [|j] r Hj Hnr; [lia|]. eapply Hr; [|exact Hnr]. lia.
      + exists 0%nat, p0. split; [lia|]. split; [reflexivity|]. split; [tauto|]. split; [congruence|].
        intros [|j] r Hj Hnr; [lia|]. eapply Hr; [|exact Hnr]. lia. }
  destruct (cp_Inherited p0) eqn:E, last as [lp|].
  - intros Hn. destruct (finalize_loop (Some (set_base p0 (cp_base lp))) l) as [ps os] eqn:F. cbn [fst] in *.
    specialize (IH (Some (set_base p0 (cp_base lp))) HF'). rewrite F in IH. cbn [fst] in IH.
    destruct i as [|i].
    + right. exists lp. injection Hn as <-. repeat split. intros [|j] r Hj Hnr; [|lia]. injection Hnr as <-. exact E.
    + cbn [nth_error] in Hn. destruct (IH i p Hn) as [(k & q & Hki & Hq & Hg & Hbq & Hr)|(lp' & [= <-] & Hbp & Hr)].
      * left. exists (S k), q. split; [lia|]. split; [exact Hq|]. split; [destruct Hg as [|[_ ?]]; [now left|discriminate]|].
        split; [exact Hbq|]. intros [|j] r Hj Hnr; [lia|]. eapply Hr; [|exact Hnr]. lia.
      * right. exists lp. split; [reflexivity|]. split; [exact Hbp|]. intros [|j] r Hj Hnr; [injection Hnr as <-; exact E|].
        eapply Hr; [|exact Hnr]. lia.
  - destruct (finalize_loop (Some p0) l) as [ps os] eqn:F. cbn [fst] in *. intros Hn. left. apply Keep; auto.
  - destruct (finalize_loop (Some p0) l) as [ps os] eqn:F. cbn [fst] in *. intros Hn. left. apply Keep; auto.
  - destruct (finalize_loop (Some p0) l) as [ps os] eqn:F. cbn [fst] in *. intros Hn. left. apply Keep; auto.
Qed.

(** ** lookup on an ordered list *)
Definition fle_t (t : f64) (q : cpoint) : bool := fle (cp_Time q) t.

Lemma ordered_nth l : ordered tk l -> forall i j p q, (i < j)%nat -> nth_error l i = Some p -> nth_error l j = Some q -> (tk p <= tk q)%R.
Proof.
  induction 1 as [|x l Hl IH Hx]; intros i j p q Hij Hp Hq; [destruct i; discriminate|].
  destruct j as [|j]; [lia|]. cbn in Hq. destruct i as [|i].
  - injection Hp as <-. rewrite Forall_forall in Hx. apply Hx. now apply nth_error_In in Hq.
  - cbn in Hp. eapply IH; [|exact Hp|exact Hq]. lia.
Qed.

Lemma nth_split {A} (l : list A) i x : nth_error l i = Some x -> l = firstn i l ++ x :: skipn (S i) l.
Proof.
  revert i. induction l as [|y l IH]; intros [|i]; cbn; try discriminate.
  - intros [= ->]. reflexivity.
  - intros H. f_equal. now apply IH.
Qed.
Lemma in_firstn {A} (l : list A) n x : In x (firstn n l) -> exists i, (i < n)%nat /\ nth_error l i = Some x.
Proof.
  revert n. induction l as [|y l IH]; intros [|n]; cbn; try tauto. intros [->|H].
  - exists 0%nat. split; [lia|reflexivity].
  - destruct (IH n H) as (i & Hi & E). exists (S i). split; [lia|exact E].
Qed.
Lemma in_skipn {A} (l : list A) n x : In x (skipn n l) -> exists i, (n <= i)%nat /\ nth_error l i = Some x.
Proof.
  revert n. induction l as [|y l IH]; intros [|n]; cbn; try tauto.
  - intros [->|H]; [exists 0%nat; split; [lia|reflexivity]|].
    apply In_nth_error in H. destruct H as [i H]. exists (S i). split; [lia|exact H].
  - intros H. destruct (IH n H) as (i & Hi & E). exists (S i). split; [lia|exact E].
Qed.

Lemma point_at_spec l t : ordered tk l -> Forall tnum l -> num t -> l <> [] ->
  exists p, point_at l t = Ok p /\ looked_up l t p.
Proof.
  intros HO HN Ht Hne. unfold point_at.
  set (f := fun i => match nth_error l i with Some p => flt t (cp_Time p) | None => true end).
  destruct (search_spec f (length l)) as (R & F & T).
  { intros a b Hab. unfold f.
    destruct (nth_error l a) eqn:Ea; [|apply nth_error_None in Ea; lia].
    destruct (nth_error l b) eqn:Eb; [|reflexivity].
    rewrite !flt_iff. intros (_ & Hc & H). rewrite Forall_forall in HN.
    split; [exact Ht|]. split; [apply HN; eapply nth_error_In; eauto|].
    destruct (Nat.eq_dec a b) as [->|]; [congruence|].
    pose proof (ordered_nth l HO a b _ _ ltac:(lia) Ea Eb). unfold tk in *. lra. }
  set (r := search (length l) f) in *.
  assert (Hx : exists x, nth_error l (r - 1) = Some x).
  { destruct (nth_error l (r - 1)) eqn:E; [eauto|]. apply nth_error_None in E. destruct l; [congruence|cbn in *; lia]. }
  destruct Hx as [p Hp]. exists p. split.
  { replace (maxI 0 (Z.of_nat r - 1)) with (Z.of_nat (r - 1)) by (unfold maxI; destruct (Z.ltb_spec (Z.of_nat r - 1) 0); lia).
    rewrite idx_nat, Hp. reflexivity. }
  assert (HNi : forall i q, nth_error l i = Some q -> num (cp_Time q)).
  { intros i q Hq. rewrite Forall_forall in HN. apply HN. eapply nth_error_In; eauto. }
  assert (Le : forall i q, (i < r)%nat -> nth_error l i = Some q -> fle (cp_Time q) t = true).
  { intros i q Hi Hq. specialize (F i Hi). unfold f in F. rewrite Hq in F.
    apply flt_false in F; eauto. apply fle_iff. eauto. }
  assert (Gt : forall i q, (r <= i)%nat -> nth_error l i = Some q -> fle (cp_Time q) t = false).
  { intros i q Hi Hq. assert (i < length l)%nat by (apply nth_error_Some; congruence).
    specialize (T i ltac:(lia)). unfold f in T. rewrite Hq in T. apply flt_iff in T.
    apply fle_false; eauto. tauto. }
  split.
  - intros (q & Hq & Hqt). apply In_nth_error in Hq. destruct Hq as [i Hi].
    assert (i < r)%nat. { destruct (Nat.lt_ge_cases i r); [assumption|]. rewrite (Gt i q) in Hqt by assumption. discriminate. }
    exists (firstn (r - 1) l), (skipn (S (r - 1)) l). split; [now apply nth_split|]. split; [apply (Le (r - 1)%nat); auto; lia|]. split.
    + intros u Hu _. apply in_firstn in Hu. destruct Hu as (a & Ha & Eu).
      apply fle_iff. split; [eauto|]. split; [eauto|]. apply (ordered_nth l HO a (r - 1)); auto.
    + intros u Hu Hut. apply in_skipn in Hu. destruct Hu as (a & Ha & Eu).
      rewrite (Gt a u) in Hut by (auto; lia). discriminate.
  - intros Hall. assert (Hr0 : r = 0%nat).
    { destruct (Nat.eq_dec r 0); [assumption|]. assert (Hlt : (r - 1 < r)%nat) by lia.
      pose proof (Le _ _ Hlt Hp) as C. rewrite Hall in C; [discriminate|]. eapply nth_error_In; eauto. }
    rewrite Hr0 in Hp. change (nth_error l 0 = Some p) in Hp. exists [], (skipn 1 l). split; [apply (nth_split l 0); exact Hp|].
    split; [intros ? []|]. intros u Hu. apply in_skipn in Hu. destruct Hu as (a & Ha & Eu).
    apply fle_iff. split; [exact (HNi _ _ Hp)|]. split; [eauto|]. apply (ordered_nth l HO 0 a); auto.
Qed.

(** ** transfer of the lookup rule through the stable sort *)
Definition teq (q p : cpoint) : bool := feq (cp_Time p) (cp_Time q).
Lemma teq_tk l q : Forall tnum l -> In q l -> forall x y, In x l -> In y l -> teq q x = true -> teq q y = true -> tk x = tk y.
Proof.
  unfold teq. intros _ _ x y _ _ Hx Hy. apply feq_iff in Hx, Hy. unfold tk. destruct Hx as (_ & _ & ->), Hy as (_ & _ & ->). reflexivity.
Qed.
Lemma sort_filter_teq l q : Forall tnum l -> filter (teq q) (stable_sort point_lt l) = filter (teq q) l.
Proof.
  intros H. apply (sort_stable point_lt tk); [now apply point_lt_keyed|].
  intros x y _ _ Hx Hy. apply feq_iff in Hx, Hy. unfold tk. destruct Hx as (_ & _ & ->), Hy as (_ & _ & ->). reflexivity.
Qed.

(** last element with a property, read off the filtered list *)
Lemma filter_last {A} (P : A -> bool) l q m : filter P l = m ++ [q] ->
  exists l1 l2, l = l1 ++ q :: l2 /\ P q = true /\ (forall r, In r l2 -> P r = false).
Proof.
  revert m. induction l as [|x l IH]; intros m H; cbn in H; [destruct m; discriminate|].
  destruct (P x) eqn:E.
  - destruct m as [|y m].
    + injection H as -> H. exists [], l. repeat split; auto. intros r Hr.
      destruct (P r) eqn:Er; [|reflexivity]. assert (In r (filter P l)) by (apply filter_In; auto). rewrite H in H0. destruct H0.
    + injection H as -> H. destruct (IH m H) as (l1 & l2 & -> & Hq & Hr). exists (y :: l1), l2. auto.
  - destruct (IH m H) as (l1 & l2 & -> & Hq & Hr). exists (x :: l1), l2. auto.
Qed.
Lemma filter_first {A} (P : A -> bool) l q m : filter P l = q :: m ->
  exists l1 l2, l = l1 ++ q :: l2 /\ P q = true /\ (forall r, In r l1 -> P r = false).
Proof.
  induction l as [|x l IH]; intros H; cbn in H; [discriminate|].
  destruct (P x) eqn:E.
  - injection H as -> H. exists [], l. repeat split; auto. intros r [].
  - destruct (IH H) as (l1 & l2 & -> & Hq & Hr). exists (x :: l1), l2. repeat split; auto.
    intros r [<-|Hin]; auto.
Qed.
Lemma filter_none {A} (P : A -> bool) l : (forall r, In r l -> P r = false) -> filter P l = [].
Proof. induction l as [|x l IH]; intros H; cbn; [reflexivity|]. rewrite H by now left. apply IH. intros; apply H; now right. Qed.

Lemma looked_up_sort l t q : Forall tnum l -> num t -> looked_up (stable_sort point_lt l) t q -> looked_up l t q.
Proof.
  intros HN Ht [H1 H2]. pose proof (sort_perm point_lt l) as P.
  assert (HNi : forall q, In q l -> num (cp_Time q)) by (rewrite Forall_forall in HN; exact HN).
  split.
  - intros (r & Hr & Hrt). destruct H1 as (l1 & l2 & E & Hq & Hl1 & Hl2).
    { exists r. split; [now apply sort_in|exact Hrt]. }
    assert (Iq : In q l) by (apply (sort_in point_lt); rewrite E; apply in_elt).
    assert (Fq : filter (teq q) l = filter (teq q) l1 ++ [q]).
    { rewrite <- (sort_filter_teq l q HN), E, filter_app. cbn [filter].
      assert (Tq : teq q q = true) by (apply feq_iff; auto). rewrite Tq. f_equal. f_equal.
      apply filter_none. intros u Hu. destruct (teq q u) eqn:Eu; [|reflexivity].
      apply feq_iff in Eu. assert (Hut : fle (cp_Time u) t = true).
      { apply fle_iff. apply fle_iff in Hq. destruct Eu as (A & B & C). rewrite C. tauto. }
      apply (Hl2 u Hu) in Hut. apply flt_iff in Hut. lra. }
    apply filter_last in Fq. destruct Fq as (m1 & m2 & El & _ & Hm2).
    assert (Hall : forall u, In u l -> fle (cp_Time u) t = true -> fle (cp_Time u) (cp_Time q) = true).
    { intros u Hu Hut. apply (sort_in point_lt) in Hu as Hu'. rewrite E in Hu'. apply in_app_iff in Hu'.
      destruct Hu' as [Hu'|[<-|Hu']]; [auto|apply fle_iff; repeat split; auto; lra|].
      apply (Hl2 u Hu') in Hut. apply flt_iff in Hut. apply fle_iff. destruct Hut as (? & ? & ?). repeat split; auto; lra. }
    exists m1, m2. split; [exact El|]. split; [exact Hq|]. split.
    + intros u Hu. apply Hall. rewrite El. apply in_app_iff. now left.
    + intros u Hu Hut. assert (Iu : In u l) by (rewrite El; apply in_app_iff; right; now right).
      apply flt_iff. split; [auto|]. split; [auto|]. specialize (Hall u Iu Hut). apply fle_iff in Hall.
      destruct Hall as (_ & _ & Hall). destruct (Rle_lt_or_eq_dec _ _ Hall); [assumption|].
      specialize (Hm2 u Hu). unfold teq in Hm2. assert (C : feq (cp_Time u) (cp_Time q) = true) by (apply feq_iff; auto). congruence.
  - intros Hall. destruct H2 as (l1 & l2 & E & Hl1 & Hl2).
    { intros r Hr. apply Hall. revert Hr. apply sort_in. }
    assert (Iq : In q l) by (apply (sort_in point_lt); rewrite E; apply in_elt).
    assert (Fq : filter (teq q) l = q :: filter (teq q) l2).
    { rewrite <- (sort_filter_teq l q HN), E, filter_app. cbn [filter].
      assert (Tq : teq q q = true) by (apply feq_iff; auto). rewrite Tq.
      rewrite (filter_none (teq q) l1); [reflexivity|]. intros u Hu. destruct (teq q u) eqn:Eu; [|reflexivity].
      apply feq_iff in Eu. apply Hl1 in Hu. apply flt_iff in Hu. lra. }
    assert (Hge : forall u, In u l -> fle (cp_Time q) (cp_Time u) = true).
    { intros u Hu. apply (sort_in point_lt) in Hu as Hu'. rewrite E in Hu'. apply in_app_iff in Hu'.
      destruct Hu' as [Hu'|[<-|Hu']]; [|apply fle_iff; repeat split; auto; lra|auto].
      apply Hl1 in Hu'. apply flt_iff in Hu'. apply fle_iff. destruct Hu' as (? & ? & ?). repeat split; auto; lra. }
    apply filter_first in Fq. destruct Fq as (m1 & m2 & El & _ & Hm1).
    exists m1, m2. split; [exact El|]. split.
    + intros u Hu. assert (Iu : In u l) by (rewrite El; apply in_app_iff; now left).
      apply flt_iff. split; [auto|]. split; [auto|]. specialize (Hge u Iu). apply fle_iff in Hge.
      destruct Hge as (_ & _ & Hge). destruct (Rle_lt_or_eq_dec _ _ Hge); [assumption|].
      specialize (Hm1 u Hu). unfold teq in Hm1. assert (C : feq (cp_Time u) (cp_Time q) = true) by (apply feq_iff; auto). congruence.
    + intros u Hu. apply Hge. rewrite El. apply in_app_iff. right. now right.
Qed.

(** lookup through the base update *)
Lemma looked_up_same l l' t p : Forall2 same_but_base l l' -> looked_up l t p ->
  In p l -> exists q, looked_up l' t q /\ same_but_base p q.
Proof.
  intros HF [H1 H2] Hp.
  assert (Hex : (exists r, In r l /\ fle (cp_Time r) t = true) \/ forall r, In r l -> fle (cp_Time r) t = false).
  { clear. induction l as [|x l IH]; [right; intros ? []|]. destruct (fle (cp_Time x) t) eqn:E.
    - left. exists x. split; [now left|exact E].
    - destruct IH as [(r & Hr & Hrt)|IH]; [left; exists r; split; [now right|exact Hrt]|].
      right. intros r [<-|Hr]; auto. }
  assert (HFl : forall r', In r' l' -> exists r, In r l /\ cp_Time r = cp_Time r').
  { clear -HF. induction HF as [|x y l l' Hxy HF IH]; intros r' Hr; [destruct Hr|]. destruct Hr as [<-|Hr].
    - exists x. split; [now left|now apply same_time].
    - destruct (IH r' Hr) as (r & Hr1 & Hr2). exists r. split; [now right|exact Hr2]. }
  assert (HFr : forall r', In r' l -> exists r, In r l' /\ cp_Time r = cp_Time r').
  { clear -HF. induction HF as [|x y l l' Hxy HF IH]; intros r' Hr; [destruct Hr|]. destruct Hr as [<-|Hr].
    - exists y. split; [now left|symmetry; now apply same_time].
    - destruct (IH r' Hr) as (r & Hr1 & Hr2). exists r. split; [now right|exact Hr2]. }
  assert (Sp : forall l1 l2, l = l1 ++ p :: l2 -> exists m1 q m2, l' = m1 ++ q :: m2 /\ same_but_base p q /\
     Forall2 same_but_base l1 m1 /\ Forall2 same_but_base l2 m2).
  { intros l1 l2 ->. apply Forall2_app_inv_l in HF. destruct HF as (m1 & m2' & F1 & F2 & ->).
    inversion F2 as [|p0 q l0 m2 Hpq F2']; subst. exists m1, q, m2. auto. }
  assert (HT : forall m m', Forall2 same_but_base m m' -> forall u, In u m' -> exists v, In v m /\ cp_Time v = cp_Time u).
  { clear. induction 1 as [|x y l l' Hxy HF IH]; intros r' Hr; [destruct Hr|]. destruct Hr as [<-|Hr].
    - exists x. split; [now left|now apply same_time].
    - destruct (IH r' Hr) as (r & Hr1 & Hr2). exists r. split; [now right|exact Hr2]. }
  destruct Hex as [Hex|Hno].
  - destruct (H1 Hex) as (l1 & l2 & E & Hq & Hl1 & Hl2). destruct (Sp l1 l2 E) as (m1 & q & m2 & E' & Spq & F1 & F2).
    exists q. split; [|exact Spq]. apply same_time in Spq as Tpq. split.
    + intros _. exists m1, m2. rewrite <- Tpq. split; [exact E'|]. split; [exact Hq|]. split.
      * intros r Hr. destruct (HT _ _ F1 r Hr) as (v & Hv & Ev). rewrite <- Ev. now apply Hl1.
      * intros r Hr. destruct (HT _ _ F2 r Hr) as (v & Hv & Ev). rewrite <- Ev. now apply Hl2.
    + intros Hno. exfalso. destruct Hex as (r & Hr & Hrt). destruct (HFr r Hr) as (v & Hv & Ev).
      specialize (Hno v Hv). rewrite Ev in Hno. congruence.
  - destruct (H2 Hno) as (l1 & l2 & E & Hl1 & Hl2). destruct (Sp l1 l2 E) as (m1 & q & m2 & E' & Spq & F1 & F2).
    exists q. split; [|exact Spq]. apply same_time in Spq as Tpq. split.
    + intros (r & Hr & Hrt). exfalso. destruct (HFl r Hr) as (v & Hv & Ev). specialize (Hno v Hv). rewrite Ev in Hno. congruence.
    + intros _. exists m1, m2. rewrite <- Tpq. split; [exact E'|]. split.
      * intros r Hr. destruct (HT _ _ F1 r Hr) as (v & Hv & Ev). rewrite <- Ev. now apply Hl1.
      * intros r Hr. destruct (HT _ _ F2 r Hr) as (v & Hv & Ev). rewrite <- Ev. now apply Hl2.
Qed.

Lemma finalize_points_eq tim : t_points (finalize_points tim) = fst (finalize_loop None (stable_sort point_lt (t_points tim))) /\
  t_original (finalize_points tim) = t_original tim ++ snd (finalize_loop None (stable_sort point_lt (t_points tim))).
Proof. unfold finalize_points. destruct (finalize_loop None _). split; reflexivity. Qed.

Lemma fresh_tnum l : Forall fresh l -> Forall tnum l.
Proof. apply Forall_impl. intros p [_ H]. exact H. Qed.
Lemma same_tnum l l' : Forall2 same_but_base l l' -> Forall tnum l' -> Forall tnum l.
Proof.
  induction 1 as [|x y l l' H F IH]; intros HN; [constructor|]. inversion HN; subst. constructor; auto.
  unfold tnum in *. rewrite (same_time _ _ H). assumption.
Qed.
Lemma same_ordered l l' : Forall2 same_but_base l l' -> ordered tk l' -> ordered tk l.
Proof.
  unfold ordered. induction 1 as [|x y l l' H F IH]; intros HO; [constructor|]. inversion HO as [|? ? HO' HF]; subst.
  constructor; [auto|]. apply same_time in H. clear -F HF H. unfold tk. rewrite H. induction F; [constructor|].
  inversion HF; subst. constructor; auto. rewrite (same_time _ _ H0). assumption.
Qed.
Lemma sort_tnum l : Forall tnum l -> Forall tnum (stable_sort point_lt l).
Proof. rewrite !Forall_forall. intros H x Hx. apply H. revert Hx. apply sort_in. Qed.

Lemma stored_facts l : Forall fresh l ->
  let ps := t_points (finalize_points (added l)) in
  Forall2 same_but_base ps (stable_sort point_lt l) /\ ordered tk ps /\ Forall tnum ps.
Proof.
  intros HF ps. pose proof (added_points l) as [El _].
  assert (S : Forall2 same_but_base ps (stable_sort point_lt l)).
  { unfold ps. rewrite (proj1 (finalize_points_eq _)), El. apply finalize_loop_same. }
  pose proof (fresh_tnum l HF) as HN. split; [exact S|]. split.
  - eapply same_ordered; [exact S|]. apply sort_ordered. now apply point_lt_keyed.
  - eapply same_tnum; [exact S|]. now apply sort_tnum.
Qed.

Lemma c11 l t : Forall fresh l -> fisnan t = false -> l <> [] ->
  exists p q, get_point_at (finalize_points (added l)) t = Ok p /\ same_but_base p q /\ looked_up l t q.
Proof.
  intros HF Ht Hne. destruct (stored_facts l HF) as (S & HO & HN). set (ps := t_points (finalize_points (added l))) in *.
  destruct (point_at_spec ps t HO HN Ht) as (p & Hp & Hl).
  { intros C. rewrite C in S. inversion S as [E|]; subst. pose proof (sort_length point_lt l) as L. rewrite <- H in L. destruct l; [congruence|discriminate]. }
  exists p. assert (Hin : In p ps).
  { unfold point_at in Hp. apply idx_ok in Hp. destruct Hp as [_ Hp]. eapply nth_error_In; eauto. }
  destruct (looked_up_same ps _ t p S Hl Hin) as (q & Hq & Spq).
  exists q. split; [exact Hp|]. split; [exact Spq|]. apply looked_up_sort; auto. now apply fresh_tnum.
Qed.

Lemma uninh_sub l x : In x (uninherited_or_first l) -> In x l.
Proof. destruct l; cbn; [tauto|]. intros [->|H]; [now left|]. right. apply filter_In in H. tauto. Qed.
Lemma filter_ordered {A} (k : A -> R) P l : ordered k l -> ordered k (filter P l).
Proof.
  unfold ordered. induction 1 as [|x l Hl IH Hx]; cbn; [constructor|]. destruct (P x); [|exact IH].
  constructor; [exact IH|]. rewrite Forall_forall in *. intros y Hy. apply filter_In in Hy. apply Hx. tauto.
Qed.
Lemma uninh_ordered l : ordered tk l -> ordered tk (uninherited_or_first l).
Proof.
  unfold ordered. destruct l as [|p l]; cbn; [constructor|]. intros H. inversion H as [|? ? Hl Hx]; subst. constructor.
  - now apply filter_ordered.
  - rewrite Forall_forall in *. intros y Hy. apply filter_In in Hy. apply Hx. tauto.
Qed.
Lemma c11_orig l t : Forall fresh l -> fisnan t = false -> l <> [] ->
  let tim := finalize_points (added l) in
  t_original tim = uninherited_or_first (t_points tim) /\
  exists p, get_original_point_at tim t = Ok p /\ looked_up (uninherited_or_first (t_points tim)) t p.
Proof.
  intros HF Ht Hne tim. destruct (stored_facts l HF) as (S & HO & HN).
  assert (EO : t_original tim = uninherited_or_first (t_points tim)).
  { unfold tim. destruct (finalize_points_eq (added l)) as [-> ->].
    rewrite (proj2 (added_points l)). cbn [app]. apply (finalize_loop_originals _ None). }
  split; [exact EO|]. unfold get_original_point_at. rewrite EO. apply point_at_spec; auto.
  - now apply uninh_ordered.
  - rewrite Forall_forall in *. intros x Hx. apply HN. now apply uninh_sub.
  - fold tim in S. destruct (t_points tim) eqn:E; [|discriminate]. inversion S as [E'|]; subst.
    pose proof (sort_length point_lt l) as L. rewrite <- H in L. destruct l; [congruence|discriminate].
Qed.

(** ** ratio *)
Open Scope R_scope.
From Flocq Require Import Core.
Lemma key_fin64 (x : f64) : fin x -> key x = B2R x. Proof. apply key_fin. Qed.


Lemma bpow_big (x : R) : Rabs x <= 1267650600228229401496703205376 -> Rabs x <= bpow radix2 127 /\ Rabs x <= bpow radix2 1023.
Proof.
  intros H. change 1267650600228229401496703205376 with (bpow radix2 100) in H.
  split; eapply Rle_trans; eauto; apply bpow_le; lia.
Qed.
Lemma clamp_key x a b : num x -> num a -> num b -> num (clampF64 x a b) /\ key (clampF64 x a b) = Rmin (key b) (Rmax (key a) (key x)).
Proof.
  intros Hx Ha Hb. unfold clampF64. destruct (fmax_key a x Ha Hx) as [N1 E1]. destruct (fmin_key b _ Hb N1) as [N2 E2].
  rewrite E1 in E2. auto.
Qed.
Lemma Rminmax a b x : a <= b -> a <= Rmin b (Rmax a x) <= b.
Proof. intros H. unfold Rmin, Rmax. destruct (Rle_dec a x); destruct (Rle_dec b _); lra. Qed.
Lemma num_neg (x : f64) : num x -> num (fneg x).
Proof. destruct x; unfold num; auto. Qed.

Lemma ratio_range p :
  (fge (cp_beat p) f0 = true \/ fisnan (cp_beat p) = true -> get_ratio p = fq 1 1) /\
  fle (fq 1 10) (get_ratio p) = true /\ fle (get_ratio p) (fq 10 1) = true.
Proof.
  split.
  { intros H. unfold get_ratio. destruct (fge (cp_beat p) f0 || fisnan (cp_beat p)) eqn:E; [reflexivity|].
    apply orb_false_iff in E. destruct E. destruct H; congruence. }
  unfold get_ratio. destruct (fge (cp_beat p) f0 || fisnan (cp_beat p)) eqn:E; [split; vm_compute; reflexivity|].
  apply orb_false_iff in E. destruct E as [_ E].
  assert (N : num (fneg (cp_beat p))) by (apply num_neg; exact E).
  destruct (fq1_exact 10 ltac:(vm_compute; discriminate)) as [F10 V10].
  destruct (fq1_exact 1000 ltac:(vm_compute; discriminate)) as [F1000 V1000].
  destruct (clamp_key _ _ _ N (fin_num _ _ _ F10) (fin_num _ _ _ F1000)) as [Nc Kc].
  set (c := clampF64 _ _ _) in *. rewrite !(key_fin64 (fq _ _)), V10, V1000 in Kc by assumption.
  pose proof (Rminmax 10 1000 (key (fneg (cp_beat p))) ltac:(lra)) as R. rewrite <- Kc in R.
  assert (Fc : fin c).
  { apply (fin_between 53 1024 c (fq 10 1) (fq 1000 1)); auto; apply Ble_iff; rewrite ?(key_fin64 (fq _ _)) by assumption;
      repeat split; try (apply fin_num; assumption); auto; lra. }
  rewrite key_fin64 in R by exact Fc.
  assert (Fg : fin (gq 100 1)) by reflexivity.
  bval (gq 100 1).
  destruct (bpow_big (B2R c)) as [B1 _]. { rewrite Rabs_pos_eq; lra. }
  destruct (g_of_f_fin c Fc B1) as [Fgc Vgc].
  assert (Rg : 10 <= B2R (g_of_f c) <= 1000).
  { rewrite Vgc. bval (gq 10 1). bval (gq 1000 1). split.
    - apply Rle_trans with (B2R (gq 10 1)); [lra|]. apply rnd32_ge_f. lra.
    - apply Rle_trans with (B2R (gq 1000 1)); [|lra]. apply rnd32_le_f. lra. }
  destruct (gdiv_fin (g_of_f c) (gq 100 1) Fgc Fg) as [Fd Vd].
  - rewrite V. lra.
  - apply bpow_big. rewrite V, Rabs_pos_eq; lra.
  - set (d := gdiv _ _) in *. destruct (f_of_g_fin d Fd) as [Ff Vf].
    assert (Rd : 1 / 10 < B2R (gq 1 10) <= B2R d /\ B2R d <= 10).
    { rewrite Vd, V. bval (gq 1 10). split; [split; [lra|]|].
      - assert (Hd : B2R (gq 1 10) = B2R (gdiv (gq 10 1) (gq 100 1))).
        { bval (gdiv (gq 10 1) (gq 100 1)). lra. }
        rewrite Hd. assert (F1 : fin (gq 10 1)) by reflexivity. bval (gq 10 1).
        destruct (gdiv_fin (gq 10 1) (gq 100 1) F1 Fg) as [_ V'].
        + lra.
        + apply bpow_big. rewrite V, V1, Rabs_pos_eq; lra.
        + rewrite V'. apply rnd32_le. rewrite V1, V. lra.
      - bval (gq 10 1). apply Rle_trans with (B2R (gq 10 1)); [|lra]. apply rnd32_le_f. lra. }
    bval (fq 1 10).
    split; apply fle_iff; (split; [try reflexivity; try (apply fin_num; assumption)|]); (split; [try reflexivity; try (apply fin_num; assumption)|]);
      rewrite !key_fin64 by (try reflexivity; assumption); rewrite Vf; [|rewrite V10; lra].
    bval (gq 1 10). lra.
Qed.
Close Scope R_scope.

Lemma c12 l : Forall fresh l ->
  let ps := t_points (finalize_points (added l)) in
  exists l', Forall2 same_but_base ps l' /\ Permutation l l' /\ time_ordered ps /\
    forall t, filter (fun p => feq (cp_Time p) t) l' = filter (fun p => feq (cp_Time p) t) l.
Proof.
  intros HF ps. destruct (stored_facts l HF) as (S & HO & HN). exists (stable_sort point_lt l).
  split; [exact S|]. split; [apply sort_perm|]. split.
  - intros i j p q Hij Hp Hq. rewrite Forall_forall in HN. apply fle_iff.
    split; [apply HN; eapply nth_error_In; eauto|]. split; [apply HN; eapply nth_error_In; eauto|].
    apply (ordered_nth ps HO i j); auto.
  - intros t. apply (sort_stable point_lt tk); [apply point_lt_keyed; now apply fresh_tnum|].
    intros x y _ _ Hx Hy. apply feq_iff in Hx, Hy. unfold tk. destruct Hx as (_ & _ & ->), Hy as (_ & _ & ->). reflexivity.
Qed.
Lemma c13 l : Forall (fun p => cp_base p = cp_beat p) l -> forall i p,
  nth_error (t_points (finalize_points (added l))) i = Some p ->
  exists k q, (k <= i)%nat /\ nth_error (t_points (finalize_points (added l))) k = Some q /\
    (cp_Inherited q = false \/ k = 0%nat) /\ cp_base p = cp_beat q /\
    (forall j r, (k < j <= i)%nat -> nth_error (t_points (finalize_points (added l))) j = Some r -> cp_Inherited r = true).
Proof.
  intros HF i p. rewrite (proj1 (finalize_points_eq _)), (proj1 (added_points l)). intros Hn.
  destruct (finalize_loop_base (stable_sort point_lt l) None) with (i := i) (p := p) as [(k & q & H1 & H2 & H3 & H4 & H5)|(lp & C & _)]; auto.
  - apply Forall_forall. intros x Hx. rewrite Forall_forall in HF. apply HF. revert Hx. apply sort_in.
  - exists k, q. repeat split; auto. tauto.
  - discriminate.
Qed.
Lemma c15 l : Forall fresh l ->
  let t1 := finalize_points (added l) in let t2 := finalize_points t1 in
  t_points t2 = t_points t1 /\ t_original t2 = t_original t1 ++ t_original t1 /\
  (l <> [] -> t_original t1 <> []).
Proof.
  intros HF t1 t2. destruct (stored_facts l HF) as (S & HO & HN). fold t1 in S, HO, HN.
  assert (E : stable_sort point_lt (t_points t1) = t_points t1).
  { apply (sort_id point_lt tk); [now apply point_lt_keyed|exact HO]. }
  assert (E1 : t_points t1 = fst (finalize_loop None (stable_sort point_lt l)) /\ t_original t1 = snd (finalize_loop None (stable_sort point_lt l))).
  { unfold t1. destruct (finalize_points_eq (added l)) as [-> ->]. rewrite (proj1 (added_points l)), (proj2 (added_points l)). auto. }
  assert (F : finalize_loop None (t_points t1) = finalize_loop None (stable_sort point_lt l)).
  { rewrite (proj1 E1). apply finalize_loop_idem. }
  unfold t2. destruct (finalize_points_eq t1) as [-> ->]. rewrite E, F. split; [symmetry; tauto|].
  split; [now rewrite <- (proj2 E1)|].
  intros Hne. rewrite (proj2 E1). rewrite (finalize_loop_originals _ None).
  pose proof (finalize_loop_same (stable_sort point_lt l) None) as Sm.
  destruct (fst (finalize_loop None (stable_sort point_lt l))); [|discriminate].
  inversion Sm as [E'|]; subst. pose proof (sort_length point_lt l) as L. rewrite <- H in L. destruct l; [congruence|discriminate].
Qed.
Lemma C13_helper l : Forall fresh l -> forall i p, nth_error (t_points (finalize_points (added l))) i = Some p ->
  cp_base p = cp_beat p \/ cp_Inherited p = true.
Proof.
  intros HF i p Hp. destruct (c13 l) with (i := i) (p := p) as (k & q & Hk & Hq & Hg & Hb & Hr); auto.
  { eapply Forall_impl; [|exact HF]. intros x [H _]. exact H. }
  destruct (Nat.eq_dec k i) as [->|].
  - left. congruence.
  - right. apply (Hr i); auto. lia.
Qed.
Lemma B2R_key_eq (x y : f64) : fin x -> fin y -> B2R x = B2R y -> B2R x <> 0%R -> x = y.
Proof.
  intros Fx Fy E H. destruct x as [| | |sx mx ex bx]; try discriminate; [elim H; reflexivity|].
  apply (B2R_inj 53 1024); auto.
  destruct y as [| | |sy my ey by_]; try discriminate; [|reflexivity]. rewrite E in H. elim H. reflexivity.
Qed.
Lemma ratio_value p :
  fle (fq (-1000) 1) (cp_beat p) = true -> fle (cp_beat p) (fq (-10) 1) = true ->
  get_ratio p = f_of_g (gdiv (g_of_f (fneg (cp_beat p))) (gq 100 1)).
Proof.
  intros H1 H2. set (b := cp_beat p) in *.
  destruct (fq1_exact (-1000) ltac:(vm_compute; discriminate)) as [F1 V1].
  destruct (fq1_exact (-10) ltac:(vm_compute; discriminate)) as [F2 V2].
  destruct (fq1_exact 10 ltac:(vm_compute; discriminate)) as [F10 V10].
  destruct (fq1_exact 1000 ltac:(vm_compute; discriminate)) as [F1000 V1000].
  assert (Fb : fin b) by (apply (fin_between 53 1024 b (fq (-1000) 1) (fq (-10) 1)); auto).
  apply fle_iff in H1, H2. destruct H1 as (_ & Nb & H1), H2 as (_ & _ & H2).
  rewrite (key_fin64 b), (key_fin64 (fq _ _)) in H1 by assumption. rewrite (key_fin64 b), (key_fin64 (fq _ _)) in H2 by assumption.
  rewrite V1 in H1. rewrite V2 in H2.
  unfold get_ratio. fold b. assert (E : fge b f0 || fisnan b = false).
  { apply orb_false_iff. split; [|exact Nb]. apply fge_false; [exact Nb|reflexivity|]. rewrite key_fin64 by exact Fb. cbn [key B2R f0]. lra. }
  rewrite E. do 3 f_equal.
  destruct (fneg_fin b Fb) as [Fn Vn].
  destruct (clamp_key (fneg b) (fq 10 1) (fq 1000 1)) as [Nc Kc]; try (apply fin_num; assumption).
  rewrite (key_fin64 (fq 10 1)), (key_fin64 (fq 1000 1)), (key_fin64 (fneg b)) in Kc by assumption. rewrite V10, V1000, Vn in Kc.
  rewrite Rmax_right in Kc by lra. rewrite Rmin_right in Kc by lra.
  assert (Fc : fin (clampF64 (fneg b) (fq 10 1) (fq 1000 1))).
  { apply fin_of_key; [exact Nc|]. rewrite Kc, <- Vn. apply (B2R_lt 53 1024). exact Fn. }
  rewrite key_fin64 in Kc by exact Fc.
  apply B2R_key_eq; auto; lra.
Qed.

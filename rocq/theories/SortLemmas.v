(** Facts about the sort package model. *)
From Coq Require Import Reals Lra Permutation Sorted PeanoNat.
From Verif Require Import GoSort.

(** ** sort.Search *)
Lemma div2_between i j : (i < j)%nat -> (i <= Nat.div2 (i + j) < j)%nat.
Proof.
  intros H. rewrite Nat.div2_div. split.
  - apply Nat.div_le_lower_bound; lia.
  - apply Nat.div_lt_upper_bound; lia.
Qed.
Lemma search_loop_spec f : forall fuel i j, (j - i <= fuel)%nat -> (i <= j)%nat ->
  (forall a b, (i <= a <= b)%nat -> (b < j)%nat -> f a = true -> f b = true) ->
  let r := search_loop fuel f i j in
  (i <= r <= j)%nat /\ (forall h, (i <= h < r)%nat -> f h = false) /\ (forall h, (r <= h < j)%nat -> f h = true).
Proof.
  induction fuel as [|fuel IH]; intros i j Hf Hij Hm; cbn [search_loop].
  - split; [lia|]. split; intros; lia.
  - destruct (Nat.ltb_spec i j) as [Hl|Hl].
    + pose proof (div2_between i j Hl) as Hh. set (h := Nat.div2 (i + j)) in *. cbn zeta.
      destruct (f h) eqn:E.
      * destruct (IH i h) as (R & F & T); [lia|lia|intros; eapply Hm; eauto; lia|].
        split; [lia|]. split; [exact F|]. intros k Hk.
        destruct (Nat.lt_ge_cases k h); [apply T; lia|]. apply (Hm h k); auto; lia.
      * destruct (IH (S h) j) as (R & F & T); [lia|lia|intros; eapply Hm; eauto; lia|].
        split; [lia|]. split; [|exact T]. intros k Hk.
        destruct (Nat.lt_ge_cases h k); [apply F; lia|].
        destruct (f k) eqn:Ek; [|reflexivity]. rewrite <- E. symmetry. apply (Hm k h); auto; lia.
    + split; [lia|]. split; intros; lia.
Qed.
Lemma search_spec f n :
  (forall a b, (a <= b < n)%nat -> f a = true -> f b = true) ->
  let r := search n f in
  (r <= n)%nat /\ (forall h, (h < r)%nat -> f h = false) /\ (forall h, (r <= h < n)%nat -> f h = true).
Proof.
  intros Hm. unfold search. destruct (search_loop_spec f n 0 n) as (R & F & T); [lia|lia| |].
  - intros a b Hab Hb. apply Hm. lia.
  - split; [lia|]. split; intros; [apply F|apply T]; lia.
Qed.
(** without any assumption on f: the result is in range, the element before it
    (if any) is false and the element at it (if any) is true *)
Lemma search_loop_weak f : forall fuel i j, (j - i <= fuel)%nat -> (i <= j)%nat ->
  let r := search_loop fuel f i j in
  (i <= r <= j)%nat /\ (i < r -> f (r - 1) = false)%nat /\ (r < j -> f r = true)%nat.
Proof.
  induction fuel as [|fuel IH]; intros i j Hf Hij; cbn [search_loop].
  - split; [lia|]. split; intros; lia.
  - destruct (Nat.ltb_spec i j) as [Hl|Hl].
    + pose proof (div2_between i j Hl) as Hh. set (h := Nat.div2 (i + j)) in *. cbn zeta.
      destruct (f h) eqn:E.
      * destruct (IH i h) as (R & F & T); [lia|lia|].
        split; [lia|]. split; [exact F|]. intros Hk.
        destruct (Nat.eq_dec (search_loop fuel f i h) h) as [->|]; [exact E|apply T; lia].
      * destruct (IH (S h) j) as (R & F & T); [lia|lia|].
        split; [lia|]. split; [|exact T]. intros Hk.
        destruct (Nat.eq_dec (search_loop fuel f (S h) j) (S h)) as [Eq|].
        -- rewrite Eq. replace (S h - 1)%nat with h by lia. exact E.
        -- apply F. lia.
    + split; [lia|]. split; intros; lia.
Qed.
Lemma search_weak f n : let r := search n f in
  (r <= n)%nat /\ (0 < r -> f (r - 1) = false)%nat /\ (r < n -> f r = true)%nat.
Proof.
  unfold search. destruct (search_loop_weak f n 0 n) as (R & F & T); [lia|lia|].
  split; [lia|]. split; assumption.
Qed.
Lemma search_loop_ext f g : forall fuel i j, (forall h, (h < j)%nat -> f h = g h) -> search_loop fuel f i j = search_loop fuel g i j.
Proof.
  induction fuel as [|fuel IH]; intros i j H; cbn [search_loop]; [reflexivity|].
  destruct (Nat.ltb_spec i j) as [Hl|Hl]; [|reflexivity].
  pose proof (div2_between i j Hl) as Hh. rewrite H by lia. destruct (g _); apply IH; intros; apply H; lia.
Qed.
Lemma search_ext f g n : (forall h, (h < n)%nat -> f h = g h) -> search n f = search n g.
Proof. apply search_loop_ext. Qed.

(** ** stable sort *)
Section Sort.
Context {A : Type} (lt : A -> A -> bool).
Lemma insert_perm x l : Permutation (x :: l) (insert lt x l).
Proof.
  induction l as [|y l IH]; cbn [insert]; [reflexivity|].
  destruct (lt y x); [|reflexivity]. rewrite perm_swap. now constructor.
Qed.
Lemma sort_perm l : Permutation l (stable_sort lt l).
Proof.
  induction l as [|x l IH]; cbn [stable_sort fold_right]; [constructor|].
  rewrite IH at 1. apply insert_perm.
Qed.
Lemma sort_length l : length (stable_sort lt l) = length l.
Proof. symmetry. apply Permutation_length, sort_perm. Qed.
Lemma sort_in l x : In x (stable_sort lt l) <-> In x l.
Proof. split; apply Permutation_in; [symmetry|]; apply sort_perm. Qed.

(** with a real key deciding the comparison on the elements at hand *)
Context (k : A -> R).
Definition keyed (l : list A) : Prop := forall x y, In x l -> In y l -> (lt x y = true <-> (k x < k y)%R).
Definition ordered (l : list A) : Prop := StronglySorted (fun x y => (k x <= k y)%R) l.

Lemma keyed_sub l l' : (forall x, In x l' -> In x l) -> keyed l -> keyed l'.
Proof. intros H K x y Hx Hy. apply K; auto. Qed.
Lemma keyed_perm l l' : Permutation l l' -> keyed l -> keyed l'.
Proof. intros H. apply keyed_sub. intros x. apply Permutation_in. now symmetry. Qed.

Lemma insert_ordered x l : keyed (x :: l) -> ordered l -> ordered (insert lt x l).
Proof.
  intros K H. induction H as [|y l Hl IH Hy]; cbn [insert]; [repeat constructor|].
  assert (Kxy : lt y x = true <-> (k y < k x)%R) by (apply K; simpl; auto).
  destruct (lt y x) eqn:E.
  - constructor.
    + apply IH. eapply keyed_sub; [|exact K]. simpl. tauto.
    + apply Forall_forall. intros z Hz.
      apply (Permutation_in z (Permutation_sym (insert_perm x l))) in Hz. destruct Hz as [<-|Hz].
      * destruct Kxy as [Kxy _]. specialize (Kxy eq_refl). lra.
      * rewrite Forall_forall in Hy. now apply Hy.
  - constructor; [constructor; assumption|].
    assert (Hxy : (k x <= k y)%R). { apply Rnot_lt_le. intros C. apply Kxy in C. discriminate. }
    constructor; [exact Hxy|]. rewrite Forall_forall in *. intros z Hz. specialize (Hy z Hz). lra.
Qed.
Lemma sort_ordered l : keyed l -> ordered (stable_sort lt l).
Proof.
  induction l as [|x l IH]; intros K; cbn [stable_sort fold_right]; [constructor|].
  apply insert_ordered.
  - eapply keyed_perm; [|exact K]. constructor. apply sort_perm.
  - apply IH. eapply keyed_sub; [|exact K]. simpl. auto.
Qed.
(** stability: elements whose keys agree keep their order *)
Lemma insert_filter (P : A -> bool) x l : keyed (x :: l) -> ordered l ->
  (forall y, In y l -> P x = true -> P y = true -> k x = k y) ->
  filter P (insert lt x l) = filter P (x :: l).
Proof.
  intros K H HP. induction H as [|y l Hl IH Hy]; cbn [insert]; [reflexivity|].
  assert (Kxy : lt y x = true <-> (k y < k x)%R) by (apply K; simpl; auto).
  destruct (lt y x) eqn:E; [|reflexivity].
  cbn [filter]. rewrite IH.
  - cbn [filter]. destruct (P y) eqn:Ey, (P x) eqn:Ex; try reflexivity.
    destruct Kxy as [Kxy _]. specialize (Kxy eq_refl). rewrite (HP y (or_introl eq_refl)) in Kxy by auto. lra.
  - eapply keyed_sub; [|exact K]. simpl. tauto.
  - intros z Hz. apply HP. now right.
Qed.
Lemma sort_stable (P : A -> bool) l : keyed l ->
  (forall x y, In x l -> In y l -> P x = true -> P y = true -> k x = k y) ->
  filter P (stable_sort lt l) = filter P l.
Proof.
  induction l as [|x l IH]; intros K HP; cbn [stable_sort fold_right]; [reflexivity|].
  assert (Kl : keyed l) by (eapply keyed_sub; [|exact K]; simpl; auto).
  rewrite insert_filter.
  - cbn [filter]. unfold stable_sort in IH. rewrite IH by (auto; intros; apply HP; simpl; auto). reflexivity.
  - eapply keyed_perm; [|exact K]. constructor. apply sort_perm.
  - now apply sort_ordered.
  - intros y Hy. apply HP; simpl; auto. right. revert Hy. apply sort_in.
Qed.
(** a sorted list is a fixed point *)
Lemma sort_id l : keyed l -> ordered l -> stable_sort lt l = l.
Proof.
  intros K H. induction H as [|x l Hl IH Hx]; [reflexivity|]. cbn [stable_sort fold_right].
  unfold stable_sort in IH. rewrite IH by (eapply keyed_sub; [|exact K]; simpl; auto).
  destruct l as [|y l]; [reflexivity|]. cbn [insert].
  assert (Kxy : lt y x = true <-> (k y < k x)%R) by (apply K; simpl; auto).
  destruct (lt y x); [|reflexivity]. inversion Hx; subst. destruct Kxy as [Kxy _]. specialize (Kxy eq_refl). lra.
Qed.
(** two permutations of each other with all keys distinguishing elements sort alike *)
Lemma ordered_unique l l' : Permutation l l' -> ordered l -> ordered l' ->
  (forall x y, In x l -> In y l -> k x = k y -> x = y) -> l = l'.
Proof.
  intros P H. revert l' P. induction H as [|x l Hl IH Hx]; intros l' P H' Inj.
  - apply Permutation_nil in P. now subst.
  - destruct l' as [|y l']; [symmetry in P; now apply Permutation_nil in P|].
    inversion H' as [|? ? Hl' Hy]; subst. rewrite Forall_forall in Hx, Hy.
    assert (Exy : x = y).
    { assert (Iy : In y (x :: l)) by (eapply Permutation_in; [symmetry; exact P|now left]).
      assert (Ix : In x (y :: l')) by (eapply Permutation_in; [exact P|now left]).
      apply Inj; [now left|exact Iy|].
      destruct Iy as [->|Iy]; [reflexivity|]. destruct Ix as [->|Ix]; [reflexivity|].
      apply Rle_antisym; auto. }
    subst y. f_equal. apply IH; auto.
    + eapply Permutation_cons_inv. exact P.
    + intros a b Ha Hb. apply Inj; now right.
Qed.
End Sort.

(** Facts about the Go runtime base. *)
From Verif Require Import GoBase.

Lemma str_eqb_eq a : forall b, str_eqb a b = true <-> a = b.
Proof.
  induction a as [|x a IH]; destruct b as [|y b]; simpl; try (split; congruence).
  rewrite andb_true_iff, Ascii.eqb_eq, IH. split; [intros [-> ->]; reflexivity|intros [= -> ->]; auto].
Qed.
Lemma str_eqb_refl a : str_eqb a a = true.
Proof. now apply str_eqb_eq. Qed.
Lemma str_eqb_neq a b : str_eqb a b = false <-> a <> b.
Proof. rewrite <- str_eqb_eq. destruct (str_eqb a b); split; congruence. Qed.

Lemma bind_ok {A B} (x : res A) (f : A -> res B) y :
  bind x f = Ok y -> exists a, x = Ok a /\ f a = Ok y.
Proof. destruct x; simpl; try discriminate. eauto. Qed.
Lemma bind_assoc {A B C} (x : res A) (f : A -> res B) (g : B -> res C) :
  bind (bind x f) g = bind x (fun a => bind (f a) g).
Proof. destruct x; reflexivity. Qed.

Lemma upd_length {A} (l : list A) : forall i x, length (upd l i x) = length l.
Proof. induction l; intros [|i] x; simpl; auto. Qed.
Lemma nth_upd {A} (l : list A) : forall i j x,
  nth_error (upd l i x) j = if Nat.eqb i j then (if Nat.ltb i (length l) then Some x else None) else nth_error l j.
Proof.
  induction l as [|a l IH]; intros [|i] [|j] x; simpl; try reflexivity.
  - destruct (Nat.eqb i j); reflexivity.
  - rewrite IH. destruct (Nat.eqb i j); [|reflexivity]. reflexivity.
Qed.
Lemma upd_app {A} (d : list A) o r x : upd (d ++ o :: r) (length d) x = d ++ x :: r.
Proof. induction d; simpl; [reflexivity|]. now rewrite IHd. Qed.

Lemma idx_ok {A} (l : list A) i x : idx l i = Ok x <-> 0 <= i /\ nth_error l (Z.to_nat i) = Some x.
Proof.
  unfold idx. destruct (Z.ltb_spec i 0).
  - split; [discriminate|lia].
  - destruct (nth_error l (Z.to_nat i)); split; try (intros [= ->]; split; [lia|reflexivity]);
    try (intros [_ [= ->]]; reflexivity); try discriminate; try (intros [_ ?]; discriminate).
Qed.
Lemma idx_nat {A} (l : list A) (i : nat) : idx l (Z.of_nat i) = match nth_error l i with Some x => Ok x | None => Panic end.
Proof. unfold idx. destruct (Z.ltb_spec (Z.of_nat i) 0); [lia|]. now rewrite Nat2Z.id. Qed.
Lemma idx_not_hang {A} (l : list A) i : idx l i <> Hang.
Proof. unfold idx. destruct (i <? 0); [discriminate|]. destruct (nth_error _ _); discriminate. Qed.
Lemma idx_range {A} (l : list A) i : 0 <= i < zlen l -> exists x, idx l i = Ok x /\ In x l.
Proof.
  intros H. unfold idx. destruct (Z.ltb_spec i 0); [lia|].
  destruct (nth_error l (Z.to_nat i)) eqn:E; [eauto using nth_error_In|].
  apply nth_error_None in E. unfold zlen in H. lia.
Qed.
Lemma idx_out {A} (l : list A) i : ~ (0 <= i < zlen l) -> idx l i = Panic.
Proof.
  intros H. unfold idx. destruct (Z.ltb_spec i 0); [reflexivity|].
  destruct (nth_error l (Z.to_nat i)) eqn:E; [|reflexivity].
  assert (nth_error l (Z.to_nat i) <> None) by congruence. apply nth_error_Some in H1. unfold zlen in H. lia.
Qed.
Lemma idx_app {A} (d : list A) o r : idx (d ++ o :: r) (Z.of_nat (length d)) = Ok o.
Proof. rewrite idx_nat, nth_error_app2, Nat.sub_diag by lia. reflexivity. Qed.
Lemma set_idx_app {A} (d : list A) o r x : set_idx (d ++ o :: r) (Z.of_nat (length d)) x = Ok (d ++ x :: r).
Proof.
  unfold set_idx. destruct (Z.ltb_spec (Z.of_nat (length d)) 0); [lia|]. cbn [orb].
  destruct (Z.leb_spec (Z.of_nat (length (d ++ o :: r))) (Z.of_nat (length d))) as [H1|H1].
  - rewrite app_length in H1; simpl in H1; lia.
  - now rewrite Nat2Z.id, upd_app.
Qed.

Lemma mapM_ok {A B} (f : A -> res B) l : forall ys, mapM f l = Ok ys <-> Forall2 (fun x y => f x = Ok y) l ys.
Proof.
  induction l as [|x l IH]; intros ys; simpl.
  - split; [intros [= <-]; constructor|inversion 1; reflexivity].
  - split.
    + intros H. apply bind_ok in H. destruct H as (y & Hy & H). apply bind_ok in H.
      destruct H as (ys' & Hys & [= <-]). constructor; [exact Hy|]. now apply IH.
    + inversion 1 as [|? y ? ys' Hy Hys]; subst. rewrite Hy. cbn [bind].
      apply IH in Hys. rewrite Hys. reflexivity.
Qed.
Lemma mapM_length {A B} (f : A -> res B) l ys : mapM f l = Ok ys -> length ys = length l.
Proof. intros H. apply mapM_ok in H. induction H; simpl; congruence. Qed.
Lemma mapM_total {A B} (f : A -> res B) l : (forall x, In x l -> exists y, f x = Ok y) -> exists ys, mapM f l = Ok ys.
Proof.
  induction l as [|x l IH]; intros H; simpl; [eauto|].
  destruct (H x (or_introl eq_refl)) as [y ->]. cbn [bind].
  destruct IH as [ys ->]; [intros; apply H; now right|]. cbn [bind]. eauto.
Qed.
Lemma foldM_app {A S} (f : S -> A -> res S) l1 : forall s l2,
  foldM f s (l1 ++ l2) = bind (foldM f s l1) (fun s' => foldM f s' l2).
Proof.
  induction l1 as [|x l1 IH]; intros s l2; simpl; [reflexivity|].
  destruct (f s x); simpl; auto.
Qed.
Lemma foldM_inv {A S} (P : S -> Prop) (f : S -> A -> res S) l :
  (forall s x s', In x l -> P s -> f s x = Ok s' -> P s') -> forall s s', P s -> foldM f s l = Ok s' -> P s'.
Proof.
  induction l as [|x l IH]; intros Hf s s' Hs H; simpl in H; [now injection H as <-|].
  apply bind_ok in H. destruct H as (s1 & H1 & H2).
  eapply (IH (fun s y s'' Hy => Hf s y s'' (or_intror Hy))); [|exact H2]. eapply Hf; eauto. now left.
Qed.

(** Sorting real numbers, and sorting floats near them. *)
From Coq Require Import Reals Lra List ZArith Lia Permutation.
From Flocq Require Import Core BinarySingleNaN.
From Verif Require Import DiffCalc SpecRating BaseLemmas FloatLemmas KeyLemmas PPProofs.
Import ListNotations.
Open Scope R_scope.

Fixpoint desc (l : list R) : Prop := match l with x :: r => (forall y, In y r -> y <= x) /\ desc r | [] => True end.
Lemma put_in x l y : In y (put x l) <-> y = x \/ In y l.
Proof.
  induction l as [|h t IH]; cbn [put]; [cbn; intuition|]. destruct (Rlt_dec x h); cbn [In]; [rewrite IH|]; intuition.
Qed.
Lemma put_desc x l : desc l -> desc (put x l).
Proof.
  induction l as [|h t IH]; cbn [put desc]; [intros _; split; [intros y []|exact I]|]. intros (H & D). destruct (Rlt_dec x h) as [L|L]; cbn [desc].
  - split; [|now apply IH]. intros y Y. apply put_in in Y as [->|Y]; [lra|now apply H].
  - split; [|now split]. intros y [<-|Y]; [lra|]. specialize (H y Y). lra.
Qed.
Lemma sort_desc l : desc (sort_R l).
Proof. induction l as [|x l IH]; [exact I|]. now apply put_desc. Qed.
Lemma put_perm x l : Permutation (x :: l) (put x l).
Proof.
  induction l as [|h t IH]; cbn [put]; [reflexivity|]. destruct (Rlt_dec x h); [|reflexivity]. apply perm_trans with (h :: x :: t); [apply perm_swap|]. now constructor.
Qed.
Lemma sort_perm_R l : Permutation l (sort_R l).
Proof. induction l as [|x l IH]; [constructor|]. apply perm_trans with (x :: sort_R l); [now constructor|apply put_perm]. Qed.
Lemma put_len x l : length (put x l) = S (length l).
Proof. exact (eq_sym (Permutation_length (put_perm x l))). Qed.
Lemma sort_len l : length (sort_R l) = length l.
Proof. exact (eq_sym (Permutation_length (sort_perm_R l))). Qed.
Lemma put_top h t : (forall y, In y t -> y <= h) -> put h t = h :: t.
Proof. destruct t as [|y t]; [reflexivity|]. intros H. cbn [put]. destruct (Rlt_dec h y) as [L|L]; [|reflexivity]. specialize (H y (or_introl eq_refl)). lra. Qed.

(** Larger numbers sort to larger numbers, place by place. *)
Lemma put_mono l : forall l' x y, desc l -> desc l' -> x <= y -> Forall2 Rle l l' -> Forall2 Rle (put x l) (put y l').
Proof.
  induction l as [|h t IH]; intros l' x y D D' XY F; inversion F as [|a b r r' AB F2]; subst.
  - cbn. constructor; [exact XY|constructor].
  - cbn [desc] in D, D'. destruct D as (H & D). destruct D' as (H' & D'). cbn [put]. destruct (Rlt_dec x h) as [A|A]; destruct (Rlt_dec y b) as [B|B].
    + constructor; [exact AB|]. now apply IH.
    + constructor; [lra|]. rewrite <- (put_top b r' H'). apply IH; auto; lra.
    + constructor; [lra|]. rewrite <- (put_top h t H). apply IH; auto; lra.
    + constructor; [exact XY|]. now constructor.
Qed.
Lemma sort_mono l l' : Forall2 Rle l l' -> Forall2 Rle (sort_R l) (sort_R l').
Proof. induction 1 as [|x y r r' XY F IH]; [constructor|]. cbn. apply put_mono; auto using sort_desc. Qed.
Lemma put_map f x l : (forall a b, a < b -> f a < f b) -> put (f x) (map f l) = map f (put x l).
Proof.
  intros M. induction l as [|h t IH]; [reflexivity|]. cbn [put map]. destruct (Rlt_dec (f x) (f h)) as [A|A]; destruct (Rlt_dec x h) as [B|B].
  - cbn [map]. now rewrite IH.
  - exfalso. destruct (Req_dec x h) as [->|N]; [lra|]. specialize (M h x ltac:(lra)). lra.
  - specialize (M x h B). lra.
  - reflexivity.
Qed.
Lemma sort_map f l : (forall a b, a < b -> f a < f b) -> sort_R (map f l) = map f (sort_R l).
Proof. intros M. induction l as [|x l IH]; [reflexivity|]. cbn [map]. change (sort_R (f x :: map f l)) with (put (f x) (sort_R (map f l))). rewrite IH. now apply put_map. Qed.

Lemma F2_map_r {A B C} (R : A -> C -> Prop) (f : B -> C) l m : Forall2 R l (map f m) <-> Forall2 (fun a b => R a (f b)) l m.
Proof.
  split.
  - revert l. induction m as [|b m IH]; intros l H; inversion H; subst; constructor; auto.
  - induction 1; constructor; auto.
Qed.
Lemma F2_map_l {A B C} (R : C -> B -> Prop) (f : A -> C) l m : Forall2 R (map f l) m <-> Forall2 (fun a b => R (f a) b) l m.
Proof.
  split.
  - revert m. induction l as [|b l IH]; intros m H; inversion H; subst; constructor; auto.
  - induction 1; constructor; auto.
Qed.
Lemma F2_both {A B} (P Q : A -> B -> Prop) l m : Forall2 P l m -> Forall2 Q l m -> Forall2 (fun a b => P a b /\ Q a b) l m.
Proof. induction 1 as [|x y l m H F IH]; intros G; inversion G; subst; constructor; auto. Qed.
Lemma F2_weak {A B} (P Q : A -> B -> Prop) l m : (forall a b, P a b -> Q a b) -> Forall2 P l m -> Forall2 Q l m.
Proof. intros H. induction 1; constructor; auto. Qed.

Lemma F2_len {A B} (P : A -> B -> Prop) l m : Forall2 P l m -> length l = length m.
Proof. induction 1; cbn; auto. Qed.
Lemma F2_flip {A B} (P : A -> B -> Prop) l m : Forall2 P l m -> Forall2 (fun b a => P a b) m l.
Proof. induction 1; constructor; auto. Qed.

(** Being near survives sorting. *)
Lemma sort_near e a l l' : 0 <= e < 1 -> Forall2 (fun x r => Rabs (x - r) <= e * r + a) l l' ->
  Forall2 (fun x r => Rabs (x - r) <= e * r + a) (sort_R l) (sort_R l').
Proof.
  intros E F. assert (U : Forall2 Rle (sort_R l) (sort_R (map (fun r => r + (e * r + a)) l'))).
  { apply sort_mono, F2_map_r. eapply F2_weak; [|exact F]. intros x r H. cbv beta in *. apply Rabs_le_inv in H. lra. }
  assert (L : Forall2 Rle (sort_R (map (fun r => r - (e * r + a)) l')) (sort_R l)).
  { apply sort_mono, F2_map_l. clear U. induction F as [|x r l l' H F IH]; constructor; [apply Rabs_le_inv in H; lra|exact IH]. }
  rewrite sort_map in U by (intros; nra). rewrite sort_map in L by (intros; nra). apply (proj1 (F2_map_r _ _ _ _)) in U. apply (proj1 (F2_map_l _ _ _ _)) in L.
  apply F2_flip in L. rename L into L'.
  eapply F2_weak; [|exact (F2_both _ _ _ _ U L')]. intros x r (A & B). cbv beta in *. apply Rabs_le. lra.
Qed.

(** The float sort is the real one. *)
Lemma fgt_fin x y : fin x -> fin y -> fgt y x = if Rlt_dec (B2R x) (B2R y) then true else false.
Proof.
  intros FX FY. change (fgt y x) with (flt x y). destruct (Rlt_dec (B2R x) (B2R y)) as [L|L].
  - now apply flt_fin.
  - now apply flt_fin_false; [| |lra].
Qed.
Lemma insert_put x l : fin x -> Forall fin l -> map (@B2R 53 1024) (insert (fun a b => fgt a b) x l) = put (B2R x) (map (@B2R 53 1024) l).
Proof.
  intros FX. induction 1 as [|y l FY F IH]; [reflexivity|]. cbn [insert map put]. rewrite (fgt_fin x y FX FY). destruct (Rlt_dec (B2R x) (B2R y)); cbn [map]; [now rewrite IH|reflexivity].
Qed.
Lemma insert_fin x l : fin x -> Forall fin l -> Forall fin (insert (fun a b => fgt a b) x l).
Proof. intros FX. induction 1 as [|y l FY F IH]; cbn [insert]; [now constructor|]. destruct (fgt y x); constructor; auto. Qed.
Lemma reverse_sort_fin l : Forall fin l -> Forall fin (reverse_sort l) /\ map (@B2R 53 1024) (reverse_sort l) = sort_R (map (@B2R 53 1024) l).
Proof.
  unfold reverse_sort, stable_sort. induction 1 as [|x l FX F (I1 & I2)]; cbn [fold_right]; [now split|]. split; [now apply insert_fin|]. rewrite insert_put by assumption. rewrite I2. reflexivity.
Qed.
Lemma near_sorts e a l rs : 0 <= e < 1 -> Forall2 (fun x r => fin x /\ Rabs (B2R x - r) <= e * r + a) l rs ->
  Forall2 (fun x r => fin x /\ Rabs (B2R x - r) <= e * r + a) (reverse_sort l) (sort_R rs).
Proof.
  intros E F. assert (FF : Forall fin l) by (clear E; induction F as [|x r l rs (A & _)]; constructor; auto).
  destruct (reverse_sort_fin l FF) as (F1 & E1).
  assert (N : Forall2 (fun x r => Rabs (x - r) <= e * r + a) (map (@B2R 53 1024) (reverse_sort l)) (sort_R rs)).
  { rewrite E1. apply sort_near; [exact E|]. apply F2_map_l. eapply F2_weak; [|exact F]. now intros x r (_ & H). }
  apply (proj1 (F2_map_l _ _ _ _)) in N. revert N F1. generalize (reverse_sort l) (sort_R rs). clear. intros l rs. induction 1 as [|x r l rs H F IH]; intros G; inversion G; subst; constructor; auto.
Qed.
Lemma sort_all (P : R -> Prop) l : Forall P l -> Forall P (sort_R l).
Proof. intros H. exact (Permutation_Forall (sort_perm_R l) H). Qed.

From Coq Require Import Reals Lra.
From Flocq Require Import Core.
From Verif Require Import Stacking SpecMods SpecStacking BaseLemmas FloatLemmas ModsProofs DifficultyProofs.
Open Scope Z_scope.

Section WithLibm.
Context {M : libm}.

(** ** one object *)
Lemma group_get m o : get_stack_index m o = idx_of (group_of m) o.
Proof. unfold get_stack_index, group_of. rewrite hr_bit, ez_bit. destruct (Z.testbit m bHR), (Z.testbit m bEZ); reflexivity. Qed.
Lemma set_set m i j o : set_stack_index m i (set_stack_index m j o) = set_stack_index m i o.
Proof. unfold set_stack_index. destruct (mactive m HardRock), (mactive m Easy), o; reflexivity. Qed.
Lemma get_set m i o : get_stack_index m (set_stack_index m i o) = i.
Proof. unfold get_stack_index, set_stack_index. destruct (mactive m HardRock), (mactive m Easy); reflexivity. Qed.
Lemma set_get m o : set_stack_index m (get_stack_index m o) o = o.
Proof. unfold get_stack_index, set_stack_index. destruct (mactive m HardRock), (mactive m Easy), o; reflexivity. Qed.
(** keep only the index of m's group *)
Definition erase m (o : hobj) : hobj := set_stack_index m (get_stack_index m o) (with_stack o 0 0 0 vzero vzero vzero).
Lemma erase_get m o : get_stack_index m (erase m o) = get_stack_index m o.
Proof. apply get_set. Qed.
Lemma erase_set m i o : erase m (set_stack_index m i o) = set_stack_index m i (erase m o).
Proof. unfold erase, get_stack_index, set_stack_index. destruct (mactive m HardRock), (mactive m Easy); reflexivity. Qed.
Lemma erase_dummy m : erase m dummy = dummy.
Proof. unfold erase, get_stack_index, set_stack_index. destruct (mactive m HardRock), (mactive m Easy); reflexivity. Qed.
Definition bare m (o : hobj) : hobj := set_stack_index m 0 o.
Lemma bare_set m i o : bare m (set_stack_index m i o) = bare m o. Proof. apply set_set. Qed.

(** ** lists *)
Lemma map_upd {A B} (f : A -> B) l : forall n x, map f (upd l n x) = upd (map f l) n (f x).
Proof. induction l as [|a l IH]; intros [|n] x; simpl; try reflexivity. now rewrite IH. Qed.
Lemma upd_same {A} (l : list A) d : forall n, upd l n (nth n l d) = l.
Proof. induction l as [|a l IH]; intros [|n]; simpl; try reflexivity. now rewrite IH. Qed.
Lemma nth_map' {A B} (f : A -> B) l n d d' : f d = d' -> nth n (map f l) d' = f (nth n l d).
Proof. intros <-. apply map_nth. Qed.
Lemma ob_upd l i x n : (i < length l)%nat -> ob (upd l i x) n = if Nat.eqb i n then x else ob l n.
Proof.
  intros H. unfold ob. revert i n H. induction l as [|a l IH]; intros [|i] [|n] H; simpl in *; try lia; try reflexivity.
  rewrite IH by lia. reflexivity.
Qed.
Lemma set_ix_length m l n v : length (set_ix m l n v) = length l.
Proof. apply upd_length. Qed.
Lemma set_ix_bare m l n v : map (bare m) (set_ix m l n v) = map (bare m) l.
Proof.
  unfold set_ix, ob. rewrite map_upd, bare_set.
  rewrite <- (map_nth (bare m)). apply upd_same.
Qed.
Lemma set_ix_same m l n : set_ix m l n (get_ix m l n) = l.
Proof. unfold set_ix, get_ix. rewrite set_get. apply upd_same. Qed.
Definition er m l := map (erase m) l.
Lemma er_ob m l n : ob (er m l) n = erase m (ob l n).
Proof. apply nth_map', erase_dummy. Qed.
Lemma er_set m l n v : set_ix m (er m l) n v = er m (set_ix m l n v).
Proof. unfold set_ix, er. fold (er m l). rewrite er_ob. unfold er. now rewrite map_upd, erase_set. Qed.
Lemma er_get m l n : get_ix m (er m l) n = get_ix m l n.
Proof. unfold get_ix. now rewrite er_ob, erase_get. Qed.
Lemma er_len m l : length (er m l) = length l. Proof. apply map_length. Qed.
Lemma er_sp m l n : is_spinner (ob (er m l) n) = is_spinner (ob l n).
Proof. rewrite er_ob. unfold erase, set_stack_index. destruct (mactive m HardRock), (mactive m Easy); reflexivity. Qed.
Lemma er_sl m l n : is_slider (ob (er m l) n) = is_slider (ob l n).
Proof. rewrite er_ob. unfold erase, set_stack_index. destruct (mactive m HardRock), (mactive m Easy); reflexivity. Qed.
Lemma er_st m l n : ho_start (ob (er m l) n) = ho_start (ob l n).
Proof. rewrite er_ob. unfold erase, set_stack_index. destruct (mactive m HardRock), (mactive m Easy); reflexivity. Qed.
Lemma er_en m l n : ho_end (ob (er m l) n) = ho_end (ob l n).
Proof. rewrite er_ob. unfold erase, set_stack_index. destruct (mactive m HardRock), (mactive m Easy); reflexivity. Qed.
Lemma er_sp0 m l n : ho_startPos (ob (er m l) n) = ho_startPos (ob l n).
Proof. rewrite er_ob. unfold erase, set_stack_index. destruct (mactive m HardRock), (mactive m Easy); reflexivity. Qed.
Lemma er_ep m l n : ho_endPos (ob (er m l) n) = ho_endPos (ob l n).
Proof. rewrite er_ob. unfold erase, set_stack_index. destruct (mactive m HardRock), (mactive m Easy); reflexivity. Qed.
Ltac er := rewrite ?er_sp, ?er_sl, ?er_st, ?er_en, ?er_sp0, ?er_ep, ?er_get, ?er_len.

(** ** frame: only the index of the group changes *)
Lemma pass1_inner_bare m th ns : forall objs base, map (bare m) (fst (pass1_inner m th objs base ns)) = map (bare m) objs.
Proof.
  induction ns as [|n r IH]; intros objs base; cbn [pass1_inner]; [reflexivity|].
  repeat match goal with |- context [if ?b then _ else _] => destruct b; try reflexivity end; rewrite ?IH, ?set_ix_bare; reflexivity.
Qed.
Lemma pass1_bare m th i : forall objs ext, map (bare m) (fst (pass1 m th objs ext i)) = map (bare m) objs.
Proof.
  induction i as [|i IH]; intros objs ext; cbn [pass1]; [reflexivity|].
  pose proof (pass1_inner_bare m th (seq (S i) (length objs - S i)) objs i) as E.
  destruct (pass1_inner _ _ _ _ _) as [objs' base]. cbn [fst] in E.
  repeat match goal with |- context [if ?b then _ else _] => destruct b; try assumption end; now rewrite IH.
Qed.
Lemma shift_tail_bare m n off js : forall objs, map (bare m) (shift_tail m n off objs js) = map (bare m) objs.
Proof.
  unfold shift_tail. induction js as [|j js IH]; intros objs; cbn [fold_left]; [reflexivity|].
  rewrite IH. destruct (near _ _); [apply set_ix_bare|reflexivity].
Qed.
Lemma pass2_circle_bare m th i n : forall objs ci est, map (bare m) (fst (pass2_circle m th i objs ci est n)) = map (bare m) objs.
Proof.
  induction n as [|n IH]; intros objs ci est; cbn [pass2_circle]; [reflexivity|].
  destruct (is_spinner _); [apply IH|]. destruct (fgt _ _); [reflexivity|].
  destruct (Nat.ltb n est); destruct (is_slider _ && _); cbn [fst]; rewrite ?shift_tail_bare, ?set_ix_bare; try reflexivity;
    destruct (near _ _); rewrite ?IH, ?set_ix_bare; reflexivity.
Qed.
Lemma pass2_slider_bare m th n : forall objs ci, map (bare m) (pass2_slider m th objs ci n) = map (bare m) objs.
Proof.
  induction n as [|n IH]; intros objs ci; cbn [pass2_slider]; [reflexivity|].
  destruct (is_spinner _); [apply IH|]. destruct (fgt _ _); [reflexivity|].
  destruct (near _ _); rewrite ?IH, ?set_ix_bare; reflexivity.
Qed.
Lemma pass2_bare m th i : forall objs est, map (bare m) (pass2 m th objs est i) = map (bare m) objs.
Proof.
  induction i as [|i IH]; intros objs est; cbn [pass2]; [reflexivity|].
  destruct (_ || _); [apply IH|]. destruct (is_slider _); [now rewrite IH, pass2_slider_bare|].
  pose proof (pass2_circle_bare m th (S i) (S i) objs (S i) est) as E.
  destruct (pass2_circle _ _ _ _ _ _ _) as [o e]. now rewrite IH.
Qed.
Lemma new_bare m th objs : map (bare m) (apply_new_stacking m th objs) = map (bare m) objs.
Proof.
  unfold apply_new_stacking. pose proof (pass1_bare m th (length objs) objs (zlen objs - 1)) as E.
  destruct (pass1 _ _ _ _ _) as [o e]. now rewrite pass2_bare.
Qed.
Lemma old_inner_bare m th i ns : forall objs st ss, map (bare m) (old_inner m th i objs st ss ns) = map (bare m) objs.
Proof.
  induction ns as [|n r IH]; intros objs st ss; cbn [old_inner]; [reflexivity|].
  repeat match goal with |- context [if ?b then _ else _] => destruct b; try reflexivity end; rewrite ?IH, ?set_ix_bare; reflexivity.
Qed.
Lemma old_bare m th objs : map (bare m) (apply_old_stacking m th objs) = map (bare m) objs.
Proof.
  unfold apply_old_stacking. generalize (seq 0 (length objs)) as is. intro is. revert objs.
  induction is as [|i is IH]; intros objs; cbn [fold_left]; [reflexivity|]. rewrite IH.
  destruct (_ || _); [apply old_inner_bare|reflexivity].
Qed.

(** ** the passes depend on nothing but the group's own index *)
Lemma pass1_inner_er m th ns : forall objs base,
  pass1_inner m th (er m objs) base ns = (er m (fst (pass1_inner m th objs base ns)), snd (pass1_inner m th objs base ns)).
Proof.
  induction ns as [|n r IH]; intros objs base; cbn [pass1_inner]; [reflexivity|]. er.
  repeat match goal with |- context [if ?b then _ else _] => destruct b; try reflexivity end; rewrite ?er_set; apply IH.
Qed.
Lemma pass1_inner_len m th objs base ns : length (fst (pass1_inner m th objs base ns)) = length objs.
Proof. rewrite <- (map_length (bare m)), pass1_inner_bare. apply map_length. Qed.
Lemma pass1_er m th i : forall objs ext,
  pass1 m th (er m objs) ext i = (er m (fst (pass1 m th objs ext i)), snd (pass1 m th objs ext i)).
Proof.
  induction i as [|i IH]; intros objs ext; cbn [pass1]; [reflexivity|]. unfold zlen. er.
  rewrite pass1_inner_er. destruct (pass1_inner m th objs i _) as [objs' base]. cbn [fst snd].
  repeat match goal with |- context [if ?b then _ else _] => destruct b; try reflexivity end; apply IH.
Qed.
Lemma shift_tail_er m n off js : forall objs, shift_tail m n off (er m objs) js = er m (shift_tail m n off objs js).
Proof.
  unfold shift_tail. induction js as [|j js IH]; intros objs; cbn [fold_left]; [reflexivity|]. er.
  destruct (near _ _); rewrite ?er_set; apply IH.
Qed.
Lemma pass2_circle_er m th i n : forall objs ci est, pass2_circle m th i (er m objs) ci est n =
  (er m (fst (pass2_circle m th i objs ci est n)), snd (pass2_circle m th i objs ci est n)).
Proof.
  induction n as [|n IH]; intros objs ci est; cbn [pass2_circle]; [reflexivity|]. er.
  destruct (is_spinner _); [apply IH|]. destruct (fgt _ _); [reflexivity|].
  destruct (Nat.ltb n est); rewrite ?er_set; er; destruct (is_slider _ && _); rewrite ?shift_tail_er; try reflexivity;
    destruct (near _ _); rewrite ?er_set; apply IH.
Qed.
Lemma pass2_slider_er m th n : forall objs ci, pass2_slider m th (er m objs) ci n = er m (pass2_slider m th objs ci n).
Proof.
  induction n as [|n IH]; intros objs ci; cbn [pass2_slider]; [reflexivity|]. er.
  destruct (is_spinner _); [apply IH|]. destruct (fgt _ _); [reflexivity|]. destruct (near _ _); rewrite ?er_set; apply IH.
Qed.
Lemma pass2_er m th i : forall objs est, pass2 m th (er m objs) est i = er m (pass2 m th objs est i).
Proof.
  induction i as [|i IH]; intros objs est; cbn [pass2]; [reflexivity|]. er.
  destruct (_ || _); [apply IH|]. destruct (is_slider _); [rewrite pass2_slider_er; apply IH|].
  rewrite pass2_circle_er. destruct (pass2_circle m th (S i) objs _ _ _) as [o e]. apply IH.
Qed.
Lemma new_er m th objs : apply_new_stacking m th (er m objs) = er m (apply_new_stacking m th objs).
Proof.
  unfold apply_new_stacking, zlen. er. rewrite pass1_er. destruct (pass1 m th objs _ _) as [o e]. apply pass2_er.
Qed.
Lemma old_inner_er m th i ns : forall objs st ss, old_inner m th i (er m objs) st ss ns = er m (old_inner m th i objs st ss ns).
Proof.
  induction ns as [|n r IH]; intros objs st ss; cbn [old_inner]; [reflexivity|]. er.
  repeat match goal with |- context [if ?b then _ else _] => destruct b; try reflexivity end; rewrite ?er_set; apply IH.
Qed.
Lemma old_er m th objs : apply_old_stacking m th (er m objs) = er m (apply_old_stacking m th objs).
Proof.
  unfold apply_old_stacking. er. generalize (seq 0 (length objs)) as is. intro is. revert objs.
  induction is as [|i is IH]; intros objs; cbn [fold_left]; [reflexivity|]. er.
  destruct (_ || _); rewrite ?old_inner_er; apply IH.
Qed.
Definition run (version : Z) m th objs := if 6 <=? version then apply_new_stacking m th objs else apply_old_stacking m th objs.
Lemma run_bare v m th objs : map (bare m) (run v m th objs) = map (bare m) objs.
Proof. unfold run. destruct (6 <=? v); [apply new_bare|apply old_bare]. Qed.
Lemma run_er v m th objs : run v m th (er m objs) = er m (run v m th objs).
Proof. unfold run. destruct (6 <=? v); [apply new_er|apply old_er]. Qed.

(** ** whole pass *)
Lemma map_eq_F2 {A B} (f : A -> B) l : forall l', map f l = map f l' -> Forall2 (fun x y => f x = f y) l l'.
Proof. induction l as [|a l IH]; intros [|b l'] E; try discriminate; constructor; injection E; auto. Qed.
Lemma F2_map_r {A B C} (R : A -> C -> Prop) (f : B -> C) l l' : Forall2 (fun x y => R x (f y)) l l' -> Forall2 R l (map f l').
Proof. induction 1; simpl; constructor; auto. Qed.
Lemma F2_impl {A B} (R S : A -> B -> Prop) l l' : (forall x y, R x y -> S x y) -> Forall2 R l l' -> Forall2 S l l'.
Proof. induction 2; constructor; auto. Qed.
Lemma F2_trans {A B C} (R : A -> B -> Prop) (S : B -> C -> Prop) (T : A -> C -> Prop) l1 l2 : (forall x y z, R x y -> S y z -> T x z) ->
  Forall2 R l1 l2 -> forall l3, Forall2 S l2 l3 -> Forall2 T l1 l3.
Proof. intros H. induction 1; intros l3 H3; inversion H3; subst; constructor; eauto. Qed.
Lemma F2_and {A B} (R S : A -> B -> Prop) l l' : Forall2 R l l' -> Forall2 S l l' -> Forall2 (fun x y => R x y /\ S x y) l l'.
Proof. induction 1; inversion 1; subst; constructor; auto. Qed.
Lemma F2_sym {A B} (R : A -> B -> Prop) l l' : Forall2 R l l' -> Forall2 (fun y x => R x y) l' l.
Proof. induction 1; constructor; auto. Qed.

Lemma process_eq objs v d len : process_stacking objs v d len =
  map (stack_finish (d_Mods d) (d_CircleRadius d)) (run v (d_Mods d) (threshold d len) (map (bare (d_Mods d)) objs)).
Proof. reflexivity. Qed.
Lemma run_F2 v m th objs : Forall2 (fun o x => bare m x = bare m o) objs (run v m th (map (bare m) objs)).
Proof.
  apply F2_sym, map_eq_F2. rewrite run_bare, map_map. apply map_ext. intro. apply bare_set.
Qed.
Lemma bare_same m o x : bare m x = bare m o -> same_but_stack o x /\
  (forall g, off_of g x = off_of g o) /\ (forall g, g <> group_of m -> idx_of g x = idx_of g o).
Proof.
  unfold bare, set_stack_index, group_of. rewrite hr_bit, ez_bit. destruct o, x.
  destruct (Z.testbit m bHR), (Z.testbit m bEZ); unfold with_stack; cbn; intros [=]; subst; unfold same_but_stack; cbn;
   (split; [auto 15|split; intros []; cbn; congruence]).
Qed.
Lemma finish_frame m r x : same_but_stack x (stack_finish m r x) /\
  (is_spinner x = false -> (forall g, g <> group_of m -> idx_of g (stack_finish m r x) = idx_of g x /\ off_of g (stack_finish m r x) = off_of g x) /\
     idx_of (group_of m) (stack_finish m r x) = idx_of (group_of m) x /\
     off_of (group_of m) (stack_finish m r x) =
       vscl (mkVec (gq 1 1) (gq 1 1)) (gdiv (gmul (gneg (g_of_Z (idx_of (group_of m) x))) (g_of_f r)) (gq 10 1))) /\
  (is_spinner x = true -> forall g, idx_of g (stack_finish m r x) = 0 /\ off_of g (stack_finish m r x) = off_of g x).
Proof.
  unfold stack_finish. destruct (is_spinner x) eqn:E.
  - split; [unfold same_but_stack; cbn; auto 15|]. split; [discriminate|]. intros _ []; split; reflexivity.
  - rewrite group_get. generalize (gdiv (gmul (gneg (g_of_Z (idx_of (group_of m) x))) (g_of_f r)) (gq 10 1)) as v. intro v.
    unfold set_stack_offset, group_of. rewrite hr_bit, ez_bit.
    split; [|split; [intros _|discriminate]]; destruct (Z.testbit m bHR), (Z.testbit m bEZ); unfold same_but_stack;
      cbn -[vscl gq]; auto 15; (split; [intros [] ?; try congruence; split; reflexivity|split; reflexivity]).
Qed.
Lemma same_trans a b c : same_but_stack a b -> same_but_stack b c -> same_but_stack a c.
Proof. unfold same_but_stack. intuition congruence. Qed.
Lemma same_spinner a b : same_but_stack a b -> is_spinner b = is_spinner a.
Proof. intros (E & _). unfold is_spinner. now rewrite E. Qed.

Lemma process_frame objs v d len : Forall2 (fun o o' => same_but_stack o o' /\
    (is_spinner o = false -> forall g, g <> group_of (d_Mods d) -> idx_of g o' = idx_of g o /\ off_of g o' = off_of g o) /\
    (is_spinner o = true -> forall g, idx_of g o' = 0 /\ off_of g o' = off_of g o))
  objs (process_stacking objs v d len).
Proof.
  rewrite process_eq. apply F2_map_r. eapply F2_impl; [|apply run_F2]. intros o x E. cbv beta in E.
  apply bare_same in E as (S1 & O1 & I1). destruct (finish_frame (d_Mods d) (d_CircleRadius d) x) as (S2 & F2 & Z2).
  rewrite (same_spinner _ _ S1) in *.
  split; [eapply same_trans; eauto|]. split.
  - intros Hs g Hg. destruct (F2 Hs) as (F & _). destruct (F g Hg) as [-> ->]. auto.
  - intros Hs g. destruct (Z2 Hs g) as [-> ->]. auto.
Qed.
Lemma process_offset objs v d len : Forall (fun o => is_spinner o = false ->
    off_of (group_of (d_Mods d)) o =
      vscl (mkVec (gq 1 1) (gq 1 1)) (gdiv (gmul (gneg (g_of_Z (idx_of (group_of (d_Mods d)) o))) (g_of_f (d_CircleRadius d))) (gq 10 1)))
  (process_stacking objs v d len).
Proof.
  rewrite process_eq. apply Forall_forall. intros o Ho Hs. apply in_map_iff in Ho. destruct Ho as (x & <- & _).
  destruct (finish_frame (d_Mods d) (d_CircleRadius d) x) as (S2 & F2 & _). rewrite (same_spinner _ _ S2) in Hs.
  destruct (F2 Hs) as (_ & E1 & E2). now rewrite E2, E1.
Qed.
(** isolation *)
Lemma erase_bare_same m o o' : same_but_stack o o' -> erase m (bare m o) = erase m (bare m o').
Proof.
  intros H. unfold bare. rewrite !erase_set. unfold erase. rewrite !set_set. f_equal.
  revert H. unfold same_but_stack, with_stack. intros (H1 & H2 & H3 & H4 & H5 & H6 & H7 & H8 & H9 & H10 & H11 & H12). now rewrite H1, H2, H3, H4, H5, H6, H7, H8, H9, H10, H11, H12.
Qed.
Lemma er_bare_same m objs objs' : Forall2 same_but_stack objs objs' -> er m (map (bare m) objs) = er m (map (bare m) objs').
Proof. unfold er. induction 1; cbn [map]; [reflexivity|]. f_equal; [now apply erase_bare_same|assumption]. Qed.
Lemma process_isolated objs objs' v d len : Forall2 same_but_stack objs objs' ->
  Forall2 (fun o o' => is_spinner o = false -> idx_of (group_of (d_Mods d)) o' = idx_of (group_of (d_Mods d)) o /\
     off_of (group_of (d_Mods d)) o' = off_of (group_of (d_Mods d)) o)
   (process_stacking objs v d len) (process_stacking objs' v d len).
Proof.
  intros H. set (m := d_Mods d). assert (E : er m (run v m (threshold d len) (map (bare m) objs)) = er m (run v m (threshold d len) (map (bare m) objs'))).
  { rewrite <- !run_er. f_equal. now apply er_bare_same. }
  rewrite !process_eq. fold m. apply map_eq_F2 in E. apply F2_map_r, F2_sym, F2_map_r, F2_sym.
  eapply F2_impl; [|exact E]. intros x y Exy Hs. cbv beta in Exy.
  assert (Ei : idx_of (group_of m) y = idx_of (group_of m) x) by (rewrite <- !group_get, <- (erase_get m y), <- (erase_get m x); congruence).
  assert (Es : is_spinner y = is_spinner x).
  { assert (K : ho_kind (erase m y) = ho_kind (erase m x)) by congruence. revert K. unfold is_spinner, erase, set_stack_index.
    destruct (mactive m HardRock), (mactive m Easy); cbn; intros ->; reflexivity. }
  destruct (finish_frame m (d_CircleRadius d) x) as (S1 & F1 & _). destruct (finish_frame m (d_CircleRadius d) y) as (S2 & F2' & _).
  rewrite (same_spinner _ _ S1) in Hs. destruct (F1 Hs) as (_ & A1 & B1). rewrite <- Es in Hs. destruct (F2' Hs) as (_ & A2 & B2).
  rewrite A1, A2, B1, B2, Ei. split; reflexivity.
Qed.

(** ** the three passes *)
Lemma diff_for_nm d : new_difficulty (d_hp d) (d_cs d) (d_od d) (d_ar d) = diff_for GNM d.
Proof. unfold diff_for, set_mods, new_difficulty at 1. apply calculate_ext; reflexivity. Qed.
Lemma diff_for_mods g d : d_Mods (diff_for g d) = mask_of g. Proof. reflexivity. Qed.
Lemma diff_for_group g d : group_of (d_Mods (diff_for g d)) = g. Proof. destruct g; reflexivity. Qed.
Lemma leniency_eq d v len objs : stack_leniency d v len objs =
  process_stacking (process_stacking (process_stacking objs v (diff_for GNM d) len) v (diff_for GEZ d) len) v (diff_for GHR d) len.
Proof. unfold stack_leniency. rewrite diff_for_nm at 1. reflexivity. Qed.
Lemma process_same objs v d len : Forall2 same_but_stack objs (process_stacking objs v d len).
Proof. eapply F2_impl; [|apply process_frame]. now intros ? ? (? & _). Qed.
Lemma leniency_same d v len objs : Forall2 same_but_stack objs (stack_leniency d v len objs).
Proof.
  rewrite leniency_eq. eapply F2_trans; [exact same_trans| |apply process_same].
  eapply F2_trans; [exact same_trans| |apply process_same]. apply process_same.
Qed.
Definition same_group (g : group) (o o' : hobj) : Prop :=
  is_spinner o' = is_spinner o /\ (is_spinner o = false -> idx_of g o' = idx_of g o /\ off_of g o' = off_of g o).
Lemma same_group_trans g a b c : same_group g a b -> same_group g b c -> same_group g a c.
Proof. unfold same_group. intros [E1 H1] [E2 H2]. split; [congruence|]. intros H. rewrite E1 in H2. destruct (H1 H), (H2 H). split; congruence. Qed.
Lemma frame_group g objs v d len : g <> group_of (d_Mods d) -> Forall2 (same_group g) objs (process_stacking objs v d len).
Proof.
  intros Hg. eapply F2_impl; [|apply process_frame]. intros o o' (S & F & _). split; [now apply same_spinner|]. intros H. now apply F.
Qed.
Lemma iso_group g objs objs' v d len : Forall2 same_but_stack objs objs' ->
  Forall2 (same_group g) (process_stacking objs v (diff_for g d) len) (process_stacking objs' v (diff_for g d) len).
Proof.
  intros H. pose proof (process_isolated objs objs' v (diff_for g d) len H) as I. rewrite diff_for_group in I.
  assert (S : Forall2 same_but_stack (process_stacking objs v (diff_for g d) len) (process_stacking objs' v (diff_for g d) len)).
  { eapply F2_trans; [exact same_trans| |apply process_same]. eapply F2_trans; [exact same_trans| |exact H].
    eapply F2_impl; [|apply F2_sym, process_same]. unfold same_but_stack. intuition. }
  eapply F2_impl; [|exact (F2_and _ _ _ _ S I)]. intros x y [Sx Ix]. split; [now apply same_spinner|exact Ix].
Qed.
Lemma leniency_group g d v len objs :
  Forall2 (same_group g) (process_stacking objs v (diff_for g d) len) (stack_leniency d v len objs).
Proof.
  rewrite leniency_eq. destruct g.
  - eapply F2_trans; [apply same_group_trans| |apply frame_group; discriminate]. apply frame_group; discriminate.
  - eapply F2_trans; [apply same_group_trans| |apply frame_group; discriminate]. apply iso_group, process_same.
  - apply iso_group. eapply F2_trans; [exact same_trans| |apply process_same]. apply process_same.
Qed.
Lemma F2_Forall_r {A B} (R : A -> B -> Prop) (P : A -> Prop) (Q : B -> Prop) l l' :
  (forall x y, R x y -> P x -> Q y) -> Forall2 R l l' -> Forall P l -> Forall Q l'.
Proof. intros H. induction 1; intros F; inversion F; subst; constructor; eauto. Qed.

Lemma leniency_spinner d v len objs :
  Forall (fun o => is_spinner o = true -> forall g, off_of g o = vzero) objs ->
  Forall (fun o => is_spinner o = true -> forall g, idx_of g o = 0 /\ off_of g o = vzero) (stack_leniency d v len objs).
Proof.
  intros H. rewrite leniency_eq.
  assert (K : forall l d', Forall (fun o => is_spinner o = true -> forall g, off_of g o = vzero) l ->
    Forall (fun o => is_spinner o = true -> forall g, idx_of g o = 0 /\ off_of g o = vzero) (process_stacking l v d' len)).
  { intros l d' Hl. eapply F2_Forall_r; [|apply (process_frame l v d' len)|exact Hl].
    intros o o' (S & _ & F) Ho Hs g. rewrite (same_spinner _ _ S) in Hs. destruct (F Hs g) as [-> ->]. split; [reflexivity|now apply Ho]. }
  assert (W : forall l, Forall (fun o => is_spinner o = true -> forall g, idx_of g o = 0 /\ off_of g o = vzero) l ->
    Forall (fun o => is_spinner o = true -> forall g, off_of g o = vzero) l).
  { intros l. apply Forall_impl. intros o Ho Hs g. now apply Ho. }
  apply K, W, K, W, K, H.
Qed.
Lemma leniency_offset g d v len objs : Forall (fun o => is_spinner o = false ->
    off_of g o = vscl (mkVec (gq 1 1) (gq 1 1))
       (gdiv (gmul (gneg (g_of_Z (idx_of g o))) (g_of_f (d_CircleRadius (diff_for g d)))) (gq 10 1)))
  (stack_leniency d v len objs).
Proof.
  eapply F2_Forall_r; [|apply leniency_group|]; [|pose proof (process_offset objs v (diff_for g d) len) as P; rewrite diff_for_group in P; exact P].
  intros x y [E G] Hx Hy. rewrite E in Hy. destruct (G Hy) as [-> ->]. now apply Hx.
Qed.

(** ** all indices zero *)
Definition zero m l := forall n, get_ix m l n = 0.
Lemma zero_set m l n : zero m l -> set_ix m l n 0 = l.
Proof. intros H. rewrite <- (H n). apply set_ix_same. Qed.
Lemma bare_zero m l : zero m (map (bare m) l).
Proof.
  intros n. unfold get_ix, ob. assert (bare m dummy = dummy) as E.
  { unfold bare, set_stack_index. destruct (mactive m HardRock), (mactive m Easy); reflexivity. }
  rewrite (nth_map' (bare m) l n dummy dummy E). apply get_set.
Qed.
Lemma pass1_inner_zero m th objs ns : zero m objs -> (forall n, In n ns -> (n < length objs)%nat) -> forall base, (base < length objs)%nat ->
  fst (pass1_inner m th objs base ns) = objs /\ (snd (pass1_inner m th objs base ns) < length objs)%nat.
Proof.
  intros Hz. induction ns as [|n r IH]; intros Hn base Hb; cbn [pass1_inner]; [auto|].
  assert (forall x, In x r -> (x < length objs)%nat) by (intros; apply Hn; now right).
  repeat match goal with |- context [if ?b then _ else _] => destruct b; try (split; [reflexivity|assumption]); try (apply IH; assumption) end.
  rewrite (zero_set m objs n Hz). apply IH; [assumption|]. apply Hn. now left.
Qed.
Lemma pass1_zero m th objs : zero m objs -> forall i, (i <= length objs)%nat -> pass1 m th objs (zlen objs - 1) i = (objs, zlen objs - 1).
Proof.
  intros Hz. induction i as [|i IH]; intros Hi; cbn [pass1]; [reflexivity|].
  destruct (pass1_inner_zero m th objs (seq (S i) (length objs - S i)) Hz ltac:(intros n Hn; apply in_seq in Hn; lia) i ltac:(lia)) as [E1 E2].
  destruct (pass1_inner _ _ _ _ _) as [o b]. cbn [fst snd] in *. subst o.
  destruct (Z.ltb_spec (zlen objs - 1) (Z.of_nat b)); [unfold zlen in *; lia|]. apply IH. lia.
Qed.
Lemma new_zero m th objs : zero m objs -> apply_new_stacking m th objs = pass2 m th objs 0 (length objs - 1).
Proof.
  intros Hz. unfold apply_new_stacking. rewrite pass1_zero by auto. f_equal. unfold zlen. lia.
Qed.

Lemma ob_nth l n : (n < length l)%nat -> nth_error l n = Some (ob l n).
Proof. intros H. apply nth_error_nth'. exact H. Qed.
Lemma spin_kind o : is_spinner o = false -> ho_kind o <> KSpinner.
Proof. unfold is_spinner. intros H E. now rewrite E in H. Qed.
Lemma near_false a b : ~ close a b -> near a b = false.
Proof. unfold close, near. destruct (glt _ _); congruence. Qed.
(** every pair i < j of circles and sliders is either too far in space or too late *)
Definition apart th (l : list hobj) := forall i j, (i < j)%nat -> (j < length l)%nat -> is_spinner (ob l i) = false -> is_spinner (ob l j) = false ->
  (near (ho_startPos (ob l i)) (ho_startPos (ob l j)) = false /\ near (ho_endPos (ob l i)) (ho_startPos (ob l j)) = false) \/
  (fgt (fsub (ho_start (ob l j)) (ho_end (ob l i))) th = true /\ fgt (fsub (ho_start (ob l j)) (ho_start (ob l i))) th = true).
Lemma pass2_circle_apart m th i objs ci : apart th objs -> (ci < length objs)%nat -> is_spinner (ob objs ci) = false ->
  forall n, (n <= ci)%nat -> pass2_circle m th i objs ci 0 n = (objs, O).
Proof.
  intros Ha Hc Hs. induction n as [|n IH]; intros Hn; cbn [pass2_circle]; [reflexivity|].
  destruct (is_spinner (ob objs n)) eqn:E; [apply IH; lia|].
  destruct (Ha n ci ltac:(lia) Hc E Hs) as [[H1 H2]|[H1 H2]].
  - destruct (fgt _ _); [reflexivity|]. cbn [Nat.ltb Nat.leb]. rewrite H1, H2, andb_false_r. apply IH. lia.
  - now rewrite H1.
Qed.
Lemma pass2_slider_apart m th objs ci : apart th objs -> (ci < length objs)%nat -> is_spinner (ob objs ci) = false ->
  forall n, (n <= ci)%nat -> pass2_slider m th objs ci n = objs.
Proof.
  intros Ha Hc Hs. induction n as [|n IH]; intros Hn; cbn [pass2_slider]; [reflexivity|].
  destruct (is_spinner (ob objs n)) eqn:E; [apply IH; lia|].
  destruct (Ha n ci ltac:(lia) Hc E Hs) as [[H1 H2]|[H1 H2]].
  - destruct (fgt _ _); [reflexivity|]. rewrite H2. apply IH. lia.
  - now rewrite H2.
Qed.
Lemma pass2_apart m th objs : apart th objs -> forall i, (i < length objs)%nat -> pass2 m th objs 0 i = objs.
Proof.
  intros Ha. induction i as [|i IH]; intros Hi; cbn [pass2]; [reflexivity|].
  destruct (negb _ || _) eqn:E; [apply IH; lia|]. apply orb_false_iff in E as [_ E].
  destruct (is_slider _).
  - rewrite pass2_slider_apart by auto. apply IH. lia.
  - rewrite pass2_circle_apart by auto. apply IH. lia.
Qed.
Lemma new_apart m th objs : zero m objs -> apart th objs -> apply_new_stacking m th objs = objs.
Proof.
  intros Hz Ha. rewrite new_zero by exact Hz. destruct objs as [|o objs]; [reflexivity|]. apply pass2_apart; [exact Ha|]. cbn [length]. lia.
Qed.
Lemma spread_apart th l : spread l -> apart th l.
Proof.
  intros H i j Hij Hj Hi' Hj'. left.
  destruct (H i j _ _ (conj Hij (conj (ob_nth l i ltac:(lia)) (ob_nth l j Hj))) (spin_kind _ Hi') (spin_kind _ Hj')).
  split; now apply near_false.
Qed.
Lemma slow_apart th l : slow th l -> apart th l.
Proof.
  intros H i j Hij Hj Hi' Hj'. right.
  exact (H i j _ _ (conj Hij (conj (ob_nth l i ltac:(lia)) (ob_nth l j Hj))) (spin_kind _ Hi') (spin_kind _ Hj')).
Qed.
Lemma old_inner_apart m th i objs : spread_all objs -> forall k n st ss, (i < n)%nat -> (n + k <= length objs)%nat ->
  old_inner m th i objs st ss (seq n k) = objs.
Proof.
  intros Hs. induction k as [|k IH]; intros n st ss Hn Hk; cbn [seq old_inner]; [reflexivity|].
  destruct (Hs i n _ _ (conj Hn (conj (ob_nth objs i ltac:(lia)) (ob_nth objs n ltac:(lia))))) as [H1 H2].
  rewrite (near_false _ _ H1), (near_false _ _ H2). destruct (fgt _ _); [reflexivity|]. apply IH; lia.
Qed.
Lemma old_apart m th objs : spread_all objs -> apply_old_stacking m th objs = objs.
Proof.
  intros Hs. unfold apply_old_stacking.
  assert (K : forall is, (forall i, In i is -> (i < length objs)%nat) -> fold_left (fun objs i =>
      if (get_ix m objs i =? 0) || is_slider (ob objs i)
      then old_inner m th i objs (ho_end (ob objs i)) 0 (seq (S i) (length objs - S i))
      else objs) is objs = objs).
  { induction is as [|i is IH]; intros Hi; cbn [fold_left]; [reflexivity|].
    assert (i < length objs)%nat by (apply Hi; now left).
    destruct (_ || _); [rewrite old_inner_apart by (auto; lia)|]; apply IH; intros; apply Hi; now right. }
  apply K. intros i Hi. apply in_seq in Hi. lia.
Qed.

(** bare does not matter for these hypotheses *)
Lemma bare_ob m l n : (n < length l)%nat -> ob (map (bare m) l) n = bare m (ob l n).
Proof. intros H. unfold ob. rewrite <- (map_nth (bare m) l dummy n). apply nth_indep. now rewrite map_length. Qed.
Lemma at2_map (f : hobj -> hobj) l i j a b : at2 (map f l) i j a b -> exists a' b', at2 l i j a' b' /\ a = f a' /\ b = f b'.
Proof.
  intros (H & H1 & H2). rewrite nth_error_map in H1, H2. destruct (nth_error l i) as [a'|] eqn:E1; [|discriminate].
  destruct (nth_error l j) as [b'|] eqn:E2; [|discriminate]. injection H1 as <-. injection H2 as <-. exists a', b'. unfold at2. auto.
Qed.
Lemma bare_f m o : ho_kind (bare m o) = ho_kind o /\ ho_startPos (bare m o) = ho_startPos o /\ ho_endPos (bare m o) = ho_endPos o /\
  ho_start (bare m o) = ho_start o /\ ho_end (bare m o) = ho_end o.
Proof. unfold bare, set_stack_index. destruct (mactive m HardRock), (mactive m Easy); repeat split. Qed.
Lemma spread_bare m l : spread l -> spread (map (bare m) l).
Proof.
  intros H i j a b Hab. apply at2_map in Hab as (a' & b' & Hab & -> & ->).
  destruct (bare_f m a') as (-> & -> & -> & _). destruct (bare_f m b') as (-> & -> & _). apply (H i j); exact Hab.
Qed.
Lemma spread_all_bare m l : spread_all l -> spread_all (map (bare m) l).
Proof.
  intros H i j a b Hab. apply at2_map in Hab as (a' & b' & Hab & -> & ->).
  destruct (bare_f m a') as (_ & -> & -> & _). destruct (bare_f m b') as (_ & -> & _). apply (H i j); exact Hab.
Qed.
Lemma slow_bare m th l : slow th l -> slow th (map (bare m) l).
Proof.
  intros H i j a b Hab. apply at2_map in Hab as (a' & b' & Hab & -> & ->).
  destruct (bare_f m a') as (-> & _ & _ & -> & ->). destruct (bare_f m b') as (-> & _ & _ & -> & _). apply (H i j); exact Hab.
Qed.
Lemma run_id_zero v d len objs : run v (d_Mods d) (threshold d len) (map (bare (d_Mods d)) objs) = map (bare (d_Mods d)) objs ->
  Forall (fun o => idx_of (group_of (d_Mods d)) o = 0) (process_stacking objs v d len).
Proof.
  intros E. rewrite process_eq, E, map_map. apply Forall_forall. intros o Ho. apply in_map_iff in Ho. destruct Ho as (x & <- & _).
  destruct (finish_frame (d_Mods d) (d_CircleRadius d) (bare (d_Mods d) x)) as (S2 & F2 & Z2).
  destruct (is_spinner (bare (d_Mods d) x)).
  - now apply Z2.
  - destruct (F2 eq_refl) as (_ & -> & _). rewrite <- group_get. apply get_set.
Qed.
Lemma process_new_zero v d len objs : 6 <= v -> spread objs \/ slow (threshold d len) objs ->
  Forall (fun o => idx_of (group_of (d_Mods d)) o = 0) (process_stacking objs v d len).
Proof.
  intros Hv H. apply run_id_zero. unfold run. destruct (Z.leb_spec 6 v); [|lia]. apply new_apart; [apply bare_zero|].
  destruct H; [apply spread_apart, spread_bare; assumption|apply slow_apart, slow_bare; assumption].
Qed.
Lemma process_old_zero v d len objs : v < 6 -> spread_all objs ->
  Forall (fun o => idx_of (group_of (d_Mods d)) o = 0) (process_stacking objs v d len).
Proof.
  intros Hv H. apply run_id_zero. unfold run. destruct (Z.leb_spec 6 v); [lia|]. apply old_apart, spread_all_bare; assumption.
Qed.
Lemma leniency_zero g d v len objs :
  (6 <= v /\ (spread objs \/ slow (threshold (diff_for g d) len) objs)) \/ (v < 6 /\ spread_all objs) ->
  Forall (fun o => is_spinner o = false -> idx_of g o = 0) (stack_leniency d v len objs).
Proof.
  intros H. eapply F2_Forall_r; [|apply leniency_group|].
  2:{ pose proof (process_new_zero v (diff_for g d) len objs) as P. pose proof (process_old_zero v (diff_for g d) len objs) as Q.
      rewrite diff_for_group in P, Q. destruct H as [[Hv H]|[Hv H]]; [exact (P Hv H)|exact (Q Hv H)]. }
  intros x y [E G] Hx Hy. rewrite E in Hy. destruct (G Hy) as [-> _]. exact Hx.
Qed.

(** ** a pile *)
Open Scope R_scope.
Lemma near_self p : is_finite (vx p) = true -> is_finite (vy p) = true -> near p p = true.
Proof.
  intros Hx Hy. unfold near, vdst.
  assert (B127 : 0 <= bpow radix2 127) by apply bpow_ge_0.
  assert (sub0 : forall x : f32, is_finite x = true -> is_finite (gsub x x) = true /\ B2R (gsub x x) = 0).
  { intros x Fx. destruct (gsub_fin x x Fx Fx) as [F V]. { rewrite Rminus_diag_eq, Rabs_R0 by reflexivity. exact B127. }
    rewrite Rminus_diag_eq, rnd32_0 in V by reflexivity. auto. }
  destruct (sub0 _ Hx) as [F1 V1]. destruct (sub0 _ Hy) as [F2 V2].
  set (a := gsub (vx p) (vx p)) in *. set (b := gsub (vy p) (vy p)) in *.
  destruct (gmul_fin a a F1 F1) as [F3 V3]. { rewrite V1, Rmult_0_l, Rabs_R0. exact B127. }
  destruct (gmul_fin b b F2 F2) as [F4 V4]. { rewrite V2, Rmult_0_l, Rabs_R0. exact B127. }
  rewrite V1, Rmult_0_l, rnd32_0 in V3. rewrite V2, Rmult_0_l, rnd32_0 in V4.
  destruct (gadd_fin _ _ F3 F4) as [F5 V5]. { rewrite V3, V4, Rplus_0_l, Rabs_R0. exact B127. }
  rewrite V3, V4, Rplus_0_l, rnd32_0 in V5. set (s := gadd _ _) in *.
  unfold gsqrt. destruct (f_of_g_fin s F5) as [F6 V6]. rewrite V5 in V6.
  destruct (fsqrt_fin _ F6 ltac:(rewrite V6; apply Rle_refl)) as [F7 V7]. rewrite V6, sqrt_0, rnd64_0 in V7.
  destruct (g_of_f_fin _ F7) as [F8 V8]. { rewrite V7, Rabs_R0. exact B127. }
  rewrite V7, rnd32_0 in V8. apply glt_iff.
  assert (F9 : fin (gq 3 1)) by reflexivity. assert (V9 : 0 < B2R (gq 3 1)) by (bval (gq 3 1); rewrite V; lra).
  rewrite !key_fin by assumption. split; [now apply fin_num|]. split; [now apply fin_num|]. now rewrite V8.
Qed.
Open Scope Z_scope.
Lemma get_ix_set m l n v k : (n < length l)%nat -> get_ix m (set_ix m l n v) k = if Nat.eqb n k then v else get_ix m l k.
Proof.
  intros H. unfold get_ix, set_ix. rewrite ob_upd by exact H. destruct (Nat.eqb_spec n k); [apply get_set|reflexivity].
Qed.
Lemma upd_out {A} (l : list A) : forall n x, (length l <= n)%nat -> upd l n x = l.
Proof. induction l as [|a l IH]; intros [|n] x H; simpl in *; try reflexivity; [lia|]. rewrite IH by lia. reflexivity. Qed.
Lemma set_ix_f m l n v k :
  ho_kind (ob (set_ix m l n v) k) = ho_kind (ob l k) /\ ho_startPos (ob (set_ix m l n v) k) = ho_startPos (ob l k) /\
  ho_start (ob (set_ix m l n v) k) = ho_start (ob l k) /\ ho_end (ob (set_ix m l n v) k) = ho_end (ob l k).
Proof.
  destruct (Nat.ltb_spec n (length l)).
  - unfold set_ix. rewrite ob_upd by assumption. destruct (Nat.eqb_spec n k); [subst|auto].
    destruct (bare_f m (set_stack_index m v (ob l k))) as (E1 & E2 & _ & E4 & E5). rewrite bare_set in E1, E2, E4, E5.
    destruct (bare_f m (ob l k)) as (D1 & D2 & _ & D4 & D5). repeat split; congruence.
  - assert (set_ix m l n v = l) as ->; [|auto]. now apply upd_out.
Qed.
(** the pile, as seen by index *)
Definition heap th (l : list hobj) : Prop :=
  (forall k, (k < length l)%nat -> ho_kind (ob l k) = KCircle) /\
  (forall k, (S k < length l)%nat -> near (ho_startPos (ob l k)) (ho_startPos (ob l (S k))) = true /\
     fgt (fsub (ho_start (ob l (S k))) (ho_end (ob l k))) th = false).
Lemma heap_set m th l n v : heap th l -> heap th (set_ix m l n v).
Proof.
  intros [H1 H2]. split; rewrite set_ix_length; intros k Hk.
  - destruct (set_ix_f m l n v k) as (-> & _). auto.
  - destruct (set_ix_f m l n v k) as (_ & -> & _ & ->). destruct (set_ix_f m l n v (S k)) as (_ & -> & -> & _). auto.
Qed.
Lemma pass2_circle_heap m th i : forall n objs, heap th objs -> (n < length objs)%nat ->
  let r := fst (pass2_circle m th i objs n 0 n) in
  snd (pass2_circle m th i objs n 0 n) = O /\ length r = length objs /\ heap th r /\
  forall k, get_ix m r k = if Nat.leb k n then get_ix m objs n + Z.of_nat (n - k) else get_ix m objs k.
Proof.
  induction n as [|n IH]; intros objs Hh Hn; cbn [pass2_circle].
  - cbn [fst snd]. repeat split; try apply Hh; auto. intros [|k]; cbn [Nat.leb]; [|reflexivity]. cbn. lia.
  - destruct Hh as [H1 H2]. assert (Hk : ho_kind (ob objs n) = KCircle) by (apply H1; lia).
    assert (Ksp : is_spinner (ob objs n) = false) by (unfold is_spinner; now rewrite Hk).
    assert (Ksl : is_slider (ob objs n) = false) by (unfold is_slider; now rewrite Hk).
    rewrite Ksp. destruct (H2 n Hn) as [Hnear Ht]. rewrite Ht. cbn [Nat.ltb Nat.leb]. rewrite Ksl, Hnear. cbn [andb].
    assert (Hh : heap th objs) by (split; assumption).
    specialize (IH (set_ix m objs n (get_ix m objs (S n) + 1)) (heap_set _ _ _ _ _ Hh)). rewrite set_ix_length in IH.
    specialize (IH ltac:(lia)). cbv zeta in IH. destruct IH as (E0 & E1 & E2 & E3).
    split; [exact E0|]. split; [exact E1|]. split; [exact E2|]. intros k. rewrite E3. clear -Hn.
    rewrite !get_ix_set by lia. rewrite Nat.eqb_refl.
    destruct (Nat.leb_spec k n), (Nat.leb_spec k (S n)), (Nat.eqb_spec n k); try lia.
    assert (k = S n) as -> by lia. rewrite Nat.sub_diag. cbn. lia.
Qed.
Lemma pass2_skip m th objs : forall i, (forall k, (0 < k <= i)%nat -> get_ix m objs k <> 0) -> pass2 m th objs 0 i = objs.
Proof.
  induction i as [|i IH]; intros H; cbn [pass2]; [reflexivity|].
  destruct (Z.eqb_spec (get_ix m objs (S i)) 0) as [E|E]; [exfalso; revert E; apply H; lia|]. cbn [negb orb].
  apply IH. intros k Hk. apply H. lia.
Qed.
Lemma new_heap m th objs : zero m objs -> heap th objs ->
  length (apply_new_stacking m th objs) = length objs /\
  forall k, (k < length objs)%nat -> get_ix m (apply_new_stacking m th objs) k = Z.of_nat (length objs - 1 - k).
Proof.
  intros Hz Hh. rewrite new_zero by exact Hz. destruct (length objs) as [|[|n]] eqn:El.
  - cbn. split; [exact El|lia].
  - cbn. split; [exact El|]. intros k Hk. rewrite Hz. replace (0 - k)%nat with O by lia. reflexivity.
  - change (S (S n) - 1)%nat with (S n). cbn [pass2]. rewrite !(Hz (S n)). cbn [Z.eqb negb].
    destruct Hh as [H1 H2]. pose proof (H1 (S n) ltac:(lia)) as Hk. unfold is_spinner, is_slider. rewrite Hk. cbn [orb].
    destruct (pass2_circle_heap m th (S n) (S n) objs (conj H1 H2) ltac:(lia)) as (E0 & E1 & _ & E3).
    destruct (pass2_circle m th (S n) objs (S n) 0 (S n)) as [r e]. cbn [fst snd] in *. subst e.
    rewrite pass2_skip.
    + split; [congruence|]. intros k Hk'. rewrite E3, Hz. destruct (Nat.leb_spec k (S n)); lia.
    + intros k Hk'. rewrite E3, Hz. destruct (Nat.leb_spec k (S n)); lia.
Qed.
Lemma pile_heap m th p l : pile th p l -> heap th (map (bare m) l).
Proof.
  intros (Fx & Fy & HF & Ht). rewrite Forall_forall in HF. unfold heap. rewrite map_length.
  assert (HO : forall k, (k < length l)%nat -> ho_kind (ob l k) = KCircle /\ ho_startPos (ob l k) = p).
  { intros k Hk. apply HF. unfold ob. now apply nth_In. }
  split; intros k Hk; rewrite !bare_ob by lia.
  - destruct (bare_f m (ob l k)) as (-> & _). now apply HO.
  - destruct (bare_f m (ob l k)) as (_ & -> & _ & _ & ->). destruct (bare_f m (ob l (S k))) as (_ & -> & _ & -> & _).
    destruct (HO k ltac:(lia)) as [_ ->]. destruct (HO (S k) Hk) as [_ ->]. split; [now apply near_self|].
    specialize (Ht k _ _ (conj (Nat.lt_succ_diag_r k) (conj (ob_nth l k ltac:(lia)) (ob_nth l (S k) Hk)))).
    apply fle_iff in Ht as (N1 & N2 & L). now apply fgt_false.
Qed.
Lemma process_pile v d len p objs : 6 <= v -> pile (threshold d len) p objs ->
  forall k o, nth_error (process_stacking objs v d len) k = Some o -> idx_of (group_of (d_Mods d)) o = Z.of_nat (length objs - 1 - k).
Proof.
  intros Hv Hp k o Ho. rewrite process_eq, nth_error_map in Ho. unfold run in Ho. destruct (Z.leb_spec 6 v); [|lia].
  set (m := d_Mods d) in *. set (th := threshold d len) in *.
  destruct (new_heap m th (map (bare m) objs) (bare_zero m objs) (pile_heap m th p objs Hp)) as [El E].
  rewrite map_length in El, E. destruct (nth_error _ k) as [x|] eqn:Ex; [|discriminate]. injection Ho as <-.
  assert (Hk : (k < length objs)%nat) by (rewrite <- El; apply nth_error_Some; congruence).
  specialize (E k Hk). assert (Hx : get_ix m (apply_new_stacking m th (map (bare m) objs)) k = get_stack_index m x).
  { unfold get_ix, ob. now rewrite (nth_error_nth _ _ _ Ex). }
  rewrite Hx, group_get in E.
  assert (Hs : is_spinner x = false).
  { assert (ho_kind x = KCircle) as K; [|unfold is_spinner; now rewrite K].
    pose proof (run_F2 v m th objs) as R. unfold run in R. destruct (Z.leb_spec 6 v); [|lia].
    destruct Hp as (_ & _ & HF & _). clear -R HF Ex.
    revert k R HF Ex. generalize (apply_new_stacking m th (map (bare m) objs)) as l'. intros l' k R HF. revert k.
    induction R as [|a b la lb H R IH]; intros [|k] Ex; try discriminate; inversion HF; subst.
    - injection Ex as <-. apply bare_same in H as ((K & _) & _). rewrite K. tauto.
    - eapply IH; eauto. }
  destruct (finish_frame m (d_CircleRadius d) x) as (_ & F2 & _). destruct (F2 Hs) as (_ & -> & _). exact E.
Qed.
Lemma F2_nth_r {A B} (R : A -> B -> Prop) l l' : Forall2 R l l' -> forall k y, nth_error l' k = Some y -> exists x, nth_error l k = Some x /\ R x y.
Proof. induction 1; intros [|k] z Hz; try discriminate; [injection Hz as <-; eexists; split; [reflexivity|assumption]|]. cbn in *. eauto. Qed.
Lemma leniency_pile g v d len p objs : 6 <= v -> pile (threshold (diff_for g d) len) p objs ->
  forall k o, nth_error (stack_leniency d v len objs) k = Some o -> idx_of g o = Z.of_nat (length objs - 1 - k).
Proof.
  intros Hv Hp k o Ho.
  destruct (F2_nth_r _ _ _ (leniency_group g d v len objs) k o Ho) as (x & Hx & E & G).
  pose proof (process_pile v (diff_for g d) len p objs Hv Hp k x Hx) as P. rewrite diff_for_group in P.
  destruct (F2_nth_r _ _ _ (process_same objs v (diff_for g d) len) k x Hx) as (y & Hy & S).
  assert (is_spinner x = false) as Hs.
  { rewrite (same_spinner _ _ S). destruct Hp as (_ & _ & HF & _). rewrite Forall_forall in HF.
    destruct (HF y (nth_error_In _ _ Hy)) as [K _]. unfold is_spinner. now rewrite K. }
  destruct (G Hs) as [-> _]. exact P.
Qed.
End WithLibm.

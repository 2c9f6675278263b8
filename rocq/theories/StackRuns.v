(** Scripts for C81: stacks that contain a slider. *)
From Coq Require Import Reals Lra.
From Flocq Require Import Core BinarySingleNaN.
From Verif Require Import Stacking SpecMods SpecStacking SpecStacks BaseLemmas FloatLemmas KeyLemmas ModsProofs DifficultyProofs StackingProofs.
Open Scope Z_scope.

Section WithLibm.
Context {M : libm}.

(** ** Lists that differ in stack data only *)
Definition alike (a b : hobj) : Prop := ho_kind b = ho_kind a /\ ho_startPos b = ho_startPos a /\ ho_endPos b = ho_endPos a /\ ho_start b = ho_start a /\ ho_end b = ho_end a.
Definition like (l0 l : list hobj) : Prop := length l = length l0 /\ forall k, alike (ob l0 k) (ob l k).
Lemma alike_refl a : alike a a. Proof. repeat split. Qed.
Lemma like_refl l : like l l. Proof. split; [reflexivity|intros; apply alike_refl]. Qed.
Lemma alike_trans a b c : alike a b -> alike b c -> alike a c.
Proof. unfold alike. intros (A1 & A2 & A3 & A4 & A5) (B1 & B2 & B3 & B4 & B5). repeat split; congruence. Qed.
Lemma set_alike m v o : alike o (set_stack_index m v o).
Proof. unfold alike, set_stack_index. destruct (mactive m HardRock), (mactive m Easy); repeat split. Qed.
Lemma set_ix_alike m l n v k : alike (ob l k) (ob (set_ix m l n v) k).
Proof.
  destruct (Nat.ltb_spec n (length l)).
  - unfold set_ix. rewrite ob_upd by assumption. destruct (Nat.eqb_spec n k); [subst; apply set_alike|apply alike_refl].
  - assert (set_ix m l n v = l) as ->; [|apply alike_refl]. now apply upd_out.
Qed.
Lemma like_set m l0 l n v : like l0 l -> like l0 (set_ix m l n v).
Proof. intros (L & H). split; [now rewrite set_ix_length|]. intros k. eapply alike_trans; [apply H|apply set_ix_alike]. Qed.
Lemma alike_spin a b : alike a b -> is_spinner b = is_spinner a.
Proof. intros (E & _). unfold is_spinner. now rewrite E. Qed.
Lemma alike_slid a b : alike a b -> is_slider b = is_slider a.
Proof. intros (E & _). unfold is_slider. now rewrite E. Qed.
Lemma bare_alike m o : alike o (bare m o). Proof. apply set_alike. Qed.
Lemma like_bare m l : like l (map (bare m) l).
Proof.
  split; [apply map_length|]. intros k. destruct (Nat.ltb_spec k (length l)); [rewrite bare_ob by assumption; apply bare_alike|].
  unfold ob. rewrite !nth_overflow by (rewrite ?map_length; assumption). apply alike_refl.
Qed.

(** ** The index of an object is that of the run for its group *)
Lemma leniency_index g d v len objs k o : nth_error (stack_leniency d v len objs) k = Some o -> ho_kind o <> KSpinner ->
  idx_of g o = get_ix (mask_of g) (run v (mask_of g) (threshold (diff_for g d) len) (map (bare (mask_of g)) objs)) k.
Proof.
  intros Ho K. destruct (F2_nth_r _ _ _ (leniency_group g d v len objs) k o Ho) as (x & Hx & E & G).
  assert (Hs : is_spinner x = false). { cbv beta in E. rewrite <- E. unfold is_spinner. destruct (ho_kind o); congruence. }
  destruct (G Hs) as (-> & _). clear G E K Ho o. rewrite process_eq, nth_error_map in Hx. rewrite diff_for_mods in Hx. destruct (nth_error _ k) as [y|] eqn:Ey; [|discriminate]. injection Hx as <-.
  unfold get_ix, ob. rewrite (nth_error_nth _ _ _ Ey), group_get. rewrite (same_spinner y) in Hs by apply finish_frame.
  destruct (finish_frame (mask_of g) (d_CircleRadius (diff_for g d)) y) as (_ & F & _). destruct (F Hs) as (_ & F' & _). replace (group_of (mask_of g)) with g in F' |- * by (destruct g; reflexivity). exact F'.
Qed.
Lemma leniency_length d v len objs : length (stack_leniency d v len objs) = length objs.
Proof. symmetry. generalize (leniency_same d v len objs). induction 1; [reflexivity|]. cbn [length]. now rewrite IHForall2. Qed.

(** ** The tower, by index *)
Record built_on (b : bool) (th : f64) (c : nat) (l : list hobj) : Prop := {
  bo_c : (c < length l)%nat;
  bo_sp : forall k, (k < length l)%nat -> is_spinner (ob l k) = false;
  bo_sl : forall k, (k < length l)%nat -> is_slider (ob l k) = b && Nat.eqb k c;
  bo_low : forall n k, (n < k <= c)%nat -> near (ho_endPos (ob l n)) (ho_startPos (ob l k)) = true /\ near (ho_startPos (ob l k)) (ho_startPos (ob l n)) = true;
  bo_high : forall n k, (c < n)%nat -> (n < k < length l)%nat -> near (ho_startPos (ob l n)) (ho_startPos (ob l k)) = true;
  bo_tail : forall k, (c < k < length l)%nat -> near (ho_endPos (ob l c)) (ho_startPos (ob l k)) = true /\ near (ho_startPos (ob l k)) (ho_endPos (ob l c)) = true /\ near (ho_startPos (ob l k)) (ho_startPos (ob l c)) = false;
  bo_apart : forall n k, (n < c < k)%nat -> (k < length l)%nat -> near (ho_startPos (ob l k)) (ho_startPos (ob l n)) = false /\ near (ho_startPos (ob l k)) (ho_endPos (ob l n)) = false;
  bo_end : forall k, (S k < length l)%nat -> fgt (fsub (ho_start (ob l (S k))) (ho_end (ob l k))) th = false /\ fgt (fsub (ho_start (ob l (S k))) th) (ho_end (ob l k)) = false;
  bo_start : forall k, (k < c)%nat -> fgt (fsub (ho_start (ob l (S k))) (ho_start (ob l k))) th = false }.

Ltac fields L k := let H := fresh in let E1 := fresh in let E2 := fresh in let E3 := fresh in let E4 := fresh in pose proof (proj2 L k) as H; rewrite ?(alike_spin _ _ H), ?(alike_slid _ _ H); destruct H as (_ & E1 & E2 & E3 & E4); rewrite ?E1, ?E2, ?E3, ?E4; clear E1 E2 E3 E4.
Section Tower.
Context (b : bool) (m : modifier) (th : f64) (c : nat) (l0 : list hobj) (T : built_on b th c l0).
Notation N := (length l0).

Lemma shift_ok off : forall js l, like l0 l -> NoDup js -> (forall j, In j js -> (c < j < N)%nat) ->
  like l0 (shift_tail m c off l js) /\ forall k, get_ix m (shift_tail m c off l js) k = get_ix m l k - (if in_dec Nat.eq_dec k js then off else 0).
Proof.
  induction js as [|j js IH]; intros l L D J; cbn [shift_tail fold_left].
  - split; [exact L|]. intros k. destruct (in_dec _ _ _) as [[]|]. lia.
  - assert (Hj : (c < j < N)%nat) by (apply J; now left). fields L c. fields L j. destruct (bo_tail _ _ _ _ T j Hj) as (-> & _).
    inversion D as [|x y ND D']; subst. destruct (IH (set_ix m l j (get_ix m l j - off)) (like_set _ _ _ _ _ L) D' ltac:(intros; apply J; now right)) as (L' & I). split; [exact L'|].
    intros k. unfold shift_tail in I at 1. rewrite I, get_ix_set by (rewrite (proj1 L); lia).
    destruct (in_dec Nat.eq_dec k (j :: js)) as [Y|Y], (in_dec Nat.eq_dec k js) as [Y'|Y'], (Nat.eqb_spec j k); subst; try tauto; try (exfalso; apply Y; now (left + right)); try lia.
    destruct Y; congruence.
Qed.

Lemma chain_circle i : b = true -> (i < N)%nat -> forall n l, like l0 l -> (c < n <= i)%nat -> get_ix m l c = 0 -> get_ix m l n = Z.of_nat (i - n) ->
  snd (pass2_circle m th i l n 0 n) = O /\ like l0 (fst (pass2_circle m th i l n 0 n)) /\
  forall k, get_ix m (fst (pass2_circle m th i l n 0 n)) k =
    if Nat.leb k c then get_ix m l k else if Nat.leb k n then Z.of_nat (i - k) - Z.of_nat (i - c) else if Nat.leb k i then get_ix m l k - Z.of_nat (i - c) else get_ix m l k.
Proof.
  intros B Hi. induction n as [|n IH]; intros l L Hn Zc In_; [lia|]. cbn [pass2_circle]. change (Nat.ltb n 0) with false. cbv iota.
  assert (Hl : length l = N) by apply L. fields L n. rewrite (bo_sp _ _ _ _ T) by lia. rewrite (bo_sl _ _ _ _ T), B by lia. cbn [andb]. fields L (S n).
  destruct (bo_end _ _ _ _ T n ltac:(lia)) as (-> & _). destruct (Nat.eqb_spec n c) as [->|Nc].
  - cbn [andb]. rewrite (proj1 (bo_tail _ _ _ _ T (S c) ltac:(lia))). cbn [fst snd]. split; [reflexivity|].
    destruct (shift_ok (get_ix m l (S c) - get_ix m l c + 1) (seq (S c) (i - c)) l L (seq_NoDup _ _) ltac:(intros j Hj; apply in_seq in Hj; lia)) as (L' & I). split; [exact L'|].
    intros k. rewrite I, In_, Zc. destruct (in_dec Nat.eq_dec k (seq (S c) (i - c))) as [Y|Y]; rewrite in_seq in Y.
    + destruct (Nat.leb_spec k c); [lia|]. destruct (Nat.leb_spec k (S c)).
      * assert (k = S c) as -> by lia. rewrite In_. lia.
      * destruct (Nat.leb_spec k i); lia.
    + destruct (Nat.leb_spec k c); [lia|]. destruct (Nat.leb_spec k (S c)); [lia|]. destruct (Nat.leb_spec k i); lia.
  - cbn [andb]. rewrite (bo_high _ _ _ _ T n (S n)) by lia.
    destruct (IH (set_ix m l n (get_ix m l (S n) + 1)) (like_set _ _ _ _ _ L) ltac:(lia)) as (I1 & I2 & I3).
    { rewrite get_ix_set by lia. destruct (Nat.eqb_spec n c); [lia|exact Zc]. }
    { rewrite get_ix_set by lia. rewrite Nat.eqb_refl, In_. lia. }
    split; [exact I1|]. split; [exact I2|]. intros k. rewrite I3, !get_ix_set by lia.
    destruct (Nat.leb_spec k c), (Nat.leb_spec k n), (Nat.leb_spec k (S n)), (Nat.eqb_spec n k), (Nat.leb_spec k i); try lia. assert (k = S n) as -> by lia. rewrite In_. lia.
Qed.
Lemma chain_slider : forall n l, like l0 l -> (n <= c)%nat -> get_ix m l n = Z.of_nat (c - n) ->
  like l0 (pass2_slider m th l n n) /\ forall k, get_ix m (pass2_slider m th l n n) k = if Nat.leb k n then Z.of_nat (c - k) else get_ix m l k.
Proof.
  pose proof (bo_c _ _ _ _ T) as C. induction n as [|n IH]; intros l L Hn In_; cbn [pass2_slider].
  - split; [exact L|]. intros k. destruct (Nat.leb_spec k 0); [|reflexivity]. now replace k with O by lia.
  - assert (Hl : length l = N) by apply L. fields L n. rewrite (bo_sp _ _ _ _ T) by lia. fields L (S n).
    rewrite (bo_start _ _ _ _ T) by lia. destruct (bo_low _ _ _ _ T n (S n) ltac:(lia)) as (-> & _).
    destruct (IH (set_ix m l n (get_ix m l (S n) + 1)) (like_set _ _ _ _ _ L) ltac:(lia)) as (I2 & I3).
    { rewrite get_ix_set by lia. rewrite Nat.eqb_refl, In_. lia. }
    split; [exact I2|]. intros k. rewrite I3, !get_ix_set by lia.
    destruct (Nat.leb_spec k n), (Nat.leb_spec k (S n)), (Nat.eqb_spec n k); try lia. assert (k = S n) as -> by lia. rewrite In_. lia.
Qed.
Lemma skip_to l e : (forall k, (e < k < N)%nat -> get_ix m l k <> 0) -> forall i, (e <= i < N)%nat -> pass2 m th l 0 i = pass2 m th l 0 e.
Proof.
  intros H. induction i as [|i IH]; intros E; [now replace e with O by lia|]. destruct (Nat.eq_dec e (S i)) as [->|]; [reflexivity|]. cbn [pass2].
  destruct (Z.eqb_spec (get_ix m l (S i)) 0) as [X|X]; [exfalso; revert X; apply H; lia|]. cbn [negb orb]. apply IH. lia.
Qed.
Lemma lower l : b = true -> like l0 l -> (forall k, (k <= c)%nat -> get_ix m l k = 0) ->
  forall k, (k < N)%nat -> get_ix m (pass2 m th l 0 c) k = if Nat.leb k c then Z.of_nat (c - k) else get_ix m l k.
Proof.
  intros B L Z k K. pose proof (bo_c _ _ _ _ T) as C. destruct c as [|c'] eqn:EC.
  - cbn [pass2]. destruct (Nat.leb_spec k 0); [|reflexivity]. replace k with O by lia. now rewrite Z by lia.
  - rewrite <- EC in *. rewrite EC at 1. cbn [pass2]. rewrite <- EC. rewrite Z by lia. fields L c. rewrite (bo_sp _ _ _ _ T), (bo_sl _ _ _ _ T), Nat.eqb_refl, B by lia. cbn [Z.eqb negb orb andb].
    destruct (chain_slider c l L ltac:(lia) ltac:(rewrite Z by lia; lia)) as (L' & I). rewrite pass2_skip; [apply I|].
    intros j J. rewrite I. destruct (Nat.leb_spec j c); lia.
Qed.
Lemma new_tower : b = true -> zero m l0 -> forall k, (k < N)%nat -> get_ix m (apply_new_stacking m th l0) k = Z.of_nat c - Z.of_nat k.
Proof.
  intros B Z k K. pose proof (bo_c _ _ _ _ T) as C. rewrite new_zero by exact Z. destruct (Nat.eq_dec (S c) N) as [E|E].
  - replace (N - 1)%nat with c by lia. rewrite (lower l0 B (like_refl l0)) by auto. destruct (Nat.leb_spec k c); lia.
  - assert (Hi : exists i, (N - 1 = S i)%nat) by (exists (N - 2)%nat; lia). destruct Hi as (i & Ei). rewrite Ei. cbn [pass2]. rewrite Z, (bo_sp _ _ _ _ T), (bo_sl _ _ _ _ T), B by lia. cbn [Z.eqb negb orb andb]. destruct (Nat.eqb_spec (S i) c); [lia|].
    destruct (chain_circle (S i) B ltac:(lia) (S i) l0 (like_refl _) ltac:(lia) (Z c)) as (I1 & I2 & I3); [rewrite Z; lia|]. destruct (pass2_circle m th (S i) l0 (S i) 0 (S i)) as [r e]. cbn [fst snd] in *. subst e.
    rewrite (skip_to r c).
    + rewrite (lower r B I2); [|intros j J; rewrite I3; destruct (Nat.leb_spec j c); [apply Z|lia]|exact K]. destruct (Nat.leb_spec k c); [lia|]. rewrite I3. destruct (Nat.leb_spec k c); [lia|]. destruct (Nat.leb_spec k (S i)); lia.
    + intros j J. rewrite I3. destruct (Nat.leb_spec j c); [lia|]. destruct (Nat.leb_spec j (S i)); lia.
    + lia.
Qed.

(** The old algorithm. *)
Lemma old_quiet i : (i < c)%nat -> forall k n l st ss, like l0 l -> (c < n)%nat -> (n + k = N)%nat -> old_inner m th i l st ss (seq n k) = l.
Proof.
  intros Hi. induction k as [|k IH]; intros n l st ss L Hn E; cbn [seq old_inner]; [reflexivity|]. destruct (fgt _ st); [reflexivity|]. fields L n. fields L i.
  destruct (bo_apart _ _ _ _ T i n ltac:(lia) ltac:(lia)) as (-> & ->). apply IH; [exact L|lia|lia].
Qed.
Lemma old_lower i : (i < c)%nat -> forall k n l ss, like l0 l -> (i < n <= S c)%nat -> (n + k = N)%nat ->
  let r := old_inner m th i l (ho_end (ob l (n - 1))) ss (seq n k) in
  like l0 r /\ forall j, get_ix m r j = if Nat.eqb i j then get_ix m l i + Z.of_nat (S c - n) else get_ix m l j.
Proof.
  intros Hi. pose proof (bo_c _ _ _ _ T) as C. induction k as [|k IH]; intros n l ss L Hn E r.
  - cbn in r. subst r. split; [exact L|]. intros j. destruct (Nat.eqb_spec i j); subst; lia.
  - destruct (Nat.eq_dec n (S c)) as [->|].
    + subst r. rewrite old_quiet by (auto; lia). split; [exact L|]. intros j. destruct (Nat.eqb_spec i j); subst; lia.
    + subst r. assert (Hl : length l = N) by apply L. assert (B : fgt (fsub (ho_start (ob l n)) th) (ho_end (ob l (n - 1))) = false) by (fields L n; fields L (n - 1)%nat; destruct (bo_end _ _ _ _ T (n - 1) ltac:(lia)) as (_ & B); replace (S (n - 1)) with n in B by lia; exact B). cbn [seq old_inner]. rewrite B. clear B.
       destruct (proj2 L n) as (_ & -> & _). destruct (proj2 L i) as (_ & -> & _). destruct (bo_low _ _ _ _ T i n ltac:(lia)) as (_ & ->).
      assert (L' : like l0 (set_ix m l i (get_ix m l i + 1))) by (now apply like_set).
      specialize (IH (S n) _ ss L' ltac:(lia) ltac:(lia)). cbv zeta in IH. replace (S n - 1)%nat with n in IH by lia. destruct (set_ix_alike m l i (get_ix m l i + 1) n) as (_ & _ & _ & _ & EE). rewrite EE in IH.
      destruct IH as (I1 & I2). split; [exact I1|]. intros j. rewrite I2, !get_ix_set by lia. rewrite Nat.eqb_refl. destruct (Nat.eqb_spec i j); subst; lia.
Qed.
Lemma old_base : forall k n l, like l0 l -> (c < n)%nat -> (n + k = N)%nat -> (forall j, (n <= j)%nat -> get_ix m l j = 0) ->
  let r := old_inner m th c l (ho_end (ob l (n - 1))) (Z.of_nat (n - 1 - c)) (seq n k) in
  like l0 r /\ forall j, get_ix m r j = if Nat.leb n j then if Nat.ltb j N then Z.of_nat c - Z.of_nat j else 0 else get_ix m l j.
Proof.
  pose proof (bo_c _ _ _ _ T) as C. induction k as [|k IH]; intros n l L Hn E Z r.
  - cbn in r. subst r. split; [exact L|]. intros j. destruct (Nat.leb_spec n j); [|reflexivity]. destruct (Nat.ltb_spec j N); [lia|]. now apply Z.
  - subst r. assert (Hl : length l = N) by apply L. assert (B : fgt (fsub (ho_start (ob l n)) th) (ho_end (ob l (n - 1))) = false) by (fields L n; fields L (n - 1)%nat; destruct (bo_end _ _ _ _ T (n - 1) ltac:(lia)) as (_ & B); replace (S (n - 1)) with n in B by lia; exact B). cbn [seq old_inner]. rewrite B. clear B.
     destruct (proj2 L n) as (_ & -> & _). destruct (proj2 L c) as (_ & -> & -> & _). destruct (bo_tail _ _ _ _ T n ltac:(lia)) as (_ & -> & ->).
    set (v := get_ix m l n - (Z.of_nat (n - 1 - c) + 1)). assert (L' : like l0 (set_ix m l n v)) by (now apply like_set).
    specialize (IH (S n) _ L' ltac:(lia) ltac:(lia)). cbv zeta in IH. replace (S n - 1)%nat with n in IH by lia. destruct (set_ix_alike m l n v n) as (_ & _ & _ & _ & EE). rewrite EE in IH.
    replace (Z.of_nat (n - c)) with (Z.of_nat (n - 1 - c) + 1) in IH by lia. destruct IH as (I1 & I2); [intros j J; rewrite get_ix_set by lia; destruct (Nat.eqb_spec n j); [lia|apply Z; lia]|]. split; [exact I1|].
    intros j. rewrite I2, !get_ix_set by lia. unfold v. rewrite Z by lia. destruct (Nat.leb_spec (S n) j), (Nat.leb_spec n j), (Nat.eqb_spec n j), (Nat.ltb_spec j N); try lia.
Qed.
Definition old_step (l : list hobj) (i : nat) : list hobj :=
  if (get_ix m l i =? 0) || is_slider (ob l i) then old_inner m th i l (ho_end (ob l i)) 0 (seq (S i) (length l - S i)) else l.
Lemma old_after k : forall n l, like l0 l -> (c < n)%nat -> (n + k <= N)%nat -> (forall j, (n <= j < N)%nat -> get_ix m l j <> 0) -> fold_left old_step (seq n k) l = l.
Proof.
  induction k as [|k IH]; intros n l L Hn E Z; cbn [seq fold_left]; [reflexivity|]. unfold old_step at 2. destruct (Z.eqb_spec (get_ix m l n) 0) as [X|_]; [exfalso; revert X; apply Z; lia|].
  fields L n. rewrite (bo_sl _ _ _ _ T) by lia. destruct (Nat.eqb_spec n c); [lia|]. rewrite andb_false_r. cbn [orb]. apply IH; auto; try lia. intros. apply Z. lia.
Qed.
Lemma old_tower : zero m l0 -> forall k, (k < N)%nat -> get_ix m (apply_old_stacking m th l0) k = Z.of_nat c - Z.of_nat k.
Proof.
  intros Z k K. pose proof (bo_c _ _ _ _ T) as C. unfold apply_old_stacking. change (get_ix m (fold_left old_step (seq 0 N) l0) k = Z.of_nat c - Z.of_nat k).
  assert (A : forall i, (i <= c)%nat -> like l0 (fold_left old_step (seq 0 i) l0) /\ forall j, get_ix m (fold_left old_step (seq 0 i) l0) j = if Nat.ltb j i then Z.of_nat c - Z.of_nat j else 0).
  { induction i as [|i IH]; intros I; [split; [apply like_refl|]; intros j; cbn [seq fold_left]; apply Z|]. destruct IH as (L & J); [lia|]. rewrite seq_S, fold_left_app. cbn [fold_left Nat.add]. set (l := fold_left old_step (seq 0 i) l0) in *.
    unfold old_step. rewrite J. destruct (Nat.ltb_spec i i); [lia|]. cbn [Z.eqb orb]. assert (Hl : length l = N) by apply L. rewrite Hl. pose proof (old_lower i ltac:(lia) (N - S i) (S i) l 0 L ltac:(lia) ltac:(lia)) as (R1 & R2). replace (S i - 1)%nat with i in R1, R2 by lia.
    split; [exact R1|]. intros j. rewrite R2, !J. destruct (Nat.eqb_spec i j), (Nat.ltb_spec j (S i)), (Nat.ltb_spec j i), (Nat.ltb_spec i i); try lia. }
  destruct (A c ltac:(lia)) as (L & J). replace N with (c + (1 + (N - S c)))%nat by lia. rewrite seq_app, fold_left_app. cbn [Nat.add seq fold_left]. set (l := fold_left old_step (seq 0 c) l0) in *.
  assert (Hl : length l = N) by apply L. unfold old_step at 2. rewrite (J c). destruct (Nat.ltb_spec c c); [lia|]. cbn [Z.eqb orb]. rewrite Hl.
  destruct (old_base (N - S c) (S c) l L ltac:(lia) ltac:(lia)) as (R1 & R2). { intros j Hj. rewrite J. destruct (Nat.ltb_spec j c); [lia|reflexivity]. }
  replace (S c - 1)%nat with c in R1, R2 by lia. replace (Z.of_nat (c - c)) with 0 in R1, R2 by lia. 
  rewrite old_after; [|exact R1|lia|lia|intros j Hj; rewrite R2; destruct (Nat.leb_spec (S c) j), (Nat.ltb_spec j N); lia].
  rewrite R2, J. destruct (Nat.leb_spec (S c) k), (Nat.ltb_spec k N), (Nat.ltb_spec k c); lia.
Qed.
End Tower.

(** ** Times *)
Open Scope R_scope.
Lemma late_false (x y z : f64) : sound x -> sound y -> is_finite z = true -> B2R x - B2R y <= B2R z -> fgt (fsub x y) z = false.
Proof.
  intros (Fx & Bx) (Fy & By) Fz L. destruct (fsub_fin x y Fx Fy) as (F & V).
  { apply Rle_trans with (bpow radix2 50 + bpow radix2 50); [apply Rle_trans with (Rabs (B2R x) + Rabs (B2R y)); [unfold Rminus; rewrite <- (Rabs_Ropp (B2R y)); apply Rabs_triang|lra]|].
    replace (bpow radix2 50 + bpow radix2 50) with (bpow radix2 51) by (unfold bpow; cbn; lra). apply bpow_le. lia. }
  destruct (fgt _ _) eqn:G; [|reflexivity]. exfalso. apply fgt_iff in G as (_ & _ & G). rewrite !key_fin in G by assumption. rewrite V in G. pose proof (rnd64_le_f _ z L). lra.
Qed.
Lemma late_true (x y z : f64) : sound x -> sound y -> sound z -> B2R z + 1 <= B2R x - B2R y -> fgt (fsub x y) z = true.
Proof.
  intros (Fx & Bx) (Fy & By) (Fz & Bz) L.
  assert (B51 : Rabs (B2R x - B2R y) <= bpow radix2 51). { apply Rle_trans with (bpow radix2 50 + bpow radix2 50); [apply Rle_trans with (Rabs (B2R x) + Rabs (B2R y)); [unfold Rminus; rewrite <- (Rabs_Ropp (B2R y)); apply Rabs_triang|lra]|].
    replace (bpow radix2 50 + bpow radix2 50) with (bpow radix2 51) by (unfold bpow; cbn; lra). apply Rle_refl. }
  destruct (fsub_fin x y Fx Fy) as (F & V). { apply Rle_trans with (1 := B51). apply bpow_le. lia. }
  apply fgt_iff. rewrite !key_fin by assumption. split; [now apply fin_num|]. split; [now apply fin_num|]. rewrite V.
  pose proof (rnd64_err (B2R x - B2R y) 51 ltac:(lia) B51) as E. apply Rabs_le_inv in E. change (51 - 53)%Z with (-2)%Z in E. replace (bpow radix2 (-2)) with (/ 4) in E by (unfold bpow; cbn; lra). lra.
Qed.
Open Scope Z_scope.

(** ** From the specification *)
Lemma not_near a b : ~ close a b -> near a b = false. Proof. apply near_false. Qed.
Lemma tower_built m th p q before s after : tower th p q before s after -> built_on true th (length before) (map (bare m) (before ++ s :: after)).
Proof.
  intros [P Q (F1 & F2) TH B (SL & S1 & S2) A TM LK]. set (l := before ++ s :: after) in *. set (c := length before).
  assert (Hl : length l = (c + S (length after))%nat) by (unfold l, c; now rewrite app_length).
  assert (OB : forall k, (k < c)%nat -> circle_at p (ob l k)). { intros k K. unfold ob, l. rewrite app_nth1 by exact K. rewrite Forall_forall in B. apply B, nth_In, K. }
  assert (OS : ob l c = s) by (unfold ob, l, c; now rewrite app_nth2, Nat.sub_diag by lia).
  assert (OA : forall k, (c < k < length l)%nat -> circle_at q (ob l k)). { intros k K. unfold ob, l. rewrite app_nth2 by (fold c; lia). fold c. destruct (k - c)%nat as [|j] eqn:J; [lia|]. cbn [nth]. rewrite Forall_forall in A. apply A, nth_In. lia. }
  assert (OT : forall k, (k < length l)%nat -> timed (ob l k)). { intros k K. rewrite Forall_forall in TM. apply TM. unfold ob. now apply nth_In. }
  assert (NP : near p p = true) by (apply near_self; apply P). assert (NQ : near q q = true) by (apply near_self; apply Q).
  assert (SP : forall k, (k <= c)%nat -> ho_startPos (ob l k) = p). { intros k K. destruct (Nat.eq_dec k c) as [->|]; [now rewrite OS|]. apply OB. lia. }
  assert (LI : forall k, (S k < length l)%nat -> (when (ob l (S k)) - till (ob l k) <= B2R th)%R). { intros k K. apply (LK k). split; [lia|]. split; apply ob_nth; lia. }
  pose proof (like_bare m l) as L. set (l' := map (bare m) l) in *. assert (Hl' : length l' = length l) by apply L.
  split; rewrite ?Hl'.
  - lia.
  - intros k K. fields L k. destruct (Nat.lt_trichotomy k c) as [H|[->|H]]; unfold is_spinner; [destruct (OB k H) as (-> & _); reflexivity| |destruct (OA k ltac:(lia)) as (-> & _); reflexivity]. rewrite OS. destruct SL as (x & ->). reflexivity.
  - intros k K. fields L k. destruct (Nat.eqb_spec k c) as [->|NE]; cbn [andb]; unfold is_slider; [rewrite OS; destruct SL as (x & ->); reflexivity|].
    destruct (Nat.lt_trichotomy k c) as [H|[H|H]]; [destruct (OB k H) as (-> & _)|lia|destruct (OA k ltac:(lia)) as (-> & _)]; reflexivity.
  - intros n k K. fields L n. fields L k. rewrite (SP k), (SP n) by lia. destruct (OB n ltac:(lia)) as (_ & _ & -> & _). auto.
  - intros n k N K. fields L n. fields L k. destruct (OA n ltac:(lia)) as (_ & -> & _). destruct (OA k ltac:(lia)) as (_ & -> & _). exact NQ.
  - intros k K. fields L c. fields L k. destruct (OA k K) as (_ & -> & _). rewrite OS, S1, S2. split; [exact NQ|]. split; [exact NQ|]. now apply not_near.
  - intros n k N K. fields L n. fields L k. destruct (OA k ltac:(lia)) as (_ & -> & _). rewrite (SP n) by lia. destruct (OB n ltac:(lia)) as (_ & _ & -> & _). split; now apply not_near.
  - intros k K. fields L k. fields L (S k). destruct (OT k ltac:(lia)) as (T1 & T2). destruct (OT (S k) K) as (T3 & T4). pose proof (LI k K) as I. unfold when, till in I. split; apply late_false; auto; try (apply TH); try apply T2; lra.
  - intros k K. fields L k. fields L (S k). destruct (OT k ltac:(lia)) as (T1 & T2). destruct (OT (S k) ltac:(lia)) as (T3 & T4). pose proof (LI k ltac:(lia)) as I. unfold when, till in I. destruct (OB k K) as (_ & _ & _ & E). unfold when, till in E. apply late_false; auto; [apply TH|lra].
Qed.
Lemma heap_built m th p l : (0 < length l)%nat -> placed p -> sound th -> Forall (circle_at p) l -> Forall timed l -> linked th l -> built_on false th (length l - 1) (map (bare m) l).
Proof.
  intros NE P TH C TM LK. pose proof (like_bare m l) as L. set (l' := map (bare m) l) in *. assert (Hl' : length l' = length l) by apply L. assert (NP : near p p = true) by (apply near_self; apply P).
  assert (OC : forall k, (k < length l)%nat -> circle_at p (ob l k)) by (intros k K; rewrite Forall_forall in C; apply C; unfold ob; now apply nth_In).
  assert (OT : forall k, (k < length l)%nat -> timed (ob l k)). { intros k K. rewrite Forall_forall in TM. apply TM. unfold ob. now apply nth_In. }
  assert (LI : forall k, (S k < length l)%nat -> (when (ob l (S k)) - till (ob l k) <= B2R th)%R). { intros k K. apply (LK k). split; [lia|]. split; apply ob_nth; lia. }
  split; rewrite ?Hl'; try lia.
  - intros k K. fields L k. unfold is_spinner. destruct (OC k K) as (-> & _). reflexivity.
  - intros k K. fields L k. unfold is_slider. destruct (OC k K) as (-> & _). reflexivity.
  - intros n k K. fields L n. fields L k. destruct (OC n ltac:(lia)) as (_ & -> & -> & _). destruct (OC k ltac:(lia)) as (_ & -> & _). auto.
  - intros k K. fields L k. fields L (S k). destruct (OT k ltac:(lia)) as (T1 & T2). destruct (OT (S k) K) as (T3 & T4). pose proof (LI k K) as I. unfold when, till in I. split; apply late_false; auto; try (apply TH); try apply T2; lra.
  - intros k K. fields L k. fields L (S k). destruct (OT k ltac:(lia)) as (T1 & T2). destruct (OT (S k) ltac:(lia)) as (T3 & T4). pose proof (LI k ltac:(lia)) as I. unfold when, till in I. destruct (OC k ltac:(lia)) as (_ & _ & _ & E). unfold when, till in E. apply late_false; auto; [apply TH|lra].
Qed.
End WithLibm.

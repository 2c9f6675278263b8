(** Scripts for C82: stacking does not reach across a pause. *)
From Coq Require Import Reals Lra.
From Flocq Require Import Core BinarySingleNaN.
From Verif Require Import Stacking SpecMods SpecStacking SpecStacks BaseLemmas FloatLemmas KeyLemmas ModsProofs DifficultyProofs StackingProofs StackRuns.
Open Scope Z_scope.

Section WithLibm.
Context {M : libm}.

(** ** Reading and writing a concatenation *)
Lemma ob_l A B k : (k < length A)%nat -> ob (A ++ B) k = ob A k. Proof. apply app_nth1. Qed.
Lemma ob_r A B k : ob (A ++ B) (length A + k) = ob B k.
Proof. unfold ob. rewrite app_nth2 by lia. f_equal. lia. Qed.
Lemma upd_l {T} (A B : list T) : forall k x, (k < length A)%nat -> upd (A ++ B) k x = upd A k x ++ B.
Proof. induction A as [|a A IH]; intros [|k] x H; cbn in *; try lia; [reflexivity|]. rewrite IH by lia. reflexivity. Qed.
Lemma upd_r {T} (A B : list T) k x : upd (A ++ B) (length A + k) x = A ++ upd B k x.
Proof. induction A as [|a A IH]; cbn; [reflexivity|]. now rewrite IH. Qed.
Lemma set_l m A B k v : (k < length A)%nat -> set_ix m (A ++ B) k v = set_ix m A k v ++ B.
Proof. intros H. unfold set_ix. now rewrite ob_l, upd_l. Qed.
Lemma set_r m A B k v : set_ix m (A ++ B) (length A + k) v = A ++ set_ix m B k v.
Proof. unfold set_ix. now rewrite ob_r, upd_r. Qed.
Lemma get_l m A B k : (k < length A)%nat -> get_ix m (A ++ B) k = get_ix m A k.
Proof. intros H. unfold get_ix. now rewrite ob_l. Qed.
Lemma get_r m A B k : get_ix m (A ++ B) (length A + k) = get_ix m B k.
Proof. unfold get_ix. now rewrite ob_r. Qed.

(** ** The gap *)
Definition gap (th : f64) (A B : list hobj) : Prop := forall k j, (k < length A)%nat -> (j < length B)%nat ->
  fgt (fsub (ho_start (ob B j)) (ho_end (ob A k))) th = true /\ fgt (fsub (ho_start (ob B j)) (ho_start (ob A k))) th = true /\
  fgt (fsub (ho_start (ob B j)) th) (ho_end (ob A k)) = true.
Lemma gap_like th A B A' B' : like A A' -> like B B' -> gap th A B -> gap th A' B'.
Proof.
  intros (LA & HA) (LB & HB) G k j K J. rewrite LA in K. rewrite LB in J. destruct (HA k) as (_ & _ & _ & -> & ->). destruct (HB j) as (_ & _ & _ & -> & _). apply G; assumption.
Qed.
Lemma set_like m l n v : like l (set_ix m l n v). Proof. apply like_set, like_refl. Qed.

(** ** The new algorithm *)
Lemma down_circle m th A B i ci : gap th A B -> (ci < length B)%nat -> forall n, (n <= length A)%nat -> pass2_circle m th i (A ++ B) (length A + ci) 0 n = (A ++ B, O).
Proof.
  intros G C. induction n as [|n IH]; intros Hn; cbn [pass2_circle]; [reflexivity|]. destruct (is_spinner _); [apply IH; lia|]. rewrite ob_r, ob_l by lia. destruct (G n ci ltac:(lia) C) as (-> & _). reflexivity.
Qed.
Lemma down_slider m th A B ci : gap th A B -> (ci < length B)%nat -> forall n, (n <= length A)%nat -> pass2_slider m th (A ++ B) (length A + ci) n = A ++ B.
Proof.
  intros G C. induction n as [|n IH]; intros Hn; cbn [pass2_slider]; [reflexivity|]. destruct (is_spinner _); [apply IH; lia|]. rewrite ob_r, ob_l by lia. destruct (G n ci ltac:(lia) C) as (_ & -> & _). reflexivity.
Qed.
Lemma shift_r m A n off : forall js B, shift_tail m (length A + n) off (A ++ B) (map (Nat.add (length A)) js) = A ++ shift_tail m n off B js.
Proof.
  induction js as [|j js IH]; intros B; cbn [shift_tail fold_left map]; [reflexivity|]. rewrite !ob_r, get_r, set_r. destruct (near _ _); [exact (IH _)|exact (IH _)].
Qed.
Lemma seq_shift a n k : seq (a + n) k = map (Nat.add a) (seq n k).
Proof. revert n. induction k as [|k IH]; intros n; cbn [seq map]; [reflexivity|]. now rewrite <- IH, Nat.add_succ_r. Qed.
Lemma circle_r m th A i : forall n B ci, gap th A B -> (ci < length B)%nat -> (n <= length B)%nat ->
  pass2_circle m th (length A + i) (A ++ B) (length A + ci) 0 (length A + n) = (A ++ fst (pass2_circle m th i B ci 0 n), O) /\ snd (pass2_circle m th i B ci 0 n) = O /\ like B (fst (pass2_circle m th i B ci 0 n)).
Proof.
  induction n as [|n IH]; intros B ci G C Hn.
  - rewrite Nat.add_0_r, down_circle by (auto; lia). cbn [pass2_circle fst snd]. split; [reflexivity|]. split; [reflexivity|apply like_refl].
  - rewrite Nat.add_succ_r. cbn [pass2_circle]. rewrite !ob_r. destruct (is_spinner _); [apply IH; auto; lia|]. destruct (fgt _ th); [cbn [fst snd]; split; [reflexivity|split; [reflexivity|apply like_refl]]|].
    change (Nat.ltb (length A + n) 0) with false. change (Nat.ltb n 0) with false. cbv iota. rewrite !ob_r. destruct (is_slider _ && _).
    + cbn [fst snd]. rewrite !get_r. replace (S (length A + n)) with (length A + S n)%nat by lia. replace (length A + i - (length A + n))%nat with (i - n)%nat by lia. rewrite seq_shift, shift_r. split; [reflexivity|]. split; [reflexivity|].
      generalize (get_ix m B ci - get_ix m B n + 1) as off. intro off. generalize (seq (S n) (i - n)) as js. intro js.
      assert (X : forall js B', like B B' -> like B (shift_tail m n off B' js)). { clear js. induction js as [|j js IHj]; intros B' L; cbn [shift_tail fold_left]; [exact L|]. apply IHj. destruct (near _ _); [now apply like_set|exact L]. }
      apply X, like_refl.
    + destruct (near _ _).
      * rewrite get_r, set_r. destruct (IH (set_ix m B n (get_ix m B ci + 1)) n) as (E1 & E2 & E3); [eapply gap_like; [apply like_refl|apply set_like|exact G]|rewrite set_ix_length; lia|rewrite set_ix_length; lia|].
        split; [exact E1|]. split; [exact E2|]. destruct E3 as (L1 & L2). split; [now rewrite L1, set_ix_length|]. intros k. eapply alike_trans; [apply set_ix_alike|apply L2].
      * apply IH; auto; lia.
Qed.
Lemma slider_r m th A : forall n B ci, gap th A B -> (ci < length B)%nat -> (n <= length B)%nat ->
  pass2_slider m th (A ++ B) (length A + ci) (length A + n) = A ++ pass2_slider m th B ci n /\ like B (pass2_slider m th B ci n).
Proof.
  induction n as [|n IH]; intros B ci G C Hn.
  - rewrite Nat.add_0_r, down_slider by (auto; lia). cbn [pass2_slider]. split; [reflexivity|apply like_refl].
  - rewrite Nat.add_succ_r. cbn [pass2_slider]. rewrite !ob_r. destruct (is_spinner _); [apply IH; auto; lia|]. destruct (fgt _ th); [split; [reflexivity|apply like_refl]|].
    destruct (near _ _).
    + rewrite get_r, set_r. destruct (IH (set_ix m B n (get_ix m B ci + 1)) n) as (E1 & E3); [eapply gap_like; [apply like_refl|apply set_like|exact G]|rewrite set_ix_length; lia|rewrite set_ix_length; lia|].
      split; [exact E1|]. destruct E3 as (L1 & L2). split; [now rewrite L1, set_ix_length|]. intros k. eapply alike_trans; [apply set_ix_alike|apply L2].
    + apply IH; auto; lia.
Qed.
Lemma circle_l m th B i : forall n A ci, (i < length A)%nat -> (ci < length A)%nat -> (n <= i)%nat ->
  pass2_circle m th i (A ++ B) ci 0 n = (fst (pass2_circle m th i A ci 0 n) ++ B, O) /\ snd (pass2_circle m th i A ci 0 n) = O /\ length (fst (pass2_circle m th i A ci 0 n)) = length A.
Proof.
  induction n as [|n IH]; intros A ci I C Hn; cbn [pass2_circle]; [cbn [fst snd]; auto|].
  rewrite !ob_l by lia. destruct (is_spinner _); [apply IH; auto; lia|]. destruct (fgt _ th); [cbn [fst snd]; auto|].
  change (Nat.ltb n 0) with false. cbv iota. rewrite !ob_l by lia. destruct (is_slider _ && _).
  - cbn [fst snd]. rewrite !get_l by lia. generalize (get_ix m A ci - get_ix m A n + 1) as off. intro off.
    assert (X : forall js A', (forall j, In j js -> (j < length A')%nat) -> (n < length A')%nat -> shift_tail m n off (A' ++ B) js = shift_tail m n off A' js ++ B /\ length (shift_tail m n off A' js) = length A').
    { induction js as [|j js IHj]; intros A' J Ln; cbn [shift_tail fold_left]; [auto|]. assert (j < length A')%nat by (apply J; now left). rewrite !ob_l, get_l, set_l by assumption. destruct (near _ _).
      - destruct (IHj (set_ix m A' j (get_ix m A' j - off))) as (E1 & E2); [intros; rewrite set_ix_length; apply J; now right|now rewrite set_ix_length|]. split; [exact E1|]. unfold shift_tail in E2 at 1. rewrite E2. apply set_ix_length.
      - apply IHj; [intros; apply J; now right|assumption]. }
    destruct (X (seq (S n) (i - n)) A) as (-> & E2); [intros j J; apply in_seq in J; lia|lia|]. auto.
  - destruct (near _ _).
    + rewrite get_l, set_l by lia. destruct (IH (set_ix m A n (get_ix m A ci + 1)) n) as (E1 & E2 & E3); try (rewrite set_ix_length; lia); [lia|]. rewrite set_ix_length in E3. auto.
    + apply IH; auto; lia.
Qed.
Lemma slider_l m th B : forall n A ci, (ci < length A)%nat -> (n <= length A)%nat ->
  pass2_slider m th (A ++ B) ci n = pass2_slider m th A ci n ++ B /\ length (pass2_slider m th A ci n) = length A.
Proof.
  induction n as [|n IH]; intros A ci C Hn; cbn [pass2_slider]; [auto|]. rewrite !ob_l by lia. destruct (is_spinner _); [apply IH; auto; lia|]. destruct (fgt _ th); [auto|]. destruct (near _ _).
  - rewrite get_l, set_l by lia. destruct (IH (set_ix m A n (get_ix m A ci + 1)) n) as (E1 & E3); try (rewrite set_ix_length; lia). rewrite set_ix_length in E3. auto.
  - apply IH; auto; lia.
Qed.
Lemma pass2_l m th B : forall i A, (i < length A)%nat -> pass2 m th (A ++ B) 0 i = pass2 m th A 0 i ++ B.
Proof.
  induction i as [|i IH]; intros A I; cbn [pass2]; [reflexivity|]. rewrite get_l, !ob_l by lia. destruct (_ || _); [apply IH; lia|]. destruct (is_slider _).
  - destruct (slider_l m th B (S i) A (S i) I ltac:(lia)) as (-> & E). apply IH. lia.
  - destruct (circle_l m th B (S i) (S i) A (S i) I I ltac:(lia)) as (-> & E1 & E2). destruct (pass2_circle m th (S i) A (S i) 0 (S i)) as [r e]. cbn [fst snd] in *. subst e. apply IH. lia.
Qed.
Lemma pass2_r m th A : (0 < length A)%nat -> forall i B, gap th A B -> (i < length B)%nat -> pass2 m th (A ++ B) 0 (length A + i) = pass2 m th A 0 (length A - 1) ++ pass2 m th B 0 i.
Proof.
  intros NE. assert (S1 : forall i, (length A + i)%nat = S (length A - 1 + i)) by (intros; lia). induction i as [|i IH]; intros B G I.
  - rewrite S1. cbn [pass2]. rewrite <- S1, !ob_r, get_r. destruct (_ || _); [replace (length A - 1 + 0)%nat with (length A - 1)%nat by lia; apply pass2_l; lia|]. destruct (is_slider _).
    + rewrite down_slider by (auto; lia). replace (length A - 1 + 0)%nat with (length A - 1)%nat by lia. apply pass2_l; lia.
    + rewrite down_circle by (auto; lia). replace (length A - 1 + 0)%nat with (length A - 1)%nat by lia. apply pass2_l; lia.
  - rewrite Nat.add_succ_r. cbn [pass2]. rewrite <- Nat.add_succ_r, !ob_r, get_r. destruct (_ || _); [apply IH; auto; lia|]. destruct (is_slider _).
    + destruct (slider_r m th A (S i) B (S i) G I ltac:(lia)) as (-> & L). apply IH; [eapply gap_like; [apply like_refl|exact L|exact G]|]. destruct L as (-> & _). lia.
    + destruct (circle_r m th A (S i) (S i) B (S i) G I ltac:(lia)) as (-> & E1 & L). destruct (pass2_circle m th (S i) B (S i) 0 (S i)) as [r e]. cbn [fst snd] in *. subst e. apply IH; [eapply gap_like; [apply like_refl|exact L|exact G]|]. destruct L as (-> & _). lia.
Qed.
Lemma zero_app m A B : zero m A -> zero m B -> zero m (A ++ B).
Proof.
  intros ZA ZB n. destruct (Nat.ltb_spec n (length A)); [rewrite get_l by assumption; apply ZA|]. replace n with (length A + (n - length A))%nat by lia. rewrite get_r. apply ZB.
Qed.
Lemma new_app m th A B : zero m A -> zero m B -> gap th A B -> apply_new_stacking m th (A ++ B) = apply_new_stacking m th A ++ apply_new_stacking m th B.
Proof.
  intros ZA ZB G. rewrite !new_zero by auto using zero_app. destruct A as [|a A]; [reflexivity|]. destruct B as [|b B]; [rewrite app_nil_r; cbn [length pass2]; now rewrite app_nil_r|].
  rewrite app_length. replace (length (a :: A) + length (b :: B) - 1)%nat with (length (a :: A) + (length (b :: B) - 1))%nat by (cbn [length]; lia). apply pass2_r; auto; cbn [length]; lia.
Qed.

(** ** The old algorithm *)
Lemma old_l m th B i : forall k n A st ss, (i < length A)%nat -> (n + k = length A)%nat -> (forall j, (j < length B)%nat -> fgt (fsub (ho_start (ob B j)) th) st = true) ->
  (forall k j, (k < length A)%nat -> (j < length B)%nat -> fgt (fsub (ho_start (ob B j)) th) (ho_end (ob A k)) = true) ->
  old_inner m th i (A ++ B) st ss (seq n (k + length B)) = old_inner m th i A st ss (seq n k) ++ B /\ length (old_inner m th i A st ss (seq n k)) = length A.
Proof.
  induction k as [|k IH]; intros n A st ss I E ST G; cbn [Nat.add seq old_inner].
  - split; [|reflexivity]. destruct B as [|b B]; [reflexivity|]. cbn [length seq old_inner]. replace n with (length A + 0)%nat by lia. rewrite ob_r. rewrite ST by (cbn [length]; lia). reflexivity.
  - rewrite !ob_l by lia. destruct (fgt _ st); [auto|]. assert (G' : forall n0 v k j, (k < length (set_ix m A n0 v))%nat -> (j < length B)%nat -> fgt (fsub (ho_start (ob B j)) th) (ho_end (ob (set_ix m A n0 v) k)) = true).
    { intros n0 v k' j K J. destruct (set_ix_alike m A n0 v k') as (_ & _ & _ & _ & ->). rewrite set_ix_length in K. now apply G. }
    destruct (near _ _); [|destruct (near _ _)].
    + rewrite get_l, set_l by lia. destruct (IH (S n) (set_ix m A i (get_ix m A i + 1)) (ho_end (ob A n)) ss) as (E1 & E2); try (rewrite set_ix_length; lia); [intros j J; apply G; auto; lia|apply G'|]. rewrite set_ix_length in E2. auto.
    + rewrite get_l, set_l by lia. destruct (IH (S n) (set_ix m A n (get_ix m A n - (ss + 1))) (ho_end (ob A n)) (ss + 1)) as (E1 & E2); try (rewrite set_ix_length; lia); [intros j J; apply G; auto; lia|apply G'|]. rewrite set_ix_length in E2. auto.
    + apply IH; auto; lia.
Qed.
Lemma old_r m th A i : forall ns B st ss, old_inner m th (length A + i) (A ++ B) st ss (map (Nat.add (length A)) ns) = A ++ old_inner m th i B st ss ns.
Proof.
  induction ns as [|n ns IH]; intros B st ss; cbn [map old_inner]; [reflexivity|]. rewrite !ob_r, !get_r, !set_r. destruct (fgt _ st); [reflexivity|]. destruct (near _ _); [apply IH|]. destruct (near _ _); apply IH.
Qed.
Lemma old_inner_like m th i : forall ns l st ss, like l (old_inner m th i l st ss ns).
Proof.
  assert (T : forall l a b, like l a -> like a b -> like l b). { intros l a b (L1 & H1) (L2 & H2). split; [congruence|]. intros k. eapply alike_trans; eauto. }
  induction ns as [|n ns IH]; intros l st ss; cbn [old_inner]; [apply like_refl|]. destruct (fgt _ st); [apply like_refl|]. destruct (near _ _); [eapply T; [apply set_like|apply IH]|]. destruct (near _ _); [eapply T; [apply set_like|apply IH]|apply IH].
Qed.
Lemma step_like m th l i : like l (old_step m th l i).
Proof. unfold old_step. destruct (_ || _); [apply old_inner_like|apply like_refl]. Qed.
Lemma old_app m th A B : gap th A B -> apply_old_stacking m th (A ++ B) = apply_old_stacking m th A ++ apply_old_stacking m th B.
Proof.
  intros G. unfold apply_old_stacking. change (fold_left (old_step m th) (seq 0 (length (A ++ B))) (A ++ B) = fold_left (old_step m th) (seq 0 (length A)) A ++ fold_left (old_step m th) (seq 0 (length B)) B).
  rewrite app_length, seq_app, fold_left_app. cbn [Nat.add].
  assert (L : forall ns A', like A A' -> (forall n, In n ns -> (n < length A)%nat) -> fold_left (old_step m th) ns (A' ++ B) = fold_left (old_step m th) ns A' ++ B /\ like A (fold_left (old_step m th) ns A')).
  { induction ns as [|n ns IH]; intros A' L' N; cbn [fold_left]; [auto|]. assert (Hn : (n < length A)%nat) by (apply N; now left). assert (HA : length A' = length A) by apply L'.
    assert (E : old_step m th (A' ++ B) n = old_step m th A' n ++ B).
    { unfold old_step. rewrite get_l, !ob_l, app_length by lia. destruct (_ || _); [|reflexivity]. replace (length A' + length B - S n)%nat with (length A' - S n + length B)%nat by lia.
      pose proof (gap_like _ _ _ _ _ L' (like_refl B) G) as G'. apply old_l; [lia|lia| |]; intros; apply G'; auto; lia. }
    rewrite E. apply IH; [|intros; apply N; now right]. destruct L' as (L1 & L2). destruct (step_like m th A' n) as (S1 & S2). split; [congruence|]. intros k. eapply alike_trans; eauto. }
  destruct (L (seq 0 (length A)) A (like_refl A)) as (-> & (LA & _)); [intros n N; apply in_seq in N; lia|]. set (A' := fold_left (old_step m th) (seq 0 (length A)) A) in *.
  replace (seq (length A) (length B)) with (map (Nat.add (length A')) (seq 0 (length B))) by (rewrite <- seq_shift, LA; f_equal; lia).
  generalize (seq 0 (length B)) as ns. intro ns. revert B G L. clear. intros B _ _. revert B. induction ns as [|n ns IH]; intros B; cbn [map fold_left]; [reflexivity|]. rewrite <- IH. f_equal.
  unfold old_step. rewrite get_r, !ob_r, app_length. destruct (_ || _); [|reflexivity]. replace (length A' + length B - S (length A' + n))%nat with (length B - S n)%nat by lia. replace (S (length A' + n)) with (length A' + S n)%nat by lia. rewrite seq_shift. apply old_r.
Qed.

(** ** The whole of it *)
Lemma run_app v m th A B : zero m A -> zero m B -> gap th A B -> run v m th (A ++ B) = run v m th A ++ run v m th B.
Proof. intros ZA ZB G. unfold run. destruct (6 <=? v); [now apply new_app|now apply old_app]. Qed.
Lemma process_app v d len A B : gap (threshold d len) A B -> process_stacking (A ++ B) v d len = process_stacking A v d len ++ process_stacking B v d len.
Proof.
  intros G. rewrite !process_eq, map_app, run_app, map_app; [reflexivity|apply bare_zero|apply bare_zero|]. eapply gap_like; [apply like_bare|apply like_bare|exact G].
Qed.
Lemma same_like l l' : Forall2 same_but_stack l l' -> like l l'.
Proof.
  intros H. split; [clear -H; induction H; cbn; auto|]. intros k. revert k. induction H as [|a b l l' (E1 & E2 & E3 & E4 & E5 & _) H IH]; intros [|k]; try apply alike_refl; [repeat split; assumption|apply (IH k)].
Qed.
Lemma leniency_app d v len A B : (forall g, gap (threshold (diff_for g d) len) A B) -> stack_leniency d v len (A ++ B) = stack_leniency d v len A ++ stack_leniency d v len B.
Proof.
  intros G. rewrite !leniency_eq. rewrite process_app by apply G.
  assert (L : forall d l, like l (process_stacking l v d len)) by (intros; apply same_like, process_same).
  rewrite process_app by (eapply gap_like; [apply L|apply L|apply G]).
  assert (T : forall l a b, like l a -> like a b -> like l b). { intros l a b (L1 & H1) (L2 & H2). split; [congruence|]. intros k. eapply alike_trans; eauto. }
  rewrite process_app by (eapply gap_like; [eapply T; apply L|eapply T; apply L|apply G]). reflexivity.
Qed.
Lemma pause_gap th l l' : sound th -> Forall timed l -> Forall timed l' -> pause th l l' -> gap th l l'.
Proof.
  intros TH TL TL' P k j K J. rewrite Forall_forall in TL, TL'. assert (Ia : In (ob l k) l) by (unfold ob; now apply nth_In). assert (Ib : In (ob l' j) l') by (unfold ob; now apply nth_In).
  destruct (P _ _ Ia Ib) as (P1 & P2). destruct (TL _ Ia) as (T1 & T2). destruct (TL' _ Ib) as (T3 & T4). unfold when, till in *. split; [apply late_true; auto; lra|]. split; apply late_true; auto; lra.
Qed.
End WithLibm.

(** Scripts for C83: how high stacks get. *)
From Verif Require Import Stacking SpecMods SpecStacking SpecStacks BaseLemmas ModsProofs DifficultyProofs StackingProofs StackRuns StackBreaks.
Open Scope Z_scope.

Ltac fields L k := let H := fresh in let E1 := fresh in let E2 := fresh in let E3 := fresh in let E4 := fresh in pose proof (proj2 L k) as H; rewrite ?(alike_spin _ _ H), ?(alike_slid _ _ H); destruct H as (_ & E1 & E2 & E3 & E4); rewrite ?E1, ?E2, ?E3, ?E4; clear E1 E2 E3 E4.
Section WithLibm.
Context {M : libm}.
Section Heights.
Context (m : modifier) (th : f64) (l0 : list hobj).
Notation N := (length l0).
Context (CL : forall n k, (n < k < N)%nat -> is_slider (ob l0 n) = true -> near (ho_endPos (ob l0 n)) (ho_startPos (ob l0 k)) = false /\ near (ho_startPos (ob l0 k)) (ho_endPos (ob l0 n)) = false).
Context (ST : forall n, is_slider (ob l0 n) = false -> ho_endPos (ob l0 n) = ho_startPos (ob l0 n)).
Definition bounded (l : list hobj) : Prop := forall k, (k < N)%nat -> 0 <= get_ix m l k <= Z.of_nat (N - 1 - k).
Lemma bounded_set l n ci : like l0 l -> bounded l -> (n < ci < N)%nat -> bounded (set_ix m l n (get_ix m l ci + 1)).
Proof.
  intros (L & _) B H k K. rewrite get_ix_set by lia. destruct (Nat.eqb_spec n k); [subst|now apply B]. specialize (B ci ltac:(lia)). lia.
Qed.
Lemma circle_low i : forall n l ci, like l0 l -> bounded l -> (n <= ci < N)%nat ->
  like l0 (fst (pass2_circle m th i l ci 0 n)) /\ bounded (fst (pass2_circle m th i l ci 0 n)) /\ snd (pass2_circle m th i l ci 0 n) = O.
Proof.
  induction n as [|n IH]; intros l ci L B H; cbn [pass2_circle]; [auto|]. destruct (is_spinner _); [apply IH; auto; lia|]. destruct (fgt _ th); [auto|]. change (Nat.ltb n 0) with false. cbv iota.
  assert (E : is_slider (ob l n) && near (ho_endPos (ob l n)) (ho_startPos (ob l ci)) = false).
  { fields L n. fields L ci. destruct (is_slider (ob l0 n)) eqn:S; [|reflexivity]. destruct (CL n ci ltac:(lia) S) as (-> & _). reflexivity. }
  rewrite E. clear E. destruct (near _ _); [|apply IH; auto; lia]. apply IH; [now apply like_set|apply bounded_set; auto; lia|lia].
Qed.
Lemma slider_low : forall n l ci, like l0 l -> bounded l -> (n <= ci < N)%nat -> like l0 (pass2_slider m th l ci n) /\ bounded (pass2_slider m th l ci n).
Proof.
  induction n as [|n IH]; intros l ci L B H; cbn [pass2_slider]; [auto|]. destruct (is_spinner _); [apply IH; auto; lia|]. destruct (fgt _ th); [auto|].
  destruct (near _ _); [|apply IH; auto; lia]. apply IH; [now apply like_set|apply bounded_set; auto; lia|lia].
Qed.
Lemma pass2_low : forall i l, like l0 l -> bounded l -> (i < N)%nat -> bounded (pass2 m th l 0 i).
Proof.
  induction i as [|i IH]; intros l L B H; cbn [pass2]; [exact B|]. destruct (_ || _); [apply IH; auto; lia|]. destruct (is_slider _).
  - destruct (slider_low (S i) l (S i) L B ltac:(lia)). apply IH; auto; lia.
  - destruct (circle_low (S i) (S i) l (S i) L B ltac:(lia)) as (L' & B' & E). destruct (pass2_circle m th (S i) l (S i) 0 (S i)) as [r e]. cbn [fst snd] in *. subst e. apply IH; auto; lia.
Qed.
Lemma new_low : zero m l0 -> bounded (apply_new_stacking m th l0).
Proof.
  intros Z. rewrite new_zero by exact Z. assert (B : bounded l0) by (intros k K; rewrite Z; lia). destruct (Nat.eq_dec N 0) as [E|E]; [intros k K; lia|]. apply pass2_low; [apply like_refl|exact B|lia].
Qed.
Lemma inner_low i : (i < N)%nat -> forall k n l st ss, like l0 l -> (i < n)%nat -> (n + k = N)%nat ->
  let r := old_inner m th i l st ss (seq n k) in like l0 r /\ (forall j, j <> i -> get_ix m r j = get_ix m l j) /\ get_ix m l i <= get_ix m r i <= get_ix m l i + Z.of_nat k.
Proof.
  intros Hi. induction k as [|k IH]; intros n l st ss L Hn E; cbn [seq old_inner]; [cbv zeta; split; [exact L|]; split; [auto|lia]|]. assert (Hl : length l = N) by apply L.
  destruct (fgt _ st); [cbv zeta; split; [exact L|]; split; [auto|lia]|]. destruct (near (ho_startPos (ob l n)) (ho_startPos (ob l i))) eqn:E1.
  - destruct (IH (S n) (set_ix m l i (get_ix m l i + 1)) (ho_end (ob l n)) ss (like_set _ _ _ _ _ L) ltac:(lia) ltac:(lia)) as (R1 & R2 & R3). rewrite get_ix_set, Nat.eqb_refl in R3 by lia. split; [exact R1|]. split; [|lia].
    intros j J. rewrite R2 by exact J. rewrite get_ix_set by lia. destruct (Nat.eqb_spec i j); [congruence|reflexivity].
  - assert (E2 : near (ho_startPos (ob l n)) (ho_endPos (ob l i)) = false).
    { destruct (is_slider (ob l0 i)) eqn:S; [|rewrite <- E1; fields L i; fields L n; now rewrite ST]. fields L i. fields L n. apply (CL i n); [lia|exact S]. }
    rewrite E2. destruct (IH (S n) l st ss L ltac:(lia) ltac:(lia)) as (R1 & R2 & R3). split; [exact R1|]. split; [exact R2|lia].
Qed.
Lemma old_low : zero m l0 -> bounded (apply_old_stacking m th l0).
Proof.
  intros Z. unfold apply_old_stacking. change (bounded (fold_left (old_step m th) (seq 0 N) l0)).
  assert (A : forall i, (i <= N)%nat -> like l0 (fold_left (old_step m th) (seq 0 i) l0) /\ bounded (fold_left (old_step m th) (seq 0 i) l0) /\ forall j, (i <= j)%nat -> get_ix m (fold_left (old_step m th) (seq 0 i) l0) j = 0).
  { induction i as [|i IH]; intros I; [split; [apply like_refl|]; split; [intros k K; cbn [seq fold_left]; rewrite Z; lia|intros; apply Z]|]. destruct IH as (L & B & J); [lia|]. rewrite seq_S, fold_left_app. cbn [fold_left Nat.add]. set (l := fold_left (old_step m th) (seq 0 i) l0) in *.
    assert (Hl : length l = N) by apply L. unfold old_step. destruct (_ || _); [|split; [exact L|]; split; [exact B|intros; apply J; lia]]. rewrite Hl. destruct (inner_low i ltac:(lia) (N - S i) (S i) l (ho_end (ob l i)) 0 L ltac:(lia) ltac:(lia)) as (R1 & R2 & R3).
    split; [exact R1|]. rewrite (J i) in R3 by lia. split; [|intros j Hj; rewrite R2 by lia; apply J; lia]. intros k K. destruct (Nat.eq_dec k i) as [->|]; [lia|]. rewrite R2 by assumption. now apply B. }
  apply A. lia.
Qed.
End Heights.
Lemma run_low v m th l : tails_clear l -> Forall stay l -> forall k, (k < length l)%nat -> 0 <= get_ix m (run v m th (map (bare m) l)) k <= Z.of_nat (length l - 1 - k).
Proof.
  intros T S. pose proof (like_bare m l) as L. set (l' := map (bare m) l) in *. assert (HL : length l' = length l) by apply L. rewrite <- HL.
  assert (KS : forall o, is_slider o = true -> exists x, ho_kind o = KSlider x) by (intros o; unfold is_slider; destruct (ho_kind o); [discriminate|discriminate|eauto]).
  assert (CL : forall n k, (n < k < length l')%nat -> is_slider (ob l' n) = true -> near (ho_endPos (ob l' n)) (ho_startPos (ob l' k)) = false /\ near (ho_startPos (ob l' k)) (ho_endPos (ob l' n)) = false).
  { intros n k K. fields L n. fields L k. intros Sn. destruct (T n k (ob l n) (ob l k)) as (C1 & C2); [split; [lia|]; split; apply ob_nth; lia|now apply KS|]. split; now apply near_false. }
  assert (ST : forall n, is_slider (ob l' n) = false -> ho_endPos (ob l' n) = ho_startPos (ob l' n)).
  { intros n. fields L n. intros Sn. destruct (Nat.ltb_spec n (length l)).
    - rewrite Forall_forall in S. apply (S (ob l n)); [unfold ob; now apply nth_In|]. intros x E. unfold is_slider in Sn. rewrite E in Sn. discriminate.
    - unfold ob. rewrite nth_overflow by assumption. reflexivity. }
  unfold run. destruct (6 <=? v); [exact (new_low m th l' CL (bare_zero m l))|exact (old_low m th l' CL ST (bare_zero m l))].
Qed.
End WithLibm.

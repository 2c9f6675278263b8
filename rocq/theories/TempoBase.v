(** The base beat of the point in force is the beat of the uninherited point in force. *)
From Coq Require Import Reals Lra ZArith Lia List Bool Permutation.
From Flocq Require Import Core BinarySingleNaN.
From Verif Require Import GoFloat Timing SpecTiming BaseLemmas FloatLemmas KeyLemmas SortLemmas TimingProofs.
Import ListNotations.
Open Scope Z_scope.

Lemma fle_tk p t : tnum p -> num t -> (fle (cp_Time p) t = true <-> (tk p <= key t)%R).
Proof. intros N Nt. rewrite fle_iff. unfold tk, tnum in *. tauto. Qed.
Lemma looked_up_unique l t x y : Forall tnum l -> num t -> looked_up l t x -> looked_up l t y -> x = y.
Proof.
  intros HN Ht (A1 & A2) (B1 & B2). rewrite Forall_forall in HN.
  assert (SP : forall (l1 l2 m1 m2 : list cpoint) , l1 ++ x :: l2 = m1 ++ y :: m2 -> x = y \/ (In y l2 /\ In x m1) \/ (In y l1 /\ In x m2)).
  { induction l1 as [|a l1 IH]; intros l2 [|b m1] m2 E; cbn in E; injection E as -> E; auto.
    - right. left. split; [rewrite E; apply in_or_app; right; now left|now left].
    - right. right. split; [now left|rewrite <- E; apply in_or_app; right; now left].
    - destruct (IH l2 m1 m2 E) as [H|[(H1 & H2)|(H1 & H2)]]; [now left|right; left; split; [exact H1|now right]|right; right; split; [now right|exact H2]]. }
  destruct (existsb (fun r => fle (cp_Time r) t) l) eqn:X.
  - apply existsb_exists in X. specialize (A1 X). specialize (B1 X). destruct A1 as (l1 & l2 & E & L & U1 & U2). destruct B1 as (m1 & m2 & E' & L' & V1 & V2).
    assert (Nx : num (cp_Time x)) by (apply HN; rewrite E; apply in_or_app; right; now left). assert (Ny : num (cp_Time y)) by (apply HN; rewrite E'; apply in_or_app; right; now left).
    destruct (SP l1 l2 m1 m2) as [H|[(H1 & H2)|(H1 & H2)]]; [now rewrite <- E|exact H| |]; exfalso.
    + pose proof (U2 y H1 L') as C. pose proof (V1 x H2 L) as D. apply flt_iff in C as (_ & _ & C). apply fle_iff in D as (_ & _ & D). lra.
    + pose proof (U1 y H1 L') as C. pose proof (V2 x H2 L) as D. apply fle_iff in C as (_ & _ & C). apply flt_iff in D as (_ & _ & D). lra.
  - assert (NX : forall r, In r l -> fle (cp_Time r) t = false). { intros r I. destruct (fle (cp_Time r) t) eqn:F; [|reflexivity]. assert (existsb (fun r => fle (cp_Time r) t) l = true) by (apply existsb_exists; exists r; auto). congruence. }
    destruct (A2 NX) as (l1 & l2 & E & U1 & U2). destruct (B2 NX) as (m1 & m2 & E' & V1 & V2). destruct (SP l1 l2 m1 m2) as [H|[(H1 & H2)|(H1 & H2)]]; [now rewrite <- E|exact H| |]; exfalso.
    + pose proof (U2 y H1) as C. pose proof (V1 x H2) as D. apply fle_iff in C as (_ & _ & C). apply flt_iff in D as (_ & _ & D). lra.
    + pose proof (U1 y H1) as C. pose proof (V2 x H2) as D. apply flt_iff in C as (_ & _ & C). apply fle_iff in D as (_ & _ & D). lra.
Qed.
Lemma ordered_app l1 x l2 : ordered tk (l1 ++ x :: l2) -> (forall r, In r l1 -> (tk r <= tk x)%R) /\ (forall r, In r l2 -> (tk x <= tk r)%R).
Proof.
  intros H. pose proof (ordered_nth _ H) as K. split; intros r I.
  - apply In_nth_error in I as (i & E). assert (L : (i < length l1)%nat) by (apply nth_error_Some; congruence). apply (K i (length l1)); [exact L|rewrite nth_error_app1 by exact L; exact E|rewrite nth_error_app2, Nat.sub_diag by lia; reflexivity].
  - apply In_nth_error in I as (i & E). apply (K (length l1) (length l1 + S i)%nat); [lia|rewrite nth_error_app2, Nat.sub_diag by lia; reflexivity|rewrite nth_error_app2 by lia; replace (length l1 + S i - length l1)%nat with (S i) by lia; exact E].
Qed.
Lemma base_of_original l t p q : Forall fresh l -> fisnan t = false -> l <> [] ->
  get_point_at (finalize_points (added l)) t = Ok p -> get_original_point_at (finalize_points (added l)) t = Ok q -> cp_base p = cp_beat q.
Proof.
  intros HF Ht Hne Ep Eq. destruct (stored_facts l HF) as (S & HO & HN). destruct (c11_orig l t HF Ht Hne) as (EO & q' & Eq' & Lq). rewrite Eq in Eq'. injection Eq' as <-.
  assert (HB : Forall (fun p => cp_base p = cp_beat p) l) by (eapply Forall_impl; [|exact HF]; intros a (A & _); exact A).
  pose proof (c13 l HB) as K. unfold get_point_at in Ep. set (ps := t_points (finalize_points (added l))) in *.
  assert (PN : ps <> []). { intros E. rewrite E in S. pose proof (sort_perm point_lt l) as P. destruct (stable_sort point_lt l) as [|a r]; [|inversion S]. apply Hne. apply Permutation_nil. now apply Permutation_sym. }
  destruct (point_at_spec ps t HO HN Ht PN) as (p' & Ep' & Lp). rewrite Ep in Ep'. injection Ep' as <-.
  assert (HN' : Forall tnum (uninherited_or_first ps)). { rewrite Forall_forall in *. intros x I. apply HN. now apply uninh_sub. }
  rewrite Forall_forall in HN.
  destruct (existsb (fun r => fle (cp_Time r) t) ps) eqn:X.
  - apply existsb_exists in X. destruct (proj1 Lp X) as (l1 & l2 & E & L & U1 & U2).
    assert (Np : tnum p) by (apply HN; rewrite E; apply in_or_app; right; now left). pose proof (proj1 (fle_tk p t Np Ht) L) as Lk.
    rewrite E in HO. destruct (ordered_app _ _ _ HO) as (O1 & O2).
    assert (AF : forall r, In r l2 -> fle (cp_Time r) t = false).
    { intros r I. destruct (fle (cp_Time r) t) eqn:F; [exfalso|reflexivity]. pose proof (U2 r I F) as C. apply flt_iff in C as (_ & _ & C). pose proof (O2 r I). unfold tk in *. lra. }
    destruct (K (length l1) p) as (k & q0 & Hk & Nq & RQ & BQ & IN); [rewrite E, nth_error_app2, Nat.sub_diag by lia; reflexivity|].
    assert (Iq : In q0 ps) by (eapply nth_error_In; exact Nq). assert (Tq : tnum q0) by now apply HN.
    assert (Lq0 : (tk q0 <= tk p)%R). { destruct (Nat.eq_dec k (length l1)) as [->|NE]; [rewrite E, nth_error_app2, Nat.sub_diag in Nq by lia; injection Nq as <-; apply Rle_refl|]. apply O1. rewrite E, nth_error_app1 in Nq by lia. eapply nth_error_In; exact Nq. }
    (* no later uninherited point is in force *)
    assert (LT : forall j r, (k < j)%nat -> nth_error ps j = Some r -> cp_Inherited r = false -> fle (cp_Time r) t = false).
    { intros j r Hj Nr Ir. destruct (le_lt_dec j (length l1)) as [J|J]; [rewrite (IN j r (conj Hj J) Nr) in Ir; discriminate|]. apply AF. rewrite E in Nr. rewrite nth_error_app2 in Nr by lia. destruct (j - length l1)%nat as [|d] eqn:D; [lia|]. eapply nth_error_In; exact Nr. }
    pose proof HO as HO'. rewrite <- E in HO'.
    assert (LA : last_active (uninherited_or_first ps) t q0).
    { destruct ps as [|x rest]; [congruence|]. cbn [uninherited_or_first]. destruct k as [|k].
      - cbn in Nq. injection Nq as ->. exists [], (filter (fun q => negb (cp_Inherited q)) rest). split; [reflexivity|]. split; [apply fle_tk; auto; lra|]. split; [intros r []|].
        intros r I F. apply filter_In in I as (I & G). apply In_nth_error in I as (j & J). rewrite (LT (Datatypes.S j) r ltac:(lia) J ltac:(now apply negb_true_iff)) in F. discriminate.
      - cbn in Nq. pose proof (TimingProofs.nth_split rest k q0 Nq) as SP. destruct RQ as [RQ|C]; [|discriminate C]. rewrite SP, filter_app. cbn [filter]. rewrite RQ. cbn [negb].
        exists (x :: filter (fun q => negb (cp_Inherited q)) (firstn k rest)), (filter (fun q => negb (cp_Inherited q)) (skipn (Datatypes.S k) rest)). split; [reflexivity|]. split; [apply fle_tk; auto; lra|]. split.
        + intros r I F. assert (I' : exists j, (j < Datatypes.S k)%nat /\ nth_error (x :: rest) j = Some r). { destruct I as [->|I]; [exists 0%nat; split; [lia|reflexivity]|]. apply filter_In in I as (I & _). apply in_firstn in I as (j & J & N). exists (Datatypes.S j). split; [lia|exact N]. }
          destruct I' as (j & J & N). apply fle_tk; [apply HN; eapply nth_error_In; exact N|exact Tq|]. exact (ordered_nth _ HO' j (Datatypes.S k) r q0 J N Nq).
        + intros r I F. apply filter_In in I as (I & G). apply in_skipn in I as (j & J & N). rewrite (LT (Datatypes.S j) r ltac:(lia) N ltac:(now apply negb_true_iff)) in F. discriminate. }
    assert (LU : looked_up (uninherited_or_first ps) t q0). { split; [intros _; exact LA|]. intros NO. destruct LA as (a & b & EA & FA & _). rewrite (NO q0) in FA; [discriminate|]. rewrite EA. apply in_or_app. right. now left. }
    rewrite (looked_up_unique _ t q q0 HN' Ht Lq LU). exact BQ.
  - assert (NX : forall r, In r ps -> fle (cp_Time r) t = false). { intros r I. destruct (fle (cp_Time r) t) eqn:F; [|reflexivity]. assert (existsb (fun r => fle (cp_Time r) t) ps = true) by (apply existsb_exists; exists r; auto). congruence. }
    destruct (proj2 Lp NX) as (l1 & l2 & E & U1 & U2).
    assert (E1 : l1 = []). { destruct l1 as [|a l1]; [reflexivity|exfalso]. pose proof (U1 a (or_introl eq_refl)) as C. apply flt_iff in C as (_ & _ & C). rewrite E in HO. destruct (ordered_app _ _ _ HO) as (O1 & _). pose proof (O1 a (or_introl eq_refl)). unfold tk in *. lra. }
    subst l1. cbn [app] in E. destruct (K 0%nat p) as (k & q0 & Hk & Nq & _ & BQ & _); [now rewrite E|]. assert (k = 0%nat) as -> by lia. rewrite E in Nq. cbn in Nq. injection Nq as <-.
    assert (LU : looked_up (uninherited_or_first ps) t p).
    { split; [intros (r & I & F); rewrite (NX r) in F; [discriminate|now apply uninh_sub]|]. intros _. rewrite E. cbn [uninherited_or_first]. exists [], (filter (fun q => negb (cp_Inherited q)) l2). split; [reflexivity|]. split; [intros r []|]. intros r I. apply filter_In in I as (I & _). now apply U2. }
    rewrite (looked_up_unique _ t q p HN' Ht Lq LU). exact BQ.
Qed.

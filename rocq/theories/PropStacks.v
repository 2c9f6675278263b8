(** Properties C81-C83: stacks on sliders, pauses, heights of stacks. *)
From Coq Require Import Reals Lra.
From Flocq Require Import Raux Zaux BinarySingleNaN.
From Verif Require Import Parser Stacking SpecMods SpecStacking SpecStacks SpecParser SpecPlay BaseLemmas FloatLemmas KeyLemmas Float32Lemmas DifficultyProofs
  StackingProofs StackRuns StackBreaks StackHeights StringLemmas ObjectProofs FinishProofs MapProofs SortLemmas PropStacking PropParser PropRatings PropTerm PropPlay.
From Verif Require Import SpecStacks.
Open Scope Z_scope.

Section WithLibm.
Context {M : libm}.
(** C81.  Circles before a slider rise from its head, circles after it sink
    from its tail, with both algorithms: the object k has index (number of circles before the slider) - k. *)
Theorem C81_tower : forall g v d len p q before s after, tower (threshold (diff_for g d) len) p q before s after ->
  forall k o, nth_error (stack_leniency d v len (before ++ s :: after)) k = Some o -> idx_of g o = zlen before - Z.of_nat k.
Proof.
  intros g v d len p q before s after T k o H. pose proof (tower_built (mask_of g) _ p q before s after T) as B. set (l := before ++ s :: after) in *.
  assert (K : (k < length l)%nat) by (rewrite <- (leniency_length d v len); apply nth_error_Some; congruence). pose proof (like_bare (mask_of g) l) as L. assert (K' : (k < length (map (bare (mask_of g)) l))%nat) by (now rewrite map_length).
  assert (NS : ho_kind o <> KSpinner).
  { pose proof (bo_sp _ _ _ _ B k K') as S. rewrite (alike_spin _ _ (proj2 L k)) in S. destruct (F2_nth_r _ _ _ (leniency_same d v len l) k o H) as (x & X & E & _). unfold ob in S. rewrite (nth_error_nth _ _ _ X) in S. unfold is_spinner in S. rewrite E. destruct (ho_kind x); congruence. }
  rewrite (leniency_index g d v len l k o H NS). unfold run, zlen. destruct (6 <=? v); [apply (new_tower true _ _ _ _ B eq_refl)|apply (old_tower true _ _ _ _ B)]; auto using bare_zero.
Qed.
(** A pile of circles, with the old algorithm (C28 is the new one). *)
Theorem C81_pile_old : forall g v d len p l, v < 6 -> placed p -> sound (threshold (diff_for g d) len) -> Forall (circle_at p) l -> Forall timed l -> linked (threshold (diff_for g d) len) l ->
  forall k o, nth_error (stack_leniency d v len l) k = Some o -> idx_of g o = zlen l - 1 - Z.of_nat k.
Proof.
  intros g v d len p l V P TH C TM LK k o H. assert (K : (k < length l)%nat) by (rewrite <- (leniency_length d v len); apply nth_error_Some; congruence).
  pose proof (heap_built (mask_of g) _ p l ltac:(lia) P TH C TM LK) as B. pose proof (like_bare (mask_of g) l) as L. assert (K' : (k < length (map (bare (mask_of g)) l))%nat) by (now rewrite map_length).
  assert (NS : ho_kind o <> KSpinner).
  { pose proof (bo_sp _ _ _ _ B k K') as S. rewrite (alike_spin _ _ (proj2 L k)) in S. destruct (F2_nth_r _ _ _ (leniency_same d v len l) k o H) as (x & X & E & _). unfold ob in S. rewrite (nth_error_nth _ _ _ X) in S. unfold is_spinner in S. rewrite E. destruct (ho_kind x); congruence. }
  rewrite (leniency_index g d v len l k o H NS). unfold run, zlen. destruct (Z.leb_spec 6 v); [lia|]. rewrite (old_tower false _ _ _ _ B (bare_zero _ _) k K'). lia.
Qed.

(** C82.  Stacking does not reach across a pause longer than the threshold: the
    two sides are stacked as if each were alone. *)
Theorem C82_pause : forall d v len l l', Forall timed (l ++ l') -> (forall g, sound (threshold (diff_for g d) len) /\ pause (threshold (diff_for g d) len) l l') ->
  stack_leniency d v len (l ++ l') = stack_leniency d v len l ++ stack_leniency d v len l'.
Proof. intros d v len l l' T P. apply Forall_app in T as (T1 & T2). apply leniency_app. intros g. destruct (P g) as (P1 & P2). now apply pause_gap. Qed.

(** C83.  Where nothing starts near the tail of an earlier slider, indices are
    between 0 and the number of later objects. *)
Theorem C83_heights : forall g d v len l, tails_clear l -> Forall stay l ->
  forall k o, nth_error (stack_leniency d v len l) k = Some o -> 0 <= idx_of g o <= zlen l - 1 - Z.of_nat k.
Proof.
  intros g d v len l T S k o H. assert (K : (k < length l)%nat) by (rewrite <- (leniency_length d v len); apply nth_error_Some; congruence). unfold zlen.
  destruct (is_spinner o) eqn:SP.
  - assert (idx_of g o = 0) as ->; [|lia]. clear -H SP. rewrite leniency_eq in H. destruct (F2_nth_r _ _ _ (process_frame _ v (diff_for GHR d) len) k o H) as (x & X & (E & _) & _ & Z). rewrite <- E in SP || idtac. apply Z. unfold is_spinner in *. now rewrite <- E.
  - rewrite (leniency_index g d v len l k o H) by (unfold is_spinner in SP; destruct (ho_kind o); congruence). pose proof (run_low v (mask_of g) (threshold (diff_for g d) len) l T S k K). lia.
Qed.
(** So files without such starts satisfy the hypothesis on stacks of C78. *)
Theorem C83_file : forall fuel ls b, parse_lines fuel ls = Ok (Some b) -> tails_clear (bm_HitObjects b) -> zlen (bm_HitObjects b) <= 2 ^ 20 -> low_stacks b.
Proof.
  intros fuel ls b H T C o g Ho. destruct (all_functional ls) as (hr & tr & ms & gs & ds & Hh & Ht & Hm & Hg & Hd).
  destruct (map_facts fuel ls b hr tr ms gs ds H Hh Ht Hm Hg Hd) as (_ & _ & _ & _ & _ & _ & _ & _ & _ & F & _ & objs & E).
  assert (ST : Forall stay (bm_HitObjects b)).
  { apply Forall_forall. intros x X. destruct (Forall2_In_r _ _ _ F x X) as (fs & _ & (_ & _ & _ & D) & _). intros NS. destruct (type_of fs); try tauto. destruct D as (sd & K & _). destruct (NS sd K). }
  assert (L : like objs (bm_HitObjects b)) by (rewrite E; apply same_like, leniency_same). destruct L as (L1 & L2).
  assert (T' : tails_clear objs).
  { intros i j x y (IJ & X & Y) (s & K). assert (HX : nth_error (bm_HitObjects b) i = Some (ob (bm_HitObjects b) i)) by (apply ob_nth; rewrite L1; apply nth_error_Some; congruence). assert (HY : nth_error (bm_HitObjects b) j = Some (ob (bm_HitObjects b) j)) by (apply ob_nth; rewrite L1; apply nth_error_Some; congruence).
    pose proof (L2 i) as A1. pose proof (L2 j) as A2. unfold ob in A1 at 1. unfold ob in A2 at 1. rewrite (nth_error_nth _ _ _ X) in A1. rewrite (nth_error_nth _ _ _ Y) in A2. destruct A1 as (K1 & _ & P1 & _). destruct A2 as (_ & P2 & _).
    rewrite <- P1, <- P2. apply (T i j); [split; [exact IJ|split; [exact HX|exact HY]]|]. exists s. congruence. }
  assert (ST' : Forall stay objs).
  { apply Forall_forall. intros x X. apply (In_nth _ _ dummy) in X as (i & I & <-). pose proof (L2 i) as (K1 & P1 & P2 & _). change (nth i objs dummy) with (ob objs i). intros NS. rewrite <- P1, <- P2. rewrite Forall_forall in ST. apply (ST (ob (bm_HitObjects b) i)); [unfold ob; apply nth_In; lia|]. intros s. rewrite K1. apply NS. }
  rewrite E in Ho. apply (In_nth_error) in Ho as (k & Hk). pose proof (C83_heights g _ _ _ objs T' ST' k o Hk). unfold zlen in *. rewrite L1 in C. lia.
Qed.
End WithLibm.

(** ** Instances *)
(** C81: two circles, a slider, two circles on its tail *)
Definition base_circles := [circ 1000 100 100; circ 1200 100 100].
Definition base_slider := slid 1400 1700 100 100 200 100.
Definition tail_circles := [circ 1900 200 100; circ 2100 200 100].
Lemma fq_sound z : Z.abs z <= 2 ^ 50 -> sound (fq z 1) /\ B2R (fq z 1) = IZR z.
Proof.
  intros H. destruct (fq1_exact z ltac:(lia)) as (F & V). split; [|exact V]. split; [exact F|]. rewrite V, <- abs_IZR. change (bpow radix2 50) with (IZR (2 ^ 50)). apply IZR_le. exact H.
Qed.
Lemma some_eq {T} (x y : T) : Some x = Some y -> y = x. Proof. congruence. Qed.
Lemma obj_timed k t te x y x' y' : Z.abs t <= 2 ^ 50 -> Z.abs te <= 2 ^ 50 -> timed (obj k t te x y x' y').
Proof. intros H H'. exact (conj (proj1 (fq_sound _ H)) (proj1 (fq_sound _ H'))). Qed.
Lemma obj_when k t te x y x' y' : Z.abs t <= 2 ^ 50 -> when (obj k t te x y x' y') = IZR t. Proof. intros H. exact (proj2 (fq_sound _ H)). Qed.
Lemma obj_till k t te x y x' y' : Z.abs te <= 2 ^ 50 -> till (obj k t te x y x' y') = IZR te. Proof. intros H. exact (proj2 (fq_sound _ H)). Qed.
Lemma circ_at t x y : circle_at (mkVec (gq x 1) (gq y 1)) (circ t x y). Proof. split; [reflexivity|]. split; [reflexivity|]. split; reflexivity. Qed.
Definition sample_th g := threshold (diff_for g sample_diff) sample_len.
Lemma th_bounds g : is_finite (sample_th g) = true /\ (300 <= B2R (sample_th g) <= 1000)%R.
Proof.
  assert (F : is_finite (sample_th g) = true) by (destruct g; vm_compute; reflexivity). split; [exact F|]. change (IZR 300 <= B2R (sample_th g) <= IZR 1000)%R. destruct (fq_sound 300 ltac:(lia)) as ((F1 & _) & <-). destruct (fq_sound 1000 ltac:(lia)) as ((F2 & _) & <-).
  assert (A : fle (fq 300 1) (sample_th g) = true) by (destruct g; vm_compute; reflexivity). assert (B : fle (sample_th g) (fq 1000 1) = true) by (destruct g; vm_compute; reflexivity).
  apply fle_iff in A as (_ & _ & A). apply fle_iff in B as (_ & _ & B). rewrite !key_fin in A, B by assumption. split; assumption.
Qed.
Lemma th_sound g : sound (sample_th g).
Proof. destruct (th_bounds g) as (F & B). split; [exact F|]. rewrite Rabs_pos_eq by lra. change (bpow radix2 50) with (IZR (2 ^ 50)). apply Rle_trans with (IZR 1000); [lra|]. apply IZR_le. lia. Qed.
Ltac each := repeat lazymatch goal with |- Forall _ (_ :: _) => apply Forall_cons | |- Forall _ [] => apply Forall_nil end.
Lemma linked_one th a : linked th [a]. Proof. intros [|i] x y (_ & _ & H); [discriminate H|destruct i; discriminate H]. Qed.
Lemma linked_cons th a b l : (when b - till a <= B2R th)%R -> linked th (b :: l) -> linked th (a :: b :: l).
Proof.
  intros H L [|i] x y (A & B & C); [apply some_eq in B; apply some_eq in C; subst; exact H|]. apply (L i). split; [lia|]. split; [exact B|exact C].
Qed.
Ltac links := unfold circ, slid; repeat (first [apply linked_one | apply linked_cons]); rewrite obj_when, obj_till by lia; lra.
Example C81_instance : forall g, tower (sample_th g) (mkVec (gq 100 1) (gq 100 1)) (mkVec (gq 200 1) (gq 100 1)) base_circles base_slider tail_circles /\
  indices g (stack_leniency sample_diff 14 sample_len (base_circles ++ base_slider :: tail_circles)) = [2; 1; 0; -1; -2] /\
  indices g (stack_leniency sample_diff 5 sample_len (base_circles ++ base_slider :: tail_circles)) = [2; 1; 0; -1; -2].
Proof.
  intros g. split; [|split; destruct g; vm_compute; reflexivity]. pose proof (th_bounds g) as (_ & TB). split.
  - split; reflexivity.
  - split; reflexivity.
  - split; apply not_close; vm_compute; reflexivity.
  - apply th_sound.
  - unfold base_circles, tail_circles; each; apply circ_at.
  - split; [eexists; reflexivity|split; reflexivity].
  - unfold base_circles, tail_circles; each; apply circ_at.
  - unfold base_circles, base_slider, tail_circles. cbn [app]. unfold circ, slid; each; apply obj_timed; lia.
  - unfold base_circles, base_slider, tail_circles. cbn [app]. links.
Qed.
Example C81_pile_instance : forall g, placed (mkVec (gq 50 1) (gq 60 1)) /\ sound (sample_th g) /\ Forall (circle_at (mkVec (gq 50 1) (gq 60 1))) [circ 1000 50 60; circ 1200 50 60; circ 1500 50 60] /\
  Forall timed [circ 1000 50 60; circ 1200 50 60; circ 1500 50 60] /\ linked (sample_th g) [circ 1000 50 60; circ 1200 50 60; circ 1500 50 60] /\
  indices g (stack_leniency sample_diff 5 sample_len [circ 1000 50 60; circ 1200 50 60; circ 1500 50 60]) = [2; 1; 0].
Proof.
  intros g. pose proof (th_bounds g) as (_ & TB). split; [split; reflexivity|]. split; [apply th_sound|]. split; [unfold base_circles, tail_circles; each; apply circ_at|]. split; [unfold circ, slid; each; apply obj_timed; lia|]. split; [links|destruct g; vm_compute; reflexivity].
Qed.
(** C82: a pile, and three seconds later another one on the same point *)
Example C82_instance : Forall timed (base_circles ++ [circ 4200 100 100; circ 4400 100 100]) /\
  (forall g, sound (sample_th g) /\ pause (sample_th g) base_circles [circ 4200 100 100; circ 4400 100 100]) /\
  indices GNM (stack_leniency sample_diff 14 sample_len (base_circles ++ [circ 4200 100 100; circ 4400 100 100])) = [1; 0; 1; 0].
Proof.
  split; [unfold base_circles; cbn [app]; unfold circ, slid; each; apply obj_timed; lia|]. split; [|vm_compute; reflexivity]. intros g. pose proof (th_bounds g) as (_ & TB). split; [apply th_sound|].
  intros a b [<-|[<-|[]]] [<-|[<-|[]]]; unfold circ; rewrite !obj_when, obj_till by lia; lra.
Qed.
(** without the pause they are one pile *)
Example C82_tight : indices GNM (stack_leniency sample_diff 14 sample_len (base_circles ++ [circ 1600 100 100; circ 1800 100 100])) = [3; 2; 1; 0].
Proof. vm_compute. reflexivity. Qed.
(** C83: a slider among circles, none of them on its tail *)
Definition heaped := [circ 1000 100 100; slid 1200 1300 101 100 200 200; circ 1400 100 101; spin 1450 1500; circ 1600 100 100].
Example C83_instance : tails_clear heaped /\ Forall stay heaped /\ indices GNM (stack_leniency sample_diff 14 sample_len heaped) = [3; 2; 1; 0; 0].
Proof.
  split; [|split; [|vm_compute; reflexivity]].
  - intros i j a b Hat Ka. generalize (at2_pairs (fun a b => (exists x, ho_kind a = KSlider x) -> ~ close (ho_endPos a) (ho_startPos b) /\ ~ close (ho_startPos b) (ho_endPos a)) heaped
      ltac:(unfold heaped; repeat (first [apply FOP_cons | apply FOP_nil | apply Forall_cons | apply Forall_nil]); intros (sd & K); first [discriminate K|split; apply not_close; vm_compute; reflexivity]) i j a b Hat); auto.
  - unfold heaped. each; intros NS; first [reflexivity|destruct (NS _ eq_refl)].
Qed.
(** on the tail they sink *)
Example C83_tight : indices GNM (stack_leniency sample_diff 14 sample_len [slid 1200 1300 101 100 200 200; circ 1400 200 200]) = [0; -1].
Proof. vm_compute. reflexivity. Qed.
(** a file: the sample map of the parser *)
Definition clear_check (l : list hobj) : bool := forallb (fun i => negb (Objects.is_slider (ob l i)) || forallb (fun j => negb (near (ho_endPos (ob l i)) (ho_startPos (ob l j))) && negb (near (ho_startPos (ob l j)) (ho_endPos (ob l i)))) (seq (S i) (length l - S i))) (seq 0 (length l)).
Lemma clear_check_ok l : clear_check l = true -> tails_clear l.
Proof.
  unfold clear_check. intros H i j a b (IJ & A & B) (x & K). assert (J : (j < length l)%nat) by (apply nth_error_Some; congruence). rewrite forallb_forall in H. specialize (H i ltac:(apply in_seq; lia)).
  unfold ob in H. rewrite (nth_error_nth _ _ _ A) in H. unfold Objects.is_slider in H. rewrite K in H. cbn [negb orb] in H. rewrite forallb_forall in H. specialize (H j ltac:(apply in_seq; lia)). rewrite (nth_error_nth _ _ _ B) in H. apply andb_prop in H as (H1 & H2). unfold near in H1, H2. split; apply not_close; [destruct (glt (vdst (ho_endPos a) (ho_startPos b)) (gq 3 1))|destruct (glt (vdst (ho_startPos b) (ho_endPos a)) (gq 3 1))]; try reflexivity; [discriminate H1|discriminate H2].
Qed.
Example C83_file_instance : exists b, @parse_lines PropRatings.calm_libm 1000 PropTerm.curvy_map = Ok (Some b) /\ tails_clear (bm_HitObjects b) /\ zlen (bm_HitObjects b) = 7 /\ map ho_idx (bm_HitObjects b) = [0; 0; 2; 1; 0; 0; 0].
Proof.
  assert (A : match @parse_lines PropRatings.calm_libm 1000 PropTerm.curvy_map with Ok (Some b) => if clear_check (bm_HitObjects b) then Some (zlen (bm_HitObjects b), map ho_idx (bm_HitObjects b)) else None | _ => None end = Some (7, [0; 0; 2; 1; 0; 0; 0])) by (vm_compute; reflexivity).
  destruct (@parse_lines PropRatings.calm_libm 1000 PropTerm.curvy_map) as [[b|]| |]; try discriminate A. exists b. split; [reflexivity|]. destruct (clear_check (bm_HitObjects b)) eqn:C; [|discriminate A]. split; [now apply clear_check_ok|]. injection A as A1 A2. auto.
Qed.

Print Assumptions C81_tower.
Print Assumptions C81_pile_old.
Print Assumptions C82_pause.
Print Assumptions C83_heights.
Print Assumptions C83_file.

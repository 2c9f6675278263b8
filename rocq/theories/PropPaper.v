(** C115.  How long the sliders of a map take, from the numbers on paper. *)
From Coq Require Import Reals Lra Permutation Sorted.
From Flocq Require Import Core BinarySingleNaN.
From Verif Require Import Parser SpecNumbers SpecParser SpecSpace SpecText SpecTiming SpecCurves SpecShape SpecSafety SpecTerm SpecLength SpecTempo SpecSheet SpecPaper BaseLemmas StringLemmas TextProofs FloatLemmas Float32Lemmas KeyLemmas SortLemmas TimingProofs LazyProofs LengthProofs SizeProofs.
From Verif Require Import PropSpace PropNumbers PropText PropParser PropSafety PropLength PropTerm PropShape PropTempo SheetProofs SheetBlocks SheetRead PropSheet PropSlides.
Open Scope Z_scope.

(** ** Tempos *)
Lemma loop_plain l : forall o, Forall (fun p => cp_Inherited p = false) l -> finalize_loop o l = (l, l).
Proof. induction l as [|p l IH]; intros o F; [reflexivity|]. inversion F as [|? ? F1 F2]; subst. cbn [finalize_loop]. rewrite F1, (IH _ F2). reflexivity. Qed.
Lemma loop_beats l : forall lp, snd (finalize_loop (Some lp) l) = filter (fun q => negb (cp_Inherited q)) l.
Proof.
  induction l as [|p l IH]; intros lp; [reflexivity|]. cbn [finalize_loop filter]. destruct (cp_Inherited p); cbn [negb].
  - specialize (IH (set_base p (cp_base lp))). destruct (finalize_loop _ l). exact IH.
  - specialize (IH p). destruct (finalize_loop _ l). cbn [snd] in *. now rewrite IH.
Qed.
Lemma sort_head {A} (lt : A -> A -> bool) r1 : forall y r2, (forall x, In x r1 -> lt y x = true) -> (forall x, In x r2 -> lt x y = false) -> exists rest, stable_sort lt (r1 ++ y :: r2) = y :: rest.
Proof.
  induction r1 as [|x r1 IH]; intros y r2 H1 H2; cbn [app stable_sort fold_right].
  - fold (stable_sort lt r2). destruct (stable_sort lt r2) as [|z l] eqn:E; [now exists []|]. cbn [insert]. rewrite H2; [now eexists|]. apply (proj1 (sort_in lt r2 z)). rewrite E. now left.
  - fold (stable_sort lt (r1 ++ y :: r2)). destruct (IH y r2) as (rest & ->); [intros z I; apply H1; now right|exact H2|]. cbn [insert]. rewrite H1 by now left. now eexists.
Qed.
Lemma insert_kept {A} (lt : A -> A -> bool) (k : A -> R) (P : A -> bool) x l : keyed lt k (x :: l) -> ordered k l -> filter P (insert lt x l) = if P x then insert lt x (filter P l) else filter P l.
Proof.
  intros K H. induction H as [|y l Hl IH Hy]; cbn [insert filter]; [destruct (P x); reflexivity|].
  assert (IH' : filter P (insert lt x l) = if P x then insert lt x (filter P l) else filter P l) by (apply IH; eapply keyed_sub; [|exact K]; simpl; tauto).
  destruct (lt y x) eqn:E.
  - cbn [filter]. rewrite IH'. destruct (P y), (P x); cbn [insert]; rewrite ?E; reflexivity.
  - cbn [filter]. destruct (P x); [|reflexivity]. destruct (P y); [cbn [insert]; rewrite E; reflexivity|]. destruct (filter P l) as [|z r] eqn:F; [reflexivity|]. cbn [insert].
    destruct (lt z x) eqn:G; [|reflexivity]. exfalso. assert (I : In z l) by (assert (I : In z (filter P l)) by (rewrite F; now left); apply filter_In in I; apply I).
    apply K in G; [|right; right; exact I|now left]. rewrite Forall_forall in Hy. specialize (Hy z I). assert (N : ~ (k y < k x)%R) by (intros Q; apply K in Q; [congruence|right; now left|now left]). lra.
Qed.
Lemma sort_kept {A} (lt : A -> A -> bool) (k : A -> R) (P : A -> bool) l : keyed lt k l -> filter P (stable_sort lt l) = stable_sort lt (filter P l).
Proof.
  induction l as [|x l IH]; intros K; cbn [stable_sort fold_right]; [reflexivity|]. fold (stable_sort lt l).
  assert (Kl : keyed lt k l) by (eapply keyed_sub; [|exact K]; simpl; auto). rewrite (insert_kept lt k).
  - rewrite (IH Kl). cbn [filter]. destruct (P x); reflexivity.
  - eapply keyed_perm; [|exact K]. constructor. apply sort_perm.
  - now apply sort_ordered.
Qed.
(** Points whose earliest gives a beat: the lookup among the original ones. *)
Lemma original_read l r1 y r2 t : l = r1 ++ y :: r2 -> Forall tnum l -> fisnan t = false -> cp_Inherited y = false ->
  (forall x, In x r1 -> point_lt y x = true) -> (forall x, In x r2 -> point_lt x y = false) ->
  exists q, get_original_point_at (finalize_points (added l)) t = Ok q /\ looked_up (filter (fun q => negb (cp_Inherited q)) l) t q.
Proof.
  intros E TN Ht IY H1 H2. set (P := fun q => negb (cp_Inherited q)). assert (O : t_original (finalize_points (added l)) = stable_sort point_lt (filter P l)).
  { rewrite <- (sort_kept point_lt tk P l (point_lt_keyed l TN)). destruct (finalize_points_eq (added l)) as [_ ->]. destruct (added_points l) as (-> & ->). cbn [app]. rewrite E. destruct (sort_head point_lt r1 y r2 H1 H2) as (rest & ->). cbn [finalize_loop filter]. unfold P at 1. rewrite IY.
    pose proof (loop_beats rest y) as Q. destruct (finalize_loop (Some y) rest). cbn [snd] in *. now rewrite Q. }
  assert (TF : Forall tnum (filter P l)) by (rewrite Forall_forall in *; intros x I; apply filter_In in I; apply TN, I).
  destruct (point_at_spec (stable_sort point_lt (filter P l)) t) as (q & Q1 & Q2).
  - apply sort_ordered. now apply point_lt_keyed.
  - eapply Permutation_Forall; [apply sort_perm|exact TF].
  - exact Ht.
  - intros N. assert (I : In y (stable_sort point_lt (filter P l))) by (apply sort_in, filter_In; split; [rewrite E; apply in_or_app; right; now left|unfold P; now rewrite IY]). rewrite N in I. destruct I.
  - exists q. unfold get_original_point_at. rewrite O. split; [exact Q1|]. now apply looked_up_sort.
Qed.
Lemma forall2_split {A B} (P : A -> B -> Prop) l : forall r1 y r2, Forall2 P l (r1 ++ y :: r2) -> exists l1 x l2, l = l1 ++ x :: l2 /\ Forall2 P l1 r1 /\ P x y /\ Forall2 P l2 r2.
Proof.
  intros r1 y r2 H. apply Forall2_app_inv_r in H as (l1 & l2 & H1 & H2 & ->). inversion H2 as [|x ? l2' ? H3 H4]; subst. exists l1, x, l2'. auto.
Qed.
Lemma forall2_in {A B} (P : A -> B -> Prop) l r x : Forall2 P l r -> In x l -> exists y, In y r /\ P x y.
Proof. induction 1 as [|a b l r H F IH]; intros []; [subst; exists b; split; [now left|exact H]|destruct (IH H0) as (y & Y & Q); exists y; split; [now right|exact Q]]. Qed.
Lemma forall2_in_r {A B} (P : A -> B -> Prop) l r y : Forall2 P l r -> In y r -> exists x, In x l /\ P x y.
Proof. induction 1 as [|a b l r H F IH]; intros []; [subst; exists a; split; [now left|exact H]|destruct (IH H0) as (x & X & Q); exists x; split; [now right|exact Q]]. Qed.
Lemma exactly_le {p e} a b (x y : binary_float p e) : exactly a x -> exactly b y -> Bleb x y = (dec a <=? dec b).
Proof.
  intros (F1 & E1) (F2 & E2). rewrite Bleb_correct by assumption. rewrite E1, E2. case Rle_bool_spec; intros H; symmetry; [apply Z.leb_le; now apply le_IZR|apply Z.leb_gt; now apply lt_IZR].
Qed.
Lemma exactly_lt {p e} a b (x y : binary_float p e) : exactly a x -> exactly b y -> Bltb x y = (dec a <? dec b).
Proof.
  intros (F1 & E1) (F2 & E2). rewrite Bltb_correct by assumption. rewrite E1, E2. case Rlt_bool_spec; intros H; symmetry; [apply Z.ltb_lt; now apply lt_IZR|apply Z.ltb_ge; now apply le_IZR].
Qed.
Lemma in_force_read ts ps t f q : Forall2 tempo_read ts ps -> exactly t f -> looked_up ps f q -> exists p, In p ts /\ in_force ts (dec t) p /\ tempo_read p q.
Proof.
  intros F T (LA & EA). assert (TL : forall p c, tempo_read p c -> fle (cp_Time c) f = (dec (tp_time p) <=? dec t)) by (intros p c (R & _); exact (exactly_le _ _ _ _ R T)).
  assert (TT : forall p c p' c', tempo_read p c -> tempo_read p' c' -> fle (cp_Time c) (cp_Time c') = (dec (tp_time p) <=? dec (tp_time p')) /\ flt (cp_Time c) (cp_Time c') = (dec (tp_time p) <? dec (tp_time p'))) by (intros p c p' c' (R & _) (R' & _); split; [exact (exactly_le _ _ _ _ R R')|exact (exactly_lt _ _ _ _ R R')]).
  destruct (existsb (fun p => dec (tp_time p) <=? dec t) ts) eqn:EX.
  - apply existsb_exists in EX as (p0 & I0 & L0). destruct (forall2_in _ _ _ _ F I0) as (c0 & J0 & R0).
    destruct LA as (r1 & r2 & E & L & H1 & H2). { exists c0. split; [exact J0|]. now rewrite (TL p0 c0 R0). } rewrite E in F. destruct (forall2_split _ _ _ _ _ F) as (l1 & p & l2 & -> & F1 & R & F2).
    exists p. split; [apply in_or_app; right; now left|]. split; [|exact R]. exists l1, l2. split; [reflexivity|]. left. rewrite (TL p q R) in L. split; [now apply Z.leb_le|]. split.
    + intros r I X. destruct (forall2_in _ _ _ _ F1 I) as (c & J & Q). apply Z.leb_le. rewrite <- (proj1 (TT r c p q Q R)). apply H1; [exact J|]. rewrite (TL r c Q). now apply Z.leb_le.
    + intros r I X. destruct (forall2_in _ _ _ _ F2 I) as (c & J & Q). apply Z.ltb_lt. rewrite <- (proj2 (TT r c p q Q R)). apply H2; [exact J|]. rewrite (TL r c Q). now apply Z.leb_le.
  - assert (NO : forall r, In r ts -> dec t < dec (tp_time r)). { intros r I. apply Z.nle_gt. intros X. apply not_true_iff_false in EX. apply EX. apply existsb_exists. exists r. split; [exact I|now apply Z.leb_le]. }
    destruct EA as (r1 & r2 & E & H1 & H2). { intros r I. destruct (forall2_in_r _ _ _ _ F I) as (p & J & Q). rewrite (TL p r Q). apply Z.leb_gt. now apply NO. }
    rewrite E in F. destruct (forall2_split _ _ _ _ _ F) as (l1 & p & l2 & -> & F1 & R & F2). exists p. split; [apply in_or_app; right; now left|]. split; [|exact R]. exists l1, l2. split; [reflexivity|]. right. split; [exact NO|]. split.
    + intros r I. destruct (forall2_in _ _ _ _ F1 I) as (c & J & Q). apply Z.ltb_lt. rewrite <- (proj2 (TT p q r c R Q)). now apply H1.
    + intros r I. destruct (forall2_in _ _ _ _ F2 I) as (c & J & Q). apply Z.leb_le. rewrite <- (proj1 (TT p q r c R Q)). now apply H2.
Qed.

(** ** Lengths *)
Lemma gap_sum p q u v : point_read p u -> point_read q v -> (gap (mkLinear u v) <= IZR (Z.abs (dec (fst q) - dec (fst p)) + Z.abs (dec (snd q) - dec (snd p))))%R.
Proof.
  intros ((_ & E1) & (_ & E2)) ((_ & E3) & (_ & E4)). unfold gap. cbn [ln_p1 ln_p2]. rewrite E1, E2, E3, E4, plus_IZR, !abs_IZR, !minus_IZR. set (a := (IZR (dec (fst q)) - IZR (dec (fst p)))%R). set (b := (IZR (dec (snd q)) - IZR (dec (snd p)))%R). pose proof (Rabs_pos a). pose proof (Rabs_pos b).
  rewrite <- (sqrt_pow2 (Rabs a + Rabs b)) by lra. apply sqrt_le_1_alt. rewrite <- (pow2_abs a), <- (pow2_abs b). nra.
Qed.
Lemma walk_pos ps : forall p, 0 <= walk p ps.
Proof. induction ps as [|q ps IH]; intros p; cbn [walk]; [lia|]. specialize (IH q). lia. Qed.
Lemma path_walk ps : forall p u vs, point_read p u -> Forall2 point_read ps vs -> (path_length (process_linear (u :: vs)) <= IZR (walk p ps))%R /\ (process_linear (u :: vs) = [] -> walk p ps = 0).
Proof.
  induction ps as [|q ps IH]; intros p u vs P F; inversion F as [|? v ? vs' Q F']; subst; [cbn [process_linear path_length walk]; split; [lra|reflexivity]|].
  specialize (IH q v vs' Q F'). destruct IH as (I1 & I2). pose proof (gap_sum p q u v P Q) as G. pose proof (walk_pos ps q) as W.
  change (process_linear (u :: v :: vs')) with (if vec_eqb u v then process_linear (v :: vs') else mkLinear u v :: process_linear (v :: vs')). cbn [walk]. rewrite plus_IZR. destruct (vec_eqb u v) eqn:E.
  - split. { assert (0 <= IZR (Z.abs (dec (fst q) - dec (fst p)) + Z.abs (dec (snd q) - dec (snd p))))%R by (apply IZR_le; lia). lra. }
    intros N. rewrite (I2 N). destruct P as ((F1 & E1) & (F2 & E2)), Q as ((F3 & E3) & (F4 & E4)). unfold vec_eqb, geq in E. apply andb_true_iff in E as [A B]. rewrite Beqb_correct in A, B by assumption.
    rewrite E1, E3 in A. rewrite E2, E4 in B. revert A B. case Req_bool_spec; [|discriminate]. intros A _. case Req_bool_spec; [|discriminate]. intros B _. apply eq_IZR in A, B. lia.
  - split; [cbn [path_length]; lra|discriminate].
Qed.
Lemma read_within p u : digits (fst p) -> digits (snd p) -> dec (fst p) <= 2048 -> dec (snd p) <= 2048 -> point_read p u -> within 11 u /\ whole u.
Proof.
  intros D1 D2 B1 B2 ((F1 & E1) & (F2 & E2)). pose proof (dec_pos _ D1). pose proof (dec_pos _ D2). split; [|exists (dec (fst p)), (dec (snd p)); split; assumption]. unfold within. rewrite E1, E2. change (bpow radix2 11) with (IZR 2048).
  split; (split; [assumption|]; rewrite Rabs_pos_eq by (apply IZR_le; lia); apply IZR_le; lia).
Qed.

(** ** Numbers *)
Lemma near_value l f : nearest l f -> (Rabs (value l) <= 100000)%R -> is_finite f = true /\ (Rabs (B2R f - value l) <= Rabs (value l) * / 9007199254740992 + / 1000000000000)%R.
Proof.
  intros H B. unfold nearest, nearest_float in H. cbv zeta in H. assert (BB : (100000 <= bpow radix2 200)%R) by (apply Rle_trans with (bpow radix2 20); [change (bpow radix2 20) with 1048576%R; lra|apply bpow_le; lia]).
  pose proof (err64 (value l) ltac:(lra)) as E. change (rnd64 (value l)) with (round radix2 (FLT_exp (3 - 1024 - 53) 53) ZnearestE (value l)) in E. set (r := round _ _ _ _) in *.
  destruct H as [(_ & F & X & _)|(L & _)]; [split; [exact F|now rewrite X]|]. exfalso. assert (Q : (bpow radix2 20 <= bpow radix2 1024)%R) by (apply bpow_le; lia). change (bpow radix2 20) with 1048576%R in Q.
  pose proof (Rabs_triang_inv r (value l)). lra.
Qed.
(** the real arithmetic *)
Lemma slide_sum n pix sp bt pix' sp' bt' N e t en : (1 <= n <= 100000 -> 1 <= pix <= 2048 -> 1 / 16 <= sp <= 16 -> 0 < bt -> 0 <= N <= 1000 ->
  Rabs (sp' - sp) <= sp / 1000000000 -> Rabs (bt' - bt) <= bt / 1000000000 -> Rabs (pix' - pix) <= (N + 65 / 4) / 2048 + / 1000000000 -> 0 <= t ->
  e = n * slide_time sp' bt' 1 pix' -> Rabs (en - (t + e)) <= e / 1000000 + t / 1000000000000000 + / 1000000000000 ->
  Rabs (en - (t + n * (pix * (bt / (100 * sp))))) <= n * (pix / 100000 + (N + 17) / 2048) * (bt / (100 * sp)) + t / 1000000000000000 + / 1000000000000)%R.
Proof.
  intros Bn Bp Bs Bb BN Es Eb Ep Bt Ee En. unfold slide_time in Ee. set (v := (bt / (100 * sp))%R) in *. set (v' := (bt' / (100 * sp'))%R).
  assert (V0 : (0 < v)%R) by (apply Rdiv_lt_0_compat; lra). apply Rabs_le_inv in Es, Eb, Ep.
  assert (VV : (v * (1 - 3 / 1000000000) <= v' <= v * (1 + 3 / 1000000000))%R).
  { assert (P' : (0 < 100 * sp')%R) by lra. assert (VS : (v * (100 * sp) = bt)%R) by (unfold v; field; lra). unfold v'. split; apply Rmult_le_reg_r with (1 := P'); unfold Rdiv; rewrite (Rmult_assoc bt'), Rinv_l, Rmult_1_r by lra.
    - assert (v * (1 - 3 / 1000000000) * (100 * sp') <= v * (1 - 3 / 1000000000) * (100 * (sp * (1 + 1 / 1000000000))))%R by (apply Rmult_le_compat_l; [|lra]; apply Rmult_le_pos; lra). nra.
    - assert (v * (1 + 3 / 1000000000) * (100 * (sp * (1 - 1 / 1000000000))) <= v * (1 + 3 / 1000000000) * (100 * sp'))%R by (apply Rmult_le_compat_l; [|lra]; apply Rmult_le_pos; lra). nra. }
  assert (EE : (e = n * (pix' * v'))%R) by (rewrite Ee; unfold v'; field; lra). clear Ee.
  set (d := ((N + 65 / 4) / 2048 + / 1000000000)%R) in *. assert (D1 : (pix - d <= pix' <= pix + d)%R) by lra. assert (DB : (0 <= d <= 1 / 2)%R) by (unfold d; lra).
  assert (LO : ((pix - d) * (v * (1 - 3 / 1000000000)) <= pix' * v')%R) by (apply Rmult_le_compat; try lra; apply Rmult_le_pos; lra).
  assert (HI : (pix' * v' <= (pix + d) * (v * (1 + 3 / 1000000000)))%R) by (apply Rmult_le_compat; try lra; apply Rle_trans with (2 := proj1 VV); apply Rmult_le_pos; lra).
  assert (DV : (0 <= d * v)%R) by (apply Rmult_le_pos; lra). set (w := (pix' * v')%R) in *. assert (W1 : (Rabs (w - pix * v) <= (d + (pix + d) * (3 / 1000000000)) * v)%R) by (apply Rabs_le; split; lra).
  replace (en - (t + n * (pix * v)))%R with (en - (t + e) + n * (w - pix * v))%R by (rewrite EE; ring). apply Rle_trans with (1 := Rabs_triang _ _). rewrite Rabs_mult, (Rabs_pos_eq n) by lra.
  assert (W3 : (n * Rabs (w - pix * v) <= n * ((d + (pix + d) * (3 / 1000000000)) * v))%R) by (apply Rmult_le_compat_l; lra).
  assert (W4 : (e / 1000000 <= n * ((pix + d) * (1 + 3 / 1000000000) / 1000000 * v))%R) by (rewrite EE; unfold Rdiv at 1; rewrite Rmult_assoc; apply Rmult_le_compat_l; lra).
  assert (W5 : (n * ((d + (pix + d) * (3 / 1000000000)) * v) + n * ((pix + d) * (1 + 3 / 1000000000) / 1000000 * v) <= n * (pix / 100000 + (N + 17) / 2048) * v)%R).
  { replace (n * ((d + (pix + d) * (3 / 1000000000)) * v) + n * ((pix + d) * (1 + 3 / 1000000000) / 1000000 * v))%R with (n * (d + (pix + d) * (3 / 1000000000) + (pix + d) * (1 + 3 / 1000000000) / 1000000) * v)%R by (unfold Rdiv; ring).
    apply Rmult_le_compat_r; [lra|]. apply Rmult_le_compat_l; [lra|]. unfold d. lra. }
  lra.
Qed.

Section WithLibm.
Context {M : libm}.
(** ** The curves *)
Lemma brief_length n sd vs fuel u c ps k l : note_ok n -> brief n -> nt_shape n = Slide c ps k l -> point_read (nt_x n, nt_y n) u -> Forall2 point_read ps vs -> nearest l (sl_pixelLength sd) ->
  new_multicurve_t fuel [c] (u :: vs) (sl_pixelLength sd) = Ok (sl_curve sd) ->
  is_finite (mc_length (sl_curve sd)) = true /\ (Rabs (B2R (mc_length (sl_curve sd)) - value l) <= (INR (length ps) + 65 / 4) / 2048 + / 1000000000)%R.
Proof.
  intros OK BR SH U V NL NM. unfold brief in BR. destruct OK as ((X & _) & (Y & _) & _ & OK). rewrite SH in BR, OK. destruct BR as (-> & LEN & VL & WK & FD & _). destruct OK as (_ & PS & _).
  destruct (near_value l _ NL) as (FL & EL); [rewrite Rabs_pos_eq; lra|]. rewrite (Rabs_pos_eq (value l)) in EL by lra. set (len := sl_pixelLength sd) in *. clearbody len.
  assert (LB : (0 <= B2R len <= 2048)%R).
  { apply Rabs_le_inv in EL. split; [lra|]. unfold nearest, nearest_float in NL. cbv zeta in NL. destruct NL as [(_ & _ & E & _)|(_ & E)]; [|subst len; discriminate FL]. rewrite E.
    apply (round_le_generic radix2 (FLT_exp (3 - 1024 - 53) 53) ZnearestE); [apply (fmt_Z 2048); lia|apply VL]. }
  destruct (path_walk ps _ u vs U V) as (PW & PN). assert (LV : length vs = length ps) by (clear -V; induction V; cbn [length]; congruence).
  assert (IN : Forall (fun v => within 11 v /\ whole v) (u :: vs)).
  { inversion FD as [|? ? (F1 & F2) F3]; subst. constructor; [now apply (read_within (nt_x n, nt_y n))|]. clear -V PS F3. induction V as [|p v ps vs H V IH]; [constructor|]. inversion PS as [|? ? ((D1 & _) & (D2 & _)) PS']; inversion F3 as [|? ? (B1 & B2) F3']; subst. constructor; [now apply (read_within p)|now apply IH]. }
  destruct (C64_linear fuel (u :: vs) len 11) as (mc & E & FM & LM & _); [lia| | | | | |exact FL|exact LB|].
  - eapply Forall_impl; [|exact IN]. intros v Q. apply Q.
  - eapply Forall_impl; [|exact IN]. intros v Q. apply Q.
  - cbn [length]. lia.
  - intros N. specialize (PN N). lia.
  - apply Rle_trans with (1 := PW). change (bpow radix2 11) with (IZR 2048). apply IZR_le. lia.
  - change (lit "L") with ["L"%char] in E. rewrite NM in E. apply CurveStart.Ok_inj in E. subst mc. split; [exact FM|].
    assert (LE : (length_error 11 (length (process_linear (u :: vs))) <= (INR (length ps) + 65 / 4) / 2048)%R).
    { assert (LL : (INR (length (process_linear (u :: vs))) <= INR (length ps))%R) by (apply le_INR; pose proof (SizeProofs.linear_size (u :: vs)) as Q; cbn [length] in Q; lia).
      unfold length_error. change (bpow radix2 (11 - 22)) with (/ 2048)%R. change (bpow radix2 (-13)) with (/ 8192)%R. lra. }
    replace (B2R (mc_length (sl_curve sd)) - value l)%R with (B2R (mc_length (sl_curve sd)) - B2R len + (B2R len - value l))%R by ring. apply Rle_trans with (1 := Rabs_triang _ _). lra.
Qed.
(** ** The rows *)
Lemma rows_back fuel s b : sheet_ok s -> parse_lines fuel (sheet_lines s) = Ok (Some b) -> exists ns, by_time (sh_notes s) ns /\ Forall note_ok ns /\
  Forall2 (fun n o => note_read n o /\ (type_of (note_fields n) = TSlider -> slider_of fuel (bm_Timings b) (note_fields n) o)) ns (bm_HitObjects b).
Proof.
  intros OK R. pose proof (objects_of s OK) as Hh. destruct OK as (_ & _ & _ & _ & _ & _ & _ & _ & _ & _ & _ & _ & _ & _ & NT & _).
  assert (ALL : filter is_object (map note_fields (sh_notes s)) = map note_fields (sh_notes s)).
  { clear -NT. induction NT as [|n l P F IH]; [reflexivity|]. cbn [map filter]. destruct (note_flag n P) as (_ & _ & ->). now rewrite IH. }
  destruct (C73_rows fuel _ b _ R Hh) as (pl & _ & DS & PO). rewrite ALL in PO. destruct (play_by_time _ _ NT (PO (starts_real _ NT))) as (ns & -> & BT).
  assert (OKs : Forall note_ok ns) by (eapply Permutation_Forall; [apply BT|exact NT]). exists ns. split; [exact BT|]. split; [exact OKs|].
  clear -DS OKs. revert DS. generalize (bm_HitObjects b). induction OKs as [|n ns P F IH]; intros objs DS; inversion DS as [|? ? ? ? D1 D2]; subst; constructor; [destruct D1 as (D1 & D3); split; [now apply (note_described fuel (bm_Timings b))|exact D3]|now apply IH].
Qed.

(** ** The factor of a change of speed *)
Lemma factor_read p c : lively p -> tempo_read p c -> exists m, stretched c m /\ (1 / 10 <= factor p <= 10)%R /\ (Rabs (m - factor p) <= / 1000000000000)%R.
Proof.
  intros LV (_ & NB & _). unfold lively in LV. assert (AB : (Rabs (value (tp_beat p)) <= 100000)%R) by (destruct (tp_speed p); apply Rabs_le; lra).
  destruct (near_value _ _ NB AB) as (F & E). exists (stretch (B2R (cp_beat c))). split; [right; split; [exact F|reflexivity]|]. unfold factor, stretch. set (b := B2R (cp_beat c)) in *. set (v := value (tp_beat p)) in *. clearbody b v.
  assert (E' : (- / 50000000000 <= b - v <= / 50000000000)%R) by (apply Rabs_le_inv; apply Rle_trans with (1 := E); lra). destruct (tp_speed p); destruct (Rle_dec 0 b) as [H|H]; try lra.
  - split; [unfold Rmin, Rmax; destruct (Rle_dec 10 (- v)); destruct (Rle_dec 1000 _); lra|]. apply Rabs_le. unfold Rmin, Rmax. destruct (Rle_dec 10 (- b)); destruct (Rle_dec 10 (- v)); repeat destruct (Rle_dec 1000 _); lra.
  - split; [lra|]. replace (1 - 1)%R with 0%R by ring. rewrite Rabs_R0. lra.
Qed.

Definition points_of (s : sheet) : list cpoint := map timing_point (map tempo_fields (sh_tempos s)).
Lemma tempos_read s : sheet_ok s -> Forall2 tempo_read (sh_tempos s) (points_of s).
Proof.
  intros OK. pose proof OK as (_ & _ & _ & _ & _ & _ & _ & _ & _ & _ & _ & _ & _ & TP & _ & _). unfold points_of. rewrite map_map. clear -TP. induction TP as [|p l P FF IH]; [constructor|]. cbn [map]. constructor; [now apply tempo_point|exact IH].
Qed.
Lemma beats_read s : sheet_ok s -> Forall2 tempo_read (beats (sh_tempos s)) (filter (fun q => negb (cp_Inherited q)) (points_of s)).
Proof.
  intros OK. pose proof (tempos_read s OK) as TR. revert TR. generalize (points_of s). unfold beats. generalize (sh_tempos s). clear. intros l1 l2 TR. induction TR as [|p c ts cs Q FF IH]; [constructor|]. cbn [filter]. pose proof Q as (_ & _ & _ & I & _). rewrite I. destruct (tp_speed p); cbn [negb]; [exact IH|constructor; assumption].
Qed.
Lemma originals_read s tim t : sheet_ok s -> opening (sh_tempos s) -> t_original tim = t_original (finalize_points (added (points_of s))) -> fisnan t = false ->
  exists q, get_original_point_at tim t = Ok q /\ looked_up (filter (fun q => negb (cp_Inherited q)) (points_of s)) t q.
Proof.
  intros OK OP T2 Nt. pose proof (tempos_read s OK) as TR. set (pts := points_of s) in *.
  assert (TN : Forall tnum pts) by (apply Forall_forall; intros c I; destruct (forall2_in_r _ _ _ _ TR I) as (p & _ & (X & _) & _); exact (fin_num 53 1024 _ X)).
  unfold get_original_point_at. rewrite T2. destruct OP as (l1 & p & l2 & E & SPD & O1 & O2). assert (TR' := TR). rewrite E in TR'. apply Forall2_app_inv_l in TR' as (r1 & r' & F1 & F2 & EP). inversion F2 as [|? y ? r2 RY F3]; subst.
  apply (original_read pts r1 y r2 t EP TN Nt).
  - destruct RY as (_ & _ & _ & -> & _). exact SPD.
  - intros x I. destruct (forall2_in_r _ _ _ _ F1 I) as (r & J & (X & _)). unfold point_lt, flt. rewrite (exactly_lt _ _ _ _ (proj1 RY) X). apply Z.ltb_lt. now apply O1.
  - intros x I. destruct (forall2_in_r _ _ _ _ F3 I) as (r & J & (X & _)). unfold point_lt, flt. rewrite (exactly_lt _ _ _ _ X (proj1 RY)). apply Z.ltb_ge. now apply O2.
Qed.

(** A slider ends when the paper says: spans times pixels times the pace of the tempos in force
    at its start, up to what single precision makes of its length. *)
Definition ends_in_time (s : sheet) (n : note) (o : hobj) : Prop :=
  match nt_shape n with
  | Slide _ ps k l => exists p q, in_force (sh_tempos s) (dec (nt_time n)) p /\ in_force (beats (sh_tempos s)) (dec (nt_time n)) q /\ is_finite (ho_end o) = true /\
      (Rabs (B2R (ho_end o) - (IZR (dec (nt_time n)) + IZR (dec k) * (value l * pace s p q))) <=
       IZR (dec k) * (value l / 100000 + (INR (length ps) + 17) / 2048) * pace s p q + IZR (dec (nt_time n)) / 1000000000000000 + / 1000000000000)%R
  | _ => True
  end.
Theorem C115_times : forall fuel s b, sheet_ok s -> usual (sh_speed s) -> usual (sh_ticks s) -> Forall lively (sh_tempos s) -> opening (sh_tempos s) -> Forall brief (sh_notes s) ->
  parse_bytes fuel (file_of s) = Ok (Some b) ->
  exists played, by_time (sh_notes s) played /\ Forall2 (fun n o => note_read n o /\ ends_in_time s n o) played (bm_HitObjects b).
Proof.
  intros fuel s b OK U1 U2 LV OP BR R. rewrite (sheet_text fuel s OK) in R. destruct (rows_back fuel s b OK R) as (ns & BT & OKs & F). exists ns. split; [exact BT|].
  assert (BRs : Forall brief ns) by (eapply Permutation_Forall; [apply BT|exact BR]). pose proof (difficulty_of s OK) as Hd. pose proof (timing_of s OK) as Ht. destruct (sheet_rates s OK U1 U2 _ Hd) as (MS & MT).
  destruct (slider_slides fuel _ b _ R Hd MS MT) as (ESM & SS). destruct (C55_timing fuel _ b _ _ R Ht Hd) as (T1 & T2 & _). cbv zeta in T1, T2.
  pose proof OK as (_ & _ & _ & _ & _ & _ & _ & _ & _ & _ & SP & TK & _ & TP & _ & _).
  pose proof (tempos_read s OK) as TR. pose proof (beats_read s OK) as BTR. pose proof (fun t => originals_read s (bm_Timings b) t OK OP T2) as ORIG.
  assert (SPN : nearest (sh_speed s) (t_SliderMult (bm_Timings b))) by (rewrite ESM; exact (C72_f64 _ SP)). destruct (near_value _ _ SPN) as (FSP & ESP); [unfold usual in U1; rewrite Rabs_pos_eq; lra|]. unfold usual in U1. rewrite (Rabs_pos_eq (value (sh_speed s))) in ESP by lra.
  assert (STEP : forall n o, note_ok n -> brief n -> note_read n o -> (type_of (note_fields n) = TSlider -> slider_of fuel (bm_Timings b) (note_fields n) o) -> ends_in_time s n o).
  { intros n o NOK NB NR SL. rewrite (note_type n NOK) in SL. unfold ends_in_time. pose proof NR as (RX & RY & RT & RK). destruct (nt_shape n) as [|e|c ps k l] eqn:SH; try exact I. destruct RK as (sd & vs & K & KR & KL & KP & (fu & KC) & _).
    pose proof (brief_length n sd vs fu (ho_startPos o) c ps k l NOK NB SH (conj RX RY) KP KL KC) as (FL & EL). destruct (SS _ _ (SL eq_refl)) as (sd' & K' & Y). assert (sd' = sd) by congruence. subst sd'. cbv zeta in Y.
    pose proof (note_start n NOK) as ST. destruct ST as (FS & ES). assert (NS : fisnan (start_of (note_fields n)) = false) by (revert FS; generalize (start_of (note_fields n)); intros [| | |]; (reflexivity || discriminate)).
    destruct (C55_lookup fuel _ b _ _ R Ht NS) as (p & q & GP & SB & LU). destruct (in_force_read _ _ (nt_time n) _ q TR (conj FS ES) LU) as (tp & IT & IF & TRD).
    destruct (ORIG _ NS) as (z & GZ & LZ). destruct (in_force_read _ _ (nt_time n) _ z BTR (conj FS ES) LZ) as (tz & IZ & IFZ & (_ & NBZ & _)).
    assert (CB : cp_beat p = cp_beat q) by (rewrite SB; reflexivity). rewrite Forall_forall in LV. destruct (factor_read tp q (LV tp IT) TRD) as (m & STR & FB & FE0). assert (STP : stretched p m) by (unfold stretched in *; rewrite CB; exact STR).
    unfold beats in IZ. apply filter_In in IZ as (IZ & SPZ). apply negb_true_iff in SPZ. pose proof (LV tz IZ) as LT. unfold lively in LT. rewrite SPZ in LT.
    destruct (near_value _ _ NBZ) as (FBZ & EB); [rewrite Rabs_pos_eq; lra|]. rewrite (Rabs_pos_eq (value (tp_beat tz))) in EB by lra. destruct (note_field n NOK) as (_ & _ & _ & FLD & _). rewrite SH in FLD. destruct FLD as (_ & F6 & _).
    unfold brief in NB. rewrite SH in NB. destruct NB as (_ & LEN & VL & _ & _ & BK & BT0). destruct NOK as (_ & _ & (DT & _) & NOK). rewrite SH in NOK. destruct NOK as (_ & _ & NK & _).
    assert (PK : parse_int (field 6 (note_fields n)) = dec k) by (rewrite F6; apply show_int; destruct NK as (N1 & N2 & N3); split; [exact N1|split; [exact N2|lia]]). rewrite PK in Y. pose proof (dec_pos _ DT) as PT.
    assert (NI : (0 <= INR (length ps) <= 1000)%R) by (split; [apply pos_INR|replace 1000%R with (INR 1000) by (simpl; lra); apply le_INR; lia]).
    assert (EL' := EL). apply Rabs_le_inv in EL'. assert (EB' := EB). apply Rabs_le_inv in EB'. apply Rabs_le_inv in FE0.
    destruct (Y p z m GP GZ STP FBZ) as (_ & _ & FE & EE).
    - lra.
    - exact BK.
    - exact FS.
    - rewrite ES, Rabs_pos_eq by (apply IZR_le; lia). change (bpow radix2 40) with (IZR (2 ^ 40)). apply IZR_le. lia.
    - exact FL.
    - lra.
    - exists tp, tz. split; [exact IF|]. split; [exact IFZ|]. split; [exact FE|]. rewrite ES in EE. rewrite (Rabs_pos_eq (IZR (dec (nt_time n)))) in EE by (apply IZR_le; lia).
      assert (BP : (0 < value (tp_beat tz) * factor tp)%R) by (apply Rmult_lt_0_compat; lra).
      unfold pace. eapply (slide_sum _ (value l) (value (sh_speed s)) (value (tp_beat tz) * factor tp) _ (B2R (t_SliderMult (bm_Timings b))) (B2R (cp_beat z) * m)); [| | | | | | | | |reflexivity|].
      + split; apply IZR_le; lia.
      + exact VL.
      + lra.
      + exact BP.
      + exact NI.
      + lra.
      + set (x := value (tp_beat tz)) in *. set (f := factor tp) in *. set (x' := B2R (cp_beat z)) in *. clearbody x f x'.
        replace (x' * m - x * f)%R with ((x' - x) * m + x * (m - f))%R by ring. apply Rle_trans with (1 := Rabs_triang _ _). rewrite !Rabs_mult, (Rabs_pos_eq x) by lra. rewrite (Rabs_pos_eq m) by lra.
        assert (A1 : (Rabs (x' - x) * m <= x * (/ 1900000000) * (f * (1 + / 1000)))%R).
        { apply Rmult_le_compat; [apply Rabs_pos|lra|apply Rle_trans with (1 := EB); lra|lra]. }
        assert (A2 : (x * Rabs (m - f) <= x * (f * / 10000000000))%R) by (apply Rmult_le_compat_l; [lra|]; apply Rabs_le; lra).
        set (y := (x * f)%R) in *. replace (x * / 1900000000 * (f * (1 + / 1000)))%R with (y * (/ 1900000000 * (1 + / 1000)))%R in A1 by (unfold y; ring). replace (x * (f * / 10000000000))%R with (y * / 10000000000)%R in A2 by (unfold y; ring). lra.
      + exact EL.
      + apply IZR_le. lia.
      + replace (slide_time (B2R (t_SliderMult (bm_Timings b))) (B2R (cp_beat z) * m) 1 (B2R (mc_length (sl_curve sd)))) with (slide_time (B2R (t_SliderMult (bm_Timings b))) (B2R (cp_beat z)) m (B2R (mc_length (sl_curve sd)))) by (unfold slide_time; ring). exact EE. }
  clear -F OKs BRs STEP. revert F. generalize (bm_HitObjects b). induction OKs as [|n ns P FF IH]; intros objs F; inversion F as [|? ? ? ? (F1 & F2) F3]; subst; constructor; inversion BRs as [|? ? B1 B2]; subst; [split; [exact F1|now apply STEP]|now apply IH].
Qed.
(** Such maps are always read, to the end. *)
Theorem C115_read : forall s, atan2_range -> sheet_ok s -> usual (sh_speed s) -> usual (sh_ticks s) -> Forall brief (sh_notes s) ->
  exists b, settles_on (fun fuel => parse_bytes fuel (file_of s)) (Some b) /\ reproduces s b.
Proof.
  intros s HA OK U1 U2 BR. apply C114_round_trip; auto. apply C114_straight; [exact OK|]. eapply Forall_impl; [|exact BR]. intros n. unfold brief, straight. destruct (nt_shape n) as [|e|c ps k l]; auto.
  intros (H1 & H2 & H3 & _ & H5 & _). split; [exact H1|]. split; [exact H2|]. split; [lra|]. eapply Forall_impl; [|exact H5]. cbv beta. lia.
Qed.
End WithLibm.
(** At every time exactly one tempo is in force. *)
Lemma two_splits {A} (l1 : list A) : forall l1' p q l2 l2', l1 ++ p :: l2 = l1' ++ q :: l2' -> p = q \/ (In q l2 /\ In p l1') \/ (In q l1 /\ In p l2').
Proof.
  induction l1 as [|a l1 IH]; intros [|b l1'] p q l2 l2' E; cbn [app] in E; injection E as E1 E2; subst; auto.
  - right; left. split; [apply in_or_app; right; now left|now left].
  - right; right. split; [now left|apply in_or_app; right; now left].
  - destruct (IH _ _ _ _ _ E2) as [H|[(H1 & H2)|(H1 & H2)]]; [auto|right; left|right; right]; split; cbn; auto.
Qed.
Lemma in_force_one ts t p q : in_force ts t p -> in_force ts t q -> q = p.
Proof.
  intros (l1 & l2 & E & H) (k1 & k2 & E' & H').
  assert (IP : In p ts) by (rewrite E; apply in_or_app; right; now left). assert (IQ : In q ts) by (rewrite E'; apply in_or_app; right; now left).
  assert (S : l1 ++ p :: l2 = k1 ++ q :: k2) by congruence. destruct (two_splits _ _ _ _ _ _ S) as [Q|[(J1 & J2)|(J1 & J2)]]; [now symmetry| |]; exfalso;
    destruct H as [(H1 & H2 & H3)|(H1 & H2 & H3)]; destruct H' as [(G1 & G2 & G3)|(G1 & G2 & G3)];
    repeat match goal with X : forall r, In r ?l -> _, Y : In ?a ?l |- _ => pose proof (X a Y); clear Y end; try lia;
    repeat match goal with X : forall r, In r ts -> _ |- _ => pose proof (X p); pose proof (X q); clear X end; intuition lia.
Qed.
Lemma in_force_some ts t : ts <> [] -> exists p, in_force ts t p.
Proof.
  induction ts as [|a ts IH]; [congruence|]. intros _. destruct ts as [|a' ts'].
  - exists a, [], []. split; [reflexivity|]. destruct (Z_le_gt_dec (dec (tp_time a)) t) as [L|G]; [left|right]; repeat split; try (intros r [->|[]]); try (intros r []); lia.
  - destruct IH as (p & l1 & l2 & E & H); [congruence|]. rewrite E in *. clear E.
    assert (Q : forall r, In r (l1 ++ p :: l2) -> In r l1 \/ r = p \/ In r l2) by (intros r J; apply in_app_or in J as [J|[J|J]]; auto).
    destruct H as [(H1 & H2 & H3)|(H1 & H2 & H3)].
    + destruct (Z_le_gt_dec (dec (tp_time a)) t) as [L|G]; [destruct (Z_lt_le_dec (dec (tp_time p)) (dec (tp_time a))) as [B|B]|].
      * exists a, [], (l1 ++ p :: l2). split; [reflexivity|]. left. split; [exact L|]. split; [intros r []|]. intros r J R. destruct (Q r J) as [K|[K|K]]; [specialize (H2 r K R); lia|subst; lia|specialize (H3 r K R); lia].
      * exists p, (a :: l1), l2. split; [reflexivity|]. left. split; [exact H1|]. split; [|exact H3]. intros r [<-|J] R; [lia|auto].
      * exists p, (a :: l1), l2. split; [reflexivity|]. left. split; [exact H1|]. split; [|exact H3]. intros r [<-|J] R; [lia|auto].
    + destruct (Z_le_gt_dec (dec (tp_time a)) t) as [L|G]; [|destruct (Z_lt_le_dec (dec (tp_time p)) (dec (tp_time a))) as [B|B]].
      * exists a, [], (l1 ++ p :: l2). split; [reflexivity|]. left. split; [exact L|]. split; [intros r []|]. intros r J R. specialize (H1 r). exfalso. assert (t < dec (tp_time r)) by auto. lia.
      * exists p, (a :: l1), l2. split; [reflexivity|]. right. split; [intros r [<-|J]; [lia|auto]|]. split; [intros r [<-|J]; [lia|auto]|exact H3].
      * exists a, [], (l1 ++ p :: l2). split; [reflexivity|]. right. split; [intros r [<-|J]; [lia|auto]|]. split; [intros r []|]. intros r J. destruct (Q r J) as [K|[K|K]]; [specialize (H2 r K); lia|subst; lia|specialize (H3 r K); lia].
Qed.
Theorem C115_tempo : forall ts t, ts <> [] -> exists p, in_force ts t p /\ forall q, in_force ts t q -> q = p.
Proof. intros ts t N. destruct (in_force_some ts t N) as (p & H). exists p. split; [exact H|]. intros q. now apply in_force_one. Qed.

(** The map of PropSlides with more tempos: the first slider takes 3 * 140.5 pixels at 80 % of
    500 ms a beat of 140 pixels from 2000. *)
Definition faster : tempo := mkTempo [1; 8; 0; 0] (mkLit Minus [8; 0] None None) true.
Definition beat500 : tempo := mkTempo [1; 5; 0; 0] (L [5; 0; 0] None) false.
Definition timed : sheet :=
  {| sh_version := [1; 4]; sh_leniency := L [0] (Some [7]); sh_title := lit "Lines"; sh_artist := []; sh_creator := [];
     sh_hp := L [5] None; sh_cs := L [4] None; sh_od := L [8] None; sh_ar := L [9] None; sh_speed := L [1] (Some [4]); sh_ticks := L [2] None;
     sh_tempos := [faster; mkTempo [1; 0] (L [3; 0; 0] None) false; mkTempo [1; 5; 0; 0] (L [4; 0; 0] (Some [2; 5])) false; beat500; mkTempo [3; 0; 0; 0] (L [6; 0; 0] None) false];
     sh_notes := sh_notes lined |}.
Example C115_instance : sheet_ok timed /\ usual (sh_speed timed) /\ usual (sh_ticks timed) /\ Forall lively (sh_tempos timed) /\ opening (sh_tempos timed) /\ Forall brief (sh_notes timed) /\ @atan2_range zero_libm /\
  in_force (sh_tempos timed) 2000 faster /\ in_force (beats (sh_tempos timed)) 2000 beat500 /\ pace timed faster beat500 = (400 / 140)%R.
Proof.
  assert (E0 : value (tp_beat faster) = (-80)%R) by (cbn [tp_beat faster]; level_in).
  split.
  { destruct (proj1 C114_instance) as (A1 & A2 & A3 & A4 & A5 & A6 & A7 & A8 & A9 & A10 & A11 & A12 & _ & _ & A15 & _). repeat (split; [assumption|]). split; [discriminate|]. split.
    - constructor; [split; [apply natural_ok; reflexivity|]|repeat (constructor; [split; [apply natural_ok; reflexivity|apply fixed_ok; [reflexivity|discriminate]]|]); constructor].
      split; [repeat constructor; discriminate|]. split; [discriminate|exact I].
    - split; [exact A15|]. apply Forall_forall; intros l I; apply Z.ltb_lt; revert l I; apply forallb_forall; vm_compute; reflexivity. }
  split; [unfold usual; level_in|]. split; [unfold usual; level_in|]. split.
  { apply Forall_cons; [unfold lively; cbn [tp_speed faster]; rewrite E0; lra|]. repeat (apply Forall_cons; [unfold lively; cbn [tp_speed beat500 tp_beat]; level_in|]); apply Forall_nil. }
  split.
  { exists [faster], (mkTempo [1; 0] (L [3; 0; 0] None) false), [mkTempo [1; 5; 0; 0] (L [4; 0; 0] (Some [2; 5])) false; beat500; mkTempo [3; 0; 0; 0] (L [6; 0; 0] None) false].
    split; [reflexivity|]. split; [reflexivity|]. split; intros r J; repeat (destruct J as [<-|J]; [vm_compute; (reflexivity || discriminate)|]); destruct J. }
  split.
  { apply Forall_cons; [|apply Forall_cons; [exact I|apply Forall_cons; [|apply Forall_nil]]].
    all: split; [reflexivity|].
    all: split; [cbn; lia|].
    all: split; [cbn [nt_shape]; level_in|].
    all: split; [vm_compute; split; [reflexivity|discriminate]|].
    all: split; [repeat (apply Forall_cons; [vm_compute; split; discriminate|]); apply Forall_nil|].
    all: vm_compute; split; [split; discriminate|reflexivity]. }
  split; [apply PropSafety.C23_instance|]. split; [|split].
  - exists [], (tl (sh_tempos timed)). split; [reflexivity|]. left. split; [cbn; lia|]. split; intros r J; cbn [tl sh_tempos timed] in J; repeat (destruct J as [<-|J]; [cbn; lia|]); destruct J.
  - exists [mkTempo [1; 0] (L [3; 0; 0] None) false; mkTempo [1; 5; 0; 0] (L [4; 0; 0] (Some [2; 5])) false], [mkTempo [3; 0; 0; 0] (L [6; 0; 0] None) false]. split; [reflexivity|]. left.
    split; [cbn; lia|]. split; intros r J; repeat (destruct J as [<-|J]; [cbn; lia|]); destruct J.
  - assert (E1 : value (L [5; 0; 0] None) = 500%R) by level_in. assert (E2 : value (L [1] (Some [4])) = (14 / 10)%R) by level_in. unfold pace, factor. rewrite E0. cbn [tp_beat tp_speed faster beat500 sh_speed timed]. rewrite E1, E2.
    rewrite Rmax_right, Rmin_right by lra. lra.
Qed.

Print Assumptions C115_times.
Print Assumptions C115_read.
Print Assumptions C115_tempo.

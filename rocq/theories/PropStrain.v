(** C65 and C66: strain peaks and ratings. *)
From Coq Require Import Reals Lra Permutation.
From Flocq Require Import Core BinarySingleNaN.
From Verif Require Import DiffCalc SpecDiff SpecStrain BaseLemmas FloatLemmas KeyLemmas SortLemmas CurveProofs CurveStart DiffProofs DiffTotal SkillProofs StrainProofs PropDiff.
Import ListNotations.
Open Scope Z_scope.

Section WithLibm.
Context {M : libm}.

Lemma split_folds fuel d dos : forall s s', foldM (process_all fuel d) s dos = Ok s' ->
  foldM (process fuel (Aim true) d) (cs_aim s) dos = Ok (cs_aim s') /\ foldM (process fuel (Aim false) d) (cs_aimNS s) dos = Ok (cs_aimNS s') /\
  foldM (process fuel Speed d) (cs_speed s) dos = Ok (cs_speed s') /\
  match cs_flash s, cs_flash s' with Some f, Some f' => foldM (process fuel Flash d) f dos = Ok f' | None, None => True | _, _ => False end.
Proof.
  induction dos as [|o dos IH]; intros s s' H; cbn [foldM] in H |- *; [apply Ok_inj in H; subst s'; destruct (cs_flash s); auto|].
  apply bind_ok in H as (s1 & H1 & H). destruct (IH _ _ H) as (A & N & S & F). clear IH H. unfold process_all in H1.
  apply bind_ok in H1 as (a & EA & H1). apply bind_ok in H1 as (n & EN & H1). apply bind_ok in H1 as (p & EP & H1). apply bind_ok in H1 as (f & EF & H1). apply Ok_inj in H1. subst s1.
  cbn [cs_aim cs_aimNS cs_speed cs_flash] in A, N, S, F. rewrite EA, EN, EP. cbn [bind]. repeat split; auto.
  destruct (cs_flash s) as [g|].
  - unfold rmap in EF. apply bind_ok in EF as (g' & EG & EF). apply Ok_inj in EF. subst f. destruct (cs_flash s'); [|contradiction]. rewrite EG. exact F.
  - apply Ok_inj in EF. subst f. destruct (cs_flash s'); [contradiction|exact I].
Qed.

(** C65.  Every peak CalculateStrainPeaks lists is the largest strain of one
    400 ms section, counting what is left of the strain before it. *)
Theorem C65_peaks : forall fuel objs d dos p, create_difficulty_objects objs d = Ok dos -> Forall time_ok (clock_times objs d) ->
  calculate_strain_peaks fuel objs d = Ok p ->
  peaks_of (Aim true) d dos (pk_Aim p) /\ peaks_of Speed d dos (pk_Speed p) /\
  (if mactive (d_Mods d) Flashlight then peaks_of Flash d dos (pk_Flashlight p) else pk_Flashlight p = []).
Proof.
  intros fuel objs d dos p C T H. destruct (in_range objs d dos C T) as (T' & _). pose proof (peaks_eq fuel objs d dos C) as PE.
  destruct (foldM (process_all fuel d) (new_skills d) dos) as [s| |] eqn:F; [|rewrite H in PE; discriminate PE|rewrite H in PE; discriminate PE].
  destruct PE as (EP & _ & FL). rewrite H in EP. symmetry in EP. unfold get_peaks in EP. cbv zeta in EP. apply bind_ok in EP as (tot & _ & EP). apply Ok_inj in EP. subst p. cbn [pk_Aim pk_Speed pk_Flashlight].
  destruct (split_folds _ _ _ _ _ F) as (A & N & S & L). cbn [new_skills cs_aim cs_aimNS cs_speed cs_flash] in A, N, S, L.
  split; [now apply (run_peaks fuel)|]. split; [now apply (run_peaks fuel)|]. change (mactive (d_Mods d) Flashlight) with (check_mod d Flashlight).
  destruct (check_mod d Flashlight).
  - destruct (cs_flash s); [|contradiction]. cbn [option_map]. now apply (run_peaks fuel).
  - destruct (cs_flash s); [contradiction|]. reflexivity.
Qed.
Lemma fmax_pick (x y : f64) : fmax x y = x \/ fmax x y = y.
Proof.
  destruct x as [[]|[]| |[] ? ? ?], y as [[]|[]| |[] ? ? ?]; unfold fmax; cbn [is_pinf orb andb fisnan is_nan is_zero Bsign]; try (match goal with |- context [if ?b then _ else _] => destruct b end); auto.
Qed.
(** Of numbers, it is at least each of them and one of them. *)
Theorem C65_max : forall k es K p, peak_of k es K p -> exists c, carried k es K c /\
  let shown := map en_shown (filter (fun e => en_section e =? K) es) in
  In p (c :: shown) /\ (Forall (fun x => is_nan x = false) (c :: shown) -> Forall (fun x => fle x p = true) (c :: shown)).
Proof.
  intros k es K p (c & C & E). exists c. split; [exact C|]. cbv zeta. set (l := map _ _) in *. clearbody l. subst p. clear C. revert c.
  induction l as [|x l IH]; intros c; cbn [fold_left].
  - split; [now left|]. intros N. inversion N as [|? ? Nc _]; subst. constructor; [|constructor]. apply fle_iff. split; [exact Nc|]. split; [exact Nc|]. apply Rle_refl.
  - destruct (IH (fmax x c)) as (I1 & I2). split.
    + destruct I1 as [I1|I1]; [|now right; right]. rewrite <- I1. destruct (fmax_pick x c) as [Q|Q]; rewrite Q; [right; now left|now left].
    + intros N. inversion N as [|? ? Nc N']; subst. inversion N' as [|? ? Nx Nl]; subst. destruct (fmax_key x c Nx Nc) as (Nm & Km).
      specialize (I2 (Forall_cons _ Nm Nl)). inversion I2 as [|? ? I3 I4]; subst. apply fle_iff in I3 as (_ & N5 & K5). rewrite Km in K5.
      assert (key x <= Rmax (key x) (key c))%R by apply Rmax_l. assert (key c <= Rmax (key x) (key c))%R by apply Rmax_r.
      constructor; [|constructor; [|exact I4]]; apply fle_iff; (split; [assumption|]; split; [exact N5|]; lra).
Qed.

(** C66.  A skill's value is the weighted sum of its peaks, highest first, after
    reducing the highest ones ... *)
Lemma share_eq k i : (i < top_peaks k)%nat -> reduce_factor k i = share k i.
Proof.
  intros H. unfold reduce_factor, share. change (reduced_sections k) with (top_peaks k).
  match goal with |- lerpF64 _ _ (mlog10 ?a) = fadd _ (fmul _ (mlog10 ?b)) => assert (E : a = b) end.
  - apply B2SF_eq. destruct k; cbn [top_peaks] in *; do 10 (destruct i as [|i]; [first [exfalso; lia|vm_compute; reflexivity]|]); lia.
  - rewrite E. unfold lerpF64. assert (Q : fsub (fq 1 1) reduced_baseline = fq 25 100) by (apply B2SF_eq; vm_compute; reflexivity). rewrite Q. reflexivity.
Qed.
Lemma reduce_nth k l : forall n i x y, nth_error l i = Some x -> nth_error (reduce_peaks k n l) i = Some y ->
  y = if (n + i <? top_peaks k)%nat then fmul x (share k (n + i)) else x.
Proof.
  induction l as [|a l IH]; intros n i x y H1 H2; [destruct i; discriminate H1|]. cbn [reduce_peaks] in H2. destruct i as [|i]; cbn [nth_error] in H1, H2.
  - injection H1 as <-. injection H2 as <-. rewrite Nat.add_0_r. change (reduced_sections k) with (top_peaks k). destruct (Nat.ltb_spec n (top_peaks k)) as [L|L]; [|reflexivity]. now rewrite share_eq.
  - rewrite (IH _ _ _ _ H1 H2). now rewrite Nat.add_succ_r.
Qed.
Lemma reduce_len k l : forall n, length (reduce_peaks k n l) = length l.
Proof. induction l; intros n; cbn [reduce_peaks length]; auto. Qed.
Lemma weigh_eq k l : forall i acc, weighted_sum (decay_weight k) acc (faded k i) l = fold_left fadd (weigh k i l) acc.
Proof. induction l as [|x l IH]; intros i acc; cbn [weighted_sum weigh fold_left]; [reflexivity|]. rewrite <- (IH (S i)). cbn [faded]. destruct k; reflexivity. Qed.
Theorem C66_value : forall k peaks, log_unit -> Forall (fun x => is_nan x = false) peaks -> rating k peaks (difficulty_value_of k peaks).
Proof.
  intros k peaks L N. destruct (reverse_sorts peaks N) as (P1 & D1). pose proof (nums_perm _ _ P1 N) as N1. pose proof (reduce_nums k _ L N1 0) as N2. destruct (reverse_sorts _ N2) as (P2 & D2).
  exists (reverse_sort peaks), (reduce_peaks k 0 (reverse_sort peaks)), (reverse_sort (reduce_peaks k 0 (reverse_sort peaks))).
  split; [exact P1|]. split; [exact D1|]. split; [apply reduce_len|]. split; [intros i x y; apply (reduce_nth k _ 0)|]. split; [exact P2|]. split; [exact D2|].
  unfold difficulty_value_of. change (fq 1 1) with (faded k 0). rewrite (weigh_eq k _ 0). destruct k; reflexivity.
Qed.
(** ... and the ratings are 0.0675 times its square root; the slider factor
    compares two separate runs of aim, with and without sliders. *)
Theorem C66_ratings : forall fuel objs d dos a, create_difficulty_objects objs d = Ok dos -> Forall time_ok (clock_times objs d) ->
  calculate_single fuel objs d = Ok a ->
  let stars k peaks := fmul (fsqrt (difficulty_value_of k peaks)) (fq 675 10000) in
  exists A N S, peaks_of (Aim true) d dos A /\ peaks_of (Aim false) d dos N /\ peaks_of Speed d dos S /\
    at_Aim a = stars (Aim true) A /\
    at_SliderFactor a = (if fgt (stars (Aim true) A) (fq 1 100000) then fdiv (stars (Aim false) N) (stars (Aim true) A) else fq 1 1) /\
    (mactive (d_Mods d) Relax = false -> at_Speed a = stars Speed S) /\
    (mactive (d_Mods d) Flashlight = true -> exists F, peaks_of Flash d dos F /\ at_Flashlight a = stars Flash F).
Proof.
  intros fuel objs d dos a C T H stars. destruct (in_range objs d dos C T) as (T' & _). destruct objs as [|o r]; [unfold calculate_single in H; rewrite single_nil in H; discriminate H|].
  unfold calculate_single in H. rewrite (single_full_eq fuel o r d dos C) in H. unfold rmap in H. apply bind_ok in H as (x & H & E). apply Ok_inj in E. subst a.
  apply bind_ok in H as (s & F & H). apply Ok_inj in H. subst x. cbn [fst]. destruct (split_folds _ _ _ _ _ F) as (A & N & S & L). cbn [new_skills cs_aim cs_aimNS cs_speed cs_flash] in A, N, S, L.
  exists (current_peaks (cs_aim s)), (current_peaks (cs_aimNS s)), (current_peaks (cs_speed s)).
  split; [now apply (run_peaks fuel)|]. split; [now apply (run_peaks fuel)|]. split; [now apply (run_peaks fuel)|].
  unfold get_stars, stars_from_raw. cbn [at_Aim at_SliderFactor at_Speed at_Flashlight]. split; [reflexivity|]. split; [reflexivity|].
  unfold check_mod. split; [intros ->; reflexivity|]. intros E. change (check_mod d Flashlight) with (mactive (d_Mods d) Flashlight) in L. rewrite E in L.
  destruct (cs_flash s) as [f|]; [|contradiction]. exists (current_peaks f). split; [now apply (run_peaks fuel)|reflexivity].
Qed.
End WithLibm.

(** ** Concrete cases *)
(** The sample map meets the hypotheses; its objects lie in the sections 3, 5
    and 8, so there are six peaks; in hundredths. *)
Definition hundredths (x : f64) : Z := int_of_f (fmul x (fq 100 1)).
Example C65_instance : Forall time_ok (clock_times demo demo_diff) /\
  sections (map (@B2R 53 1024) (clock_times demo demo_diff)) = [3; 5; 8; 8; 8] /\
  option_map (fun p => (map hundredths (pk_Aim p), map hundredths (pk_Speed p))) (view (@calculate_strain_peaks one_libm 5 demo demo_diff)) =
    Some ([0; 0; 0; 0; 0; 29796], [275; 275; 275; 0; 0; 6355]).
Proof.
  split; [exact demo_times|]. split.
  - unfold clock_times, demo. cbn [tl map at_ms ho_start]. rewrite speed1, !ms_clock by lia. unfold sections, sections_from, section_of.
    rewrite (Zceil_imp 3 (1000 / 400)), (Zceil_imp 5 (2000 / 400)), (Zceil_imp 8 (3000 / 400)), (Zceil_imp 8 (3100 / 400)), (Zceil_imp 8 (3190 / 400)) by (cbn [Z.sub Z.add Z.opp Z.pos_sub Pos.pred_double]; lra). reflexivity.
  - vm_compute. reflexivity.
Qed.
(** 20, 30 and 10 are reduced to 75 % and weighed 1, 0.9 and 0.81:
    1.06 (22.5 + 13.5 + 6.075) = 44.599 *)
Example C66_instance : @log_unit one_libm /\ Forall (fun x => is_nan x = false) [fq 20 1; fq 30 1; fq 10 1] /\
  hundredths (@difficulty_value_of one_libm (Aim true) [fq 20 1; fq 30 1; fq 10 1]) = 4459.
Proof.
  split; [intros x F B; split; [reflexivity|cbn; lra]|]. split; [repeat constructor|]. vm_compute. reflexivity.
Qed.

Print Assumptions C65_peaks. Print Assumptions C65_max. Print Assumptions C66_value. Print Assumptions C66_ratings.

(** C87, C88 and C89: strains, peaks and ratings against real-number formulas. *)
From Coq Require Import Reals Lra List ZArith Lia Permutation.
From Flocq Require Import Core BinarySingleNaN.
From Verif Require Import DiffCalc SpecDiff SpecPP SpecSane SpecStrain SpecEval SpecFormula SpecSkill SpecRating BaseLemmas FloatLemmas Float32Lemmas KeyLemmas LazyProofs DiffProofs SectionProofs DiffTotal SkillProofs PPProofs PPBounds RelLemmas RelPow FormulaParts SortReal WeighFormula ValueFormula StrainFormula PeakFormula RatingFormula IdealLibm PropDiff PropDist PropRatings PropStrain PropSkill.
Import ListNotations.
Open Scope R_scope.

Section WithLibm.
Context {M : libm}.

(** C87.  The value of a skill is its peaks sorted, the highest ones lessened, sorted
    again and weighed; its stars are the square root times 0.0675. *)
Theorem C87_value : forall k peaks, log_close -> Forall (within 0 (bpow radix2 100)) peaks -> peaks <> [] -> (Z.of_nat (length peaks) <= 1048576)%Z ->
  let V := value_R k (map (@B2R 53 1024) peaks) in
  is_finite (difficulty_value_of k peaks) = true /\ 0 <= V /\ Rabs (B2R (difficulty_value_of k peaks) - V) <= V * bpow radix2 (-26) + bpow radix2 (-770).
Proof.
  intros k peaks LC F NE L V. assert (LN : INR (length peaks) <= 1048576) by (rewrite INR_IZR_INZ; apply IZR_le; exact L). assert (A8 : bpow radix2 (-800) <= bpow radix2 (-800) <= bpow radix2 99) by (split; [apply Rle_refl|apply bpow_le; lia]).
  assert (N : Forall2 (nears 0 (bpow radix2 (-800))) peaks (map (@B2R 53 1024) peaks)). { clear NE L LN V. induction F as [|x l (X1 & X2) F IH]; cbn [map]; constructor; auto. split; [exact X1|]. split; [lra|]. rewrite Rminus_diag_eq, Rabs_R0 by reflexivity. pose proof (bpow_gt_0 radix2 (-800)). lra. }
  destruct (value_near LC 0 (bpow radix2 (-800)) ltac:(lra) A8 k peaks _ N NE LN) as (V1 & V2 & V3 & V4). fold V in V3, V4. split; [exact V1|]. split; [lra|]. apply Rle_trans with (1 := V4). pose proof (geo_le (fading_R k) ltac:(destruct k; cbn; lra) (length peaks)) as G. apply Rplus_le_compat.
  - rewrite Rmult_comm. apply Rmult_le_compat_l; [lra|]. change (bpow radix2 (-26)) with (/ 67108864). lra.
  - change (bpow radix2 (-770)) with (bpow radix2 (30 + -800)). rewrite bpow_plus. change (bpow radix2 30) with 1073741824. pose proof (bpow_gt_0 radix2 (-800)) as P. assert (bpow radix2 (-800) * geo (fading_R k) (length peaks) <= bpow radix2 (-800) * 1048576) by (apply Rmult_le_compat_l; lra). lra.
Qed.
Theorem C87_stars : forall k peaks, log_close -> Forall (within 0 (bpow radix2 100)) peaks -> peaks <> [] -> (Z.of_nat (length peaks) <= 1048576)%Z ->
  let x := fmul (fsqrt (difficulty_value_of k peaks)) (fq 675 10000) in let r := stars_R (value_R k (map (@B2R 53 1024) peaks)) in
  is_finite x = true /\ 0 <= r /\ Rabs (B2R x - r) <= r * bpow radix2 (-25) + bpow radix2 (-385).
Proof.
  intros k peaks LC F NE L x r. destruct (C87_value k peaks LC F NE L) as (V1 & V2 & V3). set (V := value_R k _) in *.
  assert (LN : INR (length peaks) <= 1048576) by (rewrite INR_IZR_INZ; apply IZR_le; exact L). assert (A8 : bpow radix2 (-800) <= bpow radix2 (-800) <= bpow radix2 99) by (split; [apply Rle_refl|apply bpow_le; lia]).
  assert (N : Forall2 (nears 0 (bpow radix2 (-800))) peaks (map (@B2R 53 1024) peaks)). { clear NE L LN V V1 V2 V3 r x. induction F as [|x l (X1 & X2) F IH]; cbn [map]; constructor; auto. split; [exact X1|]. split; [lra|]. rewrite Rminus_diag_eq, Rabs_R0 by reflexivity. pose proof (bpow_gt_0 radix2 (-800)). lra. }
  destruct (value_near LC 0 (bpow radix2 (-800)) ltac:(lra) A8 k peaks _ N NE LN) as (_ & W2 & W3 & _). fold V in W3. assert (BI : bpow radix2 (-800) <= bpow radix2 (-770) <= bpow radix2 200) by (split; apply bpow_le; lia).
  destruct (stars_near (bpow radix2 (-26)) (bpow radix2 (-770)) (difficulty_value_of k peaks) V ltac:(change (bpow radix2 (-26)) with (/ 67108864); lra) BI V1 W2 W3 ltac:(lra)) as (X1 & X2 & X3 & _). fold x in X1, X2, X3. change (stars_R V) with r in X3.
  assert (R0 : 0 <= r) by (unfold r, stars_R; apply Rmult_le_pos; [apply sqrt_pos|lra]). split; [exact X1|]. split; [exact R0|]. apply Rle_trans with (1 := X3). apply Rplus_le_compat.
  - rewrite Rmult_comm. apply Rmult_le_compat_l; [exact R0|]. change (bpow radix2 (-26)) with (/ 67108864). change (bpow radix2 (-25)) with (/ 33554432). lra.
  - replace (bpow radix2 (-770)) with (bpow radix2 (-385) * bpow radix2 (-385)) by (rewrite <- bpow_plus; reflexivity). rewrite sqrt_square by apply bpow_ge_0. pose proof (bpow_gt_0 radix2 (-385)). lra.
Qed.
(** The order of the sections does not matter. *)
Theorem C87_sorted : forall l, Permutation l (sort_R l) /\ desc (sort_R l).
Proof. intros l. split; [apply sort_perm_R|apply sort_desc]. Qed.
Lemma put_comm x y l : put x (put y l) = put y (put x l).
Proof.
  induction l as [|z l IH]; cbn [put].
  - destruct (Rlt_dec x y), (Rlt_dec y x); auto; try lra. replace y with x by lra. auto.
  - destruct (Rlt_dec y z), (Rlt_dec x z); cbn [put]; repeat match goal with |- context[Rlt_dec ?a ?b] => destruct (Rlt_dec a b); cbn [put] end; try lra; try (rewrite IH; auto; fail); try reflexivity.
    replace y with x by lra. auto.
Qed.
Theorem C87_order : forall k l l', Permutation l l' -> sort_R l = sort_R l' /\ value_R k l = value_R k l'.
Proof.
  intros k l l' P. assert (E : sort_R l = sort_R l'). { unfold sort_R. induction P; cbn [fold_right]; [auto|now rewrite IHP|apply put_comm|congruence]. }
  split; [exact E|]. unfold value_R. now rewrite E.
Qed.

(** C88.  A strain is the sum of what all objects so far brought, each faded
    since; the peaks are the highest of each 400 ms section. *)
Theorem C88_strain : pow_ranges -> trig_ranges -> pow_close -> skill_maths -> forall d dos k ss, plain d dos -> strains_of k d dos ss -> forall i s, nth_error ss i = Some s ->
  let S := strain_R k (gaps_of dos) (along (own_R k d) k [] dos) i in
  is_finite s = true /\ 0 <= S /\ Rabs (B2R s - S) <= rel_slack k dos * S + abs_slack k dos.
Proof.
  intros PR TR PC SM d dos k ss PL ST i s H S. destruct (strain_close PR TR PC SM d dos PL k ss ST (max_load k dos) (max_load_ge dos k) i s H) as (F & _ & B & _ & D). fold S in B, D. split; [exact F|]. split; [lra|]. apply Rle_trans with (1 := D).
  pose proof (Es_in d dos PL k) as EI. pose proof (max_load_in d dos PL k) as ML. pose proof (pos_INR (length dos)) as NN. pose proof (bpow_gt_0 radix2 (-900)) as P9. apply Rplus_le_compat.
  - apply Rmult_le_compat_r; [lra|]. unfold Es, rel_slack in *. destruct k; cbn [ev_of] in *; unfold e40; [change (bpow radix2 (-25)) with (/ 33554432); change (bpow radix2 (-37)) with (/ 137438953472); lra| |change (bpow radix2 (-25)) with (/ 33554432); change (bpow radix2 (-37)) with (/ 137438953472); change (bpow radix2 (-30)) with (/ 1073741824); lra].
    apply Rle_trans with (1 := proj2 EI). change (bpow radix2 (-10)) with (/ 1024). lra.
  - unfold As, abs_slack. pose proof (ev_in k) as EV. set (L := max_load k dos) in *. set (E := Es dos k) in *. destruct k; cbn [weight_R ep_of ev_of] in *.
    + change (bpow radix2 (-21)) with (/ 2097152). change (bpow radix2 (-16)) with (/ 65536). rewrite (Rmult_comm L). apply Rmult_le_compat_r; lra.
    + change (bpow radix2 (-31)) with (/ 2147483648). change (bpow radix2 (-13)) with (/ 8192). rewrite (Rmult_comm L). apply Rmult_le_compat_r; lra.
    + change (-790)%Z with (110 + -900)%Z. rewrite bpow_plus. change (bpow radix2 110) with 1298074214633706907132624082305024. apply Rle_trans with (2 * (15 / 100 * bpow radix2 (-900)) * 1048576); [|lra]. change (bpow radix2 (-30)) with (/ 1073741824) in *. apply Rmult_le_compat; [apply Rmult_le_pos; lra|lra|apply Rmult_le_compat_r; lra|lra].
Qed.
Theorem C88_peaks : pow_ranges -> trig_ranges -> pow_close -> skill_maths -> forall d dos k peaks, plain d dos -> peaks_of k d dos peaks ->
  Forall2 (fun p P => is_finite p = true /\ 0 <= P /\ Rabs (B2R p - P) <= rel_slack k dos * P + abs_slack k dos) peaks (peaks_R k (starts_of dos) (shown_R k d dos)).
Proof.
  intros PR TR PC SM d dos k peaks PL P. destruct (peaks_close PR TR PC SM d dos PL k peaks P) as (PN & _ & _). refine (F2_weak _ _ _ _ _ PN). intros p r (F & (B & _) & D). split; [exact F|]. split; [lra|]. apply Rle_trans with (1 := D).
  pose proof (Es_in d dos PL k) as EI. pose proof (max_load_in d dos PL k) as ML. pose proof (pos_INR (length dos)) as NN. pose proof (bpow_gt_0 radix2 (-900)) as P9. pose proof (ev_in k) as EV. apply Rplus_le_compat.
  - apply Rmult_le_compat_r; [lra|]. unfold e', Ex, rel_slack in *. unfold Es in *. destruct k; cbn [ev_of] in *; unfold e40 in *; [change (bpow radix2 (-25)) with (/ 33554432); change (bpow radix2 (-37)) with (/ 137438953472); lra| |change (bpow radix2 (-25)) with (/ 33554432); change (bpow radix2 (-37)) with (/ 137438953472); change (bpow radix2 (-30)) with (/ 1073741824); lra].
    unfold beta. change (bpow radix2 (-12)) with (/ 4096). change (bpow radix2 (-10)) with (/ 1024). lra.
  - unfold A', Ax, As, abs_slack. set (L := max_load k dos) in *. set (E := Es dos k) in *. assert (T8 : bpow radix2 (-800) <= bpow radix2 (-60)) by (apply bpow_le; lia). change (bpow radix2 (-60)) with (/ 1152921504606846976) in T8. destruct k; cbn [weight_R ep_of ev_of] in *; unfold e40.
    + change (bpow radix2 (-21)) with (/ 2097152). change (bpow radix2 (-16)) with (/ 65536). assert (X : (1 + E) * (2325 / 100 * / 2097152) * L <= / 90000 * L) by (apply Rmult_le_compat_r; lra). lra.
    + change (bpow radix2 (-31)) with (/ 2147483648). change (bpow radix2 (-13)) with (/ 8192). assert (X : (1 + E) * (1375 * / 2147483648) * L <= / 1500000 * L) by (apply Rmult_le_compat_r; lra). lra.
    + assert (X : (1 + E) * (15 / 100 * bpow radix2 (-900)) * L <= 2 * (15 / 100 * bpow radix2 (-900)) * 1048576) by (apply Rmult_le_compat; [apply Rmult_le_pos; lra|lra|apply Rmult_le_compat_r; lra|lra]). replace (bpow radix2 (-790)) with (bpow radix2 110 * bpow radix2 (-900)) by (rewrite <- bpow_plus; reflexivity). replace (bpow radix2 (-800)) with (bpow radix2 100 * bpow radix2 (-900)) by (rewrite <- bpow_plus; reflexivity). change (bpow radix2 110) with 1298074214633706907132624082305024. change (bpow radix2 100) with 1267650600228229401496703205376. lra.
Qed.

(** C89.  The ratings of a map are these formulas, from the objects' distances,
    times and angles on. *)
Theorem C89_stars : pow_ranges -> trig_ranges -> pow_close -> log_close -> skill_maths -> forall d dos k peaks, plain d dos -> peaks_of k d dos peaks ->
  let x := fmul (fsqrt (difficulty_value_of k peaks)) (fq 675 10000) in let r := map_stars k d dos in
  is_finite x = true /\ 0 <= r /\ Rabs (B2R x - r) <= rel_slack k dos * r + small_slack k dos /\ r * Rabs (B2R x - r) <= rel_slack k dos * r ^ 2 + large_slack k dos.
Proof.
  intros PR TR PC LC SM d dos k peaks PL P x r. destruct (stars_close PR TR PC LC SM d dos PL k peaks P) as (F & _ & R0 & D1 & D2). fold x in F, D1, D2. fold r in R0, D1, D2.
  pose proof (Es_in d dos PL k) as EI. pose proof (max_load_in d dos PL k) as ML. pose proof (pos_INR (length dos)) as NN. pose proof (pow2_ge_0 r) as R2.
  assert (RS : Ex dos k + 21 / 1000000000 <= rel_slack k dos).
  { unfold Ex, rel_slack in *. unfold Es in *. destruct k; cbn [ev_of] in *; unfold e40 in *; [| |change (bpow radix2 (-30)) with (/ 1073741824)]; unfold beta; change (bpow radix2 (-12)) with (/ 4096); change (bpow radix2 (-10)) with (/ 1024); change (bpow radix2 (-25)) with (/ 33554432); change (bpow radix2 (-37)) with (/ 137438953472); lra. }
  assert (SQ : sqrt (Bx dos k) * (7 / 100) <= small_slack k dos).
  { unfold Bx, small_slack. destruct k.
    - replace (/ 8192 * max_load (Aim withSliders) dos) with (max_load (Aim withSliders) dos * / 8192) by ring. rewrite sqrt_mult by lra. rewrite Rmult_assoc. apply Rmult_le_compat_l; [apply sqrt_pos|]. change (bpow radix2 (-10)) with (/ 1024). assert (sqrt (/ 8192) <= / 90) by (apply Rsqr_incr_0_var; [rewrite Rsqr_sqrt by lra; unfold Rsqr; lra|lra]). lra.
    - replace (/ 1024 * max_load Speed dos) with (max_load Speed dos * / 1024) by ring. rewrite sqrt_mult by lra. rewrite Rmult_assoc. apply Rmult_le_compat_l; [apply sqrt_pos|]. change (bpow radix2 (-8)) with (/ 256). assert (sqrt (/ 1024) <= / 30) by (apply Rsqr_incr_0_var; [rewrite Rsqr_sqrt by lra; unfold Rsqr; lra|lra]). lra.
    - replace (bpow radix2 (-778)) with (bpow radix2 (-389) * bpow radix2 (-389)) by (rewrite <- bpow_plus; reflexivity). rewrite sqrt_square by apply bpow_ge_0. change (-389)%Z with (1 + -390)%Z. rewrite bpow_plus. change (bpow radix2 1) with 2. pose proof (bpow_gt_0 radix2 (-390)). lra. }
  assert (LQ : 4725 / 1000000 * Bx dos k <= large_slack k dos).
  { unfold Bx, large_slack. destruct k; [change (bpow radix2 (-20)) with (/ 1048576); lra|change (bpow radix2 (-17)) with (/ 131072); lra|]. change (-778)%Z with (2 + -780)%Z. rewrite bpow_plus. change (bpow radix2 2) with 4. pose proof (bpow_gt_0 radix2 (-780)). lra. }
  split; [exact F|]. split; [exact R0|]. split.
  - apply Rle_trans with (1 := D1). apply Rplus_le_compat; [apply Rmult_le_compat_r; lra|lra].
  - apply Rle_trans with (1 := D2). apply Rplus_le_compat; [apply Rmult_le_compat_r; lra|lra].
Qed.
Theorem C89_ratings : pow_ranges -> trig_ranges -> pow_close -> log_close -> skill_maths -> forall fuel objs d dos a, create_difficulty_objects objs d = Ok dos -> plain d dos -> Forall time_ok (clock_times objs d) ->
  calculate_single fuel objs d = Ok a ->
  let near k x := let r := map_stars k d dos in is_finite x = true /\ 0 <= r /\ Rabs (B2R x - r) <= rel_slack k dos * r + small_slack k dos /\ r * Rabs (B2R x - r) <= rel_slack k dos * r ^ 2 + large_slack k dos in
  near (Aim true) (at_Aim a) /\ (mactive (d_Mods d) Relax = false -> near Speed (at_Speed a)) /\ (mactive (d_Mods d) Flashlight = true -> near Flash (at_Flashlight a)).
Proof.
  intros PR TR PC LC SM fuel objs d dos a C PL T H near. destruct (C66_ratings fuel objs d dos a C T H) as (A & N & S & PA & PN & PS & EA & _ & ES & EF). unfold near. cbv zeta. split; [rewrite EA; now apply C89_stars|]. split.
  - intros RX. rewrite (ES RX). now apply C89_stars.
  - intros FL. destruct (EF FL) as (F & PF & ->). now apply C89_stars.
Qed.
End WithLibm.

(** ** What is assumed of libm can be met together *)
Lemma of_R_in v j : (0 <= j <= 1000)%Z -> 0 <= v <= bpow radix2 j -> within 0 (bpow radix2 j) (of_R v) /\ (1 <= v -> 1 <= B2R (of_R v)).
Proof.
  intros J H. destruct (of_R_ok v) as (F & E); [rewrite Rabs_pos_eq by lra; apply Rle_trans with (1 := proj2 H), bpow_le; lia|]. split.
  - split; [exact F|]. rewrite E. split; [now apply rnd64_pos|]. apply round_le_generic; [typeclasses eauto|typeclasses eauto|apply generic_format_bpow; unfold SpecFloat.fexp, SpecFloat.emin; lia|lra].
  - intros P. rewrite E. apply (rnd64_exact_Z' 1); [lia|exact P].
Qed.
Lemma Rpower_mono x y a b : 1 <= x <= y -> 0 <= a <= b -> Rpower x a <= Rpower y b.
Proof.
  intros X A. unfold Rpower. assert (LX : 0 <= ln x) by (rewrite <- ln_1; apply ln_le'; lra). assert (LY : ln x <= ln y) by (apply ln_le'; lra). assert (P : a * ln x <= b * ln y) by (apply Rmult_le_compat; lra). destruct P as [P|P]; [left; now apply exp_increasing|rewrite P; apply Rle_refl].
Qed.
Lemma Rpower_ge1 x a : 1 <= x -> 0 <= a -> 1 <= Rpower x a.
Proof. intros X A. rewrite <- (Rpower_O 1) by lra. apply Rpower_mono; lra. Qed.
Lemma exact_ranges : @pow_ranges exact_libm.
Proof.
  constructor; cbn [mpow exact_libm].
  - intros x y _ _ X Y. apply (of_R_in _ 0); [lia|]. change (bpow radix2 0) with 1. unfold exact_pow. destruct (Req_EM_T (B2R x) 0); [destruct (Rlt_dec 0 (B2R y)); lra|]. rewrite Rabs_pos_eq by lra. pose proof (power_unit (B2R x) (B2R y) ltac:(lra) Y). lra.
  - intros x y k n _ _ K KN X Y. unfold exact_pow. destruct (Req_EM_T (B2R x) 0); [lra|]. rewrite Rabs_pos_eq by lra. assert (N : (0 <= n)%Z) by (apply le_IZR; lra). assert (G : 1 <= Rpower (B2R x) (B2R y) <= bpow radix2 (k * n)).
    { split; [apply Rpower_ge1; lra|]. apply Rle_trans with (Rpower (bpow radix2 k) (IZR n)); [apply Rpower_mono; lra|]. rewrite !bpow_exp. unfold Rpower. rewrite ln_exp, mult_IZR. apply Req_le. f_equal. ring. }
    assert (KN0 : (0 <= k * n)%Z) by (apply Z.mul_nonneg_nonneg; lia). destruct (of_R_in (Rpower (B2R x) (B2R y)) (k * n + 1)) as ((F & B) & O); [lia|split; [lra|apply Rle_trans with (1 := proj2 G), bpow_le; lia]|]. split; [exact F|]. split; [apply O; lra|lra].
  - intros x y _ _ X Y. apply (of_R_in _ 0); [lia|]. change (bpow radix2 0) with 1. unfold exact_pow. destruct (Req_EM_T (B2R x) 0); [lra|]. rewrite Rabs_pos_eq by lra. split; [left; apply exp_pos|]. replace (B2R y) with (- (- B2R y)) by ring. rewrite Rpower_Ropp. pose proof (Rpower_ge1 (B2R x) (- B2R y) X ltac:(lra)). rewrite <- Rinv_1. apply Rinv_le_contravar; lra.
  - intros x k _ K X. destruct (fq1_exact 2) as (_ & ->); [lia|]. change 2 with (INR 2). rewrite exact_power by lia. rewrite pow2_abs. apply of_R_in; [lia|]. split; [apply pow2_ge_0|]. apply Rle_trans with (bpow radix2 (k + k)); [|apply bpow_le; lia]. rewrite bpow_plus, <- pow2_abs. replace (Rabs (B2R x) ^ 2) with (Rabs (B2R x) * Rabs (B2R x)) by ring. pose proof (Rabs_pos (B2R x)). apply Rmult_le_compat; lra.
Qed.
Lemma exact_trig : @trig_ranges exact_libm.
Proof.
  constructor; cbn [msin mcbrt exact_libm].
  - intros x _. apply (of_R_unit (sin (B2R x)) (SIN_bound _)).
  - intros x F X. apply (proj1 (@unit_square exact_libm exact_skill x F X)).
  - intros x k K (_ & X). apply of_R_in; [lia|]. rewrite Rabs_pos_eq by lra. split; [apply rpow_nn|]. unfold rpow. destruct (Req_EM_T (B2R x) 0); [apply bpow_ge_0|]. destruct (Rle_dec (B2R x) 1) as [L|L].
    + pose proof (power_unit (B2R x) (1 / 3) ltac:(lra) ltac:(lra)). apply Rle_trans with 1; [lra|]. change 1 with (bpow radix2 0). apply bpow_le. lia.
    + apply Rle_trans with (2 := proj2 X). apply Rle_trans with (Rpower (B2R x) 1); [apply Rpower_mono; lra|]. rewrite Rpower_1 by lra. apply Rle_refl.
Qed.
(** The same functions, with 1 to any power computed, and the two-argument
    arctangent of the sample libm, so that samples with angles and sliders can
    be computed. *)
Definition one_pow (x y : f64) : f64 := if feq x (fq 1 1) then fq 1 1 else @mpow exact_libm x y.
Definition blend_libm : libm := {| mpow := one_pow; mlog10 := @mlog10 exact_libm; mcbrt := @mcbrt exact_libm; msin := @msin exact_libm; mcos := @mcos exact_libm; macos := @macos exact_libm; matan2 := @matan2 calm_libm |}.
Lemma one_same x y : is_finite (one_pow x y) = is_finite (@mpow exact_libm x y) /\ B2R (one_pow x y) = B2R (@mpow exact_libm x y).
Proof.
  unfold one_pow. destruct (feq x (fq 1 1)) eqn:E; [|auto]. destruct (fq1_exact 1) as (F1 & E1); [lia|]. destruct (is_finite x) eqn:FX.
  - unfold feq in E. rewrite Beqb_correct in E by assumption. assert (X : B2R x = 1) by (revert E; case Req_bool_spec; [intros H _; rewrite H; exact E1|discriminate]).
    cbn [mpow exact_libm]. unfold exact_pow. rewrite X. destruct (Req_EM_T 1 0); [lra|]. rewrite Rabs_R1. assert (P : Rpower 1 (B2R y) = 1) by (unfold Rpower; rewrite ln_1, Rmult_0_r; apply exp_0). rewrite P. destruct (of_R_ok 1) as (F & B); [rewrite Rabs_R1; change 1 with (bpow radix2 0); apply bpow_le; lia|]. rewrite F, B, F1, E1. split; [reflexivity|]. symmetry. apply (round_generic radix2 _ _ 1). change 1 with (bpow radix2 0). apply generic_format_bpow. cbn. lia.
  - exfalso. destruct x as [s|[|]| |s m e b]; try discriminate FX; revert E; vm_compute; discriminate.
Qed.
Lemma blend_ok : @pow_ranges blend_libm /\ @trig_ranges blend_libm /\ @pow_close blend_libm /\ @log_close blend_libm /\ @skill_maths blend_libm.
Proof.
  assert (W : forall lo hi x y, within lo hi (@mpow exact_libm x y) -> within lo hi (one_pow x y)) by (intros lo hi x y (F & B); destruct (one_same x y) as (F' & B'); split; [now rewrite F'|now rewrite B']).
  split; [destruct exact_ranges as [a b c e]; constructor; intros; apply W; auto|]. split; [destruct exact_trig as [a b c]; constructor; [exact a|intros; apply W; auto|exact c]|].
  split; [destruct exact_close as [a b c]; constructor; cbn [mpow blend_libm]; intros; match goal with |- context [one_pow ?x ?y] => destruct (one_same x y) as (F' & B'); rewrite F', B' end; auto|]. split; [exact exact_log|]. destruct exact_skill as [a b c]; constructor; [exact a| |]; cbn [mpow blend_libm]; intros; match goal with |- context [B2R (one_pow ?x ?y)] => destruct (one_same x y) as (F' & B'); rewrite B' end; (split; [apply W|]); [apply b|apply b|apply c|apply c]; auto.
Qed.

(** ** Concrete cases *)
(** A single speed peak of 100 counts 75 % and 1.04 times: 78. *)
Example C87_instance : @log_close exact_libm /\ Forall (within 0 (bpow radix2 100)) [fq 20 1; fq 30 1; fq 10 1] /\
  value_R Speed [100] = 78 /\ sort_R [20; 30; 10] = [30; 20; 10] /\ weighed (9 / 10) [30; 20; 10] = 561 / 10.
Proof.
  split; [exact exact_log|]. split.
  { assert (W : forall z, (0 <= z <= 100)%Z -> within 0 (bpow radix2 100) (fq z 1)). { intros z Z. destruct (fq1_exact z) as (F & E); [lia|]. split; [exact F|]. rewrite E. split; [apply (IZR_le 0); lia|]. apply Rle_trans with 100; [apply IZR_le; lia|]. change (bpow radix2 100) with 1267650600228229401496703205376. lra. } repeat (apply Forall_cons; [apply W; lia|]). apply Forall_nil. }
  split. { unfold value_R, share_R, log10, sort_R, lessen. cbn [fold_right put top_peaks Nat.ltb Nat.leb weighed fading_R scale_R]. unfold share_R, log10. cbn [INR]. replace (1 + 9 * (0 / _)) with 1 by (unfold Rdiv; rewrite Rmult_0_l, Rmult_0_r; ring). rewrite ln_1. unfold Rdiv. rewrite !Rmult_0_l. lra. }
  split; [unfold sort_R; cbn [fold_right put]; destruct (Rlt_dec 30 10); [lra|]; cbn [put]; destruct (Rlt_dec 20 30); [|lra]; cbn [put]; destruct (Rlt_dec 20 10); [lra|reflexivity]|]. cbn [weighed]. lra.
Qed.
(** Objects that bring 1, 2 and 3, half a second apart: the first has faded by a
    full second, the second by half of one. *)
Example C88_formula : strain_R Flash [0; 500; 500] [1; 2; 3] 2 = 15 / 100 * (15 / 100 + 2 * Rpower (15 / 100) (1 / 2) + 3).
Proof.
  unfold strain_R, faded_sum, elapsed. cbn [seq map nth rsum fold_right Nat.sub skipn firstn weight_R base_R]. replace ((500 + (500 + 0)) / 1000) with 1 by lra. replace ((500 + 0) / 1000) with (1 / 2) by lra. replace (0 / 1000) with 0 by lra. rewrite Rpower_1, Rpower_O by lra. ring.
Qed.
(** Eight objects, one of them a slider, with a libm that meets what is assumed:
    the map meets the hypotheses, and it is rated. *)
Definition pattern_dos : list dobj := match @create_difficulty_objects blend_libm pattern PropDiff.demo_diff with Ok l => l | _ => [] end.
Lemma pattern_created : @create_difficulty_objects blend_libm pattern PropDiff.demo_diff = Ok pattern_dos.
Proof.
  assert (E : match @create_difficulty_objects blend_libm pattern PropDiff.demo_diff with Ok _ => true | _ => false end = true) by (vm_compute; reflexivity). unfold pattern_dos. destruct (create_difficulty_objects pattern PropDiff.demo_diff) as [l| |]; [exact eq_refl|discriminate E|discriminate E].
Qed.
Opaque pattern_dos.
Lemma all_dos (f : dobj -> bool) : forallb f pattern_dos = true -> forall i o, nth_error pattern_dos i = Some o -> f o = true.
Proof. intros A i o H. rewrite forallb_forall in A. apply A. now apply nth_error_In in H. Qed.
Lemma nth_seq_pair {A} (l : list A) n : length l = n -> forall i x, nth_error l i = Some x -> In (i, x) (combine (seq 0 n) l).
Proof. intros <- i x H. apply (nth_combine_seq _ 0) in H. now apply nth_error_In in H. Qed.
Definition pair_check (ip jo : nat * dobj) : bool :=
  negb (fst ip <? fst jo)%nat || (near_check (snd jo) (snd ip) && fle (do_StartTime (snd ip)) (do_StartTime (snd jo))).
Lemma pattern_len : length pattern_dos = 7%nat. Proof. vm_compute. reflexivity. Qed.
Lemma pattern_whole i o : nth_error pattern_dos i = Some o -> whole (do_StartTime o) = true /\ whole (do_StrainTime o) = true.
Proof. intros H. assert (A : forallb (fun o => whole (do_StartTime o) && whole (do_StrainTime o)) pattern_dos = true) by (vm_compute; reflexivity). apply andb_prop. exact (all_dos _ A i o H). Qed.
Lemma pattern_sane' i o : nth_error pattern_dos i = Some o -> sane 16 o /\ brisk o.
Proof. intros H. apply sane_check_ok. assert (A : forallb sane_check pattern_dos = true) by (vm_compute; reflexivity). exact (all_dos _ A i o H). Qed.
Lemma pattern_start i o : nth_error pattern_dos i = Some o -> within 200 1100 (do_StartTime o).
Proof. intros H. assert (A : forallb (fun o => inb 200 1100 (do_StartTime o)) pattern_dos = true) by (vm_compute; reflexivity). apply (all_dos _ A) in H. apply inb_ok in H; [exact H|lia|lia]. Qed.
Lemma Forall_nth_error {A} (P : A -> Prop) l : (forall i x, nth_error l i = Some x -> P x) -> Forall P l.
Proof. intros H. apply Forall_forall. intros x I. apply In_nth_error in I as (i & I). now apply (H i). Qed.
Lemma pattern_plain : plain PropDiff.demo_diff pattern_dos.
Proof.
  constructor.
  - exact PropDist.demo_clocked.
  - apply Forall_nth_error. intros i o H. now apply pattern_sane' in H.
  - apply Forall_nth_error. intros i o H. split; [|now apply pattern_sane' in H]. assert (A : forallb (fun o => inb 0 300000 (do_DeltaTime o)) pattern_dos = true) by (vm_compute; reflexivity). apply (all_dos _ A) in H. apply inb_ok in H; [exact (proj2 (proj2 H))|lia|lia].
  - apply Forall_nth_error. intros i o H. apply pattern_start in H as (F & B). split; [split; [exact F|]|]; rewrite ?Rabs_pos_eq by lra; [|lra]. split; [lra|]. right. apply Rle_trans with (bpow radix2 0); [apply bpow_le; lia|change (bpow radix2 0) with 1; lra].
  - apply Forall_nth_error. intros i o H. assert (A : forallb angle_check pattern_dos = true) by (vm_compute; reflexivity). apply (all_dos _ A) in H. apply orb_prop in H. exact H.
  - intros j i p o L P O. assert (A : forallb (fun ip => forallb (pair_check ip) (combine (seq 0 7) pattern_dos)) (combine (seq 0 7) pattern_dos) = true) by (vm_compute; reflexivity). rewrite forallb_forall in A. specialize (A _ (nth_seq_pair _ _ pattern_len _ _ P)). rewrite forallb_forall in A. specialize (A _ (nth_seq_pair _ _ pattern_len _ _ O)). unfold pair_check in A. cbn [fst snd] in A. apply Nat.ltb_lt in L. rewrite L in A. cbn [negb orb] in A. apply andb_prop in A as (A1 & A2).
    split; [apply inb_ok in A1; [exact A1|lia|lia]|]. apply ValueBounds.fle_fin in A2; [exact A2|apply (pattern_start j p P)|apply (pattern_start i o O)].
  - intros i p o P O. split; [|split].
    + assert (A : forallb (fun ip => forallb (fun jo => negb (fst jo =? S (fst ip))%nat || link_check (snd jo) (snd ip)) (combine (seq 0 7) pattern_dos)) (combine (seq 0 7) pattern_dos) = true) by (vm_compute; reflexivity). rewrite forallb_forall in A. specialize (A _ (nth_seq_pair _ _ pattern_len _ _ P)). rewrite forallb_forall in A. specialize (A _ (nth_seq_pair _ _ pattern_len _ _ O)). cbn [fst snd] in A. rewrite Nat.eqb_refl in A. cbn [negb orb] in A. now apply link_check_ok.
    + apply pattern_whole in P as (_ & Wp), O as (_ & Wo). apply whole_ok in Wp as (Ea & Ba), Wo as (Eb & Bb). unfold rhythm_clear. rewrite Ea, Eb, Rmin_IZR', Rmax_IZR'. apply (clear_quarters _ _ (5 * Z.min (ms (do_StrainTime o)) (ms (do_StrainTime p))) (4 * Z.max (ms (do_StrainTime o)) (ms (do_StrainTime p)))); rewrite ?mult_IZR; try lra; lia.
    + apply pattern_start in P as (_ & P), O as (_ & O). lra.
  - intros i j l p c cur _ L P C O. apply pattern_whole in L, P, C, O. apply steps_clear; [apply O|]. repeat (apply Forall_cons; [assumption|]). apply Forall_nil.
  - rewrite pattern_len. lia.
Qed.
Example C89_instance : @pow_ranges blend_libm /\ @trig_ranges blend_libm /\ @pow_close blend_libm /\ @log_close blend_libm /\ @skill_maths blend_libm /\
  @create_difficulty_objects blend_libm pattern PropDiff.demo_diff = Ok pattern_dos /\ plain PropDiff.demo_diff pattern_dos /\ length pattern_dos = 7%nat /\
  Forall time_ok (clock_times pattern PropDiff.demo_diff) /\ exists a, @calculate_single blend_libm 5 pattern PropDiff.demo_diff = Ok a.
Proof.
  destruct blend_ok as (B1 & B2 & B3 & B4 & B5). split; [exact B1|]. split; [exact B2|]. split; [exact B3|]. split; [exact B4|]. split; [exact B5|]. split; [exact pattern_created|]. split; [exact pattern_plain|]. split; [exact pattern_len|].
  assert (T : Forall time_ok (clock_times pattern PropDiff.demo_diff)).
  { apply C41_ordinary; [rewrite speed1; apply (fq1_exact 1); lia|rewrite speed1; destruct (fq1_exact 1) as (_ & ->); [lia|lra]|]. unfold pattern. apply Forall_cons; [in_ms; now left|]. repeat (apply Forall_cons; [in_ms; right; rewrite Rabs_pos_eq; lra|]). constructor. }
  split; [exact T|]. destruct (@in_range blend_libm pattern PropDiff.demo_diff pattern_dos pattern_created T) as (T' & E).
  destruct (@run_sections blend_libm 5 PropDiff.demo_diff pattern_dos T') as (s & F & _).
  { rewrite E. unfold clock_times, pattern. cbn [tl map at_ms ho_start]. rewrite speed1, !ms_clock by lia. unfold boundaries, last_section, section_of. cbn [fold_left].
    rewrite (Zceil_imp 1 (200 / 400)), (Zceil_imp 1 (400 / 400)), (Zceil_imp 2 (500 / 400)), (Zceil_imp 2 (600 / 400)), (Zceil_imp 2 (700 / 400)), (Zceil_imp 3 (900 / 400)), (Zceil_imp 3 (1100 / 400)) by (cbn [Z.sub Z.add Z.opp Z.pos_sub Pos.pred_double]; lra). cbn. lia. }
  pose proof pattern_created as C. unfold pattern in C |- *. eexists. unfold calculate_single. rewrite (@single_full_eq blend_libm 5 _ _ _ _ C), F. cbn [bind rmap]. exact eq_refl.
Qed.

Print Assumptions C87_value. Print Assumptions C87_stars. Print Assumptions C87_sorted.
Print Assumptions C87_order. Print Assumptions C88_strain. Print Assumptions C88_peaks. Print Assumptions C89_stars. Print Assumptions C89_ratings.

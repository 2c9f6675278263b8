(** C68: pp of a map, from its objects to the performance points. *)
From Coq Require Import Reals Lra.
From Flocq Require Import Core BinarySingleNaN.
From Verif Require Import SpecMods ModsProofs PP SpecPP SpecDiff SpecDifficulty SpecSane BaseLemmas FloatLemmas PPBounds PPFinal PPMono PPWide DiffProofs DifficultyProofs PropPP PropDiff PropRatings PropStrain.
Open Scope Z_scope.

Section WithLibm.
Context {M : libm}.
Lemma how_many_upto f (l : list hobj) : 0 <= how_many f l <= zlen l.
Proof. unfold how_many, zlen. induction l as [|o l IH]; [cbn; lia|]. cbn [filter]. destruct (f o); cbn [length]; lia. Qed.
Lemma wide_of objs a : rated a -> counts_of objs a -> zlen objs + sum_points objs <= 2 ^ 31 -> attrs_wide a.
Proof.
  intros (R1 & R2 & R3 & R4 & _) (C1 & C2 & C3 & C4 & C5) N. pose proof (sum_points_pos objs). unfold attrs_wide. rewrite C1, C2, C3, C4, C5.
  pose proof (how_many_upto (fun o => match ho_kind o with KCircle => true | _ => false end) objs). pose proof (how_many_upto (fun o => match ho_kind o with KSlider _ => true | _ => false end) objs).
  pose proof (how_many_upto (fun o => match ho_kind o with KSpinner => true | _ => false end) objs).
  split; [exact R1|]. split; [exact R2|]. split; [exact R3|]. split; [exact R4|]. lia.
Qed.
Lemma wide_valid pp a combo n300 n100 n50 nmiss d : pow_ranges -> log_above -> pow_total -> attrs_wide a -> diff_ok d -> hits_upto (2 ^ 31) n300 n100 n50 nmiss -> 0 <= combo <= 2 ^ 31 ->
  (Z.testbit (d_Mods d) bSO = true -> at_Spinners a <= n300 + n100 + n50 + nmiss) ->
  valid_results (pp_Results (ppv2x pp a combo n300 n100 n50 nmiss d)).
Proof.
  intros PR LR PT A D H C SP. rewrite results_at.
  assert (SO : spun_ok a d (n300 + n100 + n50 + nmiss)) by (intros S; apply SP; change SpunOut with (2 ^ 12) in S; rewrite mactive_bit in S by lia; exact S).
  destruct (wide_bd PR LR PT pp a n300 n100 n50 nmiss d combo A D H C SO) as (B1 & B2 & B3 & B4 & B5). exists (bpow radix2 776).
  split; [eapply PropRatings.bd_within; [exact B1|lia]|]. split; [eapply PropRatings.bd_within; [exact B2|lia]|]. split; [eapply PropRatings.bd_within; [exact B3|lia]|]. split; [eapply PropRatings.bd_within; [exact B4|lia]|]. eapply PropRatings.bd_within; [exact B5|lia].
Qed.

(** C68.  Every play of a map is worth a finite, non-negative pp: any hits on
    its objects, any combo, with the attributes CalculateSingle gives, ... *)
Theorem C68_valid : forall fuel objs d a pp combo n300 n100 n50 nmiss,
  pow_ranges -> trig_ranges -> log_unit -> log_above -> pow_total -> clocked d -> diff_ok d ->
  Forall (tidy 32 d) objs -> in_order objs -> zlen objs + sum_points objs <= 2 ^ 31 ->
  calculate_single fuel objs d = Ok a ->
  hits_upto (zlen objs) n300 n100 n50 nmiss -> 0 <= combo <= zlen objs + sum_points objs ->
  (Z.testbit (d_Mods d) bSO = true -> n300 + n100 + n50 + nmiss = zlen objs) ->
  valid_results (pp_Results (ppv2x pp a combo n300 n100 n50 nmiss d)).
Proof.
  intros fuel objs d a pp combo n300 n100 n50 nmiss PR TR LU LR PT CD D T O N H HI C SO. pose proof (sum_points_pos objs) as SP.
  pose proof (C67_single fuel objs d a PR TR LU CD T O ltac:(lia) H) as R. pose proof (C40_counts fuel objs d a H) as CO. apply wide_valid; auto; [now apply (wide_of objs)| |lia|].
  - unfold hits_upto in *. lia.
  - intros S. rewrite (SO S). destruct CO as (_ & _ & _ & -> & _). apply how_many_upto.
Qed.
(** ... or, for an unfinished play, the entry of CalculateStep for the objects
    played so far ... *)
Theorem C68_step : forall fuel objs d l i a pp combo n300 n100 n50 nmiss,
  pow_ranges -> trig_ranges -> log_unit -> log_above -> pow_total -> clocked d -> diff_ok d ->
  Forall (tidy 32 d) objs -> in_order objs -> zlen objs + sum_points objs <= 2 ^ 31 ->
  calculate_step fuel objs d = Ok l -> nth_error l i = Some a ->
  hits_upto (Z.of_nat (S i)) n300 n100 n50 nmiss -> 0 <= combo <= zlen objs + sum_points objs ->
  (Z.testbit (d_Mods d) bSO = true -> n300 + n100 + n50 + nmiss = Z.of_nat (S i)) ->
  valid_results (pp_Results (ppv2x pp a combo n300 n100 n50 nmiss d)).
Proof.
  intros fuel objs d l i a pp combo n300 n100 n50 nmiss PR TR LU LR PT CD D T O N H I HI C SO. pose proof (sum_points_pos objs) as SP.
  pose proof (C67_step fuel objs d l PR TR LU CD T O ltac:(lia) H) as R. rewrite Forall_forall in R. pose proof (R a (nth_error_In _ _ I)) as RA. pose proof (step_counts _ _ _ _ _ _ H I) as CO.
  assert (LI : (i < length objs)%nat) by (destruct (step_facts _ _ _ _ H) as (<- & _); apply nth_error_Some; congruence).
  assert (LE : zlen (firstn (S i) objs) = Z.of_nat (S i)) by (unfold zlen; rewrite firstn_length; lia).
  assert (SE : sum_points (firstn (S i) objs) <= sum_points objs). { pose proof (sum_points_app (firstn (S i) objs) (skipn (S i) objs)) as E. rewrite firstn_skipn in E. pose proof (sum_points_pos (skipn (S i) objs)). lia. }
  assert (ZL : Z.of_nat (S i) <= zlen objs) by (unfold zlen; lia). apply wide_valid; auto; [apply (wide_of (firstn (S i) objs)); auto; lia| |lia|].
  - unfold hits_upto in *. lia.
  - intros S. rewrite (SO S), <- LE. destruct CO as (_ & _ & _ & -> & _). apply how_many_upto.
Qed.
(** ... and so is the best play, asked for with the defaults. *)
Theorem C68_best : forall fuel objs d a pp,
  pow_ranges -> trig_ranges -> log_unit -> log_above -> pow_total -> clocked d -> diff_ok d ->
  Forall (tidy 32 d) objs -> in_order objs -> zlen objs + sum_points objs <= 2 ^ 31 ->
  calculate_single fuel objs d = Ok a -> valid_results (pp_Results (ppv2x pp a (-1) (-1) 0 0 0 d)).
Proof.
  intros fuel objs d a pp PR TR LU LR PT CD D T O N H. pose proof (sum_points_pos objs) as SP. pose proof (C40_counts fuel objs d a H) as (C1 & _ & _ & _ & C5). assert (L : 0 <= zlen objs) by (unfold zlen; lia).
  destruct objs as [|o r]; [unfold calculate_single in H; rewrite single_nil in H; discriminate H|]. assert (L1 : 1 <= zlen (o :: r)) by (unfold zlen; cbn [length]; lia).
  rewrite C47_combo, C47_greats by lia. rewrite C5, C1. apply (C68_valid fuel (o :: r)); auto; try (unfold hits_upto; lia); try lia.
Qed.
(** Difficulties made by NewDifficulty from settings between 0 and 10 and clock
    rates between 1/4 and 4 qualify. *)
Theorem C68_difficulty : forall hp cs od ar m sp, base_ok cs -> base_ok od -> base_ok ar -> within (1 / 4) 4 sp ->
  clocked (SpecDifficulty.built hp cs od ar m sp) /\ diff_ok (SpecDifficulty.built hp cs od ar m sp).
Proof. intros hp cs od ar m sp C O A S. split; [now apply C67_difficulty|]. apply C51_difficulty; auto. destruct S as (F & B). split; [exact F|lra]. Qed.
End WithLibm.

(** ** A concrete case *)
Lemma calm_above : @log_above calm_libm. Proof. intros x F B. split; [reflexivity|]. change (B2R (@mlog10 calm_libm x)) with 0%R. lra. Qed.
Lemma calm_total : @pow_total calm_libm.
Proof.
  intros x k F K B. assert (F1 : is_finite (fq 11 10) = true) by (vm_compute; reflexivity). assert (E : @mpow calm_libm x (fq 11 10) = fabs x).
  { change (@mpow calm_libm x (fq 11 10)) with (if fle (fq 11 10) f0 then fq 1 1 else fabs x). assert (L : fle (fq 11 10) f0 = false) by (vm_compute; reflexivity). rewrite L. reflexivity. }
  rewrite E. destruct (fabs_fin x F) as (FA & EA). split; [exact FA|]. rewrite EA, Rabs_pos_eq by lra. split; [apply B|]. apply Rle_trans with (bpow radix2 k); [apply B|]. apply bpow_le. pose proof (Z.div_le_lower_bound (k * 11) 10 k ltac:(lia) ltac:(lia)). lia.
Qed.
Lemma diff_sane m : clocked (SpecDifficulty.built (fq 5 1) (fq 4 1) (fq 8 1) (fq 9 1) m (fq 1 1)) /\ diff_ok (SpecDifficulty.built (fq 5 1) (fq 4 1) (fq 8 1) (fq 9 1) m (fq 1 1)).
Proof.
  apply (@C68_difficulty); [split; vm_compute; reflexivity|split; vm_compute; reflexivity|split; vm_compute; reflexivity|]. destruct (fq1_exact 1) as (F & E); [lia|]. split; [exact F|]. rewrite E. lra.
Qed.
(** pp in millionths *)
Definition shown (r : pp_results) : list Z := map (fun x => hundredths (fmul (fq 10000 1) x)) [r_Aim r; r_Speed r; r_Acc r; r_Total r].
Example C68_instance : @pow_ranges calm_libm /\ @trig_ranges calm_libm /\ @log_unit calm_libm /\ @log_above calm_libm /\ @pow_total calm_libm /\ clocked PropDiff.demo_diff /\ diff_ok PropDiff.demo_diff /\
  Forall (@tidy 32 PropDiff.demo_diff) long_demo /\ in_order long_demo /\ zlen long_demo + sum_points long_demo = 8 /\
  option_map (fun a => (shown (pp_Results (@ppv2x calm_libm pp0 a (-1) (-1) 0 0 0 PropDiff.demo_diff)), shown (pp_Results (@ppv2x calm_libm pp0 a 5 4 1 0 1 PropDiff.demo_diff)))) (view (@calculate_single calm_libm 9 long_demo PropDiff.demo_diff)) = Some ([432; 227; 17224; 20031], [157; 82; 10047; 11523]).
Proof.
  split; [exact calm_pow|]. split; [exact calm_trig|]. split; [exact calm_log|]. split; [exact calm_above|]. split; [exact calm_total|].
  assert (E : PropDiff.demo_diff = SpecDifficulty.built (fq 5 1) (fq 4 1) (fq 8 1) (fq 9 1) 0 (fq 1 1)) by (unfold PropDiff.demo_diff; rewrite new_built; reflexivity).
  split; [rewrite E; exact (proj1 (diff_sane 0))|]. split; [rewrite E; exact (proj2 (diff_sane 0))|]. split; [exact demo_tidy|]. split; [exact demo_order|]. vm_compute. split; [reflexivity|]. reflexivity.
Qed.

Print Assumptions C68_valid. Print Assumptions C68_step. Print Assumptions C68_best. Print Assumptions C68_difficulty.

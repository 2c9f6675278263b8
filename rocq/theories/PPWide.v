(** The bounds of [PPMono] for the wider ratings of the star calculation. *)
From Coq Require Import Reals Lra.
From Flocq Require Import Raux Zaux Core BinarySingleNaN.
From Verif Require Import PP SpecPP BaseLemmas FloatLemmas Float32Lemmas SkillProofs CurveProofs PPProofs PPBounds PPChains PPFinal PPMono.
Open Scope R_scope.
Ltac bdc := apply bd_const; [vm_compute; reflexivity|vm_compute; reflexivity|vm_compute; reflexivity|lia].

Section WithLibm.
Context {M : libm}.
Context (PR : pow_ranges) (LR : log_above) (PT : pow_total).

(** the slider nerf with a slider factor that may exceed one *)
Lemma blend_bd s c : bd 145 s -> bd 0 c -> bd 146 (fadd (fmul (fsub (fq 1 1) s) c) s).
Proof.
  intros S C. apply bd_iff in S as (Fs & Bs). apply bd_iff in C as (Fc & Bc). change (bpow radix2 0) with 1 in Bc. destruct one_val as (F1 & E1).
  assert (P : 1 <= bpow radix2 145) by (change 1 with (bpow radix2 0); apply bpow_le; lia). assert (U : bpow radix2 145 <= bpow radix2 1023) by (apply bpow_le; lia).
  destruct (fsub_fin _ _ F1 Fs) as (Ft & Et); [rewrite E1; apply Rabs_le; lra|]. rewrite E1 in Et.
  set (t := fsub (fq 1 1) s) in *. clearbody t.
  assert (T1 : - B2R s <= B2R t). { rewrite <- B2R_Bopp. rewrite Et. apply rnd64_ge_f. rewrite B2R_Bopp. lra. }
  assert (T2 : B2R t <= 1) by (rewrite Et; apply (rnd64_exact_Z 1); [lia|lra]).
  assert (TC : - B2R s <= B2R t * B2R c <= 1) by nra.
  destruct (fmul_fin _ _ Ft Fc) as (Fm & Em); [apply Rabs_le; lra|]. set (m := fmul t c) in *. clearbody m.
  assert (M1 : - B2R s <= B2R m). { rewrite <- B2R_Bopp. rewrite Em. apply rnd64_ge_f. rewrite B2R_Bopp. lra. }
  assert (M2 : B2R m <= 1) by (rewrite Em; apply (rnd64_exact_Z 1); [lia|lra]).
  assert (D : bpow radix2 146 = 2 * bpow radix2 145) by (change 146%Z with (1 + 145)%Z; rewrite bpow_plus; change (bpow radix2 1) with 2; ring). assert (U2 : bpow radix2 146 <= bpow radix2 1023) by (apply bpow_le; lia).
  destruct (fadd_fin _ _ Fm Fs) as (Fa & Ea); [apply Rabs_le; lra|]. apply bd_iff. split; [exact Fa|]. rewrite Ea. split; [apply rnd64_pos; lra|]. apply rnd_le_pow; [lia|]. lra.
Qed.
Lemma nerf_wide p : within 0 (bpow radix2 145) (at_SliderFactor (pp_attribs p)) -> (0 <= at_Sliders (pp_attribs p) <= 2 ^ 31)%Z -> int64 (missed p) -> bd 146 (nerf p).
Proof.
  intros SF SL I. rewrite nerf_eq. destruct (Z.ltb_spec 0 (at_Sliders (pp_attribs p))) as [S|S]; [|apply (le2_le 0); [lia|exact bd_one]].
  apply blend_bd; [apply (within_bd _ _ _ SF), Rle_refl|]. destruct three_val as (F3 & B3). apply (unit_bd PR); [|exact F3|exact B3]. apply le2_compl.
  destruct (eds_val (at_Sliders (pp_attribs p))) as (Fe & Pe); [lia|]. destruct (fZ_int _ I) as (Fi & _). apply drop_le2; auto. lra.
Qed.
(** the total *)
Lemma pow11_bd r k : bd k r -> (0 <= k <= 700)%Z -> bd (k * 11 / 10 + 1) (mpow r (fq 11 10)).
Proof.
  intros H K. apply bd_iff in H as (F & B). destruct exp_11_10 as (Fe & Be). assert (Q : (0 <= k * 11 / 10)%Z) by (apply Z.div_pos; lia). destruct (Rle_dec 1 (B2R r)) as [L|L].
  - destruct (PT r k F ltac:(lia) ltac:(lra)) as (Fp & Bp). apply bd_iff. split; [exact Fp|]. lra.
  - apply (le2_le 0); [lia|]. apply (within_bd _ 1); [|apply Rle_refl]. apply (pow_unit PR); auto; lra.
Qed.
Lemma total_wide r1 r2 r3 r4 fm : bd 700 r1 -> bd 700 r2 -> bd 700 r3 -> bd 700 r4 -> bd 1 fm -> bd 776 (total_of r1 r2 r3 r4 fm).
Proof.
  intros H1 H2 H3 H4 HF. unfold total_of. destruct (unit_exp 10 11) as (Fg & Bg); [bdc|].
  change 776%Z with (775 + 1)%Z. apply le2_mul; [lia|lia|lia| |exact HF]. change 775%Z with (774 * 1 + 1)%Z. apply (pow_bd PR 774 1); auto; try lia.
  assert (P : forall r, bd 700 r -> bd 771 (mpow r (fq 11 10))) by (intros r H; apply (pow11_bd r 700 H); lia).
  apply (le2_add 773); [lia|lia| |apply (le2_le 771); [lia|now apply P]]. apply (le2_add 772); [lia|lia| |apply (le2_le 771); [lia|now apply P]]. apply (le2_add 771); [lia|lia|now apply P|now apply P].
Qed.
(** the same counts with no ratings: what [PPMono] says about hits, combo and misses *)
Definition plain (a : attributes) : attributes := mkAttr f0 f0 f0 f0 f0 (at_ObjectCount a) (at_Circles a) (at_Sliders a) (at_Spinners a) (at_MaxCombo a).
Lemma plain_ok a : attrs_wide a -> attrs_ok (plain a).
Proof.
  intros (_ & _ & _ & _ & A). assert (Z0 : forall h, 0 <= h -> within 0 h f0) by (intros h Hh; split; [reflexivity|]; change (B2R f0) with 0; lra).
  split; [apply Z0; lra|]. split; [apply Z0; lra|]. split; [apply Z0; lra|]. split; [apply Z0; lra|]. exact A.
Qed.
Lemma plain_fields pp a c n300 n100 n50 nmiss d : let st := stated pp a c n300 n100 n50 nmiss d in let s0 := stated pp (plain a) c n300 n100 n50 nmiss d in
  pp_scoreMaxCombo st = pp_scoreMaxCombo s0 /\ pp_great st = pp_great s0 /\ pp_ok st = pp_ok s0 /\ pp_meh st = pp_meh s0 /\ pp_miss st = pp_miss s0 /\ pp_totalHits st = pp_totalHits s0 /\ pp_accuracy st = pp_accuracy s0 /\
    pp_effMiss st = pp_effMiss s0 /\ pp_accObjects st = pp_accObjects s0 /\ at_MaxCombo (pp_attribs st) = at_MaxCombo (pp_attribs s0).
Proof.
  destruct a as [x1 x2 x3 x4 x5 x6 x7 x8 x9 x10]. unfold stated, capped, plain, effective_miss_count. cbv beta zeta. cbn [pp_Results pp_attribs pp_scoreMaxCombo pp_great pp_ok pp_meh pp_miss pp_effMiss pp_diff pp_totalHits pp_accuracy pp_accObjects at_MaxCombo at_ObjectCount at_Circles at_Spinners at_Sliders].
  repeat (split; [reflexivity|]). reflexivity.
Qed.
Lemma plain_eff a c nmiss total : effective_miss_count (capped a) c nmiss total = effective_miss_count (capped (plain a)) c nmiss total.
Proof. destruct a as [x1 x2 x3 x4 x5 x6 x7 x8 x9 x10]. unfold capped, plain, effective_miss_count. cbv beta zeta. cbn [at_MaxCombo at_ObjectCount at_Circles at_Spinners at_Sliders]. reflexivity. Qed.
Lemma wide_bd pp a n300 n100 n50 nmiss d c : attrs_wide a -> diff_ok d -> hits_upto (2 ^ 31) n300 n100 n50 nmiss -> (0 <= c <= 2 ^ 31)%Z -> spun_ok a d (n300 + n100 + n50 + nmiss) ->
  let st := stated pp a c n300 n100 n50 nmiss d in
  bd 700 (compute_aim st d) /\ bd 700 (compute_speed st d) /\ bd 700 (compute_acc st d) /\ bd 700 (compute_flashlight st d) /\ bd 776 (r_Total (results_of st d)).
Proof.
  intros W D H C SP st. pose proof (plain_ok a W) as A. pose proof (st_fields pp (plain a) n300 n100 n50 nmiss d A H c C) as F. pose proof (eff_st pp (plain a) n300 n100 n50 nmiss d A H c C) as E.
  pose proof (eff_range (plain a) n300 n100 n50 nmiss A H c C) as ER. pose proof (sum_total n300 n100 n50 nmiss H) as (_ & TB). pose proof (ea_ok (plain a) A) as (EA & MC & _).
  pose proof (missed_st pp (plain a) n300 n100 n50 nmiss d A H c C) as (_ & MI).
  pose proof (aim_expo pp (plain a) n300 n100 n50 nmiss d A H c C) as (Fa & _ & Ba). pose proof (speed_expo PR pp (plain a) n300 n100 n50 nmiss d A H c C) as (Fs & Bs).
  pose proof (st_ok pp (plain a) n300 n100 n50 nmiss d A H c C) as SO. pose proof (acc_st PR pp (plain a) n300 n100 n50 nmiss d A D H c C) as AC.
  set (s0 := stated pp (plain a) c n300 n100 n50 nmiss d) in *.
  pose proof (plain_fields pp a c n300 n100 n50 nmiss d) as X. cbv zeta in X. fold st s0 in X.
  destruct X as (X1 & X2 & X3 & X4 & X5 & X6 & X7 & X8 & X9 & X10).
  assert (AT : pp_attribs st = capped a) by reflexivity. assert (AT0 : pp_attribs s0 = capped (plain a)) by reflexivity.
  assert (MS : missed st = missed s0) by (unfold missed; rewrite X1, X3, X4, X5, X10; reflexivity).
  assert (ACE : compute_acc st d = compute_acc s0 d) by (unfold compute_acc; rewrite X2, X3, X4, X6, X9; reflexivity).
  destruct F as (E1 & E2 & E3 & E4 & E5 & E6 & E7 & E8 & E9 & E10). assert (N0 : (0 <= nmiss)%Z) by (destruct H; lia).
  clearbody st s0. destruct SO as (_ & S2 & S3 & S4). destruct W as (W1 & W2 & W3 & W4 & W5 & W6 & W7 & W8 & W9).
  assert (SU : state_upto 128 st).
  { unfold state_upto. rewrite AT, X4, X6, X7. split; [|split; [exact S2|split; [exact S3|exact S4]]].
    split; [exact (within_bd _ _ _ W1 (Rle_refl _))|]. split; [exact (within_bd _ _ _ W2 (Rle_refl _))|exact (within_bd _ _ _ W3 (Rle_refl _))]. }
  assert (SM : same_map st st) by (unfold same_map; tauto).
  assert (SC : bd 0 (scal (pp_scoreMaxCombo st) (at_MaxCombo (pp_attribs st)))) by (rewrite X1, X10, E1, E2; apply (scaling_bd PR); auto; lia).
  assert (PE : forall x, fin x -> 0 <= B2R x -> bd 0 (pen (pp_effMiss st) (pp_totalHits st) x)) by (intros x Fx Bx; rewrite X8, X6, E7; apply (penalty_bd PR); auto; lia).
  assert (PA : bd 0 (pen (pp_effMiss st) (pp_totalHits st) (f_of_Z (pp_effMiss st)))) by (apply PE; rewrite X8; auto).
  assert (PS : bd 0 (pen (pp_effMiss st) (pp_totalHits st) (mpow (f_of_Z (pp_effMiss st)) (fq 875 1000)))) by (apply PE; rewrite X8; auto).
  assert (NW : bd 146 (nerf st)) by (apply nerf_wide; rewrite ?AT, ?MS; auto).
  assert (AI : bd 700 (compute_aim st d)) by (apply (le2_le (3 * 128 + 146 + 134)); [lia|]; apply (aim_wide PR LR); auto; lia).
  assert (SPD : bd 700 (compute_speed st d)) by (apply (le2_le (3 * 128 + 134)); [lia|]; apply (speed_wide PR LR); auto; lia).
  assert (FL : bd 700 (compute_flashlight st d)) by (apply (le2_le (2 * 128 + 34)); [lia|]; apply (flash_wide PR); auto; lia).
  assert (AC' : bd 700 (compute_acc st d)) by (rewrite ACE; apply (le2_le 200); [lia|exact AC]).
  split; [exact AI|]. split; [exact SPD|]. split; [exact AC'|]. split; [exact FL|]. unfold results_of. cbn [r_Total]. apply total_wide; auto.
  rewrite AT, X1, X5, X6, E2, E6, E7. rewrite plain_eff. apply (final_bd' PR); [lia| |lia].
  intros SO. specialize (SP SO). change (at_Spinners (capped a)) with (at_Spinners a). lia.
Qed.
End WithLibm.

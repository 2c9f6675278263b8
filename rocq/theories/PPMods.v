(** Mods that make the same play count no less. *)
From Coq Require Import Reals Lra Lia.
From Flocq Require Import Raux Zaux Core BinarySingleNaN.
From Verif Require Import PP SpecPP SpecBetter SpecMods SpecModsPP BaseLemmas FloatLemmas Float32Lemmas SkillProofs CurveProofs PPProofs PPBounds PPChains PPFinal PPMono PPBetter ModsProofs.
Open Scope R_scope.

Lemma opt_more k v (b b' : bool) : bd k v -> (0 <= k)%Z -> (b = b' \/ (b' = true /\ 1 <= B2R v)) -> le2 k (if b then v else fq 1 1) (if b' then v else fq 1 1).
Proof.
  intros V K H. pose proof (le2_le 0 k _ _ K bd_one) as O. destruct one_val as (F1 & E1). destruct H as [->|(-> & L)]; [destruct b'; assumption|]. destruct b; [exact V|].
  apply bd_iff in V as (F & B). split; [exact F1|]. split; [exact F|]. rewrite E1. lra.
Qed.
Lemma opt_less v v' (b b' : bool) : le2 0 v v' -> (b' = true -> b = true) -> le2 0 (if b then v else fq 1 1) (if b' then v' else fq 1 1).
Proof.
  intros V H. destruct b', b; [exact V|discriminate (H eq_refl)| |exact bd_one]. destruct (le2_bd _ _ _ V) as (B & _). apply bd_iff in B as (F & B). change (bpow radix2 0) with 1 in B. destruct one_val as (F1 & E1).
  split; [exact F|]. split; [exact F1|]. rewrite E1. change (bpow radix2 0) with 1. lra.
Qed.
Lemma hidden_ge d : diff_ok d -> B2R (d_ARReal d) <= 12 -> 1 <= B2R (hidden_factor d).
Proof.
  intros ((F & B) & _) L. unfold hidden_factor. destruct (fq1_exact 12) as (F12 & E12); [lia|]. destruct one_val as (F1 & E1).
  destruct (sub_Z (fq 12 1) (d_ARReal d) 0 1012) as (Fa & Ba); [exact F12|exact F|lia|lia|rewrite E12; lra|]. destruct (mul_unit (fq 4 100) _ 0 1012 ltac:(bdc) Fa) as (Fb & Bb); [lia|lia|exact Ba|].
  destruct (add_Z (fq 1 1) _ 1 1013 F1 Fb) as (Fc & Bc); [lia|lia|rewrite E1; lra|]. lra.
Qed.

Section WithLibm.
Context {M : libm}.
Context (PR : pow_ranges) (LR : log_above) (PO : pow_orders).
Lemma touch_less k x (b b' : bool) : (0 <= k <= 200)%Z -> bd k x -> (b = b' \/ (b = true /\ 1 <= B2R x /\ pow_root)) -> le2 (k + 1) (if b then mpow x (fq 8 10) else x) (if b' then mpow x (fq 8 10) else x).
Proof.
  intros K X H. pose proof (touch_bd PR k x b K X) as B. destruct H as [->|(-> & L & PT)]; [exact B|]. destruct b'; [exact B|]. apply bd_iff in B as (F & B). apply bd_iff in X as (Fx & Bx).
  split; [exact F|]. split; [exact Fx|]. split; [split; [apply B|now apply PT]|]. apply Rle_trans with (1 := proj2 Bx). apply bpow_le. lia.
Qed.
Section Mods.
Context (a : attributes) (d d' : difficulty) (D : diff_ok d) (CM : counts_more a d d').
Notation on m := (mactive (d_Mods d) m).
Notation on' m := (mactive (d_Mods d') m).
Lemma bits : (on Hidden = on' Hidden \/ (on' Hidden = true /\ B2R (d_ARReal d) <= 12)) /\ (on Flashlight = true -> on' Flashlight = true) /\ (on' NoFail = true -> on NoFail = true) /\
  (on' SpunOut = true -> on SpunOut = true) /\ (on' Relax = true -> on Relax = true) /\ (on TouchDevice = on' TouchDevice \/ (on TouchDevice = true /\ 1 <= B2R (at_Aim a) /\ 1 <= B2R (at_Flashlight a))) /\ on ScoreV2 = on' ScoreV2.
Proof.
  destruct CM as [_ _ H1 H2 H3 H4 H5 H6 H7]. unfold bHD, bFL, bNF, bSO, bRX, bTD, bV2 in *.
  change Hidden with (2 ^ 3)%Z. change Flashlight with (2 ^ 10)%Z. change NoFail with (2 ^ 0)%Z. change SpunOut with (2 ^ 12)%Z. change Relax with (2 ^ 7)%Z. change TouchDevice with (2 ^ 2)%Z. change ScoreV2 with (2 ^ 29)%Z.
  rewrite !mactive_bit by lia. auto 10.
Qed.
Context (PT : on TouchDevice = on' TouchDevice \/ pow_root).
Lemma touch_side (x : f64) : (on TouchDevice = on' TouchDevice \/ (on TouchDevice = true /\ 1 <= B2R x)) -> (on TouchDevice = on' TouchDevice \/ (on TouchDevice = true /\ 1 <= B2R x /\ pow_root)).
Proof. destruct PT; tauto. Qed.
Lemma same_factors : ar_high d' = ar_high d /\ ar_aim d' = ar_aim d /\ ar_speed d' = ar_speed d /\ hidden_factor d' = hidden_factor d /\ d_ODReal d' = d_ODReal d /\ d_ARReal d' = d_ARReal d.
Proof. destruct CM as [H1 H2 _ _ _ _ _ _ _]. unfold ar_high, ar_aim, ar_speed, hidden_factor. unfold ar_high. rewrite <- H1, <- H2. auto 10. Qed.
Lemma hidden_side : le2 10 (if on Hidden then hidden_factor d else fq 1 1) (if on' Hidden then hidden_factor d else fq 1 1).
Proof. destruct bits as (H & _). apply opt_more; [now apply hidden_bd|lia|]. destruct H as [H|(H & L)]; [now left|]. right. split; [exact H|now apply hidden_ge]. Qed.
Lemma const_side n e (b b' : bool) : (b = true -> b' = true) -> bd 1 (fq n e) -> 1 <= B2R (fq n e) -> le2 1 (if b then fq n e else fq 1 1) (if b' then fq n e else fq 1 1).
Proof. intros H B L. apply opt_more; [exact B|lia|]. destruct b, b'; auto. Qed.
Lemma hd_imp : on Hidden = true -> on' Hidden = true.
Proof. destruct bits as ([->|(-> & _)] & _); auto. Qed.
Context (p q : ppv2) (B : below p q) (SA : pp_attribs p = pp_attribs q) (EA : at_Aim (pp_attribs p) = at_Aim a) (EF : at_Flashlight (pp_attribs p) = at_Flashlight a).
Lemma aim_mods : le2 200 (compute_aim p d) (compute_aim q d').
Proof.
  pose proof (b_nerf _ _ B) as N. destruct (b_hits _ _ B) as (ET & T). destruct same_factors as (S1 & S2 & S3 & S4 & S5 & S6). destruct bits as (_ & _ & _ & _ & _ & TD & _).
  unfold compute_aim. cbv zeta. rewrite S5, S6. fold (ar_high d) (ar_aim d) (hidden_factor d). cbv zeta.
  apply (le2_le 195); [lia|]. change 195%Z with (173 + 22)%Z. apply le2_mul; [lia|lia|lia| |apply (aim_od_bd PR); exact D].
  change 173%Z with (173 + 0)%Z. apply le2_mul; [lia|lia|lia| |exact (b_acc _ _ B)].
  change 173%Z with (172 + 1)%Z. apply le2_opt; [lia|lia|lia| |exact N].
  change 172%Z with (162 + 10)%Z. apply le2_opt; [lia|lia|lia| |exact hidden_side].
  change 162%Z with (118 + 44)%Z. apply le2_mul; [lia|lia|lia| |].
  2:{ rewrite ET. apply (le2_add 43); [lia|lia|apply (le2_le 0); [lia|exact bd_one]|]. change 43%Z with (10 + 33)%Z. apply le2_mul; [lia|lia|lia|apply aim_ar_bd; exact D|apply (length_bd LR); auto]. }
  change 118%Z with (118 + 0)%Z. apply le2_opt; [lia|lia|lia| |exact (b_scal _ _ B)]. change 118%Z with (118 + 0)%Z. apply le2_opt; [lia|lia|lia| |exact (b_pen _ _ B)].
  change 118%Z with (85 + 33)%Z. apply le2_mul; [lia|lia|lia| |rewrite ET; apply (length_bd LR); auto].
  change 85%Z with ((20 + 1 + 7) * 3 + 1)%Z. apply (base_mono PR PO); [|lia]. rewrite <- SA. apply touch_less; [lia|exact (proj1 (le2_bd _ _ _ (b_aim _ _ B)))|]. rewrite EA. apply touch_side. tauto.
Qed.
Lemma speed_mods : le2 200 (compute_speed p d) (compute_speed q d').
Proof.
  destruct (b_hits _ _ B) as (ET & T). destruct same_factors as (S1 & S2 & S3 & S4 & S5 & S6). unfold compute_speed. cbv zeta. rewrite S5, S6. fold (ar_high d) (ar_speed d) (hidden_factor d) (meh_count (pp_meh p) (pp_totalHits p)) (meh_count (pp_meh q) (pp_totalHits q)). cbv zeta.
  apply (le2_le 194); [lia|]. change 194%Z with (194 + 0)%Z. apply le2_mul; [lia|lia|lia| |rewrite ET; destruct (b_meh _ _ B); apply (meh_mono PR PO); auto].
  change 194%Z with (172 + 22)%Z. apply le2_mul; [lia|lia|lia| |].
  2:{ change 22%Z with (22 + 0)%Z. apply le2_mul; [lia|lia|lia|apply (speed_od_bd PR); exact D|apply (speed_acc_mono PR PO); [exact D|exact (b_acc _ _ B)]]. }
  change 172%Z with (162 + 10)%Z. apply le2_opt; [lia|lia|lia| |exact hidden_side].
  change 162%Z with (118 + 44)%Z. apply le2_mul; [lia|lia|lia| |].
  2:{ rewrite ET. apply (le2_add 43); [lia|lia|apply (le2_le 0); [lia|exact bd_one]|]. change 43%Z with (10 + 33)%Z. apply le2_mul; [lia|lia|lia|apply speed_ar_bd; exact D|apply (length_bd LR); auto]. }
  change 118%Z with (118 + 0)%Z. apply le2_opt; [lia|lia|lia| |exact (b_scal _ _ B)]. change 118%Z with (118 + 0)%Z. apply le2_opt; [lia|lia|lia| |exact (b_pens _ _ B)].
  change 118%Z with (85 + 33)%Z. apply le2_mul; [lia|lia|lia| |rewrite ET; apply (length_bd LR); auto].
  change 85%Z with ((21 + 7) * 3 + 1)%Z. apply (base_mono PR PO); [|lia]. apply (le2_le 20); [lia|]. exact (b_speed _ _ B).
Qed.
Lemma flash_on (b b' f f' : f64) (x x' : bool) : (x = true -> x' = true) -> (x' = true -> le2 200 f f') -> le2 200 (if negb x then f0 else f) (if negb x' then f0 else f').
Proof.
  intros H L. destruct x', x; cbn [negb]; [now apply L| |discriminate (H eq_refl)|apply bd_0]. specialize (L eq_refl). destruct (le2_bd _ _ _ L) as (_ & B'). apply bd_iff in B' as (F & B'). split; [reflexivity|]. split; [exact F|]. change (B2R f0) with 0. lra.
Qed.
Lemma flash_mods : le2 200 (compute_flashlight p d) (compute_flashlight q d').
Proof.
  destruct (b_hits _ _ B) as (ET & T). destruct same_factors as (S1 & S2 & S3 & S4 & S5 & S6). destruct bits as (_ & FB & _ & _ & _ & TD & _). unfold compute_flashlight, check_mod. cbv zeta. rewrite S5. fold (fl_scale (pp_totalHits p)) (fl_scale (pp_totalHits q)). cbv zeta.
  apply flash_on; [exact f0|exact f0|exact FB|]. intros _.
  apply (le2_le 74); [lia|]. change 74%Z with (52 + 22)%Z. apply le2_mul; [lia|lia|lia| |apply (aim_od_bd PR); exact D]. change 52%Z with (51 + 1)%Z. apply le2_mul; [lia|lia|lia| |].
  2:{ destruct (fq1_exact 2) as (F2 & Ev); [lia|]. apply (le2_add 0); [lia|lia|bdc|]. apply le2_div; [lia|lia|exact (b_acc _ _ B)|exact F2|rewrite Ev; lra]. }
  change 51%Z with (49 + 2)%Z. apply le2_mul; [lia|lia|lia| |rewrite ET; apply fl_scale_bd; exact T].
  change 49%Z with (49 + 0)%Z. apply le2_opt; [lia|lia|lia| |exact (b_scal _ _ B)]. change 49%Z with (49 + 0)%Z. apply le2_opt; [lia|lia|lia| |exact (b_pens _ _ B)].
  change 49%Z with (48 + 1)%Z. apply le2_opt; [lia|lia|lia| |apply const_side; [exact hd_imp|bdc|bval (fq 13 10); rewrite V; lra]].
  change 48%Z with ((21 * 2 + 1) + 5)%Z. apply le2_mul; [lia|lia|lia| |bdc]. destruct (fq1_exact 2) as (F2 & Ev); [lia|].
  apply (pow_mono PR PO 21 2); [|exact F2|rewrite Ev; lra|lia|lia|lia]. change 21%Z with (20 + 1)%Z. rewrite <- SA. apply touch_less; [lia|exact (proj1 (le2_bd _ _ _ (b_fl _ _ B)))|]. rewrite EF. apply touch_side. tauto.
Qed.
Lemma acc_mods : pp_accObjects p = pp_accObjects q -> pp_great p = pp_great q -> pp_ok p = pp_ok q -> pp_meh p = pp_meh q -> (0 <= pp_great q)%Z -> (0 <= pp_ok q)%Z -> (0 <= pp_meh q)%Z -> (pp_great q + pp_ok q + pp_meh q <= pp_totalHits q)%Z ->
  (pp_totalHits q <= 2 ^ 31)%Z -> (0 <= pp_accObjects q <= 2 ^ 31)%Z -> le2 200 (compute_acc p d) (compute_acc q d').
Proof.
  intros EN EG EO EM G O ME T T' N. destruct (b_hits _ _ B) as (ET & _). destruct same_factors as (S1 & S2 & S3 & S4 & S5 & S6). destruct bits as (_ & FB & _ & _ & RB & _ & _). unfold compute_acc. cbv zeta. rewrite S5, ET, EN, EG, EO, EM.
  fold (acc_share (pp_great q) (pp_ok q) (pp_meh q) (pp_totalHits q) (pp_accObjects q)).
  assert (X : forall x x' : bool, (x' = true -> x = true) -> forall f f', le2 200 f f' -> le2 200 (if x then f0 else f) (if x' then f0 else f')).
  { intros x x' H f f' L. destruct x, x'; [apply bd_0| |discriminate (H eq_refl)|exact L]. destruct (le2_bd _ _ _ L) as (_ & B'). apply bd_iff in B' as (F & B'). split; [reflexivity|]. split; [exact F|]. change (B2R f0) with 0. lra. }
  apply X; [exact RB|]. apply (le2_le 20); [lia|].
  change 20%Z with (19 + 1)%Z. apply le2_opt; [lia|lia|lia| |apply const_side; [exact FB|bdc|bval (fq 102 100); rewrite V; lra]].
  change 19%Z with (18 + 1)%Z. apply le2_opt; [lia|lia|lia| |apply const_side; [exact hd_imp|bdc|bval (fq 108 100); rewrite V; lra]].
  change 18%Z with (17 + 1)%Z. apply le2_mul; [lia|lia|lia| |].
  - change 17%Z with (15 + 2)%Z. apply le2_mul; [lia|lia|lia| |bdc]. change 15%Z with (15 + 0)%Z. apply le2_mul; [lia|lia|lia|apply (od_pow_bd PR); exact D|].
    destruct (fq1_exact 24) as (F24 & E24); [lia|]. apply (unit_mono PR PO); [apply acc_share_mono; auto; lia|exact F24|rewrite E24; lra].
  - destruct (bd_Z 31 (pp_accObjects q) N ltac:(lia)) as (Bn & _). destruct (fq1_exact 1000) as (Fk & Ek); [lia|].
    assert (Bq : bd 31 (fdiv (f_of_Z (pp_accObjects q)) (fq 1000 1))) by (apply le2_div; [lia|lia|exact Bn|exact Fk|rewrite Ek; lra]).
    destruct (unit_exp 3 10) as (Fe & Be); [bdc|]. assert (Bp : bd 32 (mpow (fdiv (f_of_Z (pp_accObjects q)) (fq 1000 1)) (fq 3 10))) by (apply (pow_bd PR 31 1); auto; lia).
    apply bd_iff in Bp as (Fp & Rp). apply le2_min'; [bdc|exact Fp|exact Fp|lra].
Qed.
Lemma nf_bd eff : (0 <= eff <= 2 ^ 31)%Z -> bd 0 (fmax (fq 90 100) (fsub (fq 1 1) (fmul (fq 2 100) (f_of_Z eff)))).
Proof.
  intros E. destruct (bd_Z 31 eff E ltac:(lia)) as (Be & _). assert (C : bd 0 (fq 2 100)) by bdc. pose proof (le2_mul 0 31 _ _ _ _ ltac:(lia) ltac:(lia) ltac:(lia) C Be) as X. apply bd_iff in X as (Fx & Bx).
  destruct one_val as (F1 & E1). change (bpow radix2 (0 + 31)) with (IZR (2 ^ 31)) in Bx.
  destruct (fsub_fin _ _ F1 Fx) as (Fs & Es); [rewrite E1; apply Rle_trans with (bpow radix2 31); [change (bpow radix2 31) with (IZR (2 ^ 31)); apply Rabs_le; lra|apply bpow_le; lia]|].
  assert (N : bd 0 (fq 90 100)) by bdc. apply bd_iff in N as (Fn & Bn). destruct (fmax_fin _ _ Fn Fs) as (Fm & Em). apply bd_iff. split; [exact Fm|]. rewrite Em. change (bpow radix2 0) with 1 in *.
  assert (Us : B2R (fsub (fq 1 1) (fmul (fq 2 100) (f_of_Z eff))) <= 1) by (rewrite Es, E1; apply (rnd64_exact_Z 1); [lia|lra]).
  split; [apply Rle_trans with (B2R (fq 90 100)); [lra|apply Rmax_l]|apply Rmax_lub; lra].
Qed.
Lemma final_mods eff sp total : (0 <= eff <= 2 ^ 31)%Z -> (on SpunOut = true -> 0 <= sp <= total)%Z -> (total <= 2 ^ 31)%Z ->
  le2 1 (final_multiplier (d_Mods d) eff sp total) (final_multiplier (d_Mods d') eff sp total).
Proof.
  intros E S T. destruct bits as (_ & _ & NB & SB & RB & _ & _). unfold final_multiplier. cbv zeta.
  apply (le2_opt 1 0); [lia|lia|lia| |apply opt_less; [bdc|exact RB]].
  apply (le2_opt 1 0); [lia|lia|lia| |].
  2:{ destruct (Z.ltb_spec 0 total) as [L|L]; cbn [andb]; [|exact bd_one]. destruct (on SpunOut) eqn:SO.
      - apply (opt_less _ _ true); [|reflexivity]. apply le2_compl. destruct (unit_exp 85 100) as (Fe & Be); [bdc|]. specialize (S eq_refl). apply (unit_bd PR); [|exact Fe|apply Be]. apply le2_ratio; lia.
      - destruct (on' SpunOut); [discriminate (SB eq_refl)|exact bd_one]. }
  apply (le2_opt 1 0); [lia|lia|lia|bdc|]. apply opt_less; [now apply nf_bd|exact NB].
Qed.
End Mods.

Section States.
Context (a : attributes) (t : tally) (d d' : difficulty) (pp : ppv2).
Context (A : attrs_ok a) (D : diff_ok d) (T : tally_ok t) (CM : counts_more a d d') (SP : spun_ok a d (hits t)).
Context (PT : mactive (d_Mods d) TouchDevice = mactive (d_Mods d') TouchDevice \/ pow_root).
Notation p := (stated pp a (t_combo t) (t_300 t) (t_100 t) (t_50 t) (t_miss t) d).
Notation q := (stated pp a (t_combo t) (t_300 t) (t_100 t) (t_50 t) (t_miss t) d').
Lemma eff_mods : (0 <= pp_effMiss q <= pp_effMiss p)%Z /\ (pp_effMiss p <= hits t)%Z.
Proof.
  destruct T as (H & C). destruct (bits a d d' CM) as (_ & _ & _ & _ & RB & _).
  destruct (st_fields pp a _ _ _ _ d A H _ C) as (_ & _ & _ & _ & _ & _ & _ & _ & E & _). destruct (st_fields pp a _ _ _ _ d' A H _ C) as (_ & _ & _ & _ & _ & _ & _ & _ & E' & _).
  pose proof (eff_range a _ _ _ _ A H _ C) as R. fold (hits t) in *. destruct H as (H1 & H2 & H3 & H4 & H5). rewrite E, E'.
  destruct (mactive (d_Mods d') Relax); [rewrite (RB eq_refl); lia|]. destruct (mactive (d_Mods d) Relax); lia.
Qed.
Lemma states_mods : below p q.
Proof.
  pose proof eff_mods as (EL & EM). destruct T as (H & C).
  destruct (st_fields pp a _ _ _ _ d A H _ C) as (E1 & E2 & E3 & E4 & E5 & E6 & E7 & E8 & E9 & E10). destruct (st_fields pp a _ _ _ _ d' A H _ C) as (F1 & F2 & F3 & F4 & F5 & F6 & F7 & F8 & F9 & F10).
  destruct (ea_ok a A) as (EA & MC & C64). destruct (missed_st pp a _ _ _ _ d A H _ C) as (M1 & J1). destruct (missed_st pp a _ _ _ _ d' A H _ C) as (M2 & J2).
  destruct (aim_expo pp a _ _ _ _ d A H _ C) as (Fa & Va & Ba). destruct (aim_expo pp a _ _ _ _ d' A H _ C) as (Fa' & Va' & Ba').
  assert (Q : forall x : f64, within 0 1048576 x -> bd 20 x). { intros x (F & B). apply bd_iff. split; [exact F|]. change (bpow radix2 20) with 1048576. lra. }
  destruct H as (H1 & H2 & H3 & H4 & H5). fold (hits t) in *. destruct EA as (Q1 & Q2 & Q3 & QR). 
  constructor.
  - rewrite E1, F1. now apply Q.
  - rewrite E1, F1. now apply Q.
  - rewrite E1, F1. now apply Q.
  - rewrite E7, F7. unfold hits in *. lia.
  - rewrite E8, F8. apply (within_bd 0 1); [|apply Rle_refl]. apply acc_unit; unfold int64, hits in *; lia.
  - rewrite E5, F5. unfold hits in *. lia.
  - rewrite E7, F7. apply (pen_mono PR PO); auto; try lia. rewrite Va, Va'. split; apply IZR_le; lia.
  - rewrite E7, F7. destruct (miss_expo PR PO (pp_effMiss p) (pp_effMiss q) ltac:(lia) ltac:(lia)) as (X1 & X2 & X3 & _). apply (pen_mono PR PO); auto; lia.
  - rewrite E1, E2, F1, F2. apply (scal_mono PR PO); lia.
  - apply (nerf_mono PR PO); [rewrite E1; unfold attrs_ok; auto|rewrite E1, F1; reflexivity|exact J1|exact J2|lia].
Qed.
Lemma all_mods :
  le2 200 (compute_aim p d) (compute_aim q d') /\ le2 200 (compute_speed p d) (compute_speed q d') /\ le2 200 (compute_acc p d) (compute_acc q d') /\
  le2 200 (compute_flashlight p d) (compute_flashlight q d') /\ le2 406 (r_Total (results_of p d)) (r_Total (results_of q d')).
Proof.
  pose proof states_mods as B. destruct T as (H & C). destruct (bits a d d' CM) as (_ & _ & _ & _ & _ & _ & VB).
  destruct (st_fields pp a _ _ _ _ d A H _ C) as (E1 & E2 & E3 & E4 & E5 & E6 & E7 & E8 & E9 & E10). destruct (st_fields pp a _ _ _ _ d' A H _ C) as (F1 & F2 & F3 & F4 & F5 & F6 & F7 & F8 & F9 & F10).
  pose proof (acc_objects pp a _ _ _ _ d' A H _ C) as AO. pose proof (eff_range a _ _ _ _ A H _ C) as ER. destruct H as (H1 & H2 & H3 & H4 & H5). fold (hits t) in *.
  assert (SA : pp_attribs p = pp_attribs q) by (rewrite E1, F1; reflexivity).
  assert (NN : pp_accObjects p = pp_accObjects q). { rewrite E10, F10. unfold check_mod. rewrite VB. reflexivity. }
  assert (EA : at_Aim (pp_attribs p) = at_Aim a) by (rewrite E1; reflexivity). assert (EF : at_Flashlight (pp_attribs p) = at_Flashlight a) by (rewrite E1; reflexivity).
  assert (AC : le2 200 (compute_acc p d) (compute_acc q d')).
  { apply (acc_mods a); [exact D|exact CM|exact B|exact NN|rewrite E3, F3; reflexivity|rewrite E4, F4; reflexivity|rewrite E5, F5; reflexivity|rewrite F3; lia|rewrite F4; lia|rewrite F5; lia|rewrite F3, F4, F5, F7; unfold hits in *; lia|rewrite F7; lia|exact AO]. }
  pose proof (aim_mods a d d' D CM PT p q B SA EA) as AI. pose proof (speed_mods a d d' D CM p q B) as S. pose proof (flash_mods a d d' D CM PT p q B SA EF) as FL.
  split; [exact AI|]. split; [exact S|]. split; [exact AC|]. split; [exact FL|]. unfold results_of. cbn [r_Total]. apply (total_mono PR PO); auto.
  rewrite E1, E2, E6, E7, F1, F2, F6, F7. apply (final_mods a); auto; try lia.
  change (at_Spinners (capped a)) with (at_Spinners a). intros SO. specialize (SP SO). destruct A as (_ & _ & _ & _ & _ & _ & _ & A8 & _). lia.
Qed.
End States.
End WithLibm.

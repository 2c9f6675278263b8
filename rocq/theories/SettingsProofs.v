(** Key/value sections and inert lines. *)
From Coq Require Import Reals Lra.
From Flocq Require Import Core.
From Verif Require Import Parser SpecParser SpecMods SpecDifficulty BaseLemmas FloatLemmas StringLemmas ParserProofs DifficultyProofs TimingProofs.
Open Scope Z_scope.

Lemma last_value_cons {A} key k v s (h : str -> A) d :
  last_value key ((k, v) :: s) h d = last_value key s h (if str_eqb k (lit key) then h v else d).
Proof.
  unfold last_value, values. cbn [filter fst]. destruct (str_eqb k (lit key)); [|reflexivity]. cbn [map snd]. now rewrite last_cons.
Qed.
Lemma kvfold_get {A B} (f : str -> str -> A -> A) (g : A -> B) key h :
  (forall k v a, g (f k v a) = if str_eqb k (lit key) then h v else g a) ->
  forall s a, g (kvfold f s a) = last_value key s h (g a).
Proof.
  intros H. induction s as [|[k v] s IH]; intros a; [reflexivity|]. rewrite last_value_cons, <- H. exact (IH (f k v a)).
Qed.
Ltac lits1 := repeat match goal with
  | |- context [str_eqb (lit ?a) (lit ?b)] =>
      let r := eval vm_compute in (str_eqb (lit a) (lit b)) in change (str_eqb (lit a) (lit b)) with r
  end; cbn iota.

(** Metadata *)
Ltac meta := intros k v [] ; unfold parse_metadata; revert k v;
  match goal with |- forall k v, _ => intros k v end;
  repeat match goal with
  | |- context [str_eqb ?k (lit ?s)] =>
      let E := fresh in destruct (str_eqb k (lit s)) eqn:E; [apply str_eqb_eq in E; subst k; lits1; reflexivity|]
  end; reflexivity.
Definition ident (v : str) : str := v.
Lemma meta_title s m : md_Title (kvfold parse_metadata s m) = last_value "Title" s ident (md_Title m).
Proof. apply kvfold_get. meta. Qed.
Lemma meta_titleU s m : md_TitleUnicode (kvfold parse_metadata s m) = last_value "TitleUnicode" s ident (md_TitleUnicode m).
Proof. apply kvfold_get. meta. Qed.
Lemma meta_artist s m : md_Artist (kvfold parse_metadata s m) = last_value "Artist" s ident (md_Artist m).
Proof. apply kvfold_get. meta. Qed.
Lemma meta_artistU s m : md_ArtistUnicode (kvfold parse_metadata s m) = last_value "ArtistUnicode" s ident (md_ArtistUnicode m).
Proof. apply kvfold_get. meta. Qed.
Lemma meta_creator s m : md_Creator (kvfold parse_metadata s m) = last_value "Creator" s ident (md_Creator m).
Proof. apply kvfold_get. meta. Qed.
Lemma meta_version s m : md_Version (kvfold parse_metadata s m) = last_value "FileVersion" s ident (md_Version m).
Proof. apply kvfold_get. meta. Qed.
Lemma meta_source s m : md_Source (kvfold parse_metadata s m) = last_value "Source" s ident (md_Source m).
Proof. apply kvfold_get. meta. Qed.
Lemma meta_tags s m : md_Tags (kvfold parse_metadata s m) = last_value "Tags" s ident (md_Tags m).
Proof. apply kvfold_get. meta. Qed.
Lemma meta_map s m : md_MapID (kvfold parse_metadata s m) = last_value "BeatmapID" s parse_int (md_MapID m).
Proof. apply kvfold_get. meta. Qed.
Lemma meta_set s m : md_SetID (kvfold parse_metadata s m) = last_value "BeatmapSetID" s parse_int (md_SetID m).
Proof. apply kvfold_get. meta. Qed.

(** General *)
Ltac gen := intros k v []; unfold parse_general;
  repeat match goal with
  | |- context [str_eqb ?k (lit ?s)] =>
      let E := fresh in destruct (str_eqb k (lit s)) eqn:E; [apply str_eqb_eq in E; subst k; lits1; reflexivity|]
  end; reflexivity.
Lemma gen_mode s m : gn_Mode (kvfold parse_general s m) = last_value "Mode" s atoi (gn_Mode m).
Proof. apply kvfold_get. gen. Qed.
Lemma gen_len s m : gn_StackLeniency (kvfold parse_general s m) =
  last_value "StackLeniency" s (fun v => if fisnan (parse_f64 v) then f0 else parse_f64 v) (gn_StackLeniency m).
Proof. apply (kvfold_get parse_general gn_StackLeniency "StackLeniency" (fun v => if fisnan (parse_f64 v) then f0 else parse_f64 v)). gen. Qed.
Lemma gen_preview s m : gn_PreviewTime (kvfold parse_general s m) = last_value "PreviewTime" s parse_int (gn_PreviewTime m).
Proof. apply kvfold_get. gen. Qed.
Lemma gen_audio s : forall m, gn_Audio (kvfold parse_general s m) = gn_Audio m ++ concat (values "AudioFilename" s).
Proof.
  induction s as [|[k v] s IH]; intros m; [cbn; now rewrite app_nil_r|].
  change (kvfold parse_general ((k, v) :: s) m) with (kvfold parse_general s (parse_general k v m)). rewrite IH.
  unfold values. cbn [filter fst]. destruct (str_eqb k (lit "AudioFilename")) eqn:E.
  - apply str_eqb_eq in E. subst k. cbn [map snd concat]. rewrite app_assoc. f_equal.
  - f_equal. unfold parse_general. rewrite E. destruct m. destruct (str_eqb k (lit "Mode")); [reflexivity|].
    destruct (str_eqb k (lit "StackLeniency")); [reflexivity|]. destruct (str_eqb k (lit "PreviewTime")); reflexivity.
Qed.

(** Difficulty *)
Definition cparse (v : str) : f64 := clamp10 (parse_f64 v).
Ltac dk k s := let E := fresh in destruct (str_eqb k (lit s)) eqn:E;
  [apply str_eqb_eq in E; subst k; lits1; first [reflexivity | match goal with b : bool |- _ => destruct b; reflexivity end]|].
Ltac dif := let k := fresh "k" in let v := fresh "v" in intros k v [sm d arS tsm tr]; unfold parse_difficulty;
  dk k "SliderMultiplier"%string; dk k "ApproachRate"%string; dk k "CircleSize"%string; dk k "SliderTickRate"%string;
  dk k "HPDrainRate"%string; dk k "OverallDifficulty"%string; reflexivity.
Lemma dif_sm s m : ds_SliderMultiplier (kvfold parse_difficulty s m) = last_value "SliderMultiplier" s parse_f64 (ds_SliderMultiplier m).
Proof. apply kvfold_get. dif. Qed.
Lemma dif_tsm s m : ds_SliderMult (kvfold parse_difficulty s m) = last_value "SliderMultiplier" s parse_f64 (ds_SliderMult m).
Proof. apply kvfold_get. dif. Qed.
Lemma dif_tr s m : ds_TickRate (kvfold parse_difficulty s m) = last_value "SliderTickRate" s parse_f64 (ds_TickRate m).
Proof. apply kvfold_get. dif. Qed.
Lemma dif_hp s m : d_hp (ds_Difficulty (kvfold parse_difficulty s m)) = last_value "HPDrainRate" s cparse (d_hp (ds_Difficulty m)).
Proof. apply (kvfold_get parse_difficulty (fun m => d_hp (ds_Difficulty m))). dif. Qed.
Lemma dif_cs s m : d_cs (ds_Difficulty (kvfold parse_difficulty s m)) = last_value "CircleSize" s cparse (d_cs (ds_Difficulty m)).
Proof. apply (kvfold_get parse_difficulty (fun m => d_cs (ds_Difficulty m))). dif. Qed.
Lemma dif_od s m : d_od (ds_Difficulty (kvfold parse_difficulty s m)) = last_value "OverallDifficulty" s cparse (d_od (ds_Difficulty m)).
Proof. apply (kvfold_get parse_difficulty (fun m => d_od (ds_Difficulty m))). dif. Qed.
Lemma dif_ar s : forall m, d_ar (ds_Difficulty (kvfold parse_difficulty s m)) =
  match values "ApproachRate" s with
  | [] => if ds_arSpecified m then d_ar (ds_Difficulty m) else last_value "OverallDifficulty" s cparse (d_ar (ds_Difficulty m))
  | _ => last_value "ApproachRate" s cparse f0
  end.
Proof.
  induction s as [|[k v] s IH]; intros m; [cbn; now destruct (ds_arSpecified m)|].
  change (kvfold parse_difficulty ((k, v) :: s) m) with (kvfold parse_difficulty s (parse_difficulty k v m)).
  rewrite IH. rewrite !last_value_cons. unfold values at 2. cbn [filter fst]. fold (values "ApproachRate" s).
  assert (L0 : forall d d', values "ApproachRate" s <> [] -> last_value "ApproachRate" s cparse d = last_value "ApproachRate" s cparse d').
  { intros d d'. unfold last_value. destruct (values "ApproachRate" s) as [|x l]; [congruence|]. intros _. cbn [map]. now rewrite !last_cons. }
  assert (Lnil : values "ApproachRate" s = [] -> forall d, last_value "ApproachRate" s cparse d = d).
  { intros E d. unfold last_value. now rewrite E. }
  destruct m as [sm d arS tsm tr]. unfold parse_difficulty.
  destruct (str_eqb k (lit "SliderMultiplier")) eqn:E1; [apply str_eqb_eq in E1; subst k; lits1; reflexivity|].
  destruct (str_eqb k (lit "ApproachRate")) eqn:E2.
  { apply str_eqb_eq in E2. subst k. cbn [map]. cbn [ds_arSpecified ds_Difficulty]. destruct (values "ApproachRate" s) eqn:EV.
    - now rewrite Lnil. - apply L0. discriminate. }
  fold (values "ApproachRate" s).
  destruct (str_eqb k (lit "CircleSize")) eqn:E3; [apply str_eqb_eq in E3; subst k; lits1; reflexivity|].
  destruct (str_eqb k (lit "SliderTickRate")) eqn:E4; [apply str_eqb_eq in E4; subst k; lits1; reflexivity|].
  destruct (str_eqb k (lit "HPDrainRate")) eqn:E5; [apply str_eqb_eq in E5; subst k; lits1; reflexivity|].
  destruct (str_eqb k (lit "OverallDifficulty")) eqn:E6; [|reflexivity].
  apply str_eqb_eq in E6; subst k; lits1. cbn [ds_arSpecified ds_Difficulty]. destruct arS; reflexivity.
Qed.
Lemma dif_built s : forall m hp cs od ar, ds_Difficulty m = built hp cs od ar 0 (fq 1 1) ->
  exists hp cs od ar, ds_Difficulty (kvfold parse_difficulty s m) = built hp cs od ar 0 (fq 1 1).
Proof.
  induction s as [|[k v] s IH]; intros m hp cs od ar E; [exists hp, cs, od, ar; exact E|].
  change (kvfold parse_difficulty ((k, v) :: s) m) with (kvfold parse_difficulty s (parse_difficulty k v m)).
  assert (K : exists hp cs od ar, ds_Difficulty (parse_difficulty k v m) = built hp cs od ar 0 (fq 1 1)).
  { destruct m as [sm d arS tsm tr]. cbn [ds_Difficulty] in E. subst d. unfold parse_difficulty.
    destruct (str_eqb k _); [repeat eexists|].
    destruct (str_eqb k _); [eexists _, _, _, _; exact (call_built (SetAR (clamp10 (parse_f64 v))) hp cs od ar 0 (fq 1 1))|].
    destruct (str_eqb k _); [eexists _, _, _, _; exact (call_built (SetCS (clamp10 (parse_f64 v))) hp cs od ar 0 (fq 1 1))|].
    destruct (str_eqb k _); [repeat eexists|].
    destruct (str_eqb k _); [eexists _, _, _, _; exact (call_built (SetHP (clamp10 (parse_f64 v))) hp cs od ar 0 (fq 1 1))|].
    destruct (str_eqb k _); [|repeat eexists]. cbn [ds_Difficulty].
    pose proof (call_built (SetOD (clamp10 (parse_f64 v))) hp cs od ar 0 (fq 1 1)) as C. cbn [call g_hp g_cs g_od g_ar g_mods g_speed] in C.
    destruct arS; rewrite C; [eexists _, _, _, _; reflexivity|].
    eexists _, _, _, _. apply (call_built (SetAR _)). }
  destruct K as (hp' & cs' & od' & ar' & K). exact (IH _ _ _ _ _ K).
Qed.
Lemma built_fields hp cs od ar m sp : let d := built hp cs od ar m sp in
  d_hp d = hp /\ d_cs d = cs /\ d_od d = od /\ d_ar d = ar.
Proof. cbv zeta. repeat split. Qed.
Lemma dif_value s : let d := ds_Difficulty (kvfold parse_difficulty s diffsec0) in
  d = new_difficulty (last_value "HPDrainRate" s cparse (fq 5 1)) (last_value "CircleSize" s cparse (fq 5 1))
        (last_value "OverallDifficulty" s cparse (fq 5 1))
        (match values "ApproachRate" s with [] => last_value "OverallDifficulty" s cparse (fq 5 1) | _ => last_value "ApproachRate" s cparse (fq 5 1) end).
Proof.
  intros d. destruct (dif_built s diffsec0 (fq 5 1) (fq 5 1) (fq 5 1) (fq 5 1) (new_built _ _ _ _)) as (hp & cs & od & ar & E).
  pose proof (dif_hp s diffsec0) as H1. pose proof (dif_cs s diffsec0) as H2. pose proof (dif_od s diffsec0) as H3. pose proof (dif_ar s diffsec0) as H4.
  fold d in E, H1, H2, H3, H4. rewrite E in H1, H2, H3, H4.
  destruct (built_fields hp cs od ar 0 (fq 1 1)) as (F1 & F2 & F3 & F4). rewrite F1 in H1. rewrite F2 in H2. rewrite F3 in H3. rewrite F4 in H4.
  rewrite E, <- new_built. rewrite H1, H2, H3, H4. cbn [ds_arSpecified diffsec0].
  change (d_hp (ds_Difficulty diffsec0)) with (fq 5 1). change (d_cs (ds_Difficulty diffsec0)) with (fq 5 1).
  change (d_od (ds_Difficulty diffsec0)) with (fq 5 1). change (d_ar (ds_Difficulty diffsec0)) with (fq 5 1).
  f_equal. destruct (values "ApproachRate" s) eqn:EV; [reflexivity|]. unfold last_value. rewrite EV. cbn [map]. now rewrite !last_cons.
Qed.

(** NaN and clamping *)
Lemma normalize_num prec emax (Hp : Prec_gt_0 prec) (He : Prec_lt_emax prec emax) m e s :
  is_nan (binary_normalize prec emax Hp He mode_NE m e s) = false.
Proof.
  pose proof (binary_normalize_correct prec emax Hp He mode_NE m e s) as C. cbv zeta in C.
  destruct (Rlt_bool _ _).
  - destruct C as (_ & F & _). now destruct (binary_normalize _ _ _ _ _ _ _ _).
  - unfold binary_overflow, overflow_to_inf in C. now destruct (binary_normalize _ _ _ _ _ _ _ _).
Qed.
Lemma lower_not_sign c : lower c = "+"%char \/ lower c = "-"%char -> c = "+"%char \/ c = "-"%char.
Proof. destruct c as [[] [] [] [] [] [] [] []]; vm_compute; intros [H|H]; try discriminate H; auto. Qed.
Lemma parse_nan (v : str) : fisnan (parse_f64 v) = nan_text v.
Proof.
  unfold parse_f64, parse_float_gen, nan_text, fisnan.
  assert (Sp : (parse_special v = Some SpNaN /\ str_eqb (lowers v) (lit "nan") = true) \/
               ((exists b, parse_special v = Some (SpInf b)) /\ str_eqb (lowers v) (lit "nan") = false) \/
               (parse_special v = None /\ str_eqb (lowers v) (lit "nan") = false)).
  { unfold parse_special.
    assert (Inf : forall r, str_eqb (lowers r) (lit "inf") || str_eqb (lowers r) (lit "infinity") = true -> str_eqb (lowers r) (lit "nan") = false).
    { intros r H. apply orb_true_iff in H as [H|H]; apply str_eqb_eq in H; rewrite H; reflexivity. }
    assert (Main : forall r, let e := if str_eqb (lowers r) (lit "inf") || str_eqb (lowers r) (lit "infinity") then Some (SpInf false)
        else if str_eqb (lowers r) (lit "nan") then Some SpNaN else None in
       (e = Some SpNaN /\ str_eqb (lowers r) (lit "nan") = true) \/ ((exists b, e = Some (SpInf b)) /\ str_eqb (lowers r) (lit "nan") = false) \/
       (e = None /\ str_eqb (lowers r) (lit "nan") = false)).
    { intros r. cbv zeta. destruct (_ || _) eqn:E; [right; left; split; [eauto|now apply Inf]|].
      destruct (str_eqb (lowers r) (lit "nan")) eqn:E2; auto. }
    destruct v as [|c r]; [right; right; split; reflexivity|].
    destruct (Ascii.eqb_spec c "+") as [->|N1].
    { destruct (_ || _); right; [left|right]; split; eauto. }
    destruct (Ascii.eqb_spec c "-") as [->|N2].
    { destruct (_ || _); right; [left|right]; split; eauto. }
    specialize (Main (c :: r)). cbv zeta in Main.
    destruct c as [[] [] [] [] [] [] [] []]; try exact Main; congruence. }
  destruct Sp as [[-> ->]|[[[b ->] ->]|[-> ->]]]; [reflexivity|reflexivity|].
  destruct (read_float v) as [n|]; [|reflexivity]. unfold round_number, ratio_round. destruct n as [neg m e|neg m e].
  - destruct (m =? 0); [reflexivity|]. destruct (0 <=? e); [apply normalize_num|]. destruct (Z.div_eucl _ _). apply normalize_num.
  - apply normalize_num.
Qed.
Lemma num_iff (x : f64) : fisnan x = false <-> num x.
Proof. reflexivity. Qed.
Lemma clamp10_spec (x : f64) : clamped x (clamp10 x).
Proof.
  unfold clamped, clamp10. destruct (fisnan x) eqn:N.
  - destruct x; try discriminate. repeat split; try (vm_compute; congruence).
  - assert (Z0 : num f0) by reflexivity. destruct q10 as [T1 T2]. assert (T : num (fq 10 1)) by now apply fin_num.
    assert (K0 : key f0 = 0%R) by (rewrite (key_fin 53 1024 f0) by reflexivity; reflexivity).
    assert (K10 : key (fq 10 1) = 10%R) by (rewrite (key_fin 53 1024 (fq 10 1)) by exact T1; exact T2).
    destruct (clamp_key x f0 (fq 10 1) N Z0 T) as [Cn Ck]. rewrite K0, K10 in Ck.
    split; [intros H; discriminate|]. split; [|split].
    + intros H. apply flt_iff in H as (_ & _ & H). rewrite K0 in H. unfold clampF64.
      assert (E : fmax f0 x = f0).
      { unfold fmax. destruct x as [sx|[] | |sx mx ex bx]; try reflexivity; try discriminate N.
        - exfalso. unfold key in H. pose proof (bpow_gt_0 radix2 1024). lra.
        - cbn [is_pinf orb fisnan is_nan is_zero andb Bsign]. rewrite (proj2 (fgt_iff f0 _)); [reflexivity|]. rewrite K0. auto. }
      rewrite E. unfold fmin. 
      assert (L : flt (fq 10 1) f0 = false) by (vm_compute; reflexivity). rewrite L.
      assert (Zz : is_zero (fq 10 1) = false) by (vm_compute; reflexivity). rewrite Zz.
      assert (Zi : is_ninf (fq 10 1) = false) by (vm_compute; reflexivity). rewrite Zi.
      assert (Zn : fisnan (fq 10 1) = false) by (vm_compute; reflexivity). rewrite Zn. reflexivity.
    + intros H. apply flt_iff in H as (_ & _ & H). rewrite K10 in H. apply feq_iff. split; [exact Cn|]. split; [exact T|].
      rewrite Ck, K10. rewrite Rmin_left; [reflexivity|]. eapply Rle_trans; [|apply Rmax_r]. lra.
    + intros H1 H2. apply fle_iff in H1 as (_ & _ & H1). apply fle_iff in H2 as (_ & _ & H2). rewrite K0 in H1. rewrite K10 in H2.
      apply feq_iff. split; [exact Cn|]. split; [exact N|]. rewrite Ck, Rmax_right, Rmin_right; lra.
Qed.
Lemma clamped_range x y : clamped x y -> if fisnan x then fisnan y = true else base_ok y.
Proof.
  intros (C1 & C2 & C3 & C4). destruct (fisnan x) eqn:N; [now apply C1|].
  assert (Z0 : num f0) by reflexivity. destruct q10 as [T1 T2]. assert (T : num (fq 10 1)) by now apply fin_num.
  destruct (flt x f0) eqn:L; [rewrite C2 by reflexivity; exact base_0|].
  destruct (flt (fq 10 1) x) eqn:U.
  - specialize (C3 eq_refl). apply feq_iff in C3 as (N1 & _ & K). split; apply fle_iff; (split; [auto|]); (split; [auto|]); rewrite K.
    + pose proof (proj1 (fle_iff f0 (fq 10 1)) ltac:(vm_compute; reflexivity)). tauto.
    + lra.
  - apply flt_false in L; [|exact N|exact Z0]. apply flt_false in U; [|exact T|exact N].
    assert (E : feq y x = true) by (apply C4; apply fle_iff; auto). apply feq_iff in E as (N1 & _ & K).
    split; apply fle_iff; (split; [auto|]); (split; [auto|]); rewrite K; assumption.
Qed.

(** C69: strain values of single objects. *)
From Coq Require Import Reals Lra.
From Flocq Require Import Core BinarySingleNaN.
From Verif Require Import DiffCalc DifficultyProofs SpecPP SpecSane SpecDiff SpecEval BaseLemmas FloatLemmas Float32Lemmas SkillProofs CurveProofs PPProofs PPBounds PPChains ValueBounds RatingBounds ObjectBounds PropDiff PropStrain PropRatings PropChain.
From Verif Require Import Skills.
Import ListNotations.
Open Scope Z_scope.

Section WithLibm.
Context {M : libm}.

(** C69.  A spinner has no strain in any skill, and no rhythm. *)
Theorem C69_spinner : forall k d prev cur, is_spinner (po_obj (do_base cur)) = true ->
  strain_value k d prev cur = f0 /\ speed_bonus d prev cur = Ok f0.
Proof.
  intros k d prev cur H. fold (base_spinner cur) in H. unfold speed_bonus. rewrite H. split; [|reflexivity].
  destruct k; cbn [strain_value]; [unfold aim_value|unfold speed_value|unfold flash_value]; rewrite H; [destruct prev as [|? [|? ?]]|..]; reflexivity.
Qed.
(** Aim strain starts with the third object with a predecessor, and again after a spinner. *)
Theorem C69_aim_start : forall ws prev cur, (length prev <= 1)%nat -> aim_value ws prev cur = f0.
Proof. intros ws prev cur H. destruct prev as [|? [|? ?]]; [reflexivity|reflexivity|cbn [length] in H; lia]. Qed.
Theorem C69_aim_spinner : forall ws last prev cur, is_spinner (po_obj (do_base last)) = true -> aim_value ws (last :: prev) cur = f0.
Proof.
  intros ws last prev cur H. fold (base_spinner last) in H. unfold aim_value. destruct prev; [reflexivity|]. rewrite H. destruct (base_spinner cur); reflexivity.
Qed.
(** Aim looks at two objects, speed strain at one. *)
Theorem C69_memory : forall d ws prev prev' cur,
  (firstn 2 prev = firstn 2 prev' -> aim_value ws prev cur = aim_value ws prev' cur) /\
  (firstn 1 prev = firstn 1 prev' -> speed_value d prev cur = speed_value d prev' cur).
Proof.
  intros d ws prev prev' cur. split; intros H.
  - destruct prev as [|a [|b r]], prev' as [|a' [|b' r']]; cbn [firstn] in H; try discriminate H; try reflexivity. assert (a = a') by congruence. assert (b = b') by congruence. subst a' b'. reflexivity.
  - destruct prev as [|a r], prev' as [|a' r']; cbn [firstn] in H; try discriminate H; try reflexivity. assert (a = a') by congruence. subst a'. reflexivity.
Qed.
(** Aim without sliders does not see the movement through them. *)
Theorem C69_sliderless : forall cur cur' last last' ll ll' r, alike cur cur' -> alike last last' -> alike ll ll' ->
  aim_value false (last :: ll :: r) cur = aim_value false (last' :: ll' :: r) cur'.
Proof.
  intros cur cur' last last' ll ll' r (A1 & A2 & A3 & A4 & A5) (B1 & B2 & B3 & B4 & B5) (C1 & C2 & C3 & C4 & C5).
  unfold aim_value, base_spinner, aim_velocity. rewrite !andb_false_r, A1, B1. destruct (is_spinner (po_obj (do_base cur'))); [reflexivity|]. destruct (is_spinner (po_obj (do_base last'))); [reflexivity|]. cbv zeta.
  unfold aim_angles, aim_velocity_change. rewrite A2, A3, A4, A5, B2, B3, B4, B5, C4. reflexivity.
Qed.

(** Flashlight: a sum over the objects still remembered that are not spinners. *)
Lemma flash_loop_sum d cur prev : forall i small cum result, let s := fdiv (fq 52 1) (d_CircleRadius d) in
  let vis := filter (fun ip => negb (is_spinner (po_obj (do_base (snd ip))))) (combine (seq i (length prev)) prev) in
  flash_loop d cur s i small cum result prev =
  (match vis with (O, p) :: _ => fmin (fq 1 1) (fdiv (apart d cur p) (fq 75 1)) | _ => small end,
   fold_left fadd (map (fun x => flash_share d cur (fst x) (snd x)) (combine vis (running cum vis))) result).
Proof.
  induction prev as [|p r IH]; intros i small cum result s vis; [reflexivity|]. subst vis. cbn [length seq combine filter flash_loop snd]. unfold base_spinner.
  destruct (is_spinner (po_obj (do_base p))); cbn [negb].
  - rewrite IH. reflexivity.
  - rewrite IH. cbv zeta. fold s. cbn [running combine map fold_left fst snd]. apply f_equal2; [|reflexivity].
    assert (NZ : forall x y : f64, match filter (fun ip : nat * dobj => negb (is_spinner (po_obj (do_base (snd ip))))) (combine (seq (S i) (length r)) r) with (O, _) :: _ => x | _ => y end = y); [|].
    { intros x y. generalize i. clear. induction r as [|q l IH]; intros i; cbn [length seq combine filter snd]; [reflexivity|]. destruct (is_spinner _); cbn [negb]; [apply IH|reflexivity]. }
    destruct i as [|i]; [|].
    + destruct (filter _ _) as [|([|n], q) l] eqn:E; [reflexivity| |reflexivity]. exfalso. specialize (NZ f0 fnan). apply (f_equal B2SF) in NZ. discriminate NZ.
    + destruct (filter _ _) as [|([|n], q) l] eqn:E; [reflexivity| |reflexivity]. exfalso. specialize (NZ f0 fnan). apply (f_equal B2SF) in NZ. discriminate NZ.
Qed.
Theorem C69_flash : forall d prev cur, is_spinner (po_obj (do_base cur)) = false ->
  flash_value d prev cur = mpow (fmul (flash_near d prev cur) (flash_sum d prev cur)) (fq 2 1).
Proof.
  intros d prev cur H. unfold flash_value. fold (base_spinner cur) in H. rewrite H. cbv zeta. rewrite (flash_loop_sum d cur prev 0 (fq 1 1) f0 f0). reflexivity.
Qed.
Lemma velocity_below : forall m ws last ll r cur, pow_ranges -> trig_ranges -> 0 <= m <= 400 ->
  sane m cur -> sane m last -> linked cur last -> linked last ll ->
  is_spinner (po_obj (do_base cur)) = false -> is_spinner (po_obj (do_base last)) = false ->
  fle (fdiv (do_Jump cur) (do_StrainTime cur)) (aim_value ws (last :: ll :: r) cur) = true.
Proof.
  intros m ws last ll r cur PR TR Hm S S' L L' N N'. fold (base_spinner cur) in N. fold (base_spinner last) in N'. unfold aim_value. rewrite N, N'. cbv zeta.
  pose proof (velocity_bd m Hm ws cur last S L N) as V. pose proof (velocity_bd m Hm ws last ll S' L' N') as V'. pose proof (change_bd TR m Hm ws cur last ll S S' L L' N N') as C.
  pose proof (angles_bd PR TR m Hm cur last ll _ _ S S' V V') as A. destruct (aim_angles _ _ _ _ _) as (wide, acute). cbn [fst snd] in A. destruct A as (A1 & A2).
  set (ch := aim_velocity_change _ _ _ _) in *. clearbody ch.
  assert (W : (B2R (fdiv (do_Jump cur) (do_StrainTime cur)) <= B2R (aim_velocity ws cur last))%R /\ is_finite (fdiv (do_Jump cur) (do_StrainTime cur)) = true).
  { destruct (strain_ge1 m cur S) as (Ft & Bt). assert (V1 : bd m (fdiv (do_Jump cur) (do_StrainTime cur))) by (apply bd_div; [apply (bd_of _ _ _ (sn_jump _ _ S)), Rle_refl|exact Ft|lra|lia|lia]).
    split; [|exact (bd_fin _ _ V1)]. unfold aim_velocity in *. destruct (base_lazy last && ws) eqn:E; [|apply Rle_refl]. apply andb_true_iff in E as (E & _).
    destruct (L E N) as (W1 & W2). apply within_ge in W1 as (F1 & B1). apply within_ge in W2 as (F2 & B2).
    assert (AD : bd (m + 1) (fadd (fdiv (do_Movement cur) (do_MovementTime cur)) (fdiv (do_Travel cur) (do_TravelTime cur)))).
    { apply bd_add; [| |lia|lia]; apply bd_div; try (apply (bd_of _ _ _ (sn_move _ _ S)), Rle_refl); try (apply (bd_of _ _ _ (sn_travel _ _ S)), Rle_refl); auto; try lra; lia. }
    destruct (fmax_fin _ _ (bd_fin _ _ V1) (bd_fin _ _ AD)) as (_ & ->). apply Rmax_l. }
  destruct W as (W & FW). set (v := aim_velocity ws cur last) in *. clearbody v. set (v0 := fdiv _ _) in *. clearbody v0.
  assert (MX : bd (m + 6) (fmax (fmul acute (fq 2 1)) (fadd (fmul wide (fq 3 2)) (fmul ch (fq 3 4))))).
  { apply bd_max.
    - apply (bd_le (3 + 1)); [|lia]. apply bd_mul; [exact A2|bdc|lia|lia|lia].
    - apply (bd_le ((m + 2) + 1)); [|lia]. apply bd_add; [| |lia|lia].
      + replace (m + 2) with ((m + 1) + 1) by lia. apply bd_mul; [exact A1|bdc|lia|lia|lia].
      + replace (m + 2) with ((m + 1) + 1) by lia. apply bd_mul; [exact C|bdc|lia|lia|lia]. }
  set (x := fmax _ _) in *. clearbody x.
  assert (UP : forall k y z, 0 <= k <= 900 -> bd k y -> bd k z -> bd (k + 1) (fadd y z) /\ (B2R y <= B2R (fadd y z))%R).
  { intros k y z K Y Z. split; [apply bd_add; auto; lia|]. apply bd_iff in Y as (Fy & By). apply bd_iff in Z as (Fz & Bz).
    destruct (fadd_fin _ _ Fy Fz) as (_ & ->). { rewrite Rabs_pos_eq by lra. apply Rle_trans with (bpow radix2 (k + 1)); [rewrite bpow_plus; change (bpow radix2 1) with 2%R; lra|apply bpow_le; lia]. }
    apply rnd64_ge_f. lra. }
  destruct (UP (m + 6) v x ltac:(lia)) as (B1 & L1); [apply (bd_le _ _ _ V); lia|exact MX|]. set (y := fadd v x) in *. clearbody y.
  assert (FIN : forall z, is_finite z = true -> (B2R y <= B2R z)%R -> fle v0 z = true).
  { intros z Fz Lz. apply fle_iff. split; [now apply fin_num|]. split; [now apply fin_num|]. rewrite !(key_fin 53 1024) by assumption. lra. }
  destruct ws; [|apply FIN; [exact (bd_fin _ _ B1)|apply Rle_refl]].
  assert (SB : bd (m + 7) (fmul (if fne (do_TravelTime cur) f0 then fdiv (do_Travel cur) (do_TravelTime cur) else f0) (fq 3 2))).
  { apply (bd_le (m + 1)); [|lia]. apply bd_mul; [|bdc|lia|lia|lia]. destruct (fne (do_TravelTime cur) f0) eqn:E; [|apply bd_0].
    destruct (sn_travel_time _ _ S) as [T|(Ft & Bt)]; [rewrite T in E; discriminate E|]. apply bd_div; [apply (bd_of _ _ _ (sn_travel _ _ S)), Rle_refl|exact Ft|lra|lia|lia]. }
  replace (m + 6 + 1) with (m + 7) in B1 by lia. destruct (UP (m + 7) y _ ltac:(lia) B1 SB) as (B2 & L2). apply FIN; [exact (bd_fin _ _ B2)|exact L2].
Qed.
(** Aim strain is at least the velocity of the jump, on every map of tidy
    objects in order. *)
Theorem C69_velocity : forall d objs before ll last cur after ws, pow_ranges -> trig_ranges -> clocked d ->
  Forall (tidy 32 d) objs -> in_order objs -> create_difficulty_objects objs d = Ok (before ++ ll :: last :: cur :: after) ->
  is_spinner (po_obj (do_base cur)) = false -> is_spinner (po_obj (do_base last)) = false ->
  fle (fdiv (do_Jump cur) (do_StrainTime cur)) (aim_value ws (last :: ll :: rev before) cur) = true.
Proof.
  intros d objs before ll last cur after ws PR TR D T O C N N'. destruct (create_sane PR 32 ltac:(lia) d D objs _ T O C) as (S & _ & CH). change (32 + 40) with 72 in *.
  rewrite Forall_forall in S. assert (LN : forall i a b, nth_error (cur :: last :: ll :: rev before) i = Some a -> nth_error (cur :: last :: ll :: rev before) (Datatypes.S i) = Some b -> linked a b).
  { intros i a b A B. apply (CH (length after + i)%nat).
    - rewrite rev_app_distr. cbn [rev]. rewrite <- !app_assoc. cbn [app]. rewrite nth_error_app2 by (rewrite rev_length; lia). rewrite rev_length. replace (length after + i - length after)%nat with i by lia. exact A.
    - rewrite rev_app_distr. cbn [rev]. rewrite <- !app_assoc. cbn [app]. rewrite nth_error_app2 by (rewrite rev_length; lia). rewrite rev_length. replace (Datatypes.S (length after + i) - length after)%nat with (Datatypes.S i) by lia. exact B. }
  apply (velocity_below 72); auto; try lia.
  - apply S, in_or_app. right. right. right. left. reflexivity.
  - apply S, in_or_app. right. right. left. reflexivity.
  - now apply (LN 0%nat).
  - now apply (LN 1%nat).
Qed.
End WithLibm.

(** ** A concrete case *)
(** the velocity of the last jump of the demo, its aim strain with and without
    sliders, its speed strain and flashlight strain in hundredths; and the ages of
    the objects flashlight counts (the third last is a spinner) *)
Definition last_values (l : list dobj) : option (list Z * list nat) :=
  match rev l with
  | cur :: prev => Some (map hundredths [fdiv (do_Jump cur) (do_StrainTime cur); @aim_value calm_libm true prev cur; @aim_value calm_libm false prev cur; @speed_value calm_libm PropDiff.demo_diff prev cur; @flash_value calm_libm PropDiff.demo_diff prev cur], map fst (visible prev))
  | [] => None
  end.
Example C69_instance : @pow_ranges calm_libm /\ @trig_ranges calm_libm /\ clocked PropDiff.demo_diff /\ Forall (@tidy 32 PropDiff.demo_diff) long_demo /\ in_order long_demo /\
  match view (@create_difficulty_objects calm_libm long_demo PropDiff.demo_diff) with Some l => (map (fun o => is_spinner (po_obj (do_base o))) l, last_values l) | None => ([], None) end = ([false; true; false; false; false], Some ([481; 481; 481; 2; 463], [0; 1; 3]%nat)).
Proof.
  split; [exact calm_pow|]. split; [exact calm_trig|]. assert (E : PropDiff.demo_diff = SpecDifficulty.built (fq 5 1) (fq 4 1) (fq 8 1) (fq 9 1) 0 (fq 1 1)) by (unfold PropDiff.demo_diff; rewrite new_built; reflexivity).
  split; [rewrite E; exact (proj1 (diff_sane 0))|]. split; [exact demo_tidy|]. split; [exact demo_order|]. vm_compute. reflexivity.
Qed.

Print Assumptions C69_spinner. Print Assumptions C69_aim_start. Print Assumptions C69_aim_spinner. Print Assumptions C69_memory. Print Assumptions C69_sliderless. Print Assumptions C69_flash. Print Assumptions C69_velocity.

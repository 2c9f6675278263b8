(** Strain times, and maps without sliders. *)
From Coq Require Import Reals Lra.
From Flocq Require Import Core BinarySingleNaN.
From Verif Require Import DiffCalc SpecDiff BaseLemmas FloatLemmas KeyLemmas BoundLemmas SignLemmas StackOffsetProofs CurveProofs CurveStart DiffProofs DiffTotal SkillProofs.
Open Scope R_scope.

Lemma fq25 : fin (fq 25 1) /\ B2R (fq 25 1) = 25. Proof. apply (fq1_exact 25). lia. Qed.
Lemma fmax_nan_l y : fmax B754_nan y = B754_nan \/ fmax B754_nan y = B754_infinity false.
Proof. destruct y as [s|[|]| |s m e b]; auto. Qed.
Lemma floor25 x : num x -> num (fmax x (fq 25 1)) /\ 25 <= key (fmax x (fq 25 1)).
Proof.
  intros N. destruct fq25 as (F & E). destruct (fmax_key x (fq 25 1) N (fin_num _ _ _ F)) as (N' & K). split; [exact N'|]. rewrite K, (key_fin _ _ _ F), E. apply Rmax_r.
Qed.
Lemma floor25_le x : num (fmax x (fq 25 1)) -> fle (fq 25 1) (fmax x (fq 25 1)) = true.
Proof.
  intros N. destruct fq25 as (F & E). apply fle_iff. split; [now apply fin_num|]. split; [exact N|]. rewrite (key_fin _ _ _ F), E.
  destruct (is_nan x) eqn:Nx; [|now apply floor25]. exfalso. destruct x; try discriminate Nx. revert N. unfold num. vm_compute. discriminate.
Qed.
Lemma pz_25 (x : f64) : num x -> 25 <= key x -> pz x.
Proof.
  intros N K. destruct x as [s|s| |s m e b]; try discriminate N.
  - cbn in K. lra.
  - cbn [key] in K. pose proof (bpow_gt_0 radix2 1024). destruct s; [lra|now right].
  - destruct s; [|now right]. exfalso. cbn [key B2R] in K. pose proof (F2R_lt_0 radix2 (Float radix2 (Zneg m) e) ltac:(reflexivity)) as H. cbn [cond_Zopp] in K. cbn [Z.opp] in K. lra.
Qed.
Lemma pz_floor25 x : pz (fmax x (fq 25 1)).
Proof. destruct (is_nan (fmax x (fq 25 1))) eqn:N; [now left|]. apply pz_25; [exact N|]. pose proof (floor25_le x N) as L. apply fle_iff in L as (_ & _ & L). destruct fq25 as (F & E). now rewrite (key_fin _ _ _ F), E in L. Qed.

Section WithLibm.
Context {M : libm}.

(** ** Difficulty objects and the hit objects they come from *)
Lemma diff_nth d l : forall ll last i o, nth_error (diff_objects d ll last l) i = Some o ->
  exists a b ll', nth_error (last :: l) i = Some a /\ nth_error l i = Some b /\ o = new_dobj d b ll' a.
Proof.
  induction l as [|c l IH]; intros ll last [|i] o H; try discriminate H; cbn [diff_objects nth_error] in *.
  - exists last, c, ll. repeat split. congruence.
  - destruct (IH _ _ _ _ H) as (a & b & ll' & H1 & H2 & H3). exists a, b, ll'. auto.
Qed.
Lemma create_nth objs d dos i o : create_difficulty_objects objs d = Ok dos -> nth_error dos i = Some o ->
  exists a b ll, wrap_object d (po_obj a) = Ok a /\ wrap_object d (po_obj b) = Ok b /\
    nth_error objs i = Some (po_obj a) /\ nth_error objs (S i) = Some (po_obj b) /\ o = new_dobj d b ll a.
Proof.
  intros H N. unfold create_difficulty_objects in H. apply bind_ok in H as (ps & Hp & H). apply Ok_inj in H. subst dos.
  destruct ps as [|p r]; [destruct i; discriminate N|]. apply diff_nth in N as (a & b & ll & H1 & H2 & H3). exists a, b, ll. pose proof (mapM_wrap _ _ _ Hp) as EM.
  assert (W : forall x, In x (p :: r) -> wrap_object d (po_obj x) = Ok x).
  { intros x Hx. clear - Hp Hx. revert Hx. generalize dependent (p :: r). clear. induction objs as [|y objs IH]; intros l H Hx; cbn [mapM] in H; [apply Ok_inj in H; subst l; destruct Hx|].
    apply bind_ok in H as (q & Hq & H). apply bind_ok in H as (qs & Hqs & H). apply Ok_inj in H. subst l. destruct Hx as [<-|Hx]; [|exact (IH _ Hqs Hx)]. now rewrite (wrap_obj _ _ _ Hq). }
  split; [apply W; eapply nth_error_In; exact H1|]. split; [apply W; right; eapply nth_error_In; exact H2|]. rewrite <- EM, !nth_error_map. cbn [nth_error]. rewrite H1, H2. auto.
Qed.
Lemma new_strain d b ll a : do_DeltaTime (new_dobj d b ll a) = fdiv (fsub (ho_start (po_obj b)) (ho_start (po_obj a))) (d_Speed d) /\
  do_StrainTime (new_dobj d b ll a) = fmax (do_DeltaTime (new_dobj d b ll a)) (fq 25 1).
Proof. unfold new_dobj. destruct (_ || _); [split; reflexivity|]. destruct (po_lazy a); split; reflexivity. Qed.
Lemma new_times d b ll a :
  (exists x, do_TravelTime (new_dobj d b ll a) = fmax x (fq 25 1)) \/ do_TravelTime (new_dobj d b ll a) = f0.
Proof. unfold new_dobj. destruct (_ || _); [now right|]. destruct (po_lazy a); [left; eexists; reflexivity|now right]. Qed.
Lemma new_move d b ll a :
  (exists x, do_MovementTime (new_dobj d b ll a) = fmax x (fq 25 1)) \/ do_MovementTime (new_dobj d b ll a) = f0.
Proof. unfold new_dobj. destruct (_ || _); [now right|]. left. destruct (po_lazy a); eexists; reflexivity. Qed.
Lemma delta_num a b s : fin a -> fin b -> fin s -> B2R s <> 0 -> num (fdiv (fsub b a) s).
Proof.
  intros Fa Fb Fs NZ. assert (N : num (fsub b a)) by (apply (num_minus 53 1024); assumption). destruct (fsub b a) as [x|x| |x m e p]; try discriminate N; destruct s as [t|t| |t m' e' p']; try discriminate Fs; try reflexivity; try (now destruct NZ).
  apply (Bdiv_ork 53 1024); [reflexivity|exact NZ].
Qed.

(** ** Without sliders *)
Definition plain (o : dobj) : Prop := base_lazy o = false /\ do_TravelTime o = f0 /\ pz (do_Jump o) /\ pz (do_StrainTime o).
Lemma wrap_plain d o p : no_slider o -> wrap_object d o = Ok p -> po_lazy p = None.
Proof. intros N H. unfold wrap_object in H. destruct (ho_kind o) as [| |sd] eqn:E; [apply Ok_inj in H; now subst|apply Ok_inj in H; now subst|now destruct (N sd)]. Qed.
Lemma new_plain d b ll a : po_lazy a = None -> po_lazy b = None -> plain (new_dobj d b ll a).
Proof.
  intros La Lb. assert (S : pz (do_StrainTime (new_dobj d b ll a))) by (destruct (new_strain d b ll a) as (_ & ->); apply pz_floor25).
  unfold plain. split; [|split; [|split; [|exact S]]]; clear S; unfold new_dobj, base_lazy; destruct (_ || _); cbn [do_base do_TravelTime do_Jump]; try (now rewrite Lb); try reflexivity; try (now right); rewrite La; cbn [do_base do_TravelTime do_Jump].
  - now rewrite Lb.
  - reflexivity.
  - apply pz_f_of_g, pz_vdst.
Qed.
Lemma create_plain objs d dos : Forall no_slider objs -> create_difficulty_objects objs d = Ok dos -> Forall plain dos.
Proof.
  intros N C. apply Forall_forall. intros o Ho. apply In_nth_error in Ho as (i & Hi). destruct (create_nth _ _ _ _ _ C Hi) as (a & b & ll & W1 & W2 & N1 & N2 & ->).
  rewrite Forall_forall in N. apply new_plain; eapply wrap_plain; try eassumption; apply N; eapply nth_error_In; eassumption.
Qed.
Lemma velocity_plain ws o b : plain b -> aim_velocity ws o b = fdiv (do_Jump o) (do_StrainTime o).
Proof. intros (L & _). unfold aim_velocity. now rewrite L. Qed.
Lemma fmul_f0_fq : fmul f0 (fq 3 2) = f0. Proof. apply B2SF_eq. vm_compute. reflexivity. Qed.
Lemma aim_plain prev cur : Forall plain prev -> plain cur -> aim_value true prev cur = aim_value false prev cur.
Proof.
  intros P C. unfold aim_value. destruct prev as [|l [|ll r]]; [reflexivity|reflexivity|]. inversion P as [|? ? P1 P']; subst. inversion P' as [|? ? P2 _]; subst.
  destruct (base_spinner cur); [reflexivity|]. destruct (base_spinner l); [reflexivity|]. rewrite !velocity_plain by assumption.
  destruct (aim_angles cur l ll _ _) as [wide acute]. destruct C as (_ & -> & PJ & PS). change (fne f0 f0) with false. cbv iota. rewrite fmul_f0_fq. apply fadd_zero.
  intros H. apply fadd_neg0 in H as [H _]. revert H. apply pz_not_neg0. now apply pz_div.
Qed.
Lemma section_aim fuel start s : section_loop fuel (Aim true) start s = section_loop fuel (Aim false) start s.
Proof.
  revert s. induction fuel as [|fuel IH]; intros s; cbn [section_loop]; [reflexivity|]. destruct (fgt _ _); [|reflexivity].
  change (initial_strain (Aim true) s (sk_end s)) with (initial_strain (Aim false) s (sk_end s)). destruct (initial_strain (Aim false) s (sk_end s)); [|reflexivity|reflexivity]. cbn [bind]. apply IH.
Qed.
Lemma process_plain fuel d s o : Forall plain (sk_prev s) -> plain o -> process fuel (Aim true) d s o = process fuel (Aim false) d s o.
Proof.
  intros P C. unfold process. change (history_length (Aim true)) with 2%nat. change (history_length (Aim false)) with 2%nat. rewrite section_aim.
  match goal with |- bind ?a _ = bind ?a _ => destruct a; [|reflexivity|reflexivity] end. cbn [bind strain_value].
  rewrite aim_plain; [reflexivity| |exact C]. clear - P. revert P. generalize (sk_prev s). generalize 2%nat. induction n as [|n IH]; intros l P; [constructor|]. destruct P; [constructor|]. cbn [firstn]. constructor; auto.
Qed.
Lemma process_prev fuel k d s o s' : process fuel k d s o = Ok s' -> Forall plain (sk_prev s) -> plain o -> Forall plain (sk_prev s').
Proof.
  intros H P C. unfold process in H. apply bind_ok in H as (s1 & _ & H). apply bind_ok in H as (rh & _ & H). apply Ok_inj in H. subst s'. cbn [sk_prev]. constructor; [exact C|].
  clear - P. revert P. generalize (sk_prev s). generalize (history_length k). induction n as [|n IH]; intros l P; [constructor|]. destruct P; [constructor|]. cbn [firstn]. constructor; auto.
Qed.
Lemma fold_plain fuel d dos : Forall plain dos -> forall s s', cs_aim s = cs_aimNS s -> Forall plain (sk_prev (cs_aim s)) ->
  foldM (process_all fuel d) s dos = Ok s' -> cs_aim s' = cs_aimNS s'.
Proof.
  intros P. induction P as [|o dos Po P IH]; intros s s' E A H; cbn [foldM] in H; [apply Ok_inj in H; now subst|].
  apply bind_ok in H as (s1 & H1 & H). unfold process_all in H1. rewrite <- E in H1. rewrite <- (process_plain fuel d (cs_aim s) o A Po) in H1.
  apply bind_ok in H1 as (a & Ha & H1). rewrite Ha in H1. cbn [bind] in H1. apply bind_ok in H1 as (p & _ & H1). apply bind_ok in H1 as (f & _ & H1). apply Ok_inj in H1.
  eapply IH; [| |exact H]; subst s1; cbn [cs_aim cs_aimNS]; [reflexivity|]. exact (process_prev _ _ _ _ _ _ Ha A Po).
Qed.
Lemma value_aim k : difficulty_value (Aim true) k = difficulty_value (Aim false) k.
Proof.
  unfold difficulty_value, difficulty_value_of. assert (R : forall l i, reduce_peaks (Aim true) i l = reduce_peaks (Aim false) i l) by (induction l as [|x l IH]; intros i; cbn [reduce_peaks]; [reflexivity|]; now rewrite IH). now rewrite R.
Qed.
Lemma plain_factor fuel objs d a : Forall no_slider objs -> calculate_single fuel objs d = Ok a ->
  at_SliderFactor a = if fgt (at_Aim a) (fq 1 100000) then fdiv (at_Aim a) (at_Aim a) else fq 1 1.
Proof.
  intros NS H. unfold calculate_single, rmap in H. apply bind_ok in H as (r & H & E). apply Ok_inj in E. subst a.
  destruct objs as [|o rs]; [rewrite single_nil in H; discriminate H|].
  destruct (create_difficulty_objects (o :: rs) d) as [dos| |] eqn:C; [|unfold calculate_single_full in H; rewrite C in H; discriminate H|unfold calculate_single_full in H; rewrite C in H; discriminate H].
  rewrite (single_full_eq fuel o rs d dos C) in H. apply bind_ok in H as (s & F & H). apply Ok_inj in H. subst r. cbn [fst].
  pose proof (fold_plain fuel d dos (create_plain _ _ _ NS C) (new_skills d) s eq_refl ltac:(constructor) F) as EA.
  unfold get_stars. rewrite EA, value_aim. unfold stars_from_raw. cbn [at_SliderFactor at_Aim]. reflexivity.
Qed.
Lemma div_self (x : f64) : fin x -> B2R x <> 0 -> fdiv x x = fq 1 1.
Proof.
  intros F NZ. destruct (fq1_exact 1) as (F1 & E1); [lia|]. destruct (fdiv_fin x x F F NZ) as (Fd & Ed).
  { unfold Rdiv. rewrite Rinv_r by exact NZ. apply small_1023. rewrite Rabs_pos_eq; lra. }
  unfold Rdiv in Ed. rewrite Rinv_r in Ed by exact NZ. rewrite (rnd64_Z 1) in Ed by lia. apply key_inj; [now apply fin_num|now apply fin_num| |rewrite (key_fin _ _ _ Fd), Ed; lra].
  rewrite (key_fin _ _ _ Fd), (key_fin _ _ _ F1), Ed, E1. reflexivity.
Qed.
Lemma plain_factor_one fuel objs d a : Forall no_slider objs -> calculate_single fuel objs d = Ok a -> at_Aim a <> B754_infinity false -> at_SliderFactor a = fq 1 1.
Proof.
  intros NS H NI. rewrite (plain_factor _ _ _ _ NS H). destruct (fgt (at_Aim a) (fq 1 100000)) eqn:G; [|reflexivity].
  apply fgt_iff in G as (N & N' & K). assert (P : 0 < key (fq 1 100000)). { rewrite (key_fin _ _ (fq 1 100000)) by (vm_compute; reflexivity). bval (fq 1 100000). rewrite V. lra. }
  assert (NNN : nn (at_Aim a)) by (split; [exact N|lra]). destruct (nn_cases 53 1024 _ NNN) as [E|[F _]]; [contradiction|].
  apply div_self; [exact F|]. rewrite <- (key_fin _ _ _ F). lra.
Qed.
End WithLibm.

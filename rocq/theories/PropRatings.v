(** C67: ratings and strain peaks are numbers. *)
From Coq Require Import Reals Lra.
From Flocq Require Import Raux Zaux Core BinarySingleNaN.
From Verif Require Import SpecDifficulty DiffCalc SpecDiff SpecPP SpecSane BaseLemmas FloatLemmas Float32Lemmas KeyLemmas BoundLemmas DifficultyProofs CurveProofs CurveBounds CurveStart DiffProofs PPProofs PPBounds PPChains PPDiff ValueBounds RatingBounds ObjectBounds PathBounds PropDifficulty PropPP PropDiff PropStrain.
Import ListNotations.
Open Scope Z_scope.
Notation within := SpecPP.within.

(** Ratings that are finite and not negative *)
Definition rated (a : attributes) : Prop :=
  within 0 (bpow radix2 128) (at_Aim a) /\ within 0 (bpow radix2 128) (at_Speed a) /\ within 0 (bpow radix2 128) (at_Flashlight a) /\
  within 0 (bpow radix2 145) (at_SliderFactor a) /\ within 0 (bpow radix2 850) (at_Total a).
Definition peaks_rated (p : strain_peaks) : Prop :=
  Forall (within 0 (bpow radix2 256)) (pk_Aim p) /\ Forall (within 0 (bpow radix2 256)) (pk_Speed p) /\
  Forall (within 0 (bpow radix2 256)) (pk_Flashlight p) /\ Forall (within 0 (bpow radix2 850)) (pk_Total p).

Lemma bd_within k j x : bd k x -> (k <= j)%Z -> within 0 (bpow radix2 j) x.
Proof. intros B H. apply bd_iff. now apply (bd_le k). Qed.
Lemma zeros_rated a : no_ratings a -> rated a.
Proof. intros (E1 & E2 & E3 & E4 & E5). unfold rated. rewrite E1, E2, E3, E4, E5. assert (Z : forall k, within 0 (bpow radix2 k) f0) by (intros k; split; [reflexivity|cbn; split; [lra|apply bpow_ge_0]]). auto. Qed.
Lemma order_firstn l : forall n, in_order l -> in_order (firstn n l).
Proof.
  induction l as [|a l IH]; intros [|n] H; try exact I. cbn [firstn]. destruct l as [|b l]; [destruct n; exact I|]. destruct H as (H1 & H2). specialize (IH n H2). destruct n; [exact I|]. cbn [firstn] in *. split; assumption.
Qed.

(** The difficulties this covers: base values from 0 to 10, any mods, clock
    rates from 1/4 to 4. *)
Lemma inv8 c : within (1 / 8) 8 c -> within (1 / 8) 8 (fdiv (fq 1 1) c).
Proof.
  intros (F & B). destruct (fq1_exact 1) as (F1 & E1); [lia|]. assert (Q : (1 / 8 <= B2R (fq 1 1) / B2R c <= 8)%R) by (rewrite E1; apply quot_bounds; lra).
  destruct (fdiv_fin _ _ F1 F) as (Fd & Ed); [lra|apply big_1023; rewrite Rabs_pos_eq; lra|]. split; [exact Fd|]. rewrite Ed. split; [|apply (rnd64_exact_Z 8); [lia|lra]]. bval (fq 1 8). assert (E8 : (B2R (fq 1 8) = 1 / 8)%R) by lra. rewrite <- E8. apply rnd64_ge_f. lra.
Qed.
Theorem C67_difficulty : forall hp cs od ar m sp, base_ok cs -> base_ok od -> base_ok ar -> within (1 / 4) 4 sp -> clocked (SpecDifficulty.built hp cs od ar m sp).
Proof.
  intros hp cs od ar m sp C O A (Fs & Bs). destruct (C07_ranges hp cs od ar m sp C O A) as (R & _ & H & _). set (d := SpecDifficulty.built hp cs od ar m sp) in *.
  assert (W : forall lo hi x, fle lo x = true /\ fle x hi = true -> fin lo -> fin hi -> within (B2R lo) (B2R hi) x).
  { intros lo hi x (L & U) Fl Fh. apply fle_iff in L as (_ & N & L). apply fle_iff in U as (_ & _ & U). rewrite (key_fin 53 1024 lo Fl) in L. rewrite (key_fin 53 1024 hi Fh) in U.
    pose proof (B2R_lt 53 1024 lo Fl). pose proof (B2R_lt 53 1024 hi Fh). assert (F : fin x) by (apply (fin_of_key 53 1024); [exact N|lra]). split; [exact F|]. rewrite (key_fin 53 1024 x F) in L, U. lra. }
  split; [|split].
  - destruct (fq1_exact 20) as (F2 & E2); [lia|]. destruct (fq1_exact 80) as (F8 & E8); [lia|]. destruct (W _ _ _ H F2 F8) as (F & B). split; [exact F|]. rewrite E2, E8 in B. lra.
  - destruct (built_attrs hp cs od ar m sp) as (_ & _ & _ & _ & _ & _ & _ & E & _). fold d in E. rewrite E. apply inv8.
    assert (Q : forall c, within (3 / 4) (3 / 2) c -> within (1 / 8) 8 (fmul c sp)).
    { intros c (Fc & Bc). assert (P : (3 / 16 <= B2R c * B2R sp <= 6)%R) by (split; [apply Rle_trans with (3 / 4 * (1 / 4))%R|apply Rle_trans with (3 / 2 * 4)%R]; try lra; apply Rmult_le_compat; lra).
      destruct (fmul_fin _ _ Fc Fs) as (F & V); [apply big_1023; rewrite Rabs_pos_eq; lra|]. split; [exact F|]. rewrite V. split; [|apply (rnd64_exact_Z 8); [lia|lra]]. bval (fq 1 8). assert (E8 : (B2R (fq 1 8) = 1 / 8)%R) by lra. rewrite <- E8. apply rnd64_ge_f. lra. }
    unfold modified_time. destruct (mactive m DoubleTime); [|destruct (mactive m HalfTime)]; apply inv8.
    + apply Q. split; [vm_compute; reflexivity|]. bval (fq 3 2). lra.
    + apply Q. split; [vm_compute; reflexivity|]. bval (fq 3 4). lra.
    + split; [exact Fs|lra].
  - destruct (W _ _ _ R ltac:(vm_compute; reflexivity) ltac:(vm_compute; reflexivity)) as (F & B). split; [exact F|]. bval (fq 96 10). bval (fq 544 10). lra.
Qed.

Section WithLibm.
Context {M : libm}.
Section Runs.
Context (PR : pow_ranges) (TR : trig_ranges) (LU : log_unit) (d : difficulty) (D : clocked d).
Lemma skills_ok fuel objs dos s : Forall (tidy 32 d) objs -> in_order objs -> zlen objs <= 2 ^ 31 ->
  create_difficulty_objects objs d = Ok dos -> foldM (process_all fuel d) (new_skills d) dos = Ok s ->
  exists n, 0 <= n <= 2 ^ 31 /\ st_ok 72 dos n (cs_aim s) /\ st_ok 72 dos n (cs_aimNS s) /\ st_ok 72 dos n (cs_speed s) /\ match cs_flash s with Some f => st_ok 72 dos n f | None => True end.
Proof.
  intros T O N C F. destruct (create_sane PR 32 ltac:(lia) d D objs dos T O C) as (S & NR & CH). change (32 + 40) with 72 in *.
  pose proof (create_length _ _ _ C) as CL. unfold zlen in N.
  assert (RUN : forall k s', foldM (process fuel k d) skill0 dos = Ok s' -> st_ok 72 dos (0 + Z.of_nat (length dos)) s').
  { intros k s' H. apply (run_ok PR TR 72 ltac:(lia) d D dos S NR fuel k dos 0 skill0); auto; [intros x I; exact I|intros o r p r' _ X; discriminate X|lia|lia|cbn; lia|apply st_0]. }
  destruct (split_folds _ _ _ _ _ F) as (A & NS & SP & L). cbn [new_skills cs_aim cs_aimNS cs_speed cs_flash] in A, NS, SP, L.
  exists (0 + Z.of_nat (length dos)). split; [lia|]. split; [now apply (RUN (Aim true))|]. split; [now apply (RUN (Aim false))|]. split; [now apply (RUN Speed)|].
  destruct (check_mod d Flashlight); destruct (cs_flash s); try contradiction; [now apply (RUN Flash)|exact I].
Qed.
Lemma single_rated fuel objs a : Forall (tidy 32 d) objs -> in_order objs -> zlen objs <= 2 ^ 31 -> calculate_single fuel objs d = Ok a -> rated a.
Proof.
  intros T O N H. destruct objs as [|o r]; [unfold calculate_single in H; rewrite single_nil in H; discriminate H|].
  destruct (create_difficulty_objects (o :: r) d) as [dos| |] eqn:C; [|unfold calculate_single, calculate_single_full in H; rewrite C in H; discriminate H|unfold calculate_single, calculate_single_full in H; rewrite C in H; discriminate H].
  unfold calculate_single in H. rewrite (single_full_eq fuel o r d dos C) in H. unfold rmap in H. apply bind_ok in H as (x & H & E). apply Ok_inj in E. subst a.
  apply bind_ok in H as (s & F & H). apply Ok_inj in H. subst x. cbn [fst]. destruct (skills_ok fuel _ dos s T O N C F) as (n & B & S1 & S2 & S3 & S4).
  apply (diff_bd LU 72 ltac:(lia) dos n (Aim true)) in S1; [|exact B]. apply (diff_bd LU 72 ltac:(lia) dos n (Aim false)) in S2; [|exact B]. apply (diff_bd LU 72 ltac:(lia) dos n Speed) in S3; [|exact B].
  assert (S5 : bd (2 * (72 + 53)) (match cs_flash s with Some f => difficulty_value Flash f | None => f0 end)) by (destruct (cs_flash s); [now apply (diff_bd LU 72 ltac:(lia) dos n Flash)|apply bd_0]).
  unfold get_stars. destruct (star_total PR TR d (72 + 53) _ _ _ _ (add_all attr0 (o :: r)) ltac:(lia) S1 S2 S3 S5) as (R1 & R2 & R3 & R4 & R5).
  split; [eapply bd_within; [exact R1|lia]|]. split; [eapply bd_within; [exact R3|lia]|]. split; [eapply bd_within; [exact R4|lia]|]. split; [eapply bd_within; [exact R2|lia]|eapply bd_within; [exact R5|lia]].
Qed.
End Runs.

(** C67.  Every rating of a map is finite and not negative: for objects within
    2^32 px and 2^38 ms, in order of time, no matter how close they are ... *)
Theorem C67_single : forall fuel objs d a, pow_ranges -> trig_ranges -> log_unit -> clocked d ->
  Forall (tidy 32 d) objs -> in_order objs -> zlen objs <= 2 ^ 31 -> calculate_single fuel objs d = Ok a -> rated a.
Proof. intros fuel objs d a PR TR LU D. now apply single_rated. Qed.
(** ... in every step ... *)
Theorem C67_step : forall fuel objs d l, pow_ranges -> trig_ranges -> log_unit -> clocked d ->
  Forall (tidy 32 d) objs -> in_order objs -> zlen objs <= 2 ^ 31 -> calculate_step fuel objs d = Ok l -> Forall rated l.
Proof.
  intros fuel objs d l PR TR LU D T O N H. destruct (C38_entries fuel objs d l H) as (_ & E & (o & r & a0 & _ & E0 & Z0 & _)). apply Forall_forall. intros a I. apply In_nth_error in I as (i & I).
  destruct i as [|i]; [rewrite E0 in I; injection I as <-; now apply zeros_rated|]. apply (single_rated PR TR LU d D fuel (firstn (S (S i)) objs)); [|now apply order_firstn| |apply (E (S i)); [lia|exact I]].
  - rewrite Forall_forall in *. intros x X. apply T. rewrite <- (firstn_skipn (S (S i)) objs). apply in_or_app. now left.
  - unfold zlen in *. rewrite firstn_length. lia.
Qed.
(** ... and so are all strain peaks. *)
Theorem C67_peaks : forall fuel objs d p, pow_ranges -> trig_ranges -> log_unit -> clocked d ->
  Forall (tidy 32 d) objs -> in_order objs -> zlen objs <= 2 ^ 31 -> calculate_strain_peaks fuel objs d = Ok p -> peaks_rated p.
Proof.
  intros fuel objs d p PR TR LU D T O N H.
  destruct (create_difficulty_objects objs d) as [dos| |] eqn:C; [|unfold calculate_strain_peaks in H; rewrite C in H; discriminate H|unfold calculate_strain_peaks in H; rewrite C in H; discriminate H].
  pose proof (peaks_eq fuel objs d dos C) as PE. destruct (foldM (process_all fuel d) (new_skills d) dos) as [s| |] eqn:F; [|rewrite H in PE; discriminate PE|rewrite H in PE; discriminate PE].
  destruct PE as (EP & _ & _). rewrite H in EP. symmetry in EP. unfold get_peaks in EP. cbv zeta in EP. apply bind_ok in EP as (tot & HT & EP). apply Ok_inj in EP. subst p. unfold peaks_rated. cbn [pk_Aim pk_Speed pk_Flashlight pk_Total].
  destruct (skills_ok PR TR d D fuel _ dos s T O N C F) as (n & B & S1 & _ & S3 & S4). apply peaks_bd in S1 as (S1 & _); [|exact B]. apply peaks_bd in S3 as (S3 & _); [|exact B].
  assert (S5 : Forall (bd (31 + (size 72 + 7))) (match option_map current_peaks (cs_flash s) with Some l => l | None => [] end)) by (destruct (cs_flash s); [apply peaks_bd in S4 as (S4 & _); [exact S4|exact B]|constructor]).
  change (31 + (size 72 + 7)) with 212 in *. assert (UP : forall l, Forall (bd 212) l -> Forall (within 0 (bpow radix2 256)) l) by (intros l X; eapply Forall_impl; [|exact X]; intros x Y; eapply bd_within; [exact Y|lia]).
  split; [now apply UP|]. split; [now apply UP|]. split; [now apply UP|].
  apply mapM_ok in HT. clear - HT S1 S3 S5 PR TR. rewrite Forall_forall in S1, S3, S5. induction HT as [|i x is tot Hx HT IH]; constructor; [|exact IH]. clear HT IH. unfold total_peak in Hx. apply bind_ok in Hx as (f & Hf & Hx). apply bind_ok in Hx as (a & Ha & Hx). apply bind_ok in Hx as (b & Hb & Hx). apply Ok_inj in Hx. subst x.
  assert (W : forall y, bd 212 y -> bd (2 * 128) y) by (intros y Y; apply (bd_le 212); [exact Y|lia]).
  apply FinishProofs.idx_in in Ha. apply FinishProofs.idx_in in Hb. assert (Bf : bd (2 * 128) f) by (destruct (option_map current_peaks (cs_flash s)); [apply FinishProofs.idx_in in Hf; apply W, S5, Hf|apply Ok_inj in Hf; subst f; apply bd_0]).
  destruct (star_total PR TR d 128 a a b f attr0 ltac:(lia) (W _ (S1 _ Ha)) (W _ (S1 _ Ha)) (W _ (S3 _ Hb)) Bf) as (_ & _ & _ & _ & R5). eapply bd_within; [exact R5|lia].
Qed.
End WithLibm.

(** ** Concrete cases *)
Definition calm_libm : libm :=
  {| mpow := fun x y => if fle y f0 then fq 1 1 else fabs x; mlog10 := fun _ => f0; mcbrt := fun x => x; msin := fun _ => f0; mcos := fun _ => f0; macos := fun _ => f0; matan2 := fun _ _ => f0 |}.
Lemma calm_pow : @pow_ranges calm_libm. Proof. destruct abs_ranges as [A B C D]. split; assumption. Qed.
Lemma calm_trig : @trig_ranges calm_libm.
Proof.
  split.
  - intros x F. split; [reflexivity|cbn; lra].
  - intros x F B. destruct (fq1_exact 2) as (F2 & E2); [lia|]. pose proof (@abs_mpow_pos x (fq 2 1) F2 ltac:(rewrite E2; lra)) as E. change (@mpow calm_libm) with (@mpow abs_libm). rewrite E. destruct (fabs_fin x F) as (FA & EA). split; [exact FA|]. rewrite EA. split; [apply Rabs_pos|exact B].
  - intros x k K H. exact H.
Qed.
Lemma calm_log : @log_unit calm_libm. Proof. intros x F B. split; [reflexivity|cbn; lra]. Qed.
Definition small20 (x : f32) : bool := is_finite x && gle x (gq (2 ^ 20) 1) && gge x (gq (- 2 ^ 20) 1).
Lemma small20_ok x : small20 x = true -> bnd 20 x.
Proof.
  intros H. apply andb_true_iff in H as (H & L). apply andb_true_iff in H as (F & U). split; [exact F|]. destruct (gq1_exact (2 ^ 20)) as (F1 & E1); [lia|]. destruct (gq1_exact (- 2 ^ 20)) as (F2 & E2); [lia|].
  apply gle_iff in U as (_ & _ & U). apply gge_iff in L as (_ & _ & L). rewrite !(key_fin 24 128) in U, L by assumption. rewrite E1 in U. rewrite E2 in L. change (bpow radix2 20) with (IZR (2 ^ 20)). apply Rabs_le. rewrite <- opp_IZR. lra.
Qed.
Definition small20v (v : vec) : bool := small20 (vx v) && small20 (vy v).
Lemma small20v_ok v : small20v v = true -> vbnd 20 v. Proof. intros H. apply andb_true_iff in H as (X & Y). split; now apply small20_ok. Qed.
Lemma ms_upto t : Z.abs t <= 2 ^ 30 -> time_upto (fq t 1).
Proof. intros T. destruct (fq1_exact t) as (F & E); [lia|]. split; [exact F|]. rewrite E. change (bpow radix2 38) with (IZR (2 ^ 38)). rewrite <- opp_IZR. split; apply IZR_le; lia. Qed.
(** The demo of PropDiff: circles, a slider and a spinner; the slider now lasts. *)
Definition long_slider : hobj :=
  mkHobj demo_slider (mkVec (gq 100 1) (gq 100 1)) (mkVec (gq 180 1) (gq 100 1)) (fq 1000 1) (fq 1200 1) vzero vzero vzero 0 0 0 0 [] false 0 0 0 0.
Definition long_demo : list hobj := [at_ms KCircle 0 0 0; long_slider; at_ms KSpinner 256 192 2000; at_ms KCircle 300 50 3000; at_ms KCircle 100 300 3100; at_ms KCircle 400 200 3190].
Lemma demo_tidy : Forall (@tidy 32 demo_diff) long_demo.
Proof.
  assert (V : forall x y, small20v (mkVec (gq x 1) (gq y 1)) = true -> vbnd 20 (mkVec (gq x 1) (gq y 1))) by (intros x y; apply small20v_ok).
  assert (V0 : vbnd 20 vzero) by (apply small20v_ok; vm_compute; reflexivity).
  assert (UP : forall o, @tidy (20 + 4) demo_diff o -> @tidy 32 demo_diff o).
  { intros o [A B C D E]. assert (U : forall v, point_upto (20 + 4) v -> point_upto 32 v) by (intros v; apply (vbnd_le (20 + 4)); lia). split; auto. intros t v T H. now apply U, (C t). }
  assert (P : forall k x y t, (forall sd, k <> KSlider sd) -> small20v (mkVec (gq x 1) (gq y 1)) = true -> Z.abs t <= 2 ^ 30 -> @tidy 32 demo_diff (at_ms k x y t)).
  { intros k x y t K S T. apply UP. apply plain_tidy; auto; [lia| | |]; [apply (V x y S)|apply (V x y S)|now apply ms_upto]. }
  repeat (apply Forall_cons); try (apply P; [intros sd; discriminate|vm_compute; reflexivity|lia]); [|constructor].
  apply UP. destruct (@new_multicurve_t_built one_libm 9 (lit "L") [mkVec (gq 100 1) (gq 100 1); mkVec (gq 200 1) (gq 100 1)] (fq 80 1) demo_curve) as (ls & p & r & _ & EP & EC).
  { unfold demo_curve. destruct (new_multicurve_t _ _ _ _) eqn:E; [reflexivity| |]; exfalso; apply (f_equal outcome_of) in E; vm_compute in E; discriminate E. }
  set (ls' := if ggt (total_length ls) g0 then _ else ls) in EC. clearbody ls'. clear ls. rename ls' into ls. assert (EL : ls = mc_lines demo_curve) by (rewrite EC; reflexivity). injection EP as <- _.
  apply (slider_tidy _ _ (mkSlider demo_curve None (fq 80 1) 1 [mkTick (fq 1100 1) false; mkTick (fq 1200 1) true] (fq 200 1)) ls (mkVec (gq 100 1) (gq 100 1))).
  - reflexivity.
  - exact EC.
  - lia.
  - rewrite EL. vm_compute. reflexivity.
  - apply (V 100 100). vm_compute. reflexivity.
  - rewrite EL. assert (C : forallb (fun l => small20v (ln_p1 l) && small20v (ln_p2 l)) (mc_lines demo_curve) = true) by (vm_compute; reflexivity). apply Forall_forall. intros l I. rewrite forallb_forall in C. specialize (C l I). apply andb_true_iff in C as (C1 & C2). split; [exact (small20v_ok _ C1)|exact (small20v_ok _ C2)].
  - apply (V 100 100). vm_compute. reflexivity.
  - apply (V 180 100). vm_compute. reflexivity.
  - exact V0.
  - exact V0.
  - exact V0.
  - apply (ms_upto 1000). lia.
  - apply (ms_upto 1200). lia.
  - unfold long_slider. cbn [ho_start ho_end]. destruct (fq1_exact 1000) as (_ & ->); [lia|]. destruct (fq1_exact 1200) as (_ & ->); [lia|]. lra.
  - left. destruct (fq1_exact 200) as (F & E); [lia|]. split; [exact F|]. cbn [sl_span]. rewrite E. apply Rle_trans with (bpow radix2 0); [apply bpow_le; lia|change (bpow radix2 0) with 1%R; lra].
  - cbn [sl_repeat]. lia.
  - cbn [sl_ticks]. unfold zlen. cbn [length]. lia.
  - cbn [sl_ticks]. apply Forall_cons; [apply (ms_upto 1100); lia|]. apply Forall_cons; [apply (ms_upto 1200); lia|]. apply Forall_nil.
Qed.
Lemma demo_order : in_order long_demo.
Proof.
  unfold long_demo, long_slider. cbn [in_order at_ms ho_start]. repeat match goal with |- context [B2R (fq ?n 1)] => destruct (fq1_exact n) as (_ & ->); [lia|] end. repeat (split; [lra|]). exact I.
Qed.
Lemma demo_clocked m : clocked (SpecDifficulty.built (fq 5 1) (fq 4 1) (fq 8 1) (fq 9 1) m (fq 1 1)).
Proof.
  apply C67_difficulty; [split; vm_compute; reflexivity|split; vm_compute; reflexivity|split; vm_compute; reflexivity|]. destruct (fq1_exact 1) as (F & E); [lia|]. split; [exact F|]. rewrite E. lra.
Qed.
(** ratings in hundredths *)
Example C67_instance : @pow_ranges calm_libm /\ @trig_ranges calm_libm /\ @log_unit calm_libm /\ clocked demo_diff /\ Forall (@tidy 32 demo_diff) long_demo /\ in_order long_demo /\
  option_map (fun a => map hundredths [at_Aim a; at_Speed a; at_SliderFactor a; at_Total a]) (view (@calculate_single calm_libm 9 long_demo demo_diff)) = Some [67; 38; 100; 119] /\
  option_map (fun p => (zlen (pk_Aim p), zlen (pk_Total p))) (view (@calculate_strain_peaks calm_libm 9 long_demo demo_diff)) = Some (6, 6).
Proof.
  split; [exact calm_pow|]. split; [exact calm_trig|]. split; [exact calm_log|]. split; [|split; [exact demo_tidy|split; [exact demo_order|vm_compute; auto]]].
  unfold demo_diff. rewrite new_built. apply demo_clocked.
Qed.

Print Assumptions C67_difficulty. Print Assumptions C67_single. Print Assumptions C67_step. Print Assumptions C67_peaks.

(** C84, C85 and C86: the strain of one object in each skill against its real
    formula. *)
From Coq Require Import Reals Lra ZArith Lia List Bool.
From Flocq Require Import Core BinarySingleNaN.
From Verif Require Import DiffCalc SpecPP SpecSane SpecFormula SpecEval SpecSkill BaseLemmas FloatLemmas Float32Lemmas KeyLemmas LazyProofs SkillProofs PPProofs PPBounds ValueBounds RelLemmas RelPow FormulaParts UnitLemmas AimFormula SpeedFormula RhythmFormula FlashFormula IdealLibm PropDiff PropRatings PropStrain PropDist.
Import ListNotations.
Open Scope R_scope.

Section WithLibm.
Context {M : libm}.

(** Aim: velocity with the bonuses for wide angles, sharp angles, changes of
    velocity and slider movement. *)
Theorem C84_aim : forall ws cur last ll rest, skill_maths ->
  sane 16 cur -> sane 16 last -> linked cur last -> linked last ll -> angle_ok cur -> angle_ok last -> angle_ok ll -> rhythm_clear cur last ->
  is_spinner (po_obj (do_base cur)) = false -> is_spinner (po_obj (do_base last)) = false ->
  let r := aim_formula ws (motion_of cur) (motion_of last) (motion_of ll) in
  is_finite (Skills.aim_value ws (last :: ll :: rest) cur) = true /\ Rabs (B2R (Skills.aim_value ws (last :: ll :: rest) cur) - r) <= bpow radix2 (-21).
Proof.
  intros ws cur last ll rest SM S1 S2 L1 L2 A1 A2 A3 RC N1 N2 r. destruct (aim_ab SM ws cur last ll rest) as (F & E); auto. split; [exact F|]. apply Rle_trans with (1 := E). unfold e40. repeat pw. lra.
Qed.
(** Speed: the inverse of the gap, with doubles and tight hit windows softened,
    a bonus for short gaps and for distance. *)
Theorem C85_speed : forall d prev cur, pow_close -> clocked d -> sane 16 cur -> brisk cur -> (forall p rest, prev = p :: rest -> sane 16 p /\ brisk p) ->
  is_spinner (po_obj (do_base cur)) = false ->
  let r := speed_formula (2 * (B2R (d_Hit300 d) / B2R (d_Speed d))) (B2R (do_StrainTime cur)) (match prev with p :: _ => Some (B2R (do_StrainTime p)) | [] => None end) (B2R (do_Travel cur) + B2R (do_Jump cur)) in
  is_finite (Skills.speed_value d prev cur) = true /\ Rabs (B2R (Skills.speed_value d prev cur) - r) <= bpow radix2 (-31).
Proof.
  intros d prev cur PC CD S B P N r. destruct (speed_ab PC d prev cur CD S B P N) as (F & E). split; [exact F|]. apply Rle_trans with (1 := E). unfold e40. repeat pw. lra.
Qed.
(** Rhythm: the changes of rhythm among the remembered objects of the last five
    seconds, weighted by age, island sizes and how they repeat. *)
Theorem C85_rhythm : forall d prev cur x, skill_maths -> clocked d -> sane 16 cur -> Forall (sane 16) prev -> Forall brisk prev -> (length prev <= 32)%nat ->
  Forall (fun o => B2R (do_StartTime o) <= B2R (do_StartTime cur)) prev ->
  (forall i c p l, nth_error prev i = Some c -> nth_error prev (S i) = Some p -> nth_error prev (S (S i)) = Some l -> step_clear (B2R (do_StartTime cur)) c p l) ->
  is_spinner (po_obj (do_base cur)) = false -> speed_bonus d prev cur = Ok x ->
  let r := rhythm_formula (B2R (d_Hit300 d) / B2R (d_Speed d)) (B2R (do_StartTime cur)) (map tap_of prev) in
  is_finite x = true /\ Rabs (B2R x - r) <= bpow radix2 (-12).
Proof.
  intros d prev cur x SM CD SC SP BP LP OR CL N H r. change (bpow radix2 (-12)) with (/ 4096). now apply (rhythm_ab SM d cur prev x).
Qed.
(** Flashlight: the visible earlier objects, fading by a fifth per object, by
    distance and time. *)
Theorem C86_flashlight : forall d prev cur, pow_close -> clocked d -> Forall (sane 16) prev -> Forall (near 16 d cur) prev -> (length prev <= 32)%nat ->
  is_spinner (po_obj (do_base cur)) = false ->
  let r := flash_formula (B2R (d_CircleRadius d)) (sights_of d prev cur) in
  is_finite (flash_value d prev cur) = true /\ Rabs (B2R (flash_value d prev cur) - r) <= r * bpow radix2 (-30) + bpow radix2 (-1000).
Proof. intros d prev cur PC CD SP NP LP N r. now apply (flash_close PC). Qed.
End WithLibm.

(** ** What is assumed of libm can be met *)
Lemma of_R_unit v : -1 <= v <= 1 -> within (-1) 1 (of_R v) /\ Rabs (B2R (of_R v) - v) <= bpow radix2 (-40) /\ (0 <= v -> 0 <= B2R (of_R v)).
Proof.
  intros H. assert (A : Rabs v <= bpow radix2 0) by (change (bpow radix2 0) with 1; apply Rabs_le; lra). destruct (of_R_ok v) as (F & E); [apply Rle_trans with (1 := A), bpow_le; lia|]. split; [|split].
  - split; [exact F|]. rewrite E. split; [apply (rnd64_exact_Z' (-1)); [lia|lra]|apply (rnd64_exact_Z 1); [lia|lra]].
  - rewrite E. apply Rle_trans with (1 := rnd64_err v 0 ltac:(lia) A). apply bpow_le. lia.
  - intros P. rewrite E. now apply rnd64_pos.
Qed.
Lemma exact_power x n : n <> 0%nat -> exact_pow x (INR n) = Rabs x ^ n.
Proof.
  intros N. unfold exact_pow. destruct (Req_EM_T x 0) as [->|X].
  - rewrite Rabs_R0, pow_i by lia. destruct (Rlt_dec 0 (INR n)) as [_|H]; [reflexivity|]. exfalso. apply H, lt_0_INR. lia.
  - apply Rpower_pow, Rabs_pos_lt, X.
Qed.
Lemma exact_skill : @skill_maths exact_libm.
Proof.
  constructor; cbn [msin mpow exact_libm].
  - intros x _ _. destruct (of_R_unit (sin (B2R x)) (SIN_bound _)) as (A & B & _). now split.
  - intros x _ X. destruct (fq1_exact 2) as (_ & ->); [lia|]. change 2 with (INR 2) at 1 2. rewrite exact_power, pow2_abs by lia. assert (V : 0 <= B2R x ^ 2 <= 1) by (split; [apply pow2_ge_0|rewrite <- (pow1 2), <- pow2_abs; apply pow_incr; split; [apply Rabs_pos|exact X]]).
    destruct (of_R_unit (B2R x ^ 2)) as ((F & B) & E & P); [lra|]. split; [split; [exact F|split; [apply P; lra|lra]]|exact E].
  - intros x (F & X). destruct (fq1_exact 3) as (_ & ->); [lia|]. replace 3 with (INR 3) by (cbn; lra). rewrite exact_power by lia. rewrite Rabs_pos_eq by lra. assert (V : 0 <= B2R x ^ 3 <= 1) by (split; [apply pow_le; lra|rewrite <- (pow1 3); apply pow_incr; lra]).
    destruct (of_R_unit (B2R x ^ 3)) as ((F' & B) & E & P); [lra|]. split; [split; [exact F'|split; [apply P; lra|lra]]|exact E].
Qed.

(** ** A concrete case *)
(** tests for what is asked of objects *)
Definition inb (lo hi : Z) (x : f64) : bool := is_finite x && fle (fq lo 1) x && fle x (fq hi 1).
Lemma inb_ok lo hi x : (Z.abs lo <= 2 ^ 53)%Z -> (Z.abs hi <= 2 ^ 53)%Z -> inb lo hi x = true -> within (IZR lo) (IZR hi) x.
Proof.
  intros L H I. unfold inb in I. apply andb_prop in I as (I & I3). apply andb_prop in I as (I1 & I2). destruct (fq1_exact lo L) as (F1 & E1). destruct (fq1_exact hi H) as (F2 & E2). split; [exact I1|]. rewrite <- E1, <- E2. split; now apply ValueBounds.fle_fin.
Qed.
Definition grain_check (x : f64) : bool := match x with B754_zero _ => true | _ => fle (fq 1 1024) x && is_finite x end.
Lemma grain_check_ok x : grain_check x = true -> grainy x.
Proof.
  intros H. destruct x; try (left; reflexivity); apply andb_prop in H as (H & F); try discriminate F. right. apply ValueBounds.fle_fin in H; [|vm_compute; reflexivity|exact F]. assert (E : B2R (fq 1 1024) = / 1024) by (bval (fq 1 1024); rewrite V; lra). apply Rle_trans with (2 := H). rewrite E. change (/ 1024) with (bpow radix2 (-10)). apply bpow_le. lia.
Qed.
Definition sane_check (o : dobj) : bool :=
  inb 0 65536 (do_Jump o) && grain_check (do_Jump o) && inb 0 65536 (do_Travel o) && grain_check (do_Travel o) && inb 0 65536 (do_Movement o) &&
  (fle (fq 1 1024) (do_Jump o) || inb 0 0 (do_Movement o)) && inb 25 1048576 (do_StrainTime o) && inb 0 (2 ^ 42) (do_DeltaTime o) && inb (- 2 ^ 42) (2 ^ 42) (do_StartTime o) &&
  match do_TravelTime o with B754_zero false => true | x => inb 25 (2 ^ 42) x end.
Lemma sane_check_ok o : sane_check o = true -> sane 16 o /\ brisk o.
Proof.
  intros H. unfold sane_check in H. apply andb_prop in H as (H & H10). apply andb_prop in H as (H & H9). apply andb_prop in H as (H & H8). apply andb_prop in H as (H & H7). apply andb_prop in H as (H & H6). apply andb_prop in H as (H & H5). apply andb_prop in H as (H & H4). apply andb_prop in H as (H & H3). apply andb_prop in H as (H1 & H2).
  apply inb_ok in H1, H3, H5, H7, H8, H9; try lia. split; [|destruct H7; unfold brisk; change (bpow radix2 20) with 1048576; lra]. constructor; try (now apply grain_check_ok); change (bpow radix2 16) with 65536; try assumption.
  - intros J. apply orb_prop in H6 as [H6|H6]; [|apply inb_ok in H6; [destruct H6; lra|lia|lia]]. exfalso. apply ValueBounds.fle_fin in H6; [|vm_compute; reflexivity|exact (proj1 H1)]. rewrite J in H6. assert (E : B2R (fq 1 1024) = / 1024) by (bval (fq 1 1024); rewrite V; lra). rewrite E in H6. lra.
  - destruct H7 as (F & B). split; [exact F|]. split; [lra|]. apply Rle_trans with (1 := proj2 B). change 1048576 with (bpow radix2 20). apply bpow_le. lia.
  - assert (G : do_TravelTime o = f0 \/ inb 25 (2 ^ 42) (do_TravelTime o) = true) by (destruct (do_TravelTime o) as [[|]| | |]; auto). destruct G as [G|G]; [now left|right]. apply inb_ok in G; [exact G|lia|lia].
Qed.
Definition link_check (o before : dobj) : bool := negb (base_lazy before) || (inb 25 (2 ^ 42) (do_MovementTime o) && inb 25 (2 ^ 42) (do_TravelTime o)).
Lemma link_check_ok o before : link_check o before = true -> linked o before.
Proof.
  intros H B _. unfold link_check in H. rewrite B in H. cbn [negb orb] in H. apply andb_prop in H as (H1 & H2). apply inb_ok in H1; [|lia|lia]. apply inb_ok in H2; [|lia|lia]. now split.
Qed.
(** gaps in whole milliseconds *)
Definition ms (x : f64) : Z := int_of_f x.
Definition whole (x : f64) : bool := is_finite x && feq x (f_of_Z (ms x)) && (Z.abs (ms x) <=? 2 ^ 40)%Z.
Lemma whole_ok x : whole x = true -> B2R x = IZR (ms x) /\ (Z.abs (ms x) <= 2 ^ 40)%Z.
Proof.
  intros H. unfold whole in H. apply andb_prop in H as (H & H3). apply andb_prop in H as (H1 & H2). apply Z.leb_le in H3. split; [|exact H3]. destruct (f_of_Z_exact (ms x)) as (F & E); [lia|]. rewrite <- E. unfold feq in H2. rewrite Beqb_correct in H2 by assumption. now apply Req_bool_true_iff in H2 || (revert H2; case Req_bool_spec; [auto|discriminate]).
Qed.
Lemma clear_quarters x y a b : x = IZR a / 4 -> y = IZR b / 4 -> (Z.abs b <= 2 ^ 44)%Z -> clear_gt x y.
Proof.
  intros -> -> B. unfold clear_gt. destruct (Z_le_gt_dec a b) as [H|H]; [left; apply IZR_le in H; lra|right]. assert (IZR b + 1 <= IZR a) by (rewrite <- plus_IZR; apply IZR_le; lia). assert (BB : Rabs (IZR b) <= IZR (2 ^ 44)) by (rewrite <- abs_IZR; now apply IZR_le).
  replace (IZR b / 4) with (IZR b * / 4) by (unfold Rdiv; ring). rewrite Rabs_mult, (Rabs_pos_eq (/ 4)) by lra. change (bpow radix2 (-50)) with (/ 1125899906842624). apply Rle_trans with (IZR b * / 4 + IZR (2 ^ 44) * / 4 * / 1125899906842624); [apply Rplus_le_compat_l; apply Rmult_le_compat_r; [lra|]; apply Rmult_le_compat_r; lra|]. change (IZR (2 ^ 44)) with 17592186044416. lra.
Qed.
Lemma Rmin_IZR' a b : Rmin (IZR a) (IZR b) = IZR (Z.min a b).
Proof. unfold Rmin. destruct (Rle_dec (IZR a) (IZR b)) as [H|H]; [apply le_IZR in H; now rewrite Z.min_l|]. rewrite Z.min_r; [reflexivity|]. apply le_IZR. lra. Qed.
Lemma Rmax_IZR' a b : Rmax (IZR a) (IZR b) = IZR (Z.max a b).
Proof. unfold Rmax. destruct (Rle_dec (IZR a) (IZR b)) as [H|H]; [apply le_IZR in H; now rewrite Z.max_r|]. rewrite Z.max_l; [reflexivity|]. apply le_IZR. lra. Qed.
Lemma steps_clear now c p l : whole now = true -> Forall (fun o => whole (do_StartTime o) = true /\ whole (do_StrainTime o) = true) [c; p; l] -> step_clear (B2R now) c p l.
Proof.
  intros W F. unfold step_clear. apply Forall_cons_iff in F as ((C1 & C2) & F). apply Forall_cons_iff in F as ((P1 & P2) & F). apply Forall_cons_iff in F as ((L1 & L2) & _). apply whole_ok in W as (-> & WB). apply whole_ok in C1 as (-> & C1), C2 as (-> & C2), P1 as (_ & P1), P2 as (-> & P2), L1 as (_ & L1), L2 as (-> & L2).
  set (n := ms now) in *. set (c1 := ms (do_StartTime c)) in *. set (c2 := ms (do_StrainTime c)) in *. set (p2 := ms (do_StrainTime p)) in *. set (l2 := ms (do_StrainTime l)) in *. repeat split.
  - apply (clear_quarters _ _ (4 * p2) (5 * c2)); rewrite ?mult_IZR; try lra; lia.
  - apply (clear_quarters _ _ (4 * c2) (5 * p2)); rewrite ?mult_IZR; try lra; lia.
  - apply (clear_quarters _ _ (4 * l2) (4 * (p2 + 10))); rewrite ?mult_IZR, ?plus_IZR; try lra; lia.
  - apply (clear_quarters _ _ (4 * p2) (4 * (c2 + 10))); rewrite ?mult_IZR, ?plus_IZR; try lra; lia.
  - apply (clear_quarters _ _ (4 * 5000) (4 * (n - c1))); rewrite ?mult_IZR, ?minus_IZR; try lra; lia.
Qed.
(** circles 200 and 100 ms apart, with a slider among them; latest object first *)
Definition pattern : list hobj := [at_ms KCircle 100 100 0; at_ms KCircle 200 100 200; at_ms KCircle 300 120 400; at_ms KCircle 330 150 500; at_ms KCircle 300 200 600; at_ms demo_slider 250 150 700; at_ms KCircle 100 300 900; at_ms KCircle 180 310 1100].
Definition pattern_objs : list dobj := match @create_difficulty_objects calm_libm pattern PropDiff.demo_diff with Ok l => rev l | _ => [] end.
Definition some_obj : dobj := mkDobj (mkPobj (at_ms KCircle 0 0 0) None) f0 f0 f0 f0 f0 f0 f0 f0 f0 f0.
Definition cur_obj : dobj := nth 0 pattern_objs some_obj.
Definition prev_objs : list dobj := tl pattern_objs.
Opaque pattern_objs cur_obj prev_objs.
Definition near_check (o p : dobj) : bool := inb 0 65536 (apart PropDiff.demo_diff o p).
Lemma pattern_sane : Forall (fun o => sane 16 o /\ brisk o) pattern_objs.
Proof. apply Forall_forall. intros o H. apply sane_check_ok. assert (A : forallb sane_check pattern_objs = true) by (vm_compute; reflexivity). rewrite forallb_forall in A. exact (A o H). Qed.
Lemma pattern_split : pattern_objs = cur_obj :: prev_objs.
Proof. Transparent cur_obj prev_objs. unfold cur_obj, prev_objs. assert (N : length pattern_objs = 7%nat) by (vm_compute; reflexivity). destruct pattern_objs; [discriminate N|reflexivity]. Qed.
Opaque cur_obj prev_objs.
Definition angle_check (o : dobj) : bool := is_nan (do_Angle o) || is_finite (do_Angle o).
(** In this map the hypotheses of C84, C85 and C86 hold for the last object;
    beside it the gaps, jumps and sliders, latest first, and with one particular
    libm the aim strain, a hundred times the speed strain, the flashlight strain and the
    rhythm multiplier, in hundredths. *)
Example C84_instance : @skill_maths exact_libm /\ @pow_close exact_libm /\ clocked PropDiff.demo_diff /\ sane 16 cur_obj /\ brisk cur_obj /\ Forall (sane 16) prev_objs /\ Forall brisk prev_objs /\ (length prev_objs <= 32)%nat /\
  Forall (near 16 PropDiff.demo_diff cur_obj) prev_objs /\ Forall (fun o => B2R (do_StartTime o) <= B2R (do_StartTime cur_obj)) prev_objs /\
  (forall i c p l, nth_error prev_objs i = Some c -> nth_error prev_objs (S i) = Some p -> nth_error prev_objs (S (S i)) = Some l -> step_clear (B2R (do_StartTime cur_obj)) c p l) /\
  Forall angle_ok pattern_objs /\ (forall i a b, nth_error pattern_objs i = Some a -> nth_error pattern_objs (S i) = Some b -> linked a b /\ rhythm_clear a b) /\
  forallb (fun o => negb (is_spinner (po_obj (do_base o)))) pattern_objs = true /\
  map (fun o => (int_of_f (do_StrainTime o), int_of_f (do_Jump o), match po_lazy (do_base o) with Some _ => true | None => false end)) pattern_objs = [(200, 110, false); (200, 290, false); (100, 96, true); (100, 79, false); (100, 58, false); (200, 139, false); (200, 137, false)]%Z /\
  map hundredths [@Skills.aim_value calm_libm true prev_objs cur_obj; fmul (fq 100 1) (@Skills.speed_value calm_libm PropDiff.demo_diff prev_objs cur_obj); @flash_value calm_libm PropDiff.demo_diff prev_objs cur_obj] = [55; 94; 283]%Z /\
  option_map hundredths (view (@speed_bonus calm_libm PropDiff.demo_diff prev_objs cur_obj)) = Some 105%Z.
Proof.
  assert (W : Forall (fun o => whole (do_StartTime o) = true /\ whole (do_StrainTime o) = true) pattern_objs). { apply Forall_forall. intros o H. assert (A : forallb (fun o => whole (do_StartTime o) && whole (do_StrainTime o)) pattern_objs = true) by (vm_compute; reflexivity). rewrite forallb_forall in A. apply andb_prop. exact (A o H). }
  pose proof pattern_sane as PS. assert (TL : forall P : dobj -> Prop, Forall P pattern_objs -> P cur_obj /\ Forall P prev_objs) by (intros P H; rewrite pattern_split in H; apply Forall_cons_iff in H; exact H).
  destruct (TL _ PS) as ((S1 & S2) & S3). destruct (TL _ W) as ((W1 & _) & W3). rewrite Forall_forall in S3, W3.
  split; [exact exact_skill|]. split; [exact exact_close|]. split; [exact demo_clocked|]. split; [exact S1|]. split; [exact S2|]. split; [apply Forall_forall; intros o H; apply (S3 o H)|]. split; [apply Forall_forall; intros o H; apply (S3 o H)|]. split; [vm_compute; lia|].
  split. { apply Forall_forall. intros o H. assert (A : forallb (near_check cur_obj) prev_objs = true) by (vm_compute; reflexivity). rewrite forallb_forall in A. apply A in H. apply inb_ok in H; [exact H|lia|lia]. }
  split. { apply Forall_forall. intros o H. assert (A : forallb (fun o => fle (do_StartTime o) (do_StartTime cur_obj)) prev_objs = true) by (vm_compute; reflexivity). rewrite forallb_forall in A. pose proof (A _ H) as B. apply ValueBounds.fle_fin in B; [exact B|apply (sn_start _ _ (proj1 (S3 _ H)))|apply (sn_start _ _ S1)]. }
  split. { intros i c p l Hc Hp Hl. apply steps_clear; [exact W1|]. apply nth_error_In in Hc, Hp, Hl. repeat (apply Forall_cons; [auto|]). apply Forall_nil. }
  split. { apply Forall_forall. intros o H. assert (A : forallb angle_check pattern_objs = true) by (vm_compute; reflexivity). rewrite forallb_forall in A. apply A in H. apply orb_prop in H. exact H. }
  split.
  { intros i a b Ha Hb. split.
    - apply link_check_ok. assert (A : forallb (fun ab => link_check (fst ab) (snd ab)) (combine pattern_objs (tl pattern_objs)) = true) by (vm_compute; reflexivity). rewrite forallb_forall in A. apply (A (a, b)). clear A PS W TL S1 S2 S3 W1 W3. revert i Ha Hb. induction pattern_objs as [|x l IH]; intros i Ha Hb; [destruct i; discriminate Ha|]. destruct i as [|i]; cbn [nth_error] in Ha, Hb.
      + destruct l as [|y l]; [discriminate Hb|]. apply (f_equal (fun o => match o with Some v => v | None => x end)) in Ha, Hb. subst x y. left. reflexivity.
      + destruct l as [|y l]; [destruct i; discriminate Ha|]. right. exact (IH i Ha Hb).
    - apply nth_error_In in Ha, Hb. rewrite Forall_forall in W. destruct (W _ Ha) as (_ & Wa). destruct (W _ Hb) as (_ & Wb). apply whole_ok in Wa as (Ea & Ba), Wb as (Eb & Bb). unfold rhythm_clear. rewrite Ea, Eb. rewrite Rmin_IZR', Rmax_IZR'. apply (clear_quarters _ _ (5 * Z.min (ms (do_StrainTime a)) (ms (do_StrainTime b))) (4 * Z.max (ms (do_StrainTime a)) (ms (do_StrainTime b)))); rewrite ?mult_IZR; try lra; lia. }
  vm_compute. auto 10.
Qed.

Print Assumptions C84_aim. Print Assumptions C85_speed. Print Assumptions C85_rhythm. Print Assumptions C86_flashlight.

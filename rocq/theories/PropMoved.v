(** C95: the ratings of a map do not depend on when it starts, on the side it
    is looked at from, or on anything but what is played. *)
From Coq Require Import Reals Lra ZArith Lia List Bool.
Import ListNotations.
From Flocq Require Import Raux Zaux Core BinarySingleNaN.
From Verif Require Import DiffCalc SpecDiff SpecMoved FloatLemmas Float32Lemmas VectorProofs MovedFloats MovedSim MovedProofs PropDiff PropCurves IdealLibm.
Open Scope Z_scope.

Section WithLibm.
Context {M : libm}.
(** Ids, sounds, combo numbers and colours, stack indices, and the settings
    other than mods, radius, clock rate and 300 window are never looked at:
    all results, with any number of loop iterations allowed, are the same. *)
Theorem C95_reads : forall d d' objs objs', same_rules d d' -> Forall2 same_play objs objs' ->
  forall fuel, all_results fuel objs d = all_results fuel objs' d'.
Proof. exact reads_results. Qed.
(** A map of circles and spinners played at another speed or moved in time by
    whole 400 ms sections gets bit for bit the same ratings, peaks included:
    if its objects are reached at whole ms of real time and the two clocks,
    settings and places agree. *)
Theorem C95_later : forall n d d' objs objs', clean_rate d -> clean_rate d' -> same_feel d d' ->
  Forall2 (later (400 * n) d d') objs objs' -> forall fuel, all_results fuel objs d = all_results fuel objs' d'.
Proof. exact later_results. Qed.
(** A map of circles and spinners mirrored or turned by a right angle about the
    origin gets bit for bit the same ratings, unless a circle sits exactly on
    the object before it. *)
Theorem C95_mirror : forall s d objs objs', atan2_even -> Forall (tidy_place (d_Mods d)) objs -> moves (d_Mods d) objs ->
  Forall2 (mirrored s (d_Mods d)) objs objs' -> forall fuel, all_results fuel objs d = all_results fuel objs' d.
Proof. exact mirror_results. Qed.
(** The last theorem in terms of the positions in the file: all eight
    symmetries without HardRock, and left-right with it, if the stack offsets
    are mirrored along. *)
Definition drawn (s : symmetry) (m : modifier) (o o' : hobj) : Prop :=
  (forall sd, ho_kind o <> KSlider sd) /\ ho_kind o' = ho_kind o /\ ho_start o' = ho_start o /\
  ho_endPos o = ho_startPos o /\ ho_endPos o' = ho_startPos o' /\ image s (ho_startPos o) (ho_startPos o') /\
  image s (ho_off o) (ho_off o') /\ image s (ho_offEZ o) (ho_offEZ o') /\ image s (ho_offHR o) (ho_offHR o').
Theorem C95_drawn : forall s d objs objs', atan2_even -> Forall (tidy_place (d_Mods d)) objs -> moves (d_Mods d) objs ->
  (check_mod d HardRock = true -> swap s = false /\ rev_y s = false) ->
  Forall2 (drawn s (d_Mods d)) objs objs' -> forall fuel, all_results fuel objs d = all_results fuel objs' d.
Proof.
  intros s d objs objs' EV TP MV HR F. apply (C95_mirror s); [exact EV|exact TP|exact MV|]. set (m := d_Mods d) in *.
  revert TP. clear MV. induction F as [|o o' l l' H F IH]; intros TP; constructor; [|apply IH; now inversion TP].
  destruct H as (N & K & T & E & E' & P & O1 & O2 & O3). split; [exact N|split; [exact K|split; [exact T|]]]. intros S.
  assert (TO : tidy_place m o) by now inversion TP. destruct (TO S) as ((Fx & _) & (Fy & _)).
  assert (V : vmir s (stacked_start o m) (stacked_start o' m)).
  { apply image_vmir in P, O1, O2, O3. unfold stacked_start, modify_position. unfold check_mod in HR. fold m in HR. destruct (mactive m HardRock).
    - destruct (HR eq_refl) as (S1 & S2). apply vmir_add; [|exact O3]. destruct P as (P1 & P2). rewrite S1 in P1, P2. rewrite S2 in P2. unfold vmir. rewrite S1, S2. cbn [vx vy]. split; [exact P1|]. apply mir_sub; [apply mir_refl|exact P2].
    - destruct (mactive m Easy); apply vmir_add; assumption. }
  assert (I : image s (stacked_start o m) (stacked_start o' m)).
  { destruct V as (V1 & V2). apply fin_mir in V1; [|destruct (swap s); assumption]. apply fin_mir in V2; [|destruct (swap s); assumption]. split; (split; [destruct (swap s); assumption|]); [exact V1|exact V2]. }
  split; [exact I|]. unfold stacked_end. rewrite E, E'. exact I.
Qed.
End WithLibm.

(** ** Non-vacuity *)
Lemma of_R_even r : (Rabs r <= 4)%R -> fabs (of_R (- r)) = fabs (of_R r).
Proof.
  intros H. assert (B : (4 <= bpow radix2 1023)%R) by (change 4%R with (bpow radix2 2); apply bpow_le; lia). destruct (of_R_ok r) as (F & V); [lra|]. destruct (of_R_ok (- r)) as (F' & V'); [rewrite Rabs_Ropp; lra|].
  unfold fabs. apply B2R_Bsign_inj; [rewrite is_finite_Babs; exact F'|rewrite is_finite_Babs; exact F|rewrite !B2R_Babs, V, V', <- (Rabs_Ropp (rnd64 r)); f_equal; apply round_NE_opp|].
  rewrite (Bsign_Babs _ _ (of_R (- r))) by (destruct (of_R (- r)); try reflexivity; discriminate F'). rewrite (Bsign_Babs _ _ (of_R r)) by (destruct (of_R r); try reflexivity; discriminate F). reflexivity.
Qed.
Lemma exact_even : @atan2_even exact_libm.
Proof.
  intros y x y' x' _ _ _ _ EX EY _. cbn [matan2 exact_libm]. rewrite EX. assert (H : forall u v : R, (Rabs (direction u v) <= 4)%R).
  { intros u v. unfold direction. cbv zeta. pose proof (acos_bound (u / sqrt (u * u + v * v))) as B. pose proof PI_4 as P. destruct (Rle_dec 0 v); apply Rabs_le; lra. }
  destruct EY as [->| ->]; [reflexivity|]. assert (K : direction (B2R x) (- B2R y) = direction (B2R x) (B2R y) \/ direction (B2R x) (- B2R y) = (- direction (B2R x) (B2R y))%R).
  { unfold direction. cbv zeta. replace (- B2R y * - B2R y)%R with (B2R y * B2R y)%R by ring. destruct (Rle_dec 0 (- B2R y)), (Rle_dec 0 (B2R y)); [now left|right; ring|now right|exfalso; lra]. }
  destruct K as [->| ->]; [reflexivity|]. apply of_R_even, H.
Qed.

(** a map, the same 2000 ms later, the same for DoubleTime, and its image under
    a quarter turn *)
Definition stroll (f : Z -> Z -> Z * Z) (g : Z -> Z) : list hobj :=
  map (fun '(k, x, y, t) => at_ms k (fst (f x y)) (snd (f x y)) (g t))
    [(KCircle, 0, 0, 0); (KCircle, 100, 100, 1000); (KSpinner, 256, 192, 1200); (KCircle, 300, 50, 3000); (KCircle, 10, 50, 3090); (KCircle, 400, 200, 3180); (KCircle, 380, 10, 3270)].
Definition here (x y : Z) := (x, y).
Definition quarter : symmetry := mkSym true true false.
Definition turned (x y : Z) := (- y, x).
(** the settings with DoubleTime, and the 300 window longer by the same factor *)
Definition scaled_feel : difficulty :=
  let d := demo_diff in
  {| d_hp := d_hp d; d_cs := d_cs d; d_od := d_od d; d_ar := d_ar d; d_Preempt := d_Preempt d; d_CircleRadius := d_CircleRadius d; d_Mods := DoubleTime;
     d_Hit50 := d_Hit50 d; d_Hit100 := d_Hit100 d; d_Hit300 := fq 48 1; d_HPMod := d_HPMod d; d_SpinnerRatio := d_SpinnerRatio d; d_Speed := fq 3 2;
     d_ARReal := d_ARReal d; d_ODReal := d_ODReal d; d_CustomSpeed := d_CustomSpeed d |}.

Lemma fq_sign t : (0 <= t <= 2 ^ 53)%Z -> Bsign (fq t 1) = false.
Proof.
  intros H. destruct (Z.eq_dec t 0) as [->|N]; [vm_compute; reflexivity|]. destruct (fq1_exact t) as (F & V); [lia|]. apply pos_sign. rewrite V. apply (IZR_lt 0). lia.
Qed.
Lemma rate1 : B2R (d_Speed demo_diff) = 1%R /\ is_finite (d_Speed demo_diff) = true.
Proof. rewrite speed1. destruct (fq1_exact 1) as (F & V); [lia|]. split; [rewrite V; reflexivity|exact F]. Qed.
Lemma rate32 : B2R (d_Speed scaled_feel) = (3 / 2)%R /\ is_finite (d_Speed scaled_feel) = true.
Proof. split; [|vm_compute; reflexivity]. unfold scaled_feel. cbn [d_Speed]. bval (fq 3 2). rewrite V. lra. Qed.
Lemma later_ms k x y t t' : (forall sd, k <> KSlider sd) -> 0 <= t <= 10000 -> 2 * t' = 3 * (t + 2000) -> later (400 * 5) demo_diff scaled_feel (at_ms k x y t) (at_ms k x y t').
Proof.
  intros K T E. split; [exact K|]. split; [reflexivity|]. split; [reflexivity|]. split; [reflexivity|]. exists t. split.
  - destruct (fq1_exact t) as (F & V); [lia|]. split; [exact F|]. split; [apply fq_sign; lia|]. split; [lia|]. rewrite (proj1 rate1). cbn [ho_start at_ms]. rewrite V. ring.
  - destruct (fq1_exact t') as (F & V); [lia|]. split; [exact F|]. split; [apply fq_sign; lia|]. split; [lia|]. rewrite (proj1 rate32). cbn [ho_start at_ms]. rewrite V.
    apply (f_equal IZR) in E. rewrite !mult_IZR, plus_IZR in E. change (400 * 5) with 2000. rewrite plus_IZR. lra.
Qed.
Example C95_instance_later : clean_rate demo_diff /\ clean_rate scaled_feel /\ same_feel demo_diff scaled_feel /\
  Forall2 (later (400 * 5) demo_diff scaled_feel) (stroll here (fun t => t)) (stroll here (fun t => (t + 2000) * 3 / 2)) /\
  option_map (fun p => (zlen (pk_Aim p), fgt (nth 5 (pk_Aim p) f0) (fq 1 1))) (view (@calculate_strain_peaks one_libm 9 (stroll here (fun t => t)) demo_diff)) = Some (7, true).
Proof.
  split; [split; [exact (proj2 rate1)|exists 1024; split; [lia|rewrite (proj1 rate1); lra]]|].
  split; [split; [exact (proj2 rate32)|exists 1536; split; [lia|rewrite (proj1 rate32); lra]]|].
  split. { split; [vm_compute; reflexivity|]. split; [vm_compute; reflexivity|]. split; [reflexivity|]. apply B2SF_inj. vm_compute. reflexivity. }
  split; [|vm_compute; reflexivity]. unfold stroll. cbn [map fst snd here].
  repeat (apply Forall2_cons; [apply later_ms; [intros sd H; discriminate H|lia|reflexivity]|]). apply Forall2_nil.
Qed.
Lemma shown k x y t : Z.abs x <= 1000 -> Z.abs y <= 1000 -> let p := stacked_start (at_ms k x y t) (d_Mods demo_diff) in
  (is_finite (vx p) = true /\ B2R (vx p) = IZR x) /\ (is_finite (vy p) = true /\ B2R (vy p) = IZR y) /\ stacked_end (at_ms k x y t) (d_Mods demo_diff) = p.
Proof.
  intros X Y p. assert (E : p = vadd (mkVec (gq x 1) (gq y 1)) vzero) by reflexivity. rewrite E. cbn [vadd vx vy vzero].
  destruct (gq1_exact x) as (Fx & Vx); [lia|]. destruct (gq1_exact y) as (Fy & Vy); [lia|].
  destruct (gadd_Z (gq x 1) g0 x 0) as (F1 & V1); [exact Fx|reflexivity|exact Vx|reflexivity|lia|]. destruct (gadd_Z (gq y 1) g0 y 0) as (F2 & V2); [exact Fy|reflexivity|exact Vy|reflexivity|lia|].
  rewrite Z.add_0_r in V1, V2. split; [split; [exact F1|exact V1]|]. split; [split; [exact F2|exact V2]|]. reflexivity.
Qed.
Lemma tidy_Z (x : f32) z : is_finite x = true -> B2R x = IZR z -> Z.abs z <= 1000 -> tidy x.
Proof.
  intros F V B. split; [exact F|]. exists (z * 2 ^ 30). split; [lia|]. rewrite V, mult_IZR. change (IZR (2 ^ 30)) with (bpow radix2 30). rewrite Rmult_assoc, <- bpow_plus. change (bpow radix2 (30 + -30)) with 1%R. ring.
Qed.
Example C95_instance_mirror : @atan2_even exact_libm /\ Forall (tidy_place (d_Mods demo_diff)) (stroll here (fun t => t)) /\ moves (d_Mods demo_diff) (stroll here (fun t => t)) /\
  Forall2 (mirrored quarter (d_Mods demo_diff)) (stroll here (fun t => t)) (stroll turned (fun t => t)) /\
  Forall2 (drawn quarter (d_Mods demo_diff)) (stroll here (fun t => t)) (stroll turned (fun t => t)) /\ check_mod demo_diff HardRock = false.
Proof.
  split; [exact exact_even|]. split; [|split; [|split; [|split]]].
  - unfold stroll. cbn [map fst snd here]. repeat apply Forall_cons; [..|apply Forall_nil]; intros _;
      match goal with |- context [at_ms ?k ?x ?y ?t] => destruct (shown k x y t) as ((F1 & V1) & (F2 & V2) & _); [lia|lia|]; split; [apply (tidy_Z _ x F1 V1); lia|apply (tidy_Z _ y F2 V2); lia] end.
  - intros i a b A B _ _. unfold stroll in A, B. cbn [map fst snd here] in A, B.
    do 6 (destruct i as [|i]; [injection A as <-; injection B as <-;
      match goal with |- context [at_ms ?k ?x ?y ?t] => match goal with |- context [at_ms ?k' ?x' ?y' ?t'] => tryif constr_eq t t' then fail else
        (destruct (shown k x y t) as ((_ & V1) & _); [lia|lia|]; destruct (shown k' x' y' t') as ((_ & V2) & _); [lia|lia|]; left; rewrite V1, V2; intros E; apply eq_IZR in E; discriminate E) end end|]).
    destruct i; discriminate B.
  - unfold stroll. cbn [map fst snd here turned Z.opp]. repeat (apply Forall2_cons; [|]); [..|apply Forall2_nil];
      match goal with |- mirrored _ _ (at_ms ?k ?x ?y ?t) (at_ms _ ?x' ?y' _) => split; [intros sd H; discriminate H|]; split; [reflexivity|]; split; [reflexivity|]; intros _;
        destruct (shown k x y t) as ((F1 & V1) & (F2 & V2) & E); [lia|lia|]; destruct (shown k x' y' t) as ((F1' & V1') & (F2' & V2') & E'); [lia|lia|]; rewrite E; try rewrite E';
        assert (I : image quarter (stacked_start (at_ms k x y t) (d_Mods demo_diff)) (stacked_start (at_ms k x' y' t) (d_Mods demo_diff)));
        [unfold image, quarter; cbn [swap rev_x rev_y]; split; [split; [exact F2|split; [exact F1'|rewrite V1'; try rewrite V2; try rewrite <- opp_IZR; reflexivity]]|split; [exact F1|split; [exact F2'|rewrite V2'; try rewrite V1; reflexivity]]]|split; exact I] end.
  - unfold stroll. cbn [map fst snd here turned Z.opp]. repeat (apply Forall2_cons; [|]); [..|apply Forall2_nil];
      match goal with |- drawn _ _ (at_ms ?k ?x ?y ?t) (at_ms _ ?x' ?y' _) => split; [intros sd H; discriminate H|]; split; [reflexivity|]; split; [reflexivity|]; split; [reflexivity|]; split; [reflexivity|];
        destruct (gq1_exact x) as (F1 & V1); [lia|]; destruct (gq1_exact y) as (F2 & V2); [lia|]; destruct (gq1_exact x') as (F1' & V1'); [lia|]; destruct (gq1_exact y') as (F2' & V2'); [lia|];
        assert (O : image quarter vzero vzero) by (split; (split; [reflexivity|split; [reflexivity|cbn; lra]]));
        split; [unfold image, quarter; cbn [swap rev_x rev_y at_ms ho_startPos vx vy]; split; [split; [exact F2|split; [exact F1'|rewrite V1'; try rewrite V2; try rewrite <- opp_IZR; reflexivity]]|split; [exact F1|split; [exact F2'|rewrite V2'; try rewrite V1; reflexivity]]]|split; [exact O|split; [exact O|exact O]]] end.
  - vm_compute. reflexivity.
Qed.
(** renumbered objects with other sounds and colours, and another drain rate *)
Definition renamed (o : hobj) : hobj :=
  mkHobj (ho_kind o) (ho_startPos o) (ho_endPos o) (ho_start o) (ho_end o) (ho_off o) (ho_offEZ o) (ho_offHR o) 4 5 6 (ho_id o + 9) [1; 2] true 3 2 1 7.
Definition drained : difficulty := new_difficulty (fq 9 1) (fq 4 1) (fq 8 1) (fq 7 1).
Example C95_instance_reads : same_rules demo_diff drained /\ d_hp drained <> d_hp demo_diff /\ Forall2 same_play demo (map renamed demo) /\ map ho_id (map renamed demo) <> map ho_id demo.
Proof.
  split. { split; [reflexivity|]. split; [|split]; apply B2SF_inj; vm_compute; reflexivity. }
  split. { intros E. apply (f_equal B2SF) in E. revert E. vm_compute. intros E. discriminate E. }
  split; [|vm_compute; intros E; discriminate E]. generalize demo. intros l. induction l as [|o l IH]; cbn [map]; constructor; [|exact IH]. repeat split.
Qed.

(** ** What is not true *)
(** Moving a map by half a section does change the peaks. *)
Theorem C95_half_refuted : let early := [at_ms KCircle 0 0 100; at_ms KCircle 200 0 300; at_ms KCircle 0 0 500] in
  let late := [at_ms KCircle 0 0 300; at_ms KCircle 200 0 500; at_ms KCircle 0 0 700] in
  Forall2 (later 200 demo_diff demo_diff) early late /\ forall M : libm,
  option_map (fun p => zlen (pk_Aim p)) (view (@calculate_strain_peaks M 9 early demo_diff)) = Some 2 /\
  option_map (fun p => zlen (pk_Aim p)) (view (@calculate_strain_peaks M 9 late demo_diff)) = Some 1.
Proof.
  intros early late. split; [|intros M; split; vm_compute; reflexivity].
  assert (H : forall k x y t, (forall sd, k <> KSlider sd) -> 0 <= t <= 1000 -> later 200 demo_diff demo_diff (at_ms k x y t) (at_ms k x y (t + 200))).
  { intros k x y t K T. split; [exact K|]. split; [reflexivity|]. split; [reflexivity|]. split; [reflexivity|]. exists t. split.
    - destruct (fq1_exact t) as (F & V); [lia|]. split; [exact F|]. split; [apply fq_sign; lia|]. split; [lia|]. rewrite (proj1 rate1). cbn [ho_start at_ms]. rewrite V. ring.
    - destruct (fq1_exact (t + 200)) as (F & V); [lia|]. split; [exact F|]. split; [apply fq_sign; lia|]. split; [lia|]. rewrite (proj1 rate1). cbn [ho_start at_ms]. rewrite V. ring. }
  unfold early, late. apply Forall2_cons; [apply (H KCircle 0 0 100); [intros sd E; discriminate E|lia]|]. apply Forall2_cons; [apply (H KCircle 200 0 300); [intros sd E; discriminate E|lia]|].
  apply Forall2_cons; [apply (H KCircle 0 0 500); [intros sd E; discriminate E|lia]|]. apply Forall2_nil.
Qed.
(** Moving a map one pixel to the right, or mirroring it within the playfield
    (512 - x), changes the aim strains: positions are scaled, and rounded,
    before they are subtracted. *)
Definition hops (f : Z -> Z) : list hobj := [at_ms KCircle (f 0) 0 0; at_ms KCircle (f 140) 0 200; at_ms KCircle (f 0) 0 400; at_ms KCircle (f 140) 0 600; at_ms KCircle (f 0) 0 800].
Definition aim_peaks (M : libm) (l : list hobj) := option_map (fun p => map B2SF (pk_Aim p)) (view (@calculate_strain_peaks M 9 l demo_diff)).
Theorem C95_translated_refuted : aim_peaks one_libm (hops (fun x => x + 1)) <> aim_peaks one_libm (hops (fun x => x)) /\ aim_peaks one_libm (hops (fun x => 512 - x)) <> aim_peaks one_libm (hops (fun x => x)).
Proof. split; vm_compute; intros E; discriminate E. Qed.
(** A circle on top of the one before it: mirroring left and right changes the
    sign of a zero scalar product, the angle jumps between 0 and pi as
    math.Atan2 does, and the aim rating changes. *)
Definition zero_libm_atan : libm :=
  {| mpow := fun x _ => x; mlog10 := fun x => x; mcbrt := fun x => x; msin := fun x => x; mcos := fun x => x; macos := fun x => x;
     matan2 := fun y x => if feq y f0 && feq x f0 then (if Bsign x then fpi else f0) else fpi_2 |}.
Definition stacked_pair (f : Z -> Z) : list hobj :=
  [at_ms KCircle (f 0) 0 0; at_ms KCircle (f 100) 100 100; at_ms KCircle (f 50) 20 200; at_ms KCircle (f 300) 200 300; at_ms KCircle (f 300) 200 400; at_ms KCircle (f 200) 100 500; at_ms KCircle (f 400) 300 600; at_ms KCircle (f 100) 300 700].
Theorem C95_repeated_refuted : @atan2_even zero_libm_atan /\ Forall2 (mirrored (mkSym false true false) (d_Mods demo_diff)) (stacked_pair (fun x => x)) (stacked_pair (fun x => - x)) /\
  aim_peaks zero_libm_atan (stacked_pair (fun x => - x)) <> aim_peaks zero_libm_atan (stacked_pair (fun x => x)) /\
  option_map (fun a => B2SF (at_Aim a)) (view (@calculate_single zero_libm_atan 9 (stacked_pair (fun x => - x)) demo_diff)) <> option_map (fun a => B2SF (at_Aim a)) (view (@calculate_single zero_libm_atan 9 (stacked_pair (fun x => x)) demo_diff)).
Proof.
  split; [|split; [|split; vm_compute; intros E; discriminate E]].
  - assert (Z : forall u : f64, is_finite u = true -> feq u f0 = true -> B2R u = 0%R).
    { intros u F E. destruct u as [|[]| |[] m e H]; try discriminate F; try reflexivity; discriminate E. }
    intros y x y' x' Fy Fx Fy' Fx' EX EY N. cbn [matan2 zero_libm_atan].
    assert (A : feq y f0 && feq x f0 = false) by (destruct (feq y f0) eqn:E1; [destruct (feq x f0) eqn:E2; [|reflexivity]|reflexivity]; exfalso; apply Z in E1; [|exact Fy]; apply Z in E2; [|exact Fx]; tauto).
    assert (B : feq y' f0 && feq x' f0 = false) by (destruct (feq y' f0) eqn:E1; [destruct (feq x' f0) eqn:E2; [|reflexivity]|reflexivity]; exfalso; apply Z in E1; [|exact Fy']; apply Z in E2; [|exact Fx']; destruct N as [N|N]; apply N; [destruct EY; lra|lra]).
    rewrite A, B. reflexivity.
  - unfold stacked_pair. cbn [Z.opp]. repeat (apply Forall2_cons; [|]); [..|apply Forall2_nil];
      match goal with |- mirrored _ _ (at_ms ?k ?x ?y ?t) (at_ms _ ?x' ?y' _) => split; [intros sd H; discriminate H|]; split; [reflexivity|]; split; [reflexivity|]; intros _;
        destruct (shown k x y t) as ((F1 & V1) & (F2 & V2) & E); [lia|lia|]; destruct (shown k x' y' t) as ((F1' & V1') & (F2' & V2') & E'); [lia|lia|]; rewrite E; try rewrite E';
        assert (I : image (mkSym false true false) (stacked_start (at_ms k x y t) (d_Mods demo_diff)) (stacked_start (at_ms k x' y' t) (d_Mods demo_diff)));
        [unfold image; cbn [swap rev_x rev_y]; split; [split; [exact F1|split; [exact F1'|rewrite V1'; try rewrite V1; try rewrite <- opp_IZR; reflexivity]]|split; [exact F2|split; [exact F2'|rewrite V2'; try rewrite V2; reflexivity]]]|split; exact I] end.
Qed.

Print Assumptions C95_reads.
Print Assumptions C95_later.
Print Assumptions C95_mirror.
Print Assumptions C95_drawn.
Print Assumptions C95_half_refuted.
Print Assumptions C95_translated_refuted.
Print Assumptions C95_repeated_refuted.

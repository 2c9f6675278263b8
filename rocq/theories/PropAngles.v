(** Property C110: the angles of a curve are those of its lines. *)
From Coq Require Import Reals Lra ZArith Lia List.
From Flocq Require Import Raux Zaux Core BinarySingleNaN.
From Verif Require Import CurveAngles SpecCurves SpecArc SpecApi BaseLemmas SortLemmas FloatLemmas Float32Lemmas KeyLemmas BoundLemmas CurveProofs CurveStart CurveLookup NearLemmas ArcProofs ArcShape VectorProofs ApiProofs PropCurves PropArc PropApi.
Import ListNotations.
Open Scope R_scope.

Section WithLibm.
Context {M : libm}.
Lemma no_lines {A} (ls : list linear) (u v : A) : ls <> [] -> match ls with [] => u | _ :: _ => v end = v.
Proof. destruct ls; [congruence|reflexivity]. Qed.
Lemma idx_nth {A} (x : list A) i y : nth_error x i = Some y -> idx x (Z.of_nat i) = Ok y.
Proof. intros E. unfold idx. rewrite (proj2 (Z.ltb_ge _ _)) by lia. rewrite Nat2Z.id, E. reflexivity. Qed.
(** The line looked up encloses the distance. *)
Lemma line_index ls p t : fin (total_length ls) -> num t -> ls <> [] ->
  let d := gmul (total_length ls) (clampF32 t g0 (gq 1 1)) in
  exists i lo hi l, nth_error (mc_sections (finish_curve ls p)) i = Some lo /\ nth_error (mc_sections (finish_curve ls p)) (S i) = Some hi /\
    nth_error ls i = Some l /\ (i = 0%nat \/ glt lo d = true) /\ gle d hi = true /\ mc_line_at (finish_curve ls p) t = Ok l.
Proof.
  intros FT Nt NE d. destruct (distance_range ls t FT Nt) as [Fd Bd]. fold d in Fd, Bd. pose proof (total_fin_nn ls FT) as NN. pose proof (sections_nn ls g0 nn_0 NN) as SN.
  set (wf := section_sums g0 ls) in *. set (f := fun i => match nth_error wf i with Some s => gge s d | None => true end).
  assert (W := search_weak f (length wf)). cbv zeta in W. set (r := search (length wf) f) in *. destruct W as (W1 & W2 & W3). assert (LW : length wf = length ls) by apply section_sums_length.
  assert (RL : (r < length ls)%nat).
  { destruct (Nat.eq_dec r (length ls)) as [E|]; [|lia]. exfalso. assert (0 < r)%nat by (rewrite E; destruct ls; [congruence|cbn; lia]). specialize (W2 H). unfold f in W2.
    destruct (nth_error wf (r - 1)) as [s|] eqn:Es; [|discriminate]. assert (s = total_length ls) by (apply (last_section ls s NE); fold wf; now replace (length ls - 1)%nat with (r - 1)%nat by lia).
    assert (gge s d = true); [|congruence]. subst s. apply gge_iff. split; [now apply fin_num|]. split; [now apply fin_num|]. rewrite !(key_fin 24 128) by assumption. lra. }
  destruct (nth_section ls g0 r ltac:(lia)) as [lo Elo]. destruct (nth_section ls g0 (S r) ltac:(lia)) as [hi Ehi]. destruct (nth_error ls r) as [l|] eqn:El; [|apply nth_error_None in El; lia].
  exists r, lo, hi, l. fold wf in Elo, Ehi. cbn [mc_sections finish_curve]. fold wf. split; [exact Elo|]. split; [exact Ehi|]. split; [exact El|].
  assert (HI : gge hi d = true). { specialize (W3 ltac:(lia)). unfold f in W3. cbn [nth_error] in Ehi. now rewrite Ehi in W3. }
  split; [|split].
  - destruct r as [|r']; [now left|right]. specialize (W2 ltac:(lia)). unfold f in W2. cbn [nth_error] in Elo. rewrite Nat.sub_succ, Nat.sub_0_r in W2. rewrite Elo in W2.
    rewrite Forall_forall in SN. destruct (SN lo (nth_error_In _ _ Elo)) as [[Nl Kl] _]. apply glt_iff. split; [exact Nl|]. split; [now apply fin_num|]. destruct (Rlt_le_dec (key lo) (key d)) as [H|H]; [exact H|].
    assert (gge lo d = true); [|congruence]. apply gge_iff. split; [exact Nl|]. split; [now apply fin_num|exact H].
  - apply gge_iff in HI as (A & B & K). apply gle_iff. auto.
  - unfold mc_line_at. cbn [mc_lines finish_curve]. rewrite no_lines by exact NE. unfold mc_index. cbn [mc_length mc_sections finish_curve mc_lines tl]. fold wf d. fold f. fold r. cbn [fst].
    rewrite (Nat.min_l r (length ls - 1)) by lia. now apply idx_nth.
Qed.

(** C110.  A curve without lines has the angle 0 everywhere. *)
Theorem C110_none : forall mc t, mc_lines mc = [] -> mc_start_angle mc = g0 /\ mc_end_angle mc = Ok g0 /\ mc_start_angle_at mc t = Ok g0 /\ mc_end_angle_at mc t = Ok g0.
Proof. intros mc t E. unfold mc_start_angle, mc_end_angle, mc_start_angle_at, mc_end_angle_at. rewrite E. auto. Qed.
(** Otherwise the angles at t are those of the line whose sections enclose t times
    the length, seen from either end of that line, and those at the ends are those
    of the first and the last line. *)
Theorem C110_at : forall mc t, made mc -> is_finite (mc_length mc) = true -> mc_lines mc <> [] -> is_nan t = false ->
  let d := gmul (mc_length mc) (clampF32 t g0 (gq 1 1)) in
  exists i lo hi l, nth_error (mc_sections mc) i = Some lo /\ nth_error (mc_sections mc) (S i) = Some hi /\ nth_error (mc_lines mc) i = Some l /\ (i = 0%nat \/ glt lo d = true) /\ gle d hi = true /\
    mc_start_angle_at mc t = Ok (ln_start_angle l) /\ mc_end_angle_at mc t = Ok (ln_end_angle l).
Proof.
  intros mc t H F NE N d. apply made_finish in H as (ls & p & ->). cbn [mc_length mc_lines finish_curve] in F, NE, d. destruct (line_index ls p t F N NE) as (i & lo & hi & l & E1 & E2 & E3 & E4 & E5 & E6).
  exists i, lo, hi, l. do 5 (split; [assumption|]). unfold mc_start_angle_at, mc_end_angle_at. rewrite E6. cbn [mc_lines finish_curve bind]. rewrite !no_lines by exact NE. auto.
Qed.
Theorem C110_ends : forall mc a r z s, mc_lines mc = a :: r -> mc_lines mc = s ++ [z] -> mc_start_angle mc = ln_start_angle a /\ mc_end_angle mc = Ok (ln_end_angle z).
Proof.
  intros mc a r z s E1 E2. unfold mc_start_angle, mc_end_angle. split; [now rewrite E1|].
  transitivity (let* l := idx (mc_lines mc) (zlen (mc_lines mc) - 1) in Ok (ln_end_angle l)); [rewrite E1; reflexivity|]. rewrite E2.
  replace (zlen (s ++ [z]) - 1)%Z with (Z.of_nat (length s)) by (unfold zlen; rewrite app_length; cbn [length]; lia). rewrite (idx_nth _ _ z); [reflexivity|]. rewrite nth_error_app2, Nat.sub_diag by lia. reflexivity.
Qed.
Theorem C110_sighted : atan2_near -> forall k l, (k <= 126)%Z -> SpecCurves.within k (ln_p1 l) -> SpecCurves.within k (ln_p2 l) -> sighted (ln_p1 l) (ln_p2 l) (ln_start_angle l) /\ sighted (ln_p2 l) (ln_p1 l) (ln_end_angle l).
Proof. intros A k l K P1 P2. destruct l as [p1 p2]. cbn [ln_p1 ln_p2] in *. exact (C96_line_angles A k p1 p2 K P1 P2). Qed.
(** The start angle is the one at 0 (and before). *)
Theorem C110_start : forall mc t, made mc -> is_finite (mc_length mc) = true -> gle t g0 = true -> mc_start_angle_at mc t = Ok (mc_start_angle mc).
Proof.
  intros mc t H F T. destruct (mc_lines mc) as [|l0 r] eqn:NE; [apply C110_none with (t := t) in NE as (-> & _ & -> & _); reflexivity|].
  assert (N : is_nan t = false) by (apply gle_iff in T as (T & _); exact T). destruct (C110_at mc t H F ltac:(rewrite NE; discriminate) N) as (i & lo & hi & l & E1 & E2 & E3 & E4 & E5 & -> & _). unfold mc_start_angle. rewrite NE.
  rewrite (clamp_low t T), clamp_0 in E4, E5. apply made_finish in H as (ls & p & ->). cbn [mc_length mc_lines finish_curve mc_sections] in *.
  assert (D : fin (gmul (total_length ls) g0) /\ B2R (gmul (total_length ls) g0) = 0) by (apply gmul_0_r; auto; reflexivity). destruct E4 as [->|E4]; [rewrite NE in E3; cbn in E3; now inversion E3|].
  exfalso. destruct i as [|i]. { cbn in E1. inversion E1; subst. apply glt_iff in E4 as (_ & _ & K). rewrite (key_fin 24 128 _ (proj1 D)), (proj2 D) in K. cbn in K. lra. }
  pose proof (sections_nn ls g0 nn_0 (total_fin_nn ls F)) as SN. rewrite Forall_forall in SN. cbn [nth_error] in E1. destruct (SN lo (nth_error_In _ _ E1)) as [[_ Kl] _]. apply glt_iff in E4 as (_ & _ & K). rewrite (key_fin 24 128 _ (proj1 D)), (proj2 D) in K. lra.
Qed.
(** The end angle is the one at 1 (and beyond) if the last line adds to the length. *)
Theorem C110_end : forall mc t s, made mc -> is_finite (mc_length mc) = true -> gge t (gq 1 1) = true ->
  nth_error (mc_sections mc) (length (mc_lines mc) - 1) = Some s -> glt s (mc_length mc) = true -> mc_end_angle_at mc t = mc_end_angle mc.
Proof.
  intros mc t s H F T ES LT. destruct (mc_lines mc) as [|l0 r] eqn:NE; [apply C110_none with (t := t) in NE as (_ & -> & _ & ->); reflexivity|].
  assert (N : is_nan t = false) by (apply gge_iff in T as (T & _); exact T). destruct (C110_at mc t H F ltac:(rewrite NE; discriminate) N) as (i & lo & hi & l & E1 & E2 & E3 & E4 & E5 & _ & ->). rewrite (clamp_high t T), clamp_one in E4, E5.
  unfold mc_end_angle. rewrite NE. apply made_finish in H as (ls & p & ->). cbn [mc_length mc_lines finish_curve mc_sections] in *. set (L := total_length ls) in *.
  assert (D : key (gmul L (gq 1 1)) = key L).
  { destruct one_val as (F1 & V1). destruct (distance_range ls (gq 1 1) F ltac:(now apply fin_num)) as (Fd & _). rewrite clamp_one in Fd. fold L in Fd. rewrite (key_fin 24 128 _ Fd), (key_fin 24 128 _ F).
    pose proof (Bmult_correct 24 128 p24 pe24 mode_NE L (gq 1 1)) as C. fold (gmul L (gq 1 1)) in C. change (round radix2 (SpecFloat.fexp 24 128) (round_mode mode_NE) (B2R L * B2R (gq 1 1))) with (rnd32 (B2R L * B2R (gq 1 1))) in C. rewrite V1, Rmult_1_r, rnd32_id in C.
    rewrite Rlt_bool_true in C by (apply abs_B2R_lt_emax). apply C. }
  assert (IL : i = (length ls - 1)%nat).
  { assert (B : (i < length ls)%nat) by (apply nth_error_Some; rewrite E3; discriminate). destruct (Nat.eq_dec i (length ls - 1)) as [E|X]; [exact E|exfalso].
    rewrite <- NE in ES. pose proof (sections_sorted ls g0 (S i) (length ls - 1) hi s nn_0 (total_fin_nn ls F) ltac:(lia) E2 ES) as SS. apply gle_iff in SS as (_ & _ & SS). apply gle_iff in E5 as (_ & _ & E5). apply glt_iff in LT as (_ & _ & LT). rewrite D in E5. lra. }
  rewrite <- NE. replace (zlen ls - 1)%Z with (Z.of_nat i) by (unfold zlen; assert (length ls <> 0%nat) by (rewrite NE; discriminate); lia). rewrite (idx_nth _ _ _ E3). reflexivity.
Qed.
(** Without that they may be a right angle apart: here the last line is too short to count. *)
Lemma cos_apart a b : Rabs (cos a - cos b) <= Rabs (a - b).
Proof. apply cos_lip. Qed.
Theorem C110_end_refuted : atan2_near -> exists mc e s, made mc /\ Forall (fun l => vec_eqb (ln_p1 l) (ln_p2 l) = false) (mc_lines mc) /\ is_finite (mc_length mc) = true /\
  mc_end_angle mc = Ok e /\ mc_end_angle_at mc (gq 1 1) = Ok s /\ Rabs (cos (B2R e)) <= / 1000 /\ 999 / 1000 <= cos (B2R s).
Proof.
  intros A. set (p0 := pt 0 0). set (p1 := pt 100 0). set (p2 := mkVec (gq 100 1) (gq 1 (10 ^ 30))). set (mc := finish_curve [mkLinear p0 p1; mkLinear p1 p2] p0).
  exists mc, (ln_end_angle (mkLinear p1 p2)), (ln_end_angle (mkLinear p0 p1)). split; [exists 0%nat, (lit "L"), [p0; p1; p2]; left; exact eq_refl|]. split; [repeat constructor; vm_compute; reflexivity|]. split; [vm_compute; reflexivity|].
  split; [exact eq_refl|]. split. { unfold mc_end_angle_at, mc_line_at. cbn [mc_lines mc finish_curve]. replace (fst (mc_index mc (gq 1 1))) with 0%nat by (vm_compute; reflexivity). exact eq_refl. }
  destruct (gq1_exact 0) as (F0 & E0); [lia|]. destruct (gq1_exact 100) as (F100 & E100); [lia|]. assert (FT : fin (gq 1 (10 ^ 30))) by (vm_compute; reflexivity). assert (GT : glt g0 (gq 1 (10 ^ 30)) = true) by (vm_compute; reflexivity). assert (LT : glt (gq 1 (10 ^ 30)) (gq 100 1) = true) by (vm_compute; reflexivity).
  apply glt_iff in GT as (_ & _ & GT). apply glt_iff in LT as (_ & _ & LT). rewrite (key_fin 24 128 _ FT) in GT. rewrite (key_fin 24 128 _ FT), (key_fin 24 128 _ F100), E100 in LT. rewrite (key_fin 24 128 g0 eq_refl) in GT. change (B2R g0) with 0 in GT.
  set (y := gq 1 (10 ^ 30)) in *. clearbody y. assert (B7 : 100 <= bpow radix2 7) by (cbn; lra).
  assert (W : SpecCurves.within 7 p0 /\ SpecCurves.within 7 p1 /\ SpecCurves.within 7 p2).
  { unfold p0, p1, p2, pt, SpecCurves.within. cbn [vx vy]. rewrite E0, E100, Rabs_R0, (Rabs_pos_eq 100), (Rabs_pos_eq (B2R y)) by lra. repeat split; try assumption; lra. }
  destruct W as (W0 & W1 & W2). destruct (C110_sighted A 7 (mkLinear p1 p2) ltac:(lia) W1 W2) as (_ & (Fe & t & (C & _) & Dt)). destruct (C110_sighted A 7 (mkLinear p0 p1) ltac:(lia) W0 W1) as (_ & (Fs & u & (D & _) & Du)).
  cbn [ln_p1 ln_p2] in *. unfold p0, p1, p2, pt, px, py in C, D. cbn [vx vy] in C, D. rewrite E0, E100 in C, D. change (bpow radix2 (-20)) with (/ 1048576) in Dt, Du.
  pose proof (cos_apart (B2R (ln_end_angle (mkLinear p1 p2))) t) as L1. pose proof (cos_apart (B2R (ln_end_angle (mkLinear p0 p1))) u) as L2.
  assert (CT : cos t = 0). { replace ((100 - 100) * (100 - 100) + (B2R y - 0) * (B2R y - 0)) with (B2R y * B2R y) in C by ring. rewrite sqrt_square in C by lra. replace (100 - 100) with 0 in C by ring. apply Rmult_integral in C. lra. }
  assert (CU : cos u = 1). { replace ((100 - 0) * (100 - 0) + (0 - 0) * (0 - 0)) with (100 * 100) in D by ring. rewrite sqrt_square in D by lra. lra. }
  rewrite CT in L1. rewrite CU in L2. apply Rabs_le_inv in L2. split; [|lra]. replace (cos (B2R (ln_end_angle (mkLinear p1 p2)))) with (cos (B2R (ln_end_angle (mkLinear p1 p2))) - 0) by ring. lra.
Qed.
End WithLibm.

(** ** Concrete cases *)
(** Down 100 px and right 50: the angle changes after two thirds of the way. *)
Definition corner : multicurve := finish_curve [mkLinear (pt 0 0) (pt 0 100); mkLinear (pt 0 100) (pt 50 100)] (pt 0 0).
Definition is_line (r : res linear) (a b : vec) : bool := match r with Ok l => vec_eqb (ln_p1 l) a && vec_eqb (ln_p2 l) b | _ => false end.
Example C110_instance : @atan2_near ideal_libm /\ @made ideal_libm corner /\ is_finite (mc_length corner) = true /\ mc_lines corner <> [] /\
  is_line (mc_line_at corner (gq 1 2)) (pt 0 0) (pt 0 100) = true /\ is_line (mc_line_at corner (gq 3 4)) (pt 0 100) (pt 50 100) = true /\
  exists s, nth_error (mc_sections corner) (length (mc_lines corner) - 1) = Some s /\ glt s (mc_length corner) = true.
Proof.
  split; [exact ideal_atan2|]. split; [exists 0%nat, (lit "L"), [pt 0 0; pt 0 100; pt 50 100]; left; exact eq_refl|]. split; [vm_compute; reflexivity|]. split; [unfold corner; cbn; discriminate|]. split; [vm_compute; reflexivity|]. split; [vm_compute; reflexivity|].
  eexists. split; [unfold corner; cbn [mc_lines finish_curve length Nat.sub mc_sections section_sums nth_error]; exact eq_refl|]. vm_compute. reflexivity.
Qed.

Print Assumptions C110_none.
Print Assumptions C110_at.
Print Assumptions C110_ends.
Print Assumptions C110_sighted.
Print Assumptions C110_start.
Print Assumptions C110_end.
Print Assumptions C110_end_refuted.

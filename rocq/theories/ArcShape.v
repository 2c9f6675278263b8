(** Circular arcs against the real plane. *)
From Coq Require Import Reals ZArith Lra Lia List Bool Machin.
From Flocq Require Import Core BinarySingleNaN Plus_error Relative.
From Verif Require Import GoFloat Curves SpecCurves SpecArc BaseLemmas FloatLemmas Float32Lemmas KeyLemmas BoundLemmas CurveProofs CurveStart ArcProofs BezierTerm DistProofs LengthProofs NearLemmas.
Import ListNotations.
Open Scope R_scope.

(** ** Real angles *)
Lemma pi_close : Rabs (PI - 314159265359 / 100000000000) <= / 1000000000.
Proof.
  pose proof (PI_2_3_7_ineq 4) as [L U]. cbn [Nat.mul Nat.add sum_f_R0] in L, U. unfold tg_alt, PI_2_3_7_tg, Ratan_seq in L, U.
  cbn [Nat.mul Nat.add pow] in L, U. change (INR 19) with (INR (9 + 10)) in L. repeat rewrite INR_IZR_INZ in L. repeat rewrite INR_IZR_INZ in U. cbn [Z.of_nat Pos.of_succ_nat Pos.succ Nat.add] in L, U.
  apply Rabs_le. lra.
Qed.
Lemma pi_range : 3141592652 / 1000000000 <= PI <= 3141592655 / 1000000000.
Proof. pose proof (Rabs_le_inv _ _ pi_close). lra. Qed.
Lemma cos_lip x y : Rabs (cos x - cos y) <= Rabs (x - y).
Proof.
  destruct (MVT_abs cos (fun z => - sin z) y x) as (c & E & _); [intros z _; apply derivable_pt_lim_cos|]. rewrite E.
  rewrite <- (Rmult_1_l (Rabs (x - y))) at 2. apply Rmult_le_compat_r; [apply Rabs_pos|]. rewrite Rabs_Ropp. apply Rabs_le. apply SIN_bound.
Qed.
Lemma sin_lip x y : Rabs (sin x - sin y) <= Rabs (x - y).
Proof.
  destruct (MVT_abs sin cos y x) as (c & E & _); [intros z _; apply derivable_pt_lim_sin|]. rewrite E.
  rewrite <- (Rmult_1_l (Rabs (x - y))) at 2. apply Rmult_le_compat_r; [apply Rabs_pos|]. apply Rabs_le. apply COS_bound.
Qed.
Lemma atan_small v : Rabs (atan v) <= Rabs v.
Proof.
  destruct (MVT_abs atan (fun z => / (1 + z * z)) 0 v) as (c & E & _).
  { intros z _. pose proof (derivable_pt_lim_atan z) as D. unfold Rsqr in D. replace (/ (1 + z * z)) with (/ (1 + z ^ 2)) by (f_equal; ring). exact D. }
  rewrite atan_0, !Rminus_0_r in E. rewrite E. rewrite <- (Rmult_1_l (Rabs v)) at 2. apply Rmult_le_compat_r; [apply Rabs_pos|].
  assert (0 <= c * c) by nra. rewrite Rabs_pos_eq by (apply Rlt_le, Rinv_0_lt_compat; lra). rewrite <- Rinv_1. apply Rinv_le_contravar; lra.
Qed.
(** a small change of a vector is a small change of its angle *)
Lemma angle_turn x y x' y' t e : 0 <= e <= / 1024 -> Rabs (x' - x) <= e * Rabs x -> Rabs (y' - y) <= e * Rabs y -> angle_of x' y' t ->
  exists al, angle_of x y al /\ Rabs (al - t) <= 2 * e.
Proof.
  intros He Hx Hy (C & S). fold (nrm x' y') in C, S. set (h' := nrm x' y') in *. pose proof (nrm_pos x' y') as P'. fold h' in P'. pose proof (nrm_sq x' y') as Q'. fold h' in Q'.
  pose proof (nrm_pos x y) as P. pose proof (nrm_sq x y) as Q. unfold angle_of. fold (nrm x y). set (h := nrm x y) in *.
  assert (X2 : Rabs (x * (x' - x)) <= e * (x * x)). { rewrite Rabs_mult. replace (e * (x * x)) with (Rabs x * (e * Rabs x)) by (rewrite <- (Rabs_pos_eq (x * x)) by nra; rewrite Rabs_mult; ring). apply Rmult_le_compat_l; [apply Rabs_pos|exact Hx]. }
  assert (Y2 : Rabs (y * (y' - y)) <= e * (y * y)). { rewrite Rabs_mult. replace (e * (y * y)) with (Rabs y * (e * Rabs y)) by (rewrite <- (Rabs_pos_eq (y * y)) by nra; rewrite Rabs_mult; ring). apply Rmult_le_compat_l; [apply Rabs_pos|exact Hy]. }
  assert (CR : Rabs (x * y' - y * x') <= e * (h * h)).
  { replace (x * y' - y * x') with (x * (y' - y) - y * (x' - x)) by ring. apply Rle_trans with (1 := Rabs_triang _ _). rewrite Rabs_Ropp, !Rabs_mult. rewrite Q.
    assert (A1 : Rabs x * Rabs (y' - y) <= Rabs x * (e * Rabs y)) by (apply Rmult_le_compat_l; [apply Rabs_pos|exact Hy]).
    assert (A2 : Rabs y * Rabs (x' - x) <= Rabs y * (e * Rabs x)) by (apply Rmult_le_compat_l; [apply Rabs_pos|exact Hx]).
    replace (x * x + y * y) with (Rabs x * Rabs x + Rabs y * Rabs y) by (rewrite <- !Rabs_mult, !Rabs_pos_eq by apply Rle_0_sqr; reflexivity).
    assert (0 <= e * ((Rabs x - Rabs y) * (Rabs x - Rabs y))) by (apply Rmult_le_pos; [lra|apply Rle_0_sqr]). lra. }
  destruct (Req_dec h 0) as [H0|H0].
  { exists t. assert (x = 0 /\ y = 0) as [-> ->] by (rewrite H0 in Q; split; nra). rewrite H0. split; [split; ring|]. rewrite Rminus_diag_eq, Rabs_R0 by reflexivity. lra. }
  assert (HP : 0 < h * h) by nra. set (d := x * x' + y * y').
  assert (D : (1 - e) * (h * h) <= d). { apply Rabs_le_inv in X2, Y2. unfold d. rewrite Q. nra. }
  assert (DP : 0 < d) by nra. set (v := (x * y' - y * x') / d).
  assert (VB : Rabs v <= 2 * e).
  { unfold v, Rdiv. rewrite Rabs_mult, (Rabs_pos_eq (/ d)) by (apply Rlt_le, Rinv_0_lt_compat; lra). apply Rmult_le_reg_r with d; [lra|]. rewrite Rmult_assoc, Rinv_l, Rmult_1_r by lra.
    apply Rle_trans with (1 := CR). apply Rle_trans with (2 * e * ((1 - e) * (h * h))); [|apply Rmult_le_compat_l; lra]. assert (0 <= e * (h * h)) by (apply Rmult_le_pos; lra). nra. }
  exists (t - atan v). split; [|replace (t - atan v - t) with (- atan v) by ring; rewrite Rabs_Ropp; apply Rle_trans with (1 := atan_small v); exact VB].
  assert (LG : (h * h) * (h' * h') = d * d + (x * y' - y * x') * (x * y' - y * x')) by (rewrite Q, Q'; unfold d; ring).
  assert (HP' : 0 < h'). { destruct (Rle_lt_or_eq_dec _ _ P') as [|E]; [assumption|]. exfalso. rewrite <- E in LG. nra. }
  assert (HPs : 0 < h) by lra.
  assert (SQ : sqrt (1 + v ^ 2) = h * h' / d).
  { replace (1 + v ^ 2) with ((h * h' / d) * (h * h' / d)); [apply sqrt_square; apply Rlt_le, Rdiv_lt_0_compat; [apply Rmult_lt_0_compat; lra|lra]|].
    unfold v. field_simplify; try lra. f_equal. nra. }
  assert (CA : cos (atan v) = d / (h * h')). { rewrite cos_atan. unfold Rsqr. replace (v * v) with (v ^ 2) by ring. rewrite SQ. field. repeat split; lra. }
  assert (SA : sin (atan v) = (x * y' - y * x') / (h * h')). { rewrite sin_atan. unfold Rsqr. replace (v * v) with (v ^ 2) by ring. rewrite SQ. unfold v. field. repeat split; lra. }
  assert (CT : cos t = x' / h') by (rewrite <- C; field; lra). assert (ST : sin t = y' / h') by (rewrite <- S; field; lra).
  rewrite cos_minus, sin_minus, CA, SA, CT, ST. unfold d. split.
  - apply Rmult_eq_reg_r with (h' * h'); [|nra]. rewrite Q' at 2. field. lra.
  - apply Rmult_eq_reg_r with (h' * h'); [|nra]. rewrite Q' at 2. field. lra.
Qed.

(** ** Angles in float32 *)
Lemma one_scale : 1 <= 1 <= bpow radix2 100.
Proof. split; [lra|]. change 1 with (bpow radix2 0). apply bpow_le. lia. Qed.
Lemma near_two_pi : near 1 7 3 g2pi (2 * PI).
Proof.
  pose proof pi_range. destruct g2pi_val as (F & V). split; [exact F|]. rewrite V. unfold ulp24. split; apply Rabs_le; lra.
Qed.
Lemma sub_rel x y : fin x -> fin y -> Rabs (B2R x - B2R y) <= bpow radix2 127 ->
  fin (gsub x y) /\ Rabs (B2R (gsub x y) - (B2R x - B2R y)) <= / 16777216 * Rabs (B2R x - B2R y).
Proof.
  intros Fx Fy B. destruct (gsub_fin x y Fx Fy B) as (F & V). split; [exact F|]. rewrite V. set (a := B2R x - B2R y).
  destruct (FLT_plus_error_N_ex radix2 (-149) 24 (fun x => negb (Z.even x)) (B2R x) (- B2R y)) as (eps & HE & VE).
  - apply (generic_format_B2R 24 128).
  - apply generic_format_opp, (generic_format_B2R 24 128).
  - assert (UE : Rabs eps <= / 16777216).
    { apply Rle_trans with (1 := HE). unfold u_ro. change (bpow radix2 (- (24) + 1)) with (/ 8388608). set (u := / 2 * / 8388608). assert (HU : 0 < u <= / 16777216) by (unfold u; lra). clearbody u.
      apply Rle_trans with (2 := proj2 HU). apply Rmult_le_reg_r with (1 + u); [lra|]. unfold Rdiv. rewrite Rmult_assoc, Rinv_l, Rmult_1_r by lra. assert (0 <= u * u) by (apply Rmult_le_pos; lra). lra. }
    change (rnd32 a = a * (1 + eps)) in VE. rewrite VE. replace (a * (1 + eps) - a) with (eps * a) by ring. rewrite Rabs_mult. apply Rmult_le_compat_r; [apply Rabs_pos|exact UE].
Qed.
(** the second factor at a scale of its own *)
Lemma near_mul2 U V A1 A2 E1 E2 x y r s : 1 <= U -> 1 <= V -> 1 <= U * V <= bpow radix2 100 ->
  near U A1 E1 x r -> near V A2 E2 y s -> 0 <= A1 <= 1000 -> 0 <= A2 <= 1000 -> 0 <= E1 <= 1000 -> 0 <= E2 <= 1000 ->
  near (U * V) (A1 * A2) (E1 * A2 + A1 * E2 + A1 * A2 + 2) (gmul x y) (r * s).
Proof.
  intros HU HV HUV (Fx & Bx & Dx) (Fy & By & Dy) a1 a2 e1 e2. unfold ulp24 in *.
  assert (P1 : 0 <= A1 * A2 <= 1000 * 1000) by (split; [apply Rmult_le_pos; lra|apply Rmult_le_compat; lra]).
  assert (P2 : 0 <= E1 * A2 <= 1000 * 1000) by (split; [apply Rmult_le_pos; lra|apply Rmult_le_compat; lra]).
  assert (P3 : 0 <= A1 * E2 <= 1000 * 1000) by (split; [apply Rmult_le_pos; lra|apply Rmult_le_compat; lra]).
  assert (P4 : 0 <= E1 * E2 <= 1000 * 1000) by (split; [apply Rmult_le_pos; lra|apply Rmult_le_compat; lra]).
  replace (E1 * A2 + A1 * E2 + A1 * A2 + 2) with (E1 * A2 + A1 * E2 + 1 + A1 * A2 + 1) by ring.
  apply (near_round (U * V) (A1 * A2) (E1 * A2 + A1 * E2 + 1) _ (B2R x * B2R y)); [exact HUV|lra|lra| | |].
  - rewrite Rabs_mult. replace (A1 * A2 * (U * V)) with (A1 * U * (A2 * V)) by ring. apply Rmult_le_compat; try apply Rabs_pos; assumption.
  - replace (B2R x * B2R y - r * s) with ((B2R x - r) * B2R y + r * (B2R y - s)) by ring. apply Rle_trans with (1 := Rabs_triang _ _). rewrite !Rabs_mult.
    assert (Y : Rabs (B2R y) <= A2 * V + E2 * V * / 16777216) by (replace (B2R y) with (s + (B2R y - s)) by ring; apply Rle_trans with (1 := Rabs_triang _ _); lra).
    assert (T1 : Rabs (B2R x - r) * Rabs (B2R y) <= E1 * U * / 16777216 * (A2 * V + E2 * V * / 16777216)) by (apply Rmult_le_compat; try apply Rabs_pos; assumption).
    assert (T2 : Rabs r * Rabs (B2R y - s) <= A1 * U * (E2 * V * / 16777216)) by (apply Rmult_le_compat; try apply Rabs_pos; assumption).
    set (W := U * V) in *. assert (T3 : E1 * E2 * (W * / 16777216 * / 16777216) <= 1000 * 1000 * (W * / 16777216 * / 16777216)) by (apply Rmult_le_compat_r; lra).
    unfold ulp24. replace ((E1 * A2 + A1 * E2 + 1) * W * / 16777216) with (E1 * A2 * (W * / 16777216) + A1 * E2 * (W * / 16777216) + W * / 16777216) by ring.
    replace (E1 * U * / 16777216 * (A2 * V + E2 * V * / 16777216)) with (E1 * A2 * (W * / 16777216) + E1 * E2 * (W * / 16777216 * / 16777216)) in T1 by (unfold W; ring).
    replace (A1 * U * (E2 * V * / 16777216)) with (A1 * E2 * (W * / 16777216)) in T2 by (unfold W; ring). lra.
  - intros L. now apply gmul_fin.
Qed.

Section WithLibm.
Context {M : libm}.
(** the angle of a point seen from another *)
Lemma angle_near o p : atan2_near -> fin (vx o) -> fin (vy o) -> fin (vx p) -> fin (vy p) ->
  Rabs (px p - px o) <= bpow radix2 127 -> Rabs (py p - py o) <= bpow radix2 127 ->
  exists al, angle_of (px p - px o) (py p - py o) al /\ near 1 4 9 (vangle_rv p o) al /\ angle (vangle_rv p o).
Proof.
  intros HA Fox Foy Fpx Fpy Bx By. destruct (sub_rel _ _ Fpx Fox Bx) as (Fx & Dx). destruct (sub_rel _ _ Fpy Foy By) as (Fy & Dy).
  unfold vangle_rv, gatan2. set (x := gsub (vx p) (vx o)) in *. set (y := gsub (vy p) (vy o)) in *.
  destruct (f_of_g_fin x Fx) as (Fx' & Vx). destruct (f_of_g_fin y Fy) as (Fy' & Vy).
  destruct (HA (f_of_g y) (f_of_g x) Fy' Fx') as (Fz & t & Bt & At & Et). rewrite Vx, Vy in At. set (z := matan2 _ _) in *. clearbody z.
  destruct (angle_turn (px p - px o) (py p - py o) (B2R x) (B2R y) t (/ 16777216) ltac:(lra) Dx Dy At) as (al & Al & El).
  change (bpow radix2 (-40)) with (/ 1099511627776) in Et. pose proof pi_range as PR. apply Rabs_le_inv in Et. apply Rabs_le_inv in El.
  destruct gpi_val as (Fg & Vg). destruct (g_of_f_fin z Fz ltac:(apply small127; lra)) as (F & V).
  assert (R : Rabs (rnd32 (B2R z) - B2R z) <= bpow radix2 (2 - 24)) by (apply ArcProofs.rnd32_err; [lia|]; change (bpow radix2 2) with 4; apply Rabs_le; lra).
  change (bpow radix2 (2 - 24)) with (/ 4194304) in R. apply Rabs_le_inv in R.
  exists al. split; [exact Al|]. split.
  - split; [exact F|]. unfold ulp24. rewrite V. split; apply Rabs_le; lra.
  - split; [exact F|]. rewrite V, <- Vg. split.
    + replace (- B2R gpi) with (B2R (gneg gpi)) by (unfold gneg; rewrite B2R_Bopp; lra). apply rnd32_ge_f. unfold gneg. rewrite B2R_Bopp, Vg. lra.
    + apply rnd32_le_f. rewrite Vg. lra.
Qed.
Lemma angle_plus x y t : angle_of x y t -> angle_of x y (t + 2 * PI).
Proof. intros (C & S). split; [rewrite cos_plus, cos_2PI, sin_2PI|rewrite sin_plus, cos_2PI, sin_2PI]; lra. Qed.
Lemma angle_minus x y t : angle_of x y t -> angle_of x y (t - 2 * PI).
Proof. intros (C & S). split; [rewrite cos_minus, cos_2PI, sin_2PI|rewrite sin_minus, cos_2PI, sin_2PI]; lra. Qed.
(** cosine and sine *)
Lemma trig_unit v ph E : trig_near -> near 1 12 E v ph -> 0 <= E <= 300 -> near 1 1 (E + 3) (gcos v) (cos ph) /\ near 1 1 (E + 3) (gsin v) (sin ph).
Proof.
  intros HT (F & B & D) HE. unfold ulp24 in *. rewrite Rmult_1_r in B, D. destruct (f_of_g_fin v F) as (F' & V).
  assert (BV : Rabs (B2R (f_of_g v)) <= 16). { rewrite V. replace (B2R v) with (ph + (B2R v - ph)) by ring. apply Rle_trans with (1 := Rabs_triang _ _). lra. }
  destruct (HT (f_of_g v) F' BV) as ((Fc & Dc) & (Fs & Ds)). rewrite V in Dc, Ds. unfold gcos, gsin. set (c := mcos _) in *. set (s := msin _) in *. clearbody c s.
  change (bpow radix2 (-40)) with (/ 1099511627776) in Dc, Ds.
  pose proof (cos_lip (B2R v) ph) as L1. pose proof (sin_lip (B2R v) ph) as L2. pose proof (COS_bound ph) as C1. pose proof (SIN_bound ph) as S1.
  assert (G : forall z w, fin z -> -1 <= w <= 1 -> Rabs (B2R z - w) <= E * / 16777216 + / 1099511627776 -> near 1 1 (E + 3) (g_of_f z) w).
  { intros z w Fz Bw Dz. apply (near_up 1 1 (E + 1 + 1 + 1)); [lra|lra|lra|]. apply (near_round 1 1 (E + 1) _ (B2R z)); [apply one_scale|lra|lra|apply Rabs_le; lra|unfold ulp24; lra|].
    intros L. now apply g_of_f_fin. }
  split; apply G; try assumption.
  - replace (B2R c - cos ph) with ((B2R c - cos (B2R v)) + (cos (B2R v) - cos ph)) by ring. apply Rle_trans with (1 := Rabs_triang _ _). lra.
  - replace (B2R s - sin ph) with ((B2R s - sin (B2R v)) + (sin (B2R v) - sin ph)) by ring. apply Rle_trans with (1 := Rabs_triang _ _). lra.
Qed.

(** ** The side of the chord *)
Lemma scale_pow k : (0 <= k <= 20)%Z -> 1 <= bpow radix2 k <= 1048576.
Proof. intros K. split; [change 1 with (bpow radix2 0); apply bpow_le; lia|change 1048576 with (bpow radix2 20); apply bpow_le; lia]. Qed.
Lemma side_near k a b c : (0 <= k <= 20)%Z -> SpecCurves.within k a -> SpecCurves.within k b -> SpecCurves.within k c ->
  let v := vdot (mkVec (gsub (vy c) (vy a)) (gneg (gsub (vx c) (vx a)))) (vsub b a) in
  fin v /\ Rabs (B2R v - side (px a) (py a) (px c) (py c) (px b) (py b)) <= bpow radix2 (2 * k - 18).
Proof.
  intros K ((Fax & Bax) & (Fay & Bay)) ((Fbx & Bbx) & (Fby & Bby)) ((Fcx & Bcx) & (Fcy & Bcy)). pose proof (scale_pow k K) as HU. set (U := bpow radix2 k) in *.
  assert (HU' : 1 <= U <= bpow radix2 100) by (split; [lra|]; apply Rle_trans with (1 := proj2 HU); change 1048576 with (bpow radix2 20); apply bpow_le; lia).
  assert (HUU : 1 <= U * U <= bpow radix2 100). { split; [nra|]. apply Rle_trans with (bpow radix2 40); [change (bpow radix2 40) with 1099511627776; nra|apply bpow_le; lia]. }
  assert (C : forall x : f32, is_finite x = true -> Rabs (B2R x) <= U -> near U 1 0 x (B2R x)) by (intros x Fx Bx; apply near_exact; [exact Fx|rewrite Rmult_1_l; exact Bx]).
  assert (S : forall x y : f32, is_finite x = true -> Rabs (B2R x) <= U -> is_finite y = true -> Rabs (B2R y) <= U -> near U 2 3 (gsub x y) (B2R x - B2R y)).
  { intros x y Fx Bx Fy By. apply (near_up U (1 + 1) (0 + 0 + (1 + 1) + 1)); [lra|lra|lra|]. apply (near_sub U HU' 1 1 0 0 _ _ _ _ (C x Fx Bx) (C y Fy By)); lra. }
  pose proof (near_mul2 U U 2 2 3 3 _ _ _ _ (proj1 HU) (proj1 HU) HUU (S _ _ Fcy Bcy Fay Bay) (S _ _ Fbx Bbx Fax Bax) ltac:(lra) ltac:(lra) ltac:(lra) ltac:(lra)) as M1.
  pose proof (near_mul2 U U 2 2 3 3 _ _ _ _ (proj1 HU) (proj1 HU) HUU (near_neg U 2 3 _ _ (S _ _ Fcx Bcx Fax Bax)) (S _ _ Fby Bby Fay Bay) ltac:(lra) ltac:(lra) ltac:(lra) ltac:(lra)) as M2.
  pose proof (near_add (U * U) HUU _ _ _ _ _ _ _ _ M1 M2 ltac:(lra) ltac:(lra) ltac:(lra) ltac:(lra)) as (F & _ & D). cbv zeta. unfold vdot, vsub. cbn [vx vy]. split; [exact F|].
  replace (side _ _ _ _ _ _) with ((B2R (vy c) - B2R (vy a)) * (B2R (vx b) - B2R (vx a)) + - (B2R (vx c) - B2R (vx a)) * (B2R (vy b) - B2R (vy a))) by (unfold side, px, py; ring).
  apply Rle_trans with (1 := D). unfold ulp24. replace (2 * k - 18)%Z with (k + k + (-18))%Z by lia. rewrite !bpow_plus. fold U. change (bpow radix2 (-18)) with (/ 262144). lra.
Qed.

(** ** The angles of an arc *)
Definition unit_turn : R := bpow radix2 (-17).
Lemma arc_near fuel k a b c arc : (0 <= k <= 20)%Z -> atan2_near -> let o := arc_centre_of a b c in
  SpecCurves.within k a -> SpecCurves.within k b -> SpecCurves.within k c -> SpecCurves.within k o -> new_cirarc fuel a b c = Ok arc ->
  exists al T d, (d = 1 \/ d = -1) /\ fin (arc_dir arc) /\ B2R (arc_dir arc) = d /\ arc_centre arc = o /\ arc_r arc = vdst a o /\
    angle_of (px a - px o) (py a - py o) al /\ angle_of (px c - px o) (py c - py o) (al + T) /\
    near 1 4 9 (arc_start arc) al /\ near 1 7 75 (arc_total arc) (d * T) /\ - unit_turn <= d * T <= 2 * PI + unit_turn /\
    - bpow radix2 (2 * k - 18) <= d * side (px a) (py a) (px c) (py c) (px b) (py b).
Proof.
  intros K HA o Wa Wb Wc Wo H. destruct (side_near k a b c K Wa Wb Wc) as (Fv & Dv). cbv zeta in Fv, Dv.
  unfold new_cirarc in H. cbv zeta in H. fold o in H. apply bind_ok in H as (e & He & H).
  pose proof (scale_pow k K) as HU.
  assert (B127 : forall x y, Rabs x <= bpow radix2 k -> Rabs y <= bpow radix2 k -> Rabs (x - y) <= bpow radix2 127).
  { intros x y Bx By. apply small127. apply Rabs_le_inv in Bx, By. lra. }
  destruct Wa as ((Fax & Bax) & (Fay & Bay)), Wc as ((Fcx & Bcx) & (Fcy & Bcy)), Wo as ((Fox & Box) & (Foy & Boy)).
  destruct (angle_near o a HA Fox Foy Fax Fay (B127 _ _ Bax Box) (B127 _ _ Bay Boy)) as (al & Al & Na & Ga).
  destruct (angle_near o c HA Fox Foy Fcx Fcy (B127 _ _ Bcx Box) (B127 _ _ Bcy Boy)) as (ga & Gc & Nc & Gg).
  set (s := vangle_rv a o) in *. set (en := vangle_rv c o) in *. clearbody s en.
  pose proof pi_range as PR. pose proof Na as (Fs & Bs & Ds). pose proof Nc as (Fn & Bn & Dn). unfold ulp24 in Ds, Dn. rewrite Rmult_1_r in Bs, Bn, Ds, Dn.
  apply Rabs_le_inv in Ds, Dn, Bs, Bn. destruct Ga as (_ & Ga). destruct Gg as (_ & Gg).
  (** the end angle, in the next turn if it is below the start *)
  assert (EN : exists g', angle_of (px c - px o) (py c - py o) g' /\ near 1 11 24 e g' /\ -64 * / 16777216 <= g' - al <= 2 * PI + 64 * / 16777216).
  { pose proof (arc_turn s en (conj Fs Ga) (conj Fn Gg)) as (_ & L & _). destruct fuel as [|fuel]; cbn [arc_wrap] in He; destruct (glt en s) eqn:E; try discriminate He.
    - apply Ok_inj in He. subst e. exists ga. split; [exact Gc|]. split; [apply (near_up 1 4 9); try lra; exact Nc|].
      assert (B2R s <= B2R en) by (apply Rnot_lt_le; intros X; apply glt_B2R in X; auto; congruence). lra.
    - rewrite two_pi in He. assert (W : arc_wrap fuel s (gadd en g2pi) = Ok (gadd en g2pi)) by (destruct fuel; cbn [arc_wrap]; rewrite L; reflexivity).
      rewrite W in He. apply Ok_inj in He. subst e. exists (ga + 2 * PI). split; [now apply angle_plus|].
      split; [apply (near_up 1 (4 + 7) (9 + 3 + (4 + 7) + 1)); [lra|lra|lra|]; apply (near_add 1 one_scale 4 7 9 3 _ _ _ _ Nc near_two_pi); lra|].
      apply glt_B2R in E; auto. lra.
    - apply Ok_inj in He. subst e. exists ga. split; [exact Gc|]. split; [apply (near_up 1 4 9); try lra; exact Nc|].
      assert (B2R s <= B2R en) by (apply Rnot_lt_le; intros X; apply glt_B2R in X; auto; congruence). lra. }
  destruct EN as (g' & Ag & Ne & Rg).
  assert (Nt : near 1 7 49 (gsub e s) (g' - al)).
  { destruct (near_sub 1 one_scale 11 4 24 9 _ _ _ _ Ne Na ltac:(lra) ltac:(lra) ltac:(lra) ltac:(lra)) as (F & _ & D). split; [exact F|]. split; [apply Rabs_le; lra|]. apply Rle_trans with (1 := D). unfold ulp24. lra. }
  apply Ok_inj in H. subst arc. cbn [arc_start arc_total arc_dir arc_r arc_centre]. unfold vsub in Dv, Fv |- *. cbn [vx vy] in *.
  set (v := vdot _ _) in *. destruct (gq1_exact 1 ltac:(lia)) as (F1 & V1). destruct (gneg_fin _ F1) as (F2 & V2). rewrite V1 in V2.
  assert (F0 : fin g0) by reflexivity. assert (V0 : B2R g0 = 0) by reflexivity. unfold unit_turn. change (bpow radix2 (-17)) with (/ 131072). apply Rabs_le_inv in Dv.
  destruct (glt v g0) eqn:EV.
  - apply glt_B2R in EV; auto. rewrite V0 in EV. exists al, (g' - al - 2 * PI), (-1). split; [now right|]. split; [exact F2|]. split; [lra|]. split; [reflexivity|]. split; [reflexivity|]. split; [exact Al|].
    split; [replace (al + (g' - al - 2 * PI)) with (g' - 2 * PI) by ring; now apply angle_minus|]. split; [exact Na|].
    split; [|split; [lra|lra]]. apply (near_eq _ _ _ _ (2 * PI - (g' - al))); [ring|].
    destruct (near_sub 1 one_scale 7 7 3 49 _ _ _ _ near_two_pi Nt ltac:(lra) ltac:(lra) ltac:(lra) ltac:(lra)) as (F & _ & D). split; [exact F|]. split; [apply Rabs_le; lra|]. apply Rle_trans with (1 := D). unfold ulp24. lra.
  - assert (0 <= B2R v) by (apply Rnot_lt_le; intros X; rewrite <- V0 in X; apply glt_B2R in X; auto; congruence).
    exists al, (g' - al), 1. split; [now left|]. split; [exact F1|]. split; [exact V1|]. split; [reflexivity|]. split; [reflexivity|]. split; [exact Al|].
    split; [replace (al + (g' - al)) with g' by ring; exact Ag|]. split; [exact Na|].
    split; [|split; [lra|lra]]. apply (near_eq _ _ _ _ (g' - al)); [ring|]. apply (near_up 1 7 49); [lra|lra|lra|exact Nt].
Qed.

(** ** The points *)
Lemma radius_near k o a : (0 <= k <= 20)%Z -> SpecCurves.within k a -> SpecCurves.within k o -> near (bpow radix2 k) 3 25 (vdst a o) (dist o a) /\ 0 <= dist o a.
Proof.
  intros K Wa Wo. destruct (vdst_acc a o k ltac:(lia) Wa Wo) as (F & _ & D). pose proof (scale_pow k K) as HU. set (U := bpow radix2 k) in *.
  assert (G : geo a o = dist o a) by (unfold geo, dist, nrm, px, py; f_equal; ring). rewrite G in D.
  assert (P : 0 <= dist o a) by apply sqrt_pos. split; [|exact P].
  assert (B : dist o a <= 3 * U).
  { rewrite <- G. unfold geo, nrm. rewrite <- (sqrt_square (3 * U)) by lra. apply sqrt_le_1_alt. destruct Wa as ((_ & Bax) & (_ & Bay)), Wo as ((_ & Box) & (_ & Boy)). fold U in Bax, Bay, Box, Boy.
    apply Rabs_le_inv in Bax, Bay, Box, Boy. set (x := B2R (vx o) - B2R (vx a)). set (y := B2R (vy o) - B2R (vy a)).
    assert (Hx : Rabs x <= 2 * U) by (apply Rabs_le; unfold x; lra). assert (Hy : Rabs y <= 2 * U) by (apply Rabs_le; unfold y; lra).
    assert (x * x <= 2 * U * (2 * U)) by (rewrite <- (Rabs_pos_eq (x * x)) by apply Rle_0_sqr; rewrite Rabs_mult; apply Rmult_le_compat; try apply Rabs_pos; assumption).
    assert (y * y <= 2 * U * (2 * U)) by (rewrite <- (Rabs_pos_eq (y * y)) by apply Rle_0_sqr; rewrite Rabs_mult; apply Rmult_le_compat; try apply Rabs_pos; assumption).
    assert (0 <= U * U) by nra. lra. }
  split; [exact F|]. split; [rewrite Rabs_pos_eq; lra|]. apply Rle_trans with (1 := D). change (bpow radix2 (-21)) with (/ 2097152). unfold ulp24.
  assert (bpow radix2 (-69) <= / 16777216) by (change (/ 16777216) with (bpow radix2 (-24)); apply bpow_le; lia). lra.
Qed.
Lemma fraction_near j n : (0 <= j <= n)%Z -> (0 < n <= 2 ^ 24)%Z -> near 1 1 2 (gdiv (g_of_Z j) (g_of_Z n)) (IZR j / IZR n).
Proof.
  intros Hj Hn. destruct (g_of_Z_exact j ltac:(lia)) as (Fj & Vj). destruct (g_of_Z_exact n ltac:(lia)) as (Fn & Vn).
  assert (0 < IZR n) by (apply (IZR_lt 0); lia). assert (0 <= IZR j <= IZR n) by (split; apply IZR_le; lia).
  assert (Q : 0 <= IZR j / IZR n <= 1). { split; [apply Rle_mult_inv_pos; lra|]. apply Rmult_le_reg_r with (IZR n); [lra|]. unfold Rdiv. rewrite Rmult_assoc, Rinv_l by lra. lra. }
  apply (near_up 1 1 (0 + 1 + 1)); [lra|lra|lra|]. apply (near_round 1 1 0 _ (B2R (g_of_Z j) / B2R (g_of_Z n))); [apply one_scale|lra|lra|rewrite Rabs_pos_eq; lra| |].
  - rewrite Vj, Vn, Rminus_diag_eq, Rabs_R0 by reflexivity. lra.
  - intros L. apply gdiv_fin; [exact Fj|exact Fn|rewrite Vn; lra|exact L].
Qed.
Lemma point_on_arc k arc o rho al T d t u : (0 <= k <= 20)%Z -> trig_near -> SpecCurves.within k o -> arc_centre arc = o ->
  near (bpow radix2 k) 3 25 (arc_r arc) rho -> (d = 1 \/ d = -1) -> fin (arc_dir arc) -> B2R (arc_dir arc) = d ->
  near 1 4 9 (arc_start arc) al -> near 1 7 75 (arc_total arc) (d * T) -> near 1 1 2 t u ->
  close (bpow radix2 (k - 14)) (arc_point_at arc t) (arc_x o rho al T u) (arc_y o rho al T u).
Proof.
  intros K HT Wo EO NR HD FD VD NS NT Nt. pose proof (scale_pow k K) as HU. set (U := bpow radix2 k) in *.
  assert (HU' : 1 <= U <= bpow radix2 100) by (split; [lra|]; apply Rle_trans with (1 := proj2 HU); change 1048576 with (bpow radix2 20); apply bpow_le; lia).
  assert (ND : near 1 1 0 (arc_dir arc) d). { rewrite <- VD. apply near_exact; [exact FD|]. rewrite VD. destruct HD as [-> | ->]; apply Rabs_le; lra. }
  pose proof (near_mul 1 one_scale _ _ _ _ _ _ _ _ ND Nt ltac:(lra) ltac:(lra) ltac:(lra) ltac:(lra)) as N1.
  pose proof (near_mul 1 one_scale _ _ _ _ _ _ _ _ N1 NT ltac:(lra) ltac:(lra) ltac:(lra) ltac:(lra)) as N2.
  pose proof (near_add 1 one_scale _ _ _ _ _ _ _ _ NS N2 ltac:(lra) ltac:(lra) ltac:(lra) ltac:(lra)) as N3.
  assert (N4 : near 1 12 150 (gadd (arc_start arc) (gmul (gmul (arc_dir arc) t) (arc_total arc))) (al + u * T)).
  { apply (near_eq _ _ _ _ (al + d * u * (d * T))); [assert (d * d = 1) by (destruct HD as [-> | ->]; lra); replace (d * u * (d * T)) with (d * d * (u * T)) by ring; rewrite H; ring|].
    eapply near_up; [| | |exact N3]; lra. }
  destruct (trig_unit _ _ 150 HT N4 ltac:(lra)) as (NC & NN). unfold arc_point_at. rewrite EO. set (ph := gadd _ _) in *. unfold vec_rad, vadd. cbn [vx vy].
  assert (CO : forall z w, near 1 1 (150 + 3) z w -> forall x : f32, is_finite x = true -> Rabs (B2R x) <= U -> is_finite (gadd (gmul z (arc_r arc)) x) = true /\ Rabs (B2R (gadd (gmul z (arc_r arc)) x) - (B2R x + rho * w)) <= bpow radix2 (k - 14)).
  { intros z w NZ x Fx Bx. assert (NM : near U 3 (25 * 1 + 3 * (150 + 3) + 3 * 1 + 2) (gmul z (arc_r arc)) (rho * w)).
    { apply (near_eq _ _ _ _ (w * rho)); [ring|]. pose proof (near_mul2 1 U _ _ _ _ _ _ _ _ (Rle_refl 1) (proj1 HU) ltac:(rewrite Rmult_1_l; exact HU') NZ NR ltac:(lra) ltac:(lra) ltac:(lra) ltac:(lra)) as N.
      rewrite Rmult_1_l in N. eapply near_up; [| | |exact N]; lra. }
    assert (NX : near U 1 0 x (B2R x)) by (apply near_exact; [exact Fx|rewrite Rmult_1_l; exact Bx]).
    destruct (near_add U HU' _ _ _ _ _ _ _ _ NM NX ltac:(lra) ltac:(lra) ltac:(lra) ltac:(lra)) as (F & _ & D). split; [exact F|].
    replace (B2R x + rho * w) with (rho * w + B2R x) by ring. apply Rle_trans with (1 := D). unfold ulp24. replace (k - 14)%Z with (k + (-14))%Z by lia. rewrite bpow_plus. fold U. change (bpow radix2 (-14)) with (/ 16384). lra. }
  destruct Wo as ((Fox & Box) & (Foy & Boy)). destruct (CO _ _ NC _ Fox Box) as (X1 & X2). destruct (CO _ _ NN _ Foy Boy) as (Y1 & Y2).
  split; [exact X1|]. split; [exact Y1|]. split; [exact X2|exact Y2].
Qed.
Lemma int_trunc x : fin x -> Rabs (B2R x) <= 1152921504606846976 -> int_of_g x = Ztrunc (B2R x).
Proof.
  intros F B. unfold int_of_g. destruct (f_of_g_fin x F) as [F' V]. rewrite <- V in B |- *. set (y := f_of_g x) in *. clearbody y.
  assert (T : Btrunc y = Ztrunc (B2R y)) by (apply eq_IZR; rewrite (Btrunc_correct 53 1024 pe53 y), round_FIX_IZR; reflexivity).
  assert (R : (- 1152921504606846976 <= Btrunc y <= 1152921504606846976)%Z).
  { rewrite T. apply Rabs_le_inv in B. split.
    - rewrite <- (Ztrunc_IZR (-1152921504606846976)). apply Ztrunc_le. lra.
    - rewrite <- (Ztrunc_IZR 1152921504606846976). apply Ztrunc_le. lra. }
  rewrite <- T. unfold int_of_f. destruct y as [s|s| |s m e b] eqn:Ey; try discriminate F'; cbn zeta;
    rewrite (proj2 (Z.leb_le _ _)), (proj2 (Z.leb_le _ _)); unfold min_int64, max_int64; cbn [andb]; try reflexivity; lia.
Qed.
Lemma follow fuel k a b c ls : (0 <= k <= 20)%Z -> trig_near -> atan2_near -> let o := arc_centre_of a b c in
  SpecCurves.within k a -> SpecCurves.within k b -> SpecCurves.within k c -> SpecCurves.within k o -> is_straight a b c = false ->
  approximate_arc fuel a b c (gq 1 8) = Ok ls -> follows_arc k o a b c ls.
Proof.
  intros K HT HA o Wa Wb Wc Wo NS H. unfold approximate_arc in H. apply bind_ok in H as (arc & E & H).
  assert (UN : arc_unstable arc = false). { unfold new_cirarc in E. cbv zeta in E. apply bind_ok in E as (e & _ & E). apply Ok_inj in E. subst arc. exact NS. }
  rewrite UN in H. destruct (arc_near fuel k a b c arc K HA Wa Wb Wc Wo E) as (al & T & d & HD & FD & VD & EO & ER & Al & Ac & NSt & NT & RT & SD). fold o in EO, ER, Al, Ac.
  destruct (radius_near k o a K Wa Wo) as (NR & PR). rewrite <- ER in NR. pose proof (scale_pow k K) as HU. set (U := bpow radix2 k) in *.
  assert (HU' : 1 <= U <= bpow radix2 100) by (split; [lra|]; apply Rle_trans with (1 := proj2 HU); change 1048576 with (bpow radix2 20); apply bpow_le; lia).
  pose proof (near_mul U HU' _ _ _ _ _ _ _ _ NR NT ltac:(lra) ltac:(lra) ltac:(lra) ltac:(lra)) as N1.
  destruct eighth_val as (F8 & V8). assert (N8 : near 1 1 0 (gq 1 8) (/ 8)) by (rewrite <- V8; apply near_exact; [exact F8|]; rewrite V8; apply Rabs_le; lra).
  pose proof (near_mul U HU' _ _ _ _ _ _ _ _ N1 N8 ltac:(lra) ltac:(lra) ltac:(lra) ltac:(lra)) as (Fg & Bg & Dg).
  cbv zeta in H. set (g := gmul (gmul (arc_r arc) (arc_total arc)) (gq 1 8)) in *. unfold ulp24 in Dg. set (w := dist o a * (d * T) * / 8) in *.
  assert (DG : Rabs (B2R g - w) <= 512 * U * / 16777216) by (apply Rle_trans with (1 := Dg); lra).
  assert (Pi2 : 2 * PI + unit_turn <= 7) by (pose proof pi_range; unfold unit_turn; change (bpow radix2 (-17)) with (/ 131072); lra).
  assert (RHO : dist o a <= 3 * U) by (destruct NR as (_ & B & _); rewrite Rabs_pos_eq in B by lra; exact B).
  assert (UT : 0 < unit_turn <= / 131072) by (unfold unit_turn; change (bpow radix2 (-17)) with (/ 131072); lra).
  assert (AT : d * T <= Rabs T <= d * T + 2 * unit_turn). { destruct HD as [-> | ->]; unfold Rabs; destruct (Rcase_abs T); lra. }
  assert (WB : w <= dist o a * Rabs T / 8 <= w + 128 * U * / 16777216).
  { unfold w, Rdiv. split.
    - apply Rmult_le_compat_r; [lra|]. apply Rmult_le_compat_l; lra.
    - assert (dist o a * Rabs T <= dist o a * (d * T + 2 * unit_turn)) by (apply Rmult_le_compat_l; lra). assert (dist o a * unit_turn <= 3 * U * / 131072) by (apply Rmult_le_compat; lra). lra. }
  assert (WA : Rabs w <= 3 * U).
  { unfold w. rewrite Rabs_mult, Rabs_mult, (Rabs_pos_eq (/ 8)), (Rabs_pos_eq (dist o a)) by lra. assert (Rabs (d * T) <= 7) by (apply Rabs_le; lra).
    assert (dist o a * Rabs (d * T) <= 3 * U * 7) by (apply Rmult_le_compat; [lra|apply Rabs_pos|lra|lra]). lra. }
  assert (BG : Rabs (B2R g) <= 4 * U). { replace (B2R g) with (w + (B2R g - w)) by ring. apply Rle_trans with (1 := Rabs_triang _ _). lra. }
  rewrite (int_trunc g Fg ltac:(lra)) in H. set (n := Ztrunc (B2R g)) in *. destruct (make_ok n 16) eqn:MK; [|discriminate H].
  unfold make_ok in MK. apply andb_true_iff in MK as (N0 & _). apply Z.leb_le in N0.
  assert (LN : length ls = Z.to_nat n) by (apply Ok_inj in H; subst ls; now rewrite map_length, seq_length).
  assert (IN : INR (length ls) = IZR n) by (rewrite LN, INR_IZR_INZ, Z2Nat.id by exact N0; reflexivity).
  assert (NB : B2R g - 1 <= IZR n /\ (IZR n <= B2R g \/ n = 0%Z)).
  { destruct (Rle_or_lt 0 (B2R g)) as [P|P].
    - unfold n. rewrite Ztrunc_floor by exact P. split; [pose proof (Zfloor_ub (B2R g)); lra|left; apply Zfloor_lb].
    - split; [apply (IZR_le 0) in N0; lra|]. right. apply Z.le_antisymm; [|exact N0]. unfold n. rewrite <- (Ztrunc_IZR 0). apply Ztrunc_le. lra. }
  assert (N24 : (n <= 2 ^ 24)%Z). { apply le_IZR. apply Rabs_le_inv in BG. destruct NB as (_ & [L | ->]); [|change 0 with (IZR 0); apply IZR_le; lia]. change (IZR (2 ^ 24)) with 16777216. lra. }
  assert (DO : forall p, dist o p = sqrt ((px p - px o) * (px p - px o) + (py p - py o) * (py p - py o))) by reflexivity.
  destruct Al as (A1 & A2). rewrite <- DO in A1, A2. destruct Ac as (A3 & A4). rewrite <- DO in A3, A4.
  exists al, T. cbv zeta. unfold arc_x at 1, arc_y at 1. rewrite Rmult_0_l, Rplus_0_r. split; [lra|]. split; [lra|]. split; [lra|]. split; [lra|].
  fold unit_turn. split; [destruct HD as [-> | ->]; [left|right]; lra|]. rewrite IN.
  assert (EB : bpow radix2 (k - 14) = 1024 * U * / 16777216) by (replace (k - 14)%Z with (k + (-14))%Z by lia; rewrite bpow_plus; fold U; change (bpow radix2 (-14)) with (/ 16384); lra).
  split.
  { rewrite EB. apply Rabs_le_inv in DG. destruct NB as (NB1 & NB2). split; [lra|]. destruct NB2 as [L | ->]; [lra|].
    assert (0 <= dist o a * Rabs T / 8) by (apply Rle_mult_inv_pos; [apply Rmult_le_pos; [lra|apply Rabs_pos]|lra]). lra. }
  intros j l Hl. assert (HJ : (j < Z.to_nat n)%nat) by (rewrite <- LN; apply nth_error_Some; congruence).
  apply Ok_inj in H. subst ls. rewrite nth_error_map, (nth_error_nth' _ 0%nat) in Hl by (rewrite seq_length; exact HJ). rewrite seq_nth in Hl by exact HJ. cbn [option_map] in Hl. injection Hl as <-. cbn [ln_p1 ln_p2 Nat.add].
  rewrite S_INR, INR_IZR_INZ. rewrite <- plus_IZR. split; apply (point_on_arc k arc o (dist o a) al T d _ _ K HT Wo EO NR HD FD VD NSt NT); apply fraction_near; lia.
Qed.
End WithLibm.

(** The arc stays on one side of its chord. *)
Lemma arc_side o rho al T u : side (arc_x o rho al T 0) (arc_y o rho al T 0) (arc_x o rho al T 1) (arc_y o rho al T 1) (arc_x o rho al T u) (arc_y o rho al T u) =
  4 * (rho * rho) * (sin (T / 2) * sin (u * T / 2) * sin ((1 - u) * T / 2)).
Proof.
  unfold side, arc_x, arc_y. rewrite Rmult_0_l, Rplus_0_r, Rmult_1_l. set (g := al + T). set (f := al + u * T).
  transitivity (rho * rho * (sin (g - f) - sin (g - al) + sin (f - al))); [rewrite !sin_minus; ring|].
  set (p := u * T / 2). set (q := (1 - u) * T / 2). replace (T / 2) with (p + q) by (unfold p, q; field). replace (g - f) with (2 * q) by (unfold g, f, q; field).
  replace (f - al) with (2 * p) by (unfold f, p; field). replace (g - al) with (2 * (p + q)) by (unfold g, p, q; field). clearbody p q. clear g f.
  rewrite !sin_2a, sin_plus, cos_plus. pose proof (sin2_cos2 p) as P2. pose proof (sin2_cos2 q) as Q2. unfold Rsqr in *.
  replace (2 * sin q * cos q) with (2 * sin q * cos q * (sin p * sin p + cos p * cos p)) by (rewrite P2; ring). replace (2 * sin p * cos p) with (2 * sin p * cos p * (sin q * sin q + cos q * cos q)) by (rewrite Q2; ring). ring.
Qed.

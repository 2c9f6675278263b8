(** Properties C76 and C77: circular arcs. *)
From Coq Require Import Reals ZArith Lra Lia List Bool.
From Flocq Require Import Core BinarySingleNaN.
From Verif Require Import GoFloat Curves SpecCurves SpecArc BaseLemmas FloatLemmas Float32Lemmas KeyLemmas BoundLemmas CurveProofs CurveStart ArcProofs BezierTerm DistProofs LengthProofs NearLemmas ArcShape ArcCentre Parser PropTerm.
From Verif Require PropCurves.
Import ListNotations.
Open Scope R_scope.

Section WithLibm.
Context {M : libm}.
Lemma arc_ok fuel k a b c : (0 <= k <= 12)%Z -> atan2_near -> let o := arc_centre_of a b c in
  SpecCurves.within k a -> SpecCurves.within k b -> SpecCurves.within k c -> SpecCurves.within k o -> exists ls, approximate_arc (S fuel) a b c (gq 1 8) = Ok ls.
Proof.
  intros K HA o Wa Wb Wc Wo.
  assert (NO : exists arc, new_cirarc (S fuel) a b c = Ok arc).
  { pose proof (scale_pow k ltac:(lia)) as HU. assert (B127 : forall x y, Rabs x <= bpow radix2 k -> Rabs y <= bpow radix2 k -> Rabs (x - y) <= bpow radix2 127).
    { intros x y Bx By. apply small127. apply Rabs_le_inv in Bx, By. lra. }
    destruct Wa as ((Fax & Bax) & (Fay & Bay)), Wc as ((Fcx & Bcx) & (Fcy & Bcy)), Wo as ((Fox & Box) & (Foy & Boy)).
    destruct (angle_near o a HA Fox Foy Fax Fay (B127 _ _ Bax Box) (B127 _ _ Bay Boy)) as (_ & _ & _ & Ga).
    destruct (angle_near o c HA Fox Foy Fcx Fcy (B127 _ _ Bcx Box) (B127 _ _ Bcy Boy)) as (_ & _ & _ & Gg).
    pose proof (arc_wrap_ok (S fuel) _ _ Ga Gg) as W. unfold new_cirarc. cbv zeta. fold o. destruct (arc_wrap _ _ _); [cbn [bind]; eauto|contradiction|discriminate W]. }
  destruct NO as (arc & E). unfold approximate_arc. rewrite E. cbn [bind]. destruct (arc_unstable arc); [eauto|].
  destruct (arc_near (S fuel) k a b c arc ltac:(lia) HA Wa Wb Wc Wo E) as (al & T & d & HD & FD & VD & EO & ER & Al & Ac & NSt & NT & RT & SD). fold o in EO, ER.
  destruct (radius_near k o a ltac:(lia) Wa Wo) as (NR & PR). rewrite <- ER in NR. pose proof (scale_pow k ltac:(lia)) as HU. assert (HK : bpow radix2 k <= 4096) by (change 4096 with (bpow radix2 12); apply bpow_le; lia). set (U := bpow radix2 k) in *.
  assert (HU' : 1 <= U <= bpow radix2 100) by (split; [lra|]; apply Rle_trans with (1 := proj2 HU); change 1048576 with (bpow radix2 20); apply bpow_le; lia).
  pose proof (near_mul U HU' _ _ _ _ _ _ _ _ NR NT ltac:(lra) ltac:(lra) ltac:(lra) ltac:(lra)) as N1.
  destruct eighth_val as (F8 & V8). assert (N8 : NearLemmas.near 1 1 0 (gq 1 8) (/ 8)) by (rewrite <- V8; apply near_exact; [exact F8|]; rewrite V8; apply Rabs_le; lra).
  pose proof (near_mul U HU' _ _ _ _ _ _ _ _ N1 N8 ltac:(lra) ltac:(lra) ltac:(lra) ltac:(lra)) as (Fg & Bg & Dg). set (g := gmul (gmul (arc_r arc) (arc_total arc)) (gq 1 8)) in *. cbv zeta.
  unfold ulp24 in Dg. set (w := dist o a * (d * T) * / 8) in *.
  assert (RHO : dist o a <= 3 * U) by (destruct NR as (_ & B & _); rewrite Rabs_pos_eq in B by lra; exact B).
  assert (UT : 0 < unit_turn <= / 131072) by (unfold unit_turn; change (bpow radix2 (-17)) with (/ 131072); lra).
  assert (W1 : - (1 / 2) <= w <= 4 * U).
  { unfold w. assert (dist o a * - unit_turn <= dist o a * (d * T)) by (apply Rmult_le_compat_l; lra). assert (dist o a * unit_turn <= 3 * U * / 131072) by (apply Rmult_le_compat; lra).
    assert (dist o a * (d * T) <= dist o a * 7) by (apply Rmult_le_compat_l; [lra|]; pose proof pi_range; lra). lra. }
  apply Rabs_le_inv in Dg. assert (B : -1 < B2R g <= IZR 32768) by (change (IZR 32768) with 32768; lra).
  pose proof (int_of_g_ge g 32768 Fg B ltac:(lia)) as I. unfold make_ok. rewrite (proj2 (Z.leb_le 0 _)), (proj2 (Z.leb_le (_ * 16) (2 ^ 48))) by lia. cbn [andb]. eauto.
Qed.

(** C76.  A slider of type P with three points not on a line is drawn along
    the arc around the centre computed from them that starts at the first,
    ends in the direction of the third and turns to the side of the second. *)
Theorem C76_arc : forall fuel k a b c, (0 <= k <= 12)%Z -> trig_near -> atan2_near ->
  let o := arc_centre_of a b c in
  Forall (SpecCurves.within k) [a; b; c; o] -> is_straight a b c = false ->
  exists mc, new_multicurve (S fuel) (lit "P") [a; b; c] = Ok mc /\ follows_arc k o a b c (mc_lines mc).
Proof.
  intros fuel k a b c K HT HA o W NS. inversion W as [|? ? Wa W1]; subst. inversion W1 as [|? ? Wb W2]; subst. inversion W2 as [|? ? Wc W3]; subst. inversion W3 as [|? ? Wo _]; subst.
  destruct (arc_ok fuel k a b c K HA Wa Wb Wc Wo) as (ls & E). exists (finish_curve ls a). split.
  - unfold new_multicurve, curve_lines. change (str_eqb (lit "P") (lit "P")) with true. cbn iota. unfold process_perfect. rewrite NS, E. reflexivity.
  - apply (follow (S fuel) k a b c ls ltac:(lia) HT HA Wa Wb Wc Wo NS E).
Qed.
(** The arc of at most a full turn is on the side it turns to, all along. *)
Theorem C76_side : forall o rho al T u, 0 <= u <= 1 ->
  let s := side (arc_x o rho al T 0) (arc_y o rho al T 0) (arc_x o rho al T 1) (arc_y o rho al T 1) (arc_x o rho al T u) (arc_y o rho al T u) in
  (0 <= T <= 2 * PI -> 0 <= s) /\ (- (2 * PI) <= T <= 0 -> s <= 0).
Proof.
  intros o rho al T u Hu s. unfold s. rewrite arc_side. assert (R2 : 0 <= 4 * (rho * rho)) by (pose proof (Rle_0_sqr rho) as Q; unfold Rsqr in Q; lra).
  assert (SP : forall t v, 0 <= v <= 1 -> 0 <= t <= 2 * PI -> 0 <= sin (v * t / 2)). { intros t v Hv Ht. apply sin_ge_0; [apply Rle_mult_inv_pos; [apply Rmult_le_pos; lra|lra]|]. assert (v * t <= 1 * (2 * PI)) by (apply Rmult_le_compat; lra). lra. }
  assert (G : forall t, 0 <= t <= 2 * PI -> 0 <= sin (t / 2) * sin (u * t / 2) * sin ((1 - u) * t / 2)).
  { intros t Ht. apply Rmult_le_pos; [apply Rmult_le_pos|]; [rewrite <- (Rmult_1_l t); apply SP; lra|apply SP; lra|apply SP; lra]. }
  split; intros HT.
  - apply Rmult_le_pos; [exact R2|now apply G].
  - pose proof (G (- T) ltac:(lra)) as X. replace (- T / 2) with (- (T / 2)) in X by field. replace (u * - T / 2) with (- (u * T / 2)) in X by field. replace ((1 - u) * - T / 2) with (- ((1 - u) * T / 2)) in X by field. rewrite !sin_neg in X.
    assert (0 <= 4 * (rho * rho) * - (sin (T / 2) * sin (u * T / 2) * sin ((1 - u) * T / 2))) by (apply Rmult_le_pos; [exact R2|lra]). lra.
Qed.
(** An arc of a circle smaller than a pixel has no lines at all, and the slider does not move. *)
Theorem C76_small : forall k o a b c ls, (0 <= k <= 9)%Z -> follows_arc k o a b c ls -> dist o a <= 1 -> ls = [].
Proof.
  intros k o a b c ls K (al & T & H) R. cbv zeta in H. destruct H as (_ & _ & _ & _ & HT & (_ & HN) & _). pose proof pi_range as PR. change (bpow radix2 (-17)) with (/ 131072) in HT.
  assert (AT : Rabs T <= 7) by (apply Rabs_le; destruct HT as [(HT & _)|(HT & _)]; lra). assert (P : 0 <= dist o a) by apply sqrt_pos.
  assert (X : dist o a * Rabs T <= 1 * 7) by (apply Rmult_le_compat; [exact P|apply Rabs_pos|exact R|exact AT]).
  assert (E : bpow radix2 (k - 14) <= / 32) by (change (/ 32) with (bpow radix2 (-5)); apply bpow_le; lia).
  assert (L : INR (length ls) < 1) by lra. destruct ls as [|l ls]; [reflexivity|]. exfalso. cbn [length] in L. rewrite S_INR in L. pose proof (pos_INR (length ls)). lra.
Qed.
End WithLibm.

(** C77.  For points of whole coordinates up to 512 the centre is that of the
    circle through them, and they are equally far from it, up to an error that
    grows as the triangle gets flat. *)
Theorem C77_centre : forall a b c, whole 512 a -> whole 512 b -> whole 512 c -> area2 a b c <> 0 ->
  let o := arc_centre_of a b c in exists X Y, circumcentre a b c X Y /\ is_finite (vx o) = true /\ is_finite (vy o) = true /\
    Rabs (px o - X) <= 150 / area2 a b c + Rabs X * bpow radix2 (-22) /\ Rabs (py o - Y) <= 150 / area2 a b c + Rabs Y * bpow radix2 (-22).
Proof. intros a b c Wa Wb Wc A. apply centre_near; auto. intros E. apply A. unfold area2. rewrite E. apply Rabs_R0. Qed.
Theorem C77_equidistant : forall a b c, whole 512 a -> whole 512 b -> whole 512 c -> area2 a b c <> 0 ->
  let o := arc_centre_of a b c in exists X Y, circumcentre a b c X Y /\
    let e := 600 / area2 a b c + 2 * (Rabs X + Rabs Y) * bpow radix2 (-22) in
    Rabs (dist o b - dist o a) <= e /\ Rabs (dist o c - dist o a) <= e.
Proof. intros a b c Wa Wb Wc A. apply equidistant; auto. intros E. apply A. unfold area2. rewrite E. apply Rabs_R0. Qed.

(** ** Instances *)
(** sin, cos and atan2 as they should be *)
Definition to_f (r : R) : f64 := binary_normalize 53 1024 eq_refl eq_refl mode_NE (Zfloor (r * bpow radix2 60)) (-60) false.
Lemma to_f_near r : Rabs r <= 4 -> is_finite (to_f r) = true /\ Rabs (B2R (to_f r) - r) <= bpow radix2 (-40).
Proof.
  intros H. unfold to_f. set (m := Zfloor (r * bpow radix2 60)). assert (P60 : bpow radix2 60 = 1152921504606846976) by reflexivity.
  assert (V : F2R (Float radix2 m (-60)) = IZR m * / 1152921504606846976) by reflexivity.
  assert (D : Rabs (F2R (Float radix2 m (-60)) - r) <= / 1152921504606846976).
  { rewrite V. pose proof (Zfloor_lb (r * bpow radix2 60)) as L. pose proof (Zfloor_ub (r * bpow radix2 60)) as U. fold m in L, U. rewrite P60 in L, U. apply Rabs_le. lra. }
  set (x := F2R _) in *. assert (B : Rabs x <= bpow radix2 3). { change (bpow radix2 3) with 8. apply Rabs_le_inv in D. apply Rabs_le_inv in H. apply Rabs_le. lra. }
  pose proof (binary_normalize_correct 53 1024 eq_refl eq_refl mode_NE m (-60) false) as C. fold x in C. cbv zeta in C.
  assert (RB : Rabs (rnd64 x) <= bpow radix2 3) by (apply (rnd_bound 53 1024 _ 3); [unfold SpecFloat.emin; lia|exact B]).
  change (round radix2 (SpecFloat.fexp 53 1024) (round_mode mode_NE) x) with (rnd64 x) in C.
  rewrite Rlt_bool_true in C by (apply Rle_lt_trans with (1 := RB), bpow_lt; lia). destruct C as (C1 & C2 & _). split; [exact C2|]. rewrite C1.
  assert (E : Rabs (rnd64 x - x) <= / 2 * bpow radix2 (-48)).
  { apply Rle_trans with (1 := error_le_half_ulp radix2 (SpecFloat.fexp 53 1024) (fun x => negb (Z.even x)) x). apply Rmult_le_compat_l; [lra|].
    apply Rle_trans with (ulp radix2 (SpecFloat.fexp 53 1024) (bpow radix2 3)); [apply ulp_le; [typeclasses eauto|typeclasses eauto|now rewrite (Rabs_pos_eq (bpow _ _)) by apply bpow_ge_0]|]. rewrite ulp_bpow. apply bpow_le. unfold SpecFloat.fexp, SpecFloat.emin. lia. }
  change (bpow radix2 (-48)) with (/ 281474976710656) in E. change (bpow radix2 (-40)) with (/ 1099511627776).
  replace (rnd64 x - r) with ((rnd64 x - x) + (x - r)) by ring. apply Rle_trans with (1 := Rabs_triang _ _). lra.
Qed.
Definition direction (x y : R) : R := let t := acos (x / sqrt (x * x + y * y)) in if Rle_dec 0 y then t else - t.
Definition ideal_libm : libm := {| mpow := fun _ _ => fq 1 1; mlog10 := fun _ => fq 0 1; mcbrt := fun x => x;
  msin := fun x => to_f (sin (B2R x)); mcos := fun x => to_f (cos (B2R x)); macos := fun x => to_f (acos (B2R x)); matan2 := fun y x => to_f (direction (B2R x) (B2R y)) |}.
Lemma direction_of x y : - PI <= direction x y <= PI /\ angle_of x y (direction x y).
Proof.
  unfold direction, angle_of. cbv zeta. fold (nrm x y). pose proof (nrm_pos x y) as P. pose proof (nrm_sq x y) as Q. pose proof (nrm_ge_l x y) as GX. set (h := nrm x y) in *. set (q := x / h).
  pose proof (acos_bound q) as AB. pose proof PI_RGT_0. split; [destruct (Rle_dec 0 y); lra|].
  destruct (Req_dec h 0) as [Z|Z]. { assert (x = 0 /\ y = 0) as (-> & ->) by (rewrite Z in Q; split; nra). rewrite Z. split; ring. }
  assert (QB : -1 <= q <= 1). { apply Rabs_le_inv. unfold q, Rdiv. rewrite Rabs_mult, (Rabs_pos_eq (/ h)) by (apply Rlt_le, Rinv_0_lt_compat; lra). apply Rmult_le_reg_r with h; [lra|]. rewrite Rmult_assoc, Rinv_l by lra. lra. }
  assert (C : h * cos (acos q) = x) by (rewrite cos_acos by exact QB; unfold q; field; exact Z).
  assert (S : h * sin (acos q) = Rabs y).
  { rewrite sin_acos by exact QB. rewrite <- (sqrt_square h) at 1 by exact P. rewrite <- sqrt_mult_alt by (apply Rle_0_sqr). rewrite <- (sqrt_Rsqr_abs y). f_equal. unfold Rsqr, q. field_simplify; [|exact Z]. nra. }
  destruct (Rle_dec 0 y) as [Y|Y]; [rewrite Rabs_pos_eq in S by exact Y; tauto|]. rewrite cos_neg, sin_neg. split; [exact C|]. rewrite Rabs_left in S by lra. lra.
Qed.
Lemma ideal_trig : @trig_near ideal_libm.
Proof.
  intros x F _. split; cbn [mcos msin ideal_libm]; apply to_f_near; apply Rabs_le; [pose proof (COS_bound (B2R x))|pose proof (SIN_bound (B2R x))]; lra.
Qed.
Lemma ideal_atan2 : @atan2_near ideal_libm.
Proof.
  intros y x _ _. cbn [matan2 ideal_libm]. destruct (direction_of (B2R x) (B2R y)) as (B & A). destruct (to_f_near (direction (B2R x) (B2R y))) as (F & D); [apply Rabs_le; pose proof pi_range; lra|].
  split; [exact F|]. exists (direction (B2R x) (B2R y)). auto.
Qed.
(** half a circle over a whole-pixel chord, turning to the side of its second point; and the same backwards *)
Local Notation pt := PropCurves.pt.
Example C76_instance : @trig_near ideal_libm /\ @atan2_near ideal_libm /\
  (let o := arc_centre_of (pt 0 0) (pt 50 50) (pt 100 0) in Forall (SpecCurves.within 12) [pt 0 0; pt 50 50; pt 100 0; o] /\ is_straight (pt 0 0) (pt 50 50) (pt 100 0) = false) /\
  exists mc, @new_multicurve ideal_libm 1 (lit "P") [pt 0 0; pt 50 50; pt 100 0] = Ok mc /\ follows_arc 12 (arc_centre_of (pt 0 0) (pt 50 50) (pt 100 0)) (pt 0 0) (pt 50 50) (pt 100 0) (mc_lines mc).
Proof.
  split; [apply ideal_trig|]. split; [apply ideal_atan2|].
  assert (W : Forall (SpecCurves.within 12) [pt 0 0; pt 50 50; pt 100 0; arc_centre_of (pt 0 0) (pt 50 50) (pt 100 0)]) by (apply inside_ok; vm_compute; reflexivity).
  assert (N : is_straight (pt 0 0) (pt 50 50) (pt 100 0) = false) by (vm_compute; reflexivity). cbv zeta. split; [split; [exact W|exact N]|].
  apply (@C76_arc ideal_libm 0 12); [lia|apply ideal_trig|apply ideal_atan2|exact W|exact N].
Qed.
Lemma whole_pt x y : (Z.abs x <= 512)%Z -> (Z.abs y <= 512)%Z -> whole 512 (pt x y).
Proof. intros X Y. destruct (gq1_exact x ltac:(lia)) as (Fx & Vx). destruct (gq1_exact y ltac:(lia)) as (Fy & Vy). split; [exact Fx|]. split; [exact Fy|]. exists x, y. auto. Qed.
(** an error of at most 150 / 5000 px, plus 50 * 2^-22 *)
Example C77_instance : whole 512 (pt 0 0) /\ whole 512 (pt 50 50) /\ whole 512 (pt 100 0) /\ area2 (pt 0 0) (pt 50 50) (pt 100 0) = 5000.
Proof.
  split; [apply whole_pt; lia|]. split; [apply whole_pt; lia|]. split; [apply whole_pt; lia|]. unfold area2, side, px, py, pt. cbn [vx vy].
  destruct (gq1_exact 0 ltac:(lia)) as (_ & ->). destruct (gq1_exact 50 ltac:(lia)) as (_ & ->). destruct (gq1_exact 100 ltac:(lia)) as (_ & ->). unfold Rabs. destruct (Rcase_abs _); lra.
Qed.

Print Assumptions C76_arc.
Print Assumptions C76_side.
Print Assumptions C76_small.
Print Assumptions C77_centre.
Print Assumptions C77_equidistant.

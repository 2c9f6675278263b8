(** C96: the remaining functions of the API. *)
From Coq Require Import Reals Lra ZArith Lia Bool Ascii String List.
From Flocq Require Import Raux Zaux Core BinarySingleNaN.
From Verif Require Import Helpers Mods Timing SpecCurves SpecArc SpecShape SpecCurveApi SpecMods SpecApi BaseLemmas FloatLemmas Float32Lemmas KeyLemmas BoundLemmas SortLemmas NearLemmas CurveStart ArcProofs ArcShape CatmullProofs CurveApiProofs ModsProofs VectorProofs ApiProofs PropCurves PropTerm PropArc PropVector PropCurveApi.
Import ListNotations.
Open Scope R_scope.
Local Notation pt := PropCurves.pt.

(** C96.  Vectors are added, subtracted and multiplied by component, with one rounding each. *)
Theorem C96_components : forall k v x y, (-60 <= k <= 63)%Z -> SpecCurves.within k v -> SpecCurves.within k (mkVec x y) ->
  close (bpow radix2 (k - 23)) (vadds v x y) (px v + B2R x) (py v + B2R y) /\
  close (bpow radix2 (k - 23)) (vsubs v x y) (px v - B2R x) (py v - B2R y) /\
  close (bpow radix2 (2 * k - 24)) (vmult v (mkVec x y)) (px v * B2R x) (py v * B2R y).
Proof.
  intros k v x y K ((F1 & B1) & (F2 & B2)) ((F3 & B3) & (F4 & B4)). cbn [vx vy] in *.
  assert (D : bpow radix2 (k + 1) = bpow radix2 k + bpow radix2 k) by (rewrite bpow_plus; change (bpow radix2 1) with 2; ring).
  assert (L : bpow radix2 (k + 1) <= bpow radix2 127) by (apply bpow_le; lia). assert (L2 : bpow radix2 (2 * k) <= bpow radix2 127) by (apply bpow_le; lia).
  assert (A : forall a b : f32, fin a -> fin b -> Rabs (B2R a) <= bpow radix2 k -> Rabs (B2R b) <= bpow radix2 k ->
    (is_finite (gadd a b) = true /\ Rabs (B2R (gadd a b) - (B2R a + B2R b)) <= bpow radix2 (k - 23)) /\ (is_finite (gsub a b) = true /\ Rabs (B2R (gsub a b) - (B2R a - B2R b)) <= bpow radix2 (k - 23)) /\
    (is_finite (gmul a b) = true /\ Rabs (B2R (gmul a b) - B2R a * B2R b) <= bpow radix2 (2 * k - 24))).
  { intros a b Fa Fb Ba Bb. assert (S1 : Rabs (B2R a + B2R b) <= bpow radix2 (k + 1)) by (rewrite D; apply Rle_trans with (1 := Rabs_triang _ _); lra).
    assert (S2 : Rabs (B2R a - B2R b) <= bpow radix2 (k + 1)) by (rewrite D; unfold Rminus; apply Rle_trans with (1 := Rabs_triang _ _); rewrite Rabs_Ropp; lra).
    assert (S3 : Rabs (B2R a * B2R b) <= bpow radix2 (2 * k)) by (rewrite Rabs_mult; replace (2 * k)%Z with (k + k)%Z by lia; rewrite bpow_plus; apply Rmult_le_compat; try apply Rabs_pos; assumption).
    destruct (gadd_fin a b Fa Fb ltac:(lra)) as (G1 & E1). destruct (gsub_fin a b Fa Fb ltac:(lra)) as (G2 & E2). destruct (gmul_fin a b Fa Fb ltac:(lra)) as (G3 & E3). rewrite E1, E2, E3.
    replace (k - 23)%Z with (k + 1 - 24)%Z by lia. split; [split; [exact G1|]|split; [split; [exact G2|]|split; [exact G3|]]]; apply ArcProofs.rnd32_err; try lia; assumption. }
  destruct (A _ _ F1 F3 B1 B3) as ((P1 & P2) & (P3 & P4) & (P5 & P6)). destruct (A _ _ F2 F4 B2 B4) as ((Q1 & Q2) & (Q3 & Q4) & (Q5 & Q6)).
  split; [|split]; (split; [assumption|split; [assumption|split; assumption]]).
Qed.
(** Abs takes the absolute values, exactly. *)
Theorem C96_abs : forall v, finite_point v -> finite_point (vabs v) /\ px (vabs v) = Rabs (px v) /\ py (vabs v) = Rabs (py v).
Proof.
  intros v (F1 & F2). destruct (gabs_exact _ F1) as (G1 & V1). destruct (gabs_exact _ F2) as (G2 & V2). split; [split; assumption|]. split; assumption.
Qed.

(** Mod is the remainder of the truncated division, without any rounding. *)
Theorem C96_mod : forall a b, is_finite a = true -> is_finite b = true -> B2R b <> 0 ->
  is_finite (gmod a b) = true /\ (exists n, B2R (gmod a b) = B2R a - IZR n * B2R b) /\ Rabs (B2R (gmod a b)) < Rabs (B2R b) /\ 0 <= B2R (gmod a b) * B2R a.
Proof.
  intros a b Fa Fb N. destruct (gmod_exact a b Fa Fb N) as (F & V). destruct (rem_bound (B2R a) (B2R b) N) as (L & _ & S). split; [exact F|]. rewrite V. split; [eexists; reflexivity|]. split; assumption.
Qed.
(** By zero, and of an infinity, it is NaN. *)
Theorem C96_mod_nan : forall a s, is_nan (gmod a (B754_zero s)) = true /\ forall t, is_nan (gmod (B754_infinity t) a) = true.
Proof.
  intros a s. split; [|intros t]; unfold gmod; cbn [f_of_g].
  - destruct (f_of_g a); reflexivity.
  - destruct (f_of_g a); reflexivity.
Qed.

Section WithLibm.
Context {M : libm}.
(** AngleR is the angle of the vector, and Angle the same in degrees. *)
Theorem C96_angle : atan2_near -> forall v, finite_point v -> is_finite (vangle_r v) = true /\ exists t, - PI <= t <= PI /\ angle_of (px v) (py v) t /\ Rabs (B2R (vangle_r v) - t) <= bpow radix2 (-21) /\
  is_finite (vangle v) = true /\ Rabs (B2R (vangle v) - t * 180 / PI) <= / 10000.
Proof. intros A v F. now apply ApiProofs.direction. Qed.

(** A line's start angle is where its start is seen from its end, and its end angle the other way round. *)
Theorem C96_line_angles : atan2_near -> forall k a b, (k <= 126)%Z -> SpecCurves.within k a -> SpecCurves.within k b -> sighted a b (ln_start_angle (mkLinear a b)) /\ sighted b a (ln_end_angle (mkLinear a b)).
Proof.
  intros A k a b K ((F1 & B1) & (F2 & B2)) ((F3 & B3) & (F4 & B4)).
  split; apply sight; try exact A; try (split; assumption); apply (within_diff _ _ k); assumption.
Qed.

Lemma close_diff k e (p q : vec) x y : (0 <= k <= 100)%Z -> SpecCurves.within k p -> close e q x y -> e <= bpow radix2 k -> Rabs x <= bpow radix2 (k + 4) -> Rabs y <= bpow radix2 (k + 4) ->
  Rabs (px p - px q) <= bpow radix2 127 /\ Rabs (py p - py q) <= bpow radix2 127.
Proof.
  intros K ((_ & B1) & (_ & B2)) (_ & _ & D1 & D2) E X Y. fold (px p) in B1. fold (py p) in B2. rewrite bpow_plus in X, Y. change (bpow radix2 4) with 16 in X, Y.
  assert (L : 32 * bpow radix2 k <= bpow radix2 127) by (replace 32 with (bpow radix2 5) by reflexivity; rewrite <- bpow_plus; apply bpow_le; lia).
  set (U := bpow radix2 k) in *. clearbody U. apply Rabs_le_inv in B1, B2, D1, D2, X, Y. split; apply Rabs_le; lra.
Qed.
Lemma casteljau_bound k l t : Forall (fun x => Rabs x <= bpow radix2 k) l -> 0 <= t <= 1 -> l <> [] -> Rabs (casteljau l t) <= bpow radix2 (k + 4).
Proof.
  intros F T N. apply Rle_trans with (bpow radix2 k); [|apply bpow_le; lia]. destruct (C93_casteljau l N) as (_ & _ & H). apply Rabs_le, H; [exact T|]. apply Forall_impl with (2 := F). intros x. apply Rabs_le_inv.
Qed.
Lemma inverse_close L P e : 1 <= L -> 1 <= P -> Rabs (L - P) <= e -> Rabs (1 / L - 1 / P) <= e.
Proof.
  intros A B D. replace (1 / L - 1 / P) with ((P - L) * (/ L * / P)) by (field; lra). rewrite Rabs_mult, <- Rabs_Ropp. replace (- (P - L)) with (L - P) by ring.
  assert (I : forall z, 1 <= z -> 0 < / z <= 1). { intros z Z. split; [apply Rinv_0_lt_compat; lra|]. rewrite <- Rinv_1. apply Rinv_le_contravar; lra. }
  pose proof (I L A). pose proof (I P B). assert (Q : 0 <= / L * / P <= 1) by (split; [apply Rmult_le_pos; lra|rewrite <- (Rmult_1_l 1); apply Rmult_le_compat; lra]).
  rewrite (Rabs_pos_eq (/ L * / P)) by lra. rewrite <- (Rmult_1_r e). apply Rmult_le_compat; try apply Rabs_pos; lra.
Qed.
(** A Bezier curve's start angle is where its start is seen from the point one
    pixel of its control polygon further on, and its end angle where its end is
    seen from one pixel before. *)
Theorem C96_bezier_angles : pow_small -> atan2_near -> forall k pts bz, (0 <= k <= 20)%Z -> (1 <= length pts <= 4)%nat -> Forall (SpecCurves.within k) pts -> new_bezier pts = Ok bz ->
  1 + bpow radix2 (k - 15) <= polygon pts -> exists al be u v q r p0 p1, bz_start_angle bz = Ok al /\ bz_end_angle bz = Ok be /\ nth_error pts 0 = Some p0 /\ nth_error pts (length pts - 1) = Some p1 /\
  0 <= u <= 1 /\ Rabs (u - 1 / polygon pts) <= bpow radix2 (k - 14) /\ close (bpow radix2 (k - 16)) q (casteljau (map px pts) u) (casteljau (map py pts) u) /\ sighted p0 q al /\
  0 <= v <= 1 /\ Rabs (v - (1 - 1 / polygon pts)) <= bpow radix2 (k - 14) /\ close (bpow radix2 (k - 16)) r (casteljau (map px pts) v) (casteljau (map py pts) v) /\ sighted p1 r be.
Proof.
  intros P A k pts bz K LN W H LP. destruct (control_near k pts K ltac:(lia) W) as (FL & DL). unfold new_bezier, calculate_length in H. cbn [new_bezier_na bz_points bz_control] in H.
  assert (HB : bz_points bz = pts /\ bz_control bz = control_length pts). { destruct pts; [discriminate H|]. apply Ok_inj in H. subst bz. split; reflexivity. } destruct HB as (HB1 & HB2). clear H. unfold bz_start_angle, bz_end_angle. rewrite HB1, HB2. clear HB1 HB2 bz.
  set (L := control_length pts) in *. clearbody L. set (T := polygon pts) in *. clearbody T. pose proof (bpow_gt_0 radix2 (k - 15)) as E0.
  assert (L1 : 1 <= B2R L) by (apply Rabs_le_inv in DL; lra). assert (IC : Rabs (1 / B2R L - 1 / T) <= bpow radix2 (k - 15)) by (apply inverse_close; [exact L1|lra|exact DL]).
  assert (ED : bpow radix2 (k - 14) = bpow radix2 (k - 15) + bpow radix2 (k - 15)) by (replace (k - 14)%Z with (k - 15 + 1)%Z by lia; rewrite bpow_plus; change (bpow radix2 1) with 2; ring).
  assert (E23 : bpow radix2 (-24) <= bpow radix2 (k - 15) /\ bpow radix2 (-23) <= bpow radix2 (k - 15)) by (split; apply bpow_le; lia).
  destruct (first_pixel L FL L1) as (Fu & Bu & Du). destruct (last_pixel L FL L1) as (Fv & Bv & Dv). set (u := gdiv (gq 1 1) L) in *. set (v := gsub (gq 1 1) u) in *. clearbody v. clearbody u.
  assert (NE : map px pts <> [] /\ map py pts <> []) by (destruct pts; [cbn in LN; lia|split; discriminate]).
  assert (WX : Forall (fun x => Rabs x <= bpow radix2 k) (map px pts) /\ Forall (fun x => Rabs x <= bpow radix2 k) (map py pts)). { clear -W. split; apply Forall_map; apply Forall_impl with (2 := W); intros p ((_ & B1) & (_ & B2)); assumption. }
  assert (PT : forall t p, fin t -> 0 <= B2R t <= 1 -> In p pts -> close (bpow radix2 (k - 16)) (bezier_point_at pts t) (casteljau (map px pts) (B2R t)) (casteljau (map py pts) (B2R t)) /\ sighted p (bezier_point_at pts t) (vangle_rv p (bezier_point_at pts t))).
  { intros t p Ft Bt I. pose proof (C93_bezier_point P k pts t ltac:(lia) LN W Ft Bt) as C. split; [exact C|]. rewrite Forall_forall in W. pose proof (W p I) as Wp.
    destruct (close_diff k _ p _ _ _ ltac:(lia) Wp C) as (X1 & X2); [apply bpow_le; lia|apply casteljau_bound; [apply WX|exact Bt|apply NE]|apply casteljau_bound; [apply WX|exact Bt|apply NE]|].
    apply sight; [exact A|split; apply Wp|split; apply C|exact X1|exact X2]. }
  destruct pts as [|p0 rest]; [cbn in LN; lia|]. destruct (exists_last (l := p0 :: rest) ltac:(discriminate)) as (ini & p1 & EL).
  assert (N1 : nth_error (p0 :: rest) (length (p0 :: rest) - 1) = Some p1). { rewrite EL, app_length. cbn [length]. rewrite nth_error_app2 by lia. replace (length ini + 1 - 1 - length ini)%nat with 0%nat by lia. reflexivity. }
  assert (RV : rev (p0 :: rest) = p1 :: rev ini) by (rewrite EL; apply rev_unit). rewrite RV.
  destruct (PT u p0 Fu Bu (or_introl eq_refl)) as (C1 & S1). destruct (PT v p1 Fv Bv (nth_error_In _ _ N1)) as (C2 & S2).
  eexists. eexists. exists (B2R u), (B2R v). eexists. eexists. exists p0, p1. split; [exact eq_refl|]. split; [exact eq_refl|]. split; [reflexivity|]. split; [exact N1|].
  split; [exact Bu|]. split. { replace (B2R u - 1 / T) with ((B2R u - 1 / B2R L) + (1 / B2R L - 1 / T)) by ring. apply Rle_trans with (1 := Rabs_triang _ _). lra. }
  split; [exact C1|]. split; [exact S1|]. split; [exact Bv|]. split. { replace (B2R v - (1 - 1 / T)) with ((B2R v - (1 - 1 / B2R L)) + - (1 / B2R L - 1 / T)) by ring. apply Rle_trans with (1 := Rabs_triang _ _). rewrite Rabs_Ropp. lra. }
  split; [exact C2|exact S2].
Qed.

(** So are a Catmull-Rom curve's, but from its first and last points, which the
    curve does not pass through (see C93_start_angle_refuted). *)
Theorem C96_catmull_angles : atan2_near -> forall k a b c d cm, (0 <= k <= 100)%Z -> Forall (SpecCurves.within k) [a; b; c; d] -> new_catmull [a; b; c; d] = Ok cm ->
  is_finite (cm_length cm) = true -> 1 <= B2R (cm_length cm) <= bpow radix2 100 -> exists al be u v q r, cm_start_angle cm = Ok al /\ cm_end_angle cm = Ok be /\
  0 <= u <= 1 /\ Rabs (u - 1 / B2R (cm_length cm)) <= bpow radix2 (-24) /\ on_spline k a b c d u q /\ sighted a q al /\
  0 <= v <= 1 /\ Rabs (v - (1 - 1 / B2R (cm_length cm))) <= bpow radix2 (-23) /\ on_spline k a b c d v r /\ sighted d r be.
Proof.
  intros A k a b c d cm K W H FL BL. destruct (C93_catmull [a; b; c; d]) as (_ & C). destruct (C a b c d eq_refl) as (cm' & H' & _ & SP). assert (E : cm' = cm) by (rewrite H in H'; apply Ok_inj in H'; now symmetry). subst cm'. clear H' C.
  assert (CP : cm_points cm = [a; b; c; d]) by (apply Ok_inj in H; subst cm; reflexivity). clear H.
  destruct (first_pixel _ FL (proj1 BL)) as (Fu & Bu & Du). destruct (last_fraction _ FL BL) as (Fv & Bv & Dv). unfold cm_start_angle, cm_end_angle. rewrite CP. cbn [rev app].
  set (L := cm_length cm) in *. clearbody L. set (u := gdiv (gq 1 1) L) in *. set (v := gdiv (gsub L (gq 1 1)) L) in *. clearbody u v.
  destruct (SP k u K W Fu Bu) as (q & Eq & Sq). destruct (SP k v K W Fv Bv) as (r & Er & Sr). rewrite Eq, Er. cbn [bind]. do 2 eexists. exists (B2R u), (B2R v), q, r.
  split; [exact eq_refl|]. split; [exact eq_refl|]. split; [exact Bu|]. split; [exact Du|]. split; [exact Sq|].
  assert (SB : forall t, 0 <= t <= 1 -> forall w x y z, Rabs w <= bpow radix2 k -> Rabs x <= bpow radix2 k -> Rabs y <= bpow radix2 k -> Rabs z <= bpow radix2 k -> Rabs (spline w x y z t) <= bpow radix2 (k + 4)).
  { intros t T w x y z X1 X2 X3 X4. rewrite bpow_plus. change (bpow radix2 4) with 16. pose proof (bpow_gt_0 radix2 k) as U0. set (U := bpow radix2 k) in *. clearbody U. unfold spline.
    assert (T2 : 0 <= t * t <= 1) by (split; [apply Rmult_le_pos; lra|rewrite <- (Rmult_1_l 1); apply Rmult_le_compat; lra]). assert (T3 : 0 <= t * t * t <= 1) by (split; [apply Rmult_le_pos; lra|rewrite <- (Rmult_1_l 1); apply Rmult_le_compat; lra]).
    assert (MM : forall s h, 0 <= s <= 1 -> Rabs h <= U -> - U <= h * s <= U). { intros s h S H. apply Rabs_le_inv. rewrite Rabs_mult, (Rabs_pos_eq s) by lra. rewrite <- (Rmult_1_r U). apply Rmult_le_compat; try apply Rabs_pos; lra. }
    pose proof (MM t w T X1). pose proof (MM _ w T2 X1). pose proof (MM _ w T3 X1). pose proof (MM t x T X2). pose proof (MM _ x T2 X2). pose proof (MM _ x T3 X2). pose proof (MM t y T X3). pose proof (MM _ y T2 X3). pose proof (MM _ y T3 X3). pose proof (MM t z T X4). pose proof (MM _ z T2 X4). pose proof (MM _ z T3 X4). apply Rabs_le_inv in X1, X2, X3, X4. apply Rabs_le. split; lra. }
  assert (WW := W). rewrite Forall_forall in WW.
  assert (BX : forall p, In p [a; b; c; d] -> Rabs (px p) <= bpow radix2 k /\ Rabs (py p) <= bpow radix2 k) by (intros p I; destruct (WW p I) as ((_ & X) & (_ & Y)); split; assumption).
  assert (SI : forall p t z, In p [a; b; c; d] -> 0 <= t <= 1 -> on_spline k a b c d t z -> sighted p z (vangle_rv p z)).
  { intros p t z I T (F1 & F2 & D1 & D2). assert (CL : close (bpow radix2 (k - 16)) z (spline (px a) (px b) (px c) (px d) t) (spline (py a) (py b) (py c) (py d) t)) by (split; [exact F1|split; [exact F2|split; [exact D1|exact D2]]]).
    assert (Ia : In a [a; b; c; d]) by (left; reflexivity). assert (Ib : In b [a; b; c; d]) by (right; left; reflexivity). assert (Ic : In c [a; b; c; d]) by (right; right; left; reflexivity). assert (Id : In d [a; b; c; d]) by (right; right; right; left; reflexivity).
    destruct (close_diff k _ p _ _ _ ltac:(lia) (WW p I) CL) as (X1 & X2); [apply bpow_le; lia|apply (SB t T); apply BX; assumption|apply (SB t T); apply BX; assumption|].
    apply sight; [exact A|split; apply (WW p I)|split; assumption|exact X1|exact X2]. }
  split; [apply (SI a (B2R u)); [left; reflexivity|exact Bu|exact Sq]|]. split; [exact Bv|]. split; [exact Dv|]. split; [exact Sr|].
  apply (SI d (B2R v)); [right; right; right; left; reflexivity|exact Bv|exact Sr].
Qed.

(** And those of an arc, one pixel along the arc from its ends. *)
Theorem C96_arc_angles : trig_near -> atan2_near -> forall fuel k a b c arc, (0 <= k <= 20)%Z -> let o := arc_centre_of a b c in
  Forall (SpecCurves.within k) [a; b; c; o] -> new_cirarc fuel a b c = Ok arc -> let rho := dist o a in
  exists al T, angle_of (px a - px o) (py a - py o) al /\ angle_of (px c - px o) (py c - py o) (al + T) /\ Rabs T <= 2 * PI + bpow radix2 (-17) /\
  Rabs (B2R (arc_length arc) - rho * Rabs T) <= bpow radix2 (k - 13) /\
  (1 + bpow radix2 (k - 13) <= rho * Rabs T -> exists u v q r,
    0 <= u <= 1 /\ Rabs (u - 1 / (rho * Rabs T)) <= bpow radix2 (k - 12) /\ close (bpow radix2 (k - 14)) q (arc_x o rho al T u) (arc_y o rho al T u) /\ sighted a q (arc_start_angle a arc) /\
    0 <= v <= 1 /\ Rabs (v - (1 - 1 / (rho * Rabs T))) <= bpow radix2 (k - 12) /\ close (bpow radix2 (k - 14)) r (arc_x o rho al T v) (arc_y o rho al T v) /\ sighted c r (arc_end_angle c arc)).
Proof.
  intros HT HA fuel k a b c arc K o W E rho. inversion W as [|? ? Wa W1]; subst. inversion W1 as [|? ? Wb W2]; subst. inversion W2 as [|? ? Wc W3]; subst. inversion W3 as [|? ? Wo _]; subst.
  destruct (arc_near fuel k a b c arc K HA Wa Wb Wc Wo E) as (al & T & d & HD & FD & VD & EO & ER & Al & Ac & NSt & NT & RT & SD). fold o in EO, ER, Al, Ac.
  destruct (radius_near k o a K Wa Wo) as (NR & PR). rewrite <- ER in NR. fold rho in NR, PR. pose proof (scale_pow k K) as HU. set (U := bpow radix2 k) in *.
  assert (HU' : 1 <= U <= bpow radix2 100) by (split; [lra|]; apply Rle_trans with (1 := proj2 HU); change 1048576 with (bpow radix2 20); apply bpow_le; lia).
  pose proof (near_mul U HU' _ _ _ _ _ _ _ _ NR NT ltac:(lra) ltac:(lra) ltac:(lra) ltac:(lra)) as N1. fold (arc_length arc) in N1. destruct N1 as (FL & _ & DL).
  assert (UT : 0 < unit_turn <= / 131072) by (unfold unit_turn; change (bpow radix2 (-17)) with (/ 131072); lra). pose proof pi_range as PI2.
  assert (AT : d * T <= Rabs T <= d * T + 2 * unit_turn). { destruct HD as [-> | ->]; unfold Rabs; destruct (Rcase_abs T); lra. }
  assert (RHO : rho <= 3 * U) by (destruct NR as (_ & B & _); rewrite Rabs_pos_eq in B by lra; exact B).
  assert (TB : Rabs T <= 2 * PI + bpow radix2 (-17)). { fold unit_turn. destruct HD as [-> | ->]; unfold Rabs; destruct (Rcase_abs T); lra. }
  assert (E13 : bpow radix2 (k - 13) = 2048 * U * / 16777216) by (replace (k - 13)%Z with (k + (-13))%Z by lia; rewrite bpow_plus; fold U; change (bpow radix2 (-13)) with (/ 8192); lra).
  assert (DL' : Rabs (B2R (arc_length arc) - rho * Rabs T) <= bpow radix2 (k - 13)).
  { rewrite E13. unfold ulp24 in DL. assert (X : 0 <= rho * Rabs T - rho * (d * T) <= 6 * U * / 131072). { replace (rho * Rabs T - rho * (d * T)) with (rho * (Rabs T - d * T)) by ring. split; [apply Rmult_le_pos; lra|]. replace (6 * U * / 131072) with (3 * U * (2 * / 131072)) by ring. apply Rmult_le_compat; lra. }
    apply Rabs_le_inv in DL. apply Rabs_le. lra. }
  exists al, T. split; [exact Al|]. split; [exact Ac|]. split; [exact TB|]. split; [exact DL'|]. intros LB. pose proof (bpow_gt_0 radix2 (k - 13)) as E0.
  set (L := arc_length arc) in *. assert (BL : B2R L <= bpow radix2 100). { apply Rabs_le_inv in DL'. assert (rho * Rabs T <= 3 * U * 7) by (apply Rmult_le_compat; try apply Rabs_pos; try lra; apply Rle_trans with (1 := TB); fold unit_turn; lra). apply Rle_trans with (bpow radix2 26); [|apply bpow_le; lia]. change (bpow radix2 26) with 67108864. lra. }
  set (P := rho * Rabs T) in *. assert (L1 : 1 <= B2R L) by (apply Rabs_le_inv in DL'; lra). assert (IC : Rabs (1 / B2R L - 1 / P) <= bpow radix2 (k - 13)) by (apply inverse_close; [exact L1|lra|exact DL']).
  assert (ED : bpow radix2 (k - 12) = bpow radix2 (k - 13) + bpow radix2 (k - 13)) by (replace (k - 12)%Z with (k - 13 + 1)%Z by lia; rewrite bpow_plus; change (bpow radix2 1) with 2; ring).
  assert (E23 : bpow radix2 (-24) <= bpow radix2 (k - 13) /\ bpow radix2 (-23) <= bpow radix2 (k - 13)) by (split; apply bpow_le; lia).
  destruct (first_pixel L FL L1) as (Fu & Bu & Du). destruct (last_fraction L FL (conj L1 BL)) as (Fv & Bv & Dv). unfold arc_start_angle, arc_end_angle. fold L. set (u := gdiv (gq 1 1) L) in *. set (v := gdiv (gsub L (gq 1 1)) L) in *. clearbody u v.
  assert (PT : forall t p, fin t -> 0 <= B2R t <= 1 -> SpecCurves.within k p -> close (bpow radix2 (k - 14)) (arc_point_at arc t) (arc_x o rho al T (B2R t)) (arc_y o rho al T (B2R t)) /\ sighted p (arc_point_at arc t) (vangle_rv p (arc_point_at arc t))).
  { intros t p Ft Bt Wp. assert (NT' : near 1 1 2 t (B2R t)) by (apply (near_up 1 1 0); [lra|lra|lra|]; apply near_exact; [exact Ft|rewrite Rabs_pos_eq; lra]).
    pose proof (point_on_arc k arc o rho al T d t (B2R t) K HT Wo EO NR HD FD VD NSt NT NT') as C. split; [exact C|].
    assert (CB : forall z w, Rabs z <= U -> Rabs w <= 1 -> Rabs (z + rho * w) <= bpow radix2 (k + 4)). { intros z w Z Q. rewrite bpow_plus. fold U. change (bpow radix2 4) with 16. apply Rle_trans with (1 := Rabs_triang _ _). rewrite Rabs_mult, (Rabs_pos_eq rho) by exact PR. assert (rho * Rabs w <= 3 * U * 1) by (apply Rmult_le_compat; try apply Rabs_pos; lra). lra. }
    destruct (close_diff k _ p _ _ _ ltac:(lia) Wp C) as (X1 & X2); [apply bpow_le; lia|apply CB; [apply Wo|apply Rabs_le, COS_bound]|apply CB; [apply Wo|apply Rabs_le, SIN_bound]|].
    apply sight; [exact HA|split; apply Wp|split; apply C|exact X1|exact X2]. }
  destruct (PT u a Fu Bu Wa) as (C1 & S1). destruct (PT v c Fv Bv Wc) as (C2 & S2). exists (B2R u), (B2R v). do 2 eexists.
  split; [exact Bu|]. split. { replace (B2R u - 1 / P) with ((B2R u - 1 / B2R L) + (1 / B2R L - 1 / P)) by ring. apply Rle_trans with (1 := Rabs_triang _ _). lra. }
  split; [exact C1|]. split; [exact S1|]. split; [exact Bv|]. split. { replace (B2R v - (1 - 1 / P)) with ((B2R v - (1 - 1 / B2R L)) + - (1 / B2R L - 1 / P)) by ring. apply Rle_trans with (1 := Rabs_triang _ _). rewrite Rabs_Ropp. lra. }
  split; [exact C2|exact S2].
Qed.
End WithLibm.

(** ** Timing and mods *)
Open Scope Z_scope.
(** Looking up a timing point panics if HasPoints says there are none, and only then. *)
Theorem C96_has_points : forall tim t, get_point_at tim t = Panic <-> has_points tim = false.
Proof.
  intros tim t. unfold get_point_at, has_points, point_at. destruct (t_points tim) as [|p r].
  - split; [reflexivity|]. intros _. apply idx_out. cbn. lia.
  - split; [|discriminate]. intros H. exfalso. set (f := fun i : nat => _) in H. pose proof (search_weak f (length (p :: r))) as S. cbv zeta in S. set (n := search _ f) in *. clearbody n.
    destruct (idx_range (p :: r) (maxI 0 (Z.of_nat n - 1))) as (x & E & _).
    + unfold maxI, zlen. cbn [length] in *. destruct (_ <? _)%Z eqn:L; [lia|]. apply Z.ltb_ge in L. lia.
    + rewrite E in H. discriminate H.
Qed.
(** The default point has 60 beats per minute in 4/4, plays the default
    samples at full volume, and does not change the slider velocity. *)
Theorem C96_default : B2R (get_base_beat_length default_point) = (60000 / 60)%R /\ B2R (get_raw_beat_length default_point) = (60000 / 60)%R /\ B2R (get_beat_length default_point) = (60000 / 60)%R /\ B2R (get_ratio default_point) = 1%R /\
  B2R (cp_Time default_point) = 0%R /\ cp_SampleSet default_point = 0 /\ cp_SampleIndex default_point = 1 /\ B2R (cp_SampleVolume default_point) = 1%R /\ cp_Signature default_point = 4 /\
  cp_Inherited default_point = false /\ cp_Kiai default_point = false /\ cp_Omit default_point = false.
Proof.
  assert (A : forall x z, (fin (fq z 1) /\ B2R (fq z 1) = IZR z) -> B2SF x = B2SF (fq z 1) -> B2R x = IZR z) by (intros x z (F & V) E; apply B2SF_inj in E; rewrite E; exact V).
  assert (T : IZR 1000 = (60000 / 60)%R) by lra. assert (F1000 : fin (fq 1000 1) /\ B2R (fq 1000 1) = IZR 1000) by (apply fq1_exact; lia). assert (F1 : fin (fq 1 1) /\ B2R (fq 1 1) = IZR 1) by (apply fq1_exact; lia).
  rewrite <- T. split; [apply A; [exact F1000|vm_compute; reflexivity]|]. split; [apply A; [exact F1000|vm_compute; reflexivity]|]. split; [apply A; [exact F1000|vm_compute; reflexivity]|]. split; [apply A; [exact F1|vm_compute; reflexivity]|].
  split; [reflexivity|]. split; [reflexivity|]. split; [reflexivity|]. split; [apply A; [exact F1|vm_compute; reflexivity]|]. split; [reflexivity|]. split; [reflexivity|]. split; reflexivity.
Qed.

(** StringFull lists the names of the mods shown, in the order of their numbers. *)
Lemma names_filter : forall (t : list str) i m, mods_names t (Z.shiftr m (Z.of_nat i)) = map snd (filter (fun kn => Z.testbit m (Z.of_nat (fst kn))) (combine (seq i (length t)) t)).
Proof.
  induction t as [|n t IH]; intros i m; [reflexivity|]. cbn [mods_names length seq combine filter fst snd map].
  assert (Hb : (Z.land (Z.shiftr m (Z.of_nat i)) 1 =? 1) = Z.testbit m (Z.of_nat i)).
  { change 1 with (2 ^ 0) at 1. rewrite (land_pow2 _ 0) by lia. rewrite Z.shiftr_spec by lia. rewrite Z.add_0_l. destruct (Z.testbit m _); reflexivity. }
  rewrite Hb, Z.shiftr_shiftr by lia. replace (Z.of_nat i + 1) with (Z.of_nat (S i)) by lia. rewrite IH. destruct (Z.testbit m (Z.of_nat i)); reflexivity.
Qed.
Lemma on_bit m k : 0 <= k -> on m (2 ^ k) = Z.testbit m k.
Proof. intros H. unfold on. rewrite land_pow2 by exact H. pose proof (Z.pow_pos_nonneg 2 k ltac:(lia) H). destruct (Z.testbit m k); [|reflexivity]. apply negb_true_iff, Z.eqb_neq. lia. Qed.
Lemma shown_bit m k : 0 <= k -> shown m (2 ^ k) = Z.testbit (mask_implied m) k.
Proof.
  intros H. rewrite mask_implied_bit by exact H. unfold shown. rewrite on_bit by exact H. change 512 with (2 ^ 9). change 2147483648 with (2 ^ 31). change 16384 with (2 ^ 14). rewrite !on_bit by lia.
  change 64 with (2 ^ 6). change 256 with (2 ^ 8). change 32 with (2 ^ 5).
  assert (P : forall j, 0 <= j -> (2 ^ k =? 2 ^ j) = (j =? k)). { intros j J. destruct (Z.eqb_spec j k) as [->|N]; [apply Z.eqb_refl|]. apply Z.eqb_neq. intros E. apply N. symmetry. now apply (Z.pow_inj_r 2 k j). }
  rewrite !P by lia. rewrite !(andb_comm (_ =? k)). reflexivity.
Qed.
Theorem C96_full_names : forall m, mods_string_full m = map (fun p => lit (snd p)) (filter (fun p => shown m (fst p)) spelled).
Proof.
  intros m. unfold mods_string_full. rewrite <- (Z.shiftr_0_r (mask_implied m)). change 0 with (Z.of_nat 0). rewrite names_filter.
  assert (SP : combine (seq 0 (length modsStringFull)) modsStringFull = map (fun p => (Z.to_nat (Z.log2 (fst p)), lit (snd p))) spelled) by (vm_compute; reflexivity). rewrite SP.
  assert (PW : forallb (fun p => fst p =? 2 ^ Z.log2 (fst p)) spelled = true) by (vm_compute; reflexivity). clear SP. revert PW. generalize spelled. induction l as [|(b, n) r IH]; [reflexivity|].
  cbn [forallb map filter fst snd]. intros H. apply andb_prop in H as (H1 & H2). apply Z.eqb_eq in H1. rewrite Z2Nat.id by apply Z.log2_nonneg. assert (SB : shown m b = Z.testbit (mask_implied m) (Z.log2 b)) by (rewrite H1 at 1; apply shown_bit, Z.log2_nonneg). rewrite SB.
  destruct (Z.testbit (mask_implied m) (Z.log2 b)); cbn [map snd]; rewrite (IH H2); reflexivity.
Qed.
(** The constants have the numbers of the API. *)
Theorem C96_numbers : map fst spelled = [NoFail; Easy; TouchDevice; Hidden; HardRock; SuddenDeath; DoubleTime; Relax; HalfTime; Nightcore; Flashlight; Autoplay; SpunOut; Relax2; Perfect;
  Key4; Key5; Key6; Key7; Key8; FadeIn; Random; Cinema; Target; Key9; KeyCoop; Key1; Key3; Key2; ScoreV2; LastMod; Daycore].
Proof. vm_compute. reflexivity. Qed.
(** Different combinations have different lists of names. *)
Theorem C96_names_differ : forall m m', defined_mods m -> defined_mods m' -> implied_present m -> implied_present m' -> mods_string_full m = mods_string_full m' -> m = m'.
Proof.
  intros m m' D D' I I' E.
  assert (ND : NoDup modsStringFull). { assert (N : nodup (list_eq_dec Ascii.ascii_dec) modsStringFull = modsStringFull) by (vm_compute; reflexivity). rewrite <- N. apply NoDup_nodup. }
  assert (B : forall k, (k < 32)%nat -> Z.testbit (mask_implied m) (Z.of_nat k) = Z.testbit (mask_implied m') (Z.of_nat k)).
  { intros k K. destruct (nth_error modsStringFull k) as [n|] eqn:N; [|apply nth_error_None in N; change (length modsStringFull) with 32%nat in N; lia].
    apply eq_true_iff_eq. rewrite <- !(names_in_iff _ ND _ n k N). unfold mods_string_full in E. rewrite E. reflexivity. }
  assert (S : mods_string m = mods_string m').
  { unfold mods_string. f_equal. rewrite <- (Z.shiftr_0_r (mask_implied m)), <- (Z.shiftr_0_r (mask_implied m')). change 0 with (Z.of_nat 0). rewrite !names_filter. f_equal. apply filter_ext_in. intros (k, n) H. cbn [fst]. apply B. apply in_combine_l, in_seq in H. change (length modsString) with 32%nat in H. lia. }
  pose proof (roundtrip m D I) as R. rewrite S, (roundtrip m' D' I') in R. apply Ok_inj in R. now symmetry.
Qed.
(** ClampI returns the nearest number in the interval. *)
Theorem C96_clamp : forall x lo hi, lo <= hi -> lo <= clampI x lo hi <= hi /\ forall y, lo <= y <= hi -> Z.abs (x - clampI x lo hi) <= Z.abs (x - y).
Proof.
  intros x lo hi H. unfold clampI, minI, maxI. destruct (Z.ltb_spec x lo) as [A|A]; [destruct (Z.ltb_spec hi lo)|destruct (Z.ltb_spec hi x)]; (split; [lia|intros y Y; lia]).
Qed.

(** ** Instances *)
Open Scope R_scope.
Example C96_components_instance : SpecCurves.within 3 (pt 3 4) /\ SpecCurves.within 3 (mkVec (gq 5 1) (gq (-7) 1)) /\ vec_eqb (vmult (pt 3 4) (mkVec (gq 5 1) (gq (-7) 1))) (pt 15 (-28)) = true /\
  vec_eqb (vsubs (pt 3 4) (gq 5 1) (gq (-7) 1)) (pt (-2) 11) = true /\ vec_eqb (vadds (pt 3 4) (gq 5 1) (gq (-7) 1)) (pt 8 (-3)) = true.
Proof.
  assert (W : forall x y, (Z.abs x <= 8)%Z -> (Z.abs y <= 8)%Z -> SpecCurves.within 3 (pt x y)). { intros x y X Y. destruct (gq1_exact x) as (Fx & Ex); [lia|]. destruct (gq1_exact y) as (Fy & Ey); [lia|]. split; split; cbn [pt vx vy]; try assumption; rewrite ?Ex, ?Ey, <- abs_IZR; change (bpow radix2 3) with (IZR 8); apply IZR_le; assumption. }
  split; [apply W; lia|]. split; [apply (W 5%Z (-7)%Z); lia|]. split; [vm_compute; reflexivity|]. split; vm_compute; reflexivity.
Qed.
Example C96_abs_instance : finite_point (pt (-3) 4) /\ vec_eqb (vabs (pt (-3) 4)) (pt 3 4) = true.
Proof. split; [split|]; vm_compute; reflexivity. Qed.
(** -7.5 leaves -1.5 divided by 2, and by -2 *)
Example C96_mod_instance : is_finite (gq (-15) 2) = true /\ is_finite (gq (-2) 1) = true /\ B2R (gq (-2) 1) <> 0 /\ geq (gmod (gq (-15) 2) (gq (-2) 1)) (gq (-3) 2) = true.
Proof. split; [vm_compute; reflexivity|]. split; [vm_compute; reflexivity|]. split; [destruct (gq1_exact (-2)) as (_ & ->); [lia|lra]|vm_compute; reflexivity]. Qed.
Example C96_angle_instance : @atan2_near ideal_libm /\ finite_point (pt (-3) 4) /\ SpecCurves.within 9 (pt 0 0) /\ SpecCurves.within 9 (pt (-3) 4).
Proof. split; [apply ideal_atan2|]. split; [split; vm_compute; reflexivity|]. split; apply pt_within; lia. Qed.
(** a quadratic curve of 200 pixels' polygon *)
Example C96_bezier_instance : @pow_small poly_libm /\ @atan2_near ideal_libm /\ Forall (SpecCurves.within 9) [pt 0 0; pt 100 0; pt 100 100] /\ (exists bz, @new_bezier poly_libm [pt 0 0; pt 100 0; pt 100 100] = Ok bz) /\ 1 + bpow radix2 (9 - 15) <= polygon [pt 0 0; pt 100 0; pt 100 100].
Proof.
  split; [apply poly_small|]. split; [apply ideal_atan2|]. split; [repeat (apply Forall_cons; [apply pt_within; lia|]); apply Forall_nil|]. split; [eexists; exact eq_refl|]. cbn [polygon]. unfold dist, px, py, pt. cbn [vx vy].
  destruct (gq1_exact 0) as (_ & ->); [lia|]. destruct (gq1_exact 100) as (_ & ->); [lia|]. change (bpow radix2 (9 - 15)) with (/ 64). replace ((100 - 0) * (100 - 0) + (0 - 0) * (0 - 0)) with (100 * 100) by ring. replace ((100 - 100) * (100 - 100) + (100 - 0) * (100 - 0)) with (100 * 100) by ring. rewrite sqrt_square; lra.
Qed.
Example C96_catmull_instance : @atan2_near ideal_libm /\ Forall (SpecCurves.within 9) [pt 0 0; pt 100 0; pt 100 100; pt 100 200] /\ exists cm, new_catmull [pt 0 0; pt 100 0; pt 100 100; pt 100 200] = Ok cm /\ is_finite (cm_length cm) = true /\ 1 <= B2R (cm_length cm) <= bpow radix2 100.
Proof.
  split; [apply ideal_atan2|]. split; [repeat (apply Forall_cons; [apply pt_within; lia|]); apply Forall_nil|]. eexists. split; [exact eq_refl|]. cbn [cm_length]. split; [vm_compute; reflexivity|].
  assert (B : 100 <= B2R (catmull_length (pt 0 0) (pt 100 0) (pt 100 100) (pt 100 200)) <= 110) by (match goal with |- context [B2R ?x] => bval x end; lra). split; [lra|]. apply Rle_trans with (bpow radix2 7); [change (bpow radix2 7) with 128; lra|apply bpow_le; lia].
Qed.
(** half a circle of radius 50 *)
Example C96_arc_instance : @trig_near ideal_libm /\ @atan2_near ideal_libm /\ Forall (SpecCurves.within 12) [pt 0 0; pt 50 50; pt 100 0; arc_centre_of (pt 0 0) (pt 50 50) (pt 100 0)] /\ exists arc, @new_cirarc ideal_libm 1 (pt 0 0) (pt 50 50) (pt 100 0) = Ok arc.
Proof.
  assert (W : Forall (SpecCurves.within 12) [pt 0 0; pt 50 50; pt 100 0; arc_centre_of (pt 0 0) (pt 50 50) (pt 100 0)]) by (apply inside_ok; vm_compute; reflexivity).
  split; [apply ideal_trig|]. split; [apply ideal_atan2|]. split; [exact W|]. inversion W as [|? ? Wa W1]; subst. inversion W1 as [|? ? Wb W2]; subst. inversion W2 as [|? ? Wc W3]; subst. inversion W3 as [|? ? Wo _]; subst.
  destruct (@arc_ok ideal_libm 0 12 (pt 0 0) (pt 50 50) (pt 100 0) ltac:(lia) ideal_atan2 Wa Wb Wc Wo) as (ls & E). unfold approximate_arc in E. apply bind_ok in E as (arc & E & _). exists arc. exact E.
Qed.
Example C96_names_instance : defined_mods (8 + 16 + 64 + 512)%Z /\ implied_present (8 + 16 + 64 + 512)%Z /\ mods_string_full (8 + 16 + 64 + 512)%Z = [lit "Hidden"%string; lit "HardRock"%string; lit "Nightcore"%string].
Proof. split; [unfold defined_mods; lia|]. split; [|vm_compute; reflexivity]. unfold implied_present, has. split; [|split]; vm_compute; intros H; try reflexivity; discriminate H. Qed.
Example C96_points_instance : has_points new_timings = false /\ has_points (add_point new_timings default_point) = true.
Proof. split; reflexivity. Qed.
Example C96_clamp_instance : clampI 7 1 5 = 5%Z /\ clampI (-7) 1 5 = 1%Z /\ clampI 3 1 5 = 3%Z.
Proof. split; [|split]; reflexivity. Qed.

Print Assumptions C96_components.
Print Assumptions C96_abs.
Print Assumptions C96_mod.
Print Assumptions C96_mod_nan.
Print Assumptions C96_angle.
Print Assumptions C96_line_angles.
Print Assumptions C96_bezier_angles.
Print Assumptions C96_catmull_angles.
Print Assumptions C96_arc_angles.
Print Assumptions C96_has_points.
Print Assumptions C96_default.
Print Assumptions C96_full_names.
Print Assumptions C96_numbers.
Print Assumptions C96_names_differ.
Print Assumptions C96_clamp.

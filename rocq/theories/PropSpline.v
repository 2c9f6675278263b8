(** C104: sliders of type C along their spline, and the ball of sliders of types C and P. *)
From Coq Require Import Reals ZArith Lra Lia Bool.
From Flocq Require Import Core BinarySingleNaN.
From Verif Require Import GoBase GoFloat Curves Parser SpecCurves SpecArc SpecShape SpecLength SpecBall SpecSpline BaseLemmas FloatLemmas Float32Lemmas KeyLemmas BoundLemmas CurveProofs CurveBounds LengthProofs BallProofs ArcCentre ArcShape CircleProofs SplineProofs PropCurves PropTerm PropShape PropArc PropBall PropCircle.
From Verif Require SpecCircle.
From Coq Require Import List.
Import ListNotations.
Open Scope R_scope.

Section WithLibm.
Context {M : libm}.
(** C104.  Going evenly along the lines of a slider of type C, fifty for every
    pair of points, keeps near the Catmull-Rom spline. *)
Theorem C104_catmull : forall fuel pts mc k, new_multicurve fuel (lit "C") pts = Ok mc -> (0 <= k <= 100)%Z ->
  forall i p1 p2 p3 p4, neighbours pts i p1 p2 p3 p4 -> Forall (within k) [p1; p2; p3; p4] -> forall j, (j < 50)%nat ->
  exists l, nth_error (mc_lines mc) (50 * i + j) = Some l /\ forall s, 0 <= s <= 1 ->
    Rabs (on_x l s - spline (px p1) (px p2) (px p3) (px p4) ((INR j + s) / 50)) <= bend (px p1) (px p2) (px p3) (px p4) / 20000 + bpow radix2 (k - 16) /\
    Rabs (on_y l s - spline (py p1) (py p2) (py p3) (py p4) ((INR j + s) / 50)) <= bend (py p1) (py p2) (py p3) (py p4) / 20000 + bpow radix2 (k - 16).
Proof.
  intros fuel pts mc k H K i p1 p2 p3 p4 HN W j Hj. destruct (C74_catmull fuel pts mc k H K) as (_ & C). destruct (C i p1 p2 p3 p4 HN W j Hj) as (l & E & (_ & _ & X1 & Y1) & (_ & _ & X2 & Y2) & _).
  exists l. split; [exact E|]. intros s S1. unfold on_x, on_y, px, py.
  assert (J : 0 <= INR j <= 49) by (split; [apply pos_INR|]; apply le_INR in Hj; rewrite S_INR in Hj; replace (INR 50) with 50 in Hj by (cbn; ring); lra).
  rewrite S_INR in X2, Y2.
  assert (G : forall a b c d u v e, Rabs (u - spline a b c d (INR j / 50)) <= e -> Rabs (v - spline a b c d ((INR j + 1) / 50)) <= e -> Rabs ((1 - s) * u + s * v - spline a b c d ((INR j + s) / 50)) <= bend a b c d / 20000 + e).
  { intros a b c d u v e A B. pose proof (spline_near a b c d (INR j / 50) (/ 50) s ltac:(lra) ltac:(lra) ltac:(lra) S1) as N.
    replace (INR j / 50 + / 50) with ((INR j + 1) / 50) in N by field. replace (INR j / 50 + s * / 50) with ((INR j + s) / 50) in N by field.
    set (f := spline a b c d) in *. set (f0 := f (INR j / 50)) in *. set (f1 := f ((INR j + 1) / 50)) in *. set (fs := f ((INR j + s) / 50)) in *. set (m := bend a b c d) in *. clearbody f0 f1 fs m.
    apply Rabs_le_inv in A, B, N. assert (A' : - ((1 - s) * e) <= (1 - s) * (u - f0) <= (1 - s) * e) by (split; [rewrite <- Ropp_mult_distr_r_reverse|]; apply Rmult_le_compat_l; lra).
    assert (B' : - (s * e) <= s * (v - f1) <= s * e) by (split; [rewrite <- Ropp_mult_distr_r_reverse|]; apply Rmult_le_compat_l; lra).
    apply Rabs_le. lra. }
  split; apply G; assumption.
Qed.
(** So the ball of a slider of type C that is not prolonged is beside the spline. *)
Theorem C104_catmull_ball : forall fuel pts len mc mc' m k t, new_multicurve fuel (lit "C") pts = Ok mc -> new_multicurve_t fuel (lit "C") pts len = Ok mc' ->
  (0 <= m <= 28)%Z -> sized m mc len -> B2R len <= B2R (mc_length mc) -> (0 <= k <= 100)%Z -> is_finite t = true ->
  (forall i p1 p2 p3 p4, neighbours pts i p1 p2 p3 p4 -> Forall (within k) [p1; p2; p3; p4]) ->
  exists q, mc_point_at mc' t = Ok q /\ (q = mc_first mc /\ geq (mc_length mc') g0 = true \/
    exists i p1 p2 p3 p4 u, neighbours pts i p1 p2 p3 p4 /\ 0 <= u <= 1 /\
      Rabs (px q - spline (px p1) (px p2) (px p3) (px p4) u) <= bend (px p1) (px p2) (px p3) (px p4) / 20000 + bpow radix2 (k - 16) + ball_error m /\
      Rabs (py q - spline (py p1) (py p2) (py p3) (py p4) u) <= bend (py p1) (py p2) (py p3) (py p4) / 20000 + bpow radix2 (k - 16) + ball_error m).
Proof.
  intros fuel pts len mc mc' m k t E1 E2 Hm SZ LE K Ft W. destruct (C102_walk fuel _ pts len mc mc' m t E1 E2 Hm SZ Ft) as (q & Q & D). exists q. split; [exact Q|].
  destruct D as [D|(n & l & s & N & S0 & (BX & BY) & LA & _)]; [left; exact D|right].
  assert (S1 : 0 <= s <= 1). { split; [exact S0|]. destruct (Rle_or_lt s 1) as [C|C]; [exact C|]. destruct (LA C). lra. }
  destruct (C74_catmull fuel pts mc k E1 K) as (LN & _). assert (NL : (n < length (mc_lines mc))%nat) by (apply nth_error_Some; rewrite N; discriminate). rewrite LN in NL.
  set (i := (n / 50)%nat). set (j := (n mod 50)%nat). assert (NE : n = (50 * i + j)%nat) by apply Nat.div_mod_eq. assert (J : (j < 50)%nat) by (apply Nat.mod_upper_bound; lia).
  assert (I : (S i < length pts)%nat) by lia.
  destruct (nth_error pts i) as [p2|] eqn:P2; [|apply nth_error_None in P2; lia]. destruct (nth_error pts (S i)) as [p3|] eqn:P3; [|apply nth_error_None in P3; lia].
  assert (HN : exists p1 p4, neighbours pts i p1 p2 p3 p4) by (eexists; eexists; split; [exact P2|split; [exact P3|split; reflexivity]]). destruct HN as (p1 & p4 & HN).
  destruct (C104_catmull fuel pts mc k E1 K i p1 p2 p3 p4 HN (W _ _ _ _ _ HN) j J) as (l' & N' & G). rewrite <- NE, N in N'. injection N' as <-. destruct (G s S1) as [GX GY].
  exists i, p1, p2, p3, p4, ((INR j + s) / 50). split; [exact HN|]. split.
  { apply le_INR in J. rewrite S_INR in J. replace (INR 50) with 50 in J by (cbn; ring). pose proof (pos_INR j). lra. }
  unfold on_x, on_y in GX, GY. apply Rabs_le_inv in BX, BY, GX, GY. split; apply Rabs_le; lra.
Qed.

(** The lines of a slider of type P are at most 20 px long ... *)
Theorem C104_steps : forall k o a b c ls, (0 <= k <= 12)%Z -> follows_arc k o a b c ls -> forall l, In l ls -> far2 (px (ln_p1 l)) (py (ln_p1 l)) (px (ln_p2 l)) (py (ln_p2 l)) <= 20 * 20.
Proof.
  intros k o a b c ls K (al & T & H) l I. cbv zeta in H. destruct H as (_ & _ & _ & _ & _ & (N1 & _) & H). apply In_nth_error in I as (j & E). destruct (H j l E) as ((_ & _ & X1 & Y1) & (_ & _ & X2 & Y2)).
  set (rho := dist o a) in *. set (e := bpow radix2 (k - 14)) in *. assert (E4 : 0 <= e <= / 4) by (split; [apply bpow_ge_0|]; change (/ 4) with (bpow radix2 (-2)); apply bpow_le; lia).
  assert (N0 : (1 <= length ls)%nat). { assert (j < length ls)%nat by (apply nth_error_Some; rewrite E; discriminate). lia. }
  apply le_INR in N0. change (INR 1) with 1 in N0. set (n := INR (length ls)) in *. clearbody n. rewrite S_INR in X2, Y2.
  refine (far2_moved _ _ _ _ _ _ _ _ e E4 _ X1 Y1 X2 Y2). unfold arc_x, arc_y.
  replace (al + (INR j + 1) / n * T) with (al + INR j / n * T + T / n) by (field; lra). set (t := al + INR j / n * T). set (d := T / n).
  replace (far2 (px o + rho * cos t) (py o + rho * sin t) (px o + rho * cos (t + d)) (py o + rho * sin (t + d))) with (far2 (rho * cos t) (rho * sin t) (rho * cos (t + d)) (rho * sin (t + d))) by (unfold far2; ring).
  apply Rle_trans with (1 := chord_far rho t d). assert (P : 0 <= rho) by apply sqrt_pos.
  assert (B : Rabs (rho * d) <= 18).
  { unfold d, Rdiv. rewrite <- Rmult_assoc, Rabs_mult, (Rabs_pos_eq (/ n)) by (apply Rlt_le, Rinv_0_lt_compat; lra). rewrite Rabs_mult, (Rabs_pos_eq rho) by exact P. apply Rmult_le_reg_r with n; [lra|]. rewrite Rmult_assoc, Rinv_l by lra. lra. }
  rewrite <- (Rabs_pos_eq (rho * d * (rho * d))), Rabs_mult by apply Rle_0_sqr. apply Rmult_le_compat; try apply Rabs_pos; exact B.
Qed.
Lemma circle_follows fuel k a b c X Y : trig_near -> atan2_near -> (9 <= k <= 12)%Z -> whole 512 a -> whole 512 b -> whole 512 c -> area2 a b c <> 0 ->
  circumcentre a b c X Y -> Rabs X <= bpow radix2 k - 151 -> Rabs Y <= bpow radix2 k - 151 -> let o := arc_centre_of a b c in
  exists mc, new_multicurve (S fuel) (lit "P") [a; b; c] = Ok mc /\ follows_arc k o a b c (mc_lines mc) /\ mc_length mc = total_length (mc_lines mc) /\ Rabs (px o - X) <= 150 / area2 a b c + Rabs X * bpow radix2 (-22) /\ Rabs (py o - Y) <= 150 / area2 a b c + Rabs Y * bpow radix2 (-22).
Proof.
  intros HT HA K Wa Wb Wc A CC BX BY o. pose proof (area_whole 512 a b c Wa Wb Wc A) as A1.
  assert (NS : is_straight a b c = false). { destruct (is_straight a b c) eqn:S; [|reflexivity]. exfalso. apply A, straight_whole; auto; now apply (whole_more 512). }
  destruct (C77_centre a b c Wa Wb Wc A) as (X' & Y' & CC' & Fx & Fy & DX & DY). destruct (centre_unique a b c X' Y' X Y A CC' CC) as (-> & ->). fold o in Fx, Fy, DX, DY.
  assert (PK : 512 <= bpow radix2 k) by (change 512 with (bpow radix2 9); apply bpow_le; lia). assert (PK' : bpow radix2 k <= 4096) by (change 4096 with (bpow radix2 12); apply bpow_le; lia).
  assert (P22 : bpow radix2 (-22) = / 4194304) by reflexivity.
  assert (Q : 0 <= 150 / area2 a b c <= 150). { split; [apply Rle_mult_inv_pos; lra|]. apply Rmult_le_reg_r with (area2 a b c); [lra|]. unfold Rdiv. rewrite Rmult_assoc, Rinv_l, Rmult_1_r by lra. lra. }
  assert (WP : forall p, whole 512 p -> SpecCurves.within k p). { intros p (F & G & x & y & Bx & By & Vx & Vy). split; (split; [assumption|]); [fold (px p); rewrite Vx|fold (py p); rewrite Vy]; rewrite <- abs_IZR; apply Rle_trans with (2 := PK), IZR_le; assumption. }
  assert (WO : SpecCurves.within k o). { pose proof DX as DX'. pose proof DY as DY'. rewrite P22 in DX', DY'. split; (split; [assumption|]); [fold (px o)|fold (py o)]; [replace (px o) with (X + (px o - X)) by ring|replace (py o) with (Y + (py o - Y)) by ring]; eapply Rle_trans; try apply Rabs_triang; lra. }
  destruct (C76_arc fuel k a b c ltac:(lia) HT HA ltac:(auto) NS) as (mc & E & FA). exists mc. split; [exact E|]. split; [exact FA|]. split; [|split; assumption].
  unfold new_multicurve in E. destruct (curve_lines (S fuel) (lit "P") [a; b; c]) as [ls| |]; try discriminate. apply CurveStart.Ok_inj in E. subst mc. reflexivity.
Qed.
(** ... so going along them keeps near the circle through the three points: not
    outside, and inside by no more than such a chord goes. *)
Theorem C104_circle : forall fuel k a b c X Y, trig_near -> atan2_near -> (9 <= k <= 12)%Z -> whole 512 a -> whole 512 b -> whole 512 c -> area2 a b c <> 0 ->
  circumcentre a b c X Y -> Rabs X <= bpow radix2 k - 151 -> Rabs Y <= bpow radix2 k - 151 ->
  let r := SpecCircle.gap X Y a in let e := 600 / area2 a b c + bpow radix2 (k - 12) in e <= r ->
  exists mc, new_multicurve (S fuel) (lit "P") [a; b; c] = Ok mc /\ forall l s, In l (mc_lines mc) -> 0 <= s <= 1 ->
    (r - e) * (r - e) - 100 <= far2 X Y (on_x l s) (on_y l s) <= (r + e) * (r + e).
Proof.
  intros fuel k a b c X Y HT HA K Wa Wb Wc A CC BX BY r e ER.
  destruct (C100_circle fuel k a b c X Y HT HA K Wa Wb Wc A CC BX BY) as (mc & E & RL & _). exists mc. split; [exact E|]. cbv zeta in RL. fold e in RL.
  destruct (circle_follows fuel k a b c X Y HT HA K Wa Wb Wc A CC BX BY) as (mc' & E' & FA & _). rewrite E in E'. apply CurveStart.Ok_inj in E'. subst mc'.
  intros l s I S1. pose proof (C104_steps k _ a b c _ ltac:(lia) FA l I) as ST. destruct (RL l I) as [R1 R2]. fold r in R1, R2.
  assert (SQ : forall p, Rabs (SpecCircle.gap X Y p - r) <= e -> (r - e) * (r - e) <= far2 X Y (px p) (py p) <= (r + e) * (r + e)).
  { intros p B. assert (EQ : far2 X Y (px p) (py p) = SpecCircle.gap X Y p * SpecCircle.gap X Y p).
    { unfold SpecCircle.gap, far2. rewrite sqrt_sqrt; [reflexivity|]. pose proof (Rle_0_sqr (px p - X)). pose proof (Rle_0_sqr (py p - Y)). unfold Rsqr in *. lra. }
    rewrite EQ. assert (G : 0 <= SpecCircle.gap X Y p) by apply sqrt_pos. apply Rabs_le_inv in B. set (g := SpecCircle.gap X Y p) in *. clearbody g. split; apply Rmult_le_compat; lra. }
  pose proof (chord_near X Y _ _ _ _ s _ _ S1 (SQ _ R1) (SQ _ R2)) as C. unfold on_x, on_y. lra.
Qed.
(** And the ball of a slider of type P that is not prolonged is beside such a point. *)
Theorem C104_circle_ball : forall fuel k a b c X Y mc len mc' m t, trig_near -> atan2_near -> (9 <= k <= 12)%Z -> whole 512 a -> whole 512 b -> whole 512 c -> area2 a b c <> 0 ->
  circumcentre a b c X Y -> Rabs X <= bpow radix2 k - 151 -> Rabs Y <= bpow radix2 k - 151 ->
  let r := SpecCircle.gap X Y a in let e := 600 / area2 a b c + bpow radix2 (k - 12) in e <= r ->
  new_multicurve (S fuel) (lit "P") [a; b; c] = Ok mc -> new_multicurve_t (S fuel) (lit "P") [a; b; c] len = Ok mc' ->
  (0 <= m <= 28)%Z -> sized m mc len -> B2R len <= B2R (mc_length mc) -> is_finite t = true ->
  exists q, mc_point_at mc' t = Ok q /\ (q = mc_first mc /\ geq (mc_length mc') g0 = true \/
    exists x y, (r - e) * (r - e) - 100 <= far2 X Y x y <= (r + e) * (r + e) /\ Rabs (px q - x) <= ball_error m /\ Rabs (py q - y) <= ball_error m).
Proof.
  intros fuel k a b c X Y mc len mc' m t HT HA K Wa Wb Wc A CC BX BY r e ER E1 E2 Hm SZ LE Ft.
  destruct (C104_circle fuel k a b c X Y HT HA K Wa Wb Wc A CC BX BY ER) as (mc0 & E0 & C). rewrite E1 in E0. apply CurveStart.Ok_inj in E0. subst mc0.
  destruct (C102_walk _ _ _ len mc mc' m t E1 E2 Hm SZ Ft) as (q & Q & D). exists q. split; [exact Q|].
  destruct D as [D|(n & l & s & N & S0 & (QX & QY) & LA & _)]; [left; exact D|right].
  assert (S1 : 0 <= s <= 1). { split; [exact S0|]. destruct (Rle_or_lt s 1) as [L|L]; [exact L|]. destruct (LA L). lra. }
  exists (on_x l s), (on_y l s). split; [apply C; [apply (nth_error_In _ _ N)|exact S1]|]. auto.
Qed.
End WithLibm.

(** ** Concrete cases *)
Example C104_catmull_instance : forall M : libm, exists mc, new_multicurve 0 (lit "C") [pt 0 0; pt 100 200; pt 300 0] = Ok mc /\ sized 12 mc (fq 300 1) /\ B2R (fq 300 1) <= B2R (mc_length mc) /\
  (forall i p1 p2 p3 p4, neighbours [pt 0 0; pt 100 200; pt 300 0] i p1 p2 p3 p4 -> Forall (within 12) [p1; p2; p3; p4]) /\
  bend 0 0 100 300 / 20000 + bpow radix2 (12 - 16) <= / 12.
Proof.
  intros M. assert (T : match new_multicurve 0 (lit "C") [pt 0 0; pt 100 200; pt 300 0] with Ok mc => fits (mc_lines mc) && ggt (mc_length mc) g0 && gge (mc_length mc) (gq 300 1) && is_finite (mc_length mc) | _ => false end = true) by (vm_compute; reflexivity).
  destruct (new_multicurve 0 (lit "C") [pt 0 0; pt 100 200; pt 300 0]) as [mc| |]; try discriminate T. rewrite !andb_true_iff in T. destruct T as (((T1 & T2) & T3) & T4).
  exists mc. split; [reflexivity|]. destruct (fits_ok _ T1) as (A & B & C & D). destruct (fq1_exact 300) as (F & V); [lia|]. destruct (gq1_exact 300) as (F' & V'); [lia|].
  assert (LE : B2R (fq 300 1) <= B2R (mc_length mc)). { rewrite V. apply gge_iff in T3 as (_ & _ & T3). rewrite (key_fin 24 128 _ F'), (key_fin 24 128 _ T4), V' in T3. exact T3. }
  split. { unfold sized. split; [lia|]. split; [exact B|]. split; [exact C|]. split; [exact D|]. split; [exact T2|]. split; [exact F|]. split; [rewrite V; change (bpow radix2 12) with 4096; lra|right; exact LE]. }
  split; [exact LE|]. split.
  - intros i p1 p2 p3 p4 (N2 & N3 & -> & ->). destruct i as [|[|[|i]]]; cbn [nth_error nth] in *; try discriminate; injection N2 as <-; injection N3 as <-; apply inside_ok; vm_compute; reflexivity.
  - unfold bend. replace (2 * 0 - 5 * 0 + 4 * 100 - 300) with 100 by ring. replace (2 * 300 - 5 * 100 + 4 * 0 - 0) with 100 by ring. rewrite Rmax_left, Rabs_pos_eq by lra. change (bpow radix2 (12 - 16)) with (/ 16). lra.
Qed.
(** Half a circle of radius 50, cut at 64 pixels. *)
Lemma dist_half o x : Rabs (px o - 50) <= / 20 -> Rabs (py o - 0) <= / 20 -> (x = 0 \/ x = 100)%Z -> 49 + 9 / 10 <= dist o (pt x 0) <= 50 + / 10.
Proof.
  intros DX DY HX. unfold dist. assert (V : px (pt x 0) = IZR x /\ py (pt x 0) = 0). { unfold px, py, pt. cbn [vx vy]. destruct (gq1_exact x ltac:(lia)) as (_ & ->). destruct (gq1_exact 0 ltac:(lia)) as (_ & ->). auto. } destruct V as (-> & ->).
  set (X := px o) in *. set (Y := py o) in *. apply Rabs_le_inv in DX, DY. assert (A : exists d, (IZR x - X) * (IZR x - X) = d * d /\ 49 + 95 / 100 <= d <= 50 + / 20).
  { destruct HX as [-> | ->]; [exists X|exists (100 - X)]; split; try ring; lra. }
  destruct A as (d & -> & Dd). assert (Y2 : 0 <= (0 - Y) * (0 - Y) <= / 20 * / 20). { split; [apply Rle_0_sqr|]. replace ((0 - Y) * (0 - Y)) with (Rabs Y * Rabs Y) by (rewrite <- Rabs_mult, Rabs_pos_eq by apply Rle_0_sqr; ring). apply Rmult_le_compat; try apply Rabs_pos; apply Rabs_le; lra. }
  split.
  - rewrite <- (sqrt_square (49 + 9 / 10)) by lra. apply sqrt_le_1_alt. assert ((49 + 95 / 100) * (49 + 95 / 100) <= d * d) by (apply Rmult_le_compat; lra). lra.
  - rewrite <- (sqrt_square (50 + / 10)) by lra. apply sqrt_le_1_alt. assert (d * d <= (50 + / 20) * (50 + / 20)) by (apply Rmult_le_compat; lra). lra.
Qed.
Lemma half_lines o ls : Rabs (px o - 50) <= / 20 -> Rabs (py o - 0) <= / 20 -> follows_arc 9 o (pt 0 0) (pt 50 50) (pt 100 0) ls ->
  INR (length ls) <= 50 /\ 90 <= path_length ls <= 1000 /\ Forall (fun l => (within 12 (ln_p1 l) /\ within 12 (ln_p2 l)) /\ 1 <= gap l) ls.
Proof.
  intros DX DY FA. pose proof (dist_half o 0 DX DY (or_introl eq_refl)) as RA. pose proof (dist_half o 100 DX DY (or_intror eq_refl)) as RC. pose proof (C104_steps 9 _ _ _ _ _ ltac:(lia) FA) as ST.
  destruct FA as (al & T & H). cbv zeta in H. destruct H as (A0 & A1 & C0 & C1 & HT & (N1 & N2) & H). unfold arc_x, arc_y in *. rewrite Rmult_0_l, Rplus_0_r in A0, A1.
  set (rho := dist o (pt 0 0)) in *. set (rc := dist o (pt 100 0)) in *. change (bpow radix2 (9 - 14)) with (/ 32) in *. change (bpow radix2 (-17)) with (/ 131072) in HT. pose proof pi_range as PR.
  assert (V : px (pt 0 0) = 0 /\ py (pt 0 0) = 0 /\ px (pt 100 0) = 100). { unfold px, py, pt. cbn [vx vy]. destruct (gq1_exact 100 ltac:(lia)) as (_ & ->). destruct (gq1_exact 0 ltac:(lia)) as (_ & ->). auto. } destruct V as (V1 & V2 & V3). rewrite V1 in A0. rewrite V2 in A1. rewrite V3 in C0.
  assert (AT : Rabs T <= 7) by (apply Rabs_le; destruct HT as [(HT & _)|(HT & _)]; lra). pose proof (Rabs_pos T) as T0.
  (* the whole chord *)
  assert (CH : 99 + 8 / 10 <= rho * (cos (al + T) - cos al)).
  { pose proof (COS_bound (al + T)) as CB. assert (E : rho * cos (al + T) = rc * cos (al + T) + (rho - rc) * cos (al + T)) by ring.
    assert (B : Rabs ((rho - rc) * cos (al + T)) <= / 5 * 1) by (rewrite Rabs_mult; apply Rmult_le_compat; try apply Rabs_pos; apply Rabs_le; lra). apply Rabs_le_inv in B. lra. }
  assert (SN : 99 + 8 / 10 <= 2 * rho * Rabs (sin (T / 2))).
  { pose proof (chord_eq al T) as E. set (s := sin (T / 2)) in *. assert (SS : Rabs s * Rabs s = s * s) by (rewrite <- Rabs_mult; apply Rabs_pos_eq, Rle_0_sqr).
    apply Rsqr_incr_0; [|lra|pose proof (Rmult_le_pos (2 * rho) (Rabs s) ltac:(lra) (Rabs_pos s)); lra]. unfold Rsqr. replace (2 * rho * Rabs s * (2 * rho * Rabs s)) with (rho * rho * (4 * (Rabs s * Rabs s))) by ring. rewrite SS, <- E.
    replace (rho * rho * ((cos (al + T) - cos al) * (cos (al + T) - cos al) + (sin (al + T) - sin al) * (sin (al + T) - sin al))) with (rho * (cos (al + T) - cos al) * (rho * (cos (al + T) - cos al)) + Rsqr (rho * (sin (al + T) - sin al))) by (unfold Rsqr; ring).
    pose proof (Rle_0_sqr (rho * (sin (al + T) - sin al))). assert ((99 + 8 / 10) * (99 + 8 / 10) <= rho * (cos (al + T) - cos al) * (rho * (cos (al + T) - cos al))) by (apply Rmult_le_compat; lra). lra. }
  assert (TL : 1 <= Rabs T).
  { destruct (Rle_or_lt 1 (Rabs T)) as [C|C]; [exact C|exfalso]. pose proof (chord_arc al T) as Q. assert (TT : T * T <= 1). { rewrite <- (Rabs_pos_eq (T * T)), Rabs_mult by apply Rle_0_sqr. rewrite <- (Rmult_1_l 1). apply Rmult_le_compat; lra. }
    set (u := cos (al + T) - cos al) in *. pose proof (Rle_0_sqr (sin (al + T) - sin al)) as Z. unfold Rsqr in Z. assert (U1 : u * u <= 1) by lra. assert (UL : u <= 1) by nra. assert (rho * u <= rho * 1) by (apply Rmult_le_compat_l; lra). lra. }
  assert (RT : 49 + 9 / 10 <= rho * Rabs T <= (50 + / 10) * 7). { split; [rewrite <- (Rmult_1_r (49 + 9 / 10))|]; apply Rmult_le_compat; lra. }
  set (n := INR (length ls)) in *. assert (Nn : 5 <= n <= 45) by lra. assert (SM : 99 + 8 / 10 <= n * (2 * rho * Rabs (sin (T / n / 2)))).
  { pose proof (sin_many (length ls) (T / n / 2)) as S. fold n in S. replace (n * (T / n / 2)) with (T / 2) in S by (field; lra). assert (2 * rho * Rabs (sin (T / 2)) <= 2 * rho * (n * Rabs (sin (T / n / 2)))) by (apply Rmult_le_compat_l; lra). lra. }
  set (d := T / n) in *. set (w := 2 * rho * Rabs (sin (d / 2))) in *. assert (W2 : 2 <= w). { destruct (Rle_or_lt 2 w) as [C|C]; [exact C|exfalso]. assert (n * w <= 45 * 2). { apply Rmult_le_compat; try lra. unfold w. apply Rmult_le_pos; [lra|apply Rabs_pos]. } lra. }
  assert (AL : Forall (fun l => (within 12 (ln_p1 l) /\ within 12 (ln_p2 l)) /\ w - / 8 <= gap l <= 20) ls).
  { apply Forall_forall. intros l I. pose proof (ST l I) as SL. apply In_nth_error in I as (j & E). destruct (H j l E) as ((F1 & F2 & X1 & Y1) & (F3 & F4 & X2 & Y2)). rewrite S_INR in X2, Y2.
    replace (al + (INR j + 1) / n * T) with (al + INR j / n * T + d) in X2, Y2 by (unfold d; field; lra). set (t := al + INR j / n * T) in *.
    apply Rabs_le_inv in DX, DY. split.
    - assert (B : forall z q, - 1 <= z <= 1 -> forall y, Rabs y <= 51 -> Rabs (q - (y + rho * z)) <= / 32 -> Rabs q <= bpow radix2 12).
      { intros z q Z y Yb Q. assert (R : Rabs (rho * z) <= (50 + / 10) * 1) by (rewrite Rabs_mult; apply Rmult_le_compat; try apply Rabs_pos; [rewrite Rabs_pos_eq; lra|apply Rabs_le; lra]). change (bpow radix2 12) with 4096. apply Rabs_le_inv in Q, R, Yb. apply Rabs_le. lra. }
      assert (BX : Rabs (px o) <= 51) by (apply Rabs_le; lra). assert (BY : Rabs (py o) <= 51) by (apply Rabs_le; lra).
      split; split; split; try assumption; [apply (B (cos t) _ (COS_bound t) (px o) BX X1)|apply (B (sin t) _ (SIN_bound t) (py o) BY Y1)|apply (B (cos (t + d)) _ (COS_bound (t + d)) (px o) BX X2)|apply (B (sin (t + d)) _ (SIN_bound (t + d)) (py o) BY Y2)].
    - unfold gap. fold (px (ln_p1 l)) (px (ln_p2 l)) (py (ln_p1 l)) (py (ln_p2 l)). rewrite <- !Rsqr_pow2. unfold Rsqr. split.
      + set (u := rho * cos (t + d) - rho * cos t). set (v := rho * sin (t + d) - rho * sin t). apply Rabs_le_inv in X1, X2, Y1, Y2.
        replace (px (ln_p2 l) - px (ln_p1 l)) with (u + (px (ln_p2 l) - px (ln_p1 l) - u)) by ring. replace (py (ln_p2 l) - py (ln_p1 l)) with (v + (py (ln_p2 l) - py (ln_p1 l) - v)) by ring.
        apply far2_least; [lra| |apply Rabs_le; unfold u; lra|apply Rabs_le; unfold v; lra].
        pose proof (chord_eq t d) as Q. set (s := sin (d / 2)) in *. assert (SS : Rabs s * Rabs s = s * s) by (rewrite <- Rabs_mult; apply Rabs_pos_eq, Rle_0_sqr).
        unfold w, u, v. replace (2 * rho * Rabs s * (2 * rho * Rabs s)) with (rho * rho * (4 * (Rabs s * Rabs s))) by ring. rewrite SS, <- Q. ring.
      + rewrite <- (sqrt_square 20) by lra. apply sqrt_le_1_alt. exact SL. }
  split; [lra|]. split.
  - assert (P : n * (w - / 8) <= path_length ls <= n * 20). { unfold n. clearbody w. clear -AL. revert AL. generalize ls. intros ks AL. induction AL as [|l ks (_ & G) AL IH]; [cbn [path_length length]; change (INR 0) with 0; lra|]. cbn [path_length length]. rewrite S_INR. lra. } lra.
  - eapply Forall_impl; [|exact AL]. intros l (W & G). split; [exact W|lra].
Qed.
Example C104_circle_instance : let M := ideal_libm in @trig_near M /\ @atan2_near M /\ whole 512 (pt 0 0) /\ whole 512 (pt 50 50) /\ whole 512 (pt 100 0) /\ area2 (pt 0 0) (pt 50 50) (pt 100 0) = 5000 /\
  circumcentre (pt 0 0) (pt 50 50) (pt 100 0) 50 0 /\ Rabs 50 <= bpow radix2 9 - 151 /\ Rabs 0 <= bpow radix2 9 - 151 /\ SpecCircle.gap 50 0 (pt 0 0) = 50 /\ 600 / 5000 + bpow radix2 (9 - 12) <= 1 / 4 /\
  exists mc, @new_multicurve M 1 (lit "P") [pt 0 0; pt 50 50; pt 100 0] = Ok mc /\ sized 12 mc (fq 64 1) /\ B2R (fq 64 1) <= B2R (mc_length mc).
Proof.
  intros M. destruct C100_instance as (H1 & H2 & H3 & H4 & H5 & H6 & H7 & H8 & H9 & _ & H11). do 9 (split; [assumption|]). split.
  { unfold SpecCircle.gap. assert (V : px (pt 0 0) = 0 /\ py (pt 0 0) = 0). { unfold px, py, pt. cbn [vx vy]. destruct (gq1_exact 0 ltac:(lia)) as (_ & ->). auto. } destruct V as (-> & ->). replace ((0 - 50) * (0 - 50) + (0 - 0) * (0 - 0)) with (50 * 50) by ring. apply sqrt_square. lra. }
  split; [exact H11|]. assert (A0 : area2 (pt 0 0) (pt 50 50) (pt 100 0) <> 0) by (rewrite H6; lra).
  destruct (@circle_follows M 0 9 _ _ _ 50 0 H1 H2 ltac:(lia) H3 H4 H5 A0 H7 H8 H9) as (mc & E & FA & TL & DX & DY). rewrite H6 in DX, DY. assert (P22 : bpow radix2 (-22) = / 4194304) by reflexivity. rewrite P22 in DX, DY. rewrite (Rabs_pos_eq 50) in DX by lra. rewrite Rabs_R0 in DY.
  destruct (half_lines (arc_centre_of (pt 0 0) (pt 50 50) (pt 100 0)) _ ltac:(eapply Rle_trans; [exact DX|lra]) ltac:(eapply Rle_trans; [exact DY|lra]) FA) as (LN & PL & AL). exists mc. split; [exact E|]. set (ls := mc_lines mc) in *.
  assert (W : Forall (lin (vbnd 12)) ls). { eapply Forall_impl; [|exact AL]. intros l (Q & _). exact Q. }
  destruct (BallProofs.sum_near 12 12 ls ltac:(lia) ltac:(lia) W ltac:(lra)) as (FT & _ & ET). { unfold big. change (bpow radix2 12) with 4096. lra. }
  rewrite <- TL in FT, ET. assert (ZD : zed 12 = / 4096) by (unfold zed, big, unit24; rewrite <- bpow_plus; reflexivity). rewrite ZD in ET. apply Rabs_le_inv in ET. destruct (fq1_exact 64) as (F & V); [lia|].
  assert (ML : B2R (fq 64 1) <= B2R (mc_length mc)) by (rewrite V; lra). split; [|exact ML].
  assert (LZ : (length ls <= 50)%nat) by (apply INR_le; replace (INR 50) with 50 by (cbn; ring); exact LN).
  unfold sized. fold ls. split; [lia|]. split; [exact W|]. split; [|split; [change (bpow radix2 12) with 4096; lra|]; split; [|split; [exact F|]; split; [rewrite V; change (bpow radix2 12) with 4096; lra|right; exact ML]]].
  - eapply Forall_impl; [|exact AL]. intros l ((W1 & W2) & G). right. destruct (vdst_acc _ _ 12 ltac:(lia) W1 W2) as (FG & PG & EG). fold (ln_length l) in *. rewrite <- gap_geo in EG. change (bpow radix2 (-21)) with (/ 2097152) in EG. pose proof (bpow_le radix2 (-69) (-20) ltac:(lia)) as T. change (bpow radix2 (-20)) with (/ 1048576) in T. apply Rabs_le_inv in EG.
    apply gle_iff. assert (V1 : B2R (gq 1 1048576) = / 1048576 /\ is_finite (gq 1 1048576) = true). { bval (gq 1 1048576). split; [lra|reflexivity]. } destruct V1 as (V1 & F1).
    split; [now apply (fin_num 24 128)|]. split; [now apply (fin_num 24 128)|]. rewrite !(key_fin 24 128) by assumption. rewrite V1. lra.
  - apply ggt_iff. split; [now apply (fin_num 24 128)|]. split; [now apply (fin_num 24 128)|]. rewrite (key_fin 24 128 _ FT). change (key g0) with 0. lra.
Qed.

Print Assumptions C104_catmull.
Print Assumptions C104_catmull_ball.
Print Assumptions C104_steps.
Print Assumptions C104_circle.
Print Assumptions C104_circle_ball.

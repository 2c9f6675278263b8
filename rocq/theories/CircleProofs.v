(** The circle through three points of whole coordinates. *)
From Coq Require Import Reals ZArith Lra Lia List Bool.
From Flocq Require Import Core BinarySingleNaN.
From Verif Require Import GoFloat Curves SpecCurves SpecArc SpecCircle BaseLemmas FloatLemmas Float32Lemmas KeyLemmas BoundLemmas CurveProofs ArcProofs BezierTerm DistProofs LengthProofs NearLemmas ArcShape ArcCentre ApiProofs.
From Verif Require PropArc.
Import ListNotations.
Open Scope R_scope.

(** ** Points on a line *)
Lemma straight_whole a b c : whole 1024 a -> whole 1024 b -> whole 1024 c -> is_straight a b c = true <-> area2 a b c = 0.
Proof.
  intros (Fax & Fay & ax & ay & Bax & Bay & Vax & Vay) (Fbx & Fby & bx & by_ & Bbx & Bby & Vbx & Vby) (Fcx & Fcy & cx & cy & Bcx & Bcy & Vcx & Vcy).
  assert (Ax : isZ (vx a) ax) by (split; assumption). assert (Ay : isZ (vy a) ay) by (split; assumption).
  assert (Bx : isZ (vx b) bx) by (split; assumption). assert (By : isZ (vy b) by_) by (split; assumption).
  assert (Cx : isZ (vx c) cx) by (split; assumption). assert (Cy : isZ (vy c) cy) by (split; assumption).
  assert (PR : forall p q, (Z.abs p <= 2048)%Z -> (Z.abs q <= 2048)%Z -> (Z.abs (p * q) <= 4194304)%Z) by (intros; rewrite Z.abs_mul; nia).
  pose proof (isZ_sub _ _ _ _ By Ay ltac:(lia)) as S1. pose proof (isZ_sub _ _ _ _ Cx Ax ltac:(lia)) as S2. pose proof (isZ_sub _ _ _ _ Bx Ax ltac:(lia)) as S3. pose proof (isZ_sub _ _ _ _ Cy Ay ltac:(lia)) as S4.
  pose proof (PR (by_ - ay)%Z (cx - ax)%Z ltac:(lia) ltac:(lia)) as P1. pose proof (PR (bx - ax)%Z (cy - ay)%Z ltac:(lia) ltac:(lia)) as P2.
  pose proof (isZ_mul _ _ _ _ S1 S2 ltac:(lia)) as M1. pose proof (isZ_mul _ _ _ _ S3 S4 ltac:(lia)) as M2. pose proof (isZ_sub _ _ _ _ M1 M2 ltac:(lia)) as (Fd & Vd).
  set (z := ((by_ - ay) * (cx - ax) - (bx - ax) * (cy - ay))%Z) in *. unfold is_straight. match type of Vd with B2R ?t = _ => set (d := t) in * end. clearbody d.
  assert (EA : area2 a b c = Rabs (IZR z)). { unfold area2, side, z. rewrite Vax, Vay, Vbx, Vby, Vcx, Vcy, minus_IZR, !mult_IZR, !minus_IZR. rewrite <- Rabs_Ropp. f_equal. ring. }
  rewrite EA. destruct (gabs_exact d Fd) as (FA & VA). rewrite Vd in VA.
  assert (FC : fin (gq 1 1000)) by (vm_compute; reflexivity). assert (VC : 0 < B2R (gq 1 1000) < 1) by (bval (gq 1 1000); lra).
  rewrite glt_iff, (key_fin 24 128 _ FA), (key_fin 24 128 _ FC), VA, <- abs_IZR. split.
  - intros (_ & _ & H). assert (IZR (Z.abs z) < 1) by lra. apply lt_IZR in H0. apply f_equal. lia.
  - intros H. rewrite H. split; [now apply fin_num|]. split; [now apply fin_num|lra].
Qed.
Lemma whole_more m n p : (m <= n)%Z -> whole m p -> whole n p.
Proof. intros H (F & G & x & y & X & Y & E). split; [exact F|]. split; [exact G|]. exists x, y. split; [lia|]. split; [lia|exact E]. Qed.
Lemma area_whole m a b c : whole m a -> whole m b -> whole m c -> area2 a b c <> 0 -> 1 <= area2 a b c.
Proof.
  intros (_ & _ & ax & ay & _ & _ & Vax & Vay) (_ & _ & bx & by_ & _ & _ & Vbx & Vby) (_ & _ & cx & cy & _ & _ & Vcx & Vcy) N.
  assert (EA : area2 a b c = IZR (Z.abs ((cy - ay) * (bx - ax) - (cx - ax) * (by_ - ay)))). { unfold area2, side. rewrite Vax, Vay, Vbx, Vby, Vcx, Vcy, abs_IZR, minus_IZR, !mult_IZR, !minus_IZR. reflexivity. }
  rewrite EA in *. apply IZR_le. assert (Z.abs ((cy - ay) * (bx - ax) - (cx - ax) * (by_ - ay)) <> 0)%Z by (intros E; apply N; now rewrite E). lia.
Qed.
Lemma centre_unique a b c X Y X' Y' : area2 a b c <> 0 -> circumcentre a b c X Y -> circumcentre a b c X' Y' -> X = X' /\ Y = Y'.
Proof.
  unfold circumcentre, area2, side. cbv zeta. set (ax := px a). set (ay := py a). set (bx := px b). set (by_ := py b). set (cx := px c). set (cy := py c). clearbody ax ay bx by_ cx cy. intros N (E1 & E2) (E1' & E2').
  assert (S : (cy - ay) * (bx - ax) - (cx - ax) * (by_ - ay) <> 0) by (intros E; apply N; rewrite E; apply Rabs_R0). set (s := (cy - ay) * (bx - ax) - (cx - ax) * (by_ - ay)) in *.
  assert (L1 : (X - X') * (bx - ax) + (Y - Y') * (by_ - ay) = 0) by lra. assert (L2 : (X - X') * (cx - ax) + (Y - Y') * (cy - ay) = 0) by lra.
  assert (Q1 : s * (X - X') = 0). { replace (s * (X - X')) with ((cy - ay) * ((X - X') * (bx - ax) + (Y - Y') * (by_ - ay)) - (by_ - ay) * ((X - X') * (cx - ax) + (Y - Y') * (cy - ay))) by (unfold s; ring). rewrite L1, L2. ring. }
  assert (Q2 : s * (Y - Y') = 0). { replace (s * (Y - Y')) with ((bx - ax) * ((X - X') * (cx - ax) + (Y - Y') * (cy - ay)) - (cx - ax) * ((X - X') * (bx - ax) + (Y - Y') * (by_ - ay))) by (unfold s; ring). rewrite L1, L2. ring. }
  apply Rmult_integral in Q1 as [Q1|Q1]; [contradiction|]. apply Rmult_integral in Q2 as [Q2|Q2]; [contradiction|]. lra.
Qed.

(** ** The circle *)
Lemma polar r t : 0 <= r -> nrm (r * cos t) (r * sin t) = r.
Proof.
  intros H. unfold nrm. replace (r * cos t * (r * cos t) + r * sin t * (r * sin t)) with (r * r * (Rsqr (sin t) + Rsqr (cos t))) by (unfold Rsqr; ring). rewrite sin2_cos2, Rmult_1_r. now apply sqrt_square.
Qed.
Lemma gap_nrm X Y p : gap X Y p = nrm (px p - X) (py p - Y). Proof. reflexivity. Qed.
Lemma dist_nrm o p : dist o p = nrm (px p - px o) (py p - py o). Proof. reflexivity. Qed.
Lemma gap_dist o X Y d p : Rabs (px o - X) <= d -> Rabs (py o - Y) <= d -> Rabs (dist o p - gap X Y p) <= 2 * d.
Proof.
  intros HX HY. rewrite gap_nrm, dist_nrm. replace (2 * d) with (d + d) by ring. apply nrm_near; [replace (px p - px o - (px p - X)) with (- (px o - X)) by ring|replace (py p - py o - (py p - Y)) with (- (py o - Y)) by ring]; rewrite Rabs_Ropp; assumption.
Qed.
Lemma scaled r r' t u : Rabs (r - r') <= u -> Rabs (r * cos t - r' * cos t) <= u /\ Rabs (r * sin t - r' * sin t) <= u.
Proof.
  intros H. rewrite <- !Rmult_minus_distr_r, !Rabs_mult. pose proof (Rabs_pos (r - r')). assert (C : Rabs (cos t) <= 1) by (apply Rabs_le; pose proof (COS_bound t); lra). assert (S : Rabs (sin t) <= 1) by (apply Rabs_le; pose proof (SIN_bound t); lra).
  split; (apply Rle_trans with (Rabs (r - r') * 1); [apply Rmult_le_compat_l; assumption|lra]).
Qed.
Lemma arc_round k o a b c X Y d ls : Rabs (px o - X) <= d -> Rabs (py o - Y) <= d -> circumcentre a b c X Y -> follows_arc k o a b c ls ->
  round_lines (2 * bpow radix2 (k - 14) + 4 * d) X Y a ls /\ joins (bpow radix2 (k - 14) + 4 * d) a c ls.
Proof.
  intros HX HY (EB & EC) (al & T & H). cbv zeta in H. set (rho := dist o a) in *. set (e := bpow radix2 (k - 14)) in *. destruct H as (A1 & A2 & C1 & C2 & _ & _ & H).
  pose proof (gap_dist o X Y d a HX HY) as DA. pose proof (gap_dist o X Y d c HX HY) as DC. fold rho in DA. assert (GC : gap X Y c = gap X Y a) by (unfold gap; f_equal; lra). rewrite GC in DC.
  assert (RP : 0 <= rho) by apply sqrt_pos. assert (DP : 0 <= d) by (apply Rle_trans with (2 := HX), Rabs_pos).
  assert (PT : forall q u, close e q (arc_x o rho al T u) (arc_y o rho al T u) -> Rabs (gap X Y q - gap X Y a) <= 2 * e + 4 * d).
  { intros q u (_ & _ & Q1 & Q2). assert (N : Rabs (gap X Y q - rho) <= (e + d) + (e + d)).
    { rewrite gap_nrm. rewrite <- (polar rho (al + u * T) RP) at 1. unfold arc_x, arc_y in *. apply nrm_near; [replace (px q - X - rho * cos (al + u * T)) with ((px q - (px o + rho * cos (al + u * T))) + (px o - X)) by ring|replace (py q - Y - rho * sin (al + u * T)) with ((py q - (py o + rho * sin (al + u * T))) + (py o - Y)) by ring]; eapply Rle_trans; try apply Rabs_triang; lra. }
    apply Rabs_le_inv in N, DA. apply Rabs_le. lra. }
  split.
  - intros l I. apply In_nth_error in I as (j & J). destruct (H j l J) as (L1 & L2). split; eapply PT; eassumption.
  - assert (W : forall q x y x' y', close e q x y -> Rabs (x - x') <= 4 * d -> Rabs (y - y') <= 4 * d -> close (e + 4 * d) q x' y').
    { intros q x y x' y' (F & G & Q1 & Q2) D1 D2. split; [exact F|]. split; [exact G|]. split; [replace (px q - x') with ((px q - x) + (x - x')) by ring|replace (py q - y') with ((py q - y) + (y - y')) by ring]; eapply Rle_trans; try apply Rabs_triang; lra. }
    split.
    + intros l r ->. destruct (H 0%nat l eq_refl) as (L1 & _). apply (W _ _ _ _ _ L1); cbn [INR]; unfold Rdiv; rewrite Rmult_0_l; [rewrite A1|rewrite A2]; rewrite Rminus_diag_eq, Rabs_R0 by reflexivity; lra.
    + intros r l ->. destruct (H (length r) l) as (_ & L2); [rewrite nth_error_app2, Nat.sub_diag by lia; reflexivity|]. assert (EL : length (r ++ [l]) = S (length r)) by (rewrite app_length; cbn [length]; lia). rewrite EL in L2.
      assert (ONE : INR (S (length r)) / INR (S (length r)) = 1) by (apply Rinv_r, not_0_INR; discriminate). rewrite ONE in L2. unfold arc_x, arc_y in L2. rewrite Rmult_1_l in L2.
      assert (RC : Rabs (rho - dist o c) <= 4 * d) by (apply Rabs_le_inv in DA, DC; apply Rabs_le; lra). destruct (scaled _ _ (al + T) _ RC) as (D1 & D2).
      apply (W _ _ _ _ _ L2); [rewrite <- C1|rewrite <- C2]; [replace (px o + rho * cos (al + T) - (px o + dist o c * cos (al + T))) with (rho * cos (al + T) - dist o c * cos (al + T)) by ring|replace (py o + rho * sin (al + T) - (py o + dist o c * sin (al + T))) with (rho * sin (al + T) - dist o c * sin (al + T)) by ring]; assumption.
Qed.

(** ** Past the second point *)
Lemma cos_turns x (z : Z) : cos (x + 2 * IZR z * PI) = cos x /\ sin (x + 2 * IZR z * PI) = sin x.
Proof.
  destruct (Z.le_ge_cases 0 z) as [P|P].
  - replace (IZR z) with (INR (Z.to_nat z)) by (rewrite INR_IZR_INZ, Z2Nat.id by exact P; reflexivity). split; [apply cos_period|apply sin_period].
  - set (y := x + 2 * IZR z * PI). replace x with (y + 2 * INR (Z.to_nat (- z)) * PI); [split; symmetry; [apply cos_period|apply sin_period]|]. rewrite INR_IZR_INZ, Z2Nat.id by lia. rewrite opp_IZR. unfold y. ring.
Qed.
Lemma turn_to al be : exists v, 0 <= v <= 2 * PI /\ cos (al + v) = cos be /\ sin (al + v) = sin be.
Proof.
  pose proof PI_RGT_0 as P. set (q := (be - al) / (2 * PI)). set (z := Zfloor q). exists (be - al + 2 * IZR (- z) * PI). split.
  - pose proof (Zfloor_lb q) as L. pose proof (Zfloor_ub q) as U. fold z in L, U. rewrite opp_IZR. assert (E : be - al = q * (2 * PI)) by (unfold q; field; lra). rewrite E. assert (IZR z * (2 * PI) <= q * (2 * PI)) by (apply Rmult_le_compat_r; lra). assert (q * (2 * PI) <= (IZR z + 1) * (2 * PI)) by (apply Rmult_le_compat_r; lra). lra.
  - replace (al + (be - al + 2 * IZR (- z) * PI)) with (be + 2 * IZR (- z) * PI) by ring. apply cos_turns.
Qed.
Lemma turn_side d al be : d = 1 \/ d = -1 -> exists v, 0 <= v <= 2 * PI /\ cos (al + d * v) = cos be /\ sin (al + d * v) = sin be.
Proof.
  intros [->| ->].
  - destruct (turn_to al be) as (v & V & C & S). exists v. rewrite Rmult_1_l. auto.
  - destruct (turn_to (- al) (- be)) as (v & V & C & S). exists v. split; [exact V|]. replace (al + -1 * v) with (- (- al + v)) by ring. rewrite cos_neg, sin_neg, C, S, cos_neg, sin_neg. split; ring.
Qed.
(** three points of a circle *)
Lemma chord_side ox oy rho al t v d : d = 1 \/ d = -1 ->
  side (ox + rho * cos al) (oy + rho * sin al) (ox + rho * cos (al + d * t)) (oy + rho * sin (al + d * t)) (ox + rho * cos (al + d * v)) (oy + rho * sin (al + d * v)) =
  d * (4 * (rho * rho) * (sin (t / 2) * sin (v / 2) * sin ((t - v) / 2))).
Proof.
  assert (G : forall t v, side (ox + rho * cos al) (oy + rho * sin al) (ox + rho * cos (al + t)) (oy + rho * sin (al + t)) (ox + rho * cos (al + v)) (oy + rho * sin (al + v)) = 4 * (rho * rho) * (sin (t / 2) * sin (v / 2) * sin ((t - v) / 2))).
  { clear. intros t v. unfold side. set (g := al + t). set (f := al + v). transitivity (rho * rho * (sin (g - f) - sin (g - al) + sin (f - al))); [rewrite !sin_minus; ring|].
    set (p := v / 2). set (q := (t - v) / 2). replace (t / 2) with (p + q) by (unfold p, q; field). replace (g - f) with (2 * q) by (unfold g, f, q; field).
    replace (f - al) with (2 * p) by (unfold f, p; field). replace (g - al) with (2 * (p + q)) by (unfold g, p, q; field). clearbody p q. clear g f.
    rewrite !sin_2a, sin_plus, cos_plus. pose proof (sin2_cos2 p) as P2. pose proof (sin2_cos2 q) as Q2. unfold Rsqr in *.
    replace (2 * sin q * cos q) with (2 * sin q * cos q * (sin p * sin p + cos p * cos p)) by (rewrite P2; ring). replace (2 * sin p * cos p) with (2 * sin p * cos p * (sin q * sin q + cos q * cos q)) by (rewrite Q2; ring). ring. }
  intros [->| ->]; rewrite G; [rewrite !Rmult_1_l; reflexivity|]. replace (-1 * t / 2) with (- (t / 2)) by field. replace (-1 * v / 2) with (- (v / 2)) by field. replace ((-1 * t - -1 * v) / 2) with (- ((t - v) / 2)) by field. rewrite !sin_neg. ring.
Qed.
Lemma sin_small_neg t x : 0 <= t <= / 2 -> - t <= x <= PI + t -> - t <= sin x.
Proof.
  intros T X. destruct (Rle_dec 0 x) as [P|P].
  - destruct (Rle_dec x PI) as [Q|Q]; [pose proof (sin_ge_0 x P Q); lra|]. pose proof (sin_lip x PI) as L. rewrite sin_PI in L. rewrite Rminus_0_r in L. apply Rabs_le_inv in L. rewrite Rabs_pos_eq in L by lra. lra.
  - pose proof (sin_lip x 0) as L. rewrite sin_0, !Rminus_0_r in L. apply Rabs_le_inv in L. rewrite Rabs_left in L by lra. lra.
Qed.
Lemma late_small t v y : 0 <= y <= / 2 -> - y <= t <= 2 * PI + y -> 0 <= v <= 2 * PI -> t < v -> sin (t / 2) * sin (v / 2) * sin ((t - v) / 2) <= y.
Proof.
  intros Y T V L. assert (S1 : - y <= sin (t / 2)) by (apply sin_small_neg; lra). assert (S2 : 0 <= sin (v / 2)) by (apply sin_ge_0; lra).
  assert (S3 : - y <= sin (- ((t - v) / 2))) by (apply sin_small_neg; lra). rewrite sin_neg in S3. pose proof (SIN_bound (t / 2)) as B1. pose proof (SIN_bound (v / 2)) as B2. pose proof (SIN_bound ((t - v) / 2)) as B3.
  set (p := sin (t / 2)) in *. set (q := sin (v / 2)) in *. set (r := sin ((t - v) / 2)) in *. clearbody p q r.
  destruct (Rle_dec 0 p) as [P|P].
  - assert (0 <= p * q <= 1) by (split; [apply Rmult_le_pos; lra|apply Rle_trans with (1 * 1); [apply Rmult_le_compat; lra|lra]]). destruct (Rle_dec 0 r) as [Q|Q]; [apply Rle_trans with (1 * y); [apply Rmult_le_compat; lra|lra]|]. assert (0 <= p * q * - r) by (apply Rmult_le_pos; lra). lra.
  - assert (Q : Rabs (q * r) <= 1). { rewrite Rabs_mult, (Rabs_pos_eq q) by lra. apply Rle_trans with (1 * 1); [apply Rmult_le_compat; [lra|apply Rabs_pos|lra|apply Rabs_le; lra]|lra]. }
    apply Rabs_le_inv in Q. replace (p * q * r) with ((- p) * (- (q * r))) by ring. apply Rle_trans with (y * 1); [|lra]. destruct (Rle_dec 0 (- (q * r))) as [N|N]; [apply Rmult_le_compat; lra|]. assert (0 <= - p * (q * r)) by (apply Rmult_le_pos; lra). lra.
Qed.
Lemma side_near ax ay cx cy bx by_ cx' cy' bx' by' w : Rabs (cx - ax) <= 1024 -> Rabs (cy - ay) <= 1024 -> Rabs (bx - ax) <= 1024 -> Rabs (by_ - ay) <= 1024 ->
  Rabs (cx' - cx) <= w -> Rabs (cy' - cy) <= w -> Rabs (bx' - bx) <= w -> Rabs (by' - by_) <= w -> w <= 1 / 2 ->
  Rabs (side ax ay cx' cy' bx' by' - side ax ay cx cy bx by_) <= 4098 * w.
Proof.
  intros C1 C2 B1 B2 D1 D2 D3 D4 W. assert (P : forall p q m n, Rabs p <= m -> Rabs q <= n -> Rabs (p * q) <= m * n) by (intros p q m n Hp Hq; rewrite Rabs_mult; apply Rmult_le_compat; auto; apply Rabs_pos).
  unfold side. replace ((cy' - ay) * (bx' - ax) - (cx' - ax) * (by' - ay) - ((cy - ay) * (bx - ax) - (cx - ax) * (by_ - ay)))
    with ((cy' - cy) * (bx' - bx) + (cy' - cy) * (bx - ax) + (cy - ay) * (bx' - bx) - ((cx' - cx) * (by' - by_) + (cx' - cx) * (by_ - ay) + (cx - ax) * (by' - by_))) by ring.
  pose proof (P _ _ _ _ D2 D3) as Q1. pose proof (P _ _ _ _ D2 B1) as Q2. pose proof (P _ _ _ _ C2 D3) as Q3. pose proof (P _ _ _ _ D1 D4) as Q4. pose proof (P _ _ _ _ D1 B2) as Q5. pose proof (P _ _ _ _ C1 D4) as Q6.
  assert (WP : 0 <= w) by (apply Rle_trans with (2 := D1), Rabs_pos). assert (w * w <= 1 / 2 * w) by (apply Rmult_le_compat_r; lra).
  apply Rabs_le_inv in Q1, Q2, Q3, Q4, Q5, Q6. apply Rabs_le. lra.
Qed.
Lemma nearest_node u n : 0 <= u <= 1 -> (1 <= n)%nat -> exists j, (j <= n)%nat /\ Rabs (u - INR j / INR n) <= / (2 * INR n).
Proof.
  intros U N. assert (PN : 1 <= INR n) by (apply (le_INR 1); exact N). set (z := Zfloor (u * INR n + / 2)). pose proof (Zfloor_lb (u * INR n + / 2)) as L. pose proof (Zfloor_ub (u * INR n + / 2)) as V. fold z in L, V.
  assert (0 <= u * INR n <= INR n). { split; [apply Rmult_le_pos; lra|]. apply Rle_trans with (1 * INR n); [apply Rmult_le_compat_r; lra|lra]. }
  assert (Z0 : (0 <= z)%Z) by (apply (Zfloor_lub 0); lra). assert (Z1 : (z <= Z.of_nat n)%Z). { apply Z.lt_succ_r. apply lt_IZR. rewrite succ_IZR, <- INR_IZR_INZ. lra. }
  exists (Z.to_nat z). split; [lia|]. rewrite (INR_IZR_INZ (Z.to_nat z)), Z2Nat.id by exact Z0. replace (u - IZR z / INR n) with ((u * INR n - IZR z) * / INR n) by (field; lra).
  rewrite Rabs_mult, (Rabs_pos_eq (/ INR n)) by (apply Rlt_le, Rinv_0_lt_compat; lra). rewrite Rinv_mult. apply Rmult_le_compat_r; [apply Rlt_le, Rinv_0_lt_compat; lra|]. apply Rabs_le. lra.
Qed.
Lemma angle_ex x y : exists t, nrm x y * cos t = x /\ nrm x y * sin t = y.
Proof. destruct (PropArc.direction_of x y) as (_ & H). exists (PropArc.direction x y). exact H. Qed.
Lemma whole_diff a b : whole 512 a -> whole 512 b -> Rabs (px b - px a) <= 1024 /\ Rabs (py b - py a) <= 1024.
Proof.
  intros (_ & _ & ax & ay & Bax & Bay & Vax & Vay) (_ & _ & bx & by_ & Bbx & Bby & Vbx & Vby). rewrite Vax, Vay, Vbx, Vby, <- !minus_IZR, <- !abs_IZR. split; apply IZR_le; lia.
Qed.
Lemma arc_passes k o a b c X Y d ls : (9 <= k <= 12)%Z -> whole 512 a -> whole 512 b -> whole 512 c -> SpecCurves.within k o -> Rabs (px o - X) <= d -> Rabs (py o - Y) <= d -> d <= 1 / 8 -> circumcentre a b c X Y ->
  bpow radix2 (2 * k - 12) + 2050 <= area2 a b c -> follows_arc k o a b c ls -> ls <> [] -> passes (8 + 5 * bpow radix2 (k - 14) + 4 * d) b ls.
Proof.
  intros K Wa Wb Wc ((_ & Ox) & (_ & Oy)) HX HY HD (EB & EC) AR (al & T & H) NE. cbv zeta in H. set (rho := dist o a) in *. set (e := bpow radix2 (k - 14)) in *. set (tiny := bpow radix2 (-17)) in *. destruct H as (A1 & A2 & C1 & C2 & HT & (HN & _) & H).
  pose proof (gap_dist o X Y d a HX HY) as DA. pose proof (gap_dist o X Y d c HX HY) as DC. pose proof (gap_dist o X Y d b HX HY) as DB. fold rho in DA. assert (GC : gap X Y c = gap X Y a) by (unfold gap; f_equal; lra). assert (GB : gap X Y b = gap X Y a) by (unfold gap; f_equal; lra). rewrite GC in DC. rewrite GB in DB.
  assert (RP : 0 <= rho) by apply sqrt_pos. assert (DP : 0 <= d) by (apply Rle_trans with (2 := HX), Rabs_pos). assert (EP : 0 <= e) by apply bpow_ge_0.
  assert (RC : Rabs (rho - dist o c) <= 4 * d) by (apply Rabs_le_inv in DA, DC; apply Rabs_le; lra). assert (RB : Rabs (rho - dist o b) <= 4 * d) by (apply Rabs_le_inv in DA, DB; apply Rabs_le; lra).
  assert (TY : tiny = / 131072) by reflexivity. assert (P18 : bpow radix2 (2 * k - 18) <= bpow radix2 (2 * k - 12)) by (apply bpow_le; lia). pose proof (bpow_gt_0 radix2 (2 * k - 18)) as P18'.
  unfold area2 in AR. set (s := side (px a) (py a) (px c) (py c) (px b) (py b)) in *.
  assert (CASE : exists sg t, (sg = 1 \/ sg = -1) /\ T = sg * t /\ - tiny <= t <= 2 * PI + tiny /\ sg * s = Rabs s).
  { destruct HT as [(B & S)|(B & S)]; [exists 1, T|exists (-1), (- T)]; (split; [auto|]); (split; [ring|]); (split; [lra|]).
    - rewrite Rmult_1_l, Rabs_pos_eq; [reflexivity|]. revert AR. unfold Rabs. destruct (Rcase_abs s); lra.
    - rewrite Rabs_left1; [ring|]. revert AR. unfold Rabs. destruct (Rcase_abs s); lra. }
  destruct CASE as (sg & t & SG & ET & BT & SS). destruct (angle_ex (px b - px o) (py b - py o)) as (be & G1 & G2). rewrite <- (dist_nrm o b) in G1, G2.
  destruct (turn_side sg al be SG) as (v & BV & CV & SV). rewrite <- CV in G1. rewrite <- SV in G2. clear be CV SV.
  unfold arc_x, arc_y in A1, A2. rewrite Rmult_0_l, Rplus_0_r in A1, A2.
  assert (VT : v <= t).
  { destruct (Rle_lt_dec v t) as [L|L]; [exact L|exfalso]. pose proof (late_small t v tiny ltac:(lra) BT BV L) as SM. pose proof (chord_side (px o) (py o) rho al t v sg SG) as CS. rewrite A1, A2 in CS.
    destruct (scaled _ _ (al + sg * t) _ RC) as (D1 & D2). destruct (scaled _ _ (al + sg * v) _ RB) as (D3 & D4). rewrite <- ET in D1, D2. destruct (whole_diff a c Wa Wc) as (Q1 & Q2). destruct (whole_diff a b Wa Wb) as (Q3 & Q4).
    assert (SN : Rabs (side (px a) (py a) (px o + rho * cos (al + sg * t)) (py o + rho * sin (al + sg * t)) (px o + rho * cos (al + sg * v)) (py o + rho * sin (al + sg * v)) - s) <= 4098 * (4 * d)).
    { apply side_near; auto; [| | | |lra].
      - rewrite <- C1, <- ET. replace (px o + rho * cos (al + T) - (px o + dist o c * cos (al + T))) with (rho * cos (al + T) - dist o c * cos (al + T)) by ring. exact D1.
      - rewrite <- C2, <- ET. replace (py o + rho * sin (al + T) - (py o + dist o c * sin (al + T))) with (rho * sin (al + T) - dist o c * sin (al + T)) by ring. exact D2.
      - replace (px o + rho * cos (al + sg * v) - px b) with (rho * cos (al + sg * v) - (px b - px o)) by ring. rewrite <- G1. exact D3.
      - replace (py o + rho * sin (al + sg * v) - py b) with (rho * sin (al + sg * v) - (py b - py o)) by ring. rewrite <- G2. exact D4. }
    rewrite CS in SN. set (w := sin (t / 2) * sin (v / 2) * sin ((t - v) / 2)) in *.
    assert (R2 : 0 <= 4 * (rho * rho) <= 32 * (bpow radix2 k * bpow radix2 k)).
    { assert (EQ : rho * rho = (px a - px o) * (px a - px o) + (py a - py o) * (py a - py o)) by (unfold rho; rewrite dist_nrm; apply nrm_sq). assert (HK : 512 <= bpow radix2 k) by (change 512 with (bpow radix2 9); apply bpow_le; lia). set (U := bpow radix2 k) in *.
      destruct Wa as (_ & _ & ax & ay & Bax & Bay & Vax & Vay). assert (BX : Rabs (px a) <= U) by (rewrite Vax, <- abs_IZR; apply Rle_trans with (2 := HK); apply IZR_le; exact Bax). assert (BY : Rabs (py a) <= U) by (rewrite Vay, <- abs_IZR; apply Rle_trans with (2 := HK); apply IZR_le; exact Bay).
      fold (px o) in Ox. fold (py o) in Oy. apply Rabs_le_inv in BX, BY, Ox, Oy. assert (SQ : forall z, - (2 * U) <= z <= 2 * U -> 0 <= z * z <= 4 * (U * U)) by (intros z Hz; assert (0 <= (2 * U - z) * (2 * U + z)) by (apply Rmult_le_pos; lra); pose proof (Rle_0_sqr z) as Z2; unfold Rsqr in Z2; lra). pose proof (SQ (px a - px o) ltac:(lra)). pose proof (SQ (py a - py o) ltac:(lra)). lra. }
    assert (PW : 32 * (bpow radix2 k * bpow radix2 k) * tiny = bpow radix2 (2 * k - 12)) by (unfold tiny; change 32 with (bpow radix2 5); rewrite <- !bpow_plus; f_equal; lia).
    assert (BW : 4 * (rho * rho) * w <= bpow radix2 (2 * k - 12)). { destruct (Rle_dec 0 w) as [W|W]; [rewrite <- PW; apply Rmult_le_compat; lra|]. assert (0 <= 4 * (rho * rho) * - w) by (apply Rmult_le_pos; lra). pose proof (bpow_ge_0 radix2 (2 * k - 12)). lra. }
    apply Rabs_le_inv in SN. destruct SG as [->| ->]; lra. }
  assert (UU : exists u, 0 <= u <= 1 /\ sg * v = u * T).
  { destruct (Rle_lt_dec t 0) as [L|L]; [exists 0; split; [lra|]; replace v with 0 by lra; ring|]. exists (v / t). split; [|rewrite ET; field; lra]. split; [apply Rle_mult_inv_pos; lra|]. apply Rmult_le_reg_r with t; [exact L|]. unfold Rdiv. rewrite Rmult_assoc, Rinv_l by lra. lra. }
  destruct UU as (u & BU & EU). rewrite EU in G1, G2. assert (N1 : (1 <= length ls)%nat) by (destruct ls; [congruence|cbn [length]; lia]).
  destruct (nearest_node u (length ls) BU N1) as (j & BJ & DJ). set (n := INR (length ls)) in *. assert (PN : 1 <= n) by (apply (le_INR 1); exact N1).
  assert (STEP : rho * Rabs (INR j / n * T - u * T) <= 8 + 4 * e).
  { rewrite <- Rmult_minus_distr_r, Rabs_mult, <- Rabs_Ropp, Ropp_minus_distr. apply Rle_trans with (rho * (/ (2 * n) * Rabs T)); [apply Rmult_le_compat_l; [exact RP|]; apply Rmult_le_compat_r; [apply Rabs_pos|exact DJ]|].
    apply Rmult_le_reg_r with (2 * n); [lra|]. replace (rho * (/ (2 * n) * Rabs T) * (2 * n)) with (rho * Rabs T) by (field; lra). assert (4 * e * 1 <= 4 * e * n) by (apply Rmult_le_compat_l; lra).
    assert (X1 : rho * Rabs T <= 8 * n + 8 + 8 * e) by (fold n in HN; unfold Rdiv in HN; lra). lra. }
  assert (NODE : forall q, close e q (arc_x o rho al T (INR j / n)) (arc_y o rho al T (INR j / n)) -> close (8 + 5 * e + 4 * d) q (px b) (py b)).
  { intros q (F & G & Q1 & Q2). unfold arc_x, arc_y in Q1, Q2. split; [exact F|]. split; [exact G|]. destruct (scaled _ _ (al + u * T) _ RB) as (D3 & D4). rewrite G1 in D3. rewrite G2 in D4.
    pose proof (cos_lip (al + INR j / n * T) (al + u * T)) as LC. pose proof (sin_lip (al + INR j / n * T) (al + u * T)) as LS. replace (al + INR j / n * T - (al + u * T)) with (INR j / n * T - u * T) in LC, LS by ring.
    assert (MC : forall f g, Rabs (f - g) <= Rabs (INR j / n * T - u * T) -> Rabs (rho * f - rho * g) <= 8 + 4 * e). { intros f g L. rewrite <- Rmult_minus_distr_l, Rabs_mult, (Rabs_pos_eq rho) by exact RP. apply Rle_trans with (2 := STEP). apply Rmult_le_compat_l; assumption. }
    pose proof (MC _ _ LC) as MC1. pose proof (MC _ _ LS) as MC2. apply Rabs_le_inv in Q1, Q2, D3, D4, MC1, MC2. split; apply Rabs_le; lra. }
  destruct j as [|j].
  - destruct ls as [|l r]; [congruence|]. exists l. split; [now left|]. left. apply NODE. apply (H 0%nat l eq_refl).
  - destruct (nth_error ls j) as [l|] eqn:E; [|apply nth_error_None in E; lia]. exists l. split; [exact (nth_error_In _ _ E)|]. right. apply NODE. apply (H j l E).
Qed.

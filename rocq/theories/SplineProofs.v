(** Proof scripts for C104. *)
From Coq Require Import Reals Lra Psatz.
From Flocq Require Import Core.
From Verif Require Import SpecShape SpecSpline.
Open Scope R_scope.

Lemma spline_chord a b c d t h s : (1 - s) * spline a b c d t + s * spline a b c d (t + h) - spline a b c d (t + s * h) =
  s * (1 - s) * (h * h) / 2 * ((1 - (t + (1 + s) * h / 3)) * (2 * a - 5 * b + 4 * c - d) + (t + (1 + s) * h / 3) * (2 * d - 5 * c + 4 * b - a)).
Proof. unfold spline. field. Qed.
Lemma bend_pos a b c d : 0 <= bend a b c d.
Proof. unfold bend. apply Rle_trans with (2 := Rmax_l _ _). apply Rabs_pos. Qed.
Lemma spline_near a b c d t h s : 0 <= t -> 0 <= h -> t + h <= 1 -> 0 <= s <= 1 ->
  Rabs ((1 - s) * spline a b c d t + s * spline a b c d (t + h) - spline a b c d (t + s * h)) <= h * h / 8 * bend a b c d.
Proof.
  intros T H TH S. rewrite spline_chord. set (w := t + (1 + s) * h / 3). set (A := 2 * a - 5 * b + 4 * c - d). set (B := 2 * d - 5 * c + 4 * b - a).
  assert (SH : 0 <= s * h <= h). { split; [apply Rmult_le_pos; lra|]. rewrite <- (Rmult_1_l h) at 2. apply Rmult_le_compat_r; lra. }
  assert (W : 0 <= w <= 1) by (unfold w; lra).
  assert (SS : 0 <= s * (1 - s) <= / 4). { split; [apply Rmult_le_pos; lra|]. assert (0 <= (s - / 2) * (s - / 2)) by apply Rle_0_sqr. lra. }
  assert (HH : 0 <= h * h) by (apply Rmult_le_pos; lra). pose proof (bend_pos a b c d) as BP.
  assert (MA : Rabs A <= bend a b c d) by apply Rmax_l. assert (MB : Rabs B <= bend a b c d) by apply Rmax_r. set (m := bend a b c d) in *. clearbody m.
  assert (C : Rabs ((1 - w) * A + w * B) <= m).
  { apply Rle_trans with (1 := Rabs_triang _ _). rewrite !Rabs_mult, (Rabs_pos_eq (1 - w)), (Rabs_pos_eq w) by lra.
    assert ((1 - w) * Rabs A <= (1 - w) * m) by (apply Rmult_le_compat_l; lra). assert (w * Rabs B <= w * m) by (apply Rmult_le_compat_l; lra). lra. }
  rewrite Rabs_mult. apply Rmult_le_compat; [apply Rabs_pos|apply Rabs_pos| |exact C].
  assert (Q : 0 <= s * (1 - s) * (h * h) <= / 4 * (h * h)) by (split; [apply Rmult_le_pos; lra|apply Rmult_le_compat_r; lra]). rewrite Rabs_pos_eq; lra.
Qed.

(** A point of a chord between two points at distances near r. *)
Lemma chord_far2 X Y x1 y1 x2 y2 s : far2 X Y ((1 - s) * x1 + s * x2) ((1 - s) * y1 + s * y2) =
  (1 - s) * far2 X Y x1 y1 + s * far2 X Y x2 y2 - s * (1 - s) * far2 x1 y1 x2 y2.
Proof. unfold far2. ring. Qed.
Lemma chord_near X Y x1 y1 x2 y2 s lo hi : 0 <= s <= 1 -> lo <= far2 X Y x1 y1 <= hi -> lo <= far2 X Y x2 y2 <= hi ->
  lo - far2 x1 y1 x2 y2 / 4 <= far2 X Y ((1 - s) * x1 + s * x2) ((1 - s) * y1 + s * y2) <= hi.
Proof.
  intros S A B. rewrite chord_far2. set (p := far2 X Y x1 y1) in *. set (q := far2 X Y x2 y2) in *.
  assert (C : 0 <= far2 x1 y1 x2 y2) by (unfold far2; pose proof (Rle_0_sqr (x2 - x1)); pose proof (Rle_0_sqr (y2 - y1)); unfold Rsqr in *; lra). set (c := far2 x1 y1 x2 y2) in *. clearbody p q c.
  assert (SS : 0 <= s * (1 - s) <= / 4). { split; [apply Rmult_le_pos; lra|]. assert (0 <= (s - / 2) * (s - / 2)) by apply Rle_0_sqr. lra. }
  assert (D : 0 <= s * (1 - s) * c <= / 4 * c) by (split; [apply Rmult_le_pos; lra|apply Rmult_le_compat_r; lra]).
  assert (E1 : (1 - s) * lo <= (1 - s) * p <= (1 - s) * hi) by (split; apply Rmult_le_compat_l; lra). assert (E2 : s * lo <= s * q <= s * hi) by (split; apply Rmult_le_compat_l; lra). lra.
Qed.

(** The square of a chord of the circle of radius 1. *)
Lemma chord_eq t d : (cos (t + d) - cos t) * (cos (t + d) - cos t) + (sin (t + d) - sin t) * (sin (t + d) - sin t) = 4 * (sin (d / 2) * sin (d / 2)).
Proof.
  replace (t + d) with ((t + d / 2) + d / 2) by field. replace t with ((t + d / 2) - d / 2) at 2 4 6 8 by field. set (u := t + d / 2). set (v := d / 2).
    rewrite cos_plus, cos_minus, sin_plus, sin_minus. pose proof (sin2_cos2 u) as Q. unfold Rsqr in Q.
    replace ((cos u * cos v - sin u * sin v - (cos u * cos v + sin u * sin v)) * (cos u * cos v - sin u * sin v - (cos u * cos v + sin u * sin v)) + (sin u * cos v + cos u * sin v - (sin u * cos v - cos u * sin v)) * (sin u * cos v + cos u * sin v - (sin u * cos v - cos u * sin v)))
      with (4 * ((sin u * sin u + cos u * cos u) * (sin v * sin v))) by ring. rewrite Q. ring.
Qed.
Lemma sin_many n x : Rabs (sin (INR n * x)) <= INR n * Rabs (sin x).
Proof.
  induction n as [|n IH]; [change (INR 0) with 0; rewrite !Rmult_0_l, sin_0, Rabs_R0; lra|]. rewrite S_INR. replace ((INR n + 1) * x) with (INR n * x + x) by ring. rewrite sin_plus. apply Rle_trans with (1 := Rabs_triang _ _). rewrite !Rabs_mult.
  assert (C : forall z, Rabs (cos z) <= 1) by (intros z; apply Rabs_le; pose proof (COS_bound z); lra). pose proof (C x) as C1. pose proof (C (INR n * x)) as C2.
  assert (A : Rabs (sin (INR n * x)) * Rabs (cos x) <= Rabs (sin (INR n * x)) * 1) by (apply Rmult_le_compat_l; [apply Rabs_pos|exact C1]).
  assert (B : Rabs (cos (INR n * x)) * Rabs (sin x) <= 1 * Rabs (sin x)) by (apply Rmult_le_compat_r; [apply Rabs_pos|exact C2]). lra.
Qed.
(** Points of a circle are no further apart than along it. *)
Lemma chord_arc t d : (cos (t + d) - cos t) * (cos (t + d) - cos t) + (sin (t + d) - sin t) * (sin (t + d) - sin t) <= d * d.
Proof.
  rewrite chord_eq. set (v := d / 2). assert (A : Rabs (sin v) <= Rabs v).
  { assert (P : forall z, 0 <= z -> Rabs (sin z) <= z).
    { intros z [Z|<-]; [|rewrite sin_0, Rabs_R0; lra]. pose proof (SIN_bound z) as B. pose proof (sin_lt_x z Z) as U. destruct (Rle_or_lt 1 z) as [C|C]; [apply Rabs_le; lra|]. rewrite Rabs_pos_eq; [lra|]. apply sin_ge_0; [lra|]. pose proof PI_4. pose proof PI2_1. lra. }
    destruct (Rle_or_lt 0 v) as [C|C]; [rewrite (Rabs_pos_eq v) by exact C; apply P, C|]. rewrite (Rabs_left v) by exact C. rewrite <- Rabs_Ropp, <- sin_neg. apply P. lra. }
  assert (S : sin v * sin v <= v * v). { rewrite <- (Rabs_pos_eq (sin v * sin v)), <- (Rabs_pos_eq (v * v)), !Rabs_mult by (apply Rle_0_sqr). apply Rmult_le_compat; try apply Rabs_pos; exact A. }
  unfold v in *. lra.
Qed.
Lemma chord_far r t d : far2 (r * cos t) (r * sin t) (r * cos (t + d)) (r * sin (t + d)) <= (r * d) * (r * d).
Proof.
  unfold far2. pose proof (chord_arc t d) as C. replace ((r * cos (t + d) - r * cos t) * (r * cos (t + d) - r * cos t) + (r * sin (t + d) - r * sin t) * (r * sin (t + d) - r * sin t)) with (r * r * ((cos (t + d) - cos t) * (cos (t + d) - cos t) + (sin (t + d) - sin t) * (sin (t + d) - sin t))) by ring.
  replace (r * d * (r * d)) with (r * r * (d * d)) by ring. apply Rmult_le_compat_l; [apply Rle_0_sqr|exact C].
Qed.
(** Moving both ends by a quarter in either direction. *)
Lemma far2_moved x1 y1 x2 y2 X1 Y1 X2 Y2 e : 0 <= e <= / 4 -> far2 X1 Y1 X2 Y2 <= 18 * 18 -> Rabs (x1 - X1) <= e -> Rabs (y1 - Y1) <= e -> Rabs (x2 - X2) <= e -> Rabs (y2 - Y2) <= e -> far2 x1 y1 x2 y2 <= 20 * 20.
Proof.
  unfold far2. intros E F A B C D. set (u := X2 - X1) in *. set (v := Y2 - Y1) in *. apply Rabs_le_inv in A, B, C, D.
  assert (U : - 18 <= u <= 18). { split; nra. } assert (V : - 18 <= v <= 18). { split; nra. }
  assert (P : exists p, x2 - x1 = u + p /\ - (1 / 2) <= p <= 1 / 2) by (exists (x2 - X2 - (x1 - X1)); unfold u; split; [ring|lra]). destruct P as (p & -> & P).
  assert (Q : exists q, y2 - y1 = v + q /\ - (1 / 2) <= q <= 1 / 2) by (exists (y2 - Y2 - (y1 - Y1)); unfold v; split; [ring|lra]). destruct Q as (q & -> & Q). clearbody u v.
  assert (PP : p * p <= 1 / 4) by nra. assert (QQ : q * q <= 1 / 4) by nra.
  assert (UP : u * p <= 9). { apply Rle_trans with (1 := Rle_abs _). rewrite Rabs_mult. apply Rle_trans with (18 * (1 / 2)); [|lra]. apply Rmult_le_compat; try apply Rabs_pos; apply Rabs_le; lra. }
  assert (VQ : v * q <= 9). { apply Rle_trans with (1 := Rle_abs _). rewrite Rabs_mult. apply Rle_trans with (18 * (1 / 2)); [|lra]. apply Rmult_le_compat; try apply Rabs_pos; apply Rabs_le; lra. }
  replace ((u + p) * (u + p) + (v + q) * (v + q)) with (u * u + v * v + 2 * (u * p) + 2 * (v * q) + p * p + q * q) by ring. lra.
Qed.
(** Moving the ends of a long line shortens it little. *)
Lemma far2_least u v p q w : / 4 <= w -> u * u + v * v = w * w -> Rabs p <= / 16 -> Rabs q <= / 16 -> w - / 8 <= sqrt ((u + p) * (u + p) + (v + q) * (v + q)).
Proof.
  intros W E P Q. apply Rabs_le_inv in P, Q. assert (U2 : 0 <= u * u) by apply Rle_0_sqr. assert (V2 : 0 <= v * v) by apply Rle_0_sqr.
  assert (UV : Rabs u + Rabs v <= 3 / 2 * w).
  { assert (QU : Rabs u * Rabs u = u * u) by (rewrite <- Rabs_mult; apply Rabs_pos_eq, U2). assert (QV : Rabs v * Rabs v = v * v) by (rewrite <- Rabs_mult; apply Rabs_pos_eq, V2).
    pose proof (Rabs_pos u). pose proof (Rabs_pos v). set (x := Rabs u) in *. set (y := Rabs v) in *. clearbody x y. assert (0 <= (x - y) * (x - y)) by apply Rle_0_sqr.
    apply Rsqr_incr_0; [unfold Rsqr; nra|lra|lra]. }
  assert (UP : - (Rabs u / 16) <= u * p). { assert (A : Rabs (u * p) <= Rabs u * / 16) by (rewrite Rabs_mult; apply Rmult_le_compat_l; [apply Rabs_pos|apply Rabs_le; lra]). apply Rabs_le_inv in A. lra. }
  assert (VQ : - (Rabs v / 16) <= v * q). { assert (A : Rabs (v * q) <= Rabs v * / 16) by (rewrite Rabs_mult; apply Rmult_le_compat_l; [apply Rabs_pos|apply Rabs_le; lra]). apply Rabs_le_inv in A. lra. }
  assert (P2 : 0 <= p * p) by apply Rle_0_sqr. assert (Q2 : 0 <= q * q) by apply Rle_0_sqr.
  rewrite <- (sqrt_square (w - / 8)) by lra. apply sqrt_le_1_alt. replace ((u + p) * (u + p) + (v + q) * (v + q)) with (w * w + 2 * (u * p) + 2 * (v * q) + p * p + q * q) by (rewrite <- E; ring). lra.
Qed.

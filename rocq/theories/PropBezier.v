(** C101: sliders of type B follow the Bezier curve of their points. *)
From Coq Require Import Reals Lra ZArith Lia Bool.
From Flocq Require Import Core BinarySingleNaN.
From Verif Require Import GoBase GoFloat Curves SpecCurves SpecArc SpecShape SpecCurveApi SpecTerm SpecBezier BaseLemmas FloatLemmas Float32Lemmas BoundLemmas BezierProofs CurveBounds ShapeProofs BezierReal BezierAlong PropCurves PropShape PropTerm.
From Coq Require Import List.
Import ListNotations.
Open Scope R_scope.

(** The Bernstein polynomial of the specification is the point that
    de Casteljau's construction ends with. *)
Theorem C101_casteljau : forall l t, l <> [] -> casteljau l t = bezier l t.
Proof. exact casteljau_bezier. Qed.
(** What following a curve means: every point of the curve is near a point of
    one of the lines, and every point of the lines near a point of the curve. *)
Theorem C101_covers : forall e x y a qs b, follows e x y a qs b -> a < b -> forall t, a <= t <= b ->
  exists l s, In l (polyline qs) /\ 0 <= s <= 1 /\
    Rabs ((1 - s) * px (ln_p1 l) + s * px (ln_p2 l) - x t) <= e /\ Rabs ((1 - s) * py (ln_p1 l) + s * py (ln_p2 l) - y t) <= e.
Proof.
  intros e x y a qs b H. induction H as [t0 q _ _|t0 t1 t2 q q' r L K F IH]; intros AB t T; [lra|].
  destruct (Rle_or_lt t t1) as [C|C].
  - exists (mkLinear q q'), ((t - t0) / (t1 - t0)). assert (S1 : 0 <= (t - t0) / (t1 - t0) <= 1).
    { split; [apply Rmult_le_pos; [lra|apply Rlt_le, Rinv_0_lt_compat; lra]|]. apply Rmult_le_reg_r with (t1 - t0); [lra|]. unfold Rdiv. rewrite Rmult_assoc, Rinv_l by lra. lra. }
    split; [left; reflexivity|]. split; [exact S1|]. cbn [ln_p1 ln_p2]. destruct (K _ S1) as [KX KY].
    replace ((1 - (t - t0) / (t1 - t0)) * t0 + (t - t0) / (t1 - t0) * t1) with t in KX, KY by (field; lra). auto.
  - destruct (IH ltac:(lra) t ltac:(lra)) as (l & s & I & R). exists l, s. split; [right; exact I|exact R].
Qed.
Theorem C101_covered : forall e x y a qs b, follows e x y a qs b -> forall l s, In l (polyline qs) -> 0 <= s <= 1 ->
  exists t, a <= t <= b /\ Rabs ((1 - s) * px (ln_p1 l) + s * px (ln_p2 l) - x t) <= e /\ Rabs ((1 - s) * py (ln_p1 l) + s * py (ln_p2 l) - y t) <= e.
Proof.
  intros e x y a qs b H. induction H as [t0 q _ _|t0 t1 t2 q q' r L K F IH]; intros l s I S1; [destruct I|].
  pose proof (BezierNear.follows_le _ _ _ _ _ _ F) as LE. destruct I as [<-|I].
  - exists ((1 - s) * t0 + s * t1). cbn [ln_p1 ln_p2]. split; [|exact (K s S1)].
    assert ((1 - s) * t0 <= (1 - s) * t1) by (apply Rmult_le_compat_l; lra). assert (s * t0 <= s * t1) by (apply Rmult_le_compat_l; lra). lra.
  - destruct (IH l s I S1) as (t & T & R). exists t. split; [lra|exact R].
Qed.

Section WithLibm.
Context {M : libm}.
Lemma small_INR k n : (0 <= k)%Z -> ((Z.of_nat n + 8) * 2 ^ k <= 2 ^ 22)%Z -> (0 <= k <= 22)%Z /\ (INR n + 8) * bpow radix2 k <= bpow radix2 22.
Proof.
  intros K H. assert (K2 : (k <= 22)%Z).
  { apply Z.lt_succ_r, Z.nle_gt. intros C. assert (2 ^ 23 <= 2 ^ k)%Z by (apply Z.pow_le_mono_r; lia). assert (2 ^ 22 < 2 ^ 23)%Z by reflexivity. nia. }
  split; [lia|]. rewrite <- !IZR_Zpower by lia. rewrite INR_IZR_INZ, <- plus_IZR, <- mult_IZR. apply IZR_le. exact H.
Qed.
(** The points CreateBezier returns. *)
Theorem C101_flatten : forall fuel k cp qs, (0 <= k)%Z -> Forall (within k) cp -> ((Z.of_nat (length cp) + 8) * 2 ^ k <= 2 ^ 22)%Z ->
  create_bezier fuel cp = Ok qs -> along (bezier_gap k (length cp)) cp qs.
Proof.
  intros fuel k cp qs K F S H. assert (NE : cp <> []) by (intros ->; discriminate H). destruct (small_INR k _ K S) as [K2 S2].
  pose proof (create_bezier_result fuel cp NE) as R. rewrite H in R. destruct R as (o & FL & ->). now apply flattens_along.
Qed.
Lemma pieces_sub from p ps : pieces from p ps -> p <> [] -> Forall (fun q => q <> [] /\ incl q p /\ (length q <= length p)%nat) ps.
Proof.
  intros H. induction H as [from p _|from p i ps _ (L & _) _ _ IH]; intros NE.
  - apply Forall_cons; [|apply Forall_nil]. split; [exact NE|]. split; [apply incl_refl|lia].
  - apply Forall_cons.
    + split; [destruct p; [congruence|discriminate]|]. split; [intros x I; rewrite <- (firstn_skipn (S i) p); apply in_or_app; now left|rewrite firstn_length; lia].
    + assert (N2 : skipn (S i) p <> []) by (intros C; apply (f_equal (@length _)) in C; rewrite skipn_length in C; cbn in C; lia).
      specialize (IH N2). eapply Forall_impl; [|exact IH]. intros q (A & B & C). split; [exact A|]. split; [|rewrite skipn_length in C; lia].
      intros x I. rewrite <- (firstn_skipn (S i) p). apply in_or_app. right. now apply B.
Qed.
Lemma gap_pos k n : 0 <= bezier_gap k n.
Proof.
  unfold bezier_gap. pose proof (bpow_gt_0 radix2 (k - 23)) as U. set (u := bpow radix2 (k - 23)) in *. pose proof (pos_INR n). pose proof (pow2_ge_0 (INR (n - 1))).
  assert (0 <= (/ 2 + 10 * u) * (INR (n - 1) ^ 2 + 2)) by (apply Rmult_le_pos; lra). assert (0 <= INR n * u) by (apply Rmult_le_pos; lra). lra.
Qed.
Lemma line_along e a b : 0 <= e -> along e [a; b] [a; b].
Proof.
  intros E. unfold along. assert (C : forall f s, bezier [f a; f b] s = (1 - s) * f a + s * f b).
  { intros f s. rewrite <- casteljau_bezier by discriminate. reflexivity. }
  cbn [map]. apply follows_line with 1; [lra| |].
  - intros s S1. rewrite (C px), (C py). replace ((1 - s) * 0 + s * 1) with s by ring. rewrite !Rminus_diag_eq, Rabs_R0 by reflexivity. lra.
  - apply follows_end; [rewrite (C px); replace (px b - ((1 - 1) * px a + 1 * px b)) with 0 by ring|rewrite (C py); replace (py b - ((1 - 1) * py a + 1 * py b)) with 0 by ring]; rewrite Rabs_R0; lra.
Qed.
(** A slider of type B: every piece is drawn along its own Bezier curve. *)
Theorem C101_slider : forall fuel k pts mc, (0 <= k)%Z -> Forall (within k) pts -> ((Z.of_nat (length pts) + 8) * 2 ^ k <= 2 ^ 22)%Z ->
  new_multicurve fuel (lit "B") pts = Ok mc ->
  exists ps qss, pieces 0 pts ps /\ mc_lines mc = concat (map polyline qss) /\ Forall2 (fun p qs => along (bezier_gap k (length p)) p qs) ps qss.
Proof.
  intros fuel k pts mc K F S H. assert (NE : pts <> []) by (intros ->; discriminate H).
  destruct (C74_bezier fuel pts mc H) as (ps & lss & HP & HD & E). pose proof (pieces_sub 0 pts ps HP NE) as SUB.
  exists ps. assert (Q : exists qss, lss = map polyline qss /\ Forall2 (fun p qs => along (bezier_gap k (length p)) p qs) ps qss).
  { clear E HP H. induction HD as [|p ls ps lss D HD IH]; [exists []; auto|]. inversion SUB as [|? ? (NP & IN & LE) SUB']; subst. destruct (IH SUB') as (qss & -> & FQ).
    assert (FP : Forall (within k) p) by (apply Forall_forall; intros q I; rewrite Forall_forall in F; apply F, IN, I).
    destruct D as [(L2 & ->)|(_ & o & FL & ->)].
    - exists (p :: qss). split; [reflexivity|]. apply Forall2_cons; [|exact FQ]. destruct p as [|a [|b [|]]]; try discriminate L2. apply line_along, gap_pos.
    - exists ((o ++ [last p vzero]) :: qss). split; [reflexivity|]. apply Forall2_cons; [|exact FQ].
      assert (Sp : ((Z.of_nat (length p) + 8) * 2 ^ k <= 2 ^ 22)%Z).
      { eapply Z.le_trans; [|exact S]. apply Z.mul_le_mono_nonneg_r; [apply Z.pow_nonneg; lia|lia]. }
      destruct (small_INR k _ K Sp) as [K2 S2]. now apply flattens_along. }
  destruct Q as (qss & -> & FQ). exists qss. auto.
Qed.
End WithLibm.

(** ** Concrete cases *)
(** How near: three points with coordinates up to 512 keep within 0.2 of a pixel. *)
Example C101_gap : bezier_gap 9 3 <= 0.2.
Proof. unfold bezier_gap. change (bpow radix2 (9 - 23)) with (/ 16384). cbn. lra. Qed.
(** an arch of coordinates up to 4096, drawn with more than 100 lines *)
Example C101_instance : Forall (within 12) arch /\ ((Z.of_nat (length arch) + 8) * 2 ^ 12 <= 2 ^ 22)%Z /\
  (forall M : libm, match create_bezier 600 arch with Ok l => Nat.ltb 100 (length l) | _ => false end = true).
Proof. split; [apply inside_ok; vm_compute; reflexivity|]. split; [vm_compute; discriminate|]. intros M. vm_compute. reflexivity. Qed.
(** five points, the second doubled: a line and a curve *)
Definition bent_slider : list vec := map (fun p : Z * Z => mkVec (gq (fst p) 1) (gq (snd p) 1)) [(0, 0); (100, 300); (100, 300); (200, 0); (300, 200)]%Z.
Example C101_slider_instance : Forall (within 12) bent_slider /\ ((Z.of_nat (length bent_slider) + 8) * 2 ^ 12 <= 2 ^ 22)%Z /\
  (forall M : libm, match new_multicurve 600 (lit "B") bent_slider with Ok mc => Nat.ltb 10 (length (mc_lines mc)) | _ => false end = true).
Proof. split; [apply inside_ok; vm_compute; reflexivity|]. split; [vm_compute; discriminate|]. intros M. vm_compute. reflexivity. Qed.
(** a two-line walk along the parabola of the arch 0, 1, 0 *)
Example C101_covers_instance : exists qs, follows 1 (fun t => t) (bezier [0; 1; 0]) 0 qs 1 /\ (2 <= length qs)%nat.
Proof.
  exists [mkVec (gq 0 1) (gq 0 1); mkVec (gq 1 1) (gq 0 1)]. split; [|cbn; lia].
  assert (Z0 : px (mkVec (gq 0 1) (gq 0 1)) = 0 /\ py (mkVec (gq 0 1) (gq 0 1)) = 0) by (unfold px, py; cbn [vx vy]; bval (gq 0 1); lra).
  assert (Z1 : px (mkVec (gq 1 1) (gq 0 1)) = 1 /\ py (mkVec (gq 1 1) (gq 0 1)) = 0) by (unfold px, py; cbn [vx vy]; bval (gq 0 1); bval (gq 1 1); lra).
  destruct Z0 as [X0 Y0], Z1 as [X1 Y1].
  assert (C : forall s, bezier [0; 1; 0] s = 2 * s * (1 - s)) by (intros s; rewrite <- casteljau_bezier by discriminate; unfold casteljau; cbn; ring).
  apply follows_line with 1; [lra| |apply follows_end].
  - intros s S1. rewrite X0, X1, Y0, Y1, C. replace ((1 - s) * 0 + s * 1 - ((1 - s) * 0 + s * 1)) with 0 by ring. rewrite Rabs_R0. split; [lra|].
    assert (0 <= s * (1 - s)) by (apply Rmult_le_pos; lra). assert (0 <= (s - / 2) * (s - / 2)) by apply Rle_0_sqr. apply Rabs_le. lra.
  - rewrite X1. replace (1 - 1) with 0 by ring. rewrite Rabs_R0. lra.
  - rewrite Y1, C. replace (0 - 2 * 1 * (1 - 1)) with 0 by ring. rewrite Rabs_R0. lra.
Qed.

Print Assumptions C101_casteljau.
Print Assumptions C101_covers.
Print Assumptions C101_covered.
Print Assumptions C101_flatten.
Print Assumptions C101_slider.

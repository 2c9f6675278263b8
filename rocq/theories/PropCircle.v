(** C100: sliders of type P follow the circle through their three points. *)
From Coq Require Import Reals ZArith Lra Lia List Bool.
From Flocq Require Import Core BinarySingleNaN.
From Verif Require Import GoFloat Curves SpecCurves SpecArc SpecCircle SpecShape BaseLemmas FloatLemmas Float32Lemmas BoundLemmas CurveProofs ArcCentre CircleProofs Parser PropTerm PropShape PropArc.
From Verif Require PropCurves.
Import ListNotations.
Open Scope R_scope.

(** C100.  Three points of whole coordinates up to 1024 count as straight
    exactly if they are on a line. *)
Theorem C100_straight : forall a b c, whole 1024 a -> whole 1024 b -> whole 1024 c -> is_straight a b c = true <-> area2 a b c = 0.
Proof. exact straight_whole. Qed.

Section WithLibm.
Context {M : libm}.
(** Then the slider consists of the lines between them ... *)
Theorem C100_line : forall fuel a b c, whole 1024 a -> whole 1024 b -> whole 1024 c -> area2 a b c = 0 ->
  exists mc, new_multicurve fuel (lit "P") [a; b; c] = Ok mc /\ mc_lines mc = filter has_length (polyline [a; b; c]).
Proof.
  intros fuel a b c Wa Wb Wc A. apply straight_whole in A; auto. rewrite (C74_perfect fuel [a; b; c]) by (right; eauto). eexists. split; [reflexivity|]. apply (C74_linear fuel). reflexivity.
Qed.
(** ... and otherwise of lines whose ends are on the circle through all three,
    of centre (X, Y), from the first point to the third and past the second,
    which is at most half a line away from an end.  The errors grow as the
    triangle gets flat. *)
Theorem C100_circle : forall fuel k a b c X Y, trig_near -> atan2_near -> (9 <= k <= 12)%Z -> whole 512 a -> whole 512 b -> whole 512 c -> area2 a b c <> 0 ->
  circumcentre a b c X Y -> Rabs X <= bpow radix2 k - 151 -> Rabs Y <= bpow radix2 k - 151 ->
  exists mc, new_multicurve (S fuel) (lit "P") [a; b; c] = Ok mc /\ let ls := mc_lines mc in let f := 600 / area2 a b c in
    round_lines (f + bpow radix2 (k - 12)) X Y a ls /\ joins (f + bpow radix2 (k - 13)) a c ls /\
    (bpow radix2 (2 * k - 12) + 4096 <= area2 a b c -> ls <> [] -> passes (8 + f + bpow radix2 (k - 11)) b ls).
Proof.
  intros fuel k a b c X Y HT HA K Wa Wb Wc A CC BX BY. pose proof (area_whole 512 a b c Wa Wb Wc A) as A1.
  assert (NS : is_straight a b c = false). { destruct (is_straight a b c) eqn:E; [|reflexivity]. exfalso. apply A, straight_whole; auto; now apply (whole_more 512). }
  destruct (C77_centre a b c Wa Wb Wc A) as (X' & Y' & CC' & Fx & Fy & DX & DY). destruct (centre_unique a b c X' Y' X Y A CC' CC) as (-> & ->). set (o := arc_centre_of a b c) in *.
  assert (PK : 512 <= bpow radix2 k) by (change 512 with (bpow radix2 9); apply bpow_le; lia). assert (PK' : bpow radix2 k <= 4096) by (change 4096 with (bpow radix2 12); apply bpow_le; lia).
  assert (S22 : bpow radix2 (k - 22) = bpow radix2 k * bpow radix2 (-22)) by (rewrite <- bpow_plus; reflexivity). assert (P22 : bpow radix2 (-22) = / 4194304) by reflexivity.
  set (d := 150 / area2 a b c + bpow radix2 (k - 22)). assert (Q : 0 <= 150 / area2 a b c <= 150). { split; [apply Rle_mult_inv_pos; lra|]. apply Rmult_le_reg_r with (area2 a b c); [lra|]. unfold Rdiv. rewrite Rmult_assoc, Rinv_l, Rmult_1_r by lra. lra. }
  assert (D1 : Rabs (px o - X) <= d). { apply Rle_trans with (1 := DX). unfold d. rewrite S22. apply Rplus_le_compat_l. apply Rmult_le_compat_r; [apply bpow_ge_0|lra]. }
  assert (D2 : Rabs (py o - Y) <= d). { apply Rle_trans with (1 := DY). unfold d. rewrite S22. apply Rplus_le_compat_l. apply Rmult_le_compat_r; [apply bpow_ge_0|lra]. }
  assert (D3 : d <= 151) by (unfold d; rewrite S22, P22; lra).
  assert (WP : forall p, whole 512 p -> SpecCurves.within k p). { intros p (F & G & x & y & Bx & By & Vx & Vy). split; (split; [assumption|]); [fold (px p); rewrite Vx|fold (py p); rewrite Vy]; rewrite <- abs_IZR; apply Rle_trans with (2 := PK), IZR_le; assumption. }
  assert (WO : SpecCurves.within k o). { split; (split; [assumption|]); [fold (px o)|fold (py o)]; [replace (px o) with (X + (px o - X)) by ring|replace (py o) with (Y + (py o - Y)) by ring]; eapply Rle_trans; try apply Rabs_triang; lra. }
  destruct (C76_arc fuel k a b c ltac:(lia) HT HA ltac:(auto) NS) as (mc & E & FA). fold o in FA. exists mc. split; [exact E|]. cbv zeta.
  destruct (arc_round k o a b c X Y d _ D1 D2 CC FA) as (R1 & R2).
  assert (D4 : 4 * d = 600 / area2 a b c + bpow radix2 (k - 20)) by (unfold d; replace (k - 20)%Z with (2 + (k - 22))%Z by ring; rewrite (bpow_plus radix2 2); change (bpow radix2 2) with 4; field; lra).
  assert (E14 : forall z, (0 <= z)%Z -> bpow radix2 (k - 14 + z) = bpow radix2 z * bpow radix2 (k - 14)) by (intros z _; rewrite <- bpow_plus; f_equal; ring).
  pose proof (E14 2%Z ltac:(lia)) as E12. pose proof (E14 1%Z ltac:(lia)) as E13. pose proof (E14 3%Z ltac:(lia)) as E11. replace (k - 14 + 2)%Z with (k - 12)%Z in E12 by ring. replace (k - 14 + 1)%Z with (k - 13)%Z in E13 by ring. replace (k - 14 + 3)%Z with (k - 11)%Z in E11 by ring.
  change (bpow radix2 2) with 4 in E12. change (bpow radix2 1) with 2 in E13. change (bpow radix2 3) with 8 in E11. assert (E20 : bpow radix2 (k - 20) <= bpow radix2 (k - 14)) by (apply bpow_le; lia). pose proof (bpow_ge_0 radix2 (k - 14)) as P14.
  assert (CW : forall x y q u v, x <= y -> close x q u v -> close y q u v) by (intros x y q u v L (F & G & Q1 & Q2); split; [exact F|]; split; [exact G|]; split; lra).
  split; [|split].
  - intros l I. destruct (R1 l I). split; lra.
  - destruct R2 as (J1 & J2). split; [intros l r EL; apply (CW (bpow radix2 (k - 14) + 4 * d)); [lra|exact (J1 l r EL)]|intros r l EL; apply (CW (bpow radix2 (k - 14) + 4 * d)); [lra|exact (J2 r l EL)]].
  - intros AR NE. assert (P212 : 0 <= bpow radix2 (2 * k - 12)) by apply bpow_ge_0.
    assert (D8 : d <= 1 / 8). { unfold d. rewrite S22, P22. assert (150 / area2 a b c <= 150 / 4096) by (unfold Rdiv; apply Rmult_le_compat_l; [lra|]; apply Rinv_le; lra). lra. }
    destruct (arc_passes k o a b c X Y d _ K Wa Wb Wc WO D1 D2 D8 CC ltac:(lra) FA NE) as (l & I & G). exists l. split; [exact I|]. destruct G as [G|G]; [left|right]; (eapply CW; [|exact G]); lra.
Qed.
End WithLibm.

(** ** Concrete cases *)
Local Notation pt := PropCurves.pt.
(** Half a circle of centre (50, 0): within 0.25 px of it, and within 8.4 px of (50, 50) at an end. *)
Example C100_instance : @trig_near ideal_libm /\ @atan2_near ideal_libm /\ whole 512 (pt 0 0) /\ whole 512 (pt 50 50) /\ whole 512 (pt 100 0) /\ area2 (pt 0 0) (pt 50 50) (pt 100 0) = 5000 /\
  circumcentre (pt 0 0) (pt 50 50) (pt 100 0) 50 0 /\ Rabs 50 <= bpow radix2 9 - 151 /\ Rabs 0 <= bpow radix2 9 - 151 /\ bpow radix2 (2 * 9 - 12) + 4096 <= 5000 /\ 600 / 5000 + bpow radix2 (9 - 12) <= 1 / 4.
Proof.
  split; [apply ideal_trig|]. split; [apply ideal_atan2|]. destruct C77_instance as (W1 & W2 & W3 & A). do 4 (split; [assumption|]).
  split; [|rewrite Rabs_R0, Rabs_pos_eq by lra; change (bpow radix2 9) with 512; change (bpow radix2 (2 * 9 - 12)) with 64; change (bpow radix2 (9 - 12)) with (/ 8); lra].
  unfold circumcentre, px, py, pt. cbn [vx vy]. destruct (gq1_exact 0 ltac:(lia)) as (_ & ->). destruct (gq1_exact 50 ltac:(lia)) as (_ & ->). destruct (gq1_exact 100 ltac:(lia)) as (_ & ->). lra.
Qed.
(** Three points on a line, and three that are not by one pixel. *)
Lemma whole_k x y : (Z.abs x <= 1024)%Z -> (Z.abs y <= 1024)%Z -> whole 1024 (pt x y).
Proof. intros X Y. destruct (gq1_exact x ltac:(lia)) as (Fx & Vx). destruct (gq1_exact y ltac:(lia)) as (Fy & Vy). split; [exact Fx|]. split; [exact Fy|]. exists x, y. auto. Qed.
Example C100_straight_instance : whole 1024 (pt (-1000) 30) /\ whole 1024 (pt 0 31) /\ whole 1024 (pt 1000 32) /\ whole 1024 (pt 1000 33) /\
  is_straight (pt (-1000) 30) (pt 0 31) (pt 1000 32) = true /\ is_straight (pt (-1000) 30) (pt 0 31) (pt 1000 33) = false.
Proof. do 4 (split; [apply whole_k; lia|]). vm_compute. auto. Qed.

Print Assumptions C100_straight. Print Assumptions C100_line. Print Assumptions C100_circle.

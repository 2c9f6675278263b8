(** The stack offset as a real number. *)
From Coq Require Import Reals Lra.
From Flocq Require Import Core BinarySingleNaN.
From Verif Require Import GoFloat Curves FloatLemmas Float32Lemmas.
Open Scope R_scope.

Lemma err_comp x0 x y d e : 0 <= d -> 0 <= e -> Rabs (x - x0) <= Rabs x0 * d -> Rabs (y - x) <= Rabs x * e ->
  Rabs (y - x0) <= Rabs x0 * (d + e * (1 + d)).
Proof.
  intros Hd He H1 H2.
  assert (A : Rabs x <= Rabs x0 * (1 + d)).
  { replace x with ((x - x0) + x0) by ring. eapply Rle_trans; [apply Rabs_triang|]. lra. }
  replace (y - x0) with ((y - x) + (x - x0)) by ring. eapply Rle_trans; [apply Rabs_triang|].
  pose proof (Rmult_le_compat_r e _ _ He A). lra.
Qed.
Lemma offset_real (i : Z) (r : f64) : (Z.abs i <= 2 ^ 24)%Z -> fin r -> 1 <= B2R r <= 1000 ->
  let f := gdiv (gmul (gneg (g_of_Z i)) (g_of_f r)) (gq 10 1) in
  fin f /\ Rabs (B2R f - - IZR i * B2R r / 10) <= Rabs (IZR i) * B2R r / 10 / 4000000.
Proof.
  intros Hi Fr Hr f.
  assert (B24 : Rabs (IZR i) <= 16777216). { rewrite <- abs_IZR. apply IZR_le. exact Hi. }
  assert (B127 : 16777216 * 16777216 <= bpow radix2 127).
  { rewrite <- mult_IZR. change (bpow radix2 127) with (IZR (2 ^ 127)). apply IZR_le. vm_compute. discriminate. }
  assert (Bm : bpow radix2 (-126) <= 1 / 1024). { apply Rle_trans with (bpow radix2 (-10)); [apply bpow_le; lia|]. change (bpow radix2 (-10)) with (/ 1024). lra. }
  assert (Be : 0 <= bpow radix2 (-24) <= / 16000000).
  { split; [apply bpow_ge_0|]. change (bpow radix2 (-24)) with (/ 16777216). lra. }
  set (e := bpow radix2 (-24)) in *.
  destruct (g_of_Z_exact i Hi) as [F1 V1]. destruct (gneg_fin _ F1) as [F2 V2]. rewrite V1 in V2.
  destruct (g_of_f_fin r Fr) as [F3 V3]. { rewrite Rabs_pos_eq by lra. lra. }
  assert (E3 : Rabs (rnd32 (B2R r) - B2R r) <= Rabs (B2R r) * e).
  { apply rnd32_rel. rewrite Rabs_pos_eq by lra. lra. }
  rewrite <- V3 in E3. rewrite (Rabs_pos_eq (B2R r)) in E3 by lra.
  assert (B3 : 1 / 2 <= B2R (g_of_f r) <= 2000).
  { apply Rabs_le_inv in E3. assert (B2R r * e <= 1 / 4) by nra. lra. }
  destruct (gmul_fin _ _ F2 F3) as [F4 V4].
  { rewrite V2, Rabs_mult, Rabs_Ropp, (Rabs_pos_eq (B2R (g_of_f r))) by lra. pose proof (Rabs_pos (IZR i)). nra. }
  rewrite V2 in V4.
  destruct (gq1_exact 10 ltac:(vm_compute; discriminate)) as [F10 V10].
  destruct (Z.eq_dec i 0) as [Z0|NZ].
  { assert (I0 : IZR i = 0) by now rewrite Z0. rewrite I0, Ropp_0, Rmult_0_l, rnd32_0 in V4.
    destruct (gdiv_fin _ _ F4 F10) as [F5 V5]. { rewrite V10. lra. } { rewrite V4, V10. unfold Rdiv. rewrite Rmult_0_l, Rabs_R0. lra. }
    rewrite V4, V10 in V5. unfold Rdiv in V5. rewrite Rmult_0_l, rnd32_0 in V5.
    split; [exact F5|]. fold f in V5. rewrite V5, I0, Ropp_0, Rabs_R0. unfold Rdiv. rewrite !Rmult_0_l, Rminus_0_r, Rabs_R0. lra. }
  assert (B1 : 1 <= Rabs (IZR i)). { rewrite <- abs_IZR. apply IZR_le. lia. }
  set (x0 := - IZR i * B2R r). set (x1 := - IZR i * B2R (g_of_f r)) in *.
  assert (A0 : Rabs x0 = Rabs (IZR i) * B2R r). { unfold x0. rewrite Rabs_mult, Rabs_Ropp, (Rabs_pos_eq (B2R r)) by lra. reflexivity. }
  assert (A1 : Rabs x1 = Rabs (IZR i) * B2R (g_of_f r)). { unfold x1. rewrite Rabs_mult, Rabs_Ropp, (Rabs_pos_eq (B2R _)) by lra. reflexivity. }
  assert (H1 : Rabs (x1 - x0) <= Rabs x0 * e).
  { unfold x1, x0. rewrite <- Rmult_minus_distr_l. fold x0. rewrite A0, Rabs_mult, Rabs_Ropp, Rmult_assoc.
    apply Rmult_le_compat_l; [apply Rabs_pos|exact E3]. }
  assert (H2 : Rabs (rnd32 x1 - x1) <= Rabs x1 * e). { apply rnd32_rel. rewrite A1. nra. }
  rewrite <- V4 in H2. set (p := B2R (gmul (gneg (g_of_Z i)) (g_of_f r))) in *.
  pose proof (err_comp x0 x1 p e e (proj1 Be) (proj1 Be) H1 H2) as H3.
  assert (Ap : Rabs x1 / 2 <= Rabs p <= 2 * Rabs x1).
  { pose proof (Rabs_pos x1). assert (Rabs x1 * e <= Rabs x1 / 2) by nra. pose proof (Rabs_triang_inv x1 p) as T1. pose proof (Rabs_triang_inv p x1) as T2.
    rewrite (Rabs_minus_sym x1 p) in T1. lra. }
  assert (Ax1 : 1 / 2 <= Rabs x1 <= 16777216 * 2000).
  { rewrite A1. split; [nra|]. apply Rmult_le_compat; lra. }
  destruct (gdiv_fin _ _ F4 F10) as [F5 V5]. { rewrite V10. lra. }
  { fold p. rewrite V10. unfold Rdiv. rewrite Rabs_mult, (Rabs_pos_eq (/ 10)) by lra. lra. }
  fold p in V5. rewrite V10 in V5. fold f in V5, F5. split; [exact F5|].
  assert (H4 : Rabs (rnd32 (p / 10) - p / 10) <= Rabs (p / 10) * e).
  { apply rnd32_rel. unfold Rdiv. rewrite Rabs_mult, (Rabs_pos_eq (/ 10)) by lra. lra. }
  rewrite <- V5 in H4. set (d := e + e * (1 + e)) in *.
  assert (Hd : 0 <= d <= / 7000000). { unfold d. split; nra. }
  assert (H3' : Rabs (p / 10 - x0 / 10) <= Rabs (x0 / 10) * d).
  { replace (p / 10 - x0 / 10) with ((p - x0) * / 10) by field. unfold Rdiv. rewrite !Rabs_mult, (Rabs_pos_eq (/ 10)) by lra. lra. }
  pose proof (err_comp (x0 / 10) (p / 10) (B2R f) d e (proj1 Hd) (proj1 Be) H3' H4) as H5.
  change (- IZR i * B2R r / 10) with (x0 / 10). eapply Rle_trans; [exact H5|].
  replace (Rabs (x0 / 10)) with (Rabs (IZR i) * B2R r / 10).
  2:{ unfold Rdiv. rewrite (Rabs_mult x0), (Rabs_pos_eq (/ 10)), A0 by lra. reflexivity. }
  unfold Rdiv at 2. apply Rmult_le_compat_l; [nra|]. nra.
Qed.

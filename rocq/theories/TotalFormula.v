(** The star rating formula in floats and in real numbers. *)
From Coq Require Import Reals Lra Lia ZArith List.
From Flocq Require Import Core BinarySingleNaN.
From Verif Require Import GoFloat PP CurveProofs SpecPP SpecFormula SpecTotal BaseLemmas FloatLemmas Float32Lemmas KeyLemmas LazyProofs PPProofs PPBounds RelLemmas RelPow FormulaParts.
Import ListNotations.
Open Scope R_scope.

Lemma base_value_ge s : / 100000 <= base_value s.
Proof.
  unfold base_value. set (t := Rmax 1 _). assert (1 <= t) by apply Rmax_l. assert (1 <= (5 * t - 4) ^ 3) by (apply pow_R1_Rle; lra). lra.
Qed.
Lemma flash_base_nn fl : 0 <= flash_base fl.
Proof. destruct fl as [f|]; cbn [flash_base]; [pose proof (pow2_ge_0 f); lra|lra]. Qed.
Lemma rpow_nn x s : 0 <= rpow x s.
Proof. unfold rpow. destruct (Req_EM_T x 0); [lra|]. left. unfold Rpower. apply exp_pos. Qed.
Lemma Rpower_le_l x y s : 0 < x <= y -> 0 <= s -> Rpower x s <= Rpower y s.
Proof. intros H S. now apply Rle_Rpower_l. Qed.
Lemma two_pow : 14 / 10 <= Rpower 2 (10 / 11) <= 2.
Proof.
  split.
  - apply Rle_trans with (Rpower 2 (/ 2)); [|apply Rle_Rpower; lra]. rewrite Rpower_sqrt by lra. apply Rsqr_incr_0_var; [rewrite Rsqr_sqrt by lra; unfold Rsqr; lra|apply sqrt_pos].
  - apply Rle_trans with (Rpower 2 1); [apply Rle_Rpower; lra|]. rewrite Rpower_1; lra.
Qed.
Lemma joint_value_ge aim speed fl : Rpower 2 (10 / 11) / 100000 <= joint_value aim speed fl.
Proof.
  unfold joint_value. pose proof (base_value_ge aim) as A. pose proof (base_value_ge speed) as S. set (a := base_value aim) in *. set (s := base_value speed) in *. rewrite (rpow_pos a), (rpow_pos s) by lra. pose proof (rpow_nn (flash_base fl) (11 / 10)) as F. set (f := rpow (flash_base fl) _) in *.
  set (c := Rpower (/ 100000) (11 / 10)). assert (C : 0 < c) by (unfold c, Rpower; apply exp_pos).
  assert (A' : c <= Rpower a (11 / 10)) by (apply Rpower_le_l; lra). assert (S' : c <= Rpower s (11 / 10)) by (apply Rpower_le_l; lra). rewrite rpow_pos by lra.
  apply Rle_trans with (Rpower (2 * c) (10 / 11)); [|apply Rpower_le_l; lra].
  rewrite <- Rpower_mult_distr by lra. unfold c. rewrite Rpower_mult. replace (11 / 10 * (10 / 11)) with 1 by field. rewrite Rpower_1 by lra.
  lra.
Qed.

Section WithLibm.
Context {M : libm} (PC : pow_close) (CC : cbrt_close).

Lemma base_wide n x s : 0 <= n <= 10 -> nv n 100 x s -> 0 <= s <= bpow radix2 60 -> nv 400 218 (pp_base x) (base_value s).
Proof.
  intros HN H S. unfold pp_base, base_value. change (bpow radix2 60) with 1152921504606846976 in S.
  assert (K1 : nv 1 4 (fq 675 10000) (675 / 10000)) by kv. assert (K5 : nv 0 3 (fq 5 1) 5) by kv.
  assert (D : nv 12 104 (fdiv x (fq 675 10000)) (s / (675 / 10000))) by (apply (nv_up (n + 1 + 1) 12 104 104); [lra|lia|]; apply (nv_div n 1 100 4); try assumption; try lia; unfold NN; lra).
  assert (T : nr 12 (fmax (fq 1 1) (fdiv x (fq 675 10000))) (Rmax 1 (s / (675 / 10000)))).
  { refine (proj1 (nv_max 12 104 _ _ _ _ _ _ D)); [unfold NN; lra|]. apply (nv_up 0 12 0 104); [lra|lia|exact one_nv]. }
  set (t := Rmax 1 (s / (675 / 10000))) in *. assert (TB : 1 <= t <= 18446744073709551616). { unfold t. split; [apply Rmax_l|]. apply Rmax_lub; [lra|]. lra. }
  assert (T5 : nr 14 (fmul (fq 5 1) (fmax (fq 1 1) (fdiv x (fq 675 10000)))) (5 * t)).
  { apply (nr_up (0 + 12 + 1)); [lra|]. refine (proj1 (nv_mul 0 12 3 64 _ _ _ _ _ _ _ _ _ K5 _)); unfold NN; try lra; try lia. split; [exact T|]. right. split; repeat pw; lra. }
  set (y := fmul (fq 5 1) _) in *. set (u := 5 * t - 4). assert (U : 1 <= u <= 92233720368547758080) by (unfold u; lra).
  destruct (fq1_exact 4) as (F4 & E4); [lia|]. assert (SZ : sz 67 u) by (right; split; repeat pw; lra).
  assert (A : nr 72 (fsub y (fq 4 1)) u).
  { apply rel_nr. apply (rel_round e40 e40_in 71 _ _ (B2R y - 4)); [lra|lra|unfold e40; lra|apply (sz_mid 67); [exact SZ|lia|lra]| |].
    - destruct T5 as (_ & _ & B). assert (14 * e40 * (5 * t) <= 71 * e40 * u); [|unfold u in *; lra]. unfold u, e40. lra.
    - intros Q. rewrite <- E4. apply fsub_fin; [exact (proj1 T5)|exact F4|rewrite E4; exact Q]. }
  assert (P : nv 230 201 (mpow (fsub y (fq 4 1)) (fq 3 1)) (u ^ 3)).
  { rewrite <- rpow_3 by lra. destruct e3 as (F & E). apply (nv_pow PC 72 230 (/ 1000) 3 67); try assumption; try lia; unfold NN; try lra. split; assumption. }
  assert (K0 : nv 0 17 (fq 100000 1) 100000) by kv. apply (nv_up (230 + 0 + 1) 400 (201 + 17) 218); [lra|lia|]. apply nv_div; try assumption; try lia; unfold NN; lra.
Qed.
Lemma base_any x : within 0 (bpow radix2 60) x -> nv 400 218 (pp_base x) (base_value (B2R x)).
Proof.
  intros (F & B). destruct (Req_dec (B2R x) 0) as [Z|N].
  - apply (base_wide 0); [lra| |exact B]. split; [apply nr_is; [exact F|reflexivity|lra]|now left].
  - destruct (Rle_lt_dec (bpow radix2 (-100)) (B2R x)) as [G|G].
    + apply (base_wide 0); [lra| |exact B]. split; [apply nr_is; [exact F|reflexivity|lra]|]. right. split; [exact G|]. apply Rle_trans with (1 := proj2 B). apply bpow_le; lia.
    + assert (K : nv 1 4 (fq 675 10000) (675 / 10000)) by kv. destruct K as ((KF & _ & KB) & _). assert (K1 : / 20 <= B2R (fq 675 10000)) by (unfold e40 in KB; lra). clear KB.
      assert (SM : forall y, fin y -> 0 <= B2R y < / 1000000 -> fmax (fq 1 1) (fdiv y (fq 675 10000)) = fq 1 1).
      { intros y FY BY. assert (Q : 0 <= B2R y / B2R (fq 675 10000) <= / 50000).
        { split; [apply Rmult_le_pos; [lra|left; apply Rinv_0_lt_compat; lra]|]. apply Rmult_le_reg_r with (B2R (fq 675 10000)); [lra|]. unfold Rdiv. rewrite Rmult_assoc, Rinv_l by lra. lra. }
        destruct (fdiv_fin y (fq 675 10000) FY KF) as (DF & DE); [lra|rewrite Rabs_pos_eq by lra; apply Rle_trans with 1; [lra|apply (bpow_le radix2 0); lia]|].
        assert (DB : 0 <= B2R (fdiv y (fq 675 10000)) <= / 2). { rewrite DE. split; [now apply rnd64_pos|]. assert (HE : B2R (fq 1 2) = / 2) by (bval (fq 1 2); match goal with V : B2R (fq 1 2) = _ |- _ => rewrite V end; lra). rewrite <- HE. apply rnd64_le_f. rewrite HE. lra. }
        destruct (fq1_exact 1) as (F1 & E1); [lia|]. apply fmax_gt'. apply flt_fin; [exact DF|exact F1|]. rewrite E1. lra. }
      assert (E : pp_base x = pp_base f0). { unfold pp_base. rewrite (SM x F), (SM f0); [reflexivity|reflexivity|change (B2R f0) with 0; lra|]. split; [lra|]. apply Rlt_le_trans with (1 := G). apply Rle_trans with (bpow radix2 (-20)); [apply bpow_le; lia|]. repeat pw. lra. }
      assert (V : base_value (B2R x) = base_value 0). { unfold base_value. assert (G' : B2R x <= / 1000000) by (left; apply Rlt_le_trans with (1 := G); apply Rle_trans with (bpow radix2 (-20)); [apply bpow_le; lia|repeat pw; lra]). rewrite !Rmax_left by lra. reflexivity. }
      rewrite E, V. apply (base_wide 0); [lra| |split; [lra|apply bpow_ge_0]]. split; [apply nr_is; [reflexivity|reflexivity|lra]|now left].
Qed.
Lemma nr_cbrt n m k x r : 0 <= n <= NN -> nr n x r -> 0 < r -> sz k r -> (0 <= k <= 290)%Z -> n * (35 / 100) + 2 <= m -> nr m (mcbrt x) (cube_root r).
Proof.
  intros HN (F & P & B) R SZ K HM. pose proof e40_pos as E0. pose proof (unit_small n HN) as U. pose proof (ln_near n (B2R x) r HN R B) as LN.
  assert (N1 : 0 <= n * e40 * r <= / 1000000 * r) by (split; [apply Rmult_le_pos; lra|apply Rmult_le_compat_r; lra]).
  destruct SZ as [Z|(L1 & L2)]; [lra|].
  assert (B1 : 2 * bpow radix2 (-300) <= bpow radix2 (- k)) by (change 2 with (bpow radix2 1); rewrite <- bpow_plus; apply bpow_le; lia).
  assert (B2 : 2 * bpow radix2 k <= bpow radix2 300) by (change 2 with (bpow radix2 1); rewrite <- bpow_plus; apply bpow_le; lia).
  destruct (CC x F) as (CF & CE); [pose proof (bpow_gt_0 radix2 (-300)); lra|]. set (w := cube_root r) in *. assert (W : 0 < w) by (unfold w, cube_root, Rpower; apply exp_pos).
  set (t := 1 / 3 * (ln (B2R x) - ln r)). assert (PW : cube_root (B2R x) = w * exp t). { unfold w, cube_root, Rpower. rewrite <- exp_plus. f_equal. unfold t. ring. }
  set (d := n * (337 / 1000) * e40). assert (D0 : 0 <= d) by (unfold d; apply Rmult_le_pos; lra). assert (T : Rabs t <= d). { unfold t. rewrite Rabs_mult, (Rabs_pos_eq (1 / 3)) by lra. unfold d. lra. }
  assert (D : d <= / 1000000) by (unfold d; lra). destruct (exp_near t d T ltac:(lra)) as (EL & EU). assert (DD : d * d <= / 1000000 * d) by (apply Rmult_le_compat_r; lra).
  rewrite PW in CE. split; [exact CF|]. split; [lra|]. rewrite b40 in CE. apply Rabs_le_inv in CE.
  assert (X1 : w * (1 - d) <= w * exp t) by (apply Rmult_le_compat_l; lra). assert (X2 : w * exp t <= w * (1 + 1000002 / 1000000 * d)) by (apply Rmult_le_compat_l; lra).
  assert (X3 : w * exp t * e40 <= w * (1001 / 1000) * e40) by (apply Rmult_le_compat_r; [lra|]; apply Rmult_le_compat_l; lra).
  assert (X4 : 1000002 / 1000000 * d + 1001 / 1000 * e40 <= m * e40). { assert ((n * (35 / 100) + 2) * e40 <= m * e40) by (apply Rmult_le_compat_r; lra). assert (d = n * e40 * (337 / 1000)) by (unfold d; ring). assert (0 <= n * e40) by (apply Rmult_le_pos; lra). lra. }
  assert (X5 : w * (1000002 / 1000000 * d + 1001 / 1000 * e40) <= w * (m * e40)) by (apply Rmult_le_compat_l; lra). assert (X6 : 0 <= w * d) by (apply Rmult_le_pos; lra). lra.
Qed.
Lemma cube_sz k K r : 0 < r -> sz k r -> (0 <= k)%Z -> (k <= 3 * K)%Z -> sz K (cube_root r).
Proof.
  intros R S K0 H. right. apply (Rpower_sz k); [exact R|exact S|exact K0|]. rewrite Rabs_pos_eq by lra. apply IZR_le in H. rewrite mult_IZR in H. lra.
Qed.
Lemma cube_root_ge x y : 0 < x -> 0 <= y -> y ^ 3 <= x -> y <= cube_root x.
Proof.
  intros X Y H. destruct (Rle_lt_or_eq_dec 0 y Y) as [P|Z]; [|rewrite <- Z; unfold cube_root, Rpower; left; apply exp_pos].
  replace y with (cube_root (y ^ 3)); [apply Rpower_le_l; [split; [now apply pow_lt|exact H]|lra]|]. unfold cube_root. rewrite <- Rpower_pow by exact P. rewrite Rpower_mult. replace (INR 3 * (1 / 3)) with 1 by (cbn; field). now apply Rpower_1.
Qed.
Lemma total_stars_ge aim speed fl : 1401 / 10000 <= total_stars aim speed fl.
Proof.
  unfold total_stars. pose proof (joint_value_ge aim speed fl) as J. set (j := joint_value aim speed fl) in *.
  assert (C : 1038 / 1000 <= cube_root (112 / 100)) by (apply cube_root_ge; lra).
  pose proof two_pow as T. set (q := Rpower 2 (10 / 11)) in *.
  assert (Q : 1 <= 100000 / q * j). { apply Rle_trans with (100000 / q * (q / 100000)); [right; field; lra|]. apply Rmult_le_compat_l; [|exact J]. apply Rmult_le_pos; [lra|]. left. apply Rinv_0_lt_compat. lra. }
  assert (X : 1 <= cube_root (100000 / q * j)) by (apply cube_root_ge; lra). apply Rle_trans with (1038 / 1000 * (27 / 1000) * 5); [lra|]. apply Rmult_le_compat; lra.
Qed.
Lemma k_nv x n k r : nr n x r -> sz k r -> nv n k x r.
Proof. now split. Qed.
Lemma flash_nv x (on : bool) : (on = true -> flash_ok x) -> nv 4 205 (if on then fmul (mpow x (fq 2 1)) (fq 25 1) else f0) (flash_base (if on then Some (B2R x) else None)).
Proof.
  intros H. destruct on; [|split; [apply nr_exact0; [vm_compute; reflexivity|reflexivity]|now left]]. specialize (H eq_refl). destruct H as (F & H). cbn [flash_base].
  assert (X : nv 0 100 x (B2R x)). { assert (0 <= B2R x) by (destruct H as [H|H]; [lra|pose proof (bpow_gt_0 radix2 (-100)); lra]). split; [apply nr_is; [exact F|reflexivity|assumption]|]. destruct H as [H|(H1 & H2)]; [now left|right]. split; [exact H1|]. apply Rle_trans with (1 := H2). apply bpow_le; lia. }
  destruct (fq1_exact 2) as (F2 & E2); [lia|]. assert (P : nv 2 200 (mpow x (fq 2 1)) (rpow (B2R x) 2)).
  { apply (nv_pow PC 0 2 0 2 100 200 x (fq 2 1) (B2R x) 2); auto; try lia; try lra; try (unfold NN; lra). rewrite E2. replace (2 - 2) with 0 by ring. rewrite Rabs_R0. unfold e40. lra. }
  assert (K : nv 0 5 (fq 25 1) 25) by kv. pose proof (nv_mul 2 0 200 5 _ _ _ _ ltac:(unfold NN; lra) ltac:(unfold NN; lra) ltac:(lia) ltac:(lia) ltac:(lia) P K) as Q.
  assert (E : rpow (B2R x) 2 = B2R x ^ 2). { destruct (Req_dec (B2R x) 0) as [Z|N]; [rewrite Z, rpow_0; ring|]. assert (0 < B2R x) by (destruct H as [H|H]; [lra|pose proof (bpow_gt_0 radix2 (-100)); lra]). rewrite rpow_pos by assumption. replace 2 with (INR 2) by reflexivity. now rewrite Rpower_pow. }
  rewrite E in Q. refine (nv_up _ 4 _ 205 _ _ _ _ Q); [lra|lia].
Qed.
Lemma e11 : fin (fq 11 10) /\ Rabs (B2R (fq 11 10) - 11 / 10) <= / 1000 * e40. Proof. split; [vm_compute; reflexivity|ex]. Qed.
Lemma e1011 : fin (fq 10 11) /\ Rabs (B2R (fq 10 11) - 10 / 11) <= / 1000 * e40. Proof. split; [vm_compute; reflexivity|ex]. Qed.
(** the part of the code that computes the total *)
Definition joint_f (bA bS bF : f64) : f64 := mpow (fadd (fadd (mpow bA (fq 11 10)) (mpow bS (fq 11 10))) (mpow bF (fq 11 10))) (fq 10 11).
Definition total_f (base : f64) : f64 :=
  fmul (fmul (mcbrt (fq 112 100)) (fq 27 1000)) (fadd (mcbrt (fmul (fdiv (fq 100000 1) (mpow (fq 2 1) (fq 10 11))) base)) (fq 4 1)).
Lemma joint_nv bA bS bF aim speed fl : nv 400 218 bA (base_value aim) -> nv 400 218 bS (base_value speed) -> nv 4 205 bF (flash_base fl) -> nv 467 220 (joint_f bA bS bF) (joint_value aim speed fl).
Proof.
  intros A S F. unfold joint_f, joint_value. destruct e11 as (F11 & E11). destruct e1011 as (F10 & E10).
  assert (PA : nv 453 240 (mpow bA (fq 11 10)) (rpow (base_value aim) (11 / 10))) by (apply (nv_pow PC 400 453 (/ 1000) (11 / 10) 218 240); auto; try lia; try lra; unfold NN; lra).
  assert (PS : nv 453 240 (mpow bS (fq 11 10)) (rpow (base_value speed) (11 / 10))) by (apply (nv_pow PC 400 453 (/ 1000) (11 / 10) 218 240); auto; try lia; try lra; unfold NN; lra).
  assert (PF : nv 453 240 (mpow bF (fq 11 10)) (rpow (flash_base fl) (11 / 10))) by (apply (nv_pow PC 4 453 (/ 1000) (11 / 10) 205 240); auto; try lia; try lra; unfold NN; lra).
  pose proof (nv_add 453 240 _ _ _ _ ltac:(unfold NN; lra) ltac:(lia) PA PS) as P1. pose proof (nv_add 454 241 _ _ _ _ ltac:(unfold NN; lra) ltac:(lia) (nv_up (453 + 1) 454 (240 + 1) 241 _ _ ltac:(lra) ltac:(lia) P1) (nv_up 453 454 240 241 _ _ ltac:(lra) ltac:(lia) PF)) as P2.
  apply (nv_pow PC 455 467 (/ 1000) 1 242 220); [unfold NN; lra|refine (nv_up _ 455 _ 242 _ _ _ _ P2); [lra|lia]|lia|exact F10|exact E10|lra|lra|lra|lra|lia|lra|unfold NN; lra].
Qed.
Lemma total_nr base aim speed fl : nv 467 220 base (joint_value aim speed fl) -> nr 180 (total_f base) (total_stars aim speed fl).
Proof.
  intros J. unfold total_f, total_stars. pose proof (joint_value_ge aim speed fl) as JG. pose proof two_pow as T. set (j := joint_value aim speed fl) in *. destruct e1011 as (F10 & E10). destruct (fq1_exact 2) as (F2 & E2); [lia|].
  assert (K2 : nv 0 1 (fq 2 1) 2) by kv. assert (K5 : nv 0 17 (fq 100000 1) 100000) by kv. assert (K4 : nv 0 3 (fq 4 1) 4) by kv. assert (K27 : nv 1 6 (fq 27 1000) (27 / 1000)) by kv. assert (K112 : nv 1 1 (fq 112 100) (112 / 100)) by kv.
  assert (P2 : nv 3 1 (mpow (fq 2 1) (fq 10 11)) (Rpower 2 (10 / 11))). { rewrite <- rpow_pos by lra. apply (nv_pow PC 0 3 (/ 1000) 1 1 1); auto; try lia; try lra; unfold NN; lra. }
  pose proof (nv_div 0 3 17 1 _ _ _ _ ltac:(unfold NN; lra) ltac:(unfold NN; lra) ltac:(lia) K5 P2 ltac:(lra)) as D. pose proof (nv_mul (0 + 3 + 1) 467 (17 + 1) 220 _ _ _ _ ltac:(unfold NN; lra) ltac:(unfold NN; lra) ltac:(lia) ltac:(lia) ltac:(lia) D J) as Q.
  set (v := 100000 / Rpower 2 (10 / 11) * j) in *. assert (V : 0 < v) by (unfold v; apply Rmult_lt_0_compat; [apply Rmult_lt_0_compat; [lra|apply Rinv_0_lt_compat; lra]|lra]).
  assert (C : nv 168 80 (mcbrt (fmul (fdiv (fq 100000 1) (mpow (fq 2 1) (fq 10 11))) base)) (cube_root v)). { split; [apply (nr_cbrt (0 + 3 + 1 + 467 + 1) 168 238); [unfold NN; lra|exact (proj1 Q)|exact V|exact (proj2 Q)|lia|lra]|apply (cube_sz 238); [exact V|exact (proj2 Q)|lia|lia]]. }
  pose proof (nv_add 168 80 _ _ _ _ ltac:(unfold NN; lra) ltac:(lia) C (nv_up 0 168 3 80 _ _ ltac:(lra) ltac:(lia) K4)) as A.
  assert (CC1 : nv 3 1 (mcbrt (fq 112 100)) (cube_root (112 / 100))). { split; [apply (nr_cbrt 1 3 1); [unfold NN; lra|exact (proj1 K112)|lra|exact (proj2 K112)|lia|lra]|apply (cube_sz 1); [lra|exact (proj2 K112)|lia|lia]]. }
  pose proof (nv_mul 3 1 1 6 _ _ _ _ ltac:(unfold NN; lra) ltac:(unfold NN; lra) ltac:(lia) ltac:(lia) ltac:(lia) CC1 K27) as B. pose proof (nv_mul (3 + 1 + 1) (168 + 1) (1 + 6) (80 + 1) _ _ _ _ ltac:(unfold NN; lra) ltac:(unfold NN; lra) ltac:(lia) ltac:(lia) ltac:(lia) B A) as R.
  refine (nr_up _ 180 _ _ _ (proj1 R)); lra.
Qed.
Lemma above_least base aim speed fl : nv 467 220 base (joint_value aim speed fl) -> fgt base (fq 1 100000) = true.
Proof.
  intros ((F & _ & B) & _). pose proof (joint_value_ge aim speed fl) as J. pose proof two_pow as T. unfold fgt. apply flt_fin; [vm_compute; reflexivity|exact F|]. bval (fq 1 100000). match goal with V : B2R (fq 1 100000) = _ |- _ => rewrite V end.
  assert (467 * e40 * joint_value aim speed fl <= / 1000 * joint_value aim speed fl) by (apply Rmult_le_compat_r; [lra|unfold e40; lra]). lra.
Qed.
Lemma total_close rA rN rS rF d a : let r := stars_from_raw rA rN rS rF d a in
  within 0 (bpow radix2 60) (at_Aim r) -> within 0 (bpow radix2 60) (at_Speed r) -> (check_mod d Flashlight = true -> flash_ok (at_Flashlight r)) ->
  nr 180 (at_Total r) (total_stars (B2R (at_Aim r)) (B2R (at_Speed r)) (if check_mod d Flashlight then Some (B2R (at_Flashlight r)) else None)).
Proof.
  intros r A S F. unfold r, stars_from_raw in *. cbn [at_Aim at_Speed at_Flashlight at_Total] in *. set (xa := fmul (fsqrt rA) star_scaling) in *. set (xs := if check_mod d Relax then f0 else fmul (fsqrt rS) star_scaling) in *. set (xf := fmul (fsqrt rF) star_scaling) in *.
  pose proof (joint_nv _ _ _ _ _ _ (base_any xa A) (base_any xs S) (flash_nv xf (check_mod d Flashlight) F)) as J. unfold joint_f in J. rewrite (above_least _ _ _ _ J). exact (total_nr _ _ _ _ J).
Qed.
End WithLibm.

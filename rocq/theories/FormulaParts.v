(** The factors of the pp values against their real formulas. *)
From Coq Require Import Reals Lra ZArith Lia.
From Flocq Require Import Core BinarySingleNaN.
From Verif Require Import PP SpecPP SpecFormula BaseLemmas FloatLemmas Float32Lemmas KeyLemmas LazyProofs PPProofs RelLemmas RelPow.
Open Scope R_scope.

(** a constant is within a unit of the number it stands for *)
Ltac kst :=
  match goal with |- nr _ ?x _ => split; [vm_compute; reflexivity|split; [lra|bval x; match goal with V : B2R x = _ |- _ => rewrite V end; unfold e40; lra]] end.
Ltac pw := match goal with |- context [bpow radix2 ?k] => let v := eval compute in (bpow radix2 k) in change (bpow radix2 k) with v end.
Ltac size := right; split; repeat pw; lra.
Ltac kv := split; [kst|size].
Lemma one_nv : nv 0 0 (fq 1 1) 1. Proof. split; [|right; cbn; lra]. destruct (fq1_exact 1) as (F & E); [lia|]. apply nr_is; [exact F|exact E|lra]. Qed.
Lemma nr_1 n d r : nr 1 (fq n d) r -> 0 <= r <= 1000 -> fin (fq n d) /\ Rabs (B2R (fq n d) - r) <= 1000 * e40.
Proof. intros (F & P & B) H. split; [exact F|]. apply Rabs_le. assert (1 * e40 * r <= 1000 * e40) by (unfold e40; lra). lra. Qed.
(** exponents are far more accurate: within 2^-52 *)
Lemma expo n d r h : fin (fq n d) -> Rabs (B2R (fq n d) - r) <= h * e40 -> fin (fq n d) /\ Rabs (B2R (fq n d) - r) <= h * e40.
Proof. auto. Qed.
Ltac ex := match goal with |- Rabs (B2R ?x - _) <= _ => bval x; match goal with V : B2R x = _ |- _ => rewrite V end; apply Rabs_le; unfold e40; lra end.

Section WithLibm.
Context {M : libm} (PC : pow_close) (LC : log_close).

Lemma e08 : fin (fq 8 10) /\ Rabs (B2R (fq 8 10) - 8 / 10) <= / 1000 * e40. Proof. split; [vm_compute; reflexivity|ex]. Qed.
Lemma e775 : fin (fq 775 1000) /\ Rabs (B2R (fq 775 1000) - 775 / 1000) <= / 1000 * e40. Proof. split; [vm_compute; reflexivity|ex]. Qed.
Lemma e875 : fin (fq 875 1000) /\ Rabs (B2R (fq 875 1000) - 875 / 1000) <= / 1000 * e40. Proof. split; [vm_compute; reflexivity|ex]. Qed.
Lemma e3 : fin (fq 3 1) /\ Rabs (B2R (fq 3 1) - 3) <= / 1000 * e40. Proof. split; [vm_compute; reflexivity|ex]. Qed.
Lemma e2 : fin (fq 2 1) /\ Rabs (B2R (fq 2 1) - 2) <= / 1000 * e40. Proof. split; [vm_compute; reflexivity|ex]. Qed.
Lemma e24 : fin (fq 24 1) /\ Rabs (B2R (fq 24 1) - 24) <= / 1000 * e40. Proof. split; [vm_compute; reflexivity|ex]. Qed.
Lemma e03 : fin (fq 3 10) /\ Rabs (B2R (fq 3 10) - 3 / 10) <= / 1000 * e40. Proof. split; [vm_compute; reflexivity|ex]. Qed.
Lemma e85 : fin (fq 85 100) /\ Rabs (B2R (fq 85 100) - 85 / 100) <= / 1000 * e40. Proof. split; [vm_compute; reflexivity|ex]. Qed.
Lemma e11 : fin (fq 11 10) /\ Rabs (B2R (fq 11 10) - 11 / 10) <= / 1000 * e40. Proof. split; [vm_compute; reflexivity|ex]. Qed.
Lemma e1011 : fin (fq 10 11) /\ Rabs (B2R (fq 10 11) - 10 / 11) <= / 1000 * e40. Proof. split; [vm_compute; reflexivity|ex]. Qed.

Lemma rpow_INR r (n : nat) : 0 <= r -> n <> 0%nat -> rpow r (INR n) = r ^ n.
Proof.
  intros [P|E] N; [rewrite rpow_pos by exact P; now apply Rpower_pow|]. subst r. rewrite rpow_0. symmetry. now apply pow_i, Nat.neq_0_lt_0.
Qed.
Lemma rpow_3 r : 0 <= r -> rpow r 3 = r ^ 3.
Proof. intros P. rewrite <- (rpow_INR r 3 P) by discriminate. f_equal. cbn. lra. Qed.
Lemma rpow_2 r : 0 <= r -> rpow r 2 = r ^ 2.
Proof. intros P. rewrite <- (rpow_INR r 2 P) by discriminate. f_equal. Qed.

(** ** The base value *)
Lemma rating_nv x : rating_ok x -> nv 0 100 x (B2R x).
Proof.
  intros (F & H). assert (P : 0 <= B2R x) by (destruct H as [->|(L & _)]; [lra|pose proof (bpow_gt_0 radix2 (-100)); lra]). split; [now apply nr_is|]. destruct H as [H|(L & U)]; [now left|right]. split; [exact L|].
  apply Rle_trans with (1 := U). change 1048576 with (bpow radix2 20). apply bpow_le. lia.
Qed.
Lemma touch_nv (b : bool) x : rating_ok x -> nv 3 100 (if b then mpow x (fq 8 10) else x) (if b then rpow (B2R x) (8 / 10) else B2R x).
Proof.
  intros H. apply rating_nv in H. destruct e08 as (F & E). destruct b; [|apply (nv_up 0 3 100 100); [lra|lia|exact H]].
  apply (nv_pow PC 0 3 (/ 1000) 1 100); try assumption; try lia; unfold NN; lra.
Qed.
(** a rating is at most 2^20, its 0.8th power at most 2^20 too *)
Lemma touch_le (b : bool) x : rating_ok x -> 0 <= (if b then rpow (B2R x) (8 / 10) else B2R x) <= 1048576.
Proof.
  intros (F & H). destruct b; [|destruct H as [H|(L & U)]; [lra|pose proof (bpow_gt_0 radix2 (-100)); lra]]. destruct H as [H|(L & U)]; [rewrite H, rpow_0; lra|].
  pose proof (bpow_gt_0 radix2 (-100)) as P. rewrite rpow_pos by lra. assert (0 < Rpower (B2R x) (8 / 10)) by (unfold Rpower; apply exp_pos). split; [lra|].
  destruct (Rle_lt_dec 1 (B2R x)) as [G|G].
  - apply Rle_trans with (Rpower (B2R x) 1); [apply Rle_Rpower; lra|]. rewrite Rpower_1 by lra. exact U.
  - apply Rle_trans with 1; [|lra]. replace 1 with (exp 0) by apply exp_0. unfold Rpower. left. apply exp_increasing. apply Rlt_le_trans with (8 / 10 * 0); [|lra]. apply Rmult_lt_compat_l; [lra|]. rewrite <- ln_1. apply ln_increasing; lra.
Qed.
Lemma base_nv n x s : 0 <= n <= 10 -> nv n 100 x s -> 0 <= s <= 1048576 -> nv 400 100 (pp_base x) (base_value s).
Proof.
  intros HN H S. unfold pp_base, base_value.
  assert (K1 : nv 1 4 (fq 675 10000) (675 / 10000)) by kv. assert (K5 : nv 0 3 (fq 5 1) 5) by kv.
  assert (D : nv 12 104 (fdiv x (fq 675 10000)) (s / (675 / 10000))) by (apply (nv_up (n + 1 + 1) 12 104 104); [lra|lia|]; apply (nv_div n 1 100 4); try assumption; try lia; unfold NN; lra).
  assert (T : nr 12 (fmax (fq 1 1) (fdiv x (fq 675 10000))) (Rmax 1 (s / (675 / 10000)))).
  { refine (proj1 (nv_max 12 104 _ _ _ _ _ _ D)); [unfold NN; lra|]. apply (nv_up 0 12 0 104); [lra|lia|exact one_nv]. }
  set (t := Rmax 1 (s / (675 / 10000))) in *. assert (TB : 1 <= t <= 16777216). { unfold t. split; [apply Rmax_l|]. apply Rmax_lub; [lra|]. lra. }
  assert (T5 : nr 14 (fmul (fq 5 1) (fmax (fq 1 1) (fdiv x (fq 675 10000)))) (5 * t)).
  { apply (nr_up (0 + 12 + 1)); [lra|]. refine (proj1 (nv_mul 0 12 3 24 _ _ _ _ _ _ _ _ _ K5 _)); unfold NN; try lra; try lia. split; [exact T|]. right. split; repeat pw; lra. }
  set (y := fmul (fq 5 1) _) in *. set (u := 5 * t - 4). assert (U : 1 <= u <= 83886080) by (unfold u; lra).
  destruct (fq1_exact 4) as (F4 & E4); [lia|].
  assert (A : nr 72 (fsub y (fq 4 1)) u).
  { apply rel_nr. apply (rel_round e40 e40_in 71 _ _ (B2R y - 4)); [lra|lra|unfold e40; lra|apply mid_in; lra| |].
    - destruct T5 as (_ & _ & B). assert (14 * e40 * (5 * t) <= 71 * e40 * u); [|unfold u in *; lra]. unfold u, e40. lra.
    - intros Q. rewrite <- E4. apply fsub_fin; [exact (proj1 T5)|exact F4|rewrite E4; exact Q]. }
  assert (SZ : sz 27 u) by (right; split; repeat pw; lra).
  assert (P : nv 230 81 (mpow (fsub y (fq 4 1)) (fq 3 1)) (u ^ 3)).
  { rewrite <- rpow_3 by lra. destruct e3 as (F & E). apply (nv_pow PC 72 230 (/ 1000) 3 27); try assumption; try lia; unfold NN; try lra. split; assumption. }
  assert (K0 : nv 0 17 (fq 100000 1) 100000) by kv. apply (nv_up (230 + 0 + 1) 400 (81 + 17) 100); [lra|lia|]. apply nv_div; try assumption; try lia; unfold NN; lra.
Qed.

(** ** The length bonus *)
Lemma log_nn x : 1 <= x <= 1000 -> 0 <= log10 x <= 3.
Proof.
  intros H. unfold log10. assert (L10 : 0 < ln 10) by (rewrite <- ln_1; apply ln_increasing; lra). split.
  - apply Rmult_le_pos; [|left; now apply Rinv_0_lt_compat]. rewrite <- ln_1. apply ln_le'; lra.
  - apply Rmult_le_reg_r with (ln 10); [exact L10|]. unfold Rdiv. rewrite Rmult_assoc, Rinv_l, Rmult_1_r by lra. replace (3 * ln 10) with (ln (10 ^ 3)) by (rewrite ln_pow by lra; cbn; ring). apply ln_le'; lra.
Qed.
Lemma ln_10 : 2 <= ln 10.
Proof. apply Rnot_lt_le. intros H. apply exp_increasing in H. rewrite exp_ln in H by lra. replace 2 with (1 + 1) in H by ring. rewrite exp_plus in H. pose proof exp_le_3 as E. pose proof (exp_pos 1). assert (exp 1 * exp 1 <= 3 * 3) by (apply Rmult_le_compat; lra). lra. Qed.
Lemma log_near n x r : 0 <= n <= NN -> 1 <= r -> r - n * e40 * r <= x <= r + n * e40 * r -> Rabs (log10 x - log10 r) <= n * e40.
Proof.
  intros HN R1 B. pose proof (ln_near n x r HN ltac:(lra) B) as L. unfold log10. replace (ln x / ln 10 - ln r / ln 10) with ((ln x - ln r) * / ln 10) by (unfold Rdiv; ring). pose proof ln_10. rewrite Rabs_mult, (Rabs_pos_eq (/ ln 10)) by (left; apply Rinv_0_lt_compat; lra).
  pose proof (unit_small n HN). apply Rle_trans with (101 / 100 * n * e40 * / 2); [|lra]. apply Rmult_le_compat; [apply Rabs_pos|left; apply Rinv_0_lt_compat; lra|exact L|apply Rinv_le_contravar; lra].
Qed.
Lemma total_bounds t : (1 <= t <= 2 ^ 20)%Z -> 1 <= IZR t <= 1048576.
Proof. intros H. split; apply IZR_le; lia. Qed.
Lemma length_bounds t : 1 <= t <= 1048576 -> 95 / 100 <= length_factor t <= 3.
Proof.
  intros H. unfold length_factor. assert (0 <= Rmin 1 (t / 2000) <= 1) by (split; [apply Rmin_glb; lra|apply Rmin_l]). destruct (Rlt_dec 2000 t); [|lra]. pose proof (log_nn (t / 2000) ltac:(lra)). lra.
Qed.
Lemma length_nr t : (1 <= t <= 2 ^ 20)%Z -> nr 20 (length_bonus t) (length_factor (IZR t)).
Proof.
  intros H. pose proof (total_bounds t H) as T. unfold length_bonus. cbv zeta. unfold length_factor.
  assert (NT : nv 0 20 (f_of_Z t) (IZR t)) by (apply nv_int; lia). assert (K2 : nv 0 11 (fq 2000 1) 2000) by kv. assert (K4 : nv 1 2 (fq 4 10) (4 / 10)) by kv. assert (K95 : nr 1 (fq 95 100) (95 / 100)) by kst.
  assert (Q : nv 1 31 (fdiv (f_of_Z t) (fq 2000 1)) (IZR t / 2000)) by (apply (nv_up (0 + 0 + 1) 1 (20 + 11) 31); [lra|lia|]; apply nv_div; try assumption; try lia; unfold NN; lra).
  assert (MI : nv 1 31 (fmin (fq 1 1) (fdiv (f_of_Z t) (fq 2000 1))) (Rmin 1 (IZR t / 2000))) by (apply nv_min; [unfold NN; lra| |exact Q]; apply (nv_up 0 1 0 31); [lra|lia|exact one_nv]).
  assert (MB : 0 <= Rmin 1 (IZR t / 2000) <= 1) by (split; [apply Rmin_glb; lra|apply Rmin_l]).
  assert (P : nr 3 (fmul (fq 4 10) (fmin (fq 1 1) (fdiv (f_of_Z t) (fq 2000 1)))) (4 / 10 * Rmin 1 (IZR t / 2000))).
  { apply (nr_up (1 + 1 + 1)); [lra|]. refine (proj1 (nv_mul 1 1 2 31 _ _ _ _ _ _ _ _ _ K4 MI)); unfold NN; try lra; lia. }
  set (m := Rmin 1 (IZR t / 2000)) in *. set (fm := fmul (fq 4 10) _) in *. clearbody m fm.
  assert (S : ab 5 (fadd (fq 95 100) fm) (95 / 100 + 4 / 10 * m)).
  { apply (ab_up (1 + 2 + 1)); [lra|]. apply ab_add; [apply (nr_ab 1 1 1); [exact K95|lra|lra|lra]|apply (nr_ab 3 2 (4 / 10)); [exact P|lra|lra|lra]|rewrite Rabs_pos_eq; lra|unfold NN; lra]. }
  destruct (Z.ltb_spec 2000 t) as [L|L]; destruct (Rlt_dec 2000 (IZR t)) as [L'|L'].
  - assert (TQ : 1 <= IZR t / 2000 <= 1000) by lra. pose proof (log_nn _ TQ) as LB. destruct Q as ((FQ & _ & BQ) & _).
    assert (X1 : 1 <= B2R (fdiv (f_of_Z t) (fq 2000 1)) <= bpow radix2 40).
    { split; [|repeat pw; unfold e40 in BQ; lra]. destruct NT as ((Ft & _ & Bt) & _). destruct K2 as ((F2 & _ & B2) & _). destruct (fdiv_fin (f_of_Z t) (fq 2000 1) Ft F2) as (_ & E); [lra|replace (B2R (f_of_Z t)) with (IZR t) by lra; replace (B2R (fq 2000 1)) with 2000 by lra; rewrite Rabs_pos_eq by lra; apply Rle_trans with 1000; [lra|change 1000 with (IZR 1000); apply Rle_trans with (bpow radix2 10); [repeat pw; lra|apply bpow_le; lia]]|].
      rewrite E. replace (B2R (f_of_Z t)) with (IZR t) by lra. replace (B2R (fq 2000 1)) with 2000 by lra. rewrite <- (rnd64_Z 1) by lia. apply rnd64_le. lra. }
    destruct (LC _ FQ X1) as (FL & BL). rewrite b40 in BL. pose proof (log_near 1 _ _ ltac:(unfold NN; lra) (proj1 TQ) BQ) as LN.
    assert (AL : ab 2 (mlog10 (fdiv (f_of_Z t) (fq 2000 1))) (log10 (IZR t / 2000))) by (split; [exact FL|]; apply Rabs_le_inv in BL, LN; apply Rabs_le; lra).
    assert (KH : ab 0 (fq 1 2) (/ 2)). { split; [vm_compute; reflexivity|]. bval (fq 1 2). rewrite V. apply Rabs_le. lra. }
    assert (LM : ab 3 (fmul (mlog10 (fdiv (f_of_Z t) (fq 2000 1))) (fq 1 2)) (log10 (IZR t / 2000) / 2)).
    { apply (ab_up (2 * / 2 + 0 * 3 + 2)); [lra|]. apply ab_mul; try assumption; unfold NN; try lra; rewrite Rabs_pos_eq; lra. }
    apply (ab_nr 10 20 (95 / 100)); [|lra|lra|lra|lra]. apply (ab_up (5 + 3 + 1)); [lra|]. apply ab_add; [exact S|exact LM|rewrite Rabs_pos_eq; lra|unfold NN; lra].
  - exfalso. apply L'. now apply IZR_lt.
  - exfalso. apply IZR_le in L. lra.
  - rewrite Rplus_0_r. apply (ab_nr 5 20 (95 / 100)); [exact S|lra|lra|lra|lra].
Qed.
Lemma length_nv t : (1 <= t <= 2 ^ 20)%Z -> nv 20 2 (length_bonus t) (length_factor (IZR t)).
Proof. intros H. split; [now apply length_nr|]. pose proof (length_bounds _ (total_bounds t H)). size. Qed.

(** ** The combo *)
Lemma rpow_div a b s : 0 <= a -> 0 < b -> rpow (a / b) s = rpow a s / rpow b s.
Proof.
  intros [A|<-] B.
  - rewrite !rpow_pos by (try apply Rdiv_lt_0_compat; assumption). unfold Rpower, Rdiv. rewrite <- exp_Ropp, <- exp_plus. f_equal. rewrite ln_mult, ln_Rinv by (try apply Rinv_0_lt_compat; assumption). ring.
  - replace (0 / b) with 0 by (unfold Rdiv; ring). rewrite rpow_0. unfold Rdiv. ring.
Qed.
Lemma rpow_nn r s : 0 <= rpow r s.
Proof. unfold rpow. destruct (Req_EM_T r 0); [lra|]. unfold Rpower. left. apply exp_pos. Qed.
Lemma combo_nv c m : (0 <= c <= 2 ^ 31)%Z -> (1 <= m <= 2 ^ 31)%Z -> nv 8 60 (combo_scaling c m) (combo_factor (IZR c) (IZR m)).
Proof.
  intros C MM. unfold combo_scaling, combo_factor. destruct e08 as (F & E).
  assert (m1 : 1 <= IZR m) by (apply IZR_le; lia). assert (c0 : 0 <= IZR c) by (apply IZR_le; lia).
  assert (PW : forall z, (0 <= z <= 2 ^ 31)%Z -> nv 3 25 (mpow (f_of_Z z) (fq 8 10)) (rpow (IZR z) (8 / 10))).
  { intros z Z. apply (nv_pow PC 0 3 (/ 1000) 1 31); try assumption; try lia; unfold NN; try lra. apply nv_int; lia. }
  rewrite rpow_div by lra. rewrite Rmin_comm. apply nv_min; [unfold NN; lra| |apply (nv_up 0 8 0 60); [lra|lia|exact one_nv]].
  apply (nv_up (3 + 3 + 1) 8 (25 + 25) 60); [lra|lia|]. apply nv_div; [unfold NN; lra|unfold NN; lra|lia|apply PW; lia|apply PW; lia|].
  rewrite rpow_pos by lra. unfold Rpower. apply exp_pos.
Qed.

(** ** Misses *)
(** a share of at most a half leaves at least two fifths *)
Lemma half_power r s : 0 <= r <= / 2 -> 3 / 4 <= s -> 0 <= rpow r s <= 3 / 5.
Proof.
  intros [[P|<-] U] S; [|rewrite rpow_0; lra]. split; [apply rpow_nn|]. rewrite rpow_pos by exact P.
  assert (X : forall a b, a <= b -> exp a <= exp b) by (intros a b [Q| ->]; [left; now apply exp_increasing|lra]).
  assert (LH : ln r <= ln (/ 2)) by (apply ln_le'; lra). assert (L2 : ln (/ 2) < 0) by (rewrite <- ln_1; apply ln_increasing; lra).
  apply Rle_trans with (Rpower (/ 2) (3 / 4)). { unfold Rpower. apply X. apply Rle_trans with (s * ln (/ 2)); [apply Rmult_le_compat_l; lra|]. assert (0 <= (s - 3 / 4) * - ln (/ 2)) by (apply Rmult_le_pos; lra). lra. }
  set (z := Rpower (/ 2) (3 / 4)). assert (Z : 0 < z) by (unfold z, Rpower; apply exp_pos).
  assert (Z4 : z ^ 4 = / 8). { unfold z. rewrite <- Rpower_pow by exact Z. rewrite Rpower_mult. replace (3 / 4 * INR 4) with (INR 3) by (cbn; lra). rewrite Rpower_pow by lra. lra. }
  apply Rnot_lt_le. intros G. assert ((3 / 5) ^ 4 < z ^ 4); [|lra]. assert (Q : (3 / 5) ^ 2 < z ^ 2) by (replace (z ^ 2) with (z * z) by ring; assert (3 / 5 * z < z * z) by (apply Rmult_lt_compat_r; lra); lra).
  replace (z ^ 4) with (z ^ 2 * z ^ 2) by ring. assert ((3 / 5) ^ 2 * z ^ 2 < z ^ 2 * z ^ 2) by (apply Rmult_lt_compat_r; lra). lra.
Qed.
(** one minus such a number *)
Lemma compl_nv n m k x r : nv n k x r -> 0 <= n <= 1000 -> 0 <= r <= 3 / 5 -> n * (3 / 2) + 3 <= m -> m <= NN -> nv m 2 (fsub (fq 1 1) x) (1 - r).
Proof.
  intros (A & _) HN R HM MN. split; [|size]. apply (ab_nr (n * (3 / 5) + 1) m (2 / 5)); [|lra|lra|lra|lra].
  apply (ab_up (0 + n * (3 / 5) + 1)); [lra|]. apply ab_sub; [|apply (nr_ab n _ (3 / 5)); [exact A|lra|lra|lra]|rewrite Rabs_pos_eq; lra|unfold NN; lra].
  destruct (fq1_exact 1) as (F & E); [lia|]. now apply ab_is.
Qed.
Lemma miss_base_nv eff total : (0 <= eff)%Z -> (2 * eff <= total)%Z -> (1 <= total <= 2 ^ 20)%Z ->
  nv 10 2 (fsub (fq 1 1) (mpow (fdiv (f_of_Z eff) (f_of_Z total)) (fq 775 1000))) (miss_base (IZR eff) (IZR total)) /\ 2 / 5 <= miss_base (IZR eff) (IZR total) <= 1.
Proof.
  intros E0 E2 T. pose proof (total_bounds total T) as TB. assert (e0 : 0 <= IZR eff) by (apply IZR_le; lia). assert (R : 0 <= IZR eff / IZR total <= / 2).
  { assert (H2 : 2 * IZR eff <= IZR total) by (rewrite <- mult_IZR; now apply IZR_le). split; [apply Rmult_le_pos; [lra|left; apply Rinv_0_lt_compat; lra]|]. apply Rmult_le_reg_r with (IZR total); [lra|]. unfold Rdiv. rewrite Rmult_assoc, Rinv_l by lra. lra. }
  unfold miss_base. pose proof (half_power _ (775 / 1000) R ltac:(lra)) as HP. split; [|lra]. destruct e775 as (F & E).
  apply (compl_nv 4 10 40); try lra; [|unfold NN; lra]. apply (nv_pow PC 1 4 (/ 1000) 1 40); try assumption; try lia; unfold NN; try lra.
  apply (nv_up (0 + 0 + 1) 1 (20 + 20) 40); [lra|lia|]. apply nv_div; [unfold NN; lra|unfold NN; lra|lia|apply nv_int; lia|apply nv_int; lia|lra].
Qed.
(** [expo] has an absolute error of [h] units *)
Lemma penalty_nv eff total (expo : f64) s h : (0 < eff)%Z -> (2 * eff <= total)%Z -> (1 <= total <= 2 ^ 20)%Z -> fin expo -> Rabs (B2R expo - s) <= h * e40 -> 0 <= h <= 5000 -> 0 <= s <= 999 ->
  bpow radix2 (-200) <= Rpower (miss_base (IZR eff) (IZR total)) s -> nv 16000 201 (miss_penalty eff total expo) (97 / 100 * Rpower (miss_base (IZR eff) (IZR total)) s).
Proof.
  intros E0 E2 T FE BE H S LB. destruct (miss_base_nv eff total ltac:(lia) E2 T) as ((A & SA) & MB). unfold miss_penalty. set (b := miss_base (IZR eff) (IZR total)) in *.
  assert (U : Rpower b s <= 1). { replace 1 with (exp 0) by apply exp_0. unfold Rpower. assert (L : ln b <= 0) by (rewrite <- ln_1; apply ln_le'; lra). assert (SL : s * ln b <= 0) by (assert (0 <= s * - ln b) by (apply Rmult_le_pos; lra); lra). destruct SL as [SL| ->]; [left; now apply exp_increasing|lra]. }
  assert (P : nv 15500 200 (mpow (fsub (fq 1 1) (mpow (fdiv (f_of_Z eff) (f_of_Z total)) (fq 775 1000))) expo) (Rpower b s)).
  { assert (Z : sz 200 (Rpower b s)) by (right; split; [exact LB|apply Rle_trans with 1; [exact U|change 1 with (bpow radix2 0); apply bpow_le; lia]]). split; [|exact Z].
    apply rel_nr, (pow_rel PC 10 _ h 999 1); try assumption; try (unfold NN; lra).
    - apply nr_rel; [exact A|lra].
    - rewrite Rabs_pos_eq; lra.
    - apply Rabs_le. assert (L : ln b <= 0) by (rewrite <- ln_1; apply ln_le'; lra). assert (L2 : - ln b <= / b - 1). { rewrite <- ln_Rinv by lra. pose proof (exp_ineq1_le (ln (/ b))) as Q. rewrite exp_ln in Q by (apply Rinv_0_lt_compat; lra). lra. }
      split; [|lra]. assert (LL : ln (2 / 5) <= ln b) by (apply ln_le'; lra). assert (X : -1 <= ln (2 / 5)); [|lra].
      apply Rnot_lt_le. intros Q. apply exp_increasing in Q. rewrite exp_ln in Q by lra. replace (-1) with (- (1)) in Q by ring. rewrite exp_Ropp in Q. assert (E1 : 1 + 1 + 1 / 2 < exp 1).
      { pose proof (exp_ineq1 (/ 2) ltac:(lra)) as E. replace 1 with (/ 2 + / 2) at 4 by lra. rewrite exp_plus. pose proof (exp_ineq1 (/ 4) ltac:(lra)) as E'. assert (Q4 : exp (/ 2) = exp (/ 4) * exp (/ 4)) by (rewrite <- exp_plus; f_equal; lra).
        pose proof (exp_ineq1 (/ 8) ltac:(lra)) as E8. assert (Q8 : exp (/ 4) = exp (/ 8) * exp (/ 8)) by (rewrite <- exp_plus; f_equal; lra). assert ((1 + / 8) * (1 + / 8) < exp (/ 8) * exp (/ 8)) by (apply Rmult_gt_0_lt_compat; lra). assert (F4 : 81 / 64 < exp (/ 4)) by lra.
        assert (81 / 64 * (81 / 64) < exp (/ 4) * exp (/ 4)) by (apply Rmult_gt_0_lt_compat; lra). assert (F2 : 16 / 10 < exp (/ 2)) by lra. assert (16 / 10 * (16 / 10) < exp (/ 2) * exp (/ 2)) by (apply Rmult_gt_0_lt_compat; lra). lra. }
      assert (/ exp 1 <= / (5 / 2)) by (apply Rinv_le_contravar; lra). lra.
    - apply (sz_mid 200); [exact Z|lia|]. pose proof (bpow_gt_0 radix2 (-200)). lra. }
  assert (K : nv 1 1 (fq 97 100) (97 / 100)) by kv. apply (nv_up (1 + 15500 + 1) 16000 (1 + 200) 201); [lra|lia|]. apply nv_mul; try assumption; try lia; unfold NN; lra.
Qed.
Lemma aim_miss_nv eff total : (0 < eff <= 999)%Z -> (2 * eff <= total)%Z -> (1 <= total <= 2 ^ 20)%Z -> bpow radix2 (-200) <= Rpower (miss_base (IZR eff) (IZR total)) (IZR eff) ->
  nv 16000 201 (miss_penalty eff total (f_of_Z eff)) (miss_factor (IZR eff) (IZR total) (IZR eff)).
Proof.
  intros E E2 T LB. assert (e0 : 0 < IZR eff <= 999) by (split; [apply IZR_lt|apply IZR_le]; lia). unfold miss_factor. destruct (Rlt_dec 0 (IZR eff)) as [_|N]; [|lra].
  destruct (f_of_Z_exact eff ltac:(lia)) as (F & EV). apply (penalty_nv eff total (f_of_Z eff) (IZR eff) 0); try assumption; try lia; try lra.
  rewrite EV. apply Rabs_le. lra.
Qed.
Lemma pow875_le e : 1 <= e <= 999 -> 0 <= rpow e (875 / 1000) <= e.
Proof.
  intros H. rewrite rpow_pos by lra. split; [unfold Rpower; left; apply exp_pos|]. rewrite <- (Rpower_1 e) at 2 by lra. apply Rle_Rpower; lra.
Qed.
Lemma speed_miss_nv eff total : (0 < eff <= 999)%Z -> (2 * eff <= total)%Z -> (1 <= total <= 2 ^ 20)%Z -> bpow radix2 (-200) <= Rpower (miss_base (IZR eff) (IZR total)) (IZR eff) ->
  nv 16000 201 (miss_penalty eff total (mpow (f_of_Z eff) (fq 875 1000))) (miss_factor (IZR eff) (IZR total) (rpow (IZR eff) (875 / 1000))).
Proof.
  intros E E2 T LB. assert (e0 : 1 <= IZR eff <= 999) by (split; apply IZR_le; lia). unfold miss_factor. destruct (Rlt_dec 0 (IZR eff)) as [_|N]; [|lra].
  destruct e875 as (F & EX). pose proof (pow875_le _ e0) as PB. assert (A : nv 3 10 (mpow (f_of_Z eff) (fq 875 1000)) (rpow (IZR eff) (875 / 1000))).
  { apply (nv_pow PC 0 3 (/ 1000) 1 10); try assumption; try lia; unfold NN; try lra. apply nv_int; lia. }
  destruct A as (A & _). destruct (miss_base_nv eff total ltac:(lia) E2 T) as (_ & MB). destruct (nr_ab 3 3000 999 _ _ A ltac:(lra) ltac:(lra) ltac:(lra)) as (FA & BA).
  apply (penalty_nv eff total _ _ 3000); try assumption; try lia; try lra.
  apply Rle_trans with (1 := LB). set (b := miss_base (IZR eff) (IZR total)) in *. unfold Rpower at 1 2. assert (L : ln b <= 0) by (rewrite <- ln_1; apply ln_le'; lra).
  assert (X : IZR eff * ln b <= rpow (IZR eff) (875 / 1000) * ln b). { assert (0 <= (IZR eff - rpow (IZR eff) (875 / 1000)) * - ln b) by (apply Rmult_le_pos; lra). lra. }
  destruct X as [X| ->]; [left; now apply exp_increasing|lra].
Qed.

(** ** AR and OD *)
Lemma ab_const n d r : nr 1 (fq n d) r -> 0 <= r <= 4000 -> fin (fq n d) -> Rabs (B2R (fq n d) - r) <= / 100 * e40 -> ab (/ 100) (fq n d) r.
Proof. intros _ _ F B. now split. Qed.
Ltac kab := split; [vm_compute; reflexivity|ex].
Definition ar_aim_f (x : f64) : f64 :=
  if fgt x (fq 1033 100) then fmul (fq 3 10) (fsub x (fq 1033 100)) else if flt x (fq 8 1) then fmul (fq 1 10) (fsub (fq 8 1) x) else f0.
Definition ar_speed_f (x : f64) : f64 := if fgt x (fq 1033 100) then fmul (fq 3 10) (fsub x (fq 1033 100)) else f0.
Lemma high_ab x : within (-100) 13 x -> fgt x (fq 1033 100) = true -> ab 5 (fmul (fq 3 10) (fsub x (fq 1033 100))) (SpecFormula.ar_high (B2R x)) /\ 0 < SpecFormula.ar_high (B2R x) + / 1000000 /\ SpecFormula.ar_low (B2R x) = 0.
Proof.
  intros (F & B) G. assert (K : ab (/ 100) (fq 1033 100) (1033 / 100)) by kab. assert (K3 : ab (/ 100) (fq 3 10) (3 / 10)) by kab.
  change (fgt x (fq 1033 100)) with (flt (fq 1033 100) x) in G. apply flt_fin in G; [|exact (proj1 K)|exact F]. destruct K as (FK & BK). pose proof BK as BK'. apply Rabs_le_inv in BK'. unfold e40 in BK'.
  assert (S : ab (3 / 2) (fsub x (fq 1033 100)) (B2R x - 1033 / 100)). { apply (ab_up (0 + / 100 + 1)); [lra|]. apply ab_sub; [now apply ab_is|now split|apply Rabs_le; lra|unfold NN; lra]. }
  assert (MX : Rabs (B2R x - 1033 / 100 - Rmax 0 (B2R x - 1033 / 100)) <= / 100 * e40). { unfold Rmax. destruct (Rle_dec 0 (B2R x - 1033 / 100)) as [Q|Q]; apply Rabs_le; unfold e40; lra. }
  assert (RM : 0 <= Rmax 0 (B2R x - 1033 / 100) <= 3) by (split; [apply Rmax_l|apply Rmax_lub; lra]).
  split; [|split; [unfold SpecFormula.ar_high; lra|unfold SpecFormula.ar_low; rewrite Rmax_left; lra]]. unfold SpecFormula.ar_high.
  apply (ab_up (/ 100 * 3 + 2 * (3 / 10) + 2)); [lra|]. apply ab_mul; try assumption; unfold NN; try lra; [|rewrite Rabs_pos_eq; lra|rewrite Rabs_pos_eq; lra].
  destruct S as (FS & BS). split; [exact FS|]. apply Rabs_le_inv in BS, MX. apply Rabs_le. unfold e40 in *. lra.
Qed.
Lemma zero_ab n r : 0 <= n -> Rabs r <= n * e40 -> ab n f0 r.
Proof. intros N B. split; [reflexivity|]. change (B2R f0) with 0. replace (0 - r) with (- r) by ring. now rewrite Rabs_Ropp. Qed.
Lemma ar_high_0 x : fin x -> fgt x (fq 1033 100) = false -> 0 <= SpecFormula.ar_high (B2R x) <= e40.
Proof.
  intros F G. assert (K : ab (/ 100) (fq 1033 100) (1033 / 100)) by kab. destruct K as (FK & BK). change (fgt x (fq 1033 100)) with (flt (fq 1033 100) x) in G. apply flt_fin_false in G; [|exact FK|exact F]. apply Rabs_le_inv in BK.
  unfold SpecFormula.ar_high. assert (0 <= Rmax 0 (B2R x - 1033 / 100) <= / 100 * e40) by (split; [apply Rmax_l|apply Rmax_lub; unfold e40 in *; lra]). unfold e40 in *. lra.
Qed.
Lemma speed_ar_ab x : within (-100) 13 x -> ab 6 (ar_speed_f x) (SpecFormula.ar_high (B2R x)).
Proof.
  intros W. unfold ar_speed_f. destruct (fgt x (fq 1033 100)) eqn:G; [apply (ab_up 5); [lra|]; now apply high_ab|]. pose proof (ar_high_0 x (proj1 W) G) as H. apply zero_ab; [lra|]. rewrite Rabs_pos_eq; lra.
Qed.
Lemma aim_ar_ab x : within (-100) 13 x -> ab 20 (ar_aim_f x) (SpecFormula.ar_high (B2R x) + SpecFormula.ar_low (B2R x)).
Proof.
  intros W. unfold ar_aim_f. destruct (fgt x (fq 1033 100)) eqn:G.
  - destruct (high_ab x W G) as (A & _ & ->). rewrite Rplus_0_r. now apply (ab_up 5); [lra|].
  - pose proof (ar_high_0 x (proj1 W) G) as H. destruct W as (F & B). destruct (fq1_exact 8) as (F8 & E8); [lia|]. destruct (flt x (fq 8 1)) eqn:L.
    + apply flt_fin in L; [|exact F|exact F8]. rewrite E8 in L. unfold SpecFormula.ar_low. rewrite (Rmax_right 0 (8 - B2R x)) by lra.
      assert (K1 : ab (/ 100) (fq 1 10) (1 / 10)) by kab. assert (S : ab 1 (fsub (fq 8 1) x) (8 - B2R x)) by (apply (ab_up (0 + 0 + 1)); [lra|]; apply ab_sub; [now apply ab_is|now apply ab_is|apply Rabs_le; lra|unfold NN; lra]).
      assert (P : ab 5 (fmul (fq 1 10) (fsub (fq 8 1) x)) (1 / 10 * (8 - B2R x))).
      { apply (ab_up (/ 100 * 108 + 1 * (1 / 10) + 2)); [lra|]. apply ab_mul; try assumption; unfold NN; try lra; rewrite Rabs_pos_eq; lra. }
      destruct P as (FP & BP). split; [exact FP|]. apply Rabs_le_inv in BP. apply Rabs_le. lra.
    + apply flt_fin_false in L; [|exact F|exact F8]. rewrite E8 in L. unfold SpecFormula.ar_low. rewrite (Rmax_left 0 (8 - B2R x)) by lra. apply zero_ab; [lra|]. rewrite Rabs_pos_eq; lra.
Qed.
Lemma ar_bounds x : -100 <= x <= 13 -> 0 <= SpecFormula.ar_high x <= 1 /\ 0 <= SpecFormula.ar_low x <= 11.
Proof.
  intros H. unfold SpecFormula.ar_high, SpecFormula.ar_low. assert (0 <= Rmax 0 (x - 1033 / 100) <= 3) by (split; [apply Rmax_l|apply Rmax_lub; lra]). assert (0 <= Rmax 0 (8 - x) <= 108) by (split; [apply Rmax_l|apply Rmax_lub; lra]). lra.
Qed.
Lemma ar_factor_nv t (y : f64) r : (1 <= t <= 2 ^ 20)%Z -> ab 20 y r -> 0 <= r <= 12 -> nv 800 6 (fadd (fq 1 1) (fmul y (length_bonus t))) (1 + r * length_factor (IZR t)).
Proof.
  intros T A R. pose proof (length_bounds _ (total_bounds t T)) as LB. assert (RL : 0 <= r * length_factor (IZR t) <= 12 * 3) by (split; [apply Rmult_le_pos; lra|apply Rmult_le_compat; lra]).
  split; [|size]. destruct (fq1_exact 1) as (F1 & E1); [lia|]. apply (ab_nr 785 800 1); try lra.
  apply (ab_up (0 + (20 * 3 + 60 * 12 + 2) + 1)); [lra|]. apply ab_add; [now apply ab_is| |rewrite Rabs_pos_eq; lra|unfold NN; lra].
  apply ab_mul; [exact A|apply (nr_ab 20 60 3); [now apply length_nr|lra|lra|lra]| | | | | |]; unfold NN; try lra; rewrite Rabs_pos_eq; lra.
Qed.
Lemma hidden_nv x : within (-100) 13 x -> nv 10 3 (fadd (fq 1 1) (fmul (fq 4 100) (fsub (fq 12 1) x))) (1 + 4 / 100 * (12 - B2R x)).
Proof.
  intros (F & B). split; [|size]. destruct (fq1_exact 1) as (F1 & E1); [lia|]. destruct (fq1_exact 12) as (F12 & E12); [lia|]. assert (K : ab (/ 100) (fq 4 100) (4 / 100)) by kab.
  apply (ab_nr 9 10 (96 / 100)); try lra. apply (ab_up (0 + (/ 100 * 112 + 1 * (4 / 100) + 2) + 1)); [lra|]. apply ab_add; [now apply ab_is| |rewrite Rabs_pos_eq; lra|unfold NN; lra].
  apply ab_mul; [exact K| | | | | | |]; unfold NN; try lra; [|rewrite Rabs_pos_eq; lra|apply Rabs_le; lra]. apply (ab_up (0 + 0 + 1)); [lra|]. apply ab_sub; [now apply ab_is|now apply ab_is|apply Rabs_le; lra|unfold NN; lra].
Qed.
(** squares of OD *)
Lemma od_nv x (c k : f64) rc rk : within (-40) 14 x -> ab (/ 100) c rc -> / 2 <= rc <= 1 -> fin k -> B2R k = rk -> 700 <= rk <= 4000 -> nv 12 2 (fadd c (fdiv (mpow x (fq 2 1)) k)) (rc + B2R x ^ 2 / rk).
Proof.
  intros (F & B) C RC FK EK RK. assert (X2 : 0 <= B2R x ^ 2 <= 1600). { split; [apply pow2_ge_0|]. rewrite <- Rsqr_pow2. replace 1600 with (Rsqr 40) by (unfold Rsqr; ring). apply Rsqr_le_abs_1. rewrite (Rabs_pos_eq 40) by lra. apply Rabs_le. lra. }
  destruct (close_square PC x F) as (FS & BS); [apply Rle_trans with 64; [apply Rabs_le; lra|change 64 with (bpow radix2 6); apply bpow_le; lia]|]. rewrite b40 in BS.
  assert (T : bpow radix2 (-1000) <= e40) by (rewrite <- b40; apply bpow_le; lia). assert (BX : Rabs (B2R (mpow x (fq 2 1)) - B2R x ^ 2) <= 1601 * e40). { apply Rle_trans with (1 := BS). assert (B2R x ^ 2 * e40 <= 1600 * e40) by (apply Rmult_le_compat_r; [unfold e40; lra|lra]). lra. }
  set (q := B2R x ^ 2) in *. clearbody q. set (p := mpow x (fq 2 1)) in *. clearbody p. apply Rabs_le_inv in BX.
  assert (I : 0 < / rk <= / 700) by (split; [apply Rinv_0_lt_compat; lra|apply Rinv_le_contravar; lra]).
  assert (QK : 0 <= q / rk <= 16 / 7) by (unfold Rdiv; split; [apply Rmult_le_pos; lra|apply Rle_trans with (1600 * / 700); [apply Rmult_le_compat; lra|lra]]).
  assert (PB : Rabs (B2R p / rk - q / rk) <= 3 * e40). { replace (B2R p / rk - q / rk) with ((B2R p - q) * / rk) by (unfold Rdiv; ring). rewrite Rabs_mult, (Rabs_pos_eq (/ rk)) by lra. apply Rle_trans with (1601 * e40 * / 700); [apply Rmult_le_compat; [apply Rabs_pos|lra|apply Rabs_le; lra|lra]|unfold e40; lra]. }
  apply Rabs_le_inv in PB. destruct (round_ab (fdiv p k) (B2R p / rk)) as (FD & BD); [apply Rabs_le; unfold e40 in PB; lra|intros Q; rewrite <- EK in *; apply fdiv_fin; auto; lra|]. apply Rabs_le_inv in BD.
  assert (D : ab 4 (fdiv p k) (q / rk)) by (split; [exact FD|apply Rabs_le; lra]).
  split; [|size]. apply (ab_nr 6 12 (/ 2)); try lra. apply (ab_up (/ 100 + 4 + 1)); [lra|]. apply ab_add; [exact C|exact D|rewrite Rabs_pos_eq; lra|unfold NN; lra].
Qed.
Lemma od_aim_nv x : within (-40) 14 x -> nv 12 2 (fadd (fq 98 100) (fdiv (mpow x (fq 2 1)) (fq 2500 1))) (98 / 100 + B2R x ^ 2 / 2500).
Proof. intros W. destruct (fq1_exact 2500) as (F & E); [lia|]. apply od_nv; auto; try lra. kab. Qed.
Lemma od_speed_nv x : within (-40) 14 x -> nv 12 2 (fadd (fq 95 100) (fdiv (mpow x (fq 2 1)) (fq 750 1))) (95 / 100 + B2R x ^ 2 / 750).
Proof. intros W. destruct (fq1_exact 750) as (F & E); [lia|]. apply od_nv; auto; try lra. kab. Qed.
End WithLibm.

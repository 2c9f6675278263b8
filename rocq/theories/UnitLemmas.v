(** Absolute errors in units of 2^-40: a calculus for larger numbers and errors than [RelPow]'s. *)
From Coq Require Import Reals Lra ZArith Lia Machin.
From Flocq Require Import Core BinarySingleNaN.
From Verif Require Import GoFloat SpecPP SpecFormula SpecSkill BaseLemmas FloatLemmas Float32Lemmas KeyLemmas LazyProofs PPProofs RelLemmas RelPow FormulaParts ArcShape.
Open Scope R_scope.

(** Rounding a number up to B costs at most c units. *)
Definition lim (B c : R) : Prop := exists k, (0 <= k <= 40)%Z /\ B <= bpow radix2 k /\ bpow radix2 (k - 13) <= c.
Ltac limk k := exists k; split; [lia|split; repeat pw; lra].
Lemma lim_8 : lim 8 (/ 1000). Proof. limk 3%Z. Qed.
Lemma lim_8k : lim 8192 1. Proof. limk 13%Z. Qed.
Lemma lim_100k : lim 131072 16. Proof. limk 17%Z. Qed.
Lemma lim_2m : lim 2097152 256. Proof. limk 21%Z. Qed.
Lemma e40_bpow : e40 = bpow radix2 (-40). Proof. unfold e40. repeat pw. reflexivity. Qed.
Lemma round_lim B c (x : f64) z : lim B c -> Rabs z <= B -> (Rabs z <= bpow radix2 1023 -> fin x /\ B2R x = rnd64 z) -> fin x /\ Rabs (B2R x - z) <= c * e40.
Proof.
  intros (k & K & BK & CK) Z H. destruct H as (F & E); [apply Rle_trans with (1 := Z), Rle_trans with (1 := BK), bpow_le; lia|]. split; [exact F|]. rewrite E.
  apply Rle_trans with (bpow radix2 (k - 53)); [apply rnd64_err; [lia|lra]|]. rewrite e40_bpow. replace (k - 53)%Z with (k - 13 + -40)%Z by lia. rewrite bpow_plus. apply Rmult_le_compat_r; [apply bpow_ge_0|exact CK].
Qed.
Lemma u_half n : n <= 500000000000 -> n * e40 <= / 2. Proof. unfold e40. lra. Qed.
Lemma u_add B c n m N x y r s : lim B c -> ab n x r -> ab m y s -> Rabs (r + s) + 1 <= B -> n + m <= 500000000000 -> n + m + c <= N -> ab N (fadd x y) (r + s).
Proof.
  intros L (FX & BX) (FY & BY) HB H HN. apply u_half in H. apply Rabs_le_inv in BX, BY.
  destruct (round_lim B c (fadd x y) (B2R x + B2R y) L) as (F & E); [|intros Q; now apply fadd_fin|].
  - assert (T : Rabs (B2R x + B2R y) <= Rabs (r + s) + 1); [|lra]. replace (B2R x + B2R y) with ((r + s) + (B2R x - r + (B2R y - s))) by ring. apply Rle_trans with (1 := Rabs_triang _ _). apply Rplus_le_compat_l. apply Rabs_le. lra.
  - split; [exact F|]. apply Rabs_le_inv in E. assert ((n + m + c) * e40 <= N * e40) by (apply Rmult_le_compat_r; [pose proof e40_pos; lra|exact HN]). apply Rabs_le. lra.
Qed.
Lemma u_sub B c n m N x y r s : lim B c -> ab n x r -> ab m y s -> Rabs (r - s) + 1 <= B -> n + m <= 500000000000 -> n + m + c <= N -> ab N (fsub x y) (r - s).
Proof.
  intros L (FX & BX) (FY & BY) HB H HN. apply u_half in H. apply Rabs_le_inv in BX, BY.
  destruct (round_lim B c (fsub x y) (B2R x - B2R y) L) as (F & E); [|intros Q; now apply fsub_fin|].
  - assert (T : Rabs (B2R x - B2R y) <= Rabs (r - s) + 1); [|lra]. replace (B2R x - B2R y) with ((r - s) + (B2R x - r - (B2R y - s))) by ring. apply Rle_trans with (1 := Rabs_triang _ _). apply Rplus_le_compat_l. apply Rabs_le. lra.
  - split; [exact F|]. apply Rabs_le_inv in E. assert ((n + m + c) * e40 <= N * e40) by (apply Rmult_le_compat_r; [pose proof e40_pos; lra|exact HN]). apply Rabs_le. lra.
Qed.
(** |r| <= a, |s| <= b *)
Lemma mul_err n m a b x y r s : 0 <= n -> 0 <= m -> Rabs (x - r) <= n * e40 -> Rabs (y - s) <= m * e40 -> Rabs r <= a -> Rabs s <= b -> Rabs (x * y - r * s) <= (n * b + m * a + n * m / 1000000000000) * e40.
Proof.
  intros HN HM X Y A B. pose proof e40_pos as E0. replace (x * y - r * s) with ((x - r) * s + ((y - s) * r + (x - r) * (y - s))) by ring.
  apply Rle_trans with (1 := Rabs_triang _ _). rewrite Rabs_mult. pose proof (Rabs_triang ((y - s) * r) ((x - r) * (y - s))) as T. rewrite !Rabs_mult in T.
  assert (P1 : Rabs (x - r) * Rabs s <= n * e40 * b) by (apply Rmult_le_compat; auto using Rabs_pos). assert (P2 : Rabs (y - s) * Rabs r <= m * e40 * a) by (apply Rmult_le_compat; auto using Rabs_pos).
  assert (P3 : Rabs (x - r) * Rabs (y - s) <= n * e40 * (m * e40)) by (apply Rmult_le_compat; auto using Rabs_pos).
  assert (P4 : n * e40 * (m * e40) <= n * m / 1000000000000 * e40).
  { replace (n * e40 * (m * e40)) with (n * m * e40 * e40) by ring. apply Rmult_le_compat_r; [lra|]. unfold Rdiv. apply Rmult_le_compat_l; [now apply Rmult_le_pos|unfold e40; lra]. }
  lra.
Qed.
Lemma u_mul B c a b n m N x y r s : lim B c -> ab n x r -> ab m y s -> 0 <= n -> 0 <= m -> Rabs r <= a -> Rabs s <= b -> a * b + 1 <= B -> n * b + m * a + n * m / 1000000000000 <= 500000000000 ->
  n * b + m * a + n * m / 1000000000000 + c <= N -> ab N (fmul x y) (r * s).
Proof.
  intros L (FX & BX) (FY & BY) HN HM A B0 AB H HC. pose proof (mul_err n m a b _ _ r s HN HM BX BY A B0) as E1. set (w := n * b + m * a + n * m / 1000000000000) in *. apply u_half in H.
  assert (RS : Rabs (r * s) <= a * b) by (rewrite Rabs_mult; apply Rmult_le_compat; auto using Rabs_pos).
  destruct (round_lim B c (fmul x y) (B2R x * B2R y) L) as (F & E); [|intros Q; now apply fmul_fin|].
  - replace (B2R x * B2R y) with (r * s + (B2R x * B2R y - r * s)) by ring. apply Rle_trans with (1 := Rabs_triang _ _). lra.
  - split; [exact F|]. assert ((w + c) * e40 <= N * e40) by (apply Rmult_le_compat_r; [pose proof e40_pos; lra|exact HC]). apply Rabs_le_inv in E, E1. apply Rabs_le. lra.
Qed.
(** division: s at least d *)
Lemma u_div B c d q n m N x y r s : lim B c -> ab n x r -> ab m y s -> 0 <= n -> 0 <= m -> 0 < d <= s -> Rabs (r / s) <= q -> m * 2 <= d * 1000000000000 -> q + 1 <= B -> (n + q * m) * 2 / d <= 500000000000 ->
  (n + q * m) * 2 / d + c <= N -> ab N (fdiv x y) (r / s).
Proof.
  intros L (FX & BX) (FY & BY) HN HM D Q MD QB H HC. pose proof e40_pos as E0. assert (Y : d / 2 <= B2R y). { apply Rabs_le_inv in BY. assert (m * e40 <= d / 2) by (unfold e40; lra). lra. }
  assert (W : Rabs (B2R x / B2R y - r / s) <= (n + q * m) * 2 / d * e40).
  { replace (B2R x / B2R y - r / s) with ((B2R x - r - r / s * (B2R y - s)) / B2R y) by (field; lra). unfold Rdiv at 1. rewrite Rabs_mult. rewrite (Rabs_pos_eq (/ B2R y)) by (left; apply Rinv_0_lt_compat; lra).
    replace ((n + q * m) * 2 / d * e40) with ((n + q * m) * e40 * (/ (d / 2))) by (field; lra). apply Rmult_le_compat; [apply Rabs_pos|left; apply Rinv_0_lt_compat; lra| |apply Rinv_le_contravar; lra].
    unfold Rminus at 1. apply Rle_trans with (1 := Rabs_triang _ _). rewrite Rabs_Ropp, Rabs_mult. assert (Rabs (r / s) * Rabs (B2R y - s) <= q * (m * e40)) by (apply Rmult_le_compat; auto using Rabs_pos). lra. }
  apply u_half in H. destruct (round_lim B c (fdiv x y) (B2R x / B2R y) L) as (F & E); [|intros G; apply fdiv_fin; auto; lra|].
  - replace (B2R x / B2R y) with (r / s + (B2R x / B2R y - r / s)) by ring. apply Rle_trans with (1 := Rabs_triang _ _). lra.
  - split; [exact F|]. assert (((n + q * m) * 2 / d + c) * e40 <= N * e40) by (apply Rmult_le_compat_r; lra). apply Rabs_le_inv in E, W. apply Rabs_le. lra.
Qed.
(** by an exact number of at least 1 *)
Lemma u_over B c n N x y r s : lim B c -> ab n x r -> fin y -> B2R y = s -> 1 <= s -> Rabs (r / s) + 1 <= B -> 0 <= n <= 500000000000 -> n + c <= N -> ab N (fdiv x y) (r / s).
Proof.
  intros L (FX & BX) FY EY S QB H HC. pose proof e40_pos as E0. destruct H as (HN & H). apply u_half in H.
  assert (W : Rabs (B2R x / B2R y - r / s) <= n * e40).
  { rewrite EY. replace (B2R x / s - r / s) with ((B2R x - r) * / s) by (field; lra). rewrite Rabs_mult, (Rabs_pos_eq (/ s)) by (left; apply Rinv_0_lt_compat; lra). rewrite <- (Rmult_1_r (n * e40)). apply Rmult_le_compat; [apply Rabs_pos|left; apply Rinv_0_lt_compat; lra|exact BX|].
    rewrite <- Rinv_1. apply Rinv_le_contravar; lra. }
  destruct (round_lim B c (fdiv x y) (B2R x / B2R y) L) as (F & E); [|intros G; apply fdiv_fin; auto; lra|].
  - replace (B2R x / B2R y) with (r / s + (B2R x / B2R y - r / s)) by ring. apply Rle_trans with (1 := Rabs_triang _ _). lra.
  - split; [exact F|]. assert ((n + c) * e40 <= N * e40) by (apply Rmult_le_compat_r; lra). apply Rabs_le_inv in E, W. apply Rabs_le. lra.
Qed.
Lemma u_min n x y r s : ab n x r -> ab n y s -> ab n (fmin x y) (Rmin r s).
Proof.
  intros (FX & BX) (FY & BY). destruct (fmin_fin x y FX FY) as (F & E). split; [exact F|]. rewrite E. apply Rabs_le_inv in BX, BY. apply Rabs_le. unfold Rmin. destruct (Rle_dec r s); destruct (Rle_dec (B2R x) (B2R y)); lra.
Qed.
Lemma u_abs n x r : ab n x r -> ab n (fabs x) (Rabs r).
Proof.
  intros (FX & BX). destruct (fabs_fin x FX) as (F & E). split; [exact F|]. rewrite E. apply Rle_trans with (2 := BX). apply Rabs_triang_inv2.
Qed.
Lemma u_val n x r : ab n x r -> B2R x - n * e40 <= r <= B2R x + n * e40. Proof. intros (_ & B). apply Rabs_le_inv in B. lra. Qed.
Lemma u_0 n : 0 <= n -> ab n f0 0. Proof. intros H. apply (ab_up 0); [exact H|]. now apply ab_is. Qed.

(** ** Pi *)
Lemma pi_digits : Rabs (PI - 3141592653589793 / 1000000000000000) <= / 100000000000000.
Proof.
  pose proof (PI_2_3_7_ineq 7) as [L U]. cbn [Nat.mul Nat.add sum_f_R0] in L, U. unfold tg_alt, PI_2_3_7_tg, Ratan_seq in L, U.
  cbn [Nat.mul Nat.add pow] in L, U. repeat rewrite INR_IZR_INZ in L. repeat rewrite INR_IZR_INZ in U. cbn [Z.of_nat Pos.of_succ_nat Pos.succ Nat.add] in L, U.
  apply Rabs_le. lra.
Qed.

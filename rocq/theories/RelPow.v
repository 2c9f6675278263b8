(** Approximation of non-negative reals by doubles in units of 2^-40, with powers. *)
From Coq Require Import Reals Lra ZArith Lia.
From Flocq Require Import Core BinarySingleNaN.
From Verif Require Import GoFloat SpecFormula BaseLemmas FloatLemmas Float32Lemmas KeyLemmas LazyProofs PPProofs RelLemmas.
Open Scope R_scope.

Definition e40 : R := / 1099511627776.
Definition NN : R := 200000.
Lemma e40_in : / 1125899906842624 <= e40 <= / 2097152.
Proof. unfold e40. lra. Qed.
Lemma e40_pos : 0 < e40. Proof. unfold e40. lra. Qed.
(** Not negative, and if not zero then between 2^-k and 2^k. *)
Definition sz (k : Z) (r : R) : Prop := r = 0 \/ bpow radix2 (- k) <= r <= bpow radix2 k.
Definition nr (n : R) (x : f64) (r : R) : Prop := fin x /\ 0 <= r /\ r - n * e40 * r <= B2R x <= r + n * e40 * r.
Definition nv (n : R) (k : Z) (x : f64) (r : R) : Prop := nr n x r /\ sz k r.

Lemma sz_nn k r : sz k r -> 0 <= r.
Proof. intros [->|(L & _)]; [lra|]. pose proof (bpow_gt_0 radix2 (- k)). lra. Qed.
Lemma sz_up k l r : (k <= l)%Z -> sz k r -> sz l r.
Proof. intros H [E|(L & U)]; [now left|right]. split; [apply Rle_trans with (2 := L)|apply Rle_trans with (1 := U)]; apply bpow_le; lia. Qed.
Lemma sz_mul k l r s : sz k r -> sz l s -> sz (k + l) (r * s).
Proof.
  intros [->|(A & B)] S; [left; ring|]. destruct S as [->|(C & D)]; [left; ring|right]. pose proof (bpow_gt_0 radix2 (- k)). pose proof (bpow_gt_0 radix2 (- l)).
  replace (- (k + l))%Z with (- k + - l)%Z by ring. rewrite !bpow_plus. split; apply Rmult_le_compat; lra.
Qed.
Lemma sz_inv l s : sz l s -> 0 < s -> bpow radix2 (- l) <= / s <= bpow radix2 l.
Proof.
  intros [E|(C & D)] P; [lra|]. pose proof (bpow_gt_0 radix2 (- l)). pose proof (bpow_gt_0 radix2 l). split.
  - rewrite bpow_opp. apply Rinv_le_contravar; lra.
  - replace (bpow radix2 l) with (/ bpow radix2 (- l)) by (rewrite bpow_opp, Rinv_inv; reflexivity). apply Rinv_le_contravar; lra.
Qed.
Lemma sz_div k l r s : sz k r -> sz l s -> 0 < s -> sz (k + l) (r / s).
Proof. intros A B P. unfold Rdiv. apply sz_mul; [exact A|right]. now apply sz_inv. Qed.
Lemma sz_add k r s : sz k r -> sz k s -> (0 <= k)%Z -> sz (k + 1) (r + s).
Proof.
  intros A B K. assert (P2 : bpow radix2 (k + 1) = 2 * bpow radix2 k) by (rewrite bpow_plus; change (bpow radix2 1) with 2; ring). assert (P3 : bpow radix2 (- (k + 1)) <= bpow radix2 (- k)) by (apply bpow_le; lia).
  pose proof (bpow_gt_0 radix2 k). pose proof (bpow_gt_0 radix2 (- k)). destruct A as [->|A]; destruct B as [->|B]; [left; ring|right; lra|right; lra|right; lra].
Qed.
Lemma sz_min k r s : sz k r -> sz k s -> sz k (Rmin r s).
Proof. unfold Rmin. destruct (Rle_dec r s); auto. Qed.
Lemma sz_max k r s : sz k r -> sz k s -> sz k (Rmax r s).
Proof. unfold Rmax. destruct (Rle_dec r s); auto. Qed.
Lemma sz_in k lo hi r : bpow radix2 (- k) <= lo -> hi <= bpow radix2 k -> lo <= r <= hi -> sz k r.
Proof. intros A B C. right. lra. Qed.
Lemma sz_mid k r : sz k r -> (k <= 900)%Z -> 0 < r -> mid r.
Proof. intros [->|(L & U)] K P; [lra|]. split; [apply Rle_trans with (2 := L)|apply Rle_trans with (1 := U)]; apply bpow_le; lia. Qed.

Lemma nr_zero n x : nr n x 0 -> B2R x = 0.
Proof. intros (_ & _ & B). rewrite Rmult_0_r in B. lra. Qed.
Lemma nr_rel n x r : nr n x r -> 0 < r -> rel e40 n x r.
Proof. intros (F & _ & B) P. split; [exact F|]. split; [exact P|exact B]. Qed.
Lemma rel_nr n x r : rel e40 n x r -> nr n x r.
Proof. intros (F & P & B). split; [exact F|]. split; [lra|exact B]. Qed.
Lemma nr_up n m x r : n <= m -> nr n x r -> nr m x r.
Proof.
  intros H (F & P & B). split; [exact F|]. split; [exact P|]. assert (n * e40 * r <= m * e40 * r) by (apply Rmult_le_compat_r; [exact P|]; apply Rmult_le_compat_r; pose proof e40_pos; lra). lra.
Qed.
Lemma nr_is x r : fin x -> B2R x = r -> 0 <= r -> nr 0 x r.
Proof. intros F E P. split; [exact F|]. split; [exact P|]. lra. Qed.
Lemma nr_exact0 n x : fin x -> B2R x = 0 -> nr n x 0.
Proof. intros F E. split; [exact F|]. split; [lra|]. rewrite E. lra. Qed.
Lemma nr_abs n x r : 0 <= n -> nr n x r -> Rabs (B2R x - r) <= n * e40 * r.
Proof. intros _ (F & P & B). apply Rabs_le. lra. Qed.
Lemma nr_half n x r : 0 <= n <= NN -> nr n x r -> r * (1 - / 1000) <= B2R x <= r * (1 + / 1000).
Proof. intros N (F & P & B). assert (n * e40 * r <= / 1000 * r); [|lra]. apply Rmult_le_compat_r; [exact P|]. unfold e40, NN in *. lra. Qed.

Lemma mul40 n m x y r s : 0 <= n <= NN -> 0 <= m <= NN -> rel e40 n x r -> rel e40 m y s -> mid (r * s) -> rel e40 (n + m + 1) (fmul x y) (r * s).
Proof. apply rel_mul; unfold e40, NN; lra. Qed.
Lemma div40 n m x y r s : 0 <= n <= NN -> 0 <= m <= NN -> rel e40 n x r -> rel e40 m y s -> mid (r / s) -> rel e40 (n + m + 1) (fdiv x y) (r / s).
Proof. apply rel_div; unfold e40, NN; lra. Qed.
Lemma add40 n x y r s : 0 <= n <= NN -> rel e40 n x r -> rel e40 n y s -> mid (r + s) -> rel e40 (n + 1) (fadd x y) (r + s).
Proof. apply rel_add; unfold e40, NN; lra. Qed.

Lemma nv_up n m k l x r : n <= m -> (k <= l)%Z -> nv n k x r -> nv m l x r.
Proof. intros A B (N & S). split; [now apply (nr_up n)|now apply (sz_up k)]. Qed.
Lemma nv_fin n k x r : nv n k x r -> fin x.
Proof. intros ((F & _) & _). exact F. Qed.
Lemma nv_mul n m k l x y r s : 0 <= n <= NN -> 0 <= m <= NN -> (0 <= k)%Z -> (0 <= l)%Z -> (k + l <= 900)%Z -> nv n k x r -> nv m l y s -> nv (n + m + 1) (k + l) (fmul x y) (r * s).
Proof.
  intros HN HM K L KL (A & SA) (B & SB). pose proof (sz_mul k l r s SA SB) as S. split; [|exact S].
  destruct (Rle_lt_or_eq_dec 0 r (sz_nn k r SA)) as [Pr|Zr]; [destruct (Rle_lt_or_eq_dec 0 s (sz_nn l s SB)) as [Ps|Zs]|].
  - apply rel_nr, mul40; auto using nr_rel. apply (sz_mid (k + l)); auto. now apply Rmult_lt_0_compat.
  - subst s. rewrite Rmult_0_r. pose proof (nr_zero _ _ B) as Z. destruct (fmul_fin x y (proj1 A) (proj1 B)) as (F & E); [rewrite Z, Rmult_0_r, Rabs_R0; apply bpow_ge_0|]. apply nr_exact0; [exact F|]. now rewrite E, Z, Rmult_0_r, rnd64_0.
  - subst r. rewrite Rmult_0_l. pose proof (nr_zero _ _ A) as Z. destruct (fmul_fin x y (proj1 A) (proj1 B)) as (F & E); [rewrite Z, Rmult_0_l, Rabs_R0; apply bpow_ge_0|]. apply nr_exact0; [exact F|]. now rewrite E, Z, Rmult_0_l, rnd64_0.
Qed.
Lemma nv_div n m k l x y r s : 0 <= n <= NN -> 0 <= m <= NN -> (k + l <= 900)%Z -> nv n k x r -> nv m l y s -> 0 < s -> nv (n + m + 1) (k + l) (fdiv x y) (r / s).
Proof.
  intros HN HM KL (A & SA) (B & SB) Ps. pose proof (sz_div k l r s SA SB Ps) as S. split; [|exact S].
  destruct (Rle_lt_or_eq_dec 0 r (sz_nn k r SA)) as [Pr|Zr].
  - apply rel_nr, div40; auto using nr_rel. apply (sz_mid (k + l)); auto. now apply Rdiv_lt_0_compat.
  - subst r. replace (0 / s) with 0 by (unfold Rdiv; ring). pose proof (nr_zero _ _ A) as Z. pose proof (nr_half m y s HM B) as H. assert (Y : B2R y <> 0) by lra.
    destruct (fdiv_fin x y (proj1 A) (proj1 B) Y) as (F & E); [rewrite Z; unfold Rdiv; rewrite Rmult_0_l, Rabs_R0; apply bpow_ge_0|]. apply nr_exact0; [exact F|]. rewrite E, Z. unfold Rdiv. now rewrite Rmult_0_l, rnd64_0.
Qed.
Lemma nv_add n k x y r s : 0 <= n <= NN -> (0 <= k <= 899)%Z -> nv n k x r -> nv n k y s -> nv (n + 1) (k + 1) (fadd x y) (r + s).
Proof.
  intros HN K (A & SA) (B & SB). pose proof (sz_add k r s SA SB ltac:(lia)) as S. split; [|exact S]. pose proof (sz_nn k r SA) as Nr. pose proof (sz_nn k s SB) as Ns.
  destruct A as (FA & _ & BA). destruct B as (FB & _ & BB). destruct (Rle_lt_or_eq_dec 0 (r + s) ltac:(lra)) as [P|Z].
  - apply rel_nr. apply (rel_round e40 e40_in n _ _ (B2R x + B2R y)); [lra|lra|unfold e40, NN in *; lra| |lra|].
    + apply (sz_mid (k + 1)); [exact S|lia|exact P].
    + intros H. now apply fadd_fin.
  - assert (r = 0) by lra. assert (s = 0) by lra. subst. assert (X : B2R x = 0) by lra. assert (Y : B2R y = 0) by lra. destruct (fadd_fin x y FA FB) as (F & E); [rewrite X, Y, Rplus_0_r, Rabs_R0; apply bpow_ge_0|]. rewrite Rplus_0_r. apply nr_exact0; [exact F|]. now rewrite E, X, Y, Rplus_0_r, rnd64_0.
Qed.
Lemma unit_small n : 0 <= n <= NN -> 0 <= n * e40 <= / 1000000.
Proof. intros H. unfold e40, NN in *. lra. Qed.
Lemma nv_min n k x y r s : 0 <= n <= NN -> nv n k x r -> nv n k y s -> nv n k (fmin x y) (Rmin r s).
Proof.
  intros HN (A & SA) (B & SB). split; [|now apply sz_min]. destruct A as (FA & PA & BA). destruct B as (FB & PB & BB). destruct (fmin_fin x y FA FB) as (F & E). split; [exact F|]. rewrite E.
  pose proof (unit_small n HN) as D. set (d := n * e40) in *.
  unfold Rmin. destruct (Rle_dec r s) as [H|H]; destruct (Rle_dec (B2R x) (B2R y)) as [G|G]; (split; [lra|]); try lra.
  - assert (r * (1 - d) <= s * (1 - d)) by (apply Rmult_le_compat_r; lra). lra.
  - assert (s * (1 - d) <= r * (1 - d)) by (apply Rmult_le_compat_r; lra). lra.
Qed.
Lemma nv_max n k x y r s : 0 <= n <= NN -> nv n k x r -> nv n k y s -> nv n k (fmax x y) (Rmax r s).
Proof.
  intros HN (A & SA) (B & SB). split; [|now apply sz_max]. destruct A as (FA & PA & BA). destruct B as (FB & PB & BB). destruct (fmax_fin x y FA FB) as (F & E). split; [exact F|]. rewrite E.
  pose proof (unit_small n HN) as D. set (d := n * e40) in *.
  unfold Rmax. destruct (Rle_dec r s) as [H|H]; destruct (Rle_dec (B2R x) (B2R y)) as [G|G]; (split; [lra|]); try lra.
  - assert (r * (1 + d) <= s * (1 + d)) by (apply Rmult_le_compat_r; lra). lra.
  - assert (s * (1 + d) <= r * (1 + d)) by (apply Rmult_le_compat_r; lra). lra.
Qed.

(** ** From an absolute error *)
Definition ab (n : R) (x : f64) (r : R) : Prop := fin x /\ Rabs (B2R x - r) <= n * e40.
Lemma ab_nr n m c x r : ab n x r -> 0 < c -> c <= r -> n <= m * c -> 0 <= m -> nr m x r.
Proof.
  intros (F & B) C CR H HM. split; [exact F|]. split; [lra|]. apply Rabs_le_inv in B. assert (n * e40 <= m * e40 * r); [|lra].
  apply Rle_trans with (m * c * e40); [apply Rmult_le_compat_r; [pose proof e40_pos; lra|exact H]|]. replace (m * c * e40) with (m * e40 * c) by ring. apply Rmult_le_compat_l; [|exact CR]. apply Rmult_le_pos; [exact HM|pose proof e40_pos; lra].
Qed.
Lemma nr_ab n m c x r : nr n x r -> 0 <= n -> r <= c -> n * c <= m -> ab m x r.
Proof.
  intros (F & P & B) N C H. split; [exact F|]. apply Rabs_le. assert (n * e40 * r <= m * e40); [|lra]. apply Rle_trans with (n * c * e40); [|apply Rmult_le_compat_r; [pose proof e40_pos; lra|exact H]].
  replace (n * c * e40) with (n * e40 * c) by ring. apply Rmult_le_compat_l; [|exact C]. apply Rmult_le_pos; [exact N|pose proof e40_pos; lra].
Qed.
Lemma ab_is x r : fin x -> B2R x = r -> ab 0 x r.
Proof. intros F E. split; [exact F|]. rewrite E, Rminus_diag_eq by reflexivity. rewrite Rabs_R0. lra. Qed.
Lemma ab_up n m x r : n <= m -> ab n x r -> ab m x r.
Proof. intros H (F & B). split; [exact F|]. apply Rle_trans with (1 := B). apply Rmult_le_compat_r; [pose proof e40_pos; lra|exact H]. Qed.
(** rounding a number up to 2^13 in size costs one unit *)
Lemma round_ab (x : f64) z : Rabs z <= 8192 -> (Rabs z <= bpow radix2 1023 -> fin x /\ B2R x = rnd64 z) -> fin x /\ Rabs (B2R x - z) <= e40.
Proof.
  intros B K. destruct K as (F & E); [apply Rle_trans with (1 := B); change 8192 with (bpow radix2 13); apply bpow_le; lia|]. split; [exact F|]. rewrite E. pose proof (rnd64_err z 13) as H. change (bpow radix2 13) with 8192 in H. apply H; [lia|exact B].
Qed.
Lemma ab_add n m x y r s : ab n x r -> ab m y s -> Rabs (r + s) <= 8000 -> n + m <= NN -> ab (n + m + 1) (fadd x y) (r + s).
Proof.
  intros (FX & BX) (FY & BY) B H. assert (C : (n + m) * e40 <= 1) by (unfold e40, NN in *; lra). apply Rabs_le_inv in BX, BY, B.
  destruct (round_ab (fadd x y) (B2R x + B2R y)) as (F & E); [apply Rabs_le; lra|intros Q; now apply fadd_fin|]. split; [exact F|]. apply Rabs_le_inv in E. apply Rabs_le. lra.
Qed.
Lemma ab_sub n m x y r s : ab n x r -> ab m y s -> Rabs (r - s) <= 8000 -> n + m <= NN -> ab (n + m + 1) (fsub x y) (r - s).
Proof.
  intros (FX & BX) (FY & BY) B H. assert (C : (n + m) * e40 <= 1) by (unfold e40, NN in *; lra). apply Rabs_le_inv in BX, BY, B.
  destruct (round_ab (fsub x y) (B2R x - B2R y)) as (F & E); [apply Rabs_le; lra|intros Q; now apply fsub_fin|]. split; [exact F|]. apply Rabs_le_inv in E. apply Rabs_le. lra.
Qed.
(** |r| <= a, |s| <= b *)
Lemma ab_mul n m a b x y r s : ab n x r -> ab m y s -> 0 <= n <= NN -> 0 <= m <= NN -> Rabs r <= a -> Rabs s <= b -> a * b <= 8000 -> n * b + m * a <= NN ->
  ab (n * b + m * a + 2) (fmul x y) (r * s).
Proof.
  intros (FX & BX) (FY & BY) HN HM A B AB H. pose proof e40_pos as E0.
  set (u := B2R x - r) in *. set (v := B2R y - s) in *.
  assert (D : Rabs (B2R x * B2R y - r * s) <= (n * b + m * a + 1) * e40).
  { replace (B2R x * B2R y - r * s) with (u * s + v * r + u * v) by (unfold u, v; ring).
    assert (U1 : Rabs (u * s) <= n * e40 * b) by (rewrite Rabs_mult; apply Rmult_le_compat; auto using Rabs_pos).
    assert (U2 : Rabs (v * r) <= m * e40 * a) by (rewrite Rabs_mult; apply Rmult_le_compat; auto using Rabs_pos).
    assert (U3 : Rabs (u * v) <= e40).
    { rewrite Rabs_mult. apply Rle_trans with (n * e40 * (m * e40)); [apply Rmult_le_compat; auto using Rabs_pos|]. pose proof (unit_small n HN). assert (m * e40 <= / 1000000) by (pose proof (unit_small m HM); lra).
      replace (n * e40 * (m * e40)) with (n * m * e40 * e40) by ring. rewrite <- (Rmult_1_l e40) at 3. apply Rmult_le_compat_r; [lra|]. apply Rle_trans with (NN * NN * e40); [apply Rmult_le_compat_r; [lra|]; apply Rmult_le_compat; lra|unfold NN, e40; lra]. }
    pose proof (Rabs_triang (u * s + v * r) (u * v)). pose proof (Rabs_triang (u * s) (v * r)). lra. }
  assert (C : (n * b + m * a + 1) * e40 <= 1) by (unfold e40, NN in *; lra).
  assert (RS : Rabs (r * s) <= 8000). { apply Rle_trans with (2 := AB). rewrite Rabs_mult. apply Rmult_le_compat; auto using Rabs_pos. }
  apply Rabs_le_inv in D, RS.
  destruct (round_ab (fmul x y) (B2R x * B2R y)) as (F & E); [apply Rabs_le; lra|intros Q; now apply fmul_fin|]. split; [exact F|]. apply Rabs_le_inv in E. apply Rabs_le. lra.
Qed.
Lemma ab_max n x y r s : ab n x r -> ab n y s -> ab n (fmax x y) (Rmax r s).
Proof.
  intros (FX & BX) (FY & BY). destruct (fmax_fin x y FX FY) as (F & E). split; [exact F|]. rewrite E. apply Rabs_le_inv in BX, BY. apply Rabs_le. unfold Rmax. destruct (Rle_dec r s); destruct (Rle_dec (B2R x) (B2R y)); lra.
Qed.

(** ** Powers *)
Lemma exp_near t d : Rabs t <= d -> d <= / 4 -> 1 - d <= exp t <= 1 + d + 2 * d * d.
Proof.
  intros T D. apply Rabs_le_inv in T. pose proof (Rabs_pos t) as P0. assert (P : 0 <= d) by lra. clear P0. split.
  - pose proof (exp_ineq1_le t). lra.
  - pose proof (exp_ineq1_le (- t)) as H. rewrite exp_Ropp in H. pose proof (exp_pos t) as Q. assert (H' : (1 - t) * exp t <= 1). { apply Rle_trans with (/ exp t * exp t); [apply Rmult_le_compat_r; lra|]. rewrite Rinv_l; lra. }
    apply Rmult_le_reg_l with (1 - t); [lra|]. apply Rle_trans with (1 := H'). assert (T2 : t * (1 + d + 2 * d * d) <= d * (1 + d + 2 * d * d)). { apply Rmult_le_compat_r; [|lra]. assert (0 <= d * d) by (apply Rmult_le_pos; lra). lra. }
    assert (D3 : d * d * (1 - 2 * d) >= 0). { apply Rle_ge, Rmult_le_pos; [apply Rmult_le_pos; lra|lra]. } nra.
Qed.
Lemma ln_near n x r : 0 <= n <= NN -> 0 < r -> r - n * e40 * r <= x <= r + n * e40 * r -> Rabs (ln x - ln r) <= 101 / 100 * n * e40.
Proof.
  intros HN P B. pose proof (unit_small n HN) as U. set (d := n * e40) in *.
  assert (dr : 0 <= d * r <= / 1000000 * r) by (split; [apply Rmult_le_pos; lra|apply Rmult_le_compat_r; lra]). assert (X : 0 < x) by lra.
  replace (ln x - ln r) with (ln (x / r)) by (unfold Rdiv; rewrite ln_mult, ln_Rinv by (try apply Rinv_0_lt_compat; lra); ring).
  set (q := x / r). assert (Q : 1 - d <= q <= 1 + d). { unfold q. split; apply Rmult_le_reg_r with r; try exact P; (replace (x / r * r) with x by (field; lra)); lra. }
  assert (L : forall z, 0 < z -> ln z <= z - 1). { intros z Z. pose proof (exp_ineq1_le (ln z)) as H. rewrite exp_ln in H by exact Z. lra. }
  assert (Q0 : 0 < q) by lra. pose proof (L q Q0) as L1. pose proof (L (/ q) (Rinv_0_lt_compat _ Q0)) as L2. rewrite ln_Rinv in L2 by exact Q0.
  assert (I : / q <= 1 + 101 / 100 * d). { apply Rmult_le_reg_l with q; [exact Q0|]. rewrite Rinv_r by lra. apply Rle_trans with ((1 - d) * (1 + 101 / 100 * d)); [|apply Rmult_le_compat_r; lra]. assert (d * d <= / 1000000 * d) by (apply Rmult_le_compat_r; lra). lra. }
  replace (101 / 100 * n * e40) with (101 / 100 * d) by (unfold d; ring). apply Rabs_le. lra.
Qed.

Section WithLibm.
Context {M : libm} (PC : pow_close).
Lemma b40 : bpow radix2 (-40) = e40.
Proof. reflexivity. Qed.
(** a positive number to a power: [h] the absolute error of the exponent in units, [S] the size of the exponent, [L] of the logarithm of the base *)
Lemma pow_rel n m h S L x y r s : 0 <= n <= NN -> rel e40 n x r -> fin y -> Rabs (B2R y - s) <= h * e40 -> 0 <= h <= NN -> Rabs s <= S -> 1 <= S <= 999 -> Rabs (ln r) <= L ->
  102 / 100 * S * n + 102 / 100 * h * L + 2 <= m -> m <= NN -> mid (Rpower r s) -> rel e40 m (mpow x y) (Rpower r s).
Proof.
  intros HN (FX & P & BX) FY BY Hh HS S1 HL HM MN MD. pose proof e40_pos as E0. pose proof (unit_small n HN) as U. pose proof (unit_small h Hh) as Uh.
  assert (xr : 0 <= n * e40 * r <= / 1000000 * r) by (split; [apply Rmult_le_pos; lra|apply Rmult_le_compat_r; lra]). assert (X : 0 < B2R x) by lra.
  pose proof (ln_near n (B2R x) r HN P BX) as LN. set (y' := B2R y) in *. set (w := Rpower r s) in *.
  set (t := y' * (ln (B2R x) - ln r) + (y' - s) * ln r).
  assert (Y' : Rabs y' <= S * (1001 / 1000)) by (apply Rabs_le_inv in BY, HS; apply Rabs_le; lra).
  assert (PW : Rpower (B2R x) y' = w * exp t). { unfold w, Rpower. rewrite <- exp_plus. f_equal. unfold t. ring. }
  set (d := (m - 2) * e40 / (1005 / 1000)).
  assert (T : Rabs t <= d).
  { assert (T1 : Rabs (y' * (ln (B2R x) - ln r)) <= S * (1001 / 1000) * (101 / 100 * n * e40)) by (rewrite Rabs_mult; apply Rmult_le_compat; auto using Rabs_pos).
    assert (T2 : Rabs ((y' - s) * ln r) <= h * e40 * L) by (rewrite Rabs_mult; apply Rmult_le_compat; auto using Rabs_pos).
    pose proof (Rabs_triang (y' * (ln (B2R x) - ln r)) ((y' - s) * ln r)) as T3. fold t in T3.
    assert (SN : 0 <= S * n * e40) by (apply Rmult_le_pos; [apply Rmult_le_pos; lra|lra]). assert (HL' : 0 <= h * L * e40) by (apply Rmult_le_pos; [apply Rmult_le_pos; [lra|]|lra]; pose proof (Rabs_pos (ln r)); lra).
    assert (HMe : (102 / 100 * S * n + 102 / 100 * h * L) * e40 <= (m - 2) * e40) by (apply Rmult_le_compat_r; lra).
    unfold d. replace ((102 / 100 * S * n + 102 / 100 * h * L) * e40) with (102 / 100 * (S * n * e40) + 102 / 100 * (h * L * e40)) in HMe by ring.
    replace (S * (1001 / 1000) * (101 / 100 * n * e40)) with (1001 / 1000 * (101 / 100) * (S * n * e40)) in T1 by ring. replace (h * e40 * L) with (h * L * e40) in T2 by ring. lra. }
  assert (D0 : 0 <= d) by (pose proof (Rabs_pos t); lra).
  assert (D : d <= / 1000000) by (unfold d, e40, NN in *; lra).
  destruct (exp_near t d T ltac:(lra)) as (EL & EU). assert (DD : d * d <= / 1000000 * d) by (apply Rmult_le_compat_r; lra).
  pose proof (mid_pos w MD) as W. destruct MD as (M1 & M2).
  assert (EU' : exp t <= 1 + 1000002 / 1000000 * d) by lra.
  assert (WL : w * (1 - d) <= w * exp t) by (apply Rmult_le_compat_l; lra). assert (WU : w * exp t <= w * (1 + 1000002 / 1000000 * d)) by (apply Rmult_le_compat_l; lra).
  assert (wd : 0 <= w * d <= w * / 1000000) by (split; [apply Rmult_le_pos; lra|apply Rmult_le_compat_l; lra]).
  assert (B1 : 2 * bpow radix2 (-950) <= bpow radix2 (-900)) by (change 2 with (bpow radix2 1); rewrite <- bpow_plus; apply bpow_le; lia).
  assert (B2 : 2 * bpow radix2 900 <= bpow radix2 950) by (change 2 with (bpow radix2 1); rewrite <- bpow_plus; apply bpow_le; lia).
  destruct (close_pos PC x y FX FY X) as (F & E).
  - fold y'. lra.
  - fold y'. rewrite PW. pose proof (bpow_gt_0 radix2 (-950)). lra.
  - fold y' in E. rewrite PW, b40 in E. split; [exact F|]. split; [exact W|]. apply Rabs_le_inv in E.
    assert (WE : w * exp t * e40 <= w * (1001 / 1000) * e40) by (apply Rmult_le_compat_r; [lra|]; apply Rmult_le_compat_l; lra).
    assert (MM : m * e40 * w = (1005 / 1000) * (w * d) + 2 * (w * e40)) by (unfold d; field). assert (0 < w * e40) by (apply Rmult_lt_0_compat; lra). lra.
Qed.
Lemma ln2_le : 0 < ln 2 <= 1.
Proof. split; [pose proof ln_lt_2; lra|]. apply Rnot_lt_le. intros H. apply exp_increasing in H. rewrite exp_ln in H by lra. pose proof (exp_ineq1_le 1). lra. Qed.
Lemma ln_le' a b : 0 < a -> a <= b -> ln a <= ln b.
Proof. intros A [H| ->]; [left; now apply ln_increasing|lra]. Qed.
Lemma bpow_exp k : bpow radix2 k = exp (IZR k * ln 2).
Proof. rewrite bpow_powerRZ, powerRZ_Rpower by (simpl; lra). reflexivity. Qed.
Lemma ln_sz k r : 0 < r -> sz k r -> Rabs (ln r) <= IZR k * ln 2.
Proof.
  intros P [E|(A & B)]; [lra|]. rewrite bpow_exp in A, B. rewrite opp_IZR in A. apply Rabs_le. split.
  - apply (ln_le' _ _ (exp_pos _)) in A. rewrite ln_exp in A. lra.
  - apply (ln_le' _ _ P) in B. rewrite ln_exp in B. lra.
Qed.
Lemma rpow_pos r s : 0 < r -> rpow r s = Rpower r s.
Proof. intros P. unfold rpow. destruct (Req_EM_T r 0); [lra|reflexivity]. Qed.
Lemma rpow_0 s : rpow 0 s = 0.
Proof. unfold rpow. destruct (Req_EM_T 0 0); [reflexivity|lra]. Qed.
Lemma Rpower_sz k K r s : 0 < r -> sz k r -> (0 <= k)%Z -> IZR k * Rabs s <= IZR K -> bpow radix2 (- K) <= Rpower r s <= bpow radix2 K.
Proof.
  intros P S K0 H. pose proof (ln_sz k r P S) as L. pose proof ln2_le as L2. assert (B : Rabs (s * ln r) <= IZR K * ln 2).
  { rewrite Rabs_mult. apply Rle_trans with (Rabs s * (IZR k * ln 2)); [apply Rmult_le_compat_l; auto using Rabs_pos|]. replace (Rabs s * (IZR k * ln 2)) with (IZR k * Rabs s * ln 2) by ring. apply Rmult_le_compat_r; lra. }
  apply Rabs_le_inv in B. rewrite !bpow_exp, opp_IZR. unfold Rpower. assert (EX : forall a b, a <= b -> exp a <= exp b) by (intros a b [Q| ->]; [left; now apply exp_increasing|lra]). split; apply EX; lra.
Qed.
Lemma nv_pow n m h S k K x y r s : 0 <= n <= NN -> nv n k x r -> (0 <= k)%Z -> fin y -> Rabs (B2R y - s) <= h * e40 -> 0 <= h <= 1000 -> / 8 <= s <= S -> 1 <= S <= 999 ->
  IZR k * s <= IZR K -> (K <= 900)%Z -> 102 / 100 * S * n + 102 / 100 * h * IZR k + 2 <= m -> m <= NN -> nv m K (mpow x y) (rpow r s).
Proof.
  intros HN (A & SA) K0 FY BY Hh HS S1 HK K9 HM MN. destruct (Rle_lt_or_eq_dec 0 r (sz_nn k r SA)) as [P|Z].
  - rewrite rpow_pos by exact P. assert (R : bpow radix2 (- K) <= Rpower r s <= bpow radix2 K) by (apply (Rpower_sz k); auto; rewrite Rabs_pos_eq by lra; exact HK). split; [|now right].
    apply rel_nr, (pow_rel n m h S (IZR k)); auto using nr_rel; try lra.
    + unfold NN. lra.
    + rewrite Rabs_pos_eq; lra.
    + apply Rle_trans with (1 := ln_sz k r P SA). pose proof ln2_le. rewrite <- (Rmult_1_r (IZR k)) at 2. apply Rmult_le_compat_l; [apply IZR_le; lia|lra].
    + apply (sz_mid K); [now right|exact K9|]. unfold Rpower. apply exp_pos.
  - subst r. rewrite rpow_0. split; [|now left]. apply Rabs_le_inv in BY. assert (h * e40 <= / 1000) by (unfold e40; lra). destruct (close_zero PC x y (proj1 A) FY (nr_zero _ _ A)) as (F & E); [lra|]. now apply nr_exact0.
Qed.
End WithLibm.

(** ** Constants and whole numbers *)
Lemma nr_int z : (Z.abs z <= 2 ^ 53)%Z -> (0 <= z)%Z -> nr 0 (f_of_Z z) (IZR z).
Proof. intros H P. destruct (f_of_Z_exact z H) as (F & E). apply nr_is; [exact F|exact E|now apply IZR_le]. Qed.
Lemma sz_int z k : (0 <= z <= 2 ^ k)%Z -> (0 <= k)%Z -> sz k (IZR z).
Proof.
  intros H K. destruct (Z.eq_dec z 0) as [->|N]; [now left|right]. split.
  - apply Rle_trans with 1; [change 1 with (bpow radix2 0); apply bpow_le; lia|apply IZR_le; lia].
  - rewrite <- IZR_Zpower by exact K. now apply IZR_le.
Qed.
Lemma nv_int z k : (0 <= z <= 2 ^ k)%Z -> (0 <= k <= 53)%Z -> nv 0 k (f_of_Z z) (IZR z).
Proof. intros H K. split; [apply nr_int; [|lia]|apply sz_int; lia]. assert (2 ^ k <= 2 ^ 53)%Z by (apply Z.pow_le_mono_r; lia). lia. Qed.
(** real sizes from concrete bounds *)
Lemma sz_lo k r lo hi : 0 < lo -> bpow radix2 (- k) <= lo -> hi <= bpow radix2 k -> lo <= r <= hi -> sz k r.
Proof. intros _ A B C. right. lra. Qed.

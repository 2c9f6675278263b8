(** Doubles as approximations of positive reals, with a relative error counted in units of [e]. *)
From Coq Require Import Reals Lra ZArith Lia.
From Flocq Require Import Core BinarySingleNaN.
From Verif Require Import GoFloat BaseLemmas FloatLemmas Float32Lemmas KeyLemmas LazyProofs.
Open Scope R_scope.

Definition mid (r : R) : Prop := bpow radix2 (-900) <= r <= bpow radix2 900.
Definition rel (e n : R) (x : f64) (r : R) : Prop := fin x /\ 0 < r /\ r - n * e * r <= B2R x <= r + n * e * r.
Lemma mid_pos r : mid r -> 0 < r.
Proof. intros (L & _). pose proof (bpow_gt_0 radix2 (-900)). lra. Qed.
Lemma mid_in r : / 1000000000000000000 <= r <= 1000000000000000000 -> mid r.
Proof.
  intros (L & U). split; [apply Rle_trans with (bpow radix2 (-60)); [apply bpow_le; lia|change (bpow radix2 (-60)) with (/ 1152921504606846976); lra]|apply Rle_trans with (bpow radix2 60); [change (bpow radix2 60) with 1152921504606846976; lra|apply bpow_le; lia]].
Qed.

Section Eps.
Context (e N : R) (He : / 1125899906842624 <= e <= / 2097152) (HN : 0 <= N) (H1 : N * e <= / 16000) (H2 : N * N * e <= / 26).
Lemma rel_up n n' x r : n <= n' -> rel e n x r -> rel e n' x r.
Proof.
  intros H (F & P & B). split; [exact F|]. split; [exact P|]. assert (n * e * r <= n' * e * r) by (apply Rmult_le_compat_r; [lra|]; apply Rmult_le_compat_r; lra). lra.
Qed.
Lemma rel_exact x : fin x -> 0 < B2R x -> rel e 0 x (B2R x).
Proof. intros F P. split; [exact F|]. split; [exact P|]. lra. Qed.
Lemma rel_is x r : fin x -> B2R x = r -> 0 < r -> rel e 0 x r.
Proof. intros F E P. subst r. now apply rel_exact. Qed.
Lemma rel_eq n x r s : r = s -> rel e n x r -> rel e n x s.
Proof. now intros ->. Qed.
(** the rounding step *)
Lemma rel_round n m y z r : 0 <= n -> n + 1 / 4 <= m -> n * e <= / 4 -> mid r -> r - n * e * r <= z <= r + n * e * r ->
  (Rabs z <= bpow radix2 1023 -> fin y /\ B2R y = rnd64 z) -> rel e m y r.
Proof.
  intros Nn NM NE MR B K. pose proof (mid_pos r MR) as P. destruct MR as (ML & MU).
  assert (A : n * e * r <= / 4 * r) by (apply Rmult_le_compat_r; lra).
  assert (BG : 2 * bpow radix2 900 <= bpow radix2 1023) by (change 2 with (bpow radix2 1); rewrite <- bpow_plus; apply bpow_le; lia).
  destruct K as (F & E); [rewrite Rabs_pos_eq by lra; lra|]. split; [exact F|]. split; [exact P|]. rewrite E.
  assert (SM : bpow radix2 (-1022) <= Rabs z). { rewrite Rabs_pos_eq by lra. apply Rle_trans with (/ 2 * bpow radix2 (-900)); [|lra]. change (/ 2) with (bpow radix2 (-1)). rewrite <- bpow_plus. apply bpow_le. lia. }
  pose proof (rel64 z SM) as R. rewrite (Rabs_pos_eq z) in R by lra. apply Rabs_le_inv in R.
  assert (U : z * / 9007199254740992 <= 1 / 4 * e * r).
  { apply Rle_trans with ((5 / 4 * r) * / 9007199254740992); [apply Rmult_le_compat_r; lra|]. replace (1 / 4 * e * r) with (1 / 4 * r * e) by ring. apply Rle_trans with (1 / 4 * r * / 1125899906842624); [lra|]. apply Rmult_le_compat_l; lra. }
  assert (M' : n * e * r + 1 / 4 * e * r <= m * e * r). { replace (n * e * r + 1 / 4 * e * r) with ((n + 1 / 4) * e * r) by ring. apply Rmult_le_compat_r; [lra|]. apply Rmult_le_compat_r; lra. }
  lra.
Qed.
Lemma ne_small n : 0 <= n <= 2 * N + 1 -> 0 <= n * e <= / 4000.
Proof. intros H. split; [apply Rmult_le_pos; lra|]. apply Rle_trans with ((2 * N + 1) * e); [apply Rmult_le_compat_r; lra|]. replace ((2 * N + 1) * e) with (2 * (N * e) + e) by ring. lra. Qed.
Lemma rel_mul n m x y r s : 0 <= n <= N -> 0 <= m <= N -> rel e n x r -> rel e m y s -> mid (r * s) -> rel e (n + m + 1) (fmul x y) (r * s).
Proof.
  intros NN M (Fx & Px & Bx) (Fy & Py & By) MD. pose proof (ne_small n ltac:(lra)) as En. pose proof (ne_small m ltac:(lra)) as Em.
  set (a := n * e) in *. set (b := m * e) in *.
  assert (AB : a * b <= / 20 * e). { unfold a, b. replace (n * e * (m * e)) with (n * m * e * e) by ring. apply Rmult_le_compat_r; [lra|]. apply Rle_trans with (N * N * e); [|lra]. apply Rmult_le_compat_r; [lra|]. apply Rmult_le_compat; lra. }
  assert (AB0 : 0 <= a * b) by (apply Rmult_le_pos; lra). assert (PS : 0 < r * s) by now apply Rmult_lt_0_compat.
  apply (rel_round (n + m + / 20) _ _ (B2R x * B2R y)); [lra|lra| |exact MD| |].
  - pose proof (ne_small (n + m + / 20) ltac:(lra)). lra.
  - replace ((n + m + / 20) * e * (r * s)) with ((a + b + / 20 * e) * (r * s)) by (unfold a, b; ring).
    assert (ar : 0 <= a * r <= / 4000 * r) by (split; [apply Rmult_le_pos; lra|apply Rmult_le_compat_r; lra]). assert (bs : 0 <= b * s <= / 4000 * s) by (split; [apply Rmult_le_pos; lra|apply Rmult_le_compat_r; lra]).
    split.
    + apply Rle_trans with ((r - a * r) * (s - b * s)); [|apply Rmult_le_compat; lra]. replace ((r - a * r) * (s - b * s)) with (r * s - (a + b) * (r * s) + a * b * (r * s)) by ring.
      assert (0 <= a * b * (r * s)) by (apply Rmult_le_pos; lra). assert (0 <= / 20 * e * (r * s)) by (apply Rmult_le_pos; lra). lra.
    + apply Rle_trans with ((r + a * r) * (s + b * s)); [apply Rmult_le_compat; lra|]. replace ((r + a * r) * (s + b * s)) with (r * s + (a + b) * (r * s) + a * b * (r * s)) by ring.
      assert (a * b * (r * s) <= / 20 * e * (r * s)) by (apply Rmult_le_compat_r; lra). lra.
  - intros H. apply fmul_fin; assumption.
Qed.
Lemma rel_div n m x y r s : 0 <= n <= N -> 0 <= m <= N -> rel e n x r -> rel e m y s -> mid (r / s) -> rel e (n + m + 1) (fdiv x y) (r / s).
Proof.
  intros NN M (Fx & Px & Bx) (Fy & Py & By) MD. pose proof (ne_small n ltac:(lra)) as En. pose proof (ne_small m ltac:(lra)) as Em.
  set (a := n * e) in *. set (b := m * e) in *.
  assert (SQ : forall u v, 0 <= u <= N -> 0 <= v <= 2 * N -> 0 <= u * e * (v * e) <= / 10 * e).
  { intros u v U V. replace (u * e * (v * e)) with (u * v * e * e) by ring. assert (0 <= u * v <= N * (2 * N)) by (split; [apply Rmult_le_pos; lra|apply Rmult_le_compat; lra]).
    assert (0 <= u * v * e <= / 10) by (split; [apply Rmult_le_pos; lra|apply Rle_trans with (N * (2 * N) * e); [apply Rmult_le_compat_r; lra|replace (N * (2 * N) * e) with (2 * (N * N * e)) by ring; lra]]). split; [apply Rmult_le_pos; lra|apply Rmult_le_compat_r; lra]. }
  pose proof (SQ m (n + m) ltac:(lra) ltac:(lra)) as S1. replace ((n + m) * e) with (a + b) in S1 by (unfold a, b; ring). fold b in S1.
  assert (Py' : 0 < B2R y). { assert (b * s <= / 4000 * s) by (apply Rmult_le_compat_r; lra). lra. }
  set (q := r / s) in *. assert (Q : 0 < q) by (unfold q; apply Rdiv_lt_0_compat; assumption). assert (RQ : r = q * s) by (unfold q; field; lra).
  apply (rel_round (n + m + / 5) _ _ (B2R x / B2R y)); [lra|lra| |exact MD| |].
  - pose proof (ne_small (n + m + / 5) ltac:(lra)). lra.
  - replace ((n + m + / 5) * e * q) with ((a + b + / 5 * e) * q) by (unfold a, b; ring). assert (eb : 0 <= e * b <= e * / 4000) by (split; [apply Rmult_le_pos; lra|apply Rmult_le_compat_l; lra]).
    assert (QS : 0 < q * s) by now apply Rmult_lt_0_compat.
    split.
    + apply Rmult_le_reg_r with (B2R y); [exact Py'|]. replace (B2R x / B2R y * B2R y) with (B2R x) by (field; lra). apply Rle_trans with (r - a * r); [|lra]. rewrite RQ.
      apply Rle_trans with ((q - (a + b + / 5 * e) * q) * (s + b * s)).
      * apply Rmult_le_compat_l; [|lra]. assert ((a + b + / 5 * e) * q <= 1 * q) by (apply Rmult_le_compat_r; lra). lra.
      * replace ((q - (a + b + / 5 * e) * q) * (s + b * s)) with (q * s * (1 - a - / 5 * e - b * (a + b) - / 5 * (e * b))) by ring. replace (q * s - a * (q * s)) with (q * s * (1 - a)) by ring. apply Rmult_le_compat_l; lra.
    + apply Rmult_le_reg_r with (B2R y); [exact Py'|]. replace (B2R x / B2R y * B2R y) with (B2R x) by (field; lra). apply Rle_trans with (r + a * r); [lra|]. rewrite RQ.
      apply Rle_trans with ((q + (a + b + / 5 * e) * q) * (s - b * s)).
      * replace ((q + (a + b + / 5 * e) * q) * (s - b * s)) with (q * s * (1 + a + / 5 * e - b * (a + b) - / 5 * (e * b))) by ring. replace (q * s + a * (q * s)) with (q * s * (1 + a)) by ring. apply Rmult_le_compat_l; lra.
      * apply Rmult_le_compat_l; [|lra]. assert (0 <= (a + b + / 5 * e) * q) by (apply Rmult_le_pos; lra). lra.
  - intros H. apply fdiv_fin; try assumption. lra.
Qed.
Lemma rel_add n x y r s : 0 <= n <= N -> rel e n x r -> rel e n y s -> mid (r + s) -> rel e (n + 1) (fadd x y) (r + s).
Proof.
  intros NN (Fx & Px & Bx) (Fy & Py & By) MD. pose proof (ne_small n ltac:(lra)) as En. apply (rel_round n _ _ (B2R x + B2R y)); [lra|lra|lra|exact MD|lra|]. intros H. now apply fadd_fin.
Qed.
Lemma rel_pos n x r : 0 <= n <= N -> rel e n x r -> r * / 2 <= B2R x <= r * 2.
Proof. intros NN (F & P & B). pose proof (ne_small n ltac:(lra)) as E. assert (0 <= n * e * r <= / 4000 * r) by (split; [apply Rmult_le_pos; lra|apply Rmult_le_compat_r; lra]). lra. Qed.
End Eps.

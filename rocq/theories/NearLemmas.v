(** A calculus of absolute errors for float32 expressions: [near U A E x r]
    says that x approximates r, which is at most A U, up to E U 2^-24. *)
From Coq Require Import Reals Lra.
From Flocq Require Import Core BinarySingleNaN.
From Verif Require Import GoFloat BaseLemmas FloatLemmas Float32Lemmas KeyLemmas BoundLemmas BezierTerm DistProofs.
Open Scope R_scope.

Definition ulp24 : R := / 16777216.
Definition near (U A E : R) (x : f32) (r : R) : Prop := fin x /\ Rabs r <= A * U /\ Rabs (B2R x - r) <= E * U * ulp24.
Lemma near_up U A E A' E' x r : 0 <= U -> A <= A' -> E <= E' -> near U A E x r -> near U A' E' x r.
Proof.
  unfold near, ulp24. intros HU HA HE (F & B & D). split; [exact F|]. split; [apply Rle_trans with (1 := B); apply Rmult_le_compat_r; lra|].
  apply Rle_trans with (1 := D). apply Rmult_le_compat_r; [lra|]. apply Rmult_le_compat_r; lra.
Qed.
Lemma near_eq U A E x r s : r = s -> near U A E x r -> near U A E x s.
Proof. now intros ->. Qed.
Lemma near_exact U A x : fin x -> Rabs (B2R x) <= A * U -> near U A 0 x (B2R x).
Proof. intros F B. split; [exact F|]. split; [exact B|]. unfold ulp24. rewrite Rminus_diag_eq, Rabs_R0 by reflexivity. lra. Qed.

(** the rounding step *)
Lemma near_round U A E y z r (HU : 1 <= U <= bpow radix2 100) : 0 <= A <= 1000000 -> 0 <= E <= 2100000 -> Rabs r <= A * U -> Rabs (z - r) <= E * U * ulp24 ->
  (Rabs z <= bpow radix2 127 -> fin y /\ B2R y = rnd32 z) -> near U A (E + A + 1) y r.
Proof.
  intros HA HE B D K.
  assert (AU : 0 <= A * U <= 1000000 * U) by (split; [apply Rmult_le_pos; lra|apply Rmult_le_compat_r; lra]).
  assert (EU : 0 <= E * U <= 2100000 * U) by (split; [apply Rmult_le_pos; lra|apply Rmult_le_compat_r; lra]).
  unfold ulp24 in *.
  assert (BZ : Rabs z <= A * U + E * U * / 16777216) by (replace z with (r + (z - r)) by ring; apply Rle_trans with (1 := Rabs_triang _ _); lra).
  assert (B120 : A * U + E * U * / 16777216 <= bpow radix2 127).
  { apply Rle_trans with (bpow radix2 100 * bpow radix2 27); [|rewrite <- bpow_plus; apply bpow_le; lia]. change (bpow radix2 27) with 134217728. lra. }
  destruct (K ltac:(lra)) as (F & V). split; [exact F|]. split; [exact B|]. rewrite V. pose proof (rnd32_errR z _ BZ) as R1. rewrite u24 in R1. pose proof tiny150.
  replace (rnd32 z - r) with ((rnd32 z - z) + (z - r)) by ring. apply Rle_trans with (1 := Rabs_triang _ _).
  assert (X : E * U * / 16777216 * / 16777216 <= U * / 16777216 * / 4) by lra. unfold ulp24. lra.
Qed.
Section Scale.
Context (U : R) (HU : 1 <= U <= bpow radix2 100).
Lemma near_add A1 A2 E1 E2 x y r s : 
  near U A1 E1 x r -> near U A2 E2 y s -> 0 <= A1 <= 1000 -> 0 <= A2 <= 1000 -> 0 <= E1 <= 1000 -> 0 <= E2 <= 1000 ->
  near U (A1 + A2) (E1 + E2 + (A1 + A2) + 1) (gadd x y) (r + s).
Proof.
  intros (Fx & Bx & Dx) (Fy & By & Dy) a1 a2 e1 e2. apply (near_round U (A1 + A2) (E1 + E2) _ (B2R x + B2R y)); [exact HU|lra|lra| | |].
  - apply Rle_trans with (1 := Rabs_triang _ _). lra.
  - replace (B2R x + B2R y - (r + s)) with ((B2R x - r) + (B2R y - s)) by ring. apply Rle_trans with (1 := Rabs_triang _ _). lra.
  - intros L. now apply gadd_fin.
Qed.
Lemma near_sub A1 A2 E1 E2 x y r s : 
  near U A1 E1 x r -> near U A2 E2 y s -> 0 <= A1 <= 1000 -> 0 <= A2 <= 1000 -> 0 <= E1 <= 1000 -> 0 <= E2 <= 1000 ->
  near U (A1 + A2) (E1 + E2 + (A1 + A2) + 1) (gsub x y) (r - s).
Proof.
  intros (Fx & Bx & Dx) (Fy & By & Dy) a1 a2 e1 e2. apply (near_round U (A1 + A2) (E1 + E2) _ (B2R x - B2R y)); [exact HU|lra|lra| | |].
  - unfold Rminus. apply Rle_trans with (1 := Rabs_triang _ _). rewrite Rabs_Ropp. lra.
  - replace (B2R x - B2R y - (r - s)) with ((B2R x - r) + - (B2R y - s)) by ring. apply Rle_trans with (1 := Rabs_triang _ _). rewrite Rabs_Ropp. lra.
  - intros L. now apply gsub_fin.
Qed.
Lemma near_neg A E x r : near U A E x r -> near U A E (gneg x) (- r).
Proof.
  intros (F & B & D). destruct (gneg_fin x F) as (F' & V). split; [exact F'|]. split; [now rewrite Rabs_Ropp|]. rewrite V. replace (- B2R x - - r) with (- (B2R x - r)) by ring. now rewrite Rabs_Ropp.
Qed.
Lemma near_mul A1 A2 E1 E2 x y r s : 
  near U A1 E1 x r -> near 1 A2 E2 y s -> 0 <= A1 <= 1000 -> 0 <= A2 <= 1000 -> 0 <= E1 <= 1000 -> 0 <= E2 <= 1000 ->
  near U (A1 * A2) (E1 * A2 + A1 * E2 + A1 * A2 + 2) (gmul x y) (r * s).
Proof.
  intros (Fx & Bx & Dx) (Fy & By & Dy) a1 a2 e1 e2. rewrite Rmult_1_r in By, Dy. unfold ulp24 in *.
  assert (P1 : 0 <= A1 * A2 <= 1000 * 1000) by (split; [apply Rmult_le_pos; lra|apply Rmult_le_compat; lra]).
  assert (P2 : 0 <= E1 * A2 <= 1000 * 1000) by (split; [apply Rmult_le_pos; lra|apply Rmult_le_compat; lra]).
  assert (P3 : 0 <= A1 * E2 <= 1000 * 1000) by (split; [apply Rmult_le_pos; lra|apply Rmult_le_compat; lra]).
  assert (P4 : 0 <= E1 * E2 <= 1000 * 1000) by (split; [apply Rmult_le_pos; lra|apply Rmult_le_compat; lra]).
  replace (E1 * A2 + A1 * E2 + A1 * A2 + 2) with (E1 * A2 + A1 * E2 + 1 + A1 * A2 + 1) by ring.
  apply (near_round U (A1 * A2) (E1 * A2 + A1 * E2 + 1) _ (B2R x * B2R y)); [exact HU|lra|lra| | |].
  - rewrite Rabs_mult. replace (A1 * A2 * U) with (A1 * U * A2) by ring. apply Rmult_le_compat; try apply Rabs_pos; assumption.
  - replace (B2R x * B2R y - r * s) with ((B2R x - r) * B2R y + r * (B2R y - s)) by ring. apply Rle_trans with (1 := Rabs_triang _ _). rewrite !Rabs_mult.
    assert (Y : Rabs (B2R y) <= A2 + E2 * / 16777216) by (replace (B2R y) with (s + (B2R y - s)) by ring; apply Rle_trans with (1 := Rabs_triang _ _); lra).
    assert (T1 : Rabs (B2R x - r) * Rabs (B2R y) <= E1 * U * / 16777216 * (A2 + E2 * / 16777216)) by (apply Rmult_le_compat; try apply Rabs_pos; assumption).
    assert (T2 : Rabs r * Rabs (B2R y - s) <= A1 * U * (E2 * / 16777216)) by (apply Rmult_le_compat; try apply Rabs_pos; assumption).
    assert (T3 : E1 * E2 * (U * / 16777216 * / 16777216) <= 1000 * 1000 * (U * / 16777216 * / 16777216)) by (apply Rmult_le_compat_r; lra).
    unfold ulp24. replace ((E1 * A2 + A1 * E2 + 1) * U * / 16777216) with (E1 * A2 * (U * / 16777216) + A1 * E2 * (U * / 16777216) + U * / 16777216) by ring.
    replace (E1 * U * / 16777216 * (A2 + E2 * / 16777216)) with (E1 * A2 * (U * / 16777216) + E1 * E2 * (U * / 16777216 * / 16777216)) in T1 by ring.
    replace (A1 * U * (E2 * / 16777216)) with (A1 * E2 * (U * / 16777216)) in T2 by ring. lra.
  - intros L. now apply gmul_fin.
Qed.
(** an exact factor *)
Lemma near_scale A E c x r k : near U A E x r -> 0 <= A <= 1000 -> 0 <= E <= 1000 -> 0 <= k <= 1000 -> fin c -> B2R c = k ->
  near U (k * A) (k * E + k * A + 2) (gmul c x) (k * r).
Proof.
  intros (Fx & Bx & Dx) a e Hk Fc Vc. unfold ulp24 in *.
  assert (P1 : 0 <= k * A <= 1000 * 1000) by (split; [apply Rmult_le_pos; lra|apply Rmult_le_compat; lra]).
  assert (P2 : 0 <= k * E <= 1000 * 1000) by (split; [apply Rmult_le_pos; lra|apply Rmult_le_compat; lra]).
  apply (near_up U (k * A) (k * E + k * A + 1)); [lra|lra|lra|]. apply (near_round U (k * A) (k * E) _ (B2R c * B2R x)); [exact HU|lra|lra| | |].
  - rewrite Rabs_mult, (Rabs_pos_eq k) by lra. replace (k * A * U) with (k * (A * U)) by ring. apply Rmult_le_compat_l; lra.
  - rewrite Vc. replace (k * B2R x - k * r) with (k * (B2R x - r)) by ring. rewrite Rabs_mult, (Rabs_pos_eq k) by lra. unfold ulp24. replace (k * E * U * / 16777216) with (k * (E * U * / 16777216)) by ring. apply Rmult_le_compat_l; lra.
  - intros L. now apply gmul_fin.
Qed.
End Scale.

(** Property C37: BinomialCoefficient. *)
From Coq Require Import ZArith Lia Bool.
From Flocq Require Import Core BinarySingleNaN.
From Verif Require Import GoFloat Curves BaseLemmas CurveProofs.
Import ListNotations.
Open Scope Z_scope.

(** Pascal's triangle. *)
Fixpoint choose (n k : nat) : Z :=
  match k, n with
  | O, _ => 1
  | S _, O => 0
  | S k', S n' => choose n' k' + choose n' k
  end.
Lemma choose_0 n : choose n 0 = 1.
Proof. destruct n; reflexivity. Qed.
Lemma choose_over n : forall k, (n < k)%nat -> choose n k = 0.
Proof. induction n as [|n IH]; intros [|k] H; try lia; cbn [choose]; [reflexivity|]. rewrite !IH; lia. Qed.
Lemma choose_self n : choose n n = 1.
Proof. induction n as [|n IH]; [reflexivity|]. cbn [choose]. rewrite IH, choose_over; lia. Qed.
Lemma choose_1 n : choose n 1 = Z.of_nat n.
Proof. induction n as [|n IH]; [reflexivity|]. change (choose (S n) 1) with (choose n 0 + choose n 1). rewrite IH, choose_0. lia. Qed.
Lemma choose_pred n : choose (S n) n = Z.of_nat (S n).
Proof. induction n as [|n IH]; [reflexivity|]. change (choose (S (S n)) (S n)) with (choose (S n) n + choose (S n) (S n)). rewrite IH, choose_self. lia. Qed.
Lemma choose_2 n : 2 * choose n 2 = Z.of_nat n * (Z.of_nat n - 1).
Proof. induction n as [|n IH]; [reflexivity|]. change (choose (S n) 2) with (choose n 1 + choose n 2). rewrite choose_1. lia. Qed.

Definition int64 (n : Z) : Prop := - 2 ^ 63 <= n < 2 ^ 63.
Lemma wrap_id n : int64 n -> wrap64 n = n.
Proof. intros H. unfold int64 in H. unfold wrap64. rewrite Z.mod_small; lia. Qed.
Lemma wrap_wrap a b : wrap64 (wrap64 a + b) = wrap64 (a + b).
Proof.
  unfold wrap64. f_equal. replace ((a + 2 ^ 63) mod 2 ^ 64 - 2 ^ 63 + b + 2 ^ 63) with ((a + 2 ^ 63) mod 2 ^ 64 + b) by lia.
  rewrite Zplus_mod_idemp_l. f_equal. lia.
Qed.
Lemma wrap_sub n i : wrap64 (wrap64 (n + 1) - i) = wrap64 (n + 1 - i).
Proof. unfold Z.sub. apply wrap_wrap. Qed.

(** C37.  Zero outside 0 <= k <= n, and right at the two outermost entries of
    each row, for every int64 n. *)
Theorem C37_outside : forall n k, k < 0 \/ n < k -> binomial n k = 0.
Proof. intros n k H. unfold binomial. destruct (Z.ltb_spec k 0), (Z.ltb_spec n k); try reflexivity; lia. Qed.
Theorem C37_edges : forall n k, int64 n -> 0 <= k <= n -> k <= 1 \/ n - 1 <= k -> binomial n k = choose (Z.to_nat n) (Z.to_nat k).
Proof.
  intros n k I B E. unfold int64 in I. unfold binomial. rewrite (proj2 (Z.ltb_ge k 0)), (proj2 (Z.ltb_ge n k)) by lia. cbn [orb].
  destruct (Z.eqb_spec k 0) as [->|N0]; [destruct (Z.to_nat n); reflexivity|].
  destruct (Z.eqb_spec k n) as [->|Nn]; [symmetry; apply choose_self|]. cbn [orb].
  assert (C : choose (Z.to_nat n) (Z.to_nat k) = n).
  { destruct E as [E|E].
    - replace k with 1 by lia. change (Z.to_nat 1) with 1%nat. rewrite choose_1. lia.
    - replace (Z.to_nat n) with (S (Z.to_nat k)) by lia. rewrite choose_pred. lia. }
  assert (M : minI64 k (wrap64 (n - k)) = 1).
  { rewrite wrap_id by (unfold int64; lia). unfold minI64. destruct (Z.ltb_spec k (n - k)); lia. }
  rewrite M, C. change (Z.to_nat 1) with 1%nat. cbn [seq fold_left]. change (Z.of_nat 1) with 1. rewrite wrap_sub.
  replace (n + 1 - 1) with n by lia. rewrite (wrap_id n) by (unfold int64; lia). rewrite Z.quot_1_r, Z.mul_1_l. apply wrap_id. unfold int64. lia.
Qed.
(** The next entry of a row is right for odd n only: the running product is
    multiplied by a truncated quotient. *)
Theorem C37_two : forall n, 4 <= n < 2 ^ 31 ->
  binomial n 2 = n * ((n - 1) / 2) /\ (binomial n 2 = choose (Z.to_nat n) 2 <-> Z.odd n = true).
Proof.
  intros n B. assert (V : binomial n 2 = n * ((n - 1) / 2)).
  { unfold binomial. rewrite (proj2 (Z.ltb_ge n 2)) by lia. rewrite (proj2 (Z.eqb_neq 2 n)) by lia. cbn [Z.ltb Z.compare orb Z.eqb].
    rewrite (wrap_id (n - 2)) by (unfold int64; lia).
    assert (M : minI64 2 (n - 2) = 2) by (unfold minI64; destruct (Z.ltb_spec 2 (n - 2)); lia).
    rewrite M. change (Z.to_nat 2) with 2%nat. cbn [seq fold_left]. change (Z.of_nat 1) with 1. change (Z.of_nat 2) with 2. rewrite !wrap_sub.
    replace (n + 1 - 1) with n by lia. replace (n + 1 - 2) with (n - 1) by lia. rewrite !(wrap_id n), (wrap_id (n - 1)) by (unfold int64; lia).
    rewrite Z.quot_1_r, Z.mul_1_l, (wrap_id n) by (unfold int64; lia). rewrite Z.quot_div_nonneg by lia. apply wrap_id.
    assert (0 <= (n - 1) / 2 < 2 ^ 31) by (split; [apply Z.div_pos; lia|apply Z.div_lt_upper_bound; lia]). unfold int64. nia. }
  split; [exact V|]. pose proof (choose_2 (Z.to_nat n)) as C. rewrite Z2Nat.id in C by lia. rewrite V.
  pose proof (Z.div_mod (n - 1) 2 ltac:(lia)) as D. pose proof (Z.mod_pos_bound (n - 1) 2 ltac:(lia)) as R.
  assert (O : Z.odd n = true <-> (n - 1) mod 2 = 0).
  { rewrite Z.odd_spec. split; [intros [q ->]; replace (2 * q + 1 - 1) with (q * 2) by lia; apply Z.mod_mul; lia|].
    intros H. exists ((n - 1) / 2). lia. }
  rewrite O. split; intros H; nia.
Qed.
(** So it is not the binomial coefficient. *)
Theorem C37_refuted : binomial 4 2 = 4 /\ choose 4 2 = 6 /\ ~ forall n k, 0 <= k <= n -> n <= 4 -> binomial n k = choose (Z.to_nat n) (Z.to_nat k).
Proof. repeat split; intros H. specialize (H 4 2 ltac:(lia) ltac:(lia)). discriminate H. Qed.
(** With powers of one half computed exactly, five equal control points of a
    degree 4 curve give another point at t = 1/2. *)
Theorem C37_curve : forall M : libm,
  (forall i, 0 <= i <= 4 -> mpow (f_of_g (gq 1 2)) (f_of_g (g_of_Z i)) = fq 1 (2 ^ i)) ->
  let p := mkVec (gq 16 1) (gq 32 1) in
  bezier_point_at [p; p; p; p; p] (gq 1 2) = mkVec (gq 14 1) (gq 28 1) /\ vec_eqb (mkVec (gq 14 1) (gq 28 1)) p = false.
Proof.
  intros M H p. split; [|vm_compute; reflexivity].
  assert (HS : gsub (gq 1 1) (gq 1 2) = gq 1 2) by (apply B2SF_eq; vm_compute; reflexivity).
  assert (B : forall i, 0 <= i <= 4 -> bernstein i 4 (gq 1 2) = gmul (gmul (g_of_Z (binomial 4 i)) (g_of_f (fq 1 (2 ^ i)))) (g_of_f (fq 1 (2 ^ (4 - i))))).
  { intros i Hi. unfold bernstein, gpow. rewrite HS, !H by lia. reflexivity. }
  unfold bezier_point_at. change (zlen [p; p; p; p; p] - 1) with 4. cbn [bezier_sum].
  change (0 + 1) with 1. change (1 + 1) with 2. change (2 + 1) with 3. change (3 + 1) with 4.
  rewrite !B by lia. f_equal; apply B2SF_eq; vm_compute; reflexivity.
Qed.
Definition half_pow (i : Z) : f64 := fq 1 (2 ^ i).
(** such a libm *)
Definition half_libm : libm := {|
  mpow x y := if feq x (fq 1 2) then
                if feq y (fq 0 1) then half_pow 0 else if feq y (fq 1 1) then half_pow 1 else
                if feq y (fq 2 1) then half_pow 2 else if feq y (fq 3 1) then half_pow 3 else half_pow 4 else f0;
  mlog10 _ := f0; mcbrt _ := f0; msin _ := f0; mcos _ := f0; macos _ := f0; matan2 _ _ := f0 |}.
Example C37_curve_instance : forall i, 0 <= i <= 4 -> @mpow half_libm (f_of_g (gq 1 2)) (f_of_g (g_of_Z i)) = fq 1 (2 ^ i).
Proof. intros i H. assert (i = 0 \/ i = 1 \/ i = 2 \/ i = 3 \/ i = 4) as [-> | [-> | [-> | [-> | ->]]]] by lia; apply B2SF_eq; vm_compute; reflexivity. Qed.
Example C37_instance : int64 4611686018427387905 /\ binomial 4611686018427387905 4611686018427387904 = 4611686018427387905 /\ binomial 9 2 = 36 /\ choose 9 2 = 36.
Proof. unfold int64. repeat split; try lia; vm_compute; reflexivity. Qed.
Print Assumptions C37_outside.
Print Assumptions C37_edges.
Print Assumptions C37_two.
Print Assumptions C37_refuted.
Print Assumptions C37_curve.

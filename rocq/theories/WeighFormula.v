(** The value of strain peaks against its real formula. *)
From Coq Require Import Reals Lra List ZArith Lia Permutation.
From Flocq Require Import Core BinarySingleNaN.
From Verif Require Import DiffCalc SpecPP SpecStrain SpecFormula SpecRating BaseLemmas FloatLemmas Float32Lemmas KeyLemmas LazyProofs SkillProofs PPProofs RelLemmas RelPow FormulaParts SortReal.
Import ListNotations.
Open Scope R_scope.

Definition u53 : R := / 9007199254740992.
Definition tn : R := bpow radix2 (-1070).
Lemma tn_pos : 0 < tn. Proof. apply bpow_gt_0. Qed.
Lemma u53_in : 0 < u53 <= / 9000000000000000. Proof. unfold u53. lra. Qed.
Lemma rnd_mix z : Rabs (rnd64 z - z) <= Rabs z * u53 + tn.
Proof.
  pose proof tn_pos. pose proof u53_in. pose proof (Rabs_pos z) as P. destruct (Rle_lt_dec (bpow radix2 (-1022)) (Rabs z)) as [G|G].
  - pose proof (rel64 z G) as E. unfold u53 in *. lra.
  - assert (bpow radix2 (-1022) <= bpow radix2 (-1021)) by (apply bpow_le; lia). pose proof (rnd64_err z (-1021) ltac:(lia) ltac:(lra)) as E.
    assert (bpow radix2 (-1021 - 53) <= tn) by (apply bpow_le; lia). assert (0 <= Rabs z * u53) by (apply Rmult_le_pos; lra). lra.
Qed.
(** a result of an operation, with its rounding *)
Lemma op_mix (y : f64) z : Rabs z <= bpow radix2 1023 -> (Rabs z <= bpow radix2 1023 -> fin y /\ B2R y = rnd64 z) -> fin y /\ Rabs (B2R y - z) <= Rabs z * u53 + tn /\ (0 <= z -> 0 <= B2R y).
Proof. intros B K. destruct (K B) as (F & E). split; [exact F|]. rewrite E. split; [apply rnd_mix|]. apply rnd64_pos. Qed.

(** ** The weighted sum *)
Section Sum.
Context (qf : f64) (q : R) (FQ : fin qf) (Q : 0 < q <= 1) (BQ : Rabs (B2R qf - q) <= q * u53).
(** n steps of the weight *)
Definition wg (n : R) (w : f64) (W : R) : Prop := fin w /\ (0 < W <= 1 /\ 0 <= B2R w) /\ Rabs (B2R w - W) <= 3 * n * u53 * W + n * (2 * tn).
Lemma tn_lt : tn <= / 1000000000000000000.
Proof. apply Rle_trans with (bpow radix2 (-60)); [apply bpow_le; lia|]. change (bpow radix2 (-60)) with (/ 1152921504606846976). lra. Qed.
Lemma n_small n : 0 <= n <= 2097152 -> 0 <= n * u53 <= / 4000000000 /\ 0 <= n * tn <= / 400000000000.
Proof. intros H. pose proof u53_in. pose proof tn_pos. pose proof tn_lt. split; split; try (apply Rmult_le_pos; lra). - unfold u53. lra. - apply Rle_trans with (2097152 * / 1000000000000000000); [apply Rmult_le_compat; lra|lra]. Qed.
Lemma wg_step n w W : 0 <= n <= 2097151 -> wg n w W -> wg (n + 1) (fmul w qf) (W * q).
Proof.
  intros N (F & (P & W0) & B). pose proof u53_in as U. pose proof tn_pos as T. pose proof (n_small n ltac:(lra)) as (N1 & N2). pose proof (n_small (n + 1) ltac:(lra)) as (N3 & N4).
  assert (WQ : 0 < W * q <= 1) by (split; [apply Rmult_lt_0_compat; lra|]; apply Rle_trans with (1 * 1); [apply Rmult_le_compat; lra|lra]).
  apply Rabs_le_inv in B, BQ. assert (qu : 0 <= q * u53 <= u53) by (split; [apply Rmult_le_pos; lra|]; apply Rle_trans with (1 * u53); [apply Rmult_le_compat_r; lra|lra]).
  assert (wu : 0 <= 3 * n * u53 * W <= / 1000000000). { replace (3 * n * u53 * W) with (3 * (n * u53) * W) by ring. split; [apply Rmult_le_pos; lra|]. apply Rle_trans with (3 * (n * u53) * 1); [apply Rmult_le_compat_l; lra|lra]. }
  assert (w2 : - (1 + / 1000000) <= B2R w <= 1 + / 1000000) by lra. assert (q2 : 0 <= B2R qf <= 1 + u53) by (unfold u53 in *; lra).
  (* the product before rounding *)
  assert (Z : Rabs (B2R w * B2R qf - W * q) <= (3 * n * u53 + 3 / 2 * u53) * (W * q) + n * (2 * tn) + tn / 4).
  { replace (B2R w * B2R qf - W * q) with ((B2R w - W) * B2R qf + W * (B2R qf - q)) by ring. eapply Rle_trans; [apply Rabs_triang|]. rewrite !Rabs_mult, (Rabs_pos_eq (B2R qf)), (Rabs_pos_eq W) by lra.
    apply Rle_trans with ((3 * n * u53 * W + n * (2 * tn)) * (q * (1 + u53)) + W * (q * u53)).
    - apply Rplus_le_compat; apply Rmult_le_compat; try apply Rabs_pos; try lra; apply Rabs_le; lra.
    - assert (A1 : 3 * n * u53 * W * (q * (1 + u53)) <= (3 * n * u53 + / 4 * u53) * (W * q)).
      { replace (3 * n * u53 * W * (q * (1 + u53))) with ((3 * n * u53 + 3 * (n * u53) * u53) * (W * q)) by ring. apply Rmult_le_compat_r; [lra|]. assert (3 * (n * u53) * u53 <= / 4 * u53) by (apply Rmult_le_compat_r; lra). lra. }
      assert (A2 : n * (2 * tn) * (q * (1 + u53)) <= n * (2 * tn) + tn / 4).
      { apply Rle_trans with (n * (2 * tn) * (1 * (1 + u53))); [apply Rmult_le_compat_l; [lra|]; apply Rmult_le_compat_r; lra|].
        replace (n * (2 * tn) * (1 * (1 + u53))) with (n * (2 * tn) + 2 * (n * u53) * tn) by ring. assert (2 * (n * u53) * tn <= / 4 * tn) by (apply Rmult_le_compat_r; lra). lra. }
      assert (0 <= u53 * (W * q)) by (apply Rmult_le_pos; lra). lra. }
  assert (ZB : Rabs (B2R w * B2R qf) <= 2 * (W * q) + n * (2 * tn) + tn).
  { apply Rabs_le_inv in Z. assert ((3 * n * u53 + 3 / 2 * u53) * (W * q) <= 1 * (W * q)) by (apply Rmult_le_compat_r; lra). apply Rabs_le. lra. }
  destruct (op_mix (fmul w qf) (B2R w * B2R qf)) as (FF & E & E0).
  { apply Rle_trans with (1 := ZB). apply Rle_trans with (bpow radix2 3); [change (bpow radix2 3) with 8; pose proof tn_lt; lra|apply bpow_le; lia]. }
  { intros H. now apply fmul_fin. }
  split; [exact FF|]. split; [split; [exact WQ|apply E0, Rmult_le_pos; lra]|]. replace (B2R (fmul w qf) - W * q) with ((B2R (fmul w qf) - B2R w * B2R qf) + (B2R w * B2R qf - W * q)) by ring. eapply Rle_trans; [apply Rabs_triang|].
  assert (M : Rabs (B2R w * B2R qf) * u53 <= 5 / 4 * u53 * (W * q) + tn / 4).
  { assert (ZC : Rabs (B2R w * B2R qf) <= 5 / 4 * (W * q) + n * (2 * tn) + tn).
    { apply Rabs_le_inv in Z. assert ((3 * n * u53 + 3 / 2 * u53) * (W * q) <= / 4 * (W * q)) by (apply Rmult_le_compat_r; lra). apply Rabs_le. lra. }
    apply Rle_trans with ((5 / 4 * (W * q) + n * (2 * tn) + tn) * u53); [apply Rmult_le_compat_r; lra|].
    replace ((5 / 4 * (W * q) + n * (2 * tn) + tn) * u53) with (5 / 4 * u53 * (W * q) + 2 * (n * u53) * tn + u53 * tn) by ring. assert (2 * (n * u53) * tn <= / 8 * tn) by (apply Rmult_le_compat_r; lra). assert (u53 * tn <= / 8 * tn) by (apply Rmult_le_compat_r; lra). lra. }
  assert (0 <= u53 * (W * q)) by (apply Rmult_le_pos; lra). lra.
Qed.

(** numbers up to 2^100 near e, A *)
Context (e A : R) (He : 0 <= e <= / 16) (HA : 0 <= A <= bpow radix2 100).
Definition nears (x : f64) (r : R) : Prop := fin x /\ (0 <= r <= bpow radix2 100 /\ 0 <= B2R x) /\ Rabs (B2R x - r) <= e * r + A.
Definition t9 : R := bpow radix2 (-900).
Lemma t9_tn : bpow radix2 100 * (2097152 * tn) <= t9 / 1000.
Proof.
  change 2097152 with (bpow radix2 21). unfold tn, t9. rewrite <- !bpow_plus. apply Rle_trans with (bpow radix2 (-900 + -10)); [apply bpow_le; lia|]. rewrite (bpow_plus radix2 (-900) (-10)). change (bpow radix2 (-10)) with (/ 1024). pose proof (bpow_gt_0 radix2 (-900)). lra.
Qed.
(** one term *)
Lemma term_mix n x r w W : 0 <= n <= 2097151 -> nears x r -> wg n w W ->
  fin (fmul x w) /\ 0 <= B2R (fmul x w) /\ Rabs (B2R (fmul x w) - r * W) <= (e + (4 * n + 2) * u53) * (r * W) + A * W * (1 + (4 * n + 2) * u53) + t9 / 10.
Proof.
  intros N (FX & (RX & X0) & BX) (FW & (PW & W0) & BW). pose proof u53_in as U. pose proof tn_pos as T. pose proof (n_small n ltac:(lra)) as (N1 & N2). set (g := 3 * n * u53) in *. set (h := n * (2 * tn)) in *.
  assert (G : 0 <= g <= / 1000000000) by (unfold g; lra). assert (H : 0 <= h <= / 1000000000) by (unfold h; lra). pose proof (bpow_gt_0 radix2 100) as B1.
  assert (HB : bpow radix2 100 * h <= t9 / 500). { apply Rle_trans with (2 * (bpow radix2 100 * (2097152 * tn))); [|pose proof t9_tn; lra]. unfold h. replace (2 * (bpow radix2 100 * (2097152 * tn))) with (bpow radix2 100 * (2097152 * (2 * tn))) by ring. apply Rmult_le_compat_l; [lra|]. apply Rmult_le_compat_r; lra. }
  assert (T9 : 0 < t9) by apply bpow_gt_0. assert (RW : 0 <= r * W) by (apply Rmult_le_pos; lra). assert (AW : 0 <= A * W) by (apply Rmult_le_pos; lra).
  assert (W1 : - (2) <= B2R w <= 2). { apply Rabs_le_inv in BW. assert (g * W <= / 1000000000 * 1) by (apply Rmult_le_compat; lra). lra. }
  assert (RH : r * h <= t9 / 500) by (apply Rle_trans with (2 := HB); apply Rmult_le_compat_r; lra). assert (AH : A * h <= t9 / 500) by (apply Rle_trans with (2 := HB); apply Rmult_le_compat_r; lra).
  assert (RH0 : 0 <= r * h) by (apply Rmult_le_pos; lra). assert (AH0 : 0 <= A * h) by (apply Rmult_le_pos; lra).
  assert (ER : 0 <= e * r) by (apply Rmult_le_pos; lra). assert (ERW : 0 <= e * (r * W) <= / 16 * (r * W)) by (split; [apply Rmult_le_pos; lra|apply Rmult_le_compat_r; lra]).
  assert (Z : Rabs (B2R x * B2R w - r * W) <= (e + 17 / 16 * g) * (r * W) + A * W * (1 + g) + t9 / 100).
  { replace (B2R x * B2R w - r * W) with ((B2R x - r) * B2R w + r * (B2R w - W)) by ring. eapply Rle_trans; [apply Rabs_triang|]. rewrite !Rabs_mult, (Rabs_pos_eq r) by lra.
    assert (WW : Rabs (B2R w) <= W + (g * W + h)) by (apply Rabs_le_inv in BW; apply Rabs_le; lra).
    apply Rle_trans with ((e * r + A) * (W + (g * W + h)) + r * (g * W + h)).
    - apply Rplus_le_compat; [apply Rmult_le_compat; try apply Rabs_pos; assumption|apply Rmult_le_compat_l; [lra|exact BW]].
    - assert (X1 : (e * r + A) * (W + (g * W + h)) + r * (g * W + h) = e * (r * W) + g * (e * (r * W)) + g * (r * W) + A * W * (1 + g) + e * (r * h) + A * h + r * h) by ring.
      assert (g * (e * (r * W)) <= / 16 * g * (r * W)). { replace (g * (e * (r * W))) with (e * (g * (r * W))) by ring. replace (/ 16 * g * (r * W)) with (/ 16 * (g * (r * W))) by ring. apply Rmult_le_compat_r; [apply Rmult_le_pos; lra|lra]. }
      assert (e * (r * h) <= 1 * (r * h)) by (apply Rmult_le_compat_r; lra). lra. }
  assert (GRW : 0 <= g * (r * W) <= / 1000000000 * (r * W)) by (split; [apply Rmult_le_pos; lra|apply Rmult_le_compat_r; lra]). assert (GAW : 0 <= g * (A * W) <= / 1000000000 * (A * W)) by (split; [apply Rmult_le_pos; lra|apply Rmult_le_compat_r; lra]).
  assert (ZB : Rabs (B2R x * B2R w) <= 9 / 8 * (r * W) + 9 / 8 * (A * W) + t9 / 100) by (apply Rabs_le_inv in Z; apply Rabs_le; lra).
  assert (R1 : r * W <= bpow radix2 100) by (apply Rle_trans with (bpow radix2 100 * 1); [apply Rmult_le_compat; lra|lra]). assert (A1 : A * W <= bpow radix2 100) by (apply Rle_trans with (bpow radix2 100 * 1); [apply Rmult_le_compat; lra|lra]).
  assert (T91 : t9 <= bpow radix2 100) by (apply bpow_le; lia).
  destruct (op_mix (fmul x w) (B2R x * B2R w)) as (FF & E & E0).
  { apply Rle_trans with (4 * bpow radix2 100); [lra|]. change 4 with (bpow radix2 2). rewrite <- bpow_plus. apply bpow_le. lia. }
  { intros K. now apply fmul_fin. }
  split; [exact FF|]. split; [apply E0, Rmult_le_pos; lra|]. replace (B2R (fmul x w) - r * W) with ((B2R (fmul x w) - B2R x * B2R w) + (B2R x * B2R w - r * W)) by ring. eapply Rle_trans; [apply Rabs_triang|].
  assert (TT : tn <= t9 / 100). { pose proof t9_tn. assert (tn <= bpow radix2 100 * (2097152 * tn)); [|lra]. assert (1 <= bpow radix2 100) by (change 1 with (bpow radix2 0); apply bpow_le; lia). rewrite <- (Rmult_1_l tn) at 1. rewrite <- Rmult_assoc. apply Rmult_le_compat_r; lra. }
  assert (M : Rabs (B2R x * B2R w) * u53 <= 9 / 8 * u53 * (r * W) + 9 / 8 * u53 * (A * W) + t9 / 100).
  { apply Rle_trans with ((9 / 8 * (r * W) + 9 / 8 * (A * W) + t9 / 100) * u53); [apply Rmult_le_compat_r; lra|]. assert (t9 / 100 * u53 <= t9 / 100 * 1) by (apply Rmult_le_compat_l; lra). lra. }
  assert (U1 : 0 <= u53 * (r * W)) by (apply Rmult_le_pos; lra). assert (U2 : 0 <= u53 * (A * W)) by (apply Rmult_le_pos; lra). assert (N3 : 0 <= n * u53 * (r * W)) by (apply Rmult_le_pos; lra). assert (N4 : 0 <= n * u53 * (A * W)) by (apply Rmult_le_pos; lra).
  unfold g in *. lra.
Qed.

(** 1 + q + ... + q^(n-1) *)
Fixpoint geo (n : nat) : R := match n with O => 0 | S m => 1 + q * geo m end.
Lemma geo_nn n : 0 <= geo n. Proof. induction n as [|n IH]; cbn [geo]; [lra|]. assert (0 <= q * geo n) by (apply Rmult_le_pos; lra). lra. Qed.
Lemma weighed_nn l : Forall (fun r => 0 <= r <= bpow radix2 100) l -> 0 <= weighed q l <= INR (length l) * bpow radix2 100.
Proof.
  induction 1 as [|x l X F IH]; cbn [weighed length]; [cbn; lra|]. rewrite S_INR. assert (0 <= q * weighed q l <= 1 * weighed q l) by (split; [apply Rmult_le_pos; lra|apply Rmult_le_compat_r; lra]). lra.
Qed.
Lemma geo_le n : geo n <= INR n.
Proof. induction n as [|n IH]; [cbn; lra|]. cbn [geo]. rewrite S_INR. pose proof (geo_nn n). assert (q * geo n <= 1 * geo n) by (apply Rmult_le_compat_r; lra). lra. Qed.

Lemma sum_mix l : forall rs diff wt D W S n, Forall2 nears l rs -> 0 <= n -> n + INR (length l) <= 2097151 ->
  fin diff -> 0 <= B2R diff -> 0 <= D <= n * bpow radix2 100 -> 0 <= S <= n ->
  Rabs (B2R diff - D) <= (e + 5000000 * u53 + 5000000 * u53 + 2 * n * u53) * D + (1 + 10000000 * u53 + 2 * n * u53) * (A * S) + n * t9 -> wg n wt W ->
  let n' := n + INR (length l) in
  let D' := D + W * weighed q rs in
  let v := weighted_sum qf diff wt l in
  fin v /\ 0 <= B2R v /\ Rabs (B2R v - D') <= (e + 10000000 * u53 + 2 * n' * u53) * D' + (1 + 10000000 * u53 + 2 * n' * u53) * (A * (S + W * geo (length l))) + n' * t9.
Proof.
  induction l as [|x l IH]; intros rs diff wt D W S n F N NL FD D0 HD HS BD HW; inversion F as [|? r ? rs' NX F']; subst; cbv zeta.
  - cbn [weighted_sum weighed geo length INR]. rewrite !Rmult_0_r, !Rplus_0_r. split; [exact FD|]. split; [exact D0|]. apply Rle_trans with (1 := BD). apply Req_le. ring.
  - cbn [length] in NL |- *. rewrite S_INR in NL |- *. pose proof (pos_INR (length l)) as PL. cbn [weighted_sum weighed geo].
    destruct (term_mix n x r wt W ltac:(lra) NX HW) as (FT & T0 & BT). pose proof u53_in as U. pose proof tn_pos as T. pose proof (n_small n ltac:(lra)) as (N1 & N2).
    pose proof NX as (FX & (RX & X0) & BX). pose proof HW as (FW & (PW & W0) & BW). assert (T9 : 0 < t9) by apply bpow_gt_0. assert (RW : 0 <= r * W) by (apply Rmult_le_pos; lra). assert (AW : 0 <= A * W) by (apply Rmult_le_pos; lra). assert (AS : 0 <= A * S) by (apply Rmult_le_pos; lra).
    pose proof (bpow_gt_0 radix2 100) as B1. assert (R1 : r * W <= bpow radix2 100) by (apply Rle_trans with (bpow radix2 100 * 1); [apply Rmult_le_compat; lra|lra]). assert (A1 : A * W <= bpow radix2 100) by (apply Rle_trans with (bpow radix2 100 * 1); [apply Rmult_le_compat; lra|lra]).
    assert (AS1 : A * S <= bpow radix2 100 * n) by (apply Rmult_le_compat; lra). assert (nB : n * bpow radix2 100 <= 2097151 * bpow radix2 100) by (apply Rmult_le_compat_r; lra).
    assert (T91 : t9 <= / 1000000000000000000). { apply Rle_trans with (bpow radix2 (-60)); [apply bpow_le; lia|]. change (bpow radix2 (-60)) with (/ 1152921504606846976). lra. }
    assert (NT : n * t9 <= / 1000000). { apply Rle_trans with (2097151 * / 1000000000000000000); [apply Rmult_le_compat; lra|lra]. }
    set (En := e + 10000000 * u53 + 2 * n * u53) in *. assert (EE : 0 <= En <= / 10) by (unfold En, u53 in *; lra).
    assert (BD' : Rabs (B2R diff - D) <= En * D + (1 + (En - e)) * (A * S) + n * t9). { apply Rle_trans with (1 := BD). unfold En. apply Req_le. ring. } clear BD.
    assert (E2 : e + (4 * n + 2) * u53 <= En /\ (4 * n + 2) * u53 <= En - e). { unfold En, u53 in *. lra. } destruct E2 as (E2 & E3). set (k := En - e) in *. assert (K : 0 <= k <= / 10) by (unfold k, En, u53 in *; lra).
    assert (BT' : Rabs (B2R (fmul x wt) - r * W) <= En * (r * W) + (1 + k) * (A * W) + t9 / 10).
    { apply Rle_trans with (1 := BT). assert ((e + (4 * n + 2) * u53) * (r * W) <= En * (r * W)) by (apply Rmult_le_compat_r; lra). assert (A * W * (1 + (4 * n + 2) * u53) <= A * W * (1 + k)) by (apply Rmult_le_compat_l; lra). lra. }
    set (D1 := D + r * W) in *. set (S1 := S + W) in *. assert (Z : Rabs ((B2R diff + B2R (fmul x wt)) - D1) <= En * D1 + (1 + k) * (A * S1) + (n + / 10) * t9).
    { replace (B2R diff + B2R (fmul x wt) - D1) with ((B2R diff - D) + (B2R (fmul x wt) - r * W)) by (unfold D1; ring). eapply Rle_trans; [apply Rabs_triang|]. unfold D1, S1. lra. }
    assert (D1B : 0 <= D1 <= (n + 1) * bpow radix2 100) by (unfold D1; lra). assert (AS1B : 0 <= A * S1 <= (n + 1) * bpow radix2 100) by (unfold S1; lra).
    assert (DE : 0 <= En * D1 <= / 10 * D1) by (split; [apply Rmult_le_pos; lra|apply Rmult_le_compat_r; lra]). assert (KA : 0 <= k * (A * S1) <= / 10 * (A * S1)) by (split; [apply Rmult_le_pos; lra|apply Rmult_le_compat_r; lra]).
    assert (ZB : Rabs (B2R diff + B2R (fmul x wt)) <= 9 / 8 * D1 + 9 / 8 * (A * S1) + (n + / 10) * t9) by (apply Rabs_le_inv in Z; apply Rabs_le; lra).
    destruct (op_mix (fadd diff (fmul x wt)) (B2R diff + B2R (fmul x wt))) as (FA & EA & A0).
    { assert (1 <= bpow radix2 100) by (change 1 with (bpow radix2 0); apply bpow_le; lia). apply Rle_trans with (8388608 * bpow radix2 100); [lra|]. change 8388608 with (bpow radix2 23). rewrite <- bpow_plus. apply bpow_le. lia. }
    { intros H. now apply fadd_fin. }
    assert (TT : tn <= t9 / 100). { pose proof t9_tn. assert (tn <= bpow radix2 100 * (2097152 * tn)); [|lra]. assert (1 <= bpow radix2 100) by (change 1 with (bpow radix2 0); apply bpow_le; lia). rewrite <- (Rmult_1_l tn) at 1. rewrite <- Rmult_assoc. apply Rmult_le_compat_r; lra. }
    assert (M : Rabs (B2R diff + B2R (fmul x wt)) * u53 <= 9 / 8 * u53 * D1 + 9 / 8 * u53 * (A * S1) + t9 / 10).
    { apply Rle_trans with ((9 / 8 * D1 + 9 / 8 * (A * S1) + (n + / 10) * t9) * u53); [apply Rmult_le_compat_r; lra|]. assert ((n + / 10) * u53 * t9 <= / 10 * t9) by (apply Rmult_le_compat_r; lra). lra. }
    assert (UD : 0 <= u53 * D1) by (apply Rmult_le_pos; lra). assert (UA : 0 <= u53 * (A * S1)) by (apply Rmult_le_pos; lra).
    destruct (IH rs' (fadd diff (fmul x wt)) (fmul wt qf) D1 (W * q) S1 (n + 1)) as (FV & V0 & BV); auto; try lra.
    + unfold S1. lra.
    + replace (B2R (fadd diff (fmul x wt)) - D1) with ((B2R (fadd diff (fmul x wt)) - (B2R diff + B2R (fmul x wt))) + ((B2R diff + B2R (fmul x wt)) - D1)) by ring. eapply Rle_trans; [apply Rabs_triang|].
      replace (e + 5000000 * u53 + 5000000 * u53 + 2 * (n + 1) * u53) with (En + 2 * u53) by (unfold En; ring). replace (1 + 10000000 * u53 + 2 * (n + 1) * u53) with (1 + k + 2 * u53) by (unfold k, En; ring). lra.
    + apply wg_step; [lra|exact HW].
    + split; [exact FV|]. split; [exact V0|]. cbv zeta in BV. replace (n + 1 + INR (length l)) with (n + (INR (length l) + 1)) in BV by ring. replace (D1 + W * q * weighed q rs') with (D + W * (r + q * weighed q rs')) in BV by (unfold D1; ring). replace (S1 + W * q * geo (length l)) with (S + W * (1 + q * geo (length l))) in BV by (unfold S1; ring). exact BV.
Qed.
Lemma total_mix l rs : Forall2 nears l rs -> INR (length l) <= 1048576 ->
  let v := weighted_sum qf f0 (fq 1 1) l in
  fin v /\ 0 <= B2R v /\ Rabs (B2R v - weighed q rs) <= (e + / 500000000) * weighed q rs + (1 + / 500000000) * (A * geo (length l)) + 1048576 * t9.
Proof.
  intros F L. assert (RS : Forall (fun r => 0 <= r <= bpow radix2 100) rs) by (clear L; induction F as [|x r l rs (_ & (H & _) & _)]; constructor; auto). pose proof (proj1 (weighed_nn rs RS)) as WN. pose proof (geo_nn (length l)) as GN. pose proof (pos_INR (length l)) as PL.
  destruct (fq1_exact 1 ltac:(lia)) as (F1 & E1). pose proof (bpow_gt_0 radix2 100).
  destruct (sum_mix l rs f0 (fq 1 1) 0 1 0 0 F) as (FV & V0 & BV); try lra; try reflexivity.
  - change (B2R f0) with 0. lra.
  - change (B2R f0) with 0. rewrite Rminus_0_r, Rabs_R0. lra.
  - split; [exact F1|]. rewrite E1. split; [lra|]. rewrite Rminus_diag_eq by reflexivity. rewrite Rabs_R0. lra.
  - cbv zeta in BV |- *. split; [exact FV|]. split; [exact V0|]. rewrite !Rplus_0_l, !Rmult_1_l in BV. apply Rle_trans with (1 := BV). assert (T9 : 0 < t9) by apply bpow_gt_0.
    assert (AG : 0 <= A * geo (length l)) by (apply Rmult_le_pos; lra). pose proof (n_small (INR (length l)) ltac:(lra)) as (N1 & _). assert (K : 10000000 * u53 + 2 * INR (length l) * u53 <= / 500000000) by (unfold u53 in *; lra).
    assert ((e + 10000000 * u53 + 2 * INR (length l) * u53) * weighed q rs <= (e + / 500000000) * weighed q rs) by (apply Rmult_le_compat_r; lra).
    assert ((1 + 10000000 * u53 + 2 * INR (length l) * u53) * (A * geo (length l)) <= (1 + / 500000000) * (A * geo (length l))) by (apply Rmult_le_compat_r; lra).
    assert (INR (length l) * t9 <= 1048576 * t9) by (apply Rmult_le_compat_r; lra). lra.
Qed.
End Sum.

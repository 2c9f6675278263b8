(** DifficultyValue and the ratings against their real formulas. *)
From Coq Require Import Reals Lra List ZArith Lia Permutation.
From Flocq Require Import Core BinarySingleNaN.
From Verif Require Import DiffCalc SpecPP SpecStrain SpecFormula SpecRating BaseLemmas FloatLemmas Float32Lemmas KeyLemmas LazyProofs SkillProofs PPProofs RelLemmas RelPow FormulaParts SortReal WeighFormula.
Import ListNotations.
Open Scope R_scope.

Section WithLibm.
Context {M : libm} (LC : log_close).

Lemma log10_in x : 1 <= x <= 10 -> 0 <= log10 x <= 1.
Proof.
  intros H. unfold log10. pose proof ln_10 as L. assert (P : 0 <= ln x <= ln 10). { rewrite <- ln_1. split; apply ln_le'; lra. }
  split; [apply Rmult_le_pos; [lra|left; apply Rinv_0_lt_compat; lra]|]. apply Rmult_le_reg_r with (ln 10); [lra|]. replace (ln x / ln 10 * ln 10) with (ln x) by (field; lra). lra.
Qed.
Lemma share_in n i : (i < n)%nat -> 75 / 100 <= share_R n i <= 1.
Proof.
  intros H. unfold share_R. assert (N : 0 < INR n) by (apply lt_0_INR; lia). assert (I : 0 <= INR i / INR n <= 1).
  { split; [apply Rmult_le_pos; [apply pos_INR|left; now apply Rinv_0_lt_compat]|]. apply Rmult_le_reg_r with (INR n); [exact N|]. replace (INR i / INR n * INR n) with (INR i) by (field; lra). rewrite Rmult_1_l. apply le_INR. lia. }
  pose proof (log10_in (1 + 9 * (INR i / INR n)) ltac:(lra)). lra.
Qed.
(** the factor of the i-th highest peak *)
Lemma scale_near (x : f64) r : fin x -> 1 <= r <= 10 -> 1 <= B2R x -> r - 1 * e40 * r <= B2R x <= r + 1 * e40 * r ->
  fin (lerpF64 reduced_baseline (fq 1 1) (mlog10 x)) /\ Rabs (B2R (lerpF64 reduced_baseline (fq 1 1) (mlog10 x)) - (75 / 100 + 25 / 100 * log10 r)) <= 2 * e40.
Proof.
  intros F R X1 B. pose proof e40_pos as E0. assert (E1 : e40 <= / 1000000000) by (unfold e40; lra).
  destruct (LC x F) as (FL & BL). { split; [exact X1|]. apply Rle_trans with 32; [assert (1 * e40 * r <= 1 * 1 * r) by (apply Rmult_le_compat_r; lra); lra|]. change 32 with (bpow radix2 5). apply bpow_le. lia. }
  rewrite b40 in BL. pose proof (log_near 1 (B2R x) r ltac:(unfold NN; lra) ltac:(lra) B) as LN. pose proof (log10_in r R) as LR.
  set (y := mlog10 x) in *. assert (Y : Rabs (B2R y - log10 r) <= 2 * e40) by (apply Rabs_le_inv in BL, LN; apply Rabs_le; lra). clear BL LN. apply Rabs_le_inv in Y.
  unfold lerpF64, reduced_baseline. assert (Q : fin (fsub (fq 1 1) (fq 75 100)) /\ B2R (fsub (fq 1 1) (fq 75 100)) = 25 / 100).
  { split; [vm_compute; reflexivity|]. bval (fsub (fq 1 1) (fq 75 100)). rewrite V. lra. }
  destruct Q as (FQ & EQ). assert (Q : fin (fq 75 100) /\ B2R (fq 75 100) = 75 / 100) by (split; [vm_compute; reflexivity|]; bval (fq 75 100); rewrite V; lra). destruct Q as (F7 & E7).
  assert (T8 : tn <= / 1000 * e40). { apply Rle_trans with (bpow radix2 (-60)); [apply bpow_le; lia|]. change (bpow radix2 (-60)) with (/ 1152921504606846976). unfold e40. lra. }
  destruct (op_mix (fmul (fsub (fq 1 1) (fq 75 100)) y) (25 / 100 * B2R y)) as (F1 & B1 & _).
  { apply Rle_trans with 1; [apply Rabs_le; lra|]. change 1 with (bpow radix2 0). apply bpow_le. lia. } { intros H. rewrite <- EQ in H |- *. now apply fmul_fin. }
  assert (A1 : Rabs (25 / 100 * B2R y) <= 1) by (apply Rabs_le; lra). set (z := fmul _ y) in *. assert (B1' : Rabs (B2R z - 25 / 100 * B2R y) <= / 100 * e40). { apply Rle_trans with (1 := B1). assert (Rabs (25 / 100 * B2R y) * u53 <= 1 * u53) by (apply Rmult_le_compat_r; [pose proof u53_in; lra|exact A1]). unfold u53, e40 in *. lra. }
  apply Rabs_le_inv in B1'.
  destruct (op_mix (fadd (fq 75 100) z) (75 / 100 + B2R z)) as (F2 & B2 & _).
  { apply Rle_trans with 2; [apply Rabs_le; lra|]. change 2 with (bpow radix2 1). apply bpow_le. lia. } { intros H. rewrite <- E7 in H |- *. now apply fadd_fin. }
  split; [exact F2|]. assert (A2 : Rabs (75 / 100 + B2R z) <= 2) by (apply Rabs_le; lra). assert (B2' : Rabs (B2R (fadd (fq 75 100) z) - (75 / 100 + B2R z)) <= / 100 * e40). { apply Rle_trans with (1 := B2). assert (Rabs (75 / 100 + B2R z) * u53 <= 2 * u53) by (apply Rmult_le_compat_r; [pose proof u53_in; lra|exact A2]). unfold u53, e40 in *. lra. }
  apply Rabs_le_inv in B2'. apply Rabs_le. lra.
Qed.
Lemma factor_near k i : (i < top_peaks k)%nat -> fin (reduce_factor k i) /\ Rabs (B2R (reduce_factor k i) - share_R (top_peaks k) i) <= 2 * e40.
Proof.
  intros H. unfold reduce_factor, share_R. cbv zeta.
  assert (C : forall n j, (j < n)%nat -> (n = 5 \/ n = 10)%nat ->
    let x := lerpF64 (fq 1 1) (fq 10 1) (clampF64 (fdiv (f_of_Z (Z.of_nat j)) (f_of_Z (Z.of_nat n))) f0 (fq 1 1)) in
    let r := 1 + 9 * (INR j / INR n) in
    fin x /\ 1 <= r <= 10 /\ 1 <= B2R x /\ r - 1 * e40 * r <= B2R x <= r + 1 * e40 * r).
  { assert (G : forall (x : f64) r, fin x -> 1 <= r <= 10 -> 1 <= B2R x -> Rabs (B2R x - r) <= e40 -> fin x /\ 1 <= r <= 10 /\ 1 <= B2R x /\ r - 1 * e40 * r <= B2R x <= r + 1 * e40 * r).
    { intros x r F R X B. split; [exact F|]. split; [exact R|]. split; [exact X|]. apply Rabs_le_inv in B. assert (1 * e40 <= 1 * e40 * r) by (rewrite <- (Rmult_1_r (1 * e40)) at 1; apply Rmult_le_compat_l; pose proof e40_pos; lra). lra. }
    intros n j J [-> | ->]; cbv zeta.
    - do 5 (destruct j as [|j]; [apply G; [vm_compute; reflexivity|cbn [INR]; lra| |]; match goal with |- context [B2R ?x] => bval x; match goal with V : B2R x = _ |- _ => rewrite V end end; [lra|cbn [INR]; apply Rabs_le; unfold e40; lra]|]). lia.
    - do 10 (destruct j as [|j]; [apply G; [vm_compute; reflexivity|cbn [INR]; lra| |]; match goal with |- context [B2R ?x] => bval x; match goal with V : B2R x = _ |- _ => rewrite V end end; [lra|cbn [INR]; apply Rabs_le; unfold e40; lra]|]). lia. }
  destruct (C (top_peaks k) i H) as (F & R & X & B); [destruct k; cbn; auto|]. destruct k; now apply scale_near.
Qed.

(** ** The highest peaks count less *)
Section Less.
Context (e A : R) (He : 0 <= e <= / 32) (HA : bpow radix2 (-800) <= A <= bpow radix2 99).
Definition e' : R := e + 4 * e40.
Definition A' : R := A * (1 + 4 * e40).
Lemma A_pos : 0 < A. Proof. pose proof (bpow_gt_0 radix2 (-800)). lra. Qed.
Lemma e'_in : 0 <= e' <= / 16. Proof. unfold e', e40. lra. Qed.
Lemma A'_in : A <= A' <= bpow radix2 100.
Proof.
  pose proof A_pos. unfold A'. assert (A * 0 <= A * (4 * e40) <= A * 1) by (split; apply Rmult_le_compat_l; unfold e40; lra). change 100%Z with (99 + 1)%Z. rewrite bpow_plus. change (bpow radix2 1) with 2. lra.
Qed.
Lemma tn_A : tn <= A * (e40 / 100).
Proof.
  apply Rle_trans with (bpow radix2 (-800) * (e40 / 100)); [|apply Rmult_le_compat_r; unfold e40; lra]. apply Rle_trans with (bpow radix2 (-800) * bpow radix2 (-47)).
  - rewrite <- bpow_plus. apply bpow_le. lia.
  - apply Rmult_le_compat_l; [apply bpow_ge_0|]. change (bpow radix2 (-47)) with (/ 140737488355328). unfold e40. lra.
Qed.
Lemma less_one x r f s : nears e A x r -> fin f -> 0 <= B2R f -> 0 < s <= 1 -> Rabs (B2R f - s) <= 3 * e40 * s -> nears e' A' (fmul x f) (r * s).
Proof.
  intros (FX & (RX & X0) & BX) FF F0 SS BF. pose proof e40_pos as E0. assert (E1 : e40 <= / 1000000000) by (unfold e40; lra). pose proof A_pos as AP. pose proof A'_in as AI. apply Rabs_le_inv in BF.
  assert (RS : 0 <= r * s <= r) by (split; [apply Rmult_le_pos; lra|]; apply Rle_trans with (r * 1); [apply Rmult_le_compat_l; lra|lra]). assert (ES : 0 <= 3 * e40 * s <= 3 * e40 * 1) by (split; [apply Rmult_le_pos; lra|apply Rmult_le_compat_l; lra]).
  assert (ER : 0 <= e * r <= / 32 * r) by (split; [apply Rmult_le_pos; lra|apply Rmult_le_compat_r; lra]).
  assert (Z : Rabs (B2R x * B2R f - r * s) <= (e + 7 / 2 * e40) * (r * s) + A * (1 + 3 * e40)).
  { replace (B2R x * B2R f - r * s) with ((B2R x - r) * B2R f + r * (B2R f - s)) by ring. eapply Rle_trans; [apply Rabs_triang|]. rewrite !Rabs_mult, (Rabs_pos_eq (B2R f)), (Rabs_pos_eq r) by lra.
    apply Rle_trans with ((e * r + A) * (s + 3 * e40 * s) + r * (3 * e40 * s)).
    - apply Rplus_le_compat; [apply Rmult_le_compat; try apply Rabs_pos; try lra|apply Rmult_le_compat_l; [lra|apply Rabs_le; lra]].
    - replace ((e * r + A) * (s + 3 * e40 * s) + r * (3 * e40 * s)) with (e * (r * s) + 3 * e40 * (e * (r * s)) + A * (s + 3 * e40 * s) + 3 * e40 * (r * s)) by ring.
      assert (e * (r * s) <= / 32 * (r * s)) by (apply Rmult_le_compat_r; lra). assert (3 * e40 * (e * (r * s)) <= 3 * e40 * (/ 32 * (r * s))) by (apply Rmult_le_compat_l; lra). assert (A * (s + 3 * e40 * s) <= A * (1 + 3 * e40)) by (apply Rmult_le_compat_l; lra).
      assert (0 <= e40 * (r * s)) by (apply Rmult_le_pos; lra). lra. }
  assert (EE : 0 <= (e + 7 / 2 * e40) * (r * s) <= / 16 * (r * s)) by (split; [apply Rmult_le_pos; lra|apply Rmult_le_compat_r; lra]).
  assert (AE : 0 <= A * (3 * e40) <= A * / 16) by (split; [apply Rmult_le_pos; lra|apply Rmult_le_compat_l; lra]).
  assert (ZB : Rabs (B2R x * B2R f) <= 9 / 8 * (r * s) + 9 / 8 * A) by (apply Rabs_le_inv in Z; apply Rabs_le; lra).
  destruct (op_mix (fmul x f) (B2R x * B2R f)) as (FM & EM & M0).
  { pose proof (bpow_gt_0 radix2 100). apply Rle_trans with (4 * bpow radix2 100); [lra|]. change 4 with (bpow radix2 2). rewrite <- bpow_plus. apply bpow_le. lia. } { intros H. now apply fmul_fin. }
  split; [exact FM|]. split; [split; [lra|apply M0, Rmult_le_pos; lra]|]. replace (B2R (fmul x f) - r * s) with ((B2R (fmul x f) - B2R x * B2R f) + (B2R x * B2R f - r * s)) by ring. eapply Rle_trans; [apply Rabs_triang|].
  assert (M1 : Rabs (B2R x * B2R f) * u53 <= (9 / 8 * (r * s) + 9 / 8 * A) * u53) by (apply Rmult_le_compat_r; [pose proof u53_in; lra|exact ZB]). pose proof tn_A as TA. assert (UE : u53 <= e40 / 100) by (unfold u53, e40; lra).
  assert ((r * s) * u53 <= (r * s) * (e40 / 100)) by (apply Rmult_le_compat_l; lra). assert (A * u53 <= A * (e40 / 100)) by (apply Rmult_le_compat_l; lra). assert (0 <= e40 * (r * s)) by (apply Rmult_le_pos; lra). assert (0 <= A * e40) by (apply Rmult_le_pos; lra).
  unfold e', A'. lra.
Qed.
Lemma nears_up x r : nears e A x r -> nears e' A' x r.
Proof.
  intros (FX & (RX & X0) & BX). split; [exact FX|]. split; [now split|]. apply Rle_trans with (1 := BX). pose proof A'_in. assert (e * r <= e' * r) by (apply Rmult_le_compat_r; [lra|unfold e', e40; lra]). lra.
Qed.
Lemma less_all k l rs : forall i, Forall2 (nears e A) l rs -> Forall2 (nears e' A') (reduce_peaks k i l) (lessen (top_peaks k) i rs).
Proof.
  intros i F. revert i. induction F as [|x r l rs N F IH]; intros i; cbn [reduce_peaks lessen]; constructor; [|apply IH].
  change (reduced_sections k) with (top_peaks k). destruct (Nat.ltb i (top_peaks k)) eqn:L; [|now apply nears_up]. apply Nat.ltb_lt in L. destruct (factor_near k i L) as (FF & BF). pose proof (share_in _ _ L) as SI. apply less_one; auto; [apply Rabs_le_inv in BF; unfold e40 in *; lra|lra|]. apply Rle_trans with (1 := BF). assert (3 * e40 * (75 / 100) <= 3 * e40 * share_R (top_peaks k) i) by (apply Rmult_le_compat_l; pose proof e40_pos; lra). pose proof e40_pos. lra.
Qed.
Lemma nears_sort e1 A1 l rs : 0 <= e1 < 1 -> Forall2 (nears e1 A1) l rs -> Forall2 (nears e1 A1) (reverse_sort l) (sort_R rs).
Proof.
  intros E F. assert (N : Forall2 (fun x r => fin x /\ Rabs (B2R x - r) <= e1 * r + A1) (reverse_sort l) (sort_R rs)). { apply near_sorts; [exact E|]. eapply F2_weak; [|exact F]. intros x r (A1' & _ & B). now split. }
  assert (FF : Forall fin l) by (clear N E; induction F as [|x r l rs (FX & _) F IH]; constructor; auto).
  assert (R : Forall (fun r => 0 <= r <= bpow radix2 100) (sort_R rs)). { apply sort_all. clear N E FF. induction F as [|x r l rs (_ & (H & _) & _) F IH]; constructor; auto. }
  assert (X : Forall (fun x : f64 => 0 <= B2R x) (reverse_sort l)).
  { destruct (reverse_sorts l) as (P & _). { eapply Forall_impl; [|exact FF]. intros x Fx. exact (fin_num _ _ _ Fx). } apply (Permutation_Forall P). clear N E R FF P. induction F as [|x r l rs (_ & (_ & H) & _) F IH]; constructor; auto. }
  revert N R X. generalize (reverse_sort l) (sort_R rs). clear. intros l rs N. induction N as [|x r a b (FX & B) F IH]; intros R X; constructor; inversion R; inversion X; subst; auto. split; [exact FX|]. split; [now split|exact B].
Qed.
Lemma fading_f k : fin (decay_weight k) /\ 0 < fading_R k <= 1 /\ Rabs (B2R (decay_weight k) - fading_R k) <= fading_R k * u53.
Proof.
  destruct k; (split; [vm_compute; reflexivity|]); (split; [cbn; lra|]); unfold decay_weight, fading_R.
  - bval (fq 9 10). rewrite V. apply Rabs_le. unfold u53. lra.
  - bval (fq 9 10). rewrite V. apply Rabs_le. unfold u53. lra.
  - bval (fq 1 1). rewrite V. apply Rabs_le. unfold u53. lra.
Qed.
Lemma scale_f k : fin (difficulty_multiplier k) /\ 1 <= scale_R k <= 106 / 100 /\ Rabs (B2R (difficulty_multiplier k) - scale_R k) <= scale_R k * u53.
Proof.
  destruct k; (split; [vm_compute; reflexivity|]); (split; [cbn; lra|]); unfold difficulty_multiplier, scale_R.
  - bval (fq 106 100). rewrite V. apply Rabs_le. unfold u53. lra.
  - bval (fq 104 100). rewrite V. apply Rabs_le. unfold u53. lra.
  - bval (fq 106 100). rewrite V. apply Rabs_le. unfold u53. lra.
Qed.
Lemma lessen_len n l : forall i, length (lessen n i l) = length l.
Proof. induction l as [|x l IH]; intros i; cbn [lessen length]; auto. Qed.
Lemma value_near k l rs : Forall2 (nears e A) l rs -> l <> [] -> INR (length l) <= 1048576 ->
  fin (difficulty_value_of k l) /\ 0 <= B2R (difficulty_value_of k l) /\ 0 <= value_R k rs <= bpow radix2 121 /\
  Rabs (B2R (difficulty_value_of k l) - value_R k rs) <= (e + / 100000000) * value_R k rs + 107 / 100 * (A * geo (fading_R k) (length l)).
Proof.
  intros F NE L. pose proof e40_pos as E0. pose proof A_pos as AP. pose proof A'_in as AI. pose proof e'_in as EI.
  assert (F1 := nears_sort e A l rs ltac:(lra) F). assert (F2 := less_all k _ _ 0%nat F1). assert (F3 := nears_sort e' A' _ _ ltac:(lra) F2).
  unfold difficulty_value_of, value_R. cbv zeta. set (srt := reverse_sort (reduce_peaks k 0 (reverse_sort l))) in *. set (rsr := sort_R (lessen (top_peaks k) 0 (sort_R rs))) in *.
  assert (LE : length srt = length l). { rewrite (F2_len _ _ _ F3), (F2_len _ _ _ F). unfold rsr. now rewrite sort_len, lessen_len, sort_len. }
  destruct (fading_f k) as (FQ & Q & BQ). destruct (scale_f k) as (FS & SS & BS). destruct (total_mix (decay_weight k) (fading_R k) FQ Q BQ e' A' EI ltac:(lra) srt rsr F3 ltac:(rewrite LE; exact L)) as (FV & V0 & BV). cbv zeta in FV, V0, BV. rewrite LE in BV.
  set (v := weighted_sum _ _ _ srt) in *. set (V := weighed (fading_R k) rsr) in *. set (G := geo (fading_R k) (length l)) in *.
  assert (RB : Forall (fun r => 0 <= r <= bpow radix2 100) rsr) by (clear - F3; induction F3 as [|x r a b (_ & (H & _) & _) F IH]; constructor; auto).
  assert (VB : 0 <= V <= bpow radix2 120). { destruct (weighed_nn (fading_R k) Q rsr RB) as (P1 & P2). split; [exact P1|]. apply Rle_trans with (1 := P2). rewrite <- (F2_len _ _ _ F3), LE. change 120%Z with (20 + 100)%Z. rewrite bpow_plus. apply Rmult_le_compat_r; [apply bpow_ge_0|exact L]. }
  assert (GB : 1 <= G <= 1048576). { unfold G. pose proof (geo_le (fading_R k) Q (length l)). split; [|lra]. destruct l as [|x l]; [congruence|]. cbn [length geo]. pose proof (geo_nn (fading_R k) Q (length l)). assert (0 <= fading_R k * geo (fading_R k) (length l)) by (apply Rmult_le_pos; lra). lra. }
  assert (AG : A <= A * G) by (rewrite <- (Rmult_1_r A) at 1; apply Rmult_le_compat_l; lra). assert (AG0 : 0 < A * G) by lra.
  assert (T9 : 1048576 * t9 <= / 1000000000 * (A * G)).
  { apply Rle_trans with (/ 1000000000 * bpow radix2 (-800)); [|apply Rmult_le_compat_l; lra]. change 1048576 with (bpow radix2 20). unfold t9. rewrite <- bpow_plus. apply Rle_trans with (bpow radix2 (-30) * bpow radix2 (-800)); [rewrite <- bpow_plus; apply bpow_le; lia|]. apply Rmult_le_compat_r; [apply bpow_ge_0|]. change (bpow radix2 (-30)) with (/ 1073741824). lra. }
  assert (E5 : e' + / 500000000 <= e + / 400000000) by (unfold e', e40; lra).
  assert (AAG : (1 + / 500000000) * (A' * G) <= (1 + / 300000000) * (A * G)). { unfold A'. replace ((1 + / 500000000) * (A * (1 + 4 * e40) * G)) with ((1 + / 500000000) * (1 + 4 * e40) * (A * G)) by ring. apply Rmult_le_compat_r; [lra|]. unfold e40. lra. }
  assert (BV' : Rabs (B2R v - V) <= (e + / 400000000) * V + (1 + / 200000000) * (A * G)). { apply Rle_trans with (1 := BV). assert ((e' + / 500000000) * V <= (e + / 400000000) * V) by (apply Rmult_le_compat_r; lra). lra. }
  set (m := difficulty_multiplier k) in *. set (s := scale_R k) in *. apply Rabs_le_inv in BS. pose proof u53_in as U. assert (su : 0 <= s * u53 <= 106 / 100 * u53) by (split; [apply Rmult_le_pos; lra|apply Rmult_le_compat_r; lra]).
  assert (VS : 0 <= V * s <= 106 / 100 * V) by (split; [apply Rmult_le_pos; lra|]; replace (106 / 100 * V) with (V * (106 / 100)) by ring; apply Rmult_le_compat_l; lra).
  assert (EV : 0 <= (e + / 400000000) * V <= / 16 * V) by (split; [apply Rmult_le_pos; lra|apply Rmult_le_compat_r; lra]).
  assert (AB : A * G <= bpow radix2 120). { change 120%Z with (100 + 20)%Z. rewrite bpow_plus. change (bpow radix2 20) with 1048576. apply Rmult_le_compat; lra. }
  assert (Z : Rabs (B2R v * B2R m - V * s) <= (e + / 300000000) * (V * s) + (106 / 100 + / 1000) * (A * G)).
  { replace (B2R v * B2R m - V * s) with ((B2R v - V) * B2R m + V * (B2R m - s)) by ring. eapply Rle_trans; [apply Rabs_triang|]. rewrite !Rabs_mult, (Rabs_pos_eq (B2R m)), (Rabs_pos_eq V) by lra.
    apply Rle_trans with (((e + / 400000000) * V + (1 + / 200000000) * (A * G)) * (s * (1 + u53)) + V * (s * u53)).
    - apply Rplus_le_compat; [apply Rmult_le_compat; try apply Rabs_pos; try assumption; lra|apply Rmult_le_compat_l; [lra|apply Rabs_le; lra]].
    - replace (((e + / 400000000) * V + (1 + / 200000000) * (A * G)) * (s * (1 + u53)) + V * (s * u53)) with ((e + / 400000000 + (e + / 400000000) * u53 + u53) * (V * s) + (1 + / 200000000) * (1 + u53) * s * (A * G)) by ring.
      assert ((e + / 400000000) * u53 <= 1 * u53) by (apply Rmult_le_compat_r; lra). apply Rplus_le_compat; apply Rmult_le_compat_r; [lra|lra|lra|].
      apply Rle_trans with ((1 + / 200000000) * (1 + u53) * (106 / 100)); [apply Rmult_le_compat_l; [|lra]; apply Rmult_le_pos; lra|unfold u53; lra]. }
  assert (B121 : bpow radix2 121 = 2 * bpow radix2 120) by (change 121%Z with (120 + 1)%Z; rewrite bpow_plus; change (bpow radix2 1) with 2; ring).
  assert (EVS : 0 <= (e + / 300000000) * (V * s) <= / 16 * (V * s)) by (split; [apply Rmult_le_pos; lra|apply Rmult_le_compat_r; lra]).
  assert (ZB : Rabs (B2R v * B2R m) <= 9 / 8 * (V * s) + 9 / 8 * (A * G)) by (apply Rabs_le_inv in Z; apply Rabs_le; lra).
  destruct (op_mix (fmul v m) (B2R v * B2R m)) as (FM & EM & M0).
  { apply Rle_trans with (4 * bpow radix2 120); [lra|]. change 4 with (bpow radix2 2). rewrite <- bpow_plus. apply bpow_le. lia. } { intros H. now apply fmul_fin. }
  split; [exact FM|]. split; [apply M0, Rmult_le_pos; lra|]. split; [lra|]. replace (B2R (fmul v m) - V * s) with ((B2R (fmul v m) - B2R v * B2R m) + (B2R v * B2R m - V * s)) by ring. eapply Rle_trans; [apply Rabs_triang|].
  assert (M1 : Rabs (B2R v * B2R m) * u53 <= (9 / 8 * (V * s) + 9 / 8 * (A * G)) * u53) by (apply Rmult_le_compat_r; lra). pose proof tn_A as TA.
  assert ((V * s) * u53 <= (V * s) * / 9000000000000000) by (apply Rmult_le_compat_l; lra). assert ((A * G) * u53 <= (A * G) * / 1000000) by (apply Rmult_le_compat_l; lra). assert (A * (e40 / 100) <= A * / 1000000) by (apply Rmult_le_compat_l; unfold e40; lra). lra.
Qed.
End Less.

(** ** Square root *)
Lemma sqrt_near E B x r : 0 <= E <= 1 -> 0 <= B -> 0 <= x -> 0 <= r -> Rabs (x - r) <= E * r + B ->
  Rabs (sqrt x - sqrt r) <= E * sqrt r + sqrt B /\ (0 < r -> Rabs (sqrt x - sqrt r) <= E * sqrt r + B / sqrt r).
Proof.
  intros HE HB X R D. pose proof (sqrt_pos x) as PX. pose proof (sqrt_pos r) as PR. pose proof (sqrt_pos B) as PB. pose proof (sqrt_sqrt x X) as SX. pose proof (sqrt_sqrt r R) as SR. pose proof (sqrt_sqrt B HB) as SB.
  set (a := sqrt x) in *. set (b := sqrt r) in *. set (c := sqrt B) in *. apply Rabs_le_inv in D. split.
  - apply Rabs_le. assert (0 <= E * b) by (apply Rmult_le_pos; lra). split.
    + destruct (Rle_lt_dec b c) as [G|G]; [lra|]. apply Rnot_lt_le. intros K. assert (a < b - E * b - c) by lra. assert (a * a < (b - E * b - c) * (b - E * b - c)) by (apply Rmult_le_0_lt_compat; lra).
      assert ((b - E * b - c) * (b - E * b - c) <= (b - E * b - c) * b) by (apply Rmult_le_compat_l; lra). assert (c * c <= c * b) by (apply Rmult_le_compat_l; lra). assert (E * r = E * b * b) by (rewrite <- SR; ring). lra.
    + apply Rnot_lt_le. intros K. assert (b + E * b + c < a) by lra. assert ((b + E * b + c) * (b + E * b + c) < a * a) by (apply Rmult_le_0_lt_compat; lra).
      assert (0 <= E * b * (E * b)) by (apply Rmult_le_pos; lra). assert (0 <= b * c) by (apply Rmult_le_pos; lra). assert (0 <= E * b * c) by (apply Rmult_le_pos; lra). assert (0 <= E * b * b) by (apply Rmult_le_pos; lra). assert (E * r = E * b * b) by (rewrite <- SR; ring). lra.
  - intros R0. assert (B0 : 0 < b) by (apply sqrt_lt_R0; exact R0). apply Rmult_le_reg_r with b; [exact B0|]. replace ((E * b + B / b) * b) with (E * (b * b) + B) by (field; lra). rewrite SR.
    apply Rle_trans with (Rabs (a - b) * (a + b)); [apply Rmult_le_compat_l; [apply Rabs_pos|lra]|]. rewrite <- (Rabs_pos_eq (a + b)) by lra. rewrite <- Rabs_mult. replace ((a - b) * (a + b)) with (x - r) by (rewrite <- SX, <- SR; ring). apply Rabs_le. lra.
Qed.
(** the rating is 0.0675 times the square root *)
Lemma stars_near E B (v : f64) V : 0 <= E <= / 16 -> bpow radix2 (-800) <= B <= bpow radix2 200 -> fin v -> 0 <= B2R v -> 0 <= V <= bpow radix2 121 -> Rabs (B2R v - V) <= E * V + B ->
  let x := fmul (fsqrt v) (fq 675 10000) in
  fin x /\ 0 <= B2R x /\ Rabs (B2R x - stars_R V) <= (E + / 1000000000000) * stars_R V + 7 / 100 * sqrt B /\
  (0 < V -> Rabs (B2R x - stars_R V) <= (E + / 1000000000000) * stars_R V + 7 / 100 * (B / sqrt V)).
Proof.
  intros HE HB FV V0 HV D x. assert (BP : 0 < B) by (pose proof (bpow_gt_0 radix2 (-800)); lra). destruct (sqrt_near E B (B2R v) V ltac:(lra) ltac:(lra) V0 ltac:(lra) D) as (S1 & S2). pose proof u53_in as U.
  destruct (fsqrt_fin v FV V0) as (FS & ES). set (w := fsqrt v) in *. pose proof (sqrt_pos (B2R v)) as PX. pose proof (sqrt_pos V) as PV. pose proof (sqrt_pos B) as PB.
  assert (VU : sqrt V <= bpow radix2 61). { rewrite <- (sqrt_Rsqr (bpow radix2 61)) by apply bpow_ge_0. apply sqrt_le_1_alt. unfold Rsqr. rewrite <- bpow_plus. apply Rle_trans with (1 := proj2 HV). apply bpow_le. lia. }
  assert (BU : bpow radix2 (-400) <= sqrt B <= bpow radix2 100).
  { split; [rewrite <- (sqrt_Rsqr (bpow radix2 (-400))) by apply bpow_ge_0|rewrite <- (sqrt_Rsqr (bpow radix2 100)) by apply bpow_ge_0]; apply sqrt_le_1_alt; unfold Rsqr; rewrite <- bpow_plus; apply HB. }
  assert (K : forall X, 0 <= X -> bpow radix2 (-1000) <= X -> Rabs (sqrt (B2R v) - sqrt V) <= E * sqrt V + X -> X <= bpow radix2 900 -> fin x /\ 0 <= B2R x /\ Rabs (B2R x - stars_R V) <= (E + / 1000000000000) * stars_R V + 7 / 100 * X).
  { intros X X0 X1 XB XU. pose proof (rnd_mix (sqrt (B2R v))) as RW. rewrite <- ES in RW. apply Rabs_le_inv in XB. assert (EV : 0 <= E * sqrt V <= / 16 * sqrt V) by (split; [apply Rmult_le_pos; lra|apply Rmult_le_compat_r; lra]).
    assert (T : tn <= / 1000000000000000 * X). { apply Rle_trans with (/ 1000000000000000 * bpow radix2 (-1000)); [|apply Rmult_le_compat_l; lra]. apply Rle_trans with (bpow radix2 (-60) * bpow radix2 (-1000)); [rewrite <- bpow_plus; apply bpow_le; lia|]. apply Rmult_le_compat_r; [apply bpow_ge_0|]. change (bpow radix2 (-60)) with (/ 1152921504606846976). lra. }
    assert (W0 : 0 <= B2R w) by (rewrite ES; now apply rnd64_pos).
    rewrite (Rabs_pos_eq (sqrt (B2R v))) in RW by lra. assert (RW1 : sqrt (B2R v) * u53 <= (9 / 8 * sqrt V + X) * / 9000000000000000) by (apply Rmult_le_compat; lra).
    apply Rabs_le_inv in RW. assert (W1 : Rabs (B2R w - sqrt V) <= (E + / 4000000000000000) * sqrt V + (1 + / 1000000) * X) by (apply Rabs_le; lra).
    assert (C : fin (fq 675 10000) /\ Rabs (B2R (fq 675 10000) - 675 / 10000) <= / 10000000000000000 * (675 / 1000)). { split; [vm_compute; reflexivity|]. bval (fq 675 10000). rewrite V1. apply Rabs_le. lra. } destruct C as (FC & BC). set (c := fq 675 10000) in *. apply Rabs_le_inv in BC.
    assert (Z : Rabs (B2R w * B2R c - sqrt V * (675 / 10000)) <= (E + / 500000000000000) * (sqrt V * (675 / 10000)) + 68 / 1000 * X).
    { replace (B2R w * B2R c - sqrt V * (675 / 10000)) with ((B2R w - sqrt V) * B2R c + sqrt V * (B2R c - 675 / 10000)) by ring. eapply Rle_trans; [apply Rabs_triang|]. rewrite !Rabs_mult, (Rabs_pos_eq (B2R c)), (Rabs_pos_eq (sqrt V)) by lra.
      apply Rle_trans with (((E + / 4000000000000000) * sqrt V + (1 + / 1000000) * X) * (675 / 10000 * (1 + / 1000000000000000)) + sqrt V * (/ 10000000000000000 * (675 / 1000))).
      - apply Rplus_le_compat; [apply Rmult_le_compat; try apply Rabs_pos; try assumption; lra|apply Rmult_le_compat_l; [lra|apply Rabs_le; lra]].
      - lra. }
    assert (ZB : Rabs (B2R w * B2R c) <= sqrt V + X) by (apply Rabs_le_inv in Z; apply Rabs_le; lra).
    destruct (op_mix x (B2R w * B2R c)) as (FM & EM & M0).
    { apply Rle_trans with (1 := ZB). assert (bpow radix2 61 <= bpow radix2 900) by (apply bpow_le; lia). apply Rle_trans with (2 * bpow radix2 900); [lra|]. change 2 with (bpow radix2 1). rewrite <- bpow_plus. apply bpow_le. lia. } { intros H. now apply fmul_fin. }
    split; [exact FM|]. split; [apply M0, Rmult_le_pos; lra|]. unfold stars_R. replace (B2R x - sqrt V * (675 / 10000)) with ((B2R x - B2R w * B2R c) + (B2R w * B2R c - sqrt V * (675 / 10000))) by ring. eapply Rle_trans; [apply Rabs_triang|].
    assert (M1 : Rabs (B2R w * B2R c) * u53 <= (sqrt V + X) * / 9000000000000000) by (apply Rmult_le_compat; try apply Rabs_pos; lra). lra. }
  assert (P1000 : bpow radix2 (-1000) <= bpow radix2 (-400)) by (apply bpow_le; lia). assert (P900 : bpow radix2 100 <= bpow radix2 900) by (apply bpow_le; lia).
  destruct (K (sqrt B) ltac:(lra) ltac:(lra) S1 ltac:(lra)) as (FX & X0 & K1). split; [exact FX|]. split; [exact X0|]. split; [exact K1|]. intros VP. specialize (S2 VP). assert (VQ : 0 < sqrt V) by (now apply sqrt_lt_R0).
  destruct (Rle_lt_dec (sqrt B) (sqrt V)) as [G|G].
  - assert (SB : sqrt B * sqrt B = B) by (apply sqrt_sqrt; lra). assert (Q : B / sqrt V <= sqrt B). { apply Rmult_le_reg_r with (sqrt V); [lra|]. replace (B / sqrt V * sqrt V) with B by (field; lra). rewrite <- SB at 1. apply Rmult_le_compat_l; lra. }
    destruct (K (B / sqrt V)) as (_ & _ & K2); auto; try lra.
    + left. apply Rdiv_lt_0_compat; lra.
    + apply Rmult_le_reg_r with (sqrt V); [lra|]. replace (B / sqrt V * sqrt V) with B by (field; lra). apply Rle_trans with (bpow radix2 (-1000) * bpow radix2 61); [apply Rmult_le_compat_l; [apply bpow_ge_0|lra]|]. rewrite <- bpow_plus. apply Rle_trans with (2 := proj1 HB). apply bpow_le. lia.
  - apply Rle_trans with (1 := K1). apply Rplus_le_compat_l. apply Rmult_le_compat_l; [lra|]. assert (SB : sqrt B * sqrt B = B) by (apply sqrt_sqrt; lra). apply Rmult_le_reg_r with (sqrt V); [lra|]. replace (B / sqrt V * sqrt V) with B by (field; lra). rewrite <- SB at 2. apply Rmult_le_compat_l; lra.
Qed.
End WithLibm.

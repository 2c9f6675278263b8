(** More factors of the pp values against their real formulas: accuracy, slider
    breaks, 50s, the flashlight's length bonus, the final factor. *)
From Coq Require Import Reals Lra ZArith Lia.
From Flocq Require Import Core BinarySingleNaN.
From Verif Require Import PP SpecPP SpecFormula BaseLemmas FloatLemmas Float32Lemmas KeyLemmas LazyProofs PPProofs PPBounds RelLemmas RelPow FormulaParts.
Open Scope R_scope.
Ltac kab := split; [vm_compute; reflexivity|ex].

Section WithLibm.
Context {M : libm} (PC : pow_close).

(** ** Accuracy *)
Lemma acc_nv n300 n100 n50 total : (0 <= n300)%Z -> (0 <= n100)%Z -> (0 <= n50)%Z -> (n300 + n100 + n50 <= total)%Z -> (1 <= total <= 2 ^ 20)%Z ->
  let r := (300 * IZR n300 + 100 * IZR n100 + 50 * IZR n50) / (300 * IZR total) in nv 1 23 (pp_acc n300 n100 n50 total) r /\ 0 <= r <= 1.
Proof.
  intros H3 H1 H5 HT T r. destruct (PPProofs.acc_value n300 n100 n50 total) as (F & E); try lia.
  set (num := (300 * n300 + 100 * n100 + 50 * n50)%Z) in *. set (den := (300 * total)%Z) in *.
  assert (RE : r = IZR num / IZR den). { unfold r, num, den. rewrite !plus_IZR, !mult_IZR. reflexivity. }
  assert (D0 : 1 <= IZR den <= 314572800) by (unfold den; split; apply IZR_le; lia).
  assert (I : 0 < / IZR den) by (apply Rinv_0_lt_compat; lra).
  assert (ND : IZR num <= IZR den) by (apply IZR_le; unfold num, den; lia).
  assert (N0 : num = 0%Z \/ (50 <= num)%Z) by (unfold num; lia).
  assert (U : r <= 1). { rewrite RE. apply Rmult_le_reg_r with (IZR den); [lra|]. unfold Rdiv. rewrite Rmult_assoc, Rinv_l by lra. lra. }
  assert (RV : r = 0 \/ / 8388608 <= r).
  { destruct N0 as [Z|P]; [left; rewrite RE, Z; unfold Rdiv; ring|right]. rewrite RE. apply Rle_trans with (50 * / IZR den); [|apply Rmult_le_compat_r; [lra|now apply IZR_le]].
    apply Rle_trans with (50 * / 314572800); [lra|]. apply Rmult_le_compat_l; [lra|]. apply Rinv_le_contravar; lra. }
  split; [|destruct RV; lra]. split; [|destruct RV; [now left|right; split; repeat pw; lra]].
  destruct RV as [Z|P].
  - rewrite Z. apply nr_exact0; [exact F|]. rewrite E, <- RE, Z. apply rnd64_0.
  - apply rel_nr. apply (rel_round e40 e40_in 0 _ _ r); [lra|lra|lra|apply mid_in; lra|lra|]. intros _. split; [exact F|]. now rewrite E, RE.
Qed.

(** ** Sliders *)
Definition nerf_f (sliders : Z) (sf : f64) (lost : Z) : f64 :=
  let eds := fmul (f_of_Z sliders) (fq 15 100) in
  fadd (fmul (fsub (fq 1 1) sf) (mpow (fsub (fq 1 1) (fdiv (clampF64 (f_of_Z lost) f0 eds) eds)) (fq 3 1))) sf.
Lemma cube_near x r : 0 <= r <= 1 -> 0 <= x -> Rabs (x - r) <= 10 * e40 -> Rabs (x ^ 3 - r ^ 3) <= 31 * e40.
Proof.
  intros R X D. replace (x ^ 3 - r ^ 3) with ((x - r) * (x * x + x * r + r * r)) by ring. pose proof D as D'. apply Rabs_le_inv in D'. assert (U : x <= 1001 / 1000) by (unfold e40 in D'; lra).
  assert (A : 0 <= x * x <= 1001 / 1000 * (1001 / 1000)) by (split; [apply Rmult_le_pos; lra|apply Rmult_le_compat; lra]). assert (B : 0 <= x * r <= 1001 / 1000 * 1) by (split; [apply Rmult_le_pos; lra|apply Rmult_le_compat; lra]). assert (C : 0 <= r * r <= 1 * 1) by (split; [apply Rmult_le_pos; lra|apply Rmult_le_compat; lra]).
  rewrite Rabs_mult, (Rabs_pos_eq (x * x + x * r + r * r)) by lra. apply Rle_trans with (10 * e40 * (31 / 10)); [|lra]. apply Rmult_le_compat; [apply Rabs_pos|lra|exact D|lra].
Qed.
Lemma cube_ab (x : f64) r : fin x -> 0 <= r <= 1 -> (B2R x = 0 \/ bpow radix2 (-60) <= B2R x) -> Rabs (B2R x - r) <= 10 * e40 -> ab 33 (mpow x (fq 3 1)) (r ^ 3).
Proof.
  intros F R X D. destruct e3 as (F3 & B3). assert (E3 : B2R (fq 3 1) = 3) by (destruct (fq1_exact 3) as (_ & E); [lia|exact E]).
  assert (X0 : 0 <= B2R x) by (destruct X as [->|X]; [lra|pose proof (bpow_gt_0 radix2 (-60)); lra]). pose proof (cube_near (B2R x) r R X0 D) as C. apply Rabs_le_inv in C. apply Rabs_le_inv in D. assert (U : B2R x <= 1001 / 1000) by (unfold e40 in D; lra).
  destruct X as [X|X].
  - destruct (close_zero PC x (fq 3 1) F F3 X) as (FP & EP); [lra|]. split; [exact FP|]. rewrite EP. rewrite X in C. replace (0 ^ 3) with 0 in C by ring. apply Rabs_le. unfold e40 in *. lra.
  - pose proof (bpow_gt_0 radix2 (-60)) as P. assert (PW : Rpower (B2R x) (B2R (fq 3 1)) = B2R x ^ 3) by (rewrite E3; replace 3 with (INR 3) by (cbn; lra); apply Rpower_pow; lra).
    assert (X3 : bpow radix2 (-60) * bpow radix2 (-60) * bpow radix2 (-60) <= B2R x ^ 3). { replace (B2R x ^ 3) with (B2R x * B2R x * B2R x) by ring. apply Rmult_le_compat; [apply Rmult_le_pos; lra|lra|apply Rmult_le_compat; lra|lra]. }
    assert (X3' : B2R x ^ 3 <= 1004 / 1000). { replace (B2R x ^ 3) with (B2R x * B2R x * B2R x) by ring. assert (A : B2R x * B2R x <= 1001 / 1000 * (1001 / 1000)) by (apply Rmult_le_compat; lra). assert (0 <= B2R x * B2R x) by (apply Rmult_le_pos; lra). apply Rle_trans with (1001 / 1000 * (1001 / 1000) * (1001 / 1000)); [apply Rmult_le_compat; lra|lra]. }
    rewrite <- !bpow_plus in X3. change (-60 + -60 + -60)%Z with (-180)%Z in X3. pose proof (bpow_gt_0 radix2 (-180)) as P8.
    destruct (close_pos PC x (fq 3 1) F F3) as (FP & BP); [lra|rewrite E3; rewrite Rabs_pos_eq; lra| |].
    + rewrite PW. split; [apply Rle_trans with (2 := X3); apply bpow_le; lia|]. apply Rle_trans with 2; [lra|]. change 2 with (bpow radix2 1). apply bpow_le. lia.
    + rewrite PW, b40 in BP. split; [exact FP|]. apply Rabs_le_inv in BP. assert (B2R x ^ 3 * e40 <= 1004 / 1000 * e40) by (apply Rmult_le_compat_r; [unfold e40; lra|lra]). apply Rabs_le. unfold e40 in *. lra.
Qed.
Lemma one_minus_gap (q : f64) : fin q -> 0 <= B2R q <= 1 -> fin (fsub (fq 1 1) q) /\ (B2R (fsub (fq 1 1) q) = 0 \/ bpow radix2 (-60) <= B2R (fsub (fq 1 1) q)) /\ Rabs (B2R (fsub (fq 1 1) q) - (1 - B2R q)) <= e40.
Proof.
  intros F B. destruct (fq1_exact 1) as (F1 & E1); [lia|].
  destruct (round_ab (fsub (fq 1 1) q) (1 - B2R q)) as (FS & BS); [rewrite Rabs_pos_eq; lra|intros Q; rewrite <- E1 in *; now apply fsub_fin|]. split; [exact FS|]. split; [|exact BS].
  destruct (fsub_fin (fq 1 1) q F1 F) as (_ & ES); [rewrite E1, Rabs_pos_eq by lra; apply Rle_trans with 1; [lra|change 1 with (bpow radix2 0); apply bpow_le; lia]|]. rewrite E1 in ES.
  destruct (Rle_lt_or_eq_dec (B2R q) 1 (proj2 B)) as [L|E]; [right|left; rewrite ES, E, Rminus_diag_eq by reflexivity; apply rnd64_0].
  assert (G : B2R q <= 1 - bpow radix2 (-53)).
  { change (bpow radix2 (-53)) with (bpow radix2 (SpecFloat.fexp 53 1024 0)). change 1 with (bpow radix2 0) at 1. rewrite <- pred_bpow. apply pred_ge_gt; [typeclasses eauto|apply generic_format_B2R|apply generic_format_bpow; cbn; lia|exact L]. }
  rewrite ES. apply Rle_trans with (bpow radix2 (-53)); [apply bpow_le; lia|]. apply round_ge_generic; [apply fexp_correct; reflexivity|apply valid_rnd_N|apply generic_format_bpow; cbn; lia|lra].
Qed.
Lemma nerf_nv sliders sf lost : (1 <= sliders <= 2 ^ 20)%Z -> within (/ 16) 1 sf -> (Z.abs lost <= 2 ^ 32)%Z -> nv 700 5 (nerf_f sliders sf lost) (SpecFormula.nerf (IZR sliders) (B2R sf) (IZR lost)).
Proof.
  intros HS (FF & BF) HL. unfold nerf_f, SpecFormula.nerf. cbv zeta. pose proof (total_bounds sliders HS) as SB. destruct (Rlt_dec 0 (IZR sliders)) as [_|N]; [|lra].
  assert (K : nv 1 3 (fq 15 100) (15 / 100)) by kv. assert (E : nv 2 23 (fmul (f_of_Z sliders) (fq 15 100)) (15 / 100 * IZR sliders)).
  { rewrite Rmult_comm. apply (nv_up (0 + 1 + 1) 2 (20 + 3) 23); [lra|lia|]. apply nv_mul; [unfold NN; lra|unfold NN; lra|lia|lia|lia|apply nv_int; lia|exact K]. }
  set (eds := fmul (f_of_Z sliders) (fq 15 100)) in *. set (hard := 15 / 100 * IZR sliders) in *. assert (HB : 15 / 100 <= hard <= 157287) by (unfold hard; lra).
  destruct (f_of_Z_exact lost ltac:(lia)) as (Fl & El). destruct (fmax_fin f0 (f_of_Z lost) eq_refl Fl) as (FM & EM). change (B2R f0) with 0 in EM. rewrite El in EM.
  assert (MZ : Rmax 0 (IZR lost) = IZR (Z.max 0 lost)). { destruct (Z.le_ge_cases 0 lost) as [L|L]; [rewrite Rmax_right, Z.max_r by (try apply IZR_le; lia); reflexivity|rewrite Rmax_left, Z.max_l by (try apply IZR_le; lia); reflexivity]. }
  assert (DM : nv 0 33 (fmax f0 (f_of_Z lost)) (Rmax 0 (IZR lost))) by (rewrite MZ; split; [apply nr_is; [exact FM|now rewrite EM|apply IZR_le; lia]|apply sz_int; lia]).
  assert (D : nv 2 33 (clampF64 (f_of_Z lost) f0 eds) (Rmin hard (Rmax 0 (IZR lost)))). { unfold clampF64. apply nv_min; [unfold NN; lra|apply (nv_up 2 2 23 33); [lra|lia|exact E]|apply (nv_up 0 2 33 33); [lra|lia|exact DM]]. }
  assert (DE : B2R (clampF64 (f_of_Z lost) f0 eds) <= B2R eds /\ 0 <= B2R (clampF64 (f_of_Z lost) f0 eds)).
  { unfold clampF64. destruct (fmin_fin eds _ (nv_fin _ _ _ _ E) FM) as (_ & ->). split; [apply Rmin_l|]. pose proof (nr_half 2 _ _ ltac:(unfold NN; lra) (proj1 E)) as Q. apply Rmin_glb; [lra|]. rewrite EM. apply Rmax_l. }
  pose proof (nr_half 2 _ _ ltac:(unfold NN; lra) (proj1 E)) as EP. set (dr := clampF64 (f_of_Z lost) f0 eds) in *. set (rd := Rmin hard (Rmax 0 (IZR lost))) in *.
  assert (RD : 0 <= rd <= hard) by (unfold rd; split; [apply Rmin_glb; [lra|apply Rmax_l]|apply Rmin_l]).
  assert (Q : nr 5 (fdiv dr eds) (rd / hard)). { apply (nr_up (2 + 2 + 1)); [lra|]. refine (proj1 (nv_div 2 2 33 23 _ _ _ _ _ _ _ D E _)); unfold NN; try lra; lia. }
  assert (IH : 0 < / hard) by (apply Rinv_0_lt_compat; lra). assert (QB : 0 <= rd / hard <= 1). { split; [apply Rmult_le_pos; lra|]. apply Rmult_le_reg_r with hard; [lra|]. unfold Rdiv. rewrite Rmult_assoc, Rinv_l by lra. lra. }
  assert (QF : 0 <= B2R (fdiv dr eds) <= 1).
  { assert (IE : 0 < / B2R eds) by (apply Rinv_0_lt_compat; lra). assert (X : 0 <= B2R dr / B2R eds <= 1). { split; [apply Rmult_le_pos; lra|]. apply Rmult_le_reg_r with (B2R eds); [lra|]. unfold Rdiv. rewrite Rmult_assoc, Rinv_l by lra. lra. }
    destruct (fdiv_fin dr eds (nv_fin _ _ _ _ D) (nv_fin _ _ _ _ E)) as (_ & EQ); [lra|rewrite Rabs_pos_eq by lra; apply Rle_trans with 1; [lra|change 1 with (bpow radix2 0); apply bpow_le; lia]|]. rewrite EQ. split; [apply rnd64_pos; lra|]. apply (rnd64_exact_Z 1); [lia|lra]. }
  set (q := fdiv dr eds) in *. set (rq := rd / hard) in *. destruct Q as (Fq & _ & Bq). destruct (one_minus_gap q Fq QF) as (FO & GO & BO).
  assert (BO' : Rabs (B2R (fsub (fq 1 1) q) - (1 - rq)) <= 10 * e40). { apply Rabs_le_inv in BO. apply Rabs_le. assert (5 * e40 * rq <= 5 * e40) by (unfold e40; lra). assert (0 <= 5 * e40 * rq) by (unfold e40; lra). unfold e40 in *. lra. }
  pose proof (cube_ab _ (1 - rq) FO ltac:(lra) GO BO') as C. assert (CB : 0 <= (1 - rq) ^ 3 <= 1). { assert (Z : 0 <= 1 - rq <= 1) by lra. split; [apply pow_le; lra|]. replace ((1 - rq) ^ 3) with ((1 - rq) * (1 - rq) * (1 - rq)) by ring. assert (0 <= (1 - rq) * (1 - rq) <= 1 * 1) by (split; [apply Rmult_le_pos; lra|apply Rmult_le_compat; lra]). replace 1 with (1 * 1 * 1) at 8 by ring. apply Rle_trans with (1 * 1); [|lra]. apply Rmult_le_compat; lra. }
  set (c3 := (1 - rq) ^ 3) in *. destruct (fq1_exact 1) as (F1 & E1); [lia|].
  assert (S1 : ab 1 (fsub (fq 1 1) sf) (1 - B2R sf)) by (apply (ab_up (0 + 0 + 1)); [lra|]; apply ab_sub; [now apply ab_is|now apply ab_is|rewrite Rabs_pos_eq; lra|unfold NN; lra]).
  assert (P : ab 36 (fmul (fsub (fq 1 1) sf) (mpow (fsub (fq 1 1) q) (fq 3 1))) ((1 - B2R sf) * c3)) by (apply (ab_up (1 * 1 + 33 * 1 + 2)); [lra|]; apply ab_mul; try assumption; unfold NN; try lra; rewrite Rabs_pos_eq; lra).
  assert (PB : 0 <= (1 - B2R sf) * c3 <= 1 * 1) by (split; [apply Rmult_le_pos; lra|apply Rmult_le_compat; lra]).
  split; [|size]. apply (ab_nr 40 700 (/ 16)); try lra. apply (ab_up (36 + 0 + 1)); [lra|]. apply ab_add; [exact P|now apply ab_is|rewrite Rabs_pos_eq; lra|unfold NN; lra].
Qed.

(** ** Accuracy in the speed value *)
Lemma speed_acc_nv acc r od : nv 1 23 acc r -> within (-40) 14 od -> nv 80 92 (mpow acc (fdiv (fsub (fq 145 10) (fmax od (fq 8 1))) (fq 2 1))) (rpow r ((145 / 10 - Rmax (B2R od) 8) / 2)).
Proof.
  intros A (F & B). destruct (fq1_exact 8) as (F8 & E8); [lia|]. destruct (fq1_exact 2) as (F2 & E2); [lia|]. destruct (fmax_fin od (fq 8 1) F F8) as (FM & EM). rewrite E8 in EM.
  assert (MB : 8 <= Rmax (B2R od) 8 <= 14) by (split; [apply Rmax_r|apply Rmax_lub; lra]). set (m := Rmax (B2R od) 8) in *.
  assert (K : ab (/ 100) (fq 145 10) (145 / 10)) by kab. assert (S : ab 2 (fsub (fq 145 10) (fmax od (fq 8 1))) (145 / 10 - m)) by (apply (ab_up (/ 100 + 0 + 1)); [lra|]; apply ab_sub; [exact K|now apply ab_is|rewrite Rabs_pos_eq; lra|unfold NN; lra]).
  set (x := fsub (fq 145 10) (fmax od (fq 8 1))) in *. destruct S as (FS & BS). apply Rabs_le_inv in BS. assert (XB : 0 <= B2R x <= 7) by (unfold e40 in BS; lra).
  destruct (round_ab (fdiv x (fq 2 1)) (B2R x / 2)) as (FD & BD); [rewrite Rabs_pos_eq; lra|intros Q; rewrite <- E2 in *; apply fdiv_fin; auto; lra|]. apply Rabs_le_inv in BD.
  apply (nv_pow PC 1 80 3 4 23); try assumption; try lia; unfold NN; try lra. apply Rabs_le. lra.
Qed.

(** ** 50s *)
Definition meh_f (meh total : Z) : f64 :=
  let h := fdiv (f_of_Z total) (fq 500 1) in mpow (fq 98 100) (if fge (f_of_Z meh) h then fsub (f_of_Z meh) h else f0).
Lemma meh_nv meh total : (0 <= meh <= 900)%Z -> (1 <= total <= 2 ^ 20)%Z -> nv 1100 60 (meh_f meh total) (Rpower (98 / 100) (Rmax 0 (IZR meh - IZR total / 500))).
Proof.
  intros HM T. pose proof (total_bounds total T) as TB. assert (mB : 0 <= IZR meh <= 900) by (split; apply IZR_le; lia). unfold meh_f. cbv zeta.
  destruct (f_of_Z_exact meh ltac:(lia)) as (Fm & Em). destruct (f_of_Z_exact total ltac:(lia)) as (Ft & Et). destruct (fq1_exact 500) as (F5 & E5); [lia|].
  destruct (round_ab (fdiv (f_of_Z total) (fq 500 1)) (IZR total / 500)) as (FD & BD); [rewrite Rabs_pos_eq; lra|intros Q; rewrite <- Et, <- E5 in *; apply fdiv_fin; auto; lra|]. set (h := fdiv (f_of_Z total) (fq 500 1)) in *. apply Rabs_le_inv in BD.
  set (s := Rmax 0 (IZR meh - IZR total / 500)). assert (SB : 0 <= s <= 900) by (unfold s; split; [apply Rmax_l|apply Rmax_lub; lra]).
  assert (X : ab 3 (if fge (f_of_Z meh) h then fsub (f_of_Z meh) h else f0) s).
  { change (fge (f_of_Z meh) h) with (fle h (f_of_Z meh)). destruct (fle h (f_of_Z meh)) eqn:G.
    - apply fle_iff in G as (_ & _ & G). rewrite (key_fin _ _ _ FD), (key_fin _ _ _ Fm), Em in G.
      assert (S : ab 2 (fsub (f_of_Z meh) h) (IZR meh - IZR total / 500)) by (apply (ab_up (0 + 1 + 1)); [lra|]; apply ab_sub; [now apply ab_is|split; [exact FD|apply Rabs_le; lra]|apply Rabs_le; unfold e40 in *; lra|unfold NN; lra]).
      destruct S as (FS & BS). split; [exact FS|]. apply Rabs_le_inv in BS. unfold s, Rmax. destruct (Rle_dec 0 (IZR meh - IZR total / 500)); apply Rabs_le; unfold e40 in *; lra.
    - apply fle_false in G; [|now apply fin_num|now apply fin_num]. rewrite (key_fin _ _ _ FD), (key_fin _ _ _ Fm), Em in G. apply zero_ab; [lra|]. rewrite Rabs_pos_eq by lra. unfold s, Rmax. destruct (Rle_dec 0 (IZR meh - IZR total / 500)); unfold e40 in *; lra. }
  set (x := if fge (f_of_Z meh) h then fsub (f_of_Z meh) h else f0) in *. destruct X as (FX & BX). assert (K : nr 1 (fq 98 100) (98 / 100)) by kst.
  assert (L : - / 40 <= ln (98 / 100) <= 0).
  { split; [|rewrite <- ln_1; apply ln_le'; lra]. assert (Q : - ln (98 / 100) <= / (98 / 100) - 1). { rewrite <- ln_Rinv by lra. pose proof (exp_ineq1_le (ln (/ (98 / 100)))) as Q. rewrite exp_ln in Q by (apply Rinv_0_lt_compat; lra). lra. } lra. }
  assert (PR : bpow radix2 (-60) <= Rpower (98 / 100) s <= bpow radix2 60).
  { unfold Rpower. rewrite !bpow_exp. assert (EX : forall a b, a <= b -> exp a <= exp b) by (intros a b [Q| ->]; [left; now apply exp_increasing|lra]). assert (SL : s * (- / 40) <= s * ln (98 / 100) <= 0). { split; [apply Rmult_le_compat_l; lra|]. assert (0 <= s * - ln (98 / 100)) by (apply Rmult_le_pos; lra). lra. }
    pose proof ln_lt_2 as L2. split; apply EX; lra. }
  split; [|right; exact PR]. apply rel_nr, (pow_rel PC 1 _ 3 999 1); try assumption; try (unfold NN; lra).
  - apply nr_rel; [exact K|lra].
  - rewrite Rabs_pos_eq; lra.
  - apply Rabs_le. lra.
  - apply (sz_mid 60); [now right|lia|unfold Rpower; apply exp_pos].
Qed.

(** ** The accuracy value *)
Definition judged_f (great ok meh total n : Z) : f64 :=
  let b := if (0 <? n)%Z then fdiv (f_of_Z (6 * (great - (total - n)) + 2 * ok + meh)) (fmul (f_of_Z n) (fq 6 1)) else f0 in if flt b f0 then f0 else b.
Definition judged_r (great ok meh total n : R) : R := if Rlt_dec 0 n then Rmax 0 ((6 * (great - (total - n)) + 2 * ok + meh) / (6 * n)) else 0.
Lemma judged_nv great ok meh total n : (0 <= great)%Z -> (0 <= ok)%Z -> (0 <= meh)%Z -> (great + ok + meh <= total)%Z -> (total <= 2 ^ 20)%Z -> (0 <= n <= 2 ^ 20)%Z ->
  nv 3 23 (judged_f great ok meh total n) (judged_r (IZR great) (IZR ok) (IZR meh) (IZR total) (IZR n)).
Proof.
  intros G O E S T N. unfold judged_f, judged_r. cbv zeta. set (num := (6 * (great - (total - n)) + 2 * ok + meh)%Z). assert (NB : (- 2 ^ 23 <= num <= 6 * n)%Z) by (unfold num; lia).
  assert (NR : 6 * (IZR great - (IZR total - IZR n)) + 2 * IZR ok + IZR meh = IZR num) by (unfold num; rewrite !plus_IZR, !mult_IZR, !minus_IZR; reflexivity). rewrite NR.
  destruct (Z.ltb_spec 0 n) as [P|P]; destruct (Rlt_dec 0 (IZR n)) as [P'|P'].
  - assert (nB : 1 <= IZR n <= 1048576) by (apply total_bounds; lia). destruct (f_of_Z_exact num ltac:(lia)) as (Fn & En). destruct (f_of_Z_exact n ltac:(lia)) as (FN & EN). destruct (fq1_exact 6) as (F6 & E6); [lia|].
    destruct (fmul_fin (f_of_Z n) (fq 6 1) FN F6) as (FM & EM); [rewrite EN, E6, Rabs_pos_eq by lra; apply Rle_trans with (bpow radix2 40); [repeat pw; lra|apply bpow_le; lia]|].
    assert (EM' : B2R (fmul (f_of_Z n) (fq 6 1)) = 6 * IZR n) by (rewrite EM, EN, E6, <- mult_IZR, rnd64_Z by lia; rewrite mult_IZR; ring).
    assert (I : / 6291456 <= / (6 * IZR n) <= / 6) by (split; apply Rinv_le_contravar; lra).
    destruct (Z.le_gt_cases 0 num) as [Q|Q].
    + assert (nn : 0 <= IZR num <= 6 * IZR n) by (split; [now apply IZR_le|rewrite <- mult_IZR; apply IZR_le; lia]). assert (Q0 : 0 <= IZR num / (6 * IZR n) <= 1). { split; [apply Rmult_le_pos; lra|]. apply Rmult_le_reg_r with (6 * IZR n); [lra|]. unfold Rdiv. rewrite Rmult_assoc, Rinv_l by lra. lra. }
      rewrite Rmax_right by lra. assert (A : nv 1 23 (fdiv (f_of_Z num) (fmul (f_of_Z n) (fq 6 1))) (IZR num / (6 * IZR n))).
      { split. 
        - apply (nr_up (0 + 0 + 1)); [lra|]. refine (proj1 (nv_div 0 0 23 23 _ _ _ _ _ _ _ _ _ _)); try (unfold NN; lra); try lia; [apply nv_int; lia|]. split; [apply nr_is; [exact FM|exact EM'|lra]|size].
        - destruct (Z.eq_dec num 0) as [->|NZ]; [left; unfold Rdiv; ring|right]. assert (n1 : 1 <= IZR num) by (apply IZR_le; lia). split; repeat pw; [|lra]. apply Rle_trans with (1 * / (6 * IZR n)); [lra|]. apply Rmult_le_compat_r; lra. }
      assert (B0 : 0 <= B2R (fdiv (f_of_Z num) (fmul (f_of_Z n) (fq 6 1)))) by (pose proof (nr_half 1 _ _ ltac:(unfold NN; lra) (proj1 A)) as Z; lra).
      destruct (flt _ f0) eqn:L; [apply flt_fin in L; [change (B2R f0) with 0 in L; lra|exact (nv_fin _ _ _ _ A)|reflexivity]|]. apply (nv_up 1 3 23 23); [lra|lia|exact A].
    + assert (nn : -8388608 <= IZR num <= -1) by (split; apply IZR_le; lia). assert (Q0 : -8388608 <= IZR num / (6 * IZR n) < 0).
      { assert (0 < IZR (- num) * / (6 * IZR n) <= 8388608 * / 6). { rewrite opp_IZR. split; [apply Rmult_lt_0_compat; lra|apply Rmult_le_compat; lra]. } rewrite opp_IZR in H. unfold Rdiv. lra. }
      rewrite Rmax_left by lra. destruct (fdiv_fin (f_of_Z num) (fmul (f_of_Z n) (fq 6 1)) Fn FM) as (FD & ED); [lra|rewrite En, EM'; apply Rle_trans with 8388608; [apply Rabs_le; lra|change 8388608 with (bpow radix2 23); apply bpow_le; lia]|]. rewrite En, EM' in ED.
      assert (LT : IZR num / (6 * IZR n) <= - / 6291456). { assert (1 * / 6291456 <= IZR (- num) * / (6 * IZR n)) by (rewrite opp_IZR; apply Rmult_le_compat; lra). rewrite opp_IZR in H. unfold Rdiv. lra. }
      assert (NEG : B2R (fdiv (f_of_Z num) (fmul (f_of_Z n) (fq 6 1))) < 0). { rewrite ED. pose proof (rnd64_err (IZR num / (6 * IZR n)) 23 ltac:(lia)) as Z. change (bpow radix2 23) with 8388608 in Z. specialize (Z ltac:(apply Rabs_le; lra)). change (bpow radix2 (23 - 53)) with (/ 1073741824) in Z. apply Rabs_le_inv in Z. lra. }
      rewrite (proj2 (flt_fin _ f0 FD eq_refl)) by (change (B2R f0) with 0; exact NEG). split; [apply nr_exact0; reflexivity|now left].
  - exfalso. apply P'. now apply IZR_lt.
  - exfalso. apply IZR_le in P. lra.
  - destruct (flt f0 f0); (split; [apply nr_exact0; reflexivity|now left]).
Qed.
Lemma od_pow_nv od : within (-40) 14 od -> nv 60 40 (mpow (fq 152163 100000) od) (Rpower (152163 / 100000) (B2R od)).
Proof.
  intros (F & B). assert (K : nr 1 (fq 152163 100000) (152163 / 100000)) by kst. assert (S : sz 1 (152163 / 100000)) by size.
  assert (P : bpow radix2 (- (40)) <= Rpower (152163 / 100000) (B2R od) <= bpow radix2 40) by (apply (Rpower_sz 1); [lra|exact S|lia|]; rewrite Rmult_1_l; apply Rabs_le; lra).
  split; [|right; exact P]. apply rel_nr, (pow_rel PC 1 _ 0 40 1); try assumption; try (unfold NN; lra).
  - apply nr_rel; [exact K|lra].
  - apply Rabs_le. lra.
  - apply Rabs_le. lra.
  - assert (P0 : 0 < 152163 / 100000) by lra. apply Rle_trans with (1 := ln_sz 1 _ P0 S). pose proof ln2_le. lra.
  - apply (sz_mid 40); [now right|lia|unfold Rpower; apply exp_pos].
Qed.
Lemma count_nv n : (0 <= n <= 2 ^ 20)%Z -> nv 5 10 (fmin (fq 115 100) (mpow (fdiv (f_of_Z n) (fq 1000 1)) (fq 3 10))) (Rmin (115 / 100) (rpow (IZR n / 1000) (3 / 10))).
Proof.
  intros N. apply nv_min; [unfold NN; lra|apply (nv_up 1 5 1 10); [lra|lia|kv]|]. destruct e03 as (F & E). assert (K : nv 0 10 (fq 1000 1) 1000) by kv.
  apply (nv_pow PC 1 5 (/ 1000) 1 30); try assumption; try lia; unfold NN; try lra. apply (nv_up (0 + 0 + 1) 1 (20 + 10) 30); [lra|lia|]. apply nv_div; [unfold NN; lra|unfold NN; lra|lia|apply nv_int; lia|exact K|lra].
Qed.

(** ** The flashlight's length bonus *)
Definition scale_f (total : Z) : f64 :=
  let s := fadd (fq 7 10) (fmul (fq 1 10) (fmin (fq 1 1) (fdiv (f_of_Z total) (fq 200 1)))) in
  if (200 <? total)%Z then fadd s (fmul (fq 2 10) (fmin (fq 1 1) (fdiv (f_of_Z (total - 200)) (fq 200 1)))) else s.
Definition scale_r (t : R) : R := 7 / 10 + 1 / 10 * Rmin 1 (t / 200) + 2 / 10 * Rmin 1 (Rmax 0 ((t - 200) / 200)).
Lemma share_ab z : (0 <= z <= 2 ^ 20)%Z -> ab 1 (fmin (fq 1 1) (fdiv (f_of_Z z) (fq 200 1))) (Rmin 1 (IZR z / 200)) /\ 0 <= Rmin 1 (IZR z / 200) <= 1.
Proof.
  intros Z. assert (zB : 0 <= IZR z <= 1048576) by (split; apply IZR_le; lia). assert (MB : 0 <= Rmin 1 (IZR z / 200) <= 1) by (split; [apply Rmin_glb; lra|apply Rmin_l]). split; [|exact MB]. assert (K : nv 0 8 (fq 200 1) 200) by kv.
  apply (nr_ab 1 1 1); [|lra|lra|lra]. refine (proj1 (nv_min 1 28 _ _ _ _ _ _ _)); [unfold NN; lra|apply (nv_up 0 1 0 28); [lra|lia|exact one_nv]|]. apply (nv_up (0 + 0 + 1) 1 (20 + 8) 28); [lra|lia|]. apply nv_div; [unfold NN; lra|unfold NN; lra|lia|apply nv_int; lia|exact K|lra].
Qed.
Lemma scale_nv t : (1 <= t <= 2 ^ 20)%Z -> nv 14 1 (scale_f t) (scale_r (IZR t)).
Proof.
  intros T. pose proof (total_bounds t T) as TB. unfold scale_f, scale_r. cbv zeta. assert (K7 : ab (/ 100) (fq 7 10) (7 / 10)) by kab. assert (K1 : ab (/ 100) (fq 1 10) (1 / 10)) by kab. assert (K2 : ab (/ 100) (fq 2 10) (2 / 10)) by kab.
  destruct (share_ab t ltac:(lia)) as (A & AB). set (m := Rmin 1 (IZR t / 200)) in *.
  assert (P : ab 3 (fmul (fq 1 10) (fmin (fq 1 1) (fdiv (f_of_Z t) (fq 200 1)))) (1 / 10 * m)) by (apply (ab_up (/ 100 * 1 + 1 * (1 / 10) + 2)); [lra|]; apply ab_mul; try assumption; unfold NN; try lra; rewrite Rabs_pos_eq; lra).
  assert (S : ab 5 (fadd (fq 7 10) (fmul (fq 1 10) (fmin (fq 1 1) (fdiv (f_of_Z t) (fq 200 1))))) (7 / 10 + 1 / 10 * m)) by (apply (ab_up (/ 100 + 3 + 1)); [lra|]; apply ab_add; [exact K7|exact P|rewrite Rabs_pos_eq; lra|unfold NN; lra]).
  destruct (Z.ltb_spec 200 t) as [L|L].
  - destruct (share_ab (t - 200) ltac:(lia)) as (B & BB). assert (tt : 200 < IZR t) by now apply IZR_lt. rewrite (Rmax_right 0) by lra. rewrite minus_IZR in B, BB. set (k := Rmin 1 ((IZR t - 200) / 200)) in *.
    assert (P2 : ab 3 (fmul (fq 2 10) (fmin (fq 1 1) (fdiv (f_of_Z (t - 200)) (fq 200 1)))) (2 / 10 * k)) by (apply (ab_up (/ 100 * 1 + 1 * (2 / 10) + 2)); [lra|]; apply ab_mul; try assumption; unfold NN; try lra; rewrite Rabs_pos_eq; lra).
    split; [|size]. apply (ab_nr 9 14 (7 / 10)); try lra. apply (ab_up (5 + 3 + 1)); [lra|]. apply ab_add; [exact S|exact P2|rewrite Rabs_pos_eq; lra|unfold NN; lra].
  - assert (tt : IZR t <= 200) by now apply IZR_le. rewrite (Rmax_left 0) by lra. rewrite Rmin_right by lra. rewrite Rmult_0_r, Rplus_0_r. split; [|size]. apply (ab_nr 5 14 (7 / 10)); try lra. exact S.
Qed.
Lemma half_acc_nv acc r : nv 1 23 acc r -> 0 <= r <= 1 -> nv 10 1 (fadd (fq 1 2) (fdiv acc (fq 2 1))) (5 / 10 + r / 2).
Proof.
  intros (A & _) R. split; [|size]. destruct (fq1_exact 2) as (F2 & E2); [lia|]. assert (K : ab (/ 100) (fq 1 2) (5 / 10)) by kab. destruct (nr_ab 1 1 1 acc r A ltac:(lra) ltac:(lra) ltac:(lra)) as (FA & BA). apply Rabs_le_inv in BA.
  destruct (round_ab (fdiv acc (fq 2 1)) (B2R acc / 2)) as (FD & BD); [apply Rabs_le; unfold e40 in BA; lra|intros Q; rewrite <- E2 in *; apply fdiv_fin; auto; lra|]. apply Rabs_le_inv in BD.
  apply (ab_nr 4 10 (5 / 10)); try lra. apply (ab_up (/ 100 + 2 + 1)); [lra|]. apply ab_add; [exact K|split; [exact FD|apply Rabs_le; lra]|rewrite Rabs_pos_eq; lra|unfold NN; lra].
Qed.

(** ** The final factor *)
Lemma nofail_nv eff : (0 <= eff <= 2 ^ 20)%Z -> nv 60000 1 (fmax (fq 90 100) (fsub (fq 1 1) (fmul (fq 2 100) (f_of_Z eff)))) (Rmax (9 / 10) (1 - 2 / 100 * IZR eff)).
Proof.
  intros E. assert (eB : 0 <= IZR eff <= 1048576) by (split; apply IZR_le; lia). assert (K9 : ab (/ 100) (fq 90 100) (9 / 10)) by kab. destruct (fq1_exact 1) as (F1 & E1); [lia|]. assert (K : nv 1 6 (fq 2 100) (2 / 100)) by kv.
  assert (P : nr 2 (fmul (fq 2 100) (f_of_Z eff)) (2 / 100 * IZR eff)) by (apply (nr_up (1 + 0 + 1)); [lra|]; refine (proj1 (nv_mul 1 0 6 20 _ _ _ _ _ _ _ _ _ K _)); try (unfold NN; lra); try lia; apply nv_int; lia).
  destruct (nr_ab 2 42000 20972 _ _ P ltac:(lra) ltac:(lra) ltac:(lra)) as (FP & BP). set (x := fmul (fq 2 100) (f_of_Z eff)) in *. apply Rabs_le_inv in BP.
  assert (XB : -1 <= B2R x <= 21000) by (unfold e40 in BP; lra). destruct (fsub_fin (fq 1 1) x F1 FP) as (FS & ES); [rewrite E1; apply Rle_trans with (bpow radix2 15); [apply Rabs_le; repeat pw; lra|apply bpow_le; lia]|]. rewrite E1 in ES.
  pose proof (rnd64_err (1 - B2R x) 15 ltac:(lia)) as RE. change (bpow radix2 15) with 32768 in RE. specialize (RE ltac:(apply Rabs_le; lra)). change (bpow radix2 (15 - 53)) with (/ 274877906944) in RE. rewrite <- ES in RE. apply Rabs_le_inv in RE.
  assert (S : ab 42010 (fsub (fq 1 1) x) (1 - 2 / 100 * IZR eff)) by (split; [exact FS|]; apply Rabs_le; unfold e40 in *; lra).
  assert (MB : 9 / 10 <= Rmax (9 / 10) (1 - 2 / 100 * IZR eff) <= 1) by (split; [apply Rmax_l|apply Rmax_lub; lra]). split; [|size]. apply (ab_nr 42010 60000 (9 / 10)); try lra. apply ab_max; [apply (ab_up (/ 100)); [lra|exact K9]|exact S].
Qed.
Lemma spun_nv sp total : (0 <= sp)%Z -> (2 * sp <= total)%Z -> (1 <= total <= 2 ^ 20)%Z -> nv 20 2 (fsub (fq 1 1) (mpow (fdiv (f_of_Z sp) (f_of_Z total)) (fq 85 100))) (1 - rpow (IZR sp / IZR total) (85 / 100)).
Proof.
  intros S S2 T. pose proof (total_bounds total T) as TB. assert (s0 : 0 <= IZR sp) by now apply IZR_le. assert (R : 0 <= IZR sp / IZR total <= / 2).
  { assert (H2 : 2 * IZR sp <= IZR total) by (rewrite <- mult_IZR; now apply IZR_le). split; [apply Rmult_le_pos; [lra|left; apply Rinv_0_lt_compat; lra]|]. apply Rmult_le_reg_r with (IZR total); [lra|]. unfold Rdiv. rewrite Rmult_assoc, Rinv_l by lra. lra. }
  pose proof (half_power _ (85 / 100) R ltac:(lra)) as HP. destruct e85 as (F & E). apply (compl_nv 5 20 40); try lra; [|unfold NN; lra].
  apply (nv_pow PC 1 5 (/ 1000) 1 40); try assumption; try lia; unfold NN; try lra. apply (nv_up (0 + 0 + 1) 1 (20 + 20) 40); [lra|lia|]. apply nv_div; [unfold NN; lra|unfold NN; lra|lia|apply nv_int; lia|apply nv_int; lia|lra].
Qed.
End WithLibm.

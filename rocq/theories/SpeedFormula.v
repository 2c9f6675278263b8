(** The speed strain of an object against its real formula. *)
From Coq Require Import Reals Lra ZArith Lia List Bool.
From Flocq Require Import Core BinarySingleNaN.
From Verif Require Import DiffCalc SpecPP SpecSane SpecFormula SpecSkill BaseLemmas FloatLemmas Float32Lemmas KeyLemmas LazyProofs SkillProofs PPProofs PPBounds ValueBounds RelLemmas RelPow FormulaParts UnitLemmas AimFormula.
Import ListNotations.
Open Scope R_scope.

Definition e50 : R := / 1125899906842624.
Lemma e50_pos : 0 < e50. Proof. unfold e50. lra. Qed.
Lemma e50_e40 : e50 * 1024 = e40. Proof. unfold e50, e40. lra. Qed.
Lemma mul50 n m x y r s : 0 <= n <= 100 -> 0 <= m <= 100 -> rel e50 n x r -> rel e50 m y s -> mid (r * s) -> rel e50 (n + m + 1) (fmul x y) (r * s).
Proof. apply rel_mul; unfold e50; lra. Qed.
Lemma div50 n m x y r s : 0 <= n <= 100 -> 0 <= m <= 100 -> rel e50 n x r -> rel e50 m y s -> mid (r / s) -> rel e50 (n + m + 1) (fdiv x y) (r / s).
Proof. apply rel_div; unfold e50; lra. Qed.
Lemma rel50_nr n m x r : rel e50 n x r -> n <= 1024 * m -> nr m x r.
Proof.
  intros (F & P & B) H. split; [exact F|]. split; [lra|]. assert (n * e50 * r <= m * e40 * r); [|lra]. apply Rmult_le_compat_r; [lra|]. rewrite <- e50_e40. replace (m * (e50 * 1024)) with (1024 * m * e50) by ring. apply Rmult_le_compat_r; [pose proof e50_pos; lra|exact H].
Qed.
(** the hit window at the clock rate *)
Lemma window_rel d : clocked d -> let w := B2R (d_Hit300 d) / B2R (d_Speed d) in rel e50 1 (fdiv (d_Hit300 d) (d_Speed d)) w /\ rel e50 2 (fmul (fdiv (d_Hit300 d) (d_Speed d)) (fq 2 1)) (w * 2) /\ 2 <= w <= 1024.
Proof.
  intros ((FH & BH) & (FS & BS) & _) w. assert (W : 2 <= w <= 1024).
  { unfold w. split; apply Rmult_le_reg_r with (B2R (d_Speed d)); try lra; unfold Rdiv; rewrite Rmult_assoc, Rinv_l, Rmult_1_r by lra; lra. }
  assert (A : rel e50 1 (fdiv (d_Hit300 d) (d_Speed d)) w). { apply (rel_up e50 ltac:(unfold e50; lra) (0 + 0 + 1)); [lra|]. apply div50; try lra; [split; [exact FH|lra]|split; [exact FS|lra]|apply mid_in; fold w; lra]. }
  split; [exact A|]. split; [|exact W]. destruct (fq1_exact 2) as (F2 & E2); [lia|]. destruct A as (FA & _ & BA). assert (B2 : bpow radix2 (-1022) <= Rabs (B2R (fdiv (d_Hit300 d) (d_Speed d)) * 2)) by (rewrite Rabs_pos_eq by (unfold e50 in BA; lra); apply Rle_trans with 1; [change 1 with (bpow radix2 0); apply bpow_le; lia|unfold e50 in BA; lra]).
  destruct (fmul_fin _ _ FA F2) as (FM & EM); [rewrite E2, Rabs_pos_eq by (unfold e50 in BA; lra); apply Rle_trans with (bpow radix2 20); [repeat pw; unfold e50 in BA; lra|apply bpow_le; lia]|]. split; [exact FM|]. split; [lra|]. rewrite EM, E2. pose proof (rel64 _ B2) as R. rewrite (Rabs_pos_eq (_ * 2)) in R by (unfold e50 in BA; lra). apply Rabs_le_inv in R. unfold e50 in *. lra.
Qed.

Section WithLibm.
Context {M : libm} (PC : pow_close).

(** ** Doubles *)
Lemma gap_ab w W st p : rel e50 2 w W -> 4 <= W <= 2048 -> within 25 (bpow radix2 20) st -> (forall x, p = Some x -> within 25 (bpow radix2 20) x) ->
  let x := match p with Some p => if flt st w && fgt p st then lerpF64 p st (fdiv st w) else st | None => st end in
  let r := doubles_gap W (B2R st) (option_map (@B2R 53 1024) p) in
  ab 6500 x r /\ 25 <= r <= 1048576.
Proof.
  change (bpow radix2 20) with 1048576. intros (FW & WP & WB) WW (FS & S) P x r. unfold x, r, doubles_gap. destruct p as [p|]; cbn [option_map]; [|split; [apply (ab_up 0); [lra|now apply ab_is]|lra]]. destruct (P p eq_refl) as (FP & BP).
  change (fgt p st) with (flt st p). pose proof e50_pos as E0. pose proof e40_pos as E40. pose proof e50_e40 as E54.
  assert (WE : 2 * e50 * W <= / 1000) by (unfold e50; lra). assert (WL : 0 < B2R w) by lra.
  destruct (flt st p) eqn:G2.
  2:{ rewrite andb_false_r. apply flt_fin_false in G2; auto. assert (R : (if Rlt_dec (B2R st) W then if Rlt_dec (B2R st) (B2R p) then B2R p + (B2R st - B2R p) * (B2R st / W) else B2R st else B2R st) = B2R st) by (destruct (Rlt_dec (B2R st) W); [destruct (Rlt_dec (B2R st) (B2R p)); [lra|reflexivity]|reflexivity]). rewrite R. split; [apply (ab_up 0); [lra|now apply ab_is]|lra]. }
  rewrite andb_true_r. apply flt_fin in G2; auto. destruct (Rlt_dec (B2R st) (B2R p)) as [G3|N]; [|lra]. clear G3.
  set (t := B2R st / W). assert (T0 : 0 < t) by (unfold t; apply Rdiv_lt_0_compat; lra). assert (TW : t * W = B2R st) by (unfold t; field; lra).
  (* the interpolation is close to the gap when the gap is close to the window *)
  assert (NEAR : Rabs (t - 1) <= 2 * e50 -> Rabs (B2R p + (B2R st - B2R p) * t - B2R st) <= 2048 * e40).
  { intros H. replace (B2R p + (B2R st - B2R p) * t - B2R st) with (- (B2R p - B2R st) * (t - 1)) by ring. rewrite Rabs_mult, Rabs_Ropp, (Rabs_pos_eq (B2R p - B2R st)) by lra.
    apply Rle_trans with (1048576 * (2 * e50)); [apply Rmult_le_compat; [lra|apply Rabs_pos|lra|exact H]|lra]. }
  assert (LERP : t <= 1 + 3 * e50 -> ab 4400 (lerpF64 p st (fdiv st w)) (B2R p + (B2R st - B2R p) * t)).
  { intros TU. assert (Q : rel e50 3 (fdiv st w) t). { apply (rel_up e50 ltac:(unfold e50; lra) (0 + 2 + 1)); [lra|]. apply div50; try lra; [split; [exact FS|lra]|split; [exact FW|lra]|]. fold t. apply mid_in. split; [|unfold e50 in TU; lra]. unfold t. apply Rmult_le_reg_r with W; [lra|]. unfold Rdiv. rewrite Rmult_assoc, Rinv_l, Rmult_1_r by lra. lra. }
    destruct Q as (FQ & _ & BQ). assert (Q' : ab (/ 200) (fdiv st w) t). { split; [exact FQ|]. apply Rabs_le. assert (3 * e50 * t <= 3 * e50 * (1 + 3 * e50)) by (apply Rmult_le_compat_l; lra). unfold e50, e40 in *. lra. }
    assert (D : ab 256 (fsub st p) (B2R st - B2R p)) by (apply (u_sub 2097152 256 0 0); try lra; [exact lim_2m|now apply ab_is|now apply ab_is|apply Rle_trans with (1048576 + 1); [|lra]; apply Rplus_le_compat_r, Rabs_le; lra]).
    unfold lerpF64. assert (PR : Rabs ((B2R st - B2R p) * t) <= 1048577) by (rewrite Rabs_mult; apply Rle_trans with (1048576 * (1 + 3 * e50)); [apply Rmult_le_compat; [apply Rabs_pos|apply Rabs_pos|apply Rabs_le; lra|rewrite Rabs_pos_eq; lra]|unfold e50; lra]).
    assert (K : ab 4100 (fmul (fsub st p) (fdiv st w)) ((B2R st - B2R p) * t)).
    { apply (u_mul 2097152 256 1048576 (11 / 10) 256 (/ 300)); try lra; [exact lim_2m|exact D| |apply Rabs_le; lra|rewrite Rabs_pos_eq; unfold e50 in TU; lra].
      split; [exact FQ|]. apply Rabs_le. assert (3 * e50 * t <= 3 * e50 * (1 + 3 * e50)) by (apply Rmult_le_compat_l; lra). unfold e50, e40 in *. lra. }
    apply (u_add 2097152 256 0 4100); try lra; [exact lim_2m|now apply ab_is|exact K|]. assert (NP : (B2R st - B2R p) * t <= 0) by (rewrite <- (Rmult_0_l t); apply Rmult_le_compat_r; lra). apply Rabs_le_inv in PR. assert (Rabs (B2R p + (B2R st - B2R p) * t) <= 1048577); [apply Rabs_le; lra|lra]. }
  assert (RB : t <= 1 -> 25 <= B2R p + (B2R st - B2R p) * t <= 1048576).
  { intros H. replace (B2R p + (B2R st - B2R p) * t) with (B2R st * t + B2R p * (1 - t)) by ring. assert (25 * t <= B2R st * t <= 1048576 * t) by (split; apply Rmult_le_compat_r; lra). assert (25 * (1 - t) <= B2R p * (1 - t) <= 1048576 * (1 - t)) by (split; apply Rmult_le_compat_r; lra). lra. }
  destruct (flt st w) eqn:G1; [apply flt_fin in G1|apply flt_fin_false in G1]; auto; destruct (Rlt_dec (B2R st) W) as [H|H]; fold t.
  - assert (t <= 1) by (apply Rmult_le_reg_r with W; lra). split; [apply (ab_up 4400); [lra|apply LERP; lra]|now apply RB].
  - assert (TU : 1 <= t <= 1 + 2 * e50). { split; apply Rmult_le_reg_r with W; try lra. } destruct (LERP ltac:(lra)) as (FL & BL). split; [|lra]. split; [exact FL|]. pose proof (NEAR ltac:(rewrite Rabs_pos_eq; lra)) as N. apply Rabs_le_inv in BL, N. apply Rabs_le. lra.
  - assert (TU : 1 - 2 * e50 <= t <= 1). { split; apply Rmult_le_reg_r with W; try lra. } split; [|apply RB; lra]. split; [exact FS|]. pose proof (NEAR ltac:(apply Rabs_le; lra)) as N. apply Rabs_le_inv in N. apply Rabs_le. lra.
  - split; [apply (ab_up 0); [lra|now apply ab_is]|lra].
Qed.

(** ** The capped gap *)
Lemma cap_nv w W x r : rel e50 2 w W -> 4 <= W <= 2048 -> ab 6500 x r -> 25 <= r <= 1048576 ->
  nv 525 21 (fdiv x (clampF64 (fdiv (fdiv x w) (fq 93 100)) (fq 92 100) (fq 1 1))) (capped_gap W r) /\ 25 <= capped_gap W r <= 1200000.
Proof.
  intros RW WW A R. assert (NX : nv 260 20 x r) by (split; [apply (ab_nr 6500 260 25); try lra; exact A|size]). assert (NW : nv 1 11 w W) by (split; [apply (rel50_nr 2); [exact RW|lra]|size]).
  assert (N93 : nv 1 1 (fq 93 100) (93 / 100)) by kv. assert (N92 : nv 264 32 (fq 92 100) (92 / 100)) by (apply (nv_up 1 264 1 32); [lra|lia|kv]). assert (N1 : nv 264 32 (fq 1 1) 1) by (apply (nv_up 0 264 0 32); [lra|lia|exact one_nv]).
  assert (NQ : nv 264 32 (fdiv (fdiv x w) (fq 93 100)) (r / W / (93 / 100))). { apply (nv_up (262 + 1 + 1) 264 (31 + 1) 32); [lra|lia|]. apply nv_div; try lia; try (unfold NN; lra); try exact N93; try lra. apply (nv_up (260 + 1 + 1) 262 (20 + 11) 31); [lra|lia|]. apply nv_div; try lia; try (unfold NN; lra); try assumption; lra. }
  unfold clampF64, capped_gap. set (c := Rmin 1 (Rmax (92 / 100) (r / W / (93 / 100)))). assert (C : 92 / 100 <= c <= 1). { unfold c. split; [apply Rmin_glb; [lra|apply Rmax_l]|apply Rmin_l]. }
  assert (NC : nv 264 32 (fmin (fq 1 1) (fmax (fq 92 100) (fdiv (fdiv x w) (fq 93 100)))) c). { apply nv_min; [unfold NN; lra|exact N1|]. apply nv_max; [unfold NN; lra|exact N92|exact NQ]. }
  destruct (nv_div 260 264 20 32 _ _ _ _ ltac:(unfold NN; lra) ltac:(unfold NN; lra) ltac:(lia) NX NC ltac:(lra)) as (N & _). assert (B : 25 <= r / c <= 1200000). { split; apply Rmult_le_reg_r with c; try lra; unfold Rdiv; rewrite Rmult_assoc, Rinv_l, Rmult_1_r by lra; lra. }
  split; [|exact B]. split; [apply (nr_up (260 + 264 + 1)); [lra|exact N]|size].
Qed.

(** ** The bonus of a short gap *)
Definition short_bonus (t : R) : R := if Rlt_dec t 75 then 1 + 3 / 4 * ((75 - t) / 40) ^ 2 else 1.
Lemma over_ab B c n N x y r s : lim B c -> ab n x r -> fin y -> B2R y = s -> 1 <= s -> Rabs (r / s) + 1 <= B -> 0 <= n <= 500000000000 -> n / s + c <= N -> ab N (fdiv x y) (r / s).
Proof.
  intros L (FX & BX) FY EY S QB H HC. pose proof e40_pos as E0. destruct H as (HN & H). apply u_half in H.
  assert (I : 0 < / s <= 1) by (split; [apply Rinv_0_lt_compat; lra|rewrite <- Rinv_1; apply Rinv_le_contravar; lra]).
  assert (W : Rabs (B2R x / B2R y - r / s) <= n / s * e40).
  { rewrite EY. replace (B2R x / s - r / s) with ((B2R x - r) * / s) by (field; lra). rewrite Rabs_mult, (Rabs_pos_eq (/ s)) by lra. replace (n / s * e40) with (n * e40 * / s) by (unfold Rdiv; ring). apply Rmult_le_compat_r; [lra|exact BX]. }
  assert (W1 : n / s * e40 <= / 2). { replace (n / s * e40) with (n * e40 * / s) by (unfold Rdiv; ring). apply Rle_trans with (n * e40 * 1); [apply Rmult_le_compat_l; [apply Rmult_le_pos; lra|lra]|lra]. }
  destruct (round_lim B c (fdiv x y) (B2R x / B2R y) L) as (F & E); [|intros G; apply fdiv_fin; auto; lra|].
  - replace (B2R x / B2R y) with (r / s + (B2R x / B2R y - r / s)) by ring. apply Rle_trans with (1 := Rabs_triang _ _). lra.
  - split; [exact F|]. assert ((n / s + c) * e40 <= N * e40) by (apply Rmult_le_compat_r; lra). apply Rabs_le_inv in E, W. apply Rabs_le. lra.
Qed.
Lemma bonus_ab x r : nr 525 x r -> 25 <= r <= 1200000 ->
  ab 2000 (if flt x (fq 75 1) then fadd (fq 1 1) (fmul (fq 3 4) (mpow (fdiv (fsub (fq 75 1) x) (fq 40 1)) (fq 2 1))) else fq 1 1) (short_bonus r) /\ 1 <= short_bonus r <= 22 / 10.
Proof.
  intros N R. pose proof N as (FX & _ & BX). destruct (fq1_exact 75) as (F75 & E75); [lia|]. destruct (fq1_exact 40) as (F40 & E40); [lia|]. pose proof e40_pos as E0.
  assert (RB : 1 <= short_bonus r <= 22 / 10). { unfold short_bonus. destruct (Rlt_dec r 75); [|lra]. assert (0 <= ((75 - r) / 40) ^ 2 <= (5 / 4) ^ 2) by (split; [apply pow2_ge_0|apply pow_incr; lra]). lra. }
  split; [|exact RB]. assert (AB : r < 76 -> ab 40000 x r) by (intros H; apply (nr_ab 525 40000 76); try lra; exact N).
  assert (SM : forall y, Rabs y <= 1001 * e40 -> y ^ 2 <= e40). { intros y Y. rewrite <- pow2_abs. apply Rle_trans with ((1001 * e40) ^ 2); [apply pow_incr; split; [apply Rabs_pos|exact Y]|unfold e40; lra]. }
  destruct (flt x (fq 75 1)) eqn:G; [apply flt_fin in G|apply flt_fin_false in G]; auto; rewrite E75 in G.
  - assert (R76 : r < 76) by (destruct (Rlt_le_dec r 76) as [H|H]; [exact H|]; assert (525 * e40 * r <= 525 * e40 * 1200000) by (apply Rmult_le_compat_l; lra); unfold e40 in *; lra). specialize (AB R76).
    assert (D : ab 40001 (fsub (fq 75 1) x) (75 - r)) by (apply (u_sub 8192 1 0 40000); try lra; [exact lim_8k|now apply ab_is|exact AB|apply Rle_trans with (51 + 1); [apply Rplus_le_compat_r, Rabs_le; lra|lra]]).
    set (y := (75 - r) / 40). assert (Q : ab 1001 (fdiv (fsub (fq 75 1) x) (fq 40 1)) y) by (apply (over_ab 8 (/ 1000) 40001); try lra; [exact lim_8|exact D|exact F40|fold y; assert (Rabs y <= 2) by (apply Rabs_le; unfold y; lra); lra]).
    assert (YB : - / 1000 <= y <= 5 / 4). { destruct AB as (_ & AB). apply Rabs_le_inv in AB. unfold y, e40 in *. lra. }
    destruct Q as (FQ & BQ). set (q := fdiv (fsub (fq 75 1) x) (fq 40 1)) in *. apply Rabs_le_inv in BQ.
    destruct (close_square PC q FQ) as (FP & BP); [apply Rle_trans with 2; [apply Rabs_le; unfold e40 in BQ; lra|change 2 with (bpow radix2 1); apply bpow_le; lia]|]. rewrite b40 in BP. assert (T : bpow radix2 (-1000) <= e40) by (rewrite <- b40; apply bpow_le; lia).
    assert (Q2 : B2R q ^ 2 <= 2). { rewrite <- pow2_abs. apply Rle_trans with ((13 / 10) ^ 2); [apply pow_incr; split; [apply Rabs_pos|apply Rabs_le; unfold e40 in BQ; lra]|lra]. }
    assert (P : ab 2610 (mpow q (fq 2 1)) (y ^ 2)). { split; [exact FP|]. replace (B2R (mpow q (fq 2 1)) - y ^ 2) with ((B2R (mpow q (fq 2 1)) - B2R q ^ 2) + (B2R q + y) * (B2R q - y)) by ring. apply Rle_trans with (1 := Rabs_triang _ _). rewrite Rabs_mult. assert (B2R q ^ 2 * e40 <= 2 * e40) by (apply Rmult_le_compat_r; lra). assert (Rabs (B2R q + y) * Rabs (B2R q - y) <= 26 / 10 * (1001 * e40)) by (apply Rmult_le_compat; [apply Rabs_pos|apply Rabs_pos|apply Rabs_le; unfold e40 in BQ; lra|apply Rabs_le; lra]). lra. }
    assert (Y2 : 0 <= y ^ 2 <= 2). { split; [apply pow2_ge_0|]. rewrite <- pow2_abs. apply Rle_trans with ((13 / 10) ^ 2); [apply pow_incr; split; [apply Rabs_pos|apply Rabs_le; lra]|lra]. }
    assert (MU : ab 1960 (fmul (fq 3 4) (mpow q (fq 2 1))) (3 / 4 * y ^ 2)). { apply (u_mul 8 (/ 1000) (3 / 4) 2 (/ 1000) 2610); try lra; [exact lim_8|uk|exact P|rewrite Rabs_pos_eq; lra|rewrite Rabs_pos_eq; lra]. }
    destruct (u_add 8 (/ 1000) 0 1960 1961 _ _ _ _ lim_8 one_ab MU) as (FA & BA); [rewrite Rabs_pos_eq; lra|lra|lra|]. split; [exact FA|]. unfold short_bonus. fold y. destruct (Rlt_dec r 75) as [H|H]; [lra|].
    assert (y ^ 2 <= e40). { apply SM. destruct AB as (_ & AB). apply Rabs_le_inv in AB, BA. apply Rabs_le. unfold y. lra. } apply Rabs_le_inv in BA. apply Rabs_le. lra.
  - destruct (fq1_exact 1) as (F1 & E1); [lia|]. unfold short_bonus. destruct (Rlt_dec r 75) as [H|H]; [|apply (ab_up 0); [lra|now apply ab_is]]. split; [exact F1|]. rewrite E1. destruct (AB ltac:(lra)) as (_ & AB'). apply Rabs_le_inv in AB'.
    assert (((75 - r) / 40) ^ 2 <= e40) by (apply SM, Rabs_le; lra). pose proof (pow2_ge_0 ((75 - r) / 40)). apply Rabs_le. lra.
Qed.

(** ** The strain *)
Theorem speed_ab d prev o : clocked d -> sane 16 o -> brisk o -> (forall p rest, prev = p :: rest -> sane 16 p /\ brisk p) -> base_spinner o = false ->
  ab 500 (Skills.speed_value d prev o) (speed_formula (2 * (B2R (d_Hit300 d) / B2R (d_Speed d))) (B2R (do_StrainTime o)) (match prev with p :: _ => Some (B2R (do_StrainTime p)) | [] => None end) (B2R (do_Travel o) + B2R (do_Jump o))).
Proof.
  intros CL S BR P NS. destruct (window_rel d CL) as (_ & RW & WB). set (W1 := B2R (d_Hit300 d) / B2R (d_Speed d)) in *. rewrite (Rmult_comm 2 W1). set (W := W1 * 2) in *. assert (WW : 4 <= W <= 2048) by (unfold W; lra). clearbody W1 W.
  unfold Skills.speed_value, speed_formula. rewrite NS. cbv zeta. set (w := fmul _ (fq 2 1)) in *. clearbody w.
  destruct (sane_16 o S) as (J & T & _ & (FS & BS)). unfold brisk in BR.
  destruct (gap_ab w W (do_StrainTime o) (match prev with p :: _ => Some (do_StrainTime p) | [] => None end) RW WW) as (GA & GB).
  { split; [exact FS|lra]. } { intros x E. destruct prev as [|p rest]; [discriminate|]. apply (f_equal (fun o => match o with Some x => x | None => x end)) in E. rewrite <- E. destruct (P p rest eq_refl) as (SP & BP). destruct (sane_16 p SP) as (_ & _ & _ & (FP & BP')). unfold brisk in BP. split; [exact FP|lra]. }
  set (G := doubles_gap W _ _) in GB, GA. assert (EG : doubles_gap W (B2R (do_StrainTime o)) (match prev with p :: _ => Some (B2R (do_StrainTime p)) | [] => None end) = G) by (unfold G; destruct prev; reflexivity). rewrite EG.
  set (g := match prev with [] => do_StrainTime o | p :: _ => if flt (do_StrainTime o) w && fgt (do_StrainTime p) (do_StrainTime o) then _ else do_StrainTime o end).
  assert (AG : ab 6500 g G). { destruct prev; exact GA. } clearbody g G. destruct (cap_nv w W g G RW WW AG GB) as (NT & TB). set (t := fdiv g _) in *. set (r := capped_gap W G) in *. clearbody t r.
  destruct (bonus_ab t r (proj1 NT) TB) as (BA & BB). set (b := if flt t (fq 75 1) then _ else _) in *. fold (short_bonus r). set (rb := short_bonus r) in *. clearbody b rb.
  assert (NB : nv 2000 2 b rb) by (split; [apply (ab_nr 2000 2000 1); try lra; exact BA|size]).
  pose proof (grain_sz _ J (sn_jump_grain _ _ S)) as NJ. pose proof (grain_sz _ T (sn_travel_grain _ _ S)) as NTR. destruct J as (_ & J). destruct T as (_ & T).
  assert (N125 : nv 0 7 (fq 125 1) 125) by kv.
  assert (ND : nv 1 150 (fmin (fq 125 1) (fadd (do_Travel o) (do_Jump o))) (Rmin 125 (B2R (do_Travel o) + B2R (do_Jump o)))). { apply nv_min; [unfold NN; lra|apply (nv_up 0 1 7 150); [lra|lia|exact N125]|]. apply (nv_up (0 + 1) 1 (149 + 1) 150); [lra|lia|]. apply nv_add; try assumption; try lia. unfold NN; lra. }
  set (D := Rmin 125 (B2R (do_Travel o) + B2R (do_Jump o))) in *. assert (DB : 0 <= D <= 125) by (unfold D; split; [apply Rmin_glb; lra|apply Rmin_l]).
  assert (NQ : nv 2 157 (fdiv (fmin (fq 125 1) (fadd (do_Travel o) (do_Jump o))) (fq 125 1)) (D / 125)). { apply (nv_up (1 + 0 + 1) 2 (150 + 7) 157); [lra|lia|]. apply nv_div; try lia; try (unfold NN; lra); try assumption; lra. }
  assert (NP : nv 20 550 (mpow (fdiv (fmin (fq 125 1) (fadd (do_Travel o) (do_Jump o))) (fq 125 1)) (fq 7 2)) (rpow (D / 125) (7 / 2))).
  { apply (nv_pow PC 2 20 (/ 1000) 4 157); try assumption; try lia; try (unfold NN; lra); [vm_compute; reflexivity|ex]. }
  assert (PB : 0 <= rpow (D / 125) (7 / 2) <= 1). { split; [apply rpow_nn|]. destruct (Rle_lt_or_eq_dec 0 (D / 125) ltac:(lra)) as [Q|Q]; [|rewrite <- Q, rpow_0; lra]. rewrite rpow_pos by exact Q. assert (Rpower 1 (7 / 2) = 1) by (unfold Rpower; rewrite ln_1, Rmult_0_r; apply exp_0). assert (Rpower (D / 125) (7 / 2) <= Rpower 1 (7 / 2)) by (apply Rle_Rpower_l; lra). lra. }
  set (pw := rpow (D / 125) (7 / 2)) in *. set (pf := mpow _ (fq 7 2)) in *. clearbody pw pf.
  assert (NM : nv 2021 552 (fmul b pf) (rb * pw)). { apply (nv_up (2000 + 20 + 1) 2021 (2 + 550) 552); [lra|lia|]. apply nv_mul; try lia; try (unfold NN; lra); assumption. }
  assert (NA : nv 2022 553 (fadd b (fmul b pf)) (rb + rb * pw)). { apply (nv_up (2021 + 1) 2022 (552 + 1) 553); [lra|lia|]. apply nv_add; try lia; try (unfold NN; lra); [|exact NM]. apply (nv_up 2000 2021 2 552); [lra|lia|exact NB]. }
  destruct (nv_div 2022 525 553 21 _ _ _ _ ltac:(unfold NN; lra) ltac:(unfold NN; lra) ltac:(lia) NA NT ltac:(lra)) as (NF & _).
  assert (RP : 0 <= rb * pw <= 22 / 10) by (split; [apply Rmult_le_pos; lra|apply Rle_trans with (22 / 10 * 1); [apply Rmult_le_compat; lra|lra]]).
  apply (nr_ab (2022 + 525 + 1) 500 (44 / 250)); try lra; [exact NF|]. apply Rle_trans with (44 / 10 / 25); [|lra]. apply over_le; lra.
Qed.
End WithLibm.

(** When the tick loop ends, and when it does not. *)
From Coq Require Import Reals Lra ZArith Lia Bool Permutation Sorted.
From Flocq Require Import Core BinarySingleNaN Plus_error Relative.
From Verif Require Import GoFloat Curves Objects SpecSliders BaseLemmas SortLemmas FloatLemmas Float32Lemmas KeyLemmas BoundLemmas CurveProofs TimingProofs SliderProofs.
Import ListNotations.
Open Scope R_scope.

(** ** Sums of two floats are accurate to one part in 2^53 *)
Lemma sum_err (x y : f64) : exists e, Rabs e <= bpow radix2 (-53) /\ rnd64 (B2R x + B2R y) = (B2R x + B2R y) * (1 + e).
Proof.
  destruct (FLT_plus_error_N_ex radix2 (-1074) 53 (fun x => negb (Z.even x)) (B2R x) (B2R y)) as (e & E & H).
  - apply (generic_format_B2R 53 1024).
  - apply (generic_format_B2R 53 1024).
  - exists e. split; [|exact H]. eapply Rle_trans; [exact E|]. eapply Rle_trans; [apply u_rod1pu_ro_le_u_ro|].
    unfold u_ro. replace (bpow radix2 (- (53) + 1)) with (bpow radix2 (-53) * 2); [lra|]. change 2 with (bpow radix2 1). rewrite <- bpow_plus. reflexivity.
Qed.

Section WithLibm.
Context {M : libm}.

Lemma ticks_end td len md : fin td -> fin len -> 0 < B2R td -> B2R len <= B2R td * bpow radix2 50 -> B2R len <= bpow radix2 128 ->
  forall n d, fin d -> B2R td <= B2R d -> B2R len - B2R d <= INR n * (B2R td / 2) -> exists ds, tick_distances td len md d ds.
Proof.
  intros Ft Fl Pt R B. induction n as [|n IH]; intros d Fd Ld H.
  - cbn [INR] in H. destruct (fle d len) eqn:E; [|exists []; constructor; auto]. destruct (fge d (fsub len md)) eqn:E2; [exists []; constructor; auto|].
    exists [d]. constructor; auto. constructor. left. apply fle_B2R in E; auto.
    assert (d = len \/ B2R d = B2R len) by (right; lra).
    destruct (sum_err d td) as (e & Be & Ve).
    destruct (fadd_fin d td Fd Ft) as [Fs Vs].
    { rewrite Rabs_pos_eq by lra. apply Rle_trans with (bpow radix2 128 + bpow radix2 128); [lra|]. rewrite <- (Rmult_1_r (bpow radix2 128)), <- Rmult_plus_distr_l. change (1 + 1) with (bpow radix2 1). rewrite <- bpow_plus. apply bpow_le. lia. }
    destruct (fle (fadd d td) len) eqn:E3; [|reflexivity]. exfalso. apply fle_B2R in E3; auto. rewrite Vs, Ve in E3.
    apply Rabs_le_inv in Be. assert (K : bpow radix2 (-53) * bpow radix2 50 = / 8) by (rewrite <- bpow_plus; reflexivity).
    pose proof (bpow_gt_0 radix2 (-53)). pose proof (bpow_gt_0 radix2 50).
    assert (S : B2R d * bpow radix2 (-53) <= B2R td / 8).
    { apply Rle_trans with (B2R td * bpow radix2 50 * bpow radix2 (-53)); [apply Rmult_le_compat_r; lra|]. rewrite Rmult_assoc, (Rmult_comm (bpow radix2 50)), K. lra. }
    assert (bpow radix2 (-53) <= / 8) by (change (/ 8) with (bpow radix2 (-3)); apply bpow_le; lia). nra.
  - destruct (fle d len) eqn:E; [|exists []; constructor; auto]. destruct (fge d (fsub len md)) eqn:E2; [exists []; constructor; auto|].
    apply fle_B2R in E as E'; auto.
    destruct (sum_err d td) as (e & Be & Ve).
    destruct (fadd_fin d td Fd Ft) as [Fs Vs].
    { rewrite Rabs_pos_eq by lra. apply Rle_trans with (bpow radix2 128 + bpow radix2 128); [lra|]. rewrite <- (Rmult_1_r (bpow radix2 128)), <- Rmult_plus_distr_l. change (1 + 1) with (bpow radix2 1). rewrite <- bpow_plus. apply bpow_le. lia. }
    apply Rabs_le_inv in Be. assert (K : bpow radix2 (-53) * bpow radix2 50 = / 8) by (rewrite <- bpow_plus; reflexivity).
    pose proof (bpow_gt_0 radix2 (-53)). pose proof (bpow_gt_0 radix2 50).
    assert (S : B2R d * bpow radix2 (-53) <= B2R td / 8).
    { apply Rle_trans with (B2R td * bpow radix2 50 * bpow radix2 (-53)); [apply Rmult_le_compat_r; lra|]. rewrite Rmult_assoc, (Rmult_comm (bpow radix2 50)), K. lra. }
    assert (bpow radix2 (-53) <= / 8) by (change (/ 8) with (bpow radix2 (-3)); apply bpow_le; lia).
    assert (P : B2R d + B2R td / 2 <= B2R (fadd d td)) by (rewrite Vs, Ve; nra).
    destruct (IH (fadd d td) Fs ltac:(lra)) as (ds & D).
    { rewrite S_INR in H. lra. }
    exists (d :: ds). constructor; auto.
Qed.
Lemma ticks_terminate td len md : fin td -> fin len -> 0 < B2R td -> B2R len <= B2R td * bpow radix2 50 -> B2R len <= bpow radix2 128 ->
  exists ds, tick_distances td len md td ds.
Proof.
  intros Ft Fl Pt R B. destruct (archimed (2 * bpow radix2 50)) as [A _].
  apply (ticks_end td len md Ft Fl Pt R B (Z.to_nat (up (2 * bpow radix2 50))) td Ft (Rle_refl _)).
  pose proof (bpow_gt_0 radix2 50) as P. rewrite INR_IZR_INZ, Z2Nat.id. 2:{ apply le_IZR. lra. }
  assert (2 * bpow radix2 50 * (B2R td / 2) <= IZR (up (2 * bpow radix2 50)) * (B2R td / 2)) by (apply Rmult_le_compat_r; lra). lra.
Qed.

(** ** Non-positive steps *)
Definition npn (x : f64) : Prop := num x /\ key x <= 0.
Definition np (x : f64) : Prop := fisnan x = true \/ npn x.
Lemma npn_cases x : npn x -> x = B754_infinity true \/ (fin x /\ B2R x <= 0).
Proof.
  intros [N K]. destruct x as [s|[]| |s m e b]; try discriminate N; auto.
  - right. split; [reflexivity|]. cbn. lra.
  - exfalso. cbn [key] in K. pose proof (bpow_gt_0 radix2 1024). lra.
  - right. split; [reflexivity|]. exact K.
Qed.
Lemma npn_ninf : npn (B754_infinity true).
Proof. split; [reflexivity|]. cbn [key]. pose proof (bpow_gt_0 radix2 1024). lra. Qed.
Lemma npn_plus x y : npn x -> npn y -> npn (fadd x y).
Proof.
  intros Hx Hy. destruct (npn_cases x Hx) as [->|[Fx Px]], (npn_cases y Hy) as [->|[Fy Py]].
  - apply npn_ninf.
  - destruct y; try discriminate Fy; apply npn_ninf.
  - destruct x; try discriminate Fx; apply npn_ninf.
  - destruct (Bplus_ork 53 1024 x y Fx Fy) as [N K]. split; [exact N|]. unfold fadd. rewrite K. apply (ork_neg 53 1024). lra.
Qed.
Lemma npn_mul x y : npn x -> fin y -> 0 < B2R y -> npn (fmul x y).
Proof.
  intros Hx Fy Py. destruct (npn_cases x Hx) as [->|[Fx Px]].
  - destruct y as [s|s| |s m e b]; try discriminate Fy; [cbn in Py; lra|]. destruct s; [|apply npn_ninf].
    exfalso. cbn [B2R] in Py. assert (F2R (Float radix2 (cond_Zopp true (Z.pos m)) e) < 0) by (apply F2R_lt_0; reflexivity). lra.
  - destruct (Bmult_ork 53 1024 x y Fx Fy) as [N K]. split; [exact N|]. unfold fmul. rewrite K. apply (ork_neg 53 1024). nra.
Qed.
Lemma npn_div x y : npn x -> fin y -> 0 < B2R y -> npn (fdiv x y).
Proof.
  intros Hx Fy Py. destruct (npn_cases x Hx) as [->|[Fx Px]].
  - destruct y as [s|s| |s m e b]; try discriminate Fy; [cbn in Py; lra|]. destruct s; [|apply npn_ninf].
    exfalso. cbn [B2R] in Py. assert (F2R (Float radix2 (cond_Zopp true (Z.pos m)) e) < 0) by (apply F2R_lt_0; reflexivity). lra.
  - destruct (Bdiv_ork 53 1024 x y Fx ltac:(lra)) as [N K]. split; [exact N|]. unfold fdiv. rewrite K. apply (ork_neg 53 1024).
    assert (0 < / B2R y) by (now apply Rinv_0_lt_compat). unfold Rdiv. nra.
Qed.
Lemma np_mul_nn x y : np x -> nn y -> np (fmul x y).
Proof.
  intros [Nx|Hx] Hy; [left; destruct x; try discriminate Nx; destruct y; reflexivity|].
  destruct (nn_cases 53 1024 y Hy) as [->|[Fy Py]].
  - destruct (npn_cases x Hx) as [->|[Fx Px]]; [right; apply npn_ninf|].
    destruct x as [s|s| |s m e b]; try discriminate Fx; [left; reflexivity|]. destruct s; [right; apply npn_ninf|].
    exfalso. cbn [B2R] in Px. assert (0 < F2R (Float radix2 (cond_Zopp false (Z.pos m)) e)) by (apply F2R_gt_0; reflexivity). lra.
  - destruct (Rle_lt_or_eq_dec _ _ Py) as [Q|Q]; [right; now apply npn_mul|].
    destruct (npn_cases x Hx) as [->|[Fx Px]].
    + destruct y as [s|s| |s m e b]; try discriminate Fy; [left; reflexivity|]. exfalso. cbn [B2R] in Q. symmetry in Q. apply eq_0_F2R in Q. destruct s; discriminate.
    + right. destruct (Bmult_ork 53 1024 x y Fx Fy) as [N K]. split; [exact N|]. unfold fmul. rewrite K. apply (ork_neg 53 1024). nra.
Qed.

Lemma hang_loop td len md rev ss sp : npn td -> fin len -> 0 < B2R len -> np md -> forall fuel d, npn d -> tick_loop fuel d td len md rev ss sp = Hang.
Proof.
  intros Ht Fl Pl Hm.
  assert (BD : fisnan (fsub len md) = true \/ (num (fsub len md) /\ 0 < key (fsub len md))).
  { destruct Hm as [N|Hm]; [left; destruct len, md; try discriminate; reflexivity|]. right.
    destruct (npn_cases md Hm) as [->|[Fm Pm]].
    - destruct len; try discriminate Fl; (split; [reflexivity|]); cbn [fsub Bminus key]; apply bpow_gt_0.
    - destruct (Bminus_ork 53 1024 len md Fl Fm) as [N K]. split; [exact N|]. unfold fsub. rewrite K.
      apply Rlt_le_trans with (key len); [rewrite (key_fin 53 1024 len Fl); exact Pl|]. rewrite <- (ork_key 53 1024 len Fl). apply (ork_le 53 1024). lra. }
  induction fuel as [|fuel IH]; intros d Hd; cbn [tick_loop].
  all: assert (E1 : fle d len = true) by (apply fle_iff; split; [apply Hd|]; split; [now apply fin_num|]; rewrite (key_fin 53 1024 len Fl); destruct Hd; lra).
  all: assert (E2 : fge d (fsub len md) = false).
  1,3: destruct (fge d (fsub len md)) eqn:E; [|reflexivity]; exfalso; unfold fge in E; apply fle_iff in E as (N1 & N2 & K);
       destruct BD as [B|[B1 B2]]; [unfold num in N1; unfold fisnan in B; congruence|]; destruct Hd; lra.
  all: rewrite E1, E2. 1: reflexivity. rewrite (IH (fadd d td)); [reflexivity|]. now apply npn_plus.
Qed.

(** a timing with non-positive slider multiplier *)
Lemma step_npn tim tp sd : npn (t_SliderMult tim) -> fin (t_TickRate tim) -> 0 < B2R (t_TickRate tim) ->
  npn (tick_step tim tp sd) /\ (feq (get_beat_length tp) f0 = false -> np (get_velocity tim tp)).
Proof.
  intros Hs Ft Pt.
  assert (S : npn (get_scoring_distance tim)).
  { unfold get_scoring_distance. apply npn_div; auto. destruct (fq1_exact 100 ltac:(lia)) as [F1 V1]. 
    destruct (npn_cases _ Hs) as [E|[Fx Px]].
    - rewrite E. assert (X : fmul (fq 100 1) (B754_infinity true) = B754_infinity true) by (apply B2SF_eq; vm_compute; reflexivity). rewrite X. apply npn_ninf.
    - destruct (Bmult_ork 53 1024 (fq 100 1) (t_SliderMult tim) F1 Fx) as [N K]. split; [exact N|]. unfold fmul. rewrite K, V1. apply (ork_neg 53 1024). lra. }
  assert (T : npn (get_tick_distance tim tp)).
  { unfold get_tick_distance. destruct (ratio_range tp) as (_ & L & U). assert (FR : fin (get_ratio tp) /\ 0 < B2R (get_ratio tp)).
    { apply fle_iff in L as (_ & N & KL). apply fle_iff in U as (_ & _ & KU). 
      assert (V1 : key (fq 1 10) > 0) by (rewrite (key_fin 53 1024 (fq 1 10)) by (vm_compute; reflexivity); bval (fq 1 10); lra).
      assert (V2 : key (fq 10 1) = 10) by (rewrite (key_fin 53 1024 (fq 10 1)) by (vm_compute; reflexivity); bval (fq 10 1); lra).
      assert (F : fin (get_ratio tp)).
      { apply (fin_of_key 53 1024); auto. assert (10 < bpow radix2 1024) by (apply Rlt_le_trans with (bpow radix2 4); [cbn; lra|apply bpow_le; lia]). lra. }
      split; [exact F|]. rewrite <- (key_fin 53 1024 _ F). lra. }
    destruct FR. now apply npn_div. }
  split.
  - unfold tick_step. destruct (ggt _ _ && _) eqn:E; [|exact T]. apply andb_true_iff in E as [_ E]. unfold fgt in E. apply flt_iff in E as (N1 & N2 & K).
    split; [exact N1|]. destruct T. lra.
  - intros NZ. unfold get_velocity. assert (V : npn (fmul (get_scoring_distance tim) (t_TickRate tim))) by now apply npn_mul.
    destruct (fge (get_beat_length tp) f0) eqn:E; [|now right]. apply np_mul_nn; [now right|].
    unfold fge in E. apply fle_iff in E as (_ & N & K). cbn [key B2R f0] in K.
    destruct (nn_cases 53 1024 (get_beat_length tp) (conj N K)) as [E|[F P]].
    + rewrite E. split; [reflexivity|]. cbn. lra.
    + assert (NB : B2R (get_beat_length tp) <> 0).
      { intros Z. assert (feq (get_beat_length tp) f0 = true); [|congruence]. apply feq_iff. split; [exact N|]. split; [reflexivity|]. rewrite (key_fin 53 1024 _ F), Z. reflexivity. }
      destruct (fq1_exact 1000 ltac:(lia)) as [F1 V1]. destruct (Bdiv_ork 53 1024 (fq 1000 1) _ F1 NB) as [N2 K2]. split; [exact N2|]. unfold fdiv. rewrite K2, V1.
      apply (ork_pos 53 1024). apply Rlt_le, Rdiv_lt_0_compat; lra.
Qed.
Theorem set_timing_hangs tim o sd tp : get_point_at tim (ho_start o) = Ok tp -> fisnan (get_raw_beat_length tp) = false ->
  feq (get_beat_length tp) f0 = false -> npn (t_SliderMult tim) -> fin (t_TickRate tim) -> 0 < B2R (t_TickRate tim) ->
  fin (mc_length (sl_curve sd)) -> 0 < B2R (mc_length (sl_curve sd)) -> (1 <= sl_repeat sd)%Z ->
  forall fuel, slider_set_timing fuel tim o sd = Hang.
Proof.
  intros EP NR NB Hs Ft Pt Fc Pc Hr fuel. destruct (step_npn tim tp sd Hs Ft Pt) as [HT HV]. specialize (HV NB).
  unfold slider_set_timing. rewrite EP. cbn [bind]. fold (tick_step tim tp sd). rewrite NR.
  destruct (Z.to_nat (sl_repeat sd)) as [|n] eqn:En; [lia|]. cbn [seq mapM]. unfold span_ticks at 1.
  destruct (f_of_g_fin _ Fc) as [Fl Vl].
  rewrite hang_loop; [reflexivity|exact HT|exact Fl|rewrite Vl; exact Pc| |exact HT].
  apply np_mul_nn; [exact HV|]. split; [reflexivity|]. rewrite (key_fin 53 1024) by (vm_compute; reflexivity). bval (fq 1 100). lra.
Qed.
Theorem set_timing_returns tim o sd tp : get_point_at tim (ho_start o) = Ok tp ->
  fin (tick_step tim tp sd) -> 0 < B2R (tick_step tim tp sd) -> fin (mc_length (sl_curve sd)) ->
  B2R (mc_length (sl_curve sd)) <= B2R (tick_step tim tp sd) * bpow radix2 50 -> built (sl_curve sd) ->
  exists fuel0, forall fuel, (fuel0 <= fuel)%nat -> exists o', slider_set_timing fuel tim o sd = Ok o'.
Proof.
  intros EP Ft Pt Fc R (ls & p & B). destruct (f_of_g_fin _ Fc) as [Fl Vl].
  destruct (ticks_terminate (tick_step tim tp sd) (f_of_g (mc_length (sl_curve sd))) (fmul (get_velocity tim tp) (fq 1 100)) Ft Fl Pt) as (ds & D).
  { now rewrite Vl. } { rewrite Vl. pose proof (B2R_lt 24 128 _ Fc). lra. }
  exists (length ds). intros fuel L. unfold slider_set_timing. rewrite EP. cbn [bind]. fold (tick_step tim tp sd).
  match goal with |- context [mapM ?f ?l] => assert (MO : exists r, mapM f l = Ok r) end.
  { generalize (seq 0 (Z.to_nat (sl_repeat sd))). induction l as [|i l IH]; [eexists; reflexivity|]. cbn [mapM].
    unfold span_ticks at 1. destruct (fisnan (get_raw_beat_length tp)).
    - cbn [bind]. destruct IH as (r & ->). eexists. reflexivity.
    - rewrite (tick_loop_complete _ _ _ _ _ _ _ _ D fuel L). cbn [bind]. destruct IH as (r & ->). eexists. reflexivity. }
  destruct MO as (r & ->). cbn [bind]. unfold slider_position_at. destruct (is_retarded _ _); cbn [bind]; [eexists; reflexivity|].
  cbn [sl_curve]. rewrite B. match goal with |- context [mc_point_at _ ?t] => destruct (point_at_total ls p t) as (q & ->) end. eexists. reflexivity.
Qed.
End WithLibm.

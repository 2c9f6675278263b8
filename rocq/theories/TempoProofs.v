(** Velocities and tick distances against the real formulas. *)
From Coq Require Import Reals Lra ZArith Lia Bool.
From Flocq Require Import Core BinarySingleNaN.
From Verif Require Import GoFloat Timing Difficulty SpecTerm SpecTempo BaseLemmas FloatLemmas Float32Lemmas KeyLemmas TimingProofs TermProofs PPProofs RelLemmas PlayTiming.
Open Scope R_scope.

Definition e26 : R := / 67108864.
Lemma e26_in : / 1125899906842624 <= e26 <= / 2097152.
Proof. unfold e26. lra. Qed.
Lemma mul26 n m x y r s : 0 <= n <= 200 -> 0 <= m <= 200 -> rel e26 n x r -> rel e26 m y s -> mid (r * s) -> rel e26 (n + m + 1) (fmul x y) (r * s).
Proof. apply rel_mul; unfold e26; lra. Qed.
Lemma div26 n m x y r s : 0 <= n <= 200 -> 0 <= m <= 200 -> rel e26 n x r -> rel e26 m y s -> mid (r / s) -> rel e26 (n + m + 1) (fdiv x y) (r / s).
Proof. apply rel_div; unfold e26; lra. Qed.
Lemma pos26 n x r : 0 <= n <= 200 -> rel e26 n x r -> r * / 2 <= B2R x <= r * 2.
Proof. apply rel_pos; unfold e26; lra. Qed.
Lemma stretch_range b : / 10 <= stretch b <= 10.
Proof. unfold stretch. destruct (Rle_dec 0 b); [lra|]. unfold Rmin, Rmax. destruct (Rle_dec 10 (- b)); destruct (Rle_dec 1000 _); lra. Qed.
Lemma stretched_range p m : stretched p m -> / 10 <= m <= 10.
Proof. intros [(_ & ->)|(_ & ->)]; [lra|apply stretch_range]. Qed.
(** float32 rounding of a number of everyday size *)
Lemma near32 x : / 1000000000000000000 <= x <= 1000000000000000000 -> x - x * / 16777216 <= rnd32 x <= x + x * / 16777216.
Proof.
  intros B. assert (L : bpow radix2 (-126) <= Rabs x). { rewrite Rabs_pos_eq by lra. apply Rle_trans with (bpow radix2 (-60)); [apply bpow_le; lia|change (bpow radix2 (-60)) with (/ 1152921504606846976); lra]. }
  pose proof (rnd32_rel x L) as R. rewrite (Rabs_pos_eq x) in R by lra. change (bpow radix2 (-24)) with (/ 16777216) in R. apply Rabs_le_inv in R. lra.
Qed.
Lemma top32 x : Rabs x <= 2000000000000000000 -> Rabs x <= bpow radix2 127.
Proof. intros H. apply Rle_trans with (1 := H). apply Rle_trans with (bpow radix2 61); [change (bpow radix2 61) with 2305843009213693952; lra|apply bpow_le; lia]. Qed.

Lemma ratio_rel p m : stretched p m -> rel e26 9 (get_ratio p) m.
Proof.
  intros [(N & ->)|(F & ->)].
  - destruct (ratio_range p) as (R & _). rewrite R by (right; exact N). destruct (fq1_exact 1 ltac:(lia)) as (F1 & E1). apply (rel_up e26 e26_in 0); [lra|]. apply rel_is; [exact F1|exact E1|lra].
  - unfold stretch. destruct (Rle_dec 0 (B2R (cp_beat p))) as [P|P].
    + destruct (ratio_range p) as (R & _). rewrite R. { destruct (fq1_exact 1 ltac:(lia)) as (F1 & E1). apply (rel_up e26 e26_in 0); [lra|]. apply rel_is; [exact F1|exact E1|lra]. }
      left. apply fge_iff. split; [now apply (fin_num 53 1024)|]. split; [reflexivity|]. rewrite (key_fin 53 1024 _ F). exact P.
    + unfold get_ratio. assert (E : fge (cp_beat p) f0 || fisnan (cp_beat p) = false).
      { apply orb_false_iff. split; [|now apply (fin_num 53 1024)]. destruct (fge (cp_beat p) f0) eqn:G; [|reflexivity]. apply fge_iff in G as (_ & _ & G). rewrite (key_fin 53 1024 _ F) in G. change (key f0) with 0 in G. lra. }
      rewrite E. clear E. set (b := cp_beat p) in *. clearbody b. destruct (fneg_fin b F) as (Fn & En). destruct (fq1_exact 10 ltac:(lia)) as (F10 & V10). destruct (fq1_exact 1000 ltac:(lia)) as (F1000 & V1000).
      unfold clampF64. destruct (fmax_fin (fq 10 1) (fneg b) F10 Fn) as (Fm & Em). destruct (fmin_fin (fq 1000 1) _ F1000 Fm) as (Fc & Ec). rewrite Em, En, V10, V1000 in Ec. set (c := fmin _ _) in *. clearbody c. clear Fm Em.
      set (r := Rmin 1000 (Rmax 10 (- B2R b))) in *. assert (Br : 10 <= r <= 1000) by (unfold r, Rmin, Rmax; destruct (Rle_dec 10 (- B2R b)); destruct (Rle_dec 1000 _); lra). clearbody r.
      destruct (g_of_f_fin c Fc) as (Fg & Eg); [rewrite Ec; apply top32; rewrite Rabs_pos_eq; lra|]. rewrite Ec in Eg. pose proof (near32 r ltac:(lra)) as N1. rewrite <- Eg in N1. set (g := g_of_f c) in *. clearbody g.
      destruct (gq1_exact 100 ltac:(lia)) as (FC & EC). destruct (gdiv_fin g (gq 100 1) Fg FC) as (Fd & Ed); [rewrite EC; lra|rewrite EC; apply top32; rewrite Rabs_pos_eq; lra|]. rewrite EC in Ed.
      pose proof (near32 (B2R g / 100) ltac:(lra)) as N2. rewrite <- Ed in N2. destruct (f_of_g_fin _ Fd) as (FF & EF). split; [exact FF|]. split; [lra|]. rewrite EF. unfold e26. lra.
Qed.

Section Tim.
Context (tim : timings) (tp : cpoint) (m : R) (HS : moderate (t_SliderMult tim)) (HT : moderate (t_TickRate tim)) (HM : stretched tp m).
Local Notation SM := (B2R (t_SliderMult tim)). Local Notation TR := (B2R (t_TickRate tim)). Local Notation base := (B2R (cp_base tp)).
Local Ltac up n := apply (rel_up e26 e26_in n); [lra|].
Lemma q_rel a b la ha lb hb : 0 < la -> 0 < lb -> la <= a <= ha -> lb <= b <= hb -> / 1000000000000000000 <= la / hb -> ha / lb <= 1000000000000000000 -> mid (a / b).
Proof. intros A B Ha Hb L U. apply mid_in. destruct (quot_in a b la ha lb hb ltac:(lra) B Ha Hb). lra. Qed.
Lemma scoring_rel : rel e26 2 (get_scoring_distance tim) (100 * SM / TR).
Proof.
  destruct (moderate_val _ HS) as (FS & BS). destruct (moderate_val _ HT) as (FT & BT). unfold get_scoring_distance. destruct (fq1_exact 100 ltac:(lia)) as (FC & EC).
  up (0 + 0 + 1 + 0 + 1). apply (div26 (0 + 0 + 1) 0); [lra|lra| |apply rel_exact; [exact FT|lra]|apply (q_rel _ _ (25 / 4) 1600 (/ 16) 16); lra].
  apply (mul26 0 0); [lra|lra|apply rel_is; [exact FC|exact EC|lra]|apply rel_exact; [exact FS|lra]|apply mid_in; lra].
Qed.
Lemma plain_rel : rel e26 3 (fmul (get_scoring_distance tim) (t_TickRate tim)) (100 * SM).
Proof.
  destruct (moderate_val _ HS) as (FS & BS). destruct (moderate_val _ HT) as (FT & BT). up (2 + 0 + 1). apply (rel_eq e26 _ _ (100 * SM / TR * TR)); [field; lra|].
  apply (mul26 2 0); [lra|lra|exact scoring_rel|apply rel_exact; [exact FT|lra]|]. replace (100 * SM / TR * TR) with (100 * SM) by (field; lra). apply mid_in. lra.
Qed.
Lemma distance_rel : rel e26 12 (get_tick_distance tim tp) (100 * SM / (TR * m)).
Proof.
  destruct (moderate_val _ HS) as (FS & BS). destruct (moderate_val _ HT) as (FT & BT). pose proof (stretched_range _ _ HM) as Bm. unfold get_tick_distance. up (2 + 9 + 1).
  apply (rel_eq e26 _ _ (100 * SM / TR / m)); [field; lra|]. apply (div26 2 9); [lra|lra|exact scoring_rel|now apply ratio_rel|].
  destruct (quot_in (100 * SM) TR (25 / 4) 1600 (/ 16) 16 ltac:(lra) ltac:(lra) ltac:(lra) ltac:(lra)) as (X & Y). apply (q_rel _ _ (25 / 64) 25600 (/ 10) 10); lra.
Qed.
Context (FB : fin (cp_base tp)) (HB : / 1024 <= base <= 65536).
Lemma beat_range : / 10240 <= base * m <= 655360.
Proof. pose proof (stretched_range _ _ HM) as Bm. split; [apply Rle_trans with (/ 1024 * / 10); [lra|]|apply Rle_trans with (65536 * 10); [|lra]]; apply Rmult_le_compat; lra. Qed.
Lemma beat_rel : rel e26 10 (get_beat_length tp) (base * m).
Proof.
  unfold get_beat_length. up (0 + 9 + 1). pose proof beat_range. apply (mul26 0 9); [lra|lra|apply rel_exact; [exact FB|lra]|now apply ratio_rel|apply mid_in; lra].
Qed.
Lemma bps_rel : rel e26 11 (fdiv (fq 1000 1) (get_beat_length tp)) (1000 / (base * m)).
Proof.
  destruct (fq1_exact 1000 ltac:(lia)) as (FK & EK). pose proof beat_range. up (0 + 10 + 1). apply (div26 0 10); [lra|lra|apply rel_is; [exact FK|exact EK|lra]|exact beat_rel|apply (q_rel _ _ 1000 1000 (/ 10240) 655360); lra].
Qed.
Lemma bps_range : 1000 / 655360 <= 1000 / (base * m) <= 10240000.
Proof. pose proof beat_range. destruct (quot_in 1000 (base * m) 1000 1000 (/ 10240) 655360 ltac:(lra) ltac:(lra) ltac:(lra) ltac:(lra)). lra. Qed.
Definition pace : R := 100 * SM * (1000 / (base * m)).
Lemma pace_range : / 1000 <= pace <= 100000000000.
Proof. destruct (moderate_val _ HS) as (FS & BS). pose proof bps_range. unfold pace. split; [apply Rle_trans with (25 / 4 * (1000 / 655360)); [lra|]|apply Rle_trans with (1600 * 10240000); [|lra]]; apply Rmult_le_compat; lra. Qed.
Lemma velocity_rel : rel e26 15 (get_velocity tim tp) pace.
Proof.
  unfold get_velocity. cbv zeta. assert (G : fge (get_beat_length tp) f0 = true).
  { destruct beat_rel as (F & P & B). pose proof (pos26 10 _ _ ltac:(lra) beat_rel) as RP. apply fge_iff. split; [now apply (fin_num 53 1024)|]. split; [reflexivity|]. rewrite (key_fin 53 1024 _ F). change (key f0) with 0. lra. }
  rewrite G. pose proof pace_range. up (3 + 11 + 1). apply (mul26 3 11); [lra|lra|exact plain_rel|exact bps_rel|apply mid_in; unfold pace in *; lra].
Qed.
(** n spans of len pixels *)
Lemma slide_rel len n k : fin len -> / 1000000 <= B2R len <= 1000000 -> fin n -> B2R n = k -> 1 <= k <= 100000 ->
  rel e26 17 (fdiv (fmul len (fq 1000 1)) (get_velocity tim tp)) (slide_time SM base m (B2R len)) /\
  rel e26 18 (fdiv (fmul (fmul len (fq 1000 1)) n) (get_velocity tim tp)) (k * slide_time SM base m (B2R len)).
Proof.
  intros FL BL FN EN BN. destruct (fq1_exact 1000 ltac:(lia)) as (FK & EK). destruct (moderate_val _ HS) as (FS & BS). pose proof beat_range as BR. pose proof pace_range as PR. pose proof (stretched_range _ _ HM) as Bm.
  assert (R1 : rel e26 1 (fmul len (fq 1000 1)) (B2R len * 1000)). { up (0 + 0 + 1). apply (mul26 0 0); [lra|lra|apply rel_exact; [exact FL|lra]|apply rel_is; [exact FK|exact EK|lra]|apply mid_in; lra]. }
  assert (BK : / 1000000 <= B2R len * k <= 100000000000). { split; [apply Rle_trans with (/ 1000000 * 1); [lra|]|apply Rle_trans with (1000000 * 100000); [|lra]]; apply Rmult_le_compat; lra. }
  split.
  - up (1 + 15 + 1). apply (rel_eq e26 _ _ (B2R len * 1000 / pace)); [unfold pace, slide_time; field; lra|]. apply (div26 1 15); [lra|lra|exact R1|exact velocity_rel|apply (q_rel _ _ (/ 1000) 1000000000 (/ 1000) 100000000000); lra].
  - up (1 + 0 + 1 + 15 + 1). apply (rel_eq e26 _ _ (B2R len * 1000 * k / pace)); [unfold pace, slide_time; field; lra|].
    apply (div26 (1 + 0 + 1) 15); [lra|lra| |exact velocity_rel|apply (q_rel _ _ (/ 1000) 100000000000000 (/ 1000) 100000000000); lra].
    apply (mul26 1 0); [lra|lra|exact R1|apply rel_is; [exact FN|exact EN|lra]|apply mid_in; lra].
Qed.
(** GetSliderTimeP, in single precision *)
Lemma time_p_rel px : fin px -> / 1000000 <= B2R px <= 1000000 -> fin (get_slider_time_p tim tp px) /\ about (B2R (get_slider_time_p tim tp px)) (slide_time SM base m (B2R px)).
Proof.
  intros FP BP. destruct (fq1_exact 1000 ltac:(lia)) as (FK & EK). destruct (fq1_exact 100 ltac:(lia)) as (FC & EC). destruct (moderate_val _ HS) as (FS & BS). pose proof beat_range as BR. pose proof pace_range as PR. pose proof bps_range as QR. pose proof (stretched_range _ _ HM) as Bm.
  assert (R1 : rel e26 1 (fmul (fq 1000 1) px) (1000 * B2R px)). { up (0 + 0 + 1). apply (mul26 0 0); [lra|lra|apply rel_is; [exact FK|exact EK|lra]|apply rel_exact; [exact FP|lra]|apply mid_in; lra]. }
  assert (R2 : rel e26 1 (fmul (fq 100 1) (t_SliderMult tim)) (100 * SM)). { up (0 + 0 + 1). apply (mul26 0 0); [lra|lra|apply rel_is; [exact FC|exact EC|lra]|apply rel_exact; [exact FS|lra]|apply mid_in; lra]. }
  assert (R3 : rel e26 13 (fmul (fmul (fq 100 1) (t_SliderMult tim)) (fdiv (fq 1000 1) (get_beat_length tp))) pace).
  { up (1 + 11 + 1). apply (mul26 1 11); [lra|lra|exact R2|exact bps_rel|apply mid_in; unfold pace in *; lra]. }
  assert (B1 : / 1000 <= 1000 * B2R px <= 1000000000) by lra. destruct R1 as (F1 & P1 & N1). destruct R3 as (F3 & P3 & N3). set (a := fmul (fq 1000 1) px) in *. set (b := fmul _ (fdiv _ _)) in N3, F3. unfold get_slider_time_p. fold a. fold b. clearbody a b.
  set (A := 1000 * B2R px) in *. set (P := pace) in *. unfold e26 in N1, N3.
  destruct (g_of_f_fin a F1) as (Fa & Ea); [apply top32; rewrite Rabs_pos_eq; lra|]. pose proof (near32 (B2R a) ltac:(lra)) as Na. rewrite <- Ea in Na.
  destruct (g_of_f_fin b F3) as (Fb & Eb); [apply top32; rewrite Rabs_pos_eq; lra|]. pose proof (near32 (B2R b) ltac:(lra)) as Nb. rewrite <- Eb in Nb.
  set (x := g_of_f a) in *. set (y := g_of_f b) in *. clearbody x y. clear Ea Eb R2.
  set (q := A / P). assert (QB : / 1000000000000000 <= q <= 1000000000000) by (destruct (quot_in A P (/ 1000) 1000000000 (/ 1000) 100000000000 ltac:(lra) ltac:(lra) ltac:(lra) ltac:(lra)); unfold q; lra).
  assert (AQ : A = q * P) by (unfold q; field; lra).
  assert (XB : A - A * (51 / 10 / 67108864) <= B2R x <= A + A * (51 / 10 / 67108864)) by lra. assert (YB : P - P * (171 / 10 / 67108864) <= B2R y <= P + P * (171 / 10 / 67108864)) by lra. clear Na Nb N1 N3.
  assert (D : q - q * (23 / 67108864) <= B2R x / B2R y <= q + q * (23 / 67108864)).
  { assert (QP : 0 < q * P) by (apply Rmult_lt_0_compat; lra). split; apply Rmult_le_reg_r with (B2R y); try lra; replace (B2R x / B2R y * B2R y) with (B2R x) by (field; lra).
    - apply Rle_trans with ((q - q * (23 / 67108864)) * (P + P * (171 / 10 / 67108864))); [apply Rmult_le_compat_l; lra|]. replace ((q - q * (23 / 67108864)) * (P + P * (171 / 10 / 67108864))) with (q * P * ((1 - 23 / 67108864) * (1 + 171 / 10 / 67108864))) by ring. rewrite AQ in XB. lra.
    - apply Rle_trans with ((q + q * (23 / 67108864)) * (P - P * (171 / 10 / 67108864))); [|apply Rmult_le_compat_l; lra]. replace ((q + q * (23 / 67108864)) * (P - P * (171 / 10 / 67108864))) with (q * P * ((1 + 23 / 67108864) * (1 - 171 / 10 / 67108864))) by ring. rewrite AQ in XB. lra. }
  destruct (gdiv_fin x y Fa Fb) as (Fd & Ed); [lra|apply top32; rewrite Rabs_pos_eq; lra|]. pose proof (near32 _ ltac:(split; [|apply Rle_trans with (1 := proj2 D)]; lra)) as N. rewrite <- Ed in N. destruct (f_of_g_fin _ Fd) as (FF & EF). split; [exact FF|]. rewrite EF.
  assert (SQ : slide_time SM base m (B2R px) = q) by (unfold q, A, P, pace, slide_time; field; lra). rewrite SQ. unfold about. rewrite (Rabs_pos_eq q) by lra. apply Rabs_le. lra.
Qed.
End Tim.
Lemma rel_about n x r : 0 <= n <= 60 -> rel e26 n x r -> about (B2R x) r.
Proof. intros N (F & P & B). unfold about. rewrite (Rabs_pos_eq r) by lra. apply Rabs_le. assert (n * e26 * r <= r / 1000000); [|lra]. unfold Rdiv. rewrite (Rmult_comm r). apply Rmult_le_compat_r; [lra|]. unfold e26. lra. Qed.

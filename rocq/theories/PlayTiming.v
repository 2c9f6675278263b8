(** Velocities, ends and ticks of sliders are numbers of moderate size. *)
From Coq Require Import Reals Lra ZArith Lia List Bool Permutation.
From Flocq Require Import Core BinarySingleNaN.
From Verif Require Import GoFloat Curves Objects Timing SpecTiming SpecSliders SpecSane SpecPP SpecTerm SpecPlay BaseLemmas FloatLemmas Float32Lemmas KeyLemmas BoundLemmas CurveProofs TimingProofs TermProofs LazyProofs PPBounds PPChains PPProofs ValueBounds ObjectBounds.
Import ListNotations.
Open Scope R_scope.

(** ** Rounding, coarsely *)
Lemma low1000 x : / 1000000000000000 <= x -> bpow radix2 (-1022) <= Rabs x.
Proof. intros H. rewrite Rabs_pos_eq by lra. apply Rle_trans with (bpow radix2 (-50)); [apply bpow_le; lia|]. change (bpow radix2 (-50)) with (/ 1125899906842624). lra. Qed.
Lemma coarse x lo hi : / 1000000000000000 <= lo -> lo <= x <= hi -> lo - lo * / 1000000 <= rnd64 x <= hi + hi * / 1000000.
Proof. intros L B. pose proof (rel64 x (low1000 x ltac:(lra))) as R. rewrite (Rabs_pos_eq x) in R by lra. apply Rabs_le_inv in R. lra. Qed.
Lemma top64 x : Rabs x <= 1000000000000000000 -> Rabs x <= bpow radix2 1023.
Proof. intros H. apply Rle_trans with (1 := H). apply Rle_trans with (bpow radix2 60); [change (bpow radix2 60) with 1152921504606846976; lra|apply bpow_le; lia]. Qed.
Lemma mul_in (x y : f64) lo hi : fin x -> fin y -> / 1000000000000000 <= lo -> hi <= 100000000000000000 -> lo <= B2R x * B2R y <= hi -> fin (fmul x y) /\ lo - lo * / 1000000 <= B2R (fmul x y) <= hi + hi * / 1000000.
Proof. intros Fx Fy L H B. destruct (fmul_fin x y Fx Fy) as (F & E); [apply top64; rewrite Rabs_pos_eq; lra|]. split; [exact F|]. rewrite E. now apply coarse. Qed.
Lemma div_in (x y : f64) lo hi : fin x -> fin y -> B2R y <> 0 -> / 1000000000000000 <= lo -> hi <= 100000000000000000 -> lo <= B2R x / B2R y <= hi -> fin (fdiv x y) /\ lo - lo * / 1000000 <= B2R (fdiv x y) <= hi + hi * / 1000000.
Proof. intros Fx Fy N L H B. destruct (fdiv_fin x y Fx Fy N) as (F & E); [apply top64; rewrite Rabs_pos_eq; lra|]. split; [exact F|]. rewrite E. now apply coarse. Qed.
Lemma quot_in a b la ha lb hb : 0 <= la -> 0 < lb -> la <= a <= ha -> lb <= b <= hb -> la / hb <= a / b <= ha / lb.
Proof.
  intros A B Ha Hb. assert (I : / hb <= / b <= / lb) by (split; apply Rinv_le_contravar; lra). assert (0 < / hb) by (apply Rinv_0_lt_compat; lra). unfold Rdiv. split; apply Rmult_le_compat; lra.
Qed.

(** ** Velocity *)
Section Tim.
Context (tim : timings) (tp : cpoint) (HS : moderate (t_SliderMult tim)) (HT : moderate (t_TickRate tim)).
Local Notation SM := (B2R (t_SliderMult tim)). Local Notation TR := (B2R (t_TickRate tim)).
Lemma scoring : fin (get_scoring_distance tim) /\ 100 * SM / TR * (1 - / 100000) <= B2R (get_scoring_distance tim) <= 100 * SM / TR * (1 + / 100000).
Proof.
  destruct (moderate_val _ HS) as (FS & BS). destruct (moderate_val _ HT) as (FT & BT). unfold get_scoring_distance. destruct (fq1_exact 100 ltac:(lia)) as (FC & EC).
  destruct (mul_in (fq 100 1) (t_SliderMult tim) (100 * SM) (100 * SM) FC FS ltac:(lra) ltac:(lra)) as (F1 & B1); [rewrite EC; lra|]. set (a := fmul _ _) in *. clearbody a.
  assert (P : 0 < / TR <= 16). { split; [apply Rinv_0_lt_compat; lra|]. replace 16 with (/ / 16) by field. apply Rinv_le_contravar; lra. }
  set (q := 100 * SM / TR). assert (Q : 0 < q). { unfold q, Rdiv. apply Rmult_lt_0_compat; lra. }
  assert (Q' : 6 / 16 <= q <= 25600). { unfold q. destruct (quot_in (100 * SM) TR (100 * / 16) 1600 (/ 16) 16 ltac:(lra) ltac:(lra) ltac:(lra) ltac:(lra)) as (X & Y). lra. }
  assert (D : q - q * / 1000000 <= B2R a / TR <= q + q * / 1000000).
  { unfold q, Rdiv. split; [replace (100 * SM * / TR - 100 * SM * / TR * / 1000000) with ((100 * SM - 100 * SM * / 1000000) * / TR) by ring|replace (100 * SM * / TR + 100 * SM * / TR * / 1000000) with ((100 * SM + 100 * SM * / 1000000) * / TR) by ring]; apply Rmult_le_compat_r; lra. }
  destruct (div_in a (t_TickRate tim) (q - q * / 1000000) (q + q * / 1000000) F1 FT ltac:(lra) ltac:(lra) ltac:(lra) D) as (F & B). split; [exact F|]. lra.
Qed.
Lemma ratio_in : fin (get_ratio tp) /\ 1 / 11 <= B2R (get_ratio tp) <= 10.
Proof.
  destruct (ratio_range tp) as (_ & L & U). apply fle_iff in L as (_ & N & L). apply fle_iff in U as (_ & _ & U). assert (F1 : fin (fq 1 10)) by (vm_compute; reflexivity). destruct (fq1_exact 10 ltac:(lia)) as (F2 & E2).
  rewrite (key_fin 53 1024 _ F1) in L. rewrite (key_fin 53 1024 _ F2), E2 in U. bval (fq 1 10). assert (F : fin (get_ratio tp)) by (apply (fin_of_key 53 1024); [exact N|]; assert (X : 16 < bpow radix2 1024) by (change 16 with (bpow radix2 4); apply bpow_lt; lia); lra).
  split; [exact F|]. rewrite (key_fin 53 1024 _ F) in L, U. lra.
Qed.
Lemma velocity_in : beat_ok (cp_base tp) -> fin (get_velocity tim tp) /\ / 256 <= B2R (get_velocity tim tp) <= 40000000000.
Proof.
  intros HB. destruct scoring as (F1 & B1). destruct (moderate_val _ HS) as (FS & BS). destruct (moderate_val _ HT) as (FT & BT). destruct ratio_in as (Fr & Br).
  unfold get_velocity. set (q := get_scoring_distance tim) in *. clearbody q. cbv zeta.
  assert (B2 : 6 <= B2R q * TR <= 1700).
  { replace (100 * SM / TR * (1 - / 100000)) with (100 * SM * (1 - / 100000) * / TR) in B1 by (unfold Rdiv; ring). replace (100 * SM / TR * (1 + / 100000)) with (100 * SM * (1 + / 100000) * / TR) in B1 by (unfold Rdiv; ring).
    assert (X1 : 100 * SM * (1 - / 100000) * / TR * TR <= B2R q * TR) by (apply Rmult_le_compat_r; lra). assert (X2 : B2R q * TR <= 100 * SM * (1 + / 100000) * / TR * TR) by (apply Rmult_le_compat_r; lra).
    replace (100 * SM * (1 - / 100000) * / TR * TR) with (100 * SM * (1 - / 100000)) in X1 by (field; lra). replace (100 * SM * (1 + / 100000) * / TR * TR) with (100 * SM * (1 + / 100000)) in X2 by (field; lra). lra. }
  destruct (mul_in q (t_TickRate tim) 6 1700 F1 FT ltac:(lra) ltac:(lra) B2) as (F2 & B3). set (v0 := fmul q (t_TickRate tim)) in *. clearbody v0. clear B2 B1 F1 q.
  assert (PL : fin v0 /\ / 256 <= B2R v0 <= 40000000000) by (split; [exact F2|lra]).
  unfold get_beat_length. set (r := get_ratio tp) in *. clearbody r. destruct HB as [N|[L|(F & B)]].
  - destruct (cp_base tp) as [| | |]; try discriminate N. destruct r as [| | |]; try discriminate Fr; exact PL.
  - assert (G : fge (fmul (cp_base tp) r) f0 = false); [|rewrite G; exact PL]. apply fle_iff in L as (N & _ & L). assert (FQ : fin (fq (-1) 1024)) by (vm_compute; reflexivity). assert (EQ : B2R (fq (-1) 1024) = - / 1024) by (bval (fq (-1) 1024); cbn [Z.opp] in V; lra). rewrite (key_fin 53 1024 _ FQ), EQ in L.
    destruct (cp_base tp) as [s|s| |s m e be] eqn:EB; try discriminate N.
    + cbn in L. lra.
    + destruct s; [|cbn [key] in L; pose proof (bpow_gt_0 radix2 1024); cbn in L; lra]. destruct r as [sr| | |[] mr er hr]; try discriminate Fr; try (cbn in Br; lra); [|reflexivity]. exfalso. apply (Rlt_not_le _ _ (F2R_lt_0 radix2 (Float radix2 (Zneg mr) er) eq_refl)). change (F2R (Float radix2 (Zneg mr) er)) with (B2R (@B754_finite 53 1024 true mr er hr)). lra.
    + rewrite <- EB in *. assert (Fb : fin (cp_base tp)) by (now rewrite EB). rewrite (key_fin 53 1024 _ Fb) in L. set (b := cp_base tp) in *. clearbody b. clear EB N. destruct (fge (fmul b r) f0) eqn:G; [exfalso|reflexivity].
      apply fge_iff in G as (N & _ & K). change (key f0) with 0 in K.
      pose proof (Bmult_correct 53 1024 p53 pe53 mode_NE b r) as C. change (Bmult mode_NE b r) with (fmul b r) in C. change (round radix2 _ _ _) with (rnd64 (B2R b * B2R r)) in C.
      assert (PR : B2R b * B2R r <= - / 11264). { replace (- / 11264) with (- / 1024 * (1 / 11)) by field. assert (/ 1024 * (1 / 11) <= - B2R b * B2R r) by (apply Rmult_le_compat; lra). lra. }
      assert (RN : rnd64 (B2R b * B2R r) <= - / 32768). { assert (E : B2R (fq (-1) 32768) = - / 32768) by (bval (fq (-1) 32768); cbn [Z.opp] in V; lra). rewrite <- E. apply rnd64_le_f. rewrite E. lra. }
      destruct (Rlt_bool_spec (Rabs (rnd64 (B2R b * B2R r))) (bpow radix2 1024)) as [I|I].
      * destruct C as (V & Fm & _). rewrite Fb, Fr in Fm. cbn [andb] in Fm. rewrite (key_fin 53 1024 _ Fm), V in K. lra.
      * assert (SN : Bsign b = true /\ Bsign r = false).
        { split; [destruct b as [| | |[] m' e' h']; try discriminate Fb; try reflexivity; try (cbn in L; lra); exfalso; pose proof (F2R_gt_0 radix2 (Float radix2 (Zpos m') e') eq_refl) as X; change (F2R (Float radix2 (Zpos m') e')) with (B2R (@B754_finite 53 1024 false m' e' h')) in X; lra|].
          destruct r as [sr| | |[] m' e' h']; try discriminate Fr; try reflexivity; try (cbn in Br; lra). exfalso. pose proof (F2R_lt_0 radix2 (Float radix2 (Zneg m') e') eq_refl) as X. change (F2R (Float radix2 (Zneg m') e')) with (B2R (@B754_finite 53 1024 true m' e' h')) in X. lra. }
        destruct SN as (-> & ->) in C. cbn [xorb] in C. unfold binary_overflow in C. cbn in C. destruct (fmul b r) as [|[]| |]; try discriminate C. cbn in K. lra.
  - assert (B1 : / 12000 <= B2R (cp_base tp) * B2R r <= 655360). { split; [apply Rle_trans with (/ 1024 * (1 / 11)); [lra|]|replace 655360 with (65536 * 10) by ring]; apply Rmult_le_compat; lra. }
    destruct (mul_in (cp_base tp) r (/ 12000) 655360 F Fr ltac:(lra) ltac:(lra) B1) as (F3 & B4). set (bl := fmul (cp_base tp) r) in *. clearbody bl. destruct (fge bl f0); [|exact PL].
    destruct (fq1_exact 1000 ltac:(lia)) as (FK & EK). assert (B5 : 1 / 656 <= B2R (fq 1000 1) / B2R bl <= 12001000).
    { rewrite EK. destruct (quot_in 1000 (B2R bl) 1000 1000 (/ 12000 - / 12000 * / 1000000) (655360 + 655360 * / 1000000) ltac:(lra) ltac:(lra) ltac:(lra) ltac:(lra)) as (X & Y). lra. }
    destruct (div_in (fq 1000 1) bl (1 / 656) 12001000 FK F3 ltac:(lra) ltac:(lra) ltac:(lra) B5) as (F5 & B6). set (k := fdiv _ _) in *. clearbody k.
    destruct (mul_in v0 k (/ 120) 25000000000 F2 F5 ltac:(lra) ltac:(lra)) as (F7 & B7); [|split; [exact F7|lra]].
    split; [apply Rle_trans with ((6 - 6 * / 1000000) * (1 / 656 - 1 / 656 * / 1000000)); [lra|]|apply Rle_trans with ((1700 + 1700 * / 1000000) * (12001000 + 12001000 * / 1000000)); [|lra]]; apply Rmult_le_compat; lra.
Qed.
(** ** The distance of ticks *)
Lemma distance_in : fin (get_tick_distance tim tp) /\ 9 * SM / TR <= B2R (get_tick_distance tim tp) <= 300000.
Proof.
  destruct scoring as (F1 & B1). destruct (moderate_val _ HS) as (FS & BS). destruct (moderate_val _ HT) as (FT & BT). destruct ratio_in as (Fr & Br). unfold get_tick_distance. set (q := get_scoring_distance tim) in *. clearbody q. set (r := get_ratio tp) in *. clearbody r.
  set (w := SM / TR). replace (100 * SM / TR) with (100 * w) in B1 by (unfold w, Rdiv; ring). replace (9 * SM / TR) with (9 * w) by (unfold w, Rdiv; ring).
  assert (W : / 256 <= w <= 256). { unfold w. destruct (quot_in SM TR (/ 16) 16 (/ 16) 16 ltac:(lra) ltac:(lra) ltac:(lra) ltac:(lra)) as (X & Y). lra. }
  assert (Q : 99 * w <= B2R q <= 101 * w) by lra. assert (D : 99 / 10 * w <= B2R q / B2R r <= 1111 * w). { destruct (quot_in (B2R q) (B2R r) (99 * w) (101 * w) (1 / 11) 10 ltac:(lra) ltac:(lra) ltac:(lra) ltac:(lra)) as (X & Y). lra. }
  destruct (div_in q r (99 / 10 * w) (1111 * w) F1 Fr ltac:(lra) ltac:(lra) ltac:(lra) D) as (F & B). split; [exact F|]. lra.
Qed.
Lemma step_in sd : fin (sl_pixelLength sd) -> / 16 <= B2R (sl_pixelLength sd) ->
  fin (tick_step tim tp sd) /\ Rmin (B2R (sl_pixelLength sd)) (9 * SM / TR) <= B2R (tick_step tim tp sd) <= 300000.
Proof.
  intros FP BP. destruct distance_in as (F & B). unfold tick_step. cbv zeta. pose proof (Rmin_l (B2R (sl_pixelLength sd)) (9 * SM / TR)). pose proof (Rmin_r (B2R (sl_pixelLength sd)) (9 * SM / TR)).
  destruct (ggt (mc_length (sl_curve sd)) g0 && fgt (get_tick_distance tim tp) (sl_pixelLength sd)) eqn:G; [|split; [exact F|lra]].
  apply andb_true_iff in G as [_ G]. unfold fgt in G. apply flt_fin in G; [|exact FP|exact F]. split; [exact FP|lra].
Qed.
End Tim.
Lemma distances_count step len md t0 : fin step -> fin len -> / 16 * / 16 * / 16 <= t0 -> t0 <= B2R step <= 300000 -> 0 <= B2R len <= 131072 ->
  forall d ds, fin d -> t0 <= B2R d <= 600000 -> tick_distances step len md d ds ->
  Forall (fun x => fin x /\ t0 <= B2R x <= B2R len) ds /\ INR (length ds) * (t0 / 2) + B2R d <= B2R len + t0 / 2 \/ ds = [].
Proof.
  intros Fs Fl T0 Bs Bl. intros d ds Fd Bd H. revert Fd Bd. induction H as [d H|d r E1 E2 H IH]; intros Fd Bd; [now right|left].
  apply fle_fin in E1; [|exact Fd|exact Fl].
  assert (A : fin (fadd d step) /\ B2R d + t0 / 2 <= B2R (fadd d step) <= 600000).
  { destruct (fadd_fin d step Fd Fs) as (F & E); [apply top64, Rabs_le; lra|]. split; [exact F|]. rewrite E. pose proof (rel64 (B2R d + B2R step) (low1000 (B2R d + B2R step) ltac:(lra))) as R. rewrite (Rabs_pos_eq (_ + _)) in R by lra. apply Rabs_le_inv in R. lra. }
  destruct A as (Fa & Ba). destruct (IH Fa ltac:(lra)) as [(IF & IC)| ->].
  - split; [constructor; [split; [exact Fd|lra]|exact IF]|]. cbn [length]. rewrite S_INR. lra.
  - split; [constructor; [split; [exact Fd|lra]|constructor]|]. cbn [length INR]. lra.
Qed.

(** ** Times *)
Lemma upper x hi : 1 <= hi -> 0 <= x <= hi -> 0 <= rnd64 x <= hi + hi * / 1000000.
Proof. intros L B. split; [now apply rnd64_pos|]. apply Rle_trans with (rnd64 hi); [apply rnd64_le; lra|]. apply (coarse hi hi hi); lra. Qed.
Lemma up38 x : Rabs x <= 200000000000 -> - 250000000000 <= rnd64 x <= 250000000000.
Proof.
  intros H. apply Rabs_le_inv in H. split; [apply (rnd64_exact_Z' (-250000000000))|apply (rnd64_exact_Z 250000000000)]; try lia; lra.
Qed.
Lemma sum_upto (x y : f64) : fin x -> fin y -> Rabs (B2R x + B2R y) <= 200000000000 -> time_upto (fadd x y).
Proof.
  intros Fx Fy B. destruct (fadd_fin x y Fx Fy) as (F & E); [apply top64; lra|]. split; [exact F|]. rewrite E. pose proof (up38 _ B). change (bpow radix2 38) with 274877906944. lra.
Qed.
Lemma mul_up (x y : f64) hi : fin x -> fin y -> 1 <= hi <= 100000000000000000 -> 0 <= B2R x * B2R y <= hi -> fin (fmul x y) /\ 0 <= B2R (fmul x y) <= hi + hi * / 1000000.
Proof. intros Fx Fy H B. destruct (fmul_fin x y Fx Fy) as (F & E); [apply top64; rewrite Rabs_pos_eq; lra|]. split; [exact F|]. rewrite E. apply upper; lra. Qed.
Lemma div_up (x y : f64) hi : fin x -> fin y -> B2R y <> 0 -> 1 <= hi <= 100000000000000000 -> 0 <= B2R x / B2R y <= hi -> fin (fdiv x y) /\ 0 <= B2R (fdiv x y) <= hi + hi * / 1000000.
Proof. intros Fx Fy N H B. destruct (fdiv_fin x y Fx Fy N) as (F & E); [apply top64; rewrite Rabs_pos_eq; lra|]. split; [exact F|]. rewrite E. apply upper; lra. Qed.
Lemma pow_le (x : R) k : (-1000 <= k <= 1000)%Z -> bpow radix2 k <= x -> bpow radix2 k <= rnd64 x.
Proof.
  intros K H. apply Rle_trans with (rnd64 (bpow radix2 k)); [|now apply rnd64_le]. rewrite round_generic; [apply Rle_refl|typeclasses eauto|]. apply generic_format_bpow. unfold SpecFloat.fexp, SpecFloat.emin. lia.
Qed.
Section Times.
Context (start len v : f64) (n : Z) (Fs : fin start) (Bs : Rabs (B2R start) <= 68719476736)
  (Fl : fin len) (Bl : B2R len = 0 \/ bpow radix2 (-149) <= B2R len) (Bn : (1 <= n <= 65536)%Z) (NL : IZR n * B2R len <= 131072)
  (Fv : fin v) (Bv : / 256 <= B2R v <= 40000000000).
Lemma len_in : 0 <= B2R len <= 131072.
Proof.
  assert (L : 0 <= B2R len) by (destruct Bl as [->|B]; [lra|pose proof (bpow_gt_0 radix2 (-149)); lra]). split; [exact L|].
  assert (1 <= IZR n) by (apply IZR_le; lia). pose proof (Rmult_le_compat_r (B2R len) 1 (IZR n) L ltac:(lra)). lra.
Qed.
Lemma inv_v : / 40000000000 <= / B2R v <= 256.
Proof. split; [apply Rinv_le_contravar; lra|]. replace 256 with (/ / 256) by field. apply Rinv_le_contravar; lra. Qed.
Lemma thousand : fin (fmul len (fq 1000 1)) /\ 0 <= B2R (fmul len (fq 1000 1)) <= 131073000 /\ IZR n * B2R (fmul len (fq 1000 1)) <= 131073000 /\ (B2R len = 0 /\ B2R (fmul len (fq 1000 1)) = 0 \/ bpow radix2 (-149) <= B2R (fmul len (fq 1000 1))).
Proof.
  pose proof len_in as L. destruct (fq1_exact 1000 ltac:(lia)) as (FK & EK). destruct (mul_up len (fq 1000 1) 131072000 Fl FK ltac:(lra)) as (F & B); [rewrite EK; lra|].
  destruct (fmul_fin len (fq 1000 1) Fl FK) as (_ & E); [rewrite EK; apply top64; rewrite Rabs_pos_eq; lra|]. rewrite EK in E. split; [exact F|]. split; [lra|]. split.
  - assert (N1 : 1 <= IZR n <= 65536) by (split; apply IZR_le; lia).
    destruct Bl as [Z0|B0]; [rewrite E, Z0, Rmult_0_l, rnd64_0; lra|]. pose proof (bpow_gt_0 radix2 (-149)) as P.
    assert (R : Rabs (rnd64 (B2R len * 1000) - B2R len * 1000) <= Rabs (B2R len * 1000) * / 9007199254740992).
    { apply rel64. rewrite Rabs_pos_eq by lra. apply Rle_trans with (bpow radix2 (-149)); [apply bpow_le; lia|lra]. }
    rewrite <- E, (Rabs_pos_eq (B2R len * 1000)) in R by lra. apply Rabs_le_inv in R. set (x := B2R (fmul len (fq 1000 1))) in *. clearbody x.
    assert (X : IZR n * x <= IZR n * (B2R len * (1000 * (1 + / 9007199254740992)))) by (apply Rmult_le_compat_l; lra).
    replace (IZR n * (B2R len * (1000 * (1 + / 9007199254740992)))) with (IZR n * B2R len * (1000 * (1 + / 9007199254740992))) in X by ring.
    assert (Y : IZR n * B2R len * (1000 * (1 + / 9007199254740992)) <= 131072 * (1000 * (1 + / 9007199254740992))) by (apply Rmult_le_compat_r; lra). lra.
  - destruct Bl as [Z0|B0]; [left; split; [exact Z0|]; rewrite E, Z0, Rmult_0_l; apply rnd64_0|right]. pose proof (bpow_gt_0 radix2 (-149)). rewrite E. apply pow_le; [lia|]. lra.
Qed.
Lemma span_in : fin (fdiv (fmul len (fq 1000 1)) v) /\ 0 <= B2R (fdiv (fmul len (fq 1000 1)) v) <= 34000000000 /\
  IZR n * B2R (fdiv (fmul len (fq 1000 1)) v) <= 34000000000 /\ (B2R len = 0 \/ bpow radix2 (-200) <= B2R (fdiv (fmul len (fq 1000 1)) v)).
Proof.
  destruct thousand as (F & B & BN & LO). pose proof inv_v as I. set (x := fmul len (fq 1000 1)) in *. clearbody x. assert (N1 : 1 <= IZR n <= 65536) by (split; apply IZR_le; lia).
  assert (Q : 0 <= B2R x / B2R v <= 131073000 * 256) by (unfold Rdiv; split; [apply Rmult_le_pos; lra|apply Rmult_le_compat; lra]).
  destruct (div_up x v (131073000 * 256) F Fv ltac:(lra) ltac:(lra) Q) as (FD & BD). destruct (fdiv_fin x v F Fv ltac:(lra)) as (_ & E); [apply top64; rewrite Rabs_pos_eq; lra|].
  split; [exact FD|]. split; [lra|]. destruct LO as [(Z0 & Z1)|LO].
  - split; [|now left]. rewrite E, Z1. unfold Rdiv. rewrite Rmult_0_l, rnd64_0. lra.
  - assert (G : bpow radix2 (-185) <= B2R x / B2R v).
    { unfold Rdiv. apply Rle_trans with (bpow radix2 (-149) * / 40000000000); [|pose proof (bpow_ge_0 radix2 (-149)); apply Rmult_le_compat; lra].
      replace (-185)%Z with (-149 + -36)%Z by lia. rewrite bpow_plus. apply Rmult_le_compat_l; [apply bpow_ge_0|]. change (bpow radix2 (-36)) with (/ 68719476736). lra. }
    split; [|right; rewrite E; apply Rle_trans with (bpow radix2 (-185)); [apply bpow_le; lia|apply pow_le; [lia|exact G]]].
    assert (R : Rabs (rnd64 (B2R x / B2R v) - B2R x / B2R v) <= Rabs (B2R x / B2R v) * / 9007199254740992).
    { apply rel64. rewrite Rabs_pos_eq by lra. apply Rle_trans with (bpow radix2 (-185)); [apply bpow_le; lia|exact G]. }
    rewrite <- E, (Rabs_pos_eq (B2R x / B2R v)) in R by lra. apply Rabs_le_inv in R. set (y := B2R (fdiv x v)) in *. clearbody y.
    assert (X : IZR n * y <= IZR n * (B2R x / B2R v * (1 + / 9007199254740992))) by (apply Rmult_le_compat_l; lra).
    replace (IZR n * (B2R x / B2R v * (1 + / 9007199254740992))) with (IZR n * B2R x * / B2R v * (1 + / 9007199254740992)) in X by (unfold Rdiv; ring).
    assert (Y : IZR n * B2R x * / B2R v <= 131073000 * 256) by (apply Rmult_le_compat; try lra; apply Rmult_le_pos; lra). lra.
Qed.
Lemma dur_in : fin (fdiv (fmul (fmul len (fq 1000 1)) (f_of_Z n)) v) /\ 0 <= B2R (fdiv (fmul (fmul len (fq 1000 1)) (f_of_Z n)) v) <= 34000000000.
Proof.
  destruct thousand as (F & B & BN & _). pose proof inv_v as I. set (x := fmul len (fq 1000 1)) in *. clearbody x. assert (N1 : 1 <= IZR n <= 65536) by (split; apply IZR_le; lia).
  destruct (f_of_Z_exact n ltac:(lia)) as (Fn & En). assert (P : 0 <= B2R x * B2R (f_of_Z n) <= 131073000). { rewrite En. split; [apply Rmult_le_pos; lra|rewrite Rmult_comm; lra]. }
  destruct (mul_up x (f_of_Z n) 131073000 F Fn ltac:(lra) P) as (F1 & B1). set (y := fmul x (f_of_Z n)) in *. clearbody y.
  assert (Q : 0 <= B2R y / B2R v <= 131074000 * 256) by (unfold Rdiv; split; [apply Rmult_le_pos; lra|apply Rmult_le_compat; lra]).
  destruct (div_up y v (131074000 * 256) F1 Fv ltac:(lra) ltac:(lra) Q) as (F2 & B2). split; [exact F2|lra].
Qed.
Let span : f64 := fdiv (fmul len (fq 1000 1)) v.
Let en : f64 := fadd start (fdiv (fmul (fmul len (fq 1000 1)) (f_of_Z n)) v).
Lemma end_in : fin en /\ B2R start <= B2R en <= 104000000000.
Proof.
  destruct dur_in as (F & B). subst en. apply Rabs_le_inv in Bs. clear span; set (x := fdiv (fmul (fmul len (fq 1000 1)) (f_of_Z n)) v) in *. clearbody x. destruct (fadd_fin start x Fs F) as (F1 & E); [apply top64, Rabs_le; lra|]. split; [exact F1|]. rewrite E.
  split; [apply rnd64_ge_f; lra|]. apply (rnd64_exact_Z 104000000000); [lia|lra].
Qed.
Lemma points_in ds i : Forall (fun x => fin x /\ 0 < B2R x <= B2R len) ds -> (i < Z.to_nat n)%nat ->
  Forall (fun t => time_upto (tk_Time t)) (span_points start en span len (Z.to_nat n) ds i).
Proof.
  intros FD I. destruct span_in as (Fp & Bp & NP & _). fold span in Fp, Bp, NP. destruct end_in as (Fe & Be). apply Rabs_le_inv in Bs. clearbody en. clearbody span.
  assert (SS : fin (span_start start span i) /\ - 68719476736 <= B2R (span_start start span i) <= 104000000000).
  { unfold span_start. destruct (f_of_Z_exact (Z.of_nat i) ltac:(lia)) as (Fi & Ei). assert (P : 0 <= B2R (f_of_Z (Z.of_nat i)) * B2R span <= 34000000000).
    { rewrite Ei. assert (0 <= IZR (Z.of_nat i) <= IZR n) by (split; apply IZR_le; lia). split; [apply Rmult_le_pos; lra|]. apply Rle_trans with (IZR n * B2R span); [apply Rmult_le_compat_r; lra|exact NP]. }
    destruct (mul_up _ span 34000000000 Fi Fp ltac:(lra) P) as (F & B). set (x := fmul _ _) in *. clearbody x. destruct (fadd_fin start x Fs F) as (F1 & E); [apply top64, Rabs_le; lra|]. split; [exact F1|]. rewrite E.
    split; [apply (rnd64_exact_Z' (-68719476736))|apply (rnd64_exact_Z 104000000000)]; try lia; lra. }
  destruct SS as (Fss & Bss). unfold span_points. apply Forall_app. split.
  - rewrite Forall_map. eapply Forall_impl; [|exact FD]. cbv beta. cbn [tk_Time]. intros x (Fx & Bx). destruct (fq1_exact 1 ltac:(lia)) as (F1 & E1).
    assert (PR : fin (progress i len x) /\ 0 <= B2R (progress i len x) <= 1).
    { assert (D : fin (fdiv x len) /\ 0 <= B2R (fdiv x len) <= 1).
      { assert (Q : 0 <= B2R x / B2R len <= 1). { assert (IL : 0 < / B2R len) by (apply Rinv_0_lt_compat; lra). unfold Rdiv. split; [apply Rmult_le_pos; lra|]. apply Rle_trans with (B2R len * / B2R len); [apply Rmult_le_compat_r; lra|rewrite Rinv_r; lra]. }
        destruct (fdiv_fin x len Fx Fl ltac:(lra)) as (F & E); [apply top64; rewrite Rabs_pos_eq; lra|]. split; [exact F|]. rewrite E. split; [apply rnd64_pos; lra|]. apply (rnd64_exact_Z 1); [lia|lra]. }
      destruct D as (FDv & BDv). unfold progress. destruct (Nat.even i); [auto|]. destruct (fsub_fin (fq 1 1) _ F1 FDv) as (F & E); [rewrite E1; apply top64, Rabs_le; lra|]. split; [exact F|]. rewrite E, E1. split; [apply rnd64_pos; lra|]. apply (rnd64_exact_Z 1); [lia|lra]. }
    destruct PR as (Fr & Br). destruct (mul_up _ span 34000000000 Fr Fp ltac:(lra)) as (F & B).
    { split; [apply Rmult_le_pos; lra|]. apply Rle_trans with (1 * B2R span); [apply Rmult_le_compat_r; lra|lra]. }
    apply sum_upto; [exact Fss|exact F|apply Rabs_le; lra].
  - constructor; [|constructor]. destruct (Nat.ltb (S i) (Z.to_nat n)); cbn [tk_Time]; [apply sum_upto; [exact Fss|exact Fp|apply Rabs_le; lra]|].
    destruct (fsub_fin en start Fe Fs) as (F1 & E1); [apply top64, Rabs_le; lra|]. assert (B1 : 0 <= B2R (fsub en start) <= 173000000000) by (rewrite E1; split; [apply rnd64_pos; lra|apply (rnd64_exact_Z 173000000000); [lia|lra]]).
    destruct (fq1_exact 2 ltac:(lia)) as (F2 & E2). destruct (div_up (fsub en start) (fq 2 1) 86500000000 F1 F2 ltac:(rewrite E2; lra) ltac:(lra)) as (F3 & B3); [rewrite E2; lra|].
    destruct (fq1_exact 36 ltac:(lia)) as (F4 & E4). destruct (fsub_fin en (fq 36 1) Fe F4) as (F5 & E5); [rewrite E4; apply top64, Rabs_le; lra|]. rewrite E4 in E5.
    assert (T1 : time_upto (fadd start (fdiv (fsub en start) (fq 2 1)))) by (apply sum_upto; [exact Fs|exact F3|apply Rabs_le; lra]).
    assert (T2 : time_upto (fsub en (fq 36 1))). { split; [exact F5|]. rewrite E5. pose proof (up38 (B2R en - 36) ltac:(apply Rabs_le; lra)). change (bpow radix2 38) with 274877906944. lra. }
    destruct T1 as (G1 & H1). destruct T2 as (G2 & H2). destruct (fmax_fin _ _ G1 G2) as (G & H). split; [exact G|]. rewrite H. unfold Rmax. destruct (Rle_dec _ _); auto.
Qed.
Lemma all_points_in ds : Forall (fun x => fin x /\ 0 < B2R x <= B2R len) ds ->
  Forall (fun t => time_upto (tk_Time t)) (flat_map (span_points start en span len (Z.to_nat n) ds) (seq 0 (Z.to_nat n))).
Proof.
  intros FD. apply Forall_forall. intros t H. apply in_flat_map in H as (i & I & H). apply in_seq in I. pose proof (points_in ds i FD ltac:(lia)) as P. rewrite Forall_forall in P. now apply P.
Qed.
End Times.

(** Strain times, slider-free maps and the weighting of peaks. *)
From Coq Require Import Reals Lra Permutation Sorted.
From Flocq Require Import Core BinarySingleNaN Plus_error.
From Verif Require Import DiffCalc SpecDiff BaseLemmas SortLemmas FloatLemmas Float32Lemmas KeyLemmas BoundLemmas CurveProofs CurveStart DiffProofs DiffTotal.
Open Scope R_scope.

(** ** Same up to the sign of zero *)
Definition sz (a b : f64) : Prop := a = b \/ (exists s t, a = B754_zero s /\ b = B754_zero t).
Lemma sz_refl a : sz a a. Proof. now left. Qed.
Lemma num_key0 (a : f64) : num a -> key a = 0 -> exists s, a = B754_zero s.
Proof.
  intros N K. destruct a as [s|s| |s m e b]; [eauto| |discriminate N|].
  - exfalso. cbn [key] in K. pose proof (bpow_gt_0 radix2 1024). destruct s; lra.
  - exfalso. cbn [key B2R] in K. apply eq_0_F2R in K. destruct s; discriminate K.
Qed.
Lemma key_sz (a b : f64) : num a -> num b -> key a = key b -> sz a b.
Proof.
  intros Na Nb K. destruct (Req_dec (key a) 0) as [Z|NZ].
  - right. destruct (num_key0 a Na Z) as (s & ->). destruct (num_key0 b Nb (eq_trans (eq_sym K) Z)) as (t & ->). eauto.
  - left. now apply key_inj.
Qed.
Lemma sz_key a b : sz a b -> (num a <-> num b) /\ key a = key b.
Proof. intros [->|(s & t & -> & ->)]; [tauto|]. split; [|reflexivity]. split; reflexivity. Qed.
Lemma fgt_sz a b c d : sz a b -> sz c d -> fgt a c = fgt b d.
Proof.
  intros H1 H2. destruct (sz_key _ _ H1) as (N1 & K1). destruct (sz_key _ _ H2) as (N2 & K2). apply eq_true_iff_eq. rewrite !fgt_iff, K1, K2. tauto.
Qed.
Lemma fmul_sz a b c : sz a b -> sz (fmul a c) (fmul b c).
Proof.
  intros [->|(s & t & -> & ->)]; [apply sz_refl|]. destruct c as [u|u| |u m e p]; try (right; do 2 eexists; split; reflexivity); apply sz_refl.
Qed.
(** a sum is -0 only if both summands are *)
Definition neg0 : f64 := B754_zero true.
Lemma fadd_zero a s : a <> neg0 -> fadd a (B754_zero s) = a.
Proof. intros H. destruct a as [[|]|u| |u m e p]; try reflexivity; [now destruct H|]. destruct s; reflexivity. Qed.
Lemma fadd_neg0 a b : fadd a b = neg0 -> a = neg0 /\ b = neg0.
Proof.
  intros H. destruct a as [s|s| |s m e p], b as [t|t| |t m' e' p']; try discriminate H.
  - destruct s, t; try discriminate H. auto.
  - destruct s, t; discriminate H.
  - exfalso. set (x := B754_finite s m e p) in *. set (y := B754_finite t m' e' p') in *.
    pose proof (Bplus_correct 53 1024 p53 pe53 mode_NE x y eq_refl eq_refl) as C. change (Bplus mode_NE x y) with (fadd x y) in C. rewrite H in C.
    destruct (Rlt_bool _ _).
    + destruct C as (C1 & _ & C2). cbn [B2R Bsign neg0] in C1, C2. symmetry in C1.
      assert (Z : B2R x + B2R y = 0).
      { destruct (Req_dec (B2R x + B2R y) 0) as [|NZ]; [assumption|]. exfalso.
        assert (NR : round radix2 (SpecFloat.fexp 53 1024) (round_mode mode_NE) (B2R x + B2R y) <> 0).
        { apply round_plus_neq_0; try typeclasses eauto; [apply generic_format_B2R|apply generic_format_B2R|exact NZ]. }
        now apply NR. }
      rewrite Z in C2. rewrite Rcompare_Eq in C2 by reflexivity. unfold Bsign, x, y in C2. cbn [andb] in C2. destruct s, t; try discriminate C2.
      unfold x, y in Z. cbn [B2R cond_Zopp] in Z. pose proof (F2R_lt_0 radix2 (Float radix2 (Zneg m) e) ltac:(reflexivity)). pose proof (F2R_lt_0 radix2 (Float radix2 (Zneg m') e') ltac:(reflexivity)).
      unfold x, y in *. cbn in *. lra.
    + destruct C as (C & _). discriminate C.
Qed.

Section WithLibm.
Context {M : libm}.

(** ** Lists that agree up to the sign of zeros *)
Lemma weighted_sz w l l' : Forall2 sz l l' -> forall diff weight, diff <> neg0 -> weighted_sum w diff weight l = weighted_sum w diff weight l'.
Proof.
  intros F. induction F as [|a b l l' S F IH]; intros diff weight D; cbn [weighted_sum]; [reflexivity|].
  assert (E : fadd diff (fmul a weight) = fadd diff (fmul b weight)).
  { destruct (fmul_sz a b weight S) as [->|(s & t & -> & ->)]; [reflexivity|]. now rewrite !fadd_zero. }
  rewrite E. apply IH. intros H. apply fadd_neg0 in H as [H _]. contradiction.
Qed.
Lemma insert_sz a b l l' : sz a b -> Forall2 sz l l' -> Forall2 sz (insert (fun a b => fgt a b) a l) (insert (fun a b => fgt a b) b l').
Proof.
  intros S F. induction F as [|x y l l' S' F IH]; cbn [insert]; [auto|]. rewrite (fgt_sz _ _ _ _ S' S). destruct (fgt y b); constructor; auto.
Qed.
Lemma sort_sz l l' : Forall2 sz l l' -> Forall2 sz (reverse_sort l) (reverse_sort l').
Proof. intros F. unfold reverse_sort, stable_sort. induction F; cbn [fold_right]; [constructor|]. now apply insert_sz. Qed.
Lemma reduce_sz k l l' : Forall2 sz l l' -> forall i, Forall2 sz (reduce_peaks k i l) (reduce_peaks k i l').
Proof. intros F. induction F as [|a b l l' S F IH]; intros i; cbn [reduce_peaks]; constructor; [|apply IH]. destruct (Nat.ltb _ _); [now apply fmul_sz|exact S]. Qed.

(** ** Descending lists *)
Definition nums (l : list f64) : Prop := Forall (fun x => is_nan x = false) l.
Lemma desc_ordered l : nums l -> descending l -> StronglySorted (fun a b => key b <= key a) l.
Proof.
  intros N D. apply Sorted_StronglySorted; [intros a b c; lra|]. induction l as [|x l IH]; [constructor|]. inversion N as [|? ? _ Nl]; subst.
  destruct l as [|y l]; [constructor; constructor|]. destruct D as [G D]. constructor; [now apply IH|]. constructor. now apply fge_iff in G.
Qed.
Lemma desc_keys l : nums l -> descending l -> ordered Ropp (map key l).
Proof.
  intros N D. pose proof (desc_ordered l N D) as S. clear D N. induction S as [|x l S IH H]; cbn [map]; constructor; [exact IH|].
  rewrite Forall_map. eapply Forall_impl; [|exact H]. intros y Hy. cbv beta in *. lra.
Qed.
Lemma keys_sz l : forall l', nums l -> nums l' -> map key l = map key l' -> Forall2 sz l l'.
Proof.
  induction l as [|a l IH]; intros [|b l'] N N' E; try discriminate E; constructor; cbn [map] in E; inversion N; inversion N'; subst.
  - apply key_sz; [assumption|assumption|]. exact (f_equal (hd 0) E).
  - apply IH; auto. exact (f_equal (@tl _) E).
Qed.
Lemma desc_sz l l' : nums l -> nums l' -> descending l -> descending l' -> Permutation (map key l) (map key l') -> Forall2 sz l l'.
Proof.
  intros N N' D D' P. apply keys_sz; auto. eapply ordered_unique with (k := Ropp); [exact P|now apply desc_keys|now apply desc_keys|]. intros x y _ _ E. lra.
Qed.
Lemma nums_perm l l' : Permutation l l' -> nums l -> nums l'.
Proof. intros P. apply Permutation_Forall. exact P. Qed.
Lemma keyed_nums l : nums l -> keyed (fun a b => fgt a b) (fun x => - key x) l.
Proof.
  intros N x y Hx Hy. unfold nums in N. rewrite Forall_forall in N. rewrite fgt_iff. split; [lra|]. intros H. split; [now apply N|]. split; [now apply N|lra].
Qed.
Lemma ordered_desc l : nums l -> ordered (fun x => - key x) l -> descending l.
Proof.
  intros N H. induction H as [|x l Hl IH Hx]; [exact I|]. inversion N as [|? ? Nx Nl]; subst. destruct l as [|y l]; [exact I|]. split; [|now apply IH].
  inversion Hx; inversion Nl; subst. apply fge_iff. split; [assumption|]. split; [assumption|lra].
Qed.
Lemma reverse_sorts : sorts reverse_sort.
Proof.
  intros l N. unfold reverse_sort. split; [apply sort_perm|]. apply ordered_desc; [eapply nums_perm; [apply sort_perm|exact N]|]. apply sort_ordered. now apply keyed_nums.
Qed.
(** ** The value *)
Definition value_with (srt : list f64 -> list f64) (k : skill_kind) (peaks : list f64) : f64 :=
  fmul (weighted_sum (decay_weight k) f0 (fq 1 1) (srt (reduce_peaks k 0 (srt peaks)))) (difficulty_multiplier k).
Lemma f0_neg0 : f0 <> neg0. Proof. intros H. discriminate H. Qed.
Lemma value_perm k l l' : nums l -> Permutation l l' -> difficulty_value_of k l = difficulty_value_of k l'.
Proof.
  intros N P. unfold difficulty_value_of. f_equal. apply weighted_sz; [|apply f0_neg0]. apply sort_sz, reduce_sz.
  pose proof (nums_perm _ _ P N) as N'. destruct (reverse_sorts l N) as (P1 & D1). destruct (reverse_sorts l' N') as (P2 & D2).
  apply desc_sz; auto; [exact (nums_perm _ _ P1 N)|exact (nums_perm _ _ P2 N')|]. apply Permutation_map. rewrite <- P1, <- P2. exact P.
Qed.
Lemma sz_keys l l' : Forall2 sz l l' -> map key l = map key l'.
Proof. intros F. induction F as [|a b l l' S F IH]; [reflexivity|]. cbn [map]. rewrite IH. f_equal. now apply sz_key. Qed.
Lemma value_any k srt srt' l l' : sorts srt -> sorts srt' -> nums l -> Permutation l l' ->
  nums (reduce_peaks k 0 (srt l)) -> nums (reduce_peaks k 0 (srt' l')) -> value_with srt k l = value_with srt' k l'.
Proof.
  intros S S' N P R R'. unfold value_with. f_equal. apply weighted_sz; [|apply f0_neg0].
  pose proof (nums_perm _ _ P N) as N'. destruct (S l N) as (P1 & D1). destruct (S' l' N') as (P2 & D2).
  assert (F : Forall2 sz (srt l) (srt' l')).
  { apply desc_sz; auto; [exact (nums_perm _ _ P1 N)|exact (nums_perm _ _ P2 N')|]. apply Permutation_map. rewrite <- P1, <- P2. exact P. }
  pose proof (reduce_sz k _ _ F 0%nat) as F2. destruct (S _ R) as (P3 & D3). destruct (S' _ R') as (P4 & D4).
  apply desc_sz; auto; [exact (nums_perm _ _ P3 R)|exact (nums_perm _ _ P4 R')|]. rewrite <- P3, <- P4. now rewrite (sz_keys _ _ F2).
Qed.

(** ** Range of the reduction *)
Lemma clamp_unit (x : f64) : num x -> fin (clampF64 x f0 (fq 1 1)) /\ 0 <= B2R (clampF64 x f0 (fq 1 1)) <= 1.
Proof.
  intros N. destruct (fq1_exact 1) as (F1 & E1); [lia|]. unfold clampF64.
  destruct (fmax_key f0 x eq_refl N) as (N2 & K2). destruct (fmin_key (fq 1 1) (fmax f0 x) (fin_num _ _ _ F1) N2) as (N3 & K3).
  rewrite K2, (key_fin _ _ _ F1), E1 in K3. cbn [key f0 B2R] in K3.
  assert (R : 0 <= key (fmin (fq 1 1) (fmax f0 x)) <= 1) by (rewrite K3; unfold Rmin, Rmax; repeat destruct (Rle_dec _ _); lra).
  assert (F : fin (fmin (fq 1 1) (fmax f0 x))).
  { apply fin_of_key; [exact N3|]. pose proof (bpow_lt radix2 0 1024 ltac:(lia)) as H. change (bpow radix2 0) with 1 in H. lra. }
  split; [exact F|]. now rewrite (key_fin _ _ _ F) in R.
Qed.
(** the argument of log10 lies in [1,10] *)
Definition log_arg (k : skill_kind) (i : nat) : f64 :=
  lerpF64 (fq 1 1) (fq 10 1) (clampF64 (fdiv (f_of_Z (Z.of_nat i)) (f_of_Z (Z.of_nat (reduced_sections k)))) f0 (fq 1 1)).
Lemma log_arg_range k i : (i < reduced_sections k)%nat -> fin (log_arg k i) /\ 1 <= B2R (log_arg k i) <= 10.
Proof.
  intros H. assert (R : (reduced_sections k <= 10)%nat) by (destruct k; cbn; lia). unfold log_arg.
  destruct (f_of_Z_exact (Z.of_nat i)) as (Fi & Ei); [lia|]. destruct (f_of_Z_exact (Z.of_nat (reduced_sections k))) as (Fn & En); [lia|].
  assert (Pi : 0 <= IZR (Z.of_nat i)) by (apply IZR_le; lia). assert (Pn : 1 <= IZR (Z.of_nat (reduced_sections k))) by (apply IZR_le; lia).
  assert (Li : IZR (Z.of_nat i) <= 10) by (apply IZR_le; lia).
  assert (Q : 0 <= IZR (Z.of_nat i) / IZR (Z.of_nat (reduced_sections k)) <= 10).
  { split; [apply Rle_mult_inv_pos; lra|]. apply Rmult_le_reg_r with (IZR (Z.of_nat (reduced_sections k))); [lra|]. unfold Rdiv. rewrite Rmult_assoc, Rinv_l by lra. lra. }
  destruct (fdiv_fin _ _ Fi Fn) as (Fd & _); [rewrite En; lra|apply small_1023; rewrite Ei, En; apply Rabs_le; lra|].
  destruct (clamp_unit _ (fin_num _ _ _ Fd)) as (Fc & Bc). set (c := clampF64 _ _ _) in *. clearbody c. clear - Fc Bc.
  unfold lerpF64. destruct (fq1_exact 1) as (F1 & E1); [lia|]. destruct (fq1_exact 10) as (F10 & E10); [lia|].
  destruct (fsub_fin _ _ F10 F1) as (F9 & E9); [apply small_1023; rewrite E1, E10; apply Rabs_le; lra|]. rewrite E1, E10 in E9.
  replace (10 - 1) with (IZR 9) in E9 by lra. rewrite rnd64_Z in E9 by lia.
  destruct (fmul_fin _ _ F9 Fc) as (Fm & Em); [apply small_1023; rewrite E9; apply Rabs_le; lra|]. rewrite E9 in Em.
  assert (Bm : 0 <= B2R (fmul (fsub (fq 10 1) (fq 1 1)) c) <= 9).
  { rewrite Em. split; [apply rnd64_pos; lra|]. apply (rnd64_exact_Z 9); [lia|lra]. }
  destruct (fadd_fin _ _ F1 Fm) as (Fa & Ea); [apply small_1023; rewrite E1; apply Rabs_le; lra|]. split; [exact Fa|]. rewrite Ea, E1. split.
  - apply (rnd64_exact_Z' 1); [lia|lra].
  - apply (rnd64_exact_Z 10); [lia|lra].
Qed.
Lemma quarter_val : fin (fsub (fq 1 1) reduced_baseline) /\ B2R (fsub (fq 1 1) reduced_baseline) = 1 / 4 /\ fin reduced_baseline /\ B2R reduced_baseline = 3 / 4.
Proof.
  unfold reduced_baseline. bval (fsub (fq 1 1) (fq 75 100)). bval (fq 75 100). rewrite V, V0. split; [vm_compute; reflexivity|]. split; [lra|]. split; [vm_compute; reflexivity|lra].
Qed.
Lemma factor_fin k i : log_finite -> (i < reduced_sections k)%nat -> fin (reduce_factor k i).
Proof.
  intros L H. destruct (log_arg_range k i H) as (F & B). specialize (L _ F B). unfold reduce_factor. cbv zeta. fold (log_arg k i). set (s := mlog10 _) in *. clearbody s.
  unfold lerpF64. destruct quarter_val as (Fq & Eq & Fb & Eb). pose proof (B2R_lt 53 1024 s L) as BS. assert (E4 : bpow radix2 1024 = 4 * bpow radix2 1022) by (change (bpow radix2 1024) with (bpow radix2 (2 + 1022)); now rewrite bpow_plus).
  assert (E2 : bpow radix2 1023 = 2 * bpow radix2 1022) by (change (bpow radix2 1023) with (bpow radix2 (1 + 1022)); now rewrite bpow_plus). pose proof (bpow_lt radix2 0 1022 ltac:(lia)) as B0. change (bpow radix2 0) with 1 in B0.
  assert (BM : Rabs (1 / 4 * B2R s) <= bpow radix2 1022) by (rewrite Rabs_mult, (Rabs_pos_eq (1 / 4)) by lra; pose proof (Rabs_def1 _ _ (proj2 BS) (proj1 BS)); lra).
  destruct (fmul_fin _ _ Fq L) as (Fm & Em); [rewrite Eq; lra|]. rewrite Eq in Em.
  assert (BM' : Rabs (rnd64 (1 / 4 * B2R s)) <= bpow radix2 1022) by (apply (rnd_bound 53 1024); [vm_compute; discriminate|exact BM]).
  apply fadd_fin; [exact Fb|exact Fm|]. rewrite Eb, Em. eapply Rle_trans; [apply Rabs_triang|]. rewrite (Rabs_pos_eq (3 / 4)) by lra. lra.
Qed.
Lemma factor_pos k i : log_unit -> (i < reduced_sections k)%nat -> fin (reduce_factor k i) /\ 3 / 4 <= B2R (reduce_factor k i) <= 1.
Proof.
  intros L H. destruct (log_arg_range k i H) as (F & B). destruct (L _ F B) as (Fs & Bs). unfold reduce_factor. cbv zeta. fold (log_arg k i). set (s := mlog10 _) in *. clearbody s.
  unfold lerpF64. destruct quarter_val as (Fq & Eq & Fb & Eb).
  destruct (fmul_fin _ _ Fq Fs) as (Fm & Em); [rewrite Eq; apply small_1023, Rabs_le; lra|]. rewrite Eq in Em.
  assert (Bm : 0 <= rnd64 (1 / 4 * B2R s) <= 1 / 4). { split; [apply rnd64_pos; lra|]. rewrite <- Eq. apply rnd64_le_f. rewrite Eq. lra. }
  destruct (fadd_fin _ _ Fb Fm) as (Fa & Ea); [rewrite Eb, Em; apply small_1023, Rabs_le; lra|]. split; [exact Fa|]. rewrite Ea, Eb, Em. split.
  - rewrite <- Eb at 1. apply rnd64_ge_f. rewrite Eb. lra.
  - apply (rnd64_exact_Z 1); [lia|lra].
Qed.
Lemma num_scale (x c : f64) : num x -> fin c -> 0 < B2R c -> num (fmul x c).
Proof.
  intros N F P. destruct x as [s|s| |s m e b]; try discriminate N; destruct c as [t|t| |t m' e' b']; try discriminate F; try reflexivity.
  - cbn in P. lra.
  - apply (Bmult_ork 53 1024); reflexivity.
Qed.
Lemma reduce_nums k l : log_unit -> nums l -> forall i, nums (reduce_peaks k i l).
Proof.
  intros L N. induction N as [|x l Nx N IH]; intros i; cbn [reduce_peaks]; constructor; [|apply IH]. destruct (Nat.ltb_spec i (reduced_sections k)) as [H|H]; [|exact Nx].
  destruct (factor_pos k i L H) as (F & B). apply num_scale; [exact Nx|exact F|lra].
Qed.
(** ** All peaks zero *)
Definition zeros (l : list f64) : Prop := Forall (fun x => exists s, x = B754_zero s) l.
Lemma zero_mul s (c : f64) : fin c -> exists t, fmul (B754_zero s) c = B754_zero t.
Proof. intros F. destruct c; try discriminate F; eexists; reflexivity. Qed.
Lemma reduce_zeros k l : log_finite -> zeros l -> forall i, zeros (reduce_peaks k i l).
Proof.
  intros L N. induction N as [|x l (s & ->) N IH]; intros i; cbn [reduce_peaks]; constructor; [|apply IH]. destruct (Nat.ltb_spec i (reduced_sections k)) as [H|H]; [|eauto].
  apply zero_mul. now apply factor_fin.
Qed.
Lemma decay_val k : fin (decay_weight k) /\ Rabs (B2R (decay_weight k)) <= 1.
Proof.
  assert (A : fin (fq 9 10) /\ Rabs (B2R (fq 9 10)) <= 1) by (bval (fq 9 10); rewrite V; split; [vm_compute; reflexivity|apply Rabs_le; lra]).
  assert (B : fin (fq 1 1) /\ Rabs (B2R (fq 1 1)) <= 1) by (destruct (fq1_exact 1) as (F & ->); [lia|]; split; [exact F|apply Rabs_le; lra]).
  destruct k; [exact A|exact A|exact B].
Qed.
Lemma weighted_zeros w l : fin w -> Rabs (B2R w) <= 1 -> zeros l -> forall weight, fin weight -> Rabs (B2R weight) <= 1 -> weighted_sum w f0 weight l = f0.
Proof.
  intros Fw Bw N. induction N as [|x l (s & ->) N IH]; intros weight F B; cbn [weighted_sum]; [reflexivity|].
  destruct (zero_mul s weight F) as (t & ->). rewrite fadd_zero by apply f0_neg0.
  assert (BM : Rabs (B2R weight * B2R w) <= 1). { rewrite Rabs_mult. pose proof (Rabs_pos (B2R weight)). pose proof (Rabs_pos (B2R w)). nra. }
  destruct (fmul_fin weight w F Fw) as (Fm & Em); [apply small_1023; lra|]. apply IH; [exact Fm|]. rewrite Em. apply (rnd64_abs_Z _ 1); [lia|exact BM].
Qed.
Lemma value_zero k l : log_finite -> zeros l -> difficulty_value_of k l = f0.
Proof.
  intros L Z. unfold difficulty_value_of. destruct (decay_val k) as (Fd & Bd). destruct (fq1_exact 1) as (F1 & E1); [lia|].
  rewrite weighted_zeros; [|exact Fd|exact Bd| |exact F1|rewrite E1; apply Rabs_le; lra].
  - destruct k; apply B2SF_eq; vm_compute; reflexivity.
  - assert (P : forall l, zeros l -> zeros (reverse_sort l)) by (intros l' H; eapply Permutation_Forall; [apply sort_perm|exact H]). apply P, (reduce_zeros k _ L), P, Z.
Qed.
End WithLibm.

(** A better play, or a harder map, is worth no less. *)
From Coq Require Import Reals Lra Lia.
From Flocq Require Import Raux Zaux Core BinarySingleNaN.
From Verif Require Import PP SpecPP SpecBetter BaseLemmas FloatLemmas Float32Lemmas SkillProofs CurveProofs PPProofs PPBounds PPChains PPFinal PPMono.
Open Scope R_scope.
Ltac bdc := apply bd_const; [vm_compute; reflexivity|vm_compute; reflexivity|vm_compute; reflexivity|lia].

(** ** The argument of the cube in ppBase *)
Definition base_arg (x : f64) : f64 := fsub (fmul (fq 5 1) (fmax (fq 1 1) (fdiv x (fq 675 10000)))) (fq 4 1).
Lemma base_arg_val k (x : f64) : bd k x -> (0 <= k <= 200)%Z -> fin (base_arg x) /\ 0 < B2R (fq 675 10000) /\
  B2R (base_arg x) = rnd64 (rnd64 (5 * Rmax 1 (rnd64 (B2R x / B2R (fq 675 10000)))) - 4) /\ 1 <= B2R (base_arg x) <= bpow radix2 (k + 7).
Proof.
  intros X K. unfold base_arg. apply bd_iff in X as (Fx & Bx).
  assert (C : fin (fq 675 10000) /\ / 16 <= B2R (fq 675 10000)). { split; [vm_compute; reflexivity|]. bval (fq 675 10000). rewrite V. lra. }
  destruct C as (Fc & Bc). set (c := fq 675 10000) in *. clearbody c.
  assert (Q : 0 <= B2R x / B2R c <= bpow radix2 (k + 4)).
  { split; [apply Rle_mult_inv_pos; lra|]. apply Rmult_le_reg_r with (B2R c); [lra|]. unfold Rdiv. rewrite Rmult_assoc, Rinv_l, Rmult_1_r by lra. rewrite bpow_plus. change (bpow radix2 4) with 16.
    pose proof (bpow_gt_0 radix2 k). nra. }
  assert (S : bpow radix2 (k + 4) <= bpow radix2 1023) by (apply bpow_le; lia).
  destruct (fdiv_fin x c Fx Fc) as (F1 & E1); [lra|rewrite Rabs_pos_eq; lra|].
  assert (B1 : 0 <= B2R (fdiv x c) <= bpow radix2 (k + 4)) by (rewrite E1; split; [apply rnd64_pos; lra|apply rnd_le_pow; [lia|lra]]).
  rewrite <- E1. set (q := fdiv x c) in *. clearbody q. destruct one_val as (Fo & Eo). destruct (fmax_fin _ q Fo F1) as (F2 & E2). rewrite Eo in E2.
  assert (P1 : 1 <= bpow radix2 (k + 4)) by (change 1 with (bpow radix2 0); apply bpow_le; lia).
  assert (B2 : 1 <= B2R (fmax (fq 1 1) q) <= bpow radix2 (k + 4)) by (rewrite E2; split; [apply Rmax_l|apply Rmax_lub; lra]).
  rewrite <- E2. set (m := fmax _ q) in *. clearbody m. destruct (fq1_exact 5) as (F5 & E5); [lia|]. destruct (fq1_exact 4) as (F4 & E4); [lia|].
  assert (P7 : 5 * bpow radix2 (k + 4) <= bpow radix2 (k + 7)) by (replace (k + 7)%Z with (3 + (k + 4))%Z by ring; rewrite (bpow_plus radix2 3); change (bpow radix2 3) with 8; lra).
  assert (S7 : bpow radix2 (k + 7) <= bpow radix2 1023) by (apply bpow_le; lia).
  destruct (fmul_fin _ m F5 F2) as (F6 & E6); [rewrite E5, Rabs_pos_eq; lra|]. rewrite E5 in E6.
  assert (B6 : 5 <= B2R (fmul (fq 5 1) m) <= bpow radix2 (k + 7)) by (rewrite E6; split; [apply (rnd64_exact_Z' 5); [lia|lra]|apply rnd_le_pow; [lia|lra]]).
  rewrite <- E6. set (w := fmul _ m) in *. clearbody w. destruct (fsub_fin w _ F6 F4) as (F7 & E7); [rewrite E4, Rabs_pos_eq; lra|]. rewrite E4 in E7.
  split; [exact F7|]. split; [lra|]. split; [exact E7|]. rewrite E7. split; [apply (rnd64_exact_Z' 1); [lia|lra]|apply rnd_le_pow; [lia|lra]].
Qed.

Section WithLibm.
Context {M : libm}.
Context (PR : pow_ranges) (LR : log_above) (PO : pow_orders).
Lemma base_mono k x x' : le2 k x x' -> (0 <= k <= 200)%Z -> le2 ((k + 7) * 3 + 1) (pp_base x) (pp_base x').
Proof.
  intros X K. destruct (le2_bd _ _ _ X) as (B & B'). destruct (base_arg_val k x B K) as (F & Pc & E & R). destruct (base_arg_val k x' B' K) as (F' & _ & E' & R'). destruct X as (_ & _ & X & _).
  change (pp_base x) with (fdiv (mpow (base_arg x) (fq 3 1)) (fq 100000 1)). change (pp_base x') with (fdiv (mpow (base_arg x') (fq 3 1)) (fq 100000 1)).
  destruct (fq1_exact 3) as (F3 & E3); [lia|]. destruct (fq1_exact 100000) as (F8 & E8); [lia|].
  apply le2_div; [lia|lia| |exact F8|rewrite E8; lra]. apply (pow_mono PR PO); [|exact F3|rewrite E3; lra|lia|lia|lia]. split; [exact F|]. split; [exact F'|]. split; [|apply R']. split; [lra|]. rewrite E, E'.
  apply rnd64_le. apply Rplus_le_compat_r. apply rnd64_le. apply Rmult_le_compat_l; [lra|]. apply Rle_max_compat_l. apply rnd64_le. unfold Rdiv. apply Rmult_le_compat_r; [left; now apply Rinv_0_lt_compat|lra].
Qed.
Lemma touch_mono k x x' (b : bool) : (0 <= k <= 200)%Z -> le2 k x x' -> le2 (k + 1) (if b then mpow x (fq 8 10) else x) (if b then mpow x' (fq 8 10) else x').
Proof. intros K X. destruct b; [|apply (le2_le k); [lia|exact X]]. destruct (unit_exp 8 10) as (Fe & Be); [bdc|]. replace (k + 1)%Z with (k * 1 + 1)%Z by lia. apply (pow_mono PR PO k 1); auto; lia. Qed.
Lemma speed_acc_mono d acc acc' : diff_ok d -> le2 0 acc acc' ->
  le2 0 (mpow acc (fdiv (fsub (fq 145 10) (fmax (d_ODReal d) (fq 8 1))) (fq 2 1))) (mpow acc' (fdiv (fsub (fq 145 10) (fmax (d_ODReal d) (fq 8 1))) (fq 2 1))).
Proof.
  intros (_ & (F & B)) A. destruct (fq1_exact 8) as (F8 & E8); [lia|]. destruct (fq1_exact 2) as (F2 & E2); [lia|]. destruct (fmax_fin _ _ F F8) as (Fm & Em). rewrite E8 in Em.
  assert (Bm : 8 <= B2R (fmax (d_ODReal d) (fq 8 1)) <= 14) by (rewrite Em; split; [apply Rmax_r|apply Rmax_lub; lra]). set (m := fmax _ _) in *. clearbody m.
  assert (Fc : fin (fq 145 10)) by (vm_compute; reflexivity). assert (Bc : IZR 14 <= B2R (fq 145 10) <= IZR 15) by (apply between_Z; [exact Fc|lia|lia|vm_compute; reflexivity|vm_compute; reflexivity]).
  destruct (sub_Z (fq 145 10) m 0 7 Fc Fm) as (Fs & Bs); [lia|lia|lra|]. destruct (div_ge1 _ _ Fs F2) as (Fd & _ & Bd); [lra|rewrite E2; lra| |].
  { apply Rle_trans with 7; [lra|]. apply Rle_trans with (bpow radix2 3); [cbn; lra|apply bpow_le; lia]. }
  apply (unit_mono PR PO); [exact A|exact Fd|apply Bd].
Qed.
Lemma meh_count_val meh total : (0 <= meh <= 2 ^ 31)%Z -> (0 <= total <= 2 ^ 31)%Z -> fin (meh_count meh total) /\
  B2R (meh_count meh total) = Rmax 0 (rnd64 (IZR meh - B2R (fdiv (f_of_Z total) (fq 500 1)))).
Proof.
  intros A T. unfold meh_count. destruct (bd_Z 31 meh A ltac:(lia)) as (Ba & Ea); destruct (bd_Z 31 total T ltac:(lia)) as (Bt & _); destruct (fq1_exact 500) as (F5 & E5); [lia|].
  assert (Bh : bd 31 (fdiv (f_of_Z total) (fq 500 1))) by (apply le2_div; [lia|lia|exact Bt|exact F5|rewrite E5; lra]).
  set (h := fdiv _ _) in *; apply bd_iff in Ba as (Fa & Ba); apply bd_iff in Bh as (Fh & Bh). rewrite <- Ea. destruct (fge _ _) eqn:G.
  - apply fge_iff in G as (_ & _ & G); rewrite (key_fin _ _ _ Fa), (key_fin _ _ _ Fh) in G.
    assert (S : bpow radix2 31 <= bpow radix2 1023) by (apply bpow_le; lia); destruct (fsub_fin _ _ Fa Fh) as (Fs & Es); [rewrite Rabs_pos_eq; lra|]. split; [exact Fs|]. rewrite Es, Rmax_right; [reflexivity|]. apply rnd64_pos. lra.
  - split; [reflexivity|]. change (B2R f0) with 0. rewrite Rmax_left; [reflexivity|]. destruct (Rle_lt_dec (B2R h) (B2R (f_of_Z meh))) as [L|L].
    + exfalso. assert (fge (f_of_Z meh) h = true); [|congruence]. apply fge_iff. rewrite (key_fin _ _ _ Fa), (key_fin _ _ _ Fh). split; [exact (fin_num _ _ _ Fa)|]. split; [exact (fin_num _ _ _ Fh)|exact L].
    + apply (rnd64_exact_Z 0); [lia|lra].
Qed.
Lemma meh_mono meh meh' total : (0 <= meh' <= meh)%Z -> (meh <= 2 ^ 31)%Z -> (0 <= total <= 2 ^ 31)%Z -> le2 0 (mpow (fq 98 100) (meh_count meh total)) (mpow (fq 98 100) (meh_count meh' total)).
Proof.
  intros A A' T. destruct (meh_count_val meh total ltac:(lia) T) as (F & E). destruct (meh_count_val meh' total ltac:(lia) T) as (F' & E'). apply (unit_anti PR PO); [bdc|exact F'|exact F|]. rewrite E, E'. split; [apply Rmax_l|].
  apply Rle_max_compat_l. apply rnd64_le. assert (IZR meh' <= IZR meh) by (apply IZR_le; lia). lra.
Qed.
(** ** Two states of PPv2x *)
Record below (p q : ppv2) : Prop := {
  b_aim : le2 20 (at_Aim (pp_attribs p)) (at_Aim (pp_attribs q));
  b_speed : le2 20 (at_Speed (pp_attribs p)) (at_Speed (pp_attribs q));
  b_fl : le2 20 (at_Flashlight (pp_attribs p)) (at_Flashlight (pp_attribs q));
  b_hits : pp_totalHits p = pp_totalHits q /\ (0 <= pp_totalHits q <= 2 ^ 31)%Z;
  b_acc : le2 0 (pp_accuracy p) (pp_accuracy q);
  b_meh : (0 <= pp_meh q <= pp_meh p)%Z /\ (pp_meh p <= 2 ^ 31)%Z;
  b_pen : le2 0 (pen (pp_effMiss p) (pp_totalHits p) (f_of_Z (pp_effMiss p))) (pen (pp_effMiss q) (pp_totalHits q) (f_of_Z (pp_effMiss q)));
  b_pens : le2 0 (pen (pp_effMiss p) (pp_totalHits p) (mpow (f_of_Z (pp_effMiss p)) (fq 875 1000))) (pen (pp_effMiss q) (pp_totalHits q) (mpow (f_of_Z (pp_effMiss q)) (fq 875 1000)));
  b_scal : le2 0 (scal (pp_scoreMaxCombo p) (at_MaxCombo (pp_attribs p))) (scal (pp_scoreMaxCombo q) (at_MaxCombo (pp_attribs q)));
  b_nerf : le2 1 (nerf p) (nerf q) }.
Lemma aim_better p q d : diff_ok d -> below p q -> le2 200 (compute_aim p d) (compute_aim q d).
Proof.
  intros D B. pose proof (b_nerf _ _ B) as N. destruct (b_hits _ _ B) as (ET & T). unfold compute_aim. fold (ar_high d) (ar_aim d) (hidden_factor d). cbv zeta. 
  apply (le2_le 195); [lia|]. change 195%Z with (173 + 22)%Z. apply le2_mul; [lia|lia|lia| |apply (aim_od_bd PR); exact D].
  change 173%Z with (173 + 0)%Z. apply le2_mul; [lia|lia|lia| |exact (b_acc _ _ B)].
  change 173%Z with (172 + 1)%Z. apply le2_opt; [lia|lia|lia| |exact N].
  change 172%Z with (162 + 10)%Z. apply le2_opt; [lia|lia|lia| |destruct (mactive _ _); [apply hidden_bd; exact D|apply (le2_le 0); [lia|exact bd_one]]].
  change 162%Z with (118 + 44)%Z. apply le2_mul; [lia|lia|lia| |].
  2:{ rewrite ET. apply (le2_add 43); [lia|lia|apply (le2_le 0); [lia|exact bd_one]|]. change 43%Z with (10 + 33)%Z. apply le2_mul; [lia|lia|lia|apply aim_ar_bd; exact D|apply (length_bd LR); auto]. }
  change 118%Z with (118 + 0)%Z. apply le2_opt; [lia|lia|lia| |exact (b_scal _ _ B)]. change 118%Z with (118 + 0)%Z. apply le2_opt; [lia|lia|lia| |exact (b_pen _ _ B)].
  change 118%Z with (85 + 33)%Z. apply le2_mul; [lia|lia|lia| |rewrite ET; apply (length_bd LR); auto].
  change 85%Z with ((20 + 1 + 7) * 3 + 1)%Z. apply base_mono; [|lia]. apply touch_mono; [lia|]. exact (b_aim _ _ B).
Qed.
Lemma speed_better p q d : diff_ok d -> below p q -> le2 200 (compute_speed p d) (compute_speed q d).
Proof.
  intros D B. destruct (b_hits _ _ B) as (ET & T). unfold compute_speed. fold (ar_high d) (ar_speed d) (hidden_factor d) (meh_count (pp_meh p) (pp_totalHits p)) (meh_count (pp_meh q) (pp_totalHits q)). cbv zeta.
  apply (le2_le 194); [lia|]. change 194%Z with (194 + 0)%Z. apply le2_mul; [lia|lia|lia| |rewrite ET; destruct (b_meh _ _ B); apply meh_mono; auto].
  change 194%Z with (172 + 22)%Z. apply le2_mul; [lia|lia|lia| |].
  2:{ change 22%Z with (22 + 0)%Z. apply le2_mul; [lia|lia|lia|apply (speed_od_bd PR); exact D|apply speed_acc_mono; [exact D|exact (b_acc _ _ B)]]. }
  change 172%Z with (162 + 10)%Z. apply le2_opt; [lia|lia|lia| |destruct (mactive _ _); [apply hidden_bd; exact D|apply (le2_le 0); [lia|exact bd_one]]].
  change 162%Z with (118 + 44)%Z. apply le2_mul; [lia|lia|lia| |].
  2:{ rewrite ET. apply (le2_add 43); [lia|lia|apply (le2_le 0); [lia|exact bd_one]|]. change 43%Z with (10 + 33)%Z. apply le2_mul; [lia|lia|lia|apply speed_ar_bd; exact D|apply (length_bd LR); auto]. }
  change 118%Z with (118 + 0)%Z. apply le2_opt; [lia|lia|lia| |exact (b_scal _ _ B)]. change 118%Z with (118 + 0)%Z. apply le2_opt; [lia|lia|lia| |exact (b_pens _ _ B)].
  change 118%Z with (85 + 33)%Z. apply le2_mul; [lia|lia|lia| |rewrite ET; apply (length_bd LR); auto].
  change 85%Z with ((21 + 7) * 3 + 1)%Z. apply base_mono; [|lia]. apply (le2_le 20); [lia|]. exact (b_speed _ _ B).
Qed.
Lemma flash_better p q d : diff_ok d -> below p q -> le2 200 (compute_flashlight p d) (compute_flashlight q d).
Proof.
  intros D B. destruct (b_hits _ _ B) as (ET & T). unfold compute_flashlight. destruct (negb _); [apply bd_0|]. fold (fl_scale (pp_totalHits p)) (fl_scale (pp_totalHits q)). cbv zeta.
  apply (le2_le 74); [lia|]. change 74%Z with (52 + 22)%Z. apply le2_mul; [lia|lia|lia| |apply (aim_od_bd PR); exact D]. change 52%Z with (51 + 1)%Z. apply le2_mul; [lia|lia|lia| |].
  2:{ destruct (fq1_exact 2) as (F2 & Ev); [lia|]. apply (le2_add 0); [lia|lia|bdc|]. apply le2_div; [lia|lia|exact (b_acc _ _ B)|exact F2|rewrite Ev; lra]. }
  change 51%Z with (49 + 2)%Z. apply le2_mul; [lia|lia|lia| |rewrite ET; apply fl_scale_bd; exact T].
  change 49%Z with (49 + 0)%Z. apply le2_opt; [lia|lia|lia| |exact (b_scal _ _ B)]. change 49%Z with (49 + 0)%Z. apply le2_opt; [lia|lia|lia| |exact (b_pens _ _ B)].
  change 49%Z with (48 + 1)%Z. apply le2_opt; [lia|lia|lia| |destruct (check_mod _ _); [bdc|apply (le2_le 0); [lia|exact bd_one]]].
  change 48%Z with ((21 * 2 + 1) + 5)%Z. apply le2_mul; [lia|lia|lia| |bdc]. destruct (fq1_exact 2) as (F2 & Ev); [lia|].
  apply (pow_mono PR PO 21 2); [|exact F2|rewrite Ev; lra|lia|lia|lia]. change 21%Z with (20 + 1)%Z. apply touch_mono; [lia|]. exact (b_fl _ _ B).
Qed.
(** ** Accuracy pp *)
Lemma acc_share_mono g o m g' o' m' total n : (0 <= g)%Z -> (0 <= o)%Z -> (0 <= m)%Z -> (g + o + m <= total)%Z -> (0 <= g')%Z -> (0 <= o')%Z -> (0 <= m')%Z -> (g' + o' + m' <= total)%Z -> (total <= 2 ^ 31)%Z -> (0 <= n <= 2 ^ 31)%Z ->
  (6 * g + 2 * o + m <= 6 * g' + 2 * o' + m')%Z -> le2 0 (acc_share g o m total n) (acc_share g' o' m' total n).
Proof.
  intros G O ME T G' O' ME' T2 T' N L. pose proof (acc_share_bd g o m total n G O ME T T' N) as B. pose proof (acc_share_bd g' o' m' total n G' O' ME' T2 T' N) as B'.
  apply bd_iff in B as (F & B). apply bd_iff in B' as (F' & B'). split; [exact F|]. split; [exact F'|]. split; [|apply B']. split; [apply B|].
  unfold acc_share in *. destruct (Z.ltb_spec 0 n) as [P|P]; [|destruct (flt f0 f0); apply Rle_refl].
  assert (V : forall g o m, (0 <= g)%Z -> (0 <= o)%Z -> (0 <= m)%Z -> (g + o + m <= total)%Z ->
    let v := fdiv (f_of_Z (wrap64 (wrap64 (wrap64 (wrap64 (g - wrap64 (total - n)) * 6) + wrap64 (o * 2)) + m))) (fmul (f_of_Z n) (fq 6 1)) in
    fin v /\ B2R v = rnd64 (IZR (6 * g + 2 * o + m - 6 * (total - n)) / IZR (6 * n))).
  { clear -T' N P. intros g o m G O ME T. cbv zeta. rewrite (wrap_id (total - n)), (wrap_id (g - (total - n))), (wrap_id ((g - (total - n)) * 6)), (wrap_id (o * 2)), (wrap_id (_ + o * 2)), (wrap_id (_ + m)) by (unfold int64; lia).
    replace ((g - (total - n)) * 6 + o * 2 + m)%Z with (6 * g + 2 * o + m - 6 * (total - n))%Z by ring. set (x := (6 * g + 2 * o + m - 6 * (total - n))%Z). assert (X : (- (6 * 2 ^ 31) <= x <= 6 * n)%Z) by (unfold x; lia). clearbody x.
    destruct (f_of_Z_exact x) as (Fx & Ex); [lia|]. destruct (f_of_Z_exact n) as (Fn & En); [lia|]. destruct (fq1_exact 6) as (F6 & E6); [lia|].
    assert (Q : B2R (f_of_Z n) * B2R (fq 6 1) = IZR (6 * n)) by (rewrite En, E6, <- mult_IZR; f_equal; ring).
    destruct (fmul_fin _ _ Fn F6) as (Fm & Em); [rewrite Q; apply small_int; lia|]. rewrite Q, rnd64_Z in Em by lia. set (d := fmul _ _) in *. clearbody d.
    assert (P0 : 0 < IZR (6 * n)) by (apply IZR_lt; lia). assert (I : 0 < / IZR (6 * n)) by (apply Rinv_0_lt_compat; exact P0). assert (P1 : 1 <= IZR (6 * n)) by (apply IZR_le; lia).
    assert (I1 : / IZR (6 * n) <= 1) by (rewrite <- Rinv_1; apply Rinv_le_contravar; lra).
    assert (X1 : IZR (- (6 * 2 ^ 31)) <= IZR x) by (apply IZR_le; lia). assert (X2 : IZR x <= IZR (6 * n)) by (apply IZR_le; lia).
    assert (B1 : IZR x / IZR (6 * n) <= 1) by (apply Rmult_le_reg_r with (IZR (6 * n)); [exact P0|]; unfold Rdiv; rewrite Rmult_assoc, Rinv_l by lra; lra).
    assert (B2 : -12884901888 <= IZR x / IZR (6 * n)). { unfold Rdiv. change (IZR (- (6 * 2 ^ 31))) with (-12884901888) in X1. nra. }
    destruct (fdiv_fin _ d Fx Fm) as (Fd & Ed); [rewrite Em; lra|rewrite Ex, Em; apply Rle_trans with (bpow radix2 34); [change (bpow radix2 34) with (IZR (2 ^ 34)); apply Rabs_le; lra|apply bpow_le; lia]|].
    rewrite Ex, Em in Ed. split; [exact Fd|exact Ed]. }
  destruct (V g o m G O ME T) as (F1 & E1). destruct (V g' o' m' G' O' ME' T2) as (F1' & E1'). cbv zeta in E1, E1'. set (v := fdiv _ _) in *. set (v' := fdiv (f_of_Z (wrap64 (_ + m'))) _) in *. clearbody v v'. clear V.
  assert (VV : B2R v <= B2R v'). { rewrite E1, E1'. apply rnd64_le. unfold Rdiv. apply Rmult_le_compat_r; [left; apply Rinv_0_lt_compat, IZR_lt; lia|]. apply IZR_le. lia. }
  destruct (flt v f0) eqn:K; [exact (proj1 B')|]. apply flt_fin_false in K; [|exact F1|reflexivity]. change (B2R f0) with 0 in K. destruct (flt v' f0) eqn:K'; [|exact VV]. apply flt_fin in K'; [|exact F1'|reflexivity]. change (B2R f0) with 0 in K'. lra.
Qed.
Lemma acc_better p q d : diff_ok d -> pp_totalHits p = pp_totalHits q -> pp_accObjects p = pp_accObjects q -> (0 <= pp_great p)%Z -> (0 <= pp_ok p)%Z -> (0 <= pp_meh p)%Z -> (pp_great p + pp_ok p + pp_meh p <= pp_totalHits p)%Z ->
  (0 <= pp_great q)%Z -> (0 <= pp_ok q)%Z -> (0 <= pp_meh q)%Z -> (pp_great q + pp_ok q + pp_meh q <= pp_totalHits q)%Z -> (pp_totalHits q <= 2 ^ 31)%Z -> (0 <= pp_accObjects q <= 2 ^ 31)%Z ->
  (6 * pp_great p + 2 * pp_ok p + pp_meh p <= 6 * pp_great q + 2 * pp_ok q + pp_meh q)%Z -> le2 200 (compute_acc p d) (compute_acc q d).
Proof.
  intros D ET EN G O ME T G' O' ME' T2 T' N L. unfold compute_acc. destruct (mactive _ _); [apply bd_0|]. cbv zeta. rewrite ET, EN in *.
  fold (acc_share (pp_great p) (pp_ok p) (pp_meh p) (pp_totalHits q) (pp_accObjects q)). fold (acc_share (pp_great q) (pp_ok q) (pp_meh q) (pp_totalHits q) (pp_accObjects q)). apply (le2_le 20); [lia|].
  change 20%Z with (19 + 1)%Z. apply le2_opt; [lia|lia|lia| |destruct (mactive _ _); [bdc|apply (le2_le 0); [lia|exact bd_one]]].
  change 19%Z with (18 + 1)%Z. apply le2_opt; [lia|lia|lia| |destruct (mactive _ _); [bdc|apply (le2_le 0); [lia|exact bd_one]]].
  change 18%Z with (17 + 1)%Z. apply le2_mul; [lia|lia|lia| |].
  - change 17%Z with (15 + 2)%Z. apply le2_mul; [lia|lia|lia| |bdc]. change 15%Z with (15 + 0)%Z. apply le2_mul; [lia|lia|lia|apply (od_pow_bd PR); exact D|].
    destruct (fq1_exact 24) as (F24 & E24); [lia|]. apply (unit_mono PR PO); [apply acc_share_mono; auto|exact F24|rewrite E24; lra].
  - destruct (bd_Z 31 (pp_accObjects q) N ltac:(lia)) as (Bn & _). destruct (fq1_exact 1000) as (Fk & Ek); [lia|].
    assert (Bq : bd 31 (fdiv (f_of_Z (pp_accObjects q)) (fq 1000 1))) by (apply le2_div; [lia|lia|exact Bn|exact Fk|rewrite Ek; lra]).
    destruct (unit_exp 3 10) as (Fe & Be); [bdc|]. assert (Bp : bd 32 (mpow (fdiv (f_of_Z (pp_accObjects q)) (fq 1000 1)) (fq 3 10))) by (apply (pow_bd PR 31 1); auto; lia).
    apply bd_iff in Bp as (Fp & Rp). apply le2_min'; [bdc|exact Fp|exact Fp|lra].
Qed.
Lemma share_mono g o m g' o' m' total : (0 <= g)%Z -> (0 <= o)%Z -> (0 <= m)%Z -> (g + o + m <= total)%Z -> (0 <= g')%Z -> (0 <= o')%Z -> (0 <= m')%Z -> (g' + o' + m' <= total)%Z -> (total <= 2 ^ 31)%Z ->
  (6 * g + 2 * o + m <= 6 * g' + 2 * o' + m')%Z -> le2 0 (pp_acc g o m total) (pp_acc g' o' m' total).
Proof.
  intros G O ME T G' O' ME' T2 T' L. assert (B : bd 0 (pp_acc g o m total)) by (apply (within_bd 0 1); [apply acc_unit; unfold int64; lia|apply Rle_refl]).
  assert (B' : bd 0 (pp_acc g' o' m' total)) by (apply (within_bd 0 1); [apply acc_unit; unfold int64; lia|apply Rle_refl]).
  destruct (Z.eq_dec total 0) as [Z0|NZ]. { assert (g = 0 /\ o = 0 /\ m = 0 /\ g' = 0 /\ o' = 0 /\ m' = 0)%Z as (-> & -> & -> & -> & -> & ->) by lia. exact B. }
  destruct (acc_value g o m total) as (F & E); [lia|lia|lia|lia|lia|]. destruct (acc_value g' o' m' total) as (F' & E'); [lia|lia|lia|lia|lia|].
  apply bd_iff in B as (_ & B). apply bd_iff in B' as (_ & B'). split; [exact F|]. split; [exact F'|]. split; [|apply B']. split; [apply B|]. rewrite E, E'. apply rnd64_le. unfold Rdiv. apply Rmult_le_compat_r; [left; apply Rinv_0_lt_compat, IZR_lt; lia|]. apply IZR_le. lia.
Qed.

(** ** The states of two plays *)
Lemma eff_miss_mono a combo combo' miss miss' total : counts64 a -> int64 combo -> int64 combo' -> (0 <= combo <= combo')%Z -> (miss' <= miss)%Z -> (0 <= total <= 2 ^ 53)%Z ->
  (effective_miss_count a combo' miss' total <= effective_miss_count a combo miss total)%Z.
Proof.
  intros A C C' H ML T. pose proof (eff_anti a combo combo' miss total A C C' H T) as E. destruct (eff_val a combo' miss total A C' ltac:(lia) T) as (E1 & _). destruct (eff_val a combo' miss' total A C' ltac:(lia) T) as (E2 & _). lia.
Qed.
Section States.
Context (a a' : attributes) (t t' : tally) (d : difficulty) (pp : ppv2).
Context (A : attrs_ok a) (A' : attrs_ok a') (HA : harder a a') (D : diff_ok d) (T : tally_ok t) (T' : tally_ok t') (I : improved t t').
Context (RX : mactive (d_Mods d) Relax = true -> (t_100 t' + t_50 t' <= t_100 t + t_50 t)%Z) (SP : spun_ok a d (hits t)).
Notation p := (stated pp a (t_combo t) (t_300 t) (t_100 t) (t_50 t) (t_miss t) d).
Notation q := (stated pp a' (t_combo t') (t_300 t') (t_100 t') (t_50 t') (t_miss t') d).
Lemma same_eff combo miss total : effective_miss_count (capped a') combo miss total = effective_miss_count (capped a) combo miss total.
Proof. destruct HA as (_ & _ & _ & _ & _ & _ & S & _ & MC). unfold effective_miss_count, capped. cbn [at_Sliders at_MaxCombo]. now rewrite S, MC. Qed.
Lemma eff_le : (0 <= pp_effMiss q <= pp_effMiss p)%Z /\ (pp_effMiss p <= hits t)%Z /\ (0 <= effective_miss_count (capped a') (t_combo t') (t_miss t') (hits t') <= effective_miss_count (capped a) (t_combo t) (t_miss t) (hits t))%Z /\
  (effective_miss_count (capped a) (t_combo t) (t_miss t) (hits t) <= hits t)%Z.
Proof.
  destruct T as (H & C). destruct T' as (H' & C'). destruct I as (IH & IC & I3 & I5 & IM).
  destruct (st_fields pp a _ _ _ _ d A H _ C) as (_ & _ & _ & _ & _ & _ & _ & _ & E & _). destruct (st_fields pp a' _ _ _ _ d A' H' _ C') as (_ & _ & _ & _ & _ & _ & _ & _ & E' & _).
  pose proof (eff_range a _ _ _ _ A H _ C) as R. pose proof (eff_range a' _ _ _ _ A' H' _ C') as R'. fold (hits t) in *. fold (hits t') in *. destruct (ea_ok a A) as (_ & _ & C64).
  destruct H as (H1 & H2 & H3 & H4 & H5). destruct H' as (H1' & H2' & H3' & H4' & H5'). fold (hits t) in H5. fold (hits t') in H5'.
  assert (L : (effective_miss_count (capped a') (t_combo t') (t_miss t') (hits t') <= effective_miss_count (capped a) (t_combo t) (t_miss t) (hits t))%Z).
  { rewrite same_eff, <- IH. apply eff_miss_mono; auto; unfold int64; lia. }
  rewrite E, E'. destruct (mactive _ Relax) eqn:RB; [specialize (RX eq_refl)|]; lia.
Qed.
Lemma attrs_le : le2 20 (at_Aim a) (at_Aim a') /\ le2 20 (at_Speed a) (at_Speed a') /\ le2 20 (at_Flashlight a) (at_Flashlight a').
Proof.
  destruct A as (A1 & A2 & A3 & _). destruct A' as (B1 & B2 & B3 & _). destruct HA as (C1 & C2 & C3 & _).
  assert (Q : forall x x' : f64, within 0 1048576 x -> within 0 1048576 x' -> B2R x <= B2R x' -> le2 20 x x').
  { intros x x' (F & B) (F' & B') L. split; [exact F|]. split; [exact F'|]. change (bpow radix2 20) with 1048576. lra. }
  auto.
Qed.
Lemma states_below : below p q.
Proof.
  pose proof attrs_le as (L1 & L2 & L3). pose proof eff_le as (EL & EM & _ & _). destruct T as (H & C). destruct T' as (H' & C'). destruct I as (IH & IC & I3 & I5 & IM).
  destruct (st_fields pp a _ _ _ _ d A H _ C) as (E1 & E2 & E3 & E4 & E5 & E6 & E7 & E8 & E9 & E10). destruct (st_fields pp a' _ _ _ _ d A' H' _ C') as (F1 & F2 & F3 & F4 & F5 & F6 & F7 & F8 & F9 & F10).
  destruct (ea_ok a A) as (EA & MC & C64). destruct (ea_ok a' A') as (EA' & MC' & C64').
  destruct (missed_st pp a _ _ _ _ d A H _ C) as (M1 & J1). destruct (missed_st pp a' _ _ _ _ d A' H' _ C') as (M2 & J2).
  destruct (aim_expo pp a _ _ _ _ d A H _ C) as (Fa & Va & Ba). destruct (aim_expo pp a' _ _ _ _ d A' H' _ C') as (Fa' & Va' & Ba').
  pose proof HA as (_ & _ & _ & HSF & HO & HC & HS & HP & HM). assert (EC : capped a' = mkAttr (at_Total a') (at_Aim a') (at_SliderFactor a) (at_Speed a') (at_Flashlight a') (at_ObjectCount a) (at_Circles a) (at_Sliders a) (at_Spinners a) (maxI 1 (at_MaxCombo a))) by (unfold capped; rewrite HSF, HO, HC, HS, HP, HM; reflexivity).
  destruct H as (H1 & H2 & H3 & H4 & H5). destruct H' as (H1' & H2' & H3' & H4' & H5'). fold (hits t) in *. fold (hits t') in *.
  constructor.
  - rewrite E1, F1. exact L1.
  - rewrite E1, F1. exact L2.
  - rewrite E1, F1. exact L3.
  - rewrite E7, F7. lia.
  - rewrite E8, F8, IH. apply share_mono; unfold hits in *; lia.
  - rewrite E5, F5. unfold hits in *. lia.
  - rewrite E7, F7, IH. apply (pen_mono PR PO); auto; try lia. rewrite Va, Va'. split; apply IZR_le; lia.
  - rewrite E7, F7, IH. destruct (miss_expo PR PO (pp_effMiss p) (pp_effMiss q) ltac:(lia) ltac:(lia)) as (Q1 & Q2 & Q3 & _). apply (pen_mono PR PO); auto; lia.
  - rewrite E1, E2, F1, F2. replace (at_MaxCombo (capped a')) with (at_MaxCombo (capped a)) by (rewrite EC; reflexivity). apply (scal_mono PR PO); lia.
  - assert (NE : forall r r', pp_attribs r = capped a -> pp_attribs r' = capped a' -> int64 (missed r) -> int64 (missed r') -> (missed r' <= missed r)%Z -> le2 1 (nerf r) (nerf r')).
    { intros r r' R1 R2 J K L. set (r2 := mkPP (pp_Results r') (capped a) (pp_scoreMaxCombo r') (pp_great r') (pp_ok r') (pp_meh r') (pp_miss r') (pp_effMiss r') (pp_diff r') (pp_totalHits r') (pp_accuracy r') (pp_accObjects r')).
      assert (MS : missed r2 = missed r') by (unfold missed, r2; cbn [pp_attribs pp_ok pp_meh pp_miss pp_scoreMaxCombo]; rewrite R2, EC; reflexivity).
      assert (NS : nerf r' = nerf r2) by (rewrite !nerf_eq, MS, R2, EC; unfold r2; cbn [pp_attribs]; reflexivity). rewrite NS. apply (nerf_mono PR PO); [rewrite R1; exact EA|rewrite R1; reflexivity|exact J|rewrite MS; exact K|rewrite MS; exact L]. }
    apply NE; auto. rewrite M1, M2. replace (at_MaxCombo (capped a')) with (at_MaxCombo (capped a)) by (rewrite EC; reflexivity). unfold hits in *. lia.
Qed.
Lemma all_better :
  le2 200 (compute_aim p d) (compute_aim q d) /\ le2 200 (compute_speed p d) (compute_speed q d) /\ le2 200 (compute_acc p d) (compute_acc q d) /\
  le2 200 (compute_flashlight p d) (compute_flashlight q d) /\ le2 406 (r_Total (results_of p d)) (r_Total (results_of q d)).
Proof.
  pose proof states_below as B. pose proof eff_le as (_ & _ & EL & EM). destruct T as (H & C). destruct T' as (H' & C'). destruct I as (IH & IC & I3 & I5 & IM).
  destruct (st_fields pp a _ _ _ _ d A H _ C) as (E1 & E2 & E3 & E4 & E5 & E6 & E7 & E8 & E9 & E10). destruct (st_fields pp a' _ _ _ _ d A' H' _ C') as (F1 & F2 & F3 & F4 & F5 & F6 & F7 & F8 & F9 & F10).
  pose proof (acc_objects pp a _ _ _ _ d A H _ C) as AO. pose proof HA as (_ & _ & _ & HSF & HO & HC & HS & HP & HM).
  destruct H as (H1 & H2 & H3 & H4 & H5). destruct H' as (H1' & H2' & H3' & H4' & H5'). fold (hits t) in *. fold (hits t') in *.
  assert (NN : pp_accObjects p = pp_accObjects q) by (rewrite E10, F10; change (at_ObjectCount (capped a)) with (at_ObjectCount a); change (at_Circles (capped a)) with (at_Circles a); change (at_ObjectCount (capped a')) with (at_ObjectCount a'); change (at_Circles (capped a')) with (at_Circles a'); rewrite HO, HC; reflexivity).
  assert (AC : le2 200 (compute_acc p d) (compute_acc q d)). { apply acc_better; rewrite ?E3, ?E4, ?E5, ?E7, ?F3, ?F4, ?F5, ?F7; auto; unfold hits in *; lia. }
  pose proof (aim_better p q d D B) as AI. pose proof (speed_better p q d D B) as S. pose proof (flash_better p q d D B) as FL.
  split; [exact AI|]. split; [exact S|]. split; [exact AC|]. split; [exact FL|]. unfold results_of. cbn [r_Total]. apply (total_mono PR PO); auto.
  rewrite E1, E2, E6, E7, F1, F2, F6, F7. change (at_Spinners (capped a)) with (at_Spinners a). change (at_Spinners (capped a')) with (at_Spinners a'). rewrite <- HP. rewrite <- IH in *. apply (final_mono PR); auto; try lia.
  intros SO. specialize (SP SO). destruct A as (_ & _ & _ & _ & _ & _ & _ & A8 & _). lia.
Qed.
End States.
End WithLibm.

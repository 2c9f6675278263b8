(** Assembly: accuracy, slider nerf, final multiplier, totals. *)
From Coq Require Import Reals Lra.
From Flocq Require Import Raux Zaux Core BinarySingleNaN.
From Verif Require Import PP SpecPP BaseLemmas FloatLemmas Float32Lemmas SkillProofs CurveProofs PPProofs PPBounds PPChains.
Open Scope R_scope.
Ltac bdc := apply bd_const; [vm_compute; reflexivity|vm_compute; reflexivity|vm_compute; reflexivity|lia].

(** the estimated number of difficult sliders *)
Lemma eds_val s : (1 <= s <= 2 ^ 31)%Z -> fin (fmul (f_of_Z s) (fq 15 100)) /\ 0 < B2R (fmul (f_of_Z s) (fq 15 100)).
Proof.
  intros S. destruct (bd_Z 31 s ltac:(lia) ltac:(lia)) as (Bs & Es). assert (C : bd 0 (fq 15 100)) by bdc. pose proof (le2_mul 31 0 _ _ _ _ ltac:(lia) ltac:(lia) ltac:(lia) Bs C) as (F & _ & B & _).
  split; [exact F|]. apply bd_iff in Bs as (Fs & _). apply bd_iff in C as (Fc & Bc). assert (Pc : 0 < B2R (fq 15 100)).
  { assert (L : flt f0 (fq 15 100) = true) by (vm_compute; reflexivity). apply flt_fin in L; [exact L|reflexivity|exact Fc]. }
  assert (H1 : 1 <= IZR s) by (apply IZR_le; lia). assert (H2 : IZR s <= IZR (2 ^ 31)) by (apply IZR_le; lia). change (IZR (2 ^ 31)) with (bpow radix2 31) in H2. change (bpow radix2 0) with 1 in Bc.
  destruct (fmul_fin _ _ Fs Fc) as (_ & ->). { rewrite Es, Rabs_pos_eq by nra. apply Rle_trans with (bpow radix2 31); [nra|apply bpow_le; lia]. }
  apply Rlt_le_trans with (B2R (fq 15 100)); [exact Pc|]. apply rnd64_ge_f. rewrite Es. nra.
Qed.
(** the share of difficult sliders dropped, clamped *)
Definition drop (x e : f64) : f64 := fdiv (clampF64 x f0 e) e.
Lemma clamp_fin (x e : f64) : fin x -> fin e -> fin (clampF64 x f0 e) /\ B2R (clampF64 x f0 e) = Rmin (B2R e) (Rmax 0 (B2R x)).
Proof.
  intros Fx Fe. unfold clampF64. assert (F0 : fin f0) by reflexivity. destruct (fmax_fin f0 x F0 Fx) as (Fm & Em). destruct (fmin_fin e _ Fe Fm) as (F & E). split; [exact F|]. rewrite E, Em. reflexivity.
Qed.
Lemma drop_le2 x x' e : fin x -> fin x' -> fin e -> 0 < B2R e -> B2R x <= B2R x' -> le2 0 (drop x e) (drop x' e).
Proof.
  intros Fx Fx' Fe Pe L. unfold drop. destruct (clamp_fin x e Fx Fe) as (F & E). destruct (clamp_fin x' e Fx' Fe) as (F' & E').
  set (c := clampF64 x f0 e) in *. set (c' := clampF64 x' f0 e) in *. clearbody c c'.
  assert (B : 0 <= B2R c <= B2R c') by (rewrite E, E'; unfold Rmin, Rmax; repeat destruct (Rle_dec _ _); lra). assert (B' : B2R c' <= B2R e) by (rewrite E'; apply Rmin_l).
  assert (I : 0 < / B2R e) by (apply Rinv_0_lt_compat; exact Pe). assert (Q : forall y, 0 <= y <= B2R e -> 0 <= y / B2R e <= 1).
  { intros y Y. split; [apply Rmult_le_pos; lra|]. apply Rmult_le_reg_r with (B2R e); [exact Pe|]. unfold Rdiv. rewrite Rmult_assoc, Rinv_l by lra. lra. }
  pose proof (Q (B2R c) ltac:(lra)) as Q1. pose proof (Q (B2R c') ltac:(lra)) as Q2. assert (S : 1 <= bpow radix2 1023) by (change 1 with (bpow radix2 0); apply bpow_le; lia).
  destruct (fdiv_fin c e F Fe) as (G & H); [lra|rewrite Rabs_pos_eq; lra|]. destruct (fdiv_fin c' e F' Fe) as (G' & H'); [lra|rewrite Rabs_pos_eq; lra|].
  split; [exact G|]. split; [exact G'|]. rewrite H, H'. split; [split; [apply rnd64_pos; lra|apply rnd64_le; unfold Rdiv; apply Rmult_le_compat_r; lra]|].
  apply rnd_le_pow; [lia|]. change (bpow radix2 0) with 1. lra.
Qed.

Section WithLibm.
Context {M : libm}.
Context (PR : pow_ranges) (LR : log_above).
Notation three := (fq 3 1).
Lemma three_val : fin three /\ 0 <= B2R three. Proof. destruct (fq1_exact 3) as (F & E); [lia|]. split; [exact F|]. rewrite E. lra. Qed.
Definition missed (p : ppv2) : Z := minI (wrap64 (wrap64 (pp_ok p + pp_meh p) + pp_miss p)) (wrap64 (at_MaxCombo (pp_attribs p) - pp_scoreMaxCombo p)).
Lemma nerf_eq p : nerf p = if (0 <? at_Sliders (pp_attribs p))%Z then
    fadd (fmul (fsub (fq 1 1) (at_SliderFactor (pp_attribs p))) (mpow (fsub (fq 1 1) (drop (f_of_Z (missed p)) (fmul (f_of_Z (at_Sliders (pp_attribs p))) (fq 15 100)))) (fq 3 1)))
         (at_SliderFactor (pp_attribs p)) else fq 1 1.
Proof. reflexivity. Qed.
Lemma nerf_le2 p q : attrs_ok (pp_attribs p) -> pp_attribs p = pp_attribs q ->
  int64 (missed p) -> int64 (missed q) ->
  (forall c e, e = fmul (f_of_Z (at_Sliders (pp_attribs p))) (fq 15 100) -> c = (fun r => mpow (fsub (fq 1 1) (drop (f_of_Z (missed r)) e)) (fq 3 1)) -> le2 0 (c p) (c q)) ->
  le2 1 (nerf p) (nerf q).
Proof.
  intros A E Ip Iq C. rewrite !nerf_eq, <- E. destruct (Z.ltb_spec 0 (at_Sliders (pp_attribs p))) as [S|S]; [|apply (le2_le 0); [lia|exact bd_one]].
  destruct A as (_ & _ & _ & SF & _ & _ & SL & _). pose proof (within_bd 0 1 _ SF ltac:(apply Rle_refl)) as SB. apply (le2_add 0); [lia|lia| |exact SB].
  apply (le2_mul 0 0); [lia|lia|lia|apply le2_compl; exact SB|]. exact (C _ _ eq_refl eq_refl).
Qed.
Lemma nerf_bd p : attrs_ok (pp_attribs p) -> int64 (missed p) -> bd 1 (nerf p).
Proof.
  intros A I. destruct (Z.ltb_spec 0 (at_Sliders (pp_attribs p))) as [S|S].
  - apply nerf_le2; auto. intros c e -> ->. destruct three_val as (F3 & B3). apply (unit_bd PR); [|exact F3|exact B3]. apply le2_compl.
    destruct (eds_val (at_Sliders (pp_attribs p))) as (Fe & Pe); [destruct A as (_ & _ & _ & _ & _ & _ & SL & _); lia|]. destruct (fZ_int _ I) as (Fi & _). apply drop_le2; auto. lra.
  - rewrite nerf_eq. rewrite (proj2 (Z.ltb_ge _ _)) by lia. apply (le2_le 0); [lia|exact bd_one].
Qed.

(** ** Accuracy pp *)
Definition acc_share (great ok meh total n : Z) : f64 :=
  let b := if (0 <? n)%Z then
               fdiv (f_of_Z (wrap64 (wrap64 (wrap64 (wrap64 (great - wrap64 (total - n)) * 6)
                                             + wrap64 (ok * 2)) + meh)))
                    (fmul (f_of_Z n) (fq 6 1))
             else f0 in
  if flt b f0 then f0 else b.
Lemma acc_share_bd great ok meh total n : (0 <= great)%Z -> (0 <= ok)%Z -> (0 <= meh)%Z -> (great + ok + meh <= total)%Z -> (total <= 2 ^ 31)%Z -> (0 <= n <= 2 ^ 31)%Z ->
  bd 0 (acc_share great ok meh total n).
Proof.
  intros G O ME T T' N. unfold acc_share. destruct (Z.ltb_spec 0 n) as [L|L]; [|destruct (flt f0 f0); apply bd_0].
  rewrite (wrap_id (total - n)), (wrap_id (great - (total - n))), (wrap_id ((great - (total - n)) * 6)), (wrap_id (ok * 2)), (wrap_id (_ + ok * 2)), (wrap_id (_ + meh)) by (unfold int64; lia).
  set (x := ((great - (total - n)) * 6 + ok * 2 + meh)%Z). assert (X : (- (6 * 2 ^ 31) <= x <= 6 * n)%Z) by (unfold x; lia). clearbody x.
  destruct (f_of_Z_exact x) as (Fx & Ex); [lia|]. destruct (f_of_Z_exact n) as (Fn & En); [lia|]. destruct (fq1_exact 6) as (F6 & E6); [lia|].
  assert (Q : B2R (f_of_Z n) * B2R (fq 6 1) = IZR (6 * n)) by (rewrite En, E6, <- mult_IZR; f_equal; ring).
  destruct (fmul_fin _ _ Fn F6) as (Fm & Em); [rewrite Q; apply small_int; lia|]. rewrite Q, rnd64_Z in Em by lia. set (m := fmul _ _) in *. clearbody m.
  assert (P : 0 < IZR (6 * n)) by (apply IZR_lt; lia). assert (I : 0 < / IZR (6 * n)) by (apply Rinv_0_lt_compat; exact P). assert (P1 : 1 <= IZR (6 * n)) by (apply IZR_le; lia).
  assert (I1 : / IZR (6 * n) <= 1) by (rewrite <- Rinv_1; apply Rinv_le_contravar; lra).
  assert (X1 : IZR (- (6 * 2 ^ 31)) <= IZR x) by (apply IZR_le; lia). assert (X2 : IZR x <= IZR (6 * n)) by (apply IZR_le; lia).
  assert (B1 : IZR x / IZR (6 * n) <= 1) by (apply Rmult_le_reg_r with (IZR (6 * n)); [exact P|]; unfold Rdiv; rewrite Rmult_assoc, Rinv_l by lra; lra).
  assert (B2 : -12884901888 <= IZR x / IZR (6 * n)). { unfold Rdiv. change (IZR (- (6 * 2 ^ 31))) with (-12884901888) in X1. nra. }
  destruct (fdiv_fin _ m Fx Fm) as (Fd & Ed); [rewrite Em; lra|rewrite Ex, Em; apply Rle_trans with (bpow radix2 34); [change (bpow radix2 34) with (IZR (2 ^ 34)); apply Rabs_le; lra|apply bpow_le; lia]|].
  rewrite Ex, Em in Ed. destruct (flt _ _) eqn:FL; [apply bd_0|]. apply flt_fin_false in FL; [|exact Fd|reflexivity]. change (B2R f0) with 0 in FL. apply bd_iff. split; [exact Fd|]. split; [exact FL|].
  rewrite Ed. apply rnd_le_pow; [lia|]. exact B1.
Qed.
Lemma od_pow_bd d : diff_ok d -> bd 15 (mpow (fq 152163 100000) (d_ODReal d)).
Proof.
  intros (_ & (F & B)). assert (Fc : fin (fq 152163 100000)) by (vm_compute; reflexivity).
  assert (Bc : IZR 1 <= B2R (fq 152163 100000) <= IZR 2) by (apply between_Z; [exact Fc|lia|lia|vm_compute; reflexivity|vm_compute; reflexivity]).
  destruct (Rle_dec (B2R (d_ODReal d)) 0) as [L|L].
  - apply (within_bd _ 1); [apply (pow_below PR); auto; apply Bc|]. change 1 with (bpow radix2 0). apply bpow_le. lia.
  - apply Rnot_le_lt in L. destruct (pow_above PR (fq 152163 100000) (d_ODReal d) 1 14 Fc F ltac:(lia) ltac:(lia)) as (F1 & B1); [exact Bc|lra|].
    apply bd_iff. split; [exact F1|]. change (1 * 14 + 1)%Z with 15%Z in B1. lra.
Qed.
Lemma acc_bd p d : diff_ok d -> (0 <= pp_great p)%Z -> (0 <= pp_ok p)%Z -> (0 <= pp_meh p)%Z -> (pp_great p + pp_ok p + pp_meh p <= pp_totalHits p)%Z -> (pp_totalHits p <= 2 ^ 31)%Z ->
  (0 <= pp_accObjects p <= 2 ^ 31)%Z -> bd 200 (compute_acc p d).
Proof.
  intros D G O ME T T' N. unfold compute_acc. destruct (mactive _ _); [apply bd_0|]. fold (acc_share (pp_great p) (pp_ok p) (pp_meh p) (pp_totalHits p) (pp_accObjects p)). apply (le2_le 20); [lia|].
  change 20%Z with (19 + 1)%Z. apply le2_opt; [lia|lia|lia| |destruct (mactive _ _); [bdc|apply (le2_le 0); [lia|exact bd_one]]].
  change 19%Z with (18 + 1)%Z. apply le2_opt; [lia|lia|lia| |destruct (mactive _ _); [bdc|apply (le2_le 0); [lia|exact bd_one]]].
  change 18%Z with (17 + 1)%Z. apply le2_mul; [lia|lia|lia| |].
  - change 17%Z with (15 + 2)%Z. apply le2_mul; [lia|lia|lia| |bdc]. change 15%Z with (15 + 0)%Z. apply le2_mul; [lia|lia|lia|apply od_pow_bd; exact D|].
    destruct (fq1_exact 24) as (F24 & E24); [lia|]. apply (unit_bd PR); [apply acc_share_bd; auto|exact F24|rewrite E24; lra].
  - destruct (bd_Z 31 (pp_accObjects p) N ltac:(lia)) as (Bn & _). destruct (fq1_exact 1000) as (Fk & Ek); [lia|].
    assert (Bq : bd 31 (fdiv (f_of_Z (pp_accObjects p)) (fq 1000 1))) by (apply le2_div; [lia|lia|exact Bn|exact Fk|rewrite Ek; lra]).
    destruct (unit_exp 3 10) as (Fe & Be); [bdc|]. assert (Bp : bd 32 (mpow (fdiv (f_of_Z (pp_accObjects p)) (fq 1000 1)) (fq 3 10))) by (apply (pow_bd PR 31 1); auto; lia).
    apply bd_iff in Bp as (Fp & Rp). apply le2_min'; [bdc|exact Fp|exact Fp|lra].
Qed.
(** ** Final multiplier *)
Lemma final_bd mods eff sp total : (0 <= eff <= 2 ^ 31)%Z -> (0 <= sp <= total)%Z -> (total <= 2 ^ 31)%Z -> bd 1 (final_multiplier mods eff sp total).
Proof.
  intros E S T. unfold final_multiplier.
  apply (le2_opt 1 0); [lia|lia|lia| |destruct (mactive _ _); [bdc|exact bd_one]].
  apply (le2_opt 1 0); [lia|lia|lia| |].
  2:{ destruct (Z.ltb_spec 0 total) as [L|L]; cbn [andb]; [|exact bd_one]. destruct (mactive _ _); [|exact bd_one]. apply le2_compl. destruct (unit_exp 85 100) as (Fe & Be); [bdc|].
      apply (unit_bd PR); [|exact Fe|apply Be]. apply le2_ratio; lia. }
  apply (le2_opt 1 0); [lia|lia|lia|bdc|]. destruct (mactive _ _); [|exact bd_one].
  destruct (bd_Z 31 eff E ltac:(lia)) as (Be & _). assert (C : bd 0 (fq 2 100)) by bdc. pose proof (le2_mul 0 31 _ _ _ _ ltac:(lia) ltac:(lia) ltac:(lia) C Be) as X. apply bd_iff in X as (Fx & Bx).
  destruct one_val as (F1 & E1). change (bpow radix2 (0 + 31)) with (IZR (2 ^ 31)) in Bx.
  destruct (fsub_fin _ _ F1 Fx) as (Fs & Es); [rewrite E1; apply Rle_trans with (bpow radix2 31); [change (bpow radix2 31) with (IZR (2 ^ 31)); apply Rabs_le; lra|apply bpow_le; lia]|].
  assert (N : bd 0 (fq 90 100)) by bdc. apply bd_iff in N as (Fn & Bn). destruct (fmax_fin _ _ Fn Fs) as (Fm & Em). apply bd_iff. split; [exact Fm|]. rewrite Em. change (bpow radix2 0) with 1 in *.
  assert (Us : B2R (fsub (fq 1 1) (fmul (fq 2 100) (f_of_Z eff))) <= 1) by (rewrite Es, E1; apply (rnd64_exact_Z 1); [lia|lra]).
  split; [apply Rle_trans with (B2R (fq 90 100)); [lra|apply Rmax_l]|apply Rmax_lub; lra].
Qed.
(** ** The total *)
Lemma exp_11_10 : fin (fq 11 10) /\ 0 <= B2R (fq 11 10) <= IZR 2.
Proof. assert (F : fin (fq 11 10)) by (vm_compute; reflexivity). split; [exact F|]. apply (between_Z _ 0 2); [exact F|lia|lia|vm_compute; reflexivity|vm_compute; reflexivity]. Qed.
Definition total_of (r1 r2 r3 r4 fm : f64) : f64 :=
  fmul (mpow (fadd (fadd (fadd (mpow r1 (fq 11 10)) (mpow r2 (fq 11 10))) (mpow r3 (fq 11 10))) (mpow r4 (fq 11 10))) (fq 10 11)) fm.
Lemma total_bd r1 r2 r3 r4 fm : bd 200 r1 -> bd 200 r2 -> bd 200 r3 -> bd 200 r4 -> bd 1 fm -> bd 406 (total_of r1 r2 r3 r4 fm).
Proof.
  intros H1 H2 H3 H4 HF. unfold total_of. destruct exp_11_10 as (Fe & Be). destruct (unit_exp 10 11) as (Fg & Bg); [bdc|].
  change 406%Z with (405 + 1)%Z. apply le2_mul; [lia|lia|lia| |exact HF]. change 405%Z with (404 * 1 + 1)%Z. apply (pow_bd PR 404 1); auto; try lia.
  assert (P : forall r, bd 200 r -> bd 401 (mpow r (fq 11 10))) by (intros r H; apply (pow_bd PR 200 2); auto; lia).
  apply (le2_add 403); [lia|lia| |apply (le2_le 401); [lia|now apply P]]. apply (le2_add 402); [lia|lia| |apply (le2_le 401); [lia|now apply P]]. apply (le2_add 401); [lia|lia|now apply P|now apply P].
Qed.

(** ** The state PPv2x computes with *)
Definition set_results (p : ppv2) (r : pp_results) : ppv2 :=
  mkPP r (pp_attribs p) (pp_scoreMaxCombo p) (pp_great p) (pp_ok p) (pp_meh p) (pp_miss p) (pp_effMiss p) (pp_diff p) (pp_totalHits p) (pp_accuracy p) (pp_accObjects p).
Definition capped (a : attributes) : attributes :=
  mkAttr (at_Total a) (at_Aim a) (at_SliderFactor a) (at_Speed a) (at_Flashlight a) (at_ObjectCount a) (at_Circles a) (at_Sliders a) (at_Spinners a) (maxI 1 (at_MaxCombo a)).
Definition stated (pp : ppv2) (a : attributes) (combo n300 n100 n50 nmiss : Z) (d : difficulty) : ppv2 :=
  let a := capped a in
  let combo := if (combo <? 0)%Z then at_MaxCombo a else combo in
  let n300 := if (n300 <? 0)%Z then wrap64 (wrap64 (wrap64 (at_ObjectCount a - n100) - n50) - nmiss) else n300 in
  let total := wrap64 (wrap64 (wrap64 (n300 + n100) + n50) + nmiss) in
  let eff := effective_miss_count a combo nmiss total in
  mkPP (pp_Results pp) a combo n300 n100 n50 nmiss (if mactive (d_Mods d) Relax then minI (wrap64 (wrap64 (eff + n100) + n50)) total else eff)
    (Some d) total (pp_acc n300 n100 n50 total) (if check_mod d ScoreV2 then at_ObjectCount a else at_Circles a).
Definition results_of (p : ppv2) (d : difficulty) : pp_results :=
  mkResults (compute_aim p d) (compute_speed p d) (compute_acc p d) (compute_flashlight p d)
    (total_of (compute_aim p d) (compute_speed p d) (compute_acc p d) (compute_flashlight p d)
       (final_multiplier (d_Mods d) (effective_miss_count (pp_attribs p) (pp_scoreMaxCombo p) (pp_miss p) (pp_totalHits p)) (at_Spinners (pp_attribs p)) (pp_totalHits p))).
Lemma ppv2x_eq pp a combo n300 n100 n50 nmiss d : ppv2x pp a combo n300 n100 n50 nmiss d =
  set_results (stated pp a combo n300 n100 n50 nmiss d) (results_of (stated pp a combo n300 n100 n50 nmiss d) d).
Proof. unfold ppv2x, set_results, results_of, stated, capped, total_of. cbv beta zeta. cbn [pp_Results pp_attribs pp_scoreMaxCombo pp_great pp_ok pp_meh pp_miss pp_effMiss pp_diff pp_totalHits pp_accuracy pp_accObjects at_MaxCombo at_ObjectCount at_Circles at_Spinners]. reflexivity. Qed.
Lemma set_acc p r : pp_accuracy (set_results p r) = pp_accuracy p. Proof. reflexivity. Qed.
Lemma set_eff p r : pp_effMiss (set_results p r) = pp_effMiss p. Proof. reflexivity. Qed.
Lemma set_res p r : pp_Results (set_results p r) = r. Proof. reflexivity. Qed.
Lemma results_at pp a combo n300 n100 n50 nmiss d : pp_Results (ppv2x pp a combo n300 n100 n50 nmiss d) = results_of (stated pp a combo n300 n100 n50 nmiss d) d.
Proof. exact (eq_trans (f_equal pp_Results (ppv2x_eq pp a combo n300 n100 n50 nmiss d)) (set_res _ _)). Qed.
Lemma accuracy_at pp a combo n300 n100 n50 nmiss d : pp_accuracy (ppv2x pp a combo n300 n100 n50 nmiss d) = pp_accuracy (stated pp a combo n300 n100 n50 nmiss d).
Proof. exact (eq_trans (f_equal pp_accuracy (ppv2x_eq pp a combo n300 n100 n50 nmiss d)) (set_acc _ _)). Qed.
Lemma accuracy_stated pp a combo n300 n100 n50 nmiss d : pp_accuracy (stated pp a combo n300 n100 n50 nmiss d) =
  let g := if (n300 <? 0)%Z then wrap64 (wrap64 (wrap64 (at_ObjectCount a - n100) - n50) - nmiss) else n300 in pp_acc g n100 n50 (wrap64 (wrap64 (wrap64 (g + n100) + n50) + nmiss)).
Proof. unfold stated. cbv zeta. cbn [pp_accuracy]. change (at_ObjectCount (capped a)) with (at_ObjectCount a). reflexivity. Qed.
Lemma eff_at pp a combo n300 n100 n50 nmiss d : pp_effMiss (ppv2x pp a combo n300 n100 n50 nmiss d) = pp_effMiss (stated pp a combo n300 n100 n50 nmiss d).
Proof. exact (eq_trans (f_equal pp_effMiss (ppv2x_eq pp a combo n300 n100 n50 nmiss d)) (set_eff _ _)). Qed.
Lemma ppv2x_ext pp pp' a a' combo combo' n300 n300' n100 n50 nmiss d : stated pp a combo n300 n100 n50 nmiss d = stated pp' a' combo' n300' n100 n50 nmiss d ->
  ppv2x pp a combo n300 n100 n50 nmiss d = ppv2x pp' a' combo' n300' n100 n50 nmiss d.
Proof. intros E. exact (eq_trans (ppv2x_eq pp a combo n300 n100 n50 nmiss d) (eq_trans (f_equal (fun s => set_results s (results_of s d)) E) (eq_sym (ppv2x_eq pp' a' combo' n300' n100 n50 nmiss d)))). Qed.
Lemma aim_ext p r d : compute_aim (set_results p r) d = compute_aim p d.
Proof. unfold compute_aim, set_results. cbv beta zeta. cbn [pp_attribs pp_scoreMaxCombo pp_great pp_ok pp_meh pp_miss pp_effMiss pp_diff pp_totalHits pp_accuracy pp_accObjects]. reflexivity. Qed.
End WithLibm.

(** Monotonicity in the combo, and the bounds on the whole of PPv2x. *)
From Coq Require Import Reals Lra.
From Flocq Require Import Raux Zaux Core BinarySingleNaN.
From Verif Require Import PP SpecPP BaseLemmas FloatLemmas Float32Lemmas SkillProofs CurveProofs PPProofs PPBounds PPChains PPFinal.
Open Scope R_scope.
Ltac bdc := apply bd_const; [vm_compute; reflexivity|vm_compute; reflexivity|vm_compute; reflexivity|lia].

Section WithLibm.
Context {M : libm}.
Context (PR : pow_ranges) (LR : log_above).
(** ** Monotone pieces *)
Section Orders.
Context (PO : pow_orders).
Lemma unit_mono x x' y : le2 0 x x' -> fin y -> 0 <= B2R y -> le2 0 (mpow x y) (mpow x' y).
Proof.
  intros H Fy By. destruct (le2_bd _ _ _ H) as (Bx & Bx'). pose proof (unit_bd PR x y Bx Fy By) as P. pose proof (unit_bd PR x' y Bx' Fy By) as P'.
  apply bd_iff in P as (F & P). apply bd_iff in P' as (F' & P'). destruct H as (Hx & Hx' & B & _). split; [exact F|]. split; [exact F'|]. split; [split; [apply P|]|apply P'].
  now apply (pow_base_mono PO).
Qed.
Lemma pow_mono k n x x' y : le2 k x x' -> fin y -> 0 <= B2R y <= IZR n -> (0 <= k)%Z -> (1 <= n)%Z -> (k * n <= 900)%Z -> le2 (k * n + 1) (mpow x y) (mpow x' y).
Proof.
  intros H Fy By K N L. destruct (le2_bd _ _ _ H) as (Bx & Bx'). pose proof (pow_bd PR k n x y Bx Fy By K N L) as P. pose proof (pow_bd PR k n x' y Bx' Fy By K N L) as P'.
  apply bd_iff in P as (F & P). apply bd_iff in P' as (F' & P'). destruct H as (Hx & Hx' & B & _). split; [exact F|]. split; [exact F'|]. split; [split; [apply P|]|apply P'].
  apply (pow_base_mono PO); auto. apply By.
Qed.
Lemma unit_anti x y y' : bd 0 x -> fin y -> fin y' -> 0 <= B2R y <= B2R y' -> le2 0 (mpow x y') (mpow x y).
Proof.
  intros H Fy Fy' By. pose proof (unit_bd PR x y H Fy ltac:(lra)) as P. pose proof (unit_bd PR x y' H Fy' ltac:(lra)) as P'.
  apply bd_iff in P as (F & P). apply bd_iff in P' as (F' & P'). apply bd_iff in H as (Fx & Bx). split; [exact F'|]. split; [exact F|]. split; [split; [apply P'|]|apply P].
  now apply (pow_exp_anti PO).
Qed.
Lemma le2_trans k x y z : le2 k x y -> le2 k y z -> le2 k x z.
Proof. intros (F & F' & B & C) (_ & F2 & B' & C'). split; [exact F|]. split; [exact F2|]. lra. Qed.
Lemma pen_mono eff eff' total expo expo' : (0 <= eff' <= eff)%Z -> (eff <= total <= 2 ^ 31)%Z -> fin expo -> fin expo' -> 0 <= B2R expo' <= B2R expo ->
  le2 0 (pen eff total expo) (pen eff' total expo').
Proof.
  intros E T F F' B. unfold pen. destruct (Z.ltb_spec 0 eff) as [L|L].
  - assert (PB : bd 0 (miss_penalty eff total expo)). { pose proof (penalty_bd PR eff total expo ltac:(lia) ltac:(lia) F ltac:(lra)) as P. unfold pen in P. now rewrite (proj2 (Z.ltb_lt 0 eff) L) in P. }
    destruct (Z.ltb_spec 0 eff') as [L'|L'].
    + unfold miss_penalty. apply (le2_mul 0 0); [lia|lia|lia|bdc|]. destruct (unit_exp 775 1000) as (Fe & Be); [bdc|].
      set (b := fsub (fq 1 1) _). set (b' := fsub (fq 1 1) (mpow (fdiv (f_of_Z eff') _) _)).
      assert (BB : le2 0 b b') by (apply le2_compl; apply unit_mono; [apply le2_ratio; lia|exact Fe|apply Be]).
      apply le2_trans with (mpow b' expo); [apply unit_mono; [exact BB|exact F|lra]|]. apply unit_anti; auto. exact (proj2 (le2_bd _ _ _ BB)).
    + apply bd_iff in PB as (Fp & Bp). destruct one_val as (F1 & E1). change (bpow radix2 0) with 1 in *. split; [exact Fp|]. split; [exact F1|]. change (bpow radix2 0) with 1. rewrite E1. lra.
  - rewrite (proj2 (Z.ltb_ge 0 eff')) by lia. exact bd_one.
Qed.
Lemma miss_expo eff eff' : (0 <= eff' <= eff)%Z -> (eff <= 2 ^ 31)%Z -> le2 32 (mpow (f_of_Z eff') (fq 875 1000)) (mpow (f_of_Z eff) (fq 875 1000)).
Proof.
  intros E T. destruct (unit_exp 875 1000) as (Fe & Be); [bdc|]. destruct (bd_Z 31 eff ltac:(lia) ltac:(lia)) as (B & Ev). destruct (bd_Z 31 eff' ltac:(lia) ltac:(lia)) as (B' & Ev').
  apply (pow_mono 31 1); auto; try lia. apply bd_iff in B as (F & B). apply bd_iff in B' as (F' & B'). split; [exact F'|]. split; [exact F|]. split; [|apply B]. rewrite Ev, Ev' in *. split; [apply B'|apply IZR_le; lia].
Qed.
Lemma scal_mono c c' mc : (0 <= c <= c')%Z -> (c' <= 2 ^ 31)%Z -> (0 <= mc <= 2 ^ 31)%Z -> le2 0 (scal c mc) (scal c' mc).
Proof.
  intros C C' N. unfold scal. destruct (Z.ltb_spec 0 mc) as [L|L]; [|exact bd_one]. unfold combo_scaling.
  destruct (mc_pow_val PR c mc ltac:(lia) ltac:(lia)) as (F1 & B1 & F2 & B2). destruct (mc_pow_val PR c' mc ltac:(lia) ltac:(lia)) as (F1' & B1' & _).
  destruct (unit_exp 8 10) as (Fe & Be); [bdc|]. destruct (bd_Z 31 c ltac:(lia) ltac:(lia)) as (B & Ev). destruct (bd_Z 31 c' ltac:(lia) ltac:(lia)) as (B' & Ev').
  assert (P : le2 32 (mpow (f_of_Z c) (fq 8 10)) (mpow (f_of_Z c') (fq 8 10))).
  { apply (pow_mono 31 1); auto; try lia. apply bd_iff in B as (F & B). apply bd_iff in B' as (F' & B'). split; [exact F|]. split; [exact F'|]. split; [|apply B']. rewrite Ev, Ev' in *. split; [apply B|apply IZR_le; lia]. }
  assert (D : le2 32 (fdiv (mpow (f_of_Z c) (fq 8 10)) (mpow (f_of_Z mc) (fq 8 10))) (fdiv (mpow (f_of_Z c') (fq 8 10)) (mpow (f_of_Z mc) (fq 8 10)))) by (apply le2_div; [lia|lia|exact P|exact F2|lra]).
  destruct D as (D1 & D2 & D3 & _). apply le2_min; [exact bd_one|exact D1|exact D2|lra].
Qed.
Lemma nerf_mono p q : attrs_ok (pp_attribs p) -> pp_attribs p = pp_attribs q -> int64 (missed p) -> int64 (missed q) -> (missed q <= missed p)%Z -> le2 1 (nerf p) (nerf q).
Proof.
  intros A E Ip Iq L. destruct (Z.ltb_spec 0 (at_Sliders (pp_attribs p))) as [S|S].
  - apply nerf_le2; auto. intros c e -> ->. destruct three_val as (F3 & B3). apply unit_mono; [|exact F3|exact B3]. apply le2_compl.
    destruct (eds_val (at_Sliders (pp_attribs p))) as (Fe & Pe); [destruct A as (_ & _ & _ & _ & _ & _ & SL & _); lia|].
    destruct (fZ_int _ Ip) as (Fi & _). destruct (fZ_int _ Iq) as (Fi' & _). apply drop_le2; auto. now apply fZ_mono.
  - rewrite !nerf_eq, <- E. rewrite (proj2 (Z.ltb_ge _ _)) by lia. apply (le2_le 0); [lia|exact bd_one].
Qed.
Lemma final_mono mods eff eff' sp total : (0 <= eff' <= eff)%Z -> (eff <= 2 ^ 31)%Z -> (mactive mods SpunOut = true -> 0 <= sp <= total)%Z -> (total <= 2 ^ 31)%Z ->
  le2 1 (final_multiplier mods eff sp total) (final_multiplier mods eff' sp total).
Proof.
  intros E E2 S T. unfold final_multiplier. cbv zeta.
  set (f1 := if mactive mods NoFail then fmul (fq 112 100) (fmax (fq 90 100) (fsub (fq 1 1) (fmul (fq 2 100) (f_of_Z eff)))) else fq 112 100).
  set (f2 := if mactive mods NoFail then fmul (fq 112 100) (fmax (fq 90 100) (fsub (fq 1 1) (fmul (fq 2 100) (f_of_Z eff')))) else fq 112 100).
  assert (B1 : le2 1 f1 f2).
  2:{ clearbody f1 f2. set (m := fsub (fq 1 1) _). assert (Bm : bd 0 (if (0 <? total)%Z && mactive mods SpunOut then m else fq 1 1)).
      { destruct (Z.ltb_spec 0 total) as [L|L]; cbn [andb]; [|exact bd_one]. destruct (mactive mods SpunOut) eqn:SO; [|exact bd_one]. apply le2_compl. destruct (unit_exp 85 100) as (Fe & Be); [bdc|].
        specialize (S eq_refl). apply (unit_bd PR); [|exact Fe|apply Be]. apply le2_ratio; lia. }
      clearbody m. set (b := (0 <? total)%Z && mactive mods SpunOut) in *. clearbody b.
      pose proof (le2_opt 1 0 f1 f2 b b m m ltac:(lia) ltac:(lia) ltac:(lia) B1 Bm) as B2. set (g1 := if b then _ else f1) in *. set (g2 := if b then _ else f2) in *. clearbody g1 g2.
      set (x := mactive mods Relax). clearbody x. assert (Bc : bd 0 (if x then fq 6 10 else fq 1 1)) by (destruct x; [bdc|exact bd_one]).
      exact (le2_opt 1 0 g1 g2 x x _ _ ltac:(lia) ltac:(lia) ltac:(lia) B2 Bc). }
  unfold f1, f2. clear f1 f2. assert (B112 : bd 1 (fq 112 100)) by bdc. apply (le2_opt 1 0 (fq 112 100) (fq 112 100) (mactive mods NoFail) (mactive mods NoFail)); [lia|lia|lia|exact B112|]. destruct (mactive mods NoFail); [|exact bd_one].
  assert (C : bd 0 (fq 2 100)) by bdc. assert (N : bd 0 (fq 90 100)) by bdc. apply bd_iff in N as (Fn & Bn). destruct one_val as (F1 & E1).
  destruct (bd_Z 31 eff ltac:(lia) ltac:(lia)) as (B & Ev). destruct (bd_Z 31 eff' ltac:(lia) ltac:(lia)) as (B' & Ev').
  assert (L : le2 31 (f_of_Z eff') (f_of_Z eff)). { apply bd_iff in B as (F & B). apply bd_iff in B' as (F' & B'). split; [exact F'|]. split; [exact F|]. split; [|apply B]. rewrite Ev, Ev' in *. split; [apply B'|apply IZR_le; lia]. }
  pose proof (le2_mul 0 31 _ _ _ _ ltac:(lia) ltac:(lia) ltac:(lia) C L) as (Fx' & Fx & X & X2). change (bpow radix2 (0 + 31)) with (IZR (2 ^ 31)) in X2.
  assert (Q : forall x, fin x -> 0 <= B2R x <= IZR (2 ^ 31) -> fin (fsub (fq 1 1) x) /\ B2R (fsub (fq 1 1) x) = rnd64 (1 - B2R x)).
  { intros x F Bx. destruct (fsub_fin _ _ F1 F) as (Fs & Es); [rewrite E1; apply Rle_trans with (bpow radix2 31); [change (bpow radix2 31) with (IZR (2 ^ 31)); apply Rabs_le; lra|apply bpow_le; lia]|]. rewrite E1 in Es. auto. }
  destruct (Q _ Fx ltac:(lra)) as (Fs & Es). destruct (Q _ Fx' ltac:(lra)) as (Fs' & Es'). destruct (fmax_fin _ _ Fn Fs) as (Fm & Em). destruct (fmax_fin _ _ Fn Fs') as (Fm' & Em').
  split; [exact Fm|]. split; [exact Fm'|]. rewrite Em, Em', Es, Es'. change (bpow radix2 0) with 1 in *.
  split; [split|].
  - apply Rle_trans with (B2R (fq 90 100)); [lra|apply Rmax_l].
  - apply Rle_max_compat_l. apply rnd64_le. lra.
  - apply Rmax_lub; [lra|]. apply (rnd64_exact_Z 1); [lia|lra].
Qed.
Lemma total_mono r1 r2 r3 r4 fm r1' r2' r3' r4' fm' : le2 200 r1 r1' -> le2 200 r2 r2' -> le2 200 r3 r3' -> le2 200 r4 r4' -> le2 1 fm fm' ->
  le2 406 (total_of r1 r2 r3 r4 fm) (total_of r1' r2' r3' r4' fm').
Proof.
  intros H1 H2 H3 H4 HF. unfold total_of. destruct exp_11_10 as (Fe & Be). destruct (unit_exp 10 11) as (Fg & Bg); [bdc|].
  change 406%Z with (405 + 1)%Z. apply le2_mul; [lia|lia|lia| |exact HF]. change 405%Z with (404 * 1 + 1)%Z. apply (pow_mono 404 1); auto; try lia.
  assert (P : forall r r', le2 200 r r' -> le2 401 (mpow r (fq 11 10)) (mpow r' (fq 11 10))) by (intros r r' H; apply (pow_mono 200 2); auto; lia).
  apply (le2_add 403); [lia|lia| |apply (le2_le 401); [lia|now apply P]]. apply (le2_add 402); [lia|lia| |apply (le2_le 401); [lia|now apply P]]. apply (le2_add 401); [lia|lia|now apply P|now apply P].
Qed.
End Orders.

(** ** The state of PPv2x for a valid score *)
Definition spun_ok (a : attributes) (d : difficulty) (total : Z) : Prop := mactive (d_Mods d) SpunOut = true -> (at_Spinners a <= total)%Z.
Lemma final_bd' mods eff sp total : (0 <= eff <= 2 ^ 31)%Z -> (mactive mods SpunOut = true -> 0 <= sp <= total)%Z -> (total <= 2 ^ 31)%Z -> bd 1 (final_multiplier mods eff sp total).
Proof.
  intros E S T. destruct (mactive mods SpunOut) eqn:SO.
  - specialize (S eq_refl). now apply final_bd.
  - assert (R : final_multiplier mods eff sp total = final_multiplier mods eff 0 0) by (unfold final_multiplier; rewrite SO, !andb_false_r; reflexivity). rewrite R. apply final_bd; auto; lia.
Qed.
Section State.
Context (pp : ppv2) (a : attributes) (n300 n100 n50 nmiss : Z) (d : difficulty).
Context (A : attrs_ok a) (D : diff_ok d) (H : hits_upto (2 ^ 31) n300 n100 n50 nmiss).
Notation total := (n300 + n100 + n50 + nmiss)%Z.
Notation st c := (stated pp a c n300 n100 n50 nmiss d).
Notation ea := (capped a).
Lemma ea_ok : attrs_ok ea /\ (1 <= at_MaxCombo ea <= 2 ^ 31)%Z /\ counts64 ea.
Proof.
  destruct A as (A1 & A2 & A3 & A4 & A5 & A6 & A7 & A8 & A9). unfold attrs_ok, capped, counts64, int64. cbn [at_Aim at_Speed at_Flashlight at_SliderFactor at_ObjectCount at_Circles at_Sliders at_Spinners at_MaxCombo].
  rewrite maxI_max. split; [repeat (split; [assumption|]); lia|]. split; lia.
Qed.
Lemma sum_total : (wrap64 (wrap64 (wrap64 (n300 + n100) + n50) + nmiss) = total /\ 0 <= total <= 2 ^ 31)%Z.
Proof. destruct H as (H1 & H2 & H3 & H4 & H5). rewrite (wrap_id (n300 + n100)), (wrap_id (n300 + n100 + n50)), (wrap_id (n300 + n100 + n50 + nmiss)) by (unfold int64; lia). lia. Qed.
Lemma eff_range c : (0 <= c <= 2 ^ 31)%Z -> (nmiss <= effective_miss_count ea c nmiss total <= total)%Z.
Proof. intros C. destruct ea_ok as (_ & _ & C64). destruct H as (H1 & H2 & H3 & H4 & H5). apply eff_bounds; auto; unfold int64; lia. Qed.
Lemma st_fields c : (0 <= c <= 2 ^ 31)%Z -> pp_attribs (st c) = ea /\ pp_scoreMaxCombo (st c) = c /\ pp_great (st c) = n300 /\ pp_ok (st c) = n100 /\ pp_meh (st c) = n50 /\ pp_miss (st c) = nmiss /\
  pp_totalHits (st c) = total /\ pp_accuracy (st c) = pp_acc n300 n100 n50 total /\
  pp_effMiss (st c) = (if mactive (d_Mods d) Relax then Z.min (effective_miss_count ea c nmiss total + n100 + n50) total else effective_miss_count ea c nmiss total) /\
  pp_accObjects (st c) = (if check_mod d ScoreV2 then at_ObjectCount ea else at_Circles ea).
Proof.
  intros C. pose proof (eff_range c C) as ER. destruct sum_total as (T & TB). destruct H as (H1 & H2 & H3 & H4 & H5). unfold stated. cbv zeta. cbn [pp_attribs pp_scoreMaxCombo pp_great pp_ok pp_meh pp_miss pp_totalHits pp_accuracy pp_effMiss pp_accObjects].
  rewrite (proj2 (Z.ltb_ge c 0)), (proj2 (Z.ltb_ge n300 0)) by lia. rewrite T.
  repeat (split; [reflexivity|]). split; [|reflexivity]. destruct (mactive _ _) eqn:R; [|reflexivity]. rewrite minI_min. rewrite (wrap_id (_ + n100)), wrap_id by (unfold int64; lia). reflexivity.
Qed.
Lemma eff_st c : (0 <= c <= 2 ^ 31)%Z -> (nmiss <= pp_effMiss (st c) <= total)%Z.
Proof. intros C. destruct (st_fields c C) as (_ & _ & _ & _ & _ & _ & _ & _ & -> & _). pose proof (eff_range c C) as ER. destruct H as (H1 & H2 & H3 & H4 & H5). destruct (mactive _ _); lia. Qed.
Lemma eff_st_anti c c' : (0 <= c <= c')%Z -> (c' <= 2 ^ 31)%Z -> (pp_effMiss (st c') <= pp_effMiss (st c))%Z.
Proof.
  intros C C'. destruct (st_fields c ltac:(lia)) as (_ & _ & _ & _ & _ & _ & _ & _ & -> & _). destruct (st_fields c' ltac:(lia)) as (_ & _ & _ & _ & _ & _ & _ & _ & -> & _).
  destruct ea_ok as (_ & _ & C64). destruct sum_total as (_ & TB). assert (L : (effective_miss_count ea c' nmiss total <= effective_miss_count ea c nmiss total)%Z) by (apply eff_anti; auto; unfold int64; lia). destruct (mactive _ _); lia.
Qed.
Lemma st_ok c : (0 <= c <= 2 ^ 31)%Z -> state_ok (st c).
Proof.
  intros C. destruct (st_fields c C) as (E1 & E2 & E3 & E4 & E5 & E6 & E7 & E8 & E9 & E10). unfold state_ok. rewrite E1, E5, E7, E8. destruct ea_ok as (EA & _). destruct sum_total as (_ & TB). destruct H as (H1 & H2 & H3 & H4 & H5).
  split; [exact EA|]. split; [lia|]. split; [|lia]. apply (within_bd 0 1); [|apply Rle_refl]. apply acc_unit; unfold int64; lia.
Qed.
Lemma st_same c c' : (0 <= c <= 2 ^ 31)%Z -> (0 <= c' <= 2 ^ 31)%Z -> same_map (st c) (st c').
Proof.
  intros C C'. destruct (st_fields c C) as (E1 & E2 & E3 & E4 & E5 & E6 & E7 & E8 & E9 & E10). destruct (st_fields c' C') as (E1' & E2' & E3' & E4' & E5' & E6' & E7' & E8' & E9' & E10').
  unfold same_map. rewrite E1, E3, E4, E5, E6, E7, E8, E10, E1', E3', E4', E5', E6', E7', E8', E10'. tauto.
Qed.
Lemma missed_st c : (0 <= c <= 2 ^ 31)%Z -> missed (st c) = Z.min (n100 + n50 + nmiss) (at_MaxCombo ea - c) /\ int64 (missed (st c)).
Proof.
  intros C. destruct (st_fields c C) as (E1 & E2 & E3 & E4 & E5 & E6 & _). unfold missed. rewrite E1, E2, E4, E5, E6, minI_min. destruct ea_ok as (_ & MC & _). destruct H as (H1 & H2 & H3 & H4 & H5).
  rewrite (wrap_id (n100 + n50)), (wrap_id (n100 + n50 + nmiss)), (wrap_id (_ - c)) by (unfold int64; lia). split; [reflexivity|unfold int64; lia].
Qed.
Lemma acc_objects c : (0 <= c <= 2 ^ 31)%Z -> (0 <= pp_accObjects (st c) <= 2 ^ 31)%Z.
Proof. intros C. destruct (st_fields c C) as (_ & _ & _ & _ & _ & _ & _ & _ & _ & ->). destruct ea_ok as ((_ & _ & _ & _ & O & CI & _) & _). destruct (check_mod _ _); [exact O|exact CI]. Qed.
Lemma acc_st c : (0 <= c <= 2 ^ 31)%Z -> bd 200 (compute_acc (st c) d).
Proof.
  intros C. pose proof (acc_objects c C). destruct (st_fields c C) as (_ & _ & E3 & E4 & E5 & _ & E7 & _). destruct sum_total as (_ & TB). destruct H as (H1 & H2 & H3 & H4 & H5).
  apply acc_bd; rewrite ?E3, ?E4, ?E5, ?E7; auto; lia.
Qed.
Lemma aim_expo c : (0 <= c <= 2 ^ 31)%Z -> fin (f_of_Z (pp_effMiss (st c))) /\ B2R (f_of_Z (pp_effMiss (st c))) = IZR (pp_effMiss (st c)) /\ 0 <= B2R (f_of_Z (pp_effMiss (st c))).
Proof.
  intros C. pose proof (eff_st c C) as E. destruct sum_total as (_ & TB). destruct H as (H1 & H2 & H3 & H4 & H5). destruct (bd_Z 31 (pp_effMiss (st c)) ltac:(lia) ltac:(lia)) as (B & Ev). apply bd_iff in B as (F & B). tauto.
Qed.
Lemma speed_expo c : (0 <= c <= 2 ^ 31)%Z -> fin (mpow (f_of_Z (pp_effMiss (st c))) (fq 875 1000)) /\ 0 <= B2R (mpow (f_of_Z (pp_effMiss (st c))) (fq 875 1000)).
Proof.
  intros C. pose proof (eff_st c C) as E. destruct sum_total as (_ & TB). destruct H as (H1 & H2 & H3 & H4 & H5). destruct (bd_Z 31 (pp_effMiss (st c)) ltac:(lia) ltac:(lia)) as (B & Ev). destruct (unit_exp 875 1000) as (Fe & Be); [bdc|].
  assert (P : bd 32 (mpow (f_of_Z (pp_effMiss (st c))) (fq 875 1000))) by (apply (pow_bd PR 31 1); auto; lia). apply bd_iff in P. tauto.
Qed.
(** every value bounded *)
Lemma all_bd c : (0 <= c <= 2 ^ 31)%Z -> spun_ok a d total ->
  bd 200 (compute_aim (st c) d) /\ bd 200 (compute_speed (st c) d) /\ bd 200 (compute_acc (st c) d) /\ bd 200 (compute_flashlight (st c) d) /\ bd 406 (r_Total (results_of (st c) d)).
Proof.
  intros C SP. pose proof (st_ok c C) as S. pose proof (st_same c c C C) as SM. pose proof (eff_st c C) as E. pose proof (eff_range c C) as ER. destruct sum_total as (_ & TB). destruct ea_ok as (EA & MC & _).
  destruct (st_fields c C) as (E1 & E2 & E3 & E4 & E5 & E6 & E7 & E8 & E9 & E10). destruct (aim_expo c C) as (Fa & _ & Ba). destruct (speed_expo c C) as (Fs & Bs). assert (N0 : (0 <= nmiss)%Z) by (destruct H; lia).
  assert (SC : bd 0 (scal (pp_scoreMaxCombo (st c)) (at_MaxCombo (pp_attribs (st c))))) by (rewrite E1, E2; apply scaling_bd; auto; lia).
  assert (PE : forall x, fin x -> 0 <= B2R x -> bd 0 (pen (pp_effMiss (st c)) (pp_totalHits (st c)) x)) by (intros x Fx Bx; rewrite E7; apply penalty_bd; auto; lia).
  assert (AI : bd 200 (compute_aim (st c) d)). { apply (aim_chain PR LR); [exact D|exact S|exact SM|now apply PE|exact SC|]. apply (nerf_bd PR); [rewrite E1; exact EA|apply missed_st; exact C]. }
  assert (SPD : bd 200 (compute_speed (st c) d)) by (apply (speed_chain PR LR); [exact D|exact S|exact SM|now apply PE|exact SC]). assert (FL : bd 200 (compute_flashlight (st c) d)) by (apply (flash_chain PR); [exact D|exact S|exact SM|now apply PE|exact SC]). pose proof (acc_st c C) as AC.
  split; [exact AI|]. split; [exact SPD|]. split; [exact AC|]. split; [exact FL|]. unfold results_of. cbn [r_Total]. apply total_bd; auto. rewrite E1, E2, E6, E7. apply final_bd'; [lia| |lia].
  intros SO. specialize (SP SO). change (at_Spinners ea) with (at_Spinners a). destruct A as (_ & _ & _ & _ & _ & _ & _ & A8 & _). lia.
Qed.
(** ... and monotone in the combo *)
Lemma all_mono c c' : pow_orders -> (0 <= c <= c')%Z -> (c' <= 2 ^ 31)%Z -> spun_ok a d total ->
  le2 200 (compute_aim (st c) d) (compute_aim (st c') d) /\ le2 200 (compute_speed (st c) d) (compute_speed (st c') d) /\ le2 200 (compute_acc (st c) d) (compute_acc (st c') d) /\
  le2 200 (compute_flashlight (st c) d) (compute_flashlight (st c') d) /\ le2 406 (r_Total (results_of (st c) d)) (r_Total (results_of (st c') d)).
Proof.
  intros PO CC C' SP. assert (C : (0 <= c <= 2 ^ 31)%Z) by lia. assert (C2 : (0 <= c' <= 2 ^ 31)%Z) by lia.
  pose proof (st_ok c C) as S. pose proof (st_same c c' C C2) as SM. pose proof (eff_st c C) as E. pose proof (eff_st c' C2) as E'. pose proof (eff_range c C) as ER. pose proof (eff_range c' C2) as ER'. destruct sum_total as (_ & TB). destruct ea_ok as (EA & MC & C64).
  pose proof (eff_st_anti c c' CC C') as EL.
  destruct (st_fields c C) as (E1 & E2 & E3 & E4 & E5 & E6 & E7 & E8 & E9 & E10). destruct (st_fields c' C2) as (E1' & E2' & E3' & E4' & E5' & E6' & E7' & E8' & E9' & E10').
  destruct (aim_expo c C) as (Fa & Va & Ba). destruct (aim_expo c' C2) as (Fa' & Va' & Ba'). assert (N0 : (0 <= nmiss)%Z) by (destruct H; lia).
  pose proof (miss_expo PO (pp_effMiss (st c)) (pp_effMiss (st c')) ltac:(lia) ltac:(lia)) as ME.
  assert (SC : le2 0 (scal (pp_scoreMaxCombo (st c)) (at_MaxCombo (pp_attribs (st c)))) (scal (pp_scoreMaxCombo (st c')) (at_MaxCombo (pp_attribs (st c'))))) by (rewrite E1, E2, E1', E2'; apply scal_mono; auto; lia).
  assert (AI : le2 200 (compute_aim (st c) d) (compute_aim (st c') d)).
  { apply (aim_chain PR LR); [exact D|exact S|exact SM| |exact SC|].
    - rewrite E7, E7'. apply pen_mono; auto; try lia. rewrite Va, Va'. split; apply IZR_le; lia.
    - destruct (missed_st c C) as (M1 & I1). destruct (missed_st c' C2) as (M2 & I2). apply (nerf_mono PO); [rewrite E1; exact EA|rewrite E1, E1'; reflexivity|exact I1|exact I2|lia]. }
  assert (PS : le2 0 (pen (pp_effMiss (st c)) (pp_totalHits (st c)) (mpow (f_of_Z (pp_effMiss (st c))) (fq 875 1000))) (pen (pp_effMiss (st c')) (pp_totalHits (st c')) (mpow (f_of_Z (pp_effMiss (st c'))) (fq 875 1000)))).
  { rewrite E7, E7'. destruct ME as (Q1 & Q2 & Q3 & _). apply pen_mono; auto; lia. }
  assert (SPD : le2 200 (compute_speed (st c) d) (compute_speed (st c') d)) by (apply (speed_chain PR LR); [exact D|exact S|exact SM|exact PS|exact SC]). assert (FL : le2 200 (compute_flashlight (st c) d) (compute_flashlight (st c') d)) by (apply (flash_chain PR); [exact D|exact S|exact SM|exact PS|exact SC]).
  assert (AC : le2 200 (compute_acc (st c) d) (compute_acc (st c') d)). { assert (X : compute_acc (st c') d = compute_acc (st c) d) by (unfold compute_acc; rewrite E3, E4, E5, E7, E10, E3', E4', E5', E7', E10'; reflexivity). rewrite X. now apply acc_st. }
  split; [exact AI|]. split; [exact SPD|]. split; [exact AC|]. split; [exact FL|]. unfold results_of. cbn [r_Total]. apply total_mono; auto. rewrite E1, E2, E6, E7, E1', E2', E6', E7'. apply final_mono; auto; try lia.
  - split; [lia|]. apply eff_anti; auto; unfold int64; lia.
  - intros SO. specialize (SP SO). change (at_Spinners ea) with (at_Spinners a). destruct A as (_ & _ & _ & _ & _ & _ & _ & A8 & _). lia.
Qed.
(** without sliders any combo is at most the full combo, with no assumption on the order of powers *)
Lemma all_full c : (0 <= c <= 2 ^ 31)%Z -> at_Sliders a = 0%Z -> let c' := at_MaxCombo ea in
  le2 200 (compute_aim (st c) d) (compute_aim (st c') d) /\ le2 200 (compute_speed (st c) d) (compute_speed (st c') d) /\ le2 200 (compute_acc (st c) d) (compute_acc (st c') d) /\
  le2 200 (compute_flashlight (st c) d) (compute_flashlight (st c') d).
Proof.
  intros C SL c'. destruct ea_ok as (EA & MC & C64). assert (C2 : (0 <= c' <= 2 ^ 31)%Z) by (unfold c'; lia).
  pose proof (st_ok c C) as S. pose proof (st_same c c' C C2) as SM. pose proof (eff_st c C) as E. pose proof (eff_st c' C2) as E'. destruct sum_total as (_ & TB).
  destruct (st_fields c C) as (E1 & E2 & E3 & E4 & E5 & E6 & E7 & E8 & E9 & E10). destruct (st_fields c' C2) as (E1' & E2' & E3' & E4' & E5' & E6' & E7' & E8' & E9' & E10').
  assert (N0 : (0 <= nmiss)%Z) by (destruct H; lia).
  assert (EE : pp_effMiss (st c') = pp_effMiss (st c)). { rewrite E9, E9'. rewrite !eff_full; auto; unfold int64; lia. }
  destruct (aim_expo c C) as (Fa & Va & Ba). destruct (speed_expo c C) as (Fs & Bs).
  assert (SC : le2 0 (scal (pp_scoreMaxCombo (st c)) (at_MaxCombo (pp_attribs (st c)))) (scal (pp_scoreMaxCombo (st c')) (at_MaxCombo (pp_attribs (st c'))))) by (rewrite E1, E2, E1', E2'; apply scaling_le_full; auto).
  assert (PE : forall x, fin x -> 0 <= B2R x -> bd 0 (pen (pp_effMiss (st c)) (pp_totalHits (st c)) x)) by (intros x Fx Bx; rewrite E7; apply penalty_bd; auto; lia).
  assert (TT : pp_totalHits (st c') = pp_totalHits (st c)) by (rewrite E7, E7'; reflexivity).
  split; [apply (aim_chain PR LR); [exact D|exact S|exact SM|rewrite EE, TT; now apply PE|exact SC|]|].
  - unfold nerf. rewrite E1, E1'. change (at_Sliders ea) with (at_Sliders a). rewrite SL. cbn [Z.ltb Z.compare]. apply (le2_le 0); [lia|exact bd_one].
  - split; [apply (speed_chain PR LR); [exact D|exact S|exact SM|rewrite EE, TT; now apply PE|exact SC]|]. split; [|apply (flash_chain PR); [exact D|exact S|exact SM|rewrite EE, TT; now apply PE|exact SC]].
    assert (X : compute_acc (st c') d = compute_acc (st c) d) by (unfold compute_acc; rewrite E3, E4, E5, E7, E10, E3', E4', E5', E7', E10'; reflexivity). rewrite X. now apply acc_st.
Qed.
End State.
End WithLibm.

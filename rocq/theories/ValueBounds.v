(** Sizes of the strain values. *)
From Coq Require Import Reals Lra.
From Flocq Require Import Raux Zaux Core BinarySingleNaN.
From Verif Require Import DiffCalc SpecPP SpecSane BaseLemmas FloatLemmas Float32Lemmas KeyLemmas SkillProofs CurveProofs CurveStart PPProofs PPBounds PPChains.
Open Scope R_scope.

Lemma bd_le j k x : bd j x -> (j <= k)%Z -> bd k x. Proof. intros H L. exact (le2_le _ _ _ _ L H). Qed.
Lemma bd_mul j k x y : bd j x -> bd k y -> (0 <= j)%Z -> (0 <= k)%Z -> (j + k <= 1000)%Z -> bd (j + k) (fmul x y). Proof. intros. now apply le2_mul. Qed.
Lemma bd_add k x y : bd k x -> bd k y -> (0 <= k)%Z -> (k <= 1000)%Z -> bd (k + 1) (fadd x y). Proof. intros. now apply le2_add. Qed.
Lemma bd_div k x y : bd k x -> fin y -> 1 <= B2R y -> (0 <= k)%Z -> (k <= 1000)%Z -> bd k (fdiv x y). Proof. intros. now apply le2_div. Qed.
Lemma bd_min k x y : bd k x -> bd k y -> bd k (fmin x y).
Proof. rewrite !bd_iff. intros (Fx & Bx) (Fy & By). destruct (fmin_fin x y Fx Fy) as (F & ->). split; [exact F|]. unfold Rmin. destruct (Rle_dec _ _); lra. Qed.
Lemma bd_min_l j k x y : bd j x -> bd k y -> bd j (fmin x y).
Proof. rewrite !bd_iff. intros (Fx & Bx) (Fy & By). destruct (fmin_fin x y Fx Fy) as (F & ->). split; [exact F|]. unfold Rmin. destruct (Rle_dec _ _); lra. Qed.
Lemma bd_min_r j k x y : bd j x -> bd k y -> bd k (fmin x y).
Proof. rewrite !bd_iff. intros (Fx & Bx) (Fy & By). destruct (fmin_fin x y Fx Fy) as (F & ->). split; [exact F|]. unfold Rmin. destruct (Rle_dec _ _); lra. Qed.
Lemma bd_max k x y : bd k x -> bd k y -> bd k (fmax x y).
Proof. rewrite !bd_iff. intros (Fx & Bx) (Fy & By). destruct (fmax_fin x y Fx Fy) as (F & ->). split; [exact F|]. unfold Rmax. destruct (Rle_dec _ _); lra. Qed.
Lemma bd_compl x : bd 0 x -> bd 0 (fsub (fq 1 1) x). Proof. apply le2_compl. Qed.
Lemma bd_fin k x : bd k x -> fin x. Proof. rewrite bd_iff. tauto. Qed.
Lemma bd_pos k x : bd k x -> 0 <= B2R x. Proof. rewrite bd_iff. intros (_ & B). apply B. Qed.
Lemma bd_of k hi x : within 0 hi x -> hi <= bpow radix2 k -> bd k x. Proof. apply within_bd. Qed.
Lemma within_ge lo hi x : within lo hi x -> fin x /\ lo <= B2R x. Proof. intros (F & B). split; [exact F|lra]. Qed.
Lemma mul_fin_bnd (x y : f64) j k : fin x -> fin y -> Rabs (B2R x) <= bpow radix2 j -> Rabs (B2R y) <= bpow radix2 k -> (-1000 <= j + k <= 1000)%Z ->
  fin (fmul x y) /\ Rabs (B2R (fmul x y)) <= bpow radix2 (j + k).
Proof.
  intros Fx Fy Bx By K. assert (B : Rabs (B2R x * B2R y) <= bpow radix2 (j + k)).
  { rewrite Rabs_mult, bpow_plus. apply Rmult_le_compat; auto; apply Rabs_pos. }
  destruct (fmul_fin x y Fx Fy) as (F & E). { apply Rle_trans with (1 := B). apply bpow_le. lia. } split; [exact F|]. rewrite E. apply (rnd_bound 53 1024 _ (j + k)); [unfold SpecFloat.emin; lia|exact B].
Qed.

Lemma fle_fin (x y : f64) : fin x -> fin y -> fle x y = true -> B2R x <= B2R y.
Proof. intros Fx Fy H. apply fle_iff in H as (_ & _ & H). now rewrite (key_fin _ _ _ Fx), (key_fin _ _ _ Fy) in H. Qed.
Lemma half_val : fin (fq 1 2) /\ B2R (fq 1 2) = / 2.
Proof. split; [vm_compute; reflexivity|]. bval (fq 1 2). rewrite V. cbn. lra. Qed.

Section WithLibm.
Context {M : libm}.
Context (PR : pow_ranges) (TR : trig_ranges).

Lemma sin2_bd x : fin x -> bd 0 (mpow (msin x) (fq 2 1)).
Proof.
  intros F. destruct (sin_unit TR x F) as (Fs & Bs). apply (within_bd _ 1); [|apply Rle_refl]. apply (square_unit TR); [exact Fs|]. apply Rabs_le. lra.
Qed.
Lemma cube_bd x : bd 0 x -> bd 0 (mpow x (fq 3 1)).
Proof. intros H. destruct (fq1_exact 3) as (F3 & E3); [lia|]. apply (unit_bd PR); [exact H|exact F3|rewrite E3; lra]. Qed.

(** ** Angle bonuses *)
Lemma pi_consts : (fin fpi_6 /\ 0 < B2R fpi_6 <= 1) /\ (fin f5pi_6 /\ 1 <= B2R f5pi_6 <= 3) /\ (fin fpi_2 /\ 0 <= B2R fpi_2 <= 2) /\ (fin fpi /\ 3 <= B2R fpi <= 4).
Proof.
  assert (P : 0 < B2R fpi_6). { destruct (fq1_exact 0) as (F0 & E0); [lia|]. rewrite <- E0. apply flt_fin; [exact F0|vm_compute; reflexivity|vm_compute; reflexivity]. }
  repeat split; try (vm_compute; reflexivity); try exact P;
    match goal with
    | |- B2R ?c <= IZR ?h => apply (between_Z c (-100) h); [vm_compute; reflexivity|lia|lia|vm_compute; reflexivity|vm_compute; reflexivity]
    | |- IZR ?l <= B2R ?c => apply (between_Z c l 100); [vm_compute; reflexivity|lia|lia|vm_compute; reflexivity|vm_compute; reflexivity] end.
Qed.
Lemma wide_bd a : num a -> bd 0 (wide_bonus a).
Proof.
  intros N. unfold wide_bonus. apply sin2_bd. destruct pi_consts as ((F6 & B6) & (F5 & B5) & _).
  destruct (fmax_key fpi_6 a (fin_num _ _ _ F6) N) as (N1 & K1). destruct (fmin_key f5pi_6 _ (fin_num _ _ _ F5) N1) as (N2 & K2).
  rewrite K1, (key_fin _ _ _ F6), (key_fin _ _ _ F5) in K2.
  assert (K3 : 0 <= key (fmin f5pi_6 (fmax fpi_6 a)) <= 3) by (rewrite K2; unfold Rmin, Rmax; repeat destruct (Rle_dec _ _); lra).
  assert (Fm : fin (fmin f5pi_6 (fmax fpi_6 a))).
  { apply fin_of_key; [exact N2|]. pose proof (bpow_le radix2 2 1024 ltac:(lia)) as H. change (bpow radix2 2) with 4 in H. lra. }
  rewrite (key_fin _ _ _ Fm) in K3. destruct (sub_Z _ fpi_6 (-1) 3 Fm F6) as (Fs & Bs); [lia|lia|lra|].
  apply (mul_unit (fq 3 4) _ (-1) 3 ltac:(bdc) Fs); [lia|lia|exact Bs].
Qed.
Lemma acute_bd a : num a -> bd 0 (acute_bonus a). Proof. intros N. apply bd_compl. now apply wide_bd. Qed.

Context (m : Z) (Hm : (0 <= m <= 400)%Z).
Lemma strain_ge1 o : sane m o -> fin (do_StrainTime o) /\ 25 <= B2R (do_StrainTime o). Proof. intros S. exact (within_ge _ _ _ (sn_strain _ _ S)). Qed.
Lemma velocity_bd ws o before : sane m o -> linked o before -> base_spinner o = false -> bd (m + 1) (aim_velocity ws o before).
Proof.
  intros S L NS. unfold aim_velocity. destruct (strain_ge1 o S) as (Ft & Bt).
  assert (V : bd m (fdiv (do_Jump o) (do_StrainTime o))). { apply bd_div; [apply (bd_of _ _ _ (sn_jump _ _ S)), Rle_refl|exact Ft|lra|lia|lia]. }
  destruct (base_lazy before) eqn:E; cbn [andb]; [|apply (bd_le m); [exact V|lia]]. destruct ws; [|apply (bd_le m); [exact V|lia]].
  destruct (L E NS) as (W1 & W2). apply within_ge in W1 as (F1 & B1). apply within_ge in W2 as (F2 & B2).
  apply bd_max; [apply (bd_le m); [exact V|lia]|]. apply bd_add; [| |lia|lia].
  - apply bd_div; [apply (bd_of _ _ _ (sn_move _ _ S)), Rle_refl|exact F1|lra|lia|lia].
  - apply bd_div; [apply (bd_of _ _ _ (sn_travel _ _ S)), Rle_refl|exact F2|lra|lia|lia].
Qed.
Lemma angles_bd cur last ll v v' : sane m cur -> sane m last -> bd (m + 1) v -> bd (m + 1) v' ->
  bd (m + 1) (fst (aim_angles cur last ll v v')) /\ bd 3 (snd (aim_angles cur last ll v v')).
Proof.
  intros S S' V V'. unfold aim_angles. destruct (flt _ _); [|split; apply bd_0]. destruct (fisnan (do_Angle cur)) eqn:A1; cbn [negb andb]; [split; apply bd_0|].
  destruct (fisnan (do_Angle last)) eqn:A2; cbn [negb andb]; [split; apply bd_0|]. destruct (fisnan (do_Angle ll)) eqn:A3; cbn [negb andb]; [split; apply bd_0|].
  pose proof (wide_bd _ A1) as W1. pose proof (wide_bd _ A2) as W2. pose proof (acute_bd _ A1) as Q1. pose proof (acute_bd _ A2) as Q2. pose proof (acute_bd _ A3) as Q3.
  destruct (strain_ge1 cur S) as (Ft & Bt). assert (AB : bd (m + 1) (fmin v v')) by now apply bd_min. cbn [fst snd]. cbv zeta.
  split.
  - replace (m + 1)%Z with (0 + (m + 1))%Z by lia. apply bd_mul; [exact W1| |lia|lia|lia]. replace (m + 1)%Z with ((m + 1) + 0)%Z by lia. apply bd_mul; [exact AB| |lia|lia|lia].
    apply bd_compl. apply (bd_min_l 0 0); [exact W1|now apply cube_bd].
  - match goal with |- bd 3 (fmul ?a _) => set (acute := a) end. assert (HA : bd 3 acute).
    { unfold acute. destruct (fgt _ _) eqn:G; [apply bd_0|]. assert (St : B2R (do_StrainTime cur) <= 100).
      { destruct (fq1_exact 100) as (F1 & E1); [lia|]. rewrite <- E1. rewrite (fgt_bool _ _ Ft F1) in G. destruct (Rlt_bool_spec (B2R (fq 100 1)) (B2R (do_StrainTime cur))) as [X|X]; [discriminate G|exact X]. }
      change 3%Z with (0 + 3)%Z. apply bd_mul; [exact Q1| |lia|lia|lia]. change 3%Z with (3 + 0)%Z. apply bd_mul; [| |lia|lia|lia].
      - change 3%Z with (3 + 0)%Z. apply bd_mul; [| |lia|lia|lia].
        + change 3%Z with (0 + 3)%Z. apply bd_mul; [exact Q2| |lia|lia|lia]. apply (bd_min_r (m + 1) 3); [exact AB|].
          destruct (fq1_exact 125) as (F1 & E1); [lia|]. apply bd_iff. destruct (fdiv_fin _ _ F1 Ft) as (Fd & Ed); [lra| |].
          * rewrite E1. apply big_1023. rewrite Rabs_pos_eq; [|apply Rle_mult_inv_pos; lra]. apply Rmult_le_reg_r with (B2R (do_StrainTime cur)); [lra|]. unfold Rdiv. rewrite Rmult_assoc, Rinv_l by lra. lra.
          * split; [exact Fd|]. rewrite Ed, E1. split; [apply rnd64_pos; apply Rle_mult_inv_pos; lra|]. apply rnd_le_pow; [lia|]. change (bpow radix2 3) with 8. apply Rmult_le_reg_r with (B2R (do_StrainTime cur)); [lra|]. unfold Rdiv. rewrite Rmult_assoc, Rinv_l by lra. lra.
        + apply sin2_bd. destruct pi_consts as (_ & _ & (Fp & Bp) & _). destruct (fq1_exact 100) as (F1 & E1); [lia|]. destruct (fq1_exact 25) as (F2 & E2); [lia|]. destruct one_val as (F3 & E3).
          destruct (sub_Z (fq 100 1) (do_StrainTime cur) 0 100 F1 Ft) as (Fs & Bs); [lia|lia|rewrite E1; lra|].
          assert (D : bd 7 (fdiv (fsub (fq 100 1) (do_StrainTime cur)) (fq 25 1))). { apply bd_div; [|exact F2|rewrite E2; lra|lia|lia]. apply bd_iff. split; [exact Fs|]. change (bpow radix2 7) with 128. lra. }
          apply (bd_fin (1 + 7)). apply bd_mul; [apply bd_iff; split; [exact Fp|change (bpow radix2 1) with 2; lra]| |lia|lia|lia]. apply (bd_min_r 0 7); [exact bd_one|exact D].
      - apply sin2_bd. destruct pi_consts as (_ & _ & (Fp & Bp) & _). destruct (fq1_exact 50) as (F1 & E1); [lia|]. destruct (fq1_exact 100) as (F2 & E2); [lia|]. destruct (sn_jump _ _ S) as (Fj & Bj).
        assert (C : fin (clampF64 (do_Jump cur) (fq 50 1) (fq 100 1)) /\ 50 <= B2R (clampF64 (do_Jump cur) (fq 50 1) (fq 100 1)) <= 100).
        { unfold clampF64. destruct (fmax_fin _ _ F1 Fj) as (Fa & Ea). destruct (fmin_fin _ _ F2 Fa) as (Fb & Eb). split; [exact Fb|]. rewrite Eb, Ea, E1, E2. unfold Rmin, Rmax. repeat destruct (Rle_dec _ _); lra. }
        destruct C as (Fc & Bc). destruct (sub_Z _ (fq 50 1) 0 50 Fc F1) as (Fs & Bs); [lia|lia|rewrite E1; lra|].
        apply (bd_fin (1 + 6)). apply bd_div; [|exact F1|rewrite E1; lra|lia|lia]. apply bd_mul; [apply bd_iff; split; [exact Fp|change (bpow radix2 1) with 2; lra]| |lia|lia|lia]. apply bd_iff. split; [exact Fs|]. change (bpow radix2 6) with 64. lra. }
    clearbody acute. change 3%Z with (3 + 0)%Z. apply bd_mul; [exact HA| |lia|lia|lia].
    assert (HC : bd 0 (fsub (fq 1 1) (fmin acute (mpow (acute_bonus (do_Angle ll)) (fq 3 1))))) by (apply bd_compl; apply (bd_min_r 3 0); [exact HA|now apply cube_bd]).
    set (c := fsub _ _) in *. clearbody c. apply bd_iff in HC as (Fc & Bc). change (bpow radix2 0) with 1 in Bc.
    assert (Fh : fin (fq 1 2)) by (vm_compute; reflexivity). assert (Eh : B2R (fq 1 2) = / 2).
    { bval (fq 1 2). rewrite V0. cbn. lra. }
    destruct (fmul_fin _ _ Fh Fc) as (Fm & Em). { rewrite Eh. apply big_1023. apply Rabs_le. lra. }
    assert (Bm : 0 <= B2R (fmul (fq 1 2) c) <= / 2). { rewrite Em. split; [apply rnd64_pos; rewrite Eh; lra|]. rewrite <- Eh. apply rnd64_le_f. rewrite Eh. lra. }
    destruct (fadd_fin _ _ Fh Fm) as (Fa & Ea). { rewrite Eh. apply big_1023. apply Rabs_le. lra. }
    apply bd_iff. split; [exact Fa|]. rewrite Ea, Eh. split; [apply rnd64_pos; lra|]. apply rnd_le_pow; [lia|]. change (bpow radix2 0) with 1. lra.
Qed.

(** ** Velocity change *)
Lemma min_pos : forall k, 0 < bpow radix2 k. Proof. intros. apply bpow_gt_0. Qed.
Lemma jt_bd o : sane m o -> bd (m + 1) (fadd (do_Jump o) (do_Travel o)).
Proof. intros S. apply bd_add; [apply (bd_of _ _ _ (sn_jump _ _ S)), Rle_refl|apply (bd_of _ _ _ (sn_travel _ _ S)), Rle_refl|lia|lia]. Qed.
Lemma rnd_ge_pow a k : (-1000 <= k <= 1000)%Z -> bpow radix2 k <= a -> bpow radix2 k <= rnd64 a.
Proof.
  intros K H. rewrite <- (round_generic radix2 (SpecFloat.fexp 53 1024) (round_mode mode_NE) (bpow radix2 k)); [now apply rnd64_le|].
  apply generic_format_bpow. unfold SpecFloat.fexp, SpecFloat.emin. lia.
Qed.
Lemma speed_cases o : sane m o -> bpow radix2 (-191) <= B2R (fdiv (fadd (do_Jump o) (do_Travel o)) (do_StrainTime o)) \/ (B2R (do_Jump o) = 0 /\ B2R (do_Travel o) = 0).
Proof.
  intros S. destruct (sn_jump _ _ S) as (Fj & Bj). destruct (sn_travel _ _ S) as (Ft & Bt). destruct (sn_strain _ _ S) as (Fs & Bs).
  assert (C : (B2R (do_Jump o) = 0 /\ B2R (do_Travel o) = 0) \/ bpow radix2 (-149) <= B2R (do_Jump o) + B2R (do_Travel o)).
  { destruct (sn_jump_grain _ _ S), (sn_travel_grain _ _ S); [left; auto|right; lra|right; lra|right; lra]. }
  destruct C as [C|C]; [now right|]. left. assert (P : bpow radix2 m <= bpow radix2 400) by (apply bpow_le; lia).
  assert (P2 : bpow radix2 400 + bpow radix2 400 = bpow radix2 401) by (change 401%Z with (1 + 400)%Z; rewrite bpow_plus; change (bpow radix2 1) with 2; lra).
  assert (P3 : bpow radix2 401 <= bpow radix2 1023) by (apply bpow_le; lia).
  destruct (fadd_fin _ _ Fj Ft) as (Fa & Ea); [rewrite Rabs_pos_eq; lra|]. pose proof (bd_pos _ _ (jt_bd o S)) as Pa. pose proof (jt_bd o S) as Ba. apply bd_iff in Ba as (_ & Ba).
  assert (La : bpow radix2 (-149) <= B2R (fadd (do_Jump o) (do_Travel o))) by (rewrite Ea; apply rnd_ge_pow; [lia|exact C]).
  set (a := fadd _ _) in *. clearbody a. assert (Q : 0 <= B2R a / B2R (do_StrainTime o) <= B2R a).
  { split; [apply Rle_mult_inv_pos; lra|]. apply Rmult_le_reg_r with (B2R (do_StrainTime o)); [lra|]. unfold Rdiv. rewrite Rmult_assoc, Rinv_l by lra. nra. }
  destruct (fdiv_fin _ _ Fa Fs) as (Fd & Ed); [lra| |].
  - rewrite Rabs_pos_eq by apply Q. apply Rle_trans with (B2R a); [apply Q|]. assert (bpow radix2 (m + 1) <= bpow radix2 1023) by (apply bpow_le; lia). lra.
  - rewrite Ed. apply rnd_ge_pow; [lia|]. apply Rmult_le_reg_r with (B2R (do_StrainTime o)); [lra|]. unfold Rdiv. rewrite Rmult_assoc, Rinv_l, Rmult_1_r by lra.
    apply Rle_trans with (bpow radix2 (-191) * bpow radix2 42); [apply Rmult_le_compat_l; [apply bpow_ge_0|lra]|]. rewrite <- bpow_plus. exact La.
Qed.
Lemma fdiv_zero (x y : f64) : fin x -> fin y -> B2R x = 0 -> 1 <= B2R y -> fin (fdiv x y) /\ B2R (fdiv x y) = 0.
Proof. intros Fx Fy X Y. assert (Q : B2R x / B2R y = 0) by (rewrite X; unfold Rdiv; lra). destruct (fdiv_fin x y Fx Fy) as (F & E); [lra|rewrite Q, Rabs_R0; apply bpow_ge_0|]. split; [exact F|]. now rewrite E, Q, rnd64_0. Qed.
Lemma still_velocity ws o before : sane m o -> linked o before -> base_spinner o = false -> B2R (do_Jump o) = 0 -> B2R (do_Travel o) = 0 -> B2R (aim_velocity ws o before) = 0.
Proof.
  intros S L NS J T. unfold aim_velocity. destruct (sn_jump _ _ S) as (Fj & _). destruct (sn_travel _ _ S) as (Ft & _). destruct (sn_move _ _ S) as (Fm & _). pose proof (sn_still _ _ S J) as MV. destruct (strain_ge1 o S) as (Fs & Bs).
  destruct (fdiv_zero _ _ Fj Fs J) as (F1 & E1); [lra|]. destruct (base_lazy before) eqn:E; cbn [andb]; [|exact E1]. destruct ws; [|exact E1].
  destruct (L E NS) as (W1 & W2). apply within_ge in W1 as (Fa & Ba). apply within_ge in W2 as (Fb & Bb).
  destruct (fdiv_zero _ _ Fm Fa MV) as (F2 & E2); [lra|]. destruct (fdiv_zero _ _ Ft Fb T) as (F3 & E3); [lra|].
  destruct (fadd_fin _ _ F2 F3) as (F4 & E4); [rewrite E2, E3, Rplus_0_l, Rabs_R0; apply bpow_ge_0|]. rewrite E2, E3, Rplus_0_l, rnd64_0 in E4.
  destruct (fmax_fin _ _ F1 F4) as (_ & ->). rewrite E1, E4. apply Rmax_left. lra.
Qed.
Lemma change_bd ws cur last ll : sane m cur -> sane m last -> linked cur last -> linked last ll -> base_spinner cur = false -> base_spinner last = false ->
  bd (m + 1) (aim_velocity_change cur last (aim_velocity ws cur last) (aim_velocity ws last ll)).
Proof.
  intros S S' L L' NS NS'. pose proof (velocity_bd ws cur last S L NS) as V. pose proof (velocity_bd ws last ll S' L' NS') as V'.
  unfold aim_velocity_change. destruct (fne _ _) eqn:NE; [|apply bd_0]. cbv zeta.
  destruct (strain_ge1 cur S) as (Fs & Bs). destruct (strain_ge1 last S') as (Fs' & Bs').
  assert (CV : bd (m + 1) (fdiv (fadd (do_Jump cur) (do_Travel cur)) (do_StrainTime cur))) by (apply bd_div; [now apply jt_bd|exact Fs|lra|lia|lia]).
  assert (PV : bd (m + 1) (fdiv (fadd (do_Jump last) (do_Travel last)) (do_StrainTime last))) by (apply bd_div; [now apply jt_bd|exact Fs'|lra|lia|lia]).
  pose proof (speed_cases cur S) as C1. pose proof (speed_cases last S') as C2.
  set (cv := fdiv (fadd (do_Jump cur) _) _) in *. set (pv := fdiv (fadd (do_Jump last) _) _) in *.
  assert (P : bpow radix2 (-191) <= B2R (fmax pv cv)).
  { destruct (fmax_fin _ _ (bd_fin _ _ PV) (bd_fin _ _ CV)) as (_ & ->).
    destruct C1 as [C1|(J1 & T1)]; [apply Rle_trans with (1 := C1), Rmax_r|]. destruct C2 as [C2|(J2 & T2)]; [apply Rle_trans with (1 := C2), Rmax_l|].
    exfalso. pose proof (still_velocity ws cur last S L NS J1 T1) as E1. pose proof (still_velocity ws last ll S' L' NS' J2 T2) as E2.
    destruct (fmax_fin _ _ (bd_fin _ _ V') (bd_fin _ _ V)) as (Fm & Em). rewrite E1, E2, Rmax_left in Em by lra. unfold fne in NE. apply negb_true_iff in NE.
    assert (X : feq (fmax (aim_velocity ws last ll) (aim_velocity ws cur last)) f0 = true); [|unfold feq in X; rewrite X in NE; discriminate NE].
    apply feq_iff. split; [now apply fin_num|]. split; [reflexivity|]. rewrite (key_fin _ _ _ Fm), Em. reflexivity. }
  clear C1 C2 NE V V' L L'. clearbody cv pv. pose proof (bd_max _ _ _ PV CV) as MX. apply bd_iff in PV as (Fp & Bp). apply bd_iff in CV as (Fc & Bc).
  assert (K : bpow radix2 (m + 1) <= bpow radix2 401) by (apply bpow_le; lia). assert (K2 : bpow radix2 401 <= bpow radix2 1023) by (apply bpow_le; lia).
  destruct (fsub_fin _ _ Fp Fc) as (Fd & Ed); [apply Rabs_le; lra|]. destruct (fabs_fin _ Fd) as (Fv & Ev).
  assert (DV : bd (m + 1) (fabs (fsub pv cv))).
  { apply bd_iff. split; [exact Fv|]. rewrite Ev. split; [apply Rabs_pos|]. rewrite Ed. apply (rnd_bound 53 1024 _ (m + 1)); [unfold SpecFloat.emin; lia|]. apply Rabs_le. lra. }
  set (dv := fabs (fsub pv cv)) in *. clearbody dv. set (mx := fmax pv cv) in *. clearbody mx. apply bd_iff in MX as (Fx & Bx).
  destruct pi_consts as (_ & _ & (Fpi & Bpi) & _). assert (PI : bd 1 fpi_2) by (apply bd_iff; split; [exact Fpi|change (bpow radix2 1) with 2; lra]).
  assert (RT : fin (fdiv (fmul fpi_2 dv) mx)).
  { pose proof (bd_mul 1 (m + 1) _ _ PI DV ltac:(lia) ltac:(lia) ltac:(lia)) as X. apply bd_iff in X as (Fx' & Bx'). apply fdiv_fin; [exact Fx'|exact Fx|pose proof (min_pos (-191)); lra|].
    pose proof (min_pos (-191)). rewrite Rabs_pos_eq by (apply Rle_mult_inv_pos; lra). apply Rmult_le_reg_r with (B2R mx); [lra|]. unfold Rdiv. rewrite Rmult_assoc, Rinv_l, Rmult_1_r by lra.
    apply Rle_trans with (bpow radix2 1023 * bpow radix2 (-191)); [|apply Rmult_le_compat_l; [apply bpow_ge_0|lra]]. rewrite <- bpow_plus. apply Rle_trans with (1 := proj2 Bx'). apply bpow_le. lia. }
  assert (MN : bd 42 (fmin (do_StrainTime cur) (do_StrainTime last))) by (apply bd_min; [apply (bd_of 42 (bpow radix2 42))|apply (bd_of 42 (bpow radix2 42))]; try apply Rle_refl; [pose proof (sn_strain _ _ S) as (F & B)|pose proof (sn_strain _ _ S') as (F & B)]; split; auto; lra).
  destruct (fmin_fin _ _ Fs Fs') as (Fmn & Emn). destruct (fmax_fin _ _ Fs Fs') as (Fmx & Emx).
  assert (Bmn : 25 <= B2R (fmin (do_StrainTime cur) (do_StrainTime last))) by (rewrite Emn; now apply Rmin_glb).
  assert (Bmx : B2R (fmin (do_StrainTime cur) (do_StrainTime last)) <= B2R (fmax (do_StrainTime cur) (do_StrainTime last))) by (rewrite Emn, Emx; apply Rle_trans with (1 := Rmin_l _ _), Rmax_l).
  clear Emn Emx. set (mn := fmin (do_StrainTime cur) _) in *. set (mt := fmax (do_StrainTime cur) _) in *. clearbody mn mt.
  destruct (sn_jump _ _ S) as (Fj & Bj). destruct (sn_jump _ _ S') as (Fj' & Bj').
  replace (m + 1)%Z with ((m + 1) + 0)%Z by lia. apply bd_mul; [| |lia|lia|lia].
  - replace (m + 1)%Z with ((m + 1) + 0)%Z by lia. apply bd_mul; [|apply sin2_bd; exact RT|lia|lia|lia]. apply bd_max.
    + apply (bd_min_r 7); [|exact DV]. destruct (fq1_exact 125) as (F1 & E1); [lia|]. apply bd_div; [bdc|exact Fmn|lra|lia|lia].
    + replace (m + 1)%Z with ((m + 1) + 0)%Z by lia. apply bd_mul; [exact DV| |lia|lia|lia]. apply sin2_bd. apply (bd_fin (1 + 0)). apply bd_mul; [exact PI| |lia|lia|lia]. apply (bd_min_l 0 m); [exact bd_one|].
      destruct (fq1_exact 100) as (F1 & E1); [lia|]. apply bd_div; [|exact F1|rewrite E1; lra|lia|lia]. apply bd_min; apply bd_iff; auto.
  - assert (Q : bd 0 (fdiv mn mt)).
    { assert (0 <= B2R mn / B2R mt <= 1) by (split; [apply Rle_mult_inv_pos; lra|apply Rmult_le_reg_r with (B2R mt); [lra|]; unfold Rdiv; rewrite Rmult_assoc, Rinv_l by lra; lra]).
      destruct (fdiv_fin _ _ Fmn Fmx) as (F & E); [lra|apply big_1023; rewrite Rabs_pos_eq; lra|]. apply bd_iff. split; [exact F|]. rewrite E. split; [apply rnd64_pos; lra|]. apply rnd_le_pow; [lia|]. change (bpow radix2 0) with 1. lra. }
    apply bd_iff in Q as (F & B). change (bpow radix2 0) with 1 in B. apply (within_bd _ 1); [|apply Rle_refl]. apply (square_unit TR); [exact F|]. rewrite Rabs_pos_eq; lra.
Qed.

(** ** Aim *)
Lemma aim_bd ws prev cur : sane m cur ->
  (forall last ll r, prev = last :: ll :: r -> sane m last /\ linked cur last /\ linked last ll) -> bd (m + 8) (aim_value ws prev cur).
Proof.
  intros S H. unfold aim_value. destruct prev as [|last [|ll r]]; [apply bd_0|apply bd_0|]. destruct (H _ _ _ eq_refl) as (S' & L & L').
  destruct (base_spinner cur) eqn:N; [apply bd_0|]. destruct (base_spinner last) eqn:N'; [apply bd_0|]. cbv zeta.
  pose proof (velocity_bd ws cur last S L N) as V. pose proof (velocity_bd ws last ll S' L' N') as V'. pose proof (change_bd ws cur last ll S S' L L' N N') as C.
  pose proof (angles_bd cur last ll _ _ S S' V V') as A. destruct (aim_angles _ _ _ _ _) as (wide, acute). cbn [fst snd] in A. destruct A as (A1 & A2).
  assert (B : bd (m + 7) (fadd (aim_velocity ws cur last) (fmax (fmul acute (fq 2 1)) (fadd (fmul wide (fq 3 2)) (fmul (aim_velocity_change cur last (aim_velocity ws cur last) (aim_velocity ws last ll)) (fq 3 4)))))).
  { replace (m + 7)%Z with ((m + 6) + 1)%Z by lia. apply bd_add; [apply (bd_le _ _ _ V); lia| |lia|lia]. apply bd_max.
    - apply (bd_le (3 + 1)); [|lia]. apply bd_mul; [exact A2|bdc|lia|lia|lia].
    - apply (bd_le ((m + 2) + 1)); [|lia]. apply bd_add; [| |lia|lia].
      + replace (m + 2)%Z with ((m + 1) + 1)%Z by lia. apply bd_mul; [exact A1|bdc|lia|lia|lia].
      + replace (m + 2)%Z with ((m + 1) + 1)%Z by lia. apply bd_mul; [exact C|bdc|lia|lia|lia]. }
  destruct ws; [|apply (bd_le _ _ _ B); lia]. replace (m + 8)%Z with ((m + 7) + 1)%Z by lia. apply bd_add; [exact B| |lia|lia].
  apply (bd_le (m + 1)); [|lia]. apply bd_mul; [|bdc|lia|lia|lia]. destruct (fne (do_TravelTime cur) f0) eqn:E; [|apply bd_0].
  destruct (sn_travel_time _ _ S) as [T|(Ft & Bt)]; [rewrite T in E; discriminate E|]. apply bd_div; [apply (bd_of _ _ _ (sn_travel _ _ S)), Rle_refl|exact Ft|lra|lia|lia].
Qed.

(** ** Speed *)
Lemma bd_div2 k x y : bd k x -> fin y -> / 2 <= B2R y -> (0 <= k)%Z -> (k <= 900)%Z -> bd (k + 1) (fdiv x y).
Proof.
  rewrite !bd_iff. intros (Fx & Bx) Fy By K K'. assert (Q : 0 <= B2R x / B2R y <= bpow radix2 (k + 1)).
  { split; [apply Rle_mult_inv_pos; lra|]. rewrite bpow_plus. change (bpow radix2 1) with 2. apply Rmult_le_reg_r with (B2R y); [lra|]. unfold Rdiv. rewrite Rmult_assoc, Rinv_l, Rmult_1_r by lra. pose proof (bpow_gt_0 radix2 k). nra. }
  assert (P : bpow radix2 (k + 1) <= bpow radix2 1023) by (apply bpow_le; lia).
  destruct (fdiv_fin _ _ Fx Fy) as (F & E); [lra|rewrite Rabs_pos_eq; lra|]. split; [exact F|]. rewrite E. split; [apply rnd64_pos; lra|apply rnd_le_pow; [lia|lra]].
Qed.
Lemma window_val d : clocked d -> fin (fdiv (d_Hit300 d) (d_Speed d)) /\ 2 <= B2R (fdiv (d_Hit300 d) (d_Speed d)) <= 1024.
Proof.
  intros ((Fh & Bh) & (Fs & Bs) & _). assert (Q : 2 <= B2R (d_Hit300 d) / B2R (d_Speed d) <= 1024).
  { split; apply Rmult_le_reg_r with (B2R (d_Speed d)); try lra; unfold Rdiv; rewrite Rmult_assoc, Rinv_l by lra; lra. }
  destruct (fdiv_fin _ _ Fh Fs) as (F & E); [lra|apply big_1023; rewrite Rabs_pos_eq; lra|]. split; [exact F|]. rewrite E. split; [apply (rnd64_exact_Z' 2)|apply (rnd64_exact_Z 1024)]; try lia; lra.
Qed.
Lemma times2_val (x : f64) : fin x -> 2 <= B2R x <= 1024 -> fin (fmul x (fq 2 1)) /\ 4 <= B2R (fmul x (fq 2 1)) <= 2048.
Proof.
  intros F B. destruct (fq1_exact 2) as (F2 & E2); [lia|]. destruct (fmul_fin _ _ F F2) as (Fm & Em); [rewrite E2; apply big_1023; rewrite Rabs_pos_eq; lra|].
  split; [exact Fm|]. rewrite Em, E2. split; [apply (rnd64_exact_Z' 4)|apply (rnd64_exact_Z 2048)]; try lia; lra.
Qed.
(** going from the previous strain time towards the current one *)
Lemma lerp_val (p s r : f64) : fin p -> fin s -> bd 0 r -> 25 <= B2R s -> B2R s <= B2R p -> B2R p <= bpow radix2 42 ->
  fin (lerpF64 p s r) /\ 24 <= B2R (lerpF64 p s r) <= bpow radix2 42.
Proof.
  intros Fp Fs R Bs SP Bp. apply bd_iff in R as (Fr & Br). change (bpow radix2 0) with 1 in Br. unfold lerpF64. change (bpow radix2 42) with 4398046511104 in *.
  assert (HUGE : forall x, Rabs x <= 4398046511104 -> Rabs x <= bpow radix2 1023) by (intros x H; apply Rle_trans with (1 := H); change 4398046511104 with (bpow radix2 42); apply bpow_le; lia).
  destruct (fsub_fin _ _ Fs Fp) as (Fy & Ey); [apply HUGE, Rabs_le; lra|].
  assert (By : -4398046511104 <= B2R (fsub s p) <= 0) by (rewrite Ey; split; [apply (rnd64_exact_Z' (-4398046511104)); [lia|lra]|apply rnd64_neg; lra]).
  assert (Dy : B2R s - B2R p - 1 / 2 <= B2R (fsub s p)).
  { rewrite Ey. pose proof (rnd64_err (B2R s - B2R p) 42 ltac:(lia)) as H. change (bpow radix2 42) with 4398046511104 in H. specialize (H ltac:(apply Rabs_le; lra)). apply Rabs_le_inv in H.
    assert (bpow radix2 (42 - 53) <= 1 / 2) by (cbn; lra). lra. }
  set (y := fsub s p) in *. clearbody y. clear Ey.
  assert (Bq : B2R y <= B2R y * B2R r <= 0) by (split; nra).
  destruct (fmul_fin _ _ Fy Fr) as (Fq & Eq); [apply HUGE, Rabs_le; lra|].
  assert (Bm : B2R y <= B2R (fmul y r) <= 0) by (rewrite Eq; split; [apply rnd64_ge_f; lra|apply rnd64_neg; lra]). set (q := fmul y r) in *. clearbody q.
  destruct (fadd_fin _ _ Fp Fq) as (Fa & Ea); [apply HUGE, Rabs_le; lra|]. split; [exact Fa|]. rewrite Ea. split; [apply (rnd64_exact_Z' 24); [lia|lra]|]. apply Rle_trans with (B2R p); [apply rnd64_le_f; lra|lra].
Qed.
Lemma speed_bd d prev cur : clocked d -> sane m cur -> Forall (sane m) prev -> bd 15 (speed_value d prev cur).
Proof.
  intros D S SP. unfold speed_value. destruct (base_spinner cur); [apply bd_0|]. cbv zeta.
  destruct (window_val d D) as (Fw & Bw). destruct (times2_val _ Fw Bw) as (F2 & B2). set (w := fmul (fdiv (d_Hit300 d) (d_Speed d)) (fq 2 1)) in *. clearbody w. clear Fw Bw.
  destruct (sn_strain _ _ S) as (Fs & Bs).
  match goal with |- context [match prev with [] => ?a | p :: _ => @?f p end] => set (st := match prev with [] => a | p :: _ => f p end) end.
  assert (ST : fin st /\ 24 <= B2R st <= bpow radix2 42).
  { unfold st. destruct prev as [|p r]; [split; [exact Fs|lra]|]. inversion SP as [|? ? S' _]; subst. destruct (sn_strain _ _ S') as (Fp & Bp).
    destruct (flt (do_StrainTime cur) w) eqn:L; cbn [andb]; [|split; [exact Fs|lra]]. destruct (fgt _ _) eqn:G; [|split; [exact Fs|lra]].
    apply (flt_fin _ _ Fs F2) in L. apply fgt_iff in G as (_ & _ & G). rewrite (key_fin _ _ _ Fs), (key_fin _ _ _ Fp) in G. apply lerp_val; auto; try lra.
    assert (Q : 0 <= B2R (do_StrainTime cur) / B2R w <= 1) by (split; [apply Rle_mult_inv_pos; lra|apply Rmult_le_reg_r with (B2R w); [lra|]; unfold Rdiv; rewrite Rmult_assoc, Rinv_l by lra; lra]).
    destruct (fdiv_fin _ _ Fs F2) as (F & E); [lra|apply big_1023; rewrite Rabs_pos_eq; lra|]. apply bd_iff. split; [exact F|]. rewrite E. split; [apply rnd64_pos; lra|]. apply rnd_le_pow; [lia|]. change (bpow radix2 0) with 1. lra. }
  clearbody st. destruct ST as (Ft & Bt). assert (BT : bd 42 st) by (apply bd_iff; split; [exact Ft|lra]).
  assert (CL : let c := clampF64 (fdiv (fdiv st w) (fq 93 100)) (fq 92 100) (fq 1 1) in fin c /\ / 2 <= B2R c <= 1).
  { cbv zeta. assert (Fx : fin (fdiv (fdiv st w) (fq 93 100))).
    { apply (bd_fin (42 + 1)). apply bd_div2; [apply bd_div; [exact BT|exact F2|lra|lia|lia]|vm_compute; reflexivity| |lia|lia]. assert (X : B2R (fq 1 2) <= B2R (fq 93 100)); [|destruct half_val; lra].
      apply fle_fin; vm_compute; reflexivity. }
    destruct one_val as (F1 & E1). assert (F9 : fin (fq 92 100)) by (vm_compute; reflexivity). assert (B9 : / 2 <= B2R (fq 92 100) <= 1).
    { split; [assert (X : B2R (fq 1 2) <= B2R (fq 92 100)); [apply fle_fin; vm_compute; reflexivity|destruct half_val; lra]|]. rewrite <- E1. apply fle_fin; vm_compute; reflexivity. }
    unfold clampF64. destruct (fmax_fin _ _ F9 Fx) as (Fa & Ea). destruct (fmin_fin _ _ F1 Fa) as (Fb & Eb). split; [exact Fb|]. rewrite Eb, Ea, E1. unfold Rmin, Rmax. repeat destruct (Rle_dec _ _); lra. }
  cbv zeta in CL. set (c := clampF64 _ _ _) in *. clearbody c. destruct CL as (Fc & Bc).
  assert (S2 : fin (fdiv st c) /\ 24 <= B2R (fdiv st c)).
  { assert (Q : B2R st <= B2R st / B2R c) by (apply Rmult_le_reg_r with (B2R c); [lra|]; unfold Rdiv; rewrite Rmult_assoc, Rinv_l by lra; nra).
    pose proof (bd_div2 42 st c BT Fc ltac:(lra) ltac:(lia) ltac:(lia)) as X. split; [exact (bd_fin _ _ X)|]. destruct (fdiv_fin _ _ Ft Fc) as (_ & ->); [lra| |apply (rnd64_exact_Z' 24); [lia|lra]].
    rewrite Rabs_pos_eq by lra. apply Rle_trans with (bpow radix2 43); [|apply bpow_le; lia]. apply Rmult_le_reg_r with (B2R c); [lra|]; unfold Rdiv; rewrite Rmult_assoc, Rinv_l by lra. change 43%Z with (42 + 1)%Z. rewrite bpow_plus. change (bpow radix2 1) with 2. pose proof (bpow_gt_0 radix2 42). nra. }
  destruct S2 as (F3 & B3). set (st2 := fdiv st c) in *. clearbody st2.
  assert (BO : bd 14 (if flt st2 (fq 75 1) then fadd (fq 1 1) (fmul (fq 3 4) (mpow (fdiv (fsub (fq 75 1) st2) (fq 40 1)) (fq 2 1))) else fq 1 1)).
  { destruct (fq1_exact 75) as (F7 & E7); [lia|]. destruct (fq1_exact 40) as (F4 & E4); [lia|]. destruct (flt st2 (fq 75 1)) eqn:L; [|apply (bd_le 0); [exact bd_one|lia]].
    apply (flt_fin _ _ F3 F7) in L. rewrite E7 in L. destruct (sub_Z (fq 75 1) st2 0 51 F7 F3) as (Fd & Bd); [lia|lia|rewrite E7; lra|].
    assert (Q : bd 6 (fdiv (fsub (fq 75 1) st2) (fq 40 1))) by (apply bd_div; [apply bd_iff; split; [exact Fd|change (bpow radix2 6) with 64; lra]|exact F4|rewrite E4; lra|lia|lia]).
    apply bd_iff in Q as (Fq & Bq). change 14%Z with (13 + 1)%Z. apply bd_add; [apply (bd_le 0); [exact bd_one|lia]| |lia|lia]. change 13%Z with (0 + 13)%Z. apply bd_mul; [bdc| |lia|lia|lia].
    apply (square_bd PR _ 6); [exact Fq|rewrite Rabs_pos_eq; lra|lia]. }
  set (b := if flt st2 (fq 75 1) then _ else _) in *. clearbody b.
  assert (DI : bd 0 (mpow (fdiv (fmin (fq 125 1) (fadd (do_Travel cur) (do_Jump cur))) (fq 125 1)) (fq 7 2))).
  { apply (unit_bd PR).
    - destruct (fq1_exact 125) as (F1 & E1); [lia|]. assert (A : bd (m + 1) (fadd (do_Travel cur) (do_Jump cur))) by (apply bd_add; [apply (bd_of _ _ _ (sn_travel _ _ S)), Rle_refl|apply (bd_of _ _ _ (sn_jump _ _ S)), Rle_refl|lia|lia]).
      apply bd_iff in A as (Fa & Ba). destruct (fmin_fin _ _ F1 Fa) as (Fm & Em). rewrite E1 in Em. assert (Bm : 0 <= B2R (fmin (fq 125 1) (fadd (do_Travel cur) (do_Jump cur))) <= 125) by (rewrite Em; unfold Rmin; destruct (Rle_dec _ _); lra).
      set (x := fmin _ _) in *. clearbody x. assert (Q : 0 <= B2R x / 125 <= 1) by lra. destruct (fdiv_fin _ _ Fm F1) as (Fd & Ed); [lra|rewrite E1; apply big_1023; rewrite Rabs_pos_eq; lra|].
      apply bd_iff. split; [exact Fd|]. rewrite Ed, E1. split; [apply rnd64_pos; lra|]. apply rnd_le_pow; [lia|]. change (bpow radix2 0) with 1. lra.
    - vm_compute. reflexivity.
    - assert (X : bd 2 (fq 7 2)) by bdc. exact (bd_pos _ _ X). }
  apply bd_div; [|exact F3|lra|lia|lia]. change 15%Z with (14 + 1)%Z. apply bd_add; [exact BO| |lia|lia]. change 14%Z with (14 + 0)%Z. apply bd_mul; [exact BO|exact DI|lia|lia|lia].
Qed.

(** ** Rhythm *)
Lemma bd_sqrt k x : bd (2 * k) x -> (0 <= k <= 400)%Z -> bd k (fsqrt x).
Proof.
  rewrite !bd_iff. intros (F & B) K. destruct (fsqrt_fin x F) as (Fs & Es); [lra|]. split; [exact Fs|]. rewrite Es. split; [apply rnd64_pos, sqrt_pos|]. apply rnd_le_pow; [lia|].
  replace (bpow radix2 k) with (sqrt (bpow radix2 (2 * k))); [apply sqrt_le_1_alt; lra|]. replace (2 * k)%Z with (k + k)%Z by ring. rewrite bpow_plus. apply sqrt_square, bpow_ge_0.
Qed.
Definition rh_ok (j : Z) (r : rhythm) : Prop :=
  (0 <= rh_prevIsland r <= 7)%Z /\ (1 <= rh_island r <= 7)%Z /\ bd 4 (rh_startRatio r) /\ fin (rh_sum r) /\ 0 <= B2R (rh_sum r) <= IZR (256 * j).
Lemma rh_more j j' r : rh_ok j r -> (j <= j')%Z -> rh_ok j' r.
Proof. intros (A & B & C & D & E) H. split; [exact A|]. split; [exact B|]. split; [exact C|]. split; [exact D|]. assert (IZR (256 * j) <= IZR (256 * j')) by (apply IZR_le; lia). lra. Qed.
Lemma island_sqrt z : (0 <= z <= 7)%Z -> bd 2 (fsqrt (fadd (fq 4 1) (f_of_Z z))) /\ 1 <= B2R (fsqrt (fadd (fq 4 1) (f_of_Z z))).
Proof.
  intros Hz. destruct (f_of_Z_exact z) as (Fz & Ez); [lia|]. destruct (fq1_exact 4) as (F4 & E4); [lia|]. assert (Bz : 0 <= IZR z <= 7) by (split; [apply (IZR_le 0)|apply (IZR_le _ 7)]; lia).
  destruct (add_Z (fq 4 1) (f_of_Z z) 4 11 F4 Fz) as (Fa & Ba); [lia|lia|rewrite E4, Ez; lra|]. split.
  - apply (bd_sqrt 2); [|lia]. apply bd_iff. split; [exact Fa|]. change (bpow radix2 (2 * 2)) with 16. lra.
  - destruct (fsqrt_fin _ Fa) as (_ & ->); [lra|]. apply (rnd64_exact_Z' 1); [lia|]. rewrite <- sqrt_1. apply sqrt_le_1_alt. lra.
Qed.
Lemma rhythm_step_ok j cur w n i a b c r : sane m cur -> sane m a -> sane m b -> sane m c -> fin w -> 2 <= B2R w <= 1024 -> (0 <= i <= n)%nat -> (1 <= n <= 1000)%nat -> (0 <= j <= 100)%Z ->
  rh_ok j r -> rh_ok (j + 1) (rhythm_step cur w n i a b c r).
Proof.
  intros SC SA SB SL Fw Bw Hi Hn Hj R. unfold rhythm_step. cbv zeta. destruct (fne _ f0); [|apply (rh_more j); [exact R|lia]].
  destruct (fq1_exact 5000) as (F5 & E5); [lia|]. destruct one_val as (F1 & E1).
  assert (DC : bd 0 (fmin (fdiv (f_of_Z (Z.of_nat n - Z.of_nat i)) (f_of_Z (Z.of_nat n))) (fdiv (fmax f0 (fsub (fq 5000 1) (fsub (do_StartTime cur) (do_StartTime a)))) (fq 5000 1)))).
  { apply (bd_min_l 0 44). { apply (le2_ratio _ _ _); lia. }
    destruct (sn_start _ _ SC) as (Fs & Bs). destruct (sn_start _ _ SA) as (Fa & Ba).
    assert (P : forall x, Rabs x <= bpow radix2 44 -> Rabs x <= bpow radix2 1023) by (intros x H; apply Rle_trans with (1 := H), bpow_le; lia). change (bpow radix2 44) with 17592186044416 in *. change (bpow radix2 42) with 4398046511104 in *.
    destruct (fsub_fin _ _ Fs Fa) as (Fd & Ed); [apply P, Rabs_le; lra|]. assert (Bd : -8796093022208 <= B2R (fsub (do_StartTime cur) (do_StartTime a)) <= 8796093022208) by (rewrite Ed; split; [apply (rnd64_exact_Z' (-8796093022208))|apply (rnd64_exact_Z 8796093022208)]; try lia; lra).
    destruct (fsub_fin _ _ F5 Fd) as (Fe & Ee); [apply P, Rabs_le; lra|]. assert (Be : -17592186044416 <= B2R (fsub (fq 5000 1) (fsub (do_StartTime cur) (do_StartTime a))) <= 17592186044416) by (rewrite Ee, E5; split; [apply (rnd64_exact_Z' (-17592186044416))|apply (rnd64_exact_Z 17592186044416)]; try lia; lra).
    apply bd_div; [|exact F5|rewrite E5; lra|lia|lia]. destruct (fmax_fin f0 _ eq_refl Fe) as (Fm & Em). change (B2R f0) with 0 in Em. apply bd_iff. split; [exact Fm|]. rewrite Em. change (bpow radix2 44) with 17592186044416. unfold Rmax. destruct (Rle_dec _ _); lra. }
  set (dc := fmin (fdiv (f_of_Z _) _) _) in *. clearbody dc.
  destruct (sn_strain _ _ SA) as (Fcd & Bcd). destruct (sn_strain _ _ SB) as (Fpd & Bpd).
  set (cd := do_StrainTime a) in *. set (pd := do_StrainTime b) in *. set (ld := do_StrainTime c) in *. clearbody cd pd ld.
  destruct pi_consts as (_ & _ & _ & (Fpi & Bpi)).
  assert (RA : bd 4 (fadd (fq 1 1) (fmul (fq 6 1) (fmin (fq 1 2) (mpow (msin (fdiv fpi (fdiv (fmin pd cd) (fmax pd cd)))) (fq 2 1)))))).
  { change 4%Z with (3 + 1)%Z. apply bd_add; [apply (bd_le 0); [exact bd_one|lia]| |lia|lia]. change 3%Z with (3 + 0)%Z. apply bd_mul; [bdc| |lia|lia|lia]. apply (bd_min_r 0 0); [bdc|]. apply sin2_bd.
    destruct (fmin_fin _ _ Fpd Fcd) as (Fmn & Emn). destruct (fmax_fin _ _ Fpd Fcd) as (Fmx & Emx).
    assert (Bmn : 25 <= B2R (fmin pd cd)) by (rewrite Emn; apply Rmin_glb; lra). assert (Bmx : 25 <= B2R (fmax pd cd) <= bpow radix2 42) by (rewrite Emx; unfold Rmax; destruct (Rle_dec _ _); lra).
    assert (LE : B2R (fmin pd cd) <= B2R (fmax pd cd)) by (rewrite Emn, Emx; apply Rle_trans with (1 := Rmin_l _ _), Rmax_l). clear Emn Emx. set (mn := fmin pd cd) in *. set (mx := fmax pd cd) in *. clearbody mn mx.
    assert (Q : bpow radix2 (-42) <= B2R mn / B2R mx <= 1).
    { split; apply Rmult_le_reg_r with (B2R mx); try lra; unfold Rdiv; rewrite Rmult_assoc, Rinv_l by lra; [|lra]. apply Rle_trans with (bpow radix2 (-42) * bpow radix2 42); [apply Rmult_le_compat_l; [apply bpow_ge_0|lra]|]. rewrite <- bpow_plus. change (bpow radix2 (-42 + 42)) with 1. lra. }
    pose proof (bpow_gt_0 radix2 (-42)). destruct (fdiv_fin _ _ Fmn Fmx) as (Fd & Ed); [lra|apply big_1023; rewrite Rabs_pos_eq; lra|].
    assert (Bd : bpow radix2 (-42) <= B2R (fdiv mn mx)) by (rewrite Ed; apply rnd_ge_pow; [lia|lra]). apply fdiv_fin; [exact Fpi|exact Fd|lra|]. rewrite Rabs_pos_eq by (apply Rle_mult_inv_pos; lra).
    apply Rmult_le_reg_r with (B2R (fdiv mn mx)); [lra|]. unfold Rdiv. rewrite Rmult_assoc, Rinv_l, Rmult_1_r by lra. apply Rle_trans with (bpow radix2 1023 * bpow radix2 (-42)); [|apply Rmult_le_compat_l; [apply bpow_ge_0|lra]].
    rewrite <- bpow_plus. apply Rle_trans with (bpow radix2 2); [change (bpow radix2 2) with 4; lra|apply bpow_le; lia]. }
  set (ra := fadd (fq 1 1) _) in *. clearbody ra.
  assert (W6 : fin (fmul w (fq 6 10)) /\ / 2 <= B2R (fmul w (fq 6 10)) /\ bd 11 (fmul w (fq 6 10))).
  { assert (BW : bd 10 w) by (apply bd_iff; split; [exact Fw|change (bpow radix2 10) with 1024; lra]). assert (Bq : / 2 <= B2R (fq 6 10)) by (destruct half_val as (_ & <-); apply fle_fin; vm_compute; reflexivity).
    assert (Fq : fin (fq 6 10)) by (vm_compute; reflexivity). pose proof (bd_mul 10 0 w (fq 6 10) BW ltac:(bdc) ltac:(lia) ltac:(lia) ltac:(lia)) as X. split; [exact (bd_fin _ _ X)|]. split; [|apply (bd_le _ _ _ X); lia].
    assert (B1 : B2R (fq 6 10) <= 1) by (rewrite <- E1; apply fle_fin; vm_compute; reflexivity). destruct (fmul_fin _ _ Fw Fq) as (_ & ->); [apply big_1023; apply Rabs_le; nra|]. apply Rle_trans with 1; [lra|]. apply (rnd64_exact_Z' 1); [lia|]. nra. }
  destruct W6 as (F6 & B6 & B6'). set (w6 := fmul w (fq 6 10)) in *. clearbody w6.
  assert (PE : bd 0 (fmin (fq 1 1) (fmin (fq 1 1) (fdiv (fmax f0 (fsub (fabs (fsub pd cd)) w6)) w6)))).
  { apply (bd_min_l 0 0); [exact bd_one|]. apply (bd_min_l 0 (44 + 1)); [exact bd_one|]. apply bd_div2; [|exact F6|exact B6|lia|lia].
    assert (P : forall x, Rabs x <= bpow radix2 44 -> Rabs x <= bpow radix2 1023) by (intros x H; apply Rle_trans with (1 := H), bpow_le; lia). change (bpow radix2 44) with 17592186044416 in *. change (bpow radix2 42) with 4398046511104 in *.
    apply bd_iff in B6' as (_ & B6'). change (bpow radix2 11) with 2048 in B6'. destruct (fsub_fin _ _ Fpd Fcd) as (Fd & Ed); [apply P, Rabs_le; lra|].
    assert (Bd : -8796093022208 <= B2R (fsub pd cd) <= 8796093022208) by (rewrite Ed; split; [apply (rnd64_exact_Z' (-8796093022208))|apply (rnd64_exact_Z 8796093022208)]; try lia; lra). destruct (fabs_fin _ Fd) as (Fa & Ea).
    assert (Ba : 0 <= B2R (fabs (fsub pd cd)) <= 8796093022208) by (rewrite Ea; split; [apply Rabs_pos|apply Rabs_le; lra]). destruct (fsub_fin _ _ Fa F6) as (Fe & Ee); [apply P, Rabs_le; lra|].
    assert (Be : -17592186044416 <= B2R (fsub (fabs (fsub pd cd)) w6) <= 17592186044416) by (rewrite Ee; split; [apply (rnd64_exact_Z' (-17592186044416))|apply (rnd64_exact_Z 17592186044416)]; try lia; lra).
    destruct (fmax_fin f0 _ eq_refl Fe) as (Fm & Em). change (B2R f0) with 0 in Em. apply bd_iff. split; [exact Fm|]. rewrite Em. change (bpow radix2 44) with 17592186044416. unfold Rmax. destruct (Rle_dec _ _); lra. }
  set (pe := fmin (fq 1 1) _) in *. clearbody pe.
  assert (EF : bd 4 (fmul pe ra)) by (change 4%Z with (0 + 4)%Z; apply bd_mul; [exact PE|exact RA|lia|lia|lia]). set (eff := fmul pe ra) in *. clearbody eff.
  destruct R as (I1 & I2 & SR & FS & BS).
  destruct (rh_switch r).
  2:{ destruct (fgt pd _); (apply (rh_more j); [|lia]); [|exact (conj I1 (conj I2 (conj SR (conj FS BS))))]. split; [exact I1|]. split; [cbn [rh_island]; lia|]. split; [exact EF|]. split; [exact FS|exact BS]. }
  destruct (negb _).
  { apply (rh_more j); [|lia]. destruct (Z.ltb_spec (rh_island r) 7) as [L7|L7]; (split; [exact I1|]; split; [cbn [rh_island]; lia|]; split; [exact SR|]; split; [exact FS|exact BS]). }
  assert (MU : forall x (b : bool) c, bd 4 x -> bd 0 c -> bd 4 (if b then fmul x c else x)).
  { intros x b0 c0 Hx Hc. destruct b0; [|exact Hx]. change 4%Z with (4 + 0)%Z. apply bd_mul; [exact Hx|exact Hc|lia|lia|lia]. }
  match goal with |- context [mkRhythm _ (fadd _ ?t) 1 ?e _] => set (term := t); set (ef := e) in * end.
  assert (HE : bd 4 ef) by (unfold ef; repeat (apply MU; [|bdc]); exact EF). clearbody ef.
  assert (HT : bd 8 term).
  { unfold term. destruct (fq1_exact 2) as (F2 & E2); [lia|]. destruct (island_sqrt _ I1) as (S1 & S1'). destruct (island_sqrt (rh_island r) ltac:(lia)) as (S2 & _).
    apply bd_div; [|exact F2|rewrite E2; lra|lia|lia]. change 8%Z with (6 + 2)%Z. apply bd_mul; [|exact S1|lia|lia|lia]. apply bd_div; [|exact F2|rewrite E2; lra|lia|lia].
    change 6%Z with (4 + 2)%Z. apply bd_mul; [|exact S2|lia|lia|lia]. change 4%Z with (4 + 0)%Z. apply bd_mul; [|exact DC|lia|lia|lia]. apply bd_sqrt; [|lia]. change (2 * 4)%Z with (4 + 4)%Z. apply bd_mul; [exact HE|exact SR|lia|lia|lia]. }
  clearbody term. apply bd_iff in HT as (Ft & Bt). change (bpow radix2 8) with 256 in Bt.
  assert (J : IZR (256 * (j + 1)) = IZR (256 * j) + 256) by (rewrite <- plus_IZR; f_equal; lia). assert (J0 : 0 <= IZR (256 * j) <= 25600) by (split; [apply (IZR_le 0)|apply (IZR_le _ 25600)]; lia).
  destruct (fadd_fin _ _ FS Ft) as (Fa & Ea). { apply Rle_trans with (bpow radix2 15); [change (bpow radix2 15) with 32768; apply Rabs_le; lra|apply bpow_le; lia]. }
  split; [cbn [rh_prevIsland]; lia|]. split; [cbn [rh_island]; lia|]. split; [exact HE|]. split; [exact Fa|]. cbn [rh_sum]. rewrite Ea. split; [apply rnd64_pos; lra|]. apply rnd64_exact_Z; [lia|]. lra.
Qed.
Lemma rhythm_loop_ok cur w prev : sane m cur -> Forall (sane m) prev -> (length prev <= 32)%nat -> fin w -> 2 <= B2R w <= 1024 -> forall i r r' j, (i + 2 <= length prev \/ i = 0)%nat -> (0 <= j)%Z -> (j + Z.of_nat i <= 30)%Z ->
  rh_ok j r -> rhythm_loop cur w prev i r = Ok r' -> rh_ok (j + Z.of_nat i) r'.
Proof.
  intros SC SP LP Fw Bw. induction i as [|i IH]; intros r r' j Hi Hj Hji R H; cbn [rhythm_loop] in H.
  - apply Ok_inj in H. subst r'. now rewrite Z.add_0_r.
  - apply bind_ok in H as (a & Ha & H). apply bind_ok in H as (b & Hb & H). apply bind_ok in H as (c & Hc & H).
    assert (G : forall z x, idx prev z = Ok x -> sane m x) by (intros z x Hx; apply idx_ok in Hx; rewrite Forall_forall in SP; apply SP; destruct Hx as (_ & Hx); now apply nth_error_In in Hx).
    replace (j + Z.of_nat (S i))%Z with ((j + 1) + Z.of_nat i)%Z by lia. apply (IH _ _ (j + 1)%Z ltac:(lia) ltac:(lia) ltac:(lia)) in H; [exact H|].
    apply rhythm_step_ok; auto; try (eapply G; eassumption); lia.
Qed.
Lemma bonus_bd d prev cur x : clocked d -> sane m cur -> Forall (sane m) prev -> (length prev <= 32)%nat -> speed_bonus d prev cur = Ok x -> bd 7 x.
Proof.
  intros D SC SP LP H. unfold speed_bonus in H. destruct (base_spinner cur); [apply Ok_inj in H; subst x; apply bd_0|]. apply bind_ok in H as (r & H & E). apply Ok_inj in E. subst x.
  destruct (window_val d D) as (Fw & Bw). apply (rhythm_loop_ok cur _ prev SC SP LP Fw Bw _ _ _ 0) in H; [|lia|lia|lia|].
  - destruct H as (_ & _ & _ & Fs & Bs). assert (X : IZR (256 * (0 + Z.of_nat (length prev - 2))) <= 8192) by (apply (IZR_le _ 8192); lia).
    destruct (fq1_exact 2) as (F2 & E2); [lia|]. apply bd_div; [|exact F2|rewrite E2; lra|lia|lia]. apply bd_sqrt; [|lia]. apply (bd_le (13 + 1)); [|lia]. apply bd_add; [apply (bd_le 2); [bdc|lia]| |lia|lia].
    change 13%Z with (13 + 0)%Z. apply bd_mul; [|bdc|lia|lia|lia]. apply bd_iff. split; [exact Fs|]. change (bpow radix2 13) with 8192. lra.
  - split; [cbn; lia|]. split; [cbn; lia|]. split; [apply bd_0|]. split; [reflexivity|]. cbn. lra.
Qed.

(** ** Flashlight *)
Lemma rnd_le_Zpow a n k : (0 <= n <= 2 ^ 53)%Z -> (0 <= k <= 900)%Z -> a <= IZR n * bpow radix2 k -> rnd64 a <= IZR n * bpow radix2 k.
Proof.
  intros N K H. rewrite <- (round_generic radix2 (SpecFloat.fexp 53 1024) (round_mode mode_NE) (IZR n * bpow radix2 k)); [now apply rnd64_le|].
  destruct (Z.eq_dec n (2 ^ 53)) as [->|NE].
  - change (IZR (2 ^ 53)) with (bpow radix2 53). rewrite <- bpow_plus. apply generic_format_bpow. unfold SpecFloat.fexp, SpecFloat.emin. lia.
  - apply generic_format_FLT. exists (Float radix2 n k); [reflexivity|cbn [Fnum]; change (Zpower radix2 53) with (2 ^ 53)%Z; lia|cbn [Fexp]; unfold SpecFloat.emin; lia].
Qed.
Lemma flash_loop_ok d cur sc : clocked d -> fin sc -> / 2 <= B2R sc <= 8 -> forall prev i small cum res, sane m cur -> Forall (sane m) prev -> Forall (near m d cur) prev ->
  (Z.of_nat i + Z.of_nat (length prev) <= 100)%Z -> bd 0 small -> fin cum -> 0 <= B2R cum <= IZR (Z.of_nat i) * bpow radix2 42 -> fin res -> 0 <= B2R res <= IZR (Z.of_nat i) * bpow radix2 (m + 3) ->
  let '(small', res') := flash_loop d cur sc i small cum res prev in bd 0 small' /\ fin res' /\ 0 <= B2R res' <= IZR (Z.of_nat i + Z.of_nat (length prev)) * bpow radix2 (m + 3).
Proof.
  intros D Fsc Bsc. induction prev as [|p r IH]; intros i small cum res SC SP NP L SM Fc Bc Fr Br; cbn [flash_loop].
  - cbn [length]. rewrite Z.add_0_r. auto.
  - inversion SP as [|? ? S1 S2]; subst. inversion NP as [|? ? N1 N2]; subst. cbn [length] in *.
    replace (Z.of_nat i + Z.of_nat (S (length r)))%Z with (Z.of_nat (S i) + Z.of_nat (length r))%Z by lia.
    assert (PI : IZR (Z.of_nat (S i)) = IZR (Z.of_nat i) + 1) by (rewrite <- plus_IZR; f_equal; lia). pose proof (bpow_gt_0 radix2 42) as P42. pose proof (bpow_gt_0 radix2 (m + 3)) as Pm3.
    assert (PI0 : 0 <= IZR (Z.of_nat i) <= 100) by (split; [apply (IZR_le 0)|apply (IZR_le _ 100)]; lia).
    destruct (base_spinner p).
    { apply (IH (S i)); auto; try lia; rewrite PI; split; try lra. }
    unfold near in N1. apply (bd_of m) in N1; [|apply Rle_refl]. cbv zeta. set (jump := f_of_g _) in *. clearbody jump.
    destruct (sn_strain _ _ S1) as (Fs & Bs).
    assert (BIG : 101 * bpow radix2 42 <= bpow radix2 1023) by (apply Rle_trans with (bpow radix2 7 * bpow radix2 42); [change (bpow radix2 7) with 128; lra|rewrite <- bpow_plus; apply bpow_le; lia]).
    destruct (fadd_fin _ _ Fc Fs) as (Fc' & Ec'). { rewrite Rabs_pos_eq by lra. apply Rle_trans with (IZR (Z.of_nat (S i)) * bpow radix2 42); [rewrite PI; lra|]. apply Rle_trans with (2 := BIG). apply Rmult_le_compat_r; lra. }
    assert (Bc' : 25 <= B2R (fadd cum (do_StrainTime p)) <= IZR (Z.of_nat (S i)) * bpow radix2 42).
    { rewrite Ec'. split; [apply (rnd64_exact_Z' 25); [lia|lra]|]. apply rnd_le_Zpow; [lia|lia|rewrite PI; lra]. }
    set (cum' := fadd cum _) in *. clearbody cum'.
    assert (NF : bd 0 (fmin (fq 1 1) (fdiv (fdiv (do_Jump p) sc) (fq 25 1)))).
    { destruct (fq1_exact 25) as (F2 & E2); [lia|]. apply (bd_min_l 0 (m + 1)); [exact bd_one|]. apply bd_div; [|exact F2|rewrite E2; lra|lia|lia]. apply bd_div2; [apply (bd_of _ _ _ (sn_jump _ _ S1)), Rle_refl|exact Fsc|lra|lia|lia]. }
    set (nf := fmin (fq 1 1) (fdiv (fdiv _ _) _)) in *. clearbody nf.
    assert (PW : bd 0 (mpow (fq 8 10) (f_of_Z (Z.of_nat i)))).
    { destruct (f_of_Z_exact (Z.of_nat i)) as (Fi & Ei); [lia|]. apply (unit_bd PR); [bdc|exact Fi|rewrite Ei; lra]. }
    assert (SCB : bd 3 sc) by (apply bd_iff; split; [exact Fsc|change (bpow radix2 3) with 8; lra]).
    assert (TM : bd (m + 3) (fdiv (fmul (fmul (fmul (mpow (fq 8 10) (f_of_Z (Z.of_nat i))) nf) sc) jump) cum')).
    { apply bd_div; [|exact Fc'|lra|lia|lia]. replace (m + 3)%Z with (0 + 0 + 3 + m)%Z by lia. apply bd_mul; [|exact N1|lia|lia|lia]. apply bd_mul; [|exact SCB|lia|lia|lia]. apply bd_mul; [exact PW|exact NF|lia|lia|lia]. }
    set (tm := fdiv _ cum') in *. clearbody tm. apply bd_iff in TM as (Ft & Bt).
    assert (BIG2 : 101 * bpow radix2 (m + 3) <= bpow radix2 1023) by (apply Rle_trans with (bpow radix2 7 * bpow radix2 (m + 3)); [change (bpow radix2 7) with 128; lra|rewrite <- bpow_plus; apply bpow_le; lia]).
    destruct (fadd_fin _ _ Fr Ft) as (Fa & Ea). { rewrite Rabs_pos_eq by lra. apply Rle_trans with (IZR (Z.of_nat (S i)) * bpow radix2 (m + 3)); [rewrite PI; lra|]. apply Rle_trans with (2 := BIG2). apply Rmult_le_compat_r; lra. }
    apply (IH (S i)); auto; try lia.
    + destruct i; [|exact SM]. apply (bd_min_l 0 m); [exact bd_one|]. destruct (fq1_exact 75) as (F7 & E7); [lia|]. apply bd_div; [exact N1|exact F7|rewrite E7; lra|lia|lia].
    + lra.
    + rewrite Ea. split; [apply rnd64_pos; lra|]. apply rnd_le_Zpow; [lia|lia|rewrite PI; lra].
Qed.
Lemma flash_bd d prev cur : clocked d -> (m <= 300)%Z -> sane m cur -> Forall (sane m) prev -> Forall (near m d cur) prev -> (length prev <= 10)%nat -> bd (2 * m + 15) (flash_value d prev cur).
Proof.
  intros D M3 SC SP NP L. unfold flash_value. destruct (base_spinner cur); [apply bd_0|]. cbv zeta. destruct D as (D1 & D2 & (Fr & Br)).
  destruct (fq1_exact 52) as (F5 & E5); [lia|]. assert (Q : / 2 <= 52 / B2R (d_CircleRadius d) <= 8) by (split; apply Rmult_le_reg_r with (B2R (d_CircleRadius d)); try lra; unfold Rdiv; rewrite Rmult_assoc, Rinv_l by lra; lra).
  destruct (fdiv_fin _ _ F5 Fr) as (Fs & Es); [lra|rewrite E5; apply big_1023; rewrite Rabs_pos_eq; lra|].
  assert (Bs : / 2 <= B2R (fdiv (fq 52 1) (d_CircleRadius d)) <= 8). { rewrite Es, E5. split; [|apply (rnd64_exact_Z 8); [lia|lra]]. destruct half_val as (_ & Eh). rewrite <- Eh. apply rnd64_ge_f. lra. }
  pose proof (flash_loop_ok d cur _ ltac:(exact (conj D1 (conj D2 (conj Fr Br)))) Fs Bs prev 0 (fq 1 1) f0 f0 SC SP NP ltac:(lia) bd_one eq_refl ltac:(cbn; lra) eq_refl ltac:(cbn; lra)) as X.
  destruct (flash_loop _ _ _ _ _ _ _ _) as (small, res). destruct X as (SM & FR & BR).
  assert (RB : bd (m + 7) res).
  { apply bd_iff. split; [exact FR|]. split; [lra|]. apply Rle_trans with (1 := proj2 BR). replace (m + 7)%Z with (4 + (m + 3))%Z by lia. rewrite (bpow_plus radix2 4). change (bpow radix2 4) with 16. apply Rmult_le_compat_r; [apply bpow_ge_0|]. apply (IZR_le _ 16). lia. }
  pose proof (bd_mul 0 (m + 7) _ _ SM RB ltac:(lia) ltac:(lia) ltac:(lia)) as Y. apply bd_iff in Y as (FY & BY).
  replace (2 * m + 15)%Z with (2 * (m + 7) + 1)%Z by lia. apply (square_bd PR); [exact FY|rewrite Rabs_pos_eq by apply BY; apply BY|lia].
Qed.
End WithLibm.

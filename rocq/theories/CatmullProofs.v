(** Accuracy of Catmull-Rom points, and progress along a slider. *)
From Coq Require Import Reals Lra Lia.
From Flocq Require Import Raux Zaux Core BinarySingleNaN Sterbenz.
From Verif Require Import GoFloat Curves Objects SpecShape SpecPP SpecSane BaseLemmas FloatLemmas Float32Lemmas KeyLemmas BoundLemmas ArcProofs CurveStart DistProofs NearLemmas PPProofs PPBounds PPChains.
Open Scope R_scope.

Lemma near_div50 j : (0 <= j <= 50)%Z -> near 1 1 1 (gdiv (g_of_Z j) (g_of_Z (Z.of_nat 50))) (IZR j / 50).
Proof.
  intros J. destruct (g_of_Z_exact j) as (F1 & E1); [lia|]. destruct (g_of_Z_exact (Z.of_nat 50)) as (F2 & E2); [cbn; lia|]. change (IZR (Z.of_nat 50)) with 50 in E2.
  assert (R : 0 <= IZR j / 50 <= 1) by (split; [apply Rle_mult_inv_pos; [apply IZR_le; lia|lra]|]; apply Rmult_le_reg_r with 50; [lra|]; unfold Rdiv; rewrite Rmult_assoc, Rinv_l, Rmult_1_r by lra; rewrite Rmult_1_l; apply IZR_le; lia).
  destruct (gdiv_fin _ _ F1 F2) as (F3 & E3); [rewrite E2; lra|rewrite E1, E2; apply b127; rewrite Rabs_pos_eq; lra|]. rewrite E1, E2 in E3.
  split; [exact F3|]. split; [rewrite Rabs_pos_eq; lra|]. rewrite E3. unfold ulp24.
  pose proof (ArcProofs.rnd32_err (IZR j / 50) 0 ltac:(lia)) as D. change (bpow radix2 (0 - 24)) with (/ 16777216) in D. change (bpow radix2 0) with 1 in D. rewrite Rmult_1_l, Rmult_1_l. apply D. rewrite Rabs_pos_eq; lra.
Qed.
Lemma spline_near U a b c d t rt : 1 <= U <= bpow radix2 100 -> near U 1 0 a (B2R a) -> near U 1 0 b (B2R b) -> near U 1 0 c (B2R c) -> near U 1 0 d (B2R d) ->
  near 1 1 1 t rt -> near U 16 200 (catmull_coord a b c d t) (spline (B2R a) (B2R b) (B2R c) (B2R d) rt).
Proof.
  intros HU Ha Hb Hc Hd Ht. unfold catmull_coord. cbv zeta.
  assert (H1 : 1 <= 1 <= bpow radix2 100) by (split; [lra|change 1 with (bpow radix2 0); apply bpow_le; lia]).
  pose proof (near_mul 1 H1 _ _ _ _ _ _ _ _ Ht Ht ltac:(lra) ltac:(lra) ltac:(lra) ltac:(lra)) as H2. apply (near_up _ _ _ 1 5) in H2; [|lra|lra|lra].
  pose proof (near_mul 1 H1 _ _ _ _ _ _ _ _ Ht H2 ltac:(lra) ltac:(lra) ltac:(lra) ltac:(lra)) as H3. apply (near_up _ _ _ 1 9) in H3; [|lra|lra|lra].
  set (t2 := gmul t t) in *. set (t3 := gmul t t2) in *. clearbody t2 t3.
  destruct (gq1_exact 2) as (F2 & V2); [cbn; lia|]. destruct (gq1_exact 3) as (F3 & V3); [cbn; lia|]. destruct (gq1_exact 4) as (F4 & V4); [cbn; lia|]. destruct (gq1_exact 5) as (F5 & V5); [cbn; lia|].
  assert (FH : fin (gq 1 2) /\ B2R (gq 1 2) = / 2) by (split; [vm_compute; reflexivity|bval (gq 1 2); rewrite V; lra]). destruct FH as (FH & VH).
  pose proof (near_scale U HU _ _ _ _ _ 2 Hb ltac:(lra) ltac:(lra) ltac:(lra) F2 V2) as Tb. apply (near_up _ _ _ 2 4) in Tb; [|lra|lra|lra].
  pose proof (near_add U HU _ _ _ _ _ _ _ _ (near_neg U _ _ _ _ Ha) Hc ltac:(lra) ltac:(lra) ltac:(lra) ltac:(lra)) as S1. apply (near_up _ _ _ 2 3) in S1; [|lra|lra|lra].
  pose proof (near_mul U HU _ _ _ _ _ _ _ _ S1 Ht ltac:(lra) ltac:(lra) ltac:(lra) ltac:(lra)) as S2. apply (near_up _ _ _ 2 9) in S2; [|lra|lra|lra].
  pose proof (near_add U HU _ _ _ _ _ _ _ _ Tb S2 ltac:(lra) ltac:(lra) ltac:(lra) ltac:(lra)) as S3. apply (near_up _ _ _ 4 18) in S3; [|lra|lra|lra].
  pose proof (near_scale U HU _ _ _ _ _ 2 Ha ltac:(lra) ltac:(lra) ltac:(lra) F2 V2) as Ta. apply (near_up _ _ _ 2 4) in Ta; [|lra|lra|lra].
  pose proof (near_scale U HU _ _ _ _ _ 5 Hb ltac:(lra) ltac:(lra) ltac:(lra) F5 V5) as Tb5. apply (near_up _ _ _ 5 7) in Tb5; [|lra|lra|lra].
  pose proof (near_scale U HU _ _ _ _ _ 4 Hc ltac:(lra) ltac:(lra) ltac:(lra) F4 V4) as Tc4. apply (near_up _ _ _ 4 6) in Tc4; [|lra|lra|lra].
  pose proof (near_sub U HU _ _ _ _ _ _ _ _ Ta Tb5 ltac:(lra) ltac:(lra) ltac:(lra) ltac:(lra)) as Q1. apply (near_up _ _ _ 7 19) in Q1; [|lra|lra|lra].
  pose proof (near_add U HU _ _ _ _ _ _ _ _ Q1 Tc4 ltac:(lra) ltac:(lra) ltac:(lra) ltac:(lra)) as Q2. apply (near_up _ _ _ 11 37) in Q2; [|lra|lra|lra].
  pose proof (near_sub U HU _ _ _ _ _ _ _ _ Q2 Hd ltac:(lra) ltac:(lra) ltac:(lra) ltac:(lra)) as Q3. apply (near_up _ _ _ 12 50) in Q3; [|lra|lra|lra].
  pose proof (near_mul U HU _ _ _ _ _ _ _ _ Q3 H2 ltac:(lra) ltac:(lra) ltac:(lra) ltac:(lra)) as Q4. apply (near_up _ _ _ 12 124) in Q4; [|lra|lra|lra].
  pose proof (near_add U HU _ _ _ _ _ _ _ _ S3 Q4 ltac:(lra) ltac:(lra) ltac:(lra) ltac:(lra)) as S4. apply (near_up _ _ _ 16 159) in S4; [|lra|lra|lra].
  pose proof (near_scale U HU _ _ _ _ _ 3 Hb ltac:(lra) ltac:(lra) ltac:(lra) F3 V3) as Tb3. apply (near_up _ _ _ 3 5) in Tb3; [|lra|lra|lra].
  pose proof (near_scale U HU _ _ _ _ _ 3 Hc ltac:(lra) ltac:(lra) ltac:(lra) F3 V3) as Tc3. apply (near_up _ _ _ 3 5) in Tc3; [|lra|lra|lra].
  pose proof (near_add U HU _ _ _ _ _ _ _ _ (near_neg U _ _ _ _ Ha) Tb3 ltac:(lra) ltac:(lra) ltac:(lra) ltac:(lra)) as C1. apply (near_up _ _ _ 4 10) in C1; [|lra|lra|lra].
  pose proof (near_sub U HU _ _ _ _ _ _ _ _ C1 Tc3 ltac:(lra) ltac:(lra) ltac:(lra) ltac:(lra)) as C2. apply (near_up _ _ _ 7 23) in C2; [|lra|lra|lra].
  pose proof (near_add U HU _ _ _ _ _ _ _ _ C2 Hd ltac:(lra) ltac:(lra) ltac:(lra) ltac:(lra)) as C3. apply (near_up _ _ _ 8 32) in C3; [|lra|lra|lra].
  pose proof (near_mul U HU _ _ _ _ _ _ _ _ C3 H3 ltac:(lra) ltac:(lra) ltac:(lra) ltac:(lra)) as C4. apply (near_up _ _ _ 8 114) in C4; [|lra|lra|lra].
  pose proof (near_add U HU _ _ _ _ _ _ _ _ S4 C4 ltac:(lra) ltac:(lra) ltac:(lra) ltac:(lra)) as S5. apply (near_up _ _ _ 24 300) in S5; [|lra|lra|lra].
  pose proof (near_scale U HU _ _ _ _ _ (/ 2) S5 ltac:(lra) ltac:(lra) ltac:(lra) FH VH) as S6. apply (near_up _ _ _ 16 200) in S6; [|lra|lra|lra].
  eapply near_eq; [|exact S6]. unfold spline. field.
Qed.

(** the remainder is exact *)
Lemma fmod_2_exact (x : f64) : fin x -> 0 <= B2R x -> exists n, fin (fmod x (fq 2 1)) /\ B2R (fmod x (fq 2 1)) = B2R x - 2 * IZR n /\ 0 <= B2R (fmod x (fq 2 1)) < 2.
Proof.
  intros F P. assert (E2 : exists b, fq 2 1 = B754_finite false 4503599627370496 (-51) b).
  { destruct (fq 2 1) as [| | |s m e b] eqn:E; pose proof (f_equal B2SF E) as Q; vm_compute in Q; try discriminate Q. injection Q as -> -> ->. now exists b. }
  destruct E2 as (b2 & E2). rewrite E2. destruct x as [s| | |s m e b]; try discriminate F; [exists 0%Z; cbn; split; [reflexivity|lra]|].
  destruct s. { exfalso. apply (Rlt_not_le _ _ (F2R_lt_0 radix2 (Float radix2 (Zneg m) e) eq_refl)). exact P. }
  cbn [fmod]. set (k := Z.min e (-51)). set (w := (Zpos 4503599627370496 * 2 ^ (-51 - k))%Z). set (a := (Zpos m * 2 ^ (e - k))%Z). set (r := (a mod w)%Z).
  assert (PB : (0 < w)%Z) by (apply Z.mul_pos_pos; [lia|apply Z.pow_pos_nonneg; lia]).
  pose proof (Z.mod_pos_bound a _ PB) as R. fold r in R.
  assert (VW : F2R (Float radix2 w k) = 2).
  { unfold F2R, w. cbn [Fnum Fexp]. rewrite mult_IZR, (IZR_Zpower radix2) by lia. rewrite Rmult_assoc, <- bpow_plus. replace (-51 - k + k)%Z with (-51)%Z by lia. change (bpow radix2 (-51)) with (/ 2251799813685248). lra. }
  assert (VA : F2R (Float radix2 a k) = B2R (B754_finite false m e b)).
  { unfold F2R, a. cbn [B2R Fnum Fexp cond_Zopp]. unfold F2R. cbn [Fnum Fexp]. rewrite mult_IZR, (IZR_Zpower radix2) by lia. rewrite Rmult_assoc, <- bpow_plus. now replace (e - k + k)%Z with e by lia. }
  assert (B : 0 <= F2R (Float radix2 r k) < 2) by (split; [apply F2R_ge_0; cbn [Fnum]; lia|rewrite <- VW; apply F2R_lt; cbn [Fnum]; lia]).

  assert (BD : (Zpos m < 2 ^ 53)%Z /\ (-1074 <= e)%Z).
  { pose proof b as b0. unfold SpecFloat.bounded in b0. apply andb_prop in b0 as [C _]. apply canonical_canonical_mantissa with (sx := false) in C; try exact p53. unfold canonical in C. cbn [Fexp Fnum cond_Zopp] in C. unfold cexp, SpecFloat.fexp, SpecFloat.emin in C.
    set (q := mag radix2 (F2R (Float radix2 (Zpos m) e))) in C. split.
    - assert (M : (mag_val _ _ q <= 53 + e)%Z) by lia. assert (L : Rabs (F2R (Float radix2 (Zpos m) e)) < bpow radix2 (53 + e)) by (eapply Rlt_le_trans; [apply bpow_mag_gt|apply bpow_le; exact M]).
      rewrite Rabs_pos_eq in L by (apply F2R_ge_0; cbn; lia). unfold F2R in L. cbn [Fnum Fexp] in L. rewrite bpow_plus in L. apply Rmult_lt_reg_r in L; [|apply bpow_gt_0]. apply lt_IZR. change (IZR (2 ^ 53)) with (bpow radix2 53). exact L.
    - lia. }
  assert (FMT : generic_format radix2 (SpecFloat.fexp 53 1024) (F2R (Float radix2 r k))).
  { change (SpecFloat.fexp 53 1024) with (FLT_exp (-1074) 53). apply generic_format_FLT. exists (Float radix2 r k); [reflexivity| |cbn; lia]. cbn [Fnum]. rewrite Z.abs_eq by lia.
    destruct (Z_le_gt_dec e (-51)) as [L|L].
    - assert (KE : k = e) by (unfold k; lia). assert (AM : a = Zpos m) by (unfold a; rewrite KE, Z.sub_diag; change (2 ^ 0)%Z with 1%Z; lia).
      apply Z.le_lt_trans with (Zpos m); [|exact (proj1 BD)]. unfold r. rewrite AM. apply Z.mod_le; lia.
    - assert (KE : k = (-51)%Z) by (unfold k; lia). apply Z.lt_le_trans with w; [lia|]. unfold w. rewrite KE. vm_compute. discriminate. }
  pose proof (binary_normalize_correct 53 1024 p53 pe53 mode_NE r k false) as H. cbv zeta in H. rewrite round_generic in H; [|typeclasses eauto|exact FMT].
  rewrite Rlt_bool_true in H; [|rewrite Rabs_pos_eq by lra; apply Rlt_le_trans with (bpow radix2 1); [change (bpow radix2 1) with 2; lra|apply bpow_le; lia]].
  destruct H as (V & FF & _). exists (a / w)%Z. split; [exact FF|]. rewrite V. split; [|lra].
  rewrite <- VA, <- VW. pose proof (Z.div_mod a w ltac:(lia)) as DM. fold r in DM. unfold F2R. cbn [Fnum Fexp]. rewrite DM at 1. rewrite plus_IZR, mult_IZR. ring.
Qed.
(** turning back on odd spans *)
Lemma fold_back (x : f64) n : fin x -> 0 <= B2R x < 2 ->
  let y := if fge x (fq 1 1) then fsub (fq 2 1) x else x in fin y /\ (forall p, B2R x = p - 2 * IZR n -> forall k, Rabs (p - 2 * IZR k) <= 1 -> B2R y = Rabs (p - 2 * IZR k)).
Proof.
  intros F B y. destruct (fq1_exact 1) as (F1 & V1); [cbn; lia|]. destruct (fq1_exact 2) as (F2 & V2); [cbn; lia|]. unfold y.
  assert (TWO : forall p k, B2R x = p - 2 * IZR n -> Rabs (p - 2 * IZR k) <= 1 -> k = n \/ k = (n + 1)%Z).
  { intros p k E K. apply Rabs_le_inv in K. assert (A1 : IZR k - IZR n < 2) by lra. assert (A2 : -1 < IZR k - IZR n) by lra. rewrite <- minus_IZR in A1, A2. apply lt_IZR in A1, A2. lia. }
  destruct (fge x (fq 1 1)) eqn:G.
  - apply fge_iff in G as (_ & _ & K). rewrite !(key_fin 53 1024) in K by assumption. rewrite V1 in K.
    destruct (fsub_fin _ _ F2 F) as (F8 & E8); [apply big_1023; rewrite V2; apply Rabs_le; lra|]. split; [exact F8|]. intros p E k HK.
    assert (ST : B2R (fsub (fq 2 1) x) = 2 - B2R x).
    { rewrite E8, V2. rewrite <- V2. unfold rnd64. apply round_generic; [typeclasses eauto|]. apply sterbenz; try (apply generic_format_B2R); try typeclasses eauto. rewrite V2. lra. }
    rewrite ST. destruct (TWO p k E HK) as [->| ->].
    + rewrite <- E in HK. rewrite Rabs_pos_eq in HK by lra. rewrite Rabs_pos_eq; lra.
    + rewrite plus_IZR. rewrite Rabs_left1; lra.
  - split; [exact F|]. intros p E k HK. assert (L : B2R x < 1).
    { apply Rnot_le_lt. intros L. assert (X : fge x (fq 1 1) = true); [|congruence]. apply fge_iff. split; [now apply fin_num|]. split; [now apply fin_num|]. rewrite !(key_fin 53 1024) by assumption. lra. }
    destruct (TWO p k E HK) as [->| ->]; [rewrite Rabs_pos_eq; lra|]. rewrite plus_IZR in *. apply Rabs_le_inv in HK. rewrite Rabs_left1; lra.
Qed.

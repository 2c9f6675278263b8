(** Positions on a slider stay near its curve. *)
From Coq Require Import Reals Lra.
From Flocq Require Import Raux Zaux Core BinarySingleNaN.
From Verif Require Import DiffCalc SpecPP SpecSane BaseLemmas FloatLemmas Float32Lemmas KeyLemmas BoundLemmas CurveProofs CurveBounds CurveStart CurveLookup PPProofs PPBounds PPChains ValueBounds.
Import ListNotations.
Open Scope R_scope.

(** ** The remainder *)
Lemma fmod_2 (x : f64) : fin x -> 0 <= B2R x -> fin (fmod x (fq 2 1)) /\ 0 <= B2R (fmod x (fq 2 1)) <= 2.
Proof.
  intros F P. assert (E2 : exists b, fq 2 1 = B754_finite false 4503599627370496 (-51) b).
  { destruct (fq 2 1) as [| | |s m e b] eqn:E; pose proof (f_equal B2SF E) as Q; vm_compute in Q; try discriminate Q. injection Q as -> -> ->. now exists b. }
  destruct E2 as (b2 & E2). rewrite E2. destruct x as [s| | |s m e b]; try discriminate F; [cbn; split; [reflexivity|lra]|].
  destruct s. { exfalso. apply (Rlt_not_le _ _ (F2R_lt_0 radix2 (Float radix2 (Zneg m) e) eq_refl)). exact P. }
  cbn [fmod]. set (k := Z.min e (-51)). set (r := ((Zpos m * 2 ^ (e - k)) mod (Zpos 4503599627370496 * 2 ^ (-51 - k)))%Z).
  assert (PB : (0 < Zpos 4503599627370496 * 2 ^ (-51 - k))%Z) by (apply Z.mul_pos_pos; [lia|apply Z.pow_pos_nonneg; lia]).
  pose proof (Z.mod_pos_bound (Zpos m * 2 ^ (e - k)) _ PB) as R. fold r in R.
  assert (B : 0 <= F2R (Float radix2 r k) <= 2).
  { split; [apply F2R_ge_0; cbn; lia|]. apply Rle_trans with (F2R (Float radix2 (Zpos 4503599627370496 * 2 ^ (-51 - k)) k)); [apply F2R_le; lia|].
    unfold F2R. cbn [Fnum Fexp]. rewrite mult_IZR, (IZR_Zpower radix2) by lia. rewrite Rmult_assoc, <- bpow_plus. replace (-51 - k + k)%Z with (-51)%Z by lia. change (bpow radix2 (-51)) with (/ 2251799813685248). lra. }
  pose proof (binary_normalize_correct 53 1024 p53 pe53 mode_NE r k false) as H. cbv zeta in H. change (round radix2 _ _ _) with (rnd64 (F2R (Float radix2 r k))) in H.
  assert (B' : 0 <= rnd64 (F2R (Float radix2 r k)) <= 2) by (split; [apply rnd64_pos; lra|apply (rnd64_exact_Z 2); [lia|lra]]).
  rewrite Rlt_bool_true in H; [|rewrite Rabs_pos_eq by lra; apply Rle_lt_trans with (bpow radix2 1); [change (bpow radix2 1) with 2; lra|apply bpow_lt; lia]].
  destruct H as (V & FF & _). split; [exact FF|]. rewrite V. exact B'.
Qed.

Section WithLibm.
Context {M : libm}.
Lemma progress_num start en span t : within (- bpow radix2 40) (bpow radix2 40) start -> within (- bpow radix2 40) (bpow radix2 40) en -> within (- bpow radix2 40) (bpow radix2 40) t ->
  B2R start <= B2R en -> fin span -> bpow radix2 (-200) <= B2R span -> within 0 1 (slider_progress start en span t).
Proof.
  intros (Fs & Bs) (Fe & Be) (Ft & Bt) OR Fp Bp. unfold slider_progress, clampF64. destruct (fmax_fin start t Fs Ft) as (F1 & E1). destruct (fmin_fin en _ Fe F1) as (F2 & E2).
  assert (R : B2R start <= B2R (fmin en (fmax start t)) <= bpow radix2 40). { rewrite E2, E1. split; [apply Rmin_glb; [exact OR|apply Rmax_l]|apply Rle_trans with (1 := Rmin_l _ _); lra]. }
  set (t1 := fmin en (fmax start t)) in *. clearbody t1. assert (P41 : bpow radix2 41 = bpow radix2 40 + bpow radix2 40) by exact (bpow_S 40). assert (B41 : bpow radix2 41 <= bpow radix2 1023) by (apply bpow_le; lia).
  destruct (fsub_fin t1 start F2 Fs) as (F3 & E3); [apply Rabs_le; lra|]. assert (R3 : 0 <= B2R (fsub t1 start) <= bpow radix2 41) by (rewrite E3; split; [apply rnd64_pos; lra|apply rnd_le_pow; [lia|lra]]).
  pose proof (bpow_gt_0 radix2 (-200)) as P200. assert (Q : 0 <= B2R (fsub t1 start) / B2R span <= bpow radix2 300).
  { split; [apply Rle_mult_inv_pos; lra|]. apply Rmult_le_reg_r with (B2R span); [lra|]. unfold Rdiv. rewrite Rmult_assoc, Rinv_l, Rmult_1_r by lra. apply Rle_trans with (1 := proj2 R3). apply Rle_trans with (bpow radix2 300 * bpow radix2 (-200)); [rewrite <- bpow_plus; apply bpow_le; lia|]. apply Rmult_le_compat_l; [apply bpow_ge_0|exact Bp]. }
  destruct (fdiv_fin _ _ F3 Fp) as (F4 & E4); [lra|rewrite Rabs_pos_eq by lra; apply Rle_trans with (1 := proj2 Q), bpow_le; lia|].
  assert (R4 : 0 <= B2R (fdiv (fsub t1 start) span)) by (rewrite E4; apply rnd64_pos; lra). destruct (fmod_2 _ F4 R4) as (F5 & R5). set (x := fmod _ _) in *. clearbody x.
  destruct (fq1_exact 1) as (F6 & E6); [lia|]. destruct (fq1_exact 2) as (F7 & E7); [lia|].
  destruct (fge x (fq 1 1)) eqn:G.
  - apply fge_iff in G as (_ & _ & K). rewrite !(key_fin 53 1024) in K by assumption. rewrite E6 in K. destruct (fsub_fin _ _ F7 F5) as (F8 & E8); [apply big_1023; rewrite E7; apply Rabs_le; lra|]. split; [exact F8|]. rewrite E8, E7. split; [apply rnd64_pos; lra|apply (rnd64_exact_Z 1); [lia|lra]].
  - split; [exact F5|]. split; [lra|]. destruct (Rle_lt_dec (B2R x) 1) as [L|L]; [exact L|]. exfalso. assert (X : fge x (fq 1 1) = true); [|congruence]. apply fge_iff. split; [now apply fin_num|]. split; [now apply fin_num|]. rewrite !(key_fin 53 1024) by assumption. lra.
Qed.
Lemma between_bnd k a b t : (-100 <= k <= 120)%Z -> bnd k a -> bnd k b -> fin t -> 0 <= B2R t <= 1 -> bnd (k + 2) (gadd (gmul (gsub b a) t) a).
Proof.
  intros K A B Ft Bt. replace (k + 2)%Z with (k + 1 + 0 + 1)%Z by lia. apply bnd_add; [lia| |apply (bnd_le k); [lia|exact A]]. apply bnd_mul; [lia|apply bnd_sub; [lia|exact B|exact A]|]. split; [exact Ft|]. rewrite Rabs_pos_eq by lra. change (bpow radix2 0) with 1. lra.
Qed.
Lemma point_near ls p k t v : (-100 <= k <= 120)%Z -> fin (total_length ls) -> num t -> vbnd k p -> Forall (lin (vbnd k)) ls ->
  mc_point_at (finish_curve ls p) t = Ok v -> vbnd (k + 2) v.
Proof.
  intros K FT Nt VP FL H. assert (C : ls = [] \/ ls <> []) by (destruct ls; [now left|now right]). destruct C as [->|NE]; [cbn in H; apply Ok_inj in H; subst v; apply (vbnd_le k); [lia|exact VP]|].
  destruct (geq (total_length ls) g0) eqn:Z0.
  { unfold mc_point_at in H. cbn [mc_lines finish_curve mc_length] in H. rewrite Z0 in H. destruct ls; [congruence|]. apply Ok_inj in H. subst v. apply (vbnd_le k); [lia|exact VP]. }
  pose proof (total_fin_nn ls FT) as NN. pose proof (sections_nn ls g0 nn_0 NN) as SN. pose proof (section_fin ls g0 FT) as SF.
  destruct (distance_range ls t FT Nt) as (Fd & Bd). destruct (lookup_line ls p t FT Nt NE Z0) as (i & lo & hi & l & Elo & Ehi & El & LO & HI & E). rewrite E in H. apply Ok_inj in H. clear E. cbn [mc_sections finish_curve] in Elo, Ehi.
  rewrite Forall_forall in FL. destruct (FL l (nth_error_In _ _ El)) as (V1 & V2). destruct (geq (gsub hi lo) g0) eqn:ZD; [subst v; apply (vbnd_le k); [lia|exact V1]|].
  set (d := gmul _ _) in *. clearbody d. rewrite Forall_forall in SF. pose proof (SF lo (nth_error_In _ _ Elo)) as Fl. pose proof (SF hi (nth_error_In _ _ Ehi)) as Fh.
  assert (L0 : 0 <= B2R lo). { destruct (nth_error_In _ _ Elo) as [<-|I]; [cbn; lra|]. rewrite Forall_forall in SN. destruct (SN lo I) as ((_ & X) & _). rewrite (key_fin 24 128) in X by exact Fl. exact X. }
  assert (LD : B2R lo <= B2R d). { destruct LO as [->|LO]; [cbn in Elo; injection Elo as <-; cbn; lra|]. apply glt_iff in LO as (_ & _ & X). rewrite !(key_fin 24 128) in X by assumption. lra. }
  assert (DH : B2R d <= B2R hi). { apply gle_iff in HI as (_ & _ & X). rewrite !(key_fin 24 128) in X by assumption. exact X. }
  assert (OV : forall x y : f32, fin x -> fin y -> 0 <= B2R y <= B2R x -> fin (gsub x y) /\ B2R (gsub x y) = rnd32 (B2R x - B2R y)).
  { intros x y Fx Fy B. pose proof (Bminus_correct 24 128 p24 pe24 mode_NE x y Fx Fy) as Q. change (Bminus mode_NE x y) with (gsub x y) in Q. change (round radix2 _ _ _) with (rnd32 (B2R x - B2R y)) in Q.
    assert (U : 0 <= rnd32 (B2R x - B2R y) <= B2R x) by (split; [apply rnd32_pos; lra|apply rnd32_le_f; lra]). rewrite Rlt_bool_true in Q; [destruct Q as (V & F & _); split; assumption|]. rewrite Rabs_pos_eq by lra. apply Rle_lt_trans with (1 := proj2 U). apply Rle_lt_trans with (1 := Rle_abs _). apply abs_B2R_lt_emax. }
  destruct (OV d lo Fd Fl ltac:(lra)) as (F1 & E1). destruct (OV hi lo Fh Fl ltac:(lra)) as (F2 & E2).
  assert (MM : 0 <= B2R (gsub d lo) <= B2R (gsub hi lo)) by (rewrite E1, E2; split; [apply rnd32_pos; lra|apply rnd32_le; lra]).
  assert (NZ : B2R (gsub hi lo) <> 0). { intros X. assert (geq (gsub hi lo) g0 = true); [|congruence]. apply geq_iff. split; [now apply fin_num|]. split; [reflexivity|]. rewrite (key_fin 24 128) by exact F2. rewrite X. reflexivity. }
  assert (Q : 0 <= B2R (gsub d lo) / B2R (gsub hi lo) <= 1). { split; [apply Rle_mult_inv_pos; lra|]. apply Rmult_le_reg_r with (B2R (gsub hi lo)); [lra|]. unfold Rdiv. rewrite Rmult_assoc, Rinv_l, Rmult_1_r by exact NZ. lra. }
  destruct (gdiv_fin _ _ F1 F2 NZ) as (F3 & E3). { rewrite Rabs_pos_eq by lra. apply Rle_trans with 1; [lra|]. change 1 with (bpow radix2 0). apply bpow_le. lia. }
  assert (R3 : 0 <= B2R (gdiv (gsub d lo) (gsub hi lo)) <= 1). { rewrite E3. split; [apply rnd32_pos; lra|]. rewrite <- (rnd32_Z 1) by lia. apply rnd32_le. lra. }
  subst v. unfold ln_point_at, vlerp. destruct V1 as (A1 & A2), V2 as (C1 & C2). split; cbn [vx vy]; apply between_bnd; auto.
Qed.
(** positions after mods and stacking *)
Lemma modified_bnd o q m k : (10 <= k <= 120)%Z -> vbnd k q -> vbnd k (ho_off o) -> vbnd k (ho_offEZ o) -> vbnd k (ho_offHR o) -> vbnd (k + 2) (modify_position o q m).
Proof.
  intros K Q A B C. unfold modify_position. destruct (mactive m HardRock).
  - replace (k + 2)%Z with (k + 1 + 1)%Z by lia. apply vbnd_add; [lia| |apply (vbnd_le k); [lia|exact C]]. destruct Q as (Qx & Qy). split; cbn [vx vy]; [apply (bnd_le k); [lia|exact Qx]|]. apply bnd_sub; [lia| |exact Qy]. destruct (gq1_exact 384) as (F & E); [lia|]. split; [exact F|]. rewrite E, Rabs_pos_eq by lra. apply Rle_trans with (bpow radix2 10); [change (bpow radix2 10) with 1024; lra|apply bpow_le; lia].
  - apply (vbnd_le (k + 1)); [lia|]. destruct (mactive m Easy); apply vbnd_add; auto; lia.
Qed.
(** A slider on a real curve is tidy. *)
Lemma slider_tidy d o sd ls p k : ho_kind o = KSlider sd -> sl_curve sd = finish_curve ls p -> (10 <= k <= 30)%Z ->
  fin (total_length ls) -> vbnd k p -> Forall (lin (vbnd k)) ls -> vbnd k (ho_startPos o) -> vbnd k (ho_endPos o) ->
  vbnd k (ho_off o) -> vbnd k (ho_offEZ o) -> vbnd k (ho_offHR o) -> time_upto (ho_start o) -> time_upto (ho_end o) -> B2R (ho_start o) <= B2R (ho_end o) ->
  (fin (sl_span sd) /\ bpow radix2 (-200) <= B2R (sl_span sd)) \/ geq (total_length ls) g0 = true \/ ls = [] ->
  (1 <= sl_repeat sd <= 2 ^ 16)%Z -> (zlen (sl_ticks sd) <= 2 ^ 16)%Z -> Forall (fun t => time_upto (tk_Time t)) (sl_ticks sd) ->
  tidy (k + 4) d o.
Proof.
  intros HK EC K FT VP FL VS VE O1 O2 O3 TS TE OR SP R LT FK.
  assert (UP : forall j q, (10 <= j <= k + 2)%Z -> (k <= j)%Z -> vbnd j q -> vbnd (k + 4) (modify_position o q (d_Mods d))).
  { intros j q J J' Q. apply (vbnd_le (j + 2)); [lia|]. apply modified_bnd; [lia|exact Q| | |]; eapply vbnd_le; try eassumption; lia. }
  split.
  - apply (UP k); auto; lia.
  - apply (UP k); auto; lia.
  - intros t v T H. unfold stacked_position_at in H. apply bind_ok in H as (q & H & E). apply Ok_inj in E. subst v. unfold position_at in H. rewrite HK in H. unfold slider_position_at in H.
    destruct (is_retarded _ _); [apply Ok_inj in H; subst q; apply (UP k); auto; lia|]. rewrite EC in H.
    assert (T40 : forall x, time_upto x -> within (- bpow radix2 40) (bpow radix2 40) x). { intros x (F & B). split; [exact F|]. assert (bpow radix2 38 <= bpow radix2 40) by (apply bpow_le; lia). lra. }
    apply (UP (k + 2)%Z); [lia|lia|]. destruct SP as [(Fs & Bs)|DEG].
    + destruct (progress_num _ _ (sl_span sd) t (T40 _ TS) (T40 _ TE) T OR Fs Bs) as (Fp & Bp). apply (point_near ls p k (g_of_f (slider_progress (ho_start o) (ho_end o) (sl_span sd) t))); auto; [lia|]. apply fin_num. apply g_of_f_fin; [exact Fp|]. rewrite Rabs_pos_eq by lra. apply Rle_trans with 1; [lra|]. change 1 with (bpow radix2 0). apply bpow_le. lia.
    + assert (E : mc_point_at (finish_curve ls p) (g_of_f (slider_progress (ho_start o) (ho_end o) (sl_span sd) t)) = Ok p). { unfold mc_point_at. cbn [mc_lines finish_curve mc_length mc_first]. destruct ls; [reflexivity|]. destruct DEG as [->|DEG]; [reflexivity|discriminate DEG]. }
      rewrite E in H. apply Ok_inj in H. subst q. apply (vbnd_le k); [lia|exact VP].
  - exact TS.
  - intros sd' E. rewrite HK in E. assert (X : sd' = sd) by (inversion E; reflexivity). subst sd'. auto.
Qed.
(** ... and so are circles and spinners. *)
Lemma plain_tidy d o k : (forall sd, ho_kind o <> KSlider sd) -> (10 <= k <= 30)%Z -> vbnd k (ho_startPos o) -> vbnd k (ho_endPos o) ->
  vbnd k (ho_off o) -> vbnd k (ho_offEZ o) -> vbnd k (ho_offHR o) -> time_upto (ho_start o) -> tidy (k + 4) d o.
Proof.
  intros HK K VS VE O1 O2 O3 TS.
  assert (UP : forall q, vbnd k q -> vbnd (k + 4) (modify_position o q (d_Mods d))) by (intros q Q; apply (vbnd_le (k + 2)); [lia|]; apply modified_bnd; auto; lia).
  split; [now apply UP|now apply UP| |exact TS|intros sd E; destruct (HK sd E)].
  intros t v _ H. unfold stacked_position_at in H. apply bind_ok in H as (q & H & E). apply Ok_inj in E. subst v. unfold position_at in H. destruct (ho_kind o) as [| |sd] eqn:X; [| |destruct (HK sd eq_refl)]; apply Ok_inj in H; subst q; now apply UP.
Qed.
End WithLibm.

(** Proofs about the remaining helpers of the API. *)
From Coq Require Import Reals Lra ZArith Lia Bool.
From Flocq Require Import Raux Zaux Core BinarySingleNaN Div_sqrt_error.
From Verif Require Import Helpers SpecCurves SpecArc SpecApi BaseLemmas FloatLemmas Float32Lemmas KeyLemmas BoundLemmas NearLemmas ArcProofs ArcShape VectorProofs.
Open Scope R_scope.

(** ** The remainder *)
Lemma rem_bound x y : y <> 0 -> let r := x - IZR (Ztrunc (x / y)) * y in Rabs r < Rabs y /\ Rabs r <= Rabs x /\ 0 <= r * x.
Proof.
  intros N r. set (q := x / y) in *. assert (X : x = q * y) by (unfold q; field; exact N). assert (E : r = (q - IZR (Ztrunc q)) * y) by (unfold r; rewrite X at 1; ring).
  assert (T : (0 <= q /\ 0 <= IZR (Ztrunc q) <= q /\ q < IZR (Ztrunc q) + 1) \/ (q < 0 /\ q <= IZR (Ztrunc q) <= 0 /\ IZR (Ztrunc q) - 1 < q)).
  { destruct (Rle_or_lt 0 q) as [P|P]; [left|right]; (split; [exact P|]).
    - rewrite Ztrunc_floor by exact P. pose proof (Zfloor_lb q). pose proof (Zfloor_ub q). assert (0 <= Zfloor q)%Z by (apply Zfloor_lub; exact P). apply IZR_le in H1. lra.
    - rewrite Ztrunc_ceil by lra. pose proof (Zceil_ub q) as U. pose proof (Zceil_lb q) as L. assert (Zceil q <= 0)%Z by (apply Zceil_glb; lra). apply IZR_le in H. lra. }
  rewrite X, E, !Rabs_mult. set (n := IZR (Ztrunc q)) in *. clearbody n. clear -N T. assert (Y : 0 < Rabs y) by (apply Rabs_pos_lt; exact N). pose proof (Rle_0_sqr y) as S. unfold Rsqr in S.
  assert (A : Rabs (q - n) < 1 /\ Rabs (q - n) <= Rabs q /\ 0 <= (q - n) * q).
  { destruct T as [(P & Q & R)|(P & Q & R)].
    - rewrite (Rabs_pos_eq (q - n)), (Rabs_pos_eq q) by lra. split; [lra|]. split; [lra|]. apply Rmult_le_pos; lra.
    - rewrite (Rabs_left1 (q - n)), (Rabs_left1 q) by lra. split; [lra|]. split; [lra|]. replace ((q - n) * q) with ((n - q) * - q) by ring. apply Rmult_le_pos; lra. }
  destruct A as (A1 & A2 & A3). split; [|split].
  - rewrite <- (Rmult_1_l (Rabs y)) at 2. apply Rmult_lt_compat_r; assumption.
  - apply Rmult_le_compat_r; [lra|exact A2].
  - replace ((q - n) * y * (q * y)) with ((q - n) * q * (y * y)) by ring. apply Rmult_le_pos; assumption.
Qed.
Lemma fmod_exact (x y : f64) : fin x -> fin y -> B2R y <> 0 ->
  fin (fmod x y) /\ B2R (fmod x y) = B2R x - IZR (Ztrunc (B2R x / B2R y)) * B2R y /\ Bsign (fmod x y) = Bsign x.
Proof.
  intros Fx Fy N. destruct (rem_bound (B2R x) (B2R y) N) as (_ & LX & _).
  assert (FMT : generic_format radix2 (SpecFloat.fexp 53 1024) (B2R x - IZR (Ztrunc (B2R x / B2R y)) * B2R y)).
  { apply format_REM_ZR; try typeclasses eauto; apply generic_format_B2R. }
  pose proof (abs_B2R_lt_emax 53 1024 x) as LM.
  destruct y as [sy| | |sy my ey by']; try discriminate Fy; [now destruct N|]. destruct x as [sx| | |sx mx ex bx]; try discriminate Fx.
  - cbn [fmod B2R Bsign]. split; [reflexivity|]. split; [|reflexivity]. unfold Rdiv. rewrite Rmult_0_l. change 0 with (IZR 0). rewrite Ztrunc_IZR. lra.
  - cbn [fmod]. set (e := Z.min ex ey). set (a := (Zpos mx * 2 ^ (ex - e))%Z). set (b := (Zpos my * 2 ^ (ey - e))%Z).
    assert (PA : (0 < a)%Z) by (apply Z.mul_pos_pos; [lia|apply Z.pow_pos_nonneg; lia]). assert (PB : (0 < b)%Z) by (apply Z.mul_pos_pos; [lia|apply Z.pow_pos_nonneg; lia]).
    assert (VX : B2R (B754_finite sx mx ex bx) = (if sx then - IZR a else IZR a) * bpow radix2 e).
    { cbn [B2R]. unfold F2R. cbn [Fnum Fexp]. assert (Q : IZR (Zpos mx) * bpow radix2 ex = IZR a * bpow radix2 e). { unfold a. rewrite mult_IZR, (IZR_Zpower radix2) by lia. rewrite Rmult_assoc, <- bpow_plus. now replace (ex - e + e)%Z with ex by lia. } destruct sx; cbn [cond_Zopp]; [rewrite opp_IZR; lra|exact Q]. }
    assert (VY : B2R (B754_finite sy my ey by') = (if sy then - IZR b else IZR b) * bpow radix2 e).
    { cbn [B2R]. unfold F2R. cbn [Fnum Fexp]. assert (Q : IZR (Zpos my) * bpow radix2 ey = IZR b * bpow radix2 e). { unfold b. rewrite mult_IZR, (IZR_Zpower radix2) by lia. rewrite Rmult_assoc, <- bpow_plus. now replace (ey - e + e)%Z with ey by lia. } destruct sy; cbn [cond_Zopp]; [rewrite opp_IZR; lra|exact Q]. }
    set (X := B2R (B754_finite sx mx ex bx)) in *. set (Y := B2R (B754_finite sy my ey by')) in *. clearbody X Y.
    pose proof (bpow_gt_0 radix2 e) as PE. assert (RB : 0 < IZR b) by (apply IZR_lt; exact PB). assert (RA : 0 < IZR a) by (apply IZR_lt; exact PA).
    assert (TQ : Ztrunc (IZR a / IZR b) = (a / b)%Z). { rewrite Ztrunc_floor by (apply Rlt_le, Rdiv_lt_0_compat; assumption). apply Zfloor_div. lia. }
    assert (VR : IZR (if sx then - (a mod b) else a mod b) * bpow radix2 e = X - IZR (Ztrunc (X / Y)) * Y).
    { assert (M : IZR (a mod b) = IZR a - IZR (a / b) * IZR b). { rewrite Z.mod_eq by lia. rewrite minus_IZR, mult_IZR. ring. }
      assert (Q : Ztrunc (X / Y) = (if xorb sx sy then - (a / b) else a / b)%Z).
      { rewrite <- TQ. destruct sx, sy; cbn [xorb]; rewrite <- ?Ztrunc_opp; f_equal; rewrite VX, VY; field; lra. }
      rewrite Q, VX, VY. destruct sx, sy; cbn [xorb]; rewrite ?opp_IZR, M; ring. }
    pose proof (binary_normalize_correct 53 1024 p53 pe53 mode_NE (if sx then - (a mod b) else a mod b)%Z e sx) as H. cbv zeta in H.
    assert (FV : F2R (Float radix2 (if sx then - (a mod b) else a mod b)%Z e) = X - IZR (Ztrunc (X / Y)) * Y) by exact VR.
    rewrite FV in H. rewrite round_generic in H; [|typeclasses eauto|exact FMT]. rewrite Rlt_bool_true in H by (apply Rle_lt_trans with (1 := LX), LM).
    destruct H as (V & FF & S). split; [exact FF|]. split; [exact V|]. rewrite S. cbn [Bsign].
    pose proof (Z.mod_pos_bound a b PB) as MB. assert (MR : 0 <= IZR (a mod b)) by (apply IZR_le; lia). rewrite <- VR.
    destruct (Rcompare_spec (IZR (if sx then - (a mod b) else a mod b) * bpow radix2 e) 0) as [C|C|C]; [|reflexivity|]; destruct sx; try reflexivity; exfalso.
    + assert (0 <= IZR (a mod b) * bpow radix2 e) by (apply Rmult_le_pos; lra). lra.
    + rewrite opp_IZR in C. assert (0 <= IZR (a mod b) * bpow radix2 e) by (apply Rmult_le_pos; lra). lra.
Qed.
Lemma f_of_g_sign (x : f32) : fin x -> Bsign (f_of_g x) = Bsign x.
Proof.
  destruct x as [s| | |s m e b]; try discriminate; intros F; [reflexivity|]. pose proof (f_of_g_fin _ F) as (F' & V). set (y := f_of_g _) in *. clearbody y.
  assert (NZ : B2R (B754_finite s m e b) <> 0). { cbn [B2R]. intros Z. apply eq_0_F2R in Z. destruct s; discriminate Z. }
  destruct y as [s'| | |s' m' e' b']; try discriminate F'; [exfalso; apply NZ; rewrite <- V; reflexivity|]. cbn [Bsign]. destruct s, s'; try reflexivity; exfalso; cbn [B2R cond_Zopp] in V.
  - pose proof (F2R_lt_0 radix2 (Float radix2 (Zneg m) e) eq_refl). pose proof (F2R_gt_0 radix2 (Float radix2 (Zpos m') e') eq_refl). change (- Zpos m)%Z with (Zneg m) in V. lra.
  - pose proof (F2R_lt_0 radix2 (Float radix2 (Zneg m') e') eq_refl). pose proof (F2R_gt_0 radix2 (Float radix2 (Zpos m) e) eq_refl). change (- Zpos m')%Z with (Zneg m') in V. lra.
Qed.
Lemma gmod_exact (x y : f32) : fin x -> fin y -> B2R y <> 0 ->
  fin (gmod x y) /\ B2R (gmod x y) = B2R x - IZR (Ztrunc (B2R x / B2R y)) * B2R y.
Proof.
  intros Fx Fy N. destruct (f_of_g_fin x Fx) as (Fx' & Vx). destruct (f_of_g_fin y Fy) as (Fy' & Vy). destruct (fmod_exact (f_of_g x) (f_of_g y) Fx' Fy' ltac:(rewrite Vy; exact N)) as (F & V & _).
  rewrite Vx, Vy in V. destruct (rem_bound (B2R x) (B2R y) N) as (_ & LX & _).
  assert (FMT : generic_format radix2 (SpecFloat.fexp 24 128) (B2R x - IZR (Ztrunc (B2R x / B2R y)) * B2R y)) by (apply format_REM_ZR; try typeclasses eauto; apply generic_format_B2R).
  pose proof (abs_B2R_lt_emax 24 128 x) as LM. unfold gmod. set (z := fmod _ _) in *. clearbody z. set (r := B2R x - _) in *. clearbody r.
  destruct z as [s| | |s m e b]; try discriminate F; [split; [reflexivity|exact V]|]. cbn [g_of_f].
  pose proof (binary_normalize_correct 24 128 p24 pe24 mode_NE (cond_Zopp s (Zpos m)) e s) as H. cbv zeta in H. cbn [B2R] in V. rewrite V in H.
  rewrite round_generic in H; [|typeclasses eauto|exact FMT]. rewrite Rlt_bool_true in H by (apply Rle_lt_trans with (1 := LX), LM). destruct H as (W & FF & _). split; [exact FF|exact W].
Qed.

(** ** Angles *)
Lemma within_diff (x y : f32) k : (k <= 126)%Z -> Rabs (B2R x) <= bpow radix2 k -> Rabs (B2R y) <= bpow radix2 k -> Rabs (B2R x - B2R y) <= bpow radix2 127.
Proof.
  intros K X Y. assert (bpow radix2 k <= bpow radix2 126) by (apply bpow_le; exact K). replace (bpow radix2 127) with (bpow radix2 126 + bpow radix2 126) by (change 127%Z with (126 + 1)%Z; rewrite bpow_plus; change (bpow radix2 1) with 2; ring).
  unfold Rminus. apply Rle_trans with (1 := Rabs_triang _ _). rewrite Rabs_Ropp. lra.
Qed.
Section WithLibm.
Context {M : libm}.
Lemma sight p q : atan2_near -> finite_point p -> finite_point q -> Rabs (px p - px q) <= bpow radix2 127 -> Rabs (py p - py q) <= bpow radix2 127 -> sighted p q (vangle_rv p q).
Proof.
  intros A (Fp & Gp) (Fq & Gq) X Y. destruct (angle_near q p A Fq Gq Fp Gp X Y) as (t & At & (F & _ & D) & _). split; [exact F|]. exists t. split; [exact At|]. apply Rle_trans with (1 := D). unfold ulp24. change (bpow radix2 (-20)) with (/ 1048576). lra.
Qed.
Lemma direction v : atan2_near -> finite_point v -> is_finite (vangle_r v) = true /\ exists t, - PI <= t <= PI /\ angle_of (px v) (py v) t /\ Rabs (B2R (vangle_r v) - t) <= bpow radix2 (-21) /\
  is_finite (vangle v) = true /\ Rabs (B2R (vangle v) - t * 180 / PI) <= / 10000.
Proof.
  intros A (Fx & Fy). destruct (f_of_g_fin _ Fx) as (Fx' & Vx). destruct (f_of_g_fin _ Fy) as (Fy' & Vy). unfold vangle, vangle_r, gatan2. destruct (A _ _ Fy' Fx') as (Fz & t & Bt & At & Et). rewrite Vx, Vy in At. set (z := matan2 _ _) in *. clearbody z.
  pose proof pi_range as PR. change (bpow radix2 (-40)) with (/ 1099511627776) in Et. apply Rabs_le_inv in Et. change (bpow radix2 (-21)) with (/ 2097152).
  destruct (g_of_f_fin z Fz ltac:(apply small127; lra)) as (F & V). assert (RE : Rabs (rnd32 (B2R z) - B2R z) <= bpow radix2 (2 - 24)) by (apply ArcProofs.rnd32_err; [lia|]; change (bpow radix2 2) with 4; apply Rabs_le; lra). change (bpow radix2 (2 - 24)) with (/ 4194304) in RE. apply Rabs_le_inv in RE.
  set (r := g_of_f z) in *. assert (D : - / 2097152 <= B2R r - t <= / 2097152) by (rewrite V; lra). clearbody r. clear V RE Et z Fz.
  split; [exact F|]. exists t. split; [exact Bt|]. split; [exact At|]. split; [apply Rabs_le; exact D|].
  destruct (gq1_exact 180) as (F180 & V180); [lia|]. destruct gpi_val as (Fp & Vp).
  assert (B1 : -1024 <= B2R r * 180 <= 1024) by lra. destruct (gmul_fin r (gq 180 1) F F180) as (Fm & Vm); [rewrite V180; apply small127; lra|]. rewrite V180 in Vm.
  assert (E1 : Rabs (rnd32 (B2R r * 180) - B2R r * 180) <= bpow radix2 (10 - 24)) by (apply ArcProofs.rnd32_err; [lia|]; change (bpow radix2 10) with 1024; apply Rabs_le; lra). change (bpow radix2 (10 - 24)) with (/ 16384) in E1. apply Rabs_le_inv in E1. rewrite <- Vm in E1. set (m := gmul r (gq 180 1)) in *. clearbody m.
  assert (P : 0 < B2R gpi) by (rewrite Vp; lra). assert (Q : B2R m / B2R gpi = B2R m * (4194304 / 13176795)) by (rewrite Vp; field).
  assert (BQ : -256 <= B2R m / B2R gpi <= 256) by (rewrite Q; lra). destruct (gdiv_fin m gpi Fm Fp ltac:(lra) ltac:(apply small127; lra)) as (Fd & Vd). split; [exact Fd|].
  assert (E2 : Rabs (rnd32 (B2R m / B2R gpi) - B2R m / B2R gpi) <= bpow radix2 (8 - 24)) by (apply ArcProofs.rnd32_err; [lia|]; change (bpow radix2 8) with 256; apply Rabs_le; lra). change (bpow radix2 (8 - 24)) with (/ 65536) in E2. apply Rabs_le_inv in E2. rewrite <- Vd, Q in E2. set (d := gdiv m gpi) in *. clearbody d.
  assert (IP : 318309885 / 1000000000 <= / PI <= 318309888 / 1000000000). { split; apply Rmult_le_reg_r with PI; try lra; rewrite Rinv_l by lra; lra. }
  assert (T1 : Rabs (t * 180 / PI - t * 180 * (4194304 / 13176795)) <= / 100000).
  { unfold Rdiv at 1. replace (t * 180 * / PI - t * 180 * (4194304 / 13176795)) with (t * (180 * (/ PI - 4194304 / 13176795))) by ring. rewrite Rabs_mult. apply Rle_trans with (4 * / 400000); [|lra]. apply Rmult_le_compat; try apply Rabs_pos; apply Rabs_le; lra. }
  apply Rabs_le_inv in T1. apply Rabs_le. lra.
Qed.

(** the first and the last pixel *)
Lemma first_pixel L : fin L -> 1 <= B2R L -> let t := gdiv (gq 1 1) L in fin t /\ 0 <= B2R t <= 1 /\ Rabs (B2R t - 1 / B2R L) <= bpow radix2 (-24).
Proof.
  intros F B t. destruct (gq1_exact 1) as (F1 & V1); [lia|]. assert (Q : 0 <= 1 / B2R L <= 1). { split; [apply Rle_mult_inv_pos; lra|]. apply Rmult_le_reg_r with (B2R L); [lra|]. unfold Rdiv. rewrite Rmult_assoc, Rinv_l by lra. lra. }
  destruct (gdiv_fin (gq 1 1) L F1 F ltac:(lra)) as (Ft & Vt); [rewrite V1; apply small127; lra|]. rewrite V1 in Vt. fold t in Ft, Vt. split; [exact Ft|]. rewrite Vt.
  split; [split; [apply rnd32_pos; lra|rewrite <- V1; apply rnd32_le_f; rewrite V1; lra]|]. change (-24)%Z with (0 - 24)%Z. apply ArcProofs.rnd32_err; [lia|]. change (bpow radix2 0) with 1. rewrite Rabs_pos_eq; lra.
Qed.
Lemma last_pixel L : fin L -> 1 <= B2R L -> let t := gsub (gq 1 1) (gdiv (gq 1 1) L) in fin t /\ 0 <= B2R t <= 1 /\ Rabs (B2R t - (1 - 1 / B2R L)) <= bpow radix2 (-23).
Proof.
  intros F B t. destruct (first_pixel L F B) as (Fu & Bu & Du). unfold t. set (u := gdiv (gq 1 1) L) in *. clearbody u. destruct (gq1_exact 1) as (F1 & V1); [lia|].
  destruct (gsub_fin (gq 1 1) u F1 Fu) as (Ft & Vt); [rewrite V1; apply small127; lra|]. rewrite V1 in Vt. split; [exact Ft|]. rewrite Vt.
  split; [split; [apply rnd32_pos; lra|rewrite <- V1 at 2; apply rnd32_le_f; rewrite V1; lra]|].
  assert (E : Rabs (rnd32 (1 - B2R u) - (1 - B2R u)) <= bpow radix2 (0 - 24)) by (apply ArcProofs.rnd32_err; [lia|]; change (bpow radix2 0) with 1; rewrite Rabs_pos_eq; lra). change (bpow radix2 (0 - 24)) with (/ 16777216) in E. change (bpow radix2 (-24)) with (/ 16777216) in Du. change (bpow radix2 (-23)) with (/ 8388608). apply Rabs_le_inv in E, Du. apply Rabs_le. lra.
Qed.
Lemma last_fraction L : fin L -> 1 <= B2R L <= bpow radix2 100 -> let t := gdiv (gsub L (gq 1 1)) L in fin t /\ 0 <= B2R t <= 1 /\ Rabs (B2R t - (1 - 1 / B2R L)) <= bpow radix2 (-23).
Proof.
  intros F (B & B') t. destruct (gq1_exact 1) as (F1 & V1); [lia|]. destruct (sub_rel L (gq 1 1) F F1) as (Fs & Ds). { rewrite V1, Rabs_pos_eq by lra. apply Rle_trans with (bpow radix2 100); [lra|]. apply bpow_le. lia. }
  assert (S : 0 <= B2R (gsub L (gq 1 1)) <= B2R L). { destruct (gsub_fin L (gq 1 1) F F1) as (_ & ->). { rewrite V1, Rabs_pos_eq by lra. apply Rle_trans with (bpow radix2 100); [lra|]. apply bpow_le. lia. } rewrite V1. split; [apply rnd32_pos; lra|apply rnd32_le_f; lra]. }
  rewrite V1 in Ds. rewrite (Rabs_pos_eq (B2R L - 1)) in Ds by lra. unfold t. set (s := gsub L (gq 1 1)) in *. clearbody s. apply Rabs_le_inv in Ds.
  assert (Q : 0 <= B2R s / B2R L <= 1). { split; [apply Rle_mult_inv_pos; lra|]. apply Rmult_le_reg_r with (B2R L); [lra|]. unfold Rdiv. rewrite Rmult_assoc, Rinv_l by lra. lra. }
  destruct (gdiv_fin s L Fs F ltac:(lra)) as (Ft & Vt); [apply small127; lra|]. split; [exact Ft|]. rewrite Vt. split; [split; [apply rnd32_pos; lra|rewrite <- V1; apply rnd32_le_f; rewrite V1; lra]|].
  assert (E : Rabs (rnd32 (B2R s / B2R L) - B2R s / B2R L) <= bpow radix2 (0 - 24)) by (apply ArcProofs.rnd32_err; [lia|]; change (bpow radix2 0) with 1; rewrite Rabs_pos_eq; lra). change (bpow radix2 (0 - 24)) with (/ 16777216) in E.
  assert (E3 : Rabs (B2R s / B2R L - (1 - 1 / B2R L)) <= / 16777216).
  { replace (B2R s / B2R L - (1 - 1 / B2R L)) with ((B2R s - (B2R L - 1)) / B2R L) by (field; lra). unfold Rdiv. rewrite Rabs_mult, (Rabs_pos_eq (/ B2R L)) by (apply Rlt_le, Rinv_0_lt_compat; lra). apply Rmult_le_reg_r with (B2R L); [lra|]. rewrite Rmult_assoc, Rinv_l, Rmult_1_r by lra. apply Rabs_le. lra. }
  change (bpow radix2 (-23)) with (/ 8388608). apply Rabs_le_inv in E, E3. apply Rabs_le. lra.
Qed.
End WithLibm.

(** a conversion that has nothing to round *)
Lemma g_of_f_repr (z : f64) r : fin z -> B2R z = r -> generic_format radix2 (SpecFloat.fexp 24 128) r -> Rabs r < bpow radix2 128 -> fin (g_of_f z) /\ B2R (g_of_f z) = r.
Proof.
  intros F V FMT L. destruct z as [s| | |s m e b]; try discriminate F; [split; [reflexivity|exact V]|]. cbn [g_of_f].
  pose proof (binary_normalize_correct 24 128 p24 pe24 mode_NE (cond_Zopp s (Zpos m)) e s) as H. cbv zeta in H. cbn [B2R] in V. rewrite V in H.
  rewrite round_generic in H; [|typeclasses eauto|exact FMT]. rewrite Rlt_bool_true in H by exact L. destruct H as (W & FF & _). split; [exact FF|exact W].
Qed.
Lemma gabs_exact (x : f32) : fin x -> fin (gabs x) /\ B2R (gabs x) = Rabs (B2R x).
Proof.
  intros F. unfold gabs. destruct (f_of_g_fin x F) as (F' & V). apply g_of_f_repr.
  - set (y := f_of_g x) in *. clearbody y. destruct y; try discriminate F'; reflexivity.
  - rewrite <- V. unfold fabs. apply B2R_Babs.
  - rewrite <- (B2R_Babs _ _ x). apply generic_format_B2R.
  - rewrite Rabs_Rabsolu. apply abs_B2R_lt_emax.
Qed.
(** ** The control polygon *)
Lemma polygon_near k : (0 <= k <= 20)%Z -> forall pts n acc prev L, near (bpow radix2 k) (3 * INR n) (44 * INR n) acc L -> (n + length pts <= 6)%nat -> Forall (SpecCurves.within k) (prev :: pts) ->
  near (bpow radix2 k) (3 * INR (n + length pts)) (44 * INR (n + length pts)) (control_from acc prev pts) (L + polygon (prev :: pts)).
Proof.
  intros K. pose proof (scale_pow k K) as HU. assert (HU' : 1 <= bpow radix2 k <= bpow radix2 100) by (split; [lra|apply bpow_le; lia]).
  induction pts as [|p r IH]; intros n acc prev L N LN W.
  - cbn [control_from length polygon]. rewrite Nat.add_0_r, Rplus_0_r. exact N.
  - cbn [length] in *. inversion W as [|? ? Wp W']; subst. inversion W' as [|? ? Wq _]; subst. cbn [control_from]. replace (L + polygon (prev :: p :: r)) with (L + dist prev p + polygon (p :: r)) by (cbn [polygon]; ring).
    replace (n + S (length r))%nat with (S n + length r)%nat by lia. apply IH; [|lia|exact W']. destruct (radius_near k prev p K Wq Wp) as (ND & _).
    assert (B : 0 <= INR n <= 5) by (split; [apply pos_INR|]; replace 5 with (INR 5) by (cbn; lra); apply le_INR; lia).
    pose proof (near_add _ HU' _ _ _ _ _ _ _ _ N ND ltac:(lra) ltac:(lra) ltac:(lra) ltac:(lra)) as X. eapply near_up; [| | |exact X]; rewrite ?S_INR; lra.
Qed.
Lemma control_near k pts : (0 <= k <= 20)%Z -> (1 <= length pts <= 7)%nat -> Forall (SpecCurves.within k) pts ->
  fin (control_length pts) /\ Rabs (B2R (control_length pts) - polygon pts) <= bpow radix2 (k - 15).
Proof.
  intros K L W. pose proof (scale_pow k K) as HU. destruct pts as [|p r]; [cbn in L; lia|]. cbn [control_length length] in *.
  assert (N0 : near (bpow radix2 k) (3 * INR 0) (44 * INR 0) g0 0). { split; [reflexivity|]. change (B2R g0) with 0. rewrite Rminus_0_r, Rabs_R0. change (INR 0) with 0. unfold ulp24. split; lra. }
  destruct (polygon_near k K r 0%nat g0 p 0 N0 ltac:(lia) W) as (F & _ & D). rewrite Rplus_0_l in D. split; [exact F|]. apply Rle_trans with (1 := D). assert (B : INR (0 + length r) <= 6) by (replace 6 with (INR 6) by (cbn; lra); apply le_INR; lia).
  replace (k - 15)%Z with (k + (-15))%Z by lia. rewrite bpow_plus. change (bpow radix2 (-15)) with (/ 32768). unfold ulp24. set (U := bpow radix2 k) in *. change (INR (0 + length r)) with (INR (length r)) in *. set (n := INR (length r)) in *. clearbody U n. assert (44 * n * U <= 264 * U) by (apply Rmult_le_compat_r; lra). lra.
Qed.

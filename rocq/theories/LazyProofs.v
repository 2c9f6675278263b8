(** How far the lazy cursor of a slider moves. *)
From Coq Require Import Reals Lra.
From Flocq Require Import Core BinarySingleNaN.
From Verif Require Import DiffCalc SpecPP SpecSane SpecDist BaseLemmas FloatLemmas Float32Lemmas KeyLemmas BoundLemmas CurveProofs CurveBounds CurveStart BezierTerm PPProofs PPBounds PPChains ValueBounds LengthProofs ObjectBounds DistProofs.
From Verif Require Import Preprocessing.
Import ListNotations.
Open Scope R_scope.

Lemma rel64 x : bpow radix2 (-1022) <= Rabs x -> Rabs (rnd64 x - x) <= Rabs x * / 9007199254740992.
Proof. exact (rnd64_rel x). Qed.
(** a rounded double, for values up to 2^200 *)
Lemma err64 x : Rabs x <= bpow radix2 200 -> Rabs (rnd64 x - x) <= Rabs x * / 9007199254740992 + / 1000000000000.
Proof.
  intros H. destruct (Rle_dec (bpow radix2 (-1022)) (Rabs x)) as [G|G].
  - pose proof (rel64 x G). lra.
  - apply Rnot_le_lt in G. pose proof (rnd64_err x (-1021) ltac:(lia)) as E. assert (bpow radix2 (-1022) <= bpow radix2 (-1021)) by (apply bpow_le; lia). specialize (E ltac:(lra)). pose proof (Rabs_pos x).
    assert (bpow radix2 (-1021 - 53) <= / 1000000000000) by (apply Rle_trans with (bpow radix2 (-40)); [apply bpow_le; lia|change (bpow radix2 (-40)) with (/ 1099511627776); lra]). lra.
Qed.
Lemma plane_tri a b c : plane_dist a c <= plane_dist a b + plane_dist b c.
Proof.
  change (geo a c <= geo a b + geo b c). unfold geo. set (x1 := B2R (vx b) - B2R (vx a)). set (y1 := B2R (vy b) - B2R (vy a)). set (x2 := B2R (vx c) - B2R (vx b)). set (y2 := B2R (vy c) - B2R (vy b)).
  replace (B2R (vx c) - B2R (vx a)) with (x1 + x2) by (unfold x1, x2; ring). replace (B2R (vy c) - B2R (vy a)) with (y1 + y2) by (unfold y1, y2; ring). clearbody x1 y1 x2 y2.
  pose proof (nrm_pos x1 y1) as P1. pose proof (nrm_pos x2 y2) as P2. pose proof (nrm_sq x1 y1) as S1. pose proof (nrm_sq x2 y2) as S2. apply le_of_sq; [lra|]. rewrite nrm_sq.
  assert (CS : x1 * x2 + y1 * y2 <= nrm x1 y1 * nrm x2 y2).
  { apply le_of_sq; [now apply Rmult_le_pos|]. replace (nrm x1 y1 * nrm x2 y2 * (nrm x1 y1 * nrm x2 y2)) with ((x1 * x1 + y1 * y1) * (x2 * x2 + y2 * y2)) by (rewrite <- S1, <- S2; ring).
    pose proof (Rle_0_sqr (x1 * y2 - y1 * x2)) as Q. unfold Rsqr in Q. lra. }
  replace ((nrm x1 y1 + nrm x2 y2) * (nrm x1 y1 + nrm x2 y2)) with ((x1 * x1 + y1 * y1) + 2 * (nrm x1 y1 * nrm x2 y2) + (x2 * x2 + y2 * y2)) by (rewrite <- S1, <- S2; ring). lra.
Qed.

(** one coordinate of a step *)
Lemma coord_step q (c P : f32) (r : f32) (rho : R) : (0 <= q <= 50)%Z -> bnd q c -> bnd q P -> fin r -> 0 <= B2R r <= 1 -> 0 <= rho <= 1 -> Rabs (B2R r - rho) <= / 8388608 ->
  Rabs (B2R (gadd c (gmul (gsub P c) r)) - (B2R c + (B2R P - B2R c) * rho)) <= bpow radix2 q * / 1048576.
Proof.
  intros Q (Fc & Bc) (Fp & Bp) Fr Br Bh E. set (T := bpow radix2 q) in *. assert (P1 : 1 <= T) by (unfold T; change 1 with (bpow radix2 0); apply bpow_le; lia).
  assert (BIG : T * 8 <= bpow radix2 127) by (unfold T; change 8 with (bpow radix2 3); rewrite <- bpow_plus; apply bpow_le; lia). pose proof tiny150 as T150. apply Rabs_le_inv in Bc, Bp.
  destruct (gsub_fin _ _ Fp Fc) as (Fm & Em); [apply Rabs_le; lra|]. pose proof (rnd32_errR (B2R P - B2R c) (2 * T) ltac:(apply Rabs_le; lra)) as E1. rewrite <- Em, u24 in E1. set (m := gsub P c) in *. clearbody m. apply Rabs_le_inv in E1.
  assert (Bm : -3 * T <= B2R m <= 3 * T) by lra.
  assert (MR : Rabs (B2R m * B2R r) <= 3 * T) by (rewrite Rabs_mult, (Rabs_pos_eq (B2R r)) by lra; rewrite <- (Rmult_1_r (3 * T)); apply Rmult_le_compat; [apply Rabs_pos|lra|apply Rabs_le; lra|lra]).
  destruct (gmul_fin _ _ Fm Fr) as (Fx & Ex); [lra|]. pose proof (rnd32_errR (B2R m * B2R r) (3 * T) MR) as E2. rewrite <- Ex, u24 in E2. set (x := gmul m r) in *. clearbody x. apply Rabs_le_inv in E2, MR.
  destruct (gadd_fin _ _ Fc Fx) as (Fy & Ey); [apply Rabs_le; lra|]. pose proof (rnd32_errR (B2R c + B2R x) (5 * T) ltac:(apply Rabs_le; lra)) as E3. rewrite <- Ey, u24 in E3. set (y := gadd c x) in *. clearbody y.
  assert (X : Rabs (B2R m * B2R r - (B2R P - B2R c) * rho) <= 2 * T * / 8388608 + (2 * T * / 16777216 + / 1000000000000)).
  { replace (B2R m * B2R r - (B2R P - B2R c) * rho) with ((B2R m - (B2R P - B2R c)) * B2R r + (B2R P - B2R c) * (B2R r - rho)) by ring.
    assert (A : Rabs ((B2R m - (B2R P - B2R c)) * B2R r) <= (2 * T * / 16777216 + / 1000000000000) * 1) by (rewrite Rabs_mult, (Rabs_pos_eq (B2R r)) by lra; apply Rmult_le_compat; [apply Rabs_pos|lra|apply Rabs_le; lra|lra]).
    assert (B : Rabs ((B2R P - B2R c) * (B2R r - rho)) <= 2 * T * / 8388608) by (rewrite Rabs_mult; apply Rmult_le_compat; [apply Rabs_pos|apply Rabs_pos|apply Rabs_le; lra|exact E]).
    apply Rabs_le_inv in A, B. apply Rabs_le. lra. }
  apply Rabs_le_inv in X, E3. apply Rabs_le. lra.
Qed.

Section WithLibm.
Context {M : libm} (d : difficulty) (D : clocked d).
Definition per_px : R := 50 / B2R (d_CircleRadius d).
Lemma per_px_range : / 2 <= per_px <= 25 / 4.
Proof.
  unfold per_px. destruct D as (_ & _ & (_ & B)). split; apply Rmult_le_reg_r with (B2R (d_CircleRadius d)); try lra; unfold Rdiv at 1; rewrite ?Rmult_assoc, ?Rinv_l; lra.
Qed.
Lemma scale_near : fin (fdiv (fq 50 1) (d_CircleRadius d)) /\ Rabs (B2R (fdiv (fq 50 1) (d_CircleRadius d)) - per_px) <= / 1000000000000.
Proof.
  pose proof per_px_range as P. destruct D as (_ & _ & (Fr & Br)). destruct (fq1_exact 50) as (F5 & E5); [lia|]. destruct (fdiv_fin _ _ F5 Fr) as (F & E); [lra|rewrite E5; fold per_px; apply big_1023; rewrite Rabs_pos_eq; lra|]. split; [exact F|]. rewrite E, E5. fold per_px.
  assert (N : bpow radix2 (-1022) <= Rabs per_px) by (rewrite Rabs_pos_eq by lra; apply Rle_trans with (bpow radix2 (-1)); [apply bpow_le; lia|change (bpow radix2 (-1)) with (/ 2); lra]).
  pose proof (rel64 _ N) as X. rewrite (Rabs_pos_eq per_px) in X by lra. lra.
Qed.

(** the length of a movement *)
Lemma len_near q c P : (4 <= q <= 45)%Z -> vbnd q c -> vbnd q P ->
  let len := fmul (fdiv (fq 50 1) (d_CircleRadius d)) (f_of_g (vlen (vsub P c))) in
  fin len /\ 0 <= B2R len <= 32 * bpow radix2 q /\ Rabs (B2R len - per_px * plane_dist c P) <= per_px * plane_dist c P * / 2000000 + / 100000000000.
Proof.
  intros Q C V len. change (vlen (vsub P c)) with (vdst c P) in *. destruct (vdst_acc c P q ltac:(lia) C V) as (Fd & Pd & Ed). destruct scale_near as (Fs & Es). pose proof per_px_range as PP. pose proof (geo_up q c P C V) as GU. assert (G0 : 0 <= geo c P) by apply nrm_pos.
  destruct (f_of_g_fin _ Fd) as (Ff & Ef). rewrite geo_dist. set (g := geo c P) in *. clearbody g. unfold len. set (s := fdiv _ _) in *. clearbody s. set (S := per_px) in *. clearbody S. set (T := bpow radix2 q) in *.
  assert (P1 : 16 <= T) by (unfold T; change 16 with (bpow radix2 4); apply bpow_le; lia). assert (BIG : T * 64 <= bpow radix2 200) by (unfold T; change 64 with (bpow radix2 6); rewrite <- bpow_plus; apply bpow_le; lia).
  change (bpow radix2 (-21)) with (/ 2097152) in Ed. assert (T69 : bpow radix2 (-69) <= / 1000000000000) by (apply Rle_trans with (bpow radix2 (-40)); [apply bpow_le; lia|change (bpow radix2 (-40)) with (/ 1099511627776); lra]).
  apply Rabs_le_inv in Ed, Es. set (v := B2R (vdst c P)) in *. clearbody v.
  assert (Bv : 0 <= v <= 4.1 * T) by lra. assert (PR : 0 <= B2R s * v <= 6.3 * (4.1 * T)) by (split; [apply Rmult_le_pos; lra|apply Rmult_le_compat; lra]).
  destruct (fmul_fin _ _ Fs Ff) as (F & E). { rewrite Ef. rewrite Rabs_pos_eq by apply PR. apply Rle_trans with (bpow radix2 200); [lra|apply bpow_le; lia]. }
  split; [exact F|]. rewrite E, Ef. pose proof (err64 (B2R s * v) ltac:(rewrite Rabs_pos_eq by apply PR; lra)) as X. rewrite (Rabs_pos_eq (B2R s * v)) in X by apply PR. apply Rabs_le_inv in X. assert (P0 : 0 <= rnd64 (B2R s * v)) by (apply rnd64_pos; lra).
  split; [split; [exact P0|lra]|].
  assert (A1 : Rabs ((B2R s - S) * v) <= / 1000000000000 * v) by (rewrite Rabs_mult, (Rabs_pos_eq v) by lra; apply Rmult_le_compat_r; [lra|apply Rabs_le; lra]).
  assert (A2 : Rabs (S * (v - g)) <= S * (g * / 2097152 + / 1000000000000)) by (rewrite Rabs_mult, (Rabs_pos_eq S) by lra; apply Rmult_le_compat_l; [lra|apply Rabs_le; lra]).
  assert (A3 : B2R s * v - S * g = (B2R s - S) * v + S * (v - g)) by ring. assert (A4 : S * (g * / 2097152 + / 1000000000000) = (S * g) * / 2097152 + S * / 1000000000000) by ring. rewrite A4 in A2.
  assert (A5 : / 1000000000000 * v <= / 1000000000000 * (1.01 * g + / 1000000)) by (apply Rmult_le_compat_l; lra). assert (A6 : g <= 2 * (S * g)) by (assert (/ 2 * g <= S * g) by (apply Rmult_le_compat_r; lra); lra).
  assert (A7 : 0 <= S * g) by (apply Rmult_le_pos; lra). set (L := S * g) in *. set (z := B2R s * v) in *. clearbody L z. apply Rabs_le_inv in A1, A2. apply Rabs_le. lra.
Qed.

(** one movement towards [P] *)
Lemma move_num q c P (req : f64) rq : (4 <= q <= 45)%Z -> vbnd q c -> vbnd q P -> fin req -> B2R req = rq -> 50 <= rq <= 90 ->
  let len := fmul (fdiv (fq 50 1) (d_CircleRadius d)) (f_of_g (vlen (vsub P c))) in
  let ratio := fdiv (fsub len req) len in
  let c' := vadd c (vscl (vsub P c) (g_of_f ratio)) in
  rq < B2R len ->
  per_px * plane_dist c' P <= rq + bpow radix2 (q - 15) /\
  fin (g_of_f (fmul len ratio)) /\ 0 <= B2R (g_of_f (fmul len ratio)) <= 33 * bpow radix2 q /\
  Rabs (B2R (g_of_f (fmul len ratio)) - per_px * plane_dist c c') <= bpow radix2 (q - 13).
Proof.
  intros Q C V Fr Er Br len ratio c' GT. destruct (len_near q c P Q C V) as (FL & BL & EL). fold len in FL, BL, EL. pose proof per_px_range as PP.
  assert (GU : plane_dist c P <= 4 * bpow radix2 q) by (rewrite geo_dist; now apply geo_up). assert (G0 : 0 <= plane_dist c P) by (apply sqrt_pos).
  set (T := bpow radix2 q) in *. assert (P1 : 16 <= T) by (unfold T; change 16 with (bpow radix2 4); apply bpow_le; lia). assert (BIG : T * 64 <= bpow radix2 100) by (unfold T; change 64 with (bpow radix2 6); rewrite <- bpow_plus; apply bpow_le; lia).
  assert (B100 : bpow radix2 100 <= bpow radix2 127) by (apply bpow_le; lia). assert (B127 : bpow radix2 127 <= bpow radix2 200) by (apply bpow_le; lia). assert (B200 : bpow radix2 200 <= bpow radix2 1023) by (apply bpow_le; lia).
  assert (E15 : bpow radix2 (q - 15) = T * / 32768) by (unfold Z.sub; rewrite bpow_plus; reflexivity). assert (E13 : bpow radix2 (q - 13) = T * / 8192) by (unfold Z.sub; rewrite bpow_plus; reflexivity). rewrite E15, E13.
  set (ll := B2R len) in *. set (rho := (ll - rq) / ll).
  assert (H1 : 0 <= rho <= 1). { unfold rho. split; [apply Rle_mult_inv_pos; lra|]. apply Rmult_le_reg_r with ll; [lra|]. unfold Rdiv. rewrite Rmult_assoc, Rinv_l by lra. lra. }
  destruct (fsub_fin _ _ FL Fr) as (Fs & Es); [rewrite Er; fold ll; rewrite Rabs_pos_eq; lra|]. rewrite Er in Es. fold ll in Es.
  assert (XS : Rabs (B2R (fsub len req) - (ll - rq)) <= ll * / 1000000000000). { pose proof (err64 (ll - rq) ltac:(rewrite Rabs_pos_eq; lra)) as X. rewrite (Rabs_pos_eq (ll - rq)) in X by lra. rewrite Es. lra. }
  assert (S0 : 0 <= B2R (fsub len req) <= ll) by (rewrite Es; split; [apply rnd64_pos; lra|apply rnd64_le_f; fold ll; lra]).
  assert (QQ : 0 <= B2R (fsub len req) / ll <= 1) by (split; [apply Rle_mult_inv_pos; lra|]; apply Rmult_le_reg_r with ll; try lra; unfold Rdiv; rewrite Rmult_assoc, Rinv_l by lra; lra).
  assert (XQ : Rabs (B2R (fsub len req) / ll - rho) <= / 1000000000000).
  { unfold rho. replace (B2R (fsub len req) / ll - (ll - rq) / ll) with ((B2R (fsub len req) - (ll - rq)) * / ll) by (field; lra). rewrite Rabs_mult, (Rabs_pos_eq (/ ll)) by (apply Rlt_le, Rinv_0_lt_compat; lra). apply Rmult_le_reg_r with ll; [lra|]. rewrite Rmult_assoc, Rinv_l by lra. lra. }
  destruct (fdiv_fin _ _ Fs FL) as (Fq & Eq); [fold ll; lra|fold ll; apply big_1023; rewrite Rabs_pos_eq; lra|]. fold ratio in Fq, Eq. fold ll in Eq.
  pose proof (err64 (B2R (fsub len req) / ll) ltac:(rewrite Rabs_pos_eq by apply QQ; apply Rle_trans with 1; [lra|change 1 with (bpow radix2 0); apply bpow_le; lia])) as XR. rewrite <- Eq in XR. rewrite (Rabs_pos_eq (B2R (fsub len req) / ll)) in XR by apply QQ.
  assert (Bq : 0 <= B2R ratio <= 1) by (rewrite Eq; split; [apply rnd64_pos; lra|apply (rnd64_exact_Z 1); [lia|lra]]).
  assert (XR' : Rabs (B2R ratio - rho) <= / 100000000000). { apply Rabs_le_inv in XR, XQ. apply Rabs_le. lra. }
  clear XQ XR Eq. clearbody ratio. 
  destruct (g_of_f_fin ratio Fq) as (Fr' & Er'). { apply b127. rewrite Rabs_pos_eq; lra. } pose proof (err32 (B2R ratio) 1 ltac:(rewrite Rabs_pos_eq; lra) ltac:(lra)) as XG. rewrite <- Er' in XG.
  assert (Br' : 0 <= B2R (g_of_f ratio) <= 1). { rewrite Er'. split; [apply rnd32_pos; lra|]. rewrite <- (rnd32_Z 1) by lia. apply rnd32_le. lra. }
  assert (XG' : Rabs (B2R (g_of_f ratio) - rho) <= / 8388608) by (apply Rabs_le_inv in XG, XR'; apply Rabs_le; lra).
  destruct C as (Cx & Cy), V as (Vx & Vy).
  pose proof (coord_step q _ _ _ rho ltac:(lia) Cx Vx Fr' Br' H1 XG') as KX. pose proof (coord_step q _ _ _ rho ltac:(lia) Cy Vy Fr' Br' H1 XG') as KY.
  change (gadd (vx c) (gmul (gsub (vx P) (vx c)) (g_of_f ratio))) with (vx c') in KX. change (gadd (vy c) (gmul (gsub (vy P) (vy c)) (g_of_f ratio))) with (vy c') in KY. fold T in KX, KY.
  assert (DP : plane_dist c' P <= plane_dist c P * (1 - rho) + T * / 524288).
  { rewrite (geo_dist c' P), (geo_dist c P). unfold geo. rewrite <- (Rabs_pos_eq (1 - rho)) by lra. rewrite (Rmult_comm (nrm _ _)), <- nrm_scale. apply Rabs_le_inv in KX, KY.
    pose proof (nrm_near ((B2R (vx P) - B2R (vx c)) * (1 - rho)) ((B2R (vy P) - B2R (vy c)) * (1 - rho)) (B2R (vx P) - B2R (vx c')) (B2R (vy P) - B2R (vy c')) (T * / 1048576) (T * / 1048576) ltac:(apply Rabs_le; lra) ltac:(apply Rabs_le; lra)) as X. apply Rabs_le_inv in X. lra. }
  assert (DC : Rabs (plane_dist c c' - plane_dist c P * rho) <= T * / 524288).
  { rewrite (geo_dist c c'), (geo_dist c P). unfold geo. rewrite <- (Rabs_pos_eq rho) by lra. rewrite (Rmult_comm (nrm (B2R (vx P) - _) _)), <- nrm_scale. apply Rabs_le_inv in KX, KY.
    eapply Rle_trans; [apply (nrm_near _ _ _ _ (T * / 1048576) (T * / 1048576)); rewrite ?Rabs_pos_eq by lra; apply Rabs_le; lra|lra]. }
  assert (RL : ll * rho = ll - rq) by (unfold rho; field; lra). assert (RC : ll * (1 - rho) = rq) by lra.
  set (g := plane_dist c P) in *. clearbody g. set (S := per_px) in *. clearbody S. set (dp := plane_dist c' P) in *. set (dc := plane_dist c c') in *. clearbody dp dc c'. clear KX KY. set (L := S * g) in *.
  assert (L0 : 0 <= L) by (apply Rmult_le_pos; lra). assert (LU : L <= 25 * T) by (apply Rle_trans with (25 / 4 * (4 * T)); [apply Rmult_le_compat; lra|lra]). apply Rabs_le_inv in EL.
  split; [|split; [|split]].
  - assert (A : S * dp <= S * (g * (1 - rho) + T * / 524288)) by (apply Rmult_le_compat_l; lra). replace (S * (g * (1 - rho) + T * / 524288)) with (L * (1 - rho) + S * (T * / 524288)) in A by (unfold L; ring).
    assert (B : S * (T * / 524288) <= 25 / 4 * (T * / 524288)) by (apply Rmult_le_compat_r; lra).
    assert (LL : L <= ll * (1 + / 1000000) + / 1000000000) by lra. assert (X : L * (1 - rho) <= (ll * (1 + / 1000000) + / 1000000000) * (1 - rho)) by (apply Rmult_le_compat_r; lra).
    replace ((ll * (1 + / 1000000) + / 1000000000) * (1 - rho)) with (rq * (1 + / 1000000) + / 1000000000 * (1 - rho)) in X by (rewrite <- RC; ring). lra.
  - destruct (fmul_fin _ _ FL Fq) as (Fp & Ep). { fold ll. rewrite Rabs_pos_eq by (apply Rmult_le_pos; lra). apply Rle_trans with (32 * T * 1); [apply Rmult_le_compat; lra|lra]. }
    assert (PB : 0 <= ll * B2R ratio <= 32 * T) by (split; [apply Rmult_le_pos; lra|rewrite <- (Rmult_1_r (32 * T)); apply Rmult_le_compat; lra]).
    apply (g_of_f_fin _ Fp). rewrite Ep. fold ll. rewrite Rabs_pos_eq by (apply rnd64_pos; lra). pose proof (err64 (ll * B2R ratio) ltac:(rewrite Rabs_pos_eq; lra)) as X. rewrite (Rabs_pos_eq (ll * B2R ratio)) in X by lra. apply Rabs_le_inv in X. lra.
  - assert (PB : 0 <= ll * B2R ratio <= 32 * T) by (split; [apply Rmult_le_pos; lra|rewrite <- (Rmult_1_r (32 * T)); apply Rmult_le_compat; lra]).
    destruct (fmul_fin _ _ FL Fq) as (Fp & Ep). { fold ll. rewrite Rabs_pos_eq by lra. lra. } fold ll in Ep.
    pose proof (err64 (ll * B2R ratio) ltac:(rewrite Rabs_pos_eq; lra)) as X. rewrite (Rabs_pos_eq (ll * B2R ratio)) in X by lra. apply Rabs_le_inv in X. assert (P0 : 0 <= rnd64 (ll * B2R ratio)) by (apply rnd64_pos; lra).
    destruct (g_of_f_fin _ Fp) as (Fg & Eg). { rewrite Ep, Rabs_pos_eq by lra. lra. } rewrite Eg, Ep. pose proof (rnd32_errR (rnd64 (ll * B2R ratio)) (32.5 * T) ltac:(rewrite Rabs_pos_eq; lra)) as Y. rewrite u24 in Y. pose proof tiny150. apply Rabs_le_inv in Y. split; [apply rnd32_pos; lra|lra].
  - assert (PB : 0 <= ll * B2R ratio <= 32 * T) by (split; [apply Rmult_le_pos; lra|rewrite <- (Rmult_1_r (32 * T)); apply Rmult_le_compat; lra]).
    destruct (fmul_fin _ _ FL Fq) as (Fp & Ep). { fold ll. rewrite Rabs_pos_eq by lra. lra. } fold ll in Ep.
    pose proof (err64 (ll * B2R ratio) ltac:(rewrite Rabs_pos_eq; lra)) as X. rewrite (Rabs_pos_eq (ll * B2R ratio)) in X by lra. apply Rabs_le_inv in X. assert (P0 : 0 <= rnd64 (ll * B2R ratio)) by (apply rnd64_pos; lra).
    destruct (g_of_f_fin _ Fp) as (Fg & Eg). { rewrite Ep, Rabs_pos_eq by lra. lra. } rewrite Eg, Ep. pose proof (rnd32_errR (rnd64 (ll * B2R ratio)) (32.5 * T) ltac:(rewrite Rabs_pos_eq; lra)) as Y. rewrite u24 in Y. pose proof tiny150. apply Rabs_le_inv in Y.
    assert (A : Rabs (ll * B2R ratio - ll * rho) <= 32 * T * / 100000000000) by (replace (ll * B2R ratio - ll * rho) with (ll * (B2R ratio - rho)) by ring; rewrite Rabs_mult, (Rabs_pos_eq ll) by lra; apply Rmult_le_compat; [lra|apply Rabs_pos|lra|lra]).
    assert (B : Rabs (S * dc - L * rho) <= 25 / 4 * (T * / 524288)) by (replace (S * dc - L * rho) with (S * (dc - g * rho)) by (unfold L; ring); rewrite Rabs_mult, (Rabs_pos_eq S) by lra; apply Rmult_le_compat; [lra|apply Rabs_pos|lra|exact DC]).
    assert (CC : Rabs (L * rho - ll * rho) <= L * / 2000000 + / 100000000000) by (replace (L * rho - ll * rho) with ((L - ll) * rho) by ring; rewrite Rabs_mult, (Rabs_pos_eq rho) by lra; rewrite <- (Rmult_1_r (_ + _)); apply Rmult_le_compat; [apply Rabs_pos|lra|apply Rabs_le; lra|lra]).
    apply Rabs_le_inv in A, B, CC. apply Rabs_le. lra.
Qed.
End WithLibm.

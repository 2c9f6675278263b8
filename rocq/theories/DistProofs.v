(** How accurate normalised distances are. *)
From Coq Require Import Reals Lra.
From Flocq Require Import Core BinarySingleNaN.
From Verif Require Import DiffCalc SpecPP SpecSane SpecDist BaseLemmas FloatLemmas Float32Lemmas KeyLemmas BoundLemmas CurveProofs CurveBounds BezierTerm PPProofs PPBounds ValueBounds LengthProofs ObjectBounds.
Import ListNotations.
Open Scope R_scope.

(** [x] is [r] up to [e] *)
Definition near32 (e : R) (x : f32) (r : R) : Prop := fin x /\ Rabs (B2R x - r) <= e.
Lemma tiny150 : bpow radix2 (-150) <= / 1000000000000. 
Proof. apply Rle_trans with (bpow radix2 (-40)); [apply bpow_le; lia|]. change (bpow radix2 (-40)) with (/ 1099511627776). lra. Qed.
Lemma u24 : bpow radix2 (-24) = / 16777216. Proof. reflexivity. Qed.
Lemma b127 x : Rabs x <= 4096 -> Rabs x <= bpow radix2 127.
Proof. intros H. apply Rle_trans with (1 := H). change 4096 with (bpow radix2 12). apply bpow_le. lia. Qed.
Lemma err32 x b : Rabs x <= b -> b <= 4096 -> Rabs (rnd32 x - x) <= b * / 16777216 + / 1000000000000.
Proof.
  intros H _. pose proof (rnd32_errR x b H) as E. rewrite u24 in E. pose proof tiny150. lra.
Qed.

Section WithLibm.
Context {M : libm} (d : difficulty) (D : clocked d).
Lemma scaling_near : Rabs (B2R (scaling_factor d) - unit_scale (B2R (d_CircleRadius d))) <= / 131072.
Proof.
  unfold scaling_factor, unit_scale. cbv zeta. destruct D as (_ & _ & (Fr & Br)). set (R0 := B2R (d_CircleRadius d)) in *.
  destruct (g_of_f_fin (d_CircleRadius d) Fr) as (Fg & Eg); [apply b127; fold R0; rewrite Rabs_pos_eq; lra|]. fold R0 in Eg.
  assert (Er : Rabs (B2R (g_of_f (d_CircleRadius d)) - R0) <= R0 * / 16777216 + / 1000000000000) by (rewrite Eg; apply err32; [rewrite Rabs_pos_eq; lra|lra]).
  assert (Bg : 8 <= B2R (g_of_f (d_CircleRadius d)) <= 100) by (rewrite Eg; split; [rewrite <- (rnd32_Z 8) by lia|rewrite <- (rnd32_Z 100) by lia]; apply rnd32_le; lra). set (r := g_of_f (d_CircleRadius d)) in *. clearbody r. clear Eg.
  destruct (gq1_exact 50) as (F5 & E5); [lia|]. destruct (gq1_exact 30) as (F3 & E3); [lia|]. destruct (gq1_exact 5) as (Fv & Ev); [lia|]. destruct (gq1_exact 1) as (F1 & E1); [lia|].
  set (r' := B2R r) in *.
  assert (Q : 0 <= 50 / r' <= 7) by (split; [apply Rle_mult_inv_pos; lra|]; apply Rmult_le_reg_r with r'; try lra; unfold Rdiv; rewrite Rmult_assoc, Rinv_l by lra; lra).
  assert (Q0 : 0 <= 50 / R0 <= 7) by (split; [apply Rle_mult_inv_pos; lra|]; apply Rmult_le_reg_r with R0; try lra; unfold Rdiv; rewrite Rmult_assoc, Rinv_l by lra; lra).
  destruct (gdiv_fin _ _ F5 Fg) as (Fs & Es); [fold r'; lra|rewrite E5; apply b127; fold r'; rewrite Rabs_pos_eq; lra|]. rewrite E5 in Es. fold r' in Es.
  assert (QE : Rabs (50 / r' - 50 / R0) <= 7 * / 16000000).
  { replace (50 / r' - 50 / R0) with ((50 / r') * ((R0 - r') / R0)) by (field; lra). rewrite Rabs_mult, (Rabs_pos_eq (50 / r')) by lra. apply Rmult_le_compat; [lra|apply Rabs_pos|lra|].
    unfold Rdiv. rewrite Rabs_mult, (Rabs_pos_eq (/ R0)) by (apply Rlt_le, Rinv_0_lt_compat; lra). apply Rmult_le_reg_r with R0; [lra|]. rewrite Rmult_assoc, Rinv_l by lra. rewrite Rabs_minus_sym. lra. }
  assert (SE : Rabs (B2R (gdiv (gq 50 1) r) - 50 / R0) <= 14 * / 16000000 + / 1000000000).
  { pose proof (err32 (50 / r') 7 ltac:(rewrite Rabs_pos_eq; lra) ltac:(lra)) as E. rewrite <- Es in E. apply Rabs_le_inv in E, QE. apply Rabs_le. lra. }
  assert (Bs : 0 <= B2R (gdiv (gq 50 1) r) <= 7) by (rewrite Es; split; [apply rnd32_pos; lra|rewrite <- (rnd32_Z 7) by lia; apply rnd32_le; lra]). set (s := gdiv _ r) in *. clearbody s.
  destruct (fq1_exact 30) as (F30 & E30); [lia|].
  destruct (flt (d_CircleRadius d) (fq 30 1)) eqn:L; destruct (Rlt_dec R0 30) as [LR|LR].
  3:{ exfalso. assert (X : flt (d_CircleRadius d) (fq 30 1) = true); [|congruence]. apply flt_iff. split; [now apply fin_num|]. split; [now apply fin_num|]. rewrite !(key_fin 53 1024) by assumption. fold R0. rewrite E30. exact LR. }
  3:{ rewrite Rmult_1_r. apply Rabs_le_inv in SE. apply Rabs_le. lra. }
  2:{ exfalso. apply flt_fin in L; auto. fold R0 in L. rewrite E30 in L. lra. }
  assert (Lr : r' <= 30 + / 100000). { apply Rabs_le_inv in Er. lra. }
  destruct (gsub_fin _ _ F3 Fg) as (Fm & Em); [rewrite E3; fold r'; apply b127, Rabs_le; lra|]. rewrite E3 in Em. fold r' in Em.
  assert (ME : Rabs (B2R (gsub (gq 30 1) r) - (30 - R0)) <= / 100000).
  { pose proof (err32 (30 - r') 23 ltac:(apply Rabs_le; lra) ltac:(lra)) as E. rewrite <- Em in E. apply Rabs_le_inv in E, Er. apply Rabs_le. lra. }
  set (m0 := gsub (gq 30 1) r) in *. clearbody m0.
  assert (MN : fin (gmin m0 (gq 5 1)) /\ Rabs (B2R (gmin m0 (gq 5 1)) - Rmin (30 - R0) 5) <= / 90000).
  { unfold gmin. destruct (f_of_g_fin _ Fm) as (Fm' & Em'). destruct (f_of_g_fin _ Fv) as (Fv' & Ev'). destruct (fmin_fin _ _ Fm' Fv') as (Fn & En). rewrite Em', Ev', Ev in En.
    assert (Bm : - / 1000 <= B2R m0 <= 23) by (apply Rabs_le_inv in ME; lra). assert (Bn : - / 1000 <= B2R (fmin (f_of_g m0) (f_of_g (gq 5 1))) <= 5) by (rewrite En; unfold Rmin; destruct (Rle_dec _ _); lra).
    destruct (g_of_f_fin _ Fn) as (Fo & Eo); [apply b127, Rabs_le; lra|]. split; [exact Fo|]. rewrite Eo.
    pose proof (err32 (B2R (fmin (f_of_g m0) (f_of_g (gq 5 1)))) 5 ltac:(apply Rabs_le; lra) ltac:(lra)) as E. apply Rabs_le_inv in E, ME. rewrite En in *. apply Rabs_le. unfold Rmin in *. repeat destruct (Rle_dec _ _); lra. }
  destruct MN as (Fn & NE). assert (B0 : 0 <= Rmin (30 - R0) 5 <= 5) by (unfold Rmin; destruct (Rle_dec _ _); lra). set (mn := gmin m0 _) in *. clearbody mn. set (mr := Rmin (30 - R0) 5) in *. clearbody mr.
  assert (Bn : - / 1000 <= B2R mn <= 6) by (apply Rabs_le_inv in NE; lra).
  destruct (gdiv_fin _ _ Fn F5) as (Fd & Ed); [lra|rewrite E5; apply b127, Rabs_le; lra|]. rewrite E5 in Ed.
  assert (DE : Rabs (B2R (gdiv mn (gq 50 1)) - mr / 50) <= / 3000000).
  { pose proof (err32 (B2R mn / 50) (/ 5) ltac:(apply Rabs_le; lra) ltac:(lra)) as E. rewrite <- Ed in E. apply Rabs_le_inv in E, NE. apply Rabs_le. lra. }
  set (q := gdiv mn _) in *. clearbody q. assert (Bq : - / 1000 <= B2R q <= / 5) by (apply Rabs_le_inv in DE; lra).
  destruct (gadd_fin _ _ F1 Fd) as (Fa & Ea); [rewrite E1; apply b127, Rabs_le; lra|]. rewrite E1 in Ea.
  assert (AE : Rabs (B2R (gadd (gq 1 1) q) - (1 + mr / 50)) <= / 2000000).
  { pose proof (err32 (1 + B2R q) 2 ltac:(apply Rabs_le; lra) ltac:(lra)) as E. rewrite <- Ea in E. apply Rabs_le_inv in E, DE. apply Rabs_le. lra. }
  set (z := gadd _ q) in *. clearbody z. assert (Bz : 0 <= B2R z <= 1.11) by (apply Rabs_le_inv in AE; lra).
  assert (PZ : 0 <= B2R s * B2R z <= 8). { split; [apply Rmult_le_pos; lra|]. apply Rle_trans with (7 * 1.11); [apply Rmult_le_compat; lra|lra]. }
  destruct (gmul_fin _ _ Fs Fa) as (Fp & Ep); [apply b127; rewrite Rabs_pos_eq; lra|].
  pose proof (err32 (B2R s * B2R z) 8 ltac:(rewrite Rabs_pos_eq; lra) ltac:(lra)) as E. rewrite <- Ep in E.
  assert (X1 : Rabs ((B2R s - 50 / R0) * B2R z) <= (14 * / 16000000 + / 1000000000) * 1.11) by (rewrite Rabs_mult, (Rabs_pos_eq (B2R z)) by lra; apply Rmult_le_compat; [apply Rabs_pos|lra|lra|lra]).
  assert (X2 : Rabs (50 / R0 * (B2R z - (1 + mr / 50))) <= 7 * / 2000000) by (rewrite Rabs_mult, (Rabs_pos_eq (50 / R0)) by lra; apply Rmult_le_compat; [lra|apply Rabs_pos|lra|lra]).
  replace (B2R (gmul s z) - 50 / R0 * (1 + mr / 50)) with ((B2R (gmul s z) - B2R s * B2R z) + ((B2R s - 50 / R0) * B2R z + 50 / R0 * (B2R z - (1 + mr / 50)))) by ring.
  apply Rabs_le_inv in E, X1, X2. apply Rabs_le. lra.
Qed.
Lemma geo_dist a b : plane_dist a b = geo a b. Proof. reflexivity. Qed.
Lemma nrm_sum a b : nrm a b <= Rabs a + Rabs b.
Proof. pose proof (nrm_up 0 0 a b) as H. rewrite !Rplus_0_l in H. assert (Z : nrm 0 0 = 0) by (unfold nrm; rewrite Rmult_0_l, Rplus_0_l; apply sqrt_0). lra. Qed.
Lemma geo_up q a b : vbnd q a -> vbnd q b -> geo a b <= 4 * bpow radix2 q.
Proof.
  intros ((_ & A1) & (_ & A2)) ((_ & B1) & (_ & B2)). unfold geo. eapply Rle_trans; [apply nrm_sum|]. apply Rabs_le_inv in A1, A2, B1, B2.
  assert (Rabs (B2R (vx b) - B2R (vx a)) <= 2 * bpow radix2 q) by (apply Rabs_le; lra). assert (Rabs (B2R (vy b) - B2R (vy a)) <= 2 * bpow radix2 q) by (apply Rabs_le; lra). lra.
Qed.
(** a scaled coordinate *)
Lemma scaled_near q (x s : f32) : (0 <= q <= 50)%Z -> bnd q x -> bnd 3 s -> fin (gmul x s) /\ Rabs (B2R (gmul x s) - B2R x * B2R s) <= bpow radix2 q * (9 * / 16777216).
Proof.
  intros Q (Fx & Bx) (Fs & Bs). assert (P : Rabs (B2R x * B2R s) <= bpow radix2 q * 8) by (rewrite Rabs_mult; change 8 with (bpow radix2 3); apply Rmult_le_compat; auto using Rabs_pos).
  assert (B8 : bpow radix2 q * 8 <= bpow radix2 127) by (change 8 with (bpow radix2 3); rewrite <- bpow_plus; apply bpow_le; lia). destruct (gmul_fin _ _ Fx Fs) as (F & E); [lra|]. split; [exact F|]. rewrite E.
  eapply Rle_trans; [apply (rnd32_errR _ _ P)|]. rewrite u24. pose proof tiny150. assert (1 <= bpow radix2 q) by (change 1 with (bpow radix2 0); apply bpow_le; lia). lra.
Qed.
(** a normalised distance *)
Lemma jump_near q a b : (0 <= q <= 50)%Z -> vbnd q a -> vbnd q b ->
  Rabs (B2R (vdst (vscl a (scaling_factor d)) (vscl b (scaling_factor d))) - unit_scale (B2R (d_CircleRadius d)) * plane_dist b a) <= bpow radix2 (q - 14).
Proof.
  intros Q A B. destruct (scaling_ok d D) as (SB & S0). pose proof scaling_near as SN. set (s := scaling_factor d) in *. set (U := unit_scale _) in *. clearbody s U.
  destruct A as (A1 & A2), B as (B1 & B2).
  destruct (scaled_near q _ s Q A1 SB) as (FA1 & EA1). destruct (scaled_near q _ s Q A2 SB) as (FA2 & EA2). destruct (scaled_near q _ s Q B1 SB) as (FB1 & EB1). destruct (scaled_near q _ s Q B2 SB) as (FB2 & EB2).
  assert (VA : vbnd (q + 3) (vscl a s)) by (apply vbnd_scl; [lia|split; assumption|exact SB]). assert (VB : vbnd (q + 3) (vscl b s)) by (apply vbnd_scl; [lia|split; assumption|exact SB]).
  destruct (vdst_acc (vscl a s) (vscl b s) (q + 3) ltac:(lia) VA VB) as (_ & _ & E).
  assert (GN : Rabs (geo (vscl a s) (vscl b s) - B2R s * geo a b) <= bpow radix2 q * (36 * / 16777216)).
  { rewrite <- (Rabs_pos_eq (B2R s)) at 1 by exact S0. unfold geo. rewrite <- nrm_scale. cbn [vscl vx vy].
    eapply Rle_trans; [apply (nrm_near _ _ _ _ (bpow radix2 q * (18 * / 16777216)) (bpow radix2 q * (18 * / 16777216)))|lra]; apply Rabs_le_inv in EA1, EA2, EB1, EB2; apply Rabs_le; lra. }
  assert (SYM : geo a b = geo b a). { unfold geo, nrm. f_equal. ring. } rewrite geo_dist, <- SYM.
  pose proof (geo_up q a b ltac:(split; assumption) ltac:(split; assumption)) as GU. assert (G0 : 0 <= geo a b) by apply nrm_pos. set (g := geo a b) in *. clearbody g. set (g' := geo _ _) in *. clearbody g'.
  assert (P1 : 1 <= bpow radix2 q) by (change 1 with (bpow radix2 0); apply bpow_le; lia). assert (E14 : bpow radix2 (q - 14) = bpow radix2 q * / 16384) by (unfold Z.sub; rewrite bpow_plus; reflexivity). rewrite E14.
  assert (T69 : bpow radix2 (-69) <= / 1000000000000) by (apply Rle_trans with (bpow radix2 (-40)); [apply bpow_le; lia|change (bpow radix2 (-40)) with (/ 1099511627776); lra]).
  change (bpow radix2 (-21)) with (/ 2097152) in E. destruct SB as (_ & SB). rewrite Rabs_pos_eq in SB by exact S0. change (bpow radix2 3) with 8 in SB.
  assert (X1 : 0 <= B2R s * g <= 8 * (4 * bpow radix2 q)) by (split; [apply Rmult_le_pos; lra|apply Rmult_le_compat; lra]).
  assert (X2 : Rabs ((B2R s - U) * g) <= / 131072 * (4 * bpow radix2 q)) by (rewrite Rabs_mult, (Rabs_pos_eq g) by lra; apply Rmult_le_compat; [apply Rabs_pos|lra|exact SN|lra]).
  set (x := B2R (vdst _ _)) in *. clearbody x. set (T := bpow radix2 q) in *. clearbody T. assert (X3 : B2R s * g - U * g = (B2R s - U) * g) by ring.
  set (sg := B2R s * g) in *. set (ug := U * g) in *. rewrite <- X3 in X2. clearbody sg ug. apply Rabs_le_inv in E, GN, X2. apply Rabs_le. lra.
Qed.
End WithLibm.

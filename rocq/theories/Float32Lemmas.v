(** More float32 facts: exact integers, relative rounding error, distances
    between integer points. *)
From Coq Require Import Reals Lra.
From Flocq Require Import Core BinarySingleNaN Relative.
From Verif Require Import GoFloat Curves FloatLemmas.
Open Scope R_scope.

Lemma fmt32_Z z : (Z.abs z <= 2 ^ 24)%Z -> generic_format radix2 (SpecFloat.fexp 24 128) (IZR z).
Proof.
  intros H. assert (Hc : (Z.abs z < 2 ^ 24 \/ Z.abs z = 2 ^ 24)%Z) by lia. destruct Hc as [Hc|Hc].
  - replace (IZR z) with (F2R (Float radix2 z 0)) by (unfold F2R; simpl; ring).
    apply generic_format_F2R. intros Hz. unfold cexp.
    assert (Hm : (mag radix2 (F2R (Float radix2 z 0)) <= 24)%Z).
    { apply mag_le_bpow. - unfold F2R; simpl. rewrite Rmult_1_r. now apply IZR_neq.
      - unfold F2R; simpl. rewrite Rmult_1_r, <- abs_IZR. apply IZR_lt. exact Hc. }
    unfold SpecFloat.fexp, SpecFloat.emin. cbn [Fexp]. lia.
  - assert (E : IZR z = bpow radix2 24 \/ IZR z = - bpow radix2 24).
    { destruct (Z.abs_spec z) as [[_ E]|[_ E]]; [left|right].
      - replace z with (2 ^ 24)%Z by lia. reflexivity.
      - replace z with (- 2 ^ 24)%Z by lia. rewrite opp_IZR. reflexivity. }
    pose proof (bpow_fmt 24 128 24 ltac:(vm_compute; discriminate)).
    destruct E as [->| ->]; [assumption|now apply generic_format_opp].
Qed.
Lemma rnd32_Z z : (Z.abs z <= 2 ^ 24)%Z -> rnd32 (IZR z) = IZR z.
Proof. intros H. apply round_generic; [typeclasses eauto|]. now apply fmt32_Z. Qed.
Lemma IZR_bound32 z e : (Z.abs z <= 2 ^ e)%Z -> (0 <= e <= 127)%Z -> Rabs (IZR z) <= bpow radix2 127.
Proof.
  intros H He. rewrite <- abs_IZR. apply Rle_trans with (bpow radix2 e); [|apply bpow_le; lia].
  rewrite <- IZR_Zpower by lia. now apply IZR_le.
Qed.
Lemma g_of_Z_exact z : (Z.abs z <= 2 ^ 24)%Z -> fin (g_of_Z z) /\ B2R (g_of_Z z) = IZR z.
Proof.
  intros H. unfold g_of_Z.
  assert (E : F2R (Float radix2 z 0) = IZR z) by (unfold F2R; simpl; ring).
  pose proof (normalize_fin 24 128 z 0 false) as N. rewrite E in N.
  destruct N as [N1 N2]. { change (128 - 1)%Z with 127%Z. apply (IZR_bound32 z 24 H). lia. }
  split; [exact N1|]. rewrite N2. now apply rnd32_Z.
Qed.
Lemma gq1_exact z : (Z.abs z <= 2 ^ 24)%Z -> fin (gq z 1) /\ B2R (gq z 1) = IZR z.
Proof.
  intros H. unfold gq. destruct (g_of_Z_exact z H) as [F E].
  destruct (g_of_Z_exact 1 ltac:(vm_compute; discriminate)) as [F1 E1].
  destruct (gdiv_fin (g_of_Z z) (g_of_Z 1) F F1) as [F2 E2].
  - rewrite E1. lra.
  - rewrite E, E1, Rdiv_1. apply (IZR_bound32 z 24 H). lia.
  - split; [exact F2|]. rewrite E2, E, E1, Rdiv_1. now apply rnd32_Z.
Qed.

(** relative error of one rounding *)
Lemma rnd32_rel a : bpow radix2 (-126) <= Rabs a -> Rabs (rnd32 a - a) <= Rabs a * bpow radix2 (-24).
Proof.
  intros H. pose proof (relative_error_N_FLT radix2 (-149) 24 ltac:(reflexivity) (fun x => negb (Z.even x)) a H) as R.
  change (/ 2 * bpow radix2 (- (24) + 1)) with (/ 2 * bpow radix2 (- (24) + 1)) in R.
  replace (/ 2 * bpow radix2 (- (24) + 1)) with (bpow radix2 (-24)) in R.
  2:{ change (- (24) + 1)%Z with (1 + -24)%Z. rewrite bpow_plus. change (bpow radix2 1) with 2. lra. }
  rewrite Rmult_comm. exact R.
Qed.
Lemma rnd64_rel a : bpow radix2 (-1022) <= Rabs a -> Rabs (rnd64 a - a) <= Rabs a * bpow radix2 (-53).
Proof.
  intros H. pose proof (relative_error_N_FLT radix2 (-1074) 53 ltac:(reflexivity) (fun x => negb (Z.even x)) a H) as R.
  replace (/ 2 * bpow radix2 (- (53) + 1)) with (bpow radix2 (-53)) in R.
  2:{ change (- (53) + 1)%Z with (1 + -53)%Z. rewrite bpow_plus. change (bpow radix2 1) with 2. lra. }
  rewrite Rmult_comm. exact R.
Qed.

Section Mul1.
Context (p e : Z) (Hp : Prec_gt_0 p) (Hpe : Prec_lt_emax p e).
Lemma Bmult_1_l (one x : binary_float p e) : is_finite_strict one = true -> Bsign one = false -> B2R one = 1 ->
  Bmult mode_NE one x = x.
Proof.
  intros Ho Hs Hv. destruct (is_finite x) eqn:Fx.
  - pose proof (Bmult_correct p e Hp Hpe mode_NE one x) as C. rewrite Hv, Rmult_1_l in C.
    change (round_mode mode_NE) with ZnearestE in C.
    rewrite round_generic in C; [|typeclasses eauto|apply generic_format_B2R].
    rewrite Rlt_bool_true in C by apply abs_B2R_lt_emax. destruct C as (C1 & C2 & C3).
    rewrite Fx in C2. assert (Fo : is_finite one = true) by (destruct one; auto; discriminate).
    rewrite Fo in C2. cbn [andb] in C2.
    assert (Nn : is_nan (Bmult mode_NE one x) = false) by (destruct (Bmult mode_NE one x); auto; discriminate).
    specialize (C3 Nn). rewrite Hs in C3. cbn [xorb] in C3.
    apply B2R_Bsign_inj; [exact C2|exact Fx|exact C1|]. rewrite C3. now destruct (Bsign x).
  - destruct one as [| | |s m ex b]; try discriminate. cbn [Bsign] in Hs. subst s.
    destruct x as [|[]| |]; try discriminate; reflexivity.
Qed.
End Mul1.
Lemma gmul_1_l x : gmul (gq 1 1) x = x.
Proof.
  unfold gmul. apply Bmult_1_l; [vm_compute; reflexivity|vm_compute; reflexivity|].
  destruct (gq1_exact 1 ltac:(vm_compute; discriminate)) as [_ E]. exact E.
Qed.
Lemma fmul_1_l x : fmul (fq 1 1) x = x.
Proof.
  unfold fmul. apply Bmult_1_l; [vm_compute; reflexivity|vm_compute; reflexivity|].
  destruct (fq1_exact 1 ltac:(vm_compute; discriminate)) as [_ E]. exact E.
Qed.

(** ** distances between integer points *)
Lemma gsub_Z (a b : f32) x y : fin a -> fin b -> B2R a = IZR x -> B2R b = IZR y -> (Z.abs (x - y) <= 2 ^ 24)%Z ->
  fin (gsub a b) /\ B2R (gsub a b) = IZR (x - y).
Proof.
  intros Fa Fb Ea Eb H. destruct (gsub_fin a b Fa Fb) as [F V]; rewrite Ea, Eb, <- minus_IZR in *.
  - apply (IZR_bound32 _ 24 H). lia.
  - rewrite rnd32_Z in V by exact H. auto.
Qed.
Lemma gadd_Z (a b : f32) x y : fin a -> fin b -> B2R a = IZR x -> B2R b = IZR y -> (Z.abs (x + y) <= 2 ^ 24)%Z ->
  fin (gadd a b) /\ B2R (gadd a b) = IZR (x + y).
Proof.
  intros Fa Fb Ea Eb H. destruct (gadd_fin a b Fa Fb) as [F V]; rewrite Ea, Eb, <- plus_IZR in *.
  - apply (IZR_bound32 _ 24 H). lia.
  - rewrite rnd32_Z in V by exact H. auto.
Qed.
Lemma gmul_Z (a b : f32) x y : fin a -> fin b -> B2R a = IZR x -> B2R b = IZR y -> (Z.abs (x * y) <= 2 ^ 24)%Z ->
  fin (gmul a b) /\ B2R (gmul a b) = IZR (x * y).
Proof.
  intros Fa Fb Ea Eb H. destruct (gmul_fin a b Fa Fb) as [F V]; rewrite Ea, Eb, <- mult_IZR in *.
  - apply (IZR_bound32 _ 24 H). lia.
  - rewrite rnd32_Z in V by exact H. auto.
Qed.
Lemma gsqrt_fin x : fin x -> 0 <= B2R x -> fin (gsqrt x) /\ B2R (gsqrt x) = rnd32 (rnd64 (sqrt (B2R x))).
Proof.
  intros F H. unfold gsqrt. destruct (f_of_g_fin x F) as [F1 V1].
  destruct (fsqrt_fin _ F1) as [F2 V2]. { rewrite V1. exact H. } rewrite V1 in V2.
  destruct (g_of_f_fin _ F2) as [F3 V3].
  { rewrite V2, Rabs_pos_eq by (apply rnd64_pos, sqrt_pos).
    assert (B : B2R x <= bpow radix2 128).
    { apply Rlt_le. eapply Rle_lt_trans; [apply Rle_abs|apply abs_B2R_lt_emax]. }
    assert (S : sqrt (B2R x) <= bpow radix2 64).
    { rewrite <- (sqrt_square (bpow radix2 64)) by apply bpow_ge_0. apply sqrt_le_1_alt.
      rewrite <- bpow_plus. exact B. }
    apply Rle_trans with (bpow radix2 64); [|apply bpow_le; lia].
    apply Rle_trans with (rnd64 (bpow radix2 64)); [now apply rnd64_le|].
    assert (E : rnd64 (bpow radix2 64) = bpow radix2 64).
    { apply round_generic; [typeclasses eauto|]. exact (bpow_fmt 53 1024 64 ltac:(vm_compute; discriminate)). }
    rewrite E. apply Rle_refl. }
  split; [exact F3|]. now rewrite V3, V2.
Qed.
(** A point with small integer coordinates. *)
Definition at_Z (p : vec) (x y : Z) : Prop :=
  fin (vx p) /\ fin (vy p) /\ B2R (vx p) = IZR x /\ B2R (vy p) = IZR y /\ (Z.abs x <= 1024)%Z /\ (Z.abs y <= 1024)%Z.
Lemma vdst_Z a b x y x' y' : at_Z a x y -> at_Z b x' y' ->
  fin (vdst a b) /\ B2R (vdst a b) = rnd32 (rnd64 (sqrt (IZR ((x' - x) ^ 2 + (y' - y) ^ 2)))).
Proof.
  intros (Fax & Fay & Vax & Vay & Hx & Hy) (Fbx & Fby & Vbx & Vby & Hx' & Hy').
  assert (P24 : (2 ^ 24 = 16777216)%Z) by reflexivity.
  destruct (gsub_Z _ _ _ _ Fbx Fax Vbx Vax ltac:(lia)) as [F1 V1].
  destruct (gsub_Z _ _ _ _ Fby Fay Vby Vay ltac:(lia)) as [F2 V2].
  assert (D1 : (Z.abs (x' - x) <= 2048)%Z) by lia. assert (D2 : (Z.abs (y' - y) <= 2048)%Z) by lia.
  assert (Q1 : (0 <= (x' - x) * (x' - x) <= 4194304)%Z) by nia.
  assert (Q2 : (0 <= (y' - y) * (y' - y) <= 4194304)%Z) by nia.
  destruct (gmul_Z _ _ _ _ F1 F1 V1 V1 ltac:(lia)) as [F3 V3].
  destruct (gmul_Z _ _ _ _ F2 F2 V2 V2 ltac:(lia)) as [F4 V4].
  destruct (gadd_Z _ _ _ _ F3 F4 V3 V4 ltac:(lia)) as [F5 V5].
  destruct (gsqrt_fin _ F5) as [F6 V6]. { rewrite V5. apply IZR_le. lia. }
  split; [exact F6|]. unfold vdst. cbv zeta. rewrite V6, V5. do 4 f_equal. ring.
Qed.
Lemma near_Z a b x y x' y' : at_Z a x y -> at_Z b x' y' ->
  glt (vdst a b) (gq 3 1) = true <-> ((x' - x) ^ 2 + (y' - y) ^ 2 < 9)%Z.
Proof.
  intros Ha Hb. destruct (vdst_Z a b x y x' y' Ha Hb) as [F V].
  destruct (gq1_exact 3 ltac:(vm_compute; discriminate)) as [F3 V3].
  set (n := ((x' - x) ^ 2 + (y' - y) ^ 2)%Z) in *. assert (Hn : (0 <= n)%Z) by (unfold n; nia).
  rewrite glt_iff, !key_fin by assumption. rewrite V, V3. split.
  - intros (_ & _ & L). destruct (Z.lt_ge_cases n 9) as [?|G]; [assumption|exfalso].
    assert (S3 : 3 <= sqrt (IZR n)).
    { rewrite <- (sqrt_square 3) by lra. apply sqrt_le_1_alt. apply IZR_le in G. lra. }
    assert (3 <= rnd32 (rnd64 (sqrt (IZR n)))); [|lra].
    change 3 with (IZR 3). rewrite <- (rnd32_Z 3), <- (rnd64_Z 3) by (vm_compute; discriminate).
    now apply rnd32_le, rnd64_le.
  - intros L. split; [now apply fin_num|]. split; [now apply fin_num|].
    assert (S : sqrt (IZR n) <= B2R (fq 23 8)).
    { bval (fq 23 8). rewrite V0. apply Rle_trans with (sqrt (23 / 8 * (23 / 8))).
      - apply sqrt_le_1_alt. apply Rle_trans with 8; [apply IZR_le; lia|lra].
      - rewrite sqrt_square; lra. }
    assert (R1 : rnd64 (sqrt (IZR n)) <= B2R (gq 23 8)).
    { eapply Rle_trans; [apply rnd64_le_f, S|]. bval (fq 23 8). bval (gq 23 8). lra. }
    apply rnd32_le_f in R1. bval (gq 23 8). lra.
Qed.

(** a float64 between two finite ones *)
Lemma fle_between (a x b : f64) : fin a -> fin b -> fle a x = true -> fle x b = true -> fin x /\ B2R a <= B2R x <= B2R b.
Proof.
  intros Fa Fb H1 H2. apply fle_iff in H1 as (_ & N & L1). apply fle_iff in H2 as (_ & _ & L2).
  rewrite (key_fin _ _ a Fa) in L1. rewrite (key_fin _ _ b Fb) in L2.
  assert (F : fin x).
  { destruct x as [|[]| |]; try discriminate; try reflexivity; exfalso; cbn [key] in *.
    - pose proof (abs_B2R_lt_emax 53 1024 a). apply Rabs_lt_inv in H. lra.
    - pose proof (abs_B2R_lt_emax 53 1024 b). apply Rabs_lt_inv in H. lra. }
  rewrite (key_fin _ _ x F) in *. auto.
Qed.
Lemma gle_between (a x b : f32) : fin a -> fin b -> gle a x = true -> gle x b = true -> fin x /\ B2R a <= B2R x <= B2R b.
Proof.
  intros Fa Fb H1 H2. apply gle_iff in H1 as (_ & N & L1). apply gle_iff in H2 as (_ & _ & L2).
  rewrite (key_fin _ _ a Fa) in L1. rewrite (key_fin _ _ b Fb) in L2.
  assert (F : fin x).
  { destruct x as [|[]| |]; try discriminate; try reflexivity; exfalso; cbn [key] in *.
    - pose proof (abs_B2R_lt_emax 24 128 a). apply Rabs_lt_inv in H. lra.
    - pose proof (abs_B2R_lt_emax 24 128 b). apply Rabs_lt_inv in H. lra. }
  rewrite (key_fin _ _ x F) in *. auto.
Qed.

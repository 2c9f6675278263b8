(** Circular arcs: the angle loop and the number of segments. *)
From Coq Require Import Reals ZArith Lra Lia List Bool.
From Flocq Require Import Core BinarySingleNaN.
From Verif Require Import GoFloat Curves SpecCurves SpecSafety BaseLemmas FloatLemmas Float32Lemmas KeyLemmas BoundLemmas CurveProofs CurveStart.
Import ListNotations.
Open Scope R_scope.

Lemma rnd32_err a k : (-125 <= k <= 127)%Z -> Rabs a <= bpow radix2 k -> Rabs (rnd32 a - a) <= bpow radix2 (k - 24).
Proof.
  intros Hk H. eapply Rle_trans; [apply error_le_half_ulp; typeclasses eauto|].
  assert (U : ulp radix2 (SpecFloat.fexp 24 128) a <= bpow radix2 (k - 23)).
  { apply Rle_trans with (ulp radix2 (SpecFloat.fexp 24 128) (bpow radix2 k)).
    - apply ulp_le; [typeclasses eauto|typeclasses eauto|]. now rewrite (Rabs_pos_eq (bpow _ _)) by apply bpow_ge_0.
    - rewrite ulp_bpow. apply bpow_le. unfold SpecFloat.fexp, SpecFloat.emin. lia. }
  replace (k - 23)%Z with ((k - 24) + 1)%Z in U by lia. rewrite bpow_plus in U. change (bpow radix2 1) with 2 in U. lra.
Qed.

(** conversion to int of a float above -1 *)
Lemma int_of_g_ge x k : fin x -> -1 < B2R x <= IZR k -> (0 <= k < 2 ^ 62)%Z -> (0 <= int_of_g x <= k)%Z.
Proof.
  intros F B K. unfold int_of_g. destruct (f_of_g_fin x F) as [F' V]. set (y := f_of_g x) in *. clearbody y.
  assert (T : Btrunc y = Ztrunc (B2R y)).
  { apply eq_IZR. rewrite (Btrunc_correct 53 1024 pe53 y). rewrite round_FIX_IZR. reflexivity. }
  assert (R : (0 <= Btrunc y <= k)%Z).
  { rewrite T, V. split.
    - destruct (Rle_or_lt 0 (B2R x)) as [P|N].
      + rewrite Ztrunc_floor by exact P. apply Zfloor_lub. exact P.
      + rewrite Ztrunc_ceil by lra. apply Z.lt_succ_r, lt_IZR. change 0 with (IZR 0) in N. apply Rlt_le_trans with (B2R x + 1); [lra|].
        rewrite succ_IZR. pose proof (Zceil_ub (B2R x)). lra.
    - destruct (Rle_or_lt 0 (B2R x)) as [P|N].
      + rewrite Ztrunc_floor by exact P. apply le_IZR. eapply Rle_trans; [apply Zfloor_lb|]. apply B.
      + rewrite Ztrunc_ceil by lra. apply Z.le_trans with 0%Z; [|lia]. apply Zceil_glb. lra. }
  unfold int_of_f. destruct y as [s|s| |s m e b] eqn:Ey; try discriminate F'; cbn zeta;
    rewrite (proj2 (Z.leb_le _ _)), (proj2 (Z.leb_le _ _)); unfold min_int64, max_int64; cbn [andb]; try exact R; lia.
Qed.

(** ** The constants *)
Lemma gpi_val : fin gpi /\ B2R gpi = 13176795 / 4194304.
Proof. split; [vm_compute; reflexivity|]. bval gpi. rewrite V. lra. Qed.
Lemma fpi_val : fin fpi /\ 0 < B2R fpi <= 13176795 / 4194304.
Proof. split; [vm_compute; reflexivity|]. bval fpi. rewrite V. lra. Qed.
Lemma two_pi : gmul (gq 2 1) gpi = g2pi.
Proof. apply B2SF_eq. vm_compute. reflexivity. Qed.
Lemma g2pi_val : fin g2pi /\ B2R g2pi = 13176795 / 2097152.
Proof. split; [vm_compute; reflexivity|]. bval g2pi. rewrite V. lra. Qed.
Lemma eighth_val : fin (gq 1 8) /\ B2R (gq 1 8) = / 8.
Proof. split; [vm_compute; reflexivity|]. bval (gq 1 8). rewrite V. lra. Qed.
Notation PI32 := (13176795 / 4194304).
Lemma pow127 x : Rabs x <= bpow radix2 100 -> Rabs x <= bpow radix2 127.
Proof. intros H. eapply Rle_trans; [exact H|]. apply bpow_le. lia. Qed.
Lemma small127 x : -1267650600228229401496703205376 <= x <= 1267650600228229401496703205376 -> Rabs x <= bpow radix2 127.
Proof. intros H. apply pow127. change (bpow radix2 100) with 1267650600228229401496703205376. apply Rabs_le. lra. Qed.

Section WithLibm.
Context {M : libm}.

(** an angle *)
Definition angle (x : f32) : Prop := fin x /\ - PI32 <= B2R x <= PI32.
Lemma gatan2_angle y x : atan2_range -> num y -> num x -> angle (gatan2 y x).
Proof.
  intros H Ny Nx. unfold gatan2. destruct (H (f_of_g y) (f_of_g x)) as [L U].
  { apply (f_of_g_num y Ny). } { apply (f_of_g_num x Nx). }
  destruct fpi_val as [Fp [Pp Bp]]. destruct gpi_val as [Fg Vg].
  assert (Fn : fin (fneg fpi) /\ B2R (fneg fpi) = - B2R fpi).
  { split; [vm_compute; reflexivity|]. unfold fneg. apply B2R_Bopp. }
  destruct Fn as [Fn Vn]. destruct (fin_ge_le _ _ _ Fn Fp L U) as [F [B1 B2]]. rewrite Vn in B1.
  set (z := matan2 _ _) in *. clearbody z.
  destruct (g_of_f_fin z F ltac:(apply small127; lra)) as [F' V]. split; [exact F'|]. rewrite V, <- Vg. split.
  - replace (- B2R gpi) with (B2R (gneg gpi)) by (unfold gneg; rewrite B2R_Bopp; lra). apply rnd32_ge_f. unfold gneg. rewrite B2R_Bopp, Vg. lra.
  - apply rnd32_le_f. rewrite Vg. lra.
Qed.
Lemma vangle_angle a b : atan2_range -> vfin a -> vfin b -> angle (vangle_rv a b).
Proof. intros H [] []. apply gatan2_angle; auto; apply num_minus; assumption. Qed.

(** ** [for endAngle < startAngle] runs at most once *)
Lemma glt_B2R (x y : f32) : fin x -> fin y -> (glt x y = true <-> B2R x < B2R y).
Proof.
  intros Fx Fy. rewrite glt_iff, !key_fin by assumption. split; [tauto|]. intros. split; [now apply fin_num|]. split; [now apply fin_num|assumption].
Qed.
Lemma arc_turn start en : angle start -> angle en -> let e := gadd en g2pi in
  fin e /\ glt e start = false /\ B2R e <= B2R en + 2 * PI32 + / 1048576.
Proof.
  intros [Fs Bs] [Fe Be] e. destruct g2pi_val as [Fg Vg]. destruct gpi_val as [Fp Vp].
  destruct (gadd_fin en g2pi Fe Fg ltac:(apply small127; lra)) as [F V]. fold e in F, V. split; [exact F|]. split.
  - apply not_true_iff_false. intros H. apply glt_B2R in H; auto. rewrite V in H.
    assert (B2R gpi <= rnd32 (B2R en + B2R g2pi)) by (apply rnd32_ge_f; lra). lra.
  - rewrite V. assert (E : Rabs (rnd32 (B2R en + B2R g2pi) - (B2R en + B2R g2pi)) <= bpow radix2 (4 - 24)).
    { apply rnd32_err; [lia|]. change (bpow radix2 4) with 16. apply Rabs_le. lra. }
    change (bpow radix2 (4 - 24)) with (/ 1048576) in E. apply Rabs_le_inv in E.
    lra.
Qed.
Lemma arc_wrap_ok fuel start en : angle start -> angle en ->
  match arc_wrap fuel start en with
  | Ok e => fin e /\ B2R start <= B2R e <= B2R start + 2 * PI32 + / 1048576
  | Panic => False
  | Hang => fuel = 0%nat
  end.
Proof.
  intros Hs He. pose proof (arc_turn start en Hs He) as (F & L & U). destruct Hs as [Fs Bs], He as [Fe Be].
  unfold arc_wrap at 1. destruct fuel as [|fuel]; destruct (glt en start) eqn:E; auto.
  - split; [exact Fe|]. split; [|lra]. apply Rnot_lt_le. intros H. apply glt_B2R in H; auto. congruence.
  - fold arc_wrap. rewrite two_pi. assert (W : arc_wrap fuel start (gadd en g2pi) = Ok (gadd en g2pi)) by (destruct fuel; cbn [arc_wrap]; rewrite L; reflexivity).
    rewrite W. split; [exact F|]. apply glt_B2R in E; auto. split; [|lra]. apply Rnot_lt_le. intros H. apply glt_B2R in H; auto. congruence.
  - split; [exact Fe|]. split; [|lra]. apply Rnot_lt_le. intros H. apply glt_B2R in H; auto. congruence.
Qed.

(** ** A finite radius means finite points *)
Lemma gsqrt_num s : num (gsqrt s) -> nn (gsqrt s).
Proof.
  intros N. destruct s as [b|b| |b m e B] eqn:E.
  - destruct b; cbn; (split; [reflexivity|]; cbn; lra).
  - destruct b; [discriminate N|]. apply gsqrt_nn, nn_inf.
  - discriminate N.
  - destruct b.
    + exfalso. assert (F : fin s) by now subst. rewrite <- E in *.
      assert (S : B2R s < 0). { subst s. cbn [B2R]. apply F2R_lt_0. cbn. lia. }
      clear E. destruct (f_of_g_fin s F) as [F' V]. unfold gsqrt in N. destruct (f_of_g s) as [b'|b'| |b' m' e' B'] eqn:E'; try discriminate F'.
      * cbn [B2R] in V. lra.
      * destruct b'; [discriminate N|]. cbn [B2R] in V. pose proof (F2R_gt_0 radix2 (Float radix2 (Z.pos m') e') ltac:(cbn; lia)). cbn [cond_Zopp] in V. lra.
    + apply gsqrt_nn. apply nn_fin; [reflexivity|]. cbn [B2R]. apply F2R_ge_0. cbn. lia.
Qed.
Lemma vdst_num a b : num (vdst a b) -> nn (vdst a b).
Proof. unfold vdst. cbv zeta. apply gsqrt_num. Qed.
Lemma vlensq_inv a : fin (vlensq a) -> vfin a.
Proof. intros H. apply gadd_inv in H as [A B]. apply gmul_inv in A as [A _], B as [B _]. split; assumption. Qed.
Lemma centre_inv a b c : vfin (arc_centre_of a b c) -> vfin a /\ vfin b /\ vfin c.
Proof.
  intros [H _]. unfold arc_centre_of in H. cbv zeta in H. unfold vscl in H. cbn [vx] in H. apply gmul_inv in H as [H _].
  apply gadd_inv in H as [H C]. apply gadd_inv in H as [A B]. apply gmul_inv in A as [A _], B as [B _], C as [C _].
  split; [|split]; now apply vlensq_inv.
Qed.
Lemma radius_fin n a b c : (0 <= n <= 2 ^ 24)%Z -> radius_upto n a b c ->
  let r := vdst a (arc_centre_of a b c) in fin r /\ 0 <= B2R r <= IZR n /\ vfin a /\ vfin b /\ vfin c /\ vfin (arc_centre_of a b c).
Proof.
  intros Hn H r. unfold radius_upto in H. fold r in H. destruct (g_of_Z_exact n ltac:(lia)) as [Fn Vn].
  apply gle_iff in H as (N & _ & K). rewrite (key_fin 24 128 _ Fn), Vn in K.
  pose proof (vdst_num a (arc_centre_of a b c) N) as P. fold r in P.
  destruct (nn_cases 24 128 r P) as [E|[F Pos]].
  - exfalso. rewrite E in K. cbn [key] in K. assert (IZR n <= bpow radix2 24) by (apply (IZR_le n (2 ^ 24)); lia).
    pose proof (bpow_lt radix2 24 128 ltac:(lia)). lra.
  - rewrite (key_fin 24 128 r F) in K. split; [exact F|]. split; [lra|]. destruct (vdst_inv _ _ F) as (_ & C & _).
    destruct (centre_inv _ _ _ C) as (A & B & D). auto.
Qed.

(** ** The number of segments *)
Lemma arc_facts fuel a b c arc : atan2_range -> radius_upto 4194304 a b c -> new_cirarc fuel a b c = Ok arc ->
  fin (arc_start arc) /\ fin (arc_total arc) /\ - (3 / 2097152) <= B2R (arc_total arc) <= 7 /\
  fin (arc_r arc) /\ 0 <= B2R (arc_r arc) <= 4194304 /\ vfin (arc_centre arc).
Proof.
  intros HA HR H. destruct (radius_fin 4194304 a b c ltac:(lia) HR) as (Fr & Br & Va & Vb & Vc & VC).
  unfold new_cirarc in H. cbv zeta in H. set (ctr := arc_centre_of a b c) in *. set (r := vdst a ctr) in *.
  pose proof (vangle_angle a ctr HA Va VC) as As. pose proof (vangle_angle c ctr HA Vc VC) as Ac.
  set (st := vangle_rv a ctr) in *. pose proof (arc_wrap_ok fuel st (vangle_rv c ctr) As Ac) as W.
  apply bind_ok in H as (e & He & H). rewrite He in W. destruct W as [Fe Be]. destruct As as [Fs Bs].
  apply Ok_inj in H. subst arc. cbn [arc_start arc_total arc_r arc_centre].
  destruct (gsub_fin e st Fe Fs ltac:(apply small127; lra)) as [Ft Vt]. destruct g2pi_val as [Fg Vg].
  assert (Et : Rabs (rnd32 (B2R e - B2R st) - (B2R e - B2R st)) <= bpow radix2 (3 - 24)).
  { apply rnd32_err; [lia|]. change (bpow radix2 3) with 8. apply Rabs_le. lra. }
  change (bpow radix2 (3 - 24)) with (/ 2097152) in Et. apply Rabs_le_inv in Et.
  assert (Pt : 0 <= rnd32 (B2R e - B2R st)) by (rewrite <- rnd32_0; apply rnd32_le; lra).
  split; [exact Fs|]. destruct (glt (vdot _ _) g0).
  - destruct (gsub_fin g2pi (gsub e st) Fg Ft ltac:(rewrite Vt; apply small127; lra)) as [F V]. split; [exact F|]. split; [|auto].
    rewrite V, Vt. set (t := rnd32 (B2R e - B2R st)) in *.
    assert (Q : fin (gq (-3) 2097152) /\ B2R (gq (-3) 2097152) = - (3 / 2097152)).
    { split; [vm_compute; reflexivity|]. bval (gq (-3) 2097152). rewrite V0, opp_IZR. lra. }
    destruct Q as [_ Q]. split.
    + rewrite <- Q. apply rnd32_ge_f. rewrite Q. lra.
    + destruct (gq1_exact 7 ltac:(lia)) as [_ V7]. rewrite <- V7. apply rnd32_le_f. rewrite V7. lra.
  - split; [exact Ft|]. split; [|auto]. rewrite Vt. lra.
Qed.
Lemma arc_no_panic fuel a b c : atan2_range -> radius_upto 4194304 a b c -> approximate_arc fuel a b c (gq 1 8) <> Panic.
Proof.
  intros HA HR. unfold approximate_arc. destruct (new_cirarc fuel a b c) as [arc| |] eqn:E; cbn [bind]; [|intros _|discriminate].
  - destruct (arc_unstable arc); [discriminate|]. cbv zeta.
    destruct (arc_facts fuel a b c arc HA HR E) as (_ & Ft & Bt & Fr & Br & _).
    set (t := arc_total arc) in *. set (r := arc_r arc) in *.
    assert (P : - 6 <= B2R r * B2R t <= 33554432) by nra.
    destruct (gmul_fin r t Fr Ft ltac:(apply small127; lra)) as [F1 V1].
    assert (P1 : - 6 <= B2R (gmul r t) <= 33554432).
    { rewrite V1. destruct (gq1_exact (-6) ltac:(lia)) as [_ V6].
      assert (X : exists x : f32, B2R x = 33554432).
      { exists (g_of_Z 33554432). bval (g_of_Z 33554432). rewrite V. lra. }
      destruct X as [x Vx]. split.
      - rewrite <- V6. apply rnd32_ge_f. rewrite V6. lra.
      - rewrite <- Vx. apply rnd32_le_f. rewrite Vx. lra. }
    destruct eighth_val as [F8 V8].
    destruct (gmul_fin (gmul r t) (gq 1 8) F1 F8 ltac:(rewrite V8; apply small127; lra)) as [F2 V2].
    assert (P2 : -1 < B2R (gmul (gmul r t) (gq 1 8)) <= IZR 4194304).
    { rewrite V2, V8. assert (X : B2R (gq (-3) 4) = - (3 / 4)) by (bval (gq (-3) 4); rewrite V, opp_IZR; lra).
      destruct (gq1_exact 4194304 ltac:(lia)) as [_ V4]. split.
      - apply Rlt_le_trans with (B2R (gq (-3) 4)); [lra|]. apply rnd32_ge_f. rewrite X. lra.
      - rewrite <- V4. apply rnd32_le_f. rewrite V4. lra. }
    pose proof (int_of_g_ge _ 4194304 F2 P2 ltac:(lia)) as I. set (n := int_of_g _) in *. unfold make_ok.
    rewrite (proj2 (Z.leb_le 0 n)), (proj2 (Z.leb_le (n * 16) (2 ^ 48))) by lia. discriminate.
  - exfalso. unfold new_cirarc in E. cbv zeta in E.
    destruct (radius_fin 4194304 a b c ltac:(lia) HR) as (Fr & Br & Va & Vb & Vc & VC).
    pose proof (arc_wrap_ok fuel _ _ (vangle_angle a _ HA Va VC) (vangle_angle c _ HA Vc VC)) as W.
    destruct (arc_wrap _ _ _); cbn [bind] in E; try discriminate E. exact W.
Qed.
(** one unit of fuel is enough *)
Lemma arc_returns fuel a b c : atan2_range -> radius_upto 4194304 a b c -> exists ls, approximate_arc (S fuel) a b c (gq 1 8) = Ok ls.
Proof.
  intros HA HR. pose proof (arc_no_panic (S fuel) a b c HA HR) as NP.
  destruct (approximate_arc (S fuel) a b c (gq 1 8)) as [ls| |] eqn:E; [eauto|congruence|]. exfalso.
  destruct (radius_fin 4194304 a b c ltac:(lia) HR) as (Fr & Br & Va & Vb & Vc & VC).
  pose proof (arc_wrap_ok (S fuel) _ _ (vangle_angle a _ HA Va VC) (vangle_angle c _ HA Vc VC)) as W.
  unfold approximate_arc, new_cirarc in E. cbv zeta in E. destruct (arc_wrap _ _ _); cbn [bind] in E; [|contradiction|discriminate W].
  destruct (arc_unstable _); [discriminate E|]. destruct (make_ok _ _); discriminate E.
Qed.
(** an arc that is drawn has a finite radius *)
Lemma int_of_g_fin x : (0 <= int_of_g x)%Z -> fin x.
Proof. unfold int_of_g. destruct x as [s|s| |s m e H]; intros K; try reflexivity; exfalso; revert K; [destruct s|]; vm_compute; intros K; apply K; reflexivity. Qed.
Lemma arc_finite fuel a b c ls : is_straight a b c = false -> approximate_arc fuel a b c (gq 1 8) = Ok ls -> fin (vdst a (arc_centre_of a b c)).
Proof.
  intros HS H. unfold approximate_arc in H. apply bind_ok in H as (arc & E & H).
  assert (U : arc_unstable arc = false /\ arc_r arc = vdst a (arc_centre_of a b c)).
  { unfold new_cirarc in E. cbv zeta in E. apply bind_ok in E as (en & _ & E). apply Ok_inj in E. subst arc. cbn [arc_unstable arc_r]. split; [exact HS|reflexivity]. }
  destruct U as [U R]. rewrite U in H. cbv zeta in H. destruct (make_ok _ _) eqn:MK; [|discriminate H].
  unfold make_ok in MK. apply andb_true_iff in MK as [MK _]. apply Z.leb_le, int_of_g_fin in MK.
  apply gmul_inv in MK as [MK _]. apply gmul_inv in MK as [MK _]. now rewrite R in MK.
Qed.
End WithLibm.

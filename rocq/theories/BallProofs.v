(** Where a cut line ends, and where the points of a cut curve are. *)
From Coq Require Import Reals Lra ZArith Lia Bool.
From Flocq Require Import Core BinarySingleNaN.
From Verif Require Import GoBase GoFloat Curves SpecCurves SpecArc SpecLength SpecBall BaseLemmas FloatLemmas Float32Lemmas KeyLemmas BoundLemmas CurveProofs CurveBounds CurveStart CurveLookup BezierTerm LengthProofs.
From Coq Require Import List.
Import ListNotations.
Open Scope R_scope.

Section WithLibm.
Context {M : libm}.
Section Scale.
Context (m : Z) (Hm : (0 <= m <= 30)%Z).
Lemma cut_end l d : vbnd m (ln_p1 l) -> vbnd m (ln_p2 l) -> bpow radix2 (-20) <= B2R (ln_length l) -> B2R (ln_length l) <= 1.01 * big m ->
  fin d -> Rabs (B2R d) <= 1.1 * big m -> B2R d <= B2R (ln_length l) -> let s := 1 - B2R d / B2R (ln_length l) in 0 <= s /\
  Rabs (px (ln_p2 (cut l d)) - ((1 - s) * px (ln_p1 l) + s * px (ln_p2 l))) <= 20 * zed m /\
  Rabs (py (ln_p2 (cut l d)) - ((1 - s) * py (ln_p1 l) + s * py (ln_p2 l))) <= 20 * zed m /\
  Rabs (px (ln_p2 l) - px (ln_p1 l)) <= 1.0001 * B2R (ln_length l) /\ Rabs (py (ln_p2 l) - py (ln_p1 l)) <= 1.0001 * B2R (ln_length l).
Proof.
  intros V1 V2 Llo Lhi Fd Bd DL s. pose proof V1 as [Xa Ya]. pose proof V2 as [Xb Yb]. pose proof (big_1 m Hm) as P1. pose proof (zed_pos m) as PZ. pose proof (zed_big m Hm) as ZB.
  destruct (vdst_acc _ _ m ltac:(lia) V1 V2) as (_ & _ & EG). fold (ln_length l) in EG.
  set (x := gsub (vx (ln_p2 l)) (vx (ln_p1 l))). set (y := gsub (vy (ln_p2 l)) (vy (ln_p1 l))).
  assert (B60 : 16 * big m <= bpow radix2 60). { pose proof (big_40 m Hm) as B4. apply Rle_trans with (16 * bpow radix2 40); [lra|]. change 16 with (bpow radix2 4). rewrite <- bpow_plus. apply bpow_le. lia. }
  assert (DIF : forall a b, bnd m a -> bnd m b -> fin (gsub b a) /\ Rabs (B2R (gsub b a)) <= bpow radix2 60 /\ B2R (gsub b a) = rnd32 (B2R b - B2R a)).
  { intros a b [Fa Ba] [Fb Bb]. fold (big m) in Ba, Bb. apply Rabs_le_inv in Ba, Bb.
    destruct (gsub_fin b a Fb Fa) as [Fx Vx]; [apply (below_127 m Hm _ 2); [lra|]; apply Rabs_le; lra|]. split; [exact Fx|]. split; [|exact Vx]. rewrite Vx. apply rnd32_bound; [lia|]. apply Rabs_le. lra. }
  destruct (DIF _ _ Xa Xb) as (Fx & Bx & Vx). destruct (DIF _ _ Ya Yb) as (Fy & By & Vy). fold x in Fx, Bx, Vx. fold y in Fy, By, Vy.
  destruct (hyp_acc x y Fx Fy Bx By) as (FL & PL & EL). change (hyp x y) with (ln_length l) in *.
  set (L := B2R (ln_length l)) in *. set (N := nrm (B2R x) (B2R y)) in *. pose proof (nrm_pos (B2R x) (B2R y)) as PN. fold N in PN.
  assert (P20 : 0 < bpow radix2 (-20)) by apply bpow_gt_0.
  assert (T70 : bpow radix2 (-69) <= L * bpow radix2 (-49)). { change (-69)%Z with (-20 + -49)%Z. rewrite bpow_plus. apply Rmult_le_compat_r; [apply bpow_ge_0|exact Llo]. }
  assert (T69 : bpow radix2 (-70) <= bpow radix2 (-69)) by (apply bpow_le; lia).
  assert (U50 : bpow radix2 (-49) <= unit24 * / 1000). { apply Rle_trans with (bpow radix2 (-24 + -10)); [apply bpow_le; lia|]. rewrite bpow_plus. fold unit24. change (bpow radix2 (-10)) with (/ 1024). rewrite unit24_val. lra. }
  assert (T70' : bpow radix2 (-69) <= L * unit24 * / 1000). { eapply Rle_trans; [exact T70|]. rewrite Rmult_assoc. apply Rmult_le_compat_l; lra. }
  assert (U22 : bpow radix2 (-22) = 4 * unit24) by (unfold unit24; change 4 with (bpow radix2 2); rewrite <- bpow_plus; reflexivity). rewrite U22 in EL.
  assert (U21 : bpow radix2 (-21) = 8 * unit24) by (unfold unit24; change 8 with (bpow radix2 3); rewrite <- bpow_plus; reflexivity). rewrite U21 in EG.
  pose proof unit24_val as UV. assert (PU : 0 < unit24) by (rewrite UV; lra).
  assert (NL : N <= 1.00001 * L). { apply Rabs_le_inv in EL. rewrite UV in *. lra. }
  set (G := geo (ln_p1 l) (ln_p2 l)) in *. assert (GL : G <= 1.00001 * L). { apply Rabs_le_inv in EG. rewrite UV in *. lra. }
  destruct (g_of_f_fin d Fd) as [Fg Vg]; [apply (below_127 m Hm _ 1.1); [lra|exact Bd]|].
  pose proof (r32 m Hm _ 1.1 ltac:(lra) Bd) as Eg. rewrite <- Vg in Eg. apply Rabs_le_inv in Eg, Bd.
  set (u := gsub (ln_length l) (g_of_f d)).
  assert (Q1 : Rabs (L - B2R (g_of_f d)) <= 2.12 * big m) by (apply Rabs_le; lra).
  destruct (gsub_fin (ln_length l) (g_of_f d) FL Fg) as [Fu Vu]; [apply (below_127 m Hm _ 2.12); [lra|exact Q1]|]. fold u in Fu, Vu. fold L in Vu.
  pose proof (r32 m Hm _ 2.12 ltac:(lra) Q1) as Eu. rewrite <- Vu in Eu. apply Rabs_le_inv in Eu, Q1.
  assert (Bu : Rabs (B2R u) <= 2.121 * big m) by (apply Rabs_le; lra).
  assert (LP : 0 < L) by lra.
  assert (B127 : Rabs (B2R u / L) <= bpow radix2 127).
  { unfold Rdiv. rewrite Rabs_mult. apply Rle_trans with ((16 * bpow radix2 40) * bpow radix2 20).
    - apply Rmult_le_compat; auto using Rabs_pos; [pose proof (big_40 m Hm); lra|]. rewrite Rabs_pos_eq by (left; now apply Rinv_0_lt_compat).
      rewrite <- (Rinv_inv (bpow radix2 20)), <- (bpow_opp radix2 20). apply Rinv_le; [exact P20|exact Llo].
    - change 16 with (bpow radix2 4). rewrite <- !bpow_plus. apply bpow_le. lia. }
  destruct (gdiv_fin u (ln_length l) Fu FL ltac:(fold L; lra) B127) as [Ft Vt]. set (t := gdiv u (ln_length l)) in *. fold L in Vt.
  assert (ET : Rabs (B2R t * L - B2R u) <= 2.14 * zed m).
  { assert (E : Rabs (B2R t - B2R u / L) <= Rabs (B2R u / L) * unit24 + bpow radix2 (-150)) by (rewrite Vt; apply rnd32_errR; lra).
    apply (Rmult_le_compat_r L) in E; [|lra]. rewrite <- (Rabs_pos_eq L) in E at 2 by lra. rewrite <- Rabs_mult in E.
    replace ((B2R t - B2R u / L) * L) with (B2R t * L - B2R u) in E by (field; lra).
    eapply Rle_trans; [exact E|].
    rewrite Rmult_plus_distr_r.
    replace (Rabs (B2R u / L) * unit24 * L) with (Rabs (B2R u) * unit24).
    2: { unfold Rdiv. rewrite Rabs_mult, (Rabs_pos_eq (/ L)) by (left; now apply Rinv_0_lt_compat). field. lra. }
    assert (Rabs (B2R u) * unit24 <= 2.121 * zed m). { unfold zed. rewrite <- Rmult_assoc. apply Rmult_le_compat_r; lra. }
    assert (bpow radix2 (-150) * L <= zed m * / 1000).
    { apply Rle_trans with (bpow radix2 (-150) * bpow radix2 41).
      - apply Rmult_le_compat_l; [apply bpow_ge_0|]. pose proof (big_40 m Hm). assert (bpow radix2 41 = bpow radix2 40 + bpow radix2 40) by (apply (bpow_S 40)). lra.
      - rewrite <- bpow_plus. apply tiny_zed; [exact Hm|lia]. }
    lra. }
  assert (TL : Rabs (B2R t) * L <= 2.122 * big m).
  { rewrite <- (Rabs_pos_eq L) by lra. rewrite <- Rabs_mult. replace (B2R t * L) with ((B2R t * L - B2R u) + B2R u) by ring. eapply Rle_trans; [apply Rabs_triang|]. lra. }
  assert (Pt : 0 <= Rabs (B2R t)) by apply Rabs_pos.
  assert (TN : Rabs (B2R t) * N <= 2.13 * big m).
  { apply Rle_trans with (Rabs (B2R t) * (1.00001 * L)); [apply Rmult_le_compat_l; lra|]. lra. }
  assert (SL : s * L = L - B2R d) by (unfold s; field; lra).
  assert (SP : 0 <= s). { apply Rmult_le_reg_r with L; [exact LP|]. lra. }
  assert (TS : Rabs (B2R t - s) * L <= 5.5 * zed m).
  { rewrite <- (Rabs_pos_eq L) at 1 by lra. rewrite <- Rabs_mult, Rmult_minus_distr_r, SL. apply Rabs_le_inv in ET. apply Rabs_le. lra. }
  assert (SB : s <= bpow radix2 70).
  { apply Rmult_le_reg_r with L; [exact LP|]. rewrite SL. apply Rle_trans with (4 * bpow radix2 40); [pose proof (big_40 m Hm); lra|]. change 4 with (bpow radix2 2). rewrite <- bpow_plus.
    apply Rle_trans with (bpow radix2 70 * bpow radix2 (-20)); [rewrite <- bpow_plus; apply bpow_le; lia|]. apply Rmult_le_compat_l; [apply bpow_ge_0|exact Llo]. }
  assert (S150 : s * bpow radix2 (-150) <= zed m * / 1000).
  { apply Rle_trans with (bpow radix2 70 * bpow radix2 (-150)); [apply Rmult_le_compat_r; [apply bpow_ge_0|exact SB]|]. rewrite <- bpow_plus. apply tiny_zed; [exact Hm|lia]. }
  (* one coordinate *)
  assert (CO : forall a b, bnd m a -> bnd m b -> Rabs (B2R (gsub b a)) <= N -> Rabs (B2R b - B2R a) <= G ->
    Rabs (B2R (gadd (gmul (gsub b a) t) a) - ((1 - s) * B2R a + s * B2R b)) <= 20 * zed m /\ Rabs (B2R b - B2R a) <= 1.0001 * L).
  { intros a b A B HN HG. destruct (DIF a b A B) as (Fz & _ & Vz). set (z := gsub b a) in *.
    assert (BZ : Rabs (B2R z * B2R t) <= 2.14 * big m). { rewrite Rabs_mult, Rmult_comm. apply Rle_trans with (Rabs (B2R t) * N); [|lra]. apply Rmult_le_compat_l; [exact Pt|exact HN]. }
    destruct (cut_coord m Hm _ _ t A B Ft BZ) as (_ & _ & Fq & Bq & Fe & _ & Ee). fold z in Fq, Bq, Fe, Ee. set (q := gadd (gmul z t) a) in *.
    destruct A as [Fa Ba], B as [Fb Bb]. fold (big m) in Ba, Bb.
    assert (Q2 : Rabs (B2R q - B2R a) <= 4.2 * big m) by (apply Rabs_le_inv in Bq, Ba; apply Rabs_le; lra).
    destruct (gsub_fin q a Fq Fa) as [_ Ve]; [apply (below_127 m Hm _ 4.2); [lra|exact Q2]|]. pose proof (r32 m Hm _ 4.2 ltac:(lra) Q2) as E3. rewrite <- Ve in E3.
    assert (XS : Rabs (B2R z * B2R t - B2R z * s) <= 5.6 * zed m).
    { rewrite <- Rmult_minus_distr_l, Rabs_mult. pose proof (Rabs_pos (B2R t - s)) as R0. apply Rle_trans with (1.00001 * L * Rabs (B2R t - s)); [apply Rmult_le_compat_r; lra|]. lra. }
    assert (SG : s * Rabs (B2R b - B2R a) <= 1.00001 * (L - B2R d)).
    { apply Rle_trans with (s * (1.00001 * L)); [apply Rmult_le_compat_l; lra|]. rewrite <- SL. lra. }
    assert (ZS : Rabs (B2R z * s - s * (B2R b - B2R a)) <= 2.2 * zed m).
    { rewrite (Rmult_comm (B2R z)), <- Rmult_minus_distr_l, Rabs_mult, (Rabs_pos_eq s) by exact SP. rewrite Vz. pose proof (rnd32_errR (B2R b - B2R a) _ (Rle_refl _)) as RE. fold unit24 in RE.
      apply (Rmult_le_compat_l s) in RE; [|exact SP]. rewrite Rmult_plus_distr_l in RE. rewrite <- (Rmult_assoc s (Rabs _)) in RE.
      assert (s * Rabs (B2R b - B2R a) * unit24 <= 2.12 * big m * unit24) by (apply Rmult_le_compat_r; lra). unfold zed in *. lra. }
    split; [|lra]. apply Rabs_le_inv in Ee, E3, XS, ZS. apply Rabs_le. lra. }
  assert (GX : forall a b, Rabs a <= nrm a b /\ Rabs b <= nrm a b) by (intros; split; [apply nrm_ge_l|apply nrm_ge_r]).
  assert (GG : Rabs (px (ln_p2 l) - px (ln_p1 l)) <= G /\ Rabs (py (ln_p2 l) - py (ln_p1 l)) <= G).
  { unfold G, geo. rewrite (Rabs_minus_sym (px _)), (Rabs_minus_sym (py _)). unfold px, py. split; rewrite Rabs_minus_sym; apply GX. }
  destruct (CO _ _ Xa Xb (proj1 (GX _ _)) (proj1 GG)) as [CX SX]. destruct (CO _ _ Ya Yb (proj2 (GX _ _)) (proj2 GG)) as [CY SY].
  split; [exact SP|]. split; [exact CX|]. split; [exact CY|]. split; [exact SX|exact SY].
Qed.

(** What the trimming loop leaves: the first lines, of which it may cut the last. *)
Lemma trim_shape rls : Forall (lin (vbnd m)) rls -> Forall long_enough rls -> Forall sound rls -> forall d,
  meas rls <= 1.01 * big m -> fin d -> Rabs (B2R d) <= 1.1 * big m -> trim_lines rls d = [] \/
  exists pre l r l', rls = pre ++ l :: r /\ trim_lines rls d = l' :: r /\ (l' = l \/
    exists e, l' = cut l e /\ bpow radix2 (-20) <= B2R (ln_length l) <= 1.01 * big m /\ fin e /\ Rabs (B2R e) <= 1.1 * big m /\ B2R e <= B2R (ln_length l) /\
    (- bpow radix2 (-13) <= B2R e \/ e = d /\ pre = [])).
Proof.
  intros F. pose proof (big_1 m Hm) as P1. pose proof (zed_pos m) as PZ. pose proof (zed_big m Hm) as ZB. pose proof (bpow_gt_0 radix2 (-13)) as P13.
  induction F as [|l rls Hl F IH]; intros LE SO d SB Fd Bd; [left; reflexivity|].
  inversion LE as [|? ? Ll LE']; subst. inversion SO as [|? ? Sl SO']; subst. destruct Sl as [Fl Pl]. specialize (IH LE' SO').
  cbn [trim_lines]. cbn [meas] in *. pose proof (meas_pos rls SO') as PM.
  destruct (f_of_g_fin (ln_length l) Fl) as [Fl6 Vl]. destruct eps13 as [Fe Ve].
  assert (B1023 : forall a, Rabs a <= 4 * big m -> Rabs a <= bpow radix2 1023).
  { intros a H. apply Rle_trans with (bpow radix2 127); [apply (below_127 m Hm _ 4); [lra|exact H]|apply bpow_le; lia]. }
  pose proof Bd as Bd'. apply Rabs_le_inv in Bd'.
  destruct (fadd_fin d (fq 1 10000) Fd Fe) as [Fa Va]; [apply B1023; apply Rabs_le; lra|].
  assert (DA : B2R d <= rnd64 (B2R d + B2R (fq 1 10000))) by (rewrite <- (rnd64_id d) at 1; apply rnd64_le; lra).
  destruct (fgt (f_of_g (ln_length l)) (fadd d (fq 1 10000))) eqn:G;
    rewrite (fgt_bool _ _ Fl6 Fa) in G; destruct (Rlt_bool_spec (B2R (fadd d (fq 1 10000))) (B2R (f_of_g (ln_length l)))) as [G'|G']; try discriminate G;
    rewrite Va, Vl in G'; clear G.
  - right. exists [], l, rls. eexists. split; [reflexivity|]. split; [reflexivity|]. destruct (vec_eqb (ln_p1 l) (ln_p2 l)) eqn:EQ; [left; reflexivity|].
    right. exists d. destruct Ll as [Ll|Ll]; [congruence|]. destruct q20_val as [F20 V20]. apply gle_iff in Ll as (_ & _ & Ll). rewrite (key_fin 24 128 _ F20), (key_fin 24 128 _ Fl), V20 in Ll.
    split; [reflexivity|]. split; [lra|]. split; [exact Fd|]. split; [exact Bd|]. split; [lra|]. right. split; reflexivity.
  - assert (BM : bpow radix2 (m + 2) = 4 * big m) by (unfold big; rewrite bpow_plus; change (bpow radix2 2) with 4; ring).
    assert (E21 : bpow radix2 (m + 2 - 53) <= 0.000001).
    { apply Rle_trans with (bpow radix2 (-21)); [apply bpow_le; lia|]. change (bpow radix2 (-21)) with (/ 2097152). lra. }
    assert (V13 : 0.000122 <= bpow radix2 (-13)) by (change (bpow radix2 (-13)) with (/ 8192); lra).
    assert (R1 : Rabs (rnd64 (B2R d + B2R (fq 1 10000)) - (B2R d + B2R (fq 1 10000))) <= bpow radix2 (m + 2 - 53)).
    { apply rnd64_err; [lia|]. rewrite BM. apply Rabs_le. lra. }
    assert (R2 : Rabs (rnd64 (B2R d - B2R (ln_length l)) - (B2R d - B2R (ln_length l))) <= bpow radix2 (m + 2 - 53)).
    { apply rnd64_err; [lia|]. rewrite BM. apply Rabs_le. lra. }
    destruct (fsub_fin d (f_of_g (ln_length l)) Fd Fl6) as [Fs Vs]; [rewrite Vl; apply B1023; apply Rabs_le; lra|]. rewrite Vl in Vs. rewrite <- Vs in R2.
    assert (R3 : B2R (fsub d (f_of_g (ln_length l))) <= B2R d) by (rewrite Vs, <- (rnd64_id d) at 1; rewrite (rnd64_id d); rewrite <- (rnd64_id d) at 2; apply rnd64_le; lra).
    apply Rabs_le_inv in R1, R2. set (d' := fsub d (f_of_g (ln_length l))) in *.
    assert (LOW : - bpow radix2 (-13) <= B2R d') by lra.
    assert (S13 : bpow radix2 (-13) <= / 8000) by (change (bpow radix2 (-13)) with (/ 8192); lra).
    destruct (IH d' ltac:(lra) Fs ltac:(apply Rabs_le; lra)) as [J|(pre & l0 & r & l' & E & T & OR)]; [left; exact J|].
    right. exists (l :: pre), l0, r, l'. split; [rewrite E; reflexivity|]. split; [exact T|]. destruct OR as [->|(e & EC & BL & Fe' & Be & De & OR)]; [left; reflexivity|].
    right. exists e. split; [exact EC|]. split; [exact BL|]. split; [exact Fe'|]. split; [exact Be|]. split; [exact De|]. left. destruct OR as [OR|[-> _]]; assumption.
Qed.
(** rounding on the way along a line *)
Lemma lerp_near a b t : bnd m a -> bnd m b -> fin t -> 0 <= B2R t <= 1 ->
  Rabs (B2R (gadd (gmul (gsub b a) t) a) - ((1 - B2R t) * B2R a + B2R t * B2R b)) <= 8 * zed m.
Proof.
  intros [Fa Ba] [Fb Bb] Ft Bt. fold (big m) in Ba, Bb. pose proof (big_1 m Hm) as P1. pose proof (zed_pos m) as PZ. pose proof (zed_big m Hm) as ZB.
  assert (Q1 : Rabs (B2R b - B2R a) <= 2 * big m) by (apply Rabs_le_inv in Ba, Bb; apply Rabs_le; lra).
  destruct (gsub_fin b a Fb Fa) as [Fx Vx]; [apply (below_127 m Hm _ 2); [lra|exact Q1]|]. pose proof (r32 m Hm _ 2 ltac:(lra) Q1) as E1. rewrite <- Vx in E1. set (x := gsub b a) in *.
  assert (TT : forall z, Rabs (B2R t * z) <= Rabs z). { intros z. rewrite Rabs_mult, (Rabs_pos_eq (B2R t)) by lra. pose proof (Rabs_pos z). rewrite <- (Rmult_1_l (Rabs z)) at 2. apply Rmult_le_compat_r; lra. }
  assert (Q2 : Rabs (B2R x * B2R t) <= 2.01 * big m). { rewrite Rmult_comm. apply Rle_trans with (1 := TT _). apply Rabs_le_inv in E1, Q1. apply Rabs_le. lra. }
  destruct (gmul_fin x t Fx Ft) as [Fs Vs]; [apply (below_127 m Hm _ 2.01); [lra|exact Q2]|]. pose proof (r32 m Hm _ 2.01 ltac:(lra) Q2) as E2. rewrite <- Vs in E2.
  assert (Q3 : Rabs (B2R (gmul x t) + B2R a) <= 3.1 * big m) by (apply Rabs_le_inv in E2, Q2, Ba; apply Rabs_le; lra).
  destruct (gadd_fin (gmul x t) a Fs Fa) as [Fq Vq]; [apply (below_127 m Hm _ 3.1); [lra|exact Q3]|]. pose proof (r32 m Hm _ 3.1 ltac:(lra) Q3) as E3. rewrite <- Vq in E3.
  pose proof (Rle_trans _ _ _ (TT (B2R x - (B2R b - B2R a))) E1) as E4. apply Rabs_le_inv in E2, E3, E4. apply Rabs_le. lra.
Qed.
End Scale.


Lemma clamp_fraction t : fin t -> B2R (clampF32 t g0 (gq 1 1)) = fraction (B2R t).
Proof.
  intros Ft. assert (Nt : num t) by now apply fin_num. destruct one_val as [F1 V1]. unfold fraction. pose proof (key_fin 24 128 t Ft) as KT.
  destruct (Rle_lt_dec (B2R t) 0) as [L|L].
  - rewrite clamp_low, clamp_0; [rewrite Rmin_right, Rmax_left by lra; reflexivity|]. apply gle_iff. split; [exact Nt|]. split; [reflexivity|]. rewrite KT. exact L.
  - destruct (Rle_lt_dec 1 (B2R t)) as [L1|L1].
    + rewrite clamp_high, clamp_one; [rewrite V1, Rmin_left, Rmax_right by lra; reflexivity|]. apply gge_iff. split; [exact Nt|]. split; [now apply fin_num|]. rewrite (key_fin 24 128 _ F1), V1, KT. exact L1.
    + rewrite clamp_mid; [rewrite Rmin_right, Rmax_right by lra; reflexivity| |].
      * apply glt_iff. split; [reflexivity|]. split; [exact Nt|]. rewrite KT. exact L.
      * apply glt_iff. split; [exact Nt|]. split; [now apply fin_num|]. rewrite (key_fin 24 128 _ F1), V1, KT. exact L1.
Qed.
Lemma fraction_range t : 0 <= fraction t <= 1.
Proof. unfold fraction. split; [apply Rmax_l|]. apply Rmax_lub; [lra|apply Rmin_l]. Qed.
(** The sections are the sums of the first lines' lengths. *)
Lemma section_sum ls : forall s i x, nth_error (s :: section_sums s ls) i = Some x -> x = fold_left (fun acc l => gadd acc (ln_length l)) (firstn i ls) s.
Proof.
  induction ls as [|l ls IH]; intros s [|i] x H; cbn [nth_error section_sums firstn fold_left] in *.
  - injection H as <-. reflexivity.
  - destruct i; discriminate H.
  - injection H as <-. reflexivity.
  - apply IH. exact H.
Qed.
Lemma firstn_next {A} (l : list A) : forall i x, nth_error l i = Some x -> firstn (S i) l = firstn i l ++ [x].
Proof. induction l as [|y l IH]; intros [|i] x H; try discriminate H; [injection H as ->; reflexivity|]. cbn [firstn app]. f_equal. apply (IH i x H). Qed.
Lemma path_first ls i : 0 <= path_length (firstn i ls) <= path_length ls.
Proof.
  assert (P : forall l, 0 <= path_length l) by (induction l as [|x l IH]; cbn [path_length]; [lra|]; assert (0 <= gap x) by apply sqrt_pos; lra).
  rewrite <- (firstn_skipn i ls) at 3. rewrite path_app. pose proof (P (firstn i ls)). pose proof (P (skipn i ls)). lra.
Qed.
Lemma gap_part ls i l : nth_error ls i = Some l -> 0 <= gap l <= path_length ls.
Proof.
  intros H. assert (0 <= gap l) by apply sqrt_pos. split; [assumption|]. pose proof (path_first ls (S i)) as P. rewrite (firstn_next ls i l H), path_app in P. cbn [path_length] in P. pose proof (path_first ls i). lra.
Qed.
(** the length of the first lines, as the program adds it up *)
Lemma sum_near m k ls : (0 <= m <= 30)%Z -> (0 <= k <= 58)%Z -> Forall (lin (vbnd k)) ls -> INR (length ls) <= 1048576 -> path_length ls <= 1.2 * big m ->
  fin (total_length ls) /\ 0 <= B2R (total_length ls) <= 1.3 * big m /\ Rabs (B2R (total_length ls) - path_length ls) <= INR (length ls) * (1.31 * zed m) + 10 * zed m.
Proof.
  intros Hm K F NR PB. pose proof (big_1 m Hm) as P1. pose proof (zed_pos m) as PZ. pose proof unit24_val as UV. pose proof (pos_INR (length ls)) as N0. set (n := INR (length ls)) in *.
  destruct (path_acc k ls K F) as (SO & PP & EP). fold n in EP. pose proof (tiny_zed m Hm (-69) ltac:(lia)) as T69. pose proof (tiny_zed m Hm (-150) ltac:(lia)) as T150.
  assert (N69 : n * bpow radix2 (-69) <= n * (zed m * / 1000)) by (apply Rmult_le_compat_l; lra). assert (N150 : n * bpow radix2 (-150) <= n * (zed m * / 1000)) by (apply Rmult_le_compat_l; lra).
  assert (NZ : 0 <= n * zed m <= 0.0626 * big m). { split; [apply Rmult_le_pos; lra|]. unfold zed. rewrite UV. pose proof (Rmult_le_compat_r (big m) n 1048576 ltac:(lra) NR). lra. }
  assert (PU : path_length ls * (8 * unit24) <= 9.6 * zed m). { unfold zed. pose proof (Rmult_le_compat_r (8 * unit24) _ _ ltac:(rewrite UV; lra) PB). lra. }
  assert (ZB : zed m <= big m * / 16000000) by (apply zed_big; exact Hm). apply Rabs_le_inv in EP.
  assert (B60 : 1.3 * big m <= bpow radix2 60). { pose proof (big_40 m Hm) as B4. apply Rle_trans with (2 * bpow radix2 40); [lra|]. change 2 with (bpow radix2 1). rewrite <- bpow_plus. apply bpow_le. lia. }
  assert (U0 : 1.3 * big m * unit24 = 1.3 * zed m) by (unfold zed; ring).
  destruct (total_acc (1.3 * big m) ls ltac:(lra) B60 SO g0 eq_refl ltac:(change (B2R g0) with 0; lra)) as [FT ET]; [change (B2R g0) with 0; fold n; rewrite U0; lra|].
  fold (total_length ls) in FT, ET. change (B2R g0) with 0 in ET. fold n in ET. rewrite U0 in ET.
  pose proof (distance_range ls g0 FT eq_refl) as [_ BT]. apply Rabs_le_inv in ET. split; [exact FT|]. split; [lra|]. apply Rabs_le. lra.
Qed.

(** A point of a curve is on one of its lines, and the way there is as long as
    it should be. *)
Lemma point_on ls p m k t v : (0 <= m <= 30)%Z -> (0 <= k <= 30)%Z -> fin t -> Forall (lin (vbnd k)) ls -> INR (length ls) <= 1048576 -> path_length ls <= 1.2 * big m ->
  mc_point_at (finish_curve ls p) t = Ok v -> (v = p /\ geq (total_length ls) g0 = true) \/ exists i l s, nth_error ls i = Some l /\ 0 <= s <= 1 /\ beside (8 * zed k) l s v /\
  Rabs (walked ls i l s - fraction (B2R t) * path_length ls) <= (INR (length ls) + 16) * (3 * zed m).
Proof.
  intros Hm K Ft FL NR PB H. destruct (sum_near m k ls Hm ltac:(lia) FL NR PB) as (FT & BT & ET). assert (Nt : num t) by now apply fin_num.
  assert (C : ls = [] \/ ls <> []) by (destruct ls; [now left|now right]). destruct C as [->|NE]; [left; cbn in H; apply Ok_inj in H; split; [auto|reflexivity]|].
  destruct (geq (total_length ls) g0) eqn:Z0.
  { left. unfold mc_point_at in H. cbn [mc_lines finish_curve mc_length] in H. rewrite Z0 in H. destruct ls; [congruence|]. apply Ok_inj in H. auto. }
  right. pose proof (total_fin_nn ls FT) as NN. pose proof (sections_nn ls g0 nn_0 NN) as SN. pose proof (section_fin ls g0 FT) as SF.
  destruct (distance_range ls t FT Nt) as (Fd & Bd). destruct (lookup_line ls p t FT Nt NE Z0) as (i & lo & hi & l & Elo & Ehi & El & LO & HI & E). rewrite E in H. apply Ok_inj in H. clear E. cbn [mc_sections finish_curve] in Elo, Ehi.
  pose proof (section_sum ls g0 i lo Elo) as SL. pose proof (section_sum ls g0 (S i) hi Ehi) as SH. rewrite (firstn_next ls i l El), fold_left_app in SH. cbn [fold_left] in SH. rewrite <- SL in SH. fold (total_length (firstn i ls)) in SL.
  pose proof (big_1 m Hm) as P1. pose proof (zed_pos m) as PZ. pose proof (zed_big m Hm) as ZB. pose proof (pos_INR (length ls)) as N0.
  assert (INC : Forall (lin (vbnd k)) (firstn i ls)). { rewrite Forall_forall in *. intros x I. apply FL. rewrite <- (firstn_skipn i ls). apply in_or_app. now left. }
  assert (NI : INR (length (firstn i ls)) <= INR (length ls)) by (apply le_INR; rewrite firstn_length; lia). pose proof (path_first ls i) as PF. pose proof (gap_part ls i l El) as PG.
  destruct (sum_near m k (firstn i ls) Hm ltac:(lia) INC ltac:(lra) ltac:(lra)) as (_ & B0 & E0). rewrite <- SL in B0, E0.
  assert (NIZ : INR (length (firstn i ls)) * (1.31 * zed m) <= INR (length ls) * (1.31 * zed m)) by (apply Rmult_le_compat_r; lra).
  rewrite Forall_forall in FL. destruct (FL l (nth_error_In _ _ El)) as (V1 & V2). pose proof (zed_pos k) as PZk.
  destruct (vdst_acc _ _ k ltac:(lia) V1 V2) as (FG & GG & EG). fold (ln_length l) in FG, GG, EG. rewrite <- gap_geo in EG.
  assert (EG' : Rabs (B2R (ln_length l) - gap l) <= 9.7 * zed m).
  { apply Rle_trans with (1 := EG). assert (U21 : bpow radix2 (-21) = 8 * unit24) by (unfold unit24; change 8 with (bpow radix2 3); rewrite <- bpow_plus; reflexivity). rewrite U21.
    pose proof (tiny_zed m Hm (-69) ltac:(lia)). assert (gap l * (8 * unit24) <= 1.2 * big m * (8 * unit24)) by (apply Rmult_le_compat_r; [rewrite unit24_val; lra|lra]). unfold zed in *. lra. }
  rewrite Forall_forall in SF. pose proof (SF lo (nth_error_In _ _ Elo)) as Fl. pose proof (SF hi (nth_error_In _ _ Ehi)) as Fh.
  destruct (clamp_range t Nt) as [Fc Bc]. pose proof (clamp_fraction t Ft) as VC.
  destruct (gmul_fin _ _ FT Fc) as [_ Vd]. { apply (below_127 m Hm _ 1.3); [lra|]. rewrite Rabs_pos_eq by (apply Rmult_le_pos; lra). rewrite <- (Rmult_1_r (1.3 * big m)). apply Rmult_le_compat; lra. }
  assert (ED : Rabs (B2R (gmul (total_length ls) (clampF32 t g0 (gq 1 1))) - fraction (B2R t) * B2R (total_length ls)) <= 1.301 * zed m).
  { rewrite Vd, VC, (Rmult_comm (fraction _)). replace (1.301 * zed m) with ((1.3 + / 1000) * zed m) by lra. apply (r32 m Hm _ 1.3); [lra|]. rewrite VC in Bc. rewrite Rabs_pos_eq by (apply Rmult_le_pos; lra). rewrite <- (Rmult_1_r (1.3 * big m)). apply Rmult_le_compat; lra. }
  rewrite VC in Bc. assert (EP : Rabs (fraction (B2R t) * B2R (total_length ls) - fraction (B2R t) * path_length ls) <= INR (length ls) * (1.31 * zed m) + 10 * zed m).
  { rewrite <- Rmult_minus_distr_l, Rabs_mult, (Rabs_pos_eq (fraction _)) by lra. pose proof (Rabs_pos (B2R (total_length ls) - path_length ls)) as R0. rewrite <- (Rmult_1_l (_ + _)). apply Rmult_le_compat; lra. }
  set (d := gmul _ _) in *. clearbody d. set (fr := fraction (B2R t)) in *. clearbody fr.
  assert (LD : B2R lo <= B2R d). { destruct LO as [I0|LO]; [rewrite SL, I0; change (B2R (total_length (firstn 0 ls))) with 0; lra|]. apply glt_iff in LO as (_ & _ & X). rewrite !(key_fin 24 128) in X by assumption. lra. }
  assert (DH : B2R d <= B2R hi). { apply gle_iff in HI as (_ & _ & X). rewrite !(key_fin 24 128) in X by assumption. exact X. }
  assert (SS : B2R lo + B2R (ln_length l) <= 2.6 * big m) by (apply Rabs_le_inv in EG'; lra).
  destruct (gadd_fin lo (ln_length l) Fl FG) as [_ Vh]; [apply (below_127 m Hm _ 2.6); [lra|]; rewrite Rabs_pos_eq by lra; exact SS|]. rewrite <- SH in Vh.
  assert (EH : Rabs (B2R hi - (B2R lo + B2R (ln_length l))) <= 2.601 * zed m) by (rewrite Vh; replace (2.601 * zed m) with ((2.6 + / 1000) * zed m) by lra; apply (r32 m Hm _ 2.6); [lra|]; rewrite Rabs_pos_eq by lra; exact SS).
  apply Rabs_le_inv in EH, EG'.
  assert (OV : forall x y : f32, fin x -> fin y -> 0 <= B2R y <= B2R x -> B2R x <= 2.7 * big m -> fin (gsub x y) /\ B2R (gsub x y) = rnd32 (B2R x - B2R y) /\ Rabs (B2R (gsub x y) - (B2R x - B2R y)) <= 2.701 * zed m).
  { intros x y Fx Fy B B'. assert (Q : Rabs (B2R x - B2R y) <= 2.7 * big m) by (rewrite Rabs_pos_eq; lra). destruct (gsub_fin x y Fx Fy) as [Fz Vz]; [apply (below_127 m Hm _ 2.7); [lra|exact Q]|]. split; [exact Fz|]. split; [exact Vz|]. rewrite Vz. replace (2.701 * zed m) with ((2.7 + / 1000) * zed m) by lra. apply (r32 m Hm _ 2.7); [lra|exact Q]. }
  destruct (OV d lo Fd Fl ltac:(lra) ltac:(lra)) as (F1 & E1 & D1). destruct (OV hi lo Fh Fl ltac:(lra) ltac:(lra)) as (F2 & E2 & D2).
  assert (MM : 0 <= B2R (gsub d lo) <= B2R (gsub hi lo)) by (rewrite E1, E2; split; [apply rnd32_pos; lra|apply rnd32_le; lra]).
  apply Rabs_le_inv in D1, D2. exists i, l. unfold walked.
  destruct (geq (gsub hi lo) g0) eqn:ZD.
  { exists 0. split; [exact El|]. split; [lra|]. subst v. split; [unfold beside; rewrite !Rmult_0_l, Rminus_0_r, !Rmult_1_l, !Rplus_0_r, !Rminus_diag_eq, Rabs_R0 by reflexivity; lra|].
    apply geq_iff in ZD as (_ & _ & ZD). rewrite (key_fin 24 128 _ F2) in ZD. change (key g0) with 0 in ZD. apply Rabs_le_inv in E0, ED, EP. apply Rabs_le. lra. }
  assert (NZ : B2R (gsub hi lo) <> 0). { intros X. assert (geq (gsub hi lo) g0 = true); [|congruence]. apply geq_iff. split; [now apply fin_num|]. split; [reflexivity|]. rewrite (key_fin 24 128) by exact F2. rewrite X. reflexivity. }
  set (a := B2R (gsub d lo)) in *. set (b := B2R (gsub hi lo)) in *.
  assert (Q : 0 <= a / b <= 1). { split; [apply Rle_mult_inv_pos; lra|]. apply Rmult_le_reg_r with b; [lra|]. unfold Rdiv. rewrite Rmult_assoc, Rinv_l, Rmult_1_r by exact NZ. lra. }
  destruct (gdiv_fin _ _ F1 F2 NZ) as (F3 & E3). { fold a b. rewrite Rabs_pos_eq by lra. apply Rle_trans with 1; [lra|]. change 1 with (bpow radix2 0). apply bpow_le. lia. } fold a b in E3.
  set (s := gdiv (gsub d lo) (gsub hi lo)) in *.
  assert (R3 : 0 <= B2R s <= 1). { rewrite E3. split; [apply rnd32_pos; lra|]. rewrite <- (rnd32_Z 1) by lia. apply rnd32_le. lra. }
  assert (SB : Rabs (B2R s * b - a) <= 2.8 * zed m).
  { assert (ES : Rabs (B2R s - a / b) <= 1 * unit24 + bpow radix2 (-150)) by (rewrite E3; apply rnd32_errR; rewrite Rabs_pos_eq; lra).
    replace (B2R s * b - a) with ((B2R s - a / b) * b) by (field; exact NZ). rewrite Rabs_mult, (Rabs_pos_eq b) by lra.
    apply Rle_trans with ((1 * unit24 + bpow radix2 (-150)) * (2.75 * big m)); [apply Rmult_le_compat; [apply Rabs_pos|lra|exact ES|lra]|].
    assert (bpow radix2 (-150) <= unit24 * / 1000). { apply Rle_trans with (bpow radix2 (-24 + -10)); [apply bpow_le; lia|]. rewrite bpow_plus. fold unit24. change (bpow radix2 (-10)) with (/ 1024). rewrite unit24_val. lra. }
    apply Rle_trans with (1.001 * unit24 * (2.75 * big m)); [apply Rmult_le_compat_r; lra|]. unfold zed. pose proof (Rmult_lt_0_compat _ _ (Rlt_le_trans _ _ _ Rlt_0_1 P1) (bpow_gt_0 radix2 (-24))). fold unit24 in *. lra. }
  assert (SG : Rabs (B2R s * gap l - B2R s * b) <= 15.1 * zed m).
  { rewrite <- Rmult_minus_distr_l, Rabs_mult, (Rabs_pos_eq (B2R s)) by lra. assert (A : Rabs (gap l - b) <= 15.1 * zed m) by (apply Rabs_le; lra). pose proof (Rabs_pos (gap l - b)). rewrite <- (Rmult_1_l (15.1 * zed m)). apply Rmult_le_compat; lra. }
  exists (B2R s). split; [exact El|]. split; [exact R3|]. split.
  - subst v. unfold ln_point_at, vlerp. destruct V1 as (A1 & A2), V2 as (C1 & C2). split; unfold px, py; cbn [vx vy]; apply lerp_near; auto.
  - apply Rabs_le_inv in E0, ED, EP, SB, SG. apply Rabs_le. lra.
Qed.

(** The same for the curve before it was cut or extended. *)
Theorem trimmed_on m ls len p t q : (0 <= m <= 28)%Z -> Forall (lin (vbnd m)) ls -> Forall long_enough ls -> (Z.of_nat (length ls) <= 524288)%Z -> path_length ls <= big m ->
  fin len -> 0 <= B2R len <= big m -> (ends_open ls /\ ls <> [] \/ B2R len <= B2R (total_length ls)) -> fin t ->
  let ls' := rev (trim_lines (rev ls) (fsub (f_of_g (total_length ls)) len)) in mc_point_at (finish_curve ls' p) t = Ok q ->
  (q = p /\ geq (total_length ls') g0 = true) \/ exists i l s, nth_error ls i = Some l /\ 0 <= s /\ beside (bpow radix2 (-12) + 64 * zed m) l s q /\
    (1 < s -> B2R (total_length ls) < B2R len /\ S i = length ls) /\
    Rabs (walked ls i l s - fraction (B2R t) * B2R len) <= 4 * ((INR (length ls) + 16) * (4 * zed m) + bpow radix2 (-13)).
Proof.
  intros Hm F LE NL PB Fl Bl OR Ft ls' H. assert (Hm' : (0 <= m <= 30)%Z) by lia. pose proof (big_1 m Hm') as P1. pose proof (zed_pos m) as PZ. pose proof (zed_big m Hm') as ZB.
  pose proof unit24_val as UV. assert (NR : 0 <= INR (length ls) <= 524288) by (split; [apply pos_INR|rewrite INR_IZR_INZ; apply IZR_le; lia]). set (n := INR (length ls)) in *.
  assert (NZ : 0 <= n * zed m <= 0.0313 * big m). { split; [apply Rmult_le_pos; lra|]. unfold zed. rewrite UV. pose proof (Rmult_le_compat_r (big m) n 524288 ltac:(lra) ltac:(lra)). lra. }
  destruct (trimmed_length m Hm' ls len F LE ltac:(lia) PB Fl Bl OR) as (F' & FT' & _ & PL). fold ls' in F', FT', PL. fold n in PL.
  assert (S13 : 0 < bpow radix2 (-13) <= / 8000) by (split; [apply bpow_gt_0|change (bpow radix2 (-13)) with (/ 8192); lra]).
  assert (P13 : bpow radix2 (-12) = 2 * bpow radix2 (-13)) by (change (-12)%Z with (1 + -13)%Z; rewrite bpow_plus; reflexivity).
  (* the measured lengths *)
  destruct (path_acc m ls ltac:(lia) F) as (SO & PP & EP). fold n in EP. destruct (sum_near m m ls Hm' ltac:(lia) F ltac:(fold n; lra) ltac:(lra)) as (FT & BT & ET). fold n in ET.
  assert (N69 : n * bpow radix2 (-69) <= 0.001).
  { apply Rle_trans with (524288 * bpow radix2 (-69)); [apply Rmult_le_compat_r; [apply bpow_ge_0|lra]|]. assert (bpow radix2 (-69) <= bpow radix2 (-40)) by (apply bpow_le; lia). change (bpow radix2 (-40)) with (/ 1099511627776) in *. lra. }
  assert (MB : meas (rev ls) <= 1.01 * big m). { rewrite meas_rev. rewrite UV in EP. apply Rabs_le_inv in EP. lra. }
  set (T := B2R (total_length ls)) in *. apply Rabs_le_inv in ET.
  destruct (f_of_g_fin _ FT) as [FT6 VT]. fold T in VT.
  assert (TD : Rabs (T - B2R len) <= 1.09 * big m) by (apply Rabs_le; lra).
  destruct (fsub_fin _ _ FT6 Fl) as [Fd Vd]; [rewrite VT; apply Rle_trans with (bpow radix2 127); [apply (below_127 m Hm' _ 1.09); [lra|exact TD]|apply bpow_le; lia]|]. rewrite VT in Vd.
  set (d := fsub (f_of_g (total_length ls)) len) in *.
  assert (Bd : Rabs (B2R d) <= 1.1 * big m).
  { assert (ED : Rabs (B2R d - (T - B2R len)) <= bpow radix2 (m + 2 - 53)).
    { rewrite Vd. apply rnd64_err; [lia|]. rewrite bpow_plus. fold (big m). change (bpow radix2 2) with 4. apply Rabs_le_inv in TD. apply Rabs_le. lra. }
    assert (E21 : bpow radix2 (m + 2 - 53) <= 0.000001). { apply Rle_trans with (bpow radix2 (-21)); [apply bpow_le; lia|]. change (bpow radix2 (-21)) with (/ 2097152). lra. }
    apply Rabs_le_inv in ED, TD. apply Rabs_le. lra. }
  destruct (trim_shape m Hm' (rev ls) (Forall_rev F) (Forall_rev LE) (Forall_rev SO) d MB Fd Bd) as [TN|(pre & l & r & l' & ER & TR & CASES)].
  { left. unfold ls' in *. rewrite TN in *. cbn in H. apply Ok_inj in H. split; [auto|reflexivity]. }
  assert (EL : ls = rev r ++ l :: rev pre) by (rewrite <- (rev_involutive ls), ER, rev_app_distr; cbn [rev]; rewrite <- app_assoc; reflexivity).
  assert (EL' : ls' = rev r ++ [l']) by (unfold ls'; rewrite TR; reflexivity).
  assert (LL : (length ls' <= length ls)%nat) by (rewrite EL, EL', !app_length; cbn [length]; lia). assert (LR : INR (length ls') <= n) by (apply le_INR; exact LL). pose proof (pos_INR (length ls')) as LR0.
  apply Rabs_le_inv in PL.
  destruct (point_on ls' p m (m + 2) t q Hm' ltac:(lia) Ft F' ltac:(lra) ltac:(lra) H) as [E|(i & x & s & I & S1 & B & W)]; [left; exact E|]. right. clear H F' FT'.
  assert (Z4 : 8 * zed (m + 2) = 32 * zed m) by (unfold zed, big; rewrite bpow_plus; change (bpow radix2 2) with 4; ring). rewrite Z4 in B. clear Z4.
  pose proof (fraction_range (B2R t)) as FR. set (fr := fraction (B2R t)) in *. clearbody fr.
  assert (WL : Rabs (walked ls' i x s - fr * B2R len) <= (n + 16) * (7 * zed m) + bpow radix2 (-13)).
  { assert (A : Rabs (fr * path_length ls' - fr * B2R len) <= (n + 16) * (4 * zed m) + bpow radix2 (-13)).
    { rewrite <- Rmult_minus_distr_l, Rabs_mult, (Rabs_pos_eq fr) by lra. assert (A : Rabs (path_length ls' - B2R len) <= (n + 16) * (4 * zed m) + bpow radix2 (-13)) by (apply Rabs_le; lra).
      pose proof (Rabs_pos (path_length ls' - B2R len)). rewrite <- (Rmult_1_l (_ + _)). apply Rmult_le_compat; lra. }
    assert ((INR (length ls') + 16) * (3 * zed m) <= (n + 16) * (3 * zed m)) by (apply Rmult_le_compat_r; lra). apply Rabs_le_inv in W, A. apply Rabs_le. lra. }
  clear W PL.
  assert (CI : (i < length (rev r))%nat \/ i = length (rev r)).
  { assert (i < length ls')%nat by (apply nth_error_Some; rewrite I; discriminate). rewrite EL', app_length in *. cbn [length] in *. lia. }
  assert (KEEP : nth_error ls i = Some x -> firstn i ls = firstn i ls' -> exists i l s, nth_error ls i = Some l /\ 0 <= s /\ beside (bpow radix2 (-12) + 64 * zed m) l s q /\
    (1 < s -> T < B2R len /\ S i = length ls) /\ Rabs (walked ls i l s - fr * B2R len) <= 4 * ((n + 16) * (4 * zed m) + bpow radix2 (-13))).
  { intros N1 N2. exists i, x, s. split; [exact N1|]. split; [lra|]. split; [destruct B as [BX BY]; split; lra|]. split; [intros C; lra|]. unfold walked in *. rewrite N2. lra. }
  destruct CI as [CI|CI].
  { apply KEEP; [rewrite EL', nth_error_app1 in I by exact CI; rewrite EL, nth_error_app1 by exact CI; exact I|].
    rewrite EL, EL', !firstn_app. replace (i - length (rev r))%nat with 0%nat by lia. reflexivity. }
  assert (IX : x = l'). { rewrite EL', nth_error_app2 in I by lia. rewrite CI, Nat.sub_diag in I. injection I as ->. reflexivity. } subst x.
  assert (NL1 : nth_error ls i = Some l) by (rewrite EL, nth_error_app2, CI, Nat.sub_diag by lia; reflexivity).
  assert (FN : firstn i ls = firstn i ls') by (rewrite EL, EL', CI, !firstn_app, Nat.sub_diag; reflexivity).
  destruct CASES as [E|(e & E & BL & Fe & Be & De & LAST)]; [subst l'; apply KEEP; assumption|].
  rewrite Forall_forall in F. destruct (F l (nth_error_In _ _ NL1)) as [V1 V2].
  destruct (cut_end m Hm' l e V1 V2 (proj1 BL) (proj2 BL) Fe Be De) as (SP & EX & EY & DX & DY). set (c := 1 - B2R e / B2R (ln_length l)) in *. rewrite <- E in EX, EY.
  assert (E1 : ln_p1 l' = ln_p1 l) by (rewrite E; reflexivity). clear KEEP.
  pose proof (bpow_gt_0 radix2 (-20)) as P20. set (L := B2R (ln_length l)) in *. assert (LP : 0 < L) by lra.
  assert (CL : (1 - c) * L = B2R e) by (unfold c; field; lra).
  assert (KEY : forall f : vec -> R, Rabs (f q - ((1 - s) * f (ln_p1 l') + s * f (ln_p2 l'))) <= 32 * zed m ->
    Rabs (f (ln_p2 l') - ((1 - c) * f (ln_p1 l) + c * f (ln_p2 l))) <= 20 * zed m -> Rabs (f (ln_p2 l) - f (ln_p1 l)) <= 1.0001 * L ->
    Rabs (f q - ((1 - s * c) * f (ln_p1 l) + s * c * f (ln_p2 l))) <= 52 * zed m /\
    (- bpow radix2 (-13) <= B2R e -> 1 < c -> Rabs (f q - ((1 - s) * f (ln_p1 l) + s * f (ln_p2 l))) <= bpow radix2 (-12) + 64 * zed m)).
  { intros f A1 A2 A3. rewrite E1 in A1.
    assert (A4 : Rabs (s * (f (ln_p2 l') - ((1 - c) * f (ln_p1 l) + c * f (ln_p2 l)))) <= 20 * zed m).
    { rewrite Rabs_mult, (Rabs_pos_eq s) by lra. pose proof (Rabs_pos (f (ln_p2 l') - ((1 - c) * f (ln_p1 l) + c * f (ln_p2 l)))) as R0. rewrite <- (Rmult_1_l (20 * zed m)). apply Rmult_le_compat; lra. }
    assert (A5 : Rabs (f q - ((1 - s * c) * f (ln_p1 l) + s * c * f (ln_p2 l))) <= 52 * zed m) by (apply Rabs_le_inv in A1, A4; apply Rabs_le; lra).
    split; [exact A5|]. intros E13 C1.
    assert (A6 : Rabs (s * (c - 1) * (f (ln_p2 l) - f (ln_p1 l))) <= 1.0001 * bpow radix2 (-13)).
    { assert (SC : 0 <= s * (c - 1) <= c - 1). { split; [apply Rmult_le_pos; lra|]. rewrite <- (Rmult_1_l (c - 1)) at 2. apply Rmult_le_compat_r; lra. }
      rewrite Rabs_mult, (Rabs_pos_eq (s * (c - 1))) by lra. apply Rle_trans with ((c - 1) * (1.0001 * L)); [apply Rmult_le_compat; [lra|apply Rabs_pos|lra|exact A3]|]. lra. }
    apply Rabs_le_inv in A5, A6. apply Rabs_le. lra. }
  (* the length of the cut line *)
  assert (GAP : Rabs (gap l' - c * gap l) <= 40 * zed m).
  { rewrite !gap_geo. unfold geo. rewrite <- (Rabs_pos_eq c) by exact SP. rewrite <- nrm_scale. replace (40 * zed m) with (20 * zed m + 20 * zed m) by ring. rewrite E1. unfold px in EX. unfold py in EY.
    apply Rabs_le_inv in EX, EY. apply nrm_near; apply Rabs_le; lra. }
  assert (SGAP : Rabs (s * gap l' - s * c * gap l) <= 40 * zed m).
  { rewrite Rmult_assoc, <- Rmult_minus_distr_l, Rabs_mult, (Rabs_pos_eq s) by lra. pose proof (Rabs_pos (gap l' - c * gap l)). rewrite <- (Rmult_1_l (40 * zed m)). apply Rmult_le_compat; lra. }
  assert (WC : Rabs (walked ls i l (s * c) - fr * B2R len) <= (n + 16) * (7 * zed m) + bpow radix2 (-13) + 40 * zed m).
  { unfold walked in *. rewrite FN. apply Rabs_le_inv in SGAP, WL. apply Rabs_le. lra. }
  destruct B as [BX BY]. destruct (KEY px BX EX DX) as [KX1 KX2]. destruct (KEY py BY EY DY) as [KY1 KY2].
  destruct (Rle_or_lt c 1) as [C1|C1].
  - exists i, l, (s * c). split; [exact NL1|]. split; [apply Rmult_le_pos; lra|]. split; [split; lra|]. split; [|lra]. intros C. exfalso. assert (s * c <= 1 * 1) by (apply Rmult_le_compat; lra). lra.
  - destruct LAST as [LAST|[Ed Epre]].
    + exists i, l, s. split; [exact NL1|]. split; [lra|]. split; [split; auto|]. split; [intros C; lra|].
      assert (GL : 0 <= gap l <= 1.0001 * L).
      { split; [apply sqrt_pos|]. destruct (vdst_acc _ _ m ltac:(lia) V1 V2) as (_ & _ & EG). fold (ln_length l) in EG. fold L in EG. rewrite <- gap_geo in EG.
        assert (T70 : bpow radix2 (-69) <= L * bpow radix2 (-49)). { change (-69)%Z with (-20 + -49)%Z. rewrite bpow_plus. apply Rmult_le_compat_r; [apply bpow_ge_0|lra]. }
        assert (U50 : bpow radix2 (-49) <= / 1000000) by (apply Rle_trans with (bpow radix2 (-20)); [apply bpow_le; lia|change (bpow radix2 (-20)) with (/ 1048576); lra]).
        assert (L * bpow radix2 (-49) <= L * / 1000000) by (apply Rmult_le_compat_l; lra). change (bpow radix2 (-21)) with (/ 2097152) in EG. apply Rabs_le_inv in EG. lra. }
      assert (SC : 0 <= s * (c - 1) * gap l <= 1.0001 * bpow radix2 (-13)).
      { assert (SC : 0 <= s * (c - 1) <= c - 1). { split; [apply Rmult_le_pos; lra|]. rewrite <- (Rmult_1_l (c - 1)) at 2. apply Rmult_le_compat_r; lra. }
        split; [apply Rmult_le_pos; lra|]. apply Rle_trans with ((c - 1) * (1.0001 * L)); [apply Rmult_le_compat; lra|]. lra. }
      unfold walked in *. apply Rabs_le_inv in WC. apply Rabs_le. lra.
    + exists i, l, (s * c). split; [exact NL1|]. split; [apply Rmult_le_pos; lra|]. split; [split; lra|]. split; [|lra]. intros _. split.
      * assert (D0 : B2R d < 0). { rewrite <- Ed, <- CL. assert (0 < (c - 1) * L) by (apply Rmult_lt_0_compat; lra). lra. }
        apply Rnot_le_lt. intros C. assert (0 <= B2R d) by (rewrite Vd; apply rnd64_pos; lra). lra.
      * rewrite EL, Epre, app_length, CI. cbn [rev length]. lia.
Qed.
End WithLibm.

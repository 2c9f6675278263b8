(** C97: the approximate lengths of the curve objects. *)
From Coq Require Import Reals Lra ZArith Lia Bool List.
From Flocq Require Import Raux Zaux Core BinarySingleNaN.
From Verif Require Import Helpers SpecCurves SpecArc SpecShape SpecCurveApi SpecApi SpecLengthApi BaseLemmas FloatLemmas Float32Lemmas KeyLemmas BoundLemmas SignLemmas LengthProofs NearLemmas CurveStart ArcProofs ArcShape CatmullProofs CurveApiProofs VectorProofs ApiProofs LengthApiProofs PropCurves PropTerm PropArc PropVector PropCurveApi PropApi.
Import ListNotations.
Open Scope R_scope.
Local Notation pt := PropCurves.pt.

Section WithLibm.
Context {M : libm}.
Lemma polygon_size k pts : (0 <= k)%Z -> (length pts <= 4)%nat -> Forall (SpecCurves.within k) pts -> 0 <= polygon pts <= 12 * bpow radix2 k.
Proof.
  intros K L W. split; [apply polygon_nonneg|]. pose proof (bpow_gt_0 radix2 k).
  assert (D : forall a b, In a pts -> In b pts -> dist a b <= 4 * bpow radix2 k) by (rewrite Forall_forall in W; intros a b A B; rewrite dist_geo; apply geo_bound; apply W; assumption).
  destruct pts as [|a [|b [|c [|d [|? ?]]]]]; cbn [length] in L; try lia; cbn [polygon]; try lra.
  - pose proof (D a b ltac:(cbn; tauto) ltac:(cbn; tauto)). lra.
  - pose proof (D a b ltac:(cbn; tauto) ltac:(cbn; tauto)). pose proof (D b c ltac:(cbn; tauto) ltac:(cbn; tauto)). lra.
  - pose proof (D a b ltac:(cbn; tauto) ltac:(cbn; tauto)). pose proof (D b c ltac:(cbn; tauto) ltac:(cbn; tauto)). pose proof (D c d ltac:(cbn; tauto) ltac:(cbn; tauto)). lra.
Qed.
Lemma drift_summed n s S : drift (INR n) s S -> summed n s S.
Proof. intros H. exact H. Qed.
Lemma sectioned_within k x y n u qs : (0 <= k <= 100)%Z -> sectioned (bpow radix2 (k - 16)) x y n u qs -> (forall t, 0 <= t <= 1 -> Rabs (x t) <= bpow radix2 (k + 4) /\ Rabs (y t) <= bpow radix2 (k + 4)) -> Forall (SpecCurves.within (k + 5)) qs.
Proof.
  intros K (L & _ & _ & _ & H) B. apply Forall_forall. intros q I. destruct (In_nth_error _ _ I) as (i & Hi). assert (Li : (i <= n)%nat) by (assert (i < length qs)%nat by (apply nth_error_Some; congruence); lia).
  destruct (H i Li) as (Bu & _ & q' & Hq & (F1 & F2 & D1 & D2)). assert (q' = q) by congruence. subst q'. destruct (B (u i) Bu) as (X & Y).
  assert (P : bpow radix2 (k + 5) = bpow radix2 (k + 4) + bpow radix2 (k + 4)) by (replace (k + 5)%Z with (k + 4 + 1)%Z by lia; rewrite bpow_plus; change (bpow radix2 1) with 2; ring). assert (E : bpow radix2 (k - 16) <= bpow radix2 (k + 4)) by (apply bpow_le; lia).
  unfold px, py in *. apply Rabs_le_inv in D1, D2, X, Y. split; split; try assumption; rewrite P; apply Rabs_le; lra.
Qed.
(** A Bezier curve whose length has not been approximated yet has that of its
    control polygon, 0 if there is none. *)
Theorem C97_bezier_na : forall k pts, (0 <= k <= 20)%Z -> (length pts <= 7)%nat -> Forall (SpecCurves.within k) pts ->
  bz_points (new_bezier_na pts) = pts /\ is_finite (bz_length (new_bezier_na pts)) = true /\ Rabs (B2R (bz_length (new_bezier_na pts)) - polygon pts) <= bpow radix2 (k - 15) /\
  ((length pts <= 1)%nat -> bz_length (new_bezier_na pts) = g0).
Proof.
  intros k pts K L W. split; [reflexivity|]. cbn [new_bezier_na bz_length]. assert (Z : (length pts <= 1)%nat -> control_length pts = g0).
  { destruct pts as [|p [|q r]]; cbn [length]; intros H; [reflexivity|reflexivity|lia]. }
  destruct pts as [|p r].
  - split; [reflexivity|]. split; [|exact Z]. cbn [control_length polygon]. change (B2R g0) with 0. rewrite Rminus_0_r, Rabs_R0. apply bpow_ge_0.
  - destruct (control_near k (p :: r) K ltac:(cbn [length] in *; lia) W) as (F & D). split; [exact F|]. split; [exact D|exact Z].
Qed.
(** C97.  A Bezier curve of up to four points is cut into as many sections as
    its control polygon is long, rounded up, and its length is that of the
    polyline through their ends. *)
Theorem C97_bezier_length : pow_small -> forall k pts bz, (0 <= k <= 16)%Z -> (1 <= length pts <= 4)%nat -> Forall (SpecCurves.within k) pts -> new_bezier pts = Ok bz ->
  exists n u qs, rounded_up (bpow radix2 (k - 15)) (polygon pts) n /\ sectioned (bpow radix2 (k - 16)) (casteljau (map px pts)) (casteljau (map py pts)) n u qs /\
  nth_error qs 0 = nth_error pts 0 /\ summed n (bz_length bz) (polygon qs).
Proof.
  intros P k pts bz K LN W H. destruct (control_near k pts ltac:(lia) ltac:(lia) W) as (FL & DL). unfold new_bezier, calculate_length in H. cbn [new_bezier_na bz_points bz_control] in H.
  destruct pts as [|p0 rest]; [cbn in LN; lia|]. set (pts := p0 :: rest) in *. pose proof (polygon_size k pts ltac:(lia) ltac:(lia) W) as PS.
  assert (BK : bpow radix2 k <= 65536) by (change 65536 with (bpow radix2 16); apply bpow_le; lia). assert (EK : 0 < bpow radix2 (k - 15) <= 2) by (split; [apply bpow_gt_0|change 2 with (bpow radix2 1); apply bpow_le; lia]).
  assert (C0 : 0 <= B2R (control_length pts)). { apply pz_pos. unfold pts. cbn [control_length]. apply control_pz. right. reflexivity. }
  apply Rabs_le_inv in DL. destruct (ceil_sections (control_length pts) FL ltac:(split; [exact C0|lra])) as (n & N & Fg & Vg & Tn & Bn).
  apply Ok_inj in H. subst bz. cbn [bz_length]. rewrite walk_stroll, Tn. set (g := gceil (control_length pts)) in *. clearbody g.
  assert (NE : map px pts <> [] /\ map py pts <> []) by (split; discriminate).
  assert (WX : Forall (fun x => Rabs x <= bpow radix2 k) (map px pts) /\ Forall (fun x => Rabs x <= bpow radix2 k) (map py pts)). { clear -W. split; apply Forall_map; apply Forall_impl with (2 := W); intros p ((_ & B1) & (_ & B2)); assumption. }
  assert (SC : sectioned (bpow radix2 (k - 16)) (casteljau (map px pts)) (casteljau (map py pts)) n (fun i => B2R (gdiv (g_of_Z (Z.of_nat i)) g) * (if Nat.eqb n 0 then 0 else 1)) (p0 :: map (fun i => bezier_point_at pts (gdiv (g_of_Z (Z.of_nat i)) g)) (seq 1 n))).
  { apply (sections_at (bezier_point_at pts)); [exact Fg|exact Vg|exact N| |].
    - intros t Ft Bt. apply (C93_bezier_point P); [lia|exact LN|exact W|exact Ft|exact Bt].
    - destruct (C93_casteljau (map px pts) (proj1 NE)) as (X0 & _). destruct (C93_casteljau (map py pts) (proj2 NE)) as (Y0 & _). rewrite X0, Y0. cbn [map hd pts]. unfold close. inversion W as [|? ? W0 _]. destruct W0 as ((F1 & _) & (F2 & _)). pose proof (bpow_gt_0 radix2 (k - 16)).
      split; [exact F1|]. split; [exact F2|]. rewrite !Rminus_diag_eq by reflexivity. rewrite Rabs_R0. split; lra. }
  eexists. eexists. eexists. split; [|split; [exact SC|split; [reflexivity|]]].
  - unfold rounded_up. lra.
  - apply drift_summed. pose proof (sectioned_within k _ _ _ _ _ ltac:(lia) SC) as WI. set (qs := map (fun i => bezier_point_at pts (gdiv (g_of_Z (Z.of_nat i)) g)) (seq 1 n)) in *. assert (LQ : length qs = n) by (unfold qs; rewrite map_length, seq_length; reflexivity). rewrite <- LQ. apply (stroll_total (k + 5)); [lia|rewrite LQ; lia|].
    apply WI. intros t Bt. split; apply casteljau_bound; try assumption; try apply WX; apply NE.
Qed.

(** Whatever the sections, such a polyline is not longer than the control
    polygon, and not shorter than the line from the start to the end. *)
Theorem C97_inscribed : forall pts u n, (1 <= length pts <= 4)%nat -> (forall i, (i < n)%nat -> u i <= u (S i)) -> (forall i, (i <= n)%nat -> 0 <= u i <= 1) ->
  let x := casteljau (map px pts) in let y := casteljau (map py pts) in
  sqrt ((x (u n) - x (u O)) * (x (u n) - x (u O)) + (y (u n) - y (u O)) * (y (u n) - y (u O))) <= inscribed x y u n <= polygon pts.
Proof. intros pts u n L I B x y. split; [exact (inscribed_chord x y u n)|apply inscribed_le; assumption]. Qed.

Lemma ends pts p q : nth_error pts 0 = Some p -> nth_error pts (length pts - 1) = Some q -> hd 0 (map px pts) = px p /\ last (map px pts) 0 = px q /\ hd 0 (map py pts) = py p /\ last (map py pts) 0 = py q.
Proof.
  intros Hp Hq. destruct pts as [|a r]; [discriminate Hp|]. cbn [nth_error] in Hp. assert (a = p) by congruence. subst a. destruct (exists_last (l := p :: r) ltac:(discriminate)) as (l & z & E). rewrite E in *. rewrite app_length in Hq. cbn [length] in Hq. rewrite nth_error_app2 in Hq by lia. replace (length l + 1 - 1 - length l)%nat with 0%nat in Hq by lia. cbn [nth_error] in Hq. assert (z = q) by congruence. subst z.
  rewrite !map_app. cbn [map]. rewrite !last_last. destruct l as [|b l]; cbn [app] in E.
  - assert (p = q) by congruence. subst p. repeat split; reflexivity.
  - assert (b = p) by congruence. subst b. repeat split; reflexivity.
Qed.
(** So the length is between the distance of the ends and the length of the
    control polygon, up to rounding errors. *)
Theorem C97_bezier_bounds : pow_small -> forall k pts bz p q, (0 <= k <= 10)%Z -> (1 <= length pts <= 4)%nat -> Forall (SpecCurves.within k) pts -> new_bezier pts = Ok bz ->
  nth_error pts 0 = Some p -> nth_error pts (length pts - 1) = Some q -> 1 <= dist p q ->
  is_finite (bz_length bz) = true /\ dist p q * (1 - bpow radix2 (-8)) - (polygon pts + 2) * bpow radix2 (k - 14) <= B2R (bz_length bz) <= (polygon pts + (polygon pts + 2) * bpow radix2 (k - 14)) * (1 + bpow radix2 (-8)).
Proof.
  intros P k pts bz p q K LN W H Hp Hq D1. destruct (C97_bezier_length P k pts bz ltac:(lia) LN W H) as (n & u & qs & (R1 & R2) & SC & _ & (FL & DL)). split; [exact FL|].
  destruct SC as (LQ & U0 & U1 & UM & UB). pose proof (inscribed_near (bpow radix2 (k - 16)) (casteljau (map px pts)) (casteljau (map py pts)) u n qs LQ ltac:(intros i I; apply UB; exact I)) as NR.
  destruct (C97_inscribed pts u n LN UM ltac:(intros i I; apply UB; exact I)) as (I1 & I2). pose proof (polygon_size k pts ltac:(lia) ltac:(lia) W) as PS.
  assert (BK : bpow radix2 k <= 1024) by (change 1024 with (bpow radix2 10); apply bpow_le; lia).
  assert (E4 : 4 * bpow radix2 (k - 16) = bpow radix2 (k - 14)) by (replace (k - 14)%Z with (k - 16 + 2)%Z by lia; rewrite bpow_plus; change (bpow radix2 2) with 4; ring). rewrite E4 in NR.
  assert (EK : 0 < bpow radix2 (k - 14) <= / 16) by (split; [apply bpow_gt_0|change (/ 16) with (bpow radix2 (-4)); apply bpow_le; lia]). assert (E15 : bpow radix2 (k - 15) <= 1) by (change 1 with (bpow radix2 0); apply bpow_le; lia).
  assert (NE : map px pts <> [] /\ map py pts <> []) by (destruct pts; [cbn in LN; lia|split; discriminate]). destruct (C93_casteljau (map px pts) (proj1 NE)) as (X0 & X1 & _). destruct (C93_casteljau (map py pts) (proj2 NE)) as (Y0 & Y1 & _).
  destruct (ends pts p q Hp Hq) as (A1 & A2 & A3 & A4). rewrite A1 in X0. rewrite A2 in X1. rewrite A3 in Y0. rewrite A4 in Y1.
  assert (DN : dist p q = nrm (px q - px p) (py q - py p)) by (unfold dist, nrm; f_equal; ring).
  assert (DP : dist p q <= polygon pts). { destruct (C97_inscribed pts INR 1 LN) as (Z1 & Z2); [intros i I; apply le_INR; lia|intros i I; split; [apply pos_INR|change 1 with (INR 1); apply le_INR; exact I]|]. change (INR 1) with 1 in Z1. change (INR 0) with 0 in Z1. rewrite X0, X1, Y0, Y1 in Z1. rewrite DN. exact (Rle_trans _ _ _ Z1 Z2). }
  assert (N0 : (0 < n)%nat) by (destruct n; [change (INR 0) with 0 in R1; assert (bpow radix2 (k - 15) <= / 32) by (change (/ 32) with (bpow radix2 (-5)); apply bpow_le; lia); lra|lia]).
  rewrite U0, (U1 N0), X0, X1, Y0, Y1 in I1. change (nrm (px q - px p) (py q - py p) <= inscribed (casteljau (map px pts)) (casteljau (map py pts)) u n) in I1. rewrite <- DN in I1.
  change (bpow radix2 (-21)) with (/ 2097152) in DL. change (bpow radix2 (-23)) with (/ 8388608) in DL. change (bpow radix2 (-8)) with (/ 256). assert (E68 : 0 < bpow radix2 (-68) <= / 1073741824) by (split; [apply bpow_gt_0|change (/ 1073741824) with (bpow radix2 (-30)); apply bpow_le; lia]).
  pose proof (polygon_nonneg qs) as S0. set (S := polygon qs) in *. set (I := inscribed _ _ _ _) in *. set (T := polygon pts) in *. set (D := dist p q) in *. set (e := bpow radix2 (k - 14)) in *. set (w := bpow radix2 (-68)) in *. set (N := INR n) in *.
  assert (NB : 0 <= N <= T + 2) by (split; [apply pos_INR|lra]). assert (NB2 : N <= 12290) by lra. clearbody S I T D e w N. clear - DL NR I1 I2 S0 NB NB2 E68 EK D1 DP.
  assert (NW : 0 <= N * w <= 12290 * w) by (split; [apply Rmult_le_pos; lra|apply Rmult_le_compat_r; lra]). assert (NE : 0 <= N * e <= (T + 2) * e) by (split; [apply Rmult_le_pos; lra|apply Rmult_le_compat_r; lra]).
  assert (SE : 0 <= S * (/ 2097152 + N * / 8388608) <= S * / 512) by (split; [apply Rmult_le_pos; lra|apply Rmult_le_compat_l; lra]). set (v := (T + 2) * e) in *. clearbody v. apply Rabs_le_inv in DL, NR. split; lra.
Qed.

Lemma spline_size k t w x y z : 0 <= t <= 1 -> Rabs w <= bpow radix2 k -> Rabs x <= bpow radix2 k -> Rabs y <= bpow radix2 k -> Rabs z <= bpow radix2 k -> Rabs (spline w x y z t) <= bpow radix2 (k + 4).
Proof.
  intros T X1 X2 X3 X4. rewrite bpow_plus. change (bpow radix2 4) with 16. pose proof (bpow_gt_0 radix2 k) as U0. set (U := bpow radix2 k) in *. clearbody U. unfold spline.
  assert (T2 : 0 <= t * t <= 1) by (split; [apply Rmult_le_pos; lra|rewrite <- (Rmult_1_l 1); apply Rmult_le_compat; lra]). assert (T3 : 0 <= t * t * t <= 1) by (split; [apply Rmult_le_pos; lra|rewrite <- (Rmult_1_l 1); apply Rmult_le_compat; lra]).
  assert (MM : forall s h, 0 <= s <= 1 -> Rabs h <= U -> - U <= h * s <= U). { intros s h S H. apply Rabs_le_inv. rewrite Rabs_mult, (Rabs_pos_eq s) by lra. rewrite <- (Rmult_1_r U). apply Rmult_le_compat; try apply Rabs_pos; lra. }
  pose proof (MM t w T X1). pose proof (MM _ w T2 X1). pose proof (MM _ w T3 X1). pose proof (MM t x T X2). pose proof (MM _ x T2 X2). pose proof (MM _ x T3 X2). pose proof (MM t y T X3). pose proof (MM _ y T2 X3). pose proof (MM _ y T3 X3). pose proof (MM t z T X4). pose proof (MM _ z T2 X4). pose proof (MM _ z T3 X4). apply Rabs_le_inv in X1, X2, X3, X4. apply Rabs_le. split; lra.
Qed.
(** A Catmull-Rom curve is cut into as many sections as its second and third
    point are apart, rounded up. *)
Theorem C97_catmull_length : forall k a b c d cm, (0 <= k <= 16)%Z -> Forall (SpecCurves.within k) [a; b; c; d] -> new_catmull [a; b; c; d] = Ok cm ->
  exists n u qs, rounded_up (bpow radix2 (k - 15)) (dist b c) n /\ sectioned (bpow radix2 (k - 16)) (spline (px a) (px b) (px c) (px d)) (spline (py a) (py b) (py c) (py d)) n u qs /\ summed n (cm_length cm) (polygon qs).
Proof.
  intros k a b c d cm K W H. destruct (C93_catmull [a; b; c; d]) as (_ & C). destruct (C a b c d eq_refl) as (cm' & H' & _ & SP). assert (E : cm' = cm) by (rewrite H in H'; apply Ok_inj in H'; now symmetry). subst cm'. clear H' C.
  assert (CP : cm_points cm = [a; b; c; d] /\ cm_length cm = catmull_length a b c d) by (apply Ok_inj in H; subst cm; split; reflexivity). destruct CP as (CP & CL). clear H.
  assert (PT : forall t, fin t -> 0 <= B2R t <= 1 -> close (bpow radix2 (k - 16)) (catmull_point a b c d t) (spline (px a) (px b) (px c) (px d) (B2R t)) (spline (py a) (py b) (py c) (py d) (B2R t))).
  { intros t Ft Bt. destruct (SP k t ltac:(lia) W Ft Bt) as (q & Eq & Sq). unfold cm_point_at in Eq. rewrite CP in Eq. apply Ok_inj in Eq. subst q. exact Sq. }
  rewrite CL. clear SP CP CL cm. rewrite Forall_forall in W. pose proof (W a ltac:(cbn; tauto)) as Wa. pose proof (W b ltac:(cbn; tauto)) as Wb. pose proof (W c ltac:(cbn; tauto)) as Wc. pose proof (W d ltac:(cbn; tauto)) as Wd. clear W.
  unfold catmull_length. cbv zeta. destruct (vdst_acc b c k ltac:(lia) Wb Wc) as (FV & PV & DV). pose proof (geo_bound k b c Wb Wc) as GB. assert (DG : dist b c = geo b c) by (rewrite dist_geo; unfold geo, nrm; f_equal; ring). rewrite <- DG in *. pose proof (dist_pos b c) as D0.
  assert (BK : bpow radix2 k <= 65536) by (change 65536 with (bpow radix2 16); apply bpow_le; lia). change (bpow radix2 (-21)) with (/ 2097152) in DV. assert (E69 : bpow radix2 (-69) <= bpow radix2 (k - 16)) by (apply bpow_le; lia). assert (E15 : bpow radix2 (k - 15) = 2 * bpow radix2 (k - 16)) by (replace (k - 15)%Z with (1 + (k - 16))%Z by lia; rewrite bpow_plus; reflexivity). assert (E16 : bpow radix2 k = 65536 * bpow radix2 (k - 16)) by (replace k with (16 + (k - 16))%Z at 1 by lia; rewrite bpow_plus; reflexivity).
  apply Rabs_le_inv in DV. destruct (ceil_sections (vdst b c) FV ltac:(lra)) as (n & N & Fg & Vg & Tn & Bn). rewrite Tn. set (g := gceil (vdst b c)) in *. clearbody g.
  rewrite (spline_stroll (fun z => catmull_point a b c d (gdiv (g_of_Z z) g))) by lia. change (Z.of_nat (1 - 1)) with 0%Z. set (f := fun i => catmull_point a b c d (gdiv (g_of_Z (Z.of_nat i)) g)). change (fun i : nat => catmull_point a b c d (gdiv (g_of_Z (Z.of_nat i)) g)) with f.
  change (catmull_point a b c d (gdiv (g_of_Z 0) g)) with (f 0%nat). set (q0 := if Nat.eqb n 0 then b else f 0%nat).
  assert (C0 : close (bpow radix2 (k - 16)) q0 (spline (px a) (px b) (px c) (px d) 0) (spline (py a) (py b) (py c) (py d) 0)).
  { unfold q0. destruct n as [|n]; cbn [Nat.eqb].
    - unfold spline, close. pose proof (bpow_gt_0 radix2 (k - 16)). split; [apply Wb|]. split; [apply Wb|]. split; (match goal with |- Rabs ?z <= _ => replace z with 0 by field end); rewrite Rabs_R0; lra.
    - destruct (section_end g (S n) 0 Fg Vg N ltac:(lia) ltac:(lia)) as (F0 & B0 & _). pose proof (PT _ F0 B0) as Q. assert (Z : B2R (gdiv (g_of_Z (Z.of_nat 0)) g) = 0); [|rewrite Z in Q; exact Q].
      destruct (g_of_Z_exact 0 ltac:(lia)) as (Fi & Vi). assert (NP : 1 <= INR (S n)) by (change 1 with (INR 1); apply le_INR; lia). destruct (gdiv_fin (g_of_Z 0) g Fi Fg ltac:(lra)) as (_ & Vt); [rewrite Vi; unfold Rdiv; rewrite Rmult_0_l; apply small127; lra|]. change (Z.of_nat 0) with 0%Z. rewrite Vt, Vi. unfold Rdiv. rewrite Rmult_0_l. replace 0 with (B2R g0) by reflexivity. apply rnd32_id. }
  pose proof (sections_at (catmull_point a b c d) _ _ _ g n q0 Fg Vg N PT C0) as SC. fold f in SC. eexists. eexists. eexists. split; [|split; [exact SC|]].
  - unfold rounded_up. lra.
  - apply drift_summed. pose proof (sectioned_within k _ _ _ _ _ ltac:(lia) SC) as WI. assert (WQ : Forall (SpecCurves.within (k + 5)) (q0 :: map f (seq 1 n))) by (apply WI; intros t Bt; split; apply spline_size; try exact Bt; first [apply Wa|apply Wb|apply Wc|apply Wd]). clear WI SC.
    replace (fst (fold_left stroll (map f (seq 1 n)) (g0, f 0%nat))) with (fst (fold_left stroll (map f (seq 1 n)) (g0, q0))) by (unfold q0; destruct n; reflexivity).
    assert (LQ : length (map f (seq 1 n)) = n) by (rewrite map_length, seq_length; reflexivity). rewrite <- LQ at 1. apply (stroll_total (k + 5)); [lia|rewrite LQ; lia|exact WQ].
Qed.

(** The comment of CalculateLength promises two decimals, in most cases.  Not
    always: this curve is at least two hundredths longer, as it contains a
    longer polyline. *)
Lemma nrm_at a b v : 0 <= v -> a * a + b * b <= v * v -> nrm a b <= v.
Proof. intros V H. apply le_of_sq; [exact V|]. rewrite nrm_sq. exact H. Qed.
Lemma nrm_from a b v : v * v <= a * a + b * b -> v <= nrm a b.
Proof. intros H. apply le_of_sq; [apply nrm_pos|]. rewrite nrm_sq. exact H. Qed.
Theorem C97_accuracy_refuted : pow_small -> exists pts bz u n, Forall (whole 1) pts /\ new_bezier pts = Ok bz /\ is_finite (bz_length bz) = true /\
  u O = 0 /\ u n = 1 /\ (forall i, (i < n)%nat -> u i <= u (S i)) /\ B2R (bz_length bz) + / 50 <= inscribed (casteljau (map px pts)) (casteljau (map py pts)) u n.
Proof.
  intros P. set (pts := [pt 0 0; pt 1 1; pt 1 0]). assert (E : exists bz, new_bezier pts = Ok bz) by (eexists; exact eq_refl). destruct E as (bz & E). exists pts, bz, (fun i => INR i / 6), 6%nat.
  destruct (gq1_exact 0) as (F0 & V0); [lia|]. destruct (gq1_exact 1) as (F1 & V1); [lia|].
  split. { repeat constructor; try reflexivity; eexists; eexists; (split; [|split; [|split]]); try (apply gq1_exact; lia); lia. }
  split; [exact E|]. assert (W : Forall (SpecCurves.within 0) pts). { apply Forall_forall. intros p [<-|[<-|[<-|[]]]]; unfold pt, SpecCurves.within; cbn [vx vy]; split; split; try assumption; rewrite ?V0, ?V1; change (bpow radix2 0) with 1; rewrite Rabs_pos_eq; lra. }
  destruct (C97_bezier_length P 0 pts bz ltac:(lia) ltac:(cbn; lia) W E) as (n & u & qs & (R1 & R2) & (LQ & U0 & U1 & UM & UB) & _ & (FL & DL)). split; [exact FL|].
  split; [change (INR 0) with 0; lra|]. split; [replace (INR 6) with 6 by (cbn; lra); lra|]. split; [intros i I; unfold Rdiv; apply Rmult_le_compat_r; [lra|apply le_INR; lia]|].
  assert (PO : 2.4 <= polygon pts <= 2.5). { unfold pts, pt. cbn [polygon]. unfold dist, px, py. cbn [vx vy]. rewrite V0, V1. pose proof (nrm_from (1 - 0) (1 - 0) 1.41 ltac:(lra)) as A1. pose proof (nrm_at (1 - 0) (1 - 0) 1.42 ltac:(lra) ltac:(lra)) as A2. pose proof (nrm_from (1 - 1) (0 - 1) 1 ltac:(lra)) as A3. pose proof (nrm_at (1 - 1) (0 - 1) 1 ltac:(lra) ltac:(lra)) as A4. unfold nrm in A1, A2, A3, A4. lra. }
  change (bpow radix2 (0 - 15)) with (/ 32768) in *. assert (N3 : n = 3%nat). { apply INR_eq. destruct (le_lt_dec n 2) as [Z|Z]; [apply le_INR in Z; cbn in Z; lra|]. destruct (le_lt_dec 4 n) as [Y|Y]; [apply le_INR in Y; cbn in Y; lra|]. f_equal. lia. } subst n. clear R1 R2 PO E W.
  pose proof (inscribed_near (bpow radix2 (0 - 16)) (casteljau (map px pts)) (casteljau (map py pts)) u 3 qs LQ ltac:(intros i I; apply UB; exact I)) as NR. change (bpow radix2 (0 - 16)) with (/ 65536) in NR.
  assert (X : forall t, casteljau (map px pts) t = t * (2 - t)) by (intros t; unfold casteljau, pts, pt, px; cbn [map vx length Nat.sub mixed mix hd]; rewrite V0, V1; ring). assert (Y : forall t, casteljau (map py pts) t = 2 * t * (1 - t)) by (intros t; unfold casteljau, pts, pt, py; cbn [map vy length Nat.sub mixed mix hd]; rewrite V0, V1; ring).
  assert (NR' : polygon qs <= inscribed (casteljau (map px pts)) (casteljau (map py pts)) u 3 + / 1000) by (apply Rabs_le_inv in NR; replace (INR 3) with 3 in NR by (cbn; lra); lra). clear NR.
  assert (Lo : inscribed (casteljau (map px pts)) (casteljau (map py pts)) u 3 <= 1.504).
  { destruct (UB 1%nat ltac:(lia)) as (_ & D1 & _). destruct (UB 2%nat ltac:(lia)) as (_ & D2 & _). specialize (U1 ltac:(lia)). replace (INR 3) with 3 in D1, D2 by (cbn; lra). replace (INR 2) with 2 in D2 by (cbn; lra). change (INR 1) with 1 in D1. change (bpow radix2 (-24)) with (/ 16777216) in D1, D2.
    cbn [inscribed]. rewrite !X, !Y, U0, U1. set (s := u 1%nat) in *. set (t := u 2%nat) in *. clearbody s t. clear - D1 D2.
    change (0 + nrm (s * (2 - s) - 0 * (2 - 0)) (2 * s * (1 - s) - 2 * 0 * (1 - 0)) + nrm (t * (2 - t) - s * (2 - s)) (2 * t * (1 - t) - 2 * s * (1 - s)) + nrm (1 * (2 - 1) - t * (2 - t)) (2 * 1 * (1 - 1) - 2 * t * (1 - t)) <= 1.504).
    apply Rabs_le_inv in D1, D2. assert (S2 : 0.11111 <= s * s <= 0.11112) by nra. assert (T2 : 0.44444 <= t * t <= 0.44445) by nra.
    pose proof (nrm_at (s * (2 - s) - 0 * (2 - 0)) (2 * s * (1 - s) - 2 * 0 * (1 - 0)) 0.7116 ltac:(lra) ltac:(nra)). pose proof (nrm_at (t * (2 - t) - s * (2 - s)) (2 * t * (1 - t) - 2 * s * (1 - s)) 0.3335 ltac:(lra) ltac:(nra)). pose proof (nrm_at (1 * (2 - 1) - t * (2 - t)) (2 * 1 * (1 - 1) - 2 * t * (1 - t)) 0.4583 ltac:(lra) ltac:(nra)). lra. }
  assert (Hi : 1.53 <= inscribed (casteljau (map px pts)) (casteljau (map py pts)) (fun i => INR i / 6) 6).
  { cbn [inscribed]. rewrite !X, !Y. replace (INR 6) with 6 by (cbn; lra). replace (INR 5) with 5 by (cbn; lra). replace (INR 4) with 4 by (cbn; lra). replace (INR 3) with 3 by (cbn; lra). replace (INR 2) with 2 by (cbn; lra). change (INR 1) with 1. change (INR 0) with 0.
    assert (Q : forall a b v, v * v <= a * a + b * b -> v <= sqrt (a * a + b * b)) by (intros a b v; apply nrm_from).
    match goal with |- _ <= 0 + sqrt (?a1 * _ + ?b1 * _) + sqrt (?a2 * _ + ?b2 * _) + sqrt (?a3 * _ + ?b3 * _) + sqrt (?a4 * _ + ?b4 * _) + sqrt (?a5 * _ + ?b5 * _) + sqrt (?a6 * _ + ?b6 * _) => pose proof (Q a1 b1 0.4129 ltac:(lra)); pose proof (Q a2 b2 0.3004 ltac:(lra)); pose proof (Q a3 b3 0.2022 ltac:(lra)); pose proof (Q a4 b4 0.1495 ltac:(lra)); pose proof (Q a5 b5 0.1863 ltac:(lra)); pose proof (Q a6 b6 0.2791 ltac:(lra)) end. lra. }
  change (bpow radix2 (-21)) with (/ 2097152) in DL. change (bpow radix2 (-23)) with (/ 8388608) in DL. replace (INR 3) with 3 in DL by (cbn; lra). assert (E68 : bpow radix2 (-68) <= / 1073741824) by (change (/ 1073741824) with (bpow radix2 (-30)); apply bpow_le; lia). apply Rabs_le_inv in DL. lra.
Qed.
End WithLibm.

(** ** Non-vacuity *)
(** A cubic curve on the playfield, and what follows for its length. *)
Example C97_instance : @pow_small poly_libm /\ Forall (SpecCurves.within 9) [pt 0 0; pt 100 0; pt 100 100; pt 0 200] /\ 341 <= polygon [pt 0 0; pt 100 0; pt 100 100; pt 0 200] <= 342 /\
  dist (pt 0 0) (pt 0 200) = 200 /\ exists bz, @new_bezier poly_libm [pt 0 0; pt 100 0; pt 100 100; pt 0 200] = Ok bz /\ is_finite (bz_length bz) = true /\ 188 <= B2R (bz_length bz) <= 355.
Proof.
  split; [apply poly_small|]. set (pts := [pt 0 0; pt 100 0; pt 100 100; pt 0 200]). assert (W : Forall (SpecCurves.within 9) pts) by (repeat (apply Forall_cons; [apply pt_within; lia|]); apply Forall_nil). split; [exact W|].
  destruct (gq1_exact 0) as (F0 & V0); [lia|]. destruct (gq1_exact 100) as (F1 & V1); [lia|]. destruct (gq1_exact 200) as (F2 & V2); [lia|].
  assert (Q : forall a b v, 0 <= v -> v * v = a * a + b * b -> sqrt (a * a + b * b) = v) by (intros a b v V <-; apply sqrt_square; exact V).
  assert (PO : 341 <= polygon pts <= 342). { unfold pts, pt. cbn [polygon]. unfold dist, px, py. cbn [vx vy]. rewrite V0, V1, V2. rewrite (Q (100 - 0) (0 - 0) 100), (Q (100 - 100) (100 - 0) 100) by lra.
    pose proof (nrm_from (0 - 100) (200 - 100) 141.4 ltac:(lra)) as A1. pose proof (nrm_at (0 - 100) (200 - 100) 141.5 ltac:(lra) ltac:(lra)) as A2. unfold nrm in A1, A2. lra. }
  split; [exact PO|]. assert (D : dist (pt 0 0) (pt 0 200) = 200) by (unfold pt, dist, px, py; cbn [vx vy]; rewrite V0, V2; apply Q; lra). split; [exact D|].
  assert (E : exists bz, @new_bezier poly_libm pts = Ok bz) by (eexists; exact eq_refl). destruct E as (bz & E). exists bz. split; [exact E|].
  destruct (@C97_bezier_bounds poly_libm poly_small 9 pts bz (pt 0 0) (pt 0 200) ltac:(lia) ltac:(cbn; lia) W E eq_refl eq_refl) as (F & B1 & B2); [rewrite D; lra|]. rewrite D in B1. change (bpow radix2 (-8)) with (/ 256) in B1, B2. change (bpow radix2 (9 - 14)) with (/ 32) in B1, B2. split; [exact F|]. lra.
Qed.
(** Likewise a Catmull-Rom curve: 100 sections. *)
Example C97_catmull_instance : Forall (SpecCurves.within 9) [pt 0 0; pt 100 0; pt 100 100; pt 100 200] /\ dist (pt 100 0) (pt 100 100) = 100 /\ exists cm, new_catmull [pt 0 0; pt 100 0; pt 100 100; pt 100 200] = Ok cm.
Proof.
  split; [repeat (apply Forall_cons; [apply pt_within; lia|]); apply Forall_nil|]. split; [|eexists; exact eq_refl]. destruct (gq1_exact 0) as (F0 & V0); [lia|]. destruct (gq1_exact 100) as (F1 & V1); [lia|].
  unfold pt, dist, px, py. cbn [vx vy]. rewrite V0, V1. replace ((100 - 100) * (100 - 100) + (100 - 0) * (100 - 0)) with (100 * 100) by ring. apply sqrt_square. lra.
Qed.
Print Assumptions C97_bezier_na.
Print Assumptions C97_bezier_length.
Print Assumptions C97_inscribed.
Print Assumptions C97_bezier_bounds.
Print Assumptions C97_catmull_length.
Print Assumptions C97_accuracy_refuted.

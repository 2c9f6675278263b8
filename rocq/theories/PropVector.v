(** C92: the vector and rounding helpers of the API. *)
From Coq Require Import Reals Lra ZArith Lia Bool.
From Flocq Require Import Raux Zaux Core BinarySingleNaN.
From Verif Require Import Helpers SpecCurves SpecArc BaseLemmas FloatLemmas Float32Lemmas KeyLemmas BoundLemmas NearLemmas BezierTerm ArcProofs ArcShape CurveBounds VectorProofs PropArc.
Open Scope R_scope.

(** C92.  The point in the middle of two points is between them, and in the
    middle but for the rounding; so the middle of a point and itself is it. *)
Theorem C92_mid : forall k a b, (-100 <= k <= 126)%Z -> SpecCurves.within k a -> SpecCurves.within k b -> let m := vmid a b in
  close (bpow radix2 (k - 23)) m ((px a + px b) / 2) ((py a + py b) / 2) /\
  (Rmin (px a) (px b) <= px m <= Rmax (px a) (px b)) /\ (Rmin (py a) (py b) <= py m <= Rmax (py a) (py b)).
Proof.
  intros k a b K ((Fa & Ba) & (Ga & Ca)) ((Fb & Bb) & (Gb & Cb)) m. destruct (mid_coord _ _ k K Fa Fb Ba Bb) as (F1 & L1 & D1). destruct (mid_coord _ _ k K Ga Gb Ca Cb) as (F2 & L2 & D2).
  split; [|split; [exact L1|exact L2]]. split; [exact F1|]. split; [exact F2|]. split; [exact D1|exact D2].
Qed.
(** Without a bound it is not: the middle of two points at 3 * 10^38 is infinitely far away. *)
Theorem C92_mid_refuted : exists a, finite_point a /\ is_finite (vx (vmid a a)) = false.
Proof. exists (mkVec (g_of_Z (3 * 10 ^ 38)) g0). split; [split|]; vm_compute; reflexivity. Qed.

(** Nor returns a vector of length one in the same direction; or, if it is
    shorter than a three-hundredth, the vector itself. *)
Theorem C92_nor : forall v, SpecCurves.within 60 v -> let h := sqrt (px v * px v + py v * py v) in
  (h <= 316228 / 100000000 /\ vnor v = v) \/ (316227 / 100000000 <= h /\ close (bpow radix2 (-22)) (vnor v) (px v / h) (py v / h)).
Proof. exact nor_cases. Qed.
Theorem C92_nor_length : forall v, SpecCurves.within 60 v -> 316228 / 100000000 < sqrt (px v * px v + py v * py v) -> Rabs (sqrt (px (vnor v) * px (vnor v) + py (vnor v) * py (vnor v)) - 1) <= bpow radix2 (-21).
Proof.
  intros v W L. destruct (C92_nor v W) as [(H & _)|(_ & _ & _ & D1 & D2)]; [lra|]. set (h := sqrt _) in *. set (x := px (vnor v)) in *. set (y := py (vnor v)) in *. change (bpow radix2 (-22)) with (/ 4194304) in *. change (bpow radix2 (-21)) with (/ 2097152).
  assert (H2 : px v * px v + py v * py v = h * h). { unfold h. rewrite sqrt_sqrt; [reflexivity|]. pose proof (Rle_0_sqr (px v)). pose proof (Rle_0_sqr (py v)). unfold Rsqr in *. lra. }
  set (c := px v / h) in *. set (s := py v / h) in *. assert (U : c * c + s * s = 1). { unfold c, s. replace (px v / h * (px v / h) + py v / h * (py v / h)) with ((px v * px v + py v * py v) / (h * h)) by (field; lra). rewrite H2. field. lra. }
  clearbody c s x y. set (d := / 4194304) in *. assert (D : 0 < d <= / 4194304) by (unfold d; lra). assert (E : / 2097152 = 2 * d) by (unfold d; lra). rewrite E. clearbody d. apply Rabs_le_inv in D1, D2.
  assert (C1 : -1 <= c <= 1) by nra. assert (S1 : -1 <= s <= 1) by nra.
  assert (CS : -(3/2) <= c * ((x - c) / d) + s * ((y - s) / d) <= 3/2).
  { assert (A1 : -1 <= (x - c) / d <= 1). { split; apply Rmult_le_reg_r with d; try lra; unfold Rdiv; rewrite Rmult_assoc, Rinv_l by lra; lra. } assert (A2 : -1 <= (y - s) / d <= 1). { split; apply Rmult_le_reg_r with d; try lra; unfold Rdiv; rewrite Rmult_assoc, Rinv_l by lra; lra. }
    set (p := (x - c) / d) in *. set (q := (y - s) / d) in *. clearbody p q. assert (P : p * p <= 1) by nra. assert (Q : q * q <= 1) by nra. assert (X : (c * p + s * q) * (c * p + s * q) <= 2). { assert (I : (c * p + s * q) * (c * p + s * q) + (c * q - s * p) * (c * q - s * p) = (c * c + s * s) * (p * p + q * q)) by ring. rewrite U in I. pose proof (Rle_0_sqr (c * q - s * p)) as Z. unfold Rsqr in Z. lra. }
    clear -X. split; apply Rnot_lt_le; intros N; nra. }
  assert (T : x * x + y * y = 1 + 2 * d * (c * ((x - c) / d) + s * ((y - s) / d)) + ((x - c) * (x - c) + (y - s) * (y - s))). { replace 1 with (c * c + s * s) by exact U. field. lra. }
  set (w := c * ((x - c) / d) + s * ((y - s) / d)) in *. clearbody w. set (o := (x - c) * (x - c) + (y - s) * (y - s)) in *. assert (O : 0 <= o <= 2 * d * d). { unfold o. split; [pose proof (Rle_0_sqr (x - c)); pose proof (Rle_0_sqr (y - s)); unfold Rsqr in *; lra|]. assert ((x - c) * (x - c) <= d * d) by nra. assert ((y - s) * (y - s) <= d * d) by nra. lra. } clearbody o.
  assert (WD : - (3 / 2 * d) <= d * w <= 3 / 2 * d) by nra. assert (DD : 0 <= d * d <= d * / 4194304) by nra.
  rewrite T. replace (2 * d * w) with (2 * (d * w)) by ring. apply Rabs_le. split.
  - assert (1 - 2 * d <= sqrt (1 + 2 * (d * w) + o)); [|lra]. rewrite <- (sqrt_square (1 - 2 * d)) by lra. apply sqrt_le_1_alt. nra.
  - assert (sqrt (1 + 2 * (d * w) + o) <= 1 + 2 * d); [|lra]. rewrite <- (sqrt_square (1 + 2 * d)) by lra. apply sqrt_le_1_alt. nra.
Qed.
(** A vector longer than 2^64 becomes the null vector: its square overflows. *)
Theorem C92_nor_huge_refuted : forall v, finite_point v -> bpow radix2 64 <= Rabs (px v) \/ bpow radix2 64 <= Rabs (py v) -> vec_eqb (vnor v) vzero = true.
Proof. exact nor_huge. Qed.

(** Rotate turns by the angle it is given. *)
Theorem C92_rotate {M : libm} : trig_near -> forall k v rad, (0 <= k <= 40)%Z -> SpecCurves.within k v -> is_finite rad = true -> Rabs (B2R rad) <= 12 ->
  close (bpow radix2 (k - 19)) (vrotate v rad) (px v * cos (B2R rad) - py v * sin (B2R rad)) (px v * sin (B2R rad) + py v * cos (B2R rad)).
Proof. intros T k v rad K W F B. now apply rotate_near. Qed.

(** Distances do not depend on the order of the points, not even in the last bit or for NaNs. *)
Theorem C92_distance : forall a b, vdst a b = vdst b a /\ vdstsq a b = vdstsq b a.
Proof. intros a b. split; [apply dst_sym|apply dstsq_sym]. Qed.
(** DstSq is the square of the distance, but for the rounding. *)
Lemma square_shift x x' : Rabs x <= bpow radix2 60 -> Rabs (x' - x) <= Rabs x * bpow radix2 (-24) + bpow radix2 (-150) -> Rabs (x' * x' - x * x) <= x * x * (3 * bpow radix2 (-24)) + bpow radix2 (-88).
Proof.
  intros B E. replace (x' * x' - x * x) with ((x' - x) * (x' + x)) by ring. rewrite Rabs_mult. replace (x * x) with (Rabs x * Rabs x) by (rewrite <- Rabs_mult; apply Rabs_pos_eq, Rle_0_sqr). set (r := Rabs x) in *. assert (R0 : 0 <= r) by apply Rabs_pos.
  set (e := bpow radix2 (-150)) in *. assert (P : 0 < e) by apply bpow_gt_0. set (D := Rabs (x' - x)) in *. assert (D0 : 0 <= D) by apply Rabs_pos.
  assert (S : Rabs (x' + x) <= 2 * r + D). { replace (x' + x) with ((x' - x) + 2 * x) by ring. eapply Rle_trans; [apply Rabs_triang|]. rewrite Rabs_mult, (Rabs_pos_eq 2) by lra. fold D r. lra. }
  assert (U : bpow radix2 (-24) = / 16777216) by reflexivity. rewrite U in *. assert (RE : r * e <= bpow radix2 (-90)) by (change (-90)%Z with (60 + -150)%Z; rewrite bpow_plus; apply Rmult_le_compat_r; [fold e; lra|exact B]).
  assert (E4 : bpow radix2 (-88) = 4 * bpow radix2 (-90)) by (change 4 with (bpow radix2 2); rewrite <- bpow_plus; reflexivity). rewrite E4. assert (EE : e * e <= bpow radix2 (-90)) by (unfold e; rewrite <- bpow_plus; apply bpow_le; lia).
  apply Rle_trans with ((r * / 16777216 + e) * (2 * r + (r * / 16777216 + e))); [apply Rmult_le_compat; try lra; apply Rabs_pos|].
  assert (RR : 0 <= r * r) by (apply Rmult_le_pos; lra). assert (0 <= r * e) by (apply Rmult_le_pos; lra). lra.
Qed.
Theorem C92_distance_squared : forall a b, SpecCurves.within 58 a -> SpecCurves.within 58 b -> let q := (px b - px a) * (px b - px a) + (py b - py a) * (py b - py a) in
  is_finite (vdstsq a b) = true /\ Rabs (B2R (vdstsq a b) - q) <= q * bpow radix2 (-21) + bpow radix2 (-86).
Proof.
  intros a b ((Fax & Bax) & (Fay & Bay)) ((Fbx & Bbx) & (Fby & Bby)) q. assert (B58 : bpow radix2 58 + bpow radix2 58 = bpow radix2 59) by (change 59%Z with (1 + 58)%Z; rewrite bpow_plus; change (bpow radix2 1) with 2; ring).
  assert (L59 : bpow radix2 59 <= bpow radix2 127) by (apply bpow_le; lia). assert (L60 : bpow radix2 59 <= bpow radix2 60) by (apply bpow_le; lia). apply Rabs_le_inv in Bax, Bay, Bbx, Bby.
  destruct (gsub_fin (vx b) (vx a) Fbx Fax) as [F1 V1]; [apply Rabs_le; lra|]. destruct (gsub_fin (vy b) (vy a) Fby Fay) as [F2 V2]; [apply Rabs_le; lra|].
  fold (px a) (px b) in V1, Bax, Bbx. fold (py a) (py b) in V2, Bay, Bby. set (X := px b - px a) in *. set (Y := py b - py a) in *. assert (BX : Rabs X <= bpow radix2 59) by (unfold X; apply Rabs_le; lra). assert (BY : Rabs Y <= bpow radix2 59) by (unfold Y; apply Rabs_le; lra).
  change (vdstsq a b) with (vlensq (mkVec (gsub (vx b) (vx a)) (gsub (vy b) (vy a)))). destruct (lensq_near (mkVec (gsub (vx b) (vx a)) (gsub (vy b) (vy a)))) as (F & _ & E).
  { split; split; [exact F1| |exact F2|]; cbn [vx vy]; [rewrite V1|rewrite V2]; apply (rnd32_bound _ 60); try lia; lra. }
  split; [exact F|]. unfold px, py in E. cbn [vx vy] in E. rewrite V1, V2 in E.
  assert (EX : Rabs (rnd32 X * rnd32 X - X * X) <= X * X * (3 * bpow radix2 (-24)) + bpow radix2 (-88)) by (apply square_shift; [lra|apply rnd32_errR; lra]).
  assert (EY : Rabs (rnd32 Y * rnd32 Y - Y * Y) <= Y * Y * (3 * bpow radix2 (-24)) + bpow radix2 (-88)) by (apply square_shift; [lra|apply rnd32_errR; lra]).
  unfold q. clear q. pose proof (Rle_0_sqr X) as PX. pose proof (Rle_0_sqr Y) as PY. unfold Rsqr in PX, PY. set (x2 := X * X) in *. set (y2 := Y * Y) in *. set (x2' := rnd32 X * rnd32 X) in *. set (y2' := rnd32 Y * rnd32 Y) in *.
  assert (U : bpow radix2 (-24) = / 16777216) by reflexivity. assert (U21 : bpow radix2 (-21) = / 2097152) by reflexivity. unfold u24 in E. rewrite U in *. rewrite U21.
  assert (E4 : bpow radix2 (-86) = 4 * bpow radix2 (-88)) by (change 4 with (bpow radix2 2); rewrite <- bpow_plus; reflexivity). rewrite E4. assert (TN : 4 * tiny <= bpow radix2 (-88)) by (change 4 with (bpow radix2 2); unfold tiny; rewrite <- bpow_plus; apply bpow_le; lia). pose proof (bpow_gt_0 radix2 (-88)).
  apply Rabs_le_inv in EX, EY. apply Rabs_le. lra.
Qed.
(** But a distance of zero does not mean that the points are equal. *)
Theorem C92_distance_refuted : exists a b, finite_point a /\ finite_point b /\ vec_eqb a b = false /\ geq (vdst a b) g0 = true.
Proof. exists (mkVec g0 g0), (mkVec (gdiv (gq 1 1) (g_of_Z (2 ^ 80))) g0). split; [split; reflexivity|]. split; [split; vm_compute; reflexivity|]. split; vm_compute; reflexivity. Qed.

(** AngleBetween32 takes the Acos of the law of cosines, with the triangle's
    sides rounded: at the centre itself it is NaN, and it can be for points in line. *)
Definition acos_nan {M : libm} : Prop := (forall x, is_nan x = true -> is_nan (macos x) = true) /\ (forall x, flt (fq 1 1) x = true -> is_nan (macos x) = true).
Theorem C92_angle_refuted {M : libm} : acos_nan ->
  (forall c p, SpecCurves.within 60 c -> SpecCurves.within 60 p -> is_nan (angle_between c c p) = true) /\
  is_nan (angle_between (mkVec g0 g0) (mkVec (gq 1 1) (gq 1 1)) (mkVec (gq 5 1) (gq 5 1))) = true.
Proof.
  intros (N1 & N2). split.
  - intros c p Wc Wp. destruct (vdst_bnd 60 c p ltac:(lia) Wc Wp) as ((Fb & Bb) & _). unfold angle_between, gacos. assert (R : is_nan (angle_ratio c c p) = true); [|].
    2: { destruct (angle_ratio c c p); try discriminate R. assert (X : is_nan (macos (f_of_g B754_nan)) = true) by (apply N1; reflexivity). destruct (macos _); try discriminate X. reflexivity. }
    unfold angle_ratio. cbv zeta. destruct (vdst_zero c) as (sa & Ea); [apply Wc|apply Wc|]. rewrite Ea. set (b := vdst c p) in *. clearbody b.
    assert (BB : Rabs (B2R b * B2R b) <= bpow radix2 124). { rewrite Rabs_mult. change 124%Z with (62 + 62)%Z. rewrite bpow_plus. apply Rmult_le_compat; try apply Rabs_pos; exact Bb. }
    destruct (gmul_fin b b Fb Fb) as (Fq & Eq); [apply Rle_trans with (1 := BB), bpow_le; lia|]. set (q := gmul b b) in *. assert (BQ : Rabs (B2R q) <= bpow radix2 124) by (rewrite Eq; apply rnd32_bound; [lia|exact BB]). clearbody q.
    assert (Z2 : gmul (B754_zero sa) (B754_zero sa) = B754_zero false) by (destruct sa; reflexivity). rewrite Z2.
    destruct (gadd_fin (B754_zero false) q eq_refl Fq) as (F1 & E1); [change (B2R (B754_zero false)) with 0; rewrite Rplus_0_l; apply Rle_trans with (1 := BQ), bpow_le; lia|]. change (B2R (B754_zero false)) with 0 in E1. rewrite Rplus_0_l, rnd32_id in E1.
    destruct (gsub_fin _ q F1 Fq) as (F2 & E2); [rewrite E1, Rminus_diag_eq, Rabs_R0 by reflexivity; apply bpow_ge_0|]. rewrite E1, Rminus_diag_eq, rnd32_0 in E2 by reflexivity. destruct (zero_form _ F2 E2) as (s2 & ->).
    assert (Z3 : gmul (gq 2 1) (B754_zero sa) = B754_zero sa) by (destruct sa; apply B2SF_inj; vm_compute; reflexivity). rewrite Z3.
    destruct b as [sb| | |sb m e E]; try discriminate Fb; destruct sa, sb, s2; reflexivity.
  - unfold angle_between, gacos. assert (R : flt (fq 1 1) (f_of_g (angle_ratio (mkVec g0 g0) (mkVec (gq 1 1) (gq 1 1)) (mkVec (gq 5 1) (gq 5 1)))) = true) by (vm_compute; reflexivity). apply N2 in R. destruct (macos _); try discriminate R. reflexivity.
Qed.

(** Round leaves whole numbers up to 2^22 alone, *)
Theorem C92_round : forall x z, is_finite x = true -> B2R x = IZR z -> (Z.abs z <= 2 ^ 22)%Z -> is_finite (ground x) = true /\ B2R (ground x) = IZR z.
Proof.
  intros x z F E B. destruct (gq1_exact 1) as (F1 & E1); [lia|]. bval (gq 1 2). assert (FH : fin (gq 1 2)) by (vm_compute; reflexivity). assert (H : B2R (gq 1 2) = / 2) by (rewrite V; lra). clear V.
  assert (EX : rnd32 (IZR z + / 2) = IZR z + / 2).
  { apply round_generic; [typeclasses eauto|]. replace (IZR z + / 2) with (F2R (Float radix2 (2 * z + 1) (-1))) by (unfold F2R; cbn [Fnum Fexp]; rewrite plus_IZR, mult_IZR; change (bpow radix2 (-1)) with (/ 2); field). change (SpecFloat.fexp 24 128) with (FLT_exp (-149) 24).
    apply generic_format_FLT. exists (Float radix2 (2 * z + 1) (-1)); cbn [Fnum Fexp]; [reflexivity| |lia]. change (radix2 ^ 24)%Z with (2 ^ 24)%Z. lia. }
  assert (ZB : Rabs (IZR z) <= IZR (2 ^ 22)) by (rewrite <- abs_IZR; apply IZR_le; exact B). change (IZR (2 ^ 22)) with 4194304 in ZB. apply Rabs_le_inv in ZB.
  destruct (gadd_fin x (gq 1 2) F FH) as (Fa & Ea). { rewrite E, H. apply small127. lra. } rewrite E, H, EX in Ea.
  unfold ground, gfloor. destruct (f_of_g_fin _ Fa) as (Ff & Ef). destruct (Bnearbyint_correct 53 1024 pe53 mode_DN (f_of_g (gadd x (gq 1 2)))) as (En & Fn & _). change (Bnearbyint mode_DN (f_of_g (gadd x (gq 1 2)))) with (ffloor (f_of_g (gadd x (gq 1 2)))) in En, Fn.
  rewrite Ef, Ea in En. assert (Fn' : fin (ffloor (f_of_g (gadd x (gq 1 2))))) by (exact (eq_trans Fn Ff)). assert (FL : Zfloor (IZR z + / 2) = z) by (apply Zfloor_imp; rewrite plus_IZR; lra).
  assert (Ev : B2R (ffloor (f_of_g (gadd x (gq 1 2)))) = IZR z). { rewrite En. unfold round, F2R, scaled_mantissa, cexp, FIX_exp. cbn [Fnum Fexp bpow Z.opp round_mode]. rewrite !Rmult_1_r. now rewrite FL. }
  destruct (g_of_f_fin _ Fn') as (Fg & Eg); [rewrite Ev; apply small127; lra|]. split; [exact Fg|]. rewrite Eg, Ev. apply rnd32_Z. lia.
Qed.
(** but not larger ones, nor does it always round to the nearest. *)
Theorem C92_round_refuted : geq (ground (g_of_Z 8388609)) (g_of_Z 8388610) = true /\ glt (gratio 49999997 100000000) (gq 1 2) = true /\ geq (ground (gratio 49999997 100000000)) (gq 1 1) = true.
Proof. split; [|split]; vm_compute; reflexivity. Qed.
(** LerpF32 starts at its first number and need not end at its second. *)
Theorem C92_lerp : forall a b, is_finite a = true -> is_finite b = true -> Rabs (B2R a) <= bpow radix2 127 -> Rabs (B2R b - B2R a) <= bpow radix2 127 -> B2R (lerpF32 a b g0) = B2R a.
Proof.
  intros a b Fa Fb BA B. destruct (gsub_fin b a Fb Fa B) as (Fs & _). unfold lerpF32. destruct (gmul_fin (gsub b a) g0 Fs eq_refl) as (Fm & Em); [change (B2R g0) with 0; rewrite Rmult_0_r, Rabs_R0; apply bpow_ge_0|].
  change (B2R g0) with 0 in Em. rewrite Rmult_0_r, rnd32_0 in Em. destruct (gadd_fin a _ Fa Fm) as (_ & ->); [rewrite Em, Rplus_0_r; exact BA|]. rewrite Em, Rplus_0_r. apply rnd32_id.
Qed.
Theorem C92_lerp_refuted : geq (lerpF32 (g_of_Z 16777216) (gq 1 10) (gq 1 1)) (gq 1 10) = false.
Proof. vm_compute. reflexivity. Qed.

(** ** Instances *)
Lemma at_34 : SpecCurves.within 3 (mkVec (gq 3 1) (gq 4 1)) /\ SpecCurves.within 60 (mkVec (gq 3 1) (gq 4 1)).
Proof.
  destruct (gq1_exact 3) as (F3 & E3); [lia|]. destruct (gq1_exact 4) as (F4 & E4); [lia|]. assert (B : bpow radix2 3 <= bpow radix2 60) by (apply bpow_le; lia). change (bpow radix2 3) with 8 in B.
  split; split; split; cbn [vx vy]; try assumption; rewrite ?E3, ?E4; change (bpow radix2 3) with 8; rewrite Rabs_pos_eq; lra.
Qed.
(** (0, 0) and (3, 4) are at a squared distance of 25 *)
Example C92_distance_squared_instance : SpecCurves.within 58 (mkVec (gq 0 1) (gq 0 1)) /\ SpecCurves.within 58 (mkVec (gq 3 1) (gq 4 1)) /\ geq (vdstsq (mkVec (gq 0 1) (gq 0 1)) (mkVec (gq 3 1) (gq 4 1))) (gq 25 1) = true.
Proof.
  destruct (gq1_exact 3) as (F3 & E3); [lia|]. destruct (gq1_exact 4) as (F4 & E4); [lia|]. destruct (gq1_exact 0) as (F0 & E0); [lia|]. assert (B : bpow radix2 3 <= bpow radix2 58) by (apply bpow_le; lia). change (bpow radix2 3) with 8 in B.
  split; [|split; [|vm_compute; reflexivity]]; split; split; cbn [vx vy]; try assumption; rewrite ?E0, ?E3, ?E4; rewrite Rabs_pos_eq; lra.
Qed.
(** (3, 4) has length 5: normalised (0.6, 0.8) *)
Example C92_nor_instance : SpecCurves.within 60 (mkVec (gq 3 1) (gq 4 1)) /\ 316228 / 100000000 < sqrt (px (mkVec (gq 3 1) (gq 4 1)) * px (mkVec (gq 3 1) (gq 4 1)) + py (mkVec (gq 3 1) (gq 4 1)) * py (mkVec (gq 3 1) (gq 4 1))) /\
  vec_eqb (vnor (mkVec (gq 3 1) (gq 4 1))) (mkVec (gq 3 5) (gq 4 5)) = true.
Proof.
  split; [apply at_34|]. split; [|vm_compute; reflexivity]. unfold px, py. cbn [vx vy]. destruct (gq1_exact 3) as (_ & ->); [lia|]. destruct (gq1_exact 4) as (_ & ->); [lia|]. replace (3 * 3 + 4 * 4) with (5 * 5) by ring. rewrite sqrt_square by lra. lra.
Qed.
(** a vector too short, and one too long *)
Example C92_nor_extremes : vnor (mkVec (gq 3 1000) g0) = mkVec (gq 3 1000) g0 /\ finite_point (mkVec (g_of_Z (2 ^ 70)) (gq 1 1)) /\ bpow radix2 64 <= Rabs (px (mkVec (g_of_Z (2 ^ 70)) (gq 1 1))).
Proof.
  split; [|split]; [|split; vm_compute; reflexivity|].
  - unfold vnor. assert (G : glt (vlensq (mkVec (gq 3 1000) g0)) (gq 1 100000) = true) by (vm_compute; reflexivity). cbv zeta. rewrite G. reflexivity.
  - unfold px. cbn [vx]. bval (g_of_Z (2 ^ 70)). rewrite V, Rabs_pos_eq by lra. change (bpow radix2 64) with 18446744073709551616. lra.
Qed.
Example C92_mid_instance : SpecCurves.within 3 (mkVec (gq 3 1) (gq 4 1)) /\ vec_eqb (vmid (mkVec (gq 3 1) (gq 4 1)) (mkVec (gq 4 1) (gq 1 1))) (mkVec (gq 7 2) (gq 5 2)) = true.
Proof. split; [apply at_34|vm_compute; reflexivity]. Qed.
Example C92_round_instance : is_finite (gq (-7) 1) = true /\ B2R (gq (-7) 1) = IZR (-7) /\ geq (ground (gq (-7) 2)) (gq (-3) 1) = true.
Proof. split; [vm_compute; reflexivity|]. split; [apply (gq1_exact (-7)); lia|vm_compute; reflexivity]. Qed.
(** (3, 4) turned by two radians *)
Example C92_rotate_instance : @trig_near ideal_libm /\ SpecCurves.within 3 (mkVec (gq 3 1) (gq 4 1)) /\ is_finite (gq 2 1) = true /\ Rabs (B2R (gq 2 1)) <= 12 /\
  close (bpow radix2 (-16)) (@vrotate ideal_libm (mkVec (gq 3 1) (gq 4 1)) (gq 2 1)) (3 * cos 2 - 4 * sin 2) (3 * sin 2 + 4 * cos 2).
Proof.
  destruct (gq1_exact 2) as (F2 & E2); [lia|]. destruct (gq1_exact 3) as (F3 & E3); [lia|]. destruct (gq1_exact 4) as (F4 & E4); [lia|]. assert (B : Rabs (B2R (gq 2 1)) <= 12) by (rewrite E2, Rabs_pos_eq; lra).
  split; [apply ideal_trig|]. split; [apply at_34|]. split; [exact F2|]. split; [exact B|].
  pose proof (@C92_rotate ideal_libm ideal_trig 3 (mkVec (gq 3 1) (gq 4 1)) (gq 2 1) ltac:(lia) (proj1 at_34) F2 B) as H. unfold px, py in H. cbn [vx vy] in H. rewrite E2, E3, E4 in H. exact H.
Qed.
(** an Acos that is NaN just outside of [-1, 1] *)
Definition domain_libm : libm := {| mpow := fun _ _ => fq 1 1; mlog10 := fun _ => fq 0 1; mcbrt := fun x => x; msin := fun x => x; mcos := fun x => x;
  macos := fun x => if fle (fq (-1) 1) x then if fle x (fq 1 1) then to_f (acos (B2R x)) else B754_nan else B754_nan; matan2 := fun y x => y |}.
Example C92_angle_instance : @acos_nan domain_libm /\ SpecCurves.within 60 (mkVec (gq 3 1) (gq 4 1)) /\ @macos domain_libm (fq 0 1) = to_f (acos (B2R (fq 0 1))).
Proof.
  split; [|split; [apply at_34|]].
  - split; intros x H; cbn [macos domain_libm].
    + destruct x; try discriminate H. replace (fle (fq (-1) 1) B754_nan) with false by (vm_compute; reflexivity). reflexivity.
    + destruct (fle (fq (-1) 1) x); [|reflexivity]. destruct (fle x (fq 1 1)) eqn:L; [|reflexivity]. exfalso. unfold flt, fle, Bltb, Bleb, SpecFloat.SFltb, SpecFloat.SFleb in *.
      pose proof (Bcompare_swap 53 1024 x (fq 1 1)) as S. unfold Bcompare in S. rewrite S in H. destruct (SpecFloat.SFcompare (B2SF x) (B2SF (fq 1 1))) as [[]|]; discriminate.
  - cbn [macos domain_libm]. replace (fle (fq (-1) 1) (fq 0 1)) with true by (vm_compute; reflexivity). replace (fle (fq 0 1) (fq 1 1)) with true by (vm_compute; reflexivity). exact eq_refl.
Qed.
Example C92_lerp_instance : is_finite (gq 2 1) = true /\ is_finite (gq 5 1) = true /\ Rabs (B2R (gq 2 1)) <= bpow radix2 127 /\ Rabs (B2R (gq 5 1) - B2R (gq 2 1)) <= bpow radix2 127 /\ geq (lerpF32 (gq 2 1) (gq 5 1) (gq 1 2)) (gq 7 2) = true.
Proof.
  destruct (gq1_exact 2) as (F2 & E2); [lia|]. destruct (gq1_exact 5) as (F5 & E5); [lia|]. split; [exact F2|]. split; [exact F5|]. rewrite E2, E5. split; [apply small127; lra|]. split; [apply small127; lra|vm_compute; reflexivity].
Qed.

Print Assumptions C92_mid.
Print Assumptions C92_mid_refuted.
Print Assumptions C92_nor.
Print Assumptions C92_nor_length.
Print Assumptions C92_nor_huge_refuted.
Print Assumptions C92_rotate.
Print Assumptions C92_distance.
Print Assumptions C92_distance_squared.
Print Assumptions C92_distance_refuted.
Print Assumptions C92_angle_refuted.
Print Assumptions C92_round.
Print Assumptions C92_round_refuted.
Print Assumptions C92_lerp.
Print Assumptions C92_lerp_refuted.

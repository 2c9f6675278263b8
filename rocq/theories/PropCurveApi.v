(** C93: the Bezier and Catmull-Rom objects of the API. *)
From Coq Require Import Reals Lra ZArith Lia Bool List.
From Flocq Require Import Raux Zaux Core BinarySingleNaN.
From Verif Require Import Helpers SpecCurves SpecArc SpecShape SpecCurveApi BaseLemmas FloatLemmas Float32Lemmas SignLemmas KeyLemmas BoundLemmas NearLemmas ArcProofs ArcShape CatmullProofs CurveApiProofs PropCurves PropArc PropVector.
Import ListNotations.
Open Scope R_scope.
Local Notation pt := PropCurves.pt.

(** Pow of small whole exponents as it should be *)
Definition poly_libm : libm := {| mpow := fun x y => to_f (B2R x ^ Z.to_nat (Ztrunc (B2R y))); mlog10 := fun _ => fq 0 1; mcbrt := fun x => x; msin := fun x => x; mcos := fun x => x; macos := fun x => x; matan2 := fun y x => y |}.

Section WithLibm.
Context {M : libm}.
(** C93.  NewBezier panics without points, and only then.  Its length is never
    negative (it can be NaN), and a single point has length 0. *)
Theorem C93_bezier_builds : forall pts, (new_bezier pts = Panic <-> pts = []) /\
  (pts <> [] -> exists bz, new_bezier pts = Ok bz /\ bz_points bz = pts /\ glt (bz_length bz) g0 = false) /\
  (length pts = 1%nat -> exists bz, new_bezier pts = Ok bz /\ bz_length bz = g0).
Proof.
  intros pts. split; [|split].
  - split; [|now intros ->]. destruct pts as [|p r]; [reflexivity|]. unfold new_bezier, calculate_length. cbn [new_bezier_na bz_points]. intros H. discriminate H.
  - destruct pts as [|p r]; [intros H; now destruct H|]. intros _. unfold new_bezier, calculate_length. cbn [new_bezier_na bz_points bz_control]. eexists. split; [exact eq_refl|]. cbn [bz_points bz_length]. split; [exact eq_refl|]. apply pz_not_neg, walk_pz. right. reflexivity.
  - destruct pts as [|p [|? ?]]; try discriminate. intros _. unfold new_bezier, calculate_length. cbn [new_bezier_na bz_points bz_control control_length control_from]. eexists. split; [exact eq_refl|]. cbn [bz_length]. replace (Z.to_nat (int_of_g (gceil g0))) with 0%nat by (vm_compute; reflexivity). reflexivity.
Qed.
(** The length of a Bezier curve of finite points can be 0 though it ends elsewhere than it starts. *)
Theorem C93_length_refuted : exists a b bz, finite_point a /\ finite_point b /\ vec_eqb a b = false /\ new_bezier [a; b] = Ok bz /\ bz_length bz = g0.
Proof.
  exists (mkVec (g_of_Z (3 * 10 ^ 38)) g0), (mkVec (gneg (g_of_Z (3 * 10 ^ 38))) g0). unfold new_bezier, calculate_length. cbn [new_bezier_na bz_points bz_control]. eexists.
  split; [split; vm_compute; reflexivity|]. split; [split; vm_compute; reflexivity|]. split; [vm_compute; reflexivity|]. split; [exact eq_refl|]. cbn [bz_length].
  replace (Z.to_nat (int_of_g (gceil (control_length [mkVec (g_of_Z (3 * 10 ^ 38)) g0; mkVec (gneg (g_of_Z (3 * 10 ^ 38))) g0])))) with 0%nat by (vm_compute; reflexivity). reflexivity.
Qed.
(** The points of a curve of up to four control points are those of de
    Casteljau's construction (five are too many, see C37). *)
Theorem C93_bezier_point : pow_small -> forall k pts t, (0 <= k <= 100)%Z -> (1 <= length pts <= 4)%nat -> Forall (SpecCurves.within k) pts -> is_finite t = true -> 0 <= B2R t <= 1 ->
  close (bpow radix2 (k - 16)) (bezier_point_at pts t) (casteljau (map px pts) (B2R t)) (casteljau (map py pts) (B2R t)).
Proof. intros P k pts t K L W F B. now apply point_near. Qed.
End WithLibm.

(** That construction starts at the first point, ends at the last, and stays
    among the points. *)
Lemma mix_len t l : length (mix t l) = (length l - 1)%nat.
Proof. induction l as [|a l IH]; [reflexivity|]. destruct l as [|b r]; [reflexivity|]. cbn [mix length] in *. cbn [mix] in IH. rewrite IH. lia. Qed.
Lemma mix_0 l : hd 0 (mix 0 l) = match l with _ :: _ :: _ => hd 0 l | _ => 0 end.
Proof. destruct l as [|a [|b r]]; try reflexivity. cbn [mix hd]. ring. Qed.
Lemma last_two (A : Type) (a b : A) r d : last (a :: b :: r) d = last (b :: r) d.
Proof. reflexivity. Qed.
Lemma mix_1 l d : (2 <= length l)%nat -> last (mix 1 l) d = last l d.
Proof.
  induction l as [|a l IH]; intros H; [cbn in H; lia|]. destruct l as [|b r]; [cbn in H; lia|]. rewrite last_two. destruct r as [|c r]; [cbn [mix last]; ring|]. rewrite <- IH by (cbn [length]; lia). change (mix 1 (a :: b :: c :: r)) with (((1 - 1) * a + 1 * b) :: mix 1 (b :: c :: r)). cbn [mix]. now rewrite last_two.
Qed.
Lemma mix_range t lo hi l : 0 <= t <= 1 -> Forall (fun x => lo <= x <= hi) l -> Forall (fun x => lo <= x <= hi) (mix t l).
Proof.
  intros T. induction l as [|a l IH]; intros H; [constructor|]. destruct l as [|b r]; [constructor|]. inversion H as [|? ? Ha Hr]; subst. change (mix t (a :: b :: r)) with (((1 - t) * a + t * b) :: mix t (b :: r)). constructor; [|now apply IH]. inversion Hr as [|? ? Hb _]; subst. clear -T Ha Hb. nra.
Qed.
Theorem C93_casteljau : forall l, l <> [] -> casteljau l 0 = hd 0 l /\ casteljau l 1 = last l 0 /\
  forall t lo hi, 0 <= t <= 1 -> Forall (fun x => lo <= x <= hi) l -> lo <= casteljau l t <= hi.
Proof.
  intros l N. assert (G : forall n l, length l = S n -> mixed n 0 l = hd 0 l /\ mixed n 1 l = last l 0 /\ forall t lo hi, 0 <= t <= 1 -> Forall (fun x => lo <= x <= hi) l -> lo <= mixed n t l <= hi).
  { clear. induction n as [|n IH]; intros l H.
    - destruct l as [|a [|? ?]]; try discriminate H. cbn [mixed hd last]. split; [reflexivity|]. split; [reflexivity|]. intros t lo hi _ F. inversion F. assumption.
    - cbn [mixed]. assert (L : forall t, length (mix t l) = S n) by (intros t; rewrite mix_len; lia). split; [|split].
      + destruct (IH _ (L 0)) as (-> & _). rewrite mix_0. destruct l as [|a [|b r]]; try discriminate H. reflexivity.
      + destruct (IH _ (L 1)) as (_ & -> & _). apply mix_1. lia.
      + intros t lo hi T F. apply (IH _ (L t)); [exact T|]. now apply mix_range. }
  unfold casteljau. apply G. destruct l; [now destruct N|]. cbn [length]. lia.
Qed.

(** NewCatmull panics unless there are four points; its length is never
    negative, and its points are on the spline through the second and third. *)
Theorem C93_catmull : forall pts, (length pts <> 4%nat -> new_catmull pts = Panic) /\
  (forall a b c d, pts = [a; b; c; d] -> exists cm, new_catmull pts = Ok cm /\ glt (cm_length cm) g0 = false /\
    forall k t, (0 <= k <= 100)%Z -> Forall (SpecCurves.within k) pts -> is_finite t = true -> 0 <= B2R t <= 1 ->
    exists q, cm_point_at cm t = Ok q /\ on_spline k a b c d (B2R t) q).
Proof.
  intros pts. split. { destruct pts as [|a [|b [|c [|d [|? ?]]]]]; intros H; try reflexivity. now destruct H. }
  intros a b c d ->. eexists. split; [exact eq_refl|]. cbn [cm_length cm_point_at cm_points]. split; [apply pz_not_neg; unfold catmull_length; apply (@spline_pz poly_libm); right; reflexivity|].
  intros k t K W F B. eexists. split; [exact eq_refl|]. set (U := bpow radix2 k).
  assert (HU : 1 <= U <= bpow radix2 100) by (unfold U; split; [change 1 with (bpow radix2 0); apply bpow_le; lia|apply bpow_le; lia]).
  assert (C : forall x : f32, is_finite x = true -> Rabs (B2R x) <= bpow radix2 k -> near U 1 0 x (B2R x)) by (intros x Fx Bx; apply near_exact; [exact Fx|rewrite Rmult_1_l; exact Bx]).
  assert (T : near 1 1 1 t (B2R t)) by (apply (near_up 1 1 0); [lra|lra|lra|]; apply near_exact; [exact F|rewrite Rabs_pos_eq; lra]).
  inversion W as [|? ? W1 W']; subst. inversion W' as [|? ? W2 W'']; subst. inversion W'' as [|? ? W3 W3']; subst. inversion W3' as [|? ? W4 _]; subst.
  destruct W1 as ((A1 & B1) & (A1' & B1')), W2 as ((A2 & B2) & (A2' & B2')), W3 as ((A3 & B3) & (A3' & B3')), W4 as ((A4 & B4) & (A4' & B4')).
  pose proof (spline_near U _ _ _ _ _ _ HU (C _ A1 B1) (C _ A2 B2) (C _ A3 B3) (C _ A4 B4) T) as (G1 & _ & G2).
  pose proof (spline_near U _ _ _ _ _ _ HU (C _ A1' B1') (C _ A2' B2') (C _ A3' B3') (C _ A4' B4') T) as (G3 & _ & G4).
  assert (UB : 200 * U * ulp24 <= bpow radix2 (k - 16)).
  { unfold U, ulp24. replace (k - 16)%Z with (k + (-16))%Z by lia. rewrite bpow_plus. change (bpow radix2 (-16)) with (/ 65536). pose proof (bpow_gt_0 radix2 k). lra. }
  unfold on_spline. cbn [catmull_point vx vy]. split; [exact G1|]. split; [exact G3|]. split; [exact (Rle_trans _ _ _ G2 UB)|exact (Rle_trans _ _ _ G4 UB)].
Qed.

(** Its start angle is not the direction in which the curve starts: it is taken
    from the first point, but the curve starts at the second.  Here the two are
    half a right angle apart. *)
Theorem C93_start_angle_refuted {M : libm} : atan2_near ->
  exists a b c d cm q al, Forall (whole 200) [a; b; c; d] /\ new_catmull [a; b; c; d] = Ok cm /\ cm_point_at cm (gdiv (gq 1 1) (cm_length cm)) = Ok q /\
  cm_start_angle cm = Ok al /\ is_finite al = true /\ cos (B2R al) <= - (99 / 100) /\
  forall t, angle_of (px b - px q) (py b - py q) t -> - (75 / 100) <= cos t.
Proof.
  intros A. exists (pt 0 0), (pt 100 0), (pt 100 100), (pt 100 200). unfold new_catmull. set (L := catmull_length (pt 0 0) (pt 100 0) (pt 100 100) (pt 100 200)).
  eexists. eexists. eexists. split. { repeat constructor; try reflexivity; eexists; eexists; (split; [|split; [|split]]); try (apply gq1_exact; lia); lia. }
  split; [exact eq_refl|]. split; [cbn [cm_point_at cm_points cm_length]; exact eq_refl|]. split; [unfold cm_start_angle; cbn [cm_point_at cm_points cm_length bind]; exact eq_refl|]. cbn [cm_length].
  set (q := catmull_point _ _ _ _ _). assert (VX : 10047 / 100 <= B2R (vx q) <= 10049 / 100) by (subst q L; match goal with |- context [B2R ?x] => bval x end; lra).
  assert (VY : 49 / 100 <= B2R (vy q) <= 50 / 100) by (subst q L; match goal with |- context [B2R ?x] => bval x end; lra).
  assert (FX : fin (vx q)) by (subst q L; vm_compute; reflexivity). assert (FY : fin (vy q)) by (subst q L; vm_compute; reflexivity). clearbody q. clear L.
  destruct (gq1_exact 0) as (F0 & E0); [lia|]. destruct (gq1_exact 100) as (F100 & E100); [lia|]. unfold px, py, pt. cbn [vx vy]. rewrite E0, E100.
  assert (G : forall x y t, angle_of x y t -> 0 <= sqrt (x * x + y * y) /\ sqrt (x * x + y * y) * sqrt (x * x + y * y) = x * x + y * y /\ sqrt (x * x + y * y) * cos t = x).
  { intros x y t (H & _). split; [apply sqrt_pos|]. split; [apply sqrt_sqrt; pose proof (Rle_0_sqr x); pose proof (Rle_0_sqr y); unfold Rsqr in *; lra|exact H]. }
  assert (N0 : near 128 1 0 (gq 0 1) 0) by (rewrite <- E0; apply near_exact; [exact F0|rewrite E0, Rabs_R0; lra]).
  assert (NX : near 128 1 0 (vx q) (B2R (vx q))) by (apply near_exact; [exact FX|rewrite Rabs_pos_eq; lra]). assert (NY : near 128 1 0 (vy q) (B2R (vy q))) by (apply near_exact; [exact FY|rewrite Rabs_pos_eq; lra]).
  assert (HU : 1 <= 128 <= bpow radix2 100) by (split; [lra|change 128 with (bpow radix2 7); apply bpow_le; lia]).
  destruct (near_sub 128 HU _ _ _ _ _ _ _ _ N0 NX ltac:(lra) ltac:(lra) ltac:(lra) ltac:(lra)) as (FS & _ & DS). destruct (near_sub 128 HU _ _ _ _ _ _ _ _ N0 NY ltac:(lra) ltac:(lra) ltac:(lra) ltac:(lra)) as (FT & _ & DT).
  unfold ulp24 in DS, DT. apply Rabs_le_inv in DS, DT. unfold vangle_rv, gatan2. cbn [vx vy]. set (sx := gsub (gq 0 1) (vx q)) in *. set (sy := gsub (gq 0 1) (vy q)) in *. clearbody sx sy.
  destruct (f_of_g_fin _ FS) as (FSf & ESf). destruct (f_of_g_fin _ FT) as (FTf & ETf). destruct (A _ _ FTf FSf) as (Fa & t & TB & TA & TD). rewrite ESf, ETf in TA. set (m := matan2 _ _) in *. clearbody m. change (bpow radix2 (-40)) with (/ 1099511627776) in TD.
  pose proof pi_range as PR. assert (MB : Rabs (B2R m) <= 4). { apply Rabs_le_inv in TD. apply Rabs_le. lra. }
  destruct (g_of_f_fin m Fa) as (Fg & Eg). { apply Rle_trans with (1 := MB). change 4 with (bpow radix2 2). apply bpow_le. lia. }
  pose proof (ArcProofs.rnd32_err (B2R m) 2 ltac:(lia) MB) as RE. change (bpow radix2 (2 - 24)) with (/ 4194304) in RE.
  split; [exact Fg|]. split.
  - pose proof (cos_lip (B2R (g_of_f m)) t) as CL. rewrite Eg in CL. assert (D : Rabs (rnd32 (B2R m) - t) <= / 1000000). { replace (rnd32 (B2R m) - t) with ((rnd32 (B2R m) - B2R m) + (B2R m - t)) by ring. apply Rle_trans with (1 := Rabs_triang _ _). lra. }
    destruct (G _ _ _ TA) as (H0 & H1 & H2). set (h := sqrt _) in *. clearbody h. rewrite Eg.
    assert (HH : h <= 101) by (apply Rnot_lt_le; intros X; nra). assert (CT : cos t <= - (994 / 1000)) by (apply Rnot_lt_le; intros X; nra).
    assert (CD : Rabs (cos (rnd32 (B2R m)) - cos t) <= / 1000000) by lra. apply Rabs_le_inv in CD. lra.
  - intros s HS. destruct (G _ _ _ HS) as (H0 & H1 & H2). set (h := sqrt _) in *. clearbody h. apply Rnot_lt_le. intros X. set (dx := 100 - B2R (vx q)) in *. set (dy := 0 - B2R (vy q)) in *. assert (DX : - (49 / 100) <= dx <= - (47 / 100)) by (unfold dx; lra). assert (DY : - (50 / 100) <= dy <= - (49 / 100)) by (unfold dy; lra). clearbody dx dy.
    assert (HH : 68 / 100 <= h) by (apply Rnot_lt_le; intros Y; nra). nra.
Qed.

(** ** Instances *)
Lemma poly_small : @pow_small poly_libm.
Proof.
  intros x y i Fx Bx Fy Ey HI. cbn [mpow poly_libm]. rewrite Ey, INR_IZR_INZ, Ztrunc_IZR, Nat2Z.id. apply to_f_near. assert (U : 0 <= B2R x ^ i <= 1). { split; [apply pow_le; lra|]. rewrite <- (pow1 i). apply pow_incr. lra. } rewrite Rabs_pos_eq; lra.
Qed.
Lemma pt_within x y : (Z.abs x <= 512)%Z -> (Z.abs y <= 512)%Z -> SpecCurves.within 9 (pt x y).
Proof.
  intros X Y. destruct (gq1_exact x) as (Fx & Ex); [lia|]. destruct (gq1_exact y) as (Fy & Ey); [lia|]. split; split; cbn [pt vx vy]; try assumption; rewrite ?Ex, ?Ey, <- abs_IZR; change (bpow radix2 9) with (IZR 512); apply IZR_le; assumption.
Qed.
(** half-way along a cubic *)
Example C93_bezier_instance : @pow_small poly_libm /\ Forall (SpecCurves.within 9) [pt 0 0; pt 100 0; pt 100 100; pt 0 200] /\ is_finite (gq 1 2) = true /\ B2R (gq 1 2) = / 2 /\
  casteljau (map px [pt 0 0; pt 100 0; pt 100 100; pt 0 200]) (/ 2) = 75 /\ casteljau (map py [pt 0 0; pt 100 0; pt 100 100; pt 0 200]) (/ 2) = 62.5.
Proof.
  split; [apply poly_small|]. split; [repeat (apply Forall_cons; [apply pt_within; lia|]); apply Forall_nil|]. split; [vm_compute; reflexivity|]. split; [bval (gq 1 2); lra|]. unfold casteljau, px, py, pt. cbn [map vx vy length Nat.sub mixed mix hd].
  destruct (gq1_exact 0) as (_ & ->); [lia|]. destruct (gq1_exact 100) as (_ & ->); [lia|]. destruct (gq1_exact 200) as (_ & ->); [lia|]. split; lra.
Qed.
Example C93_catmull_instance : Forall (SpecCurves.within 9) [pt 0 0; pt 100 0; pt 100 100; pt 100 200] /\ gle (gq 102 1) (catmull_length (pt 0 0) (pt 100 0) (pt 100 100) (pt 100 200)) = true /\
  vec_eqb (catmull_point (pt 0 0) (pt 100 0) (pt 100 100) (pt 100 200) g0) (pt 100 0) = true /\ @atan2_near ideal_libm.
Proof. split; [repeat (apply Forall_cons; [apply pt_within; lia|]); apply Forall_nil|]. split; [vm_compute; reflexivity|]. split; [vm_compute; reflexivity|apply ideal_atan2]. Qed.

Print Assumptions C93_bezier_builds.
Print Assumptions C93_length_refuted.
Print Assumptions C93_bezier_point.
Print Assumptions C93_casteljau.
Print Assumptions C93_catmull.
Print Assumptions C93_start_angle_refuted.

(** Scripts for the curve objects of the API. *)
From Coq Require Import Reals Lra ZArith Lia Bool List.
From Flocq Require Import Raux Zaux Core BinarySingleNaN.
From Verif Require Import Helpers SpecCurves SpecArc SpecShape SpecCurveApi BaseLemmas FloatLemmas Float32Lemmas SignLemmas KeyLemmas BoundLemmas NearLemmas ArcProofs ArcShape CurveBounds CatmullProofs.
Import ListNotations.
Open Scope R_scope.

Section WithLibm.
Context {M : libm}.
Lemma power_near x i u E : pow_small -> near 1 1 E x u -> 0 <= B2R x <= 1 -> 0 <= u <= 1 -> 0 <= E <= 10 -> (i <= 3)%nat -> near 1 1 (3 * E + 3) (gpow x (g_of_Z (Z.of_nat i))) (u ^ i).
Proof.
  intros P (F & _ & D) BX BU HE HI. rewrite Rmult_1_r in D. destruct (g_of_Z_exact (Z.of_nat i)) as (Fi & Ei); [lia|]. rewrite <- INR_IZR_INZ in Ei. destruct (f_of_g_fin _ F) as (Ff & Ef). destruct (f_of_g_fin _ Fi) as (Fg & Eg).
  destruct (P (f_of_g x) (f_of_g (g_of_Z (Z.of_nat i))) i Ff) as (Fp & Dp); [now rewrite Ef|exact Fg|now rewrite Eg|exact HI|]. rewrite Ef in Dp. change (bpow radix2 (-40)) with (/ 1099511627776) in Dp. unfold gpow. set (p := mpow _ _) in *. clearbody p.
  assert (UP : 0 <= u ^ i <= 1). { split; [apply pow_le; lra|]. rewrite <- (pow1 i). apply pow_incr. lra. }
  assert (L : Rabs (B2R x ^ i - u ^ i) <= 3 * Rabs (B2R x - u)).
  { set (v := B2R x) in *. clearbody v. pose proof (Rabs_pos (v - u)). destruct i as [|[|[|[|i]]]]; [cbn; rewrite Rminus_diag_eq, Rabs_R0 by reflexivity; lra|cbn; rewrite !Rmult_1_r; lra| | |lia].
    - replace (v ^ 2 - u ^ 2) with ((v - u) * (v + u)) by ring. rewrite Rabs_mult, (Rabs_pos_eq (v + u)) by lra. nra.
    - replace (v ^ 3 - u ^ 3) with ((v - u) * (v * v + v * u + u * u)) by ring. assert (0 <= v * v <= 1) by nra. assert (0 <= v * u <= 1) by nra. assert (0 <= u * u <= 1) by nra. rewrite Rabs_mult, (Rabs_pos_eq (v * v + v * u + u * u)) by lra. nra. }
  unfold ulp24 in D.
  apply (near_up 1 1 (3 * E + 1 + 1 + 1)); [lra|lra|lra|]. apply (near_round 1 1 (3 * E + 1) _ (B2R p)); [apply one_scale|lra|lra|rewrite Rabs_pos_eq; lra| |].
  - replace (B2R p - u ^ i) with ((B2R p - B2R x ^ i) + (B2R x ^ i - u ^ i)) by ring. apply Rle_trans with (1 := Rabs_triang _ _). unfold ulp24. lra.
  - intros Z. now apply g_of_f_fin.
Qed.
Lemma weight_near n i t c : pow_small -> fin t -> 0 <= B2R t <= 1 -> (i <= n <= 3)%nat -> binomial (Z.of_nat n) (Z.of_nat i) = c -> (1 <= c <= 3)%Z ->
  near 1 3 50 (bernstein (Z.of_nat i) (Z.of_nat n) t) (IZR c * B2R t ^ i * (1 - B2R t) ^ (n - i)).
Proof.
  intros P F B HI EC HC. unfold bernstein. rewrite EC. destruct (gq1_exact 1) as (F1 & E1); [lia|].
  assert (N0 : near 1 1 0 t (B2R t)) by (apply near_exact; [exact F|rewrite Rabs_pos_eq; lra]).
  destruct (gsub_fin (gq 1 1) t F1 F) as (Fs & Es). { rewrite E1, Rabs_pos_eq by lra. apply Rle_trans with 1; [lra|]. change 1 with (bpow radix2 0). apply bpow_le. lia. }
  assert (N1 : near 1 1 2 (gsub (gq 1 1) t) (1 - B2R t)).
  { apply (near_up 1 1 (0 + 1 + 1)); [lra|lra|lra|]. apply (near_round 1 1 0 _ (1 - B2R t)); [apply one_scale|lra|lra|rewrite Rabs_pos_eq; lra|rewrite Rminus_diag_eq, Rabs_R0 by reflexivity; unfold ulp24; lra|]. intros _. split; [exact Fs|]. now rewrite Es, E1. }
  assert (BS : 0 <= B2R (gsub (gq 1 1) t) <= 1).
  { rewrite Es, E1. assert (R1 : rnd32 1 = 1) by (change 1 with (IZR 1) at 2; apply rnd32_Z; lia). split; [rewrite <- rnd32_0|rewrite <- R1]; apply round_le; try typeclasses eauto; lra. }
  pose proof (power_near t i _ 0 P N0 B B ltac:(lra) ltac:(lia)) as NA.
  pose proof (power_near _ (n - i) _ 2 P N1 BS ltac:(lra) ltac:(lra) ltac:(lia)) as NB. replace (Z.of_nat n - Z.of_nat i)%Z with (Z.of_nat (n - i)) by lia.
  destruct (g_of_Z_exact c) as (Fc & Vc); [lia|]. assert (C3 : 1 <= IZR c <= 3) by (split; apply IZR_le; lia).
  pose proof (near_scale 1 one_scale _ _ (g_of_Z c) _ _ (IZR c) NA ltac:(lra) ltac:(lra) ltac:(lra) Fc Vc) as NC. apply (near_up 1 _ _ 3 14) in NC; [|lra|lra|lra].
  pose proof (near_mul 1 one_scale _ _ _ _ _ _ _ _ NC NB ltac:(lra) ltac:(lra) ltac:(lra) ltac:(lra)) as ND. apply (near_up 1 _ _ 3 50) in ND; [exact ND|lra|lra|lra].
Qed.

(** one coordinate of PointAt *)
Fixpoint coord_sum (i n : Z) (t acc : f32) (l : list f32) : f32 :=
  match l with [] => acc | x :: r => coord_sum (i + 1) n t (gadd acc (gmul x (bernstein i n t))) r end.
Lemma sum_coords pts : forall i n t acc, bezier_sum i n t acc pts = mkVec (coord_sum i n t (vx acc) (map vx pts)) (coord_sum i n t (vy acc) (map vy pts)).
Proof. induction pts as [|p r IH]; intros i n t acc; cbn [bezier_sum coord_sum map]; [now destruct acc|]. now rewrite IH. Qed.
Definition spread (k : Z) (x : f32) : Prop := fin x /\ Rabs (B2R x) <= bpow radix2 k.
Lemma coord_near l k t : pow_small -> (0 <= k <= 100)%Z -> fin t -> 0 <= B2R t <= 1 -> (1 <= length l <= 4)%nat -> Forall (spread k) l ->
  let v := coord_sum 0 (zlen l - 1) t g0 l in fin v /\ Rabs (B2R v - casteljau (map B2R l) (B2R t)) <= bpow radix2 (k - 16).
Proof.
  intros P K F B HL HF. set (U := bpow radix2 k). assert (HU : 1 <= U <= bpow radix2 100) by (unfold U; split; [change 1 with (bpow radix2 0); apply bpow_le; lia|apply bpow_le; lia]).
  assert (C : forall x, spread k x -> near U 1 0 x (B2R x)) by (intros x (Fx & Bx); apply near_exact; [exact Fx|rewrite Rmult_1_l; exact Bx]).
  assert (Z0 : near U 0 0 g0 0). { split; [reflexivity|]. rewrite Rabs_R0. split; [lra|]. change (B2R g0) with 0. rewrite Rminus_0_r, Rabs_R0. lra. }
  assert (ST : forall A E acc r x n i c, near U A E acc r -> 0 <= A <= 9 -> 0 <= E <= 200 -> spread k x -> (i <= n <= 3)%nat -> binomial (Z.of_nat n) (Z.of_nat i) = c -> (1 <= c <= 3)%Z ->
    near U (A + 3) (E + 55 + (A + 3) + 1) (gadd acc (gmul x (bernstein (Z.of_nat i) (Z.of_nat n) t))) (r + B2R x * (IZR c * B2R t ^ i * (1 - B2R t) ^ (n - i)))).
  { intros A E acc r x n i c N HA HE Sx HI EC HC. pose proof (weight_near n i t c P F B HI EC HC) as W. pose proof (near_mul U HU _ _ _ _ _ _ _ _ (C x Sx) W ltac:(lra) ltac:(lra) ltac:(lra) ltac:(lra)) as NM. apply (near_up U _ _ 3 55) in NM; [|lra|lra|lra].
    exact (near_add U HU _ _ _ _ _ _ _ _ N NM ltac:(lra) ltac:(lra) ltac:(lra) ltac:(lra)). }
  assert (FIN : forall A E v r s, near U A E v r -> E <= 255 -> r = s -> fin v /\ Rabs (B2R v - s) <= bpow radix2 (k - 16)).
  { intros A E v r s (Fv & _ & D) HE <-. split; [exact Fv|]. apply Rle_trans with (1 := D). replace (k - 16)%Z with (k + -16)%Z by lia. rewrite bpow_plus. fold U. change (bpow radix2 (-16)) with (/ 65536). unfold ulp24. replace (E * U * / 16777216) with (U * (E * / 16777216)) by ring. apply Rmult_le_compat_l; lra. }
  destruct l as [|a [|b [|c [|d [|? ?]]]]]; cbn [length] in HL; try lia; repeat match goal with H : Forall _ (_ :: _) |- _ => inversion H; clear H; subst end; cbv zeta; unfold zlen; cbn [length map coord_sum].
  - change (Z.of_nat 1 - 1)%Z with (Z.of_nat 0). change 0%Z with (Z.of_nat 0). pose proof (ST _ _ _ _ a 0%nat 0%nat 1%Z Z0 ltac:(lra) ltac:(lra) ltac:(assumption) ltac:(lia) eq_refl ltac:(lia)) as N1.
    apply (FIN _ _ _ _ _ N1); [lra|]. unfold casteljau. cbn [length map mixed Nat.sub hd pow]. ring.
  - change (Z.of_nat 2 - 1)%Z with (Z.of_nat 1). change (0 + 1)%Z with (Z.of_nat 1). change 0%Z with (Z.of_nat 0). pose proof (ST _ _ _ _ a 1%nat 0%nat 1%Z Z0 ltac:(lra) ltac:(lra) ltac:(assumption) ltac:(lia) eq_refl ltac:(lia)) as N1.
    pose proof (ST _ _ _ _ b 1%nat 1%nat 1%Z N1 ltac:(lra) ltac:(lra) ltac:(assumption) ltac:(lia) eq_refl ltac:(lia)) as N2.
    apply (FIN _ _ _ _ _ N2); [lra|]. unfold casteljau. cbn [length map mixed mix Nat.sub hd pow]. ring.
  - change (Z.of_nat 3 - 1)%Z with (Z.of_nat 2). change (0 + 1 + 1)%Z with (Z.of_nat 2). change (0 + 1)%Z with (Z.of_nat 1). change 0%Z with (Z.of_nat 0). pose proof (ST _ _ _ _ a 2%nat 0%nat 1%Z Z0 ltac:(lra) ltac:(lra) ltac:(assumption) ltac:(lia) eq_refl ltac:(lia)) as N1.
    pose proof (ST _ _ _ _ b 2%nat 1%nat 2%Z N1 ltac:(lra) ltac:(lra) ltac:(assumption) ltac:(lia) eq_refl ltac:(lia)) as N2.
    pose proof (ST _ _ _ _ c 2%nat 2%nat 1%Z N2 ltac:(lra) ltac:(lra) ltac:(assumption) ltac:(lia) eq_refl ltac:(lia)) as N3.
    apply (FIN _ _ _ _ _ N3); [lra|]. unfold casteljau. cbn [length map mixed mix Nat.sub hd pow]. ring.
  - change (Z.of_nat 4 - 1)%Z with (Z.of_nat 3). change (0 + 1 + 1 + 1)%Z with (Z.of_nat 3). change (0 + 1 + 1)%Z with (Z.of_nat 2). change (0 + 1)%Z with (Z.of_nat 1). change 0%Z with (Z.of_nat 0). pose proof (ST _ _ _ _ a 3%nat 0%nat 1%Z Z0 ltac:(lra) ltac:(lra) ltac:(assumption) ltac:(lia) eq_refl ltac:(lia)) as N1.
    pose proof (ST _ _ _ _ b 3%nat 1%nat 3%Z N1 ltac:(lra) ltac:(lra) ltac:(assumption) ltac:(lia) eq_refl ltac:(lia)) as N2.
    pose proof (ST _ _ _ _ c 3%nat 2%nat 3%Z N2 ltac:(lra) ltac:(lra) ltac:(assumption) ltac:(lia) eq_refl ltac:(lia)) as N3.
    pose proof (ST _ _ _ _ d 3%nat 3%nat 1%Z N3 ltac:(lra) ltac:(lra) ltac:(assumption) ltac:(lia) eq_refl ltac:(lia)) as N4.
    apply (FIN _ _ _ _ _ N4); [lra|]. unfold casteljau. cbn [length map mixed mix Nat.sub hd pow]. ring.
Qed.
Lemma point_near k pts t : pow_small -> (0 <= k <= 100)%Z -> (1 <= length pts <= 4)%nat -> Forall (SpecCurves.within k) pts -> fin t -> 0 <= B2R t <= 1 ->
  close (bpow radix2 (k - 16)) (bezier_point_at pts t) (casteljau (map px pts) (B2R t)) (casteljau (map py pts) (B2R t)).
Proof.
  intros P K HL W F B. unfold bezier_point_at. rewrite sum_coords. change (vx vzero) with g0. change (vy vzero) with g0.
  assert (WX : Forall (spread k) (map vx pts)) by (apply Forall_map; revert W; apply Forall_impl; intros p (X & _); exact X).
  assert (WY : Forall (spread k) (map vy pts)) by (apply Forall_map; revert W; apply Forall_impl; intros p (_ & Y); exact Y).
  destruct (coord_near (map vx pts) k t P K F B ltac:(rewrite map_length; exact HL) WX) as (F1 & D1). destruct (coord_near (map vy pts) k t P K F B ltac:(rewrite map_length; exact HL) WY) as (F2 & D2).
  unfold zlen in *. rewrite map_length in F1, D1, F2, D2. rewrite map_map in D1, D2. split; [exact F1|]. split; [exact F2|]. split; [exact D1|exact D2].
Qed.

(** ** Lengths *)
Lemma pz_step acc a b : pz acc -> pz (gadd acc (vdst a b)).
Proof. intros H. unfold gadd. apply pz_plus; [exact H|apply pz_vdst]. Qed.
Lemma walk_pz pts s : forall l st, pz (fst st) -> pz (fst (fold_left (walk_step pts s) l st)).
Proof. induction l as [|i l IH]; intros st H; [exact H|]. cbn [fold_left]. apply IH. unfold walk_step. cbn [fst]. now apply pz_step. Qed.
Lemma control_pz pts : forall acc prev, pz acc -> pz (control_from acc prev pts).
Proof. induction pts as [|p r IH]; intros acc prev H; [exact H|]. cbn [control_from]. apply IH. now apply pz_step. Qed.
Lemma spline_pz p1 p2 p3 p4 pl : forall l acc, pz acc -> pz (fold_left (fun acc i => gadd acc (vdst (catmull_point p1 p2 p3 p4 (gdiv (g_of_Z (Z.of_nat i)) pl)) (catmull_point p1 p2 p3 p4 (gdiv (g_of_Z (Z.of_nat i - 1)) pl)))) l acc).
Proof. induction l as [|i l IH]; intros acc H; [exact H|]. cbn [fold_left]. apply IH. now apply pz_step. Qed.
Lemma pz_not_neg (x : f32) : pz x -> glt x g0 = false.
Proof. intros [H|H]; destruct x as [s|s| |s m e b]; try discriminate H; try (cbn in H; subst s); reflexivity. Qed.
End WithLibm.

(** Proofs about the approximate lengths of the curve objects. *)
From Coq Require Import Reals Lra ZArith Lia Bool List.
From Flocq Require Import Raux Zaux Core BinarySingleNaN.
From Verif Require Import Helpers SpecCurves SpecArc SpecShape SpecCurveApi SpecApi SpecLengthApi BaseLemmas FloatLemmas Float32Lemmas KeyLemmas BoundLemmas LengthProofs NearLemmas BezierTerm CurveStart ArcProofs ArcShape CatmullProofs CurveApiProofs VectorProofs ApiProofs.
Import ListNotations.
Open Scope R_scope.

(** ** Adding up the distances of a list of points *)
Definition stroll (st : f32 * vec) (q : vec) : f32 * vec := (gadd (fst st) (vdst q (snd st)), q).
Lemma dist_geo a b : dist a b = geo b a.
Proof. unfold dist, geo, nrm, px, py. f_equal. ring. Qed.
Lemma dist_pos a b : 0 <= dist a b. Proof. apply sqrt_pos. Qed.
Lemma geo_bound k a b : SpecCurves.within k a -> SpecCurves.within k b -> geo a b <= 4 * bpow radix2 k.
Proof.
  intros ((_ & B1) & (_ & B2)) ((_ & B3) & (_ & B4)). set (U := bpow radix2 k) in *. unfold geo. set (x := B2R (vx b) - B2R (vx a)). set (y := B2R (vy b) - B2R (vy a)). apply Rabs_le_inv in B1, B2, B3, B4.
  pose proof (nrm_up 0 0 x y) as N. assert (Z : nrm 0 0 = 0) by (unfold nrm; replace (0 * 0 + 0 * 0) with 0 by ring; apply sqrt_0). rewrite Z, !Rplus_0_l in N. apply Rle_trans with (1 := N).
  assert (Rabs x <= 2 * U) by (apply Rabs_le; unfold x; lra). assert (Rabs y <= 2 * U) by (apply Rabs_le; unfold y; lra). lra.
Qed.
Definition drift (j : R) (s : f32) (S : R) : Prop := fin s /\ Rabs (B2R s - S) <= S * (/ 2097152 + j * / 8388608) + j * bpow radix2 (-68).
Lemma stroll_step k j s S d' d : (0 <= k <= 50)%Z -> 0 <= j <= 1048576 -> 0 <= S <= j * (4 * bpow radix2 k) -> drift j s S -> fin d' -> 0 <= B2R d' -> Rabs (B2R d' - d) <= d * bpow radix2 (-21) + bpow radix2 (-69) ->
  0 <= d <= 4 * bpow radix2 k -> drift (j + 1) (gadd s d') (S + d).
Proof.
  intros K J BS (Fs & Ds) Fd Pd Dd Bd. change (bpow radix2 (-21)) with (/ 2097152) in Dd. assert (T69 : bpow radix2 (-68) = 2 * bpow radix2 (-69)) by (change (-68)%Z with (1 + -69)%Z; rewrite bpow_plus; reflexivity).
  assert (T150 : bpow radix2 (-150) <= bpow radix2 (-69) * / 8). { change (/ 8) with (bpow radix2 (-3)). rewrite <- bpow_plus. apply bpow_le. lia. }
  unfold drift. rewrite T69 in *. pose proof (bpow_gt_0 radix2 (-69)) as P69. assert (S69 : bpow radix2 (-69) <= / 16777216) by (change (/ 16777216) with (bpow radix2 (-24)); apply bpow_le; lia). set (w := bpow radix2 (-69)) in *.
  assert (U0 : 1 <= bpow radix2 k <= bpow radix2 50) by (split; [change 1 with (bpow radix2 0); apply bpow_le; lia|apply bpow_le; lia]). set (U := bpow radix2 k) in *.
  assert (SJ : 0 <= S * j <= S * 1048576) by (split; [apply Rmult_le_pos; lra|apply Rmult_le_compat_l; lra]). assert (DJ : 0 <= d * j) by (apply Rmult_le_pos; lra). assert (JW : 0 <= j * w <= 1048576 * w) by (split; [apply Rmult_le_pos; lra|apply Rmult_le_compat_r; lra]).
  apply Rabs_le_inv in Ds, Dd. replace (S * (/ 2097152 + j * / 8388608)) with (S * / 2097152 + S * j * / 8388608) in Ds by ring.
  assert (BT : -1 <= B2R s + B2R d' <= 5 / 4 * (S + d) + 2097156 * w) by lra.
  assert (JU : j * (4 * U) <= 1048576 * (4 * U)) by (apply Rmult_le_compat_r; lra).
  assert (BR : Rabs (B2R s + B2R d') <= bpow radix2 127).
  { apply Rle_trans with (8388608 * bpow radix2 50); [apply Rabs_le; lra|]. change 8388608 with (bpow radix2 23). rewrite <- bpow_plus. apply bpow_le. lia. }
  destruct (gadd_fin s d' Fs Fd BR) as (F & V). split; [exact F|]. rewrite V. assert (AB : Rabs (B2R s + B2R d') <= 5 / 4 * (S + d) + 2097156 * w + 0). { apply Rabs_le. split; [|lra]. lra. }
  pose proof (rnd32_errR _ _ AB) as E. change (bpow radix2 (-24)) with (/ 16777216) in E. apply Rabs_le_inv in E. set (r := rnd32 (B2R s + B2R d')) in *. clearbody r.
  replace ((S + d) * (/ 2097152 + (j + 1) * / 8388608)) with (S * / 2097152 + d * / 2097152 + S * j * / 8388608 + S * / 8388608 + d * j * / 8388608 + d * / 8388608) by ring.
  apply Rabs_le. lra.
Qed.
Lemma stroll_near k : (0 <= k <= 50)%Z -> forall qs p s S (n : nat), (Z.of_nat (n + length qs) <= 1048576)%Z -> Forall (SpecCurves.within k) (p :: qs) -> 0 <= S <= INR n * (4 * bpow radix2 k) -> drift (INR n) s S ->
  drift (INR (n + length qs)) (fst (fold_left stroll qs (s, p))) (S + polygon (p :: qs)).
Proof.
  intros K. induction qs as [|q r IH]; intros p s S n L W BS D.
  - cbn [fold_left length polygon fst]. rewrite Nat.add_0_r, Rplus_0_r. exact D.
  - cbn [length] in L |- *. inversion W as [|? ? Wp W']; subst. inversion W' as [|? ? Wq _]; subst. cbn [fold_left]. unfold stroll at 2. cbn [fst snd].
    replace (S + polygon (p :: q :: r)) with (S + dist p q + polygon (q :: r)) by (cbn [polygon]; ring). replace (n + Datatypes.S (length r))%nat with (Datatypes.S n + length r)%nat by lia.
    destruct (vdst_acc q p k ltac:(lia) Wq Wp) as (F & P & A). assert (G : geo q p = dist p q) by (symmetry; apply dist_geo). rewrite G in A. pose proof (geo_bound k q p Wq Wp) as GB. rewrite G in GB. pose proof (dist_pos p q) as DP.
    assert (NB : 0 <= INR n <= 1048576). { split; [apply pos_INR|]. rewrite INR_IZR_INZ. apply IZR_le. lia. }
    apply IH; [lia|exact W'| |]; rewrite S_INR.
    + rewrite Rmult_plus_distr_r, Rmult_1_l. lra.
    + apply (stroll_step k); try assumption; lra.
Qed.
Lemma stroll_total k qs p : (0 <= k <= 50)%Z -> (Z.of_nat (length qs) <= 1048576)%Z -> Forall (SpecCurves.within k) (p :: qs) -> drift (INR (length qs)) (fst (fold_left stroll qs (g0, p))) (polygon (p :: qs)).
Proof.
  intros K L W. rewrite <- (Rplus_0_l (polygon _)). apply (stroll_near k K qs p g0 0 0%nat L W); [change (INR 0) with 0; lra|]. split; [reflexivity|]. change (B2R g0) with 0. change (INR 0) with 0. rewrite Rminus_0_r, Rabs_R0. lra.
Qed.

(** ** The number of sections *)
Lemma ceil_sections (x : f32) : fin x -> 0 <= B2R x <= 1048575 -> exists n : nat, (Z.of_nat n <= 1048575)%Z /\ fin (gceil x) /\ B2R (gceil x) = INR n /\ Z.to_nat (int_of_g (gceil x)) = n /\ INR n - 1 < B2R x <= INR n.
Proof.
  intros F (B0 & B1). set (z := Zceil (B2R x)). assert (Z0 : (0 <= z <= 1048575)%Z). { split; [apply le_IZR; apply Rle_trans with (1 := B0), Zceil_ub|apply Zceil_glb; exact B1]. }
  exists (Z.to_nat z). rewrite Z2Nat.id by lia. split; [lia|]. assert (EN : INR (Z.to_nat z) = IZR z) by (rewrite INR_IZR_INZ, Z2Nat.id by lia; reflexivity). rewrite EN.
  unfold gceil. destruct (f_of_g_fin x F) as (Ff & Ef). destruct (Bnearbyint_correct 53 1024 pe53 mode_UP (f_of_g x)) as (En & Fn & _). change (Bnearbyint mode_UP (f_of_g x)) with (fceil (f_of_g x)) in En, Fn.
  assert (Fn' : fin (fceil (f_of_g x))) by (exact (eq_trans Fn Ff)). assert (Ev : B2R (fceil (f_of_g x)) = IZR z). { rewrite En, Ef. unfold round, F2R, scaled_mantissa, cexp, FIX_exp. cbn [Fnum Fexp bpow Z.opp round_mode]. rewrite !Rmult_1_r. reflexivity. }
  assert (ZR : 0 <= IZR z <= 1048575) by (split; [apply IZR_le; lia|apply IZR_le; lia]). destruct (g_of_f_fin _ Fn') as (Fg & Eg); [rewrite Ev; apply small127; lra|]. rewrite Ev, rnd32_Z in Eg by lia.
  split; [exact Fg|]. split; [exact Eg|]. set (g := g_of_f _) in *. clearbody g. split.
  - rewrite (int_trunc g Fg); [rewrite Eg, Ztrunc_IZR; reflexivity|]. rewrite Eg. rewrite Rabs_pos_eq; lra.
  - split; [|apply Zceil_ub]. pose proof (Zceil_lb (B2R x)) as L. fold z in L. lra.
Qed.
(** the parameter of a section's end *)
Lemma section_end (g : f32) (n i : nat) : fin g -> B2R g = INR n -> (Z.of_nat n <= 1048575)%Z -> (i <= n)%nat -> (0 < n)%nat -> let t := gdiv (g_of_Z (Z.of_nat i)) g in fin t /\ 0 <= B2R t <= 1 /\ Rabs (B2R t - INR i / INR n) <= bpow radix2 (-24).
Proof.
  intros F V N I P t. destruct (g_of_Z_exact (Z.of_nat i) ltac:(lia)) as (Fi & Vi). rewrite <- INR_IZR_INZ in Vi. destruct (gq1_exact 1) as (F1 & V1); [lia|].
  assert (NP : 1 <= INR n) by (change 1 with (INR 1); apply le_INR; lia). assert (IP : 0 <= INR i <= INR n) by (split; [apply pos_INR|apply le_INR; exact I]).
  assert (Q : 0 <= INR i / INR n <= 1). { split; [apply Rle_mult_inv_pos; lra|]. apply Rmult_le_reg_r with (INR n); [lra|]. unfold Rdiv. rewrite Rmult_assoc, Rinv_l by lra. lra. }
  destruct (gdiv_fin (g_of_Z (Z.of_nat i)) g Fi F ltac:(lra)) as (Ft & Vt); [rewrite Vi, V; apply small127; lra|]. rewrite Vi, V in Vt. fold t in Ft, Vt. split; [exact Ft|]. rewrite Vt.
  split; [split; [apply rnd32_pos; lra|rewrite <- V1; apply rnd32_le_f; rewrite V1; lra]|]. change (-24)%Z with (0 - 24)%Z. apply ArcProofs.rnd32_err; [lia|]. change (bpow radix2 0) with 1. rewrite Rabs_pos_eq; lra.
Qed.

(** ** Bezier curves *)
Section WithLibm.
Context {M : libm}.
Lemma walk_stroll pts s : forall l st, fold_left (walk_step pts s) l st = fold_left stroll (map (fun i => bezier_point_at pts (gdiv (g_of_Z (Z.of_nat i)) s)) l) st.
Proof. induction l as [|i l IH]; intros st; [reflexivity|]. cbn [fold_left map]. rewrite IH. reflexivity. Qed.
End WithLibm.
(** ** Catmull-Rom curves *)
Lemma spline_stroll (f : Z -> vec) : forall n s acc, (1 <= s)%nat -> fold_left (fun acc i => gadd acc (vdst (f (Z.of_nat i)) (f (Z.of_nat i - 1)%Z))) (seq s n) acc = fst (fold_left stroll (map (fun i => f (Z.of_nat i)) (seq s n)) (acc, f (Z.of_nat (s - 1)))).
Proof.
  induction n as [|n IH]; intros s acc H; [reflexivity|]. cbn [seq fold_left map]. unfold stroll at 2. cbn [fst snd]. rewrite IH by lia. replace (Z.of_nat s - 1)%Z with (Z.of_nat (s - 1)) by lia. replace (S s - 1)%nat with s by lia. reflexivity.
Qed.
(** weighted sums of plane vectors *)
Lemma nrm_add a b c d : nrm (a + c) (b + d) <= nrm a b + nrm c d.
Proof.
  apply le_of_sq; [pose proof (nrm_pos a b); pose proof (nrm_pos c d); lra|]. rewrite nrm_sq. pose proof (nrm_sq a b) as A. pose proof (nrm_sq c d) as B. pose proof (nrm_pos a b) as PA. pose proof (nrm_pos c d) as PB. set (p := nrm a b) in *. set (q := nrm c d) in *. clearbody p q.
  assert (CS : a * c + b * d <= p * q). { apply le_of_sq; [apply Rmult_le_pos; assumption|]. replace (p * q * (p * q)) with ((p * p) * (q * q)) by ring. rewrite A, B. pose proof (Rle_0_sqr (a * d - b * c)) as Q. unfold Rsqr in Q. lra. }
  lra.
Qed.
(** ** Sections *)
Lemma nth_seq_map {A} (f : nat -> A) n i : (i < n)%nat -> nth_error (map f (seq 1 n)) i = Some (f (S i)).
Proof. intros H. rewrite nth_error_map. rewrite (nth_error_nth' _ 0%nat) by (rewrite seq_length; exact H). rewrite seq_nth by exact H. reflexivity. Qed.
Lemma sections_at (P : f32 -> vec) (x y : R -> R) e (g : f32) (n : nat) q0 : fin g -> B2R g = INR n -> (Z.of_nat n <= 1048575)%Z ->
  (forall t, fin t -> 0 <= B2R t <= 1 -> close e (P t) (x (B2R t)) (y (B2R t))) -> close e q0 (x 0) (y 0) ->
  sectioned e x y n (fun i => B2R (gdiv (g_of_Z (Z.of_nat i)) g) * (if Nat.eqb n 0 then 0 else 1)) (q0 :: map (fun i => P (gdiv (g_of_Z (Z.of_nat i)) g)) (seq 1 n)).
Proof.
  intros F V N C C0. assert (E24 : 0 < bpow radix2 (-24)) by apply bpow_gt_0. destruct n as [|n].
  { cbn [Nat.eqb]. split; [reflexivity|]. split; [ring|]. split; [lia|]. split; [lia|]. intros i I. assert (i = 0%nat) by lia. subst i. rewrite Rmult_0_r. split; [lra|]. split; [change (INR 0) with 0; unfold Rdiv; rewrite Rmult_0_l, Rminus_0_r, Rabs_R0; lra|].
    exists q0. split; [reflexivity|exact C0]. }
  cbn [Nat.eqb]. assert (SE : forall i, (i <= S n)%nat -> let t := gdiv (g_of_Z (Z.of_nat i)) g in fin t /\ 0 <= B2R t <= 1 /\ Rabs (B2R t - INR i / INR (S n)) <= bpow radix2 (-24)) by (intros i I; apply (section_end g (S n) i); try assumption; lia).
  assert (NP : 1 <= INR (S n)) by (change 1 with (INR 1); apply le_INR; lia).
  assert (VAL : forall i, (i <= S n)%nat -> B2R (gdiv (g_of_Z (Z.of_nat i)) g) = rnd32 (INR i / INR (S n))).
  { intros i I. destruct (g_of_Z_exact (Z.of_nat i) ltac:(lia)) as (Fi & Vi). rewrite <- INR_IZR_INZ in Vi. destruct (gdiv_fin (g_of_Z (Z.of_nat i)) g Fi F ltac:(lra)) as (_ & Vt); [rewrite Vi, V; apply small127|rewrite Vt, Vi, V; reflexivity].
    assert (IP : 0 <= INR i <= INR (S n)) by (split; [apply pos_INR|apply le_INR; exact I]). pose proof (Rle_mult_inv_pos (INR i) (INR (S n)) ltac:(lra) ltac:(lra)) as Q1. assert (Q : INR i / INR (S n) <= 1) by (apply Rmult_le_reg_r with (INR (S n)); [lra|]; unfold Rdiv; rewrite Rmult_assoc, Rinv_l by lra; lra). unfold Rdiv in *. lra. }
  split; [cbn [length]; rewrite map_length, seq_length; reflexivity|]. split. { rewrite VAL by lia. change (INR 0) with 0. unfold Rdiv. rewrite Rmult_0_l. replace 0 with (B2R g0) at 1 by reflexivity. rewrite rnd32_id. change (B2R g0) with 0. ring. }
  split. { intros _. rewrite VAL by lia. unfold Rdiv. rewrite Rinv_r by lra. destruct (gq1_exact 1) as (F1 & V1); [lia|]. rewrite <- V1 at 1. rewrite rnd32_id, V1. ring. }
  split. { intros i I. rewrite !VAL by lia. rewrite !Rmult_1_r. apply rnd32_le. unfold Rdiv. apply Rmult_le_compat_r; [left; apply Rinv_0_lt_compat; lra|apply le_INR; lia]. }
  intros i I. rewrite Rmult_1_r. destruct (SE i I) as (Ft & Bt & Dt). split; [exact Bt|]. split; [exact Dt|]. destruct i as [|i].
  - exists q0. split; [reflexivity|]. rewrite VAL by lia. change (INR 0) with 0. unfold Rdiv. rewrite Rmult_0_l. replace 0 with (B2R g0) by reflexivity. rewrite rnd32_id. change (B2R g0) with 0. exact C0.
  - eexists. split; [cbn [nth_error]; apply (nth_seq_map (fun i => P (gdiv (g_of_Z (Z.of_nat i)) g))); lia|]. apply C; assumption.
Qed.
(** ** Inscribed polylines *)
Lemma polygon_app q l p : polygon (l ++ [q; p]) = polygon (l ++ [q]) + dist q p.
Proof. induction l as [|a l IH]; [cbn; ring|]. destruct l as [|b l]; [cbn; ring|]. cbn [app polygon] in *. rewrite IH. ring. Qed.
Lemma polygon_nonneg : forall l, 0 <= polygon l.
Proof. induction l as [|a [|b l] IH]; cbn [polygon]; try lra. pose proof (dist_pos a b). cbn [polygon] in IH. lra. Qed.
Lemma inscribed_near e x y u : forall n qs, length qs = S n -> (forall i, (i <= n)%nat -> exists q, nth_error qs i = Some q /\ close e q (x (u i)) (y (u i))) -> Rabs (polygon qs - inscribed x y u n) <= INR n * (4 * e).
Proof.
  induction n as [|n IH]; intros qs L C.
  - destruct qs as [|a [|? ?]]; try discriminate L. cbn [polygon inscribed]. change (INR 0) with 0. rewrite Rminus_0_r, Rabs_R0. lra.
  - destruct (exists_last (l := qs)) as (l1 & p & E); [intros ->; discriminate L|]. subst qs. rewrite app_length in L. cbn [length] in L. destruct (exists_last (l := l1)) as (l2 & q & E); [intros ->; cbn in L; lia|]. subst l1. rewrite app_length in L. cbn [length] in L.
    assert (H : Rabs (polygon (l2 ++ [q]) - inscribed x y u n) <= INR n * (4 * e)). { apply IH; [rewrite app_length; cbn [length]; lia|]. intros i I. destruct (C i ltac:(lia)) as (z & Z & CZ). exists z. split; [|exact CZ]. rewrite nth_error_app1 in Z by (rewrite app_length; cbn [length]; lia). exact Z. }
    destruct (C n ltac:(lia)) as (z1 & Z1 & (_ & _ & C1 & C2)). destruct (C (S n) ltac:(lia)) as (z2 & Z2 & (_ & _ & C3 & C4)). rewrite <- app_assoc in Z1, Z2. cbn [app] in Z1, Z2.
    rewrite nth_error_app2 in Z1 by lia. rewrite nth_error_app2 in Z2 by lia. replace (n - length l2)%nat with 0%nat in Z1 by lia. replace (S n - length l2)%nat with 1%nat in Z2 by lia. cbn [nth_error] in Z1, Z2. assert (z1 = q) by congruence. assert (z2 = p) by congruence. subst z1 z2. clear Z1 Z2.
    rewrite <- app_assoc. cbn [app]. rewrite polygon_app. cbn [inscribed]. rewrite S_INR. rewrite dist_geo. unfold geo.
    change (sqrt ((x (u (S n)) - x (u n)) * (x (u (S n)) - x (u n)) + (y (u (S n)) - y (u n)) * (y (u (S n)) - y (u n)))) with (nrm (x (u (S n)) - x (u n)) (y (u (S n)) - y (u n))).
    unfold px, py in *. apply Rabs_le_inv in C1, C2, C3, C4.
    assert (D : Rabs (nrm (B2R (vx q) - B2R (vx p)) (B2R (vy q) - B2R (vy p)) - nrm (x (u n) - x (u (S n))) (y (u n) - y (u (S n)))) <= 2 * e + 2 * e) by (apply nrm_near; apply Rabs_le; lra).
    assert (SW : nrm (x (u (S n)) - x (u n)) (y (u (S n)) - y (u n)) = nrm (x (u n) - x (u (S n))) (y (u n) - y (u (S n)))) by (unfold nrm; f_equal; ring). rewrite SW. apply Rabs_le_inv in H, D. apply Rabs_le. lra.
Qed.
Lemma nrm_tri x0 y0 x1 y1 x2 y2 : nrm (x2 - x0) (y2 - y0) <= nrm (x1 - x0) (y1 - y0) + nrm (x2 - x1) (y2 - y1).
Proof. replace (x2 - x0) with (x1 - x0 + (x2 - x1)) by ring. replace (y2 - y0) with (y1 - y0 + (y2 - y1)) by ring. apply nrm_add. Qed.
Lemma inscribed_chord x y u : forall n, nrm (x (u n) - x (u O)) (y (u n) - y (u O)) <= inscribed x y u n.
Proof.
  induction n as [|n IH]; cbn [inscribed].
  - unfold nrm. replace ((x (u O) - x (u O)) * (x (u O) - x (u O)) + (y (u O) - y (u O)) * (y (u O) - y (u O))) with 0 by ring. rewrite sqrt_0. lra.
  - apply Rle_trans with (1 := nrm_tri _ _ (x (u n)) (y (u n)) _ _). apply Rplus_le_compat; [exact IH|]. unfold nrm. lra.
Qed.
(** the tail sums of the Bernstein polynomials grow *)
Definition tail (n j : nat) (t : R) : R :=
  match n, j with
  | 1%nat, 1%nat => t
  | 2%nat, 1%nat => t * (2 - t)
  | 2%nat, 2%nat => t * t
  | 3%nat, 1%nat => t * (3 - 3 * t + t * t)
  | 3%nat, 2%nat => t * t * (3 - 2 * t)
  | 3%nat, 3%nat => t * t * t
  | _, _ => 0
  end.
Lemma tail_mono n j s t : 0 <= s <= t -> t <= 1 -> tail n j s <= tail n j t.
Proof.
  intros S T. assert (A : 0 <= (t - s) * s) by (apply Rmult_le_pos; lra). assert (B : 0 <= (t - s) * (1 - t)) by (apply Rmult_le_pos; lra). assert (C : 0 <= (t - s) * t) by (apply Rmult_le_pos; lra).
  assert (A2 : 0 <= (t - s) * s * (1 - t)) by (apply Rmult_le_pos; lra). assert (A3 : 0 <= (t - s) * (1 - t) * (1 - t)) by (apply Rmult_le_pos; lra). assert (A4 : 0 <= (t - s) * s * s) by (apply Rmult_le_pos; lra). assert (A5 : 0 <= (t - s) * (1 - t) * (t - s)) by (apply Rmult_le_pos; lra). assert (A6 : 0 <= (t - s) * s * (t - s)) by (apply Rmult_le_pos; lra). assert (A7 : 0 <= (t - s) * (t - s) * (t - s)) by (apply Rmult_le_pos; [apply Rmult_le_pos|]; lra).
  assert (A8 : 0 <= (t - s) * (t - s)) by (apply Rmult_le_pos; lra).
  destruct n as [|[|[|[|n]]]]; destruct j as [|[|[|[|j]]]]; cbn [tail]; nra.
Qed.
Definition steps (l : list R) : R * R * R := match l with [a; b] => (b - a, 0, 0) | [a; b; c] => (b - a, c - b, 0) | [a; b; c; d] => (b - a, c - b, d - c) | _ => (0, 0, 0) end.
Lemma casteljau_steps l t : (1 <= length l <= 4)%nat -> casteljau l t = hd 0 l + tail (length l - 1) 1 t * fst (fst (steps l)) + tail (length l - 1) 2 t * snd (fst (steps l)) + tail (length l - 1) 3 t * snd (steps l).
Proof.
  intros L. destruct l as [|a [|b [|c [|d [|? ?]]]]]; cbn [length] in L; try lia; unfold casteljau; cbn [length Nat.sub mixed mix hd steps tail fst snd]; ring.
Qed.
Lemma nrm_weight w a b : 0 <= w -> nrm (w * a) (w * b) = w * nrm a b.
Proof. intros W. rewrite (Rmult_comm w a), (Rmult_comm w b), nrm_scale, Rabs_pos_eq by exact W. reflexivity. Qed.
Lemma arc_step pts s t : (1 <= length pts <= 4)%nat -> 0 <= s <= t -> t <= 1 -> let X := casteljau (map px pts) in let Y := casteljau (map py pts) in let m := (length pts - 1)%nat in
  let p := steps (map px pts) in let q := steps (map py pts) in
  nrm (X t - X s) (Y t - Y s) <= (tail m 1 t - tail m 1 s) * nrm (fst (fst p)) (fst (fst q)) + (tail m 2 t - tail m 2 s) * nrm (snd (fst p)) (snd (fst q)) + (tail m 3 t - tail m 3 s) * nrm (snd p) (snd q).
Proof.
  intros L S T. cbv zeta. rewrite !casteljau_steps by (rewrite map_length; exact L). rewrite !map_length. set (m := (length pts - 1)%nat). set (p := steps (map px pts)). set (q := steps (map py pts)).
  pose proof (tail_mono m 1 s t S T) as M1. pose proof (tail_mono m 2 s t S T) as M2. pose proof (tail_mono m 3 s t S T) as M3.
  set (a1 := tail m 1 s) in *. set (a2 := tail m 2 s) in *. set (a3 := tail m 3 s) in *. set (b1 := tail m 1 t) in *. set (b2 := tail m 2 t) in *. set (b3 := tail m 3 t) in *. destruct p as ((p1 & p2) & p3), q as ((q1 & q2) & q3). cbn [fst snd]. clearbody a1 a2 a3 b1 b2 b3.
  match goal with |- nrm ?u ?v <= _ => replace u with (((b1 - a1) * p1 + (b2 - a2) * p2) + (b3 - a3) * p3) by ring; replace v with (((b1 - a1) * q1 + (b2 - a2) * q2) + (b3 - a3) * q3) by ring end.
  apply Rle_trans with (1 := nrm_add _ _ _ _). rewrite (nrm_weight (b3 - a3)) by lra. apply Rplus_le_compat_r. apply Rle_trans with (1 := nrm_add _ _ _ _). rewrite !nrm_weight by lra. lra.
Qed.
Lemma inscribed_le pts u n : (1 <= length pts <= 4)%nat -> (forall i, (i < n)%nat -> u i <= u (S i)) -> (forall i, (i <= n)%nat -> 0 <= u i <= 1) ->
  inscribed (casteljau (map px pts)) (casteljau (map py pts)) u n <= polygon pts.
Proof.
  intros L I B. set (m := (length pts - 1)%nat). set (p := steps (map px pts)). set (q := steps (map py pts)). set (N1 := nrm (fst (fst p)) (fst (fst q))). set (N2 := nrm (snd (fst p)) (snd (fst q))). set (N3 := nrm (snd p) (snd q)).
  assert (G : forall k, (k <= n)%nat -> inscribed (casteljau (map px pts)) (casteljau (map py pts)) u k <= (tail m 1 (u k) - tail m 1 (u O)) * N1 + (tail m 2 (u k) - tail m 2 (u O)) * N2 + (tail m 3 (u k) - tail m 3 (u O)) * N3).
  { induction k as [|k IH]; intros K; cbn [inscribed]; [lra|]. specialize (IH ltac:(lia)). pose proof (B k ltac:(lia)). pose proof (B (S k) ltac:(lia)). pose proof (arc_step pts (u k) (u (S k)) L ltac:(split; [lra|apply I; lia]) ltac:(lra)) as A. cbv zeta in A. fold m p q N1 N2 N3 in A. unfold nrm at 1 in A. lra. }
  apply Rle_trans with (1 := G n (Nat.le_refl n)). pose proof (nrm_pos (fst (fst p)) (fst (fst q))) as P1. pose proof (nrm_pos (snd (fst p)) (snd (fst q))) as P2. pose proof (nrm_pos (snd p) (snd q)) as P3. fold N1 in P1. fold N2 in P2. fold N3 in P3.
  assert (W : forall j, 0 <= tail m j (u n) - tail m j (u O) <= (if (Nat.leb 1 j && Nat.leb j m && Nat.leb m 3)%bool then 1 else 0)).
  { intros j. pose proof (B n ltac:(lia)) as Bn. pose proof (B O ltac:(lia)) as B0. assert (MN : u O <= u n). { clear -I. induction n as [|k IH]; [lra|]. apply Rle_trans with (u k); [apply IH; intros; apply I; lia|apply I; lia]. }
    pose proof (tail_mono m j (u O) (u n) ltac:(lra) ltac:(lra)). pose proof (tail_mono m j 0 (u O) ltac:(lra) ltac:(lra)) as Z. pose proof (tail_mono m j (u n) 1 ltac:(lra) ltac:(lra)) as O1. split; [lra|].
    assert (Q : tail m j 0 = 0 /\ tail m j 1 = if (Nat.leb 1 j && Nat.leb j m && Nat.leb m 3)%bool then 1 else 0). { destruct m as [|[|[|[|m']]]]; destruct j as [|[|[|[|j]]]]; cbn [tail Nat.leb andb]; split; try reflexivity; try lra; rewrite ?andb_false_r; reflexivity. }
    destruct Q as (Q1 & Q2). rewrite Q1 in Z. rewrite Q2 in O1. lra. }
  pose proof (W 1%nat) as W1. pose proof (W 2%nat) as W2. pose proof (W 3%nat) as W3. set (w1 := tail m 1 (u n) - tail m 1 (u O)) in *. set (w2 := tail m 2 (u n) - tail m 2 (u O)) in *. set (w3 := tail m 3 (u n) - tail m 3 (u O)) in *. clearbody w1 w2 w3. clear G W.
  assert (SW : forall a b, nrm (px b - px a) (py b - py a) = dist a b) by (intros a b; rewrite dist_geo; unfold geo, nrm, px, py; f_equal; ring).
  unfold N1, N2, N3 in *. clear N1 N2 N3. subst p q m. destruct pts as [|a [|b [|c [|d [|? ?]]]]]; cbn [length] in L; try lia; cbn [length map Nat.sub Nat.leb andb steps fst snd polygon] in *; rewrite ?SW in *; nra.
Qed.

(** How long a curve is after it has been cut or extended to a given length. *)
From Coq Require Import Reals Lra Psatz.
From Flocq Require Import Core BinarySingleNaN.
From Verif Require Import GoFloat Curves SpecCurves BaseLemmas FloatLemmas Float32Lemmas KeyLemmas BoundLemmas SignLemmas CurveProofs CurveBounds BezierTerm SpecLength.
Import ListNotations.
Open Scope R_scope.

(** ** Plane distance *)
Definition nrm (a b : R) : R := sqrt (a * a + b * b).
Lemma sq_sum a b : 0 <= a * a + b * b.
Proof. nra. Qed.
Lemma nrm_pos a b : 0 <= nrm a b. Proof. apply sqrt_pos. Qed.
Lemma nrm_sq a b : nrm a b * nrm a b = a * a + b * b.
Proof. apply sqrt_sqrt. apply sq_sum. Qed.
Lemma le_of_sq a b : 0 <= b -> a * a <= b * b -> a <= b.
Proof. intros B H. destruct (Rle_dec a b) as [L|L]; [exact L|]. apply Rnot_le_lt in L. nra. Qed.
Lemma nrm_ge_l a b : Rabs a <= nrm a b.
Proof. apply le_of_sq; [apply nrm_pos|]. rewrite nrm_sq. rewrite <- (Rabs_mult a a). rewrite Rabs_pos_eq; nra. Qed.
Lemma nrm_ge_r a b : Rabs b <= nrm a b.
Proof. apply le_of_sq; [apply nrm_pos|]. rewrite nrm_sq. rewrite <- (Rabs_mult b b). rewrite Rabs_pos_eq; nra. Qed.
Lemma nrm_up a b e f : nrm (a + e) (b + f) <= nrm a b + (Rabs e + Rabs f).
Proof.
  pose proof (Rabs_pos e). pose proof (Rabs_pos f). pose proof (nrm_pos a b). pose proof (nrm_ge_l a b). pose proof (nrm_ge_r a b).
  apply le_of_sq; [lra|]. rewrite nrm_sq. pose proof (nrm_sq a b) as S.
  assert (a * e <= nrm a b * Rabs e). { eapply Rle_trans; [apply Rle_abs|]. rewrite Rabs_mult. apply Rmult_le_compat_r; lra. }
  assert (b * f <= nrm a b * Rabs f). { eapply Rle_trans; [apply Rle_abs|]. rewrite Rabs_mult. apply Rmult_le_compat_r; lra. }
  assert (e * e = Rabs e * Rabs e) by (rewrite <- Rabs_mult; symmetry; apply Rabs_pos_eq; nra).
  assert (f * f = Rabs f * Rabs f) by (rewrite <- Rabs_mult; symmetry; apply Rabs_pos_eq; nra).
  nra.
Qed.
Lemma nrm_near a b c d r s : Rabs (c - a) <= r -> Rabs (d - b) <= s -> Rabs (nrm c d - nrm a b) <= r + s.
Proof.
  intros H1 H2. pose proof (nrm_up a b (c - a) (d - b)) as U. pose proof (nrm_up c d (a - c) (b - d)) as V.
  replace (a + (c - a)) with c in U by ring. replace (b + (d - b)) with d in U by ring.
  replace (c + (a - c)) with a in V by ring. replace (d + (b - d)) with b in V by ring.
  rewrite (Rabs_minus_sym a c), (Rabs_minus_sym b d) in V. apply Rabs_le. lra.
Qed.
Lemma nrm_scale t a b : nrm (a * t) (b * t) = Rabs t * nrm a b.
Proof.
  unfold nrm. replace (a * t * (a * t) + b * t * (b * t)) with ((t * t) * (a * a + b * b)) by ring.
  rewrite sqrt_mult by nra. f_equal. rewrite <- (sqrt_Rsqr_abs t). reflexivity.
Qed.
Lemma sqrt_acc s C eta eps : 0 <= s -> 0 <= C -> 0 <= eta <= 1 -> 0 <= eps -> Rabs (C - s) <= eta * s + eps ->
  Rabs (sqrt C - sqrt s) <= eta * sqrt s + sqrt eps.
Proof.
  intros Ps PC E Pe H. apply Rabs_le_inv in H. pose proof (sqrt_pos s). pose proof (sqrt_pos C). pose proof (sqrt_pos eps).
  pose proof (sqrt_sqrt s Ps). pose proof (sqrt_sqrt C PC). pose proof (sqrt_sqrt eps Pe).
  set (a := sqrt s) in *. set (c := sqrt C) in *. set (e := sqrt eps) in *. clearbody a c e.
  assert (U : c <= a + (eta * a + e)).
  { apply le_of_sq; [nra|]. assert (0 <= a * e) by nra. assert (0 <= eta * (a * a)) by nra. assert (0 <= eta * eta * (a * a)) by nra. assert (0 <= eta * (a * e)) by nra. nra. }
  assert (V : a * (1 - eta) <= c + e).
  { apply le_of_sq; [lra|]. assert (0 <= c * e) by nra. assert (Q : 0 <= (a * a) * (eta * (1 - eta))) by (apply Rmult_le_pos; [nra|]; apply Rmult_le_pos; lra).
    replace (a * (1 - eta) * (a * (1 - eta))) with (s - eta * s - a * a * (eta * (1 - eta))) by (rewrite <- H3; ring). nra. }
  apply Rabs_le. lra.
Qed.

(** ** Measured length of a difference *)
Section WithLibm.
Context {M : libm}.
Definition hyp (x y : f32) : f32 := gsqrt (gadd (gmul x x) (gmul y y)).
Lemma hyp_acc x y : fin x -> fin y -> Rabs (B2R x) <= bpow radix2 60 -> Rabs (B2R y) <= bpow radix2 60 ->
  fin (hyp x y) /\ 0 <= B2R (hyp x y) /\ Rabs (B2R (hyp x y) - nrm (B2R x) (B2R y)) <= nrm (B2R x) (B2R y) * bpow radix2 (-22) + bpow radix2 (-70).
Proof.
  intros Fx Fy Bx By. set (X := B2R x) in *. set (Y := B2R y) in *.
  assert (B120 : bpow radix2 120 = bpow radix2 60 * bpow radix2 60) by (rewrite <- bpow_plus; reflexivity).
  pose proof (bpow_gt_0 radix2 60) as P60. pose proof (bpow_gt_0 radix2 (-24)) as Pu. pose proof (bpow_gt_0 radix2 (-150)) as Pw.
  assert (SX : 0 <= X * X <= bpow radix2 120). { split; [nra|]. rewrite B120. apply Rabs_le_inv in Bx. nra. }
  assert (SY : 0 <= Y * Y <= bpow radix2 120). { split; [nra|]. rewrite B120. apply Rabs_le_inv in By. nra. }
  assert (L127 : bpow radix2 120 + bpow radix2 120 <= bpow radix2 122) by (rewrite <- (bpow_S 120); apply bpow_le; lia).
  assert (L1 : bpow radix2 122 <= bpow radix2 127) by (apply bpow_le; lia).
  destruct (gmul_fin x x Fx Fx) as [F1 V1]; [apply Rabs_le; fold X; lra|].
  destruct (gmul_fin y y Fy Fy) as [F2 V2]; [apply Rabs_le; fold Y; lra|]. fold X in V1. fold Y in V2.
  assert (E1 : Rabs (rnd32 (X * X) - X * X) <= X * X * bpow radix2 (-24) + bpow radix2 (-150)) by (apply rnd32_errR; rewrite Rabs_pos_eq; lra).
  assert (E2 : Rabs (rnd32 (Y * Y) - Y * Y) <= Y * Y * bpow radix2 (-24) + bpow radix2 (-150)) by (apply rnd32_errR; rewrite Rabs_pos_eq; lra).
  assert (N1 : 0 <= rnd32 (X * X)) by (apply rnd32_pos; lra). assert (N2 : 0 <= rnd32 (Y * Y)) by (apply rnd32_pos; lra).
  set (a := rnd32 (X * X)) in *. set (b := rnd32 (Y * Y)) in *. clearbody a b.
  assert (U24 : bpow radix2 (-24) <= / 1000000) by (change (bpow radix2 (-24)) with (/ 16777216); lra).
  assert (W1 : bpow radix2 (-150) <= 1) by (change 1 with (bpow radix2 0); apply bpow_le; lia).
  apply Rabs_le_inv in E1, E2.
  assert (QX : X * X * bpow radix2 (-24) <= X * X * 0.01) by (apply Rmult_le_compat_l; lra). assert (QY : Y * Y * bpow radix2 (-24) <= Y * Y * 0.01) by (apply Rmult_le_compat_l; lra).
  assert (B1 : 1 <= bpow radix2 120) by (change 1 with (bpow radix2 0); apply bpow_le; lia).
  assert (L126 : bpow radix2 120 * 8 <= bpow radix2 127) by (change 8 with (bpow radix2 3); rewrite <- bpow_plus; apply bpow_le; lia).
  destruct (gadd_fin (gmul x x) (gmul y y) F1 F2) as [F3 V3]. { rewrite V1, V2. apply Rabs_le. lra. } rewrite V1, V2 in V3.
  assert (E3 : Rabs (rnd32 (a + b) - (a + b)) <= (a + b) * bpow radix2 (-24) + bpow radix2 (-150)) by (apply rnd32_errR; rewrite Rabs_pos_eq; lra).
  assert (N3 : 0 <= rnd32 (a + b)) by (apply rnd32_pos; lra).
  destruct (gsqrt_fin _ F3) as [F4 V4]; [rewrite V3; exact N3|]. rewrite V3 in V4. fold (hyp x y) in F4, V4.
  set (C := rnd32 (a + b)) in *. clearbody C.
  assert (SA : Rabs (sqrt C - sqrt (X * X + Y * Y)) <= (2.1 * bpow radix2 (-24)) * sqrt (X * X + Y * Y) + sqrt (bpow radix2 (-148))).
  { apply sqrt_acc; [lra|exact N3|lra|apply bpow_ge_0|]. apply Rabs_le_inv in E3.
    assert (W4 : bpow radix2 (-148) = 4 * bpow radix2 (-150)) by (change 4 with (bpow radix2 2); rewrite <- bpow_plus; reflexivity). rewrite W4.
    assert (a * bpow radix2 (-24) <= (X * X * 1.01 + bpow radix2 (-150)) * bpow radix2 (-24)) by (apply Rmult_le_compat_r; lra).
    assert (b * bpow radix2 (-24) <= (Y * Y * 1.01 + bpow radix2 (-150)) * bpow radix2 (-24)) by (apply Rmult_le_compat_r; lra).
    assert (bpow radix2 (-150) * bpow radix2 (-24) <= bpow radix2 (-150) * / 4) by (apply Rmult_le_compat_l; lra).
    apply Rabs_le. lra. }
  fold (nrm X Y) in SA. set (n := nrm X Y) in *. pose proof (nrm_pos X Y) as Pn. fold n in Pn. clearbody n.
  assert (W74 : sqrt (bpow radix2 (-148)) = bpow radix2 (-74)).
  { change (-148)%Z with (-74 + -74)%Z. rewrite bpow_plus. apply sqrt_square. apply bpow_ge_0. }
  rewrite W74 in SA. pose proof (sqrt_pos C) as Ps. set (s := sqrt C) in *. clearbody s.
  assert (E64 : Rabs (rnd64 s - s) <= s * (bpow radix2 (-24) * / 100) + bpow radix2 (-150)).
  { pose proof (Rabs_pos_eq s Ps) as As. destruct (Rle_dec (bpow radix2 (-1022)) s) as [G|G].
    - pose proof (rnd64_rel s ltac:(rewrite As; exact G)) as E. rewrite As in E.
      assert (U53 : bpow radix2 (-53) <= bpow radix2 (-24) * / 100).
      { apply Rle_trans with (bpow radix2 (-31)); [apply bpow_le; lia|]. change (-31)%Z with (-24 + -7)%Z. rewrite bpow_plus. change (bpow radix2 (-7)) with (/ 128). lra. }
      pose proof (Rmult_le_compat_l s _ _ Ps U53). lra.
    - apply Rnot_le_lt in G. assert (Rabs (rnd64 s) <= bpow radix2 (-1022)) by (apply (rnd_bound 53 1024); [cbn; lia|rewrite As; lra]).
      apply Rabs_le_inv in H. assert (bpow radix2 (-1022) + bpow radix2 (-1022) <= bpow radix2 (-150)) by (rewrite <- (bpow_S (-1022)); apply bpow_le; lia).
      assert (0 <= s * (bpow radix2 (-24) * / 100)) by (apply Rmult_le_pos; lra). apply Rabs_le. lra. }
  assert (P64 : 0 <= rnd64 s) by (apply rnd64_pos; exact Ps). set (r := rnd64 s) in *. clearbody r.
  assert (E32 : Rabs (rnd32 r - r) <= r * bpow radix2 (-24) + bpow radix2 (-150)) by (apply rnd32_errR; rewrite Rabs_pos_eq; lra).
  split; [exact F4|]. split; [rewrite V4; now apply rnd32_pos|]. rewrite V4.
  assert (W150 : bpow radix2 (-150) <= / 1000 * bpow radix2 (-70)).
  { apply Rle_trans with (bpow radix2 (-80)); [apply bpow_le; lia|]. change (-80)%Z with (-10 + -70)%Z. rewrite bpow_plus. pose proof (bpow_gt_0 radix2 (-70)). change (bpow radix2 (-10)) with (/ 1024). nra. }
  assert (W7470 : bpow radix2 (-74) = / 16 * bpow radix2 (-70)) by (change (-74)%Z with (-4 + -70)%Z; rewrite bpow_plus; reflexivity). rewrite W7470 in SA.
  assert (U22 : bpow radix2 (-22) = 4 * bpow radix2 (-24)) by (change 4 with (bpow radix2 2); rewrite <- bpow_plus; reflexivity). rewrite U22.
  apply Rabs_le_inv in SA, E64, E32. pose proof (bpow_gt_0 radix2 (-70)) as P70.
  set (u := bpow radix2 (-24)) in *. set (v := bpow radix2 (-70)) in *. clearbody u v.
  assert (NU : n * u <= n * / 1000000) by (apply Rmult_le_compat_l; lra). assert (VU : v * u <= v * / 1000000) by (apply Rmult_le_compat_l; lra).
  assert (S1 : s <= 1.001 * n + / 16 * v) by lra.
  assert (S2 : s * u <= (1.001 * n + / 16 * v) * u) by (apply Rmult_le_compat_r; lra).
  assert (R1 : r <= 1.01 * n + / 10 * v) by lra.
  assert (R2 : r * u <= (1.01 * n + / 10 * v) * u) by (apply Rmult_le_compat_r; lra).
  apply Rabs_le. lra.
Qed.

(** distance of the two points *)
Definition geo (a b : vec) : R := nrm (B2R (vx b) - B2R (vx a)) (B2R (vy b) - B2R (vy a)).
Lemma vdst_acc a b k : (0 <= k <= 58)%Z -> vbnd k a -> vbnd k b ->
  fin (vdst a b) /\ 0 <= B2R (vdst a b) /\ Rabs (B2R (vdst a b) - geo a b) <= geo a b * bpow radix2 (-21) + bpow radix2 (-69).
Proof.
  intros K [[Fax Bax] [Fay Bay]] [[Fbx Bbx] [Fby Bby]].
  assert (BK : bpow radix2 k + bpow radix2 k <= bpow radix2 59) by (rewrite <- bpow_S; apply bpow_le; lia).
  assert (L59 : bpow radix2 59 <= bpow radix2 127) by (apply bpow_le; lia).
  apply Rabs_le_inv in Bax, Bay, Bbx, Bby.
  destruct (gsub_fin (vx b) (vx a) Fbx Fax) as [F1 V1]; [apply Rabs_le; lra|].
  destruct (gsub_fin (vy b) (vy a) Fby Fay) as [F2 V2]; [apply Rabs_le; lra|].
  assert (G1 : Rabs (B2R (gsub (vx b) (vx a))) <= bpow radix2 60) by (rewrite V1; apply (rnd32_bound _ 60); [lia|]; apply Rle_trans with (bpow radix2 59); [apply Rabs_le; lra|apply bpow_le; lia]).
  assert (G2 : Rabs (B2R (gsub (vy b) (vy a))) <= bpow radix2 60) by (rewrite V2; apply (rnd32_bound _ 60); [lia|]; apply Rle_trans with (bpow radix2 59); [apply Rabs_le; lra|apply bpow_le; lia]).
  destruct (hyp_acc _ _ F1 F2 G1 G2) as (F & P & E). change (hyp (gsub (vx b) (vx a)) (gsub (vy b) (vy a))) with (vdst a b) in *.
  split; [exact F|]. split; [exact P|]. rewrite V1, V2 in E.
  set (X := B2R (vx b) - B2R (vx a)) in *. set (Y := B2R (vy b) - B2R (vy a)) in *.
  assert (EX : Rabs (rnd32 X - X) <= Rabs X * bpow radix2 (-24) + bpow radix2 (-150)) by (apply rnd32_errR; lra).
  assert (EY : Rabs (rnd32 Y - Y) <= Rabs Y * bpow radix2 (-24) + bpow radix2 (-150)) by (apply rnd32_errR; lra).
  pose proof (nrm_near X Y _ _ _ _ EX EY) as NE. pose proof (nrm_ge_l X Y) as GX. pose proof (nrm_ge_r X Y) as GY.
  change (geo a b) with (nrm X Y). pose proof (nrm_pos X Y) as Pn. set (n := nrm X Y) in *. set (n' := nrm (rnd32 X) (rnd32 Y)) in *.
  assert (U21 : bpow radix2 (-21) = 8 * bpow radix2 (-24)) by (change 8 with (bpow radix2 3); rewrite <- bpow_plus; reflexivity).
  assert (U22 : bpow radix2 (-22) = 4 * bpow radix2 (-24)) by (change 4 with (bpow radix2 2); rewrite <- bpow_plus; reflexivity).
  assert (W70 : bpow radix2 (-69) = 2 * bpow radix2 (-70)) by (change 2 with (bpow radix2 1); rewrite <- bpow_plus; reflexivity).
  assert (W150 : bpow radix2 (-150) <= / 1000 * bpow radix2 (-70)).
  { apply Rle_trans with (bpow radix2 (-80)); [apply bpow_le; lia|]. change (-80)%Z with (-10 + -70)%Z. rewrite bpow_plus. pose proof (bpow_gt_0 radix2 (-70)). change (bpow radix2 (-10)) with (/ 1024). nra. }
  rewrite U21, W70. rewrite U22 in E. pose proof (bpow_gt_0 radix2 (-24)) as Pu. assert (U24 : bpow radix2 (-24) <= / 1000000) by (change (bpow radix2 (-24)) with (/ 16777216); lra).
  pose proof (bpow_gt_0 radix2 (-70)) as P70. pose proof (bpow_gt_0 radix2 (-150)) as P150.
  set (u := bpow radix2 (-24)) in *. set (v := bpow radix2 (-70)) in *. set (w := bpow radix2 (-150)) in *. clearbody u v w.
  assert (Rabs X * u <= n * u) by (apply Rmult_le_compat_r; lra). assert (Rabs Y * u <= n * u) by (apply Rmult_le_compat_r; lra).
  apply Rabs_le_inv in NE, E. 
  assert (NU : n * u <= n * / 1000000) by (apply Rmult_le_compat_l; lra). assert (VU : v * u <= v * / 1000000) by (apply Rmult_le_compat_l; lra).
  assert (n' <= 1.001 * n + / 100 * v) by lra. assert (n' * u <= (1.001 * n + / 100 * v) * u) by (apply Rmult_le_compat_r; lra).
  apply Rabs_le. lra.
Qed.

(** ** Cutting one line *)
Definition unit24 : R := bpow radix2 (-24).
Lemma unit24_val : unit24 = / 16777216. Proof. reflexivity. Qed.
Section Scale.
Context (m : Z) (Hm : (0 <= m <= 30)%Z).
Definition big : R := bpow radix2 m.
Definition zed : R := big * unit24.
Lemma big_1 : 1 <= big. Proof. change 1 with (bpow radix2 0). apply bpow_le. lia. Qed.
Lemma big_40 : big <= bpow radix2 40. Proof. apply bpow_le. lia. Qed.
Lemma zed_pos : 0 < zed. Proof. apply Rmult_lt_0_compat; apply bpow_gt_0. Qed.
Lemma zed_big : zed <= big * / 16000000.
Proof. unfold zed. rewrite unit24_val. pose proof big_1. lra. Qed.
Lemma zed_ge k : (k <= -24)%Z -> bpow radix2 k <= zed.
Proof. intros H. unfold zed, big, unit24. rewrite <- bpow_plus. apply bpow_le. lia. Qed.
Lemma zed_frac j : (0 <= j <= 60)%Z -> bpow radix2 (-24 - j) <= zed * bpow radix2 (- j).
Proof. intros H. unfold zed, big, unit24. rewrite <- !bpow_plus. apply bpow_le. lia. Qed.
Lemma tiny_zed k : (k <= -34)%Z -> bpow radix2 k <= zed * / 1000.
Proof.
  intros H. apply Rle_trans with (bpow radix2 (-24 - 10)); [apply bpow_le; lia|]. eapply Rle_trans; [apply zed_frac; lia|].
  change (bpow radix2 (- (10))) with (/ 1024). pose proof zed_pos. lra.
Qed.
Lemma r32 a c : 0 <= c -> Rabs a <= c * big -> Rabs (rnd32 a - a) <= (c + / 1000) * zed.
Proof.
  intros C H. pose proof (rnd32_errR a _ H) as E. fold unit24 in E. pose proof (tiny_zed (-150) ltac:(lia)) as T.
  replace (c * big * unit24) with (c * zed) in E by (unfold zed; ring). lra.
Qed.
Lemma below_127 a c : 0 <= c <= 1000 -> Rabs a <= c * big -> Rabs a <= bpow radix2 127.
Proof.
  intros C H. apply Rle_trans with (1024 * bpow radix2 40).
  - eapply Rle_trans; [exact H|]. pose proof big_40. pose proof big_1. apply Rmult_le_compat; lra.
  - change 1024 with (bpow radix2 10). rewrite <- bpow_plus. apply bpow_le. lia.
Qed.
Lemma cut_coord a b t : bnd m a -> bnd m b -> fin t -> Rabs (B2R (gsub b a) * B2R t) <= 2.14 * big ->
  fin (gsub b a) /\ Rabs (B2R (gsub b a)) <= bpow radix2 60 /\
  fin (gadd (gmul (gsub b a) t) a) /\ Rabs (B2R (gadd (gmul (gsub b a) t) a)) <= 3.2 * big /\
  fin (gsub (gadd (gmul (gsub b a) t) a) a) /\ Rabs (B2R (gsub (gadd (gmul (gsub b a) t) a) a)) <= bpow radix2 60 /\
  Rabs (B2R (gsub (gadd (gmul (gsub b a) t) a) a) - B2R (gsub b a) * B2R t) <= 7.5 * zed.
Proof.
  intros [Fa Ba] [Fb Bb] Ft Bt. fold big in Ba, Bb. pose proof big_1 as P1. pose proof zed_pos as PZ. pose proof zed_big as ZB.
  assert (B60 : 16 * big <= bpow radix2 60). { pose proof big_40 as B4. apply Rle_trans with (16 * bpow radix2 40); [lra|]. change 16 with (bpow radix2 4). rewrite <- bpow_plus. apply bpow_le. lia. }
  destruct (gsub_fin b a Fb Fa) as [Fx Vx]; [apply (below_127 _ 2); [lra|]; apply Rabs_le_inv in Ba, Bb; apply Rabs_le; lra|].
  assert (X60 : Rabs (B2R (gsub b a)) <= bpow radix2 60). { rewrite Vx. apply rnd32_bound; [lia|]. apply Rabs_le_inv in Ba, Bb. apply Rabs_le. lra. }
  destruct (gmul_fin (gsub b a) t Fx Ft) as [Fs Vs]; [apply (below_127 _ 2.14); [lra|exact Bt]|].
  pose proof (r32 _ 2.14 ltac:(lra) Bt) as Es. set (xt := B2R (gsub b a) * B2R t) in *. clearbody xt.
  apply Rabs_le_inv in Ba, Bb, Bt, Es.
  destruct (gadd_fin (gmul (gsub b a) t) a Fs Fa) as [Fq Vq]; [rewrite Vs; apply (below_127 _ 4); [lra|]; apply Rabs_le; lra|]. rewrite Vs in Vq.
  assert (Q1 : Rabs (rnd32 xt + B2R a) <= 3.15 * big) by (apply Rabs_le; lra).
  pose proof (r32 _ 3.15 ltac:(lra) Q1) as Eq. apply Rabs_le_inv in Eq, Q1.
  destruct (gsub_fin (gadd (gmul (gsub b a) t) a) a Fq Fa) as [Fy Vy]; [rewrite Vq; apply (below_127 _ 5); [lra|]; apply Rabs_le; lra|]. rewrite Vq in Vy.
  assert (Q2 : Rabs (rnd32 (rnd32 xt + B2R a) - B2R a) <= 2.15 * big) by (apply Rabs_le; lra).
  pose proof (r32 _ 2.15 ltac:(lra) Q2) as Ey. apply Rabs_le_inv in Ey, Q2.
  split; [exact Fx|]. split; [exact X60|]. split; [exact Fq|]. split; [rewrite Vq; apply Rabs_le; lra|]. split; [exact Fy|].
  split; [rewrite Vy; apply Rabs_le; lra|]. rewrite Vy. apply Rabs_le. lra.
Qed.
Definition cut (l : linear) (d : f64) : linear :=
  mkLinear (ln_p1 l) (ln_point_at l (gdiv (gsub (ln_length l) (g_of_f d)) (ln_length l))).
Lemma cut_acc l d : vbnd m (ln_p1 l) -> vbnd m (ln_p2 l) -> bpow radix2 (-20) <= B2R (ln_length l) -> B2R (ln_length l) <= 1.01 * big ->
  fin d -> Rabs (B2R d) <= 1.1 * big -> B2R d <= B2R (ln_length l) ->
  vbnd (m + 2) (ln_p2 (cut l d)) /\ fin (ln_length (cut l d)) /\ 0 <= B2R (ln_length (cut l d)) /\
  Rabs (B2R (ln_length (cut l d)) - (B2R (ln_length l) - B2R d)) <= 40 * zed.
Proof.
  intros [Xa Ya] [Xb Yb] Llo Lhi Fd Bd DL. pose proof big_1 as P1. pose proof zed_pos as PZ. pose proof zed_big as ZB.
  set (x := gsub (vx (ln_p2 l)) (vx (ln_p1 l))). set (y := gsub (vy (ln_p2 l)) (vy (ln_p1 l))).
  assert (B60 : 16 * big <= bpow radix2 60). { pose proof big_40 as B4. apply Rle_trans with (16 * bpow radix2 40); [lra|]. change 16 with (bpow radix2 4). rewrite <- bpow_plus. apply bpow_le. lia. }
  assert (DIF : forall a b, bnd m a -> bnd m b -> fin (gsub b a) /\ Rabs (B2R (gsub b a)) <= bpow radix2 60).
  { intros a b [Fa Ba] [Fb Bb]. fold big in Ba, Bb. apply Rabs_le_inv in Ba, Bb.
    destruct (gsub_fin b a Fb Fa) as [Fx Vx]; [apply (below_127 _ 2); [lra|]; apply Rabs_le; lra|]. split; [exact Fx|]. rewrite Vx. apply rnd32_bound; [lia|]. apply Rabs_le. lra. }
  destruct (DIF _ _ Xa Xb) as [Fx Bx]. destruct (DIF _ _ Ya Yb) as [Fy By]. fold x in Fx, Bx. fold y in Fy, By.
  destruct (hyp_acc x y Fx Fy Bx By) as (FL & PL & EL). change (hyp x y) with (ln_length l) in *.
  set (L := B2R (ln_length l)) in *. set (N := nrm (B2R x) (B2R y)) in *. pose proof (nrm_pos (B2R x) (B2R y)) as PN. fold N in PN.
  assert (P20 : 0 < bpow radix2 (-20)) by apply bpow_gt_0.
  assert (T70 : bpow radix2 (-70) <= L * bpow radix2 (-50)). { change (-70)%Z with (-20 + -50)%Z. rewrite bpow_plus. apply Rmult_le_compat_r; [apply bpow_ge_0|exact Llo]. }
  assert (U50 : bpow radix2 (-50) <= unit24 * / 1000). { apply Rle_trans with (bpow radix2 (-24 + -10)); [apply bpow_le; lia|]. rewrite bpow_plus. fold unit24. change (bpow radix2 (-10)) with (/ 1024). rewrite unit24_val. lra. }
  assert (T70' : bpow radix2 (-70) <= L * unit24 * / 1000). { eapply Rle_trans; [exact T70|]. rewrite Rmult_assoc. apply Rmult_le_compat_l; lra. }
  assert (U22 : bpow radix2 (-22) = 4 * unit24) by (unfold unit24; change 4 with (bpow radix2 2); rewrite <- bpow_plus; reflexivity). rewrite U22 in EL.
  pose proof unit24_val as UV. assert (PU : 0 < unit24) by (rewrite UV; lra).
  assert (NL : N <= 1.00001 * L). { apply Rabs_le_inv in EL. rewrite UV in *. lra. }
  (* the difference in single precision *)
  destruct (g_of_f_fin d Fd) as [Fg Vg]; [apply (below_127 _ 1.1); [lra|exact Bd]|].
  pose proof (r32 _ 1.1 ltac:(lra) Bd) as Eg. rewrite <- Vg in Eg. apply Rabs_le_inv in Eg, Bd.
  set (u := gsub (ln_length l) (g_of_f d)).
  assert (Q1 : Rabs (L - B2R (g_of_f d)) <= 2.12 * big) by (apply Rabs_le; lra).
  destruct (gsub_fin (ln_length l) (g_of_f d) FL Fg) as [Fu Vu]; [apply (below_127 _ 2.12); [lra|exact Q1]|]. fold u in Fu, Vu. fold L in Vu.
  pose proof (r32 _ 2.12 ltac:(lra) Q1) as Eu. rewrite <- Vu in Eu. apply Rabs_le_inv in Eu, Q1.
  assert (Bu : Rabs (B2R u) <= 2.121 * big) by (apply Rabs_le; lra).
  assert (LP : 0 < L) by lra.
  assert (B127 : Rabs (B2R u / L) <= bpow radix2 127).
  { unfold Rdiv. rewrite Rabs_mult. apply Rle_trans with ((16 * bpow radix2 40) * bpow radix2 20).
    - apply Rmult_le_compat; auto using Rabs_pos; [pose proof big_40; lra|]. rewrite Rabs_pos_eq by (left; now apply Rinv_0_lt_compat).
      rewrite <- (Rinv_inv (bpow radix2 20)), <- (bpow_opp radix2 20). apply Rinv_le; [exact P20|exact Llo].
    - change 16 with (bpow radix2 4). rewrite <- !bpow_plus. apply bpow_le. lia. }
  destruct (gdiv_fin u (ln_length l) Fu FL ltac:(fold L; lra) B127) as [Ft Vt]. set (t := gdiv u (ln_length l)) in *. fold L in Vt.
  assert (ET : Rabs (B2R t * L - B2R u) <= 2.14 * zed).
  { assert (E : Rabs (B2R t - B2R u / L) <= Rabs (B2R u / L) * unit24 + bpow radix2 (-150)) by (rewrite Vt; apply rnd32_errR; lra).
    apply (Rmult_le_compat_r L) in E; [|lra]. rewrite <- (Rabs_pos_eq L) in E at 2 by lra. rewrite <- Rabs_mult in E.
    replace ((B2R t - B2R u / L) * L) with (B2R t * L - B2R u) in E by (field; lra).
    eapply Rle_trans; [exact E|].
    rewrite Rmult_plus_distr_r.
    replace (Rabs (B2R u / L) * unit24 * L) with (Rabs (B2R u) * unit24).
    2: { unfold Rdiv. rewrite Rabs_mult, (Rabs_pos_eq (/ L)) by (left; now apply Rinv_0_lt_compat). field. lra. }
    assert (Rabs (B2R u) * unit24 <= 2.121 * zed). { unfold zed. rewrite <- Rmult_assoc. apply Rmult_le_compat_r; lra. }
    assert (bpow radix2 (-150) * L <= zed * / 1000).
    { apply Rle_trans with (bpow radix2 (-150) * bpow radix2 41).
      - apply Rmult_le_compat_l; [apply bpow_ge_0|]. pose proof big_40. assert (bpow radix2 41 = bpow radix2 40 + bpow radix2 40) by (apply (bpow_S 40)). lra.
      - rewrite <- bpow_plus. apply tiny_zed. lia. }
    lra. }
  assert (TL : Rabs (B2R t) * L <= 2.122 * big).
  { rewrite <- (Rabs_pos_eq L) by lra. rewrite <- Rabs_mult. replace (B2R t * L) with ((B2R t * L - B2R u) + B2R u) by ring. eapply Rle_trans; [apply Rabs_triang|]. lra. }
  assert (Pt : 0 <= Rabs (B2R t)) by apply Rabs_pos.
  assert (TN : Rabs (B2R t) * N <= 2.13 * big).
  { apply Rle_trans with (Rabs (B2R t) * (1.00001 * L)); [apply Rmult_le_compat_l; lra|]. lra. }
  assert (BX : Rabs (B2R x * B2R t) <= 2.14 * big).
  { rewrite Rabs_mult, Rmult_comm. apply Rle_trans with (Rabs (B2R t) * N); [|lra]. apply Rmult_le_compat_l; [exact Pt|apply nrm_ge_l]. }
  assert (BY : Rabs (B2R y * B2R t) <= 2.14 * big).
  { rewrite Rabs_mult, Rmult_comm. apply Rle_trans with (Rabs (B2R t) * N); [|lra]. apply Rmult_le_compat_l; [exact Pt|apply nrm_ge_r]. }
  destruct (cut_coord _ _ t Xa Xb Ft BX) as (_ & _ & Fqx & Bqx & Fdx & Bdx & Edx).
  destruct (cut_coord _ _ t Ya Yb Ft BY) as (_ & _ & Fqy & Bqy & Fdy & Bdy & Edy).
  set (qx := gadd (gmul (gsub (vx (ln_p2 l)) (vx (ln_p1 l))) t) (vx (ln_p1 l))) in *.
  set (qy := gadd (gmul (gsub (vy (ln_p2 l)) (vy (ln_p1 l))) t) (vy (ln_p1 l))) in *.
  assert (CUT : ln_p2 (cut l d) = mkVec qx qy) by reflexivity.
  assert (LEN : ln_length (cut l d) = hyp (gsub qx (vx (ln_p1 l))) (gsub qy (vy (ln_p1 l)))) by reflexivity.
  split.
  { rewrite CUT. assert (B4 : bpow radix2 (m + 2) = 4 * big) by (unfold big; rewrite bpow_plus; change (bpow radix2 2) with 4; ring). split; split; cbn [vx vy]; auto; rewrite B4; lra. }
  rewrite LEN. clear CUT LEN.
  destruct (hyp_acc _ _ Fdx Fdy Bdx Bdy) as (FL' & PL' & EL'). split; [exact FL'|]. split; [exact PL'|].
  set (L' := B2R (hyp (gsub qx (vx (ln_p1 l))) (gsub qy (vy (ln_p1 l))))) in *. clearbody L'.
  fold x in Edx. fold y in Edy. pose proof (nrm_near _ _ _ _ _ _ Edx Edy) as EN. rewrite nrm_scale in EN. fold N in EN.
  set (N' := nrm (B2R (gsub qx (vx (ln_p1 l)))) (B2R (gsub qy (vy (ln_p1 l))))) in *.
  pose proof (tiny_zed (-70) ltac:(lia)) as T7. rewrite U22 in EL'.
  assert (N'B : N' <= 2.15 * big) by (apply Rabs_le_inv in EN; lra).
  assert (N'U : N' * (4 * unit24) <= 8.6 * zed) by (pose proof (Rmult_le_compat_r (4 * unit24) _ _ ltac:(lra) N'B); unfold zed; lra).
  assert (TNL : Rabs (Rabs (B2R t) * N - Rabs (B2R t) * L) <= 8.57 * zed).
  { rewrite <- Rmult_minus_distr_l, Rabs_mult, Rabs_Rabsolu, Rabs_minus_sym.
    apply Rle_trans with (Rabs (B2R t) * (N * (4 * unit24) + L * unit24 * / 1000)); [apply Rmult_le_compat_l; lra|].
    replace (Rabs (B2R t) * (N * (4 * unit24) + L * unit24 * / 1000)) with (Rabs (B2R t) * N * (4 * unit24) + Rabs (B2R t) * L * (unit24 * / 1000)) by ring.
    assert (Rabs (B2R t) * N * (4 * unit24) <= 2.13 * big * (4 * unit24)) by (apply Rmult_le_compat_r; lra).
    assert (Rabs (B2R t) * L * (unit24 * / 1000) <= 2.122 * big * (unit24 * / 1000)) by (apply Rmult_le_compat_r; lra).
    unfold zed in *. lra. }
  assert (TLU : Rabs (Rabs (B2R t) * L - (L - B2R d)) <= 2.14 * zed + 3.3 * zed).
  { assert (E1 : Rabs (Rabs (B2R t) * L - Rabs (B2R u)) <= 2.14 * zed).
    { rewrite <- (Rabs_pos_eq L) by lra. rewrite <- Rabs_mult. eapply Rle_trans; [apply Rabs_triang_inv2|]. exact ET. }
    assert (E2 : Rabs (Rabs (B2R u) - (L - B2R d)) <= 3.3 * zed).
    { rewrite <- (Rabs_pos_eq (L - B2R d)) by lra. eapply Rle_trans; [apply Rabs_triang_inv2|]. apply Rabs_le. lra. }
    apply Rabs_le_inv in E1, E2. apply Rabs_le. lra. }
  apply Rabs_le_inv in EL', EN, TNL, TLU. apply Rabs_le. lra.
Qed.

(** ** Sums of measured lengths *)
Fixpoint meas (ls : list linear) : R := match ls with [] => 0 | l :: r => B2R (ln_length l) + meas r end.
Definition sound (l : linear) : Prop := fin (ln_length l) /\ 0 <= B2R (ln_length l).
Lemma meas_pos ls : Forall sound ls -> 0 <= meas ls.
Proof. induction 1 as [|l ls [_ H] _ IH]; cbn [meas]; lra. Qed.
Lemma meas_app a b : meas (a ++ b) = meas a + meas b.
Proof. induction a as [|l a IH]; cbn [meas app]; [ring|rewrite IH; ring]. Qed.
Lemma meas_rev a : meas (rev a) = meas a.
Proof. induction a as [|l a IH]; cbn [meas rev]; [reflexivity|rewrite meas_app, IH; cbn [meas]; ring]. Qed.
Lemma total_acc C ls : 0 <= C -> C <= bpow radix2 60 -> Forall sound ls -> forall s, fin s -> 0 <= B2R s ->
  B2R s + meas ls + INR (length ls) * (C * unit24 + bpow radix2 (-150)) <= C ->
  fin (fold_left (fun acc l => gadd acc (ln_length l)) ls s) /\
  Rabs (B2R (fold_left (fun acc l => gadd acc (ln_length l)) ls s) - (B2R s + meas ls)) <= INR (length ls) * (C * unit24 + bpow radix2 (-150)).
Proof.
  intros PC C60 F. set (e := C * unit24 + bpow radix2 (-150)).
  assert (Pe : 0 <= e). { unfold e. pose proof (bpow_ge_0 radix2 (-150)). assert (0 <= C * unit24) by (apply Rmult_le_pos; [exact PC|apply bpow_ge_0]). lra. }
  induction F as [|l ls [Fl Pl] F IH]; intros s Fs Ps B.
  - cbn [fold_left length meas INR] in *. split; [exact Fs|]. rewrite Rabs_right; lra.
  - cbn [fold_left meas]. cbn [meas] in B. change (length (l :: ls)) with (S (length ls)) in *. rewrite S_INR in *.
    pose proof (meas_pos ls F) as PM. pose proof (pos_INR (length ls)) as PI. assert (0 <= INR (length ls) * e) by (apply Rmult_le_pos; assumption).
    destruct (gadd_fin s (ln_length l) Fs Fl) as [Fa Va].
    { rewrite Rabs_pos_eq by lra. apply Rle_trans with (bpow radix2 60); [lra|apply bpow_le; lia]. }
    assert (E : Rabs (rnd32 (B2R s + B2R (ln_length l)) - (B2R s + B2R (ln_length l))) <= e).
    { unfold e, unit24. apply rnd32_errR. rewrite Rabs_pos_eq; lra. }
    assert (PP : 0 <= rnd32 (B2R s + B2R (ln_length l))) by (apply rnd32_pos; lra).
    rewrite <- Va in E, PP. destruct (IH _ Fa PP) as [Ft Et]; [apply Rabs_le_inv in E; lra|]. split; [exact Ft|].
    apply Rabs_le_inv in E, Et. apply Rabs_le. lra.
Qed.

(** ** The trimming loop *)
Lemma eps13 : fin (fq 1 10000) /\ 0 < B2R (fq 1 10000) < 0.000101.
Proof. split; [vm_compute; reflexivity|]. bval (fq 1 10000). rewrite V. lra. Qed.
Lemma trim_acc rls : Forall (lin (vbnd m)) rls -> Forall long_enough rls -> Forall sound rls -> forall d k,
  meas rls <= 1.01 * big -> fin d -> Rabs (B2R d) <= 1.1 * big -> 0 <= k -> - k <= meas rls - B2R d ->
  (- bpow radix2 (-13) <= B2R d \/ match rls with l :: _ => vec_eqb (ln_p1 l) (ln_p2 l) = false | [] => False end) ->
  Forall (lin (vbnd (m + 2))) (trim_lines rls d) /\ Forall sound (trim_lines rls d) /\ (length (trim_lines rls d) <= length rls)%nat /\
  Rabs (meas (trim_lines rls d) - (meas rls - B2R d)) <= 40 * zed + bpow radix2 (-13) + k + INR (length rls) * (zed * / 500).
Proof.
  intros F. pose proof big_1 as P1. pose proof zed_pos as PZ. pose proof zed_big as ZB. pose proof (bpow_gt_0 radix2 (-13)) as P13.
  induction F as [|l rls Hl F IH]; intros LE SO d k SB Fd Bd Pk K OR.
  - cbn [trim_lines meas length INR] in *. destruct OR as [D|[]]. split; [constructor|]. split; [constructor|]. split; [lia|]. apply Rabs_le. lra.
  - inversion LE as [|? ? Ll LE']; subst. inversion SO as [|? ? Sl SO']; subst. destruct Sl as [Fl Pl]. specialize (IH LE' SO').
    cbn [trim_lines]. cbn [meas] in *. change (length (l :: rls)) with (S (length rls)) in *. rewrite S_INR.
    pose proof (meas_pos rls SO') as PM. pose proof (pos_INR (length rls)) as PI.
    assert (PN : 0 <= INR (length rls) * (zed * / 500)) by (apply Rmult_le_pos; lra).
    destruct (f_of_g_fin (ln_length l) Fl) as [Fl6 Vl]. destruct eps13 as [Fe Ve].
    assert (B1023 : forall a, Rabs a <= 4 * big -> Rabs a <= bpow radix2 1023).
    { intros a H. apply Rle_trans with (bpow radix2 127); [apply (below_127 _ 4); [lra|exact H]|apply bpow_le; lia]. }
    pose proof Bd as Bd'. apply Rabs_le_inv in Bd'.
    destruct (fadd_fin d (fq 1 10000) Fd Fe) as [Fa Va]; [apply B1023; apply Rabs_le; lra|].
    assert (DA : B2R d <= rnd64 (B2R d + B2R (fq 1 10000))) by (rewrite <- (rnd64_id d) at 1; apply rnd64_le; lra).
    assert (UP2 : Forall (lin (vbnd (m + 2))) rls) by (eapply lin_impl; [|exact F]; intros p; apply vbnd_le; lia).
    destruct (fgt (f_of_g (ln_length l)) (fadd d (fq 1 10000))) eqn:G;
      rewrite (fgt_bool _ _ Fl6 Fa) in G; destruct (Rlt_bool_spec (B2R (fadd d (fq 1 10000))) (B2R (f_of_g (ln_length l)))) as [G'|G']; try discriminate G;
      rewrite Va, Vl in G'; clear G.
    + destruct (vec_eqb (ln_p1 l) (ln_p2 l)) eqn:EQ.
      * (* equal ends: the line stays as it is *)
        destruct OR as [D|D]; [|discriminate D].
        assert (L0 : B2R (ln_length l) <= zed * / 1000).
        { destruct Hl as [[[Fx Qx] [Fy Qy]] [[Fx' Qx'] [Fy' Qy']]]. unfold vec_eqb in EQ. apply andb_true_iff in EQ as [EX EY].
          apply geq_iff in EX as (_ & _ & EX). apply geq_iff in EY as (_ & _ & EY).
          rewrite !(key_fin 24 128) in EX, EY by assumption.
          destruct (vdst_acc (ln_p1 l) (ln_p2 l) m ltac:(lia)) as (_ & _ & E); [split; split; assumption..|].
          unfold geo in E. rewrite EX, EY, !Rminus_eq_0 in E. unfold nrm in E. rewrite Rmult_0_l, Rplus_0_r, sqrt_0, Rmult_0_l, Rplus_0_l in E.
          fold (ln_length l) in E. rewrite Rminus_0_r in E. pose proof (tiny_zed (-69) ltac:(lia)). apply Rabs_le_inv in E. lra. }
        split; [constructor; [destruct Hl; split; eapply vbnd_le; try eassumption; lia|exact UP2]|].
        split; [constructor; [split; assumption|exact SO']|]. split; [cbn [length]; lia|]. cbn [meas].
        apply Rabs_le. lra.
      * destruct Ll as [Ll|Ll]; [congruence|]. destruct q20_val as [F20 V20].
        apply gle_iff in Ll as (_ & _ & Ll). rewrite (key_fin 24 128 _ F20), (key_fin 24 128 _ Fl), V20 in Ll. destruct Hl as [H1 H2].
        destruct (cut_acc l d H1 H2 Ll ltac:(lra) Fd Bd ltac:(lra)) as (V2 & F2 & P2 & E2). fold (cut l d).
        split; [constructor; [split; [eapply vbnd_le; [|exact H1]; lia|exact V2]|exact UP2]|].
        split; [constructor; [split; assumption|exact SO']|]. split; [cbn [length]; lia|]. cbn [meas].
        apply Rabs_le_inv in E2. apply Rabs_le. lra.
    + assert (BM : bpow radix2 (m + 2) = 4 * big) by (unfold big; rewrite bpow_plus; change (bpow radix2 2) with 4; ring).
      assert (E21 : bpow radix2 (m + 2 - 53) <= 0.000001).
      { apply Rle_trans with (bpow radix2 (-21)); [apply bpow_le; lia|]. change (bpow radix2 (-21)) with (/ 2097152). lra. }
      assert (EZ : bpow radix2 (m + 2 - 53) <= zed * / 1000).
      { replace (m + 2 - 53)%Z with (m + (-24) + (-27))%Z by lia. rewrite !bpow_plus. fold big. fold unit24. fold zed.
        apply Rmult_le_compat_l; [lra|]. change (bpow radix2 (-27)) with (/ 134217728). lra. }
      assert (V13 : 0.000122 <= bpow radix2 (-13)) by (change (bpow radix2 (-13)) with (/ 8192); lra).
      assert (R1 : Rabs (rnd64 (B2R d + B2R (fq 1 10000)) - (B2R d + B2R (fq 1 10000))) <= bpow radix2 (m + 2 - 53)).
      { apply rnd64_err; [lia|]. rewrite BM. apply Rabs_le. lra. }
      assert (R2 : Rabs (rnd64 (B2R d - B2R (ln_length l)) - (B2R d - B2R (ln_length l))) <= bpow radix2 (m + 2 - 53)).
      { apply rnd64_err; [lia|]. rewrite BM. apply Rabs_le. lra. }
      destruct (fsub_fin d (f_of_g (ln_length l)) Fd Fl6) as [Fs Vs]; [rewrite Vl; apply B1023; apply Rabs_le; lra|]. rewrite Vl in Vs. rewrite <- Vs in R2.
      assert (R3 : B2R (fsub d (f_of_g (ln_length l))) <= B2R d) by (rewrite Vs, <- (rnd64_id d) at 1; rewrite (rnd64_id d); rewrite <- (rnd64_id d) at 2; apply rnd64_le; lra).
      apply Rabs_le_inv in R1, R2.
      destruct (IH (fsub d (f_of_g (ln_length l))) (k + zed * / 1000)) as (A1 & A2 & A3 & A4); auto; try lra.
      { apply Rabs_le. lra. }
      split; [exact A1|]. split; [exact A2|]. split; [lia|]. apply Rabs_le_inv in A4. apply Rabs_le. lra.
Qed.

(** ** From the measured to the plane length *)
Lemma gap_geo l : gap l = geo (ln_p1 l) (ln_p2 l).
Proof. unfold gap, geo, nrm. f_equal. ring. Qed.
Lemma path_acc k ls : (0 <= k <= 58)%Z -> Forall (lin (vbnd k)) ls ->
  Forall sound ls /\ 0 <= path_length ls /\
  Rabs (meas ls - path_length ls) <= path_length ls * (8 * unit24) + INR (length ls) * bpow radix2 (-69).
Proof.
  intros K F. induction F as [|l ls [H1 H2] F IH]; [split; [constructor|]; cbn [meas path_length length INR]; split; [lra|rewrite Rabs_right; lra]|].
  destruct IH as (S & P & E). destruct (vdst_acc _ _ k K H1 H2) as (Fl & Pl & El). fold (ln_length l) in *. rewrite <- gap_geo in El.
  assert (U21 : bpow radix2 (-21) = 8 * unit24) by (unfold unit24; change 8 with (bpow radix2 3); rewrite <- bpow_plus; reflexivity). rewrite U21 in El.
  split; [constructor; [split; assumption|exact S]|]. cbn [meas path_length]. change (length (l :: ls)) with (Datatypes.S (length ls)). rewrite S_INR.
  assert (0 <= gap l) by (unfold gap; apply sqrt_pos). split; [lra|]. apply Rabs_le_inv in E, El. apply Rabs_le. lra.
Qed.
Lemma path_app a b : path_length (a ++ b) = path_length a + path_length b.
Proof. induction a as [|l a IH]; cbn [path_length app]; [ring|rewrite IH; ring]. Qed.
Lemma path_rev a : path_length (rev a) = path_length a.
Proof. induction a as [|l a IH]; cbn [path_length rev]; [reflexivity|rewrite path_app, IH; cbn [path_length]; ring]. Qed.

Theorem trimmed_length ls len : Forall (lin (vbnd m)) ls -> Forall long_enough ls -> (Z.of_nat (length ls) <= 1048576)%Z -> path_length ls <= big ->
  fin len -> 0 <= B2R len <= big -> (ends_open ls /\ ls <> [] \/ B2R len <= B2R (total_length ls)) ->
  let ls' := rev (trim_lines (rev ls) (fsub (f_of_g (total_length ls)) len)) in
  let e := (INR (length ls) + 16) * (4 * zed) + bpow radix2 (-13) in
  Forall (lin (vbnd (m + 2))) ls' /\ fin (total_length ls') /\ Rabs (B2R (total_length ls') - B2R len) <= e /\ Rabs (path_length ls' - B2R len) <= e.
Proof.
  intros F LE NL PB Fl Bl OR ls' e. pose proof big_1 as P1. pose proof zed_pos as PZ. pose proof zed_big as ZB. pose proof big_40 as B40.
  pose proof (bpow_gt_0 radix2 (-13)) as P13. pose proof unit24_val as UV.
  assert (NR : 0 <= INR (length ls) <= 1048576).
  { split; [apply pos_INR|]. rewrite INR_IZR_INZ. apply IZR_le. lia. }
  set (n := INR (length ls)) in *.
  destruct (path_acc m ls ltac:(lia) F) as (SO & PP & EP). fold n in EP.
  pose proof (tiny_zed (-69) ltac:(lia)) as T69. pose proof (tiny_zed (-150) ltac:(lia)) as T150.
  assert (NZ : n * zed <= 0.0626 * big). { unfold zed. rewrite UV. pose proof (Rmult_le_compat_r big n 1048576 ltac:(lra) ltac:(lra)). lra. }
  assert (N69 : n * bpow radix2 (-69) <= n * (zed * / 1000)) by (apply Rmult_le_compat_l; lra).
  assert (MB : meas ls <= 1.01 * big).
  { assert (path_length ls * (8 * unit24) <= 8 * zed). { unfold zed. assert (path_length ls * unit24 <= big * unit24) by (apply Rmult_le_compat_r; [rewrite UV; lra|exact PB]). lra. }
    apply Rabs_le_inv in EP. lra. }
  assert (PM : 0 <= meas ls) by now apply meas_pos.
  assert (U0 : forall c, c * big * unit24 = c * zed) by (intros; unfold zed; ring).
  assert (B60 : 2 * big <= bpow radix2 60). { apply Rle_trans with (2 * bpow radix2 40); [lra|]. change 2 with (bpow radix2 1). rewrite <- bpow_plus. apply bpow_le. lia. }
  (* the total before *)
  destruct (total_acc (1.15 * big) ls ltac:(lra) ltac:(lra) SO g0 eq_refl ltac:(change (B2R g0) with 0; lra)) as [FT ET].
  { change (B2R g0) with 0. fold n. rewrite U0. assert (n * bpow radix2 (-150) <= n * (zed * / 1000)) by (apply Rmult_le_compat_l; lra). lra. }
  fold (total_length ls) in FT, ET. fold n in ET. rewrite U0 in ET. change (B2R g0) with 0 in ET.
  assert (N150 : n * bpow radix2 (-150) <= n * (zed * / 1000)) by (apply Rmult_le_compat_l; lra).
  set (T := B2R (total_length ls)) in *. apply Rabs_le_inv in ET.
  assert (PT : 0 <= T).
  { assert (G : forall l s, Forall sound l -> fin s -> 0 <= B2R s -> fin (fold_left (fun acc x => gadd acc (ln_length x)) l s) -> 0 <= B2R (fold_left (fun acc x => gadd acc (ln_length x)) l s)).
    { clear. intros l. induction l as [|x l IH]; intros s H Fs Ps Ff; [exact Ps|]. inversion H as [|? ? [Fx Px] H']; subst. cbn [fold_left] in *.
      destruct (nn_plus 24 128 s (ln_length x) (nn_fin _ _ s Fs Ps) (nn_fin _ _ _ Fx Px)) as (N & _). fold (gadd s (ln_length x)) in N. 
      destruct (nn_cases 24 128 _ N) as [E|[Fa Pa]]; [|now apply IH]. exfalso. rewrite E in Ff. clear - Ff H'.
      induction H' as [|y l [Fy Py] H' IH]; cbn [fold_left] in Ff; [discriminate|]. apply IH. replace (gadd (B754_infinity false) (ln_length y)) with (B754_infinity false : f32) in Ff; [exact Ff|].
      revert Fy. generalize (ln_length y). intros v Fv. destruct v; try discriminate; reflexivity. }
    apply G; auto; [reflexivity|change (B2R g0) with 0; lra]. }
  (* the difference *)
  destruct (f_of_g_fin _ FT) as [FT6 VT]. fold T in VT.
  assert (B1023 : forall a, Rabs a <= 4 * big -> Rabs a <= bpow radix2 1023).
  { intros a H. apply Rle_trans with (bpow radix2 127); [apply (below_127 _ 4); [lra|exact H]|apply bpow_le; lia]. }
  destruct (fsub_fin _ _ FT6 Fl) as [Fd Vd]; [rewrite VT; apply B1023; apply Rabs_le; lra|]. rewrite VT in Vd.
  set (d := fsub (f_of_g (total_length ls)) len) in *.
  assert (EZ : bpow radix2 (m + 2 - 53) <= zed * / 1000).
  { replace (m + 2 - 53)%Z with (m + (-24) + (-27))%Z by lia. rewrite !bpow_plus. fold big. fold unit24. fold zed.
    apply Rmult_le_compat_l; [lra|]. change (bpow radix2 (-27)) with (/ 134217728). lra. }
  assert (ED : Rabs (B2R d - (T - B2R len)) <= zed * / 1000).
  { rewrite Vd. eapply Rle_trans; [apply (rnd64_err _ (m + 2)); [lia|]|exact EZ]. rewrite bpow_plus. fold big. change (bpow radix2 2) with 4. apply Rabs_le. lra. }
  apply Rabs_le_inv in ED.
  destruct (trim_acc (rev ls) (Forall_rev F) (Forall_rev LE) (Forall_rev SO) d (1.152 * (n * zed) + zed * / 1000)) as (A1 & A2 & A3 & A4).
  { rewrite meas_rev. exact MB. } { exact Fd. } { apply Rabs_le. lra. } { assert (0 <= n * zed) by (apply Rmult_le_pos; lra). lra. }
  { rewrite meas_rev. lra. }
  { destruct OR as [[O NE]|O].
    - right. destruct ls as [|l0 ls0] using rev_ind; [congruence|]. rewrite rev_app_distr. cbn [rev app]. exact (O _ _ eq_refl).
    - left. assert (0 <= B2R d); [|lra]. rewrite Vd. apply rnd64_pos. lra. }
  rewrite meas_rev, rev_length in A4. rewrite rev_length in A3. fold n in A4. apply Rabs_le_inv in A4.
  set (rt := trim_lines (rev ls) d) in *. change ls' with (rev rt) in *. clearbody rt.
  assert (N0 : 0 <= n * zed) by (apply Rmult_le_pos; lra).
  assert (MB' : meas rt <= 1.17 * big) by (change (bpow radix2 (-13)) with (/ 8192) in *; lra).
  assert (N' : 0 <= INR (length (rev rt)) <= n). { split; [apply pos_INR|]. rewrite rev_length. apply le_INR. exact A3. }
  set (n' := INR (length (rev rt))) in *.
  assert (NZ' : 0 <= n' * zed <= n * zed) by (split; [apply Rmult_le_pos; lra|apply Rmult_le_compat_r; lra]).
  assert (NT : forall j, (j <= -34)%Z -> n' * bpow radix2 j <= n' * zed * / 1000) by (intros j J; rewrite Rmult_assoc; apply Rmult_le_compat_l; [lra|now apply tiny_zed]).
  split; [now apply Forall_rev|].
  destruct (total_acc (1.3 * big) (rev rt) ltac:(lra) ltac:(lra) (Forall_rev A2) g0 eq_refl ltac:(change (B2R g0) with 0; lra)) as [FT' ET'].
  { change (B2R g0) with 0. fold n'. rewrite U0, meas_rev. pose proof (NT (-150)%Z ltac:(lia)). lra. }
  fold (total_length (rev rt)) in FT', ET'. fold n' in ET'. rewrite U0, meas_rev in ET'. change (B2R g0) with 0 in ET'. apply Rabs_le_inv in ET'.
  split; [exact FT'|]. pose proof (NT (-150)%Z ltac:(lia)) as NT1. pose proof (NT (-69)%Z ltac:(lia)) as NT2.
  split; [unfold e; apply Rabs_le; lra|].
  destruct (path_acc (m + 2) (rev rt) ltac:(lia) (Forall_rev A1)) as (_ & PP' & EP'). fold n' in EP'. rewrite meas_rev in EP'. apply Rabs_le_inv in EP'.
  set (pl := path_length (rev rt)) in *.
  assert (PU : pl * (8 * unit24) <= 0.001 * pl) by (rewrite UV; lra).
  assert (PLB : pl <= 1.2 * big) by lra.
  assert (PLU : pl * (8 * unit24) <= 9.6 * zed). { unfold zed. pose proof (Rmult_le_compat_r (8 * unit24) _ _ ltac:(rewrite UV; lra) PLB). lra. }
  unfold e. apply Rabs_le. lra.
Qed.
End Scale.
End WithLibm.

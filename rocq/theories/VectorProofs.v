(** Scripts for the vector helpers (C92). *)
From Coq Require Import Reals Lra ZArith Lia Bool.
From Flocq Require Import Raux Zaux Core BinarySingleNaN.
From Verif Require Import Helpers SpecCurves SpecArc BaseLemmas FloatLemmas Float32Lemmas KeyLemmas BoundLemmas NearLemmas BezierTerm ArcProofs ArcShape.
Open Scope R_scope.

(** ** Mid *)
Lemma two32 : fin (gq 2 1) /\ B2R (gq 2 1) = 2. Proof. apply (gq1_exact 2). lia. Qed.
Lemma double_fmt a : generic_format radix2 (SpecFloat.fexp 24 128) a -> generic_format radix2 (SpecFloat.fexp 24 128) (2 * a).
Proof.
  intros G. change (SpecFloat.fexp 24 128) with (FLT_exp (-149) 24) in *. apply FLT_format_generic in G; [|reflexivity]. destruct G as [[m e] E H1 H2]. cbn [Fnum Fexp] in *.
  apply generic_format_FLT. exists (Float radix2 m (e + 1)); cbn [Fnum Fexp]; [|exact H1|lia]. rewrite E. unfold F2R. cbn [Fnum Fexp]. rewrite bpow_plus. change (bpow radix2 1) with 2. ring.
Qed.
Lemma mid_coord (x y : f32) k : (-100 <= k <= 126)%Z -> fin x -> fin y -> Rabs (B2R x) <= bpow radix2 k -> Rabs (B2R y) <= bpow radix2 k ->
  let m := gdiv (gadd x y) (gq 2 1) in fin m /\ Rmin (B2R x) (B2R y) <= B2R m <= Rmax (B2R x) (B2R y) /\ Rabs (B2R m - (B2R x + B2R y) / 2) <= bpow radix2 (k - 23).
Proof.
  intros K Fx Fy Bx By m. destruct two32 as (F2 & E2).
  assert (B : Rabs (B2R x + B2R y) <= bpow radix2 (k + 1)). { apply Rle_trans with (1 := Rabs_triang _ _). rewrite bpow_plus. change (bpow radix2 1) with 2. lra. }
  destruct (gadd_fin x y Fx Fy) as (Fs & Es); [apply Rle_trans with (1 := B), bpow_le; lia|]. pose proof (ArcProofs.rnd32_err _ (k + 1) ltac:(lia) B) as R1. rewrite <- Es in R1.
  assert (Bs : Rabs (B2R (gadd x y)) <= bpow radix2 (k + 1)) by (rewrite Es; apply rnd32_bound; [lia|exact B]).
  set (s := gadd x y) in *. assert (Q : Rabs (B2R s / 2) <= bpow radix2 k). { unfold Rdiv. rewrite Rabs_mult, (Rabs_pos_eq (/ 2)) by lra. rewrite bpow_plus in Bs. change (bpow radix2 1) with 2 in Bs. lra. }
  destruct (gdiv_fin s (gq 2 1) Fs F2) as (Fm & Em); [rewrite E2; lra|rewrite E2; apply Rle_trans with (1 := Q), bpow_le; lia|]. rewrite E2 in Em. fold m in Fm, Em. split; [exact Fm|].
  pose proof (ArcProofs.rnd32_err _ k ltac:(lia) Q) as R2. rewrite <- Em in R2. split.
  - assert (DBL : forall z : f32, fin z -> Rabs (B2R z) <= bpow radix2 k -> rnd32 (2 * B2R z) = 2 * B2R z).
    { intros z Fz Bz. destruct (gmul_fin (gq 2 1) z F2 Fz) as (F & E); [rewrite E2, Rabs_mult, (Rabs_pos_eq 2) by lra; apply Rle_trans with (bpow radix2 (1 + k)); [rewrite bpow_plus; change (bpow radix2 1) with 2; lra|apply bpow_le; lia]|].
      rewrite E2 in E. apply round_generic; [typeclasses eauto|]. apply double_fmt, generic_format_B2R. }
    assert (LO : forall z : f32, fin z -> Rabs (B2R z) <= bpow radix2 k -> B2R z <= B2R x -> B2R z <= B2R y -> B2R z <= B2R m).
    { intros z Fz Bz L1 L2. rewrite Em. apply rnd32_ge_f. assert (2 * B2R z <= B2R s); [|lra]. rewrite Es, <- (DBL z Fz Bz). apply rnd32_le. lra. }
    assert (HI : forall z : f32, fin z -> Rabs (B2R z) <= bpow radix2 k -> B2R x <= B2R z -> B2R y <= B2R z -> B2R m <= B2R z).
    { intros z Fz Bz L1 L2. rewrite Em. apply rnd32_le_f. assert (B2R s <= 2 * B2R z); [|lra]. rewrite Es, <- (DBL z Fz Bz). apply rnd32_le. lra. }
    split; [unfold Rmin|unfold Rmax]; destruct (Rle_dec (B2R x) (B2R y)); auto; [apply LO|apply LO|apply HI|apply HI]; auto; lra.
  - replace (B2R m - (B2R x + B2R y) / 2) with ((B2R m - B2R s / 2) + (B2R s - (B2R x + B2R y)) / 2) by field. apply Rle_trans with (1 := Rabs_triang _ _). unfold Rdiv at 2. rewrite Rabs_mult, (Rabs_pos_eq (/ 2)) by lra.
    replace (k + 1 - 24)%Z with (k - 23)%Z in R1 by lia. replace (k - 23)%Z with (k - 24 + 1)%Z in * by lia. rewrite bpow_plus in *. change (bpow radix2 1) with 2 in *. lra.
Qed.

(** ** Nor *)
Definition u24 : R := / 16777216.
Definition tiny : R := bpow radix2 (-149).
Lemma tiny_small : 0 < tiny <= / 1000000000000000000000000000000. Proof. unfold tiny. split; [apply bpow_gt_0|]. apply Rle_trans with (bpow radix2 (-100)); [apply bpow_le; lia|]. change (bpow radix2 (-100)) with (/ IZR (2 ^ 100)). change (2 ^ 100)%Z with 1267650600228229401496703205376%Z. lra. Qed.
Lemma rnd32_any a : Rabs (rnd32 a - a) <= Rabs a * u24 + tiny.
Proof. pose proof (rnd32_errR a (Rabs a) (Rle_refl _)) as E. change (bpow radix2 (-24)) with u24 in E. assert (bpow radix2 (-150) <= tiny) by (apply bpow_le; lia). lra. Qed.
Lemma square_coord (x : f32) : fin x -> Rabs (B2R x) <= bpow radix2 60 -> let q := B2R x * B2R x in fin (gmul x x) /\ 0 <= q <= bpow radix2 120 /\ q - q * u24 - tiny <= B2R (gmul x x) <= q + q * u24 + tiny.
Proof.
  intros F B q. assert (Q : 0 <= q) by apply Rle_0_sqr. assert (QB : q <= bpow radix2 120). { unfold q. rewrite <- (Rabs_pos_eq (B2R x * B2R x)) by exact Q. rewrite Rabs_mult. change 120%Z with (60 + 60)%Z. rewrite bpow_plus. apply Rmult_le_compat; try apply Rabs_pos; exact B. }
  destruct (gmul_fin x x F F) as (Fm & Em); [fold q; rewrite Rabs_pos_eq by exact Q; apply Rle_trans with (1 := QB), bpow_le; lia|]. split; [exact Fm|]. split; [lra|]. fold q in Em. rewrite Em.
  pose proof (rnd32_any q) as E. rewrite (Rabs_pos_eq q) in E by exact Q. apply Rabs_le_inv in E. lra.
Qed.
Lemma lensq_near v : SpecCurves.within 60 v -> let q := px v * px v + py v * py v in fin (vlensq v) /\ 0 <= q <= bpow radix2 121 /\ q - q * (21 / 10 * u24) - 4 * tiny <= B2R (vlensq v) <= q + q * (21 / 10 * u24) + 4 * tiny.
Proof.
  intros ((Fx & Bx) & (Fy & By)) q. destruct (square_coord _ Fx Bx) as (F1 & Q1 & E1). destruct (square_coord _ Fy By) as (F2 & Q2 & E2). cbv zeta in *.
  assert (EQ : q = B2R (vx v) * B2R (vx v) + B2R (vy v) * B2R (vy v)) by reflexivity. set (q1 := B2R (vx v) * B2R (vx v)) in *. set (q2 := B2R (vy v) * B2R (vy v)) in *.
  assert (QB : 0 <= q <= bpow radix2 121). { rewrite EQ. change 121%Z with (120 + 1)%Z. rewrite bpow_plus. change (bpow radix2 1) with 2. lra. }
  pose proof tiny_small as T. unfold u24 in *. assert (P121 : 1 <= bpow radix2 121) by (change 1 with (bpow radix2 0); apply bpow_le; lia).
  set (s := B2R (gmul (vx v) (vx v)) + B2R (gmul (vy v) (vy v))) in *. assert (S : q - q * / 16777216 - 2 * tiny <= s <= q + q * / 16777216 + 2 * tiny) by (unfold s; lra).
  assert (AS : Rabs s <= q + q * / 16777216 + 2 * tiny) by (apply Rabs_le; lra).
  destruct (gadd_fin _ _ F1 F2) as (F & E). { fold s. apply Rle_trans with (1 := AS). replace (bpow radix2 127) with (64 * bpow radix2 121) by (change 127%Z with (6 + 121)%Z; rewrite bpow_plus; reflexivity). lra. }
  fold s in E. split; [exact F|]. split; [exact QB|]. change (vlensq v) with (gadd (gmul (vx v) (vx v)) (gmul (vy v) (vy v))). rewrite E.
  pose proof (rnd32_any s) as R. unfold u24 in R. apply Rabs_le_inv in R. assert (Rabs s * / 16777216 <= (q + q * / 16777216 + 2 * tiny) * / 16777216) by (apply Rmult_le_compat_r; lra). lra.
Qed.
Lemma eps_val : fin (gq 1 100000) /\ 999999 / 100000000000 <= B2R (gq 1 100000) <= 1000001 / 100000000000.
Proof. bval (gq 1 100000). split; [vm_compute; reflexivity|]. rewrite V. lra. Qed.
Lemma sqrt_near z q d : 0 < q -> 0 <= d <= / 4 -> q - q * d <= z <= q + q * d -> sqrt q - sqrt q * (6 / 10 * d) <= sqrt z <= sqrt q + sqrt q * (d / 2).
Proof.
  intros Q D Z. assert (Z0 : 0 <= z). { assert (q * d <= q * / 4) by (apply Rmult_le_compat_l; lra). lra. } pose proof (sqrt_lt_R0 q Q) as S. split.
  - replace (sqrt q - sqrt q * (6 / 10 * d)) with (sqrt q * (1 - 6 / 10 * d)) by ring. rewrite <- (sqrt_square (sqrt q * (1 - 6 / 10 * d))) by (apply Rmult_le_pos; lra). apply sqrt_le_1_alt.
    replace (sqrt q * (1 - 6 / 10 * d) * (sqrt q * (1 - 6 / 10 * d))) with (sqrt q * sqrt q * ((1 - 6 / 10 * d) * (1 - 6 / 10 * d))) by ring. rewrite sqrt_sqrt by lra. apply Rle_trans with (2 := proj1 Z).
    replace (q - q * d) with (q * (1 - d)) by ring. apply Rmult_le_compat_l; [lra|]. nra.
  - replace (sqrt q + sqrt q * (d / 2)) with (sqrt q * (1 + d / 2)) by field. rewrite <- (sqrt_square (sqrt q * (1 + d / 2))) by (apply Rmult_le_pos; lra). apply sqrt_le_1_alt.
    replace (sqrt q * (1 + d / 2) * (sqrt q * (1 + d / 2))) with (sqrt q * sqrt q * ((1 + d / 2) * (1 + d / 2))) by ring. rewrite sqrt_sqrt by lra. apply Rle_trans with (1 := proj2 Z).
    replace (q + q * d) with (q * (1 + d)) by ring. apply Rmult_le_compat_l; [lra|]. nra.
Qed.
Lemma unit_coord (x s : f32) h : fin x -> fin s -> 0 < h -> Rabs (B2R x) <= h -> h - h * (24 / 10 * u24) <= B2R s <= h + h * (24 / 10 * u24) -> fin (gdiv x s) /\ Rabs (B2R (gdiv x s) - B2R x / h) <= bpow radix2 (-22).
Proof.
  intros Fx Fs H X S. unfold u24 in *. assert (S0 : 0 < B2R s) by lra. set (w := B2R x) in *. assert (E : w / B2R s - w / h = w / h * ((h - B2R s) / B2R s)) by (field; lra).
  assert (W : Rabs (w / h) <= 1). { unfold Rdiv. rewrite Rabs_mult, (Rabs_pos_eq (/ h)) by (left; apply Rinv_0_lt_compat; exact H). apply Rmult_le_reg_r with h; [exact H|]. rewrite Rmult_assoc, Rinv_l by lra. lra. }
  assert (D : Rabs ((h - B2R s) / B2R s) <= 25 / 10 * / 16777216). { unfold Rdiv at 1. rewrite Rabs_mult, (Rabs_pos_eq (/ B2R s)) by (left; apply Rinv_0_lt_compat; exact S0). apply Rmult_le_reg_r with (B2R s); [exact S0|]. rewrite Rmult_assoc, Rinv_l, Rmult_1_r by lra. apply Rabs_le. lra. }
  assert (G : Rabs (w / B2R s - w / h) <= 25 / 10 * / 16777216). { rewrite E, Rabs_mult. replace (25 / 10 * / 16777216) with (1 * (25 / 10 * / 16777216)) by ring. apply Rmult_le_compat; try apply Rabs_pos; assumption. }
  assert (B : Rabs (w / B2R s) <= 11 / 10). { replace (w / B2R s) with ((w / B2R s - w / h) + w / h) by ring. apply Rle_trans with (1 := Rabs_triang _ _). lra. }
  destruct (gdiv_fin x s Fx Fs) as (F & V); [lra|fold w; apply Rle_trans with (1 := B); apply Rle_trans with (bpow radix2 1); [change (bpow radix2 1) with 2; lra|apply bpow_le; lia]|]. fold w in V. split; [exact F|]. rewrite V.
  pose proof (rnd32_any (w / B2R s)) as R. pose proof tiny_small as T. unfold u24 in R. assert (Rabs (w / B2R s) * / 16777216 <= 11 / 10 * / 16777216) by (apply Rmult_le_compat_r; lra).
  change (bpow radix2 (-22)) with (/ 4194304). replace (rnd32 (w / B2R s) - w / h) with ((rnd32 (w / B2R s) - w / B2R s) + (w / B2R s - w / h)) by ring. apply Rle_trans with (1 := Rabs_triang _ _). lra.
Qed.
Lemma nor_cases v : SpecCurves.within 60 v -> let h := sqrt (px v * px v + py v * py v) in
  (h <= 316228 / 100000000 /\ vnor v = v) \/
  (316227 / 100000000 <= h /\ close (bpow radix2 (-22)) (vnor v) (px v / h) (py v / h)).
Proof.
  intros W h. destruct (lensq_near v W) as (F & Q & L). cbv zeta in *. set (q := px v * px v + py v * py v) in *. destruct eps_val as (Fe & Ee). pose proof tiny_small as T. unfold vnor. cbv zeta.
  destruct (glt (vlensq v) (gq 1 100000)) eqn:G.
  - left. split; [|reflexivity]. apply glt_B2R in G; [|exact F|exact Fe]. unfold u24 in L. unfold h. rewrite <- (sqrt_square (316228 / 100000000)) by lra. apply sqrt_le_1_alt. lra.
  - right. assert (LE : B2R (gq 1 100000) <= B2R (vlensq v)). { apply Rnot_lt_le. intros X. apply glt_B2R in X; [|exact F|exact Fe]. rewrite X in G. discriminate G. }
    unfold u24 in L. assert (QL : 99999 / 10000000000 <= q) by lra. assert (HL : 316227 / 100000000 <= h). { unfold h. rewrite <- (sqrt_square (316227 / 100000000)) by lra. apply sqrt_le_1_alt. lra. }
    split; [exact HL|]. assert (L' : q - q * (22 / 10 * / 16777216) <= B2R (vlensq v) <= q + q * (22 / 10 * / 16777216)) by lra.
    destruct (gsqrt_fin (vlensq v) F) as (Fs & Es); [lra|]. pose proof (sqrt_near (B2R (vlensq v)) q (22 / 10 * / 16777216) ltac:(lra) ltac:(lra) L') as SN. fold h in SN.
    assert (HU : h <= bpow radix2 61). { unfold h. rewrite <- (sqrt_square (bpow radix2 61)) by apply bpow_ge_0. apply sqrt_le_1_alt. rewrite <- bpow_plus. apply Rle_trans with (1 := proj2 Q), bpow_le. lia. }
    set (r := sqrt (B2R (vlensq v))) in *. assert (RP : 0 < r) by lra. assert (R64 : Rabs (rnd64 r - r) <= r * bpow radix2 (-53)). { pose proof (rnd64_rel r) as R. rewrite (Rabs_pos_eq r) in R by lra. apply R. apply Rle_trans with (bpow radix2 (-10)); [apply bpow_le; lia|]. change (bpow radix2 (-10)) with (/ 1024). lra. }
    change (bpow radix2 (-53)) with (/ 9007199254740992) in R64. apply Rabs_le_inv in R64. set (r6 := rnd64 r) in *.
    assert (R32 : Rabs (rnd32 r6 - r6) <= Rabs r6 * bpow radix2 (-24)). { apply rnd32_rel. rewrite Rabs_pos_eq by lra. apply Rle_trans with (bpow radix2 (-10)); [apply bpow_le; lia|]. change (bpow radix2 (-10)) with (/ 1024). lra. }
    rewrite (Rabs_pos_eq r6) in R32 by lra. change (bpow radix2 (-24)) with (/ 16777216) in R32. apply Rabs_le_inv in R32. rewrite <- Es in R32.
    assert (SH : h - h * (24 / 10 * u24) <= B2R (gsqrt (vlensq v)) <= h + h * (24 / 10 * u24)) by (unfold u24; lra).
    assert (XH : forall z w, 0 <= w -> q = z * z + w -> Rabs z <= h). { intros z w W0 E. unfold h. rewrite <- (sqrt_square (Rabs z)) by apply Rabs_pos. apply sqrt_le_1_alt. rewrite <- Rabs_mult, Rabs_pos_eq by apply Rle_0_sqr. lra. }
    destruct W as ((Fx & _) & (Fy & _)). unfold close. cbn [vx vy]. unfold px at 1, py at 1. cbn [vx vy].
    destruct (unit_coord (vx v) _ h Fx Fs ltac:(lra)) as (U1 & D1); [apply (XH _ (py v * py v)); [apply Rle_0_sqr|reflexivity]|exact SH|].
    destruct (unit_coord (vy v) _ h Fy Fs ltac:(lra)) as (U2 & D2); [apply (XH _ (px v * px v)); [apply Rle_0_sqr|unfold q, px, py; ring]|exact SH|]. auto.
Qed.

(** ** Huge vectors *)
Lemma square_huge (x : f32) : fin x -> bpow radix2 64 <= Rabs (B2R x) -> gmul x x = B754_infinity false.
Proof.
  intros F B. pose proof (Bmult_correct 24 128 p24 pe24 mode_NE x x) as C. cbv zeta in C.
  assert (L : bpow radix2 128 <= Rabs (round radix2 (SpecFloat.fexp 24 128) (round_mode mode_NE) (B2R x * B2R x))).
  { apply abs_round_ge_generic; [typeclasses eauto|typeclasses eauto|apply generic_format_bpow; cbn; lia|]. rewrite Rabs_mult. change 128%Z with (64 + 64)%Z. rewrite bpow_plus. apply Rmult_le_compat; try apply bpow_ge_0; exact B. }
  rewrite Rlt_bool_false in C by exact L. change (Bmult mode_NE x x) with (gmul x x) in C. apply B2SF_inj. rewrite C. rewrite xorb_nilpotent. reflexivity.
Qed.
Lemma square_nn (x : f32) : fin x -> gmul x x = B754_infinity false \/ (fin (gmul x x) /\ Bsign (gmul x x) = false).
Proof.
  intros F. pose proof (Bmult_correct 24 128 p24 pe24 mode_NE x x) as C. cbv zeta in C. change (Bmult mode_NE x x) with (gmul x x) in C. rewrite xorb_nilpotent in C. destruct (Rlt_bool _ _).
  - right. destruct C as (_ & C & S). rewrite F in C. split; [exact C|]. apply S. destruct (gmul x x); try reflexivity; discriminate C.
  - left. apply B2SF_inj. rewrite C. reflexivity.
Qed.
Lemma inf_plus (y : f32) : y = B754_infinity false \/ fin y -> gadd (B754_infinity false) y = B754_infinity false /\ gadd y (B754_infinity false) = B754_infinity false.
Proof. intros [->|F]; [split; reflexivity|]. destruct y as [s| | |s m e E]; try discriminate F; split; destruct s; reflexivity. Qed.
Lemma over_inf (x : f32) : fin x -> exists s, gdiv x (B754_infinity false) = B754_zero s.
Proof. intros F. destruct x as [s| | |s m e E]; try discriminate F; exists s; destruct s; reflexivity. Qed.
Lemma nor_huge v : finite_point v -> bpow radix2 64 <= Rabs (px v) \/ bpow radix2 64 <= Rabs (py v) -> vec_eqb (vnor v) vzero = true.
Proof.
  intros (Fx & Fy) B. assert (L : vlensq v = B754_infinity false).
  { unfold vlensq. destruct (square_nn _ Fx) as [X|(X & _)], (square_nn _ Fy) as [Y|(Y & _)]; destruct B as [B|B]; apply square_huge in B; try assumption.
    all: rewrite B; apply inf_plus; tauto. }
  unfold vnor. rewrite L. cbv zeta. assert (G : glt (B754_infinity false) (gq 1 100000) = false) by (vm_compute; reflexivity). rewrite G.
  assert (S : gsqrt (B754_infinity false) = B754_infinity false) by (apply B2SF_inj; vm_compute; reflexivity). rewrite S.
  destruct (over_inf _ Fx) as (s1 & E1). destruct (over_inf _ Fy) as (s2 & E2). rewrite E1, E2. unfold vec_eqb. cbn [vx vy vzero]. destruct s1, s2; vm_compute; reflexivity.
Qed.

(** ** Rotate *)
Section WithLibm.
Context {M : libm}.
Lemma rotate_near k v rad : (0 <= k <= 40)%Z -> trig_near -> SpecCurves.within k v -> is_finite rad = true -> Rabs (B2R rad) <= 12 ->
  close (bpow radix2 (k - 19)) (vrotate v rad) (px v * cos (B2R rad) - py v * sin (B2R rad)) (px v * sin (B2R rad) + py v * cos (B2R rad)).
Proof.
  intros K HT ((Fx & Bx) & (Fy & By)) FR BR. assert (HU : 1 <= bpow radix2 k <= bpow radix2 100) by (split; [change 1 with (bpow radix2 0)|]; apply bpow_le; lia). set (U := bpow radix2 k) in *.
  destruct (trig_unit rad (B2R rad) 0 HT) as (NC & NS); [apply near_exact; [exact FR|rewrite Rmult_1_r; exact BR]|lra|].
  assert (HU1 : 1 <= U * 1 <= bpow radix2 100) by lra.
  assert (MUL : forall z w c, fin z -> Rabs (B2R z) <= U -> near 1 1 (0 + 3) w c -> near U 1 8 (gmul z w) (B2R z * c)).
  { intros z w c Fz Bz N. pose proof (near_mul2 U 1 1 1 0 (0 + 3) z w (B2R z) c ltac:(lra) ltac:(lra) HU1) as R. rewrite !Rmult_1_r in R. specialize (R (near_exact U 1 z Fz ltac:(rewrite Rmult_1_l; exact Bz)) N ltac:(lra) ltac:(lra) ltac:(lra) ltac:(lra)). apply (near_up U 1 (0 + 1 * (0 + 3) + 1 + 2)); [lra|lra|lra|exact R]. }
  pose proof (MUL _ _ _ Fx Bx NC) as A1. pose proof (MUL _ _ _ Fy By NS) as A2. pose proof (MUL _ _ _ Fx Bx NS) as A3. pose proof (MUL _ _ _ Fy By NC) as A4.
  pose proof (near_sub U HU _ _ _ _ _ _ _ _ A1 A2 ltac:(lra) ltac:(lra) ltac:(lra) ltac:(lra)) as S1. pose proof (near_add U HU _ _ _ _ _ _ _ _ A3 A4 ltac:(lra) ltac:(lra) ltac:(lra) ltac:(lra)) as S2.
  assert (EU : bpow radix2 (k - 19) = U * / 524288). { unfold U, Z.sub. rewrite bpow_plus. reflexivity. }
  destruct S1 as (F1 & _ & D1). destruct S2 as (F2 & _ & D2). unfold close, vrotate. cbv zeta. unfold px at 1, py at 2. cbn [vx vy]. split; [exact F1|]. split; [exact F2|].
  unfold ulp24 in *. rewrite EU. split; [apply Rle_trans with (1 := D1)|apply Rle_trans with (1 := D2)]; lra.
Qed.
End WithLibm.

(** ** Distances *)
Lemma square_same (x y : f32) : fin x -> fin y -> Rabs (B2R x) = Rabs (B2R y) -> gmul x x = gmul y y.
Proof.
  intros Fx Fy E. assert (Q : B2R x * B2R x = B2R y * B2R y). { rewrite <- (Rabs_pos_eq (B2R x * B2R x)), <- (Rabs_pos_eq (B2R y * B2R y)) by apply Rle_0_sqr. now rewrite !Rabs_mult, E. }
  pose proof (Bmult_correct 24 128 p24 pe24 mode_NE x x) as C. pose proof (Bmult_correct 24 128 p24 pe24 mode_NE y y) as D. cbv zeta in C, D. change (Bmult mode_NE x x) with (gmul x x) in C. change (Bmult mode_NE y y) with (gmul y y) in D.
  rewrite Q in C. rewrite xorb_nilpotent in C, D. destruct (Rlt_bool _ _).
  - destruct C as (C1 & C2 & C3), D as (D1 & D2 & D3). apply (fun H => eq_trans H (andb_true_intro (conj Fx Fx))) in C2. apply (fun H => eq_trans H (andb_true_intro (conj Fy Fy))) in D2. assert (NN : forall z : f32, fin z -> is_nan z = false) by (intros z F; destruct z; try reflexivity; discriminate F). specialize (C3 (NN _ C2)). specialize (D3 (NN _ D2)). apply B2R_Bsign_inj; [exact C2|exact D2|rewrite C1, D1; reflexivity|rewrite C3, D3; reflexivity].
  - apply B2SF_inj. rewrite C, D. reflexivity.
Qed.
Lemma inf_of_SF (x : f32) s : B2SF x = SpecFloat.S754_infinity s -> x = B754_infinity s.
Proof. intros E. apply B2SF_inj. exact E. Qed.
Lemma square_sub (a b : f32) : gmul (gsub a b) (gsub a b) = gmul (gsub b a) (gsub b a).
Proof.
  destruct (is_finite a) eqn:Fa; [destruct (is_finite b) eqn:Fb|].
  - pose proof (Bminus_correct 24 128 p24 pe24 mode_NE a b Fa Fb) as C. pose proof (Bminus_correct 24 128 p24 pe24 mode_NE b a Fb Fa) as D. cbv zeta in C, D. change (Bminus mode_NE a b) with (gsub a b) in C. change (Bminus mode_NE b a) with (gsub b a) in D.
    replace (B2R b - B2R a) with (- (B2R a - B2R b)) in D by ring. change (round_mode mode_NE) with (Znearest (fun x => negb (Z.even x))) in *. rewrite round_NE_opp in D. rewrite Rabs_Ropp in D. destruct (Rlt_bool _ _).
    + destruct C as (C1 & C2 & _), D as (D1 & D2 & _). apply square_same; [exact C2|exact D2|]. rewrite C1, D1, Rabs_Ropp. reflexivity.
    + destruct C as (C & _), D as (D & _). apply inf_of_SF in C, D. rewrite C, D. destruct (Bsign a), (Bsign b); reflexivity.
  - destruct a as [[]| | |[] m e E]; try discriminate Fa; destruct b as [|[]| |]; try discriminate Fb; reflexivity.
  - destruct a as [|[]| |]; try discriminate Fa; destruct b as [[]|[]| |[] m e E]; reflexivity.
Qed.
Lemma dst_sym a b : vdst a b = vdst b a.
Proof. unfold vdst. cbv zeta. now rewrite (square_sub (vx b)), (square_sub (vy b)). Qed.
Lemma dstsq_sym a b : vdstsq a b = vdstsq b a.
Proof. unfold vdstsq. cbv zeta. now rewrite (square_sub (vx b)), (square_sub (vy b)). Qed.
Lemma zero_form (x : f32) : fin x -> B2R x = 0 -> exists s, x = B754_zero s.
Proof.
  intros F E. destruct x as [s| | |s m e H]; try discriminate F; [now exists s|]. exfalso. apply (F2R_neq_0 radix2 (Float radix2 (cond_Zopp s (Zpos m)) e)); [destruct s; discriminate|exact E].
Qed.
Lemma vdst_zero p : fin (vx p) -> fin (vy p) -> exists s, vdst p p = B754_zero s.
Proof.
  intros Fx Fy. assert (Z : forall x : f32, fin x -> exists s, gsub x x = B754_zero s). { intros x F. destruct (gsub_fin x x F F) as (Fs & Es); [rewrite Rminus_diag_eq, Rabs_R0 by reflexivity; apply bpow_ge_0|]. rewrite Rminus_diag_eq, rnd32_0 in Es by reflexivity. now apply zero_form. }
  unfold vdst. cbv zeta. destruct (Z _ Fx) as (s1 & ->). destruct (Z _ Fy) as (s2 & ->). exists false. destruct s1, s2; apply B2SF_inj; vm_compute; reflexivity.
Qed.

(** The aim strain of an object against its real formula. *)
From Coq Require Import Reals Lra ZArith Lia List Bool.
From Flocq Require Import Core BinarySingleNaN.
From Verif Require Import DiffCalc SpecPP SpecSane SpecFormula SpecSkill BaseLemmas FloatLemmas Float32Lemmas KeyLemmas LazyProofs SkillProofs PPProofs PPBounds ValueBounds RelLemmas RelPow FormulaParts ArcShape UnitLemmas.
Import ListNotations.
Open Scope R_scope.

Ltac uk := match goal with |- ab _ ?x _ => split; [vm_compute; reflexivity|bval x; match goal with V : B2R x = _ |- _ => rewrite V end; apply Rabs_le; unfold e40; lra] end.
Ltac upi := pose proof (Rabs_le_inv _ _ pi_digits); match goal with |- ab _ ?x _ => split; [vm_compute; reflexivity|bval x; match goal with V : B2R x = _ |- _ => rewrite V end; apply Rabs_le; unfold e40; lra] end.
Lemma pi_6 : ab (/ 10) fpi_6 (PI / 6). Proof. upi. Qed.
Lemma pi_56 : ab (/ 10) f5pi_6 (5 * PI / 6). Proof. upi. Qed.
Lemma pi_2 : ab (/ 10) fpi_2 (PI / 2). Proof. upi. Qed.
Lemma pi_1 : ab (/ 10) fpi PI. Proof. upi. Qed.
Lemma pi_box : 314159265 / 100000000 <= PI <= 314159266 / 100000000. Proof. pose proof (Rabs_le_inv _ _ pi_digits). lra. Qed.
Lemma uz n : (0 < Z.abs n <= 2 ^ 53)%Z -> ab 0 (fq n 1) (IZR n). Proof. intros H. destruct (fq1_exact n) as (F & E); [lia|]. now apply ab_is. Qed.
Lemma one_ab : ab 0 (fq 1 1) 1. Proof. apply (uz 1). lia. Qed.
Lemma sin_sq r : 0 <= sin r ^ 2 <= 1.
Proof. pose proof (SIN_bound r). split; [apply pow2_ge_0|]. rewrite <- (pow1 2). rewrite <- (pow2_abs (sin r)). apply pow_incr. split; [apply Rabs_pos|apply Rabs_le; lra]. Qed.
Lemma sq_err a b : Rabs a <= 1 -> Rabs b <= 1 -> Rabs (a ^ 2 - b ^ 2) <= 2 * Rabs (a - b).
Proof.
  intros A B. replace (a ^ 2 - b ^ 2) with ((a + b) * (a - b)) by ring. rewrite Rabs_mult. apply Rmult_le_compat_r; [apply Rabs_pos|]. apply Rle_trans with (1 := Rabs_triang _ _). lra.
Qed.
Lemma cube_err a b : 0 <= a <= 1 -> 0 <= b <= 1 -> Rabs (a ^ 3 - b ^ 3) <= 3 * Rabs (a - b).
Proof.
  intros A B. replace (a ^ 3 - b ^ 3) with ((a * a + a * b + b * b) * (a - b)) by ring. rewrite Rabs_mult. apply Rmult_le_compat_r; [apply Rabs_pos|].
  assert (0 <= a * a <= 1 * 1) by (split; [apply Rmult_le_pos; lra|apply Rmult_le_compat; lra]). assert (0 <= a * b <= 1 * 1) by (split; [apply Rmult_le_pos; lra|apply Rmult_le_compat; lra]). assert (0 <= b * b <= 1 * 1) by (split; [apply Rmult_le_pos; lra|apply Rmult_le_compat; lra]).
  rewrite Rabs_pos_eq; lra.
Qed.

Section WithLibm.
Context {M : libm} (SM : skill_maths).

(** a number of [0, 1] on both sides *)
Definition un (n : R) (x : f64) (r : R) : Prop := ab n x r /\ within 0 1 x /\ 0 <= r <= 1.
Lemma un_sq n N x r : ab n x r -> Rabs (B2R x) <= 1 -> Rabs r <= 1 -> 2 * n + 1 <= N -> un N (mpow x (fq 2 1)) (r ^ 2).
Proof.
  intros (F & E) X R HN. destruct (unit_square SM x F X) as (W & Q). split; [split; [exact (proj1 W)|]|split; [exact W|]].
  - rewrite <- e40_bpow in Q. pose proof (sq_err _ _ X R) as S. assert ((2 * n + 1) * e40 <= N * e40) by (apply Rmult_le_compat_r; [pose proof e40_pos; lra|exact HN]).
    replace (B2R (mpow x (fq 2 1)) - r ^ 2) with ((B2R (mpow x (fq 2 1)) - B2R x ^ 2) + (B2R x ^ 2 - r ^ 2)) by ring. apply Rle_trans with (1 := Rabs_triang _ _). lra.
  - split; [apply pow2_ge_0|]. rewrite <- (pow1 2). rewrite <- (pow2_abs r). apply pow_incr. split; [apply Rabs_pos|lra].
Qed.
Lemma un_cube n N x r : un n x r -> 3 * n + 1 <= N -> un N (mpow x (fq 3 1)) (r ^ 3).
Proof.
  intros ((F & E) & W & R) HN. destruct (unit_cube SM x W) as (W3 & Q). split; [split; [exact (proj1 W3)|]|split; [exact W3|]].
  - rewrite <- e40_bpow in Q. pose proof (cube_err _ _ (proj2 W) R) as S. assert ((3 * n + 1) * e40 <= N * e40) by (apply Rmult_le_compat_r; [pose proof e40_pos; lra|exact HN]).
    replace (B2R (mpow x (fq 3 1)) - r ^ 3) with ((B2R (mpow x (fq 3 1)) - B2R x ^ 3) + (B2R x ^ 3 - r ^ 3)) by ring. apply Rle_trans with (1 := Rabs_triang _ _). lra.
  - split; [apply pow_le; lra|]. rewrite <- (pow1 3). apply pow_incr. lra.
Qed.
Lemma sin_ab n N x r : ab n x r -> Rabs r <= 200000 -> n <= 500000000000 -> n + 1 <= N -> ab N (msin x) (sin r) /\ Rabs (B2R (msin x)) <= 1.
Proof.
  intros (F & E) R H HN. apply u_half in H. destruct (sin_close SM x F) as (W & Q).
  - change (bpow radix2 18) with 262144. replace (B2R x) with (r + (B2R x - r)) by ring. apply Rle_trans with (1 := Rabs_triang _ _). lra.
  - split; [split; [exact (proj1 W)|]|apply Rabs_le; exact (proj2 W)]. rewrite <- e40_bpow in Q. pose proof (sin_lip (B2R x) r) as S. assert ((n + 1) * e40 <= N * e40) by (apply Rmult_le_compat_r; [pose proof e40_pos; lra|exact HN]).
    replace (B2R (msin x) - sin r) with ((B2R (msin x) - sin (B2R x)) + (sin (B2R x) - sin r)) by ring. apply Rle_trans with (1 := Rabs_triang _ _). lra.
Qed.
Lemma sin2_un n N x r : ab n x r -> Rabs r <= 200000 -> n <= 500000000000 -> 2 * n + 3 <= N -> un N (mpow (msin x) (fq 2 1)) (sin r ^ 2).
Proof.
  intros A R H HN. destruct (sin_ab n (n + 1) x r A R H) as (S & B); [lra|]. apply (un_sq (n + 1)); [exact S|exact B|apply Rabs_le, SIN_bound|lra].
Qed.
Lemma un_min n x y r s : un n x r -> un n y s -> un n (fmin x y) (Rmin r s).
Proof.
  intros (A & (FA & WA) & RA) (B & (FB & WB) & RB). destruct (fmin_fin x y FA FB) as (F & E). split; [now apply u_min|]. split; [split; [exact F|]; rewrite E|]; unfold Rmin; destruct (Rle_dec _ _); lra.
Qed.
Lemma un_up n N x r : un n x r -> n <= N -> un N x r. Proof. intros (A & B) H. split; [now apply (ab_up n)|exact B]. Qed.
Lemma un_less n N x r : un n x r -> 0 <= n <= 100000 -> n + / 1000 <= N -> un N (fsub (fq 1 1) x) (1 - r).
Proof.
  intros (A & (FA & WA) & RA) H HN. destruct one_ab as (F1 & _). destruct (fq1_exact 1) as (_ & E1); [lia|]. split; [|split; [|lra]].
  - apply (u_sub 8 (/ 1000) 0 n); try lra; [exact lim_8|exact one_ab|exact A|rewrite Rabs_pos_eq; lra].
  - destruct (fsub_fin (fq 1 1) x F1 FA) as (F & E); [rewrite E1, Rabs_pos_eq by lra; apply Rle_trans with 1; [lra|change 1 with (bpow radix2 0); apply bpow_le; lia]|]. split; [exact F|]. rewrite E. split; [apply rnd64_pos; lra|]. apply Rle_trans with (B2R (fq 1 1)); [apply rnd64_le_f|]; rewrite E1; lra.
Qed.

(** ** Angles *)
Lemma wide_un a : fin a -> un 4 (wide_bonus a) (wideness (B2R a)).
Proof.
  intros F. unfold wide_bonus, wideness. pose proof pi_box as PB.
  assert (C : ab (/ 10) (fmin f5pi_6 (fmax fpi_6 a)) (Rmin (5 * PI / 6) (Rmax (PI / 6) (B2R a)))) by (apply u_min; [exact pi_56|]; apply ab_max; [exact pi_6|]; apply (ab_up 0); [lra|]; now apply ab_is).
  set (m := Rmin (5 * PI / 6) (Rmax (PI / 6) (B2R a))) in *. assert (MB : PI / 6 <= m <= 5 * PI / 6) by (unfold m, Rmin, Rmax; repeat destruct (Rle_dec _ _); lra).
  assert (D : ab (21 / 100) (fsub (fmin f5pi_6 (fmax fpi_6 a)) fpi_6) (m - PI / 6)) by (apply (u_sub 8 (/ 1000) (/ 10) (/ 10)); try lra; [exact lim_8|exact C|exact pi_6|rewrite Rabs_pos_eq; lra]).
  assert (K : ab 0 (fq 3 4) (3 / 4)) by uk.
  assert (P : ab (3 / 10) (fmul (fq 3 4) (fsub (fmin f5pi_6 (fmax fpi_6 a)) fpi_6)) (3 / 4 * (m - PI / 6))).
  { apply (u_mul 8 (/ 1000) (3 / 4) 3 0 (21 / 100)); try lra; [exact lim_8|exact K|exact D|rewrite Rabs_pos_eq; lra|rewrite Rabs_pos_eq; lra]. }
  apply (sin2_un (3 / 10)); [exact P|rewrite Rabs_pos_eq; lra|lra|lra].
Qed.
Lemma acute_un a : fin a -> un 5 (acute_bonus a) (acuteness (B2R a)).
Proof. intros F. apply (un_less 4); [now apply wide_un|lra|lra]. Qed.

(** ** Velocities *)
Definition dist_le (x : f64) : Prop := within 0 65536 x.
Lemma sane_16 o : sane 16 o -> dist_le (do_Jump o) /\ dist_le (do_Travel o) /\ dist_le (do_Movement o) /\ within 25 (bpow radix2 42) (do_StrainTime o).
Proof. intros S. unfold dist_le. change 65536 with (bpow radix2 16). split; [apply (sn_jump _ _ S)|]. split; [apply (sn_travel _ _ S)|]. split; [apply (sn_move _ _ S)|apply (sn_strain _ _ S)]. Qed.
Lemma over_le a b c : 0 <= a <= c -> 25 <= b -> 0 <= a / b <= c / 25.
Proof.
  intros A B. split; [apply Rle_mult_inv_pos; lra|]. apply Rmult_le_reg_r with b; [lra|]. unfold Rdiv at 1. rewrite Rmult_assoc, Rinv_l, Rmult_1_r by lra.
  apply Rle_trans with (c / 25 * 25); [lra|]. apply Rmult_le_compat_l; lra.
Qed.
Lemma quot_ab x y : dist_le x -> fin y -> 25 <= B2R y -> ab 1 (fdiv x y) (B2R x / B2R y) /\ 0 <= B2R x / B2R y <= 2622.
Proof.
  intros (F & B) FY Y. pose proof (over_le _ _ _ B Y) as Q. split; [|lra]. apply (u_over 8192 1 0); try lra; [exact lim_8k|now apply ab_is|exact FY|rewrite Rabs_pos_eq; lra].
Qed.
Lemma velocity_ab ws o before : sane 16 o -> linked o before -> base_spinner o = false -> ab 3 (aim_velocity ws o before) (velocity ws (motion_of o) (motion_of before)) /\ 0 <= velocity ws (motion_of o) (motion_of before) <= 5244.
Proof.
  intros S L NS. destruct (sane_16 o S) as (J & T & P & (FS & BS)). destruct (quot_ab _ _ J FS ltac:(lra)) as (V & VB). unfold aim_velocity, velocity. cbn [motion_of mo_jump mo_time mo_path mo_path_time mo_slide mo_slide_time mo_slider]. cbv zeta.
  change (match po_lazy (do_base before) with Some _ => true | None => false end) with (base_lazy before). destruct (base_lazy before) eqn:BL; cbn [andb]; [|split; [apply (ab_up 1); [lra|exact V]|lra]]. destruct ws; [|split; [apply (ab_up 1); [lra|exact V]|lra]].
  destruct (L BL NS) as ((F1 & B1) & (F2 & B2)). destruct (quot_ab _ _ P F1 ltac:(lra)) as (V1 & VB1). destruct (quot_ab _ _ T F2 ltac:(lra)) as (V2 & VB2). split.
  - apply ab_max; [apply (ab_up 1); [lra|exact V]|]. apply (u_add 8192 1 1 1); try lra; [exact lim_8k|exact V1|exact V2|rewrite Rabs_pos_eq; lra].
  - split; [apply Rle_trans with (1 := proj1 VB), Rmax_l|apply Rmax_lub; lra].
Qed.

(** ** Angle bonuses *)
Lemma prod_le a b c : 0 <= a <= c -> 0 <= b <= 1 -> 0 <= a * b <= c.
Proof. intros A B. split; [apply Rmult_le_pos; lra|]. apply Rle_trans with (c * 1); [apply Rmult_le_compat; lra|lra]. Qed.
Lemma min_in a b c : 0 <= a <= c -> 0 <= b -> 0 <= Rmin a b <= c.
Proof. intros A B. unfold Rmin. destruct (Rle_dec a b); lra. Qed.
Lemma wide_ab u v v0 r r' a a' (cur last : motion) : fin a -> fin a' -> u = fmin v v0 -> ab 3 v r -> ab 3 v0 r' -> 0 <= r <= 5244 -> 0 <= r' <= 5244 ->
  ab 94500 (fmul (wide_bonus a) (fmul u (fsub (fq 1 1) (fmin (wide_bonus a) (mpow (wide_bonus a') (fq 3 1)))))) (wide_term cur last r r' (B2R a) (B2R a')) /\
  0 <= wide_term cur last r r' (B2R a) (B2R a') <= 5244.
Proof.
  intros F F' -> V V0 B B0. unfold wide_term. pose proof (wide_un a F) as W. pose proof (wide_un a' F') as W'. pose proof (un_cube 4 13 _ _ W' ltac:(lra)) as C.
  pose proof (un_less 13 14 _ _ (un_min 13 _ _ _ _ (un_up 4 13 _ _ W ltac:(lra)) C) ltac:(lra) ltac:(lra)) as L. pose proof (u_min 3 _ _ _ _ V V0) as U. pose proof (min_in r r' 5244 B (proj1 B0)) as UB.
  destruct L as (L & _ & LB). destruct W as (W & _ & WB). set (x := fsub (fq 1 1) _) in *. set (y := 1 - Rmin _ _) in *. set (t := Rmin r r') in *.
  assert (P : ab 73500 (fmul (fmin v v0) x) (t * y)) by (apply (u_mul 8192 1 5244 1 3 14); try lra; [exact lim_8k|exact U|exact L|rewrite Rabs_pos_eq; lra|rewrite Rabs_pos_eq; lra]).
  pose proof (prod_le t y 5244 UB LB) as PB. split; [|rewrite Rmult_comm; now apply prod_le].
  apply (u_mul 8192 1 1 5244 4 73500); try lra; [exact lim_8k|exact W|exact P|rewrite Rabs_pos_eq; lra|rewrite Rabs_pos_eq; lra].
Qed.
Lemma acute_x v v0 r r' a a' st j : fin a -> fin a' -> ab 3 v r -> ab 3 v0 r' -> 0 <= r <= 5244 -> 0 <= r' <= 5244 -> fin st -> 25 <= B2R st <= 100 -> dist_le j ->
  ab 200 (fmul (acute_bonus a) (fmul (fmul (fmul (acute_bonus a') (fmin (fmin v v0) (fdiv (fq 125 1) st)))
     (mpow (msin (fmul fpi_2 (fmin (fq 1 1) (fdiv (fsub (fq 100 1) st) (fq 25 1))))) (fq 2 1)))
     (mpow (msin (fdiv (fmul fpi_2 (fsub (clampF64 j (fq 50 1) (fq 100 1)) (fq 50 1))) (fq 50 1))) (fq 2 1))))
   (acuteness (B2R a) * (acuteness (B2R a') * Rmin (Rmin r r') (125 / B2R st) * sin (PI / 2 * Rmin 1 ((100 - B2R st) / 25)) ^ 2 * sin (PI / 2 * (Rmin 100 (Rmax 50 (B2R j)) - 50) / 50) ^ 2)) /\
  0 <= acuteness (B2R a) * (acuteness (B2R a') * Rmin (Rmin r r') (125 / B2R st) * sin (PI / 2 * Rmin 1 ((100 - B2R st) / 25)) ^ 2 * sin (PI / 2 * (Rmin 100 (Rmax 50 (B2R j)) - 50) / 50) ^ 2) <= 5.
Proof.
  intros F F' V V0 B B0 FS S (FJ & BJ). pose proof pi_box as PB. pose proof (acute_un a F) as (A & _ & AB). pose proof (acute_un a' F') as (A' & _ & AB').
  assert (T : ab 3 (fmin (fmin v v0) (fdiv (fq 125 1) st)) (Rmin (Rmin r r') (125 / B2R st)) /\ 0 <= Rmin (Rmin r r') (125 / B2R st) <= 5).
  { assert (Q : 0 <= 125 / B2R st <= 5) by (pose proof (over_le 125 (B2R st) 125); lra). split.
    - apply u_min; [now apply u_min|]. apply (u_over 8 (/ 1000) 0); try lra; [exact lim_8|apply (uz 125); lia|exact FS|rewrite Rabs_pos_eq; lra].
    - pose proof (min_in r r' 5244 B (proj1 B0)). unfold Rmin at 1 3. destruct (Rle_dec _ _); lra. }
  destruct T as (T & TB). set (t := Rmin (Rmin r r') (125 / B2R st)) in *.
  assert (P1 : ab 29 (fmul (acute_bonus a') (fmin (fmin v v0) (fdiv (fq 125 1) st))) (acuteness (B2R a') * t)) by (apply (u_mul 8 (/ 1000) 1 5 5 3); try lra; [exact lim_8|exact A'|exact T|rewrite Rabs_pos_eq; lra|rewrite Rabs_pos_eq; lra]).
  assert (PB1 : 0 <= acuteness (B2R a') * t <= 5) by (rewrite Rmult_comm; now apply prod_le). set (p1 := acuteness (B2R a') * t) in *.
  assert (S1 : un 7 (mpow (msin (fmul fpi_2 (fmin (fq 1 1) (fdiv (fsub (fq 100 1) st) (fq 25 1))))) (fq 2 1)) (sin (PI / 2 * Rmin 1 ((100 - B2R st) / 25)) ^ 2)).
  { assert (D : ab 1 (fsub (fq 100 1) st) (100 - B2R st)) by (apply (u_sub 8192 1 0 0); try lra; [exact lim_8k|apply (uz 100); lia|now apply ab_is|rewrite Rabs_pos_eq; lra]).
    destruct (fq1_exact 25) as (F25 & E25); [lia|]. assert (E : ab (101 / 100) (fdiv (fsub (fq 100 1) st) (fq 25 1)) ((100 - B2R st) / 25)) by (apply (u_over 8 (/ 1000) 1); try lra; [exact lim_8|exact D|exact F25|rewrite Rabs_pos_eq; lra]).
    pose proof (u_min (101 / 100) _ _ _ _ (ab_up 0 (101 / 100) _ _ ltac:(lra) one_ab) E) as G. assert (GB : 0 <= Rmin 1 ((100 - B2R st) / 25) <= 1) by (unfold Rmin; destruct (Rle_dec _ _); lra). set (g := Rmin 1 ((100 - B2R st) / 25)) in *.
    assert (H : 0 <= PI / 2 * g <= 2) by (rewrite Rmult_comm; split; [apply Rmult_le_pos; lra|apply Rle_trans with (1 * 2); [apply Rmult_le_compat; lra|lra]]).
    apply (sin2_un (2)); try lra; [|rewrite Rabs_pos_eq; lra]. apply (u_mul 8 (/ 1000) (16 / 10) 1 (/ 10) (101 / 100)); try lra; [exact lim_8|exact pi_2|exact G|rewrite Rabs_pos_eq; lra|rewrite Rabs_pos_eq; lra]. }
  destruct S1 as (S1 & _ & SB1). set (s1 := sin (PI / 2 * Rmin 1 _) ^ 2) in *.
  assert (P2 : ab 66 (fmul (fmul (acute_bonus a') (fmin (fmin v v0) (fdiv (fq 125 1) st))) (mpow (msin (fmul fpi_2 (fmin (fq 1 1) (fdiv (fsub (fq 100 1) st) (fq 25 1))))) (fq 2 1))) (p1 * s1)) by (apply (u_mul 8 (/ 1000) 5 1 29 7); try lra; [exact lim_8|exact P1|exact S1|rewrite Rabs_pos_eq; lra|rewrite Rabs_pos_eq; lra]).
  pose proof (prod_le p1 s1 5 PB1 SB1) as PB2. set (p2 := p1 * s1) in *.
  assert (S2 : un 19 (mpow (msin (fdiv (fmul fpi_2 (fsub (clampF64 j (fq 50 1) (fq 100 1)) (fq 50 1))) (fq 50 1))) (fq 2 1)) (sin (PI / 2 * (Rmin 100 (Rmax 50 (B2R j)) - 50) / 50) ^ 2)).
  { assert (C : ab 0 (clampF64 j (fq 50 1) (fq 100 1)) (Rmin 100 (Rmax 50 (B2R j)))) by (apply u_min; [apply (uz 100); lia|]; apply ab_max; [apply (uz 50); lia|now apply ab_is]).
    assert (CB : 50 <= Rmin 100 (Rmax 50 (B2R j)) <= 100) by (unfold Rmin, Rmax; repeat destruct (Rle_dec _ _); lra). set (c := Rmin 100 (Rmax 50 (B2R j))) in *.
    assert (D : ab 1 (fsub (clampF64 j (fq 50 1) (fq 100 1)) (fq 50 1)) (c - 50)) by (apply (u_sub 8192 1 0 0); try lra; [exact lim_8k|exact C|apply (uz 50); lia|rewrite Rabs_pos_eq; lra]).
    assert (E : ab (78 / 10) (fmul fpi_2 (fsub (clampF64 j (fq 50 1) (fq 100 1)) (fq 50 1))) (PI / 2 * (c - 50))) by (apply (u_mul 8192 1 (16 / 10) 50 (/ 10) 1); try lra; [exact lim_8k|exact pi_2|exact D|rewrite Rabs_pos_eq; lra|rewrite Rabs_pos_eq; lra]).
    assert (H : 0 <= PI / 2 * (c - 50) <= 100) by (split; [apply Rmult_le_pos; lra|apply Rle_trans with (2 * 50); [apply Rmult_le_compat; lra|lra]]). set (h := PI / 2 * (c - 50)) in *.
    destruct (fq1_exact 50) as (F50 & E50); [lia|]. apply (sin2_un 8); try lra; [|rewrite Rabs_pos_eq; lra]. apply (u_over 8 (/ 1000) (78 / 10)); try lra; [exact lim_8|exact E|exact F50|rewrite Rabs_pos_eq; lra]. }
  destruct S2 as (S2 & _ & SB2). set (s2 := sin (PI / 2 * (Rmin 100 _ - 50) / 50) ^ 2) in *. pose proof (prod_le p2 s2 5 PB2 SB2) as PB3.
  split; [|rewrite Rmult_comm; now apply prod_le].
  apply (u_mul 8 (/ 1000) 1 5 5 163); try lra; [exact lim_8|exact A| |rewrite Rabs_pos_eq; lra|rewrite Rabs_pos_eq; lra].
  apply (u_mul 8 (/ 1000) 5 1 66 19); try lra; [exact lim_8|exact P2|exact S2|rewrite Rabs_pos_eq; lra|rewrite Rabs_pos_eq; lra].
Qed.
Lemma acute_end x r a : ab 200 x r -> 0 <= r <= 5 -> fin a -> ab 720 (fmul x (fadd (fq 1 2) (fmul (fq 1 2) (fsub (fq 1 1) (fmin x (mpow (acute_bonus a) (fq 3 1))))))) (r * (1 / 2 + 1 / 2 * (1 - Rmin r (acuteness (B2R a) ^ 3)))) /\
  0 <= r * (1 / 2 + 1 / 2 * (1 - Rmin r (acuteness (B2R a) ^ 3))) <= 5.
Proof.
  intros X B F. destruct (un_cube 5 16 _ _ (acute_un a F) ltac:(lra)) as (C & _ & CB). set (c := acuteness (B2R a) ^ 3) in *. pose proof (u_min 200 _ _ _ _ X (ab_up 16 200 _ _ ltac:(lra) C)) as G.
  assert (GB : 0 <= Rmin r c <= 1) by (unfold Rmin; destruct (Rle_dec r c); lra). set (g := Rmin r c) in *. assert (K : ab 0 (fq 1 2) (1 / 2)) by uk.
  assert (D : ab 201 (fsub (fq 1 1) (fmin x (mpow (acute_bonus a) (fq 3 1)))) (1 - g)) by (apply (u_sub 8 (/ 1000) 0 200); try lra; [exact lim_8|exact one_ab|exact G|rewrite Rabs_pos_eq; lra]).
  assert (E : ab 101 (fmul (fq 1 2) (fsub (fq 1 1) (fmin x (mpow (acute_bonus a) (fq 3 1))))) (1 / 2 * (1 - g))) by (apply (u_mul 8 (/ 1000) (1 / 2) 1 0 201); try lra; [exact lim_8|exact K|exact D|rewrite Rabs_pos_eq; lra|rewrite Rabs_pos_eq; lra]).
  assert (H : ab 102 (fadd (fq 1 2) (fmul (fq 1 2) (fsub (fq 1 1) (fmin x (mpow (acute_bonus a) (fq 3 1)))))) (1 / 2 + 1 / 2 * (1 - g))) by (apply (u_add 8 (/ 1000) 0 101); try lra; [exact lim_8|exact K|exact E|rewrite Rabs_pos_eq; lra]).
  split; [|apply prod_le; lra]. apply (u_mul 8 (/ 1000) 5 1 200 102); try lra; [exact lim_8|exact X|exact H|rewrite Rabs_pos_eq; lra|rewrite Rabs_pos_eq; lra].
Qed.

(** ** Change of velocity *)
Lemma round_to m (x : f64) z : bpow radix2 (-200) <= m <= bpow radix2 900 -> Rabs z <= 8 * m -> (Rabs z <= bpow radix2 1023 -> fin x /\ B2R x = rnd64 z) -> fin x /\ Rabs (B2R x - z) <= / 100 * e40 * m.
Proof.
  intros (L & U) Z H. destruct H as (F & E). { apply Rle_trans with (1 := Z). change 8 with (bpow radix2 3). apply Rle_trans with (bpow radix2 3 * bpow radix2 900); [apply Rmult_le_compat_l; [apply bpow_ge_0|exact U]|]. rewrite <- bpow_plus. apply bpow_le. lia. }
  split; [exact F|]. rewrite E. pose proof (bpow_gt_0 radix2 (-200)) as P0. destruct (Rle_lt_dec (bpow radix2 (-1022)) (Rabs z)) as [G|G].
  - apply Rle_trans with (1 := rel64 z G). apply Rle_trans with (8 * m * / 9007199254740992); [apply Rmult_le_compat_r; lra|]. unfold e40. lra.
  - assert (X : Rabs (rnd64 z) <= bpow radix2 (-1022)) by (apply (rnd_bound 53 1024 _ (-1022)); [unfold SpecFloat.emin; lia|lra]).
    apply Rle_trans with (Rabs (rnd64 z) + Rabs z); [unfold Rminus; apply Rle_trans with (1 := Rabs_triang _ _); rewrite Rabs_Ropp; lra|].
    apply Rle_trans with (bpow radix2 (-1021)); [change (-1021)%Z with (1 + -1022)%Z; rewrite bpow_plus; change (bpow radix2 1) with 2; lra|].
    apply Rle_trans with (/ 100 * e40 * bpow radix2 (-200)); [|apply Rmult_le_compat_l; [unfold e40; lra|exact L]].
    apply Rle_trans with (bpow radix2 (-50) * bpow radix2 (-200)); [rewrite <- bpow_plus; apply bpow_le; lia|]. apply Rmult_le_compat_r; [apply bpow_ge_0|]. unfold e40. repeat pw. lra.
Qed.
Lemma grain_sz x : dist_le x -> grainy x -> nv 0 149 x (B2R x).
Proof.
  intros (F & B) G. split; [apply nr_is; [exact F|reflexivity|lra]|]. destruct G as [G|G]; [now left|right]. split; [exact G|]. apply Rle_trans with (1 := proj2 B). change 65536 with (bpow radix2 16). apply bpow_le. lia.
Qed.
Lemma mean_nv o : sane 16 o -> nv 2 192 (fdiv (fadd (do_Jump o) (do_Travel o)) (do_StrainTime o)) ((B2R (do_Jump o) + B2R (do_Travel o)) / B2R (do_StrainTime o)) /\ 0 <= (B2R (do_Jump o) + B2R (do_Travel o)) / B2R (do_StrainTime o) <= 5243.
Proof.
  intros S. destruct (sane_16 o S) as (J & T & _ & (FS & BS)). pose proof (grain_sz _ J (sn_jump_grain _ _ S)) as NJ. pose proof (grain_sz _ T (sn_travel_grain _ _ S)) as NT. destruct J as (_ & J). destruct T as (_ & T).
  pose proof (over_le (B2R (do_Jump o) + B2R (do_Travel o)) (B2R (do_StrainTime o)) 131072 ltac:(lra) ltac:(lra)) as Q. split; [|lra].
  assert (NS : nv 0 42 (do_StrainTime o) (B2R (do_StrainTime o))). { split; [apply nr_is; [exact FS|reflexivity|lra]|right]. split; [apply Rle_trans with 1; [change 1 with (bpow radix2 0); apply bpow_le; lia|lra]|lra]. }
  apply (nv_up (1 + 0 + 1) 2 (150 + 42) 192); [lra|lia|]. apply nv_div; [unfold NN; lra|unfold NN; lra|lia| |exact NS|lra]. apply (nv_up (0 + 1) 1 (149 + 1) 150); [lra|lia|]. apply nv_add; try assumption; try lia. unfold NN; lra.
Qed.
(** the difference of two velocities, and its share of the larger *)
Lemma diff_ab p c r s : nv 2 192 p r -> nv 2 192 c s -> 0 <= r <= 5243 -> 0 <= s <= 5243 -> 0 < Rmax r s ->
  ab 27000 (fabs (fsub p c)) (Rabs (r - s)) /\ ab 20 (fdiv (fmul fpi_2 (fabs (fsub p c))) (fmax p c)) (PI / 2 * Rabs (r - s) / Rmax r s) /\ 0 <= Rabs (r - s) <= Rmax r s /\ 0 <= PI / 2 * Rabs (r - s) / Rmax r s <= 2.
Proof.
  intros NP NC BP BC P. pose proof pi_box as PB. pose proof e40_pos as E0. pose proof (nv_max 2 192 _ _ _ _ ltac:(unfold NN; lra) NP NC) as ((FM & _ & MX) & SM').
  destruct NP as ((FP & _ & XP) & _). destruct NC as ((FC & _ & XC) & _). assert (R1 : r <= Rmax r s) by apply Rmax_l. assert (S1 : s <= Rmax r s) by apply Rmax_r. assert (M1 : Rmax r s <= 5243) by (apply Rmax_lub; lra). set (m := Rmax r s) in *.
  assert (MB : bpow radix2 (-200) <= m <= bpow radix2 900). { destruct SM' as [E|(L & U)]; [lra|]. split; [apply Rle_trans with (2 := L)|apply Rle_trans with (1 := U)]; apply bpow_le; lia. }
  assert (DM : 0 <= Rabs (r - s) <= m) by (split; [apply Rabs_pos|apply Rabs_le; lra]).
  assert (er : 2 * e40 * r <= 2 * e40 * m) by (apply Rmult_le_compat_l; lra). assert (es : 2 * e40 * s <= 2 * e40 * m) by (apply Rmult_le_compat_l; lra). assert (em : 2 * e40 * m <= / 100 * m) by (apply Rmult_le_compat_r; [lra|unfold e40; lra]).
  destruct (round_to m (fsub p c) (B2R p - B2R c) MB) as (FD & ED); [apply Rabs_le; lra|intros Q; now apply fsub_fin|].
  assert (DV : fin (fabs (fsub p c)) /\ Rabs (B2R (fabs (fsub p c)) - Rabs (r - s)) <= (401 / 100) * e40 * m).
  { destruct (fabs_fin _ FD) as (FA & EA). split; [exact FA|]. rewrite EA. apply Rle_trans with (1 := Rabs_triang_inv2 _ _). apply Rabs_le_inv in ED. apply Rabs_le. lra. }
  destruct DV as (FV & EV). set (dv := fabs (fsub p c)) in *. set (D := Rabs (r - s)) in *. split.
  { split; [exact FV|]. apply Rle_trans with (1 := EV). replace (401 / 100 * e40 * m) with (401 / 100 * m * e40) by ring. apply Rmult_le_compat_r; lra. }
  assert (QB : 0 <= PI / 2 * D / m <= 2). { split; [apply Rle_mult_inv_pos; [apply Rmult_le_pos; lra|lra]|]. apply Rmult_le_reg_r with m; [lra|]. unfold Rdiv. rewrite Rmult_assoc, Rinv_l, Rmult_1_r by lra. apply Rmult_le_compat; lra. }
  split; [|split; [exact DM|exact QB]].
  (* the product *)
  destruct pi_2 as (FH & EH). apply Rabs_le_inv in EH. apply Rabs_le_inv in EV. assert (e4 : 401 / 100 * e40 * m <= / 10 * m) by (apply Rmult_le_compat_r; [lra|unfold e40; lra]). assert (H10 : / 10 * e40 <= / 10) by (unfold e40; lra).
  assert (PX : Rabs (B2R fpi_2 * B2R dv - PI / 2 * D) <= 7 * e40 * m).
  { replace (B2R fpi_2 * B2R dv - PI / 2 * D) with ((B2R fpi_2 - PI / 2) * B2R dv + PI / 2 * (B2R dv - D)) by ring. apply Rle_trans with (1 := Rabs_triang _ _). rewrite !Rabs_mult. rewrite (Rabs_pos_eq (PI / 2)) by lra.
    assert (Rabs (B2R fpi_2 - PI / 2) * Rabs (B2R dv) <= / 10 * e40 * (11 / 10 * m)) by (apply Rmult_le_compat; [apply Rabs_pos|apply Rabs_pos|apply Rabs_le; lra|apply Rabs_le; lra]).
    assert (PI / 2 * Rabs (B2R dv - D) <= 158 / 100 * (401 / 100 * e40 * m)) by (apply Rmult_le_compat; [lra|apply Rabs_pos|lra|apply Rabs_le; lra]). assert (0 <= e40 * m) by (apply Rmult_le_pos; lra). lra. }
  assert (PD : 0 <= PI / 2 * D <= 158 / 100 * m) by (split; [apply Rmult_le_pos; lra|apply Rmult_le_compat; lra]). assert (e7 : 7 * e40 * m <= / 10 * m) by (apply Rmult_le_compat_r; [lra|unfold e40; lra]).
  destruct (round_to m (fmul fpi_2 dv) (B2R fpi_2 * B2R dv) MB) as (FQ & EQ); [apply Rabs_le_inv in PX; apply Rabs_le; lra|intros Q; now apply fmul_fin|].
  set (q := fmul fpi_2 dv) in *. assert (PQ : Rabs (B2R q - PI / 2 * D) <= 8 * e40 * m) by (apply Rabs_le_inv in PX, EQ; apply Rabs_le; assert (0 <= e40 * m) by (apply Rmult_le_pos; lra); lra).
  (* the quotient *)
  set (x := fmax p c) in *. assert (XB : m * (99 / 100) <= B2R x) by lra. assert (PX' : 0 < B2R x) by lra.
  assert (W : Rabs (B2R q / B2R x - PI / 2 * D / m) <= 13 * e40).
  { replace (B2R q / B2R x - PI / 2 * D / m) with ((B2R q - PI / 2 * D - PI / 2 * D / m * (B2R x - m)) / B2R x) by (field; lra). unfold Rdiv at 1. rewrite Rabs_mult, (Rabs_pos_eq (/ B2R x)) by (left; now apply Rinv_0_lt_compat).
    apply Rmult_le_reg_r with (B2R x); [exact PX'|]. rewrite Rmult_assoc, Rinv_l, Rmult_1_r by lra. apply Rle_trans with (12 * e40 * m).
    - unfold Rminus at 1. apply Rle_trans with (1 := Rabs_triang _ _). rewrite Rabs_Ropp, Rabs_mult, (Rabs_pos_eq (PI / 2 * D / m)) by lra.
      assert (PI / 2 * D / m * Rabs (B2R x - m) <= 2 * (2 * e40 * m)) by (apply Rmult_le_compat; [lra|apply Rabs_pos|lra|apply Rabs_le; lra]). lra.
    - replace (12 * e40 * m) with (12 * e40 * (m * (99 / 100)) * (100 / 99)) by field. apply Rle_trans with (12 * e40 * B2R x * (100 / 99)); [|assert (0 <= e40 * B2R x) by (apply Rmult_le_pos; lra); lra]. apply Rmult_le_compat_r; [lra|]. apply Rmult_le_compat_l; lra. }
  destruct (round_lim 8 (/ 1000) (fdiv q x) (B2R q / B2R x) lim_8) as (FR & ER); [apply Rabs_le_inv in W; apply Rabs_le; unfold e40 in W; lra|intros G; apply fdiv_fin; auto; lra|].
  split; [exact FR|]. apply Rabs_le_inv in W, ER. apply Rabs_le. lra.
Qed.
Lemma still_real ws o before : linked o before -> base_spinner o = false -> sane 16 o -> B2R (do_Jump o) + B2R (do_Travel o) = 0 -> velocity ws (motion_of o) (motion_of before) = 0.
Proof.
  intros L NS S Z. destruct (sane_16 o S) as ((_ & J) & (_ & T) & _). assert (J0 : B2R (do_Jump o) = 0) by lra. assert (T0 : B2R (do_Travel o) = 0) by lra. pose proof (sn_still _ _ S J0) as M0.
  unfold velocity. cbn [motion_of mo_jump mo_time mo_path mo_path_time mo_slide mo_slide_time mo_slider]. cbv zeta. rewrite J0, T0, M0. unfold Rdiv. rewrite !Rmult_0_l, Rplus_0_l, Rmax_left by lra. now destruct (_ && _).
Qed.

Lemma quot_pos x y : dist_le x -> grainy x -> within 25 (bpow radix2 42) y -> 0 < B2R x -> 0 < B2R (fdiv x y).
Proof.
  intros X G (FY & Y) P. assert (NY : nv 0 42 y (B2R y)). { split; [apply nr_is; [exact FY|reflexivity|lra]|right]. split; [apply Rle_trans with 1; [change 1 with (bpow radix2 0); apply bpow_le; lia|lra]|lra]. }
  destruct (nv_div 0 0 149 42 _ _ _ _ ltac:(unfold NN; lra) ltac:(unfold NN; lra) ltac:(lia) (grain_sz x X G) NY ltac:(lra)) as (N & _). apply nr_half in N; [|unfold NN; lra]. assert (0 < B2R x / B2R y) by (apply Rdiv_lt_0_compat; lra). lra.
Qed.
Lemma velocity_0 ws o before : sane 16 o -> linked o before -> base_spinner o = false -> (B2R (aim_velocity ws o before) = 0 <-> velocity ws (motion_of o) (motion_of before) = 0).
Proof.
  intros S L NS. destruct (sane_16 o S) as (J & T & P & W). pose proof (velocity_ab ws o before S L NS) as (_ & VB). destruct (quot_ab _ _ J (proj1 W) ltac:(apply W)) as (Q & QB). unfold aim_velocity, velocity in *. cbn [motion_of mo_jump mo_time mo_path mo_path_time mo_slide mo_slide_time mo_slider] in *. cbv zeta in *.
  change (match po_lazy (do_base before) with Some _ => true | None => false end) with (base_lazy before) in *. destruct (Rle_lt_or_eq_dec 0 (B2R (do_Jump o)) (proj1 (proj2 J))) as [JP|J0].
  - pose proof (quot_pos _ _ J (sn_jump_grain _ _ S) W JP) as PQ. assert (0 < B2R (do_Jump o) / B2R (do_StrainTime o)) by (apply Rdiv_lt_0_compat; [exact JP|destruct W; lra]).
    destruct (base_lazy before) eqn:BL; cbn [andb] in *; [|split; lra]. destruct ws; [|split; lra]. destruct (L BL NS) as ((F1 & B1) & (F2 & B2)). destruct (quot_ab _ _ P F1 ltac:(lra)) as (V1 & _). destruct (quot_ab _ _ T F2 ltac:(lra)) as (V2 & _).
    destruct (u_add 8192 1 1 1 3 _ _ _ _ lim_8k V1 V2) as (F3 & _); [|lra|lra|].
    { destruct (quot_ab _ _ P F1 ltac:(lra)) as (_ & ?). destruct (quot_ab _ _ T F2 ltac:(lra)) as (_ & ?). rewrite Rabs_pos_eq; lra. }
    destruct (fmax_fin _ _ (proj1 Q) F3) as (_ & E). split; intros Z; [rewrite E in Z|]; exfalso; [pose proof (Rmax_l (B2R (fdiv (do_Jump o) (do_StrainTime o))) (B2R (fadd (fdiv (do_Movement o) (do_MovementTime o)) (fdiv (do_Travel o) (do_TravelTime o)))))|pose proof (Rmax_l (B2R (do_Jump o) / B2R (do_StrainTime o)) (B2R (do_Movement o) / B2R (do_MovementTime o) + B2R (do_Travel o) / B2R (do_TravelTime o)))]; lra.
  - symmetry in J0. pose proof (sn_still _ _ S J0) as M0. destruct (fdiv_zero _ _ (proj1 J) (proj1 W) J0 ltac:(destruct W; lra)) as (FA & EA). rewrite J0, M0. replace (0 / B2R (do_StrainTime o)) with 0 by (unfold Rdiv; ring). replace (0 / B2R (do_MovementTime o)) with 0 by (unfold Rdiv; ring). rewrite Rplus_0_l.
    destruct (base_lazy before) eqn:BL; cbn [andb]; [|rewrite EA; tauto]. destruct ws; [|rewrite EA; tauto]. destruct (L BL NS) as (W1 & W2). destruct (fdiv_zero _ _ (proj1 P) (proj1 W1) M0 ltac:(destruct W1; lra)) as (FB & EB).
    destruct (quot_ab _ _ T (proj1 W2) ltac:(apply W2)) as (V2 & VB2). destruct V2 as (FC & _).
    assert (SUM : fin (fadd (fdiv (do_Movement o) (do_MovementTime o)) (fdiv (do_Travel o) (do_TravelTime o))) /\ B2R (fadd (fdiv (do_Movement o) (do_MovementTime o)) (fdiv (do_Travel o) (do_TravelTime o))) = B2R (fdiv (do_Travel o) (do_TravelTime o))).
    { destruct (fadd_fin _ _ FB FC) as (F & E); [rewrite EB, Rplus_0_l; destruct (quot_ab _ _ T (proj1 W2) ltac:(apply W2)) as (Q2 & _); apply u_val in Q2; apply Rle_trans with (bpow radix2 20); [apply Rabs_le; repeat pw; unfold e40 in Q2; lra|apply bpow_le; lia]|]. split; [exact F|]. now rewrite E, EB, Rplus_0_l, rnd64_id. }
    destruct SUM as (FD & ED). destruct (fmax_fin _ _ FA FD) as (_ & ->). rewrite EA, ED. destruct (Rle_lt_or_eq_dec 0 (B2R (do_Travel o)) (proj1 (proj2 T))) as [TP|T0].
    + pose proof (quot_pos _ _ T (sn_travel_grain _ _ S) W2 TP) as PQ. assert (0 < B2R (do_Travel o) / B2R (do_TravelTime o)) by (apply Rdiv_lt_0_compat; [exact TP|destruct W2; lra]). rewrite !Rmax_right by lra. split; lra.
    + symmetry in T0. destruct (fdiv_zero _ _ (proj1 T) (proj1 W2) T0 ltac:(destruct W2; lra)) as (_ & ->). rewrite T0. unfold Rdiv. rewrite Rmult_0_l. tauto.
Qed.

Lemma change_ab ws cur last ll : sane 16 cur -> sane 16 last -> linked cur last -> linked last ll -> base_spinner cur = false -> base_spinner last = false ->
  let v := velocity ws (motion_of cur) (motion_of last) in let v' := velocity ws (motion_of last) (motion_of ll) in
  let r := if Req_EM_T (Rmax v' v) 0 then 0 else change_term (motion_of cur) (motion_of last) in
  ab 300000 (aim_velocity_change cur last (aim_velocity ws cur last) (aim_velocity ws last ll)) r /\ 0 <= r <= 5243.
Proof.
  intros S S' L L' NS NS' v v' r. destruct (velocity_ab ws cur last S L NS) as ((FV & _) & VB). destruct (velocity_ab ws last ll S' L' NS') as ((FV' & _) & VB'). fold v in VB. fold v' in VB'.
  pose proof (velocity_0 ws cur last S L NS) as Z. pose proof (velocity_0 ws last ll S' L' NS') as Z'. fold v in Z. fold v' in Z'. destruct (fmax_fin _ _ FV' FV) as (FM & EM).
  pose proof (bd_pos _ _ (velocity_bd 16 ltac:(lia) ws cur last S L NS)) as PV. pose proof (bd_pos _ _ (velocity_bd 16 ltac:(lia) ws last ll S' L' NS')) as PV'.
  assert (NE : fne (fmax (aim_velocity ws last ll) (aim_velocity ws cur last)) f0 = if Req_EM_T (Rmax v' v) 0 then false else true).
  { assert (Q : feq (fmax (aim_velocity ws last ll) (aim_velocity ws cur last)) f0 = true <-> Rmax v' v = 0).
    { rewrite feq_iff. rewrite (key_fin _ _ _ FM). change (key f0) with 0. rewrite EM. split.
      - intros (_ & _ & E). assert (A : B2R (aim_velocity ws last ll) <= 0) by (rewrite <- E; apply Rmax_l). assert (B : B2R (aim_velocity ws cur last) <= 0) by (rewrite <- E; apply Rmax_r).
        rewrite (proj1 Z) by lra. rewrite (proj1 Z') by lra. apply Rmax_left. lra.
      - intros E. assert (A : v' <= 0) by (rewrite <- E; apply Rmax_l). assert (B : v <= 0) by (rewrite <- E; apply Rmax_r). split; [now apply fin_num|]. split; [reflexivity|].
        rewrite (proj2 Z) by lra. rewrite (proj2 Z') by lra. apply Rmax_left. lra. }
    unfold fne. unfold feq in Q. destruct (Req_EM_T (Rmax v' v) 0) as [E|E].
    - now rewrite (proj2 Q E).
    - destruct (Beqb _ _) eqn:X; [exfalso; now apply E, Q|reflexivity]. }
  unfold aim_velocity_change. rewrite NE. unfold r. destruct (Req_EM_T (Rmax v' v) 0) as [E|E]; [split; [apply u_0; lra|lra]|]. cbv zeta. clear NE FM EM.
  destruct (mean_nv cur S) as (MC & BC). destruct (mean_nv last S') as (MP & BP). unfold change_term. cbn [motion_of mo_jump mo_time mo_slide]. cbv zeta.
  destruct (sane_16 cur S) as ((FJ & BJ) & (_ & BT) & _ & (FS & BS)). destruct (sane_16 last S') as ((FJ' & BJ') & (_ & BT') & _ & (FS' & BS')).
  assert (P : 0 < Rmax ((B2R (do_Jump last) + B2R (do_Travel last)) / B2R (do_StrainTime last)) ((B2R (do_Jump cur) + B2R (do_Travel cur)) / B2R (do_StrainTime cur))).
  { destruct (Rle_lt_or_eq_dec 0 (B2R (do_Jump last) + B2R (do_Travel last)) ltac:(lra)) as [X|X]; [apply Rlt_le_trans with (2 := Rmax_l _ _); apply Rdiv_lt_0_compat; lra|]. destruct (Rle_lt_or_eq_dec 0 (B2R (do_Jump cur) + B2R (do_Travel cur)) ltac:(lra)) as [Y|Y]; [apply Rlt_le_trans with (2 := Rmax_r _ _); apply Rdiv_lt_0_compat; lra|].
    exfalso. apply E. unfold v, v'. rewrite (still_real ws cur last L NS S), (still_real ws last ll L' NS' S') by (symmetry; assumption). apply Rmax_left. lra. }
  destruct (diff_ab _ _ _ _ MP MC BP BC P) as (DV & QV & DB & QB). set (p := fdiv (fadd (do_Jump last) (do_Travel last)) (do_StrainTime last)) in *. set (c := fdiv (fadd (do_Jump cur) (do_Travel cur)) (do_StrainTime cur)) in *.
  set (rp := (B2R (do_Jump last) + B2R (do_Travel last)) / B2R (do_StrainTime last)) in *. set (rc := (B2R (do_Jump cur) + B2R (do_Travel cur)) / B2R (do_StrainTime cur)) in *.
  assert (DB' : 0 <= Rabs (rp - rc) <= 5243) by (split; [apply DB|]; apply Rle_trans with (1 := proj2 DB); apply Rmax_lub; lra). set (D := Rabs (rp - rc)) in *.
  destruct (sin2_un 20 43 _ _ QV ltac:(rewrite Rabs_pos_eq; lra) ltac:(lra) ltac:(lra)) as (RT & _ & RB). set (ratio := sin (PI / 2 * D / Rmax rp rc) ^ 2) in *. pose proof pi_box as PB.
  destruct (fmin_fin _ _ FS FS') as (Fn & En). destruct (fmax_fin _ _ FS FS') as (Fx & Ex). set (mn := Rmin (B2R (do_StrainTime cur)) (B2R (do_StrainTime last))) in *. set (mx := Rmax (B2R (do_StrainTime cur)) (B2R (do_StrainTime last))) in *.
  assert (MN : 25 <= mn <= mx) by (unfold mn, mx, Rmin, Rmax; repeat destruct (Rle_dec _ _); lra).
  (* overlap *)
  assert (OV : ab 27000 (fmin (fdiv (fq 125 1) (fmin (do_StrainTime cur) (do_StrainTime last))) (fabs (fsub p c))) (Rmin (125 / mn) D)).
  { apply u_min; [|exact DV]. pose proof (over_le 125 mn 125 ltac:(lra) ltac:(lra)). apply (u_over 8 (/ 1000) 0); try lra; [exact lim_8|apply (uz 125); lia|exact Fn|rewrite Rabs_pos_eq; lra]. }
  assert (OB : 0 <= Rmin (125 / mn) D <= 5243). { pose proof (over_le 125 mn 125 ltac:(lra) ltac:(lra)). rewrite Rmin_comm. apply min_in; lra. } set (ov := Rmin (125 / mn) D) in *.
  (* no overlap *)
  assert (SQ : un 7 (mpow (msin (fmul fpi_2 (fmin (fq 1 1) (fdiv (fmin (do_Jump cur) (do_Jump last)) (fq 100 1))))) (fq 2 1)) (sin (PI / 2 * Rmin 1 (Rmin (B2R (do_Jump cur)) (B2R (do_Jump last)) / 100)) ^ 2)).
  { pose proof (u_min 0 _ _ _ _ (ab_is _ _ FJ eq_refl) (ab_is _ _ FJ' eq_refl)) as G. pose proof (min_in _ _ 65536 BJ (proj1 BJ')) as GB. set (g := Rmin (B2R (do_Jump cur)) (B2R (do_Jump last))) in *. destruct (fq1_exact 100) as (Fh & Eh); [lia|].
    assert (H : ab 1 (fdiv (fmin (do_Jump cur) (do_Jump last)) (fq 100 1)) (g / 100)) by (apply (u_over 8192 1 0); try lra; [exact lim_8k|exact G|exact Fh|rewrite Rabs_pos_eq; lra]).
    pose proof (u_min 1 _ _ _ _ (ab_up 0 1 _ _ ltac:(lra) one_ab) H) as K. assert (KB : 0 <= Rmin 1 (g / 100) <= 1) by (unfold Rmin; destruct (Rle_dec _ _); lra). set (k := Rmin 1 (g / 100)) in *.
    assert (I : 0 <= PI / 2 * k <= 2) by (rewrite Rmult_comm; split; [apply Rmult_le_pos; lra|apply Rle_trans with (1 * 2); [apply Rmult_le_compat; lra|lra]]).
    apply (sin2_un 2); try lra; [|rewrite Rabs_pos_eq; lra]. apply (u_mul 8 (/ 1000) (16 / 10) 1 (/ 10) 1); try lra; [exact lim_8|exact pi_2|exact K|rewrite Rabs_pos_eq; lra|rewrite Rabs_pos_eq; lra]. }
  destruct SQ as (SQ & _ & SB). set (sq := sin (PI / 2 * Rmin 1 _) ^ 2) in *.
  assert (NO : ab 63800 (fmul (fabs (fsub p c)) (mpow (msin (fmul fpi_2 (fmin (fq 1 1) (fdiv (fmin (do_Jump cur) (do_Jump last)) (fq 100 1))))) (fq 2 1))) (D * sq)) by (apply (u_mul 8192 1 5243 1 27000 7); try lra; [exact lim_8k|exact DV|exact SQ|rewrite Rabs_pos_eq; lra|rewrite Rabs_pos_eq; lra]).
  pose proof (prod_le D sq 5243 DB' SB) as NB. pose proof (ab_max 63800 _ _ _ _ (ab_up 27000 63800 _ _ ltac:(lra) OV) NO) as BX. assert (BB : 0 <= Rmax ov (D * sq) <= 5243) by (split; [apply Rle_trans with (1 := proj1 OB), Rmax_l|apply Rmax_lub; lra]). set (best := Rmax ov (D * sq)) in *.
  assert (T1 : ab 289300 (fmul (fmax (fmin (fdiv (fq 125 1) (fmin (do_StrainTime cur) (do_StrainTime last))) (fabs (fsub p c))) (fmul (fabs (fsub p c)) (mpow (msin (fmul fpi_2 (fmin (fq 1 1) (fdiv (fmin (do_Jump cur) (do_Jump last)) (fq 100 1))))) (fq 2 1)))) (mpow (msin (fdiv (fmul fpi_2 (fabs (fsub p c))) (fmax p c))) (fq 2 1))) (best * ratio)).
  { apply (u_mul 8192 1 5243 1 63800 43); try lra; [exact lim_8k|exact BX|exact RT|rewrite Rabs_pos_eq; lra|rewrite Rabs_pos_eq; lra]. }
  pose proof (prod_le best ratio 5243 BB RB) as TB. set (t1 := best * ratio) in *.
  (* rhythm *)
  assert (RQ : 0 <= mn / mx <= 1) by (split; [apply Rle_mult_inv_pos; lra|apply Rmult_le_reg_r with mx; [lra|]; unfold Rdiv; rewrite Rmult_assoc, Rinv_l by lra; lra]).
  assert (RH : un 2 (mpow (fdiv (fmin (do_StrainTime cur) (do_StrainTime last)) (fmax (do_StrainTime cur) (do_StrainTime last))) (fq 2 1)) ((mn / mx) ^ 2)).
  { assert (A : ab (/ 1000) (fdiv (fmin (do_StrainTime cur) (do_StrainTime last)) (fmax (do_StrainTime cur) (do_StrainTime last))) (mn / mx)) by (apply (u_over 8 (/ 1000) 0); try lra; [exact lim_8|now apply ab_is|exact Fx|rewrite Rabs_pos_eq; lra]).
    apply (un_sq (/ 1000)); [exact A| |rewrite Rabs_pos_eq; lra|lra]. destruct (fdiv_fin _ _ Fn Fx) as (F & Q); [rewrite Ex; lra|rewrite En, Ex, Rabs_pos_eq by apply RQ; apply Rle_trans with (1 := proj2 RQ); change 1 with (bpow radix2 0); apply bpow_le; lia|]. rewrite Q, En, Ex.
    rewrite Rabs_pos_eq by (apply rnd64_pos; lra). destruct (fq1_exact 1) as (_ & E1); [lia|]. rewrite <- E1. apply rnd64_le_f. rewrite E1. lra. }
  destruct RH as (RH & _ & RHB). split; [|now apply prod_le]. apply (u_mul 8192 1 5243 1 289300 2); try lra; [exact lim_8k|exact T1|exact RH|rewrite Rabs_pos_eq; lra|rewrite Rabs_pos_eq; lra].
Qed.

(** ** The whole *)
Lemma same_ok cur last : sane 16 cur -> sane 16 last -> rhythm_clear cur last ->
  flt (fmax (do_StrainTime cur) (do_StrainTime last)) (fmul (fq 5 4) (fmin (do_StrainTime cur) (do_StrainTime last))) = same_rhythm (motion_of cur) (motion_of last).
Proof.
  intros S S' C. destruct (sane_16 cur S) as (_ & _ & _ & (FS & BS)). destruct (sane_16 last S') as (_ & _ & _ & (FS' & BS')). unfold same_rhythm, rhythm_clear in *. cbn [motion_of mo_time].
  destruct (fmin_fin _ _ FS FS') as (Fn & En). destruct (fmax_fin _ _ FS FS') as (Fx & Ex). set (mn := Rmin _ _) in *. set (mx := Rmax _ _) in *. assert (MN : 25 <= mn /\ mx <= bpow radix2 42 /\ 25 <= mx /\ mn <= mx) by (unfold mn, mx, Rmin, Rmax; repeat destruct (Rle_dec _ _); lra).
  assert (K : fin (fq 5 4) /\ B2R (fq 5 4) = 5 / 4) by (split; [vm_compute; reflexivity|bval (fq 5 4); rewrite V; lra]). destruct K as (FK & EK).
  destruct (fmul_fin _ _ FK Fn) as (FP & EP); [rewrite EK, En, Rabs_pos_eq by lra; apply Rle_trans with (bpow radix2 43); [change 43%Z with (1 + 42)%Z; rewrite bpow_plus; change (bpow radix2 1) with 2; lra|apply bpow_le; lia]|]. rewrite EK, En in EP.
  destruct (flt _ _) eqn:G.
  - apply flt_fin in G; auto. rewrite Ex, EP in G. destruct (Rlt_dec mx (5 / 4 * mn)) as [H|H]; [reflexivity|]. exfalso. assert (rnd64 (5 / 4 * mn) <= B2R (fmax (do_StrainTime cur) (do_StrainTime last))) by (apply rnd64_le_f; rewrite Ex; lra). lra.
  - apply flt_fin_false in G; auto. rewrite Ex, EP in G. destruct (Rlt_dec mx (5 / 4 * mn)) as [H|H]; [|reflexivity]. exfalso. destruct C as [C|C]; [lra|]. rewrite (Rabs_pos_eq mx) in C by lra.
    pose proof (rel64 (5 / 4 * mn)) as Q. rewrite (Rabs_pos_eq (5 / 4 * mn)) in Q by lra. specialize (Q ltac:(apply Rle_trans with 1; [change 1 with (bpow radix2 0); apply bpow_le; lia|lra])). apply Rabs_le_inv in Q. change (bpow radix2 (-50)) with (/ 1125899906842624) in C. lra.
Qed.
Lemma aim_ab ws cur last ll rest : sane 16 cur -> sane 16 last -> linked cur last -> linked last ll -> base_spinner cur = false -> base_spinner last = false ->
  angle_ok cur -> angle_ok last -> angle_ok ll -> rhythm_clear cur last ->
  ab 400000 (Skills.aim_value ws (last :: ll :: rest) cur) (aim_formula ws (motion_of cur) (motion_of last) (motion_of ll)).
Proof.
  intros S S' L L' NS NS' A A' A'' C. destruct (velocity_ab ws cur last S L NS) as (V & VB). destruct (velocity_ab ws last ll S' L' NS') as (V' & VB'). destruct (change_ab ws cur last ll S S' L L' NS NS') as (CH & CB).
  destruct (sane_16 cur S) as (J & T & _ & (FS & BS)). pose proof (same_ok cur last S S' C) as SR. unfold Skills.aim_value, aim_formula. rewrite NS, NS'. cbv zeta in CH, CB |- *.
  set (v := velocity ws (motion_of cur) (motion_of last)) in *. set (v' := velocity ws (motion_of last) (motion_of ll)) in *. set (ch := if Req_EM_T (Rmax v' v) 0 then 0 else change_term (motion_of cur) (motion_of last)) in *.
  assert (AN : exists w a, aim_angles cur last ll (aim_velocity ws cur last) (aim_velocity ws last ll) = (w, a) /\
    let angles := match mo_angle (motion_of cur), mo_angle (motion_of last), mo_angle (motion_of ll) with Some a, Some a', Some a'' => if same_rhythm (motion_of cur) (motion_of last) then Some (a, a', a'') else None | _, _, _ => None end in
    let rw := match angles with Some (a, a', _) => wide_term (motion_of cur) (motion_of last) v v' a a' | None => 0 end in
    let ra := match angles with Some (a, a', a'') => acute_term (motion_of cur) v v' a a' a'' | None => 0 end in
    ab 94500 w rw /\ 0 <= rw <= 5244 /\ ab 720 a ra /\ 0 <= ra <= 5).
  { unfold aim_angles. rewrite SR. cbn [motion_of mo_angle]. assert (Z : ab 94500 f0 0 /\ 0 <= 0 <= 5244 /\ ab 720 f0 0 /\ 0 <= 0 <= 5) by (split; [apply u_0; lra|]; split; [lra|]; split; [apply u_0; lra|lra]). unfold fisnan, angle_ok in *.
    destruct (same_rhythm (motion_of cur) (motion_of last)).
    2:{ exists f0, f0. split; [reflexivity|]. cbv zeta. destruct (is_nan (do_Angle cur)); [exact Z|]. destruct (is_nan (do_Angle last)); [exact Z|]. destruct (is_nan (do_Angle ll)); exact Z. }
    destruct (is_nan (do_Angle cur)) eqn:N1; cbn [negb andb]; [exists f0, f0; split; [reflexivity|exact Z]|]. destruct (is_nan (do_Angle last)) eqn:N2; cbn [negb andb]; [exists f0, f0; split; [reflexivity|exact Z]|]. destruct (is_nan (do_Angle ll)) eqn:N3; cbn [negb andb]; [exists f0, f0; split; [reflexivity|exact Z]|]. clear Z.
    destruct A as [A|A]; [discriminate A|]. destruct A' as [A'|A']; [discriminate A'|]. destruct A'' as [A''|A'']; [discriminate A''|]. cbv zeta. do 2 eexists. split; [reflexivity|].
    destruct (wide_ab _ _ _ _ _ (do_Angle cur) (do_Angle last) (motion_of cur) (motion_of last) A A' eq_refl V V' VB VB') as (W & WB). split; [exact W|]. split; [exact WB|]. unfold acute_term. cbn [motion_of mo_time mo_jump]. cbv zeta.
    destruct (fq1_exact 100) as (Fh & Eh); [lia|]. change (fgt (do_StrainTime cur) (fq 100 1)) with (flt (fq 100 1) (do_StrainTime cur)). destruct (flt (fq 100 1) (do_StrainTime cur)) eqn:G.
    - apply flt_fin in G; auto. rewrite Eh in G. destruct (Rlt_dec 100 (B2R (do_StrainTime cur))) as [H|H]; [|lra]. apply acute_end; [apply u_0; lra|lra|exact A''].
    - apply flt_fin_false in G; auto. rewrite Eh in G. destruct (Rlt_dec 100 (B2R (do_StrainTime cur))) as [H|H]; [lra|]. destruct (acute_x _ _ _ _ (do_Angle cur) (do_Angle last) (do_StrainTime cur) (do_Jump cur) A A' V V' VB VB' FS ltac:(lra) J) as (X & XB). now apply acute_end. }
  destruct AN as (w & a & EA & AN). rewrite EA. cbv zeta in AN. set (rw := match _ with Some (a, a', _) => wide_term _ _ v v' a a' | None => 0 end) in *. set (ra := match _ with Some (a, a', a'') => acute_term _ v v' a a' a'' | None => 0 end) in *. destruct AN as (W & WB & AC & AB).
  assert (K2 : ab 0 (fq 2 1) 2) by (apply (uz 2); lia). assert (K32 : ab 0 (fq 3 2) (3 / 2)) by uk. assert (K34 : ab 0 (fq 3 4) (3 / 4)) by uk.
  rewrite (Rmult_comm 2 ra), (Rmult_comm (3 / 2) rw), (Rmult_comm (3 / 4) ch).
  assert (X1 : ab 1500 (fmul a (fq 2 1)) (ra * 2)) by (apply (u_mul 8192 1 5 2 720 0); try lra; [exact lim_8k|exact AC|exact K2|rewrite Rabs_pos_eq; lra|rewrite Rabs_pos_eq; lra]).
  assert (X2 : ab 141800 (fmul w (fq 3 2)) (rw * (3 / 2))) by (apply (u_mul 8192 1 5244 (3 / 2) 94500 0); try lra; [exact lim_8k|exact W|exact K32|rewrite Rabs_pos_eq; lra|rewrite Rabs_pos_eq; lra]).
  assert (X3 : ab 225100 (fmul (aim_velocity_change cur last (aim_velocity ws cur last) (aim_velocity ws last ll)) (fq 3 4)) (ch * (3 / 4))) by (apply (u_mul 8192 1 5243 (3 / 4) 300000 0); try lra; [exact lim_8k|exact CH|exact K34|rewrite Rabs_pos_eq; lra|rewrite Rabs_pos_eq; lra]).
  assert (X4 : ab 367000 (fadd (fmul w (fq 3 2)) (fmul (aim_velocity_change cur last (aim_velocity ws cur last) (aim_velocity ws last ll)) (fq 3 4))) (rw * (3 / 2) + ch * (3 / 4))) by (apply (u_add 131072 16 141800 225100); try lra; [exact lim_100k|exact X2|exact X3|rewrite Rabs_pos_eq; lra]).
  pose proof (ab_max 367000 _ _ _ _ (ab_up 1500 367000 _ _ ltac:(lra) X1) X4) as X5. assert (B5 : 0 <= Rmax (ra * 2) (rw * (3 / 2) + ch * (3 / 4)) <= 12000) by (split; [apply Rle_trans with (2 := Rmax_l _ _); lra|apply Rmax_lub; lra]). set (g := Rmax (ra * 2) _) in *.
  assert (X6 : ab 367100 (fadd (aim_velocity ws cur last) (fmax (fmul a (fq 2 1)) (fadd (fmul w (fq 3 2)) (fmul (aim_velocity_change cur last (aim_velocity ws cur last) (aim_velocity ws last ll)) (fq 3 4))))) (v + g)) by (apply (u_add 131072 16 3 367000); try lra; [exact lim_100k|exact V|exact X5|rewrite Rabs_pos_eq; lra]).
  destruct ws; [|rewrite Rplus_0_r; apply (ab_up 367100); [lra|exact X6]]. cbn [motion_of mo_slide_time mo_slide].
  assert (SB : ab 1 (if fne (do_TravelTime cur) f0 then fdiv (do_Travel cur) (do_TravelTime cur) else f0) (if Req_EM_T (B2R (do_TravelTime cur)) 0 then 0 else B2R (do_Travel cur) / B2R (do_TravelTime cur)) /\ 0 <= (if Req_EM_T (B2R (do_TravelTime cur)) 0 then 0 else B2R (do_Travel cur) / B2R (do_TravelTime cur)) <= 2622).
  { destruct (sn_travel_time _ _ S) as [->|(F & B)].
    - change (B2R f0) with 0. destruct (Req_EM_T 0 0) as [_|N]; [|lra]. change (fne f0 f0) with false. split; [apply u_0; lra|lra].
    - destruct (Req_EM_T (B2R (do_TravelTime cur)) 0) as [N|N]; [lra|]. assert (NE : fne (do_TravelTime cur) f0 = true). { unfold fne. apply negb_true_iff. destruct (Beqb _ _) eqn:X; [|reflexivity]. exfalso. change (feq (do_TravelTime cur) f0 = true) in X. apply feq_iff in X as (_ & _ & X). rewrite (key_fin _ _ _ F) in X. change (key f0) with 0 in X. lra. }
      rewrite NE. apply quot_ab; [exact T|exact F|lra]. }
  destruct SB as (SB & SBB). set (sb := if Req_EM_T _ 0 then 0 else B2R (do_Travel cur) / _) in *. replace (if Req_EM_T (B2R (do_TravelTime cur)) 0 then 0 else 3 / 2 * (B2R (do_Travel cur) / B2R (do_TravelTime cur))) with (sb * (3 / 2)) by (unfold sb; destruct (Req_EM_T (B2R (do_TravelTime cur)) 0); lra).
  apply (u_add 131072 16 367100 3); try lra; [exact lim_100k|exact X6| |rewrite Rabs_pos_eq; lra]. apply (u_mul 8192 1 2622 (3 / 2) 1 0); try lra; [exact lim_8k|exact SB|exact K32|rewrite Rabs_pos_eq; lra|rewrite Rabs_pos_eq; lra].
Qed.
End WithLibm.

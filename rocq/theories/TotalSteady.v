(** The star rating moves no faster than 1.7 times the ratings it is made of. *)
From Coq Require Import Reals Lra Lia ZArith List.
From Flocq Require Import Core BinarySingleNaN.
From Verif Require Import GoFloat PP SpecFormula SpecTotal RelPow TotalFormula.
Open Scope R_scope.

(** ** Convexity of powers *)
Lemma young th s : 0 <= th <= 1 -> exp (th * s) <= th * exp s + (1 - th).
Proof.
  intros T. set (m := exp (th * s)). assert (P : 0 < m) by apply exp_pos.
  assert (A : m * (1 + (1 - th) * s) <= exp s). { replace (exp s) with (m * exp ((1 - th) * s)) by (unfold m; rewrite <- exp_plus; f_equal; ring). apply Rmult_le_compat_l; [lra|]. apply exp_ineq1_le. }
  assert (B : m * (1 + - th * s) <= 1). { replace 1 with (m * exp (- th * s)) at 2 by (unfold m; rewrite <- exp_plus; replace (th * s + - th * s) with 0 by ring; apply exp_0). apply Rmult_le_compat_l; [lra|]. apply exp_ineq1_le. }
  assert (A' : th * (m * (1 + (1 - th) * s)) <= th * exp s) by (apply Rmult_le_compat_l; lra). assert (B' : (1 - th) * (m * (1 + - th * s)) <= (1 - th) * 1) by (apply Rmult_le_compat_l; lra).
  replace m with (th * (m * (1 + (1 - th) * s)) + (1 - th) * (m * (1 + - th * s))) by ring. lra.
Qed.
Lemma bernoulli x p : 0 < x -> 1 <= p -> 1 + p * (x - 1) <= Rpower x p.
Proof.
  intros X P. pose proof (young (/ p) (p * ln x)) as Y. assert (I : 0 <= / p <= 1). { split; [left; apply Rinv_0_lt_compat; lra|]. rewrite <- Rinv_1. apply Rinv_le_contravar; lra. }
  specialize (Y I). replace (/ p * (p * ln x)) with (ln x) in Y by (field; lra). rewrite exp_ln in Y by exact X. fold (Rpower x p) in Y. apply (Rmult_le_compat_l p) in Y; [|lra]. replace (p * (/ p * Rpower x p + (1 - / p))) with (Rpower x p + (p - 1)) in Y by (field; lra). lra.
Qed.
Lemma Rpower_pos x p : 0 < Rpower x p.
Proof. unfold Rpower. apply exp_pos. Qed.
Lemma pow_convex p th rho : 1 <= p -> 0 <= th <= 1 -> 0 < rho -> 0 < th * rho + (1 - th) -> Rpower (th * rho + (1 - th)) p <= th * Rpower rho p + (1 - th).
Proof.
  intros P T R MU. set (mu := th * rho + (1 - th)) in *. set (w := Rpower mu p). assert (W : 0 < w) by apply Rpower_pos.
  assert (A : w * (1 + p * (rho / mu - 1)) <= Rpower rho p). { replace (Rpower rho p) with (w * Rpower (rho / mu) p). { apply Rmult_le_compat_l; [lra|]. apply bernoulli; [apply Rdiv_lt_0_compat; lra|exact P]. } unfold w. rewrite Rpower_mult_distr; [|exact MU|apply Rdiv_lt_0_compat; lra]. f_equal. field. lra. }
  assert (B : w * (1 + p * (1 / mu - 1)) <= 1). { apply Rle_trans with (w * Rpower (1 / mu) p). { apply Rmult_le_compat_l; [lra|]. apply bernoulli; [apply Rdiv_lt_0_compat; lra|exact P]. } right. unfold w. rewrite Rpower_mult_distr; [|exact MU|apply Rdiv_lt_0_compat; lra]. replace (mu * (1 / mu)) with 1 by (field; lra). unfold Rpower. rewrite ln_1, Rmult_0_r. apply exp_0. }
  assert (A' : th * (w * (1 + p * (rho / mu - 1))) <= th * Rpower rho p) by (apply Rmult_le_compat_l; lra). assert (B' : (1 - th) * (w * (1 + p * (1 / mu - 1))) <= (1 - th) * 1) by (apply Rmult_le_compat_l; lra).
  assert (E : th * (w * (1 + p * (rho / mu - 1))) + (1 - th) * (w * (1 + p * (1 / mu - 1))) = w). { transitivity (w * (1 + p * ((th * rho + (1 - th)) / mu - 1))); [field; lra|]. fold mu. replace (mu / mu) with 1 by (field; lra). ring. }
  lra.
Qed.
Lemma Rpower_le1 x p : 0 < x <= 1 -> 1 <= p -> Rpower x p <= x.
Proof.
  intros (X & X1) P. rewrite <- (Rpower_1 x X) at 2. unfold Rpower. destruct (Rle_lt_or_eq_dec x 1 X1) as [L|E]; [|rewrite E, ln_1, !Rmult_0_r; lra].
  assert (N : ln x < 0) by (rewrite <- ln_1; apply ln_increasing; lra). assert (Q : p * ln x <= 1 * ln x) by (apply Ropp_le_cancel; rewrite !Ropp_mult_distr_r; apply Rmult_le_compat_r; lra).
  destruct Q as [Q|Q]; [left; now apply exp_increasing|rewrite Q; lra].
Qed.
Lemma Rpower_one p : Rpower 1 p = 1.
Proof. unfold Rpower. rewrite ln_1, Rmult_0_r. apply exp_0. Qed.
Lemma rpow_inv x p : 0 < x -> 0 < p -> Rpower (Rpower x p) (/ p) = x.
Proof. intros X P. rewrite Rpower_mult. replace (p * / p) with 1 by (field; lra). now apply Rpower_1. Qed.
Lemma rpow_inv' x p : 0 < x -> 0 < p -> Rpower (Rpower x (/ p)) p = x.
Proof. intros X P. rewrite Rpower_mult. replace (/ p * p) with 1 by (field; lra). now apply Rpower_1. Qed.

(** ** A sum of powers moves no faster than its terms *)
Lemma norm_step p x c dl : 1 <= p -> 0 <= x -> 0 <= dl -> 0 < c -> Rpower (rpow (x + dl) p + c) (/ p) <= Rpower (rpow x p + c) (/ p) + dl.
Proof.
  intros P X D C. pose proof (rpow_nn x p) as XP. set (N := Rpower (rpow x p + c) (/ p)). assert (NP : 0 < N) by apply Rpower_pos. assert (NE : Rpower N p = rpow x p + c) by (unfold N; apply rpow_inv'; lra).
  destruct (Rle_lt_or_eq_dec 0 (x + dl) ltac:(lra)) as [S|S].
  2: { assert (x = 0) by lra. assert (dl = 0) by lra. subst x dl. rewrite Rplus_0_r. fold N. lra. }
  set (m := N + dl). assert (MP : 0 < m) by (unfold m; lra). rewrite (rpow_pos (x + dl)) by exact S.
  assert (G : Rpower (x + dl) p + c <= Rpower m p); [|apply Rle_trans with (Rpower (Rpower m p) (/ p)); [apply Rpower_le_l; [split; [pose proof (Rpower_pos (x + dl) p); lra|exact G]|left; apply Rinv_0_lt_compat; lra]|rewrite rpow_inv by lra; lra]].
  set (th := N / m). assert (TH : 0 < th <= 1). { unfold th. split; [now apply Rdiv_lt_0_compat|]. apply Rmult_le_reg_r with m; [exact MP|]. unfold Rdiv. rewrite Rmult_assoc, Rinv_l by lra. unfold m. lra. }
  assert (TM : Rpower m p * Rpower th p = Rpower N p) by (rewrite Rpower_mult_distr by lra; f_equal; unfold th; field; lra). pose proof (Rpower_pos m p) as MW. set (w := Rpower m p) in *. pose proof (Rpower_le1 th p TH P) as T1.
  assert (E1 : Rpower (x + dl) p = w * Rpower ((x + dl) / m) p). { unfold w. rewrite Rpower_mult_distr; [f_equal; field; lra|exact MP|now apply Rdiv_lt_0_compat]. }
  destruct (Rle_lt_or_eq_dec 0 x X) as [X0|X0].
  - rewrite rpow_pos in NE by exact X0. rewrite rpow_pos in XP by exact X0. set (rho := x / N). assert (R0 : 0 < rho) by now apply Rdiv_lt_0_compat.
    assert (XE : Rpower x p = Rpower N p * Rpower rho p) by (rewrite Rpower_mult_distr by lra; f_equal; unfold rho; field; lra).
    assert (R1 : Rpower rho p <= 1). { apply Rmult_le_reg_l with (Rpower N p); [apply Rpower_pos|]. rewrite <- XE, Rmult_1_r. lra. } pose proof (Rpower_pos rho p) as RW.
    assert (MU : (x + dl) / m = th * rho + (1 - th)) by (unfold th, rho, m; field; unfold m in MP; lra).
    pose proof (pow_convex p th rho P ltac:(lra) R0) as CV. rewrite <- MU in CV. specialize (CV ltac:(now apply Rdiv_lt_0_compat)).
    assert (CE : c = w * (Rpower th p * (1 - Rpower rho p))) by (rewrite <- Rmult_assoc, TM; lra).
    rewrite E1, CE, <- Rmult_plus_distr_l. rewrite <- (Rmult_1_r w) at 2. apply Rmult_le_compat_l; [lra|].
    assert (Rpower th p * (1 - Rpower rho p) <= th * (1 - Rpower rho p)) by (apply Rmult_le_compat_r; lra). lra.
  - subst x. rewrite rpow_0 in NE. rewrite Rplus_0_l in *. assert (MU : dl / m = 1 - th) by (unfold th, m; field; unfold m in MP; lra).
    assert (U : 0 < dl / m) by now apply Rdiv_lt_0_compat. pose proof (Rpower_le1 (dl / m) p ltac:(lra) P) as T2.
    rewrite E1. replace c with (w * Rpower th p) by lra. rewrite <- Rmult_plus_distr_l. rewrite <- (Rmult_1_r w) at 2. apply Rmult_le_compat_l; [lra|]. lra.
Qed.
Lemma norm_down p x y c : 1 <= p -> 0 <= x <= y -> 0 < c -> Rpower (rpow x p + c) (/ p) <= Rpower (rpow y p + c) (/ p).
Proof.
  intros P (X & XY) C. pose proof (rpow_nn x p). apply Rpower_le_l; [split; [lra|]|left; apply Rinv_0_lt_compat; lra]. apply Rplus_le_compat_r. destruct (Rle_lt_or_eq_dec 0 x X) as [X0|X0]; [rewrite !rpow_pos by lra; apply Rpower_le_l; lra|subst x; rewrite rpow_0; apply rpow_nn].
Qed.
Lemma norm_move p x y c : 1 <= p -> 0 <= x -> 0 <= y -> 0 < c -> Rabs (Rpower (rpow y p + c) (/ p) - Rpower (rpow x p + c) (/ p)) <= Rabs (y - x).
Proof.
  intros P X Y C. destruct (Rle_lt_dec x y) as [L|L].
  - pose proof (norm_down p x y c P ltac:(lra) C). pose proof (norm_step p x c (y - x) P X ltac:(lra) C) as S. replace (x + (y - x)) with y in S by ring. rewrite !Rabs_pos_eq by lra. lra.
  - pose proof (norm_down p y x c P ltac:(lra) C). pose proof (norm_step p y c (x - y) P Y ltac:(lra) C) as S. replace (y + (x - y)) with x in S by ring. rewrite !Rabs_left1 by lra. lra.
Qed.

(** ** The star rating as such a sum *)
Definition unit_of (r : R) : R := 5 * Rmax 1 (r / (675 / 10000)) - 4.
Definition flash_unit (fl : option R) : R := rpow (100000 * flash_base fl) (1 / 3).
Definition joint_norm (x y z : R) : R := Rpower (rpow x (33 / 10) + rpow y (33 / 10) + rpow z (33 / 10)) (/ (33 / 10)).
Lemma unit_ge r : 1 <= unit_of r.
Proof. unfold unit_of. pose proof (Rmax_l 1 (r / (675 / 10000))). lra. Qed.
Lemma base_unit r : base_value r = unit_of r ^ 3 / 100000.
Proof. reflexivity. Qed.
Lemma rpow_scale c x s : 0 < c -> 0 <= x -> rpow (c * x) s = Rpower c s * rpow x s.
Proof. intros C X. destruct (Rle_lt_or_eq_dec 0 x X) as [P|Z]; [|subst x; rewrite Rmult_0_r, !rpow_0; ring]. rewrite !rpow_pos; [|exact P|now apply Rmult_lt_0_compat]. now rewrite Rpower_mult_distr. Qed.
Lemma total_norm aim speed fl : total_stars aim speed fl =
  cube_root (112 / 100) * (27 / 1000) * (Rpower 2 (- (10 / 33)) * joint_norm (unit_of aim) (unit_of speed) (flash_unit fl) + 4).
Proof.
  unfold total_stars. f_equal. f_equal. unfold joint_value, joint_norm. pose proof (unit_ge aim) as UA. pose proof (unit_ge speed) as US. pose proof (flash_base_nn fl) as FN. set (k := Rpower (/ 100000) (11 / 10)). assert (K : 0 < k) by apply Rpower_pos.
  assert (EU : forall u, 1 <= u -> rpow (u ^ 3 / 100000) (11 / 10) = k * rpow u (33 / 10)).
  { intros u U. unfold Rdiv at 1. rewrite (Rmult_comm (u ^ 3)). rewrite rpow_scale; [|lra|apply pow_le; lra]. fold k. f_equal. rewrite !rpow_pos; [|lra|apply pow_lt; lra]. rewrite <- Rpower_pow by lra. rewrite Rpower_mult. f_equal. cbn. field. }
  rewrite !base_unit, !EU by assumption.
  assert (EF : rpow (flash_base fl) (11 / 10) = k * rpow (flash_unit fl) (33 / 10)).
  { unfold flash_unit. destruct (Rle_lt_or_eq_dec 0 _ FN) as [P|Z]; [|rewrite <- Z, Rmult_0_r, !rpow_0; ring]. rewrite (rpow_pos (100000 * _)) by lra. rewrite !rpow_pos; [|apply Rpower_pos|exact P]. rewrite Rpower_mult. replace (1 / 3 * (33 / 10)) with (11 / 10) by field. unfold k. rewrite Rpower_mult_distr by lra. f_equal. field. }
  rewrite EF, <- !Rmult_plus_distr_l. set (X := rpow (unit_of aim) (33 / 10) + rpow (unit_of speed) (33 / 10) + rpow (flash_unit fl) (33 / 10)).
  assert (XP : 0 < X). { unfold X. rewrite (rpow_pos (unit_of aim)), (rpow_pos (unit_of speed)) by lra. pose proof (Rpower_pos (unit_of aim) (33 / 10)). pose proof (Rpower_pos (unit_of speed) (33 / 10)). pose proof (rpow_nn (flash_unit fl) (33 / 10)). lra. }
  rewrite rpow_pos by (apply Rmult_lt_0_compat; assumption). rewrite <- Rpower_mult_distr by assumption. unfold k. rewrite Rpower_mult. replace (11 / 10 * (10 / 11)) with 1 by field. rewrite Rpower_1 by lra.
  replace (100000 / Rpower 2 (10 / 11) * (/ 100000 * Rpower X (10 / 11))) with (Rpower 2 (- (10 / 11)) * Rpower X (10 / 11)) by (rewrite Rpower_Ropp; pose proof (Rpower_pos 2 (10 / 11)); field; lra).
  unfold cube_root. rewrite <- Rpower_mult_distr by apply Rpower_pos. rewrite !Rpower_mult. f_equal; f_equal; field.
Qed.
Lemma joint_move x y z x' y' z' : 1 <= x -> 1 <= y -> 0 <= z -> 1 <= x' -> 1 <= y' -> 0 <= z' -> Rabs (joint_norm x' y' z' - joint_norm x y z) <= Rabs (x' - x) + Rabs (y' - y) + Rabs (z' - z).
Proof.
  intros X Y Z X' Y' Z'. unfold joint_norm. set (p := 33 / 10). assert (P : 1 <= p) by (unfold p; lra). assert (PP : forall u, 1 <= u -> 0 < rpow u p) by (intros u U; rewrite rpow_pos by lra; apply Rpower_pos). pose proof (PP x X) as QX. pose proof (PP y Y) as QY. pose proof (PP x' X') as QX'. pose proof (PP y' Y') as QY'. pose proof (rpow_nn z p) as QZ. pose proof (rpow_nn z' p) as QZ'.
  pose proof (norm_move p x x' (rpow y p + rpow z p) P ltac:(lra) ltac:(lra) ltac:(lra)) as A. pose proof (norm_move p y y' (rpow x' p + rpow z p) P ltac:(lra) ltac:(lra) ltac:(lra)) as B. pose proof (norm_move p z z' (rpow x' p + rpow y' p) P Z Z' ltac:(lra)) as C.
  replace (rpow x' p + (rpow y p + rpow z p)) with (rpow y p + (rpow x' p + rpow z p)) in A by ring. replace (rpow x p + (rpow y p + rpow z p)) with (rpow x p + rpow y p + rpow z p) in A by ring.
  replace (rpow y' p + (rpow x' p + rpow z p)) with (rpow z p + (rpow x' p + rpow y' p)) in B by ring. replace (rpow z' p + (rpow x' p + rpow y' p)) with (rpow x' p + rpow y' p + rpow z' p) in C by ring.
  set (n0 := Rpower (rpow x p + rpow y p + rpow z p) (/ p)) in *. set (n1 := Rpower (rpow y p + (rpow x' p + rpow z p)) (/ p)) in *. set (n2 := Rpower (rpow z p + (rpow x' p + rpow y' p)) (/ p)) in *. set (n3 := Rpower (rpow x' p + rpow y' p + rpow z' p) (/ p)) in *.
  replace (n3 - n0) with ((n1 - n0) + (n2 - n1) + (n3 - n2)) by ring. pose proof (Rabs_triang (n1 - n0 + (n2 - n1)) (n3 - n2)). pose proof (Rabs_triang (n1 - n0) (n2 - n1)). lra.
Qed.
(** the factors *)
Lemma cube_root_le x y : 0 < x -> 0 < y -> x <= y ^ 3 -> cube_root x <= y.
Proof.
  intros X Y H. replace y with (cube_root (y ^ 3)); [apply Rpower_le_l; [lra|lra]|]. unfold cube_root. rewrite <- Rpower_pow by exact Y. rewrite Rpower_mult. replace (INR 3 * (1 / 3)) with 1 by (cbn; field). now apply Rpower_1.
Qed.
Lemma factors : 1038 / 1000 <= cube_root (112 / 100) <= 1039 / 1000 /\ 8 / 10 <= Rpower 2 (- (10 / 33)) <= 811 / 1000.
Proof.
  split; [split; [apply cube_root_ge; lra|apply cube_root_le; lra]|].
  assert (R : forall x, 0 < x -> Rpower (x ^ 33) (/ 33) = x). { intros x X. rewrite <- Rpower_pow by exact X. rewrite Rpower_mult. replace (INR 33 * / 33) with 1 by (cbn; field). now apply Rpower_1. }
  assert (E : Rpower 2 (- (10 / 33)) = Rpower (/ 1024) (/ 33)). { replace (/ 1024) with (Rpower 2 (- INR 10)) by (rewrite Rpower_Ropp, Rpower_pow by lra; lra). rewrite Rpower_mult. f_equal. cbn. field. }
  rewrite E. split.
  - rewrite <- (R (8 / 10)) by lra. apply Rpower_le_l; lra.
  - rewrite <- (R (811 / 1000)) by lra. apply Rpower_le_l; lra.
Qed.
Lemma total_move aim speed fl aim' speed' fl' : Rabs (total_stars aim' speed' fl' - total_stars aim speed fl) <=
  2276 / 100000 * (Rabs (unit_of aim' - unit_of aim) + Rabs (unit_of speed' - unit_of speed) + Rabs (flash_unit fl' - flash_unit fl)).
Proof.
  rewrite !total_norm. destruct factors as (C & Q). set (c := cube_root (112 / 100)) in *. set (q := Rpower 2 (- (10 / 33))) in *.
  pose proof (joint_move (unit_of aim) (unit_of speed) (flash_unit fl) (unit_of aim') (unit_of speed') (flash_unit fl') (unit_ge _) (unit_ge _) (rpow_nn _ _) (unit_ge _) (unit_ge _) (rpow_nn _ _)) as J.
  set (n' := joint_norm (unit_of aim') _ _) in *. set (n := joint_norm (unit_of aim) _ _) in *. set (D := _ + _ + Rabs (flash_unit fl' - flash_unit fl)) in *.
  replace (c * (27 / 1000) * (q * n' + 4) - c * (27 / 1000) * (q * n + 4)) with (c * (27 / 1000) * q * (n' - n)) by ring. assert (CQ : 0 <= c * (27 / 1000) * q <= 2276 / 100000). { split; [apply Rmult_le_pos; lra|]. apply Rle_trans with (1039 / 1000 * (27 / 1000) * (811 / 1000)); [|lra]. apply Rmult_le_compat; lra. }
  rewrite Rabs_mult, (Rabs_pos_eq _ (proj1 CQ)). apply Rmult_le_compat; auto using Rabs_pos; lra.
Qed.
Lemma unit_move r r' : Rabs (unit_of r' - unit_of r) <= 5 / (675 / 10000) * Rabs (Rmax r' (675 / 10000) - Rmax r (675 / 10000)).
Proof.
  assert (E : forall x, unit_of x = 5 / (675 / 10000) * Rmax x (675 / 10000) - 4). { intros x. unfold unit_of. unfold Rmax. destruct (Rle_dec 1 (x / (675 / 10000))), (Rle_dec x (675 / 10000)); lra. }
  rewrite !E. replace (5 / (675 / 10000) * Rmax r' (675 / 10000) - 4 - (5 / (675 / 10000) * Rmax r (675 / 10000) - 4)) with (5 / (675 / 10000) * (Rmax r' (675 / 10000) - Rmax r (675 / 10000))) by ring. rewrite Rabs_mult, Rabs_pos_eq by lra. apply Rle_refl.
Qed.
Lemma max_move x y c : Rabs (Rmax x c - Rmax y c) <= Rabs (x - y).
Proof. unfold Rmax, Rabs. destruct (Rle_dec x c), (Rle_dec y c); repeat destruct Rcase_abs; lra. Qed.

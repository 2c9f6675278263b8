(** How the pp formulas depend on OD and AR. *)
From Coq Require Import Reals Lra ZArith Lia.
From Flocq Require Import Core BinarySingleNaN.
From Verif Require Import SpecTempo SpecFormula RelPow PerfectProofs.
Open Scope R_scope.

(** The same play, on a map with other rates. *)
Definition rated (y : play) (ar od : R) : play :=
  mkPlay (y_aim y) (y_speed y) (y_fl y) (y_factor y) (y_sliders y) (y_spinners y) (y_most y) (y_combo y) (y_great y) (y_ok y) (y_meh y) (y_miss y) (y_total y) (y_breaks y) (y_judged y) ar od.
Definition level (y : play) : Prop :=
  1 <= y_total y /\ 0 <= accuracy y <= 1 /\ 0 <= y_factor y <= 1 /\ 0 <= y_judged y /\ y_ar y <= 13 /\ y_od y <= 14.

Ltac factors_nn := repeat match goal with |- 0 <= _ * _ => apply Rmult_le_pos end.
(** ** What does not depend on them *)
Definition aim_core (td : bool) (y : play) : R :=
  base_value (if td then rpow (y_aim y) (8 / 10) else y_aim y) * length_factor (y_total y) * miss_factor (y_breaks y) (y_total y) (y_breaks y) * combo_factor (y_combo y) (y_most y) *
  nerf (y_sliders y) (y_factor y) (Rmin (y_ok y + y_meh y + y_miss y) (y_most y - y_combo y)) * accuracy y.
Definition speed_core (y : play) : R :=
  base_value (y_speed y) * length_factor (y_total y) * miss_factor (y_breaks y) (y_total y) (rpow (y_breaks y) (875 / 1000)) * combo_factor (y_combo y) (y_most y) *
  Rpower (98 / 100) (Rmax 0 (y_meh y - y_total y / 500)).
Definition acc_core (hd fl : bool) (y : play) : R :=
  rpow (judged_accuracy y) 24 * (283 / 100) * Rmin (115 / 100) (rpow (y_judged y / 1000) (3 / 10)) * (if hd then 108 / 100 else 1) * (if fl then 102 / 100 else 1).
Definition fl_core (td hd : bool) (y : play) : R :=
  (if td then rpow (y_fl y) (8 / 10) else y_fl y) ^ 2 * 25 * (if hd then 13 / 10 else 1) * miss_factor (y_breaks y) (y_total y) (rpow (y_breaks y) (875 / 1000)) * combo_factor (y_combo y) (y_most y) *
  (7 / 10 + 1 / 10 * Rmin 1 (y_total y / 200) + 2 / 10 * Rmin 1 (Rmax 0 ((y_total y - 200) / 200))) * (5 / 10 + accuracy y / 2).
(** ** What does *)
Definition aim_ar (hd : bool) (l ar : R) : R := (1 + (ar_high ar + ar_low ar) * l) * hidden_factor hd ar.
Definition speed_ar (hd : bool) (l ar : R) : R := (1 + ar_high ar * l) * hidden_factor hd ar.
Definition aim_od (od : R) : R := 98 / 100 + od ^ 2 / 2500.
Definition speed_od (acc od : R) : R := (95 / 100 + od ^ 2 / 750) * rpow acc ((145 / 10 - Rmax od 8) / 2).
Lemma aim_split td hd y : aim_value td hd y = aim_core td y * aim_ar hd (length_factor (y_total y)) (y_ar y) * aim_od (y_od y).
Proof. unfold aim_value, aim_core, aim_ar, aim_od. ring. Qed.
Lemma speed_split hd y : speed_value hd y = speed_core y * speed_ar hd (length_factor (y_total y)) (y_ar y) * speed_od (accuracy y) (y_od y).
Proof. unfold speed_value, speed_core, speed_ar, speed_od. ring. Qed.
Lemma acc_split rx hd fl y : acc_value rx hd fl y = if rx then 0 else acc_core hd fl y * Rpower (152163 / 100000) (y_od y).
Proof. unfold acc_value, acc_core. destruct rx; [reflexivity|]. ring. Qed.
Lemma fl_split td hd fl y : fl_value td hd fl y = if fl then fl_core td hd y * aim_od (y_od y) else 0.
Proof. unfold fl_value, fl_core, aim_od. destruct fl; [|reflexivity]. ring. Qed.

Lemma miss_pos b t e : 0 < miss_factor b t e.
Proof. unfold miss_factor. destruct (Rlt_dec 0 b); [|lra]. unfold Rpower. pose proof (exp_pos (e * ln (miss_base b t))). lra. Qed.
Lemma combo_nn c m : 0 <= combo_factor c m.
Proof. unfold combo_factor. apply Rmin_glb; [lra|apply rp_nn]. Qed.
Lemma nerf_ge s f l : 0 <= f <= 1 -> f <= nerf s f l <= 1.
Proof.
  intros F. unfold nerf. destruct (Rlt_dec 0 s) as [S|S]; [|lra]. cbv zeta. set (h := 15 / 100 * s). assert (H : 0 < h) by (unfold h; lra). set (q := Rmin h (Rmax 0 l) / h).
  assert (Q : 0 <= q <= 1). { unfold q. split; [apply Rmult_le_pos; [apply Rmin_glb; [lra|apply Rmax_l]|left; now apply Rinv_0_lt_compat]|]. apply Rmult_le_reg_r with h; [exact H|]. unfold Rdiv. rewrite Rmult_assoc, Rinv_l by lra. pose proof (Rmin_l h (Rmax 0 l)). lra. }
  assert (P : 0 <= (1 - q) ^ 3 <= 1). { split; [apply pow_le; lra|]. replace 1 with (1 ^ 3) at 2 by ring. apply pow_incr. lra. }
  assert (0 <= (1 - f) * (1 - q) ^ 3 <= 1 - f) by (split; [apply Rmult_le_pos; lra|rewrite <- (Rmult_1_r (1 - f)) at 2; apply Rmult_le_compat_l; lra]). lra.
Qed.
Lemma cores_nn td hd fl y : level y -> 0 <= aim_core td y /\ 0 <= speed_core y /\ 0 <= acc_core hd fl y /\ 0 <= fl_core td hd y.
Proof.
  intros (T & A & F & J & _ & _). assert (L : 0 < length_factor (y_total y)) by (apply (length_le (y_total y) (y_total y)); lra). assert (B : forall x, 0 < base_value x) by (intros x; apply (base_le x x); lra).
  split; [|split; [|split]].
  - unfold aim_core. pose proof (nerf_ge (y_sliders y) (y_factor y) (Rmin (y_ok y + y_meh y + y_miss y) (y_most y - y_combo y)) F) as N.
    factors_nn; try lra; [left; apply B|left; apply miss_pos|apply combo_nn].
  - unfold speed_core. factors_nn; try lra; [left; apply B|left; apply miss_pos|apply combo_nn|unfold Rpower; left; apply exp_pos].
  - unfold acc_core. factors_nn; try lra; [apply rp_nn|apply Rmin_glb; [lra|apply rp_nn]|destruct hd; lra|destruct fl; lra].
  - unfold fl_core. assert (0 <= Rmin 1 (y_total y / 200)) by (apply Rmin_glb; lra). assert (0 <= Rmin 1 (Rmax 0 ((y_total y - 200) / 200))) by (apply Rmin_glb; [lra|apply Rmax_l]).
    factors_nn; try lra; [apply pow2_ge_0|destruct hd; lra|left; apply miss_pos|apply combo_nn].
Qed.
Lemma ar_factors hd l ar : 0 <= l -> ar <= 13 -> 0 < hidden_factor hd ar /\ 0 < speed_ar hd l ar /\ 0 < aim_ar hd l ar.
Proof.
  intros L A. assert (H : 0 < hidden_factor hd ar) by (unfold hidden_factor; destruct hd; lra). split; [exact H|].
  assert (0 <= ar_high ar) by (unfold ar_high; pose proof (Rmax_l 0 (ar - 1033 / 100)); lra). assert (0 <= ar_low ar) by (unfold ar_low; pose proof (Rmax_l 0 (8 - ar)); lra).
  assert (0 <= ar_high ar * l) by (apply Rmult_le_pos; lra). assert (0 <= (ar_high ar + ar_low ar) * l) by (apply Rmult_le_pos; lra). unfold speed_ar, aim_ar. split; apply Rmult_lt_0_compat; lra.
Qed.
(** ** OD *)
Lemma rp_anti x s t : 0 <= x <= 1 -> 0 <= s <= t -> rpow x t <= rpow x s.
Proof.
  intros X S. unfold rpow. destruct (Req_EM_T x 0); [lra|]. unfold Rpower. assert (L : ln x <= 0) by (destruct (Req_dec x 1) as [->|]; [rewrite ln_1; lra|left; rewrite <- ln_1; apply ln_increasing; lra]).
  assert (Q : t * ln x <= s * ln x). { assert (0 <= (t - s) * - ln x) by (apply Rmult_le_pos; lra). lra. } destruct Q as [Q|Q]; [left; now apply exp_increasing|rewrite Q; lra].
Qed.
Lemma aim_od_le x y : 0 <= x <= y -> 0 < aim_od x <= aim_od y.
Proof. intros H. unfold aim_od. assert (0 <= x ^ 2 <= y ^ 2) by (split; [apply pow2_ge_0|apply pow_incr; lra]). lra. Qed.
Lemma speed_od_le acc x y : 0 <= acc <= 1 -> 0 <= x <= y -> y <= 14 -> 0 <= speed_od acc x <= speed_od acc y.
Proof.
  intros A H Y. unfold speed_od. assert (0 <= x ^ 2 <= y ^ 2) by (split; [apply pow2_ge_0|apply pow_incr; lra]). apply prod_le; [lra|]. split; [apply rp_nn|]. apply rp_anti; [exact A|].
  assert (Rmax y 8 <= 14) by (apply Rmax_lub; lra). assert (Rmax x 8 <= Rmax y 8) by (apply Rle_max_compat_r; lra). lra.
Qed.
(** [y'] is worth at least as much as [y], in every way. *)
Definition worth_no_less (td rx hd fl : bool) (y y' : play) : Prop :=
  0 <= aim_value td hd y <= aim_value td hd y' /\ 0 <= speed_value hd y <= speed_value hd y' /\ 0 <= acc_value rx hd fl y <= acc_value rx hd fl y' /\ 0 <= fl_value td hd fl y <= fl_value td hd fl y'.
Lemma od_grows td rx hd fl y od : level y -> 0 <= y_od y <= od -> od <= 14 -> worth_no_less td rx hd fl y (rated y (y_ar y) od).
Proof.
  intros LV O O'. pose proof (cores_nn td hd fl y LV) as (C1 & C2 & C3 & C4). destruct LV as (T & A & _ & _ & AR & _). assert (L : 0 < length_factor (y_total y)) by (apply (length_le (y_total y) (y_total y)); lra).
  destruct (ar_factors hd (length_factor (y_total y)) (y_ar y) ltac:(lra) AR) as (_ & S & I). unfold worth_no_less. rewrite !aim_split, !speed_split, !acc_split, !fl_split.
  change (aim_core td (rated y (y_ar y) od)) with (aim_core td y). change (speed_core (rated y (y_ar y) od)) with (speed_core y). change (acc_core hd fl (rated y (y_ar y) od)) with (acc_core hd fl y). change (fl_core td hd (rated y (y_ar y) od)) with (fl_core td hd y).
  change (accuracy (rated y (y_ar y) od)) with (accuracy y). cbn [rated y_ar y_od y_total]. pose proof (aim_od_le _ _ O) as OA. pose proof (speed_od_le _ _ _ A O O') as OS.
  split; [apply prod_le; [split; [apply Rmult_le_pos; lra|lra]|lra]|]. split; [apply prod_le; [split; [apply Rmult_le_pos; lra|lra]|exact OS]|]. split.
  - destruct rx; [lra|]. apply prod_le; [lra|]. unfold Rpower. split; [left; apply exp_pos|]. assert (LN : 0 < ln (152163 / 100000)) by (rewrite <- ln_1; apply ln_increasing; lra).
    assert (Q : y_od y * ln (152163 / 100000) <= od * ln (152163 / 100000)) by (apply Rmult_le_compat_r; lra). destruct Q as [Q|Q]; [left; now apply exp_increasing|rewrite Q; lra].
  - destruct fl; [|lra]. apply prod_le; lra.
Qed.
(** Below 0 it is the square that counts: with Relax, where there is no accuracy value, less is more. *)
Lemma od_below td hd fl y od : level y -> -1 <= y_od y <= 1 -> od <= -3 -> let m := 10032 / 10000 in
  (0 <= aim_value td hd y /\ aim_value td hd y * m <= aim_value td hd (rated y (y_ar y) od)) /\ (0 <= speed_value hd y /\ speed_value hd y * m <= speed_value hd (rated y (y_ar y) od)) /\
  (0 <= fl_value td hd fl y /\ fl_value td hd fl y * m <= fl_value td hd fl (rated y (y_ar y) od)).
Proof.
  intros LV O O' m. pose proof (cores_nn td hd fl y LV) as (C1 & C2 & C3 & C4). destruct LV as (T & A & _ & _ & AR & _). assert (L : 0 < length_factor (y_total y)) by (apply (length_le (y_total y) (y_total y)); lra).
  destruct (ar_factors hd (length_factor (y_total y)) (y_ar y) ltac:(lra) AR) as (_ & S & I). rewrite !aim_split, !speed_split, !fl_split.
  change (aim_core td (rated y (y_ar y) od)) with (aim_core td y). change (speed_core (rated y (y_ar y) od)) with (speed_core y). change (fl_core td hd (rated y (y_ar y) od)) with (fl_core td hd y).
  change (accuracy (rated y (y_ar y) od)) with (accuracy y). cbn [rated y_ar y_od y_total].
  assert (SQ : 0 <= y_od y ^ 2 <= 1). { split; [apply pow2_ge_0|]. rewrite <- pow2_abs. replace 1 with (1 ^ 2) by ring. apply pow_incr. split; [apply Rabs_pos|apply Rabs_le; lra]. }
  assert (SQ' : 9 <= od ^ 2). { replace (od ^ 2) with ((- od) ^ 2) by ring. replace 9 with (3 ^ 2) by ring. apply pow_incr. lra. }
  assert (OA : 0 < aim_od (y_od y) /\ aim_od (y_od y) * m <= aim_od od) by (unfold aim_od, m; lra).
  assert (OS : 0 <= speed_od (accuracy y) (y_od y) /\ speed_od (accuracy y) (y_od y) * m <= speed_od (accuracy y) od).
  { unfold speed_od. rewrite (Rmax_right (y_od y) 8), (Rmax_right od 8) by lra. set (r := rpow _ _). assert (0 <= r) by apply rp_nn. split; [apply Rmult_le_pos; lra|].
    replace ((95 / 100 + y_od y ^ 2 / 750) * r * m) with ((95 / 100 + y_od y ^ 2 / 750) * m * r) by ring. apply Rmult_le_compat_r; [lra|]. unfold m. lra. }
  assert (P : forall a b c, 0 <= a -> b * m <= c -> a * b * m <= a * c). { intros a b c A0 H. rewrite Rmult_assoc. apply Rmult_le_compat_l; lra. }
  split; [split; [factors_nn; lra|apply P; [apply Rmult_le_pos; lra|lra]]|]. split; [split; [factors_nn; lra|apply P; [apply Rmult_le_pos; lra|lra]]|].
  destruct fl; [|lra]. split; [apply Rmult_le_pos; lra|apply P; lra].
Qed.
(** ** AR *)
Lemma ar_up l x y : 0 <= l -> 8 <= x <= y -> y <= 13 -> aim_ar false l x <= aim_ar false l y /\ speed_ar false l x <= speed_ar false l y.
Proof.
  intros L H Y. unfold aim_ar, speed_ar, ar_low, hidden_factor, ar_high. rewrite (Rmax_left 0 (8 - x)), (Rmax_left 0 (8 - y)) by lra.
  assert (Rmax 0 (x - 1033 / 100) <= Rmax 0 (y - 1033 / 100)) by (apply Rle_max_compat_l; lra). assert (3 / 10 * Rmax 0 (x - 1033 / 100) * l <= 3 / 10 * Rmax 0 (y - 1033 / 100) * l) by (apply Rmult_le_compat_r; lra). lra.
Qed.
Lemma ar_down hd l x y : 0 <= l -> x <= y -> y <= 1033 / 100 -> aim_ar hd l y <= aim_ar hd l x /\ speed_ar hd l y <= speed_ar hd l x.
Proof.
  intros L H Y. unfold aim_ar, speed_ar, ar_high. rewrite (Rmax_left 0 (x - 1033 / 100)), (Rmax_left 0 (y - 1033 / 100)) by lra.
  assert (HD : 0 < hidden_factor hd y <= hidden_factor hd x) by (unfold hidden_factor; destruct hd; lra). assert (0 <= ar_low y <= ar_low x).
  { unfold ar_low. pose proof (Rmax_l 0 (8 - y)). assert (Rmax 0 (8 - y) <= Rmax 0 (8 - x)) by (apply Rle_max_compat_l; lra). lra. }
  assert (0 <= ar_low y * l <= ar_low x * l) by (split; [apply Rmult_le_pos; lra|apply Rmult_le_compat_r; lra]). split; [apply Rmult_le_compat; lra|lra].
Qed.
Lemma ar_changes td rx hd fl y ar : level y -> ar <= 13 -> let l := length_factor (y_total y) in
  (aim_ar hd l (y_ar y) <= aim_ar hd l ar /\ speed_ar hd l (y_ar y) <= speed_ar hd l ar -> worth_no_less td rx hd fl y (rated y ar (y_od y))) /\
  (aim_ar hd l ar <= aim_ar hd l (y_ar y) /\ speed_ar hd l ar <= speed_ar hd l (y_ar y) -> worth_no_less td rx hd fl (rated y ar (y_od y)) y).
Proof.
  intros LV AR' l. pose proof (cores_nn td hd fl y LV) as (C1 & C2 & C3 & C4). destruct LV as (T & A & _ & _ & AR & _). assert (L : 0 < length_factor (y_total y)) by (apply (length_le (y_total y) (y_total y)); lra). fold l in L.
  destruct (ar_factors hd l (y_ar y) ltac:(lra) AR) as (_ & S & I). destruct (ar_factors hd l ar ltac:(lra) AR') as (_ & S' & I'). unfold worth_no_less. rewrite !aim_split, !speed_split, !acc_split, !fl_split.
  change (aim_core td (rated y ar (y_od y))) with (aim_core td y). change (speed_core (rated y ar (y_od y))) with (speed_core y). change (acc_core hd fl (rated y ar (y_od y))) with (acc_core hd fl y). change (fl_core td hd (rated y ar (y_od y))) with (fl_core td hd y).
  change (accuracy (rated y ar (y_od y))) with (accuracy y). cbn [rated y_ar y_od y_total]. fold l.
  assert (OA : 0 < aim_od (y_od y)) by (unfold aim_od; pose proof (pow2_ge_0 (y_od y)); lra). assert (OS : 0 <= speed_od (accuracy y) (y_od y)) by (unfold speed_od; pose proof (pow2_ge_0 (y_od y)); apply Rmult_le_pos; [lra|apply rp_nn]).
  assert (X : 0 <= (if rx then 0 else acc_core hd fl y * Rpower (152163 / 100000) (y_od y))) by (destruct rx; [lra|apply Rmult_le_pos; [lra|unfold Rpower; left; apply exp_pos]]).
  assert (Y : 0 <= (if fl then fl_core td hd y * aim_od (y_od y) else 0)) by (destruct fl; [apply Rmult_le_pos; lra|lra]).
  split; intros (H1 & H2); (split; [apply prod_le; [apply prod_le; lra|lra]|]); (split; [apply prod_le; [apply prod_le; lra|lra]|]); lra.
Qed.

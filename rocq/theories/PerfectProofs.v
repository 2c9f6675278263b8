(** The pp formulas for a play without a fault. *)
From Coq Require Import Reals Lra ZArith Lia.
From Flocq Require Import Core BinarySingleNaN.
From Verif Require Import SpecTempo SpecFormula RelPow.
Open Scope R_scope.

Lemma rp_le x y s : 0 <= x <= y -> 0 <= s -> rpow x s <= rpow y s.
Proof.
  intros (X & XY) P. unfold rpow. destruct (Req_EM_T x 0) as [->|NX]; destruct (Req_EM_T y 0) as [->|NY]; try lra; [unfold Rpower; left; apply exp_pos|].
  unfold Rpower. destruct (Req_dec (s * ln x) (s * ln y)) as [E|NE]; [rewrite E; lra|]. left. apply exp_increasing.
  assert (L : ln x <= ln y) by (destruct (Req_dec x y) as [->|]; [lra|left; apply ln_increasing; lra]). assert (s * ln x <= s * ln y) by (apply Rmult_le_compat_l; lra). lra.
Qed.
Lemma rp_nn x s : 0 <= rpow x s.
Proof. unfold rpow. destruct (Req_EM_T x 0); [lra|]. unfold Rpower. left. apply exp_pos. Qed.
Lemma rp_1 s : rpow 1 s = 1.
Proof. rewrite rpow_pos by lra. unfold Rpower. now rewrite ln_1, Rmult_0_r, exp_0. Qed.
Lemma base_le x y : x <= y -> 0 < base_value x <= base_value y.
Proof.
  intros H. unfold base_value. set (a := Rmax 1 (x / (675 / 10000))). set (b := Rmax 1 (y / (675 / 10000))). assert (1 <= a <= b) by (unfold a, b, Rmax; destruct (Rle_dec 1 (x / _)); destruct (Rle_dec 1 (y / _)); lra).
  assert (0 < (5 * a - 4) ^ 3) by (apply pow_lt; lra). assert ((5 * a - 4) ^ 3 <= (5 * b - 4) ^ 3) by (apply pow_incr; lra). lra.
Qed.
Lemma log10_nn x : 1 <= x -> 0 <= log10 x.
Proof. intros H. unfold log10. assert (0 < ln 10) by (rewrite <- ln_1; apply ln_increasing; lra). assert (0 <= ln x) by (destruct (Req_dec x 1) as [->|]; [rewrite ln_1; lra|left; rewrite <- ln_1; apply ln_increasing; lra]). apply Rmult_le_pos; [lra|left; now apply Rinv_0_lt_compat]. Qed.
Lemma log10_le x y : 0 < x <= y -> log10 x <= log10 y.
Proof. intros H. unfold log10. assert (0 < ln 10) by (rewrite <- ln_1; apply ln_increasing; lra). apply Rmult_le_compat_r; [left; now apply Rinv_0_lt_compat|]. destruct (Req_dec x y) as [->|]; [lra|left; apply ln_increasing; lra]. Qed.
Lemma length_le s t : 0 <= s <= t -> 0 < length_factor s <= length_factor t.
Proof.
  intros H. unfold length_factor. assert (M : Rmin 1 (s / 2000) <= Rmin 1 (t / 2000)) by (unfold Rmin; destruct (Rle_dec 1 (s / 2000)); destruct (Rle_dec 1 (t / 2000)); lra). assert (0 <= Rmin 1 (s / 2000)) by (unfold Rmin; destruct (Rle_dec _ _); lra).
  destruct (Rlt_dec 2000 s) as [A|A]; destruct (Rlt_dec 2000 t) as [B|B]; try lra.
  - pose proof (log10_nn (s / 2000) ltac:(lra)). pose proof (log10_le (s / 2000) (t / 2000) ltac:(lra)). lra.
  - pose proof (log10_nn (t / 2000) ltac:(lra)). lra.
Qed.
Lemma prod_le a b c d : 0 <= a <= b -> 0 <= c <= d -> 0 <= a * c <= b * d.
Proof. intros. split; [apply Rmult_le_pos; lra|apply Rmult_le_compat; lra]. Qed.

(** A play with nothing but 300s and no break in the combo. *)
Definition faultless (y : play) : Prop :=
  1 <= y_most y /\ y_combo y = y_most y /\ y_ok y = 0 /\ y_meh y = 0 /\ y_miss y = 0 /\ y_breaks y = 0 /\ 1 <= y_total y /\ y_great y = y_total y /\ 0 <= y_judged y.
Lemma faultless_parts y : faultless y -> accuracy y = 1 /\ combo_factor (y_combo y) (y_most y) = 1 /\ (forall t e, miss_factor (y_breaks y) t e = 1) /\
  nerf (y_sliders y) (y_factor y) (Rmin (y_ok y + y_meh y + y_miss y) (y_most y - y_combo y)) = 1 /\
  Rpower (98 / 100) (Rmax 0 (y_meh y - y_total y / 500)) = 1 /\ judged_accuracy y = if Rlt_dec 0 (y_judged y) then 1 else 0.
Proof.
  intros (C1 & C & O & ME & MI & B & T & G & J). unfold accuracy, combo_factor, miss_factor, nerf, judged_accuracy. rewrite C, O, ME, MI, B, G.
  split; [field; lra|]. split; [replace (y_most y / y_most y) with 1 by (field; lra); rewrite rp_1; apply Rmin_left; lra|]. split; [intros; destruct (Rlt_dec 0 0); lra|]. split.
  - destruct (Rlt_dec 0 (y_sliders y)) as [S|S]; [|reflexivity]. cbv zeta. replace (y_most y - y_most y) with 0 by ring. rewrite (Rmin_left (0 + 0 + 0) 0) by lra. rewrite (Rmax_left 0 (0 + 0 + 0)) by lra. rewrite Rmin_right by lra. field. lra.
  - split; [rewrite Rmax_left by lra; unfold Rpower; now rewrite Rmult_0_l, exp_0|]. destruct (Rlt_dec 0 (y_judged y)) as [P|P]; [|reflexivity]. match goal with |- Rmax 0 ?q = _ => replace q with 1 by (field; lra) end. apply Rmax_right. lra.
Qed.
(** [y'] is as [y] but of a map that goes on. *)
Definition goes_on_as (y y' : play) : Prop :=
  0 <= y_aim y <= y_aim y' /\ 0 <= y_speed y <= y_speed y' /\ 0 <= y_fl y <= y_fl y' /\ y_total y <= y_total y' /\ y_judged y <= y_judged y' /\ y_ar y' = y_ar y /\ y_od y' = y_od y.
Section Two.
Context (y y' : play) (F : faultless y) (F' : faultless y') (G : goes_on_as y y') (AR : y_ar y <= 13) (OD : y_od y <= 14).
Lemma lf_le : 0 < length_factor (y_total y) <= length_factor (y_total y').
Proof. destruct F as (_ & _ & _ & _ & _ & _ & T & _). destruct G as (_ & _ & _ & X & _). apply length_le. lra. Qed.
Lemma ar_nn : 0 <= ar_high (y_ar y) /\ 0 <= ar_low (y_ar y).
Proof. unfold ar_high, ar_low. pose proof (Rmax_l 0 (y_ar y - 1033 / 100)). pose proof (Rmax_l 0 (8 - y_ar y)). lra. Qed.
Lemma hd_pos b : 0 < hidden_factor b (y_ar y).
Proof. unfold hidden_factor. destruct b; lra. Qed.
Lemma aim_grows td hd : 0 <= aim_value td hd y <= aim_value td hd y'.
Proof.
  destruct (faultless_parts y F) as (A1 & A2 & A3 & A4 & _). destruct (faultless_parts y' F') as (B1 & B2 & B3 & B4 & _). pose proof lf_le as L. destruct ar_nn as (N1 & N2). pose proof (hd_pos hd) as HP. destruct G as (GA & _ & _ & _ & _ & EA & EO).
  unfold aim_value. rewrite A1, A2, A3, A4, B1, B2, B3, B4, EA, EO. pose proof (pow2_ge_0 (y_od y)) as O2. rewrite !Rmult_1_r.
  assert (AL : 0 <= (ar_high (y_ar y) + ar_low (y_ar y)) * length_factor (y_total y) <= (ar_high (y_ar y) + ar_low (y_ar y)) * length_factor (y_total y')) by (apply prod_le; lra).
  apply prod_le; [|lra]. apply prod_le; [|lra]. apply prod_le; [|lra]. apply prod_le; [|lra].
  assert (X : forall u v, u <= v -> 0 <= base_value u <= base_value v) by (intros u v H; pose proof (base_le u v H); lra). apply X. destruct td; [apply rp_le; lra|lra].
Qed.
Lemma speed_grows hd : 0 <= speed_value hd y <= speed_value hd y'.
Proof.
  destruct (faultless_parts y F) as (A1 & A2 & A3 & _ & A5 & _). destruct (faultless_parts y' F') as (B1 & B2 & B3 & _ & B5 & _). pose proof lf_le as L. destruct ar_nn as (N1 & N2). pose proof (hd_pos hd) as HP. destruct G as (_ & GS & _ & _ & _ & EA & EO).
  unfold speed_value. rewrite A1, A2, A3, A5, B1, B2, B3, B5, EA, EO, rp_1. pose proof (pow2_ge_0 (y_od y)) as O2. rewrite !Rmult_1_r.
  assert (AL : 0 <= ar_high (y_ar y) * length_factor (y_total y) <= ar_high (y_ar y) * length_factor (y_total y')) by (apply prod_le; lra).
  apply prod_le; [|lra]. apply prod_le; [|lra]. apply prod_le; [|lra]. apply prod_le; [|lra].
  pose proof (base_le (y_speed y) (y_speed y') (proj2 GS)). lra.
Qed.
Lemma acc_grows rx hd fl : 0 <= acc_value rx hd fl y <= acc_value rx hd fl y'.
Proof.
  destruct (faultless_parts y F) as (_ & _ & _ & _ & _ & A6). destruct (faultless_parts y' F') as (_ & _ & _ & _ & _ & B6). destruct F as (_ & _ & _ & _ & _ & _ & _ & _ & J). destruct G as (_ & _ & _ & _ & GJ & EA & EO).
  unfold acc_value. destruct rx; [lra|]. rewrite A6, B6, EO. assert (P : 0 < Rpower (152163 / 100000) (y_od y)) by (unfold Rpower; apply exp_pos).
  assert (Q : 0 <= rpow (if Rlt_dec 0 (y_judged y) then 1 else 0) 24 <= rpow (if Rlt_dec 0 (y_judged y') then 1 else 0) 24).
  { split; [apply rp_nn|]. apply rp_le; [|lra]. destruct (Rlt_dec 0 (y_judged y)); destruct (Rlt_dec 0 (y_judged y')); lra. }
  assert (W : 0 <= rpow (y_judged y / 1000) (3 / 10) <= rpow (y_judged y' / 1000) (3 / 10)) by (split; [apply rp_nn|apply rp_le; lra]).
  apply prod_le; [|destruct fl; lra]. apply prod_le; [|destruct hd; lra]. apply prod_le; [|unfold Rmin; destruct (Rle_dec _ _); destruct (Rle_dec _ _); lra]. apply prod_le; [|lra]. apply prod_le; [lra|exact Q].
Qed.
Lemma fl_grows td hd fl : 0 <= fl_value td hd fl y <= fl_value td hd fl y'.
Proof.
  destruct (faultless_parts y F) as (A1 & A2 & A3 & _). destruct (faultless_parts y' F') as (B1 & B2 & B3 & _). destruct G as (_ & _ & GF & GT & _ & EA & EO). destruct F as (_ & _ & _ & _ & _ & _ & T1 & _).
  unfold fl_value. destruct fl; [|lra]. rewrite A1, A2, A3, B1, B2, B3, EO, !Rmult_1_r. pose proof (pow2_ge_0 (y_od y)) as O2.
  assert (P : 0 <= (if td then rpow (y_fl y) (8 / 10) else y_fl y) <= (if td then rpow (y_fl y') (8 / 10) else y_fl y')) by (destruct td; [split; [apply rp_nn|apply rp_le; lra]|lra]).
  apply prod_le; [|lra]. apply prod_le; [|lra]. apply prod_le.
  - apply prod_le; [|destruct hd; lra]. apply prod_le; [|lra]. split; [apply pow2_ge_0|now apply pow_incr].
  - set (t := y_total y) in *. set (t' := y_total y') in *. unfold Rmin, Rmax. repeat destruct (Rle_dec _ _); lra.
Qed.
End Two.
Lemma total_grows a s c f a' s' c' f' k : 0 <= a <= a' -> 0 <= s <= s' -> 0 <= c <= c' -> 0 <= f <= f' -> 0 <= k -> 0 <= total_value a s c f k <= total_value a' s' c' f' k.
Proof.
  intros A S C F K. unfold total_value. apply prod_le; [|lra]. split; [apply rp_nn|]. apply rp_le; [|lra].
  pose proof (rp_le a a' (11 / 10) A ltac:(lra)). pose proof (rp_le s s' (11 / 10) S ltac:(lra)). pose proof (rp_le c c' (11 / 10) C ltac:(lra)). pose proof (rp_le f f' (11 / 10) F ltac:(lra)).
  pose proof (rp_nn a (11 / 10)). pose proof (rp_nn s (11 / 10)). pose proof (rp_nn c (11 / 10)). pose proof (rp_nn f (11 / 10)). lra.
Qed.

(** One more object: what it can add, if the ratings stay. *)
Definition one_more (y y' : play) : Prop :=
  y_aim y' = y_aim y /\ y_speed y' = y_speed y /\ y_fl y' = y_fl y /\ y_total y' = y_total y + 1 /\ y_total y' <= 100 /\ y_judged y' = y_judged y /\ y_ar y' = y_ar y /\ y_od y' = y_od y /\ 0 <= y_fl y.
Definition bit : R := 1 + / 1000.
Section More.
Context (y y' : play) (F : faultless y) (F' : faultless y') (G : one_more y y') (AR : y_ar y <= 13).
Lemma lf_more : 0 < length_factor (y_total y) /\ length_factor (y_total y') <= length_factor (y_total y) * (1 + / 4000).
Proof.
  destruct F as (_ & _ & _ & _ & _ & _ & T & _). destruct G as (_ & _ & _ & X & Y & _). rewrite X in *. unfold length_factor. destruct (Rlt_dec 2000 (y_total y)); [lra|]. destruct (Rlt_dec 2000 (y_total y + 1)); [lra|]. rewrite !Rmin_right by lra. lra.
Qed.
Lemma ar_more r : 0 <= r -> 0 < 1 + r * length_factor (y_total y) /\ 1 + r * length_factor (y_total y') <= (1 + r * length_factor (y_total y)) * (1 + / 4000).
Proof.
  intros R. destruct lf_more as (L & M). assert (r * length_factor (y_total y') <= r * (length_factor (y_total y) * (1 + / 4000))) by (apply Rmult_le_compat_l; lra). assert (0 <= r * length_factor (y_total y)) by (apply Rmult_le_pos; lra). lra.
Qed.
Lemma scaled a b c d k l m : 0 <= a <= b * k -> 0 <= c <= d * l -> 0 <= b -> 0 <= d -> k * l <= m -> 0 <= a * c <= b * d * m.
Proof.
  intros A C B D K. split; [apply Rmult_le_pos; lra|]. apply Rle_trans with (b * k * (d * l)); [apply Rmult_le_compat; lra|]. replace (b * k * (d * l)) with (b * d * (k * l)) by ring. apply Rmult_le_compat_l; [now apply Rmult_le_pos|exact K].
Qed.
Lemma lf_in : 0 <= length_factor (y_total y') .
Proof. destruct F' as (_ & _ & _ & _ & _ & _ & T & _). pose proof (length_le (y_total y') (y_total y') ltac:(lra)). lra. Qed.
Lemma aim_more td hd : 0 <= aim_value td hd y /\ 0 <= aim_value td hd y' <= aim_value td hd y * bit.
Proof.
  destruct (faultless_parts y F) as (A1 & A2 & A3 & A4 & _). destruct (faultless_parts y' F') as (B1 & B2 & B3 & B4 & _). destruct lf_more as (L & L'). pose proof lf_in as L0. destruct (ar_nn y) as (N1 & N2). pose proof (hd_pos y AR hd) as HP. destruct G as (GA & _ & _ & _ & _ & _ & EA & EO & _).
  unfold aim_value. rewrite A1, A2, A3, A4, B1, B2, B3, B4, EA, EO, GA. pose proof (pow2_ge_0 (y_od y)) as O2. rewrite !Rmult_1_r. destruct (ar_more (ar_high (y_ar y) + ar_low (y_ar y)) ltac:(lra)) as (M1 & M2).
  set (p := base_value _). assert (P : 0 < p) by (unfold p; pose proof (base_le _ _ (Rle_refl (if td then rpow (y_aim y) (8 / 10) else y_aim y))); lra). clearbody p.
  set (l := length_factor (y_total y)) in *. set (l' := length_factor (y_total y')) in *. set (q := 1 + _ * l) in *. set (q' := 1 + _ * l') in *. assert (Q0 : 0 <= q') by (unfold q'; assert (0 <= (ar_high (y_ar y) + ar_low (y_ar y)) * l') by (apply Rmult_le_pos; lra); lra). clearbody q q'.
  set (h := hidden_factor hd (y_ar y)) in *. set (o := 98 / 100 + _) in *. assert (O0 : 0 < o) by (unfold o; lra). clearbody h o l l'.
  assert (X1 : 0 <= p * l' <= p * l * (1 + / 4000)) by (apply (scaled p p l' l 1 (1 + / 4000)); lra). assert (PL : 0 <= p * l) by (apply Rmult_le_pos; lra).
  assert (X2 : 0 <= p * l' * q' <= p * l * q * (1 + 6 / 10000)) by (apply (scaled _ _ _ _ (1 + / 4000) (1 + / 4000)); lra). assert (PQ : 0 <= p * l * q) by (apply Rmult_le_pos; lra).
  assert (X3 : 0 <= p * l' * q' * h <= p * l * q * h * (1 + 6 / 10000)) by (apply (scaled _ _ _ _ (1 + 6 / 10000) 1); lra). assert (PH : 0 <= p * l * q * h) by (apply Rmult_le_pos; lra).
  assert (PO : 0 <= p * l * q * h * o) by (apply Rmult_le_pos; lra). split; [exact PO|]. apply (scaled _ _ _ _ (1 + 6 / 10000) 1); unfold bit; lra.
Qed.
Lemma speed_more hd : 0 <= speed_value hd y /\ 0 <= speed_value hd y' <= speed_value hd y * bit.
Proof.
  destruct (faultless_parts y F) as (A1 & A2 & A3 & _ & A5 & _). destruct (faultless_parts y' F') as (B1 & B2 & B3 & _ & B5 & _). destruct lf_more as (L & L'). pose proof lf_in as L0. destruct (ar_nn y) as (N1 & N2). pose proof (hd_pos y AR hd) as HP. destruct G as (_ & GS & _ & _ & _ & _ & EA & EO & _).
  unfold speed_value. rewrite A1, A2, A3, A5, B1, B2, B3, B5, EA, EO, GS, rp_1. pose proof (pow2_ge_0 (y_od y)) as O2. rewrite !Rmult_1_r. destruct (ar_more (ar_high (y_ar y)) ltac:(lra)) as (M1 & M2).
  set (p := base_value _). assert (P : 0 < p) by (unfold p; pose proof (base_le _ _ (Rle_refl (y_speed y))); lra). clearbody p.
  set (l := length_factor (y_total y)) in *. set (l' := length_factor (y_total y')) in *. set (q := 1 + _ * l) in *. set (q' := 1 + _ * l') in *. assert (Q0 : 0 <= q') by (unfold q'; assert (0 <= ar_high (y_ar y) * l') by (apply Rmult_le_pos; lra); lra). clearbody q q'.
  set (h := hidden_factor hd (y_ar y)) in *. set (o := 95 / 100 + _ / 750) in *. assert (O0 : 0 < o) by (unfold o; lra). clearbody h o l l'.
  assert (X1 : 0 <= p * l' <= p * l * (1 + / 4000)) by (apply (scaled p p l' l 1 (1 + / 4000)); lra). assert (PL : 0 <= p * l) by (apply Rmult_le_pos; lra).
  assert (X2 : 0 <= p * l' * q' <= p * l * q * (1 + 6 / 10000)) by (apply (scaled _ _ _ _ (1 + / 4000) (1 + / 4000)); lra). assert (PQ : 0 <= p * l * q) by (apply Rmult_le_pos; lra).
  assert (X3 : 0 <= p * l' * q' * h <= p * l * q * h * (1 + 6 / 10000)) by (apply (scaled _ _ _ _ (1 + 6 / 10000) 1); lra). assert (PH : 0 <= p * l * q * h) by (apply Rmult_le_pos; lra).
  assert (PO : 0 <= p * l * q * h * o) by (apply Rmult_le_pos; lra). split; [exact PO|]. apply (scaled _ _ _ _ (1 + 6 / 10000) 1); unfold bit; lra.
Qed.
Lemma acc_more rx hd fl : 0 <= acc_value rx hd fl y /\ 0 <= acc_value rx hd fl y' <= acc_value rx hd fl y * bit.
Proof.
  destruct (faultless_parts y F) as (_ & _ & _ & _ & _ & A6). destruct (faultless_parts y' F') as (_ & _ & _ & _ & _ & B6). destruct G as (_ & _ & _ & _ & _ & GJ & _ & EO & _).
  assert (E : acc_value rx hd fl y' = acc_value rx hd fl y) by (unfold acc_value; now rewrite A6, B6, EO, GJ). rewrite E.
  assert (P : 0 <= acc_value rx hd fl y); [|unfold bit; lra]. unfold acc_value. destruct rx; [lra|]. assert (P : 0 < Rpower (152163 / 100000) (y_od y)) by (unfold Rpower; apply exp_pos). pose proof (rp_nn (judged_accuracy y) 24). pose proof (rp_nn (y_judged y / 1000) (3 / 10)).
  apply Rmult_le_pos; [|destruct fl; lra]. apply Rmult_le_pos; [|destruct hd; lra]. apply Rmult_le_pos; [|unfold Rmin; destruct (Rle_dec _ _); lra]. apply Rmult_le_pos; [|lra]. apply Rmult_le_pos; lra.
Qed.
Lemma fl_more td hd fl : 0 <= fl_value td hd fl y /\ 0 <= fl_value td hd fl y' <= fl_value td hd fl y * bit.
Proof.
  destruct (faultless_parts y F) as (A1 & A2 & A3 & _). destruct (faultless_parts y' F') as (B1 & B2 & B3 & _). destruct G as (_ & _ & GF & GT & GT' & _ & EA & EO & _). destruct F as (_ & _ & _ & _ & _ & _ & T1 & _).
  unfold fl_value. destruct fl; [|unfold bit; lra]. rewrite A1, A2, A3, B1, B2, B3, EO, GF, !Rmult_1_r. pose proof (pow2_ge_0 (y_od y)) as O2.
  set (p := (if td then _ else _) ^ 2 * 25 * _). assert (P : 0 <= p). { unfold p. apply Rmult_le_pos; [|destruct hd; lra]. apply Rmult_le_pos; [apply pow2_ge_0|lra]. } clearbody p.
  set (o := 98 / 100 + _) in *. assert (O0 : 0 < o) by (unfold o; lra). clearbody o. rewrite GT in *. set (t := y_total y) in *. rewrite !(Rmin_right 1 (_ / 200)) by lra. rewrite !(Rmax_left 0 (_ / 200)) by lra. rewrite !(Rmin_right 1 0) by lra.
  set (q := 7 / 10 + 1 / 10 * (t / 200) + 2 / 10 * 0). set (q' := 7 / 10 + 1 / 10 * ((t + 1) / 200) + 2 / 10 * 0). assert (Q : 0 <= q' <= q * (1 + 8 / 10000)) by (unfold q, q'; lra). assert (Q0 : 0 <= q) by (unfold q; lra). clearbody q q'.
  assert (X1 : 0 <= p * q' <= p * q * (1 + 8 / 10000)) by (apply (scaled _ _ _ _ 1 (1 + 8 / 10000)); lra). assert (PQ : 0 <= p * q) by (apply Rmult_le_pos; lra).
  assert (X2 : 0 <= p * q' * (5 / 10 + 1 / 2) <= p * q * (5 / 10 + 1 / 2) * (1 + 8 / 10000)) by (apply (scaled _ _ _ _ (1 + 8 / 10000) 1); lra). assert (PQ2 : 0 <= p * q * (5 / 10 + 1 / 2)) by (apply Rmult_le_pos; lra).
  split; [apply Rmult_le_pos; lra|]. apply (scaled _ _ _ _ (1 + 8 / 10000) 1); unfold bit; lra.
Qed.
End More.
Lemma rp_scale c x s : 0 < c -> 0 <= x -> rpow (x * c) s = rpow x s * Rpower c s.
Proof.
  intros C X. unfold rpow. destruct (Req_EM_T x 0) as [->|N]; [rewrite Rmult_0_l; destruct (Req_EM_T 0 0); lra|]. destruct (Req_EM_T (x * c) 0) as [E|_]; [apply Rmult_integral in E; lra|]. rewrite Rpower_mult_distr; [reflexivity|lra|lra].
Qed.
Lemma total_scale a s c f m k : 0 < m -> 0 <= a -> 0 <= s -> 0 <= c -> 0 <= f -> total_value (a * m) (s * m) (c * m) (f * m) k = total_value a s c f k * m.
Proof.
  intros P A S C F. unfold total_value. rewrite !rp_scale by assumption. set (w := Rpower m (11 / 10)). pose proof (rp_nn a (11 / 10)). pose proof (rp_nn s (11 / 10)). pose proof (rp_nn c (11 / 10)). pose proof (rp_nn f (11 / 10)).
  replace (rpow a (11 / 10) * w + rpow s (11 / 10) * w + rpow c (11 / 10) * w + rpow f (11 / 10) * w) with ((rpow a (11 / 10) + rpow s (11 / 10) + rpow c (11 / 10) + rpow f (11 / 10)) * w) by ring.
  rewrite rp_scale; [|unfold w, Rpower; apply exp_pos|lra]. unfold w. rewrite Rpower_mult. replace (11 / 10 * (10 / 11)) with 1 by field. rewrite Rpower_1 by exact P. ring.
Qed.
(** a share of 1/n to the power 0.85 *)
Lemma share n : 1 <= n <= 100 -> / 100 <= rpow (1 / n) (85 / 100).
Proof.
  intros H. assert (B : / 100 <= 1 / n <= 1). { split; [unfold Rdiv; rewrite Rmult_1_l; apply Rinv_le_contravar; lra|]. apply Rmult_le_reg_r with n; [lra|]. unfold Rdiv. rewrite Rmult_assoc, Rinv_l by lra. lra. }
  apply Rle_trans with (1 / n); [lra|]. rewrite rpow_pos by lra. set (x := 1 / n) in *. clearbody x. rewrite <- (Rpower_1 x) at 1 by lra. unfold Rpower. assert (L : ln x <= 0). { rewrite <- ln_1. destruct (Req_dec x 1) as [->|]; [lra|left; apply ln_increasing; lra]. }
  destruct (Req_dec (1 * ln x) (85 / 100 * ln x)) as [->|NE]; [lra|]. left. apply exp_increasing. lra.
Qed.

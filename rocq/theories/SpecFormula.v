(** The pp formulas in real numbers, and what is assumed of math.Pow and
    math.Log10 to compare them with the floats. *)
From Coq Require Import Reals.
From Flocq Require Import Raux Zaux Core BinarySingleNaN.
From Verif Require Import PP SpecPP SpecTempo.
Open Scope R_scope.

Definition rpow (x y : R) : R := if Req_EM_T x 0 then 0 else Rpower x y.
Definition log10 (x : R) : R := ln x / ln 10.

(** ** The formulas *)
Definition base_value (stars : R) : R := (5 * Rmax 1 (stars / (675 / 10000)) - 4) ^ 3 / 100000.
Definition length_factor (total : R) : R :=
  95 / 100 + 4 / 10 * Rmin 1 (total / 2000) + (if Rlt_dec 2000 total then log10 (total / 2000) / 2 else 0).
Definition combo_factor (combo most : R) : R := Rmin 1 (rpow (combo / most) (8 / 10)).
(** The share of the hits missed, as the penalty sees it; [expo] is the number of misses, or its power 0.875. *)
Definition miss_base (miss total : R) : R := 1 - rpow (miss / total) (775 / 1000).
Definition miss_factor (miss total expo : R) : R := if Rlt_dec 0 miss then 97 / 100 * Rpower (miss_base miss total) expo else 1.
Definition ar_high (ar : R) : R := 3 / 10 * Rmax 0 (ar - 1033 / 100).
Definition ar_low (ar : R) : R := 1 / 10 * Rmax 0 (8 - ar).
Definition hidden_factor (hd : bool) (ar : R) : R := if hd then 1 + 4 / 100 * (12 - ar) else 1.
Definition nerf (sliders factor lost : R) : R :=
  if Rlt_dec 0 sliders then
    let hard := 15 / 100 * sliders in (1 - factor) * (1 - Rmin hard (Rmax 0 lost) / hard) ^ 3 + factor
  else 1.

(** A play: the map, the score, what the difficulty makes of them. *)
Record play := mkPlay {
  y_aim : R; y_speed : R; y_fl : R; y_factor : R; y_sliders : R; y_spinners : R; y_most : R;
  y_combo : R; y_great : R; y_ok : R; y_meh : R; y_miss : R;
  y_total : R;    (* hits altogether *)
  y_breaks : R;   (* effective misses, as the values use them *)
  y_judged : R;   (* objects judged by their hit time *)
  y_ar : R; y_od : R }.
Definition accuracy (y : play) : R := (300 * y_great y + 100 * y_ok y + 50 * y_meh y) / (300 * y_total y).
Definition aim_value (td hd : bool) (y : play) : R :=
  base_value (if td then rpow (y_aim y) (8 / 10) else y_aim y) * length_factor (y_total y) *
  miss_factor (y_breaks y) (y_total y) (y_breaks y) * combo_factor (y_combo y) (y_most y) *
  (1 + (ar_high (y_ar y) + ar_low (y_ar y)) * length_factor (y_total y)) * hidden_factor hd (y_ar y) *
  nerf (y_sliders y) (y_factor y) (Rmin (y_ok y + y_meh y + y_miss y) (y_most y - y_combo y)) *
  accuracy y * (98 / 100 + y_od y ^ 2 / 2500).
Definition speed_value (hd : bool) (y : play) : R :=
  base_value (y_speed y) * length_factor (y_total y) *
  miss_factor (y_breaks y) (y_total y) (rpow (y_breaks y) (875 / 1000)) * combo_factor (y_combo y) (y_most y) *
  (1 + ar_high (y_ar y) * length_factor (y_total y)) * hidden_factor hd (y_ar y) *
  ((95 / 100 + y_od y ^ 2 / 750) * rpow (accuracy y) ((145 / 10 - Rmax (y_od y) 8) / 2)) *
  Rpower (98 / 100) (Rmax 0 (y_meh y - y_total y / 500)).
(** The accuracy of the judged objects alone: objects not judged count as 300s. *)
Definition judged_accuracy (y : play) : R :=
  if Rlt_dec 0 (y_judged y) then Rmax 0 ((6 * (y_great y - (y_total y - y_judged y)) + 2 * y_ok y + y_meh y) / (6 * y_judged y)) else 0.
Definition acc_value (rx hd fl : bool) (y : play) : R :=
  if rx then 0 else
  Rpower (152163 / 100000) (y_od y) * rpow (judged_accuracy y) 24 * (283 / 100) * Rmin (115 / 100) (rpow (y_judged y / 1000) (3 / 10)) *
  (if hd then 108 / 100 else 1) * (if fl then 102 / 100 else 1).
Definition fl_value (td hd fl : bool) (y : play) : R :=
  if fl then
    (if td then rpow (y_fl y) (8 / 10) else y_fl y) ^ 2 * 25 * (if hd then 13 / 10 else 1) *
    miss_factor (y_breaks y) (y_total y) (rpow (y_breaks y) (875 / 1000)) * combo_factor (y_combo y) (y_most y) *
    (7 / 10 + 1 / 10 * Rmin 1 (y_total y / 200) + 2 / 10 * Rmin 1 (Rmax 0 ((y_total y - 200) / 200))) *
    (5 / 10 + accuracy y / 2) * (98 / 100 + y_od y ^ 2 / 2500)
  else 0.
(** [breaks] here before Relax adds the 100s and 50s to them. *)
Definition final_factor (nf so rx : bool) (breaks spinners total : R) : R :=
  112 / 100 * (if nf then Rmax (9 / 10) (1 - 2 / 100 * breaks) else 1) *
  (if so then 1 - rpow (spinners / total) (85 / 100) else 1) * (if rx then 6 / 10 else 1).
Definition total_value (aim speed acc fl final : R) : R :=
  rpow (rpow aim (11 / 10) + rpow speed (11 / 10) + rpow acc (11 / 10) + rpow fl (11 / 10)) (10 / 11) * final.
(** A guess at the number of slider breaks from the combo. *)
Definition guessed_breaks (sliders most combo : R) : R :=
  let full := most - sliders / 10 in if Rlt_dec 0 sliders then if Rlt_dec combo full then full / Rmax 1 combo else 0 else 0.

(** ** math.Pow and math.Log10 *)
Section WithLibm.
Context {M : libm}.
(** For exponents up to 1000, within 2^-40 of the power where that is not
    astronomically large or small; zero to a positive power is zero. *)
Record pow_close : Prop := {
  close_pos : forall x y, is_finite x = true -> is_finite y = true -> 0 < B2R x -> Rabs (B2R y) <= 1000 ->
    bpow radix2 (-950) <= Rpower (B2R x) (B2R y) <= bpow radix2 950 ->
    is_finite (mpow x y) = true /\ Rabs (B2R (mpow x y) - Rpower (B2R x) (B2R y)) <= Rpower (B2R x) (B2R y) * bpow radix2 (-40);
  close_zero : forall x y, is_finite x = true -> is_finite y = true -> B2R x = 0 -> 0 < B2R y -> is_finite (mpow x y) = true /\ B2R (mpow x y) = 0;
  close_square : forall x, is_finite x = true -> Rabs (B2R x) <= bpow radix2 400 ->
    is_finite (mpow x (fq 2 1)) = true /\ Rabs (B2R (mpow x (fq 2 1)) - B2R x ^ 2) <= B2R x ^ 2 * bpow radix2 (-40) + bpow radix2 (-1000) }.
(** Log10 within 2^-40, for arguments from 1 to 2^40. *)
Definition log_close : Prop := forall x, is_finite x = true -> 1 <= B2R x <= bpow radix2 40 ->
  is_finite (mlog10 x) = true /\ Rabs (B2R (mlog10 x) - log10 (B2R x)) <= bpow radix2 (-40).
End WithLibm.

(** ** Which plays *)
(** Ratings are zero or from 2^-100 to 2^20 stars, the slider factor is from 1/16 to 1. *)
Definition rating_ok (x : f64) : Prop := is_finite x = true /\ (B2R x = 0 \/ bpow radix2 (-100) <= B2R x <= 1048576).
Definition map_ok (a : attributes) : Prop :=
  rating_ok (at_Aim a) /\ rating_ok (at_Speed a) /\ rating_ok (at_Flashlight a) /\ within (/ 16) 1 (at_SliderFactor a) /\
  (0 <= at_ObjectCount a <= 2 ^ 20 /\ 0 <= at_Circles a <= 2 ^ 20 /\ 0 <= at_Sliders a <= 2 ^ 20 /\ 0 <= at_Spinners a <= 2 ^ 20 /\ 0 <= at_MaxCombo a <= 2 ^ 31)%Z.
(** AR from -100 to 13, OD from -40 to 14. *)
Definition rates_near (d : difficulty) : Prop := within (-100) 13 (d_ARReal d) /\ within (-40) 14 (d_ODReal d).
(** The play a call of PPv2x is about, with a given number of breaks. *)
Definition play_of (a : attributes) (combo n300 n100 n50 nmiss breaks : Z) (d : difficulty) : play :=
  mkPlay (B2R (at_Aim a)) (B2R (at_Speed a)) (B2R (at_Flashlight a)) (B2R (at_SliderFactor a)) (IZR (at_Sliders a)) (IZR (at_Spinners a)) (IZR (Z.max 1 (at_MaxCombo a)))
    (IZR combo) (IZR n300) (IZR n100) (IZR n50) (IZR nmiss) (IZR (n300 + n100 + n50 + nmiss)) (IZR breaks)
    (IZR (if Z.testbit (d_Mods d) 29 then at_ObjectCount a else at_Circles a)) (B2R (d_ARReal d)) (B2R (d_ODReal d)).
(** Effective misses: the misses, or the guess cut off at the number of hits and rounded down, if that is more. *)
Definition guess_of (a : attributes) (combo : Z) : R := guessed_breaks (IZR (at_Sliders a)) (IZR (Z.max 1 (at_MaxCombo a))) (IZR combo).
Definition breaks_of (a : attributes) (combo nmiss total : Z) : Z := Z.max nmiss (Zfloor (Rmin (guess_of a combo) (IZR total))).
(** The guess does not jump within a billionth of where it is. *)
Definition guess_clear (a : attributes) (combo : Z) : Prop :=
  ((0 < at_Sliders a)%Z -> IZR combo <> IZR (Z.max 1 (at_MaxCombo a)) - IZR (at_Sliders a) / 10) /\
  (guess_of a combo = 0 \/ forall z : Z, guess_of a combo / 1000000000 < Rabs (guess_of a combo - IZR z)).
(** A penalty that does not vanish. *)
Definition breaks_mild (breaks total : Z) : Prop :=
  (2 * breaks <= total /\ breaks <= 999)%Z /\ ((0 < breaks)%Z -> bpow radix2 (-200) <= Rpower (miss_base (IZR breaks) (IZR total)) (IZR breaks)).

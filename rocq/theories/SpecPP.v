(** Specification vocabulary for the performance points. *)
From Coq Require Import Reals.
From Flocq Require Import Raux Zaux Core BinarySingleNaN.
From Verif Require Import PP FloatLemmas.
Open Scope Z_scope.

(** a finite float in a real interval *)
Definition within (lo hi : R) (x : f64) : Prop := is_finite x = true /\ (lo <= B2R x <= hi)%R.

(** hit counts: none negative, and not more than [n] altogether *)
Definition hits_upto (n n300 n100 n50 nmiss : Z) : Prop :=
  0 <= n300 /\ 0 <= n100 /\ 0 <= n50 /\ 0 <= nmiss /\ n300 + n100 + n50 + nmiss <= n.
(** an int *)
Definition int64 (z : Z) : Prop := - 2 ^ 63 <= z < 2 ^ 63.

(** attributes a real map can have: ratings up to 2^20 stars, a slider factor of
    at most 1, counts up to 2^31 *)
Definition attrs_ok (a : attributes) : Prop :=
  within 0 1048576 (at_Aim a) /\ within 0 1048576 (at_Speed a) /\ within 0 1048576 (at_Flashlight a) /\
  within 0 1 (at_SliderFactor a) /\
  0 <= at_ObjectCount a <= 2 ^ 31 /\ 0 <= at_Circles a <= 2 ^ 31 /\ 0 <= at_Sliders a <= 2 ^ 31 /\ 0 <= at_Spinners a <= 2 ^ 31 /\
  0 <= at_MaxCombo a <= 2 ^ 31.
(** attributes with ratings up to 2^128 and a slider factor up to 2^145, the
    ranges C67 proves for the star calculation *)
Definition attrs_wide (a : attributes) : Prop :=
  within 0 (bpow radix2 128) (at_Aim a) /\ within 0 (bpow radix2 128) (at_Speed a) /\ within 0 (bpow radix2 128) (at_Flashlight a) /\
  within 0 (bpow radix2 145) (at_SliderFactor a) /\
  0 <= at_ObjectCount a <= 2 ^ 31 /\ 0 <= at_Circles a <= 2 ^ 31 /\ 0 <= at_Sliders a <= 2 ^ 31 /\ 0 <= at_Spinners a <= 2 ^ 31 /\
  0 <= at_MaxCombo a <= 2 ^ 31.
(** a real difficulty: the clock-rate adjusted AR and OD cannot exceed 13 and
    13 1/3, whatever the clock rate (C51_difficulty) *)
Definition diff_ok (d : difficulty) : Prop := within (-1000) 13 (d_ARReal d) /\ within (-1000) 14 (d_ODReal d).

Section WithLibm.
Context {M : libm}.
Open Scope R_scope.
(** What is assumed of math.Pow: powers of numbers in [0,1] are in [0,1], powers
    of numbers from 1 up are at least 1 and at most twice the power of two they
    are naturally bounded by, negative powers of these are in [0,1], and squares
    are not negative. *)
Record pow_ranges : Prop := {
  pow_unit : forall x y, is_finite x = true -> is_finite y = true -> 0 <= B2R x <= 1 -> 0 <= B2R y -> within 0 1 (mpow x y);
  pow_above : forall x y k n, is_finite x = true -> is_finite y = true -> (0 <= k)%Z -> (k * n <= 900)%Z ->
    1 <= B2R x <= bpow radix2 k -> 0 <= B2R y <= IZR n -> within 1 (bpow radix2 (k * n + 1)) (mpow x y);
  pow_below : forall x y, is_finite x = true -> is_finite y = true -> 1 <= B2R x -> B2R y <= 0 -> within 0 1 (mpow x y);
  pow_square : forall x k, is_finite x = true -> (0 <= k <= 400)%Z -> Rabs (B2R x) <= bpow radix2 k ->
    within 0 (bpow radix2 (2 * k + 1)) (mpow x (fq 2 1)) }.
(** The exponent 1.1 of the total, sharper than [pow_above] gives it. *)
Definition pow_total : Prop := forall x k, is_finite x = true -> (0 <= k <= 800)%Z -> 1 <= B2R x <= bpow radix2 k ->
  within 1 (bpow radix2 (k * 11 / 10 + 1)) (mpow x (fq 11 10)).
(** ... and of math.Log10: from 1 up it lies between 0 and its argument. *)
Definition log_above : Prop := forall x, is_finite x = true -> 1 <= B2R x -> within 0 (B2R x) (mlog10 x).
(** math.Pow is monotone in a non-negative base for a non-negative exponent, and
    antitone in the exponent for a base in [0,1]. *)
Record pow_orders : Prop := {
  pow_base_mono : forall x x' y, is_finite x = true -> is_finite x' = true -> is_finite y = true ->
    is_finite (mpow x y) = true -> is_finite (mpow x' y) = true ->
    0 <= B2R x <= B2R x' -> 0 <= B2R y -> B2R (mpow x y) <= B2R (mpow x' y);
  pow_exp_anti : forall x y y', is_finite x = true -> is_finite y = true -> is_finite y' = true ->
    0 <= B2R x <= 1 -> 0 <= B2R y <= B2R y' -> B2R (mpow x y') <= B2R (mpow x y) }.
End WithLibm.

(** no pp value is larger *)
Definition no_better (r r' : pp_results) : Prop :=
  fle (r_Aim r) (r_Aim r') = true /\ fle (r_Speed r) (r_Speed r') = true /\ fle (r_Flashlight r) (r_Flashlight r') = true /\
  fle (r_Acc r) (r_Acc r') = true.

(** attributes with another flashlight rating *)
Definition with_flashlight (a : attributes) (x : f64) : attributes :=
  mkAttr (at_Total a) (at_Aim a) (at_SliderFactor a) (at_Speed a) x (at_ObjectCount a) (at_Circles a) (at_Sliders a) (at_Spinners a) (at_MaxCombo a).
(** the score a PPv2x call is about *)
Record score := mkScore { s_attribs : attributes; s_combo : Z; s_300 : Z; s_100 : Z; s_50 : Z; s_miss : Z; s_diff : difficulty }.
Definition pp_call {M : libm} (pp : ppv2) (s : score) : ppv2 := ppv2x pp (s_attribs s) (s_combo s) (s_300 s) (s_100 s) (s_50 s) (s_miss s) (s_diff s).
(** all values finite and not negative *)
Definition valid_results (r : pp_results) : Prop := exists b : R,
  within 0 b (r_Aim r) /\ within 0 b (r_Speed r) /\ within 0 b (r_Acc r) /\ within 0 b (r_Flashlight r) /\ within 0 b (r_Total r).

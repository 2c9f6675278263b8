(** Ordinary maps: what is asked of a file so that all that is computed from it is a number. *)
From Coq Require Import Reals.
From Flocq Require Import Core BinarySingleNaN.
From Verif Require Import Parser SpecParser SpecCurves SpecSafety SpecTerm SpecStacking.
Import ListNotations.
Open Scope R_scope.

(** A beat of the timing points: not a number, at most -1/1024, or from 1/1024 ms to a minute. *)
Definition beat_ok (x : f64) : Prop :=
  is_nan x = true \/ fle x (fq (-1) 1024) = true \/ (is_finite x = true /\ / 1024 <= B2R x <= 65536).
(** Starts at 0, or between 1 and 2^36 ms from it, at most 2^14 px from the origin. *)
Definition place_ok (fs : list str) : Prop :=
  is_finite (start_of fs) = true /\ (B2R (start_of fs) = 0 \/ 1 <= Rabs (B2R (start_of fs)) <= bpow radix2 36) /\
  within 14 (mkVec (parse_f32 (field 0 fs)) (parse_f32 (field 1 fs))).
Section WithLibm.
Context {M : libm}.
(** The curve of a slider row stays within 2^14 px of the origin, all spans
    together are at most 2^17 px long and have at most 2^16 ticks, at the
    smallest distance a timing point can give them. *)
Definition curve_modest (sm tr : f64) (fs : list str) (mc : multicurve) : Prop :=
  let len := B2R (mc_length mc) in let n := IZR (parse_int (field 6 fs)) in
  is_finite (mc_length mc) = true /\ Forall (fun l => within 14 (ln_p1 l) /\ within 14 (ln_p2 l)) (mc_lines mc) /\
  n * len <= 131072 /\ n * (2 * len / Rmin (B2R (parse_f64 (field 7 fs))) (9 * B2R sm / B2R tr) + 2) <= 65536.
Definition slider_modest (sm tr : f64) (fs : list str) : Prop :=
  (1 <= parse_int (field 6 fs))%Z /\ is_finite (parse_f64 (field 7 fs)) = true /\ / 16 <= B2R (parse_f64 (field 7 fs)) /\
  forall fuel mc, row_curve fuel fs = Ok mc -> curve_modest sm tr fs mc.
(** All rows of the file are of this kind, there are less than 2^15 objects, and
    the difficulty settings are numbers. *)
Definition ordinary (ls : list str) : Prop := forall hr tr ds,
  section_rows ls "HitObjects" hr -> section_rows ls "TimingPoints" tr -> settings ls "Difficulty" ds ->
  let sm := last_value "SliderMultiplier" ds parse_f64 f0 in let rate := last_value "SliderTickRate" ds parse_f64 f0 in
  (forall fs, In fs hr -> is_object fs = true -> place_ok fs /\ (type_of fs = TSlider -> slider_modest sm rate fs)) /\
  (forall fs, In fs tr -> beat_ok (parse_f64 (nth 1 fs []))) /\ (zlen (filter is_object hr) < 2 ^ 15)%Z /\
  Forall (fun key => last_value key ds nan_text false = false) ["CircleSize"; "OverallDifficulty"; "ApproachRate"]%string.
(** No stack is higher than 2^20 objects. *)
Definition low_stacks (b : beatmap) : Prop := forall o g, In o (bm_HitObjects b) -> (Z.abs (idx_of g o) <= 2 ^ 20)%Z.
End WithLibm.

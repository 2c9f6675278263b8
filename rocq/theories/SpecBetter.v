(** Comparing plays: what makes one play no better than another, and one map no
    harder than another. *)
From Coq Require Import Reals.
From Flocq Require Import Raux Zaux Core BinarySingleNaN.
From Verif Require Import PP SpecPP.
Open Scope Z_scope.

(** a combo and the numbers of 300s, 100s, 50s and misses *)
Record tally := mkTally { t_combo : Z; t_300 : Z; t_100 : Z; t_50 : Z; t_miss : Z }.
Definition hits (t : tally) : Z := t_300 t + t_100 t + t_50 t + t_miss t.
Definition tally_ok (t : tally) : Prop := hits_upto (2 ^ 31) (t_300 t) (t_100 t) (t_50 t) (t_miss t) /\ 0 <= t_combo t <= 2 ^ 31.
(** As many hits, no shorter combo, no fewer 300s, no more 50s and misses: some
    100s, 50s and misses have become something better. *)
Definition improved (t t' : tally) : Prop :=
  hits t = hits t' /\ t_combo t <= t_combo t' /\ t_300 t <= t_300 t' /\ t_50 t' <= t_50 t /\ t_miss t' <= t_miss t.
(** No rating is smaller, and the maps have the same make-up. *)
Definition harder (a a' : attributes) : Prop :=
  (B2R (at_Aim a) <= B2R (at_Aim a'))%R /\ (B2R (at_Speed a) <= B2R (at_Speed a'))%R /\ (B2R (at_Flashlight a) <= B2R (at_Flashlight a'))%R /\
  at_SliderFactor a = at_SliderFactor a' /\ at_ObjectCount a = at_ObjectCount a' /\ at_Circles a = at_Circles a' /\
  at_Sliders a = at_Sliders a' /\ at_Spinners a = at_Spinners a' /\ at_MaxCombo a = at_MaxCombo a'.
(** what PPv2x makes of it *)
Definition worth {M : libm} (a : attributes) (t : tally) (d : difficulty) : pp_results :=
  pp_Results (ppv2x (mkPP (mkResults f0 f0 f0 f0 f0) a 0 0 0 0 0 0 None 0 f0 0) a (t_combo t) (t_300 t) (t_100 t) (t_50 t) (t_miss t) d).

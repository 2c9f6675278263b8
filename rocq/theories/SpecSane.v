(** Specification vocabulary for the sizes of strains and ratings. *)
From Coq Require Import Reals.
From Flocq Require Import Core BinarySingleNaN.
From Verif Require Import DiffCalc SpecPP.
Open Scope Z_scope.

Section WithLibm.
Context {M : libm}.
Open Scope R_scope.
(** What is assumed of math.Sin, of squares and of math.Cbrt, besides
    [pow_ranges]. *)
Record trig_ranges : Prop := {
  sin_unit : forall x, is_finite x = true -> within (-1) 1 (msin x);
  square_unit : forall x, is_finite x = true -> Rabs (B2R x) <= 1 -> within 0 1 (mpow x (fq 2 1));
  cbrt_above : forall x k, (0 <= k <= 900)%Z -> within 0 (bpow radix2 k) x -> within 0 (bpow radix2 k) (mcbrt x) }.

(** A distance that is 0 or at least the least positive single *)
Definition grainy (x : f64) : Prop := B2R x = 0 \/ bpow radix2 (-149) <= B2R x.
(** A difficulty object of a real map: distances up to 2^m, times up to 2^42 ms *)
Record sane (m : Z) (o : dobj) : Prop := {
  sn_jump : within 0 (bpow radix2 m) (do_Jump o); sn_jump_grain : grainy (do_Jump o);
  sn_travel : within 0 (bpow radix2 m) (do_Travel o); sn_travel_grain : grainy (do_Travel o);
  sn_move : within 0 (bpow radix2 m) (do_Movement o); sn_still : B2R (do_Jump o) = 0 -> B2R (do_Movement o) = 0;
  sn_strain : within 25 (bpow radix2 42) (do_StrainTime o);
  sn_delta : within 0 (bpow radix2 42) (do_DeltaTime o);
  sn_start : within (- bpow radix2 42) (bpow radix2 42) (do_StartTime o);
  sn_travel_time : do_TravelTime o = f0 \/ within 25 (bpow radix2 42) (do_TravelTime o) }.
(** ... after a slider *)
Definition linked (o before : dobj) : Prop := base_lazy before = true -> base_spinner o = false ->
  within 25 (bpow radix2 42) (do_MovementTime o) /\ within 25 (bpow radix2 42) (do_TravelTime o).
(** A difficulty a real map can have: hit window of a 300 from 16 to 128 ms,
    clock rate from 1/8 to 8, circles from 8 to 100 px *)
Definition clocked (d : difficulty) : Prop :=
  within 16 128 (d_Hit300 d) /\ within (1 / 8) 8 (d_Speed d) /\ within 8 100 (d_CircleRadius d).
(** the start of one object is at most 2^m px from the end of another *)
Definition near (m : Z) (d : difficulty) (cur p : dobj) : Prop :=
  within 0 (bpow radix2 m) (f_of_g (vdst (stacked_start (po_obj (do_base cur)) (d_Mods d)) (stacked_end (po_obj (do_base p)) (d_Mods d)))).

(** ** Objects *)
(** a point with finite coordinates up to 2^p *)
Definition point_upto (p : Z) (v : vec) : Prop :=
  (is_finite (vx v) = true /\ Rabs (B2R (vx v)) <= bpow radix2 p) /\ (is_finite (vy v) = true /\ Rabs (B2R (vy v)) <= bpow radix2 p).
Definition time_upto (x : f64) : Prop := within (- bpow radix2 38) (bpow radix2 38) x.
(** An object of a real map, after stacking: it stays within 2^p px of the
    origin, its times within 2^38 ms, and a slider has 1 to 2^16 spans and at
    most 2^16 score points. *)
Record tidy (p : Z) (d : difficulty) (o : hobj) : Prop := {
  ti_start : point_upto p (stacked_start o (d_Mods d)); ti_end : point_upto p (stacked_end o (d_Mods d));
  ti_path : forall t v, within (- bpow radix2 40) (bpow radix2 40) t -> stacked_position_at o t (d_Mods d) = Ok v -> point_upto p v;
  ti_time : time_upto (ho_start o);
  ti_slider : forall sd, ho_kind o = KSlider sd -> (1 <= sl_repeat sd <= 2 ^ 16)%Z /\ (zlen (sl_ticks sd) <= 2 ^ 16)%Z /\ time_upto (ho_end o) /\ Forall (fun t => time_upto (tk_Time t)) (sl_ticks sd) }.
(** sorted by start time *)
Fixpoint in_order (l : list hobj) : Prop :=
  match l with a :: ((b :: _) as r) => B2R (ho_start a) <= B2R (ho_start b) /\ in_order r | _ => True end.
End WithLibm.

(** Specification vocabulary for slider timing. *)
From Verif Require Import Objects.

Section WithLibm.
Context {M : libm}.
(** Distances along the curve, from d on in steps of td, that get a tick: up
    to the curve length and less than minDist short of its end. *)
Inductive tick_distances (td len minDist : f64) : f64 -> list f64 -> Prop :=
| no_more_ticks d : fle d len = false \/ fge d (fsub len minDist) = true -> tick_distances td len minDist d []
| one_more_tick d r : fle d len = true -> fge d (fsub len minDist) = false ->
    tick_distances td len minDist (fadd d td) r -> tick_distances td len minDist d (d :: r).
(** Score points of span i: a tick for each distance, walked backwards on odd
    spans, then the repeat point, or after the last span the tail point. *)
Definition span_start (start span : f64) (i : nat) : f64 := fadd start (fmul (f_of_Z (Z.of_nat i)) span).
Definition progress (i : nat) (len d : f64) : f64 :=
  if Nat.even i then fdiv d len else fsub (fq 1 1) (fdiv d len).
Definition span_points (start en span len : f64) (n : nat) (ds : list f64) (i : nat) : list tick :=
  map (fun d => mkTick (fadd (span_start start span i) (fmul (progress i len d) span)) false) ds ++
  [if Nat.ltb (S i) n then mkTick (fadd (span_start start span i) span) true
   else mkTick (fmax (fadd start (fdiv (fsub en start) (fq 2 1))) (fsub en (fq 36 1))) false].
(** The distance between ticks of a slider with timing point tp. *)
Definition tick_step (tim : timings) (tp : cpoint) (sd : slider_data) : f64 :=
  let td := get_tick_distance tim tp in
  if ggt (mc_length (sl_curve sd)) g0 && fgt td (sl_pixelLength sd) then sl_pixelLength sd else td.
End WithLibm.

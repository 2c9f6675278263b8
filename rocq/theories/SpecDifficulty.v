(** Specification vocabulary for Difficulty: osu!'s published formulas over the
    real numbers, and setter histories. *)
From Coq Require Import Reals.
From Verif Require Import Difficulty SpecMods.
Open Scope R_scope.

(** The published HardRock/Easy adjustment of a base value (k is 1.4, or 1.3
    for circle size). *)
Definition modded (m : Z) (k x : R) : R :=
  let y := if Z.testbit m bHR then Rmin (x * k) 10 else x in
  if Z.testbit m bEZ then y / 2 else y.

(** The published two-piece linear map through (0,a), (5,b), (10,c). *)
Definition pieces (a b c x : R) : R :=
  if Rle_dec x 5 then b + (a - b) * (5 - x) / 5 else b + (c - b) * (x - 5) / 5.

(** A base value in [0,10] (so a number). *)
Definition base_ok (x : f64) : Prop := fle f0 x = true /\ fle x (fq 10 1) = true.

(** A Difficulty with the given base values, mods and speed, built directly. *)
Definition built (hp cs od ar : f64) (m : Z) (speed : f64) : difficulty :=
  set_custom_speed (set_mods (new_difficulty hp cs od ar) m) speed.

(** Setter calls. *)
Inductive setter := SetHP (x : f64) | SetCS (x : f64) | SetOD (x : f64) | SetAR (x : f64)
  | SetMods (m : Z) | SetSpeed (x : f64).
Definition call (d : difficulty) (s : setter) : difficulty :=
  match s with
  | SetHP x => set_hp d x | SetCS x => set_cs d x | SetOD x => set_od d x | SetAR x => set_ar d x
  | SetMods m => set_mods d m | SetSpeed x => set_custom_speed d x
  end.
(** The last value given to a setting, or the default. *)
Definition last_given {A} (get : setter -> option A) (l : list setter) (dflt : A) : A :=
  fold_left (fun acc s => match get s with Some x => x | None => acc end) l dflt.
Definition g_hp s := match s with SetHP x => Some x | _ => None end.
Definition g_cs s := match s with SetCS x => Some x | _ => None end.
Definition g_od s := match s with SetOD x => Some x | _ => None end.
Definition g_ar s := match s with SetAR x => Some x | _ => None end.
Definition g_mods s := match s with SetMods x => Some x | _ => None end.
Definition g_speed s := match s with SetSpeed x => Some x | _ => None end.
(** A finite float within 1e-9 of a real number. *)
Definition within (x : f64) (r : R) : Prop :=
  BinarySingleNaN.is_finite x = true /\ Rabs (BinarySingleNaN.B2R x - r) <= / 1000000000.

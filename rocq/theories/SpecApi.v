(** Specification vocabulary for the remaining functions of the API. *)
From Coq Require Import Reals ZArith List String.
From Flocq Require Import Core BinarySingleNaN.
From Verif Require Import Helpers SpecCurves SpecArc.
Import ListNotations.

(** ** Angles *)
Open Scope R_scope.
(** [al] is the angle under which [p] is seen from [q], to 2^-20. *)
Definition sighted (p q : vec) (al : f32) : Prop := is_finite al = true /\
  exists t, angle_of (px p - px q) (py p - py q) t /\ Rabs (B2R al - t) <= bpow radix2 (-20).
(** the length of a polygon *)
Fixpoint polygon (l : list vec) : R :=
  match l with
  | a :: (b :: _) as r => dist a b + polygon r
  | _ => 0
  end.

(** ** Mods *)
Open Scope Z_scope.
(** Numbers and names of the osu! API. *)
Definition spelled : list (Z * string) :=
  [(1, "NoFail"); (2, "Easy"); (4, "TouchDevice"); (8, "Hidden"); (16, "HardRock"); (32, "SuddenDeath"); (64, "DoubleTime"); (128, "Relax"); (256, "HalfTime");
   (512, "Nightcore"); (1024, "Flashlight"); (2048, "Autoplay"); (4096, "SpunOut"); (8192, "Relax2"); (16384, "Perfect"); (32768, "Key4"); (65536, "Key5");
   (131072, "Key6"); (262144, "Key7"); (524288, "Key8"); (1048576, "FadeIn"); (2097152, "Random"); (4194304, "Cinema"); (8388608, "Target"); (16777216, "Key9");
   (33554432, "KeyCoop"); (67108864, "Key1"); (134217728, "Key3"); (268435456, "Key2"); (536870912, "ScoreV2"); (1073741824, "LastMod"); (2147483648, "Daycore")]%string.
(** A set mod is shown unless the mod that comes with it is: Nightcore for
    DoubleTime, Daycore for HalfTime, Perfect for SuddenDeath. *)
Definition on (m b : Z) : bool := negb (Z.land m b =? 0).
Definition shown (m b : Z) : bool :=
  on m b && negb ((b =? 64) && on m 512) && negb ((b =? 256) && on m 2147483648) && negb ((b =? 32) && on m 16384).

(** The angles at the two ends of a curve: math/curves/multicurve.go. *)
From Coq Require Import ZArith List.
From Verif Require Export Curves.
Import ListNotations.

Section WithLibm.
Context {M : libm}.
(** (MultiCurve).GetStartAngle -- multicurve.go:118-124 *)
Definition mc_start_angle (mc : multicurve) : f32 :=
  match mc_lines mc with
  | [] => g0
  | l :: _ => ln_start_angle l
  end.
(** (MultiCurve).GetEndAngle -- multicurve.go:151-157 *)
Definition mc_end_angle (mc : multicurve) : res f32 :=
  match mc_lines mc with
  | [] => Ok g0
  | ls => let* l := idx ls (zlen ls - 1) in Ok (ln_end_angle l)
  end.
End WithLibm.

(** Specification vocabulary for the strain values of single objects. *)
From Flocq Require Import BinarySingleNaN.
From Verif Require Import DiffCalc.
Import ListNotations.
Open Scope Z_scope.

Section WithLibm.
Context {M : libm}.
(** Objects that agree in everything but what belongs to the slider before
    them: movement, movement time and travel time. *)
Definition alike (o o' : dobj) : Prop :=
  is_spinner (po_obj (do_base o)) = is_spinner (po_obj (do_base o')) /\
  do_Jump o = do_Jump o' /\ do_Travel o = do_Travel o' /\ do_Angle o = do_Angle o' /\ do_StrainTime o = do_StrainTime o'.

(** ** Flashlight *)
(** the earlier objects that count, each with its age in objects: spinners do
    not, but the objects before them are older for them *)
Definition visible (prev : list dobj) : list (nat * dobj) :=
  filter (fun ip => negb (is_spinner (po_obj (do_base (snd ip))))) (combine (seq 0 (length prev)) prev).
(** screen distance from the end of an earlier object *)
Definition apart (d : difficulty) (cur p : dobj) : f64 :=
  f_of_g (vdst (stacked_start (po_obj (do_base cur)) (d_Mods d)) (stacked_end (po_obj (do_base p)) (d_Mods d))).
(** the strain time from the latest counting object back to each *)
Fixpoint running (t : f64) (l : list (nat * dobj)) : list f64 :=
  match l with [] => [] | (_, p) :: r => let t' := fadd t (do_StrainTime p) in t' :: running t' r end.
(** what one of them adds: 80 % per object of age, less for a short jump *)
Definition flash_share (d : difficulty) (cur : dobj) (ip : nat * dobj) (elapsed : f64) : f64 :=
  let s := fdiv (fq 52 1) (d_CircleRadius d) in
  fdiv (fmul (fmul (fmul (mpow (fq 8 10) (f_of_Z (Z.of_nat (fst ip))))
                         (fmin (fq 1 1) (fdiv (fdiv (do_Jump (snd ip)) s) (fq 25 1)))) s)
             (apart d cur (snd ip))) elapsed.
Definition flash_sum (d : difficulty) (prev : list dobj) (cur : dobj) : f64 :=
  fold_left fadd (map (fun x => flash_share d cur (fst x) (snd x)) (combine (visible prev) (running f0 (visible prev)))) f0.
(** less for an object close to the one right before it *)
Definition flash_near (d : difficulty) (prev : list dobj) (cur : dobj) : f64 :=
  match visible prev with (O, p) :: _ => fmin (fq 1 1) (fdiv (apart d cur p) (fq 75 1)) | _ => fq 1 1 end.
End WithLibm.

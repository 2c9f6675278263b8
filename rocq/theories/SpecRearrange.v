(** Specification vocabulary: files that say the same in another order. *)
From Coq Require Import Permutation.
From Verif Require Import Parser SpecParser SpecMap.
Import ListNotations.
Open Scope Z_scope.

(** The version of the last version line, 0 without one. *)
Definition latest_version (ls : list str) (v : Z) : Prop :=
  ((forall l w, In l ls -> ~ version l w) /\ v = 0) \/
  exists a l r, ls = a ++ l :: r /\ version l v /\ forall l' w, In l' r -> ~ version l' w.
(** Every key has the same values, in the same order. *)
Definition same_values (s s' : list (str * str)) : Prop :=
  forall k, map snd (filter (fun p => str_eqb (fst p) k) s) = map snd (filter (fun p => str_eqb (fst p) k) s').
(** The same rows, those of one kind and time in the same order. *)
Definition same_schedule (kind : list str -> bool) (time : list str -> f64) (r r' : list (list str)) : Prop :=
  Permutation r r' /\ forall t, filter (fun fs => kind fs && feq (time fs) t) r = filter (fun fs => kind fs && feq (time fs) t) r'.
Definition point_time (fs : list str) : f64 := f_of_Z (parse_int (nth 0 fs [])).

(** [ls'] is [ls] with sections moved, split or joined, settings and rows
    reordered within their section, and other lines added or left out. *)
Definition rearranged (ls ls' : list str) : Prop :=
  (exists v, latest_version ls v /\ latest_version ls' v) /\
  Forall (fun sec => exists s s', settings ls sec s /\ settings ls' sec s' /\ same_values s s') ["General"; "Metadata"; "Difficulty"]%string /\
  (exists e e', section_rows ls "Events" e /\ section_rows ls' "Events" e' /\ filter is_background e = filter is_background e' /\ filter is_break e = filter is_break e') /\
  (exists t t', section_rows ls "TimingPoints" t /\ section_rows ls' "TimingPoints" t' /\ same_schedule (fun _ => true) point_time t t') /\
  (exists h h', section_rows ls "HitObjects" h /\ section_rows ls' "HitObjects" h' /\ same_schedule is_object start_of h h').

(** Specification vocabulary: how long sliders of a map on paper take. *)
From Coq Require Import Reals.
From Verif Require Import Parser SpecNumbers SpecSheet.
Open Scope Z_scope.

(** The tempo in force at a time: the latest that has begun, of several the one written
    last; before all of them the earliest, of several the one written first. *)
Definition in_force (ts : list tempo) (t : Z) (p : tempo) : Prop :=
  exists l1 l2, ts = l1 ++ p :: l2 /\
    ((dec (tp_time p) <= t /\
      (forall r, In r l1 -> dec (tp_time r) <= t -> dec (tp_time r) <= dec (tp_time p)) /\
      (forall r, In r l2 -> dec (tp_time r) <= t -> dec (tp_time r) < dec (tp_time p))) \/
     ((forall r, In r ts -> t < dec (tp_time r)) /\
      (forall r, In r l1 -> dec (tp_time p) < dec (tp_time r)) /\
      (forall r, In r l2 -> dec (tp_time p) <= dec (tp_time r)))).

(** Steps from each point to the next, across and down. *)
Fixpoint walk (p : list Z * list Z) (ps : list (list Z * list Z)) : Z :=
  match ps with
  | [] => 0
  | q :: r => Z.abs (dec (fst q) - dec (fst p)) + Z.abs (dec (snd q) - dec (snd p)) + walk q r
  end.
(** Straight sliders that lead somewhere, of a usual size and number of spans. *)
Definition brief (n : note) : Prop :=
  match nt_shape n with
  | Slide c ps k l => c = "L"%char /\ (length ps < 1000)%nat /\ (1 <= value l <= 2048)%R /\ 0 < walk (nt_x n, nt_y n) ps <= 2048 /\
      Forall (fun p => dec (fst p) <= 2048 /\ dec (snd p) <= 2048) ((nt_x n, nt_y n) :: ps) /\ 1 <= dec k <= 100000 /\ dec (nt_time n) < 2 ^ 40
  | _ => True
  end.
(** Beats of 1/512 ms to one minute, and changes of speed by a negative number. *)
Definition lively (p : tempo) : Prop :=
  if tp_speed p then (- 100000 <= value (tp_beat p) <= - / 512)%R else (/ 512 <= value (tp_beat p) <= 60000)%R.
(** The tempos that give a beat; the earliest of all, and of several the first, is one. *)
Definition beats (ts : list tempo) : list tempo := filter (fun p => negb (tp_speed p)) ts.
Definition opening (ts : list tempo) : Prop := exists l1 p l2, ts = l1 ++ p :: l2 /\ tp_speed p = false /\
  (forall r, In r l1 -> dec (tp_time p) < dec (tp_time r)) /\ (forall r, In r l2 -> dec (tp_time p) <= dec (tp_time r)).
(** A change of speed stretches the beat to a percentage of 10 to 1000. *)
Definition factor (p : tempo) : R := if tp_speed p then (Rmin 1000 (Rmax 10 (- value (tp_beat p))) / 100)%R else 1%R.
(** Milliseconds per pixel, with tempo p in force and q of those with a beat: a beat for each
    100 pixels times the speed. *)
Definition pace (s : sheet) (p q : tempo) : R := (value (tp_beat q) * factor p / (100 * value (sh_speed s)))%R.
(** Maps on paper that can be played: everything within 2048 pixels and 2^36 ms, sliders of at
    most 1000 spans, 80000 pixels and 1000 ticks of 100 pixels times the speed over the rate. *)
Definition playable (s : sheet) (n : note) : Prop :=
  dec (nt_x n) <= 2048 /\ dec (nt_y n) <= 2048 /\ dec (nt_time n) <= 2 ^ 36 /\ brief n /\
  match nt_shape n with
  | Slide c ps k l => dec k <= 1000 /\ (IZR (dec k) * value l <= 80000)%R /\
      (IZR (dec k) * value l <= 1000 * (100 * value (sh_speed s) / value (sh_ticks s)))%R
  | _ => True
  end.
(** Pixels from tick to tick: the distance of a beat over the tick rate, or all of the slider. *)
Definition tick_space (s : sheet) (p : tempo) (l : literal) : R := Rmin (100 * value (sh_speed s) / (value (sh_ticks s) * factor p)) (value l).
(** N ticks fit into a span up to 10 ms before its end, and clearly so. *)
Definition counted (s : sheet) (p q : tempo) (points : nat) (l : literal) (N : nat) : Prop :=
  let rest := (value l - 10 / pace s p q)%R in let w := (value l / 100000 + (INR points + 17) / 2048)%R in
  (N = 0%nat \/ INR N * tick_space s p l <= rest - w)%R /\ (rest + w < INR (S N) * tick_space s p l)%R.
(** One for each note, and for each span of a slider its ticks and its end. *)
Definition full_combo (s : sheet) (ticks : note -> nat) : Z :=
  fold_right (fun n c => 1 + match nt_shape n with Slide _ _ k _ => dec k * (Z.of_nat (ticks n) + 1) | _ => 0 end + c) 0 (sh_notes s).

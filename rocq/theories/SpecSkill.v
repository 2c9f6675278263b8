(** The strain an object brings to each skill, in real numbers, and what is
    assumed of math.Sin and math.Pow to compare it with the floats. *)
From Coq Require Import Reals.
From Flocq Require Import Raux Zaux Core BinarySingleNaN.
From Verif Require Import DiffCalc SpecPP SpecSane SpecEval SpecFormula.
Import ListNotations.
Open Scope R_scope.

(** ** Aim *)
(** How an object is reached: distances in pixels of a circle with radius 50,
    times in ms at the clock rate; a slider right before the object is
    travelled first. *)
Record motion := mkMotion {
  mo_jump : R; mo_time : R;        (* from the end of the object before *)
  mo_slide : R; mo_slide_time : R; (* along the slider before, 0 if there is none *)
  mo_path : R; mo_path_time : R;   (* from its end *)
  mo_angle : option R;
  mo_slider : bool }.              (* the object is a slider itself *)
Definition motion_of (o : dobj) : motion :=
  mkMotion (B2R (do_Jump o)) (B2R (do_StrainTime o)) (B2R (do_Travel o)) (B2R (do_TravelTime o)) (B2R (do_Movement o)) (B2R (do_MovementTime o))
    (if is_nan (do_Angle o) then None else Some (B2R (do_Angle o))) (match po_lazy (do_base o) with Some _ => true | None => false end).

Definition velocity (sliders : bool) (o before : motion) : R :=
  let v := mo_jump o / mo_time o in
  if (mo_slider before && sliders)%bool then Rmax v (mo_path o / mo_path_time o + mo_slide o / mo_slide_time o) else v.
(** 0 up to 30 degrees, 1 from 150 degrees on *)
Definition wideness (a : R) : R := sin (3 / 4 * (Rmin (5 * PI / 6) (Rmax (PI / 6) a) - PI / 6)) ^ 2.
Definition acuteness (a : R) : R := 1 - wideness a.
Definition same_rhythm (o before : motion) : bool :=
  if Rlt_dec (Rmax (mo_time o) (mo_time before)) (5 / 4 * Rmin (mo_time o) (mo_time before)) then true else false.
(** the angle bonuses, for the velocities v and v' *)
Definition wide_term (o before : motion) (v v' : R) (a a' : R) : R :=
  wideness a * (Rmin v v' * (1 - Rmin (wideness a) (wideness a' ^ 3))).
Definition acute_term (o : motion) (v v' : R) (a a' a'' : R) : R :=
  let x := if Rlt_dec 100 (mo_time o) then 0 else
    acuteness a * (acuteness a' * Rmin (Rmin v v') (125 / mo_time o) *
      sin (PI / 2 * Rmin 1 ((100 - mo_time o) / 25)) ^ 2 * sin (PI / 2 * (Rmin 100 (Rmax 50 (mo_jump o)) - 50) / 50) ^ 2) in
  x * (1 / 2 + 1 / 2 * (1 - Rmin x (acuteness a'' ^ 3))).
(** the bonus for a change of velocity *)
Definition change_term (o before : motion) : R :=
  let v' := (mo_jump before + mo_slide before) / mo_time before in
  let v := (mo_jump o + mo_slide o) / mo_time o in
  let least := Rmin (mo_time o) (mo_time before) in
  Rmax (Rmin (125 / least) (Rabs (v' - v))) (Rabs (v' - v) * sin (PI / 2 * Rmin 1 (Rmin (mo_jump o) (mo_jump before) / 100)) ^ 2) *
  sin (PI / 2 * Rabs (v' - v) / Rmax v' v) ^ 2 * (least / Rmax (mo_time o) (mo_time before)) ^ 2.
Definition aim_formula (sliders : bool) (o before before2 : motion) : R :=
  let v := velocity sliders o before in
  let v' := velocity sliders before before2 in
  let angles := match mo_angle o, mo_angle before, mo_angle before2 with
                | Some a, Some a', Some a'' => if same_rhythm o before then Some (a, a', a'') else None
                | _, _, _ => None
                end in
  let wide := match angles with Some (a, a', _) => wide_term o before v v' a a' | None => 0 end in
  let acute := match angles with Some (a, a', a'') => acute_term o v v' a a' a'' | None => 0 end in
  let change := if Req_EM_T (Rmax v' v) 0 then 0 else change_term o before in
  v + Rmax (2 * acute) (3 / 2 * wide + 3 / 4 * change) +
  (if sliders then if Req_EM_T (mo_slide_time o) 0 then 0 else 3 / 2 * (mo_slide o / mo_slide_time o) else 0).

(** ** Speed *)
(** Tapping speed of an object [gap] ms after the last, which came [before] ms
    after its own; [w] is the whole hit window of a 300 (0 to w ms early or
    late counts half), [dist] the distance up to the object. *)
Definition doubles_gap (w gap : R) (before : option R) : R :=
  match before with Some p => if Rlt_dec gap w then if Rlt_dec gap p then p + (gap - p) * (gap / w) else gap else gap | None => gap end.
Definition capped_gap (w gap : R) : R := gap / Rmin 1 (Rmax (92 / 100) (gap / w / (93 / 100))).
Definition speed_formula (w gap : R) (before : option R) (dist : R) : R :=
  let t := capped_gap w (doubles_gap w gap before) in
  let bonus := if Rlt_dec t 75 then 1 + 3 / 4 * ((75 - t) / 40) ^ 2 else 1 in
  (bonus + bonus * rpow (Rmin 125 dist / 125) (7 / 2)) / t.

(** ** Rhythm *)
(** What the loop over the last objects carries along: the size of the island
    before this one and of this one, how strong the change at its start was,
    and whether an island is being counted at all. *)
Record beat := mkBeat { be_last : Z; be_size : Z; be_start : R; be_on : bool; be_sum : R }.
Definition ratio_bonus (p c : R) : R := 1 + 6 * Rmin (1 / 2) (sin (PI * (Rmax p c / Rmin p c)) ^ 2).
Definition window_share (w p c : R) : R := Rmin 1 (Rmax 0 (Rabs (p - c) - 6 / 10 * w) / (6 / 10 * w)).
(** [c], [p], [l]: gaps before this object, the one before it and the one before that; [cs], [ps]: whether the first two are sliders *)
Definition change_weight (b : beat) (c p l : R) (cs ps : bool) : R :=
  (if cs then 1 / 8 else 1) * (if ps then 1 / 4 else 1) * (if Z.eqb (be_last b) (be_size b) then 1 / 4 else 1) *
  (if Bool.eqb (Z.even (be_last b)) (Z.even (be_size b)) then 1 / 2 else 1) *
  (if Rlt_dec (p + 10) l then if Rlt_dec (c + 10) p then 1 / 8 else 1 else 1).
Definition faster (c p : R) : bool := if Rlt_dec (5 / 4 * c) p then true else false.
Definition slower (c p : R) : bool := if Rlt_dec (5 / 4 * p) c then true else false.
Definition beat_step (w age : R) (c p l : R) (cs ps : bool) (b : beat) : beat :=
  let e := window_share w p c * ratio_bonus p c in
  if be_on b then
    if (faster c p || slower c p)%bool then
      let e' := e * change_weight b c p l cs ps in
      mkBeat (be_size b) 1 e' (negb (slower c p))
        (be_sum b + sqrt (e' * be_start b) * age * (sqrt (4 + IZR (be_size b)) / 2) * (sqrt (4 + IZR (be_last b)) / 2))
    else mkBeat (be_last b) (Z.min 7 (be_size b + 1)) (be_start b) true (be_sum b)
  else if faster c p then mkBeat (be_last b) 1 e true (be_sum b) else b.
(** How much an object [i] places back, [ago] ms ago, still counts, of [n] remembered ones. *)
Definition age_of (n i ago : R) : R := Rmin ((n - i) / n) (Rmax 0 (5000 - ago) / 5000).
(** The remembered objects, latest first, as (start time, gap, slider); from
    the place i on towards the latest; nothing counts that is 5 s or more ago. *)
Record tap := mkTap { tp_time : R; tp_gap : R; tp_slider : bool }.
Definition tap_of (o : dobj) : tap := mkTap (B2R (do_StartTime o)) (B2R (do_StrainTime o)) (match po_lazy (do_base o) with Some _ => true | None => false end).
Fixpoint beats (w now : R) (taps : list tap) (i : nat) (b : beat) : beat :=
  match i with
  | O => b
  | S j =>
      beats w now taps j
        match nth_error taps j, nth_error taps i, nth_error taps (S i) with
        | Some c, Some p, Some l =>
            if Rlt_dec (now - tp_time c) 5000
            then beat_step w (age_of (INR (length taps)) (INR i) (now - tp_time c)) (tp_gap c) (tp_gap p) (tp_gap l) (tp_slider c) (tp_slider p) b
            else b
        | _, _, _ => b
        end
  end.
Definition rhythm_formula (w now : R) (taps : list tap) : R :=
  sqrt (4 + 3 / 4 * be_sum (beats w now taps (length taps - 2) (mkBeat 0 1 0 false 0))) / 2.

(** ** Flashlight *)
(** One earlier object that counts: its age in objects, the time since it, how
    far it was jumped to, and the screen distance from its end. *)
Record sight := mkSight { si_age : nat; si_since : R; si_jump : R; si_dist : R }.
Definition sight_term (scale : R) (s : sight) : R :=
  (8 / 10) ^ si_age s * Rmin 1 (si_jump s / scale / 25) * scale * si_dist s / si_since s.
Definition flash_formula (radius : R) (l : list sight) : R :=
  (match l with s :: _ => match si_age s with O => Rmin 1 (si_dist s / 75) | _ => 1 end | [] => 1 end *
   fold_right Rplus 0 (map (sight_term (52 / radius)) l)) ^ 2.

Section WithLibm.
Context {M : libm}.
Fixpoint sights_from (d : difficulty) (cur : dobj) (t : R) (l : list (nat * dobj)) : list sight :=
  match l with
  | [] => []
  | (i, p) :: r => let t' := t + B2R (do_StrainTime p) in mkSight i t' (B2R (do_Jump p)) (B2R (apart d cur p)) :: sights_from d cur t' r
  end.
Definition sights_of (d : difficulty) (prev : list dobj) (cur : dobj) : list sight := sights_from d cur 0 (visible prev).

(** ** math.Sin and math.Pow *)
(** Sines are within 2^-40 for arguments up to 2^18, and from -1 to 1; squares
    and cubes of numbers up to 1 are within 2^-40 and from 0 to 1. *)
Record skill_maths : Prop := {
  sin_close : forall x, is_finite x = true -> Rabs (B2R x) <= bpow radix2 18 -> within (-1) 1 (msin x) /\ Rabs (B2R (msin x) - sin (B2R x)) <= bpow radix2 (-40);
  unit_square : forall x, is_finite x = true -> Rabs (B2R x) <= 1 -> within 0 1 (mpow x (fq 2 1)) /\ Rabs (B2R (mpow x (fq 2 1)) - B2R x ^ 2) <= bpow radix2 (-40);
  unit_cube : forall x, within 0 1 x -> within 0 1 (mpow x (fq 3 1)) /\ Rabs (B2R (mpow x (fq 3 1)) - B2R x ^ 3) <= bpow radix2 (-40) }.

(** ** Which objects *)
(** a gap of at most 2^20 ms, about a quarter of an hour *)
Definition brisk (o : dobj) : Prop := B2R (do_StrainTime o) <= bpow radix2 20.
Definition angle_ok (o : dobj) : Prop := is_nan (do_Angle o) = true \/ is_finite (do_Angle o) = true.
(** x is not larger than y, or larger by more than rounding can hide *)
Definition clear_gt (x y : R) : Prop := x <= y \/ y + Rabs y * bpow radix2 (-50) <= x.
(** the gaps of two objects are not a hair from being in the ratio 4 : 5 *)
Definition rhythm_clear (o p : dobj) : Prop :=
  clear_gt (5 / 4 * Rmin (B2R (do_StrainTime o)) (B2R (do_StrainTime p))) (Rmax (B2R (do_StrainTime o)) (B2R (do_StrainTime p))).
(** ... and the other comparisons of the rhythm loop are not a hair from turning either *)
Definition step_clear (now : R) (c p l : dobj) : Prop :=
  clear_gt (B2R (do_StrainTime p)) (5 / 4 * B2R (do_StrainTime c)) /\ clear_gt (B2R (do_StrainTime c)) (5 / 4 * B2R (do_StrainTime p)) /\
  clear_gt (B2R (do_StrainTime l)) (B2R (do_StrainTime p) + 10) /\ clear_gt (B2R (do_StrainTime p)) (B2R (do_StrainTime c) + 10) /\
  clear_gt 5000 (now - B2R (do_StartTime c)).
End WithLibm.

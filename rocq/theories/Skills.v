(** performance/osu/skills *)
From Verif Require Export Preprocessing.

Section WithLibm.
Context {M : libm}.

(** Which skill: the delegates and constants installed by the constructors *)
Inductive skill_kind := Aim (withSliders : bool) | Speed | Flash.

(** Constants: NewSkill -- skill.go:59-75; NewAimSkill -- aim.go:23-32;
    NewSpeedSkill -- speed.go:25-40; NewFlashlightSkill -- flashlight.go:14-23 *)
Definition skill_multiplier (k : skill_kind) : f64 :=
  match k with Aim _ => fq 2325 100 | Speed => fq 1375 1 | Flash => fq 15 100 end.
Definition strain_decay_base (k : skill_kind) : f64 :=
  match k with Aim _ => fq 15 100 | Speed => fq 3 10 | Flash => fq 15 100 end.
Definition decay_weight (k : skill_kind) : f64 :=
  match k with Flash => fq 1 1 | _ => fq 9 10 end.
Definition section_length : f64 := fq 400 1.
Definition history_length (k : skill_kind) : nat :=
  match k with Aim _ => 2 | Speed => 32 | Flash => 10 end.
Definition reduced_sections (k : skill_kind) : nat := match k with Speed => 5 | _ => 10 end.
Definition reduced_baseline : f64 := fq 75 100.
Definition difficulty_multiplier (k : skill_kind) : f64 :=
  match k with Speed => fq 104 100 | _ => fq 106 100 end.

(** the mutable part of type Skill -- skill.go:37-54 and SpeedSkill.CurrentRhythm
    -- speed.go:19-23.  [sk_prev] is Previous, most recent first, so
    GetPrevious(i) (skill.go:115-121) is its i-th element; [sk_peaks] is
    strainPeaks, oldest first. *)
Record skill := mkSkill {
  sk_prev : list dobj; sk_strain : f64; sk_rhythm : f64;
  sk_peak : f64; sk_end : f64; sk_peaks : list f64 }.
Definition skill0 : skill := mkSkill [] f0 f0 f0 f0 [].

Definition base_spinner (o : dobj) : bool := is_spinner (po_obj (do_base o)).
Definition base_lazy (o : dobj) : bool := match po_lazy (do_base o) with Some _ => true | None => false end.

(** strainDecay -- skill.go:155-157 *)
Definition strain_decay (k : skill_kind) (ms : f64) : f64 :=
  mpow (strain_decay_base k) (fdiv ms (fq 1000 1)).

(** ** Aim -- aim.go *)
(** calcWideAngleBonus / calcAcuteAngleBonus -- aim.go:142-148 *)
Definition wide_bonus (angle : f64) : f64 :=
  mpow (msin (fmul (fq 3 4) (fsub (fmin f5pi_6 (fmax fpi_6 angle)) fpi_6))) (fq 2 1).
Definition acute_bonus (angle : f64) : f64 := fsub (fq 1 1) (wide_bonus angle).
(** the velocity of an object, extended through a preceding slider -- aim.go:47-65 *)
Definition aim_velocity (withSliders : bool) (o before : dobj) : f64 :=
  let v := fdiv (do_Jump o) (do_StrainTime o) in
  if base_lazy before && withSliders then
    fmax v (fadd (fdiv (do_Movement o) (do_MovementTime o)) (fdiv (do_Travel o) (do_TravelTime o)))
  else v.
(** the angle bonuses (wide, acute) -- aim.go:74-101 *)
Definition aim_angles (cur last lastLast : dobj) (currV prevV : f64) : f64 * f64 :=
  if flt (fmax (do_StrainTime cur) (do_StrainTime last))
         (fmul (fq 5 4) (fmin (do_StrainTime cur) (do_StrainTime last)))
  then
    if negb (fisnan (do_Angle cur)) && negb (fisnan (do_Angle last)) && negb (fisnan (do_Angle lastLast))
    then
      let ab := fmin currV prevV in
      let wide := wide_bonus (do_Angle cur) in
      let acute := acute_bonus (do_Angle cur) in
      let st := do_StrainTime cur in
      let acute :=
        if fgt st (fq 100 1) then f0
        else fmul acute
          (fmul (fmul (fmul (acute_bonus (do_Angle last)) (fmin ab (fdiv (fq 125 1) st)))
                      (mpow (msin (fmul fpi_2 (fmin (fq 1 1) (fdiv (fsub (fq 100 1) st) (fq 25 1))))) (fq 2 1)))
                (mpow (msin (fdiv (fmul fpi_2 (fsub (clampF64 (do_Jump cur) (fq 50 1) (fq 100 1)) (fq 50 1)))
                                  (fq 50 1))) (fq 2 1))) in
      let wide := fmul wide (fmul ab (fsub (fq 1 1) (fmin wide (mpow (wide_bonus (do_Angle last)) (fq 3 1))))) in
      let acute := fmul acute
        (fadd (fq 1 2) (fmul (fq 1 2)
           (fsub (fq 1 1) (fmin acute (mpow (acute_bonus (do_Angle lastLast)) (fq 3 1)))))) in
      (wide, acute)
    else (f0, f0)
  else (f0, f0).
(** velocity change bonus -- aim.go:103-124 *)
Definition aim_velocity_change (cur last : dobj) (currV prevV : f64) : f64 :=
  if fne (fmax prevV currV) f0 then
    let pv := fdiv (fadd (do_Jump last) (do_Travel last)) (do_StrainTime last) in
    let cv := fdiv (fadd (do_Jump cur) (do_Travel cur)) (do_StrainTime cur) in
    let dv := fabs (fsub pv cv) in
    let mn := fmin (do_StrainTime cur) (do_StrainTime last) in
    let mx := fmax (do_StrainTime cur) (do_StrainTime last) in
    let distRatio := mpow (msin (fdiv (fmul fpi_2 dv) (fmax pv cv))) (fq 2 1) in
    let overlap := fmin (fdiv (fq 125 1) mn) dv in
    let nonOverlap := fmul dv
      (mpow (msin (fmul fpi_2 (fmin (fq 1 1) (fdiv (fmin (do_Jump cur) (do_Jump last)) (fq 100 1))))) (fq 2 1)) in
    fmul (fmul (fmax overlap nonOverlap) distRatio) (mpow (fdiv mn mx) (fq 2 1))
  else f0.
(** aimStrainValue -- aim.go:34-140 *)
Definition aim_value (withSliders : bool) (prev : list dobj) (cur : dobj) : f64 :=
  match prev with
  | last :: lastLast :: _ =>
      if base_spinner cur then f0
      else if base_spinner last then f0
      else
        let currV := aim_velocity withSliders cur last in
        let prevV := aim_velocity withSliders last lastLast in
        let '(wide, acute) := aim_angles cur last lastLast currV prevV in
        let change := aim_velocity_change cur last currV prevV in
        let sliderBonus := if fne (do_TravelTime cur) f0 then fdiv (do_Travel cur) (do_TravelTime cur) else f0 in
        let aim := fadd currV (fmax (fmul acute (fq 2 1)) (fadd (fmul wide (fq 3 2)) (fmul change (fq 3 4)))) in
        if withSliders then fadd aim (fmul sliderBonus (fq 3 2)) else aim
  | _ => f0
  end.

(** ** Speed -- speed.go *)
(** speedStrainValue -- speed.go:42-70 *)
Definition speed_value (d : difficulty) (prev : list dobj) (cur : dobj) : f64 :=
  if base_spinner cur then f0
  else
    let distance := fmin (fq 125 1) (fadd (do_Travel cur) (do_Jump cur)) in
    let st := do_StrainTime cur in
    let window := fmul (fdiv (d_Hit300 d) (d_Speed d)) (fq 2 1) in
    let ratio := fdiv st window in
    let st := match prev with
              | p :: _ => if flt st window && fgt (do_StrainTime p) st
                          then lerpF64 (do_StrainTime p) st ratio else st
              | [] => st
              end in
    let st := fdiv st (clampF64 (fdiv (fdiv st window) (fq 93 100)) (fq 92 100) (fq 1 1)) in
    let bonus := if flt st (fq 75 1)
                 then fadd (fq 1 1) (fmul (fq 3 4) (mpow (fdiv (fsub (fq 75 1) st) (fq 40 1)) (fq 2 1)))
                 else fq 1 1 in
    fdiv (fadd bonus (fmul bonus (mpow (fdiv distance (fq 125 1)) (fq 7 2)))) st.

(** state of the rhythm loop -- speed.go:80-85 *)
Record rhythm := mkRhythm {
  rh_prevIsland : Z; rh_sum : f64; rh_island : Z; rh_startRatio : f64; rh_switch : bool }.
(** one iteration -- speed.go:88-152; [n] is len(s.Previous) *)
Definition rhythm_step (cur : dobj) (window : f64) (n i : nat) (curObj prevObj lastObj : dobj) (r : rhythm)
    : rhythm :=
  let decay := fdiv (fmax f0 (fsub (fq 5000 1) (fsub (do_StartTime cur) (do_StartTime curObj)))) (fq 5000 1) in
  if fne decay f0 then
    let decay := fmin (fdiv (f_of_Z (Z.of_nat n - Z.of_nat i)) (f_of_Z (Z.of_nat n))) decay in
    let cd := do_StrainTime curObj in
    let pd := do_StrainTime prevObj in
    let ld := do_StrainTime lastObj in
    let ratio := fadd (fq 1 1) (fmul (fq 6 1)
      (fmin (fq 1 2) (mpow (msin (fdiv fpi (fdiv (fmin pd cd) (fmax pd cd)))) (fq 2 1)))) in
    let w6 := fmul window (fq 6 10) in
    let penalty := fmin (fq 1 1) (fdiv (fmax f0 (fsub (fabs (fsub pd cd)) w6)) w6) in
    let penalty := fmin (fq 1 1) penalty in
    let eff := fmul penalty ratio in
    if rh_switch r then
      if negb (fgt pd (fmul (fq 5 4) cd) || flt (fmul pd (fq 5 4)) cd) then
        mkRhythm (rh_prevIsland r) (rh_sum r)
          (if rh_island r <? 7 then rh_island r + 1 else rh_island r) (rh_startRatio r) true
      else
        let eff := if base_lazy curObj then fmul eff (fq 1 8) else eff in
        let eff := if base_lazy prevObj then fmul eff (fq 1 4) else eff in
        let eff := if rh_prevIsland r =? rh_island r then fmul eff (fq 1 4) else eff in
        let eff := if Z.rem (rh_prevIsland r) 2 =? Z.rem (rh_island r) 2 then fmul eff (fq 1 2) else eff in
        let eff := if fgt ld (fadd pd (fq 10 1)) && fgt pd (fadd cd (fq 10 1)) then fmul eff (fq 1 8) else eff in
        let term := fdiv (fmul (fdiv (fmul (fmul (fsqrt (fmul eff (rh_startRatio r))) decay)
                                           (fsqrt (fadd (fq 4 1) (f_of_Z (rh_island r))))) (fq 2 1))
                               (fsqrt (fadd (fq 4 1) (f_of_Z (rh_prevIsland r))))) (fq 2 1) in
        mkRhythm (rh_island r) (fadd (rh_sum r) term) 1 eff (negb (flt (fmul pd (fq 5 4)) cd))
    else if fgt pd (fmul (fq 5 4) cd) then mkRhythm (rh_prevIsland r) (rh_sum r) 1 eff true
    else r
  else r.
(** the loop [for i := len-2; i > 0; i--] -- speed.go:87 *)
Fixpoint rhythm_loop (cur : dobj) (window : f64) (prev : list dobj) (i : nat) (r : rhythm) : res rhythm :=
  match i with
  | O => Ok r
  | S i' =>
      let* c := idx prev (Z.of_nat i - 1) in
      let* p := idx prev (Z.of_nat i) in
      let* l := idx prev (Z.of_nat i + 1) in
      rhythm_loop cur window prev i' (rhythm_step cur window (length prev) i c p l r)
  end.
(** speedStrainBonus: the new CurrentRhythm, which is also returned -- speed.go:72-158 *)
Definition speed_bonus (d : difficulty) (prev : list dobj) (cur : dobj) : res f64 :=
  if base_spinner cur then Ok f0
  else
    let window := fdiv (d_Hit300 d) (d_Speed d) in
    let* r := rhythm_loop cur window prev (length prev - 2) (mkRhythm 0 f0 1 f0 false) in
    Ok (fdiv (fsqrt (fadd (fq 4 1) (fmul (rh_sum r) (fq 3 4)))) (fq 2 1)).

(** ** Flashlight -- flashlight.go:25-59; state: smallDistNerf,
    cumulativeStrainTime, result *)
Fixpoint flash_loop (d : difficulty) (cur : dobj) (scaling : f64) (i : nat) (small cum result : f64)
    (prev : list dobj) : f64 * f64 :=
  match prev with
  | [] => (small, result)
  | p :: r =>
      if base_spinner p then flash_loop d cur scaling (S i) small cum result r
      else
        let jump := f_of_g (vdst (stacked_start (po_obj (do_base cur)) (d_Mods d))
                                 (stacked_end (po_obj (do_base p)) (d_Mods d))) in
        let cum := fadd cum (do_StrainTime p) in
        let small := match i with O => fmin (fq 1 1) (fdiv jump (fq 75 1)) | _ => small end in
        let nerf := fmin (fq 1 1) (fdiv (fdiv (do_Jump p) scaling) (fq 25 1)) in
        let term := fdiv (fmul (fmul (fmul (mpow (fq 8 10) (f_of_Z (Z.of_nat i))) nerf) scaling) jump) cum in
        flash_loop d cur scaling (S i) small cum (fadd result term) r
  end.
Definition flash_value (d : difficulty) (prev : list dobj) (cur : dobj) : f64 :=
  if base_spinner cur then f0
  else
    let scaling := fdiv (fq 52 1) (d_CircleRadius d) in
    let '(small, result) := flash_loop d cur scaling 0 (fq 1 1) f0 f0 prev in
    mpow (fmul small result) (fq 2 1).

(** ** Skill -- skill.go *)
(** the StrainValueOf delegate *)
Definition strain_value (k : skill_kind) (d : difficulty) (prev : list dobj) (cur : dobj) : f64 :=
  match k with
  | Aim ws => aim_value ws prev cur
  | Speed => speed_value d prev cur
  | Flash => flash_value d prev cur
  end.
(** CalculateInitialStrain -- skill.go:70-72, speed.go:160-162.  GetPrevious(0)
    is nil when there is no previous object: nil dereference. *)
Definition initial_strain (k : skill_kind) (s : skill) (time : f64) : res f64 :=
  match sk_prev s with
  | [] => Panic
  | p :: _ =>
      let decay := strain_decay k (fsub time (do_StartTime p)) in
      Ok (match k with
          | Speed => fmul (fmul (sk_strain s) (sk_rhythm s)) decay
          | _ => fmul (sk_strain s) decay
          end)
  end.
(** the section loop -- skill.go:85-90, with saveCurrentPeak and
    startNewSectionFrom (skill.go:159-165) *)
Fixpoint section_loop (fuel : nat) (k : skill_kind) (start : f64) (s : skill) : res skill :=
  if fgt start (sk_end s) then
    match fuel with
    | O => Hang
    | S fuel' =>
        let* p := initial_strain k s (sk_end s) in
        section_loop fuel' k start
          {| sk_prev := sk_prev s; sk_strain := sk_strain s; sk_rhythm := sk_rhythm s;
             sk_peak := p; sk_end := fadd (sk_end s) section_length;
             sk_peaks := sk_peaks s ++ [sk_peak s] |}
    end
  else Ok s.
(** processInternal and Process -- skill.go:77-113 *)
Definition process (fuel : nat) (k : skill_kind) (d : difficulty) (s : skill) (cur : dobj) : res skill :=
  let prev := firstn (history_length k) (sk_prev s) in
  let start := do_StartTime cur in
  let en := match prev with
            | [] => fmul (fceil (fdiv start section_length)) section_length
            | _ => sk_end s
            end in
  let* s := section_loop fuel k start
              {| sk_prev := prev; sk_strain := sk_strain s; sk_rhythm := sk_rhythm s;
                 sk_peak := sk_peak s; sk_end := en; sk_peaks := sk_peaks s |} in
  let strain := fadd (fmul (sk_strain s) (strain_decay k (do_DeltaTime cur)))
                     (fmul (strain_value k d prev cur) (skill_multiplier k)) in
  let* rh := match k with Speed => speed_bonus d prev cur | _ => Ok (sk_rhythm s) end in
  let temp := match k with Speed => fmul strain rh | _ => strain end in
  Ok {| sk_prev := cur :: prev; sk_strain := strain; sk_rhythm := rh;
        sk_peak := fmax temp (sk_peak s); sk_end := sk_end s; sk_peaks := sk_peaks s |}.

(** GetCurrentStrainPeaks -- skill.go:123-129 *)
Definition current_peaks (s : skill) : list f64 := sk_peaks s ++ [sk_peak s].

(** reverseSortFloat64s -- skill.go:167-178 *)
Definition reverse_sort (l : list f64) : list f64 := stable_sort (fun a b => fgt a b) l.
(** the reduction of the highest peaks -- skill.go:138-143 *)
Definition reduce_factor (k : skill_kind) (i : nat) : f64 :=
  let n := Z.of_nat (reduced_sections k) in
  let scale := mlog10 (lerpF64 (fq 1 1) (fq 10 1)
                 (clampF64 (fdiv (f_of_Z (Z.of_nat i)) (f_of_Z n)) f0 (fq 1 1))) in
  lerpF64 reduced_baseline (fq 1 1) scale.
Fixpoint reduce_peaks (k : skill_kind) (i : nat) (l : list f64) : list f64 :=
  match l with
  | [] => []
  | x :: r => (if Nat.ltb i (reduced_sections k) then fmul x (reduce_factor k i) else x)
                :: reduce_peaks k (S i) r
  end.
(** the weighted sum -- skill.go:147-150 *)
Fixpoint weighted_sum (w diff weight : f64) (l : list f64) : f64 :=
  match l with
  | [] => diff
  | x :: r => weighted_sum w (fadd diff (fmul x weight)) (fmul weight w) r
  end.
(** DifficultyValue -- skill.go:131-153 *)
Definition difficulty_value_of (k : skill_kind) (peaks : list f64) : f64 :=
  let strains := reverse_sort (reduce_peaks k 0 (reverse_sort peaks)) in
  fmul (weighted_sum (decay_weight k) f0 (fq 1 1) strains) (difficulty_multiplier k).
Definition difficulty_value (k : skill_kind) (s : skill) : f64 := difficulty_value_of k (current_peaks s).
End WithLibm.

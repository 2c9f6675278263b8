(** performance/osu/difficulty.go *)
From Verif Require Export Skills.

Section WithLibm.
Context {M : libm}.

(** ppBase -- pp.go:13-16 *)
Definition pp_base (stars : f64) : f64 :=
  fdiv (mpow (fsub (fmul (fq 5 1) (fmax (fq 1 1) (fdiv stars (fq 675 10000)))) (fq 4 1)) (fq 3 1))
       (fq 100000 1).

(** type Attributes -- difficulty.go:16-37 *)
Record attributes := mkAttr {
  at_Total : f64; at_Aim : f64; at_SliderFactor : f64; at_Speed : f64; at_Flashlight : f64;
  at_ObjectCount : Z; at_Circles : Z; at_Sliders : Z; at_Spinners : Z; at_MaxCombo : Z }.
Definition attr0 : attributes := mkAttr f0 f0 f0 f0 f0 0 0 0 0 0.
(** type StrainPeaks -- difficulty.go:40-52; nil Flashlight is [] *)
Record strain_peaks := mkPeaks {
  pk_Aim : list f64; pk_Speed : list f64; pk_Flashlight : list f64; pk_Total : list f64 }.

(** StarScalingFactor -- difficulty.go:11-14 *)
Definition star_scaling : f64 := fq 675 10000.

(** getStarsFromRawValues -- difficulty.go:55-98 *)
Definition stars_from_raw (rawAim rawAimNS rawSpeed rawFl : f64) (d : difficulty) (a : attributes) : attributes :=
  let aim := fmul (fsqrt rawAim) star_scaling in
  let aimNS := fmul (fsqrt rawAimNS) star_scaling in
  let speed := fmul (fsqrt rawSpeed) star_scaling in
  let fl := fmul (fsqrt rawFl) star_scaling in
  let sf := if fgt aim (fq 1 100000) then fdiv aimNS aim else fq 1 1 in
  let speed := if check_mod d Relax then f0 else speed in
  let bAim := pp_base aim in
  let bSpeed := pp_base speed in
  let bFl := if check_mod d Flashlight then fmul (mpow fl (fq 2 1)) (fq 25 1) else f0 in
  let base := mpow (fadd (fadd (mpow bAim (fq 11 10)) (mpow bSpeed (fq 11 10))) (mpow bFl (fq 11 10)))
                   (fq 10 11) in
  let total :=
    if fgt base (fq 1 100000) then
      fmul (fmul (mcbrt (fq 112 100)) (fq 27 1000))
           (fadd (mcbrt (fmul (fdiv (fq 100000 1) (mpow (fq 2 1) (fq 10 11))) base)) (fq 4 1))
    else f0 in
  {| at_Total := total; at_Aim := aim; at_SliderFactor := sf; at_Speed := speed; at_Flashlight := fl;
     at_ObjectCount := at_ObjectCount a; at_Circles := at_Circles a; at_Sliders := at_Sliders a;
     at_Spinners := at_Spinners a; at_MaxCombo := at_MaxCombo a |}.

(** the four skills; [cs_flash] is None when the mod is off *)
Record skills := mkSkills { cs_aim : skill; cs_aimNS : skill; cs_speed : skill; cs_flash : option skill }.

(** getStars -- difficulty.go:101-115 *)
Definition get_stars (s : skills) (d : difficulty) (a : attributes) : attributes :=
  stars_from_raw (difficulty_value (Aim true) (cs_aim s)) (difficulty_value (Aim false) (cs_aimNS s))
    (difficulty_value Speed (cs_speed s))
    (match cs_flash s with Some f => difficulty_value Flash f | None => f0 end) d a.

(** the Total loop of getPeaks -- difficulty.go:128-138 *)
Definition total_peak (d : difficulty) (aim speed : list f64) (fl : option (list f64)) (i : nat) : res f64 :=
  let* f := match fl with Some l => idx l (Z.of_nat i) | None => Ok f0 end in
  let* a := idx aim (Z.of_nat i) in
  let* s := idx speed (Z.of_nat i) in
  Ok (at_Total (stars_from_raw a a s f d attr0)).
(** getPeaks -- difficulty.go:118-141 *)
Definition get_peaks (aim speed : skill) (fl : option skill) (d : difficulty) : res strain_peaks :=
  let pa := current_peaks aim in
  let ps := current_peaks speed in
  let pf := option_map current_peaks fl in
  let* tot := mapM (total_peak d pa ps pf) (seq 0 (length pa)) in
  Ok (mkPeaks pa ps (match pf with Some l => l | None => [] end) tot).

(** addObjectToAttribs -- difficulty.go:143-155 *)
Definition add_object (o : hobj) (a : attributes) : attributes :=
  let '(c, sl, sp, ticks) :=
    match ho_kind o with
    | KSlider sd => (0, 1, 0, zlen (sl_ticks sd))
    | KCircle => (1, 0, 0, 0)
    | KSpinner => (0, 0, 1, 0)
    end in
  {| at_Total := at_Total a; at_Aim := at_Aim a; at_SliderFactor := at_SliderFactor a;
     at_Speed := at_Speed a; at_Flashlight := at_Flashlight a;
     at_ObjectCount := at_ObjectCount a + 1;
     at_Circles := at_Circles a + c; at_Sliders := at_Sliders a + sl; at_Spinners := at_Spinners a + sp;
     at_MaxCombo := at_MaxCombo a + ticks + 1 |}.

(** construction of the skills -- difficulty.go:160-167, 205-212 *)
Definition new_skills (d : difficulty) : skills :=
  mkSkills skill0 skill0 skill0 (if check_mod d Flashlight then Some skill0 else None).
(** the Process calls of the loops -- difficulty.go:176-182, 222-228 *)
Definition process_all (fuel : nat) (d : difficulty) (s : skills) (o : dobj) : res skills :=
  let* a := process fuel (Aim true) d (cs_aim s) o in
  let* n := process fuel (Aim false) d (cs_aimNS s) o in
  let* p := process fuel Speed d (cs_speed s) o in
  let* f := match cs_flash s with
            | Some f => rmap Some (process fuel Flash d f o)
            | None => Ok None
            end in
  Ok (mkSkills a n p f).

(** calculateSingle -- difficulty.go:157-188 *)
Fixpoint single_loop (fuel : nat) (d : difficulty) (s : skills) (a : attributes)
    (objs : list hobj) (dos : list dobj) (i : nat) : res (skills * attributes) :=
  match dos with
  | [] => Ok (s, a)
  | o :: r =>
      let* h := idx objs (Z.of_nat i + 1) in
      let* s' := process_all fuel d s o in
      single_loop fuel d s' (add_object h a) objs r (S i)
  end.
Definition calculate_single_full (fuel : nat) (objs : list hobj) (d : difficulty) : res (attributes * skills) :=
  let* dos := create_difficulty_objects objs d in
  let* o0 := idx objs 0 in
  let* sa := single_loop fuel d (new_skills d) (add_object o0 attr0) objs dos 0 in
  Ok (get_stars (fst sa) d (snd sa), fst sa).
(** CalculateSingle -- difficulty.go:191-194 *)
Definition calculate_single (fuel : nat) (objs : list hobj) (d : difficulty) : res attributes :=
  rmap fst (calculate_single_full fuel objs d).
(** CalculateSingleWithPeaks -- difficulty.go:197-200 *)
Definition calculate_single_with_peaks (fuel : nat) (objs : list hobj) (d : difficulty)
    : res (attributes * strain_peaks) :=
  let* r := calculate_single_full fuel objs d in
  let* p := get_peaks (cs_aim (snd r)) (cs_speed (snd r)) (cs_flash (snd r)) d in
  Ok (fst r, p).

(** calculateStep -- difficulty.go:202-234; [stars] is the slice built so far *)
Fixpoint step_loop (fuel : nat) (d : difficulty) (s : skills) (stars : list attributes)
    (objs : list hobj) (dos : list dobj) (i : nat) : res (skills * list attributes) :=
  match dos with
  | [] => Ok (s, stars)
  | o :: r =>
      let* a := idx stars (Z.of_nat i) in
      let* h := idx objs (Z.of_nat i + 1) in
      let a := add_object h a in
      let* s' := process_all fuel d s o in
      step_loop fuel d s' (stars ++ [get_stars s' d a]) objs r (S i)
  end.
Definition calculate_step_full (fuel : nat) (objs : list hobj) (d : difficulty) : res (list attributes * skills) :=
  let* dos := create_difficulty_objects objs d in
  let* o0 := idx objs 0 in
  let* ss := step_loop fuel d (new_skills d) [add_object o0 attr0] objs dos 0 in
  Ok (snd ss, fst ss).
(** CalculateStep -- difficulty.go:237-240 *)
Definition calculate_step (fuel : nat) (objs : list hobj) (d : difficulty) : res (list attributes) :=
  rmap fst (calculate_step_full fuel objs d).
(** CalculateStepWithPeaks -- difficulty.go:243-246 *)
Definition calculate_step_with_peaks (fuel : nat) (objs : list hobj) (d : difficulty)
    : res (list attributes * strain_peaks) :=
  let* r := calculate_step_full fuel objs d in
  let* p := get_peaks (cs_aim (snd r)) (cs_speed (snd r)) (cs_flash (snd r)) d in
  Ok (fst r, p).

(** CalculateStrainPeaks -- difficulty.go:249-270 *)
Definition peaks_step (fuel : nat) (d : difficulty) (s : skill * skill * option skill) (o : dobj)
    : res (skill * skill * option skill) :=
  let '(aim, speed, fl) := s in
  let* a := process fuel (Aim true) d aim o in
  let* p := process fuel Speed d speed o in
  let* f := match fl with
            | Some f => rmap Some (process fuel Flash d f o)
            | None => Ok None
            end in
  Ok (a, p, f).
Definition calculate_strain_peaks (fuel : nat) (objs : list hobj) (d : difficulty) : res strain_peaks :=
  let* dos := create_difficulty_objects objs d in
  let* s := foldM (peaks_step fuel d)
              (skill0, skill0, if check_mod d Flashlight then Some skill0 else None) dos in
  let '(aim, speed, fl) := s in
  get_peaks aim speed fl d.
End WithLibm.

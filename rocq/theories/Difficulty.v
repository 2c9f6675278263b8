(** beatmap/difficulty/difficulty.go and the numeric helpers it shares with
    the rest of the code (math/mutils/utils.go). *)
From Verif Require Export Mods.

(** mutils.ClampF64 -- utils.go:12-14 *)
Definition clampF64 (x mn mx : f64) : f64 := fmin mx (fmax mn x).
(** mutils.MinI / MaxI / ClampI -- utils.go:16-34 *)
Definition minI (a b : Z) : Z := if a <? b then a else b.
Definition maxI (a b : Z) : Z := if b <? a then a else b.
Definition clampI (x mn mx : Z) : Z := minI mx (maxI mn x).
(** mutils.LerpF64 -- utils.go:60-62 *)
Definition lerpF64 (mn mx t : f64) : f64 := fadd mn (fmul (fsub mx mn) t).

(** func DifficultyRate -- difficulty.go:129-139 *)
Definition difficulty_rate (diff mn mid mx : f64) : f64 :=
  if fgt diff (fq 5 1) then
    fadd mid (fdiv (fmul (fsub mx mid) (fsub diff (fq 5 1))) (fq 5 1))
  else if flt diff (fq 5 1) then
    fsub mid (fdiv (fmul (fsub mid mn) (fsub (fq 5 1) diff)) (fq 5 1))
  else mid.

(** func DiffFromRate -- difficulty.go:141-150 *)
Definition diff_from_rate (rate mn mid mx : f64) : f64 :=
  let minStep := fdiv (fsub mn mid) (fq 5 1) in
  let maxStep := fdiv (fsub mid mx) (fq 5 1) in
  if fgt rate mid then fdiv (fneg (fsub rate mn)) minStep
  else fsub (fq 5 1) (fdiv (fsub rate mid) maxStep).

(** type Difficulty struct -- difficulty.go:5-22 *)
Record difficulty := mkDifficulty {
  d_hp : f64; d_cs : f64; d_od : f64; d_ar : f64;
  d_Preempt : f64;
  d_CircleRadius : f64;
  d_Mods : modifier;
  d_Hit50 : f64; d_Hit100 : f64; d_Hit300 : f64;
  d_HPMod : f64; d_SpinnerRatio : f64; d_Speed : f64;
  d_ARReal : f64; d_ODReal : f64; d_CustomSpeed : f64 }.

(** func (diff) GetModifiedTime -- difficulty.go:78-86 *)
Definition modified_time (mods : modifier) (custom : f64) (time : f64) : f64 :=
  if mactive mods DoubleTime then fdiv time (fmul (fq 3 2) custom)
  else if mactive mods HalfTime then fdiv time (fmul (fq 3 4) custom)
  else fdiv time custom.
Definition get_modified_time (d : difficulty) (time : f64) : f64 :=
  modified_time (d_Mods d) (d_CustomSpeed d) time.

(** the mod adjustments of calculate -- difficulty.go:38-50 *)
Definition hr_adjust (mods : modifier) (x : f64) (mult : f64) : f64 :=
  if mactive mods HardRock then fmin (fmul x mult) (fq 10 1) else x.
Definition ez_adjust (mods : modifier) (x : f64) : f64 :=
  if mactive mods Easy then fdiv x (fq 2 1) else x.

(** func (diff) calculate -- difficulty.go:35-67 *)
Definition calculate (d : difficulty) : difficulty :=
  let mods := d_Mods d in
  let hp := ez_adjust mods (hr_adjust mods (d_hp d) (fq 14 10)) in
  let cs := ez_adjust mods (hr_adjust mods (d_cs d) (fq 13 10)) in
  let od := ez_adjust mods (hr_adjust mods (d_od d) (fq 14 10)) in
  let ar := ez_adjust mods (hr_adjust mods (d_ar d) (fq 14 10)) in
  let preempt := difficulty_rate ar (fq 1800 1) (fq 1200 1) (fq 450 1) in
  let hit300 := difficulty_rate od (fq 80 1) (fq 50 1) (fq 20 1) in
  {| d_hp := d_hp d; d_cs := d_cs d; d_od := d_od d; d_ar := d_ar d;
     d_Preempt := preempt;
     d_CircleRadius := difficulty_rate cs (fq 544 10) (fq 32 1) (fq 96 10);
     d_Mods := mods;
     d_Hit50 := difficulty_rate od (fq 200 1) (fq 150 1) (fq 100 1);
     d_Hit100 := difficulty_rate od (fq 140 1) (fq 100 1) (fq 60 1);
     d_Hit300 := hit300;
     d_HPMod := hp;
     d_SpinnerRatio := difficulty_rate od (fq 3 1) (fq 5 1) (fq 75 10);
     d_Speed := fdiv (fq 1 1) (get_modified_time d (fq 1 1));
     d_ARReal := diff_from_rate (get_modified_time d preempt) (fq 1800 1) (fq 1200 1) (fq 450 1);
     d_ODReal := diff_from_rate (get_modified_time d hit300) (fq 80 1) (fq 50 1) (fq 20 1);
     d_CustomSpeed := d_CustomSpeed d |}.

(** func NewDifficulty -- difficulty.go:24-33 (other fields start at zero) *)
Definition new_difficulty (hp cs od ar : f64) : difficulty :=
  calculate {| d_hp := hp; d_cs := cs; d_od := od; d_ar := ar;
               d_Preempt := f0; d_CircleRadius := f0; d_Mods := 0;
               d_Hit50 := f0; d_Hit100 := f0; d_Hit300 := f0;
               d_HPMod := f0; d_SpinnerRatio := f0; d_Speed := f0;
               d_ARReal := f0; d_ODReal := f0; d_CustomSpeed := fq 1 1 |}.

(** raw field update, then recalculation *)
Definition with_base (d : difficulty) (hp cs od ar : f64) (mods : modifier) (speed : f64) : difficulty :=
  {| d_hp := hp; d_cs := cs; d_od := od; d_ar := ar;
     d_Preempt := d_Preempt d; d_CircleRadius := d_CircleRadius d; d_Mods := mods;
     d_Hit50 := d_Hit50 d; d_Hit100 := d_Hit100 d; d_Hit300 := d_Hit300 d;
     d_HPMod := d_HPMod d; d_SpinnerRatio := d_SpinnerRatio d; d_Speed := d_Speed d;
     d_ARReal := d_ARReal d; d_ODReal := d_ODReal d; d_CustomSpeed := speed |}.

(** SetMods / SetHP / SetCS / SetOD / SetAR / SetCustomSpeed -- difficulty.go:69-72, 92-127 *)
Definition set_mods (d : difficulty) (m : modifier) : difficulty :=
  calculate (with_base d (d_hp d) (d_cs d) (d_od d) (d_ar d) m (d_CustomSpeed d)).
Definition set_hp (d : difficulty) (x : f64) : difficulty :=
  calculate (with_base d x (d_cs d) (d_od d) (d_ar d) (d_Mods d) (d_CustomSpeed d)).
Definition set_cs (d : difficulty) (x : f64) : difficulty :=
  calculate (with_base d (d_hp d) x (d_od d) (d_ar d) (d_Mods d) (d_CustomSpeed d)).
Definition set_od (d : difficulty) (x : f64) : difficulty :=
  calculate (with_base d (d_hp d) (d_cs d) x (d_ar d) (d_Mods d) (d_CustomSpeed d)).
Definition set_ar (d : difficulty) (x : f64) : difficulty :=
  calculate (with_base d (d_hp d) (d_cs d) (d_od d) x (d_Mods d) (d_CustomSpeed d)).
Definition set_custom_speed (d : difficulty) (x : f64) : difficulty :=
  calculate (with_base d (d_hp d) (d_cs d) (d_od d) (d_ar d) (d_Mods d) x).

(** GetHP / GetCS / GetOD / GetAR -- difficulty.go:88-117 are the fields
    d_hp, d_cs, d_od, d_ar. *)

(** func (diff) CheckModActive -- difficulty.go:74-76 *)
Definition check_mod (d : difficulty) (m : modifier) : bool := mactive (d_Mods d) m.

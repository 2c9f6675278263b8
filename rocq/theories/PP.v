(** performance/osu/pp.go.  Integers are Go ints: additions and
    multiplications that could overflow are wrapped. *)
From Verif Require Export DiffCalc.

Section WithLibm.
Context {M : libm}.

(** type PPv2Results -- pp.go:18-20 *)
Record pp_results := mkResults {
  r_Aim : f64; r_Speed : f64; r_Acc : f64; r_Flashlight : f64; r_Total : f64 }.
(** type PPv2 -- pp.go:23-40 *)
Record ppv2 := mkPP {
  pp_Results : pp_results; pp_attribs : attributes;
  pp_scoreMaxCombo : Z; pp_great : Z; pp_ok : Z; pp_meh : Z; pp_miss : Z; pp_effMiss : Z;
  pp_diff : option difficulty; pp_totalHits : Z; pp_accuracy : f64; pp_accObjects : Z }.

(** calculateEffectiveMissCount -- pp.go:298-313 *)
Definition effective_miss_count (a : attributes) (combo miss total : Z) : Z :=
  let c :=
    if 0 <? at_Sliders a then
      let th := fsub (f_of_Z (at_MaxCombo a)) (fmul (fq 1 10) (f_of_Z (at_Sliders a))) in
      if flt (f_of_Z combo) th then fdiv th (fmax (fq 1 1) (f_of_Z combo)) else f0
    else f0 in
  let c := fmin c (f_of_Z total) in
  maxI miss (int_of_f (ffloor c)).

(** accuracy -- pp.go:67-76 *)
Definition pp_acc (n300 n100 n50 total : Z) : f64 :=
  if total =? 0 then f0
  else
    let acc := fdiv (fadd (fadd (fmul (f_of_Z n50) (fq 50 1)) (fmul (f_of_Z n100) (fq 100 1)))
                          (fmul (f_of_Z n300) (fq 300 1)))
                    (fmul (f_of_Z total) (fq 300 1)) in
    clampF64 acc f0 (fq 1 1).

(** lengthBonus -- pp.go:126-129, 177-180 *)
Definition length_bonus (total : Z) : f64 :=
  let lb := fadd (fq 95 100) (fmul (fq 4 10) (fmin (fq 1 1) (fdiv (f_of_Z total) (fq 2000 1)))) in
  if 2000 <? total then fadd lb (fmul (mlog10 (fdiv (f_of_Z total) (fq 2000 1))) (fq 1 2)) else lb.
(** combo scaling -- pp.go:140, 191, 279 *)
Definition combo_scaling (combo maxCombo : Z) : f64 :=
  fmin (fdiv (mpow (f_of_Z combo) (fq 8 10)) (mpow (f_of_Z maxCombo) (fq 8 10))) (fq 1 1).
(** miss penalty -- pp.go:135 ([expo] is the miss count), 186, 274 *)
Definition miss_penalty (eff total : Z) (expo : f64) : f64 :=
  fmul (fq 97 100)
    (mpow (fsub (fq 1 1) (mpow (fdiv (f_of_Z eff) (f_of_Z total)) (fq 775 1000))) expo).

(** computeAimValue -- pp.go:116-171 *)
Definition compute_aim (p : ppv2) (d : difficulty) : f64 :=
  let a := pp_attribs p in
  let mods := d_Mods d in
  let raw := if mactive mods TouchDevice then mpow (at_Aim a) (fq 8 10) else at_Aim a in
  let v := pp_base raw in
  let lb := length_bonus (pp_totalHits p) in
  let v := fmul v lb in
  let v := if 0 <? pp_effMiss p then fmul v (miss_penalty (pp_effMiss p) (pp_totalHits p) (f_of_Z (pp_effMiss p))) else v in
  let v := if 0 <? at_MaxCombo a then fmul v (combo_scaling (pp_scoreMaxCombo p) (at_MaxCombo a)) else v in
  let arf := if fgt (d_ARReal d) (fq 1033 100) then fmul (fq 3 10) (fsub (d_ARReal d) (fq 1033 100))
             else if flt (d_ARReal d) (fq 8 1) then fmul (fq 1 10) (fsub (fq 8 1) (d_ARReal d))
             else f0 in
  let v := fmul v (fadd (fq 1 1) (fmul arf lb)) in
  let v := if mactive mods Hidden
           then fmul v (fadd (fq 1 1) (fmul (fq 4 100) (fsub (fq 12 1) (d_ARReal d)))) else v in
  let eds := fmul (f_of_Z (at_Sliders a)) (fq 15 100) in
  let v := if 0 <? at_Sliders a then
             let dropped := clampF64
               (f_of_Z (minI (wrap64 (wrap64 (pp_ok p + pp_meh p) + pp_miss p))
                             (wrap64 (at_MaxCombo a - pp_scoreMaxCombo p)))) f0 eds in
             let nerf := fadd (fmul (fsub (fq 1 1) (at_SliderFactor a))
                                    (mpow (fsub (fq 1 1) (fdiv dropped eds)) (fq 3 1)))
                              (at_SliderFactor a) in
             fmul v nerf
           else v in
  let v := fmul v (pp_accuracy p) in
  fmul v (fadd (fq 98 100) (fdiv (mpow (d_ODReal d) (fq 2 1)) (fq 2500 1))).

(** computeSpeedValue -- pp.go:173-217 *)
Definition compute_speed (p : ppv2) (d : difficulty) : f64 :=
  let a := pp_attribs p in
  let mods := d_Mods d in
  let v := pp_base (at_Speed a) in
  let lb := length_bonus (pp_totalHits p) in
  let v := fmul v lb in
  let v := if 0 <? pp_effMiss p
           then fmul v (miss_penalty (pp_effMiss p) (pp_totalHits p) (mpow (f_of_Z (pp_effMiss p)) (fq 875 1000)))
           else v in
  let v := if 0 <? at_MaxCombo a then fmul v (combo_scaling (pp_scoreMaxCombo p) (at_MaxCombo a)) else v in
  let arf := if fgt (d_ARReal d) (fq 1033 100) then fmul (fq 3 10) (fsub (d_ARReal d) (fq 1033 100)) else f0 in
  let v := fmul v (fadd (fq 1 1) (fmul arf lb)) in
  let v := if mactive mods Hidden
           then fmul v (fadd (fq 1 1) (fmul (fq 4 100) (fsub (fq 12 1) (d_ARReal d)))) else v in
  let v := fmul v (fmul (fadd (fq 95 100) (fdiv (mpow (d_ODReal d) (fq 2 1)) (fq 750 1)))
                        (mpow (pp_accuracy p) (fdiv (fsub (fq 145 10) (fmax (d_ODReal d) (fq 8 1))) (fq 2 1)))) in
  let h := fdiv (f_of_Z (pp_totalHits p)) (fq 500 1) in
  let meh := if fge (f_of_Z (pp_meh p)) h then fsub (f_of_Z (pp_meh p)) h else f0 in
  fmul v (mpow (fq 98 100) meh).

(** computeAccuracyValue -- pp.go:219-252 *)
Definition compute_acc (p : ppv2) (d : difficulty) : f64 :=
  let mods := d_Mods d in
  if mactive mods Relax then f0
  else
    let n := pp_accObjects p in
    let b := if 0 <? n then
               fdiv (f_of_Z (wrap64 (wrap64 (wrap64 (wrap64 (pp_great p - wrap64 (pp_totalHits p - n)) * 6)
                                             + wrap64 (pp_ok p * 2)) + pp_meh p)))
                    (fmul (f_of_Z n) (fq 6 1))
             else f0 in
    let b := if flt b f0 then f0 else b in
    let v := fmul (fmul (mpow (fq 152163 100000) (d_ODReal d)) (mpow b (fq 24 1))) (fq 283 100) in
    let v := fmul v (fmin (fq 115 100) (mpow (fdiv (f_of_Z n) (fq 1000 1)) (fq 3 10))) in
    let v := if mactive mods Hidden then fmul v (fq 108 100) else v in
    if mactive mods Flashlight then fmul v (fq 102 100) else v.

(** computeFlashlightValue -- pp.go:254-296 *)
Definition compute_flashlight (p : ppv2) (d : difficulty) : f64 :=
  let a := pp_attribs p in
  if negb (check_mod d Flashlight) then f0
  else
    let raw := if check_mod d TouchDevice then mpow (at_Flashlight a) (fq 8 10) else at_Flashlight a in
    let v := fmul (mpow raw (fq 2 1)) (fq 25 1) in
    let v := if check_mod d Hidden then fmul v (fq 13 10) else v in
    let v := if 0 <? pp_effMiss p
             then fmul v (miss_penalty (pp_effMiss p) (pp_totalHits p) (mpow (f_of_Z (pp_effMiss p)) (fq 875 1000)))
             else v in
    let v := if 0 <? at_MaxCombo a then fmul v (combo_scaling (pp_scoreMaxCombo p) (at_MaxCombo a)) else v in
    let scale := fadd (fq 7 10) (fmul (fq 1 10) (fmin (fq 1 1) (fdiv (f_of_Z (pp_totalHits p)) (fq 200 1)))) in
    let scale := if 200 <? pp_totalHits p
                 then fadd scale (fmul (fq 2 10)
                        (fmin (fq 1 1) (fdiv (f_of_Z (wrap64 (pp_totalHits p - 200))) (fq 200 1))))
                 else scale in
    let v := fmul v scale in
    let v := fmul v (fadd (fq 1 2) (fdiv (pp_accuracy p) (fq 2 1))) in
    fmul v (fadd (fq 98 100) (fdiv (mpow (d_ODReal d) (fq 2 1)) (fq 2500 1))).

(** finalMultiplier -- pp.go:86-99 *)
Definition final_multiplier (mods : modifier) (eff spinners total : Z) : f64 :=
  let f := fq 112 100 in
  let f := if mactive mods NoFail
           then fmul f (fmax (fq 90 100) (fsub (fq 1 1) (fmul (fq 2 100) (f_of_Z eff)))) else f in
  let f := if (0 <? total) && mactive mods SpunOut
           then fmul f (fsub (fq 1 1) (mpow (fdiv (f_of_Z spinners) (f_of_Z total)) (fq 85 100))) else f in
  if mactive mods Relax then fmul f (fq 6 10) else f.

(** PPv2x -- pp.go:42-114: the new receiver state, which is also what is
    returned.  The receiver's old fields are all overwritten before they are
    read; [pp] is kept as a parameter to say so by theorem. *)
Definition ppv2x (pp : ppv2) (attribs : attributes) (combo n300 n100 n50 nmiss : Z) (d : difficulty) : ppv2 :=
  let attribs :=
    {| at_Total := at_Total attribs; at_Aim := at_Aim attribs; at_SliderFactor := at_SliderFactor attribs;
       at_Speed := at_Speed attribs; at_Flashlight := at_Flashlight attribs;
       at_ObjectCount := at_ObjectCount attribs; at_Circles := at_Circles attribs;
       at_Sliders := at_Sliders attribs; at_Spinners := at_Spinners attribs;
       at_MaxCombo := maxI 1 (at_MaxCombo attribs) |} in
  let combo := if combo <? 0 then at_MaxCombo attribs else combo in
  let n300 := if n300 <? 0
              then wrap64 (wrap64 (wrap64 (at_ObjectCount attribs - n100) - n50) - nmiss) else n300 in
  let total := wrap64 (wrap64 (wrap64 (n300 + n100) + n50) + nmiss) in
  let pp := {| pp_Results := pp_Results pp; pp_attribs := attribs; pp_scoreMaxCombo := combo;
               pp_great := n300; pp_ok := n100; pp_meh := n50; pp_miss := nmiss;
               pp_effMiss := pp_effMiss pp; pp_diff := Some d; pp_totalHits := total;
               pp_accuracy := pp_accuracy pp; pp_accObjects := pp_accObjects pp |} in
  let eff := effective_miss_count attribs (pp_scoreMaxCombo pp) (pp_miss pp) (pp_totalHits pp) in
  let acc := pp_acc n300 n100 n50 total in
  let accObjects := if check_mod d ScoreV2 then at_ObjectCount attribs else at_Circles attribs in
  let fm := final_multiplier (d_Mods d) eff (at_Spinners attribs) total in
  let eff' := if mactive (d_Mods d) Relax then minI (wrap64 (wrap64 (eff + n100) + n50)) total else eff in
  let pp := {| pp_Results := pp_Results pp; pp_attribs := pp_attribs pp; pp_scoreMaxCombo := pp_scoreMaxCombo pp;
               pp_great := pp_great pp; pp_ok := pp_ok pp; pp_meh := pp_meh pp; pp_miss := pp_miss pp;
               pp_effMiss := eff'; pp_diff := pp_diff pp; pp_totalHits := pp_totalHits pp;
               pp_accuracy := acc; pp_accObjects := accObjects |} in
  let rAim := compute_aim pp d in
  let rSpeed := compute_speed pp d in
  let rAcc := compute_acc pp d in
  let rFl := compute_flashlight pp d in
  let total_pp := fmul (mpow (fadd (fadd (fadd (mpow rAim (fq 11 10)) (mpow rSpeed (fq 11 10)))
                                         (mpow rAcc (fq 11 10))) (mpow rFl (fq 11 10))) (fq 10 11)) fm in
  {| pp_Results := mkResults rAim rSpeed rAcc rFl total_pp; pp_attribs := pp_attribs pp;
     pp_scoreMaxCombo := pp_scoreMaxCombo pp; pp_great := pp_great pp; pp_ok := pp_ok pp;
     pp_meh := pp_meh pp; pp_miss := pp_miss pp; pp_effMiss := pp_effMiss pp; pp_diff := pp_diff pp;
     pp_totalHits := pp_totalHits pp; pp_accuracy := pp_accuracy pp; pp_accObjects := pp_accObjects pp |}.
End WithLibm.

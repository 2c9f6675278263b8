#!/bin/sh
# Extracts the model (after building rocq/) and runs it on the maps in /repo/test.
# Usage: sh run.sh [scratch directory]
set -e
D=${1:-/tmp/gosu-validation}; mkdir -p "$D"; cd "$D"
cat > extract.v <<'END_OF_FILE'
(* Extraction of the model to OCaml for a comparison with the expected values
   in /repo/test.  Not part of the proof build. *)
From Verif Require Import Parser PP.
Require Import ExtrOcamlBasic ExtrOcamlString ExtrOcamlZInt ExtrOcamlNatInt.
Extraction Language OCaml.
Extract Constant f64 => "float".
Extract Constant f32 => "float".
Extract Inlined Constant fadd => "( +. )".
Extract Inlined Constant fsub => "( -. )".
Extract Inlined Constant fmul => "( *. )".
Extract Inlined Constant fdiv => "( /. )".
Extract Inlined Constant fneg => "( ~-. )".
Extract Inlined Constant fsqrt => "Float.sqrt".
Extract Inlined Constant fabs => "Float.abs".
Extract Inlined Constant ffloor => "Float.floor".
Extract Inlined Constant fceil => "Float.ceil".
Extract Inlined Constant flt => "(fun (a:float) b -> a < b)".
Extract Inlined Constant fle => "(fun (a:float) b -> a <= b)".
Extract Inlined Constant fgt => "(fun (a:float) b -> a > b)".
Extract Inlined Constant fge => "(fun (a:float) b -> a >= b)".
Extract Inlined Constant feq => "(fun (a:float) b -> a = b)".
Extract Inlined Constant fne => "(fun (a:float) b -> a <> b)".
Extract Inlined Constant fisnan => "Float.is_nan".
Extract Inlined Constant fnan => "Float.nan".
Extract Inlined Constant finf => "Float.infinity".
Extract Inlined Constant fninf => "Float.neg_infinity".
Extract Inlined Constant f0 => "0.0".
Extract Inlined Constant f_of_Z => "float_of_int".
Extract Inlined Constant is_pinf => "(fun a -> a = Float.infinity)".
Extract Inlined Constant is_ninf => "(fun a -> a = Float.neg_infinity)".
Extract Inlined Constant is_zero => "(fun a -> a = 0.0)".
Extract Inlined Constant fmax => "Rt.fmax".
Extract Inlined Constant fmin => "Rt.fmin".
Extract Inlined Constant int_of_f => "Rt.int_of_f".
Extract Inlined Constant fmod => "Float.rem".
Extract Inlined Constant gadd => "(fun a b -> Rt.r32 (a +. b))".
Extract Inlined Constant gsub => "(fun a b -> Rt.r32 (a -. b))".
Extract Inlined Constant gmul => "(fun a b -> Rt.r32 (a *. b))".
Extract Inlined Constant gdiv => "(fun a b -> Rt.r32 (a /. b))".
Extract Inlined Constant gneg => "( ~-. )".
Extract Inlined Constant glt => "(fun (a:float) b -> a < b)".
Extract Inlined Constant gle => "(fun (a:float) b -> a <= b)".
Extract Inlined Constant ggt => "(fun (a:float) b -> a > b)".
Extract Inlined Constant gge => "(fun (a:float) b -> a >= b)".
Extract Inlined Constant geq => "(fun (a:float) b -> a = b)".
Extract Inlined Constant g0 => "0.0".
Extract Inlined Constant g_of_Z => "(fun z -> Rt.r32 (float_of_int z))".
Extract Inlined Constant g_of_f => "Rt.r32".
Extract Inlined Constant f_of_g => "(fun (x:float) -> x)".
Extract Inlined Constant fpi => "3.14159265358979323846264338327950288".
Extract Inlined Constant fpi_2 => "1.57079632679489661923132169163975144".
Extract Inlined Constant fpi_6 => "0.523598775598298873077107230546583814".
Extract Inlined Constant f5pi_6 => "2.61799387799149436538553615273291907".
Extract Inlined Constant gpi => "(Rt.r32 3.14159265358979323846264338327950288)".
Extract Inlined Constant g2pi => "(Rt.r32 6.28318530717958647692528676655900577)".
Extract Inlined Constant parse_f64 => "Rt.parse_f64".
Extract Inlined Constant parse_f32 => "(fun s -> Rt.r32 (Rt.parse_f64 s))".
Extract Inlined Constant wrap64 => "(fun (x:int) -> x)".
Extract Inlined Constant parse_int => "Rt.parse_int".
Extract Inlined Constant atoi => "Rt.parse_int".
Extraction "model.ml" parse_bytes calculate_single calculate_step calculate_single_with_peaks
  calculate_strain_peaks ppv2x set_mods parse_mods mods_string DoubleTime HardRock.
END_OF_FILE
cat > rt.ml <<'END_OF_FILE'
let r32 (x : float) = Int32.float_of_bits (Int32.bits_of_float x)
let fmax (x : float) y =
  if x = infinity || y = infinity then infinity
  else if Float.is_nan x || Float.is_nan y then nan
  else if x = 0.0 && y = 0.0 then (if Float.sign_bit x then y else x)
  else if x > y then x else y
let fmin (x : float) y =
  if x = neg_infinity || y = neg_infinity then neg_infinity
  else if Float.is_nan x || Float.is_nan y then nan
  else if x = 0.0 && y = 0.0 then (if Float.sign_bit x then x else y)
  else if x < y then x else y
let int_of_f x = if Float.is_nan x || Float.abs x > 1e18 then min_int else int_of_float x
let str l = String.of_seq (List.to_seq l)
let parse_f64 l = match float_of_string_opt (str l) with Some f -> f | None -> 0.0
let parse_int l = match int_of_string_opt (str l) with Some i -> i | None -> 0
END_OF_FILE
cat > main.ml <<'END_OF_FILE'
open Model
let read f = let ic = open_in_bin f in let n = in_channel_length ic in
  let s = really_input_string ic n in close_in ic; List.of_seq (String.to_seq s)
let m = { mpow = ( ** ); mlog10 = log10; mcbrt = Float.cbrt; msin = sin; mcos = cos; macos = acos; matan2 = Float.atan2 }
let fuel = 100000000
let get = function Ok a -> a | Panic -> failwith "panic" | Hang -> failwith "hang"
let load f = match get (parse_bytes m fuel (read f)) with Some b -> b | None -> failwith "corrupted"
let chk name exp act = Printf.printf "%-12s expected %.12f got %.12f %s\n" name exp act
  (if Float.abs (exp -. act) < 1e-4 then "ok" else "MISMATCH")
let () =
  let dir = Sys.argv.(1) in
  let lost = dir ^ "/inabakumori - Lost Umbrella (Ryuusei Aika) [________].osu" in
  let lost16 = dir ^ "/inabakumori - Lost Umbrella (Ryuusei Aika) [________] utf16.osu" in
  let av = dir ^ "/Avenged Sevenfold - Save Me (Drummer) [Tragedy].osu" in
  List.iter (fun f ->
    let b = load f in
    let s = get (calculate_single m fuel b.bm_HitObjects b.bm_Difficulty) in
    chk "Aim" 4.633597654263426 s.at_Aim; chk "Speed" 2.812916095444383 s.at_Speed;
    chk "Total" 8.234703277960627 s.at_Total) [lost; lost16];
  let b = load av in
  let pp d (a,sp,ac,t) =
    let s = get (calculate_single m fuel b.bm_HitObjects d) in
    let z = { r_Aim=0.;r_Speed=0.;r_Acc=0.;r_Flashlight=0.;r_Total=0.} in
    let p0 = { pp_Results = z; pp_attribs = s; pp_scoreMaxCombo=0; pp_great=0; pp_ok=0; pp_meh=0; pp_miss=0;
               pp_effMiss=0; pp_diff=None; pp_totalHits=0; pp_accuracy=0.; pp_accObjects=0 } in
    let r = (ppv2x m p0 s (-1) (-1) 0 0 0 d).pp_Results in
    chk "Aim" a r.r_Aim; chk "Speed" sp r.r_Speed; chk "Acc" ac r.r_Acc; chk "Total" t r.r_Total in
  pp b.bm_Difficulty (170.74687153986574,173.08993579731623,130.85913858310036,481.4974251130584);
  pp (set_mods b.bm_Difficulty doubleTime) (569.94426438669574964,875.1324756257907,246.77051962773746,1733.49497453401318126);
  pp (set_mods b.bm_Difficulty hardRock) (219.08610212044914,195.3061931864951,216.558331574877,639.5804375142908)
END_OF_FILE
coqc -Q /verif/rocq/theories Verif extract.v
ocamlfind ocamlopt -O3 -w -a rt.ml model.mli model.ml main.ml -o val
./val /repo/test

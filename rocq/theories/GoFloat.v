(** IEEE-754 arithmetic as Go specifies it: float64 is binary64, float32 is
    binary32, all operations round to nearest even, no fused multiply-add
    (the amd64 code generator; see DESIGN.md), one NaN.
    Built on Flocq's [BinarySingleNaN]. *)
From Verif Require Export GoBase.
From Flocq Require Export IEEE754.BinarySingleNaN.
From Flocq Require Import Core.

#[global] Instance p53 : Prec_gt_0 53. Proof. reflexivity. Qed.
#[global] Instance pe53 : Prec_lt_emax 53 1024. Proof. reflexivity. Qed.
#[global] Instance p24 : Prec_gt_0 24. Proof. reflexivity. Qed.
#[global] Instance pe24 : Prec_lt_emax 24 128. Proof. reflexivity. Qed.

Definition f64 := binary_float 53 1024.
Definition f32 := binary_float 24 128.

(** ** float64 *)
Definition fadd (a b : f64) : f64 := Bplus mode_NE a b.
Definition fsub (a b : f64) : f64 := Bminus mode_NE a b.
Definition fmul (a b : f64) : f64 := Bmult mode_NE a b.
Definition fdiv (a b : f64) : f64 := Bdiv mode_NE a b.
Definition fneg (a : f64) : f64 := Bopp a.
Definition fsqrt (a : f64) : f64 := Bsqrt mode_NE a.      (* math.Sqrt *)
Definition fabs (a : f64) : f64 := Babs a.                (* math.Abs *)
Definition ffloor (a : f64) : f64 := Bnearbyint mode_DN a. (* math.Floor *)
Definition fceil (a : f64) : f64 := Bnearbyint mode_UP a.  (* math.Ceil *)
Definition flt (a b : f64) : bool := Bltb a b.            (* a < b *)
Definition fle (a b : f64) : bool := Bleb a b.            (* a <= b *)
Definition fgt (a b : f64) : bool := Bltb b a.            (* a > b *)
Definition fge (a b : f64) : bool := Bleb b a.            (* a >= b *)
Definition feq (a b : f64) : bool := Beqb a b.            (* a == b *)
Definition fne (a b : f64) : bool := negb (Beqb a b).     (* a != b *)
Definition fisnan (a : f64) : bool := is_nan a.           (* math.IsNaN *)
Definition fnan : f64 := B754_nan.
Definition finf : f64 := B754_infinity false.
Definition fninf : f64 := B754_infinity true.
Definition f0 : f64 := B754_zero false.

(** float64(i) for an integer i: nearest even. *)
Definition f_of_Z (z : Z) : f64 := binary_normalize 53 1024 p53 pe53 mode_NE z 0 false.

(** The float64 nearest to the constant n/d (Go evaluates constant
    expressions exactly and rounds once).  Correct when n and d are
    integers below 2^53, which holds for every use. *)
Definition fq (n d : Z) : f64 := fdiv (f_of_Z n) (f_of_Z d).

(** math.Max / math.Min (Go standard library): infinities first, then NaN,
    then signed zeros, then comparison. *)
Definition is_pinf (a : f64) : bool := match a with B754_infinity false => true | _ => false end.
Definition is_ninf (a : f64) : bool := match a with B754_infinity true => true | _ => false end.
Definition is_zero (a : f64) : bool := match a with B754_zero _ => true | _ => false end.
Definition fmax (x y : f64) : f64 :=
  if is_pinf x || is_pinf y then finf
  else if fisnan x || fisnan y then fnan
  else if is_zero x && is_zero y then (if Bsign x then y else x)
  else if fgt x y then x else y.
Definition fmin (x y : f64) : f64 :=
  if is_ninf x || is_ninf y then fninf
  else if fisnan x || fisnan y then fnan
  else if is_zero x && is_zero y then (if Bsign x then x else y)
  else if flt x y then x else y.

(** int(x): truncation toward zero; out of range and NaN give the amd64
    result 0x8000000000000000. *)
Definition int_of_f (x : f64) : Z :=
  match x with
  | B754_nan | B754_infinity _ => min_int64
  | _ => let t := Btrunc x in
         if (min_int64 <=? t) && (t <=? max_int64) then t else min_int64
  end.

(** math.Mod: the exact remainder of truncated division, with the sign of x. *)
Definition fmod (x y : f64) : f64 :=
  match x, y with
  | B754_nan, _ | _, B754_nan | B754_infinity _, _ | _, B754_zero _ => fnan
  | _, B754_infinity _ => x
  | B754_zero _, _ => x
  | B754_finite sx mx ex _, B754_finite _ my ey _ =>
      let e := Z.min ex ey in
      let a := Zpos mx * 2 ^ (ex - e) in
      let b := Zpos my * 2 ^ (ey - e) in
      let r := a mod b in
      binary_normalize 53 1024 p53 pe53 mode_NE (if sx then - r else r) e sx
  end.

(** ** float32 *)
Definition gadd (a b : f32) : f32 := Bplus mode_NE a b.
Definition gsub (a b : f32) : f32 := Bminus mode_NE a b.
Definition gmul (a b : f32) : f32 := Bmult mode_NE a b.
Definition gdiv (a b : f32) : f32 := Bdiv mode_NE a b.
Definition gneg (a : f32) : f32 := Bopp a.
Definition glt (a b : f32) : bool := Bltb a b.
Definition gle (a b : f32) : bool := Bleb a b.
Definition ggt (a b : f32) : bool := Bltb b a.
Definition gge (a b : f32) : bool := Bleb b a.
Definition geq (a b : f32) : bool := Beqb a b.
Definition g0 : f32 := B754_zero false.
Definition g_of_Z (z : Z) : f32 := binary_normalize 24 128 p24 pe24 mode_NE z 0 false.
(** The float32 nearest to n/d; n and d below 2^24. *)
Definition gq (n d : Z) : f32 := gdiv (g_of_Z n) (g_of_Z d).

(** float32(x) and float64(x) conversions. *)
Definition g_of_f (x : f64) : f32 :=
  match x with
  | B754_nan => B754_nan
  | B754_infinity s => B754_infinity s
  | B754_zero s => B754_zero s
  | B754_finite s m e _ => binary_normalize 24 128 p24 pe24 mode_NE (cond_Zopp s (Zpos m)) e s
  end.
Definition f_of_g (x : f32) : f64 :=
  match x with
  | B754_nan => B754_nan
  | B754_infinity s => B754_infinity s
  | B754_zero s => B754_zero s
  | B754_finite s m e _ => binary_normalize 53 1024 p53 pe53 mode_NE (cond_Zopp s (Zpos m)) e s
  end.

(** int(x) for float32 x. *)
Definition int_of_g (x : f32) : Z := int_of_f (f_of_g x).

(** ** The part of Go's math library that is not exactly specified by IEEE.
    These functions are external to /repo; every definition and theorem is
    parametric in them.  What a theorem assumes about them, if anything, is a
    visible hypothesis of that theorem. *)
Class libm := {
  mpow : f64 -> f64 -> f64;   (* math.Pow *)
  mlog10 : f64 -> f64;        (* math.Log10 *)
  mcbrt : f64 -> f64;         (* math.Cbrt *)
  msin : f64 -> f64;          (* math.Sin *)
  mcos : f64 -> f64;          (* math.Cos *)
  macos : f64 -> f64;         (* math.Acos *)
  matan2 : f64 -> f64 -> f64  (* math.Atan2 *)
}.

(** Correctly rounded quotient of two positive integers of any size, with a
    sign (n/d with a sticky bit, then one rounding).  Used for constants with
    long expansions and by strconv.ParseFloat. *)
Definition ratio_round (prec emax : Z) (Hp : Prec_gt_0 prec) (He : Prec_lt_emax prec emax)
    (sx : bool) (n d : Z) : binary_float prec emax :=
  let s := Z.max 0 (Z.log2 d - Z.log2 n + prec + 3) in
  let '(q, r) := Z.div_eucl (n * 2 ^ s) d in
  let m := 2 * q + (if r =? 0 then 0 else 1) in
  binary_normalize prec emax Hp He mode_NE (cond_Zopp sx m) (- s - 1) sx.
Definition fratio (n d : Z) : f64 := ratio_round 53 1024 p53 pe53 false n d.
Definition gratio (n d : Z) : f32 := ratio_round 24 128 p24 pe24 false n d.

(** math.Pi as an untyped constant (62 digits), and the constant expressions
    built from it, each rounded once. *)
Definition pi_num : Z := 314159265358979323846264338327950288419716939937510582097494459.
Definition pi_den : Z := 10 ^ 62.
Definition fpi : f64 := fratio pi_num pi_den.
Definition fpi_2 : f64 := fratio pi_num (2 * pi_den).       (* math.Pi/2 *)
Definition fpi_6 : f64 := fratio pi_num (6 * pi_den).       (* math.Pi/6 *)
Definition f5pi_6 : f64 := fratio (5 * pi_num) (6 * pi_den). (* 5.0/6*math.Pi *)
Definition gpi : f32 := gratio pi_num pi_den.               (* math32.Pi *)
Definition g2pi : f32 := gratio (2 * pi_num) pi_den.        (* 2*math.Pi as float32 *)

(** Specification vocabulary: numbers as they are written in a file. *)
From Coq Require Import Reals.
From Flocq Require Import Core BinarySingleNaN.
From Verif Require Import GoBase.
Open Scope Z_scope.

(** decimal digits, most significant first *)
Definition digits (ds : list Z) : Prop := Forall (fun d => 0 <= d <= 9) ds.
Definition show (ds : list Z) : str := map (fun d => chr (Z.to_N (48 + d))) ds.
Fixpoint dec (ds : list Z) : Z := match ds with [] => 0 | d :: r => d * 10 ^ zlen r + dec r end.
Inductive sign := Unsigned | Plus | Minus.
Definition sign_str (s : sign) : str := match s with Unsigned => [] | Plus => lit "+" | Minus => lit "-" end.
Definition is_minus (s : sign) : bool := match s with Minus => true | _ => false end.
Definition signed (s : sign) (z : Z) : Z := if is_minus s then - z else z.

(** sign, digits, fraction, exponent: "12", "-.5", "1.", "+1.5E-3" *)
Record literal := mkLit { lt_sign : sign; lt_int : list Z; lt_frac : option (list Z); lt_exp : option (bool * sign * list Z) }.
Definition frac_digits (l : literal) : list Z := match lt_frac l with None => [] | Some f => f end.
Definition well_formed (l : literal) : Prop :=
  digits (lt_int l ++ frac_digits l) /\ lt_int l ++ frac_digits l <> [] /\
  match lt_exp l with None => True | Some (_, _, ds) => digits ds /\ ds <> [] /\ dec ds < 100000 end.
Definition written (l : literal) : str :=
  sign_str (lt_sign l) ++ show (lt_int l) ++ match lt_frac l with None => [] | Some f => lit "." ++ show f end ++
  match lt_exp l with None => [] | Some (up, s, ds) => lit (if up then "E" else "e") ++ sign_str s ++ show ds end.
Definition exponent (l : literal) : Z := match lt_exp l with None => 0 | Some (_, s, ds) => signed s (dec ds) end.
Definition value (l : literal) : R :=
  (IZR (signed (lt_sign l) (dec (lt_int l ++ frac_digits l))) * powerRZ 10 (exponent l - zlen (frac_digits l)))%R.

(** [f] is the float nearest to [v], ties to even, or an infinity with the
    sign [sx] if that is out of range *)
Definition nearest_float (prec emax : Z) (sx : bool) (v : R) (f : binary_float prec emax) : Prop :=
  let r := round radix2 (FLT_exp (3 - emax - prec) prec) ZnearestE v in
  ((Rabs r < bpow radix2 emax)%R /\ is_finite f = true /\ B2R f = r /\ Bsign f = sx) \/ ((bpow radix2 emax <= Rabs r)%R /\ f = B754_infinity sx).

(** a byte no number contains: not a letter, digit, sign, dot or underscore *)
Definition foreign (c : ascii) : Prop :=
  let b := byte_of c in ~ (48 <= b <= 57) /\ ~ (65 <= b <= 90) /\ ~ (97 <= b <= 122) /\ b <> 43 /\ b <> 45 /\ b <> 46 /\ b <> 95.
(** letters up to case *)
Definition same_letters (s : str) (t : string) : Prop := map (fun c => if (65 <=? byte_of c) && (byte_of c <=? 90) then chr (N_of_ascii c + 32) else c) s = lit t.

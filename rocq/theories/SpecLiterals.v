(** Specification vocabulary: every way to write a number, decimal or hexadecimal, with
    or without underscores between its digits. *)
From Coq Require Import Reals.
From Verif Require Import GoBase SpecNumbers.
Open Scope Z_scope.

(** digits, in hexadecimal also a to f in either case *)
Definition figure (hex : bool) (c : ascii) : Prop :=
  let b := byte_of c in 48 <= b <= 57 \/ (hex = true /\ (65 <= b <= 70 \/ 97 <= b <= 102)).
Definition figure_value (c : ascii) : Z :=
  let b := byte_of c in if b <=? 57 then b - 48 else if b <=? 70 then b - 55 else b - 87.
(** the number a row of figures denotes, in base B *)
Definition denotes (B : Z) (s : str) : Z := fold_left (fun v c => v * B + figure_value c) s 0.

(** sign, "0x" or "0X" if hexadecimal, figures, fraction, exponent: "12", "-.5", "1e3",
    "0x1.8p-1" *)
Record numeral := mkNumeral { nm_sign : sign; nm_hex : option bool; nm_int : str; nm_frac : option str; nm_exp : option (bool * sign * str) }.
Definition is_hex (n : numeral) : bool := match nm_hex n with None => false | _ => true end.
Definition fraction (n : numeral) : str := match nm_frac n with None => [] | Some f => f end.
Definition proper (n : numeral) : Prop :=
  Forall (figure (is_hex n)) (nm_int n ++ fraction n) /\ nm_int n ++ fraction n <> [] /\
  match nm_exp n with None => is_hex n = false | Some (_, _, ds) => Forall (figure false) ds /\ ds <> [] end.
Definition prefix_of (n : numeral) : str := match nm_hex n with None => [] | Some false => lit "0x" | Some true => lit "0X" end.
Definition exp_letter (hex up : bool) : string := if hex then (if up then "P" else "p") else (if up then "E" else "e").
Definition body_of (n : numeral) : str :=
  nm_int n ++ match nm_frac n with None => [] | Some f => lit "." ++ f end ++
  match nm_exp n with None => [] | Some (up, s, ds) => lit (exp_letter (is_hex n) up) ++ sign_str s ++ ds end.
(** every underscore has a figure on both sides; the first may also follow "0x" *)
Definition separated (hex : bool) (s : str) : Prop := forall a b, s = a ++ "_"%char :: b ->
  ((hex = true /\ a = []) \/ exists a' c, a = a' ++ [c] /\ figure hex c) /\ exists c b', b = c :: b' /\ figure hex c.
Definition without_underscores (s : str) : str := filter (fun c => negb (Ascii.eqb c "_")) s.
(** the text is this number, perhaps with underscores *)
Definition spells (t : str) (n : numeral) : Prop :=
  exists body, t = sign_str (nm_sign n) ++ prefix_of n ++ body /\ without_underscores body = body_of n /\ separated (is_hex n) body.
Definition power (n : numeral) : Z := match nm_exp n with None => 0 | Some (_, s, ds) => signed s (denotes 10 ds) end.
Definition worth (n : numeral) : R :=
  (IZR (signed (nm_sign n) (denotes (if is_hex n then 16 else 10) (nm_int n ++ fraction n))) *
   (if is_hex n then powerRZ 2 (power n - 4 * zlen (fraction n)) else powerRZ 10 (power n - zlen (fraction n))))%R.
(** exponents below 100000 *)
Definition usual (n : numeral) : Prop := Z.abs (power n) < 100000.

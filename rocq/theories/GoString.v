(** The parts of Go's strings and strconv packages used by the parser.
    These are standard library functions (not in /repo); they are modelled on
    byte strings from their documented behaviour.  All separators the repo
    uses are single bytes. *)
From Verif Require Export GoBase GoFloat.
From Flocq Require Import Core.

(** strings.HasPrefix *)
Fixpoint has_prefix (s p : str) : bool :=
  match p, s with
  | [], _ => true
  | _, [] => false
  | c :: p', d :: s' => Ascii.eqb c d && has_prefix s' p'
  end.

(** strings.TrimPrefix *)
Definition trim_prefix (s p : str) : str :=
  if has_prefix s p then skipn (length p) s else s.

(** strings.Contains for a one-byte needle *)
Definition contains (s : str) (c : ascii) : bool := existsb (Ascii.eqb c) s.

(** strings.Split(s, c) / SplitN(s, c, -1): always at least one field. *)
Fixpoint split (c : ascii) (s : str) : list str :=
  match s with
  | [] => [[]]
  | d :: r =>
      if Ascii.eqb c d then [] :: split c r
      else match split c r with
           | f :: fs => (d :: f) :: fs
           | [] => [[d]]
           end
  end.

(** strings.SplitN(s, c, 2): cut at the first separator. *)
Fixpoint split2 (c : ascii) (s : str) : list str :=
  match s with
  | [] => [[]]
  | d :: r =>
      if Ascii.eqb c d then [[]; r]
      else match split2 c r with
           | f :: fs => (d :: f) :: fs
           | [] => [[d]]
           end
  end.

(** strings.Replace(s, c, "", -1) for a one-byte c *)
Definition remove_byte (c : ascii) (s : str) : str := filter (fun d => negb (Ascii.eqb c d)) s.

(** strings.TrimLeft / TrimRight with a one-byte cutset *)
Fixpoint trim_left1 (c : ascii) (s : str) : str :=
  match s with
  | d :: r => if Ascii.eqb c d then trim_left1 c r else s
  | [] => []
  end.
Definition trim_right1 (c : ascii) (s : str) : str := rev (trim_left1 c (rev s)).

(** strings.TrimSpace: the white space runes of unicode.IsSpace in UTF-8.
    [sp_len s] is the length of the white space rune s starts with, or 0. *)
Definition sp1 (a : ascii) : bool :=
  let a := byte_of a in ((9 <=? a) && (a <=? 13)) || (a =? 32).
Definition sp2 (a b : ascii) : bool :=
  let a := byte_of a in let b := byte_of b in (a =? 194) && ((b =? 133) || (b =? 160)).
Definition sp3 (a b c : ascii) : bool :=
  let a := byte_of a in let b := byte_of b in let c := byte_of c in
  ((a =? 225) && (b =? 154) && (c =? 128))
  || ((a =? 226) && (b =? 128) &&
      (((128 <=? c) && (c <=? 138)) || (c =? 168) || (c =? 169) || (c =? 175)))
  || ((a =? 226) && (b =? 129) && (c =? 159))
  || ((a =? 227) && (b =? 128) && (c =? 128)).
Definition sp_len (s : str) : nat :=
  match s with
  | [] => 0
  | a :: r => if sp1 a then 1 else
      match r with
      | [] => 0
      | b :: r' => if sp2 a b then 2 else
          match r' with
          | [] => 0
          | c :: _ => if sp3 a b c then 3 else 0
          end
      end
  end%nat.
(** same, reading a reversed string backwards *)
Definition sp_len_rev (s : str) : nat :=
  match s with
  | [] => 0
  | a :: r => if sp1 a then 1 else
      match r with
      | [] => 0
      | b :: r' => if sp2 b a then 2 else
          match r' with
          | [] => 0
          | c :: _ => if sp3 c b a then 3 else 0
          end
      end
  end%nat.
Fixpoint trim_sp (sp : str -> nat) (fuel : nat) (s : str) : str :=
  match fuel with
  | O => s
  | S fuel' => match sp s with O => s | n => trim_sp sp fuel' (skipn n s) end
  end.
Definition trim_space (s : str) : str :=
  let l := trim_sp sp_len (length s) s in
  rev (trim_sp sp_len_rev (length l) (rev l)).

(** ** strconv *)
Definition is_digit (c : ascii) : bool := (48 <=? byte_of c) && (byte_of c <=? 57).
Definition digit_val (c : ascii) : Z := byte_of c - 48.

(** strconv.ParseUint(s, 10, 64).  Errors are not distinguished from their
    returned value except that the callers need to know a syntax error. *)
Inductive uint_res := USyntax | URange | UVal (n : Z).
Definition max_uint64 : Z := 2^64 - 1.
Fixpoint parse_digits (n : Z) (s : str) : uint_res :=
  match s with
  | [] => UVal n
  | c :: r =>
      if is_digit c then
        let n' := n * 10 + digit_val c in
        if max_uint64 <? n' then URange else parse_digits n' r
      else USyntax
  end.
Definition parse_uint (s : str) : uint_res :=
  match s with [] => USyntax | _ => parse_digits 0 s end.

(** First result of strconv.ParseInt(s, 10, 64) and strconv.Atoi(s); the repo
    always discards the error.  Syntax errors give 0, range errors the
    nearest int64. *)
Definition parse_int (s : str) : Z :=
  let '(neg, body) := match s with
    | "+"%char :: r => (false, r)
    | "-"%char :: r => (true, r)
    | _ => (false, s)
    end in
  match parse_uint body with
  | USyntax => 0
  | URange => if neg then min_int64 else max_int64
  | UVal n => if neg then (if 2^63 <? n then min_int64 else - n)
              else (if 2^63 <=? n then max_int64 else n)
  end.
Definition atoi := parse_int.

(** ** strconv.ParseFloat, first result only (errors discarded everywhere).
    Syntax error: 0.  Out of range: an infinity. *)
Definition lower (c : ascii) : ascii :=
  if (65 <=? byte_of c) && (byte_of c <=? 90) then chr (N_of_ascii c + 32) else c.
Definition lowers (s : str) : str := map lower s.

Inductive special := SpInf (neg : bool) | SpNaN.
Definition parse_special (s : str) : option special :=
  let inf r := str_eqb (lowers r) (lit "inf") || str_eqb (lowers r) (lit "infinity") in
  match s with
  | "+"%char :: r => if inf r then Some (SpInf false) else None
  | "-"%char :: r => if inf r then Some (SpInf true) else None
  | _ => if inf s then Some (SpInf false)
         else if str_eqb (lowers s) (lit "nan") then Some SpNaN else None
  end.

(** underscoreOK: underscores only between digits (or after a base prefix). *)
Inductive saw_t := SawStart | SawDigit | SawUnder | SawOther.
Definition is_hex_letter (c : ascii) : bool :=
  let b := byte_of (lower c) in (97 <=? b) && (b <=? 102).
Fixpoint underscore_loop (hex : bool) (saw : saw_t) (s : str) : bool :=
  match s with
  | [] => match saw with SawUnder => false | _ => true end
  | c :: r =>
      if is_digit c || (hex && is_hex_letter c) then underscore_loop hex SawDigit r
      else if Ascii.eqb c "_" then
        match saw with SawDigit => underscore_loop hex SawUnder r | _ => false end
      else match saw with SawUnder => false | _ => underscore_loop hex SawOther r end
  end.
Definition strip_sign (s : str) : bool * str :=
  match s with
  | "+"%char :: r => (false, r)
  | "-"%char :: r => (true, r)
  | _ => (false, s)
  end.
Definition underscore_ok (s : str) : bool :=
  let b := snd (strip_sign s) in
  match b with
  | "0"%char :: p :: r =>
      if Ascii.eqb (lower p) "x" then underscore_loop true SawDigit r
      else if Ascii.eqb (lower p) "b" || Ascii.eqb (lower p) "o" then underscore_loop false SawDigit r
      else underscore_loop false SawStart b
  | _ => underscore_loop false SawStart b
  end.

(** Mantissa scan (readFloat): accumulated integer, number of digits after
    the point, whether any digit / dot / underscore was seen, and the rest. *)
Record mant := { m_val : Z; m_frac : Z; m_digits : bool; m_dot : bool; m_under : bool; m_rest : str }.
Definition digit_in (base : Z) (c : ascii) : option Z :=
  if is_digit c then Some (digit_val c)
  else if (base =? 16) && is_hex_letter c then Some (byte_of (lower c) - 87)
  else None.
Fixpoint read_mant (base : Z) (v fr : Z) (dg dot un : bool) (s : str) : mant :=
  match s with
  | [] => {| m_val := v; m_frac := fr; m_digits := dg; m_dot := dot; m_under := un; m_rest := [] |}
  | c :: r =>
      if Ascii.eqb c "_" then read_mant base v fr dg dot true r
      else if Ascii.eqb c "." then
        if dot then {| m_val := v; m_frac := fr; m_digits := dg; m_dot := dot; m_under := un; m_rest := s |}
        else read_mant base v fr dg true un r
      else match digit_in base c with
           | Some d => read_mant base (v * base + d) (if dot then fr + 1 else fr) true dot un r
           | None => {| m_val := v; m_frac := fr; m_digits := dg; m_dot := dot; m_under := un; m_rest := s |}
           end
  end.

(** Exponent digits: saturates at the first value >= 10000. *)
Fixpoint read_exp (e : Z) (un : bool) (s : str) : Z * bool * str :=
  match s with
  | c :: r =>
      if Ascii.eqb c "_" then read_exp e true r
      else if is_digit c then read_exp (if e <? 10000 then e * 10 + digit_val c else e) un r
      else (e, un, s)
  | [] => (e, un, [])
  end.

(** A syntactically valid number: sign, mantissa integer, and either a
    decimal exponent or (hex) a binary exponent. *)
Inductive number := NumDec (neg : bool) (m e10 : Z) | NumHex (neg : bool) (m e2 : Z).
Definition read_float (s0 : str) : option number :=
  let '(neg, s) := strip_sign s0 in
  let '(base, body) := match s with
    | "0"%char :: x :: (_ :: _) as r0 =>
        if Ascii.eqb (lower x) "x" then (16, skipn 2 s) else (10, s)
    | _ => (10, s)
    end in
  let mt := read_mant base 0 0 false false false body in
  if negb (m_digits mt) then None else
  let expch := if base =? 16 then "p"%char else "e"%char in
  let finish (e : Z) (un : bool) (rest : str) : option number :=
    match rest with
    | _ :: _ => None
    | [] => if un && negb (underscore_ok s0) then None
            else Some (if base =? 16 then NumHex neg (m_val mt) (e - 4 * m_frac mt)
                       else NumDec neg (m_val mt) (e - m_frac mt))
    end in
  match m_rest mt with
  | c :: r =>
      if Ascii.eqb (lower c) expch then
        let '(eneg, r') := strip_sign r in
        match r' with
        | d :: _ =>
            if is_digit d then
              let '(e, un, rest) := read_exp 0 (m_under mt) r' in
              finish (if eneg then - e else e) un rest
            else None
        | [] => None
        end
      else None
  | [] => if base =? 16 then None else finish 0 (m_under mt) []
  end.

(** Correctly rounded value of a number in a binary format. *)
Definition round_number (prec emax : Z) (Hp : Prec_gt_0 prec) (He : Prec_lt_emax prec emax)
    (n : number) : binary_float prec emax :=
  match n with
  | NumDec neg m e =>
      if m =? 0 then B754_zero neg
      else if 0 <=? e then binary_normalize prec emax Hp He mode_NE (cond_Zopp neg (m * 10 ^ e)) 0 neg
      else ratio_round prec emax Hp He neg m (10 ^ (- e))
  | NumHex neg m e =>
      binary_normalize prec emax Hp He mode_NE (cond_Zopp neg m) e neg
  end.

Definition parse_float_gen (prec emax : Z) (Hp : Prec_gt_0 prec) (He : Prec_lt_emax prec emax)
    (s : str) : binary_float prec emax :=
  match parse_special s with
  | Some (SpInf neg) => B754_infinity neg
  | Some SpNaN => B754_nan
  | None => match read_float s with
            | Some n => round_number prec emax Hp He n
            | None => B754_zero false
            end
  end.
(** strconv.ParseFloat(s, 64) and float32(strconv.ParseFloat(s, 32)). *)
Definition parse_f64 (s : str) : f64 := parse_float_gen 53 1024 p53 pe53 s.
Definition parse_f32 (s : str) : f32 := parse_float_gen 24 128 p24 pe24 s.

(** bufio.ScanLines over the whole decoded text with a buffer of [cap] bytes:
    the text up to each newline without one trailing carriage return; a line
    whose bytes (with its newline) do not fit the buffer ends the scan. *)
Definition drop_cr (s : str) : str :=
  match rev s with
  | c :: r => if Ascii.eqb c (chr 13) then rev r else s
  | [] => s
  end.
Fixpoint scan_lines (cap : Z) (cur : str) (n : Z) (s : str) : list str :=
  match s with
  | [] => match cur with [] => [] | _ => if n <? cap then [drop_cr (rev cur)] else [] end
  | c :: r =>
      if Ascii.eqb c (chr 10) then
        if n <? cap then drop_cr (rev cur) :: scan_lines cap [] 0 r else []
      else scan_lines cap (c :: cur) (n + 1) r
  end.

(** beatmap/difficulty/mods.go *)
From Verif Require Export GoBase GoFloat GoString.

(** type Modifier int64 -- mods.go:3 *)
Definition modifier := Z.

(** mods.go:5-40 : [1 << (iota-1)] *)
Definition MNone : modifier := 0.
Definition NoFail : modifier := 2 ^ 0.
Definition Easy : modifier := 2 ^ 1.
Definition TouchDevice : modifier := 2 ^ 2.
Definition Hidden : modifier := 2 ^ 3.
Definition HardRock : modifier := 2 ^ 4.
Definition SuddenDeath : modifier := 2 ^ 5.
Definition DoubleTime : modifier := 2 ^ 6.
Definition Relax : modifier := 2 ^ 7.
Definition HalfTime : modifier := 2 ^ 8.
Definition Nightcore : modifier := 2 ^ 9.
Definition Flashlight : modifier := 2 ^ 10.
Definition Autoplay : modifier := 2 ^ 11.
Definition SpunOut : modifier := 2 ^ 12.
Definition Relax2 : modifier := 2 ^ 13.
Definition Perfect : modifier := 2 ^ 14.
Definition Key4 : modifier := 2 ^ 15.
Definition Key5 : modifier := 2 ^ 16.
Definition Key6 : modifier := 2 ^ 17.
Definition Key7 : modifier := 2 ^ 18.
Definition Key8 : modifier := 2 ^ 19.
Definition FadeIn : modifier := 2 ^ 20.
Definition Random : modifier := 2 ^ 21.
Definition Cinema : modifier := 2 ^ 22.
Definition Target : modifier := 2 ^ 23.
Definition Key9 : modifier := 2 ^ 24.
Definition KeyCoop : modifier := 2 ^ 25.
Definition Key1 : modifier := 2 ^ 26.
Definition Key3 : modifier := 2 ^ 27.
Definition Key2 : modifier := 2 ^ 28.
Definition ScoreV2 : modifier := 2 ^ 29.
Definition LastMod : modifier := 2 ^ 30.
Definition Daycore : modifier := 2 ^ 31.

(** mods.go:42-75 *)
Definition modsString : list str :=
  map lit ["NF"; "EZ"; "TD"; "HD"; "HR"; "SD"; "DT"; "RX"; "HT"; "NC"; "FL"; "AT"; "SO"; "AP";
           "PF"; "K4"; "K5"; "K6"; "K7"; "K8"; "FI"; "RN"; "CN"; "TG"; "K9"; "K0"; "K1"; "K3";
           "K2"; "V2"; "LM"; "DC"]%string.

(** mods.go:77-110 *)
Definition modsStringFull : list str :=
  map lit ["NoFail"; "Easy"; "TouchDevice"; "Hidden"; "HardRock"; "SuddenDeath"; "DoubleTime";
           "Relax"; "HalfTime"; "Nightcore"; "Flashlight"; "Autoplay"; "SpunOut"; "Relax2";
           "Perfect"; "Key4"; "Key5"; "Key6"; "Key7"; "Key8"; "FadeIn"; "Random"; "Cinema";
           "Target"; "Key9"; "KeyCoop"; "Key1"; "Key3"; "Key2"; "ScoreV2"; "LastMod";
           "Daycore"]%string.

(** func (mods Modifier) Active -- mods.go:242-244 *)
Definition mactive (mods m : modifier) : bool := 0 <? Z.land mods m.

(** func (mods Modifier) GetScoreMultiplier -- mods.go:112-160 *)
Definition score_multiplier (mods : modifier) : f64 :=
  let m := fq 1 1 in
  let m := if mactive mods NoFail && (Z.land mods ScoreV2 =? 0) then fmul m (fq 1 2) else m in
  let m := if mactive mods Easy then fmul m (fq 1 2) else m in
  let m := if mactive mods HalfTime then fmul m (fq 3 10) else m in
  let m := if mactive mods Hidden then fmul m (fq 106 100) else m in
  let m := if mactive mods HardRock then
             (if mactive mods ScoreV2 then fmul m (fq 110 100) else fmul m (fq 106 100))
           else m in
  let m := if mactive mods DoubleTime then
             (if mactive mods ScoreV2 then fmul m (fq 120 100) else fmul m (fq 112 100))
           else m in
  let m := if mactive mods Flashlight then fmul m (fq 112 100) else m in
  let m := if 0 <? Z.lor (Z.land mods Relax) (Z.land mods Relax2) then f0 else m in
  let m := if mactive mods SpunOut then fmul m (fq 9 10) else m in
  m.

(** the masking at the head of String and StringFull -- mods.go:163-173, 188-198 *)
Definition mask_implied (mods : modifier) : modifier :=
  let mods := if mactive mods Nightcore then Z.land mods (Z.lnot DoubleTime) else mods in
  let mods := if mactive mods Daycore then Z.land mods (Z.lnot HalfTime) else mods in
  if mactive mods Perfect then Z.land mods (Z.lnot SuddenDeath) else mods.

(** the loops -- mods.go:175-182 and 200-207; one iteration per table entry *)
Fixpoint mods_names (table : list str) (mods : modifier) : list str :=
  match table with
  | [] => []
  | name :: rest =>
      (if Z.land mods 1 =? 1 then [name] else []) ++ mods_names rest (Z.shiftr mods 1)
  end.

(** func (mods Modifier) String -- mods.go:162-185 *)
Definition mods_string (mods : modifier) : str := concat (mods_names modsString (mask_implied mods)).

(** func (mods Modifier) StringFull -- mods.go:187-210 *)
Definition mods_string_full (mods : modifier) : list str :=
  mods_names modsStringFull (mask_implied mods).

(** Decoding of one UTF-8 rune, as a Go range loop over a string does it:
    width in bytes, and the bytes of string(rune) (U+FFFD for an invalid
    byte). *)
Definition in_rng (lo hi : Z) (c : ascii) : bool := (lo <=? byte_of c) && (byte_of c <=? hi).
Definition is_cont (c : ascii) : bool := in_rng 128 191 c.
Definition rune_error : str := [chr 239; chr 191; chr 189].
Definition decode_rune (s : str) : nat * str :=
  let bad := (1%nat, rune_error) in
  match s with
  | [] => (0%nat, [])
  | a :: r =>
      if in_rng 0 127 a then (1%nat, [a]) else
      match r with
      | [] => bad
      | b :: r1 =>
          if in_rng 194 223 a then (if is_cont b then (2%nat, [a; b]) else bad) else
          match r1 with
          | [] => bad
          | c :: r2 =>
              if in_rng 224 239 a then
                (if (if byte_of a =? 224 then in_rng 160 191 b
                     else if byte_of a =? 237 then in_rng 128 159 b else is_cont b) && is_cont c
                 then (3%nat, [a; b; c]) else bad)
              else
              match r2 with
              | [] => bad
              | d :: _ =>
                  if in_rng 240 244 a then
                    (if (if byte_of a =? 240 then in_rng 144 191 b
                         else if byte_of a =? 244 then in_rng 128 143 b else is_cont b)
                        && is_cont c && is_cont d
                     then (4%nat, [a; b; c; d]) else bad)
                  else bad
              end
          end
      end
  end.

(** [for n, modPart := range mods { modsSl[n/2] += string(modPart) }] --
    mods.go:213-216.  [fuel] is the remaining length; each rune consumes at
    least one byte. *)
Fixpoint mods_chunks (fuel : nat) (n : Z) (s : str) (sl : list str) : res (list str) :=
  match fuel with
  | O => Ok sl
  | S fuel' =>
      match s with
      | [] => Ok sl
      | _ =>
          let '(w, txt) := decode_rune s in
          let* old := idx sl (n / 2) in
          let* sl' := set_idx sl (n / 2) (old ++ txt) in
          mods_chunks fuel' (n + Z.of_nat w) (skipn w s) sl'
      end
  end.

(** inner lookup loop with break -- mods.go:219-224 *)
Fixpoint mod_index (m : str) (table : list str) (i : Z) : option Z :=
  match table with
  | [] => None
  | a :: r => if str_eqb a m then Some i else mod_index m r (i + 1)
  end.
Definition or_mod (m : modifier) (name : str) : modifier :=
  match mod_index name modsString 0 with Some i => Z.lor m (Z.shiftl 1 i) | None => m end.

(** implied mods -- mods.go:227-237 *)
Definition add_implied (m : modifier) : modifier :=
  let m := if mactive m Nightcore then Z.lor m DoubleTime else m in
  let m := if mactive m Perfect then Z.lor m SuddenDeath else m in
  if mactive m Daycore then Z.lor m HalfTime else m.

(** func ParseMods -- mods.go:212-240 *)
Definition parse_mods (s : str) : res modifier :=
  let* sl := mods_chunks (length s) 0 s (repeat [] (Nat.div2 (length s))) in
  Ok (add_implied (fold_left or_mod sl 0)).

(** func (mods Modifier) Compatible -- mods.go:246-262 *)
Definition compatible (mods : modifier) : bool :=
  if mods =? MNone then true
  else if mactive mods Target
       || (mactive mods HardRock && mactive mods Easy)
       || ((mactive mods Nightcore || mactive mods DoubleTime) && (mactive mods HalfTime || mactive mods Daycore))
       || ((mactive mods Perfect || mactive mods SuddenDeath) && mactive mods NoFail)
       || (mactive mods Relax && mactive mods Relax2)
       || ((mactive mods Relax || mactive mods Relax2)
           && (mactive mods SuddenDeath || mactive mods Perfect || mactive mods Autoplay || mactive mods NoFail))
       || (mactive mods Relax2 && mactive mods SpunOut)
  then false else true.

(** Specification vocabulary for mods: written from osu!'s public bit mask
    (https://osu.ppy.sh API "mods" enumeration) and the Unicode standard's
    table of well-formed UTF-8, independently of the model. *)
From Coq Require Import ZArith List Ascii String Bool.
From Verif Require Import GoBase.

(** [has m k]: bit k of the mask is set. *)
Definition has (m : Z) (k : Z) : Prop := Z.testbit m k = true.

(** Bit numbers of the osu! API. *)
Definition bNF := 0. Definition bEZ := 1. Definition bHD := 3. Definition bHR := 4.
Definition bSD := 5. Definition bDT := 6. Definition bRX := 7. Definition bHT := 8.
Definition bNC := 9. Definition bFL := 10. Definition bAT := 11. Definition bSO := 12.
Definition bAP := 13. Definition bPF := 14. Definition bTG := 23. Definition bV2 := 29.
Definition bDC := 31.

(** Acronyms and their numeric values. *)
Definition acronyms : list (string * Z) :=
  [("NF",1); ("EZ",2); ("TD",4); ("HD",8); ("HR",16); ("SD",32); ("DT",64); ("RX",128);
   ("HT",256); ("FL",1024); ("AT",2048); ("SO",4096); ("AP",8192);
   ("K4",32768); ("K5",65536); ("K6",131072); ("K7",262144); ("K8",524288);
   ("FI",1048576); ("RN",2097152); ("CN",4194304); ("TG",8388608); ("K9",16777216);
   ("K0",33554432); ("K1",67108864); ("K3",134217728); ("K2",268435456); ("V2",536870912);
   ("LM",1073741824);
   (* these three imply another mod *)
   ("NC",512 + 64); ("PF",16384 + 32); ("DC",2147483648 + 256)]%string.

(** The defined mods are 32 bits; NC comes with DT, DC with HT, PF with SD. *)
Definition defined_mods (m : Z) : Prop := 0 <= m < 2 ^ 32.
Definition implied_present (m : Z) : Prop :=
  (has m bNC -> has m bDT) /\ (has m bDC -> has m bHT) /\ (has m bPF -> has m bSD).

(** Conflicts, as osu! defines them: a pair of mods that cannot be combined. *)
Definition conflicts : list (Z * Z) :=
  [(bHR, bEZ);
   (bNC, bHT); (bNC, bDC); (bDT, bHT); (bDT, bDC);
   (bPF, bNF); (bSD, bNF);
   (bRX, bAP); (bRX, bSD); (bRX, bPF); (bRX, bAT); (bRX, bNF);
   (bAP, bSD); (bAP, bPF); (bAP, bAT); (bAP, bNF);
   (bAP, bSO)].

(** [subset a b]: every mod of a is in b. *)
Definition subset (a b : Z) : Prop := forall k, 0 <= k -> has a k -> has b k.

(** Well-formed UTF-8 (Unicode 15, table 3-7). *)
Definition rng (lo hi : Z) (c : ascii) : Prop := lo <= byte_of c <= hi.
Inductive utf8_char : list ascii -> Prop :=
| U1 a : rng 0 127 a -> utf8_char [a]
| U2 a b : rng 194 223 a -> rng 128 191 b -> utf8_char [a; b]
| U3a a b c : byte_of a = 224 -> rng 160 191 b -> rng 128 191 c -> utf8_char [a; b; c]
| U3b a b c : rng 225 236 a -> rng 128 191 b -> rng 128 191 c -> utf8_char [a; b; c]
| U3c a b c : byte_of a = 237 -> rng 128 159 b -> rng 128 191 c -> utf8_char [a; b; c]
| U3d a b c : rng 238 239 a -> rng 128 191 b -> rng 128 191 c -> utf8_char [a; b; c]
| U4a a b c d : byte_of a = 240 -> rng 144 191 b -> rng 128 191 c -> rng 128 191 d -> utf8_char [a; b; c; d]
| U4b a b c d : rng 241 243 a -> rng 128 191 b -> rng 128 191 c -> rng 128 191 d -> utf8_char [a; b; c; d]
| U4c a b c d : byte_of a = 244 -> rng 128 143 b -> rng 128 191 c -> rng 128 191 d -> utf8_char [a; b; c; d].

(** How Go cuts a text into runes: a well-formed character if one starts here,
    otherwise a single byte. *)
Inductive runes : list (list ascii) -> list ascii -> Prop :=
| runes_nil : runes [] []
| runes_char r rs s : utf8_char r -> runes rs s -> runes (r :: rs) (r ++ s)
| runes_bad c rs s :
    (forall r t, utf8_char r -> c :: s <> r ++ t) -> runes rs s -> runes ([c] :: rs) (c :: s).

(** The last byte of the text is a rune of its own. *)
Definition last_byte_alone (s : list ascii) : Prop :=
  exists rs c, runes (rs ++ [[c]]) s.

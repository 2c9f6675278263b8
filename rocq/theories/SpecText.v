(** Specification vocabulary for text encodings: Unicode characters and their
    UTF-8 and UTF-16 forms, from the definition of the encodings. *)
From Verif Require Import Parser SpecMods.
Import ListNotations.
Open Scope Z_scope.

(** a Unicode scalar value *)
Definition scalar (r : Z) : Prop := 0 <= r < 55296 \/ 57344 <= r < 1114112.
(** a UTF-8 continuation byte carries six bits *)
Definition cont_byte (b : ascii) (v : Z) : Prop := byte_of b = 128 + v /\ 0 <= v < 64.
(** [utf8 r s]: [s] is the shortest form of [r] *)
Inductive utf8 : Z -> str -> Prop :=
| utf8_1 r a : 0 <= r < 128 -> byte_of a = r -> utf8 r [a]
| utf8_2 x y a b : 128 <= 64 * x + y -> x < 32 -> byte_of a = 192 + x -> cont_byte b y -> utf8 (64 * x + y) [a; b]
| utf8_3 x y z a b c : 2048 <= 4096 * x + 64 * y + z -> x < 16 -> byte_of a = 224 + x -> cont_byte b y -> cont_byte c z ->
    utf8 (4096 * x + 64 * y + z) [a; b; c]
| utf8_4 x y z w a b c d : 65536 <= 262144 * x + 4096 * y + 64 * z + w -> x < 8 -> byte_of a = 240 + x ->
    cont_byte b y -> cont_byte c z -> cont_byte d w -> utf8 (262144 * x + 4096 * y + 64 * z + w) [a; b; c; d].
(** a 16-bit unit as two bytes, high byte first or last *)
Definition unit_bytes (big : bool) (u : Z) (s : str) : Prop :=
  exists h l, u = 256 * byte_of h + byte_of l /\ s = if big then [h; l] else [l; h].
Inductive utf16 (big : bool) : Z -> str -> Prop :=
| utf16_1 r s : r < 65536 -> unit_bytes big r s -> utf16 big r s
| utf16_2 h l s t : 0 <= h < 1024 -> 0 <= l < 1024 -> unit_bytes big (55296 + h) s -> unit_bytes big (56320 + l) t ->
    utf16 big (65536 + 1024 * h + l) (s ++ t).
(** a text in an encoding *)
Inductive encoded (enc : Z -> str -> Prop) : list Z -> str -> Prop :=
| encoded_nil : encoded enc [] []
| encoded_cons r s rs t : scalar r -> enc r s -> encoded enc rs t -> encoded enc (r :: rs) (s ++ t).
(** byte order marks *)
Definition mark8 : str := [chr 239; chr 187; chr 191].
Definition mark16 (big : bool) : str := if big then [chr 254; chr 255] else [chr 255; chr 254].
(** the text with U+FFFD for each byte which starts no character *)
Inductive repaired : str -> str -> Prop :=
| repaired_nil : repaired [] []
| repaired_char r s t : utf8_char r -> repaired s t -> repaired (r ++ s) (r ++ t)
| repaired_bad c s t : (forall r u, utf8_char r -> c :: s <> r ++ u) -> repaired s t -> repaired (c :: s) (chr 239 :: chr 191 :: chr 189 :: t).
(** well-formed UTF-8 *)
Definition well_formed (s : str) : Prop := exists rs, Forall utf8_char rs /\ s = concat rs.

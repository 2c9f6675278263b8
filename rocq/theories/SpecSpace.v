(** Specification vocabulary: white space in files. *)
From Coq Require Import ZArith List.
From Verif Require Import GoBase.
Import ListNotations.
Open Scope Z_scope.

(** The code points Unicode calls white space: tab to carriage return, blank,
    next line, no-break space, Ogham space, the spaces of General Punctuation,
    line and paragraph separator, narrow no-break space, medium mathematical
    space, ideographic space. *)
Definition white : list Z :=
  [9; 10; 11; 12; 13; 32; 133; 160; 5760; 8192; 8193; 8194; 8195; 8196; 8197; 8198; 8199; 8200; 8201; 8202; 8232; 8233; 8239; 8287; 12288].
(** UTF-8 up to three bytes *)
Definition utf8 (c : Z) : str :=
  map (fun b => chr (Z.to_N b))
    (if c <? 128 then [c] else if c <? 2048 then [192 + c / 64; 128 + c mod 64] else [224 + c / 4096; 128 + c / 64 mod 64; 128 + c mod 64]).
Definition spaces (s : str) : Prop := exists l, Forall (fun c => In c white) l /\ s = concat (map utf8 l).
(** neither the start nor the end is white space *)
Definition bare (s : str) : Prop := forall c t, In c white -> s <> utf8 c ++ t /\ s <> t ++ utf8 c.
Definition stripped (s m : str) : Prop := bare m /\ exists a b, spaces a /\ spaces b /\ s = a ++ m ++ b.

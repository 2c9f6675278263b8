(** C61: a map reads the same in UTF-8 and UTF-16, and broken UTF-8 is repaired. *)
From Verif Require Import Parser SpecMods SpecParser SpecText TextProofs PropParser PropCurves.
Import ListNotations.
Open Scope Z_scope.

Lemma mark_of_utf8 r s t : scalar r -> r <> 65279 -> utf8 r s -> ~ marked (s ++ t).
Proof.
  intros S N U (u & [E|[E|E]]); unfold mark16, mark8 in E; unfold scalar in S;
  destruct U as [r a R A|x y a b L X A [B Y]|x y z a b c L X A [B Y] [C Z]|x y z w a b c d L X A [B Y] [C Z] [D W]]; cbn [app] in E;
  injection E; intros; subst;
  repeat match goal with H : context [byte_of (ascii_of_pos ?n)] |- _ =>
    let v := eval vm_compute in (byte_of (ascii_of_pos n)) in change (byte_of (ascii_of_pos n)) with v in H end; lia.
Qed.

Section WithLibm.
Context {M : libm}.

(** Every Unicode text has each encoding. *)
Theorem C61_encodable : forall cs, Forall scalar cs ->
  (exists s, encoded utf8 cs s) /\ forall big, exists s, encoded (utf16 big) cs s.
Proof.
  intros cs H. split; [|intros big]; apply encoded_exists; auto using utf8_exists. intros r. apply utf16_exists.
Qed.
(** The decoded text is the UTF-8 form, whatever the encoding. *)
Theorem C61_decoded : forall cs s t, encoded utf8 cs s ->
  (forall big, encoded (utf16 big) cs t -> decode_text (mark16 big ++ t) = s) /\
  decode_text (mark8 ++ s) = s /\
  (hd 0 cs <> 65279 -> decode_text s = s).
Proof.
  intros cs s t E. split; [intros big E'; rewrite decode_mark16; now apply (utf16_decode big cs)|]. split; [apply decode_mark8|].
  intros N. apply (repaired_fun s); [|apply well_repaired; now apply (encoded_well cs)]. apply decode_plain.
  destruct E as [|r s cs t' S U E]; [intros (u & [Q|[Q|Q]]); discriminate Q|]. now apply (mark_of_utf8 r).
Qed.
(** So a map parses alike in all four. *)
Theorem C61_same_map : forall fuel cs s8 s16b s16l, encoded utf8 cs s8 -> encoded (utf16 true) cs s16b -> encoded (utf16 false) cs s16l -> hd 0 cs <> 65279 ->
  parse_bytes fuel (mark8 ++ s8) = parse_bytes fuel s8 /\ parse_bytes fuel (mark16 true ++ s16b) = parse_bytes fuel s8 /\
  parse_bytes fuel (mark16 false ++ s16l) = parse_bytes fuel s8.
Proof.
  intros fuel cs s8 b l E8 Eb El N. unfold parse_bytes. destruct (C61_decoded cs s8 b E8) as (B & M8 & P), (C61_decoded cs s8 l E8) as (L & _).
  rewrite M8, (B true Eb), (L false El), (P N). auto.
Qed.
(** Without a mark, each byte which starts no character becomes U+FFFD and the rest is kept. *)
Theorem C61_repaired : forall s, ~ marked s -> repaired s (decode_text s) /\ (well_formed s -> decode_text s = s).
Proof.
  intros s N. pose proof (decode_plain s N) as R. split; [exact R|]. intros W. apply (repaired_fun s); [exact R|now apply well_repaired].
Qed.
(** The decoded text is well-formed UTF-8, unless the file has a UTF-8 mark. *)
Theorem C61_well_formed : forall s, (forall t, s <> mark8 ++ t) -> well_formed (decode_text s).
Proof.
  intros s N. destruct (Classical_Prop.classic (marked s)) as [(t & [->|[->| ->]])|H].
  - rewrite decode_mark16. apply (utf16_well _ (length t)); [apply le_n|discriminate].
  - rewrite decode_mark16. apply (utf16_well _ (length t)); [apply le_n|discriminate].
  - now contradiction (N t).
  - eapply repaired_well. now apply decode_plain.
Qed.
End WithLibm.

(** A text with characters of one, two, three and four bytes. *)
Definition sample_chars : list Z := [65; 233; 20320; 128512; 10].
Example C61_instance : Forall scalar sample_chars /\ hd 0 sample_chars <> 65279 /\
  decode_text (mark16 false ++ map chr [65; 0; 233; 0; 96; 79; 61; 216; 0; 222; 10; 0]%N) = map chr [65; 195; 169; 228; 189; 160; 240; 159; 152; 128; 10]%N /\
  decode_text (mark16 true ++ map chr [0; 65; 0; 233; 79; 96; 216; 61; 222; 0; 0; 10]%N) = map chr [65; 195; 169; 228; 189; 160; 240; 159; 152; 128; 10]%N.
Proof.
  split; [unfold sample_chars, scalar; repeat constructor; lia|]. split; [discriminate|]. split; vm_compute; reflexivity.
Qed.
(** Broken bytes, unpaired surrogates and an odd byte; after a UTF-8 mark nothing is repaired. *)
Example C61_broken : 
  decode_text (map chr [65; 255; 195; 66; 237; 160; 128]%N) = lit "A" ++ rune_error ++ rune_error ++ lit "B" ++ rune_error ++ rune_error ++ rune_error /\
  decode_text (mark16 true ++ map chr [216; 61; 0; 65; 222; 0; 7]%N) = rune_error ++ lit "A" ++ rune_error ++ rune_error /\
  decode_text (mark8 ++ map chr [255; 65]%N) = map chr [255; 65]%N.
Proof. repeat split; vm_compute; reflexivity. Qed.
(** A whole map in UTF-16. *)
Definition wide (big : bool) (s : str) : str := mark16 big ++ flat_map (fun c => if big then [chr 0; c] else [c; chr 0]) s.
Definition wide_map : str := flat_map (fun l => l ++ [chr 10]) sample_map.
Example C61_instance_map :
  view (fun b => (bm_FileVersion b, bm_Circles b)) (parse_bytes (M := no_libm) 9 (wide true wide_map)) = Some (Some (14, 5)) /\
  view (fun b => (bm_FileVersion b, bm_Circles b)) (parse_bytes (M := no_libm) 9 (wide false wide_map)) = Some (Some (14, 5)).
Proof. split; vm_compute; reflexivity. Qed.

Print Assumptions C61_encodable.
Print Assumptions C61_decoded.
Print Assumptions C61_same_map.
Print Assumptions C61_repaired.
Print Assumptions C61_well_formed.

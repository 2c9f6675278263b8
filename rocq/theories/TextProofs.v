(** Text decoding. *)
From Verif Require Import Parser SpecMods SpecText BaseLemmas ModsProofs.
Import ListNotations.
Open Scope Z_scope.

Lemma chr_byte a : chr (Z.to_N (byte_of a)) = a.
Proof. unfold chr, byte_of. rewrite N2Z.id. apply ascii_N_embedding. Qed.
Lemma byte_chr n : 0 <= n < 256 -> byte_of (chr (Z.to_N n)) = n.
Proof. intros H. unfold chr, byte_of. rewrite N_ascii_embedding by lia. lia. Qed.
Lemma byte_inj a n : byte_of a = n -> a = chr (Z.to_N n).
Proof. intros <-. symmetry. apply chr_byte. Qed.

Lemma utf8_model r s : utf8 r s -> s = utf8_encode r.
Proof.
  intros H. unfold utf8_encode. cbv zeta. destruct H as [r a R A|x y a b L X A [B Y]|x y z a b c L X A [B Y] [C Z]|x y z w a b c d L X A [B Y] [C Z] [D W]].
  - replace (r <? 128) with true by lia. now rewrite (byte_inj a r A).
  - replace (64 * x + y <? 128) with false by lia. replace (64 * x + y <? 2048) with true by lia.
    apply byte_inj in A, B. rewrite A, B. repeat f_equal; apply Z.eq_sym; Z.div_mod_to_equations; lia.
  - replace (_ <? 128) with false by lia. replace (_ <? 2048) with false by lia. replace (_ <? 65536) with true by lia.
    apply byte_inj in A, B, C. rewrite A, B, C. repeat f_equal; apply Z.eq_sym; Z.div_mod_to_equations; lia.
  - replace (_ <? 128) with false by lia. replace (_ <? 2048) with false by lia. replace (_ <? 65536) with false by lia.
    apply byte_inj in A, B, C, D. rewrite A, B, C, D. repeat f_equal; apply Z.eq_sym; Z.div_mod_to_equations; lia.
Qed.
Lemma utf8_table r s : scalar r -> utf8 r s -> utf8_char s.
Proof.
  intros S H. unfold scalar in S. destruct H as [r a R A|x y a b L X A [B Y]|x y z a b c L X A [B Y] [C Z]|x y z w a b c d L X A [B Y] [C Z] [D W]].
  - apply U1. unfold rng. lia.
  - apply U2; unfold rng; lia.
  - assert (K : x = 0 \/ 1 <= x <= 12 \/ x = 13 \/ 14 <= x) by lia. destruct K as [K|[K|[K|K]]];
      [apply U3a|apply U3b|apply U3c|apply U3d]; unfold rng; lia.
  - assert (K : x = 0 \/ 1 <= x <= 3 \/ 4 <= x) by lia. destruct K as [K|[K|K]]; [apply U4a|apply U4b|apply U4c]; unfold rng; lia.
Qed.
Lemma utf8_exists r : scalar r -> exists s, utf8 r s.
Proof.
  unfold scalar. intros S. destruct (Z.lt_ge_cases r 128).
  - exists [chr (Z.to_N r)]. apply utf8_1; [lia|apply byte_chr; lia].
  - destruct (Z.lt_ge_cases r 2048).
    + assert (E : exists x y, r = 64 * x + y /\ 0 <= y < 64) by (exists (r / 64), (r mod 64); Z.div_mod_to_equations; lia).
      destruct E as (x & y & -> & Y). exists [chr (Z.to_N (192 + x)); chr (Z.to_N (128 + y))].
      apply utf8_2; [lia|lia|apply byte_chr; lia|split; [apply byte_chr; lia|lia]].
    + destruct (Z.lt_ge_cases r 65536).
      * assert (E : exists x y z, r = 4096 * x + 64 * y + z /\ 0 <= y < 64 /\ 0 <= z < 64) by (exists (r / 4096), (r / 64 mod 64), (r mod 64); Z.div_mod_to_equations; lia).
        destruct E as (x & y & z & -> & Y & Z). exists [chr (Z.to_N (224 + x)); chr (Z.to_N (128 + y)); chr (Z.to_N (128 + z))].
        apply utf8_3; [lia|lia|apply byte_chr; lia|split; [apply byte_chr; lia|lia]|split; [apply byte_chr; lia|lia]].
      * assert (E : exists x y z w, r = 262144 * x + 4096 * y + 64 * z + w /\ 0 <= y < 64 /\ 0 <= z < 64 /\ 0 <= w < 64)
          by (exists (r / 262144), (r / 4096 mod 64), (r / 64 mod 64), (r mod 64); Z.div_mod_to_equations; lia).
        destruct E as (x & y & z & w & -> & Y & Z & W). exists [chr (Z.to_N (240 + x)); chr (Z.to_N (128 + y)); chr (Z.to_N (128 + z)); chr (Z.to_N (128 + w))].
        apply utf8_4; [lia|lia|apply byte_chr; lia|split; [apply byte_chr; lia|lia]|split; [apply byte_chr; lia|lia]|split; [apply byte_chr; lia|lia]].
Qed.
Lemma unit_exists big u : 0 <= u < 65536 -> exists s, unit_bytes big u s.
Proof.
  intros H. exists (if big then [chr (Z.to_N (u / 256)); chr (Z.to_N (u mod 256))] else [chr (Z.to_N (u mod 256)); chr (Z.to_N (u / 256))]).
  exists (chr (Z.to_N (u / 256))), (chr (Z.to_N (u mod 256))). split; [|reflexivity]. rewrite !byte_chr; Z.div_mod_to_equations; lia.
Qed.
Lemma utf16_exists big r : scalar r -> exists s, utf16 big r s.
Proof.
  unfold scalar. intros S. destruct (Z.lt_ge_cases r 65536).
  - destruct (unit_exists big r) as (s & H1); [lia|]. exists s. now apply utf16_1.
  - destruct (unit_exists big (55296 + (r - 65536) / 1024)) as (s & Hs); [Z.div_mod_to_equations; lia|].
    destruct (unit_exists big (56320 + (r - 65536) mod 1024)) as (t & Ht); [Z.div_mod_to_equations; lia|].
    exists (s ++ t). replace r with (65536 + 1024 * ((r - 65536) / 1024) + (r - 65536) mod 1024) at 1 by (Z.div_mod_to_equations; lia).
    apply utf16_2; auto; Z.div_mod_to_equations; lia.
Qed.
Lemma encoded_exists enc : (forall r, scalar r -> exists s, enc r s) -> forall rs, Forall scalar rs -> exists s, encoded enc rs s.
Proof.
  intros E rs. induction 1 as [|r rs S F (t & IH)]; [exists []; constructor|]. destruct (E r S) as (s & Hs). exists (s ++ t). now constructor.
Qed.

(** UTF-16 *)
Lemma unit_read big u s hi t : unit_bytes big u s -> 
  utf16_loop (negb big) hi (s ++ t) =
  (let plain := if (55296 <=? u) && (u <? 56320) then utf16_loop (negb big) (Some u) t
                else if (56320 <=? u) && (u <? 57344) then rune_error ++ utf16_loop (negb big) None t
                else utf8_encode u ++ utf16_loop (negb big) None t in
   match hi with
   | Some h => if (56320 <=? u) && (u <? 57344) then utf8_encode (65536 + (h - 55296) * 1024 + (u - 56320)) ++ utf16_loop (negb big) None t else rune_error ++ plain
   | None => plain
   end).
Proof.
  intros (h & l & -> & ->). destruct big; cbn [negb app utf16_loop]; unfold unit16; [reflexivity|].
  replace (byte_of l + 256 * byte_of h) with (256 * byte_of h + byte_of l) by lia. reflexivity.
Qed.
Lemma utf16_decode big cs s : encoded (utf16 big) cs s -> forall t, encoded utf8 cs t -> utf16_loop (negb big) None s = t.
Proof.
  induction 1 as [|r s cs s' S E F IH]; intros t H; inversion H; subst; [reflexivity|].
  match goal with H : utf8 r _ |- _ => rewrite (utf8_model _ _ H) end. unfold scalar in S. destruct E as [r s L U|h l s u Hh Hl Us Ut].
  - rewrite (unit_read _ _ _ _ _ U). cbv zeta. replace ((55296 <=? r) && (r <? 56320)) with false by lia. replace ((56320 <=? r) && (r <? 57344)) with false by lia.
    f_equal. now apply IH.
  - rewrite <- app_assoc, (unit_read _ _ _ _ _ Us). cbv zeta. replace ((55296 <=? 55296 + h) && (55296 + h <? 56320)) with true by lia.
    rewrite (unit_read _ _ _ _ _ Ut). cbv zeta. replace ((56320 <=? 56320 + l) && (56320 + l <? 57344)) with true by lia.
    replace (65536 + (55296 + h - 55296) * 1024 + (56320 + l - 56320)) with (65536 + 1024 * h + l) by lia. f_equal. now apply IH.
Qed.

(** UTF-8 *)
Lemma decode_total a s : decode_rune (a :: s) = (1%nat, rune_error) /\ (forall r t, utf8_char r -> a :: s <> r ++ t) \/
  exists r t, utf8_char r /\ a :: s = r ++ t /\ decode_rune (a :: s) = (length r, r).
Proof.
  assert (D : decode_rune (a :: s) = (1%nat, rune_error) \/ exists r t, utf8_char r /\ a :: s = r ++ t /\ decode_rune (a :: s) = (length r, r)).
  { assert (Q : forall r t, utf8_char r -> a :: s = r ++ t -> exists r t, utf8_char r /\ a :: s = r ++ t /\ decode_rune (a :: s) = (length r, r)).
    { intros r t U E. exists r, t. split; [exact U|]. split; [exact E|]. rewrite E. now apply decode_char. }
    destruct (in_rng 0 127 a) eqn:A1. { right. apply (Q [a] s); [apply U1; now apply in_rng_iff|reflexivity]. }
    unfold decode_rune at 1. rewrite A1. destruct s as [|b s]; [now left|].
    destruct (in_rng 194 223 a) eqn:A2.
    { destruct (is_cont b) eqn:B; [|now left]. right. apply (Q [a; b] s); [apply U2; now apply in_rng_iff|reflexivity]. }
    destruct s as [|c s]; [now left|].
    destruct (in_rng 224 239 a) eqn:A3.
    { match goal with |- context [if ?x then _ else _] => destruct x eqn:B end; [|now left]. right. apply (Q [a; b; c] s); [|reflexivity].
      apply andb_true_iff in B as [B C]. apply in_rng_iff in C. apply in_rng_iff in A3. unfold rng in A3.
      destruct (Z.eqb_spec (byte_of a) 224) as [E|N]; [apply U3a; [exact E|now apply in_rng_iff|exact C]|].
      destruct (Z.eqb_spec (byte_of a) 237) as [E|N']; [apply U3c; [exact E|now apply in_rng_iff|exact C]|]. apply in_rng_iff in B.
      destruct (Z.le_gt_cases (byte_of a) 236); [apply U3b|apply U3d]; auto; unfold rng; lia. }
    destruct s as [|d s]; [now left|].
    destruct (in_rng 240 244 a) eqn:A4; [|now left].
    match goal with |- context [if ?x then _ else _] => destruct x eqn:B end; [|now left]. right. apply (Q [a; b; c; d] s); [|reflexivity].
    apply andb_true_iff in B as [B D]. apply andb_true_iff in B as [B C]. apply in_rng_iff in C, D. apply in_rng_iff in A4. unfold rng in A4.
    destruct (Z.eqb_spec (byte_of a) 240) as [E|N]; [apply U4a; auto; now apply in_rng_iff|].
    destruct (Z.eqb_spec (byte_of a) 244) as [E|N']; [apply U4c; auto; now apply in_rng_iff|]. apply in_rng_iff in B.
    apply U4b; auto; unfold rng; lia. }
  destruct D as [D|D]; [|now right]. destruct (decode_width_cases a s) as [H|[_ H]]; [now right|left; now split].
Qed.
Lemma valid_loop n : forall s, (length s <= n)%nat -> repaired s (utf8_valid_loop n s).
Proof.
  induction n as [|n IH]; intros s L; [destruct s; [constructor|cbn in L; lia]|]. destruct s as [|a s]; [constructor|]. cbn [utf8_valid_loop].
  destruct (decode_total a s) as [[E B]|(r & t & U & E & D)].
  - rewrite E. cbn [skipn]. apply repaired_bad; [exact B|]. apply IH. cbn [length] in L. lia.
  - rewrite D, E. rewrite skipn_app, skipn_all, Nat.sub_diag. cbn [app skipn]. apply repaired_char; [exact U|]. apply IH.
    assert (length (a :: s) = length r + length t)%nat by (rewrite E; apply app_length). pose proof (utf8_nonempty r U). destruct r; [congruence|cbn [length] in *; lia].
Qed.
Lemma repaired_fun s t : repaired s t -> forall u, repaired s u -> t = u.
Proof.
  induction 1 as [|r s t U R IH|c s t B R IH]; intros u H.
  - inversion H as [|r s t U R E|]; [reflexivity|]. apply app_eq_nil in E as [-> _]. now apply utf8_nonempty in U.
  - inversion H as [E|r' s' t' U' R' E|c s' t' B' R' E]; subst.
    + symmetry in E. apply app_eq_nil in E as [-> _]. now apply utf8_nonempty in U.
    + assert (D : (length r', r') = (length r, r)) by (rewrite <- (decode_char r' s' U'), E; now apply decode_char). injection D as _ <-.
      apply app_inv_head in E. subst. f_equal. now apply IH.
    + exfalso. symmetry in E. rewrite <- E in *. apply (B' r s U). now rewrite E.
  - inversion H as [|r' s' t' U' R' E|c' s' t' B' R' E]; subst.
    + exfalso. now apply (B r' s' U').
    + repeat f_equal. now apply IH.
Qed.
Lemma repaired_well s t : repaired s t -> well_formed t.
Proof.
  induction 1 as [|r s t U R (rs & F & ->)|c s t B R (rs & F & ->)].
  - exists []. split; [constructor|reflexivity].
  - exists (r :: rs). split; [now constructor|reflexivity].
  - exists ([chr 239; chr 191; chr 189] :: rs). split; [|reflexivity]. constructor; [|exact F]. apply U3d; unfold rng; vm_compute; split; discriminate.
Qed.
Lemma well_repaired s : well_formed s -> repaired s s.
Proof. intros (rs & F & ->). induction F; cbn [concat]; [constructor|now apply repaired_char]. Qed.
Lemma encoded_well cs s : encoded utf8 cs s -> well_formed s.
Proof.
  induction 1 as [|r s cs t S E F (rs & FR & ->)]; [exists []; split; [constructor|reflexivity]|]. exists (s :: rs). split; [|reflexivity]. constructor; [|exact FR].
  now apply (utf8_table r).
Qed.
(** which bytes are a mark *)
Definition marked (s : str) : Prop := exists t, s = mark16 true ++ t \/ s = mark16 false ++ t \/ s = mark8 ++ t.
Lemma byte_is a n : byte_of a =? n = true -> a = chr (Z.to_N n).
Proof. intros H. apply Z.eqb_eq in H. now apply byte_inj. Qed.
Lemma decode_plain s : ~ marked s -> repaired s (decode_text s).
Proof.
  intros N. pose proof (valid_loop (length s) s (le_n _)) as V. unfold decode_text. destruct s as [|a [|b r]]; [exact V|exact V|].
  destruct ((byte_of a =? 255) && (byte_of b =? 254)) eqn:E1.
  { apply andb_true_iff in E1 as [A B]. apply byte_is in A, B. exfalso. apply N. exists r. right. left. now rewrite A, B. }
  destruct ((byte_of a =? 254) && (byte_of b =? 255)) eqn:E2.
  { apply andb_true_iff in E2 as [A B]. apply byte_is in A, B. exfalso. apply N. exists r. left. now rewrite A, B. }
  destruct r as [|c r]; [exact V|]. destruct ((byte_of a =? 239) && (byte_of b =? 187) && (byte_of c =? 191)) eqn:E3; [|exact V].
  apply andb_true_iff in E3 as [E3 C]. apply andb_true_iff in E3 as [A B]. apply byte_is in A, B, C. exfalso. apply N. exists r. right. right. now rewrite A, B, C.
Qed.
Lemma decode_mark16 big s : decode_text (mark16 big ++ s) = utf16_loop (negb big) None s.
Proof. destruct big; reflexivity. Qed.
Lemma decode_mark8 s : decode_text (mark8 ++ s) = s.
Proof. reflexivity. Qed.
(** everything the UTF-16 decoder writes is well formed *)
Lemma well_app s t : well_formed s -> well_formed t -> well_formed (s ++ t).
Proof. intros (a & A & ->) (b & B & ->). exists (a ++ b). split; [now apply Forall_app|]. symmetry. apply concat_app. Qed.
Lemma well_error : well_formed rune_error.
Proof. exists [rune_error]. split; [|reflexivity]. constructor; [|constructor]. apply U3d; unfold rng; vm_compute; split; discriminate. Qed.
Lemma well_encode r : scalar r -> well_formed (utf8_encode r).
Proof.
  intros S. destruct (utf8_exists r S) as (s & H). rewrite <- (utf8_model _ _ H). exists [s]. split; [|cbn; now rewrite app_nil_r]. constructor; [|constructor].
  now apply (utf8_table r).
Qed.
Lemma utf16_well le n : forall s hi, (length s <= n)%nat -> (forall h, hi = Some h -> 55296 <= h < 56320) -> well_formed (utf16_loop le hi s).
Proof.
  induction n as [|n IH]; intros s hi L H.
  - destruct s; [|cbn in L; lia]. cbn [utf16_loop]. destruct hi; [exact well_error|exists []; split; [constructor|reflexivity]].
  - destruct s as [|a [|b s]]; cbn [utf16_loop].
    + destruct hi; [exact well_error|exists []; split; [constructor|reflexivity]].
    + apply well_app; [|exact well_error]. destruct hi; [exact well_error|exists []; split; [constructor|reflexivity]].
    + cbn [length] in L. assert (IHs : forall hi, (forall h, hi = Some h -> 55296 <= h < 56320) -> well_formed (utf16_loop le hi s)) by (intros; apply IH; [lia|assumption]).
      assert (N0 : forall h : Z, None = Some h -> 55296 <= h < 56320) by discriminate.
      assert (U : 0 <= unit16 le a b < 65536).
      { unfold unit16. pose proof (byte_of_range a). pose proof (byte_of_range b). destruct le; lia. }
      set (u := unit16 le a b) in *. cbv zeta.
      assert (P : well_formed (if (55296 <=? u) && (u <? 56320) then utf16_loop le (Some u) s
         else if (56320 <=? u) && (u <? 57344) then rune_error ++ utf16_loop le None s else utf8_encode u ++ utf16_loop le None s)).
      { destruct ((55296 <=? u) && (u <? 56320)) eqn:E1; [apply IHs; intros h Q; injection Q as <-; lia|].
        destruct ((56320 <=? u) && (u <? 57344)) eqn:E2; [apply well_app; [exact well_error|now apply IHs]|].
        apply well_app; [apply well_encode; unfold scalar; lia|now apply IHs]. }
      destruct hi as [h|]; [|exact P]. specialize (H h eq_refl). destruct ((56320 <=? u) && (u <? 57344)) eqn:E; [|apply well_app; [exact well_error|exact P]].
      apply well_app; [apply well_encode; unfold scalar; lia|now apply IHs].
Qed.

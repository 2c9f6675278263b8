From Verif Require Import Mods SpecMods BaseLemmas.
From Coq Require Import Permutation.
Local Open Scope Z_scope.

(** ** Bits *)
Lemma land_pow2 m k : 0 <= k -> Z.land m (2 ^ k) = if Z.testbit m k then 2 ^ k else 0.
Proof.
  intros Hk. apply Z.bits_inj'. intros n Hn.
  rewrite Z.land_spec, Z.pow2_bits_eqb by lia.
  destruct (Z.testbit m k) eqn:E.
  - rewrite Z.pow2_bits_eqb by lia. destruct (Z.eqb_spec k n); subst; [rewrite E|]; rewrite ?andb_false_r; reflexivity.
  - rewrite Z.bits_0. destruct (Z.eqb_spec k n); subst; [rewrite E|]; rewrite ?andb_false_r; reflexivity.
Qed.

Lemma mactive_bit m k : 0 <= k -> mactive m (2 ^ k) = Z.testbit m k.
Proof.
  intros Hk. unfold mactive. rewrite land_pow2 by lia.
  destruct (Z.testbit m k); [|reflexivity].
  apply Z.ltb_lt. apply Z.pow_pos_nonneg; lia.
Qed.
Lemma has_iff m k : has m k <-> Z.testbit m k = true.
Proof. reflexivity. Qed.

Lemma land_lnot_pow2 m k n : 0 <= k -> 0 <= n ->
  Z.testbit (Z.land m (Z.lnot (2 ^ k))) n = Z.testbit m n && negb (k =? n).
Proof.
  intros. rewrite Z.land_spec, Z.lnot_spec, Z.pow2_bits_eqb by lia. reflexivity.
Qed.
Lemma lor_pow2 m k n : 0 <= k -> 0 <= n ->
  Z.testbit (Z.lor m (2 ^ k)) n = Z.testbit m n || (k =? n).
Proof. intros. rewrite Z.lor_spec, Z.pow2_bits_eqb by lia. reflexivity. Qed.

Lemma bits_above m n k : 0 <= n -> 0 <= m < 2 ^ n -> n <= k -> Z.testbit m k = false.
Proof.
  intros Hn [H0 H1] Hk. destruct (Z.eq_dec m 0) as [->|Hm]; [apply Z.bits_0|].
  apply Z.bits_above_log2; [lia|].
  apply Z.lt_le_trans with n; [|lia]. apply Z.log2_lt_pow2; lia.
Qed.
Lemma bits_bound m n : 0 <= n -> (forall k, n <= k -> Z.testbit m k = false) -> 0 <= m < 2 ^ n.
Proof.
  intros Hn H.
  assert (m = m mod 2 ^ n) as ->.
  { apply Z.bits_inj'. intros k Hk. destruct (Z.lt_ge_cases k n).
    - rewrite Z.mod_pow2_bits_low by lia. reflexivity.
    - rewrite Z.mod_pow2_bits_high by lia. apply H; lia. }
  apply Z.mod_pos_bound. apply Z.pow_pos_nonneg; lia.
Qed.

(** ** Rune decoding *)
Definition ascii7 (c : ascii) : Prop := in_rng 0 127 c = true.
Lemma decode_ascii a s : ascii7 a -> decode_rune (a :: s) = (1%nat, [a]).
Proof. unfold ascii7, decode_rune. intros ->. reflexivity. Qed.

Lemma byte_of_range c : 0 <= byte_of c <= 255.
Proof.
  unfold byte_of. pose proof (N_ascii_bounded c). lia.
Qed.
Lemma in_rng_iff lo hi c : in_rng lo hi c = true <-> rng lo hi c.
Proof. unfold in_rng, rng. rewrite andb_true_iff, !Z.leb_le. reflexivity. Qed.
Lemma in_rng_false lo hi c : in_rng lo hi c = false <-> ~ rng lo hi c.
Proof. rewrite <- in_rng_iff. destruct (in_rng lo hi c); split; congruence. Qed.

Definition acro (s : str) : Prop := exists a b, s = [a; b] /\ ascii7 a /\ ascii7 b.

Lemma chunks_acros names : forall done fuel,
  Forall acro names -> (length (concat names) <= fuel)%nat ->
  mods_chunks fuel (2 * Z.of_nat (length done)) (concat names) (done ++ repeat [] (length names))
  = Ok (done ++ names).
Proof.
  induction names as [|nm names IH]; intros done fuel HF Hfuel.
  - simpl. destruct fuel; simpl; now rewrite ?app_nil_r.
  - inversion HF as [|? ? (a & b & -> & Ha & Hb) HF']; subst.
    cbn [concat app length] in *. destruct fuel as [|[|fuel]]; [lia|lia|].
    cbn [mods_chunks]. rewrite decode_ascii by assumption.
    replace (2 * Z.of_nat (length done) / 2) with (Z.of_nat (length done)) by (rewrite Z.mul_comm, Z.div_mul; lia).
    cbn [repeat]. rewrite idx_app. cbn [bind]. rewrite set_idx_app. cbn [bind skipn app].
    cbn [mods_chunks].
    rewrite decode_ascii by assumption.
    replace ((2 * Z.of_nat (length done) + Z.of_nat 1) / 2) with (Z.of_nat (length done)).
    2:{ apply Z.div_unique with 1; lia. }
    rewrite idx_app. cbn [bind]. rewrite set_idx_app. cbn [bind skipn app].
    specialize (IH (done ++ [[a; b]]) fuel HF' ltac:(lia)).
    rewrite app_length in IH. cbn [length] in IH.
    rewrite <- !app_assoc in IH. cbn [app] in IH.
    replace (2 * Z.of_nat (length done) + Z.of_nat 1 + Z.of_nat 1) with (2 * Z.of_nat (length done + 1)) by lia.
    exact IH.
Qed.

Lemma acro_len s : acro s -> length s = 2%nat.
Proof. intros (a & b & -> & _). reflexivity. Qed.
Lemma concat_acros_len names : Forall acro names -> length (concat names) = (2 * length names)%nat.
Proof. induction 1; simpl; [reflexivity|]. rewrite app_length, (acro_len _ H), IHForall. lia. Qed.

Lemma parse_acros names : Forall acro names ->
  parse_mods (concat names) = Ok (add_implied (fold_left or_mod names 0)).
Proof.
  intros HF. unfold parse_mods.
  pose proof (concat_acros_len _ HF) as HL.
  rewrite HL at 2. replace (Nat.div2 (2 * length names)) with (length names) by (symmetry; apply Nat.div2_double).
  pose proof (chunks_acros names [] (length (concat names)) HF (le_n _)) as H.
  cbn [length app] in H. change (2 * Z.of_nat 0) with 0 in H. rewrite H. reflexivity.
Qed.

(** ** or_mod as a union of bits *)
Lemma mod_index_range m t : forall i k, mod_index m t i = Some k -> i <= k < i + zlen t.
Proof.
  unfold zlen. induction t as [|a t IH]; intros i k; simpl; [discriminate|].
  destruct (str_eqb a m).
  - intros [= <-]. lia.
  - intros H. apply IH in H. lia.
Qed.
Definition name_bit (nm : str) (k : Z) : bool :=
  match mod_index nm modsString 0 with Some i => i =? k | None => false end.
Lemma or_mod_bit m nm k : 0 <= k -> Z.testbit (or_mod m nm) k = Z.testbit m k || name_bit nm k.
Proof.
  intros Hk. unfold or_mod, name_bit. destruct (mod_index nm modsString 0) as [i|] eqn:E.
  - apply mod_index_range in E. rewrite Z.shiftl_1_l, lor_pow2 by lia. reflexivity.
  - now rewrite orb_false_r.
Qed.
Lemma fold_or_bit names : forall m k, 0 <= k ->
  Z.testbit (fold_left or_mod names m) k = Z.testbit m k || existsb (fun nm => name_bit nm k) names.
Proof.
  induction names as [|nm names IH]; intros m k Hk; simpl; [now rewrite orb_false_r|].
  rewrite IH, or_mod_bit by assumption. now rewrite orb_assoc.
Qed.
Lemma fold_or_high names k : 32 <= k -> Z.testbit (fold_left or_mod names 0) k = false.
Proof.
  intros Hk. rewrite fold_or_bit, Z.bits_0 by lia. cbn [orb].
  induction names as [|nm names IH]; simpl; [reflexivity|]. rewrite IH, orb_false_r.
  unfold name_bit. destruct (mod_index nm modsString 0) eqn:E; [|reflexivity].
  apply mod_index_range in E. change (zlen modsString) with 32 in E. apply Z.eqb_neq; lia.
Qed.

Lemma add_implied_bit m k : 0 <= k ->
  Z.testbit (add_implied m) k =
  Z.testbit m k || (Z.testbit m 9 && (6 =? k)) || (Z.testbit m 14 && (5 =? k)) || (Z.testbit m 31 && (8 =? k)).
Proof.
  intros Hk. unfold add_implied, Nightcore, DoubleTime, Perfect, SuddenDeath, Daycore, HalfTime.
  rewrite !mactive_bit by lia.
  destruct (Z.testbit m 9) eqn:E9; destruct (Z.testbit m 31) eqn:E31; destruct (Z.testbit m 14) eqn:E14;
  repeat (rewrite ?mactive_bit, ?lor_pow2 by lia; rewrite ?E9, ?E31, ?E14; cbn [Z.eqb Pos.eqb orb andb]; rewrite ?orb_false_r);
  reflexivity.
Qed.

Lemma mask_implied_bit m k : 0 <= k ->
  Z.testbit (mask_implied m) k =
  Z.testbit m k && negb (Z.testbit m 9 && (6 =? k)) && negb (Z.testbit m 31 && (8 =? k))
   && negb (Z.testbit m 14 && (5 =? k)).
Proof.
  intros Hk. unfold mask_implied, Nightcore, DoubleTime, Perfect, SuddenDeath, Daycore, HalfTime.
  rewrite !mactive_bit by lia.
  destruct (Z.testbit m 9) eqn:E9; destruct (Z.testbit m 31) eqn:E31; destruct (Z.testbit m 14) eqn:E14;
  repeat (rewrite ?mactive_bit, ?land_lnot_pow2 by lia; rewrite ?E9, ?E31, ?E14; cbn [Z.eqb Pos.eqb negb andb]; rewrite ?andb_true_r);
  reflexivity.
Qed.

(** ** names of the set bits *)
Lemma names_sub table : forall m, incl (mods_names table m) table.
Proof.
  induction table as [|a t IH]; intros m x; simpl; [tauto|].
  rewrite in_app_iff. intros [H|H].
  - destruct (Z.land m 1 =? 1); simpl in H; intuition.
  - right. eapply IH; eauto.
Qed.
Lemma names_in_iff table : NoDup table -> forall m nm k, nth_error table k = Some nm ->
  (In nm (mods_names table m) <-> Z.testbit m (Z.of_nat k) = true).
Proof.
  induction 1 as [|a t Hni Hnd IH]; intros m nm k Hk; [destruct k; discriminate|].
  simpl. rewrite in_app_iff.
  assert (Hb : (Z.land m 1 =? 1) = Z.testbit m 0).
  { change 1 with (2 ^ 0) at 1; rewrite (land_pow2 m 0) by lia. destruct (Z.testbit m 0); reflexivity. }
  destruct k as [|k]; simpl in Hk.
  - injection Hk as ->. rewrite Hb. change (Z.of_nat 0) with 0. destruct (Z.testbit m 0) eqn:E.
    + simpl; tauto.
    + split; [|discriminate]. intros [[]|H]. exfalso. apply Hni. eapply names_sub; eauto.
  - assert (Hne : nm <> a).
    { intros ->. apply Hni. eapply nth_error_In; eauto. }
    rewrite (IH _ _ _ Hk). rewrite Z.shiftr_spec by lia.
    replace (Z.of_nat k + 1) with (Z.of_nat (S k)) by lia.
    split; [|tauto]. intros [H|H]; [|exact H].
    destruct (Z.land m 1 =? 1); simpl in H; [destruct H as [H|[]]|destruct H]; congruence.
Qed.

Lemma mod_index_nth m t : forall i k, mod_index m t i = Some k ->
  nth_error t (Z.to_nat (k - i)) = Some m.
Proof.
  induction t as [|a t IH]; intros i k; simpl; [discriminate|].
  destruct (str_eqb a m) eqn:E.
  - intros [= <-]. rewrite Z.sub_diag. simpl. f_equal.
    now apply str_eqb_eq in E.
  - intros H. pose proof (mod_index_range _ _ _ _ H). apply IH in H.
    replace (Z.to_nat (k - i)) with (S (Z.to_nat (k - (i + 1)))) by lia. exact H.
Qed.
Definition table_ok : bool :=
  forallb (fun k => match nth_error modsString k with
                    | Some nm => name_bit nm (Z.of_nat k) | None => false end) (seq 0 32).
Lemma table_ok_true : table_ok = true. Proof. vm_compute. reflexivity. Qed.
Lemma name_bit_nth k nm : nth_error modsString k = Some nm -> name_bit nm (Z.of_nat k) = true.
Proof.
  intros H. pose proof table_ok_true as HT. unfold table_ok in HT. rewrite forallb_forall in HT.
  assert (k < 32)%nat. { change 32%nat with (length modsString). apply nth_error_Some. congruence. }
  specialize (HT k ltac:(apply in_seq; lia)). now rewrite H in HT.
Qed.
Lemma name_bit_inv nm k : name_bit nm k = true -> nth_error modsString (Z.to_nat k) = Some nm /\ 0 <= k < 32.
Proof.
  unfold name_bit. destruct (mod_index nm modsString 0) as [i|] eqn:E; [|discriminate].
  intros H. apply Z.eqb_eq in H. subst. pose proof (mod_index_range _ _ _ _ E) as R. change (zlen modsString) with 32 in R.
  apply mod_index_nth in E. rewrite Z.sub_0_r in E. split; [exact E|lia].
Qed.
Lemma modsString_acro : Forall acro modsString.
Proof.
  assert (H : forallb (fun s => match s with [a; b] => in_rng 0 127 a && in_rng 0 127 b | _ => false end) modsString = true)
    by (vm_compute; reflexivity).
  rewrite forallb_forall in H. apply Forall_forall. intros s Hs. specialize (H s Hs).
  destruct s as [|a [|b [|]]]; try discriminate. apply andb_true_iff in H. exists a, b. tauto.
Qed.
Lemma modsString_nodup : NoDup modsString.
Proof.
  apply NoDup_nth_error. intros i j Hi Hij.
  assert (Hli : exists nm, nth_error modsString i = Some nm).
  { destruct (nth_error modsString i) eqn:E; [eauto|]. apply nth_error_None in E. lia. }
  destruct Hli as [nm Hnm]. rewrite Hnm in Hij. symmetry in Hij.
  apply name_bit_nth in Hnm. apply name_bit_nth in Hij.
  unfold name_bit in *. destruct (mod_index nm modsString 0); [|discriminate].
  apply Z.eqb_eq in Hnm, Hij. lia.
Qed.

Lemma names_fold m k : 0 <= k < 32 ->
  Z.testbit (fold_left or_mod (mods_names modsString m) 0) k = Z.testbit m k.
Proof.
  intros Hk. rewrite fold_or_bit, Z.bits_0 by lia. cbn [orb].
  assert (Hn : exists nm, nth_error modsString (Z.to_nat k) = Some nm).
  { destruct (nth_error modsString (Z.to_nat k)) eqn:E; [eauto|]. apply nth_error_None in E.
    change (length modsString) with 32%nat in E. lia. }
  destruct Hn as [nm Hnm].
  apply eq_true_iff_eq. rewrite existsb_exists.
  replace (Z.testbit m k) with (Z.testbit m (Z.of_nat (Z.to_nat k))) by (rewrite Z2Nat.id by lia; reflexivity).
  rewrite <- (names_in_iff _ modsString_nodup m nm _ Hnm).
  split.
  - intros (x & Hx & Hb). apply name_bit_inv in Hb. destruct Hb as [Hb _].
    rewrite Hnm in Hb. injection Hb as <-. exact Hx.
  - intros H. exists nm. split; [exact H|]. apply name_bit_nth in Hnm. rewrite Z2Nat.id in Hnm by lia. exact Hnm.
Qed.

Lemma roundtrip m : defined_mods m -> implied_present m -> parse_mods (mods_string m) = Ok m.
Proof.
  intros Hd (H1 & H2 & H3). unfold has, bNC, bDT, bDC, bHT, bPF, bSD in *. unfold mods_string.
  rewrite parse_acros.
  2:{ apply Forall_forall. intros x Hx. apply names_sub in Hx.
      pose proof modsString_acro as HA. rewrite Forall_forall in HA. auto. }
  f_equal. apply Z.bits_inj'. intros k Hk.
  rewrite add_implied_bit by lia.
  rewrite !(names_fold _ 9), !(names_fold _ 14), !(names_fold _ 31) by lia.
  rewrite !(mask_implied_bit m 9), !(mask_implied_bit m 14), !(mask_implied_bit m 31) by lia.
  change (6 =? 9) with false. change (6 =? 14) with false. change (6 =? 31) with false. change (8 =? 9) with false. change (8 =? 14) with false. change (8 =? 31) with false. change (5 =? 9) with false. change (5 =? 14) with false. change (5 =? 31) with false.
  rewrite !andb_false_r. cbn [negb]. rewrite !andb_true_r.
  destruct (Z.lt_ge_cases k 32) as [Hlt|Hge].
  - rewrite names_fold, mask_implied_bit by lia.
    destruct (Z.eqb_spec 6 k); [subst|destruct (Z.eqb_spec 8 k); [subst|destruct (Z.eqb_spec 5 k); [subst|]]];
      cbn [Z.eqb Pos.eqb]; rewrite ?andb_false_r, ?andb_true_r; cbn [negb]; rewrite ?andb_true_r, ?orb_false_r.
    + destruct (Z.testbit m 9); [rewrite (H1 eq_refl)|]; destruct (Z.testbit m 6); reflexivity.
    + destruct (Z.testbit m 31); [rewrite (H2 eq_refl)|]; destruct (Z.testbit m 8); reflexivity.
    + destruct (Z.testbit m 14); [rewrite (H3 eq_refl)|]; destruct (Z.testbit m 5); reflexivity.
    + reflexivity.
  - rewrite fold_or_high by lia. rewrite (bits_above m 32 k) by (unfold defined_mods in Hd; lia).
    replace (6 =? k) with false by (symmetry; apply Z.eqb_neq; lia).
    replace (8 =? k) with false by (symmetry; apply Z.eqb_neq; lia).
    replace (5 =? k) with false by (symmetry; apply Z.eqb_neq; lia).
    rewrite !andb_false_r. reflexivity.
Qed.

(** ** closure *)
Lemma chunk_any_closed names : defined_mods (add_implied (fold_left or_mod names 0)) /\
  implied_present (add_implied (fold_left or_mod names 0)).
Proof.
  set (m := fold_left or_mod names 0).
  assert (Hhi : forall k, 32 <= k -> Z.testbit m k = false) by (intros; apply fold_or_high; lia).
  split.
  - apply bits_bound; [lia|]. intros k Hk. rewrite add_implied_bit, Hhi by lia.
    replace (6 =? k) with false by (symmetry; apply Z.eqb_neq; lia).
    replace (8 =? k) with false by (symmetry; apply Z.eqb_neq; lia).
    replace (5 =? k) with false by (symmetry; apply Z.eqb_neq; lia).
    rewrite !andb_false_r. reflexivity.
  - unfold implied_present, has, bNC, bDT, bDC, bHT, bPF, bSD.
    rewrite !add_implied_bit by lia. cbn [Z.eqb Pos.eqb].
    destruct (Z.testbit m 9), (Z.testbit m 14), (Z.testbit m 31), (Z.testbit m 5), (Z.testbit m 6), (Z.testbit m 8);
      cbn; intuition.
Qed.
Lemma parse_closed s m : parse_mods s = Ok m -> defined_mods m /\ implied_present m.
Proof.
  unfold parse_mods. destruct (mods_chunks _ _ _ _) as [sl| |]; cbn [bind]; [|discriminate|discriminate].
  intros [= <-]. apply chunk_any_closed.
Qed.

Lemma order_insensitive l l' : Forall acro l -> Forall acro l' -> (forall x, In x l <-> In x l') ->
  parse_mods (concat l) = parse_mods (concat l').
Proof.
  intros H1 H2 H. rewrite !parse_acros by assumption. do 2 f_equal.
  apply Z.bits_inj'. intros k Hk. rewrite !fold_or_bit by lia. f_equal.
  apply eq_true_iff_eq. rewrite !existsb_exists. split; intros (x & Hx & Hb); exists x; split; auto; apply H; auto.
Qed.

(** ** panic characterisation *)
Lemma utf8_nonempty r : utf8_char r -> r <> [] .
Proof. destruct 1; discriminate. Qed.

Ltac rngs := repeat match goal with
  | H : rng _ _ _ |- _ => apply in_rng_iff in H
  end.
(* decode_rune agrees with the table *)
Lemma decode_char r t : utf8_char r -> decode_rune (r ++ t) = (length r, r).
Proof.
  assert (HR : forall lo hi c, rng lo hi c -> in_rng lo hi c = true) by (intros; now apply in_rng_iff).
  assert (HF : forall lo hi c, ~ rng lo hi c -> in_rng lo hi c = false) by (intros; now apply in_rng_false).
  destruct 1; cbn [app length]; unfold decode_rune, is_cont.
  - rewrite HR by assumption. reflexivity.
  - rewrite (HF 0 127 a) by (unfold rng in *; lia). rewrite (HR 194 223 a), (HR 128 191 b) by assumption. reflexivity.
  - rewrite (HF 0 127 a), (HF 194 223 a), (HR 224 239 a) by (unfold rng in *; lia).
    rewrite H, Z.eqb_refl, !HR by assumption. reflexivity.
  - rewrite (HF 0 127 a), (HF 194 223 a), (HR 224 239 a) by (unfold rng in *; lia).
    replace (byte_of a =? 224) with false by (symmetry; apply Z.eqb_neq; unfold rng in *; lia).
    replace (byte_of a =? 237) with false by (symmetry; apply Z.eqb_neq; unfold rng in *; lia).
    rewrite !HR by assumption. reflexivity.
  - rewrite (HF 0 127 a), (HF 194 223 a), (HR 224 239 a) by (unfold rng in *; lia).
    rewrite H. cbn [Z.eqb Pos.eqb]. rewrite !HR by assumption. reflexivity.
  - rewrite (HF 0 127 a), (HF 194 223 a), (HR 224 239 a) by (unfold rng in *; lia).
    replace (byte_of a =? 224) with false by (symmetry; apply Z.eqb_neq; unfold rng in *; lia).
    replace (byte_of a =? 237) with false by (symmetry; apply Z.eqb_neq; unfold rng in *; lia).
    rewrite !HR by assumption. reflexivity.
  - rewrite (HF 0 127 a), (HF 194 223 a), (HF 224 239 a), (HR 240 244 a) by (unfold rng in *; lia).
    rewrite H, Z.eqb_refl, !HR by assumption. reflexivity.
  - rewrite (HF 0 127 a), (HF 194 223 a), (HF 224 239 a), (HR 240 244 a) by (unfold rng in *; lia).
    replace (byte_of a =? 240) with false by (symmetry; apply Z.eqb_neq; unfold rng in *; lia).
    replace (byte_of a =? 244) with false by (symmetry; apply Z.eqb_neq; unfold rng in *; lia).
    rewrite !HR by assumption. reflexivity.
  - rewrite (HF 0 127 a), (HF 194 223 a), (HF 224 239 a), (HR 240 244 a) by (unfold rng in *; lia).
    rewrite H. cbn [Z.eqb Pos.eqb]. rewrite !HR by assumption. reflexivity.
Qed.

Lemma decode_width_cases a s :
  (exists r t, utf8_char r /\ a :: s = r ++ t /\ decode_rune (a :: s) = (length r, r)) \/
  (fst (decode_rune (a :: s)) = 1%nat /\ forall r t, utf8_char r -> a :: s <> r ++ t).
Proof.
  assert (D : (exists r t, utf8_char r /\ a :: s = r ++ t) \/ (forall r t, utf8_char r -> a :: s <> r ++ t)).
  { destruct (decode_rune (a :: s)) as [w r] eqn:E.
    assert (Hall : utf8_char (firstn w (a :: s)) \/ ~ utf8_char (firstn w (a :: s)) ) by (apply Classical_Prop.classic).
    destruct Hall as [H|H].
    - left. exists (firstn w (a :: s)), (skipn w (a :: s)). split; [exact H|]. symmetry; apply firstn_skipn.
    - right. intros r' t Hr Heq. rewrite Heq, decode_char in E by assumption. injection E as <- <-.
      apply H. rewrite Heq. now rewrite firstn_app, Nat.sub_diag, firstn_all, app_nil_r. }
  destruct D as [(r & t & Hr & Heq)|D].
  - left. exists r, t. repeat split; auto. rewrite Heq. now apply decode_char.
  - right. split; [|exact D].
    assert (W : forall r, utf8_char r -> decode_rune (a :: s) <> (length r, r)).
    { intros r Hr E.
      assert (firstn (length r) (a :: s) = r).
      { revert E. unfold decode_rune. 
        destruct (in_rng 0 127 a); [intros E; inversion E; subst; reflexivity|].
        destruct s as [|b s]; [intros E; exfalso; inversion E; subst; discriminate|].
        destruct (in_rng 194 223 a).
        { destruct (is_cont b); [intros E; inversion E; subst; reflexivity|intros E; exfalso; inversion E; subst; discriminate]. }
        destruct s as [|c s]; [intros E; exfalso; inversion E; subst; discriminate|].
        destruct (in_rng 224 239 a).
        { match goal with |- context [if ?x then _ else _] => destruct x end;
          [intros E; inversion E; subst; reflexivity|intros E; exfalso; inversion E; subst; discriminate]. }
        destruct s as [|d s]; [intros E; exfalso; inversion E; subst; discriminate|].
        destruct (in_rng 240 244 a); [|intros E; exfalso; inversion E; subst; discriminate].
        match goal with |- context [if ?x then _ else _] => destruct x end;
          [intros E; inversion E; subst; reflexivity|intros E; exfalso; inversion E; subst; discriminate]. }
      apply (D r (skipn (length r) (a :: s)) Hr). rewrite <- H at 1. symmetry. apply firstn_skipn. }
    clear D. revert W. unfold decode_rune, is_cont.
    destruct (in_rng 0 127 a) eqn:E1; [reflexivity|].
    destruct s as [|b s]; [reflexivity|].
    destruct (in_rng 194 223 a) eqn:E2.
    { destruct (in_rng 128 191 b) eqn:E3; [|reflexivity]. intros W. exfalso.
      apply (W [a; b]); [|reflexivity]. apply U2; now apply in_rng_iff. }
    destruct s as [|c s]; [reflexivity|].
    destruct (in_rng 224 239 a) eqn:E3.
    { match goal with |- context [if ?x then _ else _] => destruct x eqn:E4 end; [|reflexivity].
      intros W. exfalso. apply (W [a; b; c]); [|reflexivity].
      apply andb_true_iff in E4. destruct E4 as [E4 E5]. apply in_rng_iff in E5, E3.
      destruct (Z.eqb_spec (byte_of a) 224).
      - apply in_rng_iff in E4. now apply U3a.
      - destruct (Z.eqb_spec (byte_of a) 237).
        + apply in_rng_iff in E4. now apply U3c.
        + apply in_rng_iff in E4. destruct (Z.lt_ge_cases (byte_of a) 237).
          * apply U3b; auto. unfold rng in *; lia.
          * apply U3d; auto. unfold rng in *; lia. }
    destruct s as [|d s]; [reflexivity|].
    destruct (in_rng 240 244 a) eqn:E4; [|reflexivity].
    match goal with |- context [if ?x then _ else _] => destruct x eqn:E5 end; [|reflexivity].
    intros W. exfalso. apply (W [a; b; c; d]); [|reflexivity].
    rewrite !andb_true_iff in E5. destruct E5 as [[E5 E6] E7]. apply in_rng_iff in E4, E6, E7.
    destruct (Z.eqb_spec (byte_of a) 240).
    + apply in_rng_iff in E5. now apply U4a.
    + destruct (Z.eqb_spec (byte_of a) 244).
      * apply in_rng_iff in E5. now apply U4c.
      * apply in_rng_iff in E5. apply U4b; auto. unfold rng in *; lia.
Qed.

(** Rune loop outcome: it panics iff some rune starts at index n with n/2 out of range. *)
Lemma chunk_step fuel n s sl w txt :
  decode_rune s = (w, txt) -> s <> [] -> 0 <= n ->
  (n / 2 < zlen sl -> exists sl', length sl' = length sl /\
     mods_chunks (S fuel) n s sl = mods_chunks fuel (n + Z.of_nat w) (skipn w s) sl') /\
  (zlen sl <= n / 2 -> mods_chunks (S fuel) n s sl = Panic).
Proof.
  intros E Hs Hn. assert (0 <= n / 2) by (apply Z.div_pos; lia). split; intros H1.
  - destruct s as [|a s]; [congruence|]. cbn [mods_chunks]. rewrite E.
    unfold idx. destruct (Z.ltb_spec (n / 2) 0); [lia|].
    destruct (nth_error sl (Z.to_nat (n / 2))) as [old|] eqn:En.
    2:{ apply nth_error_None in En. unfold zlen in H1. lia. }
    cbn [bind]. unfold set_idx. destruct (Z.ltb_spec (n / 2) 0); [lia|]. cbn [orb].
    unfold zlen in H1. destruct (Z.leb_spec (Z.of_nat (length sl)) (n / 2)); [lia|]. cbn [bind].
    eexists. split; [|reflexivity]. apply upd_length.
  - destruct s as [|a s]; [congruence|]. cbn [mods_chunks]. rewrite E.
    unfold idx. destruct (Z.ltb_spec (n / 2) 0); [lia|].
    destruct (nth_error sl (Z.to_nat (n / 2))) as [old|] eqn:En; [|reflexivity].
    assert (H2 : nth_error sl (Z.to_nat (n / 2)) <> None) by congruence.
    apply nth_error_Some in H2. unfold zlen in H1. lia.
Qed.

Lemma runes_app_len rs s : runes rs s -> concat rs = s.
Proof. induction 1; simpl; congruence. Qed.

Lemma chunks_outcome k : forall s, (length s <= k)%nat -> forall fuel n sl total,
  (length s <= fuel)%nat -> 0 <= n -> n + zlen s = total -> zlen sl = total / 2 ->
  (last_byte_alone s /\ Z.odd total = true -> mods_chunks fuel n s sl = Panic) /\
  (~ (last_byte_alone s /\ Z.odd total = true) -> exists sl', mods_chunks fuel n s sl = Ok sl').
Proof.
  induction k as [|k IH]; intros s Hk fuel n sl total Hf Hn Ht Hl.
  { destruct s; [|simpl in Hk; lia]. split.
    - intros [(rs & c & Hr) _]. exfalso. apply runes_app_len in Hr. rewrite concat_app in Hr.
      simpl in Hr. now destruct (concat rs).
    - intros _. exists sl. destruct fuel; reflexivity. }
  destruct s as [|a s].
  { split.
    - intros [(rs & c & Hr) _]. exfalso. apply runes_app_len in Hr. rewrite concat_app in Hr.
      simpl in Hr. now destruct (concat rs).
    - intros _. exists sl. destruct fuel; reflexivity. }
  destruct fuel as [|fuel]; [simpl in Hf; lia|].
  (* uniform step *)
  assert (Hstep : exists w txt rest, decode_rune (a :: s) = (w, txt) /\ skipn w (a :: s) = rest /\
     (1 <= w)%nat /\ (length rest + w = length (a :: s))%nat /\
     (forall rs, runes rs (a :: s) <-> exists rs', rs = firstn w (a :: s) :: rs' /\ runes rs' rest)).
  { destruct (decode_width_cases a s) as [(r & t & Hr & Heq & Hd)|[Hd Hno]].
    - exists (length r), r, t. pose proof (utf8_nonempty _ Hr) as Hne.
      rewrite Heq. repeat split.
      + rewrite <- Heq. exact Hd.
      + now rewrite skipn_app, skipn_all, Nat.sub_diag.
      + destruct r; [congruence|simpl; lia].
      + rewrite app_length. lia.
      + intros HR. rewrite firstn_app, firstn_all, Nat.sub_diag, app_nil_r. simpl.
        inversion HR as [|r' rs' s' Hr' HR' E1 E2|c rs' s' Hno HR' E1 E2]; subst.
        * exfalso. match goal with X : [] = r ++ t |- _ => rewrite <- X in Heq; discriminate end.
        * assert (r' = r /\ s' = t) as [-> ->].
          { pose proof (decode_char r' s' Hr') as D1. rewrite E2 in D1. rewrite decode_char in D1 by assumption.
            injection D1 as _ ->. split; [reflexivity|]. now apply app_inv_head in E2. }
          eauto.
        * exfalso. eapply Hno; eauto.
      + rewrite firstn_app, firstn_all, Nat.sub_diag, app_nil_r. simpl.
        intros (rs' & -> & HR). now apply runes_char.
    - destruct (decode_rune (a :: s)) as [w txt] eqn:E. simpl in Hd. subst w.
      exists 1%nat, txt, s. repeat split; simpl; try lia.
      + intros HR. inversion HR as [|r' rs' s' Hr' HR' E1 E2|c rs' s' Hno' HR' E1 E2]; subst.
        * exfalso. eapply Hno; eauto.
        * eauto.
      + intros (rs' & -> & HR). now apply runes_bad. }
  destruct Hstep as (w & txt & rest & Hd & Hsk & Hw & Hlen & Hrunes).
  destruct (chunk_step fuel n (a :: s) sl w txt Hd ltac:(discriminate) Hn) as [Hgo Hpanic].
  assert (HL : last_byte_alone (a :: s) <-> (rest = [] /\ w = 1%nat) \/ last_byte_alone rest).
  { unfold last_byte_alone. split.
    - intros (rs & c & HR). apply Hrunes in HR. destruct HR as (rs' & E & HR).
      destruct rs as [|r0 rs]; simpl in E; injection E as E1 E2.
      + left. subst rs'. inversion HR; subst. split; [reflexivity|].
        assert (HLn : length (firstn w (a :: s)) = 1%nat) by now rewrite <- E1.
        rewrite firstn_length in HLn. lia.
      + right. exists rs, c. now rewrite E2.
    - intros [[-> ->]|(rs & c & HR)].
      + exists [], a. apply Hrunes. exists []. split; [reflexivity|constructor].
      + exists (firstn w (a :: s) :: rs), c. apply Hrunes. exists (rs ++ [[c]]). split; [reflexivity|exact HR]. }
  unfold zlen in *. 
  destruct (Z.lt_ge_cases (n / 2) (Z.of_nat (length sl))) as [Hlt|Hge].
  - destruct (Hgo Hlt) as (sl' & Hsl & ->). rewrite Hsk.
    assert (HPre : ~ (rest = [] /\ w = 1%nat /\ Z.odd total = true)).
    { intros (-> & -> & Ho). cbn [length] in *. assert (n = total - 1) by lia. apply Zodd_bool_iff in Ho.

      assert (exists q, total = 2 * q + 1) as [q ->] by (apply Zodd_ex_iff in Ho; exact Ho).
      rewrite Hl in Hlt.
      replace ((2 * q + 1) / 2) with q in Hlt by (apply Z.div_unique with 1; lia).
      replace (n / 2) with q in Hlt by (apply Z.div_unique with 0; lia). lia. }
    destruct (IH rest ltac:(simpl in *; lia) fuel (n + Z.of_nat w) sl' total) as [I1 I2]; unfold zlen; try (simpl in *; lia).
    split.
    + intros [HA Ho]. apply I1. split; [|exact Ho]. apply HL in HA. destruct HA as [[? ?]|HA]; [|exact HA]. tauto.
    + intros HN. apply I2. intros [HA Ho]. apply HN. split; [|exact Ho]. apply HL. now right.
  - split; [auto|]. intros HN. exfalso. apply HN.
    assert (n <= total - 1) by (simpl in *; lia).
    (* total/2 <= n/2 with n < total : total odd, n = total-1 *)
    assert (Ho : Z.odd total = true /\ n = total - 1).
    { rewrite Hl in Hge. 
      pose proof (Z.div_mod total 2 ltac:(lia)). pose proof (Z.mod_pos_bound total 2 ltac:(lia)).
      pose proof (Z.div_mod n 2 ltac:(lia)). pose proof (Z.mod_pos_bound n 2 ltac:(lia)).
      split; [|lia]. rewrite Zodd_mod. apply Zeq_is_eq_bool. lia. }
    split; [|tauto]. apply HL. left. destruct Ho as [_ Ho].
    assert (length (a :: s) = 1%nat) by lia. rewrite H0 in Hlen.
    assert (length rest = 0%nat) by lia. destruct rest; [|discriminate]. split; [reflexivity|simpl in Hlen; lia].
Qed.

Lemma div2_Z n : Z.of_nat (Nat.div2 n) = Z.of_nat n / 2.
Proof. rewrite Nat.div2_div, Nat2Z.inj_div. reflexivity. Qed.

Lemma parse_mods_outcome s :
  (last_byte_alone s /\ Nat.odd (length s) = true -> parse_mods s = Panic) /\
  (~ (last_byte_alone s /\ Nat.odd (length s) = true) -> exists m, parse_mods s = Ok m).
Proof.
  destruct (chunks_outcome (length s) s (le_n _) (length s) 0 (repeat [] (Nat.div2 (length s))) (zlen s)
    (le_n _) ltac:(lia) ltac:(lia)) as [H1 H2].
  { unfold zlen. rewrite repeat_length. apply div2_Z. }
  assert (Ho : Z.odd (zlen s) = Nat.odd (length s)).
  { unfold zlen. rewrite <- Nat.negb_even, <- Z.negb_even. f_equal.
    apply eq_true_iff_eq. rewrite Nat.even_spec, Z.even_spec. split; intros [q Hq].
    - exists (Z.to_nat q). lia.
    - exists (Z.of_nat q). lia. }
  rewrite Ho in *. unfold parse_mods. split; intros H.
  - now rewrite H1.
  - destruct (H2 H) as [sl ->]. cbn [bind]. eauto.
Qed.

(** ** compatible *)
Lemma compatible_iff m : compatible m = false <->
  has m bTG \/ exists a b, In (a, b) conflicts /\ has m a /\ has m b.
Proof.
  assert (Hz : m = 0 -> ~ (has m bTG \/ exists a b, In (a, b) conflicts /\ has m a /\ has m b)).
  { intros -> [H|(a & b & _ & H & _)]; unfold has in H; rewrite Z.bits_0 in H; discriminate. }
  unfold compatible. destruct (Z.eqb_spec m MNone) as [E|E].
  { split; [discriminate|]. intros H. exfalso. now apply Hz. }
  unfold Target, HardRock, Easy, Nightcore, DoubleTime, HalfTime, Daycore, Perfect, SuddenDeath, NoFail, Relax, Relax2, Autoplay, SpunOut.
  rewrite !mactive_bit by lia.
  unfold has, conflicts, bNF, bEZ, bHD, bHR, bSD, bDT, bRX, bHT, bNC, bFL, bAT, bSO, bAP, bPF, bTG, bV2, bDC.
  split.
  - intros H. 
    destruct (Z.testbit m 23) eqn:E23; [left; reflexivity|right].
    repeat match type of H with context [Z.testbit m ?k] => 
      let e := fresh "B" in destruct (Z.testbit m k) eqn:e; cbn [orb andb] in H; try discriminate H end;
    match goal with
    | A : Z.testbit m 4 = true, B : Z.testbit m 1 = true |- _ => exists 4, 1
    | A : Z.testbit m 9 = true, B : Z.testbit m 8 = true |- _ => exists 9, 8
    | A : Z.testbit m 9 = true, B : Z.testbit m 31 = true |- _ => exists 9, 31
    | A : Z.testbit m 6 = true, B : Z.testbit m 8 = true |- _ => exists 6, 8
    | A : Z.testbit m 6 = true, B : Z.testbit m 31 = true |- _ => exists 6, 31
    | A : Z.testbit m 14 = true, B : Z.testbit m 0 = true |- _ => exists 14, 0
    | A : Z.testbit m 5 = true, B : Z.testbit m 0 = true |- _ => exists 5, 0
    | A : Z.testbit m 7 = true, B : Z.testbit m 13 = true |- _ => exists 7, 13
    | A : Z.testbit m 7 = true, B : Z.testbit m 5 = true |- _ => exists 7, 5
    | A : Z.testbit m 7 = true, B : Z.testbit m 14 = true |- _ => exists 7, 14
    | A : Z.testbit m 7 = true, B : Z.testbit m 11 = true |- _ => exists 7, 11
    | A : Z.testbit m 7 = true, B : Z.testbit m 0 = true |- _ => exists 7, 0
    | A : Z.testbit m 13 = true, B : Z.testbit m 5 = true |- _ => exists 13, 5
    | A : Z.testbit m 13 = true, B : Z.testbit m 14 = true |- _ => exists 13, 14
    | A : Z.testbit m 13 = true, B : Z.testbit m 11 = true |- _ => exists 13, 11
    | A : Z.testbit m 13 = true, B : Z.testbit m 0 = true |- _ => exists 13, 0
    | A : Z.testbit m 13 = true, B : Z.testbit m 12 = true |- _ => exists 13, 12
    end; (split; [cbn [In]; tauto|split; assumption]).
  - intros [H|(a & b & Hin & Ha & Hb)].
    + rewrite H. reflexivity.
    + cbn [In] in Hin.
      repeat (destruct Hin as [Hin|Hin]; [injection Hin as <- <-; rewrite Ha, Hb;
        repeat (rewrite ?orb_true_r, ?orb_true_l, ?andb_true_r; cbn [andb orb]); reflexivity|]).
      destruct Hin.
Qed.

Lemma compatible_down m m' : subset m' m -> compatible m = true -> compatible m' = true.
Proof.
  intros Hs Hc. destruct (compatible m') eqn:E; [reflexivity|].
  apply compatible_iff in E. rewrite <- Hc. symmetry. apply compatible_iff.
  assert (P : forall a b, In (a, b) conflicts -> 0 <= a /\ 0 <= b).
  { intros a b Hin. cbn in Hin. repeat (destruct Hin as [Hin|Hin]; [injection Hin as <- <-; split; vm_compute; discriminate|]). destruct Hin. }
  destruct E as [H|(a & b & Hin & Ha & Hb)].
  - left. apply Hs; [vm_compute; discriminate|exact H].
  - right. exists a, b. destruct (P _ _ Hin). split; [exact Hin|]. split; apply Hs; auto.
Qed.

(** ** score multiplier *)
Definition sm_bits (nf ez ht hd hr dt fl rx ap so v2 : bool) : f64 :=
  let m := fq 1 1 in
  let m := if nf && negb v2 then fmul m (fq 1 2) else m in
  let m := if ez then fmul m (fq 1 2) else m in
  let m := if ht then fmul m (fq 3 10) else m in
  let m := if hd then fmul m (fq 106 100) else m in
  let m := if hr then (if v2 then fmul m (fq 110 100) else fmul m (fq 106 100)) else m in
  let m := if dt then (if v2 then fmul m (fq 120 100) else fmul m (fq 112 100)) else m in
  let m := if fl then fmul m (fq 112 100) else m in
  let m := if rx || ap then f0 else m in
  if so then fmul m (fq 9 10) else m.
Lemma sm_eq m : score_multiplier m =
  sm_bits (Z.testbit m 0) (Z.testbit m 1) (Z.testbit m 8) (Z.testbit m 3) (Z.testbit m 4)
    (Z.testbit m 6) (Z.testbit m 10) (Z.testbit m 7) (Z.testbit m 13) (Z.testbit m 12) (Z.testbit m 29).
Proof.
  unfold score_multiplier, NoFail, ScoreV2, Easy, HalfTime, Hidden, HardRock, DoubleTime, Flashlight, Relax, Relax2, SpunOut.
  rewrite !mactive_bit by lia. rewrite !land_pow2 by lia. unfold sm_bits.
  replace ((if Z.testbit m 29 then 2 ^ 29 else 0) =? 0) with (negb (Z.testbit m 29)) by (destruct (Z.testbit m 29); reflexivity).
  replace (0 <? Z.lor (if Z.testbit m 7 then 2 ^ 7 else 0) (if Z.testbit m 13 then 2 ^ 13 else 0))
    with (Z.testbit m 7 || Z.testbit m 13) by (destruct (Z.testbit m 7), (Z.testbit m 13); reflexivity).
  reflexivity.
Qed.
Definition all_b : list bool := [true; false].
Definition sm_check : bool :=
  forallb (fun nf => forallb (fun ez => forallb (fun ht => forallb (fun hd => forallb (fun hr => forallb (fun dt =>
  forallb (fun fl => forallb (fun rx => forallb (fun ap => forallb (fun so => forallb (fun v2 =>
    let x := sm_bits nf ez ht hd hr dt fl rx ap so v2 in
    fle f0 x && fle x (fq 16 10) && Bool.eqb (feq x f0) (rx || ap))
  all_b) all_b) all_b) all_b) all_b) all_b) all_b) all_b) all_b) all_b) all_b.
Lemma sm_check_true : sm_check = true. Proof. vm_compute. reflexivity. Qed.
Lemma sm_range nf ez ht hd hr dt fl rx ap so v2 :
  let x := sm_bits nf ez ht hd hr dt fl rx ap so v2 in
  fle f0 x = true /\ fle x (fq 16 10) = true /\ (feq x f0 = true <-> rx = true \/ ap = true).
Proof.
  pose proof sm_check_true as H. unfold sm_check in H.
  assert (A : forall b, In b all_b) by (intros []; cbn; tauto).
  repeat (rewrite forallb_forall in H; match type of H with forall x, In x all_b -> _ => idtac end).
  pose proof (H nf (A _)) as H1. rewrite forallb_forall in H1.
  pose proof (H1 ez (A _)) as H2. rewrite forallb_forall in H2.
  pose proof (H2 ht (A _)) as H3. rewrite forallb_forall in H3.
  pose proof (H3 hd (A _)) as H4. rewrite forallb_forall in H4.
  pose proof (H4 hr (A _)) as H5. rewrite forallb_forall in H5.
  pose proof (H5 dt (A _)) as H6. rewrite forallb_forall in H6.
  pose proof (H6 fl (A _)) as H7. rewrite forallb_forall in H7.
  pose proof (H7 rx (A _)) as H8. rewrite forallb_forall in H8.
  pose proof (H8 ap (A _)) as H9. rewrite forallb_forall in H9.
  pose proof (H9 so (A _)) as H10. rewrite forallb_forall in H10.
  pose proof (H10 v2 (A _)) as H11. cbv beta zeta in H11.
  rewrite !andb_true_iff in H11. destruct H11 as [[X1 X2] X3]. apply Bool.eqb_prop in X3.
  cbv zeta. rewrite X3, orb_true_iff. tauto.
Qed.

(** ** meaning of acronym lists *)
Lemma acronyms_acro p : In p acronyms -> acro (lit (fst p)).
Proof.
  assert (H : forallb (fun p => match lit (fst p) with [a; b] => in_rng 0 127 a && in_rng 0 127 b | _ => false end) acronyms = true)
    by (vm_compute; reflexivity).
  rewrite forallb_forall in H. intros Hp. specialize (H p Hp).
  destruct (lit (fst p)) as [|a [|b [|]]]; try discriminate. apply andb_true_iff in H. exists a, b. tauto.
Qed.
(** value of one acronym: its own bit plus what it implies *)
Definition acr_check : bool :=
  forallb (fun p => match mod_index (lit (fst p)) modsString 0 with
    | Some i => (snd p =? add_implied (2 ^ i)) | None => false end) acronyms.
Lemma acr_check_true : acr_check = true. Proof. vm_compute. reflexivity. Qed.
Lemma acr_value p : In p acronyms -> exists i, 0 <= i /\ mod_index (lit (fst p)) modsString 0 = Some i /\ snd p = add_implied (2 ^ i).
Proof.
  pose proof acr_check_true as H. unfold acr_check in H. rewrite forallb_forall in H.
  intros Hp. specialize (H p Hp). destruct (mod_index _ _ _) as [i|] eqn:E; [|discriminate].
  exists i. apply mod_index_range in E as R. apply Z.eqb_eq in H. split; [lia|]. split; [reflexivity|exact H].
Qed.
Lemma add_implied_lor a b : add_implied (Z.lor a b) = Z.lor (add_implied a) (add_implied b).
Proof.
  apply Z.bits_inj'. intros k Hk. rewrite Z.lor_spec, !add_implied_bit, !Z.lor_spec by lia.
  destruct (Z.testbit a k), (Z.testbit b k), (Z.testbit a 9), (Z.testbit b 9), (Z.testbit a 14), (Z.testbit b 14),
   (Z.testbit a 31), (Z.testbit b 31), (6 =? k), (5 =? k), (8 =? k); reflexivity.
Qed.
Lemma fold_or_acr l : Forall (fun p => In p acronyms) l -> forall m,
  add_implied (fold_left or_mod (map (fun p => lit (fst p)) l) m) = Z.lor (add_implied m) (fold_right Z.lor 0 (map snd l)).
Proof.
  induction 1 as [|p l Hp Hl IH]; intros m; cbn [map fold_left fold_right].
  - now rewrite Z.lor_0_r.
  - rewrite IH. destruct (acr_value p Hp) as (i & Hi & E & ->). unfold or_mod. rewrite E, Z.shiftl_1_l, add_implied_lor.
    now rewrite Z.lor_assoc.
Qed.
Lemma parse_meaning l : Forall (fun p => In p acronyms) l ->
  parse_mods (concat (map (fun p => lit (fst p)) l)) = Ok (fold_right Z.lor 0 (map snd l)).
Proof.
  intros H. rewrite parse_acros.
  - rewrite fold_or_acr by assumption. reflexivity.
  - apply Forall_map. eapply Forall_impl; [|exact H]. intros p. apply acronyms_acro.
Qed.
Lemma ascii_last_alone s : Forall (fun c => 0 <= byte_of c <= 127) s -> s <> [] -> last_byte_alone s.
Proof.
  intros HF Hne.
  assert (HR : runes (map (fun c => [c]) s) s).
  { clear Hne. induction HF as [|c s Hc HF IH]; cbn [map]; [constructor|].
    change (c :: s) with ([c] ++ s). constructor; [now constructor|exact IH]. }
  destruct (exists_last Hne) as (s' & c & ->). exists (map (fun c => [c]) s'), c.
  rewrite map_app in HR. exact HR.
Qed.

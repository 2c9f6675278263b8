(** Property C111: which white space around names, values and fields is dropped. *)
From Coq Require Import ZArith Lia Bool List.
From Verif Require Import Parser SpecParser SpecSpace BaseLemmas StringLemmas.
Import ListNotations.
Open Scope Z_scope.

(** ** The codes of white space *)
Definition codes : list str := map utf8 white.
Lemma chr_of a n : byte_of a = Z.of_N n -> a = chr n.
Proof. unfold byte_of, chr. intros E. apply N2Z.inj in E. rewrite <- E. symmetry. apply ascii_N_embedding. Qed.
Lemma code_len w t : In w codes -> sp_len (w ++ t) = length w /\ sp_len_rev (rev w ++ t) = length w /\ w <> [].
Proof.
  intros H. assert (X : forallb (fun w => match w with [] => false | _ => true end) codes = true) by (vm_compute; reflexivity). rewrite forallb_forall in X. specialize (X w H).
  unfold codes in H. vm_compute in H. repeat (destruct H as [<-|H]; [split; [reflexivity|split; [reflexivity|discriminate]]|]). destruct H.
Qed.
Lemma in_codes w : existsb (str_eqb w) codes = true -> In w codes.
Proof. intros H. apply existsb_exists in H as (x & I & E). apply str_eqb_eq in E. now subst. Qed.
Lemma sp1_code a : sp1 a = true -> In [a] codes.
Proof.
  intros H. apply in_codes. unfold sp1 in H. assert (B : byte_of a = 9 \/ byte_of a = 10 \/ byte_of a = 11 \/ byte_of a = 12 \/ byte_of a = 13 \/ byte_of a = 32) by lia.
  destruct B as [B|[B|[B|[B|[B|B]]]]]; [apply (chr_of a 9) in B|apply (chr_of a 10) in B|apply (chr_of a 11) in B|apply (chr_of a 12) in B|apply (chr_of a 13) in B|apply (chr_of a 32) in B]; subst a; vm_compute; reflexivity.
Qed.
Lemma sp2_code a b : sp2 a b = true -> In [a; b] codes.
Proof.
  intros H. apply in_codes. unfold sp2 in H. assert (A : byte_of a = 194) by lia. assert (B : byte_of b = 133 \/ byte_of b = 160) by lia. apply (chr_of a 194) in A. subst a.
  destruct B as [B|B]; [apply (chr_of b 133) in B|apply (chr_of b 160) in B]; subst b; vm_compute; reflexivity.
Qed.
Lemma sp3_code a b c : sp3 a b c = true -> In [a; b; c] codes.
Proof.
  intros H. apply in_codes. unfold sp3 in H. assert (K : (byte_of a = 225 /\ byte_of b = 154 /\ byte_of c = 128) \/ (byte_of a = 226 /\ byte_of b = 129 /\ byte_of c = 159) \/ (byte_of a = 227 /\ byte_of b = 128 /\ byte_of c = 128) \/
    (byte_of a = 226 /\ byte_of b = 128 /\ ((128 <= byte_of c <= 138) \/ byte_of c = 168 \/ byte_of c = 169 \/ byte_of c = 175))) by lia.
  destruct K as [(A & B & C)|[(A & B & C)|[(A & B & C)|(A & B & C)]]].
  - apply (chr_of a 225) in A. apply (chr_of b 154) in B. apply (chr_of c 128) in C. subst. vm_compute. reflexivity.
  - apply (chr_of a 226) in A. apply (chr_of b 129) in B. apply (chr_of c 159) in C. subst. vm_compute. reflexivity.
  - apply (chr_of a 227) in A. apply (chr_of b 128) in B. apply (chr_of c 128) in C. subst. vm_compute. reflexivity.
  - apply (chr_of a 226) in A. apply (chr_of b 128) in B. subst. assert (EX : exists n, byte_of c = Z.of_N n) by (now exists (N_of_ascii c)). destruct EX as (n & E).
    assert (D : In n [128; 129; 130; 131; 132; 133; 134; 135; 136; 137; 138; 168; 169; 175]%N) by (cbn [In]; lia). apply chr_of in E. subst c. clear C.
    repeat (destruct D as [<-|D]; [vm_compute; reflexivity|]). destruct D.
Qed.
Lemma sp_code s n : sp_len s = S n -> exists w t, In w codes /\ s = w ++ t /\ length w = S n.
Proof.
  unfold sp_len. destruct s as [|a r]; [discriminate|]. destruct (sp1 a) eqn:E1. { intros E. exists [a], r. split; [now apply sp1_code|]. split; [reflexivity|exact E]. }
  destruct r as [|b r]; [discriminate|]. destruct (sp2 a b) eqn:E2. { intros E. exists [a; b], r. split; [now apply sp2_code|]. split; [reflexivity|exact E]. }
  destruct r as [|c r]; [discriminate|]. destruct (sp3 a b c) eqn:E3; [|discriminate]. intros E. exists [a; b; c], r. split; [now apply sp3_code|]. split; [reflexivity|exact E].
Qed.
Lemma sp_code_rev s n : sp_len_rev s = S n -> exists w t, In w codes /\ s = rev w ++ t /\ length w = S n.
Proof.
  unfold sp_len_rev. destruct s as [|a r]; [discriminate|]. destruct (sp1 a) eqn:E1. { intros E. exists [a], r. split; [now apply sp1_code|]. split; [reflexivity|exact E]. }
  destruct r as [|b r]; [discriminate|]. destruct (sp2 b a) eqn:E2. { intros E. exists [b; a], r. split; [now apply sp2_code|]. split; [reflexivity|exact E]. }
  destruct r as [|c r]; [discriminate|]. destruct (sp3 c b a) eqn:E3; [|discriminate]. intros E. exists [c; b; a], r. split; [now apply sp3_code|]. split; [reflexivity|exact E].
Qed.
(** ** Trimming one side *)
Section Side.
Context (sp : str -> nat) (f : str -> str) (code : forall s n, sp s = S n -> exists w t, In w codes /\ s = f w ++ t /\ length w = S n) (len : forall w t, In w codes -> sp (f w ++ t) = length w) (flen : forall w, length (f w) = length w) (full : forall w, In w codes -> w <> []).
Lemma trim_away fuel : forall s, (length s <= fuel)%nat -> exists a, Forall (fun w => In w codes) a /\ s = concat (map f a) ++ trim_sp sp fuel s /\ sp (trim_sp sp fuel s) = 0%nat.
Proof.
  induction fuel as [|fuel IH]; intros s L.
  - assert (s = []) by (destruct s; [reflexivity|cbn in L; lia]). subst s. exists []. split; [constructor|]. split; [reflexivity|]. cbn [trim_sp]. destruct (sp []) as [|n] eqn:E; [reflexivity|]. apply code in E as (w & t & I & E & N). apply full in I. destruct w as [|c w]; [congruence|]. exfalso. specialize (flen (c :: w)). destruct (f (c :: w)); [cbn in flen; lia|discriminate E].
  - cbn [trim_sp]. destruct (sp s) as [|n] eqn:E. { exists []. split; [constructor|]. split; [reflexivity|exact E]. }
    destruct (code _ _ E) as (w & t & I & Es & N). assert (SK : skipn (S n) s = t) by (rewrite Es, <- N, <- flen; apply skipn_app_len). rewrite SK. destruct (IH t) as (a & A & B & C). { assert (length s = length (f w) + length t)%nat by (rewrite Es, app_length; reflexivity). rewrite flen in H. lia. }
    exists (w :: a). split; [now constructor|]. split; [|exact C]. cbn [map concat]. rewrite <- app_assoc, <- B. exact Es.
Qed.
Lemma trim_down a x fuel : Forall (fun w => In w codes) a -> sp x = 0%nat -> (length (concat (map f a) ++ x) <= fuel)%nat -> trim_sp sp fuel (concat (map f a) ++ x) = x.
Proof.
  revert fuel. induction a as [|w a IH]; intros fuel A X L.
  - cbn [map concat app] in *. destruct fuel; cbn [trim_sp]; [reflexivity|now rewrite X].
  - inversion A as [|? ? W A']; subst. cbn [map concat] in *. rewrite <- app_assoc in *. pose proof (full w W) as NE. assert (LW : (0 < length w)%nat) by (destruct w; [congruence|cbn; lia]). rewrite app_length, flen in L. destruct fuel as [|fuel]; [lia|].
    cbn [trim_sp]. rewrite (len w _ W). destruct (length w) as [|n] eqn:EN; [lia|]. rewrite <- EN, <- flen, skipn_app_len. apply IH; auto. lia.
Qed.
End Side.
Lemma left_away s : exists a, Forall (fun w => In w codes) a /\ s = concat a ++ trim_sp sp_len (length s) s /\ sp_len (trim_sp sp_len (length s) s) = 0%nat.
Proof.
  destruct (trim_away sp_len (fun w => w) sp_code ltac:(reflexivity) (fun w W => proj2 (proj2 (code_len w [] W))) (length s) s ltac:(lia)) as (a & A & B & C). rewrite map_id in B. eauto.
Qed.
Lemma rev_concat (a : list str) : rev (concat (map (@rev _) a)) = concat (rev a).
Proof. induction a as [|w a IH]; [reflexivity|]. cbn [map concat rev]. rewrite rev_app_distr, IH, concat_app, rev_involutive. cbn [concat]. now rewrite app_nil_r. Qed.
Lemma spaces_of a : Forall (fun w => In w codes) a -> spaces (concat a).
Proof.
  induction 1 as [|w a W A (l & L & E)]; [exists []; split; [constructor|reflexivity]|]. unfold codes in W. apply in_map_iff in W as (c & <- & C). exists (c :: l). split; [now constructor|]. cbn [concat map]. now rewrite E.
Qed.
Lemma of_spaces s : spaces s -> exists a, Forall (fun w => In w codes) a /\ s = concat a.
Proof. intros (l & L & ->). exists (map utf8 l). split; [|reflexivity]. induction L; constructor; auto. now apply in_map. Qed.
Lemma no_start x : (forall c t, In c white -> x <> utf8 c ++ t) -> sp_len x = 0%nat.
Proof. intros H. destruct (sp_len x) as [|n] eqn:E; [reflexivity|]. apply sp_code in E as (w & t & W & E & _). apply in_map_iff in W as (c & <- & C). now apply H in E. Qed.
Lemma no_end x : (forall c t, In c white -> x <> t ++ utf8 c) -> sp_len_rev (rev x) = 0%nat.
Proof.
  intros H. destruct (sp_len_rev (rev x)) as [|n] eqn:E; [reflexivity|]. apply sp_code_rev in E as (w & t & W & E & _). apply in_map_iff in W as (c & <- & C). apply (f_equal (@rev _)) in E. rewrite rev_involutive, rev_app_distr, rev_involutive in E. now apply H in E.
Qed.

(** First bytes of white space are no continuation bytes, the others are. *)
Definition continuation (c : ascii) : bool := (128 <=? byte_of c) && (byte_of c <=? 191).
Lemma code_bytes w : In w codes -> exists c r, w = c :: r /\ continuation c = false /\ forallb continuation r = true.
Proof.
  intros H. assert (X : forallb (fun w => match w with [] => false | c :: r => negb (continuation c) && forallb continuation r end) codes = true) by (vm_compute; reflexivity). rewrite forallb_forall in X. specialize (X w H).
  destruct w as [|c r]; [discriminate|]. apply andb_prop in X as (X & Y). apply negb_true_iff in X. eauto.
Qed.
Lemma no_straddle m b : m <> [] -> sp_len m = 0%nat -> Forall (fun w => In w codes) b -> sp_len (m ++ concat b) = 0%nat.
Proof.
  intros NE H B. destruct (sp_len (m ++ concat b)) as [|n] eqn:E; [reflexivity|exfalso]. apply sp_code in E as (w & t & W & E & _). apply app_eq_app in E as (u & [(E1 & E2)|(E1 & E2)]).
  - subst m. rewrite (proj1 (code_len w u W)) in H. pose proof (proj2 (proj2 (code_len w [] W))). destruct w; [congruence|discriminate H].
  - destruct u as [|c u]. { rewrite app_nil_r in E1. subst w. rewrite <- (app_nil_r m) in H. rewrite (proj1 (code_len m [] W)) in H. destruct m; [congruence|discriminate H]. }
    destruct (code_bytes w W) as (c0 & r & Ew & _ & R). destruct m as [|c1 m]; [congruence|]. rewrite Ew in E1. cbn [app] in E1. inversion E1. subst r. rewrite forallb_app in R. apply andb_prop in R as (_ & R). cbn [forallb] in R. apply andb_prop in R as (R & _).
    destruct b as [|w' b]; [discriminate E2|]. inversion B as [|? ? W' _]; subst. destruct (code_bytes w' W') as (c2 & r2 & -> & F & _). cbn [concat app] in E2. inversion E2. congruence.
Qed.

(** C111.  TrimSpace leaves what is left between the white space at both ends, and
    there is only one such string. *)
Theorem C111_trim : forall s m, stripped s m <-> trim_space s = m.
Proof.
  assert (LEN : forall w : str, length (rev w) = length w) by (intros w; apply rev_length). assert (FULL : forall w, In w codes -> w <> []) by (intros w W; apply (code_len w [] W)).
  intros s m. split.
  - intros (BA & a & b & A & B & ->). apply of_spaces in A as (la & A & ->). apply of_spaces in B as (lb & B & ->).
    assert (S0 : sp_len m = 0%nat) by (apply no_start; intros c t C; now apply BA). assert (E0 : sp_len_rev (rev m) = 0%nat) by (apply no_end; intros c t C; now apply BA).
    unfold trim_space. assert (L : trim_sp sp_len (length (concat la ++ m ++ concat lb)) (concat la ++ m ++ concat lb) = match m with [] => [] | _ => m ++ concat lb end).
    { destruct m as [|c m].
      - cbn [app]. assert (Q : concat la ++ concat lb = concat (map (fun w => w) (la ++ lb)) ++ []) by (rewrite map_id, app_nil_r, concat_app; reflexivity). rewrite Q. apply (trim_down sp_len (fun w => w) (fun w t W => proj1 (code_len w t W)) ltac:(reflexivity) FULL); [apply Forall_app; auto|reflexivity|lia].
      - rewrite <- (map_id la). apply (trim_down sp_len (fun w => w) (fun w t W => proj1 (code_len w t W)) ltac:(reflexivity) FULL); [exact A|apply no_straddle; auto; discriminate|lia]. }
    rewrite L. destruct m as [|c m]; [reflexivity|]. set (x := c :: m) in *. assert (Q : rev (x ++ concat lb) = concat (map (@rev _) (rev lb)) ++ rev x).
    { rewrite rev_app_distr. f_equal. rewrite <- (rev_involutive (concat (map _ _))), rev_concat, rev_involutive. reflexivity. }
    rewrite <- (rev_length (x ++ concat lb)), Q. rewrite (trim_down sp_len_rev (@rev _) (fun w t W => proj1 (proj2 (code_len w t W))) LEN FULL); [apply rev_involutive|now apply Forall_rev|exact E0|apply le_n].
  - intros <-. unfold trim_space. destruct (left_away s) as (a & A & E & S0). set (l := trim_sp sp_len (length s) s) in *. clearbody l.
    assert (LR : length l = length (rev l)) by (now rewrite rev_length). rewrite LR.
    destruct (trim_away sp_len_rev (@rev _) sp_code_rev LEN FULL (length (rev l)) (rev l) ltac:(lia)) as (b & B & E' & R0). set (r := trim_sp sp_len_rev (length (rev l)) (rev l)) in *. clearbody r.
    assert (EL : l = rev r ++ concat (rev b)) by (rewrite <- (rev_involutive l), E', rev_app_distr, rev_concat; reflexivity). split.
    + intros c t C. assert (W : In (utf8 c) codes) by (now apply in_map). split; intros X.
      * rewrite EL, X, <- app_assoc, (proj1 (code_len _ _ W)) in S0. pose proof (FULL _ W). destruct (utf8 c); [congruence|discriminate S0].
      * apply (f_equal (@rev _)) in X. rewrite rev_involutive, rev_app_distr in X. rewrite X, (proj1 (proj2 (code_len _ _ W))) in R0. pose proof (FULL _ W). destruct (utf8 c); [congruence|discriminate R0].
    + exists (concat a), (concat (rev b)). split; [now apply spaces_of|]. split; [apply spaces_of; now apply Forall_rev|]. now rewrite <- EL.
Qed.
(** So every string has exactly one bare middle. *)
Theorem C111_unique : forall s, exists m, stripped s m /\ forall m', stripped s m' -> m' = m.
Proof. intros s. exists (trim_space s). split; [now apply C111_trim|]. intros m' H. apply C111_trim in H. congruence. Qed.
Lemma all_stripped l m : Forall2 stripped l m <-> m = map trim_space l.
Proof.
  revert m. induction l as [|x l IH]; intros m; cbn [map].
  - split; [intros H; now inversion H|intros ->; constructor].
  - split; [intros H; inversion H as [|? y ? m' P F]; subst; apply C111_trim in P; apply IH in F; congruence|]. intros ->. constructor; [now apply C111_trim|now apply IH].
Qed.
(** A comma-separated line is taken apart into the stripped pieces between its commas ... *)
Theorem C111_fields : forall line fs, tokenize line "," = Some fs <-> exists raw, raw_fields line raw /\ Forall2 stripped raw fs.
Proof.
  intros line fs. split.
  - intros H. destruct (tokenize_cases line) as [(E & R)|(E & _)]; [|congruence]. rewrite E in H. inversion H. exists (split "," line). split; [exact R|]. now apply all_stripped.
  - intros (raw & R & F). rewrite (tokenize_some _ _ R). f_equal. symmetry. now apply all_stripped.
Qed.
(** ... a setting into the stripped text before and after its first colon ... *)
Theorem C111_setting : forall line k v, tokenize2 line ":" = Some [k; v] <-> ~ comment line /\ exists a b, line = a ++ ":"%char :: b /\ ~ In ":"%char a /\ stripped a k /\ stripped b v.
Proof.
  intros line k v. rewrite <- kv_iff. unfold kv. split; intros (NC & a & b & E & N & K & V); (split; [exact NC|]); exists a, b; (split; [exact E|]); (split; [exact N|]).
  - split; apply C111_trim; congruence.
  - apply C111_trim in K, V. split; congruence.
Qed.
(** ... and a line is a section header if there are brackets around a name once it is stripped. *)
Theorem C111_section : forall line name, name <> [] -> get_section line = name <-> exists m i j, stripped line m /\ m = repeat "["%char (S i) ++ name ++ repeat "]"%char j /\ (forall r, name <> "["%char :: r) /\ (forall r, name <> r ++ ["]"%char]).
Proof.
  intros line name NE. split.
  - intros E. destruct (proj2 (header_iff line name) (conj NE E)) as (i & j & T & _ & H1 & H2). exists (trim_space line), i, j. split; [now apply C111_trim|]. auto.
  - intros (m & i & j & P & E & H1 & H2). apply C111_trim in P. apply (header_iff line name). exists i, j. split; [congruence|]. auto.
Qed.
(** Whatever is read as a number, a key or a field is the same with white space around it. *)
Theorem C111_padding : forall s a b, spaces a -> spaces b -> trim_space (a ++ s ++ b) = trim_space s.
Proof.
  intros s a b (la & A & ->) (lb & B & ->). apply C111_trim. pose proof (proj2 (C111_trim s _) eq_refl) as (BA & x & y & (lx & X & Ex) & (ly & Y & Ey) & E). split; [exact BA|].
  exists (concat (map utf8 la) ++ x), (y ++ concat (map utf8 lb)). split; [exists (la ++ lx); split; [now apply Forall_app|rewrite map_app, concat_app; congruence]|]. split; [exists (ly ++ lb); split; [now apply Forall_app|rewrite map_app, concat_app; congruence]|].
  rewrite E at 1. now rewrite <- !app_assoc.
Qed.

(** ** Concrete cases *)
(** A no-break space, a tab and an ideographic space around "1 2"; the blank inside stays. *)
Definition padded : str := utf8 160 ++ utf8 9 ++ lit "1 2" ++ utf8 12288.
Example C111_instance : stripped padded (lit "1 2") /\ spaces (utf8 160 ++ utf8 9) /\ padded <> lit "1 2" /\ utf8 12288 = [chr 227; chr 128; chr 128].
Proof.
  split; [apply C111_trim; vm_compute; reflexivity|]. split; [exists [160; 9]; split; [repeat constructor; cbn; tauto|reflexivity]|]. split; [discriminate|reflexivity].
Qed.
(** A zero-width space is none, and neither is a torn one. *)
Example C111_not_white : trim_space ([chr 226; chr 128; chr 139] ++ lit "1") = [chr 226; chr 128; chr 139] ++ lit "1" /\ trim_space ([chr 226; chr 128] ++ lit " ") = [chr 226; chr 128].
Proof. split; vm_compute; reflexivity. Qed.
Example C111_lines : tokenize (lit " 12 ,  x") "," = Some [lit "12"; lit "x"] /\ tokenize2 (lit "Title : a: b ") ":" = Some [lit "Title"; lit "a: b"] /\ get_section (lit "  [General] ") = lit "General".
Proof. split; [|split]; vm_compute; reflexivity. Qed.

Print Assumptions C111_trim.
Print Assumptions C111_unique.
Print Assumptions C111_fields.
Print Assumptions C111_setting.
Print Assumptions C111_section.
Print Assumptions C111_padding.

(** Lines without effect. *)
From Verif Require Import Parser SpecParser BaseLemmas StringLemmas ParserProofs.

Section WithLibm.
Context {M : libm}.

Lemma trim_sp_suffix sp fuel : forall s, exists k, trim_sp sp fuel s = skipn k s.
Proof.
  induction fuel as [|fuel IH]; intros s; cbn [trim_sp]; [exists O; reflexivity|].
  destruct (sp s) as [|n]; [exists O; reflexivity|]. destruct (IH (skipn (S n) s)) as [k ->]. exists (S n + k)%nat.
  generalize (S n). intros m. clear. revert s. induction m as [|m IHm]; intros s; [reflexivity|]. destruct s; [now rewrite !skipn_nil|apply IHm].
Qed.
(** the first byte survives trimming if it cannot start white space *)
Lemma trim_space_first c t : (forall r, sp_len (c :: r) = 0%nat) -> trim_space (c :: t) = [] \/ exists r, trim_space (c :: t) = c :: r.
Proof.
  intros H. unfold trim_space. cbn [length trim_sp]. rewrite H.
  destruct (trim_sp_suffix sp_len_rev (length (c :: t)) (rev (c :: t))) as [k ->].
  rewrite !skipn_rev, !rev_involutive.
  destruct (length (c :: t) - k)%nat; [now left|right; eexists; reflexivity].
Qed.
Lemma sp_len_0 (c : ascii) : sp1 c = false -> (byte_of c =? 194) = false -> (byte_of c =? 225) = false -> (byte_of c =? 226) = false -> (byte_of c =? 227) = false ->
  forall r, sp_len (c :: r) = 0%nat.
Proof.
  intros H1 H2 H3 H4 H5 r. unfold sp_len. rewrite H1. destruct r as [|b r]; [reflexivity|]. unfold sp2. rewrite H2. cbn [andb].
  destruct r as [|d r]; [reflexivity|]. unfold sp3. rewrite H3, H4, H5. reflexivity.
Qed.
Lemma no_header_first c t : sp1 c = false -> (byte_of c =? 194) = false -> (byte_of c =? 225) = false -> (byte_of c =? 226) = false -> (byte_of c =? 227) = false ->
  Ascii.eqb "[" c = false -> get_section (c :: t) = [].
Proof.
  intros H1 H2 H3 H4 H5 H6. unfold get_section. destruct (trim_space_first c t (sp_len_0 c H1 H2 H3 H4 H5)) as [->|[r ->]]; [reflexivity|].
  change (has_prefix (c :: r) (lit "[")) with (Ascii.eqb "[" c && has_prefix r []). now rewrite H6.
Qed.
Lemma comment_section l : comment l -> get_section l = [].
Proof. intros [t ->]. now apply no_header_first. Qed.
Lemma version_section l v : version l v -> get_section l = [].
Proof. intros (t & -> & _). now apply no_header_first. Qed.
Lemma comment_version st l : comment l -> version_line l st = st.
Proof. intros [t ->]. reflexivity. Qed.
Lemma comment_tok l c : comment l -> tokenize l c = None /\ tokenize2 l c = None.
Proof. intros H. apply comment_iff in H. unfold tokenize, tokenize2. rewrite H. auto. Qed.
Lemma comment_inert fuel st l : comment l -> parse_line fuel st l = Ok st.
Proof.
  intros H. unfold parse_line. rewrite (comment_version st l H), (comment_section l H). unfold section_line, key_value.
  destruct (comment_tok l "," H) as [-> _]. destruct (comment_tok l ":" H) as [_ ->].
  destruct st. repeat (match goal with |- context [str_eqb ?a ?b] => destruct (str_eqb a b); [reflexivity|] end). reflexivity.
Qed.
Lemma fold_insert fuel a l b st : (forall st', foldM (parse_line fuel) st a = Ok st' -> parse_line fuel st' l = Ok st') ->
  foldM (parse_line fuel) st (a ++ l :: b) = foldM (parse_line fuel) st (a ++ b).
Proof.
  intros H. rewrite !foldM_app. destruct (foldM (parse_line fuel) st a) as [st'| |] eqn:E; cbn [bind foldM]; [|reflexivity|reflexivity].
  now rewrite H.
Qed.

Lemma st_section_step fuel st l st' : parse_line fuel st l = Ok st' ->
  st_section st' = match get_section l with [] => st_section st | s => s end.
Proof.
  unfold parse_line. destruct (version_line_f l st) as (Fs & _). intros H. destruct (get_section l).
  - apply section_line_ok in H as (S & _). congruence.
  - injection H as <-. reflexivity.
Qed.
Lemma st_section_keep fuel b : forall st st', Forall no_header b -> foldM (parse_line fuel) st b = Ok st' -> st_section st' = st_section st.
Proof.
  induction b as [|l b IH]; intros st st' F H; cbn [foldM] in H; [now injection H as <-|].
  apply bind_ok in H as (st1 & H1 & H). inversion F; subst. apply IH in H; [|assumption].
  apply st_section_step in H1. rewrite (proj1 (header_none l)) in H1 by assumption. congruence.
Qed.
Lemma st_section_in fuel ls sec st : in_section ls sec -> foldM (parse_line fuel) pstate0 ls = Ok st -> st_section st = sec.
Proof.
  intros [(a & h & b & -> & Hh & Hb)|[-> Hl]] H.
  - rewrite foldM_app in H. apply bind_ok in H as (s1 & H1 & H). cbn [foldM] in H. apply bind_ok in H as (s2 & H2 & H).
    rewrite (st_section_keep fuel b s2 st Hb H). rewrite (st_section_step fuel s1 h s2 H2).
    apply header_iff in Hh as [N ->]. destruct sec; [congruence|reflexivity].
  - now rewrite (st_section_keep fuel ls pstate0 st Hl H).
Qed.
Lemma known_not (s : str) : ~ In s known_sections ->
  str_eqb s (lit "General") = false /\ str_eqb s (lit "Metadata") = false /\ str_eqb s (lit "Difficulty") = false /\
  str_eqb s (lit "Events") = false /\ str_eqb s (lit "TimingPoints") = false /\ str_eqb s (lit "HitObjects") = false.
Proof.
  intros H. repeat split; apply str_eqb_neq; intros ->; apply H; unfold known_sections; cbn [In]; tauto.
Qed.
Lemma version_none l : (forall v, ~ version l v) -> has_prefix l (lit "osu file format v") = false.
Proof.
  intros H. destruct (has_prefix l _) eqn:E; [|reflexivity]. apply has_prefix_iff in E as [t ->]. exfalso.
  apply (H (atoi t)). exists t. auto.
Qed.
Lemma unknown_inert fuel st l : ~ In (st_section st) known_sections -> no_header l -> (forall v, ~ version l v) -> parse_line fuel st l = Ok st.
Proof.
  intros K Hh Hv. unfold parse_line, version_line. rewrite (version_none l Hv), (proj1 (header_none l) Hh).
  destruct (known_not _ K) as (E1 & E2 & E3 & E4 & E5 & E6). unfold section_line. destruct st as [sec fv me ge di ev ti obs]. cbn [st_section] in *.
  now rewrite E1, E2, E3, E4, E5, E6.
Qed.
Lemma fold_unknown fuel b : forall st, ~ In (st_section st) known_sections -> Forall no_header b -> Forall (fun l => forall v, ~ version l v) b ->
  foldM (parse_line fuel) st b = Ok st.
Proof.
  induction b as [|l b IH]; intros st K F1 F2; [reflexivity|]. inversion F1; inversion F2; subst. cbn [foldM].
  rewrite (unknown_inert fuel st l) by assumption. cbn [bind]. now apply IH.
Qed.
Lemma header_no_version h n : header h n -> forall v, ~ version h v.
Proof. intros H v V. apply header_iff in H as [N E]. rewrite (version_section h v V) in E. congruence. Qed.
Lemma header_line fuel st h n : header h n -> parse_line fuel st h = Ok (with_section st n).
Proof.
  intros H. pose proof (header_no_version h n H) as V. apply header_iff in H as [N E]. unfold parse_line, version_line.
  rewrite (version_none h V), E. now destruct n.
Qed.
Lemma block_inert fuel a h name block b : header h name -> ~ In name known_sections ->
  Forall no_header block -> Forall (fun l => forall v, ~ version l v) block ->
  (b = [] \/ exists h2 n2 b', b = h2 :: b' /\ header h2 n2) ->
  parse_lines fuel (a ++ h :: block ++ b) = parse_lines fuel (a ++ b).
Proof.
  intros Hh K F1 F2 Hb. unfold parse_lines. rewrite !foldM_app. destruct (foldM (parse_line fuel) pstate0 a) as [st| |]; cbn [bind]; [|reflexivity|reflexivity].
  cbn [foldM]. rewrite (header_line fuel st h name Hh). cbn [bind]. rewrite foldM_app, (fold_unknown fuel block) by assumption. cbn [bind].
  destruct Hb as [->|(h2 & n2 & b' & -> & H2)].
  - cbn [foldM bind]. reflexivity.
  - cbn [foldM]. rewrite !(header_line fuel _ h2 n2 H2). reflexivity.
Qed.

(** the scanner *)
Lemma zlen_nonneg {A} (l : list A) : 0 <= zlen l. Proof. unfold zlen. lia. Qed.
Lemma drop_cr_comment c : comment c -> comment (drop_cr c).
Proof.
  intros [t ->]. unfold drop_cr. destruct (rev (lit "//" ++ t)) as [|x r] eqn:E; [exists t; reflexivity|].
  destruct (Ascii.eqb_spec x (chr 13)) as [->|N]; [|exists t; reflexivity].
  apply (f_equal (@rev ascii)) in E. rewrite rev_involutive in E. cbn [rev] in E.
  destruct (rev r) as [|y [|z q]] eqn:R.
  - cbn in E. discriminate E.
  - change (lit "//" ++ t) with ("/"%char :: "/"%char :: t) in E. cbn [app] in E. discriminate E.
  - change (lit "//" ++ t) with ("/"%char :: "/"%char :: t) in E. cbn [app] in E. injection E as <- <- E. exists q. reflexivity.
Qed.
Lemma scan_line cap l : ~ In newline l -> forall cur n r, scan_lines cap cur n (l ++ newline :: r) =
  if n + zlen l <? cap then drop_cr (rev cur ++ l) :: scan_lines cap [] 0 r else [].
Proof.
  induction l as [|c l IH]; intros H cur n r; cbn [app scan_lines].
  - change (Ascii.eqb newline (chr 10)) with true. cbn iota. unfold zlen. cbn [length Z.of_nat]. rewrite Z.add_0_r, app_nil_r. reflexivity.
  - destruct (Ascii.eqb_spec c (chr 10)) as [->|N]; [exfalso; apply H; now left|].
    rewrite IH by (intro; apply H; now right). cbn [rev]. rewrite <- app_assoc. cbn [app]. unfold zlen. cbn [length].
    now replace (n + 1 + Z.of_nat (length l)) with (n + Z.of_nat (S (length l))) by lia.
Qed.
(** the alternative does not depend on the rest *)
Lemma scan_prefix' cap t : forall cur n, (exists ls, forall r, scan_lines cap cur n (t ++ newline :: r) = ls ++ scan_lines cap [] 0 r) \/
  (exists ls, forall r, scan_lines cap cur n (t ++ newline :: r) = ls).
Proof. 
  induction t as [|c t IH]; intros cur n.
  - cbn [app scan_lines]. change (Ascii.eqb newline (chr 10)) with true. cbn iota.
    destruct (n <? cap); [left; exists [drop_cr (rev cur)]; intros r; reflexivity|right; exists []; intros r; reflexivity].
  - cbn [app scan_lines]. destruct (Ascii.eqb c (chr 10)).
    + destruct (n <? cap); [|right; exists []; intros r; reflexivity]. destruct (IH [] 0) as [[ls H]|[ls H]].
      * left. exists (drop_cr (rev cur) :: ls). intros r. now rewrite H.
      * right. exists (drop_cr (rev cur) :: ls). intros r. now rewrite H.
    + apply IH.
Qed.
Lemma text_comment fuel t1 c t2 : line_start t1 -> comment c -> scannable c ->
  parse_text fuel (t1 ++ c ++ newline :: t2) = parse_text fuel (t1 ++ t2).
Proof.
  intros H1 Hc [Hn Hl]. unfold parse_text.
  assert (E : scan_lines buffer_size [] 0 (c ++ newline :: t2) = drop_cr c :: scan_lines buffer_size [] 0 t2).
  { rewrite (scan_line buffer_size c Hn [] 0 t2). cbn [rev app]. rewrite Z.add_0_l. apply Z.ltb_lt in Hl. now rewrite Hl. }
  assert (K : forall ls, parse_lines fuel (ls ++ drop_cr c :: scan_lines buffer_size [] 0 t2) = parse_lines fuel (ls ++ scan_lines buffer_size [] 0 t2)).
  { intros ls. unfold parse_lines. now rewrite fold_insert by (intros; now apply comment_inert, drop_cr_comment). }
  destruct H1 as [->|[u ->]].
  - cbn [app]. rewrite E. exact (K []).
  - rewrite <- !app_assoc. cbn [app]. destruct (scan_prefix' buffer_size u [] 0) as [[ls H]|[ls H]]; rewrite !H; [|reflexivity].
    rewrite E. apply K.
Qed.
End WithLibm.

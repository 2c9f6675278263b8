(** Facts about the string functions used by the parser. *)
From Verif Require Import GoString Parser SpecParser BaseLemmas.

Lemma has_prefix_iff p : forall s, has_prefix s p = true <-> exists t, s = p ++ t.
Proof.
  induction p as [|c p IH]; intros s; cbn [has_prefix app].
  - split; [eexists; reflexivity|destruct s; reflexivity].
  - destruct s as [|d s]; [split; [discriminate|intros [t Ht]; discriminate]|].
    cbn [has_prefix]. rewrite andb_true_iff, Ascii.eqb_eq, IH. split.
    + intros [-> [t ->]]. now exists t.
    + intros [t [= -> ->]]. split; [reflexivity|]. now exists t.
Qed.
Lemma contains_iff s c : contains s c = true <-> In c s.
Proof.
  unfold contains. rewrite existsb_exists. split.
  - intros (x & Hx & E). apply Ascii.eqb_eq in E. now subst.
  - intros H. exists c. split; [exact H|apply Ascii.eqb_refl].
Qed.
Lemma contains_false s c : contains s c = false <-> ~ In c s.
Proof. rewrite <- contains_iff. destruct (contains s c); split; congruence. Qed.
Lemma skipn_app_len {A} (p t : list A) : skipn (length p) (p ++ t) = t.
Proof. induction p; simpl; auto. Qed.

Lemma comment_iff l : has_prefix l (lit "//") = true <-> comment l.
Proof. apply has_prefix_iff. Qed.
Lemma comment_false l : has_prefix l (lit "//") = false <-> ~ comment l.
Proof. rewrite <- comment_iff. destruct (has_prefix _ _); split; congruence. Qed.
Lemma comment_dec l : {comment l} + {~ comment l}.
Proof. destruct (has_prefix l (lit "//")) eqn:E; [left; now apply comment_iff|right; now apply comment_false]. Qed.

(** ** split *)
Lemma split_nonempty c s : split c s <> [].
Proof. induction s as [|d s IH]; cbn [split]; [discriminate|]. destruct (Ascii.eqb c d); [discriminate|]. destruct (split c s); congruence. Qed.
Lemma split_no c s : Forall (fun f => ~ In c f) (split c s).
Proof.
  induction s as [|d s IH]; cbn [split]; [repeat constructor; auto|].
  destruct (Ascii.eqb_spec c d) as [->|N]; [constructor; auto|].
  destruct (split c s) as [|f fs]; [constructor; [|constructor]; intros [E|[]]; congruence|].
  inversion IH; subst. constructor; [|assumption]. intros [E|E]; [congruence|auto].
Qed.
Lemma join_cons f fs : fs <> [] -> join (f :: fs) = f ++ ","%char :: join fs.
Proof. destruct fs; [congruence|reflexivity]. Qed.
Lemma split_join s : join (split "," s) = s.
Proof.
  induction s as [|d s IH]; [reflexivity|]. cbn [split].
  destruct (Ascii.eqb_spec ","%char d) as [<-|N].
  - rewrite join_cons by apply split_nonempty. now rewrite IH.
  - destruct (split "," s) as [|f [|g fs]] eqn:E; [now apply split_nonempty in E| |].
    + cbn [join] in *. now rewrite IH.
    + rewrite join_cons in * by discriminate. now rewrite <- IH.
Qed.
Lemma split_app c f s : ~ In c f -> split c (f ++ c :: s) = f :: split c s.
Proof.
  induction f as [|d f IH]; intros H; cbn [split app].
  - now rewrite Ascii.eqb_refl.
  - destruct (Ascii.eqb_spec c d) as [->|N]; [exfalso; apply H; now left|]. rewrite IH by (intro; apply H; now right). reflexivity.
Qed.
Lemma split_single c f : ~ In c f -> split c f = [f].
Proof.
  induction f as [|d f IH]; intros H; cbn [split app]; [reflexivity|].
  destruct (Ascii.eqb_spec c d) as [->|N]; [exfalso; apply H; now left|]. rewrite IH by (intro; apply H; now right). reflexivity.
Qed.
Lemma split_of_join fs : fs <> [] -> Forall (fun f => ~ In ","%char f) fs -> split "," (join fs) = fs.
Proof.
  induction fs as [|f fs IH]; [congruence|]. intros _ H. inversion H as [|x y H1 H2]; subst.
  destruct fs as [|g fs]; [now apply split_single|]. rewrite join_cons by discriminate.
  rewrite split_app by assumption. f_equal. apply IH; [discriminate|assumption].
Qed.
Lemma split_2 c s : In c s -> (2 <= length (split c s))%nat.
Proof.
  induction s as [|d s IH]; [intros []|]. cbn [split]. destruct (Ascii.eqb_spec c d) as [->|N].
  - intros _. pose proof (split_nonempty d s). destruct (split d s); [congruence|simpl; lia].
  - intros [E|H]; [congruence|]. specialize (IH H). destruct (split c s); simpl in *; lia.
Qed.
Lemma join_comma fs : (2 <= length fs)%nat -> In ","%char (join fs).
Proof.
  destruct fs as [|f [|g fs]]; simpl length; try lia. intros _. rewrite join_cons by discriminate.
  apply in_or_app. right. now left.
Qed.
Lemma raw_fields_iff l fs : raw_fields l fs <-> ~ comment l /\ In ","%char l /\ fs = split "," l.
Proof.
  unfold raw_fields. split.
  - intros (H1 & H2 & -> & H3). split; [exact H1|]. split; [now apply join_comma|].
    symmetry. apply split_of_join; [destruct fs; [simpl in H2; lia|discriminate]|exact H3].
  - intros (H1 & H2 & ->). split; [exact H1|]. split; [now apply split_2|]. split; [symmetry; apply split_join|apply split_no].
Qed.
Lemma tokenize_iff l : tokenize l "," = match has_prefix l (lit "//") || negb (contains l ",") with true => None | false => Some (map trim_space (split "," l)) end.
Proof. reflexivity. Qed.
Lemma tokenize_some l fs : raw_fields l fs -> tokenize l "," = Some (map trim_space fs).
Proof.
  intros H. apply raw_fields_iff in H as (H1 & H2 & ->). unfold tokenize.
  apply comment_false in H1. apply contains_iff in H2. now rewrite H1, H2.
Qed.
Lemma tokenize_none l : (forall fs, ~ raw_fields l fs) -> tokenize l "," = None.
Proof.
  intros H. unfold tokenize. destruct (has_prefix l (lit "//")) eqn:E1; [reflexivity|].
  destruct (contains l ",") eqn:E2; [|reflexivity]. exfalso. apply (H (split "," l)). apply raw_fields_iff.
  split; [now apply comment_false|]. split; [now apply contains_iff|reflexivity].
Qed.

(** ** split2 *)
Lemma split2_app c a b : ~ In c a -> split2 c (a ++ c :: b) = [a; b].
Proof.
  induction a as [|d a IH]; intros H; cbn [split2 app].
  - now rewrite Ascii.eqb_refl.
  - destruct (Ascii.eqb_spec c d) as [->|N]; [exfalso; apply H; now left|]. rewrite IH by (intro; apply H; now right). reflexivity.
Qed.
Lemma in_split_first (c : ascii) s : In c s -> exists a b, s = a ++ c :: b /\ ~ In c a.
Proof.
  induction s as [|d s IH]; [intros []|]. intros H. destruct (Ascii.eqb_spec c d) as [->|N].
  - exists [], s. auto.
  - destruct H as [E|H]; [congruence|]. destruct (IH H) as (a & b & -> & Ha). exists (d :: a), b.
    split; [reflexivity|]. intros [E|E]; [congruence|auto].
Qed.
Lemma kv_iff l k v : kv l k v <-> tokenize2 l ":" = Some [k; v].
Proof.
  unfold kv, tokenize2. split.
  - intros (H1 & a & b & -> & H2 & -> & ->). apply comment_false in H1. rewrite H1.
    assert (H3 : In ":"%char (a ++ ":"%char :: b)) by (apply in_or_app; right; now left).
    apply contains_iff in H3. rewrite H3. cbn [orb negb]. now rewrite split2_app.
  - destruct (has_prefix l (lit "//")) eqn:E1; [discriminate|]. destruct (contains l ":") eqn:E2; [|discriminate].
    cbn [orb negb]. apply contains_iff in E2. destruct (in_split_first _ _ E2) as (a & b & -> & Ha).
    rewrite split2_app by assumption. intros [= <- <-]. split; [now apply comment_false|]. exists a, b. auto.
Qed.
Lemma kv_none l : (forall k v, ~ kv l k v) <-> tokenize2 l ":" = None.
Proof.
  split.
  - intros H. unfold tokenize2. destruct (has_prefix l (lit "//")) eqn:E1; [reflexivity|].
    destruct (contains l ":") eqn:E2; [|reflexivity]. cbn [orb negb].
    assert (E2' := E2). apply contains_iff in E2. destruct (in_split_first _ _ E2) as (a & b & -> & Ha).
    exfalso. apply (H (trim_space a) (trim_space b)). apply kv_iff. unfold tokenize2. rewrite E1, E2'. cbn [orb negb]. now rewrite split2_app.
  - intros H k v K. apply kv_iff in K. congruence.
Qed.

(** ** section headers *)
Lemma trim_left1_spec c s : exists i, s = repeat c i ++ trim_left1 c s.
Proof.
  induction s as [|d s [i IH]]; [exists O; reflexivity|]. cbn [trim_left1].
  destruct (Ascii.eqb_spec c d) as [->|N]; [exists (S i); cbn; congruence|exists O; reflexivity].
Qed.
Lemma trim_left1_hd c s r : trim_left1 c s <> c :: r.
Proof.
  induction s as [|d s IH]; [discriminate|]. cbn [trim_left1]. destruct (Ascii.eqb_spec c d) as [->|N]; [exact IH|congruence].
Qed.
Lemma trim_left1_app c i s : (forall r, s <> c :: r) -> trim_left1 c (repeat c i ++ s) = s.
Proof.
  induction i as [|i IH]; intros H; cbn.
  - destruct s as [|d s]; [reflexivity|]. cbn. destruct (Ascii.eqb_spec c d) as [->|N]; [exfalso; now apply (H s)|reflexivity].
  - rewrite Ascii.eqb_refl. now apply IH.
Qed.
Lemma rev_repeat {A} (c : A) n : rev (repeat c n) = repeat c n.
Proof.
  induction n as [|n IH]; [reflexivity|]. cbn. rewrite IH. clear IH. induction n; cbn; congruence.
Qed.
Lemma trim_right1_spec c s : exists j, s = trim_right1 c s ++ repeat c j.
Proof.
  unfold trim_right1. destruct (trim_left1_spec c (rev s)) as [j E]. exists j.
  rewrite <- (rev_involutive s) at 1. rewrite E at 1. now rewrite rev_app_distr, rev_repeat.
Qed.
Lemma trim_right1_last c s r : trim_right1 c s <> r ++ [c].
Proof.
  unfold trim_right1. intros H. apply (f_equal (@rev ascii)) in H. rewrite rev_involutive, rev_app_distr in H.
  now apply trim_left1_hd in H.
Qed.
Lemma trim_right1_app c j s : (forall r, s <> r ++ [c]) -> trim_right1 c (s ++ repeat c j) = s.
Proof.
  intros H. unfold trim_right1. rewrite rev_app_distr, rev_repeat, trim_left1_app; [apply rev_involutive|].
  intros r E. apply (H (rev r)). apply (f_equal (@rev ascii)) in E. now rewrite rev_involutive in E.
Qed.
Lemma header_iff l name : header l name <-> name <> [] /\ get_section l = name.
Proof.
  unfold header, get_section. split.
  - intros (i & j & E & H1 & H2 & H3). split; [exact H1|]. rewrite E. cbn [repeat app].
    assert (P : has_prefix ("["%char :: repeat "["%char i ++ name ++ repeat "]"%char j) (lit "[") = true) by (apply has_prefix_iff; eexists; reflexivity).
    rewrite P. change ("["%char :: repeat "["%char i ++ name ++ repeat "]"%char j) with (repeat "["%char (S i) ++ (name ++ repeat "]"%char j)).
    rewrite trim_left1_app; [now apply trim_right1_app|]. intros r Er. destruct name as [|d name]; [congruence|].
    cbn in Er. injection Er as -> _. now apply (H2 name).
  - intros [H1 E]. destruct (has_prefix (trim_space l) (lit "[")) eqn:P; [|congruence].
    apply has_prefix_iff in P. destruct P as [t Et]. cbn in Et. rewrite Et in E.
    destruct (trim_left1_spec "["%char ("["%char :: t)) as [i Ei].
    destruct i as [|i]. { exfalso. cbn [repeat app] in Ei. symmetry in Ei. now apply trim_left1_hd in Ei. }
    destruct (trim_right1_spec "]"%char (trim_left1 "[" ("["%char :: t))) as [j Ej]. rewrite E in Ej.
    exists i, j. split; [rewrite Et, Ei at 1; now rewrite Ej|]. split; [exact H1|]. split.
    + intros r Er. subst name. rewrite Er in Ej. cbn in Ej. now apply trim_left1_hd in Ej.
    + intros r Er. rewrite Er in E. now apply trim_right1_last in E.
Qed.
Lemma header_none l : (forall name, ~ header l name) <-> get_section l = [].
Proof.
  split.
  - intros H. destruct (get_section l) as [|c s] eqn:E; [reflexivity|]. exfalso. apply (H (c :: s)). apply header_iff. split; [discriminate|exact E].
  - intros E name H. apply header_iff in H as [H1 H2]. congruence.
Qed.

(** ** the contents of a file as a function *)
Fixpoint annotate (cur : str) (ls : list str) : list (str * str) :=
  match ls with
  | [] => []
  | l :: r => match get_section l with [] => (cur, l) :: annotate cur r | s => annotate s r end
  end.
Lemma contents_iff ls : forall cur c, contents cur ls c <-> c = annotate cur ls.
Proof.
  induction ls as [|l ls IH]; intros cur c; cbn [annotate].
  - split; [intros H; inversion H; reflexivity|intros ->; constructor].
  - split.
    + intros H. inversion H as [|s name l' ls' c' Hh Hc|s l' ls' c' Hh Hc]; subst.
      * apply header_iff in Hh as [N E]. destruct (get_section l) as [|x s]; [congruence|]. rewrite E. now apply IH.
      * apply header_none in Hh. rewrite Hh. f_equal. now apply IH.
    + intros ->. destruct (get_section l) as [|x s] eqn:E.
      * apply contents_line; [now apply header_none|now apply IH].
      * apply contents_header with (x :: s); [apply header_iff; split; [discriminate|exact E]|now apply IH].
Qed.
Definition body (sec : string) (c : list (str * str)) : list str := map snd (filter (fun p => str_eqb (fst p) (lit sec)) c).
Lemma section_lines_iff ls sec b : section_lines ls sec b <-> b = body sec (annotate [] ls).
Proof.
  unfold section_lines. split.
  - intros (c & Hc & ->). apply contents_iff in Hc. now subst.
  - intros ->. eexists. split; [now apply contents_iff|reflexivity].
Qed.
Fixpoint kvs_of (b : list str) : list (str * str) :=
  match b with
  | [] => []
  | l :: r => match tokenize2 l ":" with Some (k :: v :: _) => (k, v) :: kvs_of r | _ => kvs_of r end
  end.
Lemma kvs_iff b : forall s, kvs b s <-> s = kvs_of b.
Proof.
  induction b as [|l b IH]; intros s; cbn [kvs_of].
  - split; [intros H; inversion H; reflexivity|intros ->; constructor].
  - split.
    + intros H. inversion H as [|l' k v b' r Hk Hr|l' b' r Hk Hr]; subst.
      * apply kv_iff in Hk. rewrite Hk. f_equal. now apply IH.
      * apply kv_none in Hk. rewrite Hk. now apply IH.
    + intros ->. destruct (tokenize2 l ":") as [f|] eqn:E.
      * assert (exists k v, f = [k; v]) as (k & v & ->).
        { unfold tokenize2 in E. destruct (has_prefix l (lit "//")); [discriminate|]. destruct (contains l ":") eqn:E2; [|discriminate].
          cbn [orb negb] in E. apply contains_iff in E2. destruct (in_split_first _ _ E2) as (a & b' & -> & Ha).
          rewrite split2_app in E by assumption. injection E as <-. eauto. }
        apply kvs_some; [now apply kv_iff|now apply IH].
      * apply kvs_none; [now apply kv_none|now apply IH].
Qed.
Lemma settings_iff ls sec s : settings ls sec s <-> s = kvs_of (body sec (annotate [] ls)).
Proof.
  unfold settings. split.
  - intros (b & Hb & Hs). apply section_lines_iff in Hb. apply kvs_iff in Hs. now subst.
  - intros ->. eexists. split; [now apply section_lines_iff|now apply kvs_iff].
Qed.
Fixpoint rows_of (b : list str) : list (list str) :=
  match b with
  | [] => []
  | l :: r => match tokenize l "," with Some _ => split "," l :: rows_of r | None => rows_of r end
  end.
Lemma tokenize_cases l : (tokenize l "," = Some (map trim_space (split "," l)) /\ raw_fields l (split "," l)) \/
  (tokenize l "," = None /\ forall fs, ~ raw_fields l fs).
Proof.
  destruct (tokenize l ",") as [f|] eqn:E.
  - left. unfold tokenize in E. destruct (has_prefix l (lit "//")) eqn:E1; [discriminate|].
    destruct (contains l ",") eqn:E2; [|discriminate]. cbn [orb negb] in E. split; [congruence|].
    apply raw_fields_iff. split; [now apply comment_false|]. split; [now apply contains_iff|reflexivity].
  - right. split; [reflexivity|]. intros fs H. apply tokenize_some in H. congruence.
Qed.
Lemma rows_iff b : forall r, rows b r <-> r = rows_of b.
Proof.
  induction b as [|l b IH]; intros s; cbn [rows_of].
  - split; [intros H; inversion H; reflexivity|intros ->; constructor].
  - split.
    + intros H. inversion H as [|l' fs b' r Hk Hr|l' b' r Hk Hr]; subst.
      * rewrite (tokenize_some _ _ Hk). apply raw_fields_iff in Hk as (_ & _ & ->). f_equal. now apply IH.
      * rewrite (tokenize_none _ Hk). now apply IH.
    + intros ->. destruct (tokenize_cases l) as [[E H]|[E H]]; rewrite E.
      * apply rows_some; [exact H|now apply IH].
      * apply rows_none; [exact H|now apply IH].
Qed.
Lemma section_rows_iff ls sec r : section_rows ls sec r <-> r = rows_of (body sec (annotate [] ls)).
Proof.
  unfold section_rows. split.
  - intros (b & Hb & Hs). apply section_lines_iff in Hb. apply rows_iff in Hs. now subst.
  - intros ->. eexists. split; [now apply section_lines_iff|now apply rows_iff].
Qed.
Lemma rows_of_raw b r : In r (rows_of b) -> (2 <= length r)%nat.
Proof.
  induction b as [|l b IH]; [intros []|]. cbn [rows_of]. destruct (tokenize_cases l) as [[E H]|[E H]]; rewrite E; [|exact IH].
  intros [<-|Hr]; [|auto]. now destruct H as (_ & H & _).
Qed.

(** A map on paper: its lines, one by one. *)
From Coq Require Import Reals Lra Permutation Sorting.Sorted.
From Flocq Require Import Core BinarySingleNaN.
From Verif Require Import Parser SpecNumbers SpecParser SpecSpace SpecText SpecSheet BaseLemmas StringLemmas ParserProofs InertProofs TextProofs FloatLemmas Float32Lemmas.
From Verif Require Import PropSpace PropNumbers PropText.
Open Scope Z_scope.

(** ** Visible characters *)
Definition visible (c : ascii) : Prop := 33 <= byte_of c <= 126.
Definition plain (t : str) : Prop := Forall visible t.
Lemma lit_plain s : forallb (fun c => (33 <=? byte_of c) && (byte_of c <=? 126)) (lit s) = true -> plain (lit s).
Proof. intros H. apply Forall_forall. intros c I. rewrite forallb_forall in H. specialize (H c I). apply andb_true_iff in H as [H1 H2]. apply Z.leb_le in H1, H2. now split. Qed.
Lemma byte_digit d : 0 <= d <= 9 -> byte_of (chr (Z.to_N (48 + d))) = 48 + d.
Proof. intros H. assert (d = 0 \/ d = 1 \/ d = 2 \/ d = 3 \/ d = 4 \/ d = 5 \/ d = 6 \/ d = 7 \/ d = 8 \/ d = 9) as D by lia. repeat (destruct D as [->|D]; [reflexivity|]). subst d. reflexivity. Qed.
Lemma show_plain ds : digits ds -> plain (show ds).
Proof. intros D. apply Forall_forall. intros c I. apply in_map_iff in I as (d & <- & I). unfold digits in D. rewrite Forall_forall in D. specialize (D d I). unfold visible. rewrite byte_digit by exact D. lia. Qed.
Lemma show_digit ds c : digits ds -> In c (show ds) -> 48 <= byte_of c <= 57.
Proof. intros D I. apply in_map_iff in I as (d & <- & I). unfold digits in D. rewrite Forall_forall in D. specialize (D d I). rewrite byte_digit by exact D. lia. Qed.
Lemma sign_plain s : plain (sign_str s).
Proof. destruct s; [constructor|apply lit_plain; reflexivity..]. Qed.
Lemma plain_app a b : plain a -> plain b -> plain (a ++ b).
Proof. intros A B. apply Forall_app. now split. Qed.
(** neither comma nor white space *)
Definition numeric (c : ascii) : Prop := let b := byte_of c in 48 <= b <= 57 \/ b = 43 \/ b = 45 \/ b = 46 \/ b = 69 \/ b = 101.
Lemma written_numeric l : SpecNumbers.well_formed l -> Forall numeric (written l).
Proof.
  intros (D & _ & X). assert (SH : forall ds, digits ds -> Forall numeric (show ds)) by (intros ds H; apply Forall_forall; intros c I; left; now apply (show_digit ds)).
  assert (SG : forall s, Forall numeric (sign_str s)) by (intros []; repeat constructor; unfold numeric; cbv; tauto).
  unfold digits in D. apply Forall_app in D as [D1 D2]. unfold written. apply Forall_app; split; [apply SG|]. apply Forall_app; split; [now apply SH|]. apply Forall_app; split.
  - unfold frac_digits in D2. destruct (lt_frac l) as [f|]; [|constructor]. apply Forall_app; split; [repeat constructor; unfold numeric; cbv; tauto|now apply SH].
  - destruct (lt_exp l) as [[[up s] ds]|]; [|constructor]. destruct X as (X & _). apply Forall_app; split; [destruct up; repeat constructor; unfold numeric; cbv; tauto|]. apply Forall_app; split; [apply SG|now apply SH].
Qed.
Lemma numeric_plain t : Forall numeric t -> plain t.
Proof. apply Forall_impl. intros c. unfold numeric, visible. cbv zeta. lia. Qed.
Lemma numeric_other t c : Forall numeric t -> In (byte_of c) [10; 13; 44; 58; 47; 91] -> ~ In c t.
Proof. intros F B I. rewrite Forall_forall in F. specialize (F c I). unfold numeric in F. cbv zeta in F. cbn [In] in B. lia. Qed.
Lemma show_numeric ds : digits ds -> Forall numeric (show ds).
Proof. intros H. apply Forall_forall; intros c I; left; now apply (show_digit ds). Qed.
(** bare texts *)
Lemma white_ends c : In c white -> exists a b x y, SpecSpace.utf8 c = a :: x /\ SpecSpace.utf8 c = y ++ [b] /\ ~ visible a /\ ~ visible b.
Proof.
  intros I. unfold white in I. cbn [In] in I.
  repeat (destruct I as [<-|I]; [first
    [ eexists _, _, _, []; split; [reflexivity|]; split; [reflexivity|]; split; intros V; unfold visible in V; vm_compute in V; destruct V as [V1 V2]; (now apply V1) || (now apply V2)
    | eexists _, _, _, [_]; split; [reflexivity|]; split; [reflexivity|]; split; intros V; unfold visible in V; vm_compute in V; destruct V as [V1 V2]; (now apply V1) || (now apply V2)
    | eexists _, _, _, [_; _]; split; [reflexivity|]; split; [reflexivity|]; split; intros V; unfold visible in V; vm_compute in V; destruct V as [V1 V2]; (now apply V1) || (now apply V2) ]|]).
  destruct I.
Qed.
Lemma plain_bare t : plain t -> bare t.
Proof.
  intros P c u I. destruct (white_ends c I) as (a & b & x & y & E1 & E2 & V1 & V2). unfold plain in P. rewrite Forall_forall in P. split; intros E.
  - apply V1. apply P. rewrite E, E1. now left.
  - apply V2. apply P. rewrite E, E2. apply in_or_app. right. apply in_or_app. right. now left.
Qed.
Lemma bare_trim t : bare t -> trim_space t = t.
Proof. intros B. apply C111_trim. split; [exact B|]. exists [], []. split; [exists []; split; [constructor|reflexivity]|]. split; [exists []; split; [constructor|reflexivity]|]. now rewrite app_nil_r. Qed.
Lemma plain_trim t : plain t -> trim_space t = t.
Proof. intros P. apply bare_trim. now apply plain_bare. Qed.
Lemma bare_stripped t : bare t -> stripped t t.
Proof. intros B. apply C111_trim. now apply bare_trim. Qed.
(** ** No header *)
Lemma visible_no_header c t : visible c -> byte_of c <> 91 -> get_section (c :: t) = [].
Proof.
  intros V N. unfold visible in V. apply no_header_first; try (apply Z.eqb_neq; lia).
  - destruct (sp1 c) eqn:E; [|reflexivity]. exfalso. clear N. destruct c as [[] [] [] [] [] [] [] []]; vm_compute in V, E; (discriminate E || (destruct V as [V1 V2]; now apply V1)).
  - destruct (Ascii.eqb_spec "[" c) as [<-|]; [|reflexivity]. exfalso. now apply N.
Qed.

(** ** Rows *)
Lemma first_show ds t : digits ds -> ds <> [] -> exists c r, show ds ++ t = c :: r /\ 48 <= byte_of c <= 57.
Proof. intros D N. destruct ds as [|d r]; [congruence|]. exists (chr (Z.to_N (48 + d))), (show r ++ t). split; [reflexivity|]. apply (show_digit (d :: r)); [exact D|now left]. Qed.
Lemma join_in fs c : In c (join fs) -> c = ","%char \/ exists f, In f fs /\ In c f.
Proof.
  induction fs as [|f fs IH]; [intros []|]. destruct fs as [|g fs]; [intros I; right; exists f; split; [now left|exact I]|].
  change (join (f :: g :: fs)) with (f ++ ","%char :: join (g :: fs)). intros I. apply in_app_or in I as [I|[I|I]].
  - right. exists f. split; [now left|exact I].
  - now left.
  - destruct (IH I) as [E|(h & H1 & H2)]; [now left|]. right. exists h. split; [now right|exact H2].
Qed.
(** what a field of a row may hold *)
Definition fine (c : ascii) : Prop := visible c /\ c <> ","%char.
Lemma numeric_fine t : Forall numeric t -> Forall fine t.
Proof. apply Forall_impl. intros c N. split; [unfold numeric, visible in *; cbv zeta in N; lia|]. intros ->. unfold numeric in N. vm_compute in N. repeat destruct N as [N|N]; try discriminate N. now apply N. Qed.
Lemma fine_plain t : Forall fine t -> plain t.
Proof. apply Forall_impl. intros c N. apply N. Qed.
Lemma row_line ds g fs : digits ds -> ds <> [] -> Forall (Forall fine) (g :: fs) ->
  let row := show ds :: g :: fs in raw_fields (join row) row /\ get_section (join row) = [] /\ plain (join row) /\ map trim_space row = row /\ tokenize (join row) "," = Some row /\
  ~ In newline (join row) /\ has_prefix (join row) (lit "osu file format v") = false.
Proof.
  intros D N F row. assert (FR : Forall (Forall fine) row) by (constructor; [now apply numeric_fine, show_numeric|exact F]).
  assert (P : plain (join row)).
  { apply Forall_forall. intros c I. apply join_in in I as [->|(f & I & J)]; [split; vm_compute; discriminate|]. rewrite Forall_forall in FR. specialize (FR f I). apply fine_plain in FR. unfold plain in FR. rewrite Forall_forall in FR. now apply FR. }
  assert (X : exists c r, join row = c :: r /\ 48 <= byte_of c <= 57) by (apply first_show; assumption). destruct X as (c & r & E & B).
  assert (R : raw_fields (join row) row).
  { split; [|split; [cbn [length row]; lia|split; [reflexivity|]]].
    - intros (t & C). rewrite E in C. change (lit "//" ++ t) with ("/"%char :: "/"%char :: t) in C. assert (c = "/"%char) by congruence. subst c. vm_compute in B. destruct B as [B _]. now apply B.
    - apply Forall_forall. intros f I. rewrite Forall_forall in FR. specialize (FR f I). rewrite Forall_forall in FR. intros J. now apply (FR _ J). }
  assert (T : map trim_space row = row).
  { rewrite <- (map_id row) at 2. apply map_ext_in. intros f I. rewrite Forall_forall in FR. apply plain_trim, fine_plain. now apply FR. }
  split; [exact R|]. split; [rewrite E; apply visible_no_header; [unfold visible; lia|lia]|]. split; [exact P|]. split; [exact T|]. split; [rewrite (tokenize_some _ _ R); now rewrite T|]. split.
  - intros I. unfold plain in P. rewrite Forall_forall in P. specialize (P _ I). destruct P as [P _]. vm_compute in P. now apply P.
  - rewrite E. change (lit "osu file format v") with ("o"%char :: lit "su file format v"). change (has_prefix (c :: r) ("o"%char :: lit "su file format v")) with (Ascii.eqb "o" c && has_prefix r (lit "su file format v")).
    destruct (Ascii.eqb_spec "o" c) as [<-|]; [|reflexivity]. vm_compute in B. destruct B as [_ B]. now elim B.
Qed.
Lemma lit_numeric s : forallb (fun c => (48 <=? byte_of c) && (byte_of c <=? 57)) (lit s) = true -> Forall numeric (lit s).
Proof. intros H. apply Forall_forall. intros c I. rewrite forallb_forall in H. specialize (H c I). apply andb_true_iff in H as [H1 H2]. apply Z.leb_le in H1, H2. now left. Qed.
Lemma path_fine c ps : In c (lit "LBPC") -> Forall (fun p => natural (fst p) (2 ^ 24) /\ natural (snd p) (2 ^ 24)) ps -> Forall fine (path_text c ps).
Proof.
  intros C F. constructor; [cbn [In lit list_ascii_of_string] in C; repeat destruct C as [<-|C]; try destruct C; (split; [split; vm_compute; discriminate|discriminate])|].
  apply Forall_concat, Forall_map. eapply Forall_impl; [|exact F]. intros p ((P & _) & (Q & _)). constructor; [split; [split; vm_compute; discriminate|discriminate]|]. apply Forall_app. split; [now apply numeric_fine, show_numeric|].
  constructor; [split; [split; vm_compute; discriminate|discriminate]|now apply numeric_fine, show_numeric].
Qed.
Lemma note_row n : note_ok n -> exists ds g fs, note_fields n = show ds :: g :: fs /\ digits ds /\ ds <> [] /\ Forall (Forall fine) (g :: fs).
Proof.
  intros ((X1 & X2 & _) & (Y1 & _) & (T1 & _) & S). eexists _, _, _. split; [reflexivity|]. split; [exact X1|]. split; [exact X2|].
  constructor; [now apply numeric_fine, show_numeric|]. constructor; [now apply numeric_fine, show_numeric|]. constructor; [destruct (nt_shape n), (nt_combo n); apply numeric_fine, lit_numeric; reflexivity|]. constructor; [apply numeric_fine, lit_numeric; reflexivity|].
  destruct (nt_shape n) as [|e|c ps k l]; [constructor| |].
  - destruct S as (S & _). constructor; [now apply numeric_fine, show_numeric|constructor].
  - destruct S as (C & P & (K & _) & W). constructor; [now apply path_fine|]. constructor; [now apply numeric_fine, show_numeric|]. constructor; [now apply numeric_fine, written_numeric|constructor].
Qed.
Lemma tempo_row p : tempo_ok p -> exists ds g fs, tempo_fields p = show ds :: g :: fs /\ digits ds /\ ds <> [] /\ Forall (Forall fine) (g :: fs).
Proof.
  intros ((X1 & X2 & _) & W). eexists _, _, _. split; [reflexivity|]. split; [exact X1|]. split; [exact X2|].
  constructor; [now apply numeric_fine, written_numeric|]. repeat (constructor; [apply numeric_fine, lit_numeric; destruct (tp_speed p); reflexivity|]). constructor.
Qed.
(** ** Settings *)
Lemma setting_line key v c : plain (lit key) -> ~ In ":"%char (lit key) -> (exists r, lit key = c :: r) -> byte_of c <> 91 -> byte_of c <> 47 -> byte_of c <> 111 -> bare v ->
  get_section (setting key v) = [] /\ tokenize2 (setting key v) ":" = Some [lit key; v] /\ has_prefix (setting key v) (lit "osu file format v") = false.
Proof.
  intros P N (r & E) N1 N2 N3 B. assert (V : visible c) by (unfold plain in P; rewrite E in P; now inversion P). unfold setting.
  split; [rewrite E; cbn [app]; now apply visible_no_header|]. split.
  - apply C111_setting. split; [|exists (lit key), v; split; [reflexivity|]; split; [exact N|]; split; apply bare_stripped; [now apply plain_bare|exact B]].
    intros (t & C). rewrite E in C. cbn [app] in C. change (lit "//" ++ t) with ("/"%char :: "/"%char :: t) in C. assert (c = "/"%char) by congruence. subst c. now apply N2.
  - rewrite E. cbn [app]. change (lit "osu file format v") with ("o"%char :: lit "su file format v"). change (has_prefix (c :: ?x) ("o"%char :: lit "su file format v")) with (Ascii.eqb "o" c && has_prefix x (lit "su file format v")).
    destruct (Ascii.eqb_spec "o" c) as [<-|]; [|reflexivity]. now elim N3.
Qed.

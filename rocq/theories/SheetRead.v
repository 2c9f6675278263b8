(** A map on paper: what is read from its file. *)
From Coq Require Import Reals Lra Permutation Sorted.
From Flocq Require Import Core BinarySingleNaN.
From Verif Require Import Parser SpecNumbers SpecParser SpecSpace SpecText SpecTiming SpecSheet BaseLemmas StringLemmas ParserProofs InertProofs TextProofs FloatLemmas Float32Lemmas SettingsProofs SortLemmas ObjectProofs ShapeProofs SpecShape.
From Verif Require Import PropSpace PropNumbers PropText PropParser PropShape SheetProofs SheetBlocks.
Open Scope Z_scope.

(** ** The text *)
Definition tidy (l : str) : Prop := ~ In newline l /\ no_final_cr l /\ SpecText.well_formed l.
Lemma ascii_well t : Forall (fun c => byte_of c < 128) t -> SpecText.well_formed t.
Proof.
  intros F. exists (map (fun c => [c]) t). split.
  - apply Forall_map. eapply Forall_impl; [|exact F]. intros c B. cbv beta in B. apply SpecMods.U1. unfold SpecMods.rng. split; [unfold byte_of; lia|lia].
  - clear F. induction t as [|c t IH]; [reflexivity|]. cbn [map concat app]. now rewrite <- IH.
Qed.
Lemma seen_tidy t : Forall (fun c => 32 <= byte_of c < 128) t -> tidy t.
Proof.
  intros F. split; [|split].
  - intros I. rewrite Forall_forall in F. specialize (F _ I). vm_compute in F. destruct F as [F _]. now apply F.
  - intros r E. assert (I : In carriage t) by (rewrite E; apply in_or_app; right; now left). rewrite Forall_forall in F. specialize (F _ I). vm_compute in F. destruct F as [F _]. now apply F.
  - apply ascii_well. eapply Forall_impl; [|exact F]. cbv beta. lia.
Qed.
Lemma plain_tidy t : plain t -> tidy t.
Proof. intros P. apply seen_tidy. eapply Forall_impl; [|exact P]. unfold visible. cbv beta. lia. Qed.
Lemma setting_tidy key v : plain (lit key) -> name_ok v -> tidy (setting key v).
Proof.
  intros P (B & NN & W). unfold setting. split; [|split].
  - intros I. apply in_app_or in I as [I|[I|I]]; [|discriminate I|now apply NN]. unfold plain in P. rewrite Forall_forall in P. specialize (P _ I). destruct P as [P _]. vm_compute in P. now apply P.
  - intros r E. destruct v as [|x v] using rev_ind.
    + assert (Q := f_equal (@rev ascii) E). rewrite !rev_app_distr in Q. cbn [rev app] in Q. discriminate Q.
    + assert (Q := f_equal (@rev ascii) E). change (":"%char :: v ++ [x]) with ((":"%char :: v) ++ [x]) in Q. rewrite app_assoc in Q. rewrite !rev_app_distr in Q. cbn [rev app] in Q. assert (x = carriage) by congruence. subst x.
      destruct (B 13 v) as (_ & B2); [cbn; tauto|]. apply B2. reflexivity.
  - change (":"%char :: v) with ([":"%char] ++ v). apply well_app; [|apply well_app; [|exact W]].
    + apply ascii_well. eapply Forall_impl; [|exact P]. unfold visible. cbv beta. lia.
    + apply ascii_well. repeat constructor.
Qed.
Lemma written_setting key l : plain (lit key) -> SpecNumbers.well_formed l -> tidy (setting key (written l)).
Proof.
  intros P W. apply plain_tidy. unfold setting. apply plain_app; [exact P|]. constructor; [split; vm_compute; discriminate|]. apply numeric_plain. now apply written_numeric.
Qed.
Lemma sheet_tidy s : sheet_ok s -> Forall tidy (sheet_lines s).
Proof.
  intros ((V & _) & LN & T & A & CR & _ & (HP & _) & (CS & _) & (OD & _) & (AR & _) & SP & TK & _ & TP & NT & _). rewrite lines_eq.
  assert (E0 : tidy []) by (apply plain_tidy; constructor). assert (H : forall x, forallb (fun c => (33 <=? byte_of c) && (byte_of c <=? 126)) (lit x) = true -> tidy (lit x)) by (intros x X; apply plain_tidy; now apply lit_plain).
  assert (S1 : forall k l, forallb (fun c => (33 <=? byte_of c) && (byte_of c <=? 126)) (lit k) = true -> SpecNumbers.well_formed l -> tidy (setting k (written l))) by (intros k l K L; apply written_setting; [now apply lit_plain|exact L]).
  assert (S2 : forall k v, forallb (fun c => (33 <=? byte_of c) && (byte_of c <=? 126)) (lit k) = true -> name_ok v -> tidy (setting k v)) by (intros k v K L; apply setting_tidy; [now apply lit_plain|exact L]).
  apply Forall_app. split; [constructor; [|repeat constructor; apply E0]|].
  { apply seen_tidy. apply Forall_app. split; [|eapply Forall_impl; [|apply (show_plain _ V)]; unfold visible; cbv beta; lia]. apply Forall_forall. intros c I. assert (B : forallb (fun c => (32 <=? byte_of c) && (byte_of c <? 128)) (lit "osu file format v") = true) by reflexivity.
    rewrite forallb_forall in B. specialize (B c I). apply andb_true_iff in B as [B1 B2]. apply Z.leb_le in B1. apply Z.ltb_lt in B2. now split. }
  constructor; [apply H; reflexivity|]. apply Forall_app. split; [constructor; [apply S1; [reflexivity|assumption]|repeat constructor; apply E0]|].
  constructor; [apply H; reflexivity|]. apply Forall_app. split; [repeat (constructor; [apply S2; [reflexivity|assumption]|]); repeat constructor; apply E0|].
  constructor; [apply H; reflexivity|]. apply Forall_app. split; [repeat (constructor; [apply S1; [reflexivity|assumption]|]); repeat constructor; apply E0|].
  constructor; [apply H; reflexivity|]. apply Forall_app. split; [apply Forall_app; split; [|repeat constructor; apply E0]; apply Forall_map|].
  - eapply Forall_impl; [|exact TP]. intros p P. destruct (tempo_row p P) as (ds & g & fs & E & D & N & F). cbv beta. rewrite E. apply plain_tidy. apply (row_line ds g fs D N F).
  - constructor; [apply H; reflexivity|]. apply Forall_map. eapply Forall_impl; [|exact NT]. intros p P. destruct (note_row p P) as (ds & g & fs & E & D & N & F). cbv beta. rewrite E. apply plain_tidy. apply (row_line ds g fs D N F).
Qed.
(** ** Numbers *)
Lemma plain_literal ds : digits ds -> ds <> [] -> SpecNumbers.well_formed (mkLit Unsigned ds None None) /\ written (mkLit Unsigned ds None None) = show ds /\ value (mkLit Unsigned ds None None) = IZR (dec ds).
Proof.
  intros D N. split; [split; [cbn; now rewrite app_nil_r|split; [cbn; now rewrite app_nil_r|exact I]]|]. split; [unfold written; cbn [lt_sign lt_int lt_frac lt_exp sign_str app]; now rewrite app_nil_r|].
  unfold value, exponent, frac_digits. cbn [lt_sign lt_int lt_frac lt_exp signed is_minus]. rewrite app_nil_r. change (0 - zlen (@nil Z)) with 0. cbn [powerRZ]. ring.
Qed.
Lemma show_f64 ds : natural ds (2 ^ 53) -> exactly ds (parse_f64 (show ds)).
Proof.
  intros (D & N & B). destruct (plain_literal ds D N) as (W & E & V). pose proof (C72_f64 _ W) as H. rewrite E, V in H. unfold nearest_float in H. cbv zeta in H. pose proof (dec_pos ds D) as P.
  assert (R : round radix2 (FLT_exp (3 - 1024 - 53) 53) ZnearestE (IZR (dec ds)) = IZR (dec ds)) by (apply (rnd64_Z (dec ds)); lia). rewrite R in H. destruct H as [(_ & F & H & _)|(L & _)]; [split; assumption|].
  exfalso. rewrite Rabs_pos_eq in L by (apply IZR_le; lia). assert (Q : (bpow radix2 53 <= bpow radix2 1024)%R) by (apply bpow_le; lia). assert (X : (IZR (dec ds) < bpow radix2 53)%R) by (rewrite <- (IZR_Zpower radix2 53) by lia; apply IZR_lt; exact B). lra.
Qed.
Lemma show_f32 ds : natural ds (2 ^ 24) -> exactly ds (parse_f32 (show ds)).
Proof.
  intros (D & N & B). destruct (plain_literal ds D N) as (W & E & V). pose proof (C72_f32 _ W) as H. rewrite E, V in H. unfold nearest_float in H. cbv zeta in H. pose proof (dec_pos ds D) as P.
  assert (R : round radix2 (FLT_exp (3 - 128 - 24) 24) ZnearestE (IZR (dec ds)) = IZR (dec ds)) by (apply round_generic; [typeclasses eauto|apply (fmt32_Z (dec ds)); lia]). rewrite R in H. destruct H as [(_ & F & H & _)|(L & _)]; [split; assumption|].
  exfalso. rewrite Rabs_pos_eq in L by (apply IZR_le; lia). assert (Q : (bpow radix2 24 <= bpow radix2 128)%R) by (apply bpow_le; lia). assert (X : (IZR (dec ds) < bpow radix2 24)%R) by (rewrite <- (IZR_Zpower radix2 24) by lia; apply IZR_lt; exact B). lra.
Qed.
Lemma show_int ds : natural ds (2 ^ 63) -> parse_int (show ds) = dec ds.
Proof. intros (D & N & B). pose proof (dec_pos ds D) as P. pose proof (C72_int Unsigned ds D N) as H. cbn [sign_str app signed is_minus] in H. rewrite H. unfold signed. cbn [is_minus]. lia. Qed.
Lemma feq_finite (x y : f64) : feq y x = true -> is_finite x = true -> is_finite y = true /\ B2R y = B2R x.
Proof.
  intros E F. assert (FY : is_finite y = true). { unfold feq, Beqb in E. destruct y as [sy|sy| |sy my ey By], x as [sx|sx| |sx mx ex Bx]; try reflexivity; try discriminate F; try discriminate E; destruct sy; discriminate E. }
  split; [exact FY|]. unfold feq in E. rewrite Beqb_correct in E by assumption. revert E. case Req_bool_spec; [auto|discriminate].
Qed.
Lemma level_read l x : level l -> clamped (parse_f64 (written l)) x -> stored l x.
Proof.
  intros (W & V) (_ & _ & _ & C). pose proof (C72_f64 l W) as H. unfold nearest_float in H. cbv zeta in H. unfold stored. set (r := round _ _ _ _) in *.
  assert (R : (0 <= r <= 10)%R).
  { split; unfold r.
    - apply (round_ge_generic radix2 (FLT_exp (3 - 1024 - 53) 53) ZnearestE); [apply generic_format_0|tauto].
    - apply (round_le_generic radix2 (FLT_exp (3 - 1024 - 53) 53) ZnearestE); [apply (fmt_Z 10); lia|tauto]. }
  destruct H as [(_ & F & E & _)|(L & _)].
  - destruct (fq1_exact 10) as (F10 & E10); [lia|]. destruct (feq_finite (parse_f64 (written l)) x) as (X1 & X2); [|exact F|split; [exact X1|congruence]]. apply C.
    + unfold fle. rewrite Bleb_correct by (exact F || reflexivity). apply Rle_bool_true. change (B2R f0) with 0%R. lra.
    + unfold fle. rewrite Bleb_correct by assumption. apply Rle_bool_true. rewrite E10. lra.
  - exfalso. rewrite Rabs_pos_eq in L by tauto. assert (Q : (bpow radix2 4 <= bpow radix2 1024)%R) by (apply bpow_le; lia). change (bpow radix2 4) with 16%R in Q. lra.
Qed.
Lemma nearest_not_nan l : SpecNumbers.well_formed l -> nan_text (written l) = false.
Proof.
  intros W. rewrite <- parse_nan. pose proof (C72_f64 l W) as H. unfold nearest_float in H. cbv zeta in H. destruct H as [(_ & F & _)|(_ & E)]; [|now rewrite E]. unfold fisnan. destruct (parse_f64 (written l)); try reflexivity. discriminate F.
Qed.

(** ** Rows of notes *)
Lemma show_trim ds : digits ds -> trim_space (show ds) = show ds.
Proof. intros D. apply plain_trim. now apply show_plain. Qed.
Lemma written_trim l : SpecNumbers.well_formed l -> trim_space (written l) = written l.
Proof. intros W. apply plain_trim, numeric_plain. now apply written_numeric. Qed.
Definition shape_type (n : note) : Z := match nt_shape n with Circle => 1 | Spin _ => 8 | Slide _ _ _ _ => 2 end.
Lemma note_field n : note_ok n -> field 0 (note_fields n) = show (nt_x n) /\ field 1 (note_fields n) = show (nt_y n) /\ field 2 (note_fields n) = show (nt_time n) /\
  match nt_shape n with Circle => True | Spin e => field 5 (note_fields n) = show e
    | Slide c ps k l => field 5 (note_fields n) = path_text c ps /\ field 6 (note_fields n) = show k /\ field 7 (note_fields n) = written l /\ length (note_fields n) = 8%nat end /\
  atoi (field 3 (note_fields n)) = shape_type n + (if nt_combo n then 4 else 0).
Proof.
  intros ((X & _) & (Y & _) & (T & _) & S). split; [exact (show_trim _ X)|]. split; [exact (show_trim _ Y)|]. split; [exact (show_trim _ T)|]. split.
  - unfold note_fields. destruct (nt_shape n) as [|e|c ps k l]; [exact I|destruct S as (S & _); exact (show_trim _ S)|]. destruct S as (C & P & (K & _) & W).
    split; [apply plain_trim, fine_plain; now apply path_fine|]. split; [exact (show_trim _ K)|]. split; [exact (written_trim _ W)|reflexivity].
  - unfold note_fields, shape_type. destruct (nt_shape n), (nt_combo n); vm_compute; reflexivity.
Qed.
Lemma note_type n : note_ok n -> type_of (note_fields n) = match nt_shape n with Circle => TCircle | Spin _ => TSpinner | Slide _ _ _ _ => TSlider end.
Proof. intros OK. destruct (note_field n OK) as (_ & _ & _ & _ & E). unfold type_of. rewrite E. unfold shape_type. destruct (nt_shape n), (nt_combo n); vm_compute; reflexivity. Qed.
Lemma note_flag n : note_ok n -> new_combo_flag (note_fields n) = nt_combo n /\ spinner_row (note_fields n) = is_spin n /\ is_object (note_fields n) = true.
Proof.
  intros OK. destruct (note_field n OK) as (_ & _ & _ & _ & E). unfold new_combo_flag, spinner_row, is_object, is_spin. rewrite (note_type n OK), E. unfold shape_type. destruct (nt_shape n), (nt_combo n); vm_compute; auto.
Qed.
Lemma note_start n : note_ok n -> exactly (nt_time n) (start_of (note_fields n)).
Proof. intros OK. destruct (note_field n OK) as (_ & _ & E & _). unfold start_of. rewrite E. apply show_f64. apply OK. Qed.
Lemma barred_split t fs : barred t fs -> split "|" t = fs.
Proof.
  intros (f & r & -> & -> & F). revert f F. induction r as [|g r IH]; intros f F.
  - cbn [map concat]. rewrite app_nil_r. apply split_single. now inversion F.
  - cbn [map concat]. cbn [app]. inversion F as [|? ? F1 F2]; subst. rewrite split_app by exact F1. f_equal. now apply IH.
Qed.
Definition pair_text (p : list Z * list Z) : str := show (fst p) ++ ":"%char :: show (snd p).
Definition points_ok (ps : list (list Z * list Z)) : Prop := Forall (fun p => natural (fst p) (2 ^ 24) /\ natural (snd p) (2 ^ 24)) ps.
Lemma show_without ds c : digits ds -> ~ 48 <= byte_of c <= 57 -> ~ In c (show ds).
Proof. intros D N I. apply N. now apply (show_digit ds). Qed.
Lemma path_bars c ps : In c (lit "LBPC") -> points_ok ps -> split "|" (path_text c ps) = [c] :: map pair_text ps.
Proof.
  intros C F. apply barred_split. exists [c], (map pair_text ps). split; [reflexivity|]. split.
  - unfold path_text. cbn [app]. f_equal. rewrite map_map. reflexivity.
  - constructor; [intros [E|[]]; subst c; cbn [In lit list_ascii_of_string] in C; repeat destruct C as [C|C]; (discriminate C || destruct C)|].
    apply Forall_map. eapply Forall_impl; [|exact F]. intros p ((P & _) & (Q & _)) I. unfold pair_text in I. apply in_app_or in I as [I|[I|I]]; [|discriminate I|]; revert I; apply show_without; auto; vm_compute; intros [? ?]; auto.
Qed.
Lemma pair_read p v : natural (fst p) (2 ^ 24) -> natural (snd p) (2 ^ 24) -> point_text (pair_text p) v -> point_read p v.
Proof.
  intros (P & P1 & P2) (Q & Q1 & Q2) (x & y & r & E & NX & NY & R & ->). unfold pair_text in E. assert (NC : forall ds, digits ds -> ~ In ":"%char (show ds)) by (intros ds D; apply show_without; [exact D|vm_compute; intros [? ?]; auto]).
  assert (S1 := split_app ":"%char _ (show (snd p)) (NC _ P)). rewrite E, (split_single ":"%char _ (NC _ Q)) in S1.
  rewrite split_app in S1 by exact NX. assert (X := f_equal (fun l => hd [] l) S1). assert (S2 := f_equal (fun l => tl l) S1). cbn [hd tl] in X, S2.
  assert (Y : y = show (snd p)).
  { destruct R as [->|(t & ->)]; [rewrite app_nil_r, split_single in S2 by exact NY; exact (f_equal (fun l => hd [] l) S2)|]. rewrite split_app in S2 by exact NY. exfalso. apply (split_nonempty ":"%char t). exact (f_equal (fun l => tl l) S2). }
  subst x y. split; cbn [vx vy]; apply show_f32; repeat split; assumption.
Qed.
Lemma points_read ps : forall vs, points_ok ps -> Forall2 point_text (map pair_text ps) vs -> Forall2 point_read ps vs.
Proof.
  induction ps as [|p ps IH]; intros vs F H; cbn [map] in H; inversion H; subst; constructor; inversion F as [|? ? (F1 & F2) F3]; subst; [now apply pair_read|now apply IH].
Qed.
Section Reading.
Context {M : libm}.
Lemma note_described fuel tim n o : note_ok n -> describes (note_fields n) o -> (type_of (note_fields n) = TSlider -> slider_of fuel tim (note_fields n) o) -> note_read n o.
Proof.
  intros OK (S & P & _ & K) SL. destruct (note_field n OK) as (E0 & E1 & E2 & E5 & _). rewrite (note_type n OK) in K, SL. rewrite E0, E1 in P. unfold note_read. rewrite S, P. cbn [vx vy]. pose proof OK as (X & Y & T & SP).
  assert (ST : exactly (nt_time n) (start_of (note_fields n))) by (unfold start_of; rewrite E2; now apply show_f64).
  split; [now apply show_f32|]. split; [now apply show_f32|]. split; [exact ST|]. destruct (nt_shape n) as [|e|c ps k l].
  - destruct K as (K1 & K2 & K3). split; [exact K1|]. split; [rewrite <- S; exact K2|congruence].
  - destruct K as (K1 & K2 & K3). split; [exact K1|]. split; [rewrite K2, E5; now apply show_f64|congruence].
  - destruct K as (sd & K1 & K2 & K3). destruct (SL eq_refl) as (sd' & typ & texts & pts & es & K' & B & PT & NM & _ & _ & _ & PA & _). assert (sd' = sd) by congruence. subst sd'.
    destruct E5 as (E5 & E6 & E7 & _). destruct SP as (C & PS & NK & W). rewrite E5 in B. apply barred_split in B. rewrite (path_bars c ps C PS) in B. assert (B1 := f_equal (fun l => hd [] l) B). assert (B2 := f_equal (fun l => tl l) B). cbn [hd tl] in B1, B2. symmetry in B1, B2. subst typ texts.
    exists sd, pts. split; [exact K1|]. split. { rewrite K2, E6. apply show_int. destruct NK as (N1 & N2 & N3). split; [exact N1|split; [exact N2|lia]]. } split; [rewrite K3, E7; now apply C72_f64|]. split; [now apply points_read|].
    split; [exists fuel; rewrite K3; rewrite <- E0, <- E1; exact NM|exact PA].
Qed.
End Reading.
Lemma row_key_le a b : fle (start_of a) (start_of b) = true -> (row_k a <= row_k b)%R.
Proof. intros H. apply fle_iff in H. apply H. Qed.
(** the order is determined *)
Lemma play_unique file : Forall (fun fs => fisnan (start_of fs) = false) file -> forall a b, play_order file a -> play_order file b -> a = b.
Proof.
  intros NN a b (PA & SA & FA) (PB & SB & FB). assert (NA : Forall (fun fs => fisnan (start_of fs) = false) a) by (eapply Permutation_Forall; eassumption). assert (NB : Forall (fun fs => fisnan (start_of fs) = false) b) by (eapply Permutation_Forall; eassumption).
  assert (F : forall t, filter (fun n => feq (start_of n) t) a = filter (fun n => feq (start_of n) t) b) by (intros t; now rewrite FA, FB). clear file NN PA PB FA FB.
  assert (SELF : forall x, fisnan (start_of x) = false -> feq (start_of x) (start_of x) = true) by (intros x N; apply feq_iff; auto).
  revert b SB NB F. induction a as [|x a IH]; intros b SB NB F.
  - destruct b as [|y b]; [reflexivity|]. inversion NB; subst. specialize (F (start_of y)). cbn [filter] in F. rewrite SELF in F by assumption. discriminate F.
  - inversion NA as [|? ? NX NA']; subst. destruct b as [|y b]; [specialize (F (start_of x)); cbn [filter] in F; rewrite SELF in F by exact NX; discriminate F|]. inversion NB as [|? ? NY NB']; subst.
    assert (L1 : fle (start_of y) (start_of x) = true).
    { assert (I : In x (y :: b)). { assert (X : In x (filter (fun n => feq (start_of n) (start_of x)) (x :: a))) by (cbn [filter]; rewrite SELF by exact NX; now left). rewrite F in X. now apply filter_In in X. }
      destruct I as [<-|I]; [apply fle_iff; repeat split; auto; lra|]. apply In_nth_error in I as (k & K). apply (SB O (S k) y x); [lia|reflexivity|exact K]. }
    assert (L2 : fle (start_of x) (start_of y) = true).
    { assert (I : In y (x :: a)). { assert (X : In y (filter (fun n => feq (start_of n) (start_of y)) (y :: b))) by (cbn [filter]; rewrite SELF by exact NY; now left). rewrite <- F in X. now apply filter_In in X. }
      destruct I as [<-|I]; [apply fle_iff; repeat split; auto; lra|]. apply In_nth_error in I as (k & K). apply (SA O (S k) x y); [lia|reflexivity|exact K]. }
    apply fle_iff in L1 as (_ & _ & L1). apply fle_iff in L2 as (_ & _ & L2).
    assert (E : feq (start_of y) (start_of x) = true) by (apply feq_iff; repeat split; auto; lra). assert (XY : x = y). { specialize (F (start_of x)). cbn [filter] in F. rewrite (SELF x NX), E in F. congruence. } subst y.
    f_equal. apply IH; [|exact NA'| |exact NB'|].
    + intros i j u v L Hu Hv. apply (SA (S i) (S j) u v); [lia|exact Hu|exact Hv].
    + intros i j u v L Hu Hv. apply (SB (S i) (S j) u v); [lia|exact Hu|exact Hv].
    + intros t. specialize (F t). cbn [filter] in F. destruct (feq (start_of x) t); [congruence|exact F].
Qed.
Lemma filter_map_fields (P : list str -> bool) l : filter P (map note_fields l) = map note_fields (filter (fun n => P (note_fields n)) l).
Proof. induction l as [|x l IH]; [reflexivity|]. cbn [map filter]. destruct (P (note_fields x)); cbn [map]; now rewrite IH. Qed.
Lemma starts_real ns : Forall note_ok ns -> Forall (fun fs => fisnan (start_of fs) = false) (map note_fields ns).
Proof. intros NT. apply Forall_map; eapply Forall_impl; [|exact NT]; intros n P; destruct (note_start n P) as (X & _); unfold fisnan; revert X; generalize (start_of (note_fields n)); intros [| | |]; (reflexivity || discriminate). Qed.
Lemma strongly {A} (R : A -> A -> Prop) l : (forall i j a b, (i < j)%nat -> nth_error l i = Some a -> nth_error l j = Some b -> R a b) -> StronglySorted R l.
Proof.
  induction l as [|x l IH]; intros H; constructor.
  - apply IH. intros i j a b L Ha Hb. apply (H (S i) (S j) a b); [lia|exact Ha|exact Hb].
  - apply Forall_forall. intros y I. apply In_nth_error in I as (k & K). apply (H O (S k) x y); [lia|reflexivity|exact K].
Qed.
Definition note_lt (a b : note) : bool := row_lt (note_fields a) (note_fields b).
Lemma note_keyed file : Forall note_ok file -> keyed note_lt (fun n => IZR (dec (nt_time n))) file.
Proof.
  intros F x y X Y. rewrite Forall_forall in F. destruct (note_start x (F x X)) as (A1 & A2). destruct (note_start y (F y Y)) as (B1 & B2). unfold note_lt, row_lt, flt. rewrite Bltb_correct by assumption. rewrite A2, B2.
  case Rlt_bool_spec; intros L; [tauto|]. split; [discriminate|lra].
Qed.
Lemma play_by_time file played : Forall note_ok file -> play_order (map note_fields file) played -> exists ns, played = map note_fields ns /\ by_time file ns.
Proof.
  intros F PO. pose proof (starts_real file F) as NN. pose proof (note_keyed file F) as K. exists (stable_sort note_lt file). split.
  - rewrite (play_unique _ NN _ _ PO (row_play_order _ NN)).
    assert (G : Forall2 (fun fs n => fs = note_fields n) (stable_sort row_lt (map note_fields file)) (stable_sort note_lt file)).
    { apply sort_F2; [clear; induction file; cbn [map]; constructor; auto|]. intros a a' b b' -> ->. reflexivity. }
    clear -G. induction G; [reflexivity|]. cbn [map]. congruence.
  - split; [apply sort_perm|]. split.
    + pose proof (sort_ordered _ _ _ K) as O. unfold ordered in O. clear -O. induction O as [|x l O IH FO]; constructor; [exact IH|]. eapply Forall_impl; [|exact FO]. intros y. apply le_IZR.
    + intros t. apply (sort_stable _ _ _ _ K). intros x y _ _ X Y. apply Z.eqb_eq in X, Y. now rewrite X, Y.
Qed.
(** ** Combos *)
Lemma start_iff ns i n : Forall note_ok ns -> nth_error ns i = Some n -> starts_combo (map note_fields ns) i = true <-> combo_start ns i.
Proof.
  intros F H. assert (RW : forall k m, nth_error ns k = Some m -> row (map note_fields ns) k = note_fields m) by (intros k m K; unfold row; apply nth_error_nth; now apply map_nth_error).
  assert (OKn : forall k m, nth_error ns k = Some m -> note_ok m) by (intros k m K; rewrite Forall_forall in F; apply F; eapply nth_error_In; exact K).
  destruct (note_flag n (OKn i n H)) as (N1 & N2 & _). unfold starts_combo. rewrite (RW i n H), N1, N2. rewrite andb_true_iff, negb_true_iff, orb_true_iff. unfold combo_start. split.
  - intros (SP0 & C). exists n. split; [exact H|]. split; [exact SP0|]. destruct C as [C|C]; [now left|right]. destruct i as [|j]; [discriminate C|]. destruct (nth_error ns j) as [m|] eqn:J.
    + exists j, m. split; [reflexivity|]. split; [exact J|]. rewrite (RW j m J) in C. destruct (note_flag m (OKn j m J)) as (_ & Q & _). congruence.
    + exfalso. apply nth_error_None in J. assert (X : nth_error ns (S j) <> None) by (rewrite H; discriminate). apply nth_error_Some in X. lia.
  - intros (n' & H' & SP0 & C). assert (n' = n) by congruence. subst n'. split; [exact SP0|]. destruct C as [C|(j & m & -> & J & C)]; [now left|right]. rewrite (RW j m J). destruct (note_flag m (OKn j m J)) as (_ & Q & _). congruence.
Qed.
Lemma combo_read ns i n : Forall note_ok ns -> nth_error ns i = Some n -> combo_at ns i (combo_number (map note_fields ns) i).
Proof.
  intros F. revert n. induction i as [|i IH]; intros n H; cbn [combo_number]; pose proof (start_iff ns _ n F H) as Q.
  - destruct (starts_combo (map note_fields ns) 0) eqn:E; [apply combo_marked; now apply Q|]. apply combo_first. intros C. apply Q in C. discriminate C.
  - destruct (starts_combo (map note_fields ns) (S i)) eqn:E; [apply combo_marked; now apply Q|]. apply combo_next; [intros C; apply Q in C; discriminate C|].
    destruct (nth_error ns i) as [m|] eqn:J; [now apply (IH m)|]. exfalso. apply nth_error_None in J. assert (X : nth_error ns (S i) <> None) by (rewrite H; discriminate). apply nth_error_Some in X. lia.
Qed.
(** ** The version is given once *)
Lemma one_version s : sheet_ok s -> exists r, sheet_lines s = (lit "osu file format v" ++ show (sh_version s)) :: r /\ Forall (fun l => has_prefix l (lit "osu file format v") = false) r.
Proof.
  intros (V & LN & (T & _) & (A & _) & (CR & _) & _ & (HP & _) & (CS & _) & (OD & _) & (AR & _) & SP & TK & _ & TP & NT & _). rewrite lines_eq. eexists. split; [cbn [app]; reflexivity|].
  assert (S1 : forall k l, wordy k = true -> SpecNumbers.well_formed l -> has_prefix (setting k (written l)) (lit "osu file format v") = false) by (intros k l K L; apply (wordy_line k _ K (written_bare l L))).
  assert (S2 : forall k v, wordy k = true -> bare v -> has_prefix (setting k v) (lit "osu file format v") = false) by (intros k v K L; apply (wordy_line k v K L)).
  constructor; [reflexivity|]. constructor; [reflexivity|]. apply Forall_app. split; [constructor; [apply S1; [reflexivity|assumption]|repeat constructor]|].
  constructor; [reflexivity|]. apply Forall_app. split; [repeat (constructor; [apply S2; [reflexivity|assumption]|]); repeat constructor|].
  constructor; [reflexivity|]. apply Forall_app. split; [repeat (constructor; [apply S1; [reflexivity|assumption]|]); repeat constructor|].
  constructor; [reflexivity|]. apply Forall_app. split; [apply Forall_app; split; [|repeat constructor]; apply Forall_map|].
  - eapply Forall_impl; [|exact TP]. intros p P. destruct (tempo_row p P) as (ds & g & fs & E & D & N & F). cbv beta. rewrite E. apply (row_line ds g fs D N F).
  - constructor; [reflexivity|]. apply Forall_map. eapply Forall_impl; [|exact NT]. intros p P. destruct (note_row p P) as (ds & g & fs & E & D & N & F). cbv beta. rewrite E. apply (row_line ds g fs D N F).
Qed.

Section WithLibm.
Context {M : libm}.
Lemma sheet_text fuel s : sheet_ok s -> parse_bytes fuel (file_of s) = parse_lines fuel (sheet_lines s).
Proof.
  intros OK. pose proof (sheet_tidy s OK) as T. unfold parse_bytes.
  assert (D : decode_text (file_of s) = file_of s).
  { apply C61_repaired.
    - intros (t & E). unfold file_of in E. rewrite lines_eq in E. cbn [map concat app lit list_ascii_of_string] in E. destruct E as [E|[E|E]]; discriminate E.
    - unfold file_of. clear OK. induction T as [|l ls (_ & _ & W) T IH]; [exists []; split; [constructor|reflexivity]|]. cbn [map concat]. apply well_app; [|exact IH]. apply well_app; [exact W|]. apply ascii_well. repeat constructor. }
  rewrite D. pose proof (C56_lines (map (fun l => (l, false)) (sheet_lines s))) as C. rewrite map_map in C.
  assert (E : map (fun x : str => fst (x, false)) (sheet_lines s) = sheet_lines s) by apply map_id. rewrite map_map in C. cbn [fst] in C. rewrite map_id in C.
  assert (E2 : concat (map (fun x : str => ended (x, false) ++ [newline]) (sheet_lines s)) = file_of s).
  { unfold file_of. f_equal. apply map_ext. intros l. unfold ended. cbn [fst snd]. now rewrite app_nil_r. }
  rewrite E2 in C. apply C. destruct OK as (_ & _ & _ & _ & _ & _ & _ & _ & _ & _ & _ & _ & _ & _ & _ & LEN). apply Forall_map. rewrite Forall_forall in *. intros l I. destruct (T l I) as (T1 & T2 & _). cbn [fst snd]. split; [exact T1|].
  split; [unfold ended; cbn [fst snd]; rewrite app_nil_r; now apply LEN|auto].
Qed.
Lemma tempo_point p : tempo_ok p -> tempo_read p (timing_point (tempo_fields p)).
Proof.
  intros (T & W). unfold tempo_read, timing_point, tempo_fields. cbn [cp_Time cp_base cp_beat cp_Signature cp_Inherited cp_Kiai nth given nth_error].
  assert (T63 : natural (tp_time p) (2 ^ 63)) by (destruct T as (T1 & T2 & T3); split; [exact T1|split; [exact T2|lia]]). rewrite (show_int _ T63). destruct T as (T1 & T2 & T3). pose proof (dec_pos _ T1).
  split; [apply f_of_Z_exact; lia|]. split; [now apply C72_f64|]. split; [reflexivity|]. split; [destruct (tp_speed p); vm_compute; reflexivity|]. split; vm_compute; reflexivity.
Qed.
Lemma read_back fuel s r : sheet_ok s -> parse_lines fuel (sheet_lines s) = Ok r -> exists b, r = Some b /\ reproduces s b.
Proof.
  intros OK R. pose proof (general_of s OK) as Hg. pose proof (metadata_of s OK) as Hm. pose proof (difficulty_of s OK) as Hd. pose proof (timing_of s OK) as Ht. pose proof (objects_of s OK) as Hh.
  destruct (one_version s OK) as (rest & EV & NV). 
  pose proof OK as (V & LN & T & A & CR & NB & HP & CS & OD & AR & SP & TK & TN & TP & NT & _).
  destruct r as [b|].
  2:{ exfalso. destruct (proj1 (C16_error_iff fuel _ None _ _ R Ht Hm) eq_refl) as [(E1 & E2 & E3)|E].
      - apply NB. assert (X1 : sh_title s = []) by exact E1. assert (X2 : sh_artist s = []) by exact E2. assert (X3 : sh_creator s = []) by exact E3. now rewrite X1, X2, X3.
      - destruct (sh_tempos s); [now apply TN|discriminate E]. }
  exists b. split; [reflexivity|]. split.
  { rewrite <- (show_int _ V). destruct (C54_file_version fuel _ b R) as (_ & X). apply (X [] (lit "osu file format v" ++ show (sh_version s)) _ rest); [exact EV|exists (show (sh_version s)); split; reflexivity|].
    intros l v I (t & E & _). rewrite Forall_forall in NV. specialize (NV l I). assert (Y : has_prefix l (lit "osu file format v") = true) by (apply has_prefix_iff; now exists t). congruence. }
  destruct (C24_metadata fuel _ b _ R Hm) as (M1 & _ & M2 & _ & M3 & _). split; [exact M1|]. split; [exact M2|]. split; [exact M3|]. split.
  { destruct (C54_general fuel _ b _ R Hg) as (_ & _ & G & _). cbv zeta in G. assert (E : gn_StackLeniency (bm_general b) = if nan_text (written (sh_leniency s)) then f0 else parse_f64 (written (sh_leniency s))) by (rewrite G; reflexivity).
    rewrite E, (nearest_not_nan _ LN). now apply C72_f64. }
  destruct (C21_difficulty fuel _ b _ R Hd) as ((_ & D1) & (_ & D2) & (_ & D3) & _ & D4 & _). split.
  { split; [apply level_read; [exact HP|]; apply (D1 [] _); reflexivity|]. split; [apply level_read; [exact CS|]; apply (D2 [] _); reflexivity|]. split; [apply level_read; [exact OD|]; apply (D3 [] _); reflexivity|apply level_read; [exact AR|]; apply (D4 [] _); reflexivity]. }
  destruct (C55_timing fuel _ b _ _ R Ht Hd) as (_ & _ & T1 & T2 & T3). cbv zeta in T1, T2, T3. split; [rewrite T3, T1; exact (C72_f64 _ SP)|]. split; [rewrite T2; exact (C72_f64 _ TK)|]. split.
  { exists (map timing_point (map tempo_fields (sh_tempos s))). split.
    - rewrite map_map. clear -TP. induction TP as [|p l P F IH]; [constructor|]. cbn [map]. constructor; [now apply tempo_point|exact IH].
    - intros t N. exact (C55_lookup fuel _ b _ t R Ht N). }
  assert (ALL : filter is_object (map note_fields (sh_notes s)) = map note_fields (sh_notes s)).
  { clear -NT. induction NT as [|n l P F IH]; [reflexivity|]. cbn [map filter]. destruct (note_flag n P) as (_ & _ & ->). now rewrite IH. }
  split.
  { pose proof (starts_real _ NT) as NN. destruct (C18_combos fuel _ b _ R Hh) as (played & _ & _ & PO & CB). destruct (C73_rows fuel _ b _ R Hh) as (pl & _ & DS & PO2). destruct (C17_sorted_numbered fuel _ b _ R Hh) as (_ & _ & _ & ID); rewrite ALL in *.
    { exact NN. }
    assert (pl = played) by exact (play_unique _ NN _ _ (PO2 NN) (PO NN)). subst pl.
    destruct (play_by_time _ _ NT (PO NN)) as (ns & -> & BT). exists ns. split; [exact BT|]. assert (OKs : Forall note_ok ns) by (eapply Permutation_Forall; [apply BT|exact NT]).
    split.
    - clear -DS OKs. revert DS. generalize (bm_HitObjects b). induction OKs as [|n ns P F IH]; intros objs DS; inversion DS as [|? ? ? ? D1 D2]; subst; constructor; [destruct D1 as (D1 & D3); now apply (note_described fuel (bm_Timings b))|now apply IH].
    - intros i o H. split; [now apply ID|]. destruct (CB i o H) as (-> & _). destruct (nth_error ns i) as [n|] eqn:J; [now apply (combo_read ns i n)|]. exfalso. apply nth_error_None in J.
      assert (DL : length (map note_fields ns) = length (bm_HitObjects b)) by (clear -DS; induction DS; cbn [length]; congruence). rewrite map_length in DL. assert (X : nth_error (bm_HitObjects b) i <> None) by (rewrite H; discriminate). apply nth_error_Some in X. lia. }
  destruct (C19_counters fuel _ b _ R Hh) as (C1 & C2 & C3 & _). rewrite C1, C2, C3. unfold how_many, zlen. clear -NT.
  assert (Z0 : forall P Q, (forall n, note_ok n -> P (note_fields n) = Q n) -> length (filter P (map note_fields (sh_notes s))) = length (filter Q (sh_notes s))).
  { intros P Q H. induction NT as [|n l X F IH]; [reflexivity|]. cbn [map filter]. rewrite (H n X). destruct (Q n); cbn [length]; congruence. }
  split; [|split].
  - f_equal. apply Z0. intros n P. rewrite (note_type n P). unfold is_spin, is_slide. now destruct (nt_shape n).
  - f_equal. apply Z0. intros n P. rewrite (note_type n P). unfold is_spin. now destruct (nt_shape n).
  - assert (TH : forall P, (forall n, note_ok n -> P (note_fields n) = false) -> length (filter P (map note_fields (sh_notes s))) = 0%nat).
    { clear Z0. intros P H. induction NT as [|n l X F IH]; [reflexivity|]. cbn [map filter]. rewrite (H n X). exact IH. }
    rewrite (TH (fun fs => match type_of fs with THold => true | _ => false end)) by (intros n P; rewrite (note_type n P); now destruct (nt_shape n)). change (Z.of_nat 0) with 0. rewrite Z.add_0_r. f_equal. apply Z0. intros n P. rewrite (note_type n P). unfold is_slide. now destruct (nt_shape n).
Qed.
End WithLibm.

(** C112: exactly which texts are read as numbers, and as which. *)
From Coq Require Import Reals Lra.
From Flocq Require Import Core BinarySingleNaN.
From Verif Require Import GoString BaseLemmas FloatLemmas SpecNumbers NumberProofs PropNumbers SpecLiterals LiteralProofs.
Open Scope Z_scope.

Lemma sep_hex s : sep true SawDigit s <-> separated true s.
Proof. split; intros H a b E; destruct (H a b E) as (A & B); (split; [|exact B]); (destruct A as [(A1 & A2)|A]; [left; now split|now right]). Qed.
Lemma sep_dec s : sep false SawStart s <-> separated false s.
Proof. split; intros H a b E; destruct (H a b E) as (A & B); (split; [|exact B]); (destruct A as [(A1 & A2)|A]; [discriminate|now right]). Qed.
(** the characters of a decimal number *)
Definition decimal_char (c : ascii) : bool := is_digit c || existsb (Ascii.eqb c) (lit ".+-eE_").
Lemma form_chars body i f x : plain body = form false i f x -> fine false i f x -> Forall (fun c => decimal_char c = true) body.
Proof.
  intros E (A & _ & X). assert (DG : forall s, Forall (figure false) s -> Forall (fun c => decimal_char c = true) s) by (intros s; apply Forall_impl; intros c C; apply figure_dec in C; cbn [andb] in C; rewrite orb_false_r in C; unfold decimal_char; now rewrite C).
  assert (P : Forall (fun c => decimal_char c = true) (plain body)).
  { rewrite E. apply Forall_app in A as (A1 & A2). unfold form. apply Forall_app. split; [auto|]. apply Forall_app. split; [destruct f as [f|]; [constructor; [reflexivity|auto]|constructor]|]. destruct x as [((up, s), ds)|]; [|constructor]. apply Forall_app. split; [destruct up; repeat constructor|]. apply Forall_app. split; [destruct s; repeat constructor|now apply DG]. }
  apply Forall_forall. intros c C. destruct (Ascii.eqb c "_") eqn:Q; [apply Ascii.eqb_eq in Q; subst c; reflexivity|]. rewrite Forall_forall in P. apply P. unfold plain. apply filter_In. split; [exact C|now rewrite Q].
Qed.
Lemma decimal_not c : decimal_char c = true -> Ascii.eqb (lower c) "x" = false /\ Ascii.eqb (lower c) "b" = false /\ Ascii.eqb (lower c) "o" = false /\ Ascii.eqb (lower c) "i" = false /\ Ascii.eqb (lower c) "n" = false.
Proof. intros H. destruct c as [[] [] [] [] [] [] [] []]; vm_compute in H; try discriminate H; repeat split; reflexivity. Qed.
Lemma ok_dec s0 neg s : strip_sign s0 = (neg, s) -> Forall (fun c => decimal_char c = true) s -> underscore_ok s0 = true <-> separated false s.
Proof.
  intros E D. rewrite <- sep_dec. assert (U : underscore_ok s0 = underscore_loop false SawStart s).
  { unfold underscore_ok. rewrite E. cbn [snd]. destruct s as [|c [|p r]]; [reflexivity|destruct c as [[] [] [] [] [] [] [] []]; reflexivity|]. inversion D as [|? ? _ D2]; subst. pose proof (Forall_inv D2) as P. apply decimal_not in P as (P1 & P2 & P3 & _). rewrite P1, P2, P3. cbn [orb]. destruct c as [[] [] [] [] [] [] [] []]; reflexivity. }
  rewrite U, loop_iff. split; [tauto|]. intros H. split; [exact H|discriminate].
Qed.
Lemma ok_hex s0 neg x body : strip_sign s0 = (neg, "0"%char :: x :: body) -> Ascii.eqb (lower x) "x" = true -> underscore_ok s0 = true <-> separated true body.
Proof. intros E X. rewrite <- sep_hex. unfold underscore_ok. rewrite E. cbn [snd]. rewrite X, loop_iff. split; [tauto|]. intros H. split; [exact H|discriminate]. Qed.
Lemma no_under_sep hex s : under s = false -> separated hex s.
Proof. intros U a b ->. rewrite under_app in U. apply orb_false_iff in U as (_ & U). discriminate U. Qed.
Lemma cut_cases s : (exists x r, s = "0"%char :: x :: r /\ Ascii.eqb (lower x) "x" = true /\ r <> [] /\ cut s = (true, r)) \/ cut s = (false, s).
Proof.
  unfold cut. destruct s as [|c [|x [|y r]]]; [now right|now right|now right|]. destruct (Ascii.eqb_spec c "0") as [->|N]; [|now right]. destruct (Ascii.eqb (lower x) "x") eqn:X; [|now right]. left. exists x, (y :: r). split; [reflexivity|]. split; [exact X|]. split; [discriminate|reflexivity].
Qed.
Lemma body_form n : body_of n = form (is_hex n) (nm_int n) (nm_frac n) (nm_exp n).
Proof. unfold body_of, form, dotted. now destruct (nm_frac n). Qed.
Lemma proper_fine n : proper n <-> fine (is_hex n) (nm_int n) (nm_frac n) (nm_exp n). Proof. reflexivity. Qed.
Lemma x_letter x : Ascii.eqb (lower x) "x" = true -> exists up : bool, ["0"%char; x] = if up then lit "0X" else lit "0x".
Proof. intros H. destruct x as [[] [] [] [] [] [] [] []]; vm_compute in H; try discriminate H; first [exists true; reflexivity|exists false; reflexivity]. Qed.

(** What is read as a number is one. *)
Lemma read_spells t k : read_float t = Some k -> exists n, proper n /\ spells t n.
Proof.
  pose proof (read_float_cut t) as R. destruct (strip_cases t) as (s & ET & _). destruct (strip_sign t) as (neg, b) eqn:ES. cbn [snd] in ET. destruct (cut_cases b) as [(x & r & Eb & X & NE & EC)|EC]; rewrite EC in R; rewrite R; clear R.
  - destruct (read_body true r) as [((m, e), un)|] eqn:RB; [|discriminate]. apply body_some in RB as (U & i & f & ex & PF & FI). destruct (un && negb (underscore_ok t)) eqn:UU; [discriminate|]. intros _. destruct (x_letter x X) as (up & EX). exists (mkNumeral s (Some up) i f ex). split; [exact FI|]. exists r. split; [cbn [prefix_of nm_sign nm_hex]; rewrite ET, Eb; destruct up; cbn in EX; injection EX as ->; reflexivity|]. split; [rewrite body_form; exact PF|]. cbn [is_hex nm_hex].
    destruct un; [|now apply no_under_sep]. cbn [andb] in UU. apply negb_false_iff in UU. rewrite Eb in ES. exact (proj1 (ok_hex t neg x r ES X) UU).
  - destruct (read_body false b) as [((m, e), un)|] eqn:RB; [|discriminate]. apply body_some in RB as (U & i & f & ex & PF & FI). destruct (un && negb (underscore_ok t)) eqn:UU; [discriminate|]. intros _. exists (mkNumeral s None i f ex). split; [exact FI|]. exists b. split; [exact ET|]. split; [rewrite body_form; exact PF|]. cbn [is_hex nm_hex].
    destruct un; [|now apply no_under_sep]. cbn [andb] in UU. apply negb_false_iff in UU. apply (ok_dec t neg b ES); [eapply form_chars; eauto|exact UU].
Qed.
(** What is a number is read as one. *)
Definition understood (n : numeral) (e : Z) : number :=
  if is_hex n then NumHex (is_minus (nm_sign n)) (denotes 16 (nm_int n ++ fraction n)) e else NumDec (is_minus (nm_sign n)) (denotes 10 (nm_int n ++ fraction n)) e.
Lemma head_dec b i f x : plain b = form false i f x -> fine false i f x -> separated false b -> exists c r, b = c :: r /\ (is_digit c = true \/ c = "."%char).
Proof.
  intros P (F & NE & _) S. destruct b as [|c r]; [exfalso; cbn in P; unfold form in P; destruct i; [|discriminate P]; destruct f as [f|]; [discriminate P|now apply NE]|]. exists c, r. split; [reflexivity|].
  destruct (Ascii.eqb_spec c "_") as [->|NU]; [exfalso; destruct (S [] r eq_refl) as ([(Q & _)|(a & d & Q & _)] & _); [discriminate Q|destruct a; discriminate Q]|]. rewrite plain_cons in P by (now apply Ascii.eqb_neq). unfold form in P. destruct i as [|d i].
  - destruct f as [f|]; [|now elim NE]. right. cbn in P. now injection P as -> _.
  - left. cbn [app] in P. injection P as -> _. inversion F as [|? ? Q _]; subst. apply figure_dec in Q. cbn [andb] in Q. now rewrite orb_false_r in Q.
Qed.
Lemma head_facts c : is_digit c = true \/ c = "."%char -> Ascii.eqb c "+" = false /\ Ascii.eqb c "-" = false /\ Ascii.eqb (lower c) "i" = false /\ Ascii.eqb (lower c) "n" = false.
Proof. intros [H| ->]; [|repeat split; reflexivity]. destruct c as [[] [] [] [] [] [] [] []]; vm_compute in H; try discriminate H; repeat split; reflexivity. Qed.
Lemma spells_head t n : proper n -> spells t n -> exists c r, t = sign_str (nm_sign n) ++ c :: r /\ (is_digit c = true \/ c = "."%char).
Proof.
  intros P (body & -> & PF & S). rewrite body_form in PF. pose proof (proj1 (proper_fine n) P) as FI. unfold prefix_of. destruct (nm_hex n) as [[]|] eqn:H.
  - eexists _, _. split; [reflexivity|now left].
  - eexists _, _. split; [reflexivity|now left].
  - assert (Q : is_hex n = false) by (unfold is_hex; now rewrite H). rewrite Q in *. destruct (head_dec body _ _ _ PF FI S) as (c & r & -> & HC). exists c, r. split; [reflexivity|exact HC].
Qed.
Lemma spells_special t n : proper n -> spells t n -> parse_special t = None.
Proof.
  intros P S. destruct (spells_head t n P S) as (c & r & -> & HC). destruct (head_facts c HC) as (A & B & C & D). assert (I1 : str_eqb (lowers (c :: r)) (lit "inf") = false) by (apply lowers_first; exact C). assert (I2 : str_eqb (lowers (c :: r)) (lit "infinity") = false) by (apply lowers_first; exact C). assert (I3 : str_eqb (lowers (c :: r)) (lit "nan") = false) by (apply lowers_first; exact D).
  destruct (nm_sign n); cbn [sign_str lit list_ascii_of_string app]; unfold parse_special; cbv zeta.
  - rewrite I1, I2, I3. cbn [orb]. clear -A B. destruct c as [[] [] [] [] [] [] [] []]; try reflexivity; vm_compute in A, B; discriminate.
  - now rewrite I1, I2.
  - now rewrite I1, I2.
Qed.
Lemma spells_read t n : proper n -> spells t n -> exists e, read_float t = Some (understood n e) /\ (usual n -> e = power n - (if is_hex n then 4 else 1) * zlen (fraction n)).
Proof.
  intros P S. pose proof (spells_head t n P S) as (c & r & ET & HC). destruct (head_facts c HC) as (A & B & _ & _). pose proof (strip_written (nm_sign n) (c :: r)) as SW. rewrite <- ET in SW. specialize (SW ltac:(intros c' r' Q; injection Q as <- _; auto)).
  destruct S as (body & ET' & PF & S). assert (EB : c :: r = prefix_of n ++ body) by (rewrite ET' in ET; now apply app_inv_head in ET). rewrite EB in SW. rewrite body_form in PF. pose proof (proj1 (proper_fine n) P) as FI. destruct (body_all _ body _ _ _ PF FI S) as (e & RB & PW).
  pose proof (read_float_cut t) as R. rewrite SW in R. exists e. split; [|intros U; rewrite (PW U); unfold scale; reflexivity]. unfold understood, prefix_of, is_hex in *. destruct (nm_hex n) as [up|] eqn:H.
  - assert (NB : exists y b', body = y :: b') by (destruct body as [|y b']; [exfalso; cbn in PF; destruct FI as (_ & NE & _); unfold form in PF; destruct (nm_int n); [|discriminate PF]; destruct (nm_frac n); [discriminate PF|now apply NE]|eauto]). destruct NB as (y & b' & EBO).
    assert (X : exists x, (if up then lit "0X" else lit "0x") = ["0"%char; x] /\ Ascii.eqb (lower x) "x" = true) by (destruct up; eexists; split; reflexivity). destruct X as (x & EX & X). rewrite EX in *. cbn [app] in *. assert (CU : cut ("0"%char :: x :: body) = (true, body)) by (rewrite EBO; cbn [cut]; rewrite X; reflexivity). rewrite CU, RB in R.
    rewrite R. pose proof (ok_hex t _ x body SW X) as OK. destruct (under body && negb (underscore_ok t)) eqn:U; [|reflexivity]. exfalso. apply andb_true_iff in U as (_ & U). apply negb_true_iff in U. apply OK in S. congruence.
  - cbn [app] in *. destruct (cut_cases body) as [(x & r0 & Eb & X & _)|EC].
    { exfalso. pose proof (form_chars body _ _ _ PF FI) as DC. rewrite Eb in DC. apply Forall_inv_tail, Forall_inv in DC. apply decimal_not in DC as (DC & _). congruence. }
    rewrite EC, RB in R. rewrite R. pose proof (ok_dec t _ body SW (form_chars body _ _ _ PF FI)) as OK. destruct (under body && negb (underscore_ok t)) eqn:U; [|reflexivity]. exfalso. apply andb_true_iff in U as (_ & U). apply negb_true_iff in U. apply OK in S. congruence.
Qed.
Lemma denotes_pos hex s : Forall (figure hex) s -> 0 <= denotes (if hex then 16 else 10) s.
Proof.
  intros F. unfold denotes. assert (G : forall v, 0 <= v -> 0 <= fold_left (fun v c => v * (if hex then 16 else 10) + figure_value c) s v); [|apply G; lia]. induction F as [|c s C _ IH]; intros v V; [exact V|]. cbn [fold_left]. apply IH. assert (0 <= figure_value c) by (unfold figure_value; unfold figure in C; destruct (Z.leb_spec (byte_of c) 57), (Z.leb_spec (byte_of c) 70); lia). destruct hex; lia.
Qed.
Lemma hex_reads prec emax (Hp : Prec_gt_0 prec) (He : Prec_lt_emax prec emax) neg m e : 0 <= m ->
  reads prec emax neg (IZR (if neg then - m else m) * powerRZ 2 e) (round_number prec emax Hp He (NumHex neg m e)).
Proof.
  intros M. cbn [round_number]. assert (E2 : powerRZ 2 e = bpow radix2 e). { rewrite bpow_powerRZ. reflexivity. } rewrite E2. assert (EF : (IZR (if neg then - m else m) * bpow radix2 e)%R = F2R (Float radix2 (cond_Zopp neg m) e)) by (unfold F2R; cbn [Fnum Fexp]; destruct neg; reflexivity). rewrite EF.
  destruct (Z.eq_dec m 0) as [->|NZ].
  - assert (Z0 : F2R (Float radix2 (cond_Zopp neg 0) e) = 0%R) by (destruct neg; apply F2R_0). rewrite Z0. left. rewrite round_0 by apply valid_rnd_N. rewrite Rabs_R0. split; [apply bpow_gt_0|]. destruct neg; cbn [cond_Zopp Z.opp]; split; [|split| |split]; reflexivity.
  - apply normalize_reads. destruct neg; cbn [cond_Zopp]; split; intros X; try reflexivity; try discriminate X; lia.
Qed.
Lemma reads_worth prec emax (Hp : Prec_gt_0 prec) (He : Prec_lt_emax prec emax) t n : proper n -> usual n -> spells t n -> nearest_float prec emax (is_minus (nm_sign n)) (worth n) (parse_float_gen prec emax Hp He t).
Proof.
  intros P U S. unfold parse_float_gen. rewrite (spells_special t n P S). destruct (spells_read t n P S) as (e & -> & E). rewrite (E U). pose proof (denotes_pos _ _ (proj1 P)) as DP. unfold understood, worth, signed. destruct (is_hex n).
  - exact (hex_reads prec emax Hp He (is_minus (nm_sign n)) (denotes 16 (nm_int n ++ fraction n)) (power n - 4 * zlen (fraction n)) DP).
  - rewrite Z.mul_1_l. exact (round_reads prec emax Hp He (is_minus (nm_sign n)) (denotes 10 (nm_int n ++ fraction n)) (power n - zlen (fraction n)) DP).
Qed.

(** A text that spells a number is read as the nearest double or single ... *)
Theorem C112_f64 : forall t n, proper n -> usual n -> spells t n -> nearest_float 53 1024 (is_minus (nm_sign n)) (worth n) (parse_f64 t).
Proof. intros t n. exact (reads_worth 53 1024 p53 pe53 t n). Qed.
Theorem C112_f32 : forall t n, proper n -> usual n -> spells t n -> nearest_float 24 128 (is_minus (nm_sign n)) (worth n) (parse_f32 t).
Proof. intros t n. exact (reads_worth 24 128 p24 pe24 t n). Qed.
(** ... and any other text is read as zero, unless it is one of the words for infinities and NaN. *)
Lemma special_words t k : parse_special t = Some k -> exists s w, t = sign_str s ++ w /\ (same_letters w "inf" \/ same_letters w "infinity" \/ (s = Unsigned /\ same_letters w "nan")).
Proof.
  assert (IW : forall w, str_eqb (lowers w) (lit "inf") || str_eqb (lowers w) (lit "infinity") = true -> same_letters w "inf" \/ same_letters w "infinity") by (intros w H; apply orb_true_iff in H as [H|H]; apply str_eqb_eq in H; auto).
  intros H. destruct (strip_cases t) as (s & ET & _). destruct t as [|c r]; [discriminate H|]. destruct (Ascii.eqb_spec c "+") as [->|N1].
  { unfold parse_special in H. cbv zeta in H. destruct (str_eqb (lowers r) (lit "inf") || str_eqb (lowers r) (lit "infinity")) eqn:Q; [|discriminate H]. exists Plus, r. split; [reflexivity|]. apply IW in Q. tauto. }
  destruct (Ascii.eqb_spec c "-") as [->|N2].
  { unfold parse_special in H. cbv zeta in H. destruct (str_eqb (lowers r) (lit "inf") || str_eqb (lowers r) (lit "infinity")) eqn:Q; [|discriminate H]. exists Minus, r. split; [reflexivity|]. apply IW in Q. tauto. }
  assert (H' : (if str_eqb (lowers (c :: r)) (lit "inf") || str_eqb (lowers (c :: r)) (lit "infinity") then Some (SpInf false) else if str_eqb (lowers (c :: r)) (lit "nan") then Some SpNaN else None) = Some k).
  { unfold parse_special in H. cbv zeta in H. clear -H N1 N2. destruct c as [[] [] [] [] [] [] [] []]; try exact H; congruence. }
  exists Unsigned, (c :: r). split; [reflexivity|]. destruct (str_eqb (lowers (c :: r)) (lit "inf") || str_eqb (lowers (c :: r)) (lit "infinity")) eqn:Q; [apply IW in Q; tauto|]. destruct (str_eqb (lowers (c :: r)) (lit "nan")) eqn:Q'; [|discriminate H']. apply str_eqb_eq in Q'. right. right. split; [reflexivity|exact Q'].
Qed.
Theorem C112_else : forall t, (forall n, proper n -> ~ spells t n) ->
  (forall s w, t = sign_str s ++ w -> ~ same_letters w "inf" /\ ~ same_letters w "infinity" /\ (s = Unsigned -> ~ same_letters w "nan")) ->
  parse_f64 t = B754_zero false /\ parse_f32 t = B754_zero false.
Proof.
  intros t NS NW. assert (S : parse_special t = None). { destruct (parse_special t) as [k|] eqn:E; [|reflexivity]. exfalso. apply special_words in E as (s & w & Q & W). destruct (NW s w Q) as (A & B & C). destruct W as [W|[W|(U & W)]]; [now apply A|now apply B|now apply C]. }
  assert (R : read_float t = None). { destruct (read_float t) as [k|] eqn:E; [|reflexivity]. exfalso. apply read_spells in E as (n & P & Q). now apply (NS n). }
  unfold parse_f64, parse_f32, parse_float_gen. rewrite S, R. split; reflexivity.
Qed.
(** A text spells at most one value. *)
Lemma hex_inj a b c a' b' c' : Some (NumHex a b c) = Some (NumHex a' b' c') -> a = a' /\ b = b' /\ c = c'. Proof. intros H. inversion H. auto. Qed.
Lemma dec_inj a b c a' b' c' : Some (NumDec a b c) = Some (NumDec a' b' c') -> a = a' /\ b = b' /\ c = c'. Proof. intros H. inversion H. auto. Qed.
Theorem C112_unique : forall t n n', proper n -> proper n' -> usual n -> usual n' -> spells t n -> spells t n' ->
  is_minus (nm_sign n) = is_minus (nm_sign n') /\ worth n = worth n'.
Proof.
  intros t n n' P P' U U' S S'. destruct (spells_read t n P S) as (e & R & E). destruct (spells_read t n' P' S') as (e' & R' & E'). rewrite R in R'. rewrite (E U), (E' U') in R'. clear R E E'. unfold understood, worth, signed in *. destruct (is_hex n), (is_hex n'); try discriminate R'.
  - apply hex_inj in R' as (-> & -> & ->). split; reflexivity.
  - rewrite !Z.mul_1_l in R'. apply dec_inj in R' as (-> & -> & ->). split; reflexivity.
Qed.

(** ** Concrete cases *)
Definition n_hex : numeral := mkNumeral Minus (Some false) (lit "1F") (Some (lit "8")) (Some (false, Minus, lit "12")).
Definition n_dec : numeral := mkNumeral Unsigned None (lit "1500") (Some (lit "25")) (Some (true, Plus, lit "10")).
Lemma sep_check hex saw s : underscore_loop hex saw s = true -> sep hex saw s. Proof. intros H. apply loop_iff in H. apply H. Qed.
Lemma figs hex s : forallb (fun c => is_digit c || (hex && is_hex_letter c)) s = true -> Forall (figure hex) s.
Proof. intros H. apply Forall_forall. intros c C. rewrite forallb_forall in H. apply figure_dec. now apply H. Qed.
(** "-0x_1F.8p-1_2" is -504 * 2^-16, "1_500.2_5E+1_0" is 150025 * 10^8. *)
Example C112_instance : proper n_hex /\ usual n_hex /\ spells (lit "-0x_1F.8p-1_2") n_hex /\ worth n_hex = (-504 * powerRZ 2 (-16))%R /\
  proper n_dec /\ usual n_dec /\ spells (lit "1_500.2_5E+1_0") n_dec /\ worth n_dec = (150025 * powerRZ 10 8)%R.
Proof.
  split; [split; [apply figs; reflexivity|split; [discriminate|split; [apply figs; reflexivity|discriminate]]]|]. split; [reflexivity|]. split; [exists (lit "_1F.8p-1_2"); split; [reflexivity|split; [reflexivity|apply sep_hex, sep_check; reflexivity]]|]. split; [reflexivity|].
  split; [split; [apply figs; reflexivity|split; [discriminate|split; [apply figs; reflexivity|discriminate]]]|]. split; [reflexivity|]. split; [exists (lit "1_500.2_5E+1_0"); split; [reflexivity|split; [reflexivity|apply sep_dec, sep_check; reflexivity]]|reflexivity].
Qed.
(** Texts that almost are numbers are read as zero. *)
Example C112_nearly : map read_float (map lit ["1__0"; "_1"; "1_"; "1_.5"; "1e_5"; "0x1"; "0x.p1"; "1.2.3"; "1,5"; "1e"; "--1"; "0_x1p1"; ""]%string) = repeat None 13 /\
  (forall n, proper n -> ~ spells (lit "1__0") n) /\ forall s w, lit "1__0" = sign_str s ++ w -> ~ same_letters w "inf" /\ ~ same_letters w "infinity" /\ (s = Unsigned -> ~ same_letters w "nan").
Proof.
  split; [vm_compute; reflexivity|]. split.
  - intros n P S. destruct (spells_read _ n P S) as (e & R & _). vm_compute in R. discriminate R.
  - intros s w E. destruct s; cbn in E; [|discriminate E|discriminate E]. subst w. unfold same_letters. vm_compute. split; [|split]; intros; discriminate.
Qed.

Print Assumptions C112_f64.
Print Assumptions C112_f32.
Print Assumptions C112_else.
Print Assumptions C112_unique.

(** C72: how numbers in a file are read. *)
From Coq Require Import Reals Lra.
From Flocq Require Import Core BinarySingleNaN.
From Verif Require Import GoString BaseLemmas FloatLemmas SpecNumbers NumberProofs.
Open Scope Z_scope.

(** ** Digits *)
Lemma digit_facts d : 0 <= d <= 9 -> let c := chr (Z.to_N (48 + d)) in
  is_digit c = true /\ digit_val c = d /\ Ascii.eqb c "_" = false /\ Ascii.eqb c "." = false /\ Ascii.eqb c "+" = false /\ Ascii.eqb c "-" = false /\ lower c = c /\ Ascii.eqb c "x" = false /\ Ascii.eqb c "i" = false /\ Ascii.eqb c "n" = false /\ Ascii.eqb c "e" = false.
Proof.
  intros D. assert (C : d = 0 \/ d = 1 \/ d = 2 \/ d = 3 \/ d = 4 \/ d = 5 \/ d = 6 \/ d = 7 \/ d = 8 \/ d = 9) by lia. decompose [or] C; subst d; vm_compute; auto 20.
Qed.
Lemma digit_char c : is_digit c = true -> c = chr (Z.to_N (48 + digit_val c)) /\ 0 <= digit_val c <= 9.
Proof.
  unfold is_digit, digit_val. intros H. apply andb_true_iff in H as (A & B). apply Z.leb_le in A, B. split; [|lia]. replace (48 + (byte_of c - 48)) with (byte_of c) by lia. unfold byte_of, chr. now rewrite N2Z.id, ascii_N_embedding.
Qed.
Lemma show_app a b : show (a ++ b) = show a ++ show b. Proof. apply map_app. Qed.
Lemma dec_app a b : dec (a ++ b) = dec a * 10 ^ zlen b + dec b.
Proof.
  induction a as [|d a IH]; [reflexivity|]. cbn [dec app]. rewrite IH. unfold zlen. rewrite app_length, Nat2Z.inj_add, Z.pow_add_r by lia. ring.
Qed.
Lemma dec_pos ds : digits ds -> 0 <= dec ds.
Proof. induction 1 as [|d ds D _ IH]; cbn [dec]; [lia|]. assert (0 <= d * 10 ^ zlen ds) by (apply Z.mul_nonneg_nonneg; [lia|apply Z.pow_nonneg; lia]). lia. Qed.
Lemma dec_cons d r : dec (d :: r) = d * 10 ^ zlen r + dec r. Proof. reflexivity. Qed.
Lemma zlen_cons {A} (x : A) l : zlen (x :: l) = zlen l + 1. Proof. unfold zlen. cbn [length]. lia. Qed.

(** ** Integers *)
Lemma parse_show ds : digits ds -> forall n, 0 <= n -> parse_digits n (show ds) = if max_uint64 <? n * 10 ^ zlen ds + dec ds then (if max_uint64 <? n then match ds with [] => UVal n | _ => URange end else URange) else UVal (n * 10 ^ zlen ds + dec ds).
Proof.
  induction 1 as [|d ds D DS IH]; intros n N.
  - cbn [parse_digits show map dec]. change (10 ^ zlen []) with 1. rewrite Z.mul_1_r, Z.add_0_r. destruct (max_uint64 <? n); reflexivity.
  - destruct (digit_facts d D) as (F1 & F2 & _). cbn [show map parse_digits]. rewrite F1, F2. fold (show ds). pose proof (dec_pos ds DS) as P. rewrite dec_cons, zlen_cons, Z.pow_add_r by (unfold zlen; lia). change (10 ^ 1) with 10.
    assert (P10 : 0 < 10 ^ zlen ds) by (apply Z.pow_pos_nonneg; unfold zlen; lia). replace (n * (10 ^ zlen ds * 10) + (d * 10 ^ zlen ds + dec ds)) with ((n * 10 + d) * 10 ^ zlen ds + dec ds) by ring. set (m := n * 10 + d) in *.
    assert (MM : m <= m * 10 ^ zlen ds) by nia. destruct (Z.ltb_spec max_uint64 m) as [L|L].
    + destruct (Z.ltb_spec max_uint64 (m * 10 ^ zlen ds + dec ds)) as [L'|L']; [|lia]. destruct (Z.ltb_spec max_uint64 n); reflexivity.
    + rewrite IH by lia. destruct (Z.ltb_spec max_uint64 m) as [X|_]; [lia|]. destruct (Z.ltb_spec max_uint64 n); reflexivity.
Qed.
(** the number as it is, or the nearest 64 bit integer *)
Theorem C72_int : forall s ds, digits ds -> ds <> [] -> parse_int (sign_str s ++ show ds) = Z.max (- 2 ^ 63) (Z.min (2 ^ 63 - 1) (signed s (dec ds))).
Proof.
  intros s ds D NE. pose proof (dec_pos ds D) as P.
  assert (U : parse_uint (show ds) = if max_uint64 <? dec ds then URange else UVal (dec ds)). { unfold parse_uint. destruct (show ds) as [|c r] eqn:E; [destruct ds; [congruence|discriminate E]|]. rewrite <- E, parse_show by (assumption || lia). rewrite Z.mul_0_l, Z.add_0_l. reflexivity. }
  assert (PL : parse_int (show ds) = parse_int (sign_str Plus ++ show ds)).
  { destruct ds as [|d r]; [congruence|]. inversion D as [|? ? D1 _]; subst. destruct (digit_facts d D1) as (_ & _ & _ & _ & NP & NM & _). cbn [show map sign_str app lit list_ascii_of_string]. unfold parse_int. set (c := chr _) in *. set (t := map _ r). clearbody c t. clear -NP NM. destruct c as [[] [] [] [] [] [] [] []]; try reflexivity; vm_compute in NP, NM; discriminate. }
  assert (V : forall sg, sg <> Unsigned -> parse_int (sign_str sg ++ show ds) = Z.max (- 2 ^ 63) (Z.min (2 ^ 63 - 1) (signed sg (dec ds)))).
  { intros sg NU. destruct sg; [congruence| |]; cbn [sign_str lit list_ascii_of_string app]; unfold parse_int; rewrite U; unfold max_uint64, min_int64, max_int64, signed; cbn [is_minus].
    - destruct (Z.ltb_spec (2 ^ 64 - 1) (dec ds)) as [L|L]; [lia|]. destruct (Z.leb_spec (2 ^ 63) (dec ds)); lia.
    - destruct (Z.ltb_spec (2 ^ 64 - 1) (dec ds)) as [L|L]; [lia|]. destruct (Z.ltb_spec (2 ^ 63) (dec ds)); lia. }
  destruct s; [|apply V; discriminate|apply V; discriminate]. cbn [sign_str app]. rewrite PL. apply (V Plus). discriminate.
Qed.
(** Anything else reads as 0, unless its first digits already are out of range. *)
Lemma parse_bad s : forall n, 0 <= n -> (exists m, parse_digits n s = UVal m /\ exists ds, digits ds /\ s = show ds) \/ parse_digits n s = USyntax \/
  (parse_digits n s = URange /\ exists ds rest, digits ds /\ s = show ds ++ rest /\ 2 ^ 64 <= n * 10 ^ zlen ds + dec ds).
Proof.
  induction s as [|c s IH]; intros n N; [left; exists n; split; [reflexivity|]; exists []; split; [constructor|reflexivity]|]. cbn [parse_digits]. destruct (is_digit c) eqn:DC; [|right; left; reflexivity].
  destruct (digit_char c DC) as (EC & BC). set (d := digit_val c) in *. destruct (Z.ltb_spec max_uint64 (n * 10 + d)) as [L|L].
  - right. right. split; [reflexivity|]. exists [d], s. split; [constructor; [exact BC|constructor]|]. split; [cbn [show map app]; now rewrite <- EC|]. change (zlen [d]) with 1. cbn [dec]. change (10 ^ zlen []) with 1. unfold max_uint64 in L. lia.
  - destruct (IH (n * 10 + d) ltac:(lia)) as [(m & E & ds & D & ->)|[E|(E & ds & rest & D & -> & B)]].
    + left. exists m. split; [exact E|]. exists (d :: ds). split; [constructor; assumption|]. cbn [show map]. now rewrite <- EC.
    + right. left. exact E.
    + right. right. split; [exact E|]. exists (d :: ds), rest. split; [constructor; assumption|]. split; [cbn [show map app]; now rewrite <- EC|]. rewrite dec_cons, zlen_cons, Z.pow_add_r by (unfold zlen; lia). change (10 ^ 1) with 10. replace (n * (10 ^ zlen ds * 10) + (d * 10 ^ zlen ds + dec ds)) with ((n * 10 + d) * 10 ^ zlen ds + dec ds) by ring. exact B.
Qed.
Lemma int_split t : parse_int t = let '(neg, body) := strip_sign t in match parse_uint body with USyntax => 0 | URange => if neg then min_int64 else max_int64 | UVal n => if neg then (if 2^63 <? n then min_int64 else - n) else (if 2^63 <=? n then max_int64 else n) end.
Proof. reflexivity. Qed.
Theorem C72_not_int : forall t, (forall s ds, digits ds -> ds <> [] -> t <> sign_str s ++ show ds) ->
  parse_int t = 0 \/ exists s ds rest, digits ds /\ t = sign_str s ++ show ds ++ rest /\ 2 ^ 64 <= dec ds.
Proof.
  intros t NI. rewrite int_split. assert (SPL : exists s b, t = sign_str s ++ b /\ strip_sign t = (is_minus s, b)).
  { destruct t as [|c r]; [exists Unsigned, []; split; reflexivity|]. destruct (Ascii.eqb_spec c "+") as [->|N1]; [exists Plus, r; split; reflexivity|]. destruct (Ascii.eqb_spec c "-") as [->|N2]; [exists Minus, r; split; reflexivity|].
    exists Unsigned, (c :: r). split; [reflexivity|]. unfold strip_sign. cbn [is_minus]. destruct c as [[] [] [] [] [] [] [] []]; try reflexivity; congruence. }
  destruct SPL as (s & b & E & ->). unfold parse_uint. destruct b as [|c r]; [left; reflexivity|]. set (b := c :: r) in *. assert (NB : b <> []) by discriminate. clearbody b. clear c r.
  destruct (parse_bad b 0 ltac:(lia)) as [(m & _ & ds & D & EB)|[->|(_ & ds & rest & D & EB & L)]].
  - exfalso. apply (NI s ds D); [intros ->; now apply NB|now rewrite E, EB].
  - left. reflexivity.
  - right. exists s, ds, rest. rewrite <- EB. rewrite Z.mul_0_l, Z.add_0_l in L. auto.
Qed.

(** ** Decimal literals *)
Lemma mant_digits ds : digits ds -> forall v fr dg dot un rest,
  read_mant 10 v fr dg dot un (show ds ++ rest) = read_mant 10 (v * 10 ^ zlen ds + dec ds) (if dot then fr + zlen ds else fr) (dg || match ds with [] => false | _ => true end) dot un rest.
Proof.
  induction 1 as [|d ds D DS IH]; intros v fr dg dot un rest.
  - cbn [show map app dec]. change (10 ^ zlen []) with 1. change (zlen (@nil Z)) with 0. rewrite Z.mul_1_r, !Z.add_0_r, orb_false_r. destruct dot; reflexivity.
  - destruct (digit_facts d D) as (F1 & F2 & F3 & F4 & _). cbn [show map app read_mant]. rewrite F3, F4. unfold digit_in. rewrite F1, F2. fold (show ds). rewrite IH. rewrite dec_cons, zlen_cons, Z.pow_add_r by (unfold zlen; lia). change (10 ^ 1) with 10.
    replace (v * (10 ^ zlen ds * 10) + (d * 10 ^ zlen ds + dec ds)) with ((v * 10 + d) * 10 ^ zlen ds + dec ds) by ring. rewrite orb_true_r. replace (if dot then (if dot then fr + 1 else fr) + zlen ds else if dot then fr + 1 else fr) with (if dot then fr + (zlen ds + 1) else fr) by (destruct dot; lia). reflexivity.
Qed.
Lemma exp_digits ds : digits ds -> forall e, 0 <= e -> e * 10 ^ zlen ds + dec ds < 100000 -> forall un, read_exp e un (show ds) = (e * 10 ^ zlen ds + dec ds, un, []).
Proof.
  induction 1 as [|d ds D DS IH]; intros e E B un; [cbn [show map read_exp dec]; change (10 ^ zlen []) with 1; now rewrite Z.mul_1_r, Z.add_0_r|].
  destruct (digit_facts d D) as (F1 & F2 & F3 & _). cbn [show map read_exp]. rewrite F3, F1, F2. fold (show ds). pose proof (dec_pos ds DS) as P. assert (P10 : 0 < 10 ^ zlen ds) by (apply Z.pow_pos_nonneg; unfold zlen; lia).
  rewrite dec_cons, zlen_cons, Z.pow_add_r in * by (unfold zlen; lia). change (10 ^ 1) with 10 in *. replace (e * (10 ^ zlen ds * 10) + (d * 10 ^ zlen ds + dec ds)) with ((e * 10 + d) * 10 ^ zlen ds + dec ds) in * by ring.
  assert (e * 10 + d <= (e * 10 + d) * 10 ^ zlen ds) by nia. destruct (Z.ltb_spec e 10000) as [L|L]; [|lia]. apply IH; [lia|exact B].
Qed.
Lemma head_show ds rest c r : digits ds -> ds <> [] -> show ds ++ rest = c :: r -> exists d, 0 <= d <= 9 /\ c = chr (Z.to_N (48 + d)).
Proof. intros D N E. destruct ds as [|d ds]; [congruence|]. inversion D; subst. cbn [show map app] in E. injection E as <- _. eauto. Qed.
Lemma strip_written s rest : (forall c r, rest = c :: r -> Ascii.eqb c "+" = false /\ Ascii.eqb c "-" = false) -> strip_sign (sign_str s ++ rest) = (is_minus s, rest).
Proof.
  intros H. destruct s; [|reflexivity|reflexivity]. cbn [sign_str app is_minus]. destruct rest as [|c r]; [reflexivity|]. destruct (H c r eq_refl) as (A & B). clear H. destruct c as [[] [] [] [] [] [] [] []]; try reflexivity; vm_compute in A, B; discriminate.
Qed.
Definition tail_exp (l : literal) : str := match lt_exp l with None => [] | Some (up, s, ds) => lit (if up then "E" else "e") ++ sign_str s ++ show ds end.
Definition tail_frac (l : literal) : str := match lt_frac l with None => [] | Some f => lit "." ++ show f end.
Definition unsigned_part (l : literal) : str := show (lt_int l) ++ tail_frac l ++ tail_exp l.
Lemma first_char l c r : well_formed l -> unsigned_part l = c :: r ->
  (exists d, 0 <= d <= 9 /\ c = chr (Z.to_N (48 + d))) \/ c = "."%char.
Proof.
  intros (D & N & _) E. unfold unsigned_part, tail_frac, frac_digits in *. destruct (lt_int l) as [|d a]; [|left; eapply (head_show (d :: a)); [apply Forall_app in D; apply D|discriminate|exact E]]. destruct (lt_frac l) as [f|]; [|now elim N]. right. cbn in E. now injection E as <- _.
Qed.
Lemma first_facts l c r : well_formed l -> unsigned_part l = c :: r -> Ascii.eqb c "+" = false /\ Ascii.eqb c "-" = false /\ Ascii.eqb (lower c) "i" = false /\ Ascii.eqb (lower c) "n" = false.
Proof.
  intros W E. destruct (first_char l c r W E) as [(d & D & ->)| ->]; [|vm_compute; auto]. destruct (digit_facts d D) as (_ & _ & _ & _ & A & B & L & _ & C & G & _). rewrite L. auto.
Qed.
Lemma lowers_first c r w : Ascii.eqb (lower c) (match lit w with x :: _ => x | [] => lower c end) = false -> str_eqb (lowers (c :: r)) (lit w) = false.
Proof. cbn [lowers map]. destruct (lit w) as [|x t]; [intros H; rewrite Ascii.eqb_refl in H; discriminate|]. cbn [str_eqb]. now intros ->. Qed.
Lemma not_special l : well_formed l -> parse_special (written l) = None.
Proof.
  intros W. change (written l) with (sign_str (lt_sign l) ++ unsigned_part l). destruct (unsigned_part l) as [|c r] eqn:E.
  { exfalso. destruct W as (_ & N & _). unfold unsigned_part, tail_frac, frac_digits in *. destruct (lt_int l); [|discriminate E]. destruct (lt_frac l); [discriminate E|]. now apply N. }
  destruct (first_facts l c r W E) as (A & B & C & D). assert (I1 : str_eqb (lowers (c :: r)) (lit "inf") = false) by (apply lowers_first; exact C). assert (I2 : str_eqb (lowers (c :: r)) (lit "infinity") = false) by (apply lowers_first; exact C). assert (I3 : str_eqb (lowers (c :: r)) (lit "nan") = false) by (apply lowers_first; exact D).
  destruct (lt_sign l); cbn [sign_str lit list_ascii_of_string app]; unfold parse_special; cbv zeta.
  - rewrite I1, I2, I3. cbn [orb]. clear -A B. destruct c as [[] [] [] [] [] [] [] []]; try reflexivity; vm_compute in A, B; discriminate.
  - now rewrite I1, I2.
  - now rewrite I1, I2.
Qed.
Lemma base10 s : (forall x r, s = "0"%char :: x :: r -> Ascii.eqb (lower x) "x" = false) ->
  (match s with "0"%char :: x :: (_ :: _) as r0 => if Ascii.eqb (lower x) "x" then (16, skipn 2 s) else (10, s) | _ => (10, s) end) = (10, s).
Proof.
  intros H. destruct s as [|c [|x [|y r]]]; try reflexivity; [destruct c as [[] [] [] [] [] [] [] []]; reflexivity|destruct c as [[] [] [] [] [] [] [] []]; reflexivity|]. destruct (Ascii.eqb_spec c "0") as [->|N]; [now rewrite (H x (y :: r) eq_refl)|]. destruct c as [[] [] [] [] [] [] [] []]; try reflexivity. congruence.
Qed.
Lemma second_char l x r : well_formed l -> unsigned_part l = "0"%char :: x :: r -> Ascii.eqb (lower x) "x" = false.
Proof.
  intros (D & N & X) E. unfold unsigned_part, tail_frac, tail_exp, frac_digits in *. destruct (lt_int l) as [|d a].
  { destruct (lt_frac l); [discriminate E|now elim N]. }
  cbn [show map app] in E. injection E as _ E. inversion D as [|? ? D1 D2]; subst. destruct a as [|d2 a].
  - cbn [map app] in E. destruct (lt_frac l) as [f|]; [injection E as <- _; reflexivity|]. destruct (lt_exp l) as [((up, s), ds)|]; [|discriminate E]. destruct up; injection E as <- _; reflexivity.
  - cbn [map app] in E. injection E as EX _. pose proof (Forall_inv D2) as D3. destruct (digit_facts d2 D3) as (_ & _ & _ & _ & _ & _ & L & Q & _). assert (EX' : x = chr (Z.to_N (48 + d2))) by (symmetry; exact EX). rewrite EX', L. exact Q.
Qed.
Lemma mant_stop v fr dg dot un t : (t = [] \/ exists c r, t = c :: r /\ lower c = "e"%char) -> read_mant 10 v fr dg dot un t = {| m_val := v; m_frac := fr; m_digits := dg; m_dot := dot; m_under := un; m_rest := t |}.
Proof.
  intros [-> |(c & r & -> & L)]; [reflexivity|]. assert (C : c = "e"%char \/ c = "E"%char) by (destruct c as [[] [] [] [] [] [] [] []]; vm_compute in L; try discriminate L; auto). destruct C as [-> | ->]; reflexivity.
Qed.
Lemma read_written l : well_formed l -> read_float (written l) = Some (NumDec (is_minus (lt_sign l)) (dec (lt_int l ++ frac_digits l)) (exponent l - zlen (frac_digits l))).
Proof.
  intros W. change (written l) with (sign_str (lt_sign l) ++ unsigned_part l) at 1. unfold read_float. rewrite strip_written by (intros c r E; destruct (first_facts l c r W E) as (A & B & _); auto).
  change (sign_str (lt_sign l) ++ unsigned_part l) with (written l). assert (B10 := base10 (unsigned_part l) (fun x r => second_char l x r W)). cbv beta iota zeta. match goal with |- (match ?b with (_, _) => _ end) = _ => replace b with (10, unsigned_part l) by (symmetry; exact B10) end. clear B10. cbv beta iota zeta.
  pose proof W as (D & N & X). apply Forall_app in D as (DA & DF).
  assert (ST : tail_exp l = [] \/ exists c r, tail_exp l = c :: r /\ lower c = "e"%char). { unfold tail_exp. destruct (lt_exp l) as [(([], s), ds)|]; [right; eexists _, _; split; reflexivity|right; eexists _, _; split; reflexivity|now left]. }
  assert (RM : read_mant 10 0 0 false false false (unsigned_part l) = {| m_val := dec (lt_int l ++ frac_digits l); m_frac := zlen (frac_digits l); m_digits := true; m_dot := match lt_frac l with None => false | _ => true end; m_under := false; m_rest := tail_exp l |}).
  { unfold unsigned_part. rewrite mant_digits by exact DA. rewrite Z.mul_0_l, Z.add_0_l. cbn [orb]. unfold tail_frac, frac_digits in *. destruct (lt_frac l) as [f|].
    - cbn [lit list_ascii_of_string app read_mant]. change (Ascii.eqb "." "_") with false. change (Ascii.eqb "." ".") with true. cbv iota. rewrite mant_digits by exact DF. rewrite mant_stop by exact ST. rewrite <- dec_app, Z.add_0_l. assert (DG : (match lt_int l with [] => false | _ => true end || match f with [] => false | _ => true end)%bool = true) by (destruct (lt_int l), f; try reflexivity; now elim N). rewrite DG. reflexivity.
    - cbn [app]. rewrite mant_stop by exact ST. rewrite app_nil_r in *. destruct (lt_int l); [now elim N|reflexivity]. }
  rewrite RM. cbn [m_digits m_rest m_val m_frac m_under negb]. change (10 =? 16) with false. cbv iota. unfold tail_exp, exponent. destruct (lt_exp l) as [((up, s), ds)|]; [|cbn [andb]; reflexivity].
  destruct X as (DD & NN & BB). assert (EC : forall r, lit (if up then "E" else "e") ++ r = (if up then "E" else "e")%char :: r) by (destruct up; reflexivity). rewrite EC. assert (EL : Ascii.eqb (lower (if up then "E" else "e")%char) "e" = true) by (destruct up; reflexivity). rewrite EL.
  rewrite strip_written; [|intros c r E; rewrite <- (app_nil_r (show ds)) in E; destruct (head_show ds [] c r DD NN E) as (d & D & ->); destruct (digit_facts d D) as (_ & _ & _ & _ & A & B & _); auto].
  destruct (show ds) as [|c r] eqn:E; [destruct ds; [congruence|discriminate E]|]. pose proof E as E'. rewrite <- (app_nil_r (show ds)) in E'. destruct (head_show ds [] c r DD NN E') as (d & D & EC'). destruct (digit_facts d D) as (F1 & _). rewrite <- EC' in F1. rewrite F1, <- E.
  rewrite exp_digits by (try assumption; lia). rewrite Z.mul_0_l, Z.add_0_l. cbn [andb]. unfold signed. destruct (is_minus s); reflexivity.
Qed.
Lemma pow10_pos e : 0 <= e -> powerRZ 10 e = IZR (10 ^ e).
Proof. intros E. destruct e as [|e|e]; [reflexivity| |lia]. cbn [powerRZ]. change 10%R with (IZR 10). rewrite pow_IZR. now rewrite positive_nat_Z. Qed.
Lemma pow10_neg e : e < 0 -> powerRZ 10 e = (/ IZR (10 ^ (- e)))%R.
Proof. intros E. destruct e as [|e|e]; [lia|lia|]. cbn [powerRZ Z.opp]. change 10%R with (IZR 10). rewrite pow_IZR. now rewrite positive_nat_Z. Qed.
Lemma round_reads prec emax (Hp : Prec_gt_0 prec) (He : Prec_lt_emax prec emax) neg m e : 0 <= m ->
  reads prec emax neg (IZR (if neg then - m else m) * powerRZ 10 e) (round_number prec emax Hp He (NumDec neg m e)).
Proof.
  intros M. cbn [round_number]. destruct (Z.eqb_spec m 0) as [->|NZ].
  - assert (E0 : (IZR (if neg then - 0 else 0) * powerRZ 10 e = 0)%R) by (destruct neg; apply Rmult_0_l). rewrite E0. left. assert (V : generic_format radix2 (SpecFloat.fexp prec emax) 0) by apply generic_format_0. rewrite round_0 by apply valid_rnd_N. rewrite Rabs_R0. split; [apply bpow_gt_0|]. split; [reflexivity|split; reflexivity].
  - destruct (Z.leb_spec 0 e) as [P|P].
    + rewrite pow10_pos by exact P. rewrite <- mult_IZR. assert (E : IZR ((if neg then - m else m) * 10 ^ e) = F2R (Float radix2 (cond_Zopp neg (m * 10 ^ e)) 0)) by (unfold F2R; cbn [Fnum Fexp bpow]; rewrite Rmult_1_r; apply f_equal; destruct neg; cbn [cond_Zopp]; ring). rewrite E. apply normalize_reads.
      assert (0 < m * 10 ^ e) by (apply Z.mul_pos_pos; [lia|apply Z.pow_pos_nonneg; lia]). destruct neg; cbn [cond_Zopp]; split; intros X; try reflexivity; try discriminate X; lia.
    + rewrite pow10_neg by exact P. assert (PP : 0 < 10 ^ (- e)) by (apply Z.pow_pos_nonneg; lia). pose proof (ratio_reads prec emax Hp He neg m (10 ^ (- e)) ltac:(lia) PP) as R. unfold Rdiv in R. destruct neg; [|exact R]. rewrite opp_IZR, Ropp_mult_distr_l_reverse. exact R.
Qed.
Lemma written_reads prec emax (Hp : Prec_gt_0 prec) (He : Prec_lt_emax prec emax) l : well_formed l -> nearest_float prec emax (is_minus (lt_sign l)) (value l) (parse_float_gen prec emax Hp He (written l)).
Proof.
  intros W. unfold parse_float_gen. rewrite not_special, read_written by exact W. exact (round_reads prec emax Hp He (is_minus (lt_sign l)) (dec (lt_int l ++ frac_digits l)) (exponent l - zlen (frac_digits l)) (dec_pos _ (proj1 W))).
Qed.
(** A decimal number reads as the nearest double or single. *)
Theorem C72_f64 : forall l, well_formed l -> nearest_float 53 1024 (is_minus (lt_sign l)) (value l) (parse_f64 (written l)).
Proof. intros l W. exact (written_reads 53 1024 p53 pe53 l W). Qed.
Theorem C72_f32 : forall l, well_formed l -> nearest_float 24 128 (is_minus (lt_sign l)) (value l) (parse_f32 (written l)).
Proof. intros l W. exact (written_reads 24 128 p24 pe24 l W). Qed.

(** ** Infinities and NaN, and what is not a number *)
Theorem C72_special : forall s t, (same_letters t "inf" \/ same_letters t "infinity" -> parse_f64 (sign_str s ++ t) = B754_infinity (is_minus s)) /\
  (same_letters t "nan" -> fisnan (parse_f64 t) = true).
Proof.
  intros s t. split.
  - intros H. assert (I : str_eqb (lowers t) (lit "inf") || str_eqb (lowers t) (lit "infinity") = true). { apply orb_true_iff. destruct H as [H|H]; [left|right]; apply str_eqb_eq; exact H. }
    unfold parse_f64, parse_float_gen. assert (P : parse_special (sign_str s ++ t) = Some (SpInf (is_minus s))); [|now rewrite P]. destruct s; cbn [sign_str app lit list_ascii_of_string is_minus]; unfold parse_special; cbv zeta; rewrite I; try reflexivity.
    destruct t as [|c r]; [reflexivity|]. assert (NC : Ascii.eqb (lower c) "i" = true) by (destruct H as [H|H]; cbn [lit list_ascii_of_string] in H; unfold same_letters in H; cbn [map lit list_ascii_of_string] in H; apply Ascii.eqb_eq; now injection H as H _). clear -NC. destruct c as [[] [] [] [] [] [] [] []]; try reflexivity; vm_compute in NC; discriminate.
  - intros H. unfold parse_f64, parse_float_gen. assert (P : parse_special t = Some SpNaN); [|now rewrite P]. assert (E : lowers t = lit "nan") by exact H. destruct t as [|c r]; [discriminate E|]. unfold parse_special. cbv zeta. rewrite E. cbn [str_eqb lit list_ascii_of_string andb orb]. change (str_eqb (lit "nan") (lit "inf") || str_eqb (lit "nan") (lit "infinity")) with false. change (str_eqb (lit "nan") (lit "nan")) with true. cbv iota.
    assert (NC : Ascii.eqb (lower c) "n" = true) by (apply Ascii.eqb_eq; now injection E as E _). clear -NC. destruct c as [[] [] [] [] [] [] [] []]; try reflexivity; vm_compute in NC; discriminate.
Qed.
Definition plain_byte (c : ascii) : bool := let b := byte_of c in ((48 <=? b) && (b <=? 57)) || ((65 <=? b) && (b <=? 90)) || ((97 <=? b) && (b <=? 122)) || (b =? 43) || (b =? 45) || (b =? 46) || (b =? 95).
Lemma foreign_plain c : foreign c -> plain_byte c = false.
Proof. unfold foreign, plain_byte. cbv zeta. intros H. repeat (apply orb_false_iff; split); try apply andb_false_iff; try (apply Z.eqb_neq; lia); rewrite ?Z.leb_gt; lia. Qed.
Lemma plain_digit c base d : digit_in base c = Some d -> plain_byte c = true.
Proof.
  unfold digit_in. destruct (is_digit c) eqn:D; [intros _; unfold is_digit, plain_byte in *; cbv zeta; now rewrite D|]. destruct (base =? 16); [|discriminate]. cbn [andb]. destruct (is_hex_letter c) eqn:H; [|discriminate]. intros _. clear -H. destruct c as [[] [] [] [] [] [] [] []]; vm_compute in H |- *; try reflexivity; discriminate.
Qed.
Lemma mant_plain base s : forall v fr dg dot un, exists pre, s = pre ++ m_rest (read_mant base v fr dg dot un s) /\ Forall (fun c => plain_byte c = true) pre.
Proof.
  induction s as [|c s IH]; intros v fr dg dot un; [exists []; split; [reflexivity|constructor]|]. cbn [read_mant].
  destruct (Ascii.eqb_spec c "_") as [->|_]; [destruct (IH v fr dg dot true) as (pre & E & F); exists ("_"%char :: pre); split; [cbn [app]; now rewrite <- E|now constructor]|].
  destruct (Ascii.eqb_spec c ".") as [->|_].
  - destruct dot; [exists []; split; [reflexivity|constructor]|]. destruct (IH v fr dg true un) as (pre & E & F). exists ("."%char :: pre). split; [cbn [app]; now rewrite <- E|now constructor].
  - destruct (digit_in base c) as [d|] eqn:D; [|exists []; split; [reflexivity|constructor]]. destruct (IH (v * base + d) (if dot then fr + 1 else fr) true dot un) as (pre & E & F). exists (c :: pre). split; [cbn [app]; now rewrite <- E|constructor; [apply (plain_digit _ _ _ D)|exact F]].
Qed.
Lemma exp_plain s : forall e un, exists pre, s = pre ++ snd (read_exp e un s) /\ Forall (fun c => plain_byte c = true) pre.
Proof.
  induction s as [|c s IH]; intros e un; [exists []; split; [reflexivity|constructor]|]. cbn [read_exp]. destruct (Ascii.eqb_spec c "_") as [->|_]; [destruct (IH e true) as (pre & E & F); exists ("_"%char :: pre); split; [cbn [app]; now rewrite <- E|now constructor]|].
  destruct (is_digit c) eqn:D; [|exists []; split; [reflexivity|constructor]]. destruct (IH (if e <? 10000 then e * 10 + digit_val c else e) un) as (pre & E & F). exists (c :: pre). split; [cbn [app]; now rewrite <- E|constructor; [apply (plain_digit c 10 (digit_val c)); unfold digit_in; now rewrite D|exact F]].
Qed.
Lemma strip_plain s : exists pre, s = pre ++ snd (strip_sign s) /\ Forall (fun c => plain_byte c = true) pre.
Proof.
  destruct s as [|c r]; [exists []; split; [reflexivity|constructor]|]. destruct (Ascii.eqb_spec c "+") as [->|N1]; [exists ["+"%char]; split; [reflexivity|now repeat constructor]|]. destruct (Ascii.eqb_spec c "-") as [->|N2]; [exists ["-"%char]; split; [reflexivity|now repeat constructor]|].
  exists []. split; [|constructor]. destruct c as [[] [] [] [] [] [] [] []]; try reflexivity; congruence.
Qed.
Lemma read_plain s n : read_float s = Some n -> Forall (fun c => plain_byte c = true) s.
Proof.
  intros H. destruct (strip_plain s) as (p0 & E0 & F0). unfold read_float in H. destruct (strip_sign s) as (neg, t). cbn [snd] in E0. rewrite E0. apply Forall_app. split; [exact F0|]. clear E0 F0 p0.
  assert (B : exists base body p1, t = p1 ++ body /\ Forall (fun c => plain_byte c = true) p1 /\ (match t with "0"%char :: x :: (_ :: _) as r0 => if Ascii.eqb (lower x) "x" then (16, skipn 2 t) else (10, t) | _ => (10, t) end) = (base, body)).
  { assert (TRIV : exists base body p1, t = p1 ++ body /\ Forall (fun c => plain_byte c = true) p1 /\ (10, t) = (base, body)) by (exists 10, t, []; split; [reflexivity|split; [constructor|reflexivity]]). destruct t as [|c [|x [|y r]]]; try exact TRIV; [destruct c as [[] [] [] [] [] [] [] []]; exact TRIV|destruct c as [[] [] [] [] [] [] [] []]; exact TRIV|]. destruct (Ascii.eqb_spec c "0") as [->|N]; [|destruct c as [[] [] [] [] [] [] [] []]; try exact TRIV; congruence].
    destruct (Ascii.eqb (lower x) "x") eqn:X; [|exact TRIV]. exists 16, (y :: r), ["0"%char; x]. split; [reflexivity|]. split; [|reflexivity]. repeat constructor. clear -X. destruct x as [[] [] [] [] [] [] [] []]; vm_compute in X |- *; try reflexivity; discriminate. }
  destruct B as (base & body & p1 & E1 & F1 & B). match type of H with (match ?b with (_, _) => _ end) = _ => replace b with (base, body) in H by (symmetry; exact B) end. clear B. rewrite E1. apply Forall_app. split; [exact F1|]. clear E1 F1 p1 t. cbv zeta in H.
  destruct (mant_plain base body 0 0 false false false) as (p2 & E2 & F2). set (mt := read_mant base 0 0 false false false body) in *. rewrite E2. apply Forall_app. split; [exact F2|]. clear E2 F2 p2. clearbody mt. destruct (negb (m_digits mt)); [discriminate H|]. destruct (m_rest mt) as [|c r]; [constructor|].
  destruct (Ascii.eqb (lower c) (if base =? 16 then "p"%char else "e"%char)) eqn:EC; [|discriminate H]. constructor; [clear -EC; destruct (base =? 16); destruct c as [[] [] [] [] [] [] [] []]; vm_compute in EC |- *; try reflexivity; discriminate|].
  destruct (strip_plain r) as (p3 & E3 & F3). destruct (strip_sign r) as (en, r'). cbn [snd] in E3. rewrite E3. apply Forall_app. split; [exact F3|]. clear E3 F3 p3 r. destruct r' as [|d r']; [constructor|]. destruct (is_digit d); [|discriminate H].
  destruct (exp_plain (d :: r') 0 (m_under mt)) as (p4 & E4 & F4). destruct (read_exp 0 (m_under mt) (d :: r')) as ((e, un), rest). cbn [snd] in E4. destruct rest; [|discriminate H]. rewrite app_nil_r in E4. rewrite E4. exact F4.
Qed.
Theorem C72_foreign : forall t c, In c t -> foreign c -> parse_f64 t = f0.
Proof.
  intros t c I F. apply foreign_plain in F. assert (NP : forall w, Forall (fun c => plain_byte c = true) w -> In c w -> False) by (intros w A B; rewrite Forall_forall in A; specialize (A c B); congruence).
  unfold parse_f64, parse_float_gen. assert (S : parse_special t = None).
  { assert (LW : forall w r, In c r -> Forall (fun c => plain_byte c = true) (lit w) -> str_eqb (lowers r) (lit w) = false).
    { intros w r A B. apply str_eqb_neq. intros E. apply (in_map lower) in A. fold (lowers r) in A. rewrite E in A. rewrite Forall_forall in B. specialize (B _ A). clear -F B. destruct c as [[] [] [] [] [] [] [] []]; vm_compute in F, B; discriminate. }
    assert (TL : forall r, In c r -> str_eqb (lowers r) (lit "inf") || str_eqb (lowers r) (lit "infinity") = false) by (intros r A; rewrite !LW; auto; repeat constructor).
    assert (TN : str_eqb (lowers t) (lit "nan") = false) by (apply LW; [exact I|repeat constructor]).
    unfold parse_special. cbv zeta. destruct t as [|x r]; [destruct I|]. assert (SG : plain_byte x = true -> In c r) by (intros X; destruct I as [<-|I]; [congruence|exact I]).
    destruct (Ascii.eqb_spec x "+") as [->|N1]; [now rewrite TL by (apply SG; reflexivity)|]. destruct (Ascii.eqb_spec x "-") as [->|N2]; [now rewrite TL by (apply SG; reflexivity)|].
    rewrite (TL _ I), TN. destruct x as [[] [] [] [] [] [] [] []]; try reflexivity; congruence. }
  rewrite S. destruct (read_float t) as [n|] eqn:R; [exfalso; exact (NP t (read_plain t n R) I)|reflexivity].
Qed.

(** "-12.50e1" is -125; " 7" with a blank is 0, and so is "7 " as an integer *)
Definition minus125 : literal := mkLit Minus [1; 2] (Some [5; 0]) (Some (false, Unsigned, [1])).
Example C72_instance : well_formed minus125 /\ written minus125 = lit "-12.50e1" /\ value minus125 = (-125)%R /\ feq (parse_f64 (lit "-12.50e1")) (fq (-125) 1) = true /\
  digits [9; 2; 2; 3; 3; 7; 2; 0; 3; 6; 8; 5; 4; 7; 7; 5; 8; 0; 8] /\ parse_int (lit "-9223372036854775808") = - 2 ^ 63 /\ parse_int (lit "9223372036854775808") = 2 ^ 63 - 1 /\
  (forall s ds, digits ds -> ds <> [] -> lit "7 " <> sign_str s ++ show ds) /\ parse_int (lit "7 ") = 0 /\ parse_int (lit "99999999999999999999x") = 2 ^ 63 - 1 /\
  In " "%char (lit " 7") /\ foreign " " /\ feq (parse_f64 (lit " 7")) f0 = true /\ same_letters (lit "iNF") "inf" /\ same_letters (lit "NaN") "nan".
Proof.
  split. { split; [repeat constructor; lia|]. split; [discriminate|]. split; [repeat constructor; lia|]. split; [discriminate|reflexivity]. } split; [reflexivity|]. split. { unfold value. cbn [lt_sign minus125 lt_int frac_digits lt_frac app exponent lt_exp]. change (signed Minus (dec [1; 2; 5; 0])) with (-1250). change (signed Unsigned (dec [1]) - zlen [5; 0]) with (-1). cbn [powerRZ Pos.to_nat]. change (Pos.to_nat 1) with 1%nat. cbn [pow]. lra. }
  split; [vm_compute; reflexivity|]. split; [repeat constructor; lia|]. split; [reflexivity|]. split; [reflexivity|]. split.
  { intros s ds D N E. assert (A : In " "%char (sign_str s ++ show ds)) by (rewrite <- E; right; left; reflexivity). apply in_app_iff in A as [A|A]; [destruct s; cbn in A; intuition discriminate|]. unfold show in A. apply in_map_iff in A as (d & X & Y). unfold digits in D. rewrite Forall_forall in D. destruct (digit_facts d (D d Y)) as (F & _). rewrite X in F. vm_compute in F. discriminate F. }
  split; [reflexivity|]. split; [reflexivity|]. split; [left; reflexivity|]. split; [unfold foreign; vm_compute; intuition congruence|]. split; [vm_compute; reflexivity|]. split; reflexivity.
Qed.

Print Assumptions C72_int. Print Assumptions C72_not_int. Print Assumptions C72_f64. Print Assumptions C72_f32. Print Assumptions C72_special. Print Assumptions C72_foreign.

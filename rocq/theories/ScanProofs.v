(** The scanner on whole texts. *)
From Verif Require Import Parser SpecParser BaseLemmas StringLemmas ParserProofs InertProofs.
Import ListNotations.
Open Scope Z_scope.

Section WithLibm.
Context {M : libm}.
Definition fits (p : str * bool) : Prop := ~ In newline (fst p) /\ zlen (ended p) < buffer_size /\ (snd p = false -> no_final_cr (fst p)).
Lemma ended_drop p : fits p -> drop_cr (ended p) = fst p.
Proof.
  intros (_ & _ & H). unfold drop_cr, ended. destruct p as [l [|]]; cbn [fst snd] in *.
  - rewrite rev_app_distr. cbn [rev app]. change (Ascii.eqb carriage (chr 13)) with true. cbn iota. apply rev_involutive.
  - rewrite app_nil_r. destruct (rev l) as [|c r] eqn:E; [reflexivity|]. destruct (Ascii.eqb_spec c (chr 13)) as [->|N]; [|reflexivity].
    exfalso. apply (H eq_refl (rev r)). apply (f_equal (@rev ascii)) in E. now rewrite rev_involutive in E.
Qed.
Lemma ended_nl p : fits p -> ~ In newline (ended p).
Proof.
  intros (H & _ & _) I. unfold ended in I. apply in_app_or in I as [I|I]; [now apply H|]. destruct (snd p); [|exact I].
  destruct I as [I|[]]. discriminate I.
Qed.
Lemma scan_fits ls r : Forall fits ls ->
  scan_lines buffer_size [] 0 (concat (map (fun p => ended p ++ [newline]) ls) ++ r) = map fst ls ++ scan_lines buffer_size [] 0 r.
Proof.
  induction 1 as [|p ls F Fs IH]; [reflexivity|]. cbn [map concat]. rewrite <- !app_assoc. cbn [app].
  rewrite (scan_line buffer_size (ended p) (ended_nl p F) [] 0). cbn [rev app]. rewrite (ended_drop p F), IH.
  rewrite Z.add_0_l. destruct F as (_ & L & _). apply Z.ltb_lt in L. rewrite L. reflexivity.
Qed.
Lemma scan_long t : forall cur n, buffer_size <= n -> scan_lines buffer_size cur n t = [].
Proof.
  induction t as [|c t IH]; intros cur n H; cbn [scan_lines].
  - destruct cur; [reflexivity|]. destruct (Z.ltb_spec n buffer_size); [lia|reflexivity].
  - destruct (Ascii.eqb c (chr 10)); [destruct (Z.ltb_spec n buffer_size); [lia|reflexivity]|]. apply IH. lia.
Qed.
Lemma scan_over l : ~ In newline l -> forall cur n t, 0 <= n -> buffer_size <= n + zlen l -> scan_lines buffer_size cur n (l ++ t) = [].
Proof.
  induction l as [|c l IH]; intros H cur n t Hn Hl; cbn [app].
  - apply scan_long. unfold zlen in Hl. cbn [length] in Hl. lia.
  - cbn [scan_lines]. destruct (Ascii.eqb_spec c (chr 10)) as [->|N]; [exfalso; apply H; now left|].
    apply IH; [intro; apply H; now right|lia|]. unfold zlen in *. cbn [length] in Hl. lia.
Qed.
Lemma text_lines ls : Forall fits ls -> forall fuel, parse_text fuel (concat (map (fun p => ended p ++ [newline]) ls)) = parse_lines fuel (map fst ls).
Proof.
  intros F fuel. unfold parse_text. rewrite <- (app_nil_r (concat _)), (scan_fits ls [] F). cbn [scan_lines]. now rewrite app_nil_r.
Qed.
Lemma text_truncated ls l t : Forall fits ls -> ~ In newline l -> buffer_size <= zlen l ->
  forall fuel, parse_text fuel (concat (map (fun p => ended p ++ [newline]) ls) ++ l ++ t) = parse_lines fuel (map fst ls).
Proof.
  intros F N L fuel. unfold parse_text. rewrite (scan_fits ls _ F), (scan_over l N [] 0 t) by lia. now rewrite app_nil_r.
Qed.
End WithLibm.

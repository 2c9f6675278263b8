(** C60: the events, the length and the tempo range of a parsed map. *)
From Coq Require Import Reals Lra.
From Verif Require Import Parser SpecParser SpecMap FloatLemmas StringLemmas ParserProofs EventProofs PropParser.
Import ListNotations.
Open Scope Z_scope.

Section WithLibm.
Context {M : libm}.

Lemma before_colon_fun s t u : before_colon s t -> before_colon s u -> t = u.
Proof.
  intros [Nt Ht] [Nu Hu]. revert s u Ht Nu Hu. induction t as [|c t IH]; intros s u Ht Nu Hu; destruct u as [|d u]; [reflexivity| | |].
  - exfalso. destruct Ht as [->|(x & ->)], Hu as [E|(y & E)]; try discriminate E; injection E; intros; subst; apply Nu; now left.
  - exfalso. destruct Hu as [->|(x & ->)], Ht as [E|(y & E)]; try discriminate E; injection E; intros; subst; apply Nt; now left.
  - assert (E : d = c) by (destruct Ht as [->|(x & ->)], Hu as [E|(y & E)]; injection E; intros; congruence). subst d. f_equal.
    destruct s as [|e s]; [destruct Ht as [E|(x & E)]; discriminate E|].
    apply (IH (fun H => Nt (or_intror H)) s u); [|exact (fun H => Nu (or_intror H))|].
    + destruct Ht as [E|(x & E)]; injection E as _ ->; [now left|right; eauto].
    + destruct Hu as [E|(x & E)]; injection E as _ ->; [now left|right; eauto].
Qed.
Lemma row_time_fun fs t u : row_time fs t -> row_time fs u -> t = u.
Proof.
  unfold row_time. destruct (type_of fs); try congruence. intros (x & Hx & ->) (y & Hy & ->). f_equal. now apply (before_colon_fun (field 5 fs)).
Qed.
Lemma some_rows ls sec : exists r, section_rows ls sec r.
Proof. eexists. apply section_rows_iff. reflexivity. Qed.

(** The background is that of the last background row, without quotation marks. *)
Theorem C60_background : forall fuel ls b er, parse_lines fuel ls = Ok (Some b) -> section_rows ls "Events" er ->
  (filter is_background er = [] -> ev_Bg (bm_events b) = []) /\
  (forall rs r, filter is_background er = rs ++ [r] -> unquoted (field 2 r) (ev_Bg (bm_events b))).
Proof.
  intros fuel ls b er H He. destruct (some_rows ls "HitObjects") as (hr & Hh), (some_rows ls "TimingPoints") as (tr & Ht).
  destruct (map_facts2 fuel ls b hr tr er H Hh Ht He) as (E & _). rewrite E. split; [intros ->; reflexivity|].
  intros rs r ->. apply unquoted_iff. rewrite map_app. apply last_last.
Qed.
(** The breaks are those of the break rows, in file order. *)
Theorem C60_breaks : forall fuel ls b er, parse_lines fuel ls = Ok (Some b) -> section_rows ls "Events" er ->
  ev_Pauses (bm_events b) = map break_of (filter is_break er).
Proof.
  intros fuel ls b er H He. destruct (some_rows ls "HitObjects") as (hr & Hh), (some_rows ls "TimingPoints") as (tr & Ht).
  now destruct (map_facts2 fuel ls b hr tr er H Hh Ht He) as (_ & E & _).
Qed.
(** The length is the latest time of a hit object row, and at least 0. *)
Theorem C60_length : forall fuel ls b hr, parse_lines fuel ls = Ok (Some b) -> section_rows ls "HitObjects" hr ->
  0 <= bm_Length b /\ (forall fs t, In fs hr -> row_time fs t -> t <= bm_Length b) /\
  (bm_Length b = 0 \/ exists fs, In fs hr /\ row_time fs (bm_Length b)).
Proof.
  intros fuel ls b hr H Hh. destruct (some_rows ls "Events") as (er & He), (some_rows ls "TimingPoints") as (tr & Ht).
  destruct (map_facts2 fuel ls b hr tr er H Hh Ht He) as (_ & _ & (ts & F & E) & _). rewrite E. destruct (fold_max ts 0) as (A & B & C). cbv zeta in *.
  split; [exact A|]. split.
  - intros fs t Hfs R. clear E C H Hh. generalize dependent (fold_left Z.max ts 0). intros l _ B.
    induction F as [|x y xs ys Rxy F IH]; [destruct Hfs|]. inversion B; subst. destruct Hfs as [->|Hfs]; [rewrite (row_time_fun fs t y R Rxy); assumption|now apply IH].
  - destruct C as [C|C]; [now left|]. right. clear A B E H Hh. revert C. generalize (fold_left Z.max ts 0). intros l C.
    induction F as [|x y xs ys Rxy F IH]; [destruct C|]. destruct C as [->|C]; [exists x; split; [now left|exact Rxy]|].
    destruct (IH C) as (fs & I1 & I2). exists fs. split; [now right|exact I2].
Qed.
(** The tempo range covers every row with a non-negative beat length and is attained. *)
Theorem C60_tempo : forall fuel ls b tr, parse_lines fuel ls = Ok (Some b) -> section_rows ls "TimingPoints" tr ->
  (tempos tr = [] -> bm_MinBPM b = finf /\ bm_MaxBPM b = f0) /\
  (tempos tr <> [] -> In (bm_MinBPM b) (tempos tr) /\ (bm_MaxBPM b = f0 \/ In (bm_MaxBPM b) (tempos tr)) /\
    fle (bm_MinBPM b) (bm_MaxBPM b) = true /\
    forall x, In x (tempos tr) -> fle (bm_MinBPM b) x = true /\ fle x (bm_MaxBPM b) = true).
Proof.
  intros fuel ls b tr H Ht. destruct (some_rows ls "HitObjects") as (hr & Hh), (some_rows ls "Events") as (er & He).
  destruct (map_facts2 fuel ls b hr tr er H Hh Ht He) as (_ & _ & _ & -> & ->). split; [intros ->; split; reflexivity|]. intros N.
  destruct (fold_fmin_inf _ (tempos_num tr) N) as (A & B). destruct (fold_fmax _ (tempos_num tr) f0 eq_refl) as (C & _ & D & E). cbv zeta in *.
  split; [exact B|]. split; [exact E|].
  assert (K : forall x, In x (tempos tr) -> fle (fold_left fmin (tempos tr) finf) x = true /\ fle x (fold_left fmax (tempos tr) f0) = true).
  { intros x Hx. split; [exact (proj1 (Forall_forall _ _) A x Hx)|exact (proj1 (Forall_forall _ _) D x Hx)]. }
  split; [|exact K]. exact (proj2 (K _ B)).
Qed.

Definition rich_map : list str := map lit [
  "[Events]"; "//Background"; "0,0,""old.jpg"",0,0"; "2,100,200.5"; "Background,0,""bg"".jpg"; "Break,300,400"; "Video,0,""v.avi""";
  "[Metadata]"; "Title:A"; "[TimingPoints]"; "0,300"; "100,-50"; "200,600"; "300,NaN"; "400,400";
  "[HitObjects]"; "1,1,700,1,0"; "1,1,100,8,0,900"; "1,1,200,128,0,950:x:y"; "1,1,800.5,1,0"]%string.
Example C60_instance :
  view (fun b => (ev_Bg (bm_events b), map (fun p => (feq (ps_Start p) (fq 100 1), feq (ps_End p) (fq 400 1))) (ev_Pauses (bm_events b)), bm_Length b,
      feq (bm_MinBPM b) (fq 100 1), feq (bm_MaxBPM b) (fq 200 1))) (parse_lines 0 rich_map)
    = Some (Some (lit "bg.jpg", [(true, false); (false, true)], 950, true, true)).
Proof. vm_compute. reflexivity. Qed.
Example C60_instance_rows : exists er hr tr, section_rows rich_map "Events" er /\ section_rows rich_map "HitObjects" hr /\ section_rows rich_map "TimingPoints" tr /\
  length (filter is_background er) = 2%nat /\ length (filter is_break er) = 2%nat /\ length (tempos tr) = 3%nat /\ length hr = 4%nat.
Proof.
  eexists _, _, _. rewrite !section_rows_iff. do 3 (split; [reflexivity|]). vm_compute. auto.
Qed.
(** With no usable row the range is empty, and a row with beat length -0 gives -Inf. *)
Example C60_no_rows :
  view (fun b => fgt (bm_MinBPM b) (bm_MaxBPM b)) (parse_lines 0 (map lit ["[Metadata]"; "Title:A"; "[TimingPoints]"; "0,-50"]%string)) = Some (Some true) /\
  view (fun b => is_ninf (bm_MinBPM b)) (parse_lines 0 (map lit ["[Metadata]"; "Title:A"; "[TimingPoints]"; "0,-0"]%string)) = Some (Some true).
Proof. split; vm_compute; reflexivity. Qed.
End WithLibm.

Print Assumptions C60_background.
Print Assumptions C60_breaks.
Print Assumptions C60_length.
Print Assumptions C60_tempo.

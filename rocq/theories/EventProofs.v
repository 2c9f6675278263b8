(** Events, length and tempo range of a parsed map. *)
From Coq Require Import Reals Lra.
From Flocq Require Import Core BinarySingleNaN.
From Verif Require Import Parser SpecParser SpecMap BaseLemmas FloatLemmas StringLemmas ParserProofs ObjectProofs FinishProofs MapProofs CurveProofs.
Import ListNotations.
Open Scope Z_scope.

Section WithLibm.
Context {M : libm}.

Lemma unquoted_iff s : forall t, unquoted s t <-> t = remove_byte quote s.
Proof.
  induction s as [|c s IH]; intros t; cbn [remove_byte filter].
  - split; [inversion 1; reflexivity|intros ->; constructor].
  - destruct (Ascii.eqb_spec quote c) as [<-|N]; cbn [negb].
    + split; [inversion 1; subst; [now apply IH|congruence]|intros H; constructor; now apply IH].
    + split; [inversion 1; subst; [congruence|f_equal; now apply IH]|intros ->; constructor; [congruence|now apply IH]].
Qed.

(** one event row *)
Lemma ev_step_ok e fs e' : ev_step e fs = Ok e' ->
  ev_Bg e' = (if is_background fs then remove_byte quote (field 2 fs) else ev_Bg e) /\
  ev_Pauses e' = ev_Pauses e ++ (if is_break fs then [break_of fs] else []).
Proof.
  unfold ev_step, parse_events. intros H. apply bind_ok in H as (k & Hk & H). apply (field_idx fs 0) in Hk. subst k.
  unfold is_background, is_break.
  destruct (str_eqb (field 0 fs) (lit "Background") || str_eqb (field 0 fs) (lit "0")) eqn:B.
  - apply bind_ok in H as (v & Hv & H). apply (field_idx fs 2) in Hv. subst v. injection H as <-. cbn [ev_Bg ev_Pauses]. split; [reflexivity|].
    assert (N : str_eqb (field 0 fs) (lit "Break") || str_eqb (field 0 fs) (lit "2") = false).
    { apply orb_true_iff in B as [B|B]; apply str_eqb_eq in B; rewrite B; reflexivity. }
    rewrite N. now rewrite app_nil_r.
  - destruct (str_eqb (field 0 fs) (lit "Break") || str_eqb (field 0 fs) (lit "2")).
    + apply bind_ok in H as (p & Hp & H). injection H as <-. cbn [ev_Bg ev_Pauses]. split; [reflexivity|]. f_equal. f_equal.
      unfold new_pause in Hp. apply bind_ok in Hp as (a & Ha & Hp). apply bind_ok in Hp as (b & Hb & Hp).
      apply (field_idx fs 1) in Ha. apply (field_idx fs 2) in Hb. subst a b. injection Hp as <-. reflexivity.
    + injection H as <-. now rewrite app_nil_r.
Qed.
Lemma ev_fold rs : forall e e', foldM ev_step e rs = Ok e' ->
  ev_Bg e' = last (map (fun fs => remove_byte quote (field 2 fs)) (filter is_background rs)) (ev_Bg e) /\
  ev_Pauses e' = ev_Pauses e ++ map break_of (filter is_break rs).
Proof.
  induction rs as [|fs rs IH]; intros e e' H; cbn [foldM] in H.
  - injection H as <-. cbn. now rewrite app_nil_r.
  - apply bind_ok in H as (e1 & H1 & H). apply ev_step_ok in H1 as [B1 P1]. apply IH in H as [B P]. cbn [filter]. split.
    + rewrite B, B1. destruct (is_background fs); [|reflexivity]. cbn [map].
      generalize (map (fun fs0 => remove_byte quote (field 2 fs0)) (filter is_background rs)). intros l.
      generalize (remove_byte quote (field 2 fs)), (ev_Bg e). induction l as [|x l IHl]; intros d d'; [reflexivity|].
      destruct l as [|y l]; [reflexivity|]. specialize (IHl d d'). exact IHl.
    + rewrite P, P1. rewrite <- app_assoc. f_equal. destruct (is_break fs); reflexivity.
Qed.

(** length *)
Lemma split_colon_first s : forall f fs, split ":"%char s = f :: fs -> before_colon s f.
Proof.
  induction s as [|c s IH]; intros f fs; cbn [split].
  - intros H. injection H as <- <-. split; [intros []|now left].
  - destruct (Ascii.eqb_spec ":" c) as [<-|N].
    + intros H. injection H as <- <-. split; [intros []|]. right. exists s. reflexivity.
    + destruct (split ":" s) as [|g gs] eqn:E; [destruct s; cbn [split] in E; [discriminate|destruct (Ascii.eqb ":" a); [discriminate|destruct (split ":" s); discriminate]]|].
      intros H. injection H as <- <-. destruct (IH g gs eq_refl) as [H1 H2]. split.
      * intros [->|H]; [congruence|auto].
      * destruct H2 as [->|(u & ->)]; [now left|right; exists u; reflexivity].
Qed.
Lemma ob_step_time fuel s fs s' : ob_step fuel s fs = Ok s' -> exists t, row_time fs t /\ os_Length s' = Z.max (os_Length s) t.
Proof.
  unfold ob_step, parse_hit_object. intros H. apply bind_ok in H as (a3 & H3 & H). apply (field_idx fs 3) in H3. subst a3.
  change CIRCLE with (2 ^ 0) in H. change SPINNER with (2 ^ 3) in H. change SLIDER with (2 ^ 1) in H. change LONGNOTE with (2 ^ 7) in H.
  rewrite !has_type_bit in H by lia. apply bind_ok in H as ([[[c sl] sp] time] & Hr & H).
  apply bind_ok in H as (o & Ho & H). injection H as <-. cbn [os_Length]. exists (atoi time). split.
  - unfold row_time, type_of. cbv zeta.
    destruct (Z.testbit (atoi (field 3 fs)) 0). { apply bind_ok in Hr as (x & E & Hr). apply (field_idx fs 2) in E. injection Hr as _ _ _ <-. now subst x. }
    destruct (Z.testbit (atoi (field 3 fs)) 3). { apply bind_ok in Hr as (x & E & Hr). apply (field_idx fs 5) in E. injection Hr as _ _ _ <-. now subst x. }
    destruct (Z.testbit (atoi (field 3 fs)) 1). { apply bind_ok in Hr as (x & E & Hr). apply (field_idx fs 2) in E. injection Hr as _ _ _ <-. now subst x. }
    destruct (Z.testbit (atoi (field 3 fs)) 7).
    { apply bind_ok in Hr as (x & E & Hr). apply (field_idx fs 5) in E. apply bind_ok in Hr as (h & Eh & Hr). injection Hr as _ _ _ <-. subst x.
      exists h. split; [|reflexivity]. destruct (split ":" (field 5 fs)) as [|f r] eqn:S; [discriminate Eh|].
      change (idx (f :: r) 0) with (Ok f) in Eh. injection Eh as <-. now apply (split_colon_first _ f r). }
    injection Hr as _ _ _ <-. reflexivity.
  - unfold maxI. destruct (Z.ltb_spec (atoi time) (os_Length s)) as [L|L]; [now rewrite Z.max_l by lia|now rewrite Z.max_r by lia].
Qed.
Lemma ob_fold_time fuel rs : forall s s', foldM (ob_step fuel) s rs = Ok s' -> exists ts, Forall2 row_time rs ts /\ os_Length s' = fold_left Z.max ts (os_Length s).
Proof.
  induction rs as [|fs rs IH]; intros s s' H; cbn [foldM] in H.
  - injection H as <-. exists []. split; [constructor|reflexivity].
  - apply bind_ok in H as (s1 & H1 & H). apply ob_step_time in H1 as (t & R & E). apply IH in H as (ts & F & E'). exists (t :: ts).
    split; [now constructor|]. cbn [fold_left]. now rewrite E', E.
Qed.
Lemma fold_max ts : forall m, let r := fold_left Z.max ts m in m <= r /\ Forall (fun t => t <= r) ts /\ (r = m \/ In r ts).
Proof.
  induction ts as [|t ts IH]; intros m; cbn [fold_left]; [repeat split; [lia|constructor|now left]|].
  destruct (IH (Z.max m t)) as (A & B & C). cbv zeta in *. split; [lia|]. split; [constructor; [lia|exact B]|].
  destruct C as [C|C]; [|right; now right]. destruct (Z.max_spec m t) as [[_ E]|[_ E]]; [right; left; lia|left; lia].
Qed.

(** tempo *)
Lemma tempo_num (x : f64) : fle f0 x = true -> num (fdiv (fq 60000 1) x).
Proof.
  intros H. destruct x as [z|z| |s m e B].
  { destruct z; vm_compute; reflexivity. } { destruct z; [discriminate H|vm_compute; reflexivity]. } { discriminate H. } clear H.
  assert (Z : B2R (B754_finite s m e B) <> 0%R).
  { cbn [B2R]. apply F2R_neq_0. destruct s; discriminate. }
  pose proof (Bdiv_correct 53 1024 p53 pe53 mode_NE (fq 60000 1) _ Z) as H1. unfold num. fold (fdiv (fq 60000 1) (B754_finite s m e B)) in H1.
  destruct (Rlt_bool _ _).
  - destruct H1 as (_ & F & _). apply fin_num. unfold fin. rewrite F. vm_compute. reflexivity.
  - destruct (fdiv (fq 60000 1) (B754_finite s m e B)); try reflexivity. cbn [B2SF] in H1. unfold binary_overflow in H1. cbn [overflow_to_inf] in H1. discriminate H1.
Qed.
Lemma fmin_pick (x y : f64) : num x -> num y -> (fmin x y = x \/ fmin x y = y).
Proof.
  intros Nx Ny. unfold fmin. destruct (is_ninf x) eqn:Ix; [left; destruct x as [|[]| |]; try discriminate Ix; reflexivity|].
  destruct (is_ninf y) eqn:Iy; [right; destruct y as [|[]| |]; try discriminate Iy; reflexivity|]. cbn [orb].
  unfold num in Nx, Ny. unfold fisnan. rewrite Nx, Ny. cbn [orb]. destruct (is_zero x && is_zero y); [destruct (Bsign x)|destruct (flt x y)]; auto.
Qed.
Lemma fmax_pick (x y : f64) : num x -> num y -> (fmax x y = x \/ fmax x y = y).
Proof.
  intros Nx Ny. unfold fmax. destruct (is_pinf x) eqn:Ix; [left; destruct x as [|[]| |]; try discriminate Ix; reflexivity|].
  destruct (is_pinf y) eqn:Iy; [right; destruct y as [|[]| |]; try discriminate Iy; reflexivity|]. cbn [orb].
  unfold num in Nx, Ny. unfold fisnan. rewrite Nx, Ny. cbn [orb]. destruct (is_zero x && is_zero y); [destruct (Bsign x)|destruct (fgt x y)]; auto.
Qed.
Lemma pt_step_bpm t fs t' : (2 <= length fs)%nat -> Forall (fun f => ~ In ","%char f) fs -> pt_step t fs = Ok t' ->
  ts_MinBPM t' = (if tempo_row fs then fmin (ts_MinBPM t) (tempo fs) else ts_MinBPM t) /\
  ts_MaxBPM t' = (if tempo_row fs then fmax (ts_MaxBPM t) (tempo fs) else ts_MaxBPM t).
Proof.
  intros L C. unfold pt_step, parse_point. rewrite (split_of_join fs); [|destruct fs; [cbn in L; lia|discriminate]|exact C].
  destruct fs as [|a [|b fs]]; cbn [length] in L; try lia.
  change (idx (a :: b :: fs) 0) with (Ok a). change (idx (a :: b :: fs) 1) with (Ok b). cbn [bind].
  intros H. assert (Ok_inj : forall A (x y : A), Ok x = Ok y -> x = y) by (intros A x y Q; now injection Q). apply Ok_inj in H. rewrite <- H. cbn [ts_MinBPM ts_MaxBPM]. unfold tempo_row, tempo. cbn [nth]. cbv zeta.
  assert (E : negb (fisnan (parse_f64 b)) && fge (parse_f64 b) f0 = fle f0 (parse_f64 b)).
  { unfold fge. destruct (fisnan (parse_f64 b)) eqn:N; [|reflexivity]. destruct (parse_f64 b); try discriminate N. reflexivity. }
  rewrite E. destruct (fle f0 (parse_f64 b)); split; reflexivity.
Qed.
Lemma pt_fold_bpm rs : (forall r, In r rs -> (2 <= length r)%nat /\ Forall (fun f => ~ In ","%char f) r) -> forall t t', foldM pt_step t rs = Ok t' ->
  ts_MinBPM t' = fold_left fmin (tempos rs) (ts_MinBPM t) /\ ts_MaxBPM t' = fold_left fmax (tempos rs) (ts_MaxBPM t).
Proof.
  induction rs as [|fs rs IH]; intros H t t' E; cbn [foldM] in E.
  - injection E as <-. split; reflexivity.
  - apply bind_ok in E as (t1 & E1 & E). destruct (H fs (or_introl eq_refl)) as [L C]. apply pt_step_bpm in E1 as [A B]; [|exact L|exact C].
    apply IH in E as [A' B']; [|intros r Hr; apply H; now right]. rewrite A', B', A, B. unfold tempos. cbn [filter].
    destruct (tempo_row fs); split; reflexivity.
Qed.
Lemma tempos_num rs : Forall num (tempos rs).
Proof.
  unfold tempos. apply Forall_forall. intros x Hx. apply in_map_iff in Hx as (fs & <- & Hf). apply filter_In in Hf as [_ Hf]. now apply tempo_num.
Qed.
Lemma fle_key (x y : f64) : num x -> num y -> (fle x y = true <-> (key x <= key y)%R).
Proof. intros Hx Hy. rewrite (fle_iff x y). tauto. Qed.
Lemma fold_fmin l : Forall num l -> forall m, num m -> let r := fold_left fmin l m in
  num r /\ (key r <= key m)%R /\ Forall (fun x => fle r x = true) l /\ (r = m \/ In r l).
Proof.
  induction 1 as [|x l Nx Nl IH]; intros m Nm; cbn [fold_left]; cbv zeta.
  - split; [exact Nm|]. split; [apply Rle_refl|]. split; [constructor|now left].
  - destruct (fmin_key m x Nm Nx) as [N K]. destruct (IH (fmin m x) N) as (A & B & C & D). cbv zeta in *. split; [exact A|].
    rewrite K in B. split; [eapply Rle_trans; [exact B|apply Rmin_l]|]. split.
    + constructor; [|exact C]. apply fle_key; [exact A|exact Nx|]. eapply Rle_trans; [exact B|apply Rmin_r].
    + destruct D as [D|D]; [|right; now right]. rewrite D. destruct (fmin_pick m x Nm Nx) as [->| ->]; [now left|right; now left].
Qed.
Lemma fold_fmax l : Forall num l -> forall m, num m -> let r := fold_left fmax l m in
  num r /\ (key m <= key r)%R /\ Forall (fun x => fle x r = true) l /\ (r = m \/ In r l).
Proof.
  induction 1 as [|x l Nx Nl IH]; intros m Nm; cbn [fold_left]; cbv zeta.
  - split; [exact Nm|]. split; [apply Rle_refl|]. split; [constructor|now left].
  - destruct (fmax_key m x Nm Nx) as [N K]. destruct (IH (fmax m x) N) as (A & B & C & D). cbv zeta in *. split; [exact A|].
    rewrite K in B. split; [eapply Rle_trans; [apply Rmax_l|exact B]|]. split.
    + constructor; [|exact C]. apply fle_key; [exact Nx|exact A|]. eapply Rle_trans; [apply Rmax_r|exact B].
    + destruct D as [D|D]; [|right; now right]. rewrite D. destruct (fmax_pick m x Nm Nx) as [->| ->]; [now left|right; now left].
Qed.
(** the minimum is attained even though the fold starts at +Inf *)
Lemma fold_fmin_inf l : Forall num l -> l <> [] -> let r := fold_left fmin l finf in Forall (fun x => fle r x = true) l /\ In r l.
Proof.
  intros N L. destruct (fold_fmin l N finf eq_refl) as (A & B & C & D). cbv zeta in *. split; [exact C|]. destruct D as [D|D]; [|exact D].
  destruct l as [|x l]; [congruence|]. left. rewrite D. rewrite D in C. inversion C as [|? ? Hx _]. destruct x as [|[]| |]; try discriminate Hx. reflexivity.
Qed.

Lemma map_facts2 fuel ls b hr tr er : parse_lines fuel ls = Ok (Some b) ->
  section_rows ls "HitObjects" hr -> section_rows ls "TimingPoints" tr -> section_rows ls "Events" er ->
  ev_Bg (bm_events b) = last (map (fun fs => remove_byte quote (field 2 fs)) (filter is_background er)) [] /\
  ev_Pauses (bm_events b) = map break_of (filter is_break er) /\
  (exists ts, Forall2 row_time hr ts /\ bm_Length b = fold_left Z.max ts 0) /\
  bm_MinBPM b = fold_left fmin (tempos tr) finf /\ bm_MaxBPM b = fold_left fmax (tempos tr) f0.
Proof.
  intros H Hh Ht He. apply section_rows_iff in Hh, Ht, He. apply parsed in H as (st & R & _ & F). destruct R as (_ & _ & _ & Re & Rt & Ro).
  change (st_events pstate0) with (mkEvents [] []) in Re. change (st_time pstate0) with timesec0 in Rt. rewrite <- He in Re.
  apply (pt_fold_bpm _ (rows_ok (body "TimingPoints" (annotate [] ls)))) in Rt. rewrite <- Ht in Rt. rewrite <- Hh in Ro.
  apply ob_fold_time in Ro as (ts & FT & ET). apply ev_fold in Re as [B P].
  apply finish_some in F as (_ & _ & _ & _ & _ & E1 & E2 & _ & _ & _ & E3 & E4 & _).
  rewrite E1, E2, E3, E4. split; [exact B|]. split; [exact P|]. split; [exists ts; split; [exact FT|exact ET]|]. exact Rt.
Qed.
End WithLibm.

(** Strains and strain peaks: the section loop computes the peak of each section. *)
From Coq Require Import Reals Lra.
From Flocq Require Import Core BinarySingleNaN.
From Verif Require Import DiffCalc SpecDiff SpecStrain BaseLemmas FloatLemmas Float32Lemmas CurveProofs CurveStart DiffProofs SectionProofs.
Import ListNotations.
Open Scope Z_scope.

(** ** Lists *)
Lemma nth_error_snoc {A} (l : list A) x i y : nth_error (l ++ [x]) i = Some y ->
  (i < length l)%nat /\ nth_error l i = Some y \/ i = length l /\ y = x.
Proof.
  intros H. destruct (Nat.lt_ge_cases i (length l)) as [L|L]; [left; rewrite nth_error_app1 in H by exact L; auto|right].
  rewrite nth_error_app2 in H by exact L. destruct (i - length l)%nat as [|n] eqn:E; [split; [lia|now inversion H]|]. cbn in H. destruct n; discriminate H.
Qed.
Lemma last_nth {A} (l : list A) d : nth (length l - 1) l d = last l d.
Proof.
  induction l as [|x l IH]; [reflexivity|]. destruct l as [|y l]; [reflexivity|]. change (last (x :: y :: l) d) with (last (y :: l) d). rewrite <- IH.
  replace (length (x :: y :: l) - 1)%nat with (S (length (y :: l) - 1)) by (cbn [length]; lia). reflexivity.
Qed.
Lemma last_snoc {A} (l : list A) x d : last (l ++ [x]) d = x.
Proof. apply last_last. Qed.
Lemma sections_from_snoc ts t : forall K, sections_from K (ts ++ [t]) = sections_from K ts ++ [Z.max (last (sections_from K ts) K) (section_of t)].
Proof.
  induction ts as [|u ts IH]; intros K; cbn [sections_from app]; [reflexivity|]. rewrite IH. f_equal. f_equal. f_equal. f_equal.
  destruct (sections_from (Z.max K (section_of u)) ts) as [|a l] eqn:E; [reflexivity|]. rewrite <- E.
  change (last (Z.max K (section_of u) :: sections_from (Z.max K (section_of u)) ts) K) with
    (match sections_from (Z.max K (section_of u)) ts with [] => Z.max K (section_of u) | _ => last (sections_from (Z.max K (section_of u)) ts) K end).
  rewrite E. clear. revert a. induction l as [|b l IH]; intros a; [reflexivity|]. cbn [last]. apply IH.
Qed.
Lemma sections_snoc ts t : ts <> [] -> sections (ts ++ [t]) = sections ts ++ [Z.max (last (sections ts) 0) (section_of t)].
Proof.
  destruct ts as [|u ts]; [congruence|]. intros _. cbn [sections app]. rewrite sections_from_snoc. cbn [app]. f_equal. f_equal. f_equal.
  destruct (sections_from (section_of u) ts) as [|a l] eqn:E; [reflexivity|].
  change (last (section_of u :: a :: l) 0) with (last (a :: l) 0). f_equal. clear. revert a. induction l as [|b l IH]; intros a; [reflexivity|]. cbn [last]. apply IH.
Qed.
Lemma sections_length ts : length (sections ts) = length ts.
Proof.
  destruct ts as [|t ts]; [reflexivity|]. cbn [sections length]. f_equal. generalize (section_of t). clear.
  induction ts as [|u ts IH]; intros K; [reflexivity|]. cbn [sections_from length]. now rewrite IH.
Qed.
Lemma entries_snoc Ks ts xs K t x : length Ks = length ts -> length ts = length xs ->
  entries (Ks ++ [K]) (ts ++ [t]) (xs ++ [x]) = entries Ks ts xs ++ [mkEntry K t x].
Proof.
  revert ts xs. induction Ks as [|K0 Ks IH]; intros [|t0 ts] [|x0 xs] H1 H2; try discriminate; [reflexivity|].
  cbn [entries app]. rewrite IH; auto.
Qed.
Lemma filter_all {A} (f : A -> bool) l : Forall (fun x => f x = true) l -> filter f l = l.
Proof. induction 1 as [|x l H _ IH]; [reflexivity|]. cbn [filter]. now rewrite H, IH. Qed.
Lemma filter_none {A} (f : A -> bool) l : Forall (fun x => f x = false) l -> filter f l = [].
Proof. induction 1 as [|x l H _ IH]; [reflexivity|]. cbn [filter]. now rewrite H, IH. Qed.
Lemma filter_snoc {A} (f : A -> bool) l x : filter f (l ++ [x]) = filter f l ++ (if f x then [x] else []).
Proof. rewrite filter_app. cbn [filter]. destruct (f x); reflexivity. Qed.

Section WithLibm.
Context {M : libm}.
Lemma memory_eq k : history_length k = memory k. Proof. destruct k; reflexivity. Qed.
Lemma left_over_eq k ms : strain_decay k ms = left_over k ms.
Proof. unfold strain_decay, left_over. f_equal. destruct k; apply B2SF_eq; vm_compute; reflexivity. Qed.
Lemma weight_eq k : skill_multiplier k = weight_of k. Proof. destruct k; reflexivity. Qed.
Lemma seen_app k dos o i : (i <= length dos)%nat -> seen k (dos ++ [o]) i = seen k dos i.
Proof. intros H. unfold seen. rewrite firstn_app. replace (i - length dos)%nat with O by lia. cbn [firstn]. now rewrite app_nil_r. Qed.
Lemma seen_end k dos : seen k dos (length dos) = firstn (memory k) (rev dos).
Proof. unfold seen. now rewrite firstn_all. Qed.

Lemma strains_snoc k d dos ss o : strains_of k d dos ss ->
  strains_of k d (dos ++ [o]) (ss ++ [fadd (fmul (last ss f0) (left_over k (do_DeltaTime o))) (fmul (strain_value k d (firstn (memory k) (rev dos)) o) (weight_of k))]).
Proof.
  intros [L H]. split; [rewrite !app_length; cbn [length]; lia|]. intros i o' s' H1 H2.
  apply nth_error_snoc in H1 as [[L1 H1]|[-> ->]]; apply nth_error_snoc in H2 as [[L2 H2]|[E2 ->]]; try lia.
  - rewrite seen_app by lia. cbv zeta. specialize (H i o' s' H1 H2). cbv zeta in H. rewrite H. destruct i as [|j]; [reflexivity|]. rewrite app_nth1 by lia. reflexivity.
  - cbv zeta. rewrite seen_app, seen_end by lia. f_equal. f_equal. destruct dos as [|a dos']; [destruct ss; [reflexivity|discriminate L]|].
    cbn [length]. rewrite app_nth1 by (cbn [length] in *; lia).
    cbn [length] in L. replace (length dos') with (length ss - 1)%nat by lia. symmetry. apply last_nth.
Qed.
Definition shows (k : skill_kind) (s rh : f64) : f64 := match k with Speed => fmul s rh | _ => s end.
Lemma shown_snoc k d dos ss xs o s rh : length ss = length dos -> shown_of k d dos ss xs ->
  match k with Speed => speed_bonus d (firstn (memory k) (rev dos)) o = Ok rh | _ => True end ->
  shown_of k d (dos ++ [o]) (ss ++ [s]) (xs ++ [shows k s rh]).
Proof.
  intros LS [L H] R. split; [rewrite !app_length; cbn [length]; lia|]. intros i o' s' x H1 H2 H3.
  apply nth_error_snoc in H1 as [[L1 H1]|[-> ->]]; apply nth_error_snoc in H2 as [[L2 H2]|[E2 ->]]; apply nth_error_snoc in H3 as [[L3 H3]|[E3 ->]]; try lia.
  - specialize (H i o' s' x H1 H2 H3). destruct k; auto. rewrite seen_app by lia. exact H.
  - destruct k; try reflexivity. rewrite seen_app, seen_end by lia. exists rh. split; [exact R|reflexivity].
Qed.

(** ** The section loop *)
Definition start_of (k : skill_kind) (s : skill) (t e : f64) : f64 := fmul (shows k (sk_strain s) (sk_rhythm s)) (left_over k (fsub e t)).
Lemma loop_peaks k t (T : time_ok t) fuel : forall s s' K p r, sk_prev s = p :: r -> fin (sk_end s) -> (B2R (sk_end s) = 400 * IZR K)%R -> Z.abs K <= 22517998136853 ->
  section_loop fuel k t s = Ok s' ->
  exists bs, zlen bs = Z.max K (section_of (B2R t)) - K /\
    (forall i b, nth_error bs i = Some b -> fin b /\ B2R b = (400 * IZR (K + Z.of_nat i))%R) /\
    current_peaks s' = current_peaks s ++ map (start_of k s (do_StartTime p)) bs /\
    sk_prev s' = sk_prev s /\ sk_strain s' = sk_strain s /\ sk_rhythm s' = sk_rhythm s /\
    fin (sk_end s') /\ (B2R (sk_end s') = 400 * IZR (Z.max K (section_of (B2R t))))%R.
Proof.
  pose proof T as (_ & B & _). apply section_bound in B.
  assert (DONE : forall s K, fin (sk_end s) -> (B2R (sk_end s) = 400 * IZR K)%R -> section_of (B2R t) <= K -> forall p : dobj,
    exists bs, zlen bs = Z.max K (section_of (B2R t)) - K /\ (forall i b, nth_error bs i = Some b -> fin b /\ B2R b = (400 * IZR (K + Z.of_nat i))%R) /\
    current_peaks s = current_peaks s ++ map (start_of k s (do_StartTime p)) bs /\ sk_prev s = sk_prev s /\ sk_strain s = sk_strain s /\ sk_rhythm s = sk_rhythm s /\
    fin (sk_end s) /\ (B2R (sk_end s) = 400 * IZR (Z.max K (section_of (B2R t))))%R).
  { intros s K F E H p. exists []. rewrite Z.max_l by lia. split; [unfold zlen; cbn; lia|]. split; [intros i b Hi; destruct i; discriminate Hi|].
    split; [cbn [map]; now rewrite app_nil_r|]. repeat (split; [reflexivity|]). auto. }
  induction fuel as [|fuel IH]; intros s s' K p r P F E BK H; cbn [section_loop] in H; rewrite (fgt_section t (sk_end s) K T F E) in H; destruct (Z.ltb_spec K (section_of (B2R t))) as [G|G].
  - discriminate H.
  - apply Ok_inj in H. subst s'. now apply DONE.
  - unfold initial_strain in H. rewrite P in H. cbn [bind] in H. destruct (next_end (sk_end s) K F E) as (F1 & E1); [lia|].
    match type of H with section_loop fuel k t ?s1 = _ => destruct (IH s1 s' (K + 1) p r) as (bs & A1 & A2 & A3 & A4 & A5 & A6 & A7 & A8) end; cbn [sk_prev sk_end]; auto; [lia|].
    exists (sk_end s :: bs). rewrite Z.max_r in * by lia. split; [unfold zlen in *; cbn [length]; lia|]. split.
    { intros [|i] b Hi; cbn [nth_error] in Hi; [inversion Hi; subst b; rewrite Z.add_0_r; auto|]. destruct (A2 i b Hi) as [Q1 Q2]. split; [exact Q1|]. rewrite Q2. f_equal. f_equal. lia. }
    split; [|cbn [sk_prev sk_strain sk_rhythm] in *; repeat (split; [congruence|]); auto].
    rewrite A3. unfold current_peaks. cbn [sk_peaks sk_peak map]. rewrite <- !app_assoc. cbn [app]. f_equal. f_equal. f_equal.
    unfold start_of, shows. rewrite left_over_eq. destruct k; reflexivity.
  - apply Ok_inj in H. subst s'. now apply DONE.
Qed.

(** ** The state after a non-empty prefix *)
Definition starts (dos : list dobj) : list f64 := map do_StartTime dos.
Definition secs (dos : list dobj) : list Z := sections (map (@B2R 53 1024) (starts dos)).
Definition ents (dos : list dobj) (shown : list f64) : list entry := entries (secs dos) (starts dos) shown.
Record at_prefix (k : skill_kind) (d : difficulty) (done : list dobj) (s : skill) (ss shown : list f64) : Prop := {
  ap_strains : strains_of k d done ss;
  ap_shown : shown_of k d done ss shown;
  ap_prev : sk_prev s = firstn (S (memory k)) (rev done);
  ap_strain : sk_strain s = last ss f0;
  ap_show : shows k (sk_strain s) (sk_rhythm s) = last shown f0;
  ap_fin : fin (sk_end s);
  ap_end : B2R (sk_end s) = (400 * IZR (last (secs done) 0%Z))%R;
  ap_bound : Z.abs (last (secs done) 0) <= 22517998136853;
  ap_max : Forall (fun e => en_section e <= last (secs done) 0) (ents done shown);
  ap_count : zlen (current_peaks s) = last (secs done) 0 - hd 0 (secs done) + 1;
  ap_peaks : forall n p, nth_error (current_peaks s) n = Some p -> peak_of k (ents done shown) (hd 0 (secs done) + Z.of_nat n) p }.

Lemma starts_snoc dos o : starts (dos ++ [o]) = starts dos ++ [do_StartTime o].
Proof. unfold starts. now rewrite map_app. Qed.
Lemma secs_snoc dos o : dos <> [] -> secs (dos ++ [o]) = secs dos ++ [Z.max (last (secs dos) 0) (section_of (B2R (do_StartTime o)))].
Proof. intros H. unfold secs. rewrite starts_snoc, map_app. apply sections_snoc. destruct dos; [congruence|discriminate]. Qed.
Lemma hd_snoc {A} (l : list A) x d : l <> [] -> hd d (l ++ [x]) = hd d l.
Proof. destruct l; [congruence|reflexivity]. Qed.
Lemma secs_length dos : length (secs dos) = length dos.
Proof. unfold secs, starts. now rewrite sections_length, !map_length. Qed.
Lemma ents_snoc dos shown o x : dos <> [] -> length shown = length dos ->
  ents (dos ++ [o]) (shown ++ [x]) = ents dos shown ++ [mkEntry (Z.max (last (secs dos) 0) (section_of (B2R (do_StartTime o)))) (do_StartTime o) x].
Proof.
  intros H L. unfold ents. rewrite secs_snoc, starts_snoc by exact H. apply entries_snoc; unfold starts; rewrite ?secs_length, map_length; auto.
Qed.

(** what a new entry in a later section changes *)
Lemma carried_old k es e K c : K <= en_section e -> carried k es K c -> carried k (es ++ [e]) K c.
Proof.
  intros H C. unfold carried. rewrite filter_snoc. replace (en_section e <? K) with false by (symmetry; apply Z.ltb_ge; lia). rewrite app_nil_r. exact C.
Qed.
Lemma peak_old k es e K p : K < en_section e -> peak_of k es K p -> peak_of k (es ++ [e]) K p.
Proof.
  intros H (c & C & E). exists c. split; [apply carried_old; [lia|exact C]|]. rewrite filter_snoc.
  replace (en_section e =? K) with false by (symmetry; apply Z.eqb_neq; lia). now rewrite app_nil_r.
Qed.
Lemma peak_same k es e p : peak_of k es (en_section e) p -> peak_of k (es ++ [e]) (en_section e) (fmax (en_shown e) p).
Proof.
  intros (c & C & E). exists c. split; [apply carried_old; [lia|exact C]|]. rewrite filter_snoc, Z.eqb_refl, map_app, fold_left_app. cbn [map fold_left]. now rewrite E.
Qed.
Lemma peak_new k es0 e0 K L b : Forall (fun e => en_section e <= L) (es0 ++ [e0]) -> L < K -> fin b -> B2R b = (400 * IZR (K - 1))%R ->
  peak_of k (es0 ++ [e0]) K (fmul (en_shown e0) (left_over k (fsub b (en_time e0)))).
Proof.
  intros F H Fb Eb. eexists. split.
  - right. exists es0, e0, b. rewrite filter_all; [auto|]. eapply Forall_impl; [|exact F]. intros e He. cbv beta in He. apply Z.ltb_lt. lia.
  - rewrite filter_none; [reflexivity|]. eapply Forall_impl; [|exact F]. intros e He. cbv beta in He. apply Z.eqb_neq. lia.
Qed.
Lemma Forall_snoc {A} (P : A -> Prop) l x : Forall P l -> P x -> Forall P (l ++ [x]).
Proof. intros H1 H2. apply Forall_app. auto. Qed.

Lemma prefix_step fuel k d done s ss shown o s' : done <> [] -> time_ok (do_StartTime o) -> at_prefix k d done s ss shown ->
  process fuel k d s o = Ok s' -> exists ss' shown', at_prefix k d (done ++ [o]) s' ss' shown'.
Proof.
  intros NE T I H. destruct I as [I1 I2 I3 I4 I5 I6 I7 I8 I9 I10 I11].
  unfold process in H. rewrite I3 in H. rewrite memory_eq in H. rewrite firstn_firstn in H. rewrite Nat.min_l in H by lia.
  set (hist := firstn (memory k) (rev done)) in *.
  assert (HH : exists p r done0, hist = p :: r /\ done = done0 ++ [p]).
  { destruct done as [|p0 done0] using rev_ind; [congruence|]. unfold hist. rewrite rev_app_distr. cbn [rev app]. destruct k; cbn [memory firstn]; eauto. }
  destruct HH as (p & r & done0 & Eh & Ed).
  assert (En : match hist with [] => fmul (fceil (fdiv (do_StartTime o) section_length)) section_length | _ :: _ => sk_end s end = sk_end s) by now rewrite Eh. rewrite En in H. clear En.
  apply bind_ok in H as (s1 & HL & H).
  destruct (loop_peaks k (do_StartTime o) T fuel (mkSkill hist (sk_strain s) (sk_rhythm s) (sk_peak s) (sk_end s) (sk_peaks s)) s1 (last (secs done) 0) p r Eh I6 I7 I8 HL) as (bs & B1 & B2 & B3 & B4 & B5 & B6 & B7 & B8).
  cbn [sk_prev sk_strain sk_rhythm] in B4, B5, B6.
  set (K' := Z.max (last (secs done) 0) (section_of (B2R (do_StartTime o)))) in *.
  set (ns := fadd (fmul (sk_strain s1) (strain_decay k (do_DeltaTime o))) (fmul (strain_value k d hist o) (skill_multiplier k))) in *.
  apply bind_ok in H as (rh & HR & H). apply Ok_inj in H.
  exists (ss ++ [ns]), (shown ++ [shows k ns rh]).
  pose proof (proj1 I1) as Ls. pose proof (proj1 I2) as Lx.
  assert (E1 : strains_of k d (done ++ [o]) (ss ++ [ns])).
  { unfold ns. rewrite B5, I4, left_over_eq, weight_eq. apply strains_snoc. exact I1. }
  assert (E2 : shown_of k d (done ++ [o]) (ss ++ [ns]) (shown ++ [shows k ns rh])).
  { apply shown_snoc; [exact Ls|exact I2|]. destruct k; auto. }
  assert (SE : secs (done ++ [o]) = secs done ++ [K']) by (apply secs_snoc; exact NE).
  assert (NS : secs done <> []) by (intros Z; pose proof (secs_length done) as LL; rewrite Z in LL; destruct done; [congruence|discriminate LL]).
  assert (EE : ents (done ++ [o]) (shown ++ [shows k ns rh]) = ents done shown ++ [mkEntry K' (do_StartTime o) (shows k ns rh)]) by (apply ents_snoc; auto).
  (* the last entry so far *)
  assert (LE : exists es0, ents done shown = es0 ++ [mkEntry (last (secs done) 0) (do_StartTime p) (last shown f0)]).
  { destruct shown as [|x0 shown0] using rev_ind; [rewrite Ed, app_length in Lx; cbn [length] in Lx; lia|]. rewrite last_snoc.
    rewrite Ed. rewrite Ed, !app_length in Lx. cbn [length] in Lx. destruct done0 as [|q done1].
    - cbn [app]. unfold ents, secs, starts. cbn [map sections sections_from app]. destruct shown0; [|cbn [length] in Lx; lia]. exists []. reflexivity.
    - rewrite ents_snoc by (try discriminate; cbn [length] in *; lia). rewrite secs_snoc by discriminate. rewrite last_snoc. eexists. reflexivity. }
  destruct LE as (es0 & LE).
  assert (PK : current_peaks s' = removelast (current_peaks s1) ++ [fmax (shows k ns rh) (last (current_peaks s1) f0)]).
  { subst s'. unfold current_peaks. cbn [sk_peaks sk_peak]. rewrite removelast_last, last_snoc. unfold shows. destruct k; reflexivity. }
  set (P0 := current_peaks {| sk_prev := hist; sk_strain := sk_strain s; sk_rhythm := sk_rhythm s; sk_peak := sk_peak s; sk_end := sk_end s; sk_peaks := sk_peaks s |}) in *.
  assert (EP0 : P0 = current_peaks s) by reflexivity. rewrite EP0 in B3. clear P0 EP0.
  set (f := start_of k {| sk_prev := hist; sk_strain := sk_strain s; sk_rhythm := sk_rhythm s; sk_peak := sk_peak s; sk_end := sk_end s; sk_peaks := sk_peaks s |} (do_StartTime p)) in *.
  assert (ALL : forall n q, nth_error (current_peaks s1) n = Some q -> peak_of k (ents done shown) (hd 0 (secs done) + Z.of_nat n) q).
  { intros n q Hn. rewrite B3 in Hn. destruct (Nat.lt_ge_cases n (length (current_peaks s))) as [Ln|Ln].
    - rewrite nth_error_app1 in Hn by exact Ln. now apply I11.
    - rewrite nth_error_app2 in Hn by exact Ln. rewrite nth_error_map in Hn. match type of Hn with option_map _ ?x = _ => destruct x as [b|] eqn:Eb end; cbn [option_map] in Hn; [|discriminate Hn].
      inversion Hn; subst q. destruct (B2 _ _ Eb) as [Fb Vb]. unfold f, start_of. cbn [sk_strain sk_rhythm]. rewrite I5. rewrite LE.
      apply (peak_new k es0 (mkEntry (last (secs done) 0) (do_StartTime p) (last shown f0)) _ (last (secs done) 0) b); auto.
      + rewrite <- LE. exact I9.
      + unfold zlen in I10. lia.
      + rewrite Vb. f_equal. f_equal. unfold zlen in I10. lia. }
  assert (CNT : zlen (current_peaks s1) = K' - hd 0 (secs done) + 1).
  { rewrite B3. unfold zlen, f64 in *. rewrite app_length, map_length. lia. }
  assert (NP : current_peaks s1 <> []) by (unfold current_peaks; destruct (sk_peaks s1); discriminate).
  assert (SPLIT : current_peaks s1 = removelast (current_peaks s1) ++ [last (current_peaks s1) f0]) by (now apply app_removelast_last).
  set (P1 := current_peaks s1) in *. set (lp := last P1 f0) in *. set (rp := removelast P1) in *. clearbody P1 lp rp.
  assert (LRP : zlen rp = K' - hd 0 (secs done)) by (rewrite SPLIT in CNT; unfold zlen in *; rewrite app_length in CNT; cbn [length] in CNT; lia).
  constructor; auto.
  - subst s'. cbn [sk_prev]. rewrite rev_app_distr. cbn [rev app firstn]. reflexivity.
  - subst s'. cbn [sk_strain]. now rewrite last_snoc.
  - subst s'. cbn [sk_strain sk_rhythm]. now rewrite last_snoc.
  - subst s'. exact B7.
  - subst s'. cbn [sk_end]. rewrite SE, last_snoc. exact B8.
  - rewrite SE, last_snoc. pose proof T as (_ & B & _). apply section_bound in B. unfold K'. lia.
  - rewrite EE, SE, last_snoc. apply Forall_snoc; [|cbn [en_section]; lia]. eapply Forall_impl; [|exact I9]. intros e He. cbv beta in He. unfold K'. lia.
  - rewrite PK, SE, last_snoc, hd_snoc by exact NS. unfold zlen in *. rewrite app_length. cbn [length]. lia.
  - intros n q Hn. rewrite EE, SE, hd_snoc by exact NS. rewrite PK in Hn. apply nth_error_snoc in Hn as [[Ln Hn]|[-> ->]].
    + apply peak_old; [cbn [en_section]; unfold zlen in LRP; lia|]. apply ALL. rewrite SPLIT. rewrite nth_error_app1 by exact Ln. exact Hn.
    + replace (hd 0 (secs done) + Z.of_nat (length rp)) with K' by (unfold zlen in LRP; lia).
      apply (peak_same k (ents done shown) (mkEntry K' (do_StartTime o) (shows k ns rh)) lp). cbn [en_section].
      replace K' with (hd 0 (secs done) + Z.of_nat (length rp)) by (unfold zlen in LRP; lia). apply ALL. rewrite SPLIT, nth_error_app2, Nat.sub_diag by lia. reflexivity.
Qed.
Lemma prefix_first fuel k d o s' : time_ok (do_StartTime o) -> process fuel k d skill0 o = Ok s' -> exists ss shown, at_prefix k d [o] s' ss shown.
Proof.
  intros T H. unfold process in H. destruct (history_pos k) as (h & EH). rewrite EH in H. change (firstn (S h) (sk_prev skill0)) with (@nil dobj) in H.
  cbn [sk_strain sk_rhythm sk_peak sk_peaks skill0] in H.
  destruct (first_end _ T) as (F & E). set (e := fmul (fceil (fdiv (do_StartTime o) section_length)) section_length) in *. clearbody e.
  assert (G : fgt (do_StartTime o) e = false) by (rewrite (fgt_section _ _ _ T F E); apply Z.ltb_irrefl).
  assert (SL : forall s1, sk_end s1 = e -> section_loop fuel k (do_StartTime o) s1 = Ok s1) by (intros s1 Hs; destruct fuel; cbn [section_loop]; now rewrite Hs, G).
  rewrite SL in H by reflexivity. cbn [bind sk_rhythm sk_strain sk_peak sk_peaks sk_end] in H.
  apply bind_ok in H as (rh & HR & H). apply Ok_inj in H.
  set (ns := fadd (fmul f0 (strain_decay k (do_DeltaTime o))) (fmul (strain_value k d [] o) (skill_multiplier k))) in *.
  exists [ns], [shows k ns rh].
  assert (E1 : strains_of k d [o] [ns]).
  { unfold ns. rewrite left_over_eq, weight_eq. pose proof (strains_snoc k d [] [] o) as X. cbn [app last rev] in X. rewrite firstn_nil in X. apply X. split; [reflexivity|]. intros i ? ? Hi; destruct i; discriminate Hi. }
  assert (E2 : shown_of k d [o] [ns] [shows k ns rh]).
  { pose proof (shown_snoc k d [] [] [] o ns rh) as X. cbn [app rev] in X. rewrite firstn_nil in X. apply X; [reflexivity| |destruct k; auto]. split; [reflexivity|]. intros i ? ? ? Hi; destruct i; discriminate Hi. }
  assert (SE : secs [o] = [section_of (B2R (do_StartTime o))]) by reflexivity.
  assert (EE : ents [o] [shows k ns rh] = [mkEntry (section_of (B2R (do_StartTime o))) (do_StartTime o) (shows k ns rh)]) by reflexivity.
  constructor; auto; rewrite ?SE, ?EE; cbn [last hd].
  - subst s'. cbn [sk_prev rev app firstn]. now rewrite firstn_nil.
  - subst s'. reflexivity.
  - subst s'. cbn [sk_strain sk_rhythm]. reflexivity.
  - subst s'. exact F.
  - subst s'. exact E.
  - pose proof T as (_ & B & _). now apply section_bound in B.
  - constructor; [cbn [en_section]; lia|constructor].
  - subst s'. unfold current_peaks, zlen. cbn [sk_peaks sk_peak app length]. lia.
  - intros n q Hn. assert (Pk : current_peaks s' = [fmax (shows k ns rh) f0]) by (subst s'; unfold current_peaks, shows; cbn [sk_peaks sk_peak app]; destruct k; reflexivity).
    rewrite Pk in Hn. destruct n as [|n]; [|destruct n; discriminate Hn]. inversion Hn; subst q. rewrite Z.add_0_r.
    apply (peak_same k [] (mkEntry (section_of (B2R (do_StartTime o))) (do_StartTime o) (shows k ns rh)) f0). exists f0. split; [left; split; reflexivity|reflexivity].
Qed.
Lemma prefix_all fuel k d dos : forall done s s' ss shown, done <> [] -> Forall (fun o => time_ok (do_StartTime o)) dos -> at_prefix k d done s ss shown ->
  foldM (process fuel k d) s dos = Ok s' -> exists ss' shown', at_prefix k d (done ++ dos) s' ss' shown'.
Proof.
  induction dos as [|o dos IH]; intros done s s' ss shown NE T I H; cbn [foldM] in H.
  - apply Ok_inj in H. subst s'. rewrite app_nil_r. eauto.
  - inversion T as [|? ? T1 T2]; subst. apply bind_ok in H as (s1 & H1 & H). destruct (prefix_step fuel k d done s ss shown o s1 NE T1 I H1) as (ss1 & sh1 & I1).
    replace (done ++ o :: dos) with ((done ++ [o]) ++ dos) by (rewrite <- app_assoc; reflexivity). apply (IH _ s1 s' ss1 sh1); auto. destruct done; discriminate.
Qed.
Theorem run_peaks fuel k d dos s : Forall (fun o => time_ok (do_StartTime o)) dos -> foldM (process fuel k d) skill0 dos = Ok s -> peaks_of k d dos (current_peaks s).
Proof.
  intros T H. destruct dos as [|o dos].
  - cbn [foldM] in H. apply Ok_inj in H. subst s. exists [], []. split; [split; [reflexivity|intros i ? ? Hi; destruct i; discriminate Hi]|].
    split; [split; [reflexivity|intros i ? ? ? Hi; destruct i; discriminate Hi]|]. cbv zeta. split; [reflexivity|]. split; [congruence|]. intros; congruence.
  - cbn [foldM] in H. inversion T as [|? ? T1 T2]; subst. apply bind_ok in H as (s1 & H1 & H). destruct (prefix_first fuel k d o s1 T1 H1) as (ss1 & sh1 & I1).
    destruct (prefix_all fuel k d dos [o] s1 s ss1 sh1 ltac:(discriminate) T2 I1 H) as (ss & shown & I). cbn [app] in I. destruct I.
    exists ss, shown. split; [assumption|]. split; [assumption|]. cbv zeta. split; [congruence|]. split; [auto|]. auto.
Qed.
End WithLibm.

(** Proofs about files that say the same in another order. *)
From Coq Require Import Permutation Reals Lra ZArith Lia Bool Ascii String List Sorted.
From Flocq Require Import Core BinarySingleNaN.
From Verif Require Import Parser SpecParser SpecMap SpecTiming SpecRearrange BaseLemmas FloatLemmas SortLemmas TimingProofs StringLemmas ParserProofs ObjectProofs FinishProofs InertProofs EventProofs MapProofs BoundLemmas CurveStart.
Import ListNotations.
Open Scope Z_scope.

(** ** Settings *)
Section Settings.
Context {A : Type} (f : str -> str -> A -> A).
Context (comm : forall k v k' v' a, k <> k' -> f k v (f k' v' a) = f k' v' (f k v a)).
Lemma kv_past k v : forall p q a, Forall (fun x => fst x <> k) p -> kvfold f (p ++ (k, v) :: q) a = kvfold f (p ++ q) (f k v a).
Proof.
  unfold kvfold. induction p as [|(k' & v') p IH]; intros q a H; [reflexivity|]. inversion H as [|? ? N H']; subst. cbn [app fold_left fst snd] in *. rewrite (comm k' v' k v a) by exact N. apply (IH q _ H').
Qed.
Lemma kv_same : forall s s' a, same_values s s' -> kvfold f s a = kvfold f s' a.
Proof.
  induction s as [|(k & v) s IH]; intros s' a H.
  - destruct s' as [|(k & v) s']; [reflexivity|]. specialize (H k). cbn [filter map fst] in H. rewrite (proj2 (str_eqb_eq k k) eq_refl) in H. discriminate H.
  - assert (K := H k). cbn [filter map fst snd] in K. rewrite (proj2 (str_eqb_eq k k) eq_refl) in K. cbn [map snd] in K.
    assert (D : exists p q, s' = p ++ (k, v) :: q /\ Forall (fun x => fst x <> k) p).
    { clear -K. symmetry in K. revert K. generalize (map snd (filter (fun p => str_eqb (fst p) k) s)). intros m. induction s' as [|(k' & v') s' IH]; [discriminate|]. cbn [filter fst]. destruct (str_eqb k' k) eqn:E.
      - apply str_eqb_eq in E. subst k'. cbn [map snd]. intros H. injection H as -> _. exists [], s'. split; [reflexivity|constructor].
      - intros H. destruct (IH H) as (p & q & -> & F). exists ((k', v') :: p), q. split; [reflexivity|]. constructor; [|exact F]. cbn [fst]. intros ->. rewrite (proj2 (str_eqb_eq k k) eq_refl) in E. discriminate E. }
    destruct D as (p & q & -> & F). rewrite (kv_past k v p q a F). unfold kvfold. cbn [fold_left fst snd]. apply IH. intros k'. specialize (H k'). rewrite filter_app, map_app in H |- *. cbn [filter fst] in H. destruct (str_eqb k k') eqn:E; [|exact H].
    apply str_eqb_eq in E. subst k'. assert (N : filter (fun x => str_eqb (fst x) k) p = []). { clear -F. induction F as [|x p N F IH]; [reflexivity|]. cbn [filter]. destruct (str_eqb (fst x) k) eqn:E; [apply str_eqb_eq in E; contradiction|exact IH]. }
    rewrite N in H |- *. cbn [map app snd] in H |- *. now injection H.
Qed.
End Settings.
Section WithLibm.
Context {M : libm}.
Ltac lits := repeat match goal with
  | |- context [str_eqb (lit ?a) (lit ?b)] =>
      let r := eval vm_compute in (str_eqb (lit a) (lit b)) in change (str_eqb (lit a) (lit b)) with r
  end; cbn iota.
Ltac cases k := repeat match goal with |- context [str_eqb k (lit ?s)] => let E := fresh in destruct (str_eqb k (lit s)) eqn:E; [apply str_eqb_eq in E; try subst k|] end.
Lemma meta_comm k v k' v' a : k <> k' -> parse_metadata k v (parse_metadata k' v' a) = parse_metadata k' v' (parse_metadata k v a).
Proof.
  intros N. destruct a. unfold parse_metadata. destruct (str_eqb k (lit "Title")) eqn:K1; [apply str_eqb_eq in K1; subst k; cases k'; try congruence; lits; reflexivity|].
  destruct (str_eqb k (lit "TitleUnicode")) eqn:K2; [apply str_eqb_eq in K2; subst k; cases k'; try congruence; lits; reflexivity|].
  destruct (str_eqb k (lit "Artist")) eqn:K3; [apply str_eqb_eq in K3; subst k; cases k'; try congruence; lits; reflexivity|].
  destruct (str_eqb k (lit "ArtistUnicode")) eqn:K4; [apply str_eqb_eq in K4; subst k; cases k'; try congruence; lits; reflexivity|].
  destruct (str_eqb k (lit "Creator")) eqn:K5; [apply str_eqb_eq in K5; subst k; cases k'; try congruence; lits; reflexivity|].
  destruct (str_eqb k (lit "FileVersion")) eqn:K6; [apply str_eqb_eq in K6; subst k; cases k'; try congruence; lits; reflexivity|].
  destruct (str_eqb k (lit "Source")) eqn:K7; [apply str_eqb_eq in K7; subst k; cases k'; try congruence; lits; reflexivity|].
  destruct (str_eqb k (lit "Tags")) eqn:K8; [apply str_eqb_eq in K8; subst k; cases k'; try congruence; lits; reflexivity|].
  destruct (str_eqb k (lit "BeatmapID")) eqn:K9; [apply str_eqb_eq in K9; subst k; cases k'; try congruence; lits; reflexivity|].
  destruct (str_eqb k (lit "BeatmapSetID")) eqn:K10; [apply str_eqb_eq in K10; subst k; cases k'; try congruence; lits; reflexivity|].
  cases k'; rewrite ?K1, ?K2, ?K3, ?K4, ?K5, ?K6, ?K7, ?K8, ?K9, ?K10; reflexivity.
Qed.
Lemma general_comm k v k' v' a : k <> k' -> parse_general k v (parse_general k' v' a) = parse_general k' v' (parse_general k v a).
Proof.
  intros N. destruct a. unfold parse_general. generalize (parse_f64 v), (parse_f64 v'). intros x y.
  destruct (str_eqb k (lit "Mode")) eqn:K1; [apply str_eqb_eq in K1; subst k; cases k'; try congruence; lits; reflexivity|].
  destruct (str_eqb k (lit "StackLeniency")) eqn:K2; [apply str_eqb_eq in K2; subst k; cases k'; try congruence; lits; reflexivity|].
  destruct (str_eqb k (lit "AudioFilename")) eqn:K3; [apply str_eqb_eq in K3; subst k; cases k'; try congruence; lits; reflexivity|].
  destruct (str_eqb k (lit "PreviewTime")) eqn:K4; [apply str_eqb_eq in K4; subst k; cases k'; try congruence; lits; reflexivity|].
  cases k'; rewrite ?K1, ?K2, ?K3, ?K4; reflexivity.
Qed.
Definition recalc (hp cs od ar : f64) (m : modifier) (sp : f64) : difficulty := calculate (with_base (new_difficulty f0 f0 f0 f0) hp cs od ar m sp).
Lemma recalc_eq d hp cs od ar m sp : calculate (with_base d hp cs od ar m sp) = recalc hp cs od ar m sp. Proof. unfold recalc, calculate, with_base. cbn [d_hp d_cs d_od d_ar d_Mods d_CustomSpeed get_modified_time]. unfold get_modified_time. cbn [d_Mods d_CustomSpeed]. reflexivity. Qed.
Lemma recalc_f hp cs od ar m sp : let r := recalc hp cs od ar m sp in d_hp r = hp /\ d_cs r = cs /\ d_od r = od /\ d_ar r = ar /\ d_Mods r = m /\ d_CustomSpeed r = sp. Proof. repeat split. Qed.
Lemma sets : exists R : f64 -> f64 -> f64 -> f64 -> modifier -> f64 -> difficulty, (forall hp cs od ar m sp, let r := R hp cs od ar m sp in d_hp r = hp /\ d_cs r = cs /\ d_od r = od /\ d_ar r = ar /\ d_Mods r = m /\ d_CustomSpeed r = sp) /\
  forall d x, set_hp d x = R x (d_cs d) (d_od d) (d_ar d) (d_Mods d) (d_CustomSpeed d) /\ set_cs d x = R (d_hp d) x (d_od d) (d_ar d) (d_Mods d) (d_CustomSpeed d) /\
    set_od d x = R (d_hp d) (d_cs d) x (d_ar d) (d_Mods d) (d_CustomSpeed d) /\ set_ar d x = R (d_hp d) (d_cs d) (d_od d) x (d_Mods d) (d_CustomSpeed d).
Proof. exists recalc. split; [apply recalc_f|]. intros d x. unfold set_hp, set_cs, set_od, set_ar. rewrite !recalc_eq. auto. Qed.
Lemma set_comm d x y : (set_hp (set_cs d x) y = set_cs (set_hp d y) x /\ set_hp (set_od d x) y = set_od (set_hp d y) x /\ set_hp (set_ar d x) y = set_ar (set_hp d y) x) /\
  (set_cs (set_od d x) y = set_od (set_cs d y) x /\ set_cs (set_ar d x) y = set_ar (set_cs d y) x) /\ set_od (set_ar d x) y = set_ar (set_od d y) x /\
  (forall z, set_ar (set_ar d z) x = set_ar d x) /\ d_od (set_od d x) = x /\ d_od (set_hp d x) = d_od d /\ d_od (set_cs d x) = d_od d.
Proof.
  destruct sets as (R & P & E). revert E. generalize set_hp set_cs set_od set_ar. intros shp scs sod sar E. assert (E1 := fun d x => proj1 (E d x)). assert (E2 := fun d x => proj1 (proj2 (E d x))). assert (E3 := fun d x => proj1 (proj2 (proj2 (E d x)))). assert (E4 := fun d x => proj2 (proj2 (proj2 (E d x)))). clear E.
  assert (P1 := fun a b c e m s => proj1 (P a b c e m s)). assert (P2 := fun a b c e m s => proj1 (proj2 (P a b c e m s))). assert (P3 := fun a b c e m s => proj1 (proj2 (proj2 (P a b c e m s)))). assert (P4 := fun a b c e m s => proj1 (proj2 (proj2 (proj2 (P a b c e m s))))). assert (P5 := fun a b c e m s => proj1 (proj2 (proj2 (proj2 (proj2 (P a b c e m s)))))). assert (P6 := fun a b c e m s => proj2 (proj2 (proj2 (proj2 (proj2 (P a b c e m s)))))). clear P. cbv zeta in *.
  split; [|split; [|split; [|split; [intros z|]]]]; rewrite ?E1, ?E2, ?E3, ?E4, ?E1, ?E2, ?E3, ?E4, ?P1, ?P2, ?P3, ?P4, ?P5, ?P6; auto.
Qed.
Lemma diff_comm k v k' v' a : k <> k' -> parse_difficulty k v (parse_difficulty k' v' a) = parse_difficulty k' v' (parse_difficulty k v a).
Proof.
  intros N. destruct a as [sm d arS tsm tr]. unfold parse_difficulty. generalize (clamp10 (parse_f64 v)), (clamp10 (parse_f64 v')), (parse_f64 v), (parse_f64 v'). intros x y x' y'.
  pose proof set_comm as C. revert C. generalize set_hp set_cs set_od set_ar. intros shp scs sod sar C.
  assert (C1 := fun d x y => proj1 (proj1 (C d x y))). assert (C2 := fun d x y => proj1 (proj2 (proj1 (C d x y)))). assert (C3 := fun d x y => proj2 (proj2 (proj1 (C d x y)))).
  assert (C4 := fun d x y => proj1 (proj1 (proj2 (C d x y)))). assert (C5 := fun d x y => proj2 (proj1 (proj2 (C d x y)))). assert (C6 := fun d x y => proj1 (proj2 (proj2 (C d x y)))). assert (C7 := fun d z x => proj1 (proj2 (proj2 (proj2 (C d x x)))) z).
  assert (C8 := fun d x => proj1 (proj2 (proj2 (proj2 (proj2 (C d x x)))))). assert (C9 := fun d x => proj1 (proj2 (proj2 (proj2 (proj2 (proj2 (C d x x))))))). assert (C10 := fun d x => proj2 (proj2 (proj2 (proj2 (proj2 (proj2 (C d x x))))))). clear C. cbv zeta in *.
  destruct (str_eqb k (lit "SliderMultiplier")) eqn:K1; [apply str_eqb_eq in K1; subst k; cases k'; try congruence; lits; reflexivity|].
  destruct (str_eqb k (lit "ApproachRate")) eqn:K2; [apply str_eqb_eq in K2; subst k; cases k'; try congruence; lits; f_equal; try (destruct arS); repeat first [rewrite C8|rewrite C9|rewrite C10|rewrite C1|rewrite C2|rewrite C3|rewrite C4|rewrite C5|rewrite C6|rewrite C7]; reflexivity|].
  destruct (str_eqb k (lit "CircleSize")) eqn:K3; [apply str_eqb_eq in K3; subst k; cases k'; try congruence; lits; f_equal; try (destruct arS); repeat first [rewrite C8|rewrite C9|rewrite C10|rewrite C1|rewrite C2|rewrite C3|rewrite C4|rewrite C5|rewrite C6|rewrite C7]; reflexivity|].
  destruct (str_eqb k (lit "SliderTickRate")) eqn:K4; [apply str_eqb_eq in K4; subst k; cases k'; try congruence; lits; reflexivity|].
  destruct (str_eqb k (lit "HPDrainRate")) eqn:K5; [apply str_eqb_eq in K5; subst k; cases k'; try congruence; lits; f_equal; try (destruct arS); repeat first [rewrite C8|rewrite C9|rewrite C10|rewrite C1|rewrite C2|rewrite C3|rewrite C4|rewrite C5|rewrite C6|rewrite C7]; reflexivity|].
  destruct (str_eqb k (lit "OverallDifficulty")) eqn:K6; [apply str_eqb_eq in K6; subst k; cases k'; try congruence; lits; f_equal; try (destruct arS); repeat first [rewrite C8|rewrite C9|rewrite C10|rewrite C1|rewrite C2|rewrite C3|rewrite C4|rewrite C5|rewrite C6|rewrite C7]; reflexivity|].
  cases k'; rewrite ?K1, ?K2, ?K3, ?K4, ?K5, ?K6; reflexivity.
Qed.

(** ** The loop succeeds if it does in every section *)
Lemma foldM_all {S X} (f : S -> X -> res S) : forall l a, (forall x s, In x l -> exists s', f s x = Ok s') -> exists a', foldM f a l = Ok a'.
Proof.
  induction l as [|x l IH]; intros a H; [exists a; reflexivity|]. cbn [foldM]. destruct (H x a (or_introl eq_refl)) as (s' & E). rewrite E. cbn [bind]. apply IH. intros; apply H; now right.
Qed.
Lemma run_back fuel ls : forall st, (forall fs e, In fs (rows_of (body "Events" (annotate (st_section st) ls))) -> exists e', ev_step e fs = Ok e') ->
  (forall fs o, In fs (rows_of (body "HitObjects" (annotate (st_section st) ls))) -> exists o', ob_step fuel o fs = Ok o') -> exists st', foldM (parse_line fuel) st ls = Ok st'.
Proof.
  induction ls as [|l ls IH]; intros st HE HO; [exists st; reflexivity|]. cbn [foldM annotate] in *. unfold parse_line. destruct (version_line_f l st) as (Fs & _). set (s0 := version_line l st) in *. clearbody s0.
  destruct (get_section l) as [|ch s] eqn:G.
  2:{ cbn [bind]. apply IH; exact HE || exact HO. }
  assert (K : exists s1, section_line fuel l s0 = Ok s1).
  { clear IH. destruct s0 as [sec fv me ge di ev ti obs]. cbn [st_section] in Fs. rewrite <- Fs in *. rewrite !body_cons in *. unfold section_line.
    destruct (str_eqb sec (lit "General")); [eexists; reflexivity|]. destruct (str_eqb sec (lit "Metadata")); [eexists; reflexivity|]. destruct (str_eqb sec (lit "Difficulty")); [eexists; reflexivity|].
    destruct (str_eqb sec (lit "Events")) eqn:E4.
    { destruct (tokenize_cases l) as [[E R]|[E R]]; rewrite E; [|eexists; reflexivity]. destruct R as (_ & L & _ & _). cbn [rows_of] in HE. rewrite E in HE. specialize (HE (split "," l) ev (or_introl eq_refl)). unfold ev_step, trims in HE. destruct HE as (e' & HE).
      destruct (split "," l) as [|x [|y fs]] eqn:S; cbn [length] in L; try lia. cbn [map] in *. rewrite HE. cbn [bind]. eexists; reflexivity. }
    destruct (str_eqb sec (lit "TimingPoints")).
    { destruct (tokenize_cases l) as [[E R]|[E R]]; rewrite E; [|eexists; reflexivity]. destruct R as (_ & L & J & C). destruct (pt_fold [split "," l]) with (t := ti) as (t' & Q & _). { intros r [<-|[]]. split; assumption. }
      cbn [foldM] in Q. apply bind_ok in Q as (t1 & Q & _). unfold pt_step in Q. rewrite <- J in Q. destruct (split "," l) as [|x [|y fs]]; cbn [length] in L; try lia. cbn [map]. rewrite Q. cbn [bind]. eexists; reflexivity. }
    destruct (str_eqb sec (lit "HitObjects")) eqn:E6; [|eexists; reflexivity].
    destruct (tokenize_cases l) as [[E R]|[E R]]; rewrite E; [|eexists; reflexivity]. cbn [rows_of] in HO. rewrite E in HO. specialize (HO (split "," l) obs (or_introl eq_refl)). unfold ob_step, trims in HO. destruct HO as (o' & HO). rewrite HO. cbn [bind]. eexists; reflexivity. }
  destruct K as (s1 & K). rewrite K. cbn [bind]. apply section_line_ok in K as (S1 & _ & _).
  apply IH; rewrite S1, Fs; intros fs e I; [apply HE|apply HO]; rewrite body_cons; destruct (str_eqb (st_section st) _); try exact I; cbn [rows_of]; destruct (tokenize l ","); try exact I; now right.
Qed.
(** a step that succeeds once always does *)
Lemma ev_any fs e e0 e1 : ev_step e0 fs = Ok e1 -> exists e', ev_step e fs = Ok e'.
Proof.
  unfold ev_step, parse_events. intros H. apply bind_ok in H as (k & -> & H). cbn [bind]. destruct (_ || _); [apply bind_ok in H as (v & -> & _); eexists; reflexivity|]. destruct (_ || _); [apply bind_ok in H as (v & -> & _); eexists; reflexivity|eexists; reflexivity].
Qed.
Lemma ev_other fs e : is_background fs = false -> is_break fs = false -> (2 <= length fs)%nat -> exists e', ev_step e fs = Ok e'.
Proof.
  intros B1 B2 L. unfold ev_step, parse_events. destruct fs as [|a fs]; [cbn in L; lia|]. change (idx (trims (a :: fs)) 0) with (Ok (trim_space a)). cbn [bind]. unfold is_background, is_break, field in B1, B2. cbn [nth] in B1, B2. rewrite B1, B2. eexists; reflexivity.
Qed.
Lemma ob_any fuel fs s s0 s1 : ob_step fuel s0 fs = Ok s1 -> exists s', ob_step fuel s fs = Ok s'.
Proof.
  unfold ob_step, parse_hit_object. intros H. apply bind_ok in H as (k & -> & H). cbn [bind]. apply bind_ok in H as ([[[c sl] sp] t] & -> & H). cbn [bind]. apply bind_ok in H as (o & -> & _). cbn [bind]. eexists; reflexivity.
Qed.
Lemma fold_any {S X} (f : S -> X -> res S) : forall l a b, foldM f a l = Ok b -> forall x, In x l -> exists s s', f s x = Ok s'.
Proof.
  induction l as [|y l IH]; intros a b H x I; [destruct I|]. cbn [foldM] in H. apply bind_ok in H as (s1 & H1 & H). destruct I as [<-|I]; [exists a, s1; exact H1|exact (IH _ _ H x I)].
Qed.

(** ** Sorting *)
Lemma sorted_same {X} (k : X -> R) : forall l l', ordered k l -> ordered k l' -> (forall c, filter (fun x => if Req_EM_T (k x) c then true else false) l = filter (fun x => if Req_EM_T (k x) c then true else false) l') -> l = l'.
Proof.
  intros l l' H. revert l'. induction H as [|x l Hl IH Hx]; intros l' H' F.
  - destruct l' as [|y l']; [reflexivity|]. specialize (F (k y)). cbn [filter] in F. destruct (Req_EM_T (k y) (k y)); [discriminate F|congruence].
  - destruct l' as [|y l']. { specialize (F (k x)). cbn [filter] in F. destruct (Req_EM_T (k x) (k x)); [discriminate F|congruence]. }
    inversion H' as [|? ? Hl' Hy]; subst. rewrite Forall_forall in Hx, Hy.
    assert (MEM : forall z a b, In z a -> filter (fun w => if Req_EM_T (k w) (k z) then true else false) a = filter (fun w => if Req_EM_T (k w) (k z) then true else false) b -> In z b).
    { intros z a b I Q. assert (J : In z (filter (fun w => if Req_EM_T (k w) (k z) then true else false) a)) by (apply filter_In; split; [exact I|destruct (Req_EM_T (k z) (k z)); congruence]). rewrite Q in J. now apply filter_In in J as [J _]. }
    assert (EK : k x = k y). { pose proof (MEM x (x :: l) (y :: l') (or_introl eq_refl) (F (k x))) as I1. pose proof (MEM y (y :: l') (x :: l) (or_introl eq_refl) (eq_sym (F (k y)))) as I2. destruct I1 as [->|I1]; [reflexivity|]. destruct I2 as [->|I2]; [reflexivity|]. apply Rle_antisym; [now apply Hx|now apply Hy]. }
    assert (EX : x = y). { specialize (F (k x)). cbn [filter] in F. destruct (Req_EM_T (k x) (k x)); [|congruence]. destruct (Req_EM_T (k y) (k x)); [|congruence]. now injection F. } subst y.
    f_equal. apply IH; [exact Hl'|]. intros c. specialize (F c). cbn [filter] in F. destruct (Req_EM_T (k x) c); [now injection F|exact F].
Qed.

Lemma stable_same {X} (lt : X -> X -> bool) (k : X -> R) l l' : keyed lt k l -> keyed lt k l' ->
  (forall c, filter (fun x => if Req_EM_T (k x) c then true else false) l = filter (fun x => if Req_EM_T (k x) c then true else false) l') -> stable_sort lt l = stable_sort lt l'.
Proof.
  intros K K' F. apply (sorted_same k); [now apply sort_ordered|now apply sort_ordered|]. intros c.
  rewrite !(sort_stable lt k); [apply F|exact K'| |exact K|]; intros x y _ _; destruct (Req_EM_T (k x) c), (Req_EM_T (k y) c); congruence.
Qed.
Lemma filter_fuse {X} (P Q : X -> bool) l : filter P (filter Q l) = filter (fun x => Q x && P x) l.
Proof. induction l as [|x l IH]; [reflexivity|]. cbn [filter]. destruct (Q x); cbn [filter andb]; [destruct (P x); [f_equal|]|]; exact IH. Qed.
Lemma filter_agree {X} (P Q : X -> bool) l : (forall x, In x l -> P x = Q x) -> filter P l = filter Q l.
Proof. induction l as [|x l IH]; intros H; [reflexivity|]. cbn [filter]. rewrite (H x (or_introl eq_refl)), IH; [reflexivity|]. intros; apply H; now right. Qed.
Lemma filter_permute {X} (P : X -> bool) l l' : Permutation l l' -> Permutation (filter P l) (filter P l').
Proof. induction 1; cbn [filter]; repeat match goal with |- context [if P ?x then _ else _] => destruct (P x) end; try constructor; auto. eapply Permutation_trans; eassumption. Qed.
Lemma schedule_keys kind (time : list str -> f64) r r' : same_schedule kind time r r' -> Forall (fun fs => num (time fs)) (filter kind r) ->
  forall c, filter (fun x => if Req_EM_T (key (time x)) c then true else false) (filter kind r) = filter (fun x => if Req_EM_T (key (time x)) c then true else false) (filter kind r').
Proof.
  intros [P F] N c. pose proof (filter_permute kind _ _ P) as PK.
  assert (N' : Forall (fun fs => num (time fs)) (filter kind r')) by (rewrite Forall_forall in *; intros x I; apply N; eapply Permutation_in; [apply Permutation_sym; exact PK|exact I]).
  destruct (filter (fun x => if Req_EM_T (key (time x)) c then true else false) (filter kind r)) as [|w l] eqn:E.
  - destruct (filter _ (filter kind r')) as [|w l] eqn:E'; [reflexivity|]. exfalso.
    assert (I : In w (filter (fun x => if Req_EM_T (key (time x)) c then true else false) (filter kind r'))) by (rewrite E'; now left).
    apply filter_In in I as [I Q]. assert (J : In w (filter (fun x => if Req_EM_T (key (time x)) c then true else false) (filter kind r))) by (apply filter_In; split; [eapply Permutation_in; [apply Permutation_sym; exact PK|exact I]|exact Q]).
    rewrite E in J. destruct J.
  - assert (I : In w (filter (fun x => if Req_EM_T (key (time x)) c then true else false) (filter kind r))) by (rewrite E; now left). apply filter_In in I as [I Q]. destruct (Req_EM_T (key (time w)) c) as [C|]; [|discriminate Q]. rewrite <- E. clear E.
    assert (A : forall s, Forall (fun fs => num (time fs)) (filter kind s) -> filter (fun x => if Req_EM_T (key (time x)) c then true else false) (filter kind s) = filter (fun fs => kind fs && feq (time fs) (time w)) s).
    { intros s Ns. rewrite <- (filter_fuse (fun fs => feq (time fs) (time w)) kind s). apply filter_agree. intros x Ix. rewrite Forall_forall in N, Ns. specialize (Ns x Ix). pose proof (N w I) as Nw. destruct (feq (time x) (time w)) eqn:Fe.
      - apply feq_iff in Fe as (_ & _ & Fe). destruct (Req_EM_T (key (time x)) c); [reflexivity|]. congruence.
      - destruct (Req_EM_T (key (time x)) c) as [C2|]; [|reflexivity]. symmetry. rewrite <- Fe. apply feq_iff. split; [exact Ns|]. split; [exact Nw|congruence]. }
    rewrite (A r N), (A r' N'). apply F.
Qed.

(** ** Timing points *)
Lemma filter_map_comm {X Y} (f : X -> Y) P l : filter P (map f l) = map f (filter (fun x => P (f x)) l).
Proof. induction l as [|x l IH]; [reflexivity|]. cbn [map filter]. destruct (P (f x)); cbn [map]; rewrite IH; reflexivity. Qed.
Lemma filter_all {X} (l : list X) : filter (fun _ => true) l = l.
Proof. induction l as [|x l IH]; [reflexivity|]. cbn [filter]. now rewrite IH. Qed.
Lemma points_same t t' : same_schedule (fun _ => true) point_time t t' -> stable_sort point_lt (map timing_point t) = stable_sort point_lt (map timing_point t').
Proof.
  intros H. apply (stable_same point_lt tk); [apply point_lt_keyed, fresh_tnum, timing_fresh|apply point_lt_keyed, fresh_tnum, timing_fresh|]. intros c. rewrite !filter_map_comm. f_equal.
  assert (N : Forall (fun fs => num (point_time fs)) (filter (fun _ => true) t)).
  { rewrite filter_all. apply Forall_forall. intros fs _. pose proof (timing_point_fresh fs) as [_ K]. exact K. }
  pose proof (schedule_keys _ _ _ _ H N c) as K. rewrite !filter_all in K. exact K.
Qed.
Lemma tempo_sign (x : f64) : fle f0 x = true -> num x -> (is_zero (fdiv (fq 60000 1) x) && Bsign (fdiv (fq 60000 1) x))%bool = false.
Proof.
  intros H _. destruct x as [z|z| |s m e B].
  { destruct z; vm_compute; reflexivity. } { destruct z; [discriminate H|vm_compute; reflexivity]. } { discriminate H. }
  destruct s; [discriminate H|].
  assert (Z : B2R (B754_finite false m e B) <> 0%R) by (cbn [B2R]; apply F2R_neq_0; discriminate).
  pose proof (Bdiv_correct 53 1024 p53 pe53 mode_NE (fq 60000 1) _ Z) as H1. fold (fdiv (fq 60000 1) (B754_finite false m e B)) in H1.
  destruct (Rlt_bool _ _).
  - destruct H1 as (_ & F & S). assert (F' : is_finite (fdiv (fq 60000 1) (B754_finite false m e B)) = true) by (rewrite F; vm_compute; reflexivity). rewrite S by (destruct (fdiv (fq 60000 1) (B754_finite false m e B)); [reflexivity|reflexivity|discriminate F'|reflexivity]). cbn [Bsign]. replace (Bsign (fq 60000 1)) with false by (vm_compute; reflexivity). cbn [xorb]. apply andb_false_r.
  - destruct (fdiv (fq 60000 1) (B754_finite false m e B)); try reflexivity. cbn [B2SF] in H1. unfold binary_overflow in H1. cbn [overflow_to_inf] in H1. discriminate H1.
Qed.
Definition pz (x : f64) : Prop := num x /\ (is_zero x && Bsign x)%bool = false.
Lemma pz_inj (x y : f64) : pz x -> pz y -> key x = key y -> x = y.
Proof.
  intros [Nx Zx] [Ny Zy] K. destruct (Req_EM_T (key x) 0) as [E|E]; [|now apply key_inj].
  assert (A : forall z : f64, num z -> (is_zero z && Bsign z)%bool = false -> key z = 0%R -> z = B754_zero false).
  { clear. intros z N Z0 K. destruct z as [[]|s| |s m e B]; [discriminate Z0|reflexivity| |discriminate N|]; exfalso.
    - revert K. rewrite (KeyLemmas.key_inf 53 1024). pose proof (bpow_gt_0 radix2 1024). destruct s; intros; lra.
    - rewrite (key_fin 53 1024) in K by reflexivity. cbn [B2R] in K. apply eq_0_F2R in K. destruct s; discriminate K. }
  rewrite (A x Nx Zx E). symmetry. apply A; [exact Ny|exact Zy|congruence].
Qed.
Lemma tempos_pz rs : Forall pz (tempos rs).
Proof.
  unfold tempos. apply Forall_forall. intros x Hx. apply in_map_iff in Hx as (fs & <- & Hf). apply filter_In in Hf as [_ Hf]. split; [now apply tempo_num|]. apply tempo_sign; [exact Hf|]. unfold tempo_row in Hf. apply fle_iff in Hf. tauto.
Qed.
Lemma fold_pick (f : f64 -> f64 -> f64) l m : (forall x y, num x -> num y -> f x y = x \/ f x y = y) -> Forall pz l -> pz m -> pz (fold_left f l m).
Proof.
  intros P H. revert m. induction H as [|x l Hx _ IH]; intros m Hm; [exact Hm|]. cbn [fold_left]. apply IH. destruct (P m x (proj1 Hm) (proj1 Hx)) as [->| ->]; assumption.
Qed.
Lemma fmin_perm l l' m : Permutation l l' -> Forall pz l -> pz m -> fold_left fmin l m = fold_left fmin l' m.
Proof.
  intros P H Hm. assert (H' : Forall pz l') by (rewrite Forall_forall in *; intros x I; apply H; eapply Permutation_in; [apply Permutation_sym; exact P|exact I]).
  assert (Nn : forall k, Forall pz k -> Forall num k) by (intros k; apply Forall_impl; intros a [A _]; exact A).
  destruct (fold_fmin l (Nn l H) m (proj1 Hm)) as (A & B & C & D). destruct (fold_fmin l' (Nn l' H') m (proj1 Hm)) as (A' & B' & C' & D'). cbv zeta in *.
  apply pz_inj; [apply fold_pick; [exact fmin_pick|assumption|assumption]|apply fold_pick; [exact fmin_pick|assumption|assumption]|]. rewrite Forall_forall in C, C'.
  apply Rle_antisym.
  - destruct D' as [->|D']; [exact B|]. pose proof (C _ (Permutation_in _ (Permutation_sym P) D')) as L. apply fle_iff in L. tauto.
  - destruct D as [->|D]; [exact B'|]. pose proof (C' _ (Permutation_in _ P D)) as L. apply fle_iff in L. tauto.
Qed.
Lemma fmax_perm l l' m : Permutation l l' -> Forall pz l -> pz m -> fold_left fmax l m = fold_left fmax l' m.
Proof.
  intros P H Hm. assert (H' : Forall pz l') by (rewrite Forall_forall in *; intros x I; apply H; eapply Permutation_in; [apply Permutation_sym; exact P|exact I]).
  assert (Nn : forall k, Forall pz k -> Forall num k) by (intros k; apply Forall_impl; intros a [A _]; exact A).
  destruct (fold_fmax l (Nn l H) m (proj1 Hm)) as (A & B & C & D). destruct (fold_fmax l' (Nn l' H') m (proj1 Hm)) as (A' & B' & C' & D'). cbv zeta in *.
  apply pz_inj; [apply fold_pick; [exact fmax_pick|assumption|assumption]|apply fold_pick; [exact fmax_pick|assumption|assumption]|]. rewrite Forall_forall in C, C'.
  apply Rle_antisym.
  - destruct D as [->|D]; [exact B'|]. pose proof (C' _ (Permutation_in _ P D)) as L. apply fle_iff in L. tauto.
  - destruct D' as [->|D']; [exact B|]. pose proof (C _ (Permutation_in _ (Permutation_sym P) D')) as L. apply fle_iff in L. tauto.
Qed.
Lemma tempos_perm r r' : Permutation r r' -> Permutation (tempos r) (tempos r').
Proof. intros P. unfold tempos. apply Permutation_map. now apply filter_permute. Qed.

(** ** Objects *)
Lemma F2_fun {X Y} (R : X -> Y -> Prop) : (forall x y y', R x y -> R x y' -> y = y') -> forall l m m', Forall2 R l m -> Forall2 R l m' -> m = m'.
Proof. intros F l m m' H. revert m'. induction H as [|x y l m Hxy H IH]; intros m' H'; inversion H'; subst; [reflexivity|]. f_equal; [eapply F; eassumption|now apply IH]. Qed.
Lemma F2_both {X Y} (R S : X -> Y -> Prop) l m : Forall2 R l m -> Forall2 S l m -> Forall2 (fun x y => R x y /\ S x y) l m.
Proof. induction 1; intros H'; inversion H'; subst; constructor; auto. Qed.
Lemma objects_same fuel h h' o o' : same_schedule is_object start_of h h' -> Forall (fun fs => fisnan (start_of fs) = false) (filter is_object h) ->
  Forall2 (fun fs o => create_object fuel (trims fs) = Ok (Some o)) (filter is_object h) o -> Forall2 fresh_of (filter is_object h) o ->
  Forall2 (fun fs o => create_object fuel (trims fs) = Ok (Some o)) (filter is_object h') o' -> Forall2 fresh_of (filter is_object h') o' ->
  stable_sort obj_lt o = stable_sort obj_lt o'.
Proof.
  intros S N C F C' F'.
  assert (N' : Forall (fun fs => fisnan (start_of fs) = false) (filter is_object h')) by (rewrite Forall_forall in *; intros x I; apply N; eapply Permutation_in; [apply Permutation_sym, filter_permute, (proj1 S)|exact I]).
  assert (E : stable_sort row_lt (filter is_object h) = stable_sort row_lt (filter is_object h')).
  { apply (stable_same row_lt row_k); [now apply row_keyed|now apply row_keyed|]. intros c. apply schedule_keys; [exact S|]. exact N. }
  set (R := fun fs o => create_object fuel (trims fs) = Ok (Some o) /\ fresh_of fs o).
  assert (K : forall a a' b b', R a a' -> R b b' -> row_lt a b = obj_lt a' b').
  { intros a a' b b' (_ & (Ha & _) & _) (_ & (Hb & _) & _). unfold row_lt, obj_lt. now rewrite Ha, Hb. }
  pose proof (sort_F2 R row_lt obj_lt _ _ (F2_both _ _ _ _ C F) K) as G. pose proof (sort_F2 R row_lt obj_lt _ _ (F2_both _ _ _ _ C' F') K) as G'. rewrite <- E in G'.
  eapply F2_fun; [|exact G|exact G']. intros x y y' (A & _) (A' & _). rewrite A in A'. apply Ok_inj in A'. now inversion A'.
Qed.
Lemma fold_max_perm l l' m : Permutation l l' -> fold_left Z.max l m = fold_left Z.max l' m.
Proof. intros P. revert m. induction P; intros m; cbn [fold_left]; [reflexivity|apply IHP|f_equal; lia|now rewrite IHP1]. Qed.
End WithLibm.

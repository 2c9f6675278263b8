(** The line loop of the parser, section by section. *)
From Verif Require Import Parser SpecParser BaseLemmas StringLemmas.

Section WithLibm.
Context {M : libm}.

Definition kvfold {A} (f : str -> str -> A -> A) (s : list (str * str)) (a : A) : A :=
  fold_left (fun a p => f (fst p) (snd p) a) s a.
Definition trims (fs : list str) : list str := map trim_space fs.
Definition ev_step (e : events) (fs : list str) := parse_events (trims fs) e.
Definition pt_step (t : timesec) (fs : list str) := parse_point (join fs) t.
Definition ob_step (fuel : nat) (s : objsec) (fs : list str) := parse_hit_object fuel (trims fs) s.
Definition vpre := lit "osu file format v".
Definition versions (ls : list str) : list Z :=
  map (fun l => atoi (trim_prefix l vpre)) (filter (fun l => has_prefix l vpre) ls).

Lemma body_cons sec s l c : body sec ((s, l) :: c) = if str_eqb s (lit sec) then l :: body sec c else body sec c.
Proof. unfold body. cbn [filter fst]. destruct (str_eqb s (lit sec)); reflexivity. Qed.

Definition runs (fuel : nat) (st st' : pstate) (c : list (str * str)) : Prop :=
  st_meta st' = kvfold parse_metadata (kvs_of (body "Metadata" c)) (st_meta st) /\
  st_general st' = kvfold parse_general (kvs_of (body "General" c)) (st_general st) /\
  st_diff st' = kvfold parse_difficulty (kvs_of (body "Difficulty" c)) (st_diff st) /\
  foldM ev_step (st_events st) (rows_of (body "Events" c)) = Ok (st_events st') /\
  foldM pt_step (st_time st) (rows_of (body "TimingPoints" c)) = Ok (st_time st') /\
  foldM (ob_step fuel) (st_objs st) (rows_of (body "HitObjects" c)) = Ok (st_objs st').

Lemma tokenize2_cases l : (exists k v, tokenize2 l ":" = Some [k; v]) \/ tokenize2 l ":" = None.
Proof.
  pose proof (proj2 (kvs_iff [l] _) eq_refl) as H. inversion H as [|? k v ? ? K|? ? ? K]; subst.
  - left. exists k, v. now apply kv_iff.
  - right. now apply kv_none.
Qed.
Ltac lits := repeat match goal with
  | |- context [str_eqb (lit ?a) (lit ?b)] =>
      let r := eval vm_compute in (str_eqb (lit a) (lit b)) in change (str_eqb (lit a) (lit b)) with r
  | H : context [str_eqb (lit ?a) (lit ?b)] |- _ =>
      let r := eval vm_compute in (str_eqb (lit a) (lit b)) in change (str_eqb (lit a) (lit b)) with r in H
  end; cbn iota in *.
Lemma section_line_ok fuel line st st' : section_line fuel line st = Ok st' ->
  st_section st' = st_section st /\ st_FileVersion st' = st_FileVersion st /\
  forall c st'', runs fuel st' st'' c -> runs fuel st st'' ((st_section st, line) :: c).
Proof.
  destruct st as [sec fv me ge di ev ti obs]. unfold section_line. cbn [st_section st_FileVersion].
  intros H. assert (K : st_section st' = sec /\ st_FileVersion st' = fv /\
    forall c st'', runs fuel st' st'' c -> runs fuel (mkPstate sec fv me ge di ev ti obs) st'' ((sec, line) :: c)); [|exact K].
  assert (KV : forall {A} (f : str -> str -> A -> A) (a : A) r, kvfold f (kvs_of (line :: r)) a =
     kvfold f (kvs_of r) (match tokenize2 line ":" with Some (k :: v :: _) => f k v a | _ => a end)).
  { intros A f a r. cbn [kvs_of]. destruct (tokenize2_cases line) as [(k & v & ->)| ->]; reflexivity. }
  assert (RW : forall r, rows_of (line :: r) = match tokenize line "," with Some _ => split "," line :: rows_of r | None => rows_of r end) by reflexivity.
  unfold runs. cbn [st_meta st_general st_diff st_events st_time st_objs st_section st_FileVersion].
  destruct (str_eqb sec (lit "General")) eqn:E1.
  { apply str_eqb_eq in E1. subst sec. injection H as <-. unfold key_value.
    destruct (tokenize2_cases line) as [(k & v & E)|E]; rewrite E; cbn [st_section st_FileVersion];
      (split; [reflexivity|]); (split; [reflexivity|]); intros c st''; rewrite !body_cons; lits; rewrite KV, E; auto. }
  destruct (str_eqb sec (lit "Metadata")) eqn:E2.
  { apply str_eqb_eq in E2. subst sec. injection H as <-. unfold key_value.
    destruct (tokenize2_cases line) as [(k & v & E)|E]; rewrite E; cbn [st_section st_FileVersion];
      (split; [reflexivity|]); (split; [reflexivity|]); intros c st''; rewrite !body_cons; lits; rewrite KV, E; auto. }
  destruct (str_eqb sec (lit "Difficulty")) eqn:E3.
  { apply str_eqb_eq in E3. subst sec. injection H as <-. unfold key_value.
    destruct (tokenize2_cases line) as [(k & v & E)|E]; rewrite E; cbn [st_section st_FileVersion];
      (split; [reflexivity|]); (split; [reflexivity|]); intros c st''; rewrite !body_cons; lits; rewrite KV, E; auto. }
  destruct (str_eqb sec (lit "Events")) eqn:E4.
  { apply str_eqb_eq in E4. subst sec. destruct (tokenize_cases line) as [[E R]|[E R]]; rewrite E in H.
    - destruct R as (_ & L & J & _). destruct (split "," line) as [|x [|y fs]] eqn:S; cbn [length] in L; try lia.
      cbn [map] in H. apply bind_ok in H as (e & He & H). injection H as <-. cbn [st_section st_FileVersion st_events].
      (split; [reflexivity|]); (split; [reflexivity|]); intros c st''; rewrite !body_cons; lits; rewrite RW, E. cbn [foldM].
      unfold ev_step at 2, trims. cbn [map]. rewrite He. cbn [bind]. auto.
    - injection H as <-. (split; [reflexivity|]); (split; [reflexivity|]); intros c st''; rewrite !body_cons; lits; rewrite RW, E; auto. }
  destruct (str_eqb sec (lit "TimingPoints")) eqn:E5.
  { apply str_eqb_eq in E5. subst sec. destruct (tokenize_cases line) as [[E R]|[E R]]; rewrite E in H.
    - destruct R as (_ & L & J & _).
      assert (H' : (let* t := parse_point line ti in Ok (mkPstate (lit "TimingPoints") fv me ge di ev t obs)) = Ok st').
      { destruct (split "," line) as [|x [|y fs]]; cbn [length] in L; try lia. exact H. }
      apply bind_ok in H' as (e & He & H'). injection H' as <-. cbn [st_section st_FileVersion st_time].
      (split; [reflexivity|]); (split; [reflexivity|]); intros c st''; rewrite !body_cons; lits; rewrite RW, E. cbn [foldM].
      unfold pt_step at 2. rewrite <- J, He. cbn [bind]. auto.
    - injection H as <-. (split; [reflexivity|]); (split; [reflexivity|]); intros c st''; rewrite !body_cons; lits; rewrite RW, E; auto. }
  destruct (str_eqb sec (lit "HitObjects")) eqn:E6.
  { apply str_eqb_eq in E6. subst sec. destruct (tokenize_cases line) as [[E R]|[E R]]; rewrite E in H.
    - apply bind_ok in H as (e & He & H). injection H as <-. cbn [st_section st_FileVersion st_objs].
      (split; [reflexivity|]); (split; [reflexivity|]); intros c st''; rewrite !body_cons; lits; rewrite RW, E. cbn [foldM].
      unfold ob_step at 2, trims. rewrite He. cbn [bind]. auto.
    - injection H as <-. (split; [reflexivity|]); (split; [reflexivity|]); intros c st''; rewrite !body_cons; lits; rewrite RW, E; auto. }
  injection H as <-. (split; [reflexivity|]); (split; [reflexivity|]); intros c st''; rewrite !body_cons, E1, E2, E3, E4, E5, E6; auto.
Qed.
Lemma last_cons {A} (x : A) l d : last (x :: l) d = last l x.
Proof. revert x d. induction l as [|y l IH]; intros x d; [reflexivity|]. change (last (x :: y :: l) d) with (last (y :: l) d). rewrite IH. symmetry. apply IH. Qed.
Lemma version_line_f line st : let st1 := version_line line st in
  st_section st1 = st_section st /\ st_meta st1 = st_meta st /\ st_general st1 = st_general st /\ st_diff st1 = st_diff st /\
  st_events st1 = st_events st /\ st_time st1 = st_time st /\ st_objs st1 = st_objs st.
Proof. unfold version_line. destruct (has_prefix line _); auto 10. Qed.
Lemma run_ok fuel ls : forall st st', foldM (parse_line fuel) st ls = Ok st' ->
  runs fuel st st' (annotate (st_section st) ls) /\ st_FileVersion st' = last (versions ls) (st_FileVersion st).
Proof.
  induction ls as [|l ls IH]; intros st st' H; cbn [foldM annotate] in *.
  - injection H as <-. unfold runs, versions. cbn. auto 10.
  - apply bind_ok in H as (st1 & H1 & H2). apply IH in H2 as [R V]. unfold parse_line in H1.
    destruct (version_line_f l st) as (Fs & Fm & Fg & Fd & Fe & Ft & Fo).
    assert (Vl : st_FileVersion (version_line l st) = if has_prefix l vpre then atoi (trim_prefix l vpre) else st_FileVersion st).
    { unfold version_line. fold vpre. destruct (has_prefix l vpre); reflexivity. }
    set (s0 := version_line l st) in *. clearbody s0.
    assert (Vlast : forall v1, v1 = st_FileVersion s0 -> last (versions ls) v1 = last (versions (l :: ls)) (st_FileVersion st)).
    { intros v1 ->. unfold versions. cbn [filter]. rewrite Vl. destruct (has_prefix l vpre); [|reflexivity].
      cbn [map]. now rewrite last_cons. }
    assert (Rs : forall c, runs fuel s0 st' c -> runs fuel st st' c).
    { intros c. unfold runs. now rewrite Fm, Fg, Fd, Fe, Ft, Fo. }
    destruct (get_section l) as [|ch s] eqn:G.
    + apply section_line_ok in H1 as (S1 & V1 & R1). rewrite S1 in R. apply R1 in R. rewrite Fs in R. split; [now apply Rs|].
      rewrite V. now apply Vlast.
    + injection H1 as <-. split; [|rewrite V; now apply Vlast]. apply Rs. exact R.
Qed.
End WithLibm.

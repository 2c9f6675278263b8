(** Computations that return once their step budget is large enough. *)
From Coq Require Import Reals Lra.
From Flocq Require Import Core BinarySingleNaN.
From Verif Require Import Curves SpecCurves SpecSafety SpecTerm BaseLemmas FuelProofs BezierProofs BoundLemmas CurveBounds SafetyProofs BezierTerm.
Open Scope Z_scope.

Definition settles {A} (f : nat -> res A) : Prop := exists n v, forall m, (n <= m)%nat -> f m = Ok v.
Lemma settles_ok {A} (v : A) : settles (fun _ => Ok v).
Proof. exists 0%nat, v. reflexivity. Qed.
Lemma settles_ext {A} (f g : nat -> res A) : (forall n, f n = g n) -> settles f -> settles g.
Proof. intros E (n & v & H). exists n, v. intros m L. now rewrite <- E, H. Qed.
Lemma settles_bind {A B} (f : nat -> res A) (g : nat -> A -> res B) :
  settles f -> (forall a, (exists n, f n = Ok a) -> settles (fun n => g n a)) -> settles (fun n => bind (f n) (g n)).
Proof.
  intros (n & v & H) G. destruct (G v) as (n' & w & H'); [exists n; now apply H|]. exists (n + n')%nat, w. intros m L. rewrite H by lia. cbn [bind]. apply H'. lia.
Qed.
Lemma settles_mapM {A B} (f : nat -> A -> res B) l : Forall (fun a => settles (fun n => f n a)) l -> settles (fun n => mapM (f n) l).
Proof.
  intros F. induction F as [|a l Ha F IH]; [apply (settles_ok (@nil B))|]. cbn [mapM].
  apply (settles_bind (fun n => f n a)); [exact Ha|]. intros b _. apply (settles_bind (fun n => mapM (f n) l)); [exact IH|].
  intros r _. apply settles_ok.
Qed.
(** a result that larger budgets keep *)
Lemma settles_up {A} (f : nat -> res A) n v : (forall n m, (n <= m)%nat -> upto (f n) (f m)) -> f n = Ok v -> settles f.
Proof. intros U E. exists n, v. intros m L. destruct (U n m L) as [H|H]; congruence. Qed.

Section WithLibm.
Context {M : libm}.
Lemma small_flattens p : small_curve p -> exists o, flattens p o.
Proof.
  intros (k & K & F & L). apply (flattens_exists k K p F).
  change (bpow radix2 22) with (IZR (2 ^ 22)). rewrite <- (IZR_Zpower radix2 k) by lia. change (Zpower radix2 k) with (2 ^ k).
  rewrite INR_IZR_INZ. change 8%R with (IZR 8). rewrite <- plus_IZR, <- mult_IZR. now apply IZR_le.
Qed.
Lemma small_slice pts lo hi : small_curve pts -> small_curve (slice pts lo hi).
Proof.
  intros (k & K & F & L). exists k. split; [exact K|]. split.
  - rewrite Forall_forall in *. intros q Hq. apply F. unfold slice in Hq.
    eapply (fun l => proj1 (Forall_forall (fun x => In x pts) l)); [|exact Hq].
    rewrite Forall_forall. intros x Hx. clear -Hx. rewrite <- (firstn_skipn lo pts). apply in_or_app. right.
    rewrite <- (firstn_skipn (hi - lo) (skipn lo pts)). apply in_or_app. now left.
  - assert ((length (slice pts lo hi) <= length pts)%nat) by (unfold slice; rewrite firstn_length, skipn_length; lia). nia.
Qed.
Lemma create_settles p : p <> [] -> small_curve p -> settles (fun n => create_bezier n p).
Proof.
  intros NE S. destruct (small_flattens p S) as (o & H). destruct (create_bezier_complete p o NE H) as (n & E).
  exists n, (o ++ [last p vzero]). exact E.
Qed.
Lemma approx_settles p : p <> [] -> small_curve p -> settles (fun n => approximate_bezier n p).
Proof.
  intros NE S. unfold approximate_bezier. destruct (small_flattens p S) as (o & H). destruct (create_bezier_complete p o NE H) as (n & E).
  exists n. destruct (o ++ [last p vzero]) as [|a r] eqn:EO; [destruct o; discriminate|]. exists (pairs a r). intros m L. rewrite (E m L). reflexivity.
Qed.
Lemma bezier_settles k pts : small_curve pts -> forall i la, (la <= i)%nat -> settles (fun n => process_bezier_loop n k pts i la).
Proof.
  intros S. induction k as [|k IH]; intros i la L; [apply settles_ok|]. cbn [process_bezier_loop]. cbv zeta.
  destruct (Nat.ltb_spec i (length pts)) as [Hi|Hi]; [|apply settles_ok]. destruct (_ || _); [|apply IH; lia].
  apply (settles_bind (fun n => match slice pts la (Datatypes.S i) with [a; b] => Ok [mkLinear a b] | _ => approximate_bezier n (slice pts la (Datatypes.S i)) end)).
  - assert (NE : slice pts la (Datatypes.S i) <> []).
    { intros E. apply (f_equal (@length vec)) in E. unfold slice in E. rewrite firstn_length, skipn_length in E. cbn [length] in E. lia. }
    pose proof (small_slice pts la (Datatypes.S i) S) as SS.
    destruct (slice pts la (Datatypes.S i)) as [|a [|b [|c r]]]; try (apply approx_settles; assumption). apply settles_ok.
  - intros ls _. match goal with |- settles (fun n => bind (process_bezier_loop n k pts ?a ?b) _) => apply (settles_bind (fun n => process_bezier_loop n k pts a b)) end; [apply IH; lia|].
    intros r _. apply settles_ok.
Qed.
(** A circular arc (three points off a line) is approximated after finitely many steps. *)
Definition arc_settles (typ : str) (pts : list vec) : Prop := match pts with
  [a; b; c] => typ = lit "P" -> is_straight a b c = false -> settles (fun n => approximate_arc n a b c (gq 1 8)) | _ => True end.
Lemma lines_settle typ pts : (uses_bezier typ pts -> small_curve pts) -> arc_settles typ pts -> settles (fun n => curve_lines n typ pts).
Proof.
  intros HB HA. unfold curve_lines. destruct (str_eqb typ (lit "P")) eqn:EP.
  - apply str_eqb_eq in EP. unfold process_perfect. destruct pts as [|a [|b [|c [|d r]]]]; try apply settles_ok.
    + destruct (is_straight a b c) eqn:ES; [apply settles_ok|]. exact (HA EP ES).
    + apply bezier_settles; [|lia]. apply HB. right. split; [exact EP|cbn [length]; lia].
  - destruct (str_eqb typ (lit "L")); [apply settles_ok|]. destruct (str_eqb typ (lit "B")) eqn:EB.
    + apply str_eqb_eq in EB. apply bezier_settles; [|lia]. apply HB. now left.
    + destruct (str_eqb typ (lit "C")); apply settles_ok.
Qed.
Lemma curve_settles typ pts len : pts <> [] -> (uses_bezier typ pts -> small_curve pts) -> arc_settles typ pts -> settles (fun n => new_multicurve_t n typ pts len).
Proof.
  intros NE HB HA. unfold new_multicurve_t, new_multicurve.
  apply (settles_bind (fun n => let* ls := curve_lines n typ pts in match pts with [] => Panic | p :: _ => Ok (finish_curve ls p) end)).
  - apply (settles_bind (fun n => curve_lines n typ pts)); [now apply lines_settle|]. intros ls _. destruct pts; [congruence|apply settles_ok].
  - intros mc _. apply settles_ok.
Qed.
End WithLibm.


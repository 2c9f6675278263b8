(** Proofs about slider timing. *)
From Coq Require Import Reals Lra ZArith Lia Bool Permutation Sorted.
From Flocq Require Import Core BinarySingleNaN.
From Verif Require Import GoFloat Curves Objects SpecSliders BaseLemmas SortLemmas FloatLemmas Float32Lemmas KeyLemmas BoundLemmas CurveProofs.
Import ListNotations.
Open Scope R_scope.

Section WithLibm.
Context {M : libm}.

Lemma tick_loop_ok td len md rev ss sp : forall fuel d ts, tick_loop fuel d td len md rev ss sp = Ok ts ->
  exists ds, tick_distances td len md d ds /\
    ts = map (fun d => mkTick (fadd ss (fmul (if rev then fsub (fq 1 1) (fdiv d len) else fdiv d len) sp)) false) ds.
Proof.
  induction fuel as [|fuel IH]; intros d ts; cbn [tick_loop]; destruct (fle d len) eqn:E1; [destruct (fge d (fsub len md)) eqn:E2| |destruct (fge d (fsub len md)) eqn:E2|]; try discriminate.
  1,2,3,5: intros H; injection H as <-; exists []; split; [constructor; auto|reflexivity].
  destruct (tick_loop fuel (fadd d td) td len md rev ss sp) as [r| |] eqn:E; cbn [bind]; try discriminate.
  intros H. injection H as <-. apply IH in E as (ds & D & ->). exists (d :: ds). split; [now constructor|]. reflexivity.
Qed.
Lemma tick_loop_complete td len md rev ss sp d ds : tick_distances td len md d ds -> forall fuel, (length ds <= fuel)%nat ->
  tick_loop fuel d td len md rev ss sp =
    Ok (map (fun d => mkTick (fadd ss (fmul (if rev then fsub (fq 1 1) (fdiv d len) else fdiv d len) sp)) false) ds).
Proof.
  induction 1 as [d H|d r E1 E2 D IH]; intros fuel L.
  - destruct fuel; cbn [tick_loop map]; destruct (fle d len); try reflexivity; destruct (fge _ _); try reflexivity; destruct H; discriminate.
  - destruct fuel as [|fuel]; [cbn in L; lia|]. cbn [tick_loop map]. rewrite E1, E2, IH by (cbn in L; lia). reflexivity.
Qed.
Lemma tick_distances_unique td len md d a b : tick_distances td len md d a -> tick_distances td len md d b -> a = b.
Proof.
  intros A. revert b. induction A as [d H|d r E1 E2 D IH]; intros b B; inversion B; subst; try reflexivity.
  - destruct H; congruence.
  - match goal with H : _ \/ _ |- _ => destruct H; congruence end.
  - f_equal. auto.
Qed.
(** The distances of a slider: none for a NaN beat length. *)
Definition slider_distances (tim : timings) (tp : cpoint) (sd : slider_data) (ds : list f64) : Prop :=
  if fisnan (get_raw_beat_length tp) then ds = []
  else tick_distances (tick_step tim tp sd) (f_of_g (mc_length (sl_curve sd))) (fmul (get_velocity tim tp) (fq 1 100)) (tick_step tim tp sd) ds.

Lemma odd_even i : Nat.odd i = negb (Nat.even i).
Proof. reflexivity. Qed.
Lemma span_ticks_ok fuel nan td len md start en span rep i ts : (0 < rep)%Z ->
  span_ticks fuel nan td len md start en span rep i = Ok ts ->
  exists ds, (if nan then ds = [] else tick_distances td len md td ds) /\ ts = span_points start en span len (Z.to_nat rep) ds i.
Proof.
  intros Hr. unfold span_ticks, span_points. fold (span_start start span i).
  assert (T : (Z.of_nat i <? rep - 1)%Z = Nat.ltb (S i) (Z.to_nat rep)).
  { destruct (Z.ltb_spec (Z.of_nat i) (rep - 1)), (Nat.ltb_spec (S i) (Z.to_nat rep)); try reflexivity; lia. }
  rewrite T. destruct nan.
  - cbn [bind]. intros H. injection H as <-. exists []. split; reflexivity.
  - destruct (tick_loop _ _ _ _ _ _ _ _) as [r| |] eqn:E; cbn [bind]; try discriminate. intros H. injection H as <-.
    apply tick_loop_ok in E as (ds & D & ->). exists ds. split; [exact D|]. f_equal. apply map_ext. intros d. unfold progress. rewrite odd_even.
    destruct (Nat.even i); reflexivity.
Qed.
Lemma mapM_ok {A B} (f : A -> res B) l r : mapM f l = Ok r -> Forall2 (fun x y => f x = Ok y) l r.
Proof.
  revert r. induction l as [|x l IH]; intros r; cbn [mapM]; [intros H; injection H as <-; constructor|].
  destruct (f x) as [y| |] eqn:E; cbn [bind]; try discriminate. destruct (mapM f l) as [s| |]; cbn [bind]; try discriminate.
  intros H. injection H as <-. constructor; auto.
Qed.
Lemma Forall2_weaken {A B} (P Q : A -> B -> Prop) l r : (forall x y, P x y -> Q x y) -> Forall2 P l r -> Forall2 Q l r.
Proof. intros H F. induction F; constructor; auto. Qed.
Lemma Forall2_map_eq {A B} (f : A -> B) l r : Forall2 (fun x y => y = f x) l r -> r = map f l.
Proof. induction 1; cbn; congruence. Qed.

Record timed (tim : timings) (o : hobj) (sd : slider_data) (o' : hobj) (sd' : slider_data) (tp : cpoint) (ds : list f64) : Prop := {
  td_point : get_point_at tim (ho_start o) = Ok tp;
  td_kind : ho_kind o' = KSlider sd';
  td_start : ho_start o' = ho_start o;
  td_span : sl_span sd' = fdiv (fmul (f_of_g (mc_length (sl_curve sd))) (fq 1000 1)) (get_velocity tim tp);
  td_end : ho_end o' = fadd (ho_start o) (fdiv (fmul (fmul (f_of_g (mc_length (sl_curve sd))) (fq 1000 1)) (f_of_Z (sl_repeat sd))) (get_velocity tim tp));
  td_curve : sl_curve sd' = sl_curve sd /\ sl_repeat sd' = sl_repeat sd /\ sl_pixelLength sd' = sl_pixelLength sd /\ sl_tpoint sd' = Some tp;
  td_ds : slider_distances tim tp sd ds;
  td_ticks : sl_ticks sd' = stable_sort tick_lt (sl_ticks sd ++
    concat (map (span_points (ho_start o) (ho_end o') (sl_span sd') (f_of_g (mc_length (sl_curve sd))) (Z.to_nat (sl_repeat sd)) ds) (seq 0 (Z.to_nat (sl_repeat sd))))) }.

Lemma set_timing_ok fuel tim o sd o' : (1 <= sl_repeat sd)%Z -> slider_set_timing fuel tim o sd = Ok o' ->
  exists sd' tp ds, timed tim o sd o' sd' tp ds.
Proof.
  intros Hr. unfold slider_set_timing. destruct (get_point_at tim (ho_start o)) as [tp| |] eqn:EP; cbn [bind]; try discriminate.
  fold (tick_step tim tp sd).
  match goal with |- context [mapM ?f ?l] => destruct (mapM f l) as [tss| |] eqn:EM; cbn [bind]; try discriminate end.
  intros H.
  assert (T : exists ds, slider_distances tim tp sd ds /\ tss = map (span_points (ho_start o)
    (fadd (ho_start o) (fdiv (fmul (fmul (f_of_g (mc_length (sl_curve sd))) (fq 1000 1)) (f_of_Z (sl_repeat sd))) (get_velocity tim tp)))
    (fdiv (fmul (f_of_g (mc_length (sl_curve sd))) (fq 1000 1)) (get_velocity tim tp))
    (f_of_g (mc_length (sl_curve sd))) (Z.to_nat (sl_repeat sd)) ds) (seq 0 (Z.to_nat (sl_repeat sd)))).
  { apply mapM_ok in EM. unfold slider_distances.
    assert (G : forall l r, Forall2 (fun x y => span_ticks fuel (fisnan (get_raw_beat_length tp)) (tick_step tim tp sd) (f_of_g (mc_length (sl_curve sd)))
        (fmul (get_velocity tim tp) (fq 1 100)) (ho_start o)
        (fadd (ho_start o) (fdiv (fmul (fmul (f_of_g (mc_length (sl_curve sd))) (fq 1000 1)) (f_of_Z (sl_repeat sd))) (get_velocity tim tp)))
        (fdiv (fmul (f_of_g (mc_length (sl_curve sd))) (fq 1000 1)) (get_velocity tim tp)) (sl_repeat sd) x = Ok y) l r ->
      forall ds, (if fisnan (get_raw_beat_length tp) then ds = []
        else tick_distances (tick_step tim tp sd) (f_of_g (mc_length (sl_curve sd))) (fmul (get_velocity tim tp) (fq 1 100)) (tick_step tim tp sd) ds) ->
      r = map (span_points (ho_start o)
        (fadd (ho_start o) (fdiv (fmul (fmul (f_of_g (mc_length (sl_curve sd))) (fq 1000 1)) (f_of_Z (sl_repeat sd))) (get_velocity tim tp)))
        (fdiv (fmul (f_of_g (mc_length (sl_curve sd))) (fq 1000 1)) (get_velocity tim tp))
        (f_of_g (mc_length (sl_curve sd))) (Z.to_nat (sl_repeat sd)) ds) l).
    { intros l r F ds D. apply Forall2_map_eq. eapply Forall2_weaken; [|exact F]. cbv beta. intros x y E.
      apply span_ticks_ok in E as (ds' & D' & ->); [|lia]. destruct (fisnan _); [congruence|].
      now rewrite (tick_distances_unique _ _ _ _ _ _ D D'). }
    destruct (Z.to_nat (sl_repeat sd)) as [|n] eqn:En; [lia|]. cbn [seq] in EM. pose proof EM as EM'. inversion EM' as [|? ? ? ? E0 _]; subst.
    apply span_ticks_ok in E0 as (ds & D & _); [|lia]. exists ds. split; [exact D|]. apply G; assumption. }
  destruct T as (ds & D & ->).
  match type of H with bind ?e _ = _ => destruct e as [p| |]; cbn [bind] in H; try discriminate end.
  injection H as <-. eexists. exists tp, ds.
  constructor; cbn [ho_kind with_end with_kind ho_start ho_end sl_span sl_curve sl_repeat sl_pixelLength sl_tpoint sl_ticks]; try reflexivity; auto.
Qed.

(** number of points and of repeat points *)
Lemma points_count start en span len n ds l : length (concat (map (span_points start en span len n ds) l)) = (length l * S (length ds))%nat.
Proof.
  induction l as [|i l IH]; [reflexivity|]. cbn [map concat length]. rewrite app_length, IH. unfold span_points. rewrite app_length, map_length. cbn. lia.
Qed.
Lemma no_reverse_ticks f ds : filter tk_Reverse (map (fun d : f64 => mkTick (f d) false) ds) = [].
Proof. induction ds; [reflexivity|assumption]. Qed.
Lemma reverse_count start en span len n ds : forall a, (a <= n)%nat ->
  length (filter tk_Reverse (concat (map (span_points start en span len n ds) (seq (n - a) a)))) = (a - 1)%nat.
Proof.
  induction a as [|a IH]; intros H; [reflexivity|]. replace (n - S a)%nat with (n - S a)%nat by lia. cbn [seq map concat].
  replace (S (n - S a)) with (n - a)%nat by lia. rewrite filter_app, app_length, IH by lia. unfold span_points. rewrite filter_app, no_reverse_ticks.
  destruct (Nat.ltb_spec (S (n - S a)) n); cbn; lia.
Qed.
Lemma filter_perm {A} (f : A -> bool) l l' : Permutation l l' -> Permutation (filter f l) (filter f l').
Proof.
  induction 1 as [|x l l' P IH|x y l|l l' l'' P IH P' IH']; cbn.
  - constructor.
  - destruct (f x); [now constructor|assumption].
  - destruct (f x), (f y); try reflexivity. constructor.
  - etransitivity; eassumption.
Qed.
Lemma ticks_sorted l : Forall (fun t => fisnan (tk_Time t) = false) l -> forall i j a b, (i <= j)%nat ->
  nth_error (stable_sort tick_lt l) i = Some a -> nth_error (stable_sort tick_lt l) j = Some b -> fle (tk_Time a) (tk_Time b) = true.
Proof.
  intros F. assert (N : forall t, In t (stable_sort tick_lt l) -> num (tk_Time t)).
  { intros t H. apply sort_in in H. rewrite Forall_forall in F. now apply F. }
  assert (K : keyed tick_lt (fun t => key (tk_Time t)) l).
  { intros x y Hx Hy. rewrite Forall_forall in F. unfold tick_lt. rewrite flt_iff. split; [tauto|]. intros H. repeat split; auto; apply F; auto. }
  pose proof (sort_ordered tick_lt _ l K) as O. set (s := stable_sort tick_lt l) in *. clearbody s. unfold ordered in O.
  induction O as [|x s O IH Hx]; intros i j a b L Ha Hb; [destruct i; discriminate|].
  destruct i as [|i].
  - injection Ha as <-. destruct j as [|j].
    + injection Hb as <-. apply fle_iff. repeat split; [apply N; now left..|lra].
    + cbn in Hb. apply nth_error_In in Hb. rewrite Forall_forall in Hx. apply fle_iff. split; [apply N; now left|]. split; [apply N; now right|]. now apply Hx.
  - destruct j as [|j]; [lia|]. cbn in Ha, Hb. apply (IH ltac:(intros t Ht; apply N; now right) i j); auto. lia.
Qed.
End WithLibm.

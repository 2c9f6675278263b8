(** Ratings never fall when objects are added. *)
From Coq Require Import Reals Lra Permutation Sorting.Sorted.
From Flocq Require Import Raux Zaux Core BinarySingleNaN.
From Verif Require Import DiffCalc SpecPP SpecDiff SpecSane SpecGrowing BaseLemmas FloatLemmas Float32Lemmas KeyLemmas SortLemmas SkillProofs CurveProofs CurveStart DiffProofs SectionProofs PPProofs PPBounds PPChains PPMono PPBetter ValueBounds RatingBounds.
Import ListNotations.
Open Scope R_scope.
Ltac bdc := apply bd_const; [vm_compute; reflexivity|vm_compute; reflexivity|vm_compute; reflexivity|lia].

(** ** Sorted lists *)
Definition below (x y : f64) : Prop := B2R x <= B2R y.
Definition cnt (c : R) (l : list f64) : nat := length (filter (fun x => Rle_bool c (B2R x)) l).
Lemma cnt_cons c x l : cnt c (x :: l) = ((if Rle_bool c (B2R x) then 1 else 0) + cnt c l)%nat.
Proof. unfold cnt. cbn [filter]. destruct (Rle_bool c (B2R x)); reflexivity. Qed.
Lemma cnt_app c l l' : cnt c (l ++ l') = (cnt c l + cnt c l')%nat.
Proof. unfold cnt. rewrite filter_app, app_length. reflexivity. Qed.
Lemma cnt_perm c l l' : Permutation l l' -> cnt c l = cnt c l'.
Proof. induction 1; rewrite ?cnt_cons in *; lia. Qed.
Lemma cnt_below c l m : Forall2 below l m -> (cnt c l <= cnt c m)%nat.
Proof.
  induction 1 as [|x y l m H _ IH]; [apply le_n|]. rewrite !cnt_cons. unfold below in H. destruct (Rle_bool_spec c (B2R x)), (Rle_bool_spec c (B2R y)); try lia. exfalso. lra.
Qed.
Definition falling : list f64 -> Prop := StronglySorted (fun a b => B2R b <= B2R a).
Lemma cnt_above c l : Forall (fun y => B2R y < c) l -> cnt c l = 0%nat.
Proof. induction 1 as [|x l H _ IH]; [reflexivity|]. rewrite cnt_cons, IH. destruct (Rle_bool_spec c (B2R x)); [exfalso; lra|reflexivity]. Qed.
Lemma falling_raised l : forall l', falling l -> falling l' -> (forall c, (cnt c l <= cnt c l')%nat) -> exists m rest, l' = m ++ rest /\ Forall2 below l m.
Proof.
  induction l as [|x l IH]; intros l' S S' H; [exists [], l'; split; [reflexivity|constructor]|].
  inversion S as [|? ? S1 S2]; subst. destruct l' as [|y l'].
  { specialize (H (B2R x)). rewrite cnt_cons, Rle_bool_true in H by apply Rle_refl. cbn in H. exfalso. lia. }
  inversion S' as [|? ? S1' S2']; subst. assert (XY : B2R x <= B2R y).
  { destruct (Rle_lt_dec (B2R x) (B2R y)) as [L|L]; [exact L|exfalso]. specialize (H (B2R x)). rewrite (cnt_above _ (y :: l')) in H; [rewrite cnt_cons, Rle_bool_true in H by apply Rle_refl; lia|].
    constructor; [exact L|]. eapply Forall_impl; [|exact S2']. intros z Hz. cbv beta in Hz. lra. }
  destruct (IH l' S1 S1') as (m & rest & E & F).
  - intros c. specialize (H c). rewrite !cnt_cons in H. destruct (Rle_bool_spec c (B2R x)) as [C|C]; [rewrite Rle_bool_true in H by lra; lia|]. rewrite (cnt_above c l); [lia|]. eapply Forall_impl; [|exact S2]. intros z Hz. cbv beta in Hz. lra.
  - exists (y :: m), rest. split; [rewrite E; reflexivity|constructor; assumption].
Qed.
Definition raised (l l' : list f64) : Prop := exists m rest, l' = m ++ rest /\ Forall2 below l m.
Definition more (l l' : list f64) : Prop := forall c, (cnt c l <= cnt c l')%nat.
Lemma raised_more l l' : raised l l' -> more l l'.
Proof. intros (m & rest & -> & F) c. rewrite cnt_app. pose proof (cnt_below c _ _ F). lia. Qed.
Lemma more_sorted l l' s s' : more l l' -> Permutation l s -> Permutation l' s' -> falling s -> falling s' -> raised s s'.
Proof. intros H P P' S S'. apply falling_raised; [exact S|exact S'|]. intros c. rewrite <- (cnt_perm c _ _ P), <- (cnt_perm c _ _ P'). apply H. Qed.
Lemma falling_of l : Forall fin l -> StronglySorted (fun a b => key b <= key a) l -> falling l.
Proof.
  intros F S. induction S as [|x l S IH H]; constructor; inversion F as [|? ? F1 F2]; subst; [now apply IH|]. apply Forall_forall. intros y Y. rewrite Forall_forall in H, F2. specialize (H y Y). rewrite (key_fin 53 1024 x F1), (key_fin 53 1024 y (F2 y Y)) in H. exact H.
Qed.
Lemma bd_fins A l : Forall (bd A) l -> Forall fin l.
Proof. apply Forall_impl. intros x. apply bd_fin. Qed.
Lemma sort_raised A l l' : Forall (bd A) l -> Forall (bd A) l' -> more l l' -> raised (reverse_sort l) (reverse_sort l').
Proof.
  intros B B' R. destruct (reverse_sorts l (bd_nums A l B)) as (P & D). destruct (reverse_sorts l' (bd_nums A l' B')) as (P' & D').
  assert (S : forall x, Forall (bd A) x -> descending x -> falling x) by (intros x X Dx; apply falling_of; [exact (bd_fins A x X)|apply desc_ordered; [exact (bd_nums A x X)|exact Dx]]).
  apply (more_sorted l l'); auto; apply S; auto; [exact (Permutation_Forall P B)|exact (Permutation_Forall P' B')].
Qed.

(** ** The difficulty value *)
Lemma upn_small n A x : upto_n n A x -> (0 <= n <= 2 ^ 53)%Z -> (0 <= A <= 900)%Z -> fin x /\ 0 <= B2R x <= bpow radix2 953.
Proof.
  intros (F & B) N HA. split; [exact F|]. split; [lra|]. apply Rle_trans with (1 := proj2 B). apply Rle_trans with (bpow radix2 53 * bpow radix2 A); [apply Rmult_le_compat_r; [apply bpow_ge_0|change (bpow radix2 53) with (IZR (2 ^ 53)); apply IZR_le; lia]|rewrite <- bpow_plus; apply bpow_le; lia].
Qed.
Lemma sum_val n A x y : upto_n n A x -> (0 <= n <= 2 ^ 53)%Z -> (0 <= A <= 900)%Z -> bd A y -> B2R (fadd x y) = rnd64 (B2R x + B2R y).
Proof.
  intros X N HA Y. destruct (upn_small n A x X N HA) as (F & B). apply bd_iff in Y as (Fy & By). assert (bpow radix2 A <= bpow radix2 953) by (apply bpow_le; lia). assert (T : bpow radix2 954 = bpow radix2 953 + bpow radix2 953) by (change 954%Z with (1 + 953)%Z; rewrite bpow_plus; change (bpow radix2 1) with 2; lra). assert (bpow radix2 954 <= bpow radix2 1023) by (apply bpow_le; lia).
  apply fadd_fin; auto. rewrite Rabs_pos_eq; lra.
Qed.
Lemma weighted_ge A w (HA : (0 <= A <= 900)%Z) : bd 0 w -> forall l n diff weight, Forall (bd A) l -> bd 0 weight -> upto_n n A diff -> (0 <= n)%Z -> (n + Z.of_nat (length l) <= 2 ^ 53)%Z -> B2R diff <= B2R (weighted_sum w diff weight l).
Proof.
  intros W. induction l as [|x l IH]; intros n diff weight F WB U N L; cbn [weighted_sum length] in *; [apply Rle_refl|]. inversion F as [|? ? F1 F2]; subst.
  assert (Y : bd A (fmul x weight)) by (replace A with (A + 0)%Z by lia; apply bd_mul; auto; lia).
  apply Rle_trans with (B2R (fadd diff (fmul x weight))).
  - rewrite (sum_val n A) by (auto; lia). apply rnd64_ge_f. apply bd_iff in Y. lra.
  - apply (IH (n + 1)%Z); [exact F2| | |lia|lia]; [change 0%Z with (0 + 0)%Z; apply bd_mul; auto; lia|apply upn_add; auto; lia].
Qed.
Lemma weighted_raise A w (HA : (0 <= A <= 900)%Z) : bd 0 w -> forall l m rest, Forall2 below l m -> forall n diff diff' weight, Forall (bd A) l -> Forall (bd A) (m ++ rest) -> bd 0 weight -> upto_n n A diff -> upto_n n A diff' -> B2R diff <= B2R diff' -> (0 <= n)%Z -> (n + Z.of_nat (length (m ++ rest)) <= 2 ^ 53)%Z ->
  B2R (weighted_sum w diff weight l) <= B2R (weighted_sum w diff' weight (m ++ rest)).
Proof.
  intros W l m rest H. induction H as [|x y l m XY _ IH]; intros n diff diff' weight F F' WB U U' LE N L; cbn [weighted_sum app length] in *.
  - apply Rle_trans with (1 := LE). now apply (weighted_ge A w HA W rest n).
  - inversion F as [|? ? F1 F2]; inversion F' as [|? ? F1' F2']; subst.
    assert (P : le2 (A + 0) (fmul x weight) (fmul y weight)). { apply le2_mul; [lia|lia|lia| |exact WB]. apply bd_iff in F1 as (G1 & G2). apply bd_iff in F1' as (G1' & G2'). split; [exact G1|]. split; [exact G1'|]. unfold below in XY. lra. }
    replace (A + 0)%Z with A in P by lia. destruct (le2_bd _ _ _ P) as (Y & Y'). destruct P as (_ & _ & P & _).
    apply (IH (n + 1)%Z); auto; [change 0%Z with (0 + 0)%Z; apply bd_mul; auto; lia|apply upn_add; auto; lia|apply upn_add; auto; lia| |lia|lia].
    rewrite !(sum_val n A) by (auto; lia). apply rnd64_le. lra.
Qed.

Section WithLibm.
Context {M : libm}.
Lemma reduce_raise A k (LU : log_unit) (HA : (0 <= A <= 900)%Z) l m : Forall2 below l m -> forall i rest, Forall (bd A) l -> Forall (bd A) (m ++ rest) -> raised (reduce_peaks k i l) (reduce_peaks k i (m ++ rest)).
Proof.
  induction 1 as [|x y l m XY _ IH]; intros i rest F F'; cbn [reduce_peaks app] in *; [eexists [], _; split; [reflexivity|constructor]|].
  inversion F as [|? ? F1 F2]; inversion F' as [|? ? F1' F2']; subst. destruct (IH (S i) rest F2 F2') as (m' & r' & E & H'). rewrite E. eexists (_ :: m'), r'. split; [reflexivity|]. constructor; [|exact H'].
  destruct (Nat.ltb_spec i (reduced_sections k)) as [I|I]; [|exact XY]. destruct (factor_pos k i LU I) as (Ff & Bf).
  assert (P : le2 (A + 0) (fmul x (reduce_factor k i)) (fmul y (reduce_factor k i))); [|apply P].
  apply le2_mul; [lia|lia|lia| |]; [apply bd_iff in F1 as (G1 & G2); apply bd_iff in F1' as (G1' & G2'); split; [exact G1|]; split; [exact G1'|]; unfold below in XY; lra|].
  split; [exact Ff|]. split; [exact Ff|]. change (bpow radix2 0) with 1. lra.
Qed.
Lemma value_raise A k l l' : log_unit -> (0 <= A <= 800)%Z -> Forall (bd A) l -> Forall (bd A) l' -> (Z.of_nat (length l') <= 2 ^ 37)%Z -> more l l' -> le2 (A + 38) (difficulty_value_of k l) (difficulty_value_of k l').
Proof.
  intros LU HA B B' L R. unfold difficulty_value_of. cbv zeta.
  assert (W : bd 0 (decay_weight k)) by (destruct k; cbn [decay_weight]; bdc). assert (DM : bd 1 (difficulty_multiplier k)) by (destruct k; cbn [difficulty_multiplier]; bdc).
  destruct (reverse_sorts l (bd_nums A l B)) as (P & _). destruct (reverse_sorts l' (bd_nums A l' B')) as (P' & _). pose proof (Permutation_Forall P B) as B1. pose proof (Permutation_Forall P' B') as B1'.
  destruct (sort_raised A l l' B B' R) as (m & rest & E & F2). rewrite E in B1'. pose proof (reduce_raise A k LU ltac:(lia) _ m F2 0 rest B1 B1') as R2. rewrite <- E in R2, B1'.
  pose proof (reduce_bd LU A k _ ltac:(lia) B1 0) as B2. pose proof (reduce_bd LU A k _ ltac:(lia) B1' 0) as B2'.
  assert (LL : length (reduce_peaks k 0 (reverse_sort l')) = length l'). { transitivity (length (reverse_sort l')); [generalize (reverse_sort l') 0%nat; clear; induction l as [|x l IH]; intros i; cbn [reduce_peaks length]; auto|exact (eq_sym (Permutation_length P'))]. }
  set (q := reduce_peaks k 0 (reverse_sort l)) in *. set (q' := reduce_peaks k 0 (reverse_sort l')) in *. clearbody q q'.
  destruct (reverse_sorts q (bd_nums A q B2)) as (Q & _). destruct (reverse_sorts q' (bd_nums A q' B2')) as (Q' & _). pose proof (Permutation_Forall Q B2) as B3. pose proof (Permutation_Forall Q' B2') as B3'.
  destruct (sort_raised A q q' B2 B2' (raised_more _ _ R2)) as (m2 & r2 & E2 & G2). assert (L2 : length (reverse_sort q') = length l') by (rewrite <- LL; exact (eq_sym (Permutation_length Q'))).
  assert (L3 : (length (reverse_sort q) <= length (reverse_sort q'))%nat). { rewrite E2, app_length. assert (GL : length (reverse_sort q) = length m2) by (clear - G2; induction G2; cbn [length]; congruence). rewrite GL. lia. }
  set (u := reverse_sort q) in *. set (u' := reverse_sort q') in *. clearbody u u'.
  replace (A + 38)%Z with (A + 37 + 1)%Z by lia. apply le2_mul; [lia|lia|lia| |exact DM].
  pose proof (weighted_bd A u ltac:(lia) _ W 0 f0 (fq 1 1) B3 bd_one (upn_0 0 A ltac:(lia)) ltac:(lia) ltac:(lia)) as U. pose proof (weighted_bd A u' ltac:(lia) _ W 0 f0 (fq 1 1) B3' bd_one (upn_0 0 A ltac:(lia)) ltac:(lia) ltac:(lia)) as U'.
  apply (upn_bd _ _ 37) in U; [|lia|lia]. apply (upn_bd _ _ 37) in U'; [|lia|lia]. apply bd_iff in U as (FU & BU). apply bd_iff in U' as (FU' & BU'). split; [exact FU|]. split; [exact FU'|]. split; [split; [apply BU|]|rewrite Z.add_comm; apply BU'].
  subst u'. apply (weighted_raise A _ ltac:(lia) W u m2 r2 G2 0); auto; [exact bd_one|apply upn_0; lia|apply upn_0; lia|apply Rle_refl|lia|lia].
Qed.

(** ** Peaks that go on *)
Lemma fle_below x y : fin x -> fin y -> fle x y = true -> below x y.
Proof. intros F G H. apply fle_iff in H as (_ & _ & H). rewrite !(key_fin 53 1024) in H by assumption. exact H. Qed.
Lemma goes_raised A l l' : Forall (bd A) l -> Forall (bd A) l' -> goes_on l l' -> raised l l'.
Proof.
  assert (R : forall a, Forall2 below a a) by (induction a; constructor; [apply Rle_refl|assumption]).
  intros B B' [->|(a & x & y & rest & -> & -> & H)]; [exists l', []; rewrite app_nil_r; auto|].
  exists (a ++ [y]), rest. rewrite <- app_assoc. split; [reflexivity|]. apply Forall2_app; [apply R|]. constructor; [|constructor]. apply Forall_app in B as (_ & B). apply Forall_app in B' as (_ & B'). inversion B; inversion B'; subst. apply fle_below; auto; now apply (bd_fin A).
Qed.
Lemma fle_trans x y z : fle x y = true -> fle y z = true -> fle x z = true.
Proof. rewrite !fle_iff. intros (N1 & N2 & L) (_ & N3 & L'). split; [exact N1|]. split; [exact N3|]. lra. Qed.
Lemma split_last {T} (l : list T) x a y rest : l ++ [x] = a ++ y :: rest -> (l = a /\ x = y /\ rest = []) \/ exists r, rest = r ++ [x] /\ l = a ++ y :: r.
Proof.
  intros H. destruct rest as [|z rest] using rev_ind; [left; apply app_inj_tail in H as (-> & ->); auto|right]. change (y :: rest ++ [z]) with ((y :: rest) ++ [z]) in H. rewrite app_assoc in H. apply app_inj_tail in H as (-> & ->). eauto.
Qed.
Lemma goes_trans a b c : goes_on a b -> goes_on b c -> goes_on a c.
Proof.
  intros [->|(p & x & y & r & -> & -> & H)] [H2|(p' & x' & y' & r' & E & -> & H')]; [left; exact H2|right; eauto 8|subst c; right; eauto 8|].
  symmetry in E. apply split_last in E as [(-> & -> & ->)|(r2 & -> & ->)]; right.
  - exists p, x, y', r'. split; [reflexivity|]. split; [reflexivity|]. exact (fle_trans _ _ _ H H').
  - exists p, x, y, (r2 ++ y' :: r'). split; [reflexivity|]. split; [rewrite <- app_assoc; reflexivity|exact H].
Qed.
Lemma loop_goes k start : forall fuel s s', section_loop fuel k start s = Ok s' -> exists ex, current_peaks s' = current_peaks s ++ ex.
Proof.
  induction fuel as [|f IH]; intros s s' H; cbn [section_loop] in H; (destruct (fgt _ _); [|apply Ok_inj in H; subst s'; exists []; now rewrite app_nil_r]); [discriminate H|].
  apply bind_ok in H as (x & _ & H). apply IH in H as (ex & ->). exists (x :: ex). unfold current_peaks. cbn [sk_peaks sk_peak]. rewrite <- !app_assoc. reflexivity.
Qed.
Lemma fmax_above x y : fin (fmax x y) -> num y -> fle y (fmax x y) = true.
Proof.
  intros F Y. destruct (is_nan x) eqn:N.
  - exfalso. revert F Y. destruct x; try discriminate N. destruct y as [| [|] | |]; cbn; intros; discriminate.
  - destruct (fmax_key x y N Y) as (NM & E). apply fle_iff. split; [exact Y|]. split; [exact NM|]. rewrite E. apply Rmax_r.
Qed.
Lemma process_goes fuel k d s o s' A A' : process fuel k d s o = Ok s' -> Forall (bd A) (current_peaks s) -> Forall (bd A') (current_peaks s') -> goes_on (current_peaks s) (current_peaks s').
Proof.
  intros H B B'. unfold process in H. cbv zeta in H. apply bind_ok in H as (s1 & HL & H). apply bind_ok in H as (rh & HR & H). apply Ok_inj in H. set (temp := match k with Speed => _ | _ => _ end) in H. clearbody temp.
  apply loop_goes in HL as (ex & E). unfold current_peaks in E at 2. cbn [sk_peaks sk_peak] in E. fold (current_peaks s) in E. unfold current_peaks in E at 1.
  assert (EP : current_peaks s' = sk_peaks s1 ++ [fmax temp (sk_peak s1)]) by (subst s'; reflexivity). clear H. rewrite EP in *. clear EP. right.
  unfold current_peaks in *. apply Forall_app in B as (_ & B). apply Forall_app in B' as (_ & B'). inversion B as [|? ? B1 _]; inversion B' as [|? ? B1' _]; subst.
  rewrite <- app_assoc in E. cbn [app] in E. apply split_last in E as [(E1 & E2 & _)|(r & _ & E)].
  - exists (sk_peaks s), (sk_peak s), (fmax temp (sk_peak s1)), []. split; [reflexivity|]. split; [now rewrite E1|]. rewrite E2 in *. apply fmax_above; [exact (bd_fin _ _ B1')|apply fin_num; exact (bd_fin _ _ B1)].
  - exists (sk_peaks s), (sk_peak s), (sk_peak s), (r ++ [fmax temp (sk_peak s1)]). split; [reflexivity|]. split; [rewrite E, <- app_assoc; reflexivity|]. apply fle_iff. assert (N : num (sk_peak s)) by (apply fin_num; exact (bd_fin _ _ B1)). split; [exact N|]. split; [exact N|apply Rle_refl].
Qed.
Lemma foldM_app {S T} (f : S -> T -> res S) l l' : forall s, foldM f s (l ++ l') = (let* s1 := foldM f s l in foldM f s1 l').
Proof. induction l as [|x l IH]; intros s; cbn [foldM app bind]; [reflexivity|]. destruct (f s x); cbn [bind]; auto. Qed.
Lemma run_goes fuel k d A s0 dos : (forall i s, foldM (process fuel k d) s0 (firstn i dos) = Ok s -> Forall (bd A) (current_peaks s)) ->
  forall n i s s', foldM (process fuel k d) s0 (firstn i dos) = Ok s -> foldM (process fuel k d) s0 (firstn (n + i) dos) = Ok s' -> goes_on (current_peaks s) (current_peaks s').
Proof.
  intros OK. induction n as [|n IH]; intros i s s' H H'; [rewrite Nat.add_0_l, H in H'; apply Ok_inj in H'; subst s'; left; reflexivity|].
  destruct (nth_error dos (n + i)) as [o|] eqn:E.
  - assert (F : firstn (S n + i) dos = firstn (n + i) dos ++ [o]). { clear - E. cbn [Nat.add]. revert E. generalize (n + i)%nat. induction dos as [|x l IH]; intros [|j] E; try discriminate E; cbn in *; [now injection E as ->|]. now rewrite (IH j E). }
    pose proof H' as H2. rewrite F, foldM_app in H2. apply bind_ok in H2 as (s1 & H1 & H2). cbn [foldM] in H2. apply bind_ok in H2 as (s2 & H2 & E2). apply Ok_inj in E2. subst s2.
    apply goes_trans with (current_peaks s1); [exact (IH i s s1 H H1)|]. exact (process_goes fuel k d s1 o s' A A H2 (OK _ _ H1) (OK _ _ H')).
  - apply nth_error_None in E. apply (IH i s s' H). rewrite firstn_all2 in H' |- * by lia. exact H'.
Qed.

(** ** From the values to the stars *)
Lemma star_le A x x' : le2 (2 * A) x x' -> (0 <= A <= 400)%Z -> le2 A (fmul (fsqrt x) star_scaling) (fmul (fsqrt x') star_scaling).
Proof.
  intros X HA. replace A with (A + 0)%Z by lia. apply le2_mul; [lia|lia|lia| |unfold star_scaling; bdc]. destruct (le2_bd _ _ _ X) as (B & B'). pose proof (bd_sqrt A x B HA) as S. pose proof (bd_sqrt A x' B' HA) as S'.
  destruct X as (F & F' & L & _). destruct (fsqrt_fin x F) as (_ & E); [lra|]. destruct (fsqrt_fin x' F') as (_ & E'); [lra|]. apply bd_iff in S as (Fs & S). apply bd_iff in S' as (Fs' & S').
  split; [exact Fs|]. split; [exact Fs'|]. split; [split; [apply S|]|apply S']. rewrite E, E'. apply rnd64_le, sqrt_le_1_alt. lra.
Qed.
Lemma le2_0 k : le2 k f0 f0. Proof. exact (bd_0 k). Qed.
Lemma stars_le d A aim aim' ns ns' speed speed' fl fl' a a' : (0 <= A <= 128)%Z -> le2 (2 * A) aim aim' -> le2 (2 * A) speed speed' -> le2 (2 * A) fl fl' ->
  let r := stars_from_raw aim ns speed fl d a in let r' := stars_from_raw aim' ns' speed' fl' d a' in
  le2 A (at_Aim r) (at_Aim r') /\ le2 A (at_Speed r) (at_Speed r') /\ le2 A (at_Flashlight r) (at_Flashlight r').
Proof.
  intros HA B1 B3 B4. cbv zeta. unfold stars_from_raw. cbn [at_Aim at_Speed at_Flashlight]. split; [apply star_le; [exact B1|lia]|]. split; [destruct (check_mod d Relax); [apply le2_0|apply star_le; [exact B3|lia]]|apply star_le; [exact B4|lia]].
Qed.
Lemma total_le (PR : pow_ranges) (PO : pow_orders) (TR : trig_ranges) (CO : cbrt_order) d A aim aim' ns ns' speed speed' fl fl' a a' : (0 <= A <= 128)%Z -> le2 (2 * A) aim aim' -> le2 (2 * A) speed speed' -> le2 (2 * A) fl fl' ->
  le2 850 (at_Total (stars_from_raw aim ns speed fl d a)) (at_Total (stars_from_raw aim' ns' speed' fl' d a')).
Proof.
  intros HA B1 B3 B4. unfold stars_from_raw. cbn [at_Total]. apply star_le in B1; [|lia]. apply star_le in B3; [|lia]. apply star_le in B4; [|lia].
  set (x1 := fmul (fsqrt aim) _) in *. set (x3 := fmul (fsqrt speed) _) in *. set (x4 := fmul (fsqrt fl) _) in *. set (x1' := fmul (fsqrt aim') _) in *. set (x3' := fmul (fsqrt speed') _) in *. set (x4' := fmul (fsqrt fl') _) in *. clearbody x1 x3 x4 x1' x3' x4'.
  assert (B3' : le2 A (if check_mod d Relax then f0 else x3) (if check_mod d Relax then f0 else x3')) by (destruct (check_mod d Relax); [apply le2_0|exact B3]). set (y3 := if check_mod d Relax then f0 else x3) in *. set (y3' := if check_mod d Relax then f0 else x3') in *. clearbody y3 y3'.
  assert (E11 : fin (fq 11 10) /\ 0 <= B2R (fq 11 10) <= IZR 2). { assert (F : bd 1 (fq 11 10)) by bdc. apply bd_iff in F. change (bpow radix2 1) with 2 in F. exact F. }
  destruct (unit_exp 10 11 ltac:(bdc)) as (F10 & E10). destruct E11 as (F11 & E11).
  pose proof (base_mono PR PO A x1 x1' B1 ltac:(lia)) as P1. pose proof (base_mono PR PO A y3 y3' B3' ltac:(lia)) as P3. apply (le2_le _ 410) in P1; [|lia]. apply (le2_le _ 410) in P3; [|lia].
  assert (P4 : le2 410 (if check_mod d Flashlight then fmul (mpow x4 (fq 2 1)) (fq 25 1) else f0) (if check_mod d Flashlight then fmul (mpow x4' (fq 2 1)) (fq 25 1) else f0)).
  { destruct (check_mod d Flashlight); [|apply le2_0]. apply (le2_le (A * 2 + 1 + 5)); [lia|]. apply le2_mul; [lia|lia|lia| |bdc]. destruct (fq1_exact 2) as (F2 & E2); [lia|]. apply (pow_mono PR PO); [exact B4|exact F2|rewrite E2; lra|lia|lia|lia]. }
  set (z1 := pp_base x1) in *. set (z3 := pp_base y3) in *. set (z4 := if check_mod d Flashlight then fmul (mpow x4 _) _ else f0) in *. set (z1' := pp_base x1') in *. set (z3' := pp_base y3') in *. set (z4' := if check_mod d Flashlight then fmul (mpow x4' _) _ else f0) in *. clearbody z1 z3 z4 z1' z3' z4'.
  assert (PW : forall z z', le2 410 z z' -> le2 821 (mpow z (fq 11 10)) (mpow z' (fq 11 10))) by (intros z z' Z; apply (pow_mono PR PO 410 2); auto; lia).
  assert (SM : le2 824 (mpow (fadd (fadd (mpow z1 (fq 11 10)) (mpow z3 (fq 11 10))) (mpow z4 (fq 11 10))) (fq 10 11)) (mpow (fadd (fadd (mpow z1' (fq 11 10)) (mpow z3' (fq 11 10))) (mpow z4' (fq 11 10))) (fq 10 11))).
  { apply (pow_mono PR PO 823 1); [|exact F10|exact E10|lia|lia|lia]. change 823%Z with (822 + 1)%Z. apply le2_add; [lia|lia| |apply (le2_le 821); [lia|exact (PW _ _ P4)]]. change 822%Z with (821 + 1)%Z. apply le2_add; [lia|lia|exact (PW _ _ P1)|exact (PW _ _ P3)]. }
  set (base := mpow (fadd (fadd (mpow z1 _) _) _) (fq 10 11)) in *. set (base' := mpow (fadd (fadd (mpow z1' _) _) _) (fq 10 11)) in *. clearbody base base'.
  assert (T2 : fin (mpow (fq 2 1) (fq 10 11)) /\ 1 <= B2R (mpow (fq 2 1) (fq 10 11))).
  { destruct (fq1_exact 2) as (F2 & E2); [lia|]. destruct (pow_above PR (fq 2 1) (fq 10 11) 1 1 F2 F10) as (Fp & Bp); [lia|lia|rewrite E2; change (bpow radix2 1) with 2; lra|exact E10|]. split; [exact Fp|lra]. }
  destruct T2 as (FT & BT). set (t := mpow (fq 2 1) (fq 10 11)) in *. clearbody t.
  assert (CB : forall k x, (0 <= k <= 900)%Z -> bd k x -> bd k (mcbrt x)) by (intros k x K X; apply (bd_of k (bpow radix2 k)); [apply (cbrt_above TR); [exact K|apply bd_iff in X; exact X]|apply Rle_refl]).
  assert (CC : forall k x x', (0 <= k <= 900)%Z -> le2 k x x' -> le2 k (mcbrt x) (mcbrt x')).
  { intros k x x' K X. destruct (le2_bd _ _ _ X) as (Y & Y'). apply (CB k) in Y; [|exact K]. apply (CB k) in Y'; [|exact K]. apply bd_iff in Y as (Fy & By). apply bd_iff in Y' as (Fy' & By'). destruct X as (Fx & Fx' & X & _). split; [exact Fy|]. split; [exact Fy'|]. split; [split; [apply By|]|apply By']. now apply CO. }
  assert (IN : le2 841 (fmul (fdiv (fq 100000 1) t) base) (fmul (fdiv (fq 100000 1) t) base')) by (change 841%Z with (17 + 824)%Z; apply le2_mul; [lia|lia|lia| |exact SM]; apply le2_div; [lia|lia|bdc|exact FT|exact BT]).
  assert (OUT : forall b b', le2 841 b b' -> le2 850 (fmul (fmul (mcbrt (fq 112 100)) (fq 27 1000)) (fadd (mcbrt b) (fq 4 1))) (fmul (fmul (mcbrt (fq 112 100)) (fq 27 1000)) (fadd (mcbrt b') (fq 4 1)))).
  { intros b b' H. apply (le2_le (1 + 0 + (841 + 1))); [lia|]. apply le2_mul; [lia|lia|lia|apply le2_mul; [lia|lia|lia|apply CC; [lia|bdc]|bdc]|]. apply le2_add; [lia|lia|apply CC; [lia|exact H]|apply (le2_le 2); [lia|bdc]]. }
  pose proof (OUT _ _ IN) as R. destruct SM as (Fb & Fb' & L & _). assert (Fc : fin (fq 1 100000)) by (vm_compute; reflexivity). rewrite !fgt_bool by assumption.
  destruct (Rlt_bool_spec (B2R (fq 1 100000)) (B2R base)) as [C|C]; [rewrite Rlt_bool_true by lra; exact R|]. destruct (Rlt_bool_spec (B2R (fq 1 100000)) (B2R base')) as [C'|C']; [|apply le2_0].
  destruct R as (_ & R1 & R2 & R3). split; [reflexivity|]. split; [exact R1|]. split; [|exact R3]. cbn [B2R f0]. change (B2R f0) with 0. lra.
Qed.
End WithLibm.

(** Finite ends of the lines of a curve, and where a curve starts. *)
From Coq Require Import Reals Lra ZArith Lia Bool.
From Flocq Require Import Core BinarySingleNaN.
From Verif Require Import GoFloat Curves Objects SpecCurves BaseLemmas SortLemmas FloatLemmas Float32Lemmas KeyLemmas BoundLemmas BezierProofs CurveProofs.
Import ListNotations.
Open Scope R_scope.

Section WithLibm.
Context {M : libm}.

Definition lin (P : vec -> Prop) (l : linear) : Prop := P (ln_p1 l) /\ P (ln_p2 l).
Lemma lin_impl (P Q : vec -> Prop) ls : (forall p, P p -> Q p) -> Forall (lin P) ls -> Forall (lin Q) ls.
Proof. intros H. apply Forall_impl. intros l [A B]. split; auto. Qed.

(** ** L *)
Lemma process_linear_in P pts : Forall P pts -> Forall (lin P) (process_linear pts).
Proof.
  induction pts as [|a pts IH]; intros F; [constructor|]. inversion F as [|? ? Ha F']; subst. destruct pts as [|b pts]; [constructor|].
  change (process_linear (a :: b :: pts)) with (if vec_eqb a b then process_linear (b :: pts) else mkLinear a b :: process_linear (b :: pts)).
  destruct (vec_eqb a b); [now apply IH|]. constructor; [|now apply IH]. inversion F'; subst. split; assumption.
Qed.
(** ** B *)
Lemma mid_bnd k a b : (-148 <= k <= 126)%Z -> vbnd k a -> vbnd k b -> vbnd k (mid a b).
Proof.
  intros K A B. replace k with ((k + 1) + -1)%Z by lia. apply vbnd_scl; [lia| |apply bnd_half]. apply vbnd_add; auto. lia.
Qed.
Lemma row_bnd k p : (-148 <= k <= 126)%Z -> Forall (vbnd k) p -> Forall (vbnd k) (row p).
Proof.
  intros K. induction p as [|a p IH]; intros F; [constructor|]. destruct p as [|b p]; [constructor|]. inversion F as [|? ? Ha F']; subst.
  change (row (a :: b :: p)) with (mid a b :: row (b :: p)). constructor; [|now apply IH]. inversion F'; subst. now apply mid_bnd.
Qed.
Lemma triangle_bnd k n p : (-148 <= k <= 126)%Z -> Forall (vbnd k) p -> Forall (Forall (vbnd k)) (triangle n p).
Proof. intros K. revert p. induction n; intros p F; cbn; constructor; auto. apply IHn. now apply row_bnd. Qed.
Lemma vbnd_zero k : vbnd k vzero. Proof. split; apply bnd_0. Qed.
Lemma hd_bnd k p : Forall (vbnd k) p -> vbnd k (hd vzero p).
Proof. intros F. destruct F; [apply vbnd_zero|assumption]. Qed.
Lemma Forall_last {A} (P : A -> Prop) l d : P d -> Forall P l -> P (last l d).
Proof. intros D F. induction F as [|x l Hx F IH]; [exact D|]. destruct l; [exact Hx|exact IH]. Qed.
Lemma last_bnd k p : Forall (vbnd k) p -> vbnd k (last p vzero).
Proof. apply Forall_last. apply vbnd_zero. Qed.
Lemma Forall_map_impl {A B} (P : A -> Prop) (Q : B -> Prop) f l : (forall x, P x -> Q (f x)) -> Forall P l -> Forall Q (map f l).
Proof. intros H F. induction F; constructor; auto. Qed.
Lemma left_bnd k p : (-148 <= k <= 126)%Z -> Forall (vbnd k) p -> Forall (vbnd k) (left_half p).
Proof. intros K F. eapply Forall_map_impl; [intros r; apply hd_bnd|]. now apply triangle_bnd. Qed.
Lemma right_bnd k p : (-148 <= k <= 126)%Z -> Forall (vbnd k) p -> Forall (vbnd k) (right_half p).
Proof. intros K F. apply Forall_rev. eapply Forall_map_impl; [intros r; apply last_bnd|]. now apply triangle_bnd. Qed.
Lemma nth_bnd k p i : Forall (vbnd k) p -> vbnd k (nth i p vzero).
Proof. intros F. destruct (nth_in_or_default i p vzero) as [H|H]; [|rewrite H; apply vbnd_zero]. rewrite Forall_forall in F. now apply F. Qed.
Lemma smooth_bnd k a b c : (-140 <= k <= 120)%Z -> vbnd k a -> vbnd k b -> vbnd k c -> vbnd (k + 1) (smooth a b c).
Proof.
  intros K A B C. replace (k + 1)%Z with (((k + 1 + 1) + 1) + -2)%Z by lia. apply vbnd_scl; [lia| |apply bnd_quarter].
  apply vbnd_add; [lia| |eapply vbnd_le; [|exact C]; lia]. apply vbnd_add; [lia|eapply vbnd_le; [|exact A]; lia|].
  apply vbnd_scl; [lia|exact B|apply bnd_q2].
Qed.
Lemma piece_bnd k p : (-140 <= k <= 120)%Z -> Forall (vbnd k) p -> Forall (vbnd (k + 1)) (piece p).
Proof.
  intros K F. assert (BH : Forall (vbnd k) (both_halves p)).
  { apply Forall_app. split; [apply left_bnd; auto; lia|]. pose proof (right_bnd k p ltac:(lia) F) as R. destruct R; [constructor|assumption]. }
  constructor; [eapply vbnd_le; [|apply hd_bnd, F]; lia|]. apply Forall_forall. intros q Hq. apply in_map_iff in Hq as (i & <- & _).
  apply smooth_bnd; auto; now apply nth_bnd.
Qed.
Lemma flattens_bnd k p o : (-140 <= k <= 120)%Z -> flattens p o -> Forall (vbnd k) p -> Forall (vbnd (k + 1)) o.
Proof.
  intros K. induction 1 as [p EF|p l r EF Fl IHl Fr IHr]; intros F; [now apply piece_bnd|].
  apply Forall_app. split; [apply IHl, left_bnd|apply IHr, right_bnd]; auto; lia.
Qed.
Lemma pairs_in (P : vec -> Prop) p l : P p -> Forall P l -> Forall (lin P) (pairs p l).
Proof. intros Hp F. revert p Hp. induction F as [|q l Hq F IH]; intros p Hp; cbn; constructor; auto. split; assumption. Qed.
Lemma bezier_bnd k fuel p ls : (-140 <= k <= 120)%Z -> Forall (vbnd k) p -> approximate_bezier fuel p = Ok ls -> Forall (lin (vbnd (k + 1))) ls.
Proof.
  intros K F. unfold approximate_bezier. destruct (create_bezier fuel p) as [o| |] eqn:E; cbn [bind]; try discriminate.
  destruct p as [|a p]; [discriminate E|]. pose proof (create_bezier_result fuel (a :: p) ltac:(discriminate)) as R. rewrite E in R.
  destruct R as (o' & Fl & ->). pose proof (flattens_bnd k _ _ K Fl F) as Fo.
  assert (Fo2 : Forall (vbnd (k + 1)) (o' ++ [last (a :: p) vzero])).
  { apply Forall_app. split; [exact Fo|]. constructor; [|constructor]. eapply vbnd_le; [|apply last_bnd, F]. lia. }
  destruct (o' ++ [last (a :: p) vzero]) as [|q r]; [discriminate|]. intros H. injection H as <-. inversion Fo2; subst. now apply pairs_in.
Qed.
Lemma Forall_slice {A} (P : A -> Prop) l a b : Forall P l -> Forall P (slice l a b).
Proof.
  intros F. unfold slice. rewrite Forall_forall in *. intros x Hx. apply F.
  assert (I : In x (skipn a l)) by (rewrite <- (firstn_skipn (b - a) (skipn a l)); apply in_or_app; now left).
  rewrite <- (firstn_skipn a l). apply in_or_app. now right.
Qed.
Lemma process_bezier_bnd k fuel n pts : (-140 <= k <= 120)%Z -> Forall (vbnd k) pts ->
  forall i la ls, process_bezier_loop fuel n pts i la = Ok ls -> Forall (lin (vbnd (k + 1))) ls.
Proof.
  intros K F. induction n as [|n IH]; intros i la ls; [intros H; injection H as <-; constructor|].
  cbn [process_bezier_loop]. destruct (Nat.ltb i (length pts)); [|intros H; injection H as <-; constructor].
  set (multi := _ && _). destruct (multi || Nat.eqb (S i) (length pts)); [|apply IH].
  set (sub := slice pts la (S i)). assert (Fs : Forall (vbnd k) sub) by now apply Forall_slice.
  assert (G : forall r, match sub with [a; b] => Ok [mkLinear a b] | _ => approximate_bezier fuel sub end = Ok r -> Forall (lin (vbnd (k + 1))) r).
  { intros r. destruct sub as [|a [|b [|c sub']]]; try (apply bezier_bnd; assumption).
    intros H. injection H as <-. constructor; [|constructor]. inversion Fs as [|? ? Ha Fs']; subst. inversion Fs' as [|? ? Hb _]; subst.
    split; eapply vbnd_le; try eassumption; lia. }
  destruct (match sub with [a; b] => Ok [mkLinear a b] | _ => approximate_bezier fuel sub end) as [l1| |]; cbn [bind]; try discriminate.
  specialize (G l1 eq_refl).
  destruct (process_bezier_loop fuel n pts (S (if multi then S i else i)) (if multi then S i else i)) as [l2| |] eqn:E2; cbn [bind]; try discriminate.
  intros H. injection H as <-. apply Forall_app. split; [exact G|]. eapply IH. exact E2.
Qed.
(** ** C *)
Lemma catmull_coord_bnd k a b c d t : (-140 <= k <= 110)%Z -> bnd k a -> bnd k b -> bnd k c -> bnd k d -> bnd 0 t -> bnd (k + 7) (catmull_coord a b c d t).
Proof.
  intros K A B C D T.
  assert (U : forall j x, (k <= j)%Z -> bnd k x -> bnd j x) by (intros; eapply bnd_le; eassumption).
  assert (T2 : bnd 0 (gmul t t)) by (apply (bnd_mul 0 0); auto; lia).
  assert (T3 : bnd 0 (gmul t (gmul t t))) by (apply (bnd_mul 0 0); auto; lia).
  assert (M2 : forall x, bnd k x -> bnd (k + 1) (gmul (gq 2 1) x)) by (intros x X; replace (k + 1)%Z with (1 + k)%Z by lia; apply bnd_mul; [lia|apply bnd_q2|exact X]).
  assert (M3 : forall x, bnd k x -> bnd (k + 2) (gmul (gq 3 1) x)) by (intros x X; replace (k + 2)%Z with (2 + k)%Z by lia; apply bnd_mul; [lia|apply bnd_q3|exact X]).
  assert (M4 : forall x, bnd k x -> bnd (k + 2) (gmul (gq 4 1) x)) by (intros x X; replace (k + 2)%Z with (2 + k)%Z by lia; apply bnd_mul; [lia|apply bnd_q4|exact X]).
  assert (M5 : forall x, bnd k x -> bnd (k + 3) (gmul (gq 5 1) x)) by (intros x X; replace (k + 3)%Z with (3 + k)%Z by lia; apply bnd_mul; [lia|apply bnd_q5|exact X]).
  assert (AD : forall j x y, (-149 <= j <= 126)%Z -> bnd j x -> bnd j y -> bnd (j + 1) (gadd x y)) by (intros; now apply bnd_add).
  assert (SB : forall j x y, (-149 <= j <= 126)%Z -> bnd j x -> bnd j y -> bnd (j + 1) (gsub x y)) by (intros; now apply bnd_sub).
  assert (MT : forall j x y, (-149 <= j <= 127)%Z -> bnd j x -> bnd 0 y -> bnd j (gmul x y)) by (intros j x y J X Y; replace j with (j + 0)%Z by lia; apply bnd_mul; auto; lia).
  unfold catmull_coord. replace (k + 7)%Z with (-1 + (k + 8))%Z by lia. apply bnd_mul; [lia|apply bnd_half|].
  replace (k + 8)%Z with (k + 7 + 1)%Z by lia. apply AD; [lia| |].
  - replace (k + 7)%Z with (k + 6 + 1)%Z by lia. apply AD; [lia| |].
    + apply (bnd_le (k + 1 + 1)); [lia|]. apply AD; [lia|now apply M2|]. apply MT; [lia| |exact T]. apply AD; [lia|now apply bnd_neg|exact C].
    + apply MT; [lia| |exact T2]. replace (k + 6)%Z with (k + 5 + 1)%Z by lia. apply SB; [lia| |apply U; [lia|exact D]].
      replace (k + 5)%Z with (k + 4 + 1)%Z by lia. apply AD; [lia| |eapply bnd_le; [|apply M4, C]; lia].
      replace (k + 4)%Z with (k + 3 + 1)%Z by lia. apply SB; [lia|eapply bnd_le; [|apply M2, A]; lia|now apply M5].
  - apply MT; [lia| |exact T3]. apply (bnd_le (k + 4 + 1)); [lia|]. apply AD; [lia| |apply U; [lia|exact D]].
    replace (k + 4)%Z with (k + 3 + 1)%Z by lia. apply SB; [lia| |eapply bnd_le; [|apply M3, C]; lia].
    replace (k + 3)%Z with (k + 2 + 1)%Z by lia. apply AD; [lia|apply U; [lia|now apply bnd_neg]|now apply M3].
Qed.
Lemma ratio_bnd i n : (0 <= i <= n)%Z -> (0 < n <= 2 ^ 24)%Z -> bnd 0 (gdiv (g_of_Z i) (g_of_Z n)).
Proof.
  intros I N. destruct (g_of_Z_exact i ltac:(lia)) as [Fi Vi]. destruct (g_of_Z_exact n ltac:(lia)) as [Fn Vn].
  assert (P : 0 < IZR n) by (apply IZR_lt; lia).
  assert (B : Rabs (B2R (g_of_Z i) / B2R (g_of_Z n)) <= bpow radix2 0).
  { rewrite Vi, Vn. unfold Rdiv. rewrite Rabs_mult, (Rabs_pos_eq (IZR i)) by (apply IZR_le; lia).
    rewrite Rabs_pos_eq by (left; now apply Rinv_0_lt_compat). change (bpow radix2 0) with 1.
    apply (Rmult_le_reg_r (IZR n)); [exact P|]. rewrite Rmult_assoc, Rinv_l by lra. rewrite Rmult_1_r, Rmult_1_l. apply IZR_le; lia. }
  destruct (gdiv_fin _ _ Fi Fn) as [F V]; [rewrite Vn; lra|apply (bpow_127 _ 0); [lia|exact B]|].
  split; [exact F|]. rewrite V. apply rnd32_bound; [lia|exact B].
Qed.
Lemma catmull_point_bnd k p1 p2 p3 p4 t : (-140 <= k <= 110)%Z -> vbnd k p1 -> vbnd k p2 -> vbnd k p3 -> vbnd k p4 -> bnd 0 t ->
  vbnd (k + 7) (catmull_point p1 p2 p3 p4 t).
Proof. intros K [? ?] [? ?] [? ?] [? ?] T. split; now apply catmull_coord_bnd. Qed.
Lemma process_catmull_bnd k pts : (-140 <= k <= 100)%Z -> forall prev, (forall q, prev = Some q -> vbnd k q) -> Forall (vbnd k) pts ->
  Forall (lin (vbnd (k + 9))) (process_catmull prev pts).
Proof.
  intros K. induction pts as [|p2 pts IH]; intros prev P F; [constructor|]. inversion F as [|? ? H2 F']; subst.
  destruct pts as [|p3 r]; [constructor|]. inversion F' as [|? ? H3 F'']; subst.
  change (process_catmull prev (p2 :: p3 :: r)) with
    (approximate_catmull (match prev with Some p => p | None => p2 end) p2 p3 (match r with p :: _ => p | [] => vadd p3 (vsub p3 p2) end) 50
      ++ process_catmull (Some p2) (p3 :: r)).
  apply Forall_app. split; [|apply IH; [intros q E; injection E as <-; exact H2|exact F']].
  set (p1 := match prev with Some p => p | None => p2 end). set (p4 := match r with p :: _ => p | [] => _ end).
  assert (H1 : vbnd k p1) by (unfold p1; destruct prev as [q|]; [now apply P|exact H2]).
  assert (H4 : vbnd (k + 1 + 1) p4).
  { unfold p4. destruct r as [|p r]; [|inversion F''; subst; eapply vbnd_le; [|eassumption]; lia].
    apply vbnd_add; [lia|eapply vbnd_le; [|exact H3]; lia|]. apply vbnd_sub; auto. lia. }
  assert (U : forall q, vbnd k q -> vbnd (k + 1 + 1) q) by (intros; eapply vbnd_le; [|eassumption]; lia).
  apply Forall_forall. intros l Hl. apply in_map_iff in Hl as (i & <- & Hi). apply in_seq in Hi.
  replace (k + 9)%Z with (k + 1 + 1 + 7)%Z by lia.
  split; apply catmull_point_bnd; auto; try lia; apply ratio_bnd; lia.
Qed.

(** The curve is not a three-point circular arc. *)
Definition no_arc (typ : str) (pts : list vec) : Prop :=
  match pts with [a; b; c] => typ = lit "P" -> is_straight a b c = true | _ => True end.
Theorem curve_lines_bnd k fuel typ pts ls : (-140 <= k <= 100)%Z -> no_arc typ pts -> Forall (vbnd k) pts ->
  curve_lines fuel typ pts = Ok ls -> Forall (lin (vbnd (k + 9))) ls.
Proof.
  intros K NA F. assert (UL : Forall (lin (vbnd (k + 9))) (process_linear pts)).
  { apply process_linear_in. eapply Forall_impl; [|exact F]. intros p. apply vbnd_le. lia. }
  assert (UB : forall ls, process_bezier fuel pts = Ok ls -> Forall (lin (vbnd (k + 9))) ls).
  { intros ls' E. eapply lin_impl; [|eapply (process_bezier_bnd k); [| |exact E]; [lia|exact F]]. intros p. apply vbnd_le. lia. }
  unfold curve_lines. destruct (str_eqb typ (lit "P")) eqn:EP.
  - apply str_eqb_eq in EP. unfold process_perfect. destruct pts as [|a [|b [|c [|d r]]]]; try (intros H; injection H as <-; assumption); [|apply UB].
    cbn in NA. rewrite (NA EP). intros H. injection H as <-. exact UL.
  - destruct (str_eqb typ (lit "L")); [intros H; injection H as <-; exact UL|].
    destruct (str_eqb typ (lit "B")); [apply UB|].
    destruct (str_eqb typ (lit "C")); intros H; injection H as <-; [|constructor].
    apply process_catmull_bnd; auto. intros q E. discriminate.
Qed.

(** ** Trimming and extending (NewMultiCurveT) *)
Lemma vdst_bnd k a b : (-70 <= k <= 60)%Z -> vbnd k a -> vbnd k b -> bnd (k + 2) (vdst a b) /\ 0 <= B2R (vdst a b).
Proof.
  intros K [Ax Ay] [Bx By]. unfold vdst.
  set (x := gsub (vx b) (vx a)). set (y := gsub (vy b) (vy a)).
  assert (X : bnd (k + 1) x) by (apply bnd_sub; auto; lia). assert (Y : bnd (k + 1) y) by (apply bnd_sub; auto; lia).
  assert (S : bnd ((k + 1) + (k + 1) + 1) (gadd (gmul x x) (gmul y y))) by (apply bnd_add; [lia| |]; apply bnd_mul; auto; lia).
  destruct S as [F B].
  assert (N : nn (gadd (gmul x x) (gmul y y))).
  { apply nn_plus; apply nn_square; apply fin_num; [apply X|apply Y]. }
  assert (P : 0 <= B2R (gadd (gmul x x) (gmul y y))) by (destruct N as [_ N]; now rewrite (key_fin 24 128 _ F) in N).
  destruct (gsqrt_fin _ F P) as [F' V]. rewrite Rabs_pos_eq in B by exact P.
  assert (SQ : sqrt (B2R (gadd (gmul x x) (gmul y y))) <= bpow radix2 (k + 2)).
  { rewrite <- (sqrt_square (bpow radix2 (k + 2))) by apply bpow_ge_0. apply sqrt_le_1_alt. rewrite <- bpow_plus. eapply Rle_trans; [exact B|]. apply bpow_le. lia. }
  assert (P2 : 0 <= B2R (gsqrt (gadd (gmul x x) (gmul y y)))).
  { rewrite V. apply rnd32_pos. apply rnd64_pos. apply sqrt_pos. }
  split; [split; [exact F'|]|exact P2]. rewrite V. apply rnd32_bound; [lia|]. apply (rnd_bound 53 1024); [cbn; lia|].
  rewrite Rabs_pos_eq by apply sqrt_pos. exact SQ.
Qed.

(** lines whose ends differ are at least 2^-20 long *)
Definition long_enough (l : linear) : Prop :=
  vec_eqb (ln_p1 l) (ln_p2 l) = true \/ gle (gq 1 1048576) (ln_length l) = true.
Lemma eps_val : fin (fq 1 10000) /\ 0 < B2R (fq 1 10000) < 1.
Proof. split; [vm_compute; reflexivity|]. bval (fq 1 10000). rewrite V. lra. Qed.
Lemma q20_val : fin (gq 1 1048576) /\ B2R (gq 1 1048576) = bpow radix2 (-20).
Proof. split; [vm_compute; reflexivity|]. bval (gq 1 1048576). rewrite V. change (bpow radix2 (-20)) with (/ 1048576). lra. Qed.
Definition small_diff (d : f64) : Prop := d = finf \/ (fin d /\ - bpow radix2 41 <= B2R d <= bpow radix2 140).
Lemma b140_1023 a : - bpow radix2 200 <= a <= bpow radix2 200 -> Rabs a <= bpow radix2 1023.
Proof. intros H. apply Rle_trans with (bpow radix2 200); [apply Rabs_le; exact H|apply bpow_le; lia]. Qed.
Lemma trim_bnd rls : Forall (lin (vbnd 30)) rls -> Forall long_enough rls -> forall d, small_diff d ->
  Forall (lin (vbnd 100)) (trim_lines rls d).
Proof.
  intros F. induction F as [|l rls Hl F IH]; intros LE d D; [constructor|]. inversion LE as [|? ? Ll LE']; subst. specialize (IH LE').
  cbn [trim_lines]. destruct Hl as [H1 H2]. destruct (vdst_bnd 30 (ln_p1 l) (ln_p2 l) ltac:(lia) H1 H2) as [[Fl Bl] Pl].
  fold (ln_length l) in Fl, Bl, Pl. rewrite (Rabs_pos_eq _ Pl) in Bl. change (30 + 2)%Z with 32%Z in Bl.
  destruct (f_of_g_fin (ln_length l) Fl) as [Fl6 Vl].
  destruct eps_val as [Fe Ve].
  pose proof (bpow_gt_0 radix2 41) as P41. pose proof (bpow_gt_0 radix2 32) as P32.
  assert (B4132 : bpow radix2 32 <= bpow radix2 41) by (apply bpow_le; lia).
  assert (B200 : bpow radix2 141 <= bpow radix2 200) by (apply bpow_le; lia).
  assert (B141 : bpow radix2 141 = bpow radix2 140 + bpow radix2 140) by (apply (bpow_S 140)).
  assert (B41140 : bpow radix2 41 <= bpow radix2 140) by (apply bpow_le; lia).
  assert (B1 : 1 <= bpow radix2 32) by (change 1 with (bpow radix2 0); apply bpow_le; lia).
  destruct D as [->|[Fd Bd]].
  - (* an infinite difference removes every line *)
    assert (fgt (f_of_g (ln_length l)) (fadd finf (fq 1 10000)) = false) as ->.
    { replace (fadd finf (fq 1 10000)) with finf by (apply B2SF_eq; vm_compute; reflexivity).
      apply fgt_false; [now apply fin_num|reflexivity|]. rewrite (key_fin 53 1024 _ Fl6). change (key finf) with (bpow radix2 1024). pose proof (B2R_lt 53 1024 _ Fl6). lra. }
    apply IH. left. clear - Fl6. unfold finf. revert Fl6. generalize (f_of_g (ln_length l)). intros x Fx. destruct x; try discriminate; reflexivity.
  - destruct (fadd_fin d (fq 1 10000) Fd Fe) as [Fa Va]; [apply b140_1023; lra|].
    assert (DA : B2R d <= rnd64 (B2R d + B2R (fq 1 10000))) by (rewrite <- (rnd64_id d) at 1; apply rnd64_le; lra).
    destruct (fgt (f_of_g (ln_length l)) (fadd d (fq 1 10000))) eqn:G.
    + rewrite (fgt_bool _ _ Fl6 Fa) in G. destruct (Rlt_bool_spec (B2R (fadd d (fq 1 10000))) (B2R (f_of_g (ln_length l)))) as [G'|]; [|discriminate].
      rewrite Va, Vl in G'. assert (DL : B2R d < bpow radix2 32) by lra.
      constructor; [|eapply lin_impl; [|exact F]; intros p; apply vbnd_le; lia].
      destruct (vec_eqb (ln_p1 l) (ln_p2 l)) eqn:EQ; [split; eapply vbnd_le; try eassumption; lia|].
      destruct Ll as [Ll|Ll]; [congruence|]. destruct q20_val as [F20 V20].
      apply gle_iff in Ll as (_ & _ & Ll). rewrite (key_fin 24 128 _ F20), (key_fin 24 128 _ Fl), V20 in Ll.
      split; [eapply vbnd_le; [|exact H1]; lia|]. cbn [ln_p2].
      (* the parameter of the new end point *)
      assert (Gd : bnd 41 (g_of_f d)).
      { assert (Rabs (B2R d) <= bpow radix2 41) by (apply Rabs_le; lra).
        destruct (g_of_f_fin d Fd) as [Fg Vg]; [eapply Rle_trans; [eassumption|apply bpow_le; lia]|]. split; [exact Fg|]. rewrite Vg. apply rnd32_bound; [lia|assumption]. }
      assert (Nu : bnd 42 (gsub (ln_length l) (g_of_f d))).
      { apply (bnd_sub 41); [lia| |exact Gd]. split; [exact Fl|]. rewrite (Rabs_pos_eq _ Pl). lra. }
      set (u := gsub (ln_length l) (g_of_f d)) in *.
      assert (T : bnd 62 (gdiv u (ln_length l))).
      { assert (P20 : 0 < bpow radix2 (-20)) by apply bpow_gt_0.
        assert (B : Rabs (B2R u / B2R (ln_length l)) <= bpow radix2 62).
        { unfold Rdiv. rewrite Rabs_mult. change 62%Z with (42 + 20)%Z. rewrite bpow_plus. apply Rmult_le_compat; auto using Rabs_pos; [apply Nu|].
          rewrite Rabs_pos_eq by (left; apply Rinv_0_lt_compat; lra). rewrite <- (Rinv_inv (bpow radix2 20)), <- (bpow_opp radix2 20).
          apply Rinv_le; [exact P20|exact Ll]. }
        destruct (gdiv_fin u (ln_length l)) as [Ft Vt]; auto; [apply Nu|lra|apply (bpow_127 _ 62); [lia|exact B]|].
        split; [exact Ft|]. rewrite Vt. apply rnd32_bound; [lia|exact B]. }
      unfold ln_point_at, vlerp. destruct H1 as [A1 A2], H2 as [C1 C2].
      assert (Q : forall a b, bnd 30 a -> bnd 30 b -> bnd 100 (gadd (gmul (gsub b a) (gdiv u (ln_length l))) a)).
      { intros a b A B. apply (bnd_le (99 + 1)); [lia|]. apply bnd_add; [lia| |eapply bnd_le; [|exact A]; lia].
        apply (bnd_le (31 + 62)); [lia|]. apply bnd_mul; [lia| |exact T]. apply (bnd_sub 30); auto. lia. }
      split; apply Q; assumption.
    + apply IH. right. rewrite (fgt_bool _ _ Fl6 Fa) in G. destruct (Rlt_bool_spec (B2R (fadd d (fq 1 10000))) (B2R (f_of_g (ln_length l)))) as [|G']; [discriminate|].
      rewrite Va, Vl in G'. destruct (fsub_fin d (f_of_g (ln_length l)) Fd Fl6) as [Fs Vs]; [rewrite Vl; apply b140_1023; lra|].
      split; [exact Fs|]. rewrite Vs, Vl.
      assert (LO : - bpow radix2 41 <= B2R d - B2R (ln_length l)).
      { destruct (Rle_dec (bpow radix2 32) (B2R d)) as [BG|BG]; [lra|]. apply Rnot_le_lt in BG.
        assert (UP : rnd64 (B2R d + B2R (fq 1 10000)) <= bpow radix2 33).
        { assert (Rabs (rnd64 (B2R d + B2R (fq 1 10000))) <= bpow radix2 42).
          { apply (rnd_bound 53 1024); [cbn; lia|]. change 42%Z with (41 + 1)%Z. rewrite (bpow_S 41). apply Rabs_le. lra. }
          replace (bpow radix2 33) with (rnd64 (bpow radix2 33)).
          - apply rnd64_le. change 33%Z with (32 + 1)%Z. rewrite (bpow_S 32). lra.
          - apply round_generic; [typeclasses eauto|]. apply (bpow_fmt 53 1024). cbn. lia. }
        assert (B33 : bpow radix2 33 = bpow radix2 32 + bpow radix2 32) by (apply (bpow_S 32)).
        destruct (Rle_dec (- bpow radix2 33) (B2R d)) as [SM|SM].
        - assert (bpow radix2 34 <= bpow radix2 41) by (apply bpow_le; lia).
          assert (B34 : bpow radix2 34 = bpow radix2 33 + bpow radix2 33) by (apply (bpow_S 33)). lra.
        - apply Rnot_le_lt in SM. exfalso.
          assert (rnd64 (B2R d + B2R (fq 1 10000)) <= rnd64 (- bpow radix2 32)) by (apply rnd64_le; lra).
          assert (NEG : rnd64 (- bpow radix2 32) <= rnd64 (- 1)) by (apply rnd64_le; lra).
          rewrite (rnd64_Z (-1)) in NEG by lia. lra. }
      assert (HI : B2R d - B2R (ln_length l) <= bpow radix2 140) by lra.
      split.
      * replace (- bpow radix2 41) with (rnd64 (- bpow radix2 41)); [now apply rnd64_le|].
        apply round_generic; [typeclasses eauto|]. apply generic_format_opp. apply (bpow_fmt 53 1024). cbn. lia.
      * replace (bpow radix2 140) with (rnd64 (bpow radix2 140)); [now apply rnd64_le|].
        apply round_generic; [typeclasses eauto|]. apply (bpow_fmt 53 1024). cbn. lia.
Qed.
Lemma start_diff ls len : Forall nlen ls -> fin len -> Rabs (B2R len) <= bpow radix2 40 -> small_diff (fsub (f_of_g (total_length ls)) len).
Proof.
  intros N F B. apply Rabs_le_inv in B. pose proof (bpow_gt_0 radix2 40) as P. assert (TN : nn (total_length ls)).
  { unfold total_length. assert (G : forall s, nn s -> nn (fold_left (fun acc l => gadd acc (ln_length l)) ls s)); [|apply G, nn_0].
    induction N as [|l ls Hl N IH]; intros s Hs; [exact Hs|]. cbn [fold_left]. apply IH. exact (proj1 (nn_plus 24 128 s (ln_length l) Hs Hl)). }
  destruct (nn_cases 24 128 _ TN) as [->|[Ft Pt]].
  - left. unfold finf. destruct len; try discriminate; reflexivity.
  - right. destruct (f_of_g_fin _ Ft) as [Ff Vf]. pose proof (B2R_lt 24 128 _ Ft) as BT.
    assert (B128 : bpow radix2 128 <= bpow radix2 139) by (apply bpow_le; lia). assert (B40 : bpow radix2 40 <= bpow radix2 139) by (apply bpow_le; lia).
    assert (B41 : bpow radix2 41 = bpow radix2 40 + bpow radix2 40) by (apply (bpow_S 40)).
    assert (B140 : bpow radix2 140 = bpow radix2 139 + bpow radix2 139) by (apply (bpow_S 139)).
    assert (B200 : bpow radix2 140 <= bpow radix2 200) by (apply bpow_le; lia).
    destruct (fsub_fin _ _ Ff F) as [Fs Vs]; [rewrite Vf; apply b140_1023; lra|]. split; [exact Fs|]. rewrite Vs, Vf. split.
    + replace (- bpow radix2 41) with (rnd64 (- bpow radix2 41)); [apply rnd64_le; lra|].
      apply round_generic; [typeclasses eauto|]. apply generic_format_opp. apply (bpow_fmt 53 1024). cbn. lia.
    + replace (bpow radix2 140) with (rnd64 (bpow radix2 140)); [apply rnd64_le; lra|].
      apply round_generic; [typeclasses eauto|]. apply (bpow_fmt 53 1024). cbn. lia.
Qed.
Lemma trimmed_bnd ls len b : Forall (lin (vbnd 30)) ls -> Forall long_enough ls -> fin len -> Rabs (B2R len) <= bpow radix2 40 ->
  Forall (lin (vbnd 100)) (if (b : bool) then rev (trim_lines (rev ls) (fsub (f_of_g (total_length ls)) len)) else ls).
Proof.
  intros F LE Fl Bl. destruct b; [|eapply lin_impl; [|exact F]; intros p; apply vbnd_le; lia].
  apply Forall_rev. apply trim_bnd; [now apply Forall_rev|now apply Forall_rev|]. apply start_diff; auto.
  eapply Forall_impl; [|exact F]. intros l [A B]. apply vfin_nlen; eapply vbnd_vfin; eassumption.
Qed.
Lemma bnd_lines_sorted k ls p i j a b : Forall (lin (vbnd k)) ls -> (i <= j)%nat ->
  nth_error (mc_sections (finish_curve ls p)) i = Some a -> nth_error (mc_sections (finish_curve ls p)) j = Some b -> gle a b = true.
Proof.
  intros F. apply sections_sorted; [apply nn_0|]. eapply Forall_impl; [|exact F]. intros l [A B]. apply vfin_nlen; eapply vbnd_vfin; eassumption.
Qed.
End WithLibm.

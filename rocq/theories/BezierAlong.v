(** The whole flattening, and the lines of a slider. *)
From Coq Require Import Reals Lra ZArith Lia Bool.
From Flocq Require Import Core BinarySingleNaN.
From Verif Require Import GoFloat Curves SpecCurves SpecArc SpecShape SpecTerm SpecBezier FloatLemmas Float32Lemmas BoundLemmas BezierProofs CurveBounds BezierTerm BezierReal BezierNear.
From Coq Require Import List.
Import ListNotations.
Open Scope R_scope.

Lemma bezier_coords (f : vec -> R) p n s : length p = S n -> bezier (map f p) s = bz n (coords f p) s.
Proof.
  intros L. rewrite bezier_bz, map_length, L. replace (S n - 1)%nat with n by lia. apply bz_ext. intros i Li. unfold coords.
  rewrite (nth_indep (map f p) 0 (f vzero)) by (rewrite map_length; lia). apply map_nth.
Qed.
Section Size.
Context {M : libm} (k : Z) (K : (0 <= k <= 22)%Z).
Let u := bpow radix2 (k - 23).
Notation err := (err k).
Lemma smooth_x a b c : vbnd k a -> vbnd k b -> vbnd k c -> Rabs (px (smooth a b c) - (px a + 2 * px b + px c) / 4) <= 5 * u.
Proof. intros [A _] [B _] [C _]. exact (smooth_coord k K _ _ _ A B C). Qed.
Lemma smooth_y a b c : vbnd k a -> vbnd k b -> vbnd k c -> Rabs (py (smooth a b c) - (py a + 2 * py b + py c) / 4) <= 5 * u.
Proof. intros [_ A] [_ B] [_ C]. exact (smooth_coord k K _ _ _ A B C). Qed.
Lemma u_pos' : 0 < u. Proof. apply bpow_gt_0. Qed.
Lemma flat_sd p n : Forall (vbnd k) p -> length p = S n -> flat_enough p -> sd_upto n (/ 2 + 10 * u) (coords px p) /\ sd_upto n (/ 2 + 10 * u) (coords py p).
Proof.
  intros F L H. assert (Q : forall i, (S (S i) <= n)%nat -> Rabs (sd (coords px p) i) <= / 2 + 10 * u /\ Rabs (sd (coords py p) i) <= / 2 + 10 * u).
  { intros i Li. unfold sd, coords. apply (flat_back k K (nth i p vzero) (nth (S i) p vzero) (nth (S (S i)) p vzero)); try (apply nth_bnd; exact F).
    apply (H i); apply nth_error_nth'; lia. }
  split; intros i Li; apply (Q i Li).
Qed.
Lemma piece_seq p n : length p = S (S n) -> piece p ++ [last p vzero] = map (drawn_point p (S n)) (seq 0 (S (S n))).
Proof.
  intros L. unfold piece. rewrite L. replace (S (S n) - 2)%nat with n by lia. change (seq 0 (S (S n))) with (0%nat :: seq 1 (S n)). cbn [map app]. f_equal.
  replace (S n) with (n + 1)%nat at 2 by lia. rewrite seq_app, map_app. f_equal.
  - apply map_ext_in. intros i I. apply in_seq in I. unfold drawn_point. destruct (Nat.eqb_spec i 0); [lia|]. destruct (Nat.eqb_spec i (S n)); [lia|]. reflexivity.
  - cbn [seq map]. unfold drawn_point. replace (1 + n)%nat with (S n) by lia. rewrite Nat.eqb_refl. reflexivity.
Qed.
Definition base_gap (n : nat) : R := (/ 2 + 10 * u) * (INR n ^ 2 + 2) / 16 + INR n * err + 5 * u.
Lemma base_pos n : 0 <= base_gap n.
Proof.
  unfold base_gap. pose proof u_pos'. pose proof (err_u k K) as [E _]. pose proof (pos_INR n). assert (0 <= INR n * err) by (apply Rmult_le_pos; lra).
  assert (0 <= (/ 2 + 10 * u) * (INR n ^ 2 + 2)) by (apply Rmult_le_pos; [lra|pose proof (pow2_ge_0 (INR n)); lra]). lra.
Qed.
Lemma piece_along p : p <> [] -> Forall (vbnd k) p -> flat_enough p -> along (base_gap (length p - 1)) p (piece p ++ [last p vzero]).
Proof.
  intros NE F H. pose proof u_pos' as U. pose proof (err_u k K) as [E0 _].
  destruct p as [|a [|b r]]; [congruence| |].
  - unfold along, piece. cbn. assert (C : forall f s, bezier [f a] s = f a).
    { intros f s. unfold bezier. cbn [length Nat.sub sum_f_R0 nth pow]. unfold Binomial.C. cbn. field. }
    pose proof (base_pos 0). apply follows_line with 1; [lra| |].
    + intros s S1. rewrite (C px), (C py). replace ((1 - s) * px a + s * px a - px a) with 0 by ring. replace ((1 - s) * py a + s * py a - py a) with 0 by ring. rewrite Rabs_R0. lra.
    + apply follows_end; [rewrite (C px)|rewrite (C py)]; rewrite Rminus_diag_eq, Rabs_R0 by reflexivity; lra.
  - set (p := a :: b :: r) in *. set (n := S (length r)). assert (L : length p = S n) by reflexivity. clearbody p.
    assert (Ln : (length p - 1)%nat = n) by lia. rewrite Ln. rewrite (piece_seq p (length r) L). fold n.
    destruct (flat_sd p n F L H) as [SX SY].
    replace 0 with (INR 0 / INR n) by (cbn [INR]; unfold Rdiv; ring). unfold along.
    replace (follows (base_gap n) (bezier (map px p)) (bezier (map py p)) 0) with (follows (base_gap n) (bezier (map px p)) (bezier (map py p)) (INR 0 / INR n)) by (f_equal; cbn [INR]; unfold Rdiv; ring).
    apply follows_seq; [unfold n; lia| |lia]. intros i s Li S1. rewrite (bezier_coords px p n), (bezier_coords py p n) by exact L. split.
    + apply (line_ok px (vbnd k) err (5 * u) (mid_x k ltac:(lia)) smooth_x E0 ltac:(lra) p n (/ 2 + 10 * u) i s F L Li ltac:(lra) SX S1).
    + apply (line_ok py (vbnd k) err (5 * u) (mid_y k ltac:(lia)) smooth_y E0 ltac:(lra) p n (/ 2 + 10 * u) i s F L Li ltac:(lra) SY S1).
Qed.
(** the curve of a half *)
Lemma half_curve (f : vec -> R) p q n a b : length p = S n -> length q = S n -> nearf n (INR n * err) (coords f q) (part n a b (coords f p)) ->
  forall s, 0 <= s <= 1 -> Rabs (bezier (map f q) s - bezier (map f p) ((1 - s) * a + s * b)) <= INR n * err.
Proof.
  intros Lp Lq N s S1. rewrite (bezier_coords f q n s Lq), (bezier_coords f p n _ Lp). rewrite <- bz_part. now apply nearf_bz.
Qed.
Lemma split_along e p l r : p <> [] -> Forall (vbnd k) p -> flattens (right_half p) r ->
  along e (left_half p) (l ++ [last (left_half p) vzero]) -> along e (right_half p) (r ++ [last (right_half p) vzero]) ->
  along (e + INR (length p - 1) * err) p ((l ++ r) ++ [last p vzero]).
Proof.
  intros NE F FR HL HR. pose proof (err_u k K) as [E0 _]. assert (L : exists n, length p = S n) by (destruct p as [|a p]; [congruence|exists (length p); reflexivity]). destruct L as (n & L).
  replace (length p - 1)%nat with n by lia. assert (NR : right_half p <> []) by (intros C; pose proof (right_half_length p) as LR; rewrite C, L in LR; discriminate LR).
  destruct (flattens_hd _ _ NR FR) as (r' & ->). rewrite right_half_last in HR.
  assert (J : last (left_half p) vzero = hd vzero (right_half p)).
  { rewrite last_nth, left_half_length, hd_nth, left_at, right_at by lia. f_equal. f_equal. lia. }
  rewrite J in HL. rewrite <- app_assoc. cbn [app] in *.
  assert (HL' : follows (e + INR n * err) (bezier (map px p)) (bezier (map py p)) (/ 2 * 0 + 0) (l ++ [hd vzero (right_half p)]) (/ 2 * 1 + 0)).
  { apply (follows_move e (INR n * err) (bezier (map px (left_half p))) (bezier (map py (left_half p)))); [lra| |exact HL|lra|lra].
    intros s S1. replace (/ 2 * s + 0) with ((1 - s) * 0 + s * / 2) by ring.
    split; apply (half_curve _ p (left_half p) n); auto; try (rewrite left_half_length; exact L).
    - apply (left_near px (vbnd k) err (mid_x k ltac:(lia)) E0 p n F L).
    - apply (left_near py (vbnd k) err (mid_y k ltac:(lia)) E0 p n F L). }
  assert (HR' : follows (e + INR n * err) (bezier (map px p)) (bezier (map py p)) (/ 2 * 0 + / 2) (hd vzero (right_half p) :: r' ++ [last p vzero]) (/ 2 * 1 + / 2)).
  { apply (follows_move e (INR n * err) (bezier (map px (right_half p))) (bezier (map py (right_half p)))); [lra| |exact HR|lra|lra].
    intros s S1. replace (/ 2 * s + / 2) with ((1 - s) * / 2 + s * 1) by field.
    split; apply (half_curve _ p (right_half p) n); auto; try (rewrite right_half_length; exact L).
    - apply (right_near px (vbnd k) err (mid_x k ltac:(lia)) E0 p n F L).
    - apply (right_near py (vbnd k) err (mid_y k ltac:(lia)) E0 p n F L). }
  replace (/ 2 * 0 + 0) with 0 in HL' by ring. replace (/ 2 * 1 + 0) with (/ 2) in HL' by ring. replace (/ 2 * 0 + / 2) with (/ 2) in HR' by ring. replace (/ 2 * 1 + / 2) with 1 in HR' by field.
  exact (follows_join _ _ _ _ _ _ _ _ _ HL' HR').
Qed.
Lemma halving_along m : forall p s x o, p <> [] -> s = 4 / 3 * (INR (length p) * err) -> s + / 64 + 10 * err <= 0.35 -> Forall (vbnd k) p -> D2 cx (s + x) p -> D2 cy (s + x) p ->
  x <= / 64 * 4 ^ m -> flattens p o -> along (base_gap (length p - 1) + INR m * (INR (length p - 1) * err)) p (o ++ [last p vzero]).
Proof.
  pose proof (err_u k K) as [E0 _]. induction m as [|m IH]; intros p s x o NE Es Hs F Dx Dy Hx H.
  - cbn [pow] in Hx. assert (Fl : flat_enough p) by (apply (flat_small k ltac:(lia) (s + x)); auto; lra).
    inversion H as [? _|? ? ? N _ _]; subst; [|contradiction]. cbn [INR]. replace (base_gap (length p - 1) + 0 * (INR (length p - 1) * err)) with (base_gap (length p - 1)) by ring. now apply piece_along.
  - pose proof (pos_INR (length p - 1)) as N0. assert (Q : 0 <= INR (length p - 1) * err) by (apply Rmult_le_pos; lra). pose proof (pos_INR m) as M0. assert (Q' : 0 <= INR m * (INR (length p - 1) * err)) by (apply Rmult_le_pos; lra).
    rewrite S_INR. inversion H as [? Fl|? l r Nf Hl Hr]; subst o; [subst p0|subst p0].
    + eapply follows_more; [|now apply piece_along]. lra.
    + assert (Hx' : x / 4 <= / 64 * 4 ^ m) by (cbn [pow] in Hx; lra).
      assert (Ed : (s + x) / 4 + INR (length p) * err = s + x / 4) by lra.
      assert (NL : left_half p <> []) by (intros C; pose proof (left_half_length p) as LL; rewrite C in LL; destruct p; [congruence|discriminate LL]).
      assert (NR : right_half p <> []) by (intros C; pose proof (right_half_length p) as LL; rewrite C in LL; destruct p; [congruence|discriminate LL]).
      replace (base_gap (length p - 1) + (INR m + 1) * (INR (length p - 1) * err)) with ((base_gap (length p - 1) + INR m * (INR (length p - 1) * err)) + INR (length p - 1) * err) by ring.
      apply split_along; try assumption.
      * rewrite <- (left_half_length p). apply (IH (left_half p) s (x / 4)); try assumption.
        -- now rewrite left_half_length.
        -- apply left_bnd; auto; lia.
        -- rewrite <- Ed. apply (D2_left cx (vbnd k) err (mid_x k ltac:(lia))); auto.
        -- rewrite <- Ed. apply (D2_left cy (vbnd k) err (mid_y k ltac:(lia))); auto.
      * rewrite <- (right_half_length p). apply (IH (right_half p) s (x / 4)); try assumption.
        -- now rewrite right_half_length.
        -- apply right_bnd; auto; lia.
        -- rewrite <- Ed. apply (D2_right cx (vbnd k) err (mid_x k ltac:(lia))); auto.
        -- rewrite <- Ed. apply (D2_right cy (vbnd k) err (mid_y k ltac:(lia))); auto.
Qed.
Theorem flattens_along p o : p <> [] -> Forall (vbnd k) p -> (INR (length p) + 8) * bpow radix2 k <= bpow radix2 22 -> flattens p o -> along (bezier_gap k (length p)) p (o ++ [last p vzero]).
Proof.
  intros NE F H FL. pose proof (B_22 k K) as B1. pose proof (err_u k K) as [E0 EU]. pose proof t_small as TT. fold u in EU. set (s := 4 / 3 * (INR (length p) * err)). set (B := bpow radix2 k) in *.
  pose proof (pos_INR (length p)) as P0. assert (S0 : 0 <= s). { unfold s. assert (0 <= INR (length p) * err) by (apply Rmult_le_pos; lra). lra. }
  change (bpow radix2 22) with 4194304 in *.
  assert (N : INR (length p) + 8 <= 4194304). { eapply Rle_trans; [|exact H]. rewrite <- (Rmult_1_r (INR (length p) + 8)) at 1. apply Rmult_le_compat_l; lra. }
  assert (Q : (INR (length p) + 8) * err <= 0.2500001).
  { rewrite err_B. fold B. set (t := bpow radix2 (-150)) in *. rewrite Rmult_plus_distr_l. assert (A1 : (INR (length p) + 8) * (B / 16777216) <= / 4) by lra.
    assert (A2 : (INR (length p) + 8) * (2 * t) <= 4194304 * (2 * / 1125899906842624)) by (apply Rmult_le_compat; lra). lra. }
  assert (L1 : INR (length p - 1) <= INR (length p)) by (apply le_INR; lia). pose proof (pos_INR (length p - 1)) as L0. pose proof u_pos' as U0.
  eapply follows_more; [|apply (halving_along 14 p s (4 * B) o NE eq_refl)]; try assumption.
  - unfold base_gap, bezier_gap. fold u. assert (G1 : 1 <= INR (length p)) by (change 1 with (INR 1); apply le_INR; destruct p; [congruence|cbn; lia]).
    assert (X1 : INR (length p - 1) * err <= INR (length p) * (u * 0.51)) by (apply Rmult_le_compat; lra).
    assert (X2 : u <= INR (length p) * u) by (rewrite <- (Rmult_1_l u) at 1; apply Rmult_le_compat_r; lra).
    replace (INR 14) with 14 by (cbn; ring). lra.
  - unfold s. lra.
  - eapply D2_le; [|apply (D2_start k cx); auto; intros q [[_ Hq] _]; exact Hq]. fold B. lra.
  - eapply D2_le; [|apply (D2_start k cy); auto; intros q [_ [_ Hq]]; exact Hq]. fold B. lra.
  - change (4 ^ 14) with (4 * (4 * (4 * (4 * (4 * (4 * (4 * (4 * (4 * (4 * (4 * (4 * (4 * (4 * 1)))))))))))))).
    assert (8 * B <= (INR (length p) + 8) * B) by (apply Rmult_le_compat_r; lra). lra.
Qed.
End Size.

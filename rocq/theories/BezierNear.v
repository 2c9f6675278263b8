(** Flattened Bezier curves follow the curve. *)
From Coq Require Import Reals Lra ZArith Lia Bool.
From Flocq Require Import Core BinarySingleNaN.
From Verif Require Import GoFloat Curves SpecCurves SpecArc SpecShape SpecBezier FloatLemmas Float32Lemmas KeyLemmas BoundLemmas BezierProofs CurveBounds BezierTerm BezierReal.
From Coq Require Import List.
Import ListNotations.
Open Scope R_scope.

Lemma mixn_0 n g : mixn n 0 g = g.
Proof. induction n as [|n IH]; [reflexivity|]. cbn [mixn]. replace (mixf 0 g) with g; [exact IH|]. apply FunctionalExtensionality.functional_extensionality. intros i. unfold mixf. ring. Qed.
Lemma mixn_1 n : forall g j, mixn n 1 g j = g (j + n)%nat.
Proof. induction n as [|n IH]; intros g j; [now rewrite Nat.add_0_r|]. cbn [mixn]. rewrite IH. unfold mixf. replace (j + S n)%nat with (S (j + n)) by lia. ring. Qed.
Lemma part_left n g i : part n 0 (/ 2) g i = mixn i (/ 2) g 0.
Proof. unfold part. now rewrite mixn_0. Qed.
Lemma part_right n g i : part n (/ 2) 1 g i = mixn (n - i) (/ 2) g i.
Proof. unfold part. rewrite mixn_1. reflexivity. Qed.

Lemma avg3 a b c x y z m : Rabs (a - x) <= m -> Rabs (b - y) <= m -> Rabs (c - z) <= m -> Rabs ((a + 2 * b + c) / 4 - (x + 2 * y + z) / 4) <= m.
Proof. intros A B C. apply Rabs_le_inv in A, B, C. apply Rabs_le. lra. Qed.
Definition joined (n : nat) (g : nat -> R) (j : nat) : R := if Nat.leb j n then part n 0 (/ 2) g j else part n (/ 2) 1 g (j - n).
Lemma joined_right n g j : (n <= j)%nat -> joined n g j = part n (/ 2) 1 g (j - n).
Proof.
  intros L. unfold joined. destruct (Nat.leb_spec j n); [|reflexivity]. replace j with n by lia. rewrite part_left, part_right. now rewrite Nat.sub_diag, Nat.sub_0_r.
Qed.
Lemma joined_left n g j : (j <= n)%nat -> joined n g j = part n 0 (/ 2) g j.
Proof. intros L. unfold joined. destruct (Nat.leb_spec j n); [reflexivity|lia]. Qed.
(** three neighbours of one half *)
Lemma third n d h j : (0 < n)%nat -> 0 <= d -> sd_upto n d h -> (1 <= j)%nat -> (S j <= n)%nat ->
  Rabs ((h (j - 1)%nat + 2 * h j + h (S j)) / 4 - bz n h (INR j / INR n)) <= d * INR n ^ 2 / 4.
Proof.
  intros N D H J L. assert (N0 : 0 < INR n) by (apply lt_0_INR; lia).
  pose proof (control_chord n d h (j - 1) N D H ltac:(lia)) as A. pose proof (control_chord n d h j N D H ltac:(lia)) as B. pose proof (control_chord n d h (S j) N D H ltac:(lia)) as C'.
  pose proof (avg3 _ _ _ _ _ _ _ A B C') as K. clear A B C'.
  assert (T : 0 <= INR j / INR n <= 1).
  { split; [apply Rmult_le_pos; [apply pos_INR|apply Rlt_le, Rinv_0_lt_compat; exact N0]|]. apply Rmult_le_reg_r with (INR n); [exact N0|]. unfold Rdiv. rewrite Rmult_assoc, Rinv_l by lra. rewrite Rmult_1_r, Rmult_1_l. apply le_INR. lia. }
  pose proof (chord_8 n d (INR j / INR n) h T D H) as Q. rewrite minus_INR in K by exact J. rewrite (S_INR j) in K. change (INR 1) with 1 in K.
  match type of K with Rabs (_ - ?z) <= _ => replace z with ((1 - INR j / INR n) * h 0%nat + INR j / INR n * h n) in K by (field; lra) end.
  apply Rabs_le_inv in K, Q. apply Rabs_le. lra.
Qed.
Lemma smoothed n d g i : (0 < n)%nat -> 0 <= d -> sd_upto n d g -> (1 <= i)%nat -> (i < n)%nat ->
  Rabs ((joined n g (2 * i - 1) + 2 * joined n g (2 * i) + joined n g (2 * i + 1)) / 4 - bz n g (INR i / INR n)) <= d * INR n ^ 2 / 16.
Proof.
  intros N D H I L. assert (N0 : 0 < INR n) by (apply lt_0_INR; lia).
  assert (Q0 : 0 <= d * INR n ^ 2) by (apply Rmult_le_pos; [exact D|apply pow2_ge_0]).
  destruct (Nat.lt_trichotomy (2 * i) n) as [C|[C|C]].
  - rewrite !joined_left by lia. pose proof (sd_upto_part n d 0 (/ 2) g ltac:(lra) ltac:(lra) H) as SP.
    pose proof (third n ((/ 2 - 0) * (/ 2 - 0) * d) (part n 0 (/ 2) g) (2 * i) N ltac:(lra) SP ltac:(lia) ltac:(lia)) as K. rewrite bz_part in K.
    replace ((1 - INR (2 * i) / INR n) * 0 + INR (2 * i) / INR n * / 2) with (INR i / INR n) in K by (rewrite mult_INR; cbn [INR]; field; lra).
    replace (2 * i + 1)%nat with (S (2 * i)) by lia. lra.
  - replace (INR i / INR n) with (/ 2) by (rewrite <- C, mult_INR; cbn [INR]; field; apply Rgt_not_eq, lt_0_INR; lia).
    rewrite (joined_left n g (2 * i - 1)), (joined_left n g (2 * i)), (joined_right n g (2 * i + 1)) by lia. rewrite !part_left, part_right.
    replace (2 * i + 1 - n)%nat with 1%nat by lia. replace (2 * i - 1)%nat with (n - 1)%nat by lia. rewrite C. unfold bz.
    assert (E : mixn n (/ 2) g 0 = (mixn (n - 1) (/ 2) g 0 + mixn (n - 1) (/ 2) g 1) / 2).
    { replace n with (S (n - 1)) at 1 by lia. rewrite mixn_S. unfold mixf. field. }
    rewrite E. match goal with |- Rabs ?z <= _ => replace z with 0 by field end. rewrite Rabs_R0. lra.
  - rewrite !joined_right by lia. pose proof (sd_upto_part n d (/ 2) 1 g ltac:(lra) ltac:(lra) H) as SP.
    pose proof (third n ((1 - / 2) * (1 - / 2) * d) (part n (/ 2) 1 g) (2 * i - n) N ltac:(lra) SP ltac:(lia) ltac:(lia)) as K. rewrite bz_part in K.
    replace ((1 - INR (2 * i - n) / INR n) * / 2 + INR (2 * i - n) / INR n * 1) with (INR i / INR n) in K by (rewrite minus_INR, mult_INR by lia; cbn [INR]; field; lra).
    replace (2 * i + 1 - n)%nat with (S (2 * i - n)) by lia. replace (2 * i - 1 - n)%nat with (2 * i - n - 1)%nat by lia. lra.
Qed.
(** the line between two neighbouring parameters *)
Lemma between n d g i s : (i < n)%nat -> 0 <= d -> sd_upto n d g -> 0 <= s <= 1 ->
  Rabs ((1 - s) * bz n g (INR i / INR n) + s * bz n g (INR (S i) / INR n) - bz n g ((1 - s) * (INR i / INR n) + s * (INR (S i) / INR n))) <= d / 8.
Proof.
  intros L D H Hs. assert (N0 : 0 < INR n) by (apply lt_0_INR; lia).
  assert (T : forall j, (j <= n)%nat -> 0 <= INR j / INR n <= 1).
  { intros j Lj. split; [apply Rmult_le_pos; [apply pos_INR|apply Rlt_le, Rinv_0_lt_compat; exact N0]|]. apply Rmult_le_reg_r with (INR n); [exact N0|]. unfold Rdiv. rewrite Rmult_assoc, Rinv_l by lra. rewrite Rmult_1_r, Rmult_1_l. apply le_INR. lia. }
  pose proof (sd_upto_part n d (INR i / INR n) (INR (S i) / INR n) g (T i ltac:(lia)) (T (S i) ltac:(lia)) H) as SP.
  set (a := INR i / INR n) in *. set (b := INR (S i) / INR n) in *.
  assert (BA : b - a = / INR n) by (unfold b, a; rewrite S_INR; field; lra). rewrite BA in SP.
  assert (D' : 0 <= / INR n * / INR n * d) by (apply Rmult_le_pos; [apply Rle_0_sqr|exact D]).
  pose proof (chord_8 n _ s _ Hs D' SP) as K. rewrite bz_part in K.
  assert (P0 : part n a b g 0%nat = bz n g a) by (unfold part; rewrite Nat.sub_0_r; reflexivity).
  assert (Pn : part n a b g n = bz n g b) by (unfold part; rewrite Nat.sub_diag; reflexivity).
  rewrite P0, Pn in K. replace (/ INR n * / INR n * d * INR n ^ 2 / 8) with (d / 8) in K by (field; lra).
  rewrite Rabs_minus_sym. exact K.
Qed.

(** ** One coordinate *)
Section Coord.
Context {M : libm} (f : vec -> R) (P : vec -> Prop) (e e' : R).
Context (Hm : forall a b, P a -> P b -> P (mid a b) /\ Rabs (f (mid a b) - (f a + f b) / 2) <= e).
Context (Hs : forall a b c, P a -> P b -> P c -> Rabs (f (smooth a b c) - (f a + 2 * f b + f c) / 4) <= e').
Context (E0 : 0 <= e) (E1 : 0 <= e').
Definition coords (p : list vec) : nat -> R := fun i => f (nth i p vzero).
Lemma row_at p : forall j, (S j < length p)%nat -> nth j (row p) vzero = mid (nth j p vzero) (nth (S j) p vzero).
Proof.
  induction p as [|a p IH]; intros j L; [cbn in L; lia|]. destruct p as [|b p]; [cbn in L; lia|]. rewrite row_cons. destruct j as [|j]; [reflexivity|].
  cbn [nth]. rewrite (IH j) by (cbn in *; lia). reflexivity.
Qed.
Lemma Forall_at p i : Forall P p -> (i < length p)%nat -> P (nth i p vzero).
Proof. intros F L. rewrite Forall_forall in F. apply F. now apply nth_In. Qed.
Lemma rows_near p : Forall P p -> forall m j, (j + m < length p)%nat -> Rabs (f (nth j (rows m p) vzero) - mixn m (/ 2) (coords p) j) <= INR m * e.
Proof.
  intros F. induction m as [|m IH]; intros j L.
  - cbn [rows mixn INR]. unfold coords. rewrite Rminus_diag_eq, Rabs_R0 by reflexivity. lra.
  - rewrite rows_S, mixn_S, row_at by (rewrite rows_length; lia). pose proof (IH j ltac:(lia)) as A. pose proof (IH (S j) ltac:(lia)) as B.
    pose proof (rows_P f P e Hm m p F) as F'.
    destruct (Hm (nth j (rows m p) vzero) (nth (S j) (rows m p) vzero)) as [_ C]; [apply Forall_at; [exact F'|rewrite rows_length; lia]..|].
    unfold mixf. rewrite S_INR. apply Rabs_le_inv in A, B, C. apply Rabs_le. lra.
Qed.
Lemma hd_nth (l : list vec) : hd vzero l = nth 0 l vzero. Proof. destruct l; reflexivity. Qed.
Lemma last_nth (l : list vec) : last l vzero = nth (length l - 1) l vzero.
Proof.
  induction l as [|a l IH]; [reflexivity|]. destruct l as [|b l]; [reflexivity|]. change (last (a :: b :: l) vzero) with (last (b :: l) vzero). rewrite IH. cbn [length]. rewrite !Nat.sub_succ, Nat.sub_0_r. reflexivity.
Qed.
Lemma left_at p i : (i < length p)%nat -> nth i (left_half p) vzero = nth 0 (rows i p) vzero.
Proof.
  intros L. apply nth_error_nth. unfold left_half. rewrite nth_error_map, triangle_nth by exact L. cbn [option_map]. now rewrite hd_nth.
Qed.
Lemma right_at p i : (i < length p)%nat -> nth i (right_half p) vzero = nth i (rows (length p - 1 - i) p) vzero.
Proof.
  intros L. unfold right_half. rewrite rev_nth by (rewrite map_length, triangle_length; exact L). rewrite map_length, triangle_length.
  replace (length p - S i)%nat with (length p - 1 - i)%nat by lia. apply nth_error_nth. rewrite nth_error_map, triangle_nth by lia. cbn [option_map]. f_equal.
  rewrite last_nth, rows_length. f_equal. lia.
Qed.
Lemma left_near p n : Forall P p -> length p = S n -> nearf n (INR n * e) (coords (left_half p)) (part n 0 (/ 2) (coords p)).
Proof.
  intros F L i Li. unfold coords at 1. rewrite left_at, part_left by lia. eapply Rle_trans; [apply (rows_near p F i 0); lia|].
  apply Rmult_le_compat_r; [exact E0|]. apply le_INR. lia.
Qed.
Lemma right_near p n : Forall P p -> length p = S n -> nearf n (INR n * e) (coords (right_half p)) (part n (/ 2) 1 (coords p)).
Proof.
  intros F L i Li. unfold coords at 1. rewrite right_at, part_right by lia. replace (length p - 1 - i)%nat with (n - i)%nat by lia. eapply Rle_trans; [apply (rows_near p F (n - i) i); lia|].
  apply Rmult_le_compat_r; [exact E0|]. apply le_INR. lia.
Qed.
Lemma both_at p n j : length p = S n -> (j <= 2 * n)%nat -> nth j (both_halves p) vzero = if Nat.leb j n then nth j (left_half p) vzero else nth (j - n) (right_half p) vzero.
Proof.
  intros L Lj. unfold both_halves. destruct (Nat.leb_spec j n).
  - apply app_nth1. rewrite left_half_length. lia.
  - rewrite app_nth2 by (rewrite left_half_length; lia). rewrite left_half_length, L. pose proof (right_half_length p) as LR. destruct (right_half p) as [|x r]; [cbn in LR; lia|].
    cbn [tl]. replace (j - n)%nat with (S (j - S n)) by lia. reflexivity.
Qed.
Lemma both_near p n j : Forall P p -> length p = S n -> (j <= 2 * n)%nat -> Rabs (f (nth j (both_halves p) vzero) - joined n (coords p) j) <= INR n * e.
Proof.
  intros F L Lj. rewrite (both_at p n j L Lj). unfold joined. destruct (Nat.leb_spec j n).
  - exact (left_near p n F L j ltac:(lia)).
  - exact (right_near p n F L (j - n)%nat ltac:(lia)).
Qed.
Lemma both_P p n j : Forall P p -> length p = S n -> (j <= 2 * n)%nat -> P (nth j (both_halves p) vzero).
Proof.
  intros F L Lj. rewrite (both_at p n j L Lj). destruct (Nat.leb_spec j n).
  - rewrite left_at by lia. apply Forall_at; [exact (rows_P f P e Hm j p F)|rewrite rows_length; lia].
  - rewrite right_at by lia. apply Forall_at; [exact (rows_P f P e Hm _ p F)|rewrite rows_length; lia].
Qed.
(** the points of a flat piece, its last one included *)
Definition drawn_point (p : list vec) (n i : nat) : vec :=
  if Nat.eqb i 0 then hd vzero p else if Nat.eqb i n then last p vzero else
  smooth (nth (2 * i - 1) (both_halves p) vzero) (nth (2 * i) (both_halves p) vzero) (nth (2 * i + 1) (both_halves p) vzero).
Lemma bz_ends n g : bz n g 0 = g 0%nat /\ bz n g 1 = g n.
Proof. unfold bz. rewrite mixn_0, mixn_1. auto. Qed.
Lemma point_ok p n d i : Forall P p -> length p = S n -> (0 < n)%nat -> 0 <= d -> sd_upto n d (coords p) -> (i <= n)%nat ->
  Rabs (f (drawn_point p n i) - bz n (coords p) (INR i / INR n)) <= d * INR n ^ 2 / 16 + INR n * e + e'.
Proof.
  intros F L N D H Li. assert (N0 : 0 < INR n) by (apply lt_0_INR; lia).
  assert (Q0 : 0 <= d * INR n ^ 2) by (apply Rmult_le_pos; [exact D|apply pow2_ge_0]).
  assert (Q1 : 0 <= INR n * e) by (apply Rmult_le_pos; lra). unfold drawn_point.
  destruct (Nat.eqb_spec i 0) as [->|I0].
  { cbn [INR]. unfold Rdiv at 1. rewrite Rmult_0_l. rewrite (proj1 (bz_ends n _)). unfold coords. rewrite <- hd_nth, Rminus_diag_eq, Rabs_R0 by reflexivity. lra. }
  destruct (Nat.eqb_spec i n) as [->|In].
  { unfold Rdiv at 1. rewrite Rinv_r by lra. rewrite (proj2 (bz_ends n _)). unfold coords. rewrite last_nth, L. replace (S n - 1)%nat with n by lia. rewrite Rminus_diag_eq, Rabs_R0 by reflexivity. lra. }
  pose proof (smoothed n d (coords p) i N D H ltac:(lia) ltac:(lia)) as A.
  pose proof (avg3 _ _ _ _ _ _ _ (both_near p n (2 * i - 1) F L ltac:(lia)) (both_near p n (2 * i) F L ltac:(lia)) (both_near p n (2 * i + 1) F L ltac:(lia))) as B.
  pose proof (Hs _ _ _ (both_P p n (2 * i - 1) F L ltac:(lia)) (both_P p n (2 * i) F L ltac:(lia)) (both_P p n (2 * i + 1) F L ltac:(lia))) as C.
  apply Rabs_le_inv in A, B, C. apply Rabs_le. lra.
Qed.
Lemma line_ok p n d i s : Forall P p -> length p = S n -> (i < n)%nat -> 0 <= d -> sd_upto n d (coords p) -> 0 <= s <= 1 ->
  Rabs ((1 - s) * f (drawn_point p n i) + s * f (drawn_point p n (S i)) - bz n (coords p) ((1 - s) * (INR i / INR n) + s * (INR (S i) / INR n))) <= d * (INR n ^ 2 + 2) / 16 + INR n * e + e'.
Proof.
  intros F L Li D H S1. pose proof (point_ok p n d i F L ltac:(lia) D H ltac:(lia)) as A. pose proof (point_ok p n d (S i) F L ltac:(lia) D H ltac:(lia)) as B.
  pose proof (between n d (coords p) i s Li D H S1) as C. set (m := d * INR n ^ 2 / 16 + INR n * e + e') in *.
  apply Rabs_le_inv in A, B, C. apply Rabs_le.
  set (x := f (drawn_point p n i)) in *. set (y := f (drawn_point p n (S i))) in *. set (bx := bz n (coords p) (INR i / INR n)) in *. set (by_ := bz n (coords p) (INR (S i) / INR n)) in *.
  assert ((1 - s) * - m <= (1 - s) * (x - bx) <= (1 - s) * m) by (split; apply Rmult_le_compat_l; lra).
  assert (s * - m <= s * (y - by_) <= s * m) by (split; apply Rmult_le_compat_l; lra).
  replace (d * (INR n ^ 2 + 2) / 16 + INR n * e + e') with (m + d / 8) by (unfold m; field). lra.
Qed.
End Coord.

(** ** Walking along a curve *)
Lemma follows_le e x y t qs t' : follows e x y t qs t' -> t <= t'.
Proof. intros H. induction H as [t q _ _|t t' t'' q q' r L _ _ IH]; lra. Qed.
Lemma follows_more e e' x y t qs t' : e <= e' -> follows e x y t qs t' -> follows e' x y t qs t'.
Proof.
  intros L H. induction H as [t q A B|t t' t'' q q' r Lt K _ IH]; [apply follows_end; lra|]. apply follows_line with t'; [exact Lt| |exact IH].
  intros s S1. destruct (K s S1). lra.
Qed.
Lemma follows_join e x y a b c l m r : follows e x y a (l ++ [m]) b -> follows e x y b (m :: r) c -> follows e x y a (l ++ m :: r) c.
Proof.
  revert a. induction l as [|q l IH]; intros a H1 H2.
  - cbn [app] in *. inversion H1; subst. exact H2.
  - cbn [app] in H1. destruct l as [|q' l]; cbn [app] in *.
    + inversion H1 as [|? t' ? ? ? ? Lt K H3]; subst. apply follows_line with t'; [exact Lt|exact K|]. now apply (IH t').
    + inversion H1 as [|? t' ? ? ? ? Lt K H3]; subst. apply follows_line with t'; [exact Lt|exact K|]. now apply (IH t').
Qed.
(** another curve nearby, at other parameters *)
Lemma follows_move e h x y x' y' al be : 0 < al -> (forall t, 0 <= t <= 1 -> Rabs (x t - x' (al * t + be)) <= h /\ Rabs (y t - y' (al * t + be)) <= h) ->
  forall t qs t', follows e x y t qs t' -> 0 <= t -> t' <= 1 -> follows (e + h) x' y' (al * t + be) qs (al * t' + be).
Proof.
  intros A H t qs t' F. induction F as [t q X Y|t t' t'' q q' r Lt K F IH]; intros T0 T1.
  - destruct (H t ltac:(lra)) as [HX HY]. apply Rabs_le_inv in X, Y, HX, HY. apply follows_end; apply Rabs_le; lra.
  - pose proof (follows_le _ _ _ _ _ _ F) as L2. apply follows_line with (al * t' + be); [assert (al * t < al * t') by (apply Rmult_lt_compat_l; lra); lra| |apply IH; lra].
    intros s S1. destruct (K s S1) as [KX KY]. assert (T : 0 <= (1 - s) * t + s * t' <= 1).
    { assert ((1 - s) * t <= (1 - s) * t') by (apply Rmult_le_compat_l; lra). assert (s * t <= s * t') by (apply Rmult_le_compat_l; lra). lra. }
    destruct (H _ T) as [HX HY]. replace ((1 - s) * (al * t + be) + s * (al * t' + be)) with (al * ((1 - s) * t + s * t') + be) by ring.
    apply Rabs_le_inv in KX, KY, HX, HY. split; apply Rabs_le; lra.
Qed.
Lemma follows_seq e x y (Q : nat -> vec) n : (0 < n)%nat ->
  (forall i s, (i < n)%nat -> 0 <= s <= 1 -> Rabs ((1 - s) * px (Q i) + s * px (Q (S i)) - x ((1 - s) * (INR i / INR n) + s * (INR (S i) / INR n))) <= e /\
    Rabs ((1 - s) * py (Q i) + s * py (Q (S i)) - y ((1 - s) * (INR i / INR n) + s * (INR (S i) / INR n))) <= e) ->
  forall m i, (i + m = n)%nat -> follows e x y (INR i / INR n) (map Q (seq i (S m))) 1.
Proof.
  intros N H. assert (N0 : 0 < INR n) by (apply lt_0_INR; lia). induction m as [|m IH]; intros i E.
  - replace i with n by lia. cbn [seq map]. assert (E1 : INR n / INR n = 1) by (field; lra). rewrite E1. destruct (H (n - 1)%nat 1 ltac:(lia) ltac:(lra)) as [A B].
    replace (S (n - 1)) with n in A, B by lia. rewrite E1 in A, B. apply follows_end.
    + match type of A with Rabs (?z) <= _ => match z with ?u - x ?v => replace u with (px (Q n)) in A by ring; replace v with 1 in A by ring end end. exact A.
    + match type of B with Rabs (?z) <= _ => match z with ?u - y ?v => replace u with (py (Q n)) in B by ring; replace v with 1 in B by ring end end. exact B.
  - change (seq i (S (S m))) with (i :: seq (S i) (S m)). specialize (IH (S i) ltac:(lia)). cbn [seq map] in *. apply follows_line with (INR (S i) / INR n).
    + apply Rmult_lt_compat_r; [apply Rinv_0_lt_compat; exact N0|]. rewrite S_INR. lra.
    + intros s S1. apply H; [lia|exact S1].
    + exact IH.
Qed.

(** ** Rounding *)
Section Size.
Context {M : libm} (k : Z) (K : (0 <= k <= 22)%Z).
Let B := bpow radix2 k.
Let t := bpow radix2 (-150).
Let u := bpow radix2 (k - 23).
Notation err := (err k).
Lemma B_22 : 1 <= B <= 4194304.
Proof. split; [change 1 with (bpow radix2 0)|change 4194304 with (bpow radix2 22)]; apply bpow_le; lia. Qed.
Lemma t_small : 0 < t <= / 1125899906842624.
Proof. split; [apply bpow_gt_0|]. change (/ 1125899906842624) with (bpow radix2 (-50)). apply bpow_le. lia. Qed.
Lemma u_B : u = B / 8388608.
Proof. unfold u, Z.sub. rewrite bpow_plus. change (bpow radix2 (- (23))) with (/ 8388608). reflexivity. Qed.
Lemma err_B : err = B / 16777216 + 2 * t.
Proof. unfold BezierTerm.err. reflexivity. Qed.
Lemma err_u : 0 <= err <= u * 0.51.
Proof. rewrite err_B, u_B. pose proof B_22. pose proof t_small. lra. Qed.
Lemma big22 x : Rabs x <= 10 * B -> Rabs x <= bpow radix2 127.
Proof. intros H. pose proof B_22. apply Rle_trans with (1 := H). apply Rle_trans with (bpow radix2 26); [change (bpow radix2 26) with 67108864; lra|apply bpow_le; lia]. Qed.
Lemma rnd_B x m : Rabs x <= m * B -> Rabs (rnd32 x - x) <= m * B / 16777216 + t.
Proof. intros H. pose proof (rnd32_errR x (m * B) H) as E. change (bpow radix2 (-24)) with (/ 16777216) in E. fold t in E. lra. Qed.
Lemma smooth_coord a b c : bnd k a -> bnd k b -> bnd k c ->
  Rabs (B2R (gmul (gadd (gadd a (gmul b (gq 2 1))) c) (gq 1 4)) - (B2R a + 2 * B2R b + B2R c) / 4) <= 5 * u.
Proof.
  intros [Fa Ba] [Fb Bb] [Fc Bc]. fold B in Ba, Bb, Bc. destruct two_val as [F2 V2]. pose proof B_22 as B1. pose proof t_small as T0.
  assert (Q : fin (gq 1 4) /\ B2R (gq 1 4) = / 4). { split; [vm_compute; reflexivity|]. bval (gq 1 4). lra. } destruct Q as [F4 V4].
  assert (S1 : Rabs (B2R b * 2) <= 2 * B) by (rewrite Rabs_mult, (Rabs_pos_eq 2) by lra; lra).
  destruct (gmul_fin b (gq 2 1) Fb F2) as [F3 V3]; [rewrite V2; apply big22; lra|]. rewrite V2 in V3. pose proof (rnd_B _ _ S1) as E1. rewrite <- V3 in E1.
  set (m := B2R (gmul b (gq 2 1))) in *. apply Rabs_le_inv in E1, Ba, Bb, Bc, S1.
  assert (S2 : Rabs (B2R a + m) <= 3.001 * B) by (apply Rabs_le; lra).
  destruct (gadd_fin a (gmul b (gq 2 1)) Fa F3) as [F5 V5]; [fold m; apply big22; lra|]. fold m in V5. pose proof (rnd_B _ _ S2) as E2. rewrite <- V5 in E2.
  set (v := B2R (gadd a (gmul b (gq 2 1)))) in *. apply Rabs_le_inv in E2, S2.
  assert (S3 : Rabs (v + B2R c) <= 4.01 * B) by (apply Rabs_le; lra).
  destruct (gadd_fin (gadd a (gmul b (gq 2 1))) c F5 Fc) as [F6 V6]; [fold v; apply big22; lra|]. fold v in V6. pose proof (rnd_B _ _ S3) as E3. rewrite <- V6 in E3.
  set (w := B2R (gadd (gadd a (gmul b (gq 2 1))) c)) in *. apply Rabs_le_inv in E3, S3.
  assert (S4 : Rabs (w * / 4) <= 2 * B) by (apply Rabs_le; lra).
  destruct (gmul_fin (gadd (gadd a (gmul b (gq 2 1))) c) (gq 1 4) F6 F4) as [F7 V7]; [fold w; rewrite V4; apply big22; lra|]. fold w in V7. rewrite V4 in V7. pose proof (rnd_B _ _ S4) as E4. rewrite <- V7 in E4.
  rewrite u_B. apply Rabs_le_inv in E4. apply Rabs_le. lra.
Qed.
Lemma square_back x : fin x -> Rabs (B2R x) <= 10 * B -> B2R (gmul x x) <= / 4 -> Rabs (B2R x) <= / 2 + / 8388608.
Proof.
  intros F H L. pose proof B_22 as B1. pose proof t_small as T0.
  assert (S : Rabs (B2R x * B2R x) <= bpow radix2 60).
  { rewrite Rabs_mult. replace (bpow radix2 60) with (bpow radix2 30 * bpow radix2 30) by (rewrite <- bpow_plus; reflexivity). change (bpow radix2 30) with 1073741824. pose proof (Rabs_pos (B2R x)). apply Rmult_le_compat; lra. }
  destruct (gmul_fin x x F F) as [_ V]; [apply Rle_trans with (1 := S); apply bpow_le; lia|]. rewrite V in L.
  pose proof (rnd32_errR (B2R x * B2R x) (B2R x * B2R x)) as E. rewrite Rabs_pos_eq in E by apply Rle_0_sqr. specialize (E (Rle_refl _)). fold t in E. change (bpow radix2 (-24)) with (/ 16777216) in E.
  apply Rabs_le_inv in E. assert (Q : B2R x * B2R x <= / 4 + / 8388608) by (pose proof (Rle_0_sqr (B2R x)) as Z; unfold Rsqr in Z; lra).
  destruct (Rle_or_lt (Rabs (B2R x)) (/ 2 + / 8388608)) as [G|G]; [exact G|]. exfalso.
  assert (B2R x * B2R x = Rabs (B2R x) * Rabs (B2R x)) by (rewrite <- Rabs_mult; symmetry; apply Rabs_pos_eq, Rle_0_sqr).
  assert ((/ 2 + / 8388608) * (/ 2 + / 8388608) <= Rabs (B2R x) * Rabs (B2R x)) by (apply Rmult_le_compat; lra). lra.
Qed.
Lemma sq_fin x : fin x -> Rabs (B2R x) <= 10 * B -> fin (gmul x x) /\ 0 <= B2R (gmul x x) <= bpow radix2 60.
Proof.
  intros F H. pose proof B_22 as B1.
  assert (S : Rabs (B2R x * B2R x) <= bpow radix2 60).
  { rewrite Rabs_mult. replace (bpow radix2 60) with (bpow radix2 30 * bpow radix2 30) by (rewrite <- bpow_plus; reflexivity). change (bpow radix2 30) with 1073741824. pose proof (Rabs_pos (B2R x)). apply Rmult_le_compat; lra. }
  destruct (gmul_fin x x F F) as [G V]; [apply Rle_trans with (1 := S); apply bpow_le; lia|]. split; [exact G|]. rewrite V.
  split; [apply round_ge_generic; [typeclasses eauto|typeclasses eauto|apply generic_format_0|apply Rle_0_sqr]|].
  pose proof (rnd32_bound _ 60 ltac:(lia) S) as R. apply Rabs_le_inv in R. lra.
Qed.
Lemma flat_back a b c : vbnd k a -> vbnd k b -> vbnd k c -> ~ bent a b c -> Rabs (second px a b c) <= / 2 + 10 * u /\ Rabs (second py a b c) <= / 2 + 10 * u.
Proof.
  intros [Ax Ay] [Bx By] [Cx Cy] NB. pose proof err_B as EB. pose proof B_22 as B1. pose proof t_small as T0.
  destruct (second_coord k ltac:(lia) _ _ _ Ax Bx Cx) as [Fx Ex]. destruct (second_coord k ltac:(lia) _ _ _ Ay By Cy) as [Fy Ey].
  unfold second, px, py. unfold bent, vlensq, vadd, vsub, vscl in NB. cbn [vx vy] in NB. destruct Ax as [_ Ax], Ay as [_ Ay], Bx as [_ Bx], By as [_ By], Cx as [_ Cx], Cy as [_ Cy]. fold B in Ax, Ay, Bx, By, Cx, Cy.
  set (X := gadd (gsub (vx a) (gmul (vx b) (gq 2 1))) (vx c)) in *. set (Y := gadd (gsub (vy a) (gmul (vy b) (gq 2 1))) (vy c)) in *. clearbody X Y.
  rewrite EB in Ex, Ey. apply Rabs_le_inv in Ax, Ay, Bx, By, Cx, Cy, Ex, Ey.
  assert (SX : Rabs (B2R X) <= 10 * B) by (apply Rabs_le; lra). assert (SY : Rabs (B2R Y) <= 10 * B) by (apply Rabs_le; lra).
  destruct (sq_fin X Fx SX) as [FX VX]. destruct (sq_fin Y Fy SY) as [FY VY].
  destruct (gadd_fin _ _ FX FY) as [FS VS]. { rewrite Rabs_pos_eq by lra. apply Rle_trans with (bpow radix2 61); [|apply bpow_le; lia]. change 61%Z with (60 + 1)%Z. rewrite bpow_plus. change (bpow radix2 1) with 2. lra. }
  assert (Q : fin (gq 1 4) /\ B2R (gq 1 4) = / 4). { split; [vm_compute; reflexivity|]. bval (gq 1 4). lra. } destruct Q as [FQ VQ].
  assert (LE : B2R (gadd (gmul X X) (gmul Y Y)) <= / 4).
  { apply Rnot_lt_le. intros C. apply NB. unfold ggt. apply glt_iff. split; [|split].
    - destruct (gq 1 4); try discriminate; reflexivity.
    - destruct (gadd (gmul X X) (gmul Y Y)); try discriminate; reflexivity.
    - rewrite !(key_fin 24 128) by assumption. rewrite VQ. exact C. }
  assert (LX : B2R (gmul X X) <= / 4). { apply Rle_trans with (2 := LE). rewrite VS. apply round_ge_generic; [typeclasses eauto|typeclasses eauto|apply generic_format_B2R|lra]. }
  assert (LY : B2R (gmul Y Y) <= / 4). { apply Rle_trans with (2 := LE). rewrite VS. apply round_ge_generic; [typeclasses eauto|typeclasses eauto|apply generic_format_B2R|lra]. }
  pose proof (square_back X Fx SX LX) as RX. pose proof (square_back Y Fy SY LY) as RY. rewrite u_B. apply Rabs_le_inv in RX, RY. split; apply Rabs_le; lra.
Qed.
End Size.

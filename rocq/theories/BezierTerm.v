(** The Bezier subdivision ends: each halving divides the second differences
    by 4, up to rounding. *)
From Coq Require Import Reals Lra ZArith Lia Bool.
From Flocq Require Import Core BinarySingleNaN Relative Mult_error.
From Verif Require Import GoFloat Curves SpecCurves FloatLemmas Float32Lemmas KeyLemmas BoundLemmas BezierProofs CurveBounds.
Import ListNotations.
Open Scope R_scope.

(** ** One coordinate, over the reals *)
Section Coord.
Context {M : libm} (f : vec -> R) (P : vec -> Prop) (e : R).
Context (Hm : forall a b, P a -> P b -> P (mid a b) /\ Rabs (f (mid a b) - (f a + f b) / 2) <= e).
Definition second (a b c : vec) : R := f a - 2 * f b + f c.
Definition D2 (d : R) (p : list vec) : Prop := forall i a b c,
  nth_error p i = Some a -> nth_error p (S i) = Some b -> nth_error p (S (S i)) = Some c -> Rabs (second a b c) <= d.

Lemma D2_le d d' p : d <= d' -> D2 d p -> D2 d' p.
Proof. intros L H i a b c Ha Hb Hc. eapply Rle_trans; [exact (H i a b c Ha Hb Hc)|exact L]. Qed.
Lemma row_cons a b p : row (a :: b :: p) = mid a b :: row (b :: p). Proof. reflexivity. Qed.
Lemma row_nth p : forall i m, nth_error (row p) i = Some m -> exists a b, nth_error p i = Some a /\ nth_error p (S i) = Some b /\ m = mid a b.
Proof.
  induction p as [|a p IH]; intros i m H; [destruct i; discriminate H|]. destruct p as [|b p]; [destruct i; discriminate H|]. rewrite row_cons in H.
  destruct i as [|i]; [injection H as <-; exists a, b; auto|]. destruct (IH i m H) as (x & y & H1 & H2 & H3). exists x, y. auto.
Qed.
Lemma row_P p : Forall P p -> Forall P (row p).
Proof.
  intros F. apply Forall_forall. intros m Hm'. apply In_nth_error in Hm' as (i & H). apply row_nth in H as (a & b & Ha & Hb & ->).
  apply nth_error_In in Ha, Hb. rewrite Forall_forall in F. apply Hm; auto.
Qed.
Lemma D2_row d p : Forall P p -> D2 d p -> D2 (d + 4 * e) (row p).
Proof.
  intros F D i x y z Hx Hy Hz. apply row_nth in Hx as (a & b & Ha & Hb & ->). apply row_nth in Hy as (b' & c & Hb' & Hc & ->). rewrite Hb in Hb'. injection Hb' as <-.
  apply row_nth in Hz as (c' & g & Hc' & Hg & ->). rewrite Hc in Hc'. injection Hc' as <-.
  pose proof (D i a b c Ha Hb Hc) as D1. pose proof (D (S i) b c g Hb Hc Hg) as D2'. rewrite Forall_forall in F.
  assert (Pa : P a) by (apply F; eapply nth_error_In; eauto). assert (Pb : P b) by (apply F; eapply nth_error_In; eauto).
  assert (Pc : P c) by (apply F; eapply nth_error_In; eauto). assert (Pg : P g) by (apply F; eapply nth_error_In; eauto).
  destruct (Hm a b Pa Pb) as [_ E1]. destruct (Hm b c Pb Pc) as [_ E2]. destruct (Hm c g Pc Pg) as [_ E3].
  unfold second in *. apply Rabs_le_inv in D1, D2', E1, E2, E3. apply Rabs_le. lra.
Qed.
Fixpoint rows (k : nat) (p : list vec) : list vec := match k with O => p | S k' => rows k' (row p) end.
Lemma rows_S k : forall p, rows (S k) p = row (rows k p).
Proof. induction k as [|k IH]; intros p; [reflexivity|]. cbn [rows]. rewrite <- IH. reflexivity. Qed.
Lemma rows_P k : forall p, Forall P p -> Forall P (rows k p).
Proof. induction k as [|k IH]; intros p F; [exact F|]. cbn [rows]. apply IH. now apply row_P. Qed.
Lemma rows_D2 k : forall p d, Forall P p -> D2 d p -> D2 (d + INR k * (4 * e)) (rows k p).
Proof.
  induction k as [|k IH]; intros p d F D.
  - eapply D2_le; [|exact D]. cbn [INR]. lra.
  - cbn [rows]. eapply D2_le; [|apply (IH (row p) (d + 4 * e)); [now apply row_P|now apply D2_row]]. rewrite S_INR. lra.
Qed.
Lemma rows_length k : forall p, length (rows k p) = (length p - k)%nat.
Proof. induction k as [|k IH]; intros p; cbn [rows]; [lia|]. rewrite IH, row_length. lia. Qed.
Lemma triangle_nth n : forall p i, (i < n)%nat -> nth_error (triangle n p) i = Some (rows i p).
Proof. induction n as [|n IH]; intros p i H; [lia|]. cbn [triangle]. destruct i as [|i]; [reflexivity|]. cbn [nth_error rows]. apply IH. lia. Qed.
Lemma half_nth (g : list vec -> vec) p i x : nth_error (map g (triangle (length p) p)) i = Some x -> (i < length p)%nat /\ x = g (rows i p).
Proof.
  intros H. assert (L : (i < length p)%nat). { assert (nth_error (map g (triangle (length p) p)) i <> None) by congruence. apply nth_error_Some in H0. now rewrite map_length, triangle_length in H0. }
  split; [exact L|]. rewrite nth_error_map, triangle_nth in H by exact L. now injection H.
Qed.
(** the corner of three points *)
Lemma corner a b c d : P a -> P b -> P c -> Rabs (second a b c) <= d -> Rabs (second a (mid a b) (mid (mid a b) (mid b c))) <= d / 4 + 3 * e.
Proof.
  intros Pa Pb Pc D. destruct (Hm a b Pa Pb) as [P1 E1]. destruct (Hm b c Pb Pc) as [P2 E2]. destruct (Hm (mid a b) (mid b c) P1 P2) as [_ E3].
  unfold second in *. apply Rabs_le_inv in D, E1, E2, E3. apply Rabs_le. lra.
Qed.
Lemma D2_left d p : Forall P p -> 0 <= e -> D2 d p -> D2 (d / 4 + INR (length p) * e) (left_half p).
Proof.
  intros F E0 D i x y z Hx Hy Hz. apply half_nth in Hx as [_ ->]. apply half_nth in Hy as [_ ->]. apply half_nth in Hz as [L ->]. rewrite !rows_S.
  pose proof (rows_D2 i p d F D) as Di. pose proof (rows_P i p F) as Fi. pose proof (rows_length i p) as Li.
  destruct (rows i p) as [|a [|b [|c q]]]; cbn [length] in Li; try lia. rewrite !row_cons. cbn [hd].
  inversion Fi as [|? ? Pa Fi']. inversion Fi' as [|? ? Pb Fi'']. inversion Fi'' as [|? ? Pc _]. subst.
  eapply Rle_trans; [apply (corner a b c (d + INR i * (4 * e))); auto; exact (Di 0%nat a b c eq_refl eq_refl eq_refl)|].
  assert (I : INR i + 3 <= INR (length p)) by (replace 3 with (INR 3) by (cbn; lra); rewrite <- plus_INR; apply le_INR; lia).
  assert ((INR i + 3) * e <= INR (length p) * e) by (apply Rmult_le_compat_r; assumption). lra.
Qed.
Lemma D2_rev d p : D2 d (rev p) -> D2 d p.
Proof.
  intros D i a b c Ha Hb Hc.
  assert (L : (S (S i) < length p)%nat) by (apply nth_error_Some; congruence).
  assert (R : forall j x, (j < length p)%nat -> nth_error p j = Some x -> nth_error (rev p) (length p - 1 - j) = Some x).
  { intros j x Lj H. rewrite nth_error_nth' with (d := a) by (rewrite rev_length; lia). rewrite rev_nth by lia.
    replace (length p - S (length p - 1 - j))%nat with j by lia. f_equal. now apply nth_error_nth. }
  apply R in Ha, Hb, Hc; try lia. set (k := (length p - 1 - S (S i))%nat) in *.
  replace (length p - 1 - S i)%nat with (S k) in Hb by lia. replace (length p - 1 - i)%nat with (S (S k)) in Ha by lia.
  pose proof (D k c b a Hc Hb Ha) as H. unfold second in *. replace (f a - 2 * f b + f c) with (f c - 2 * f b + f a) by ring. exact H.
Qed.
Lemma row_snoc l y z : row (l ++ [y; z]) = row (l ++ [y]) ++ [mid y z].
Proof.
  induction l as [|a l IH]; [reflexivity|]. destruct l as [|b l]; [reflexivity|]. cbn [app] in *. rewrite !row_cons, IH. reflexivity.
Qed.
Lemma last3 {A} (l : list A) : (3 <= length l)%nat -> exists l' x y z, l = l' ++ [x; y; z].
Proof.
  intros H. destruct (@exists_last _ l) as (l1 & z & ->); [destruct l; [cbn in H; lia|discriminate]|]. rewrite app_length in H. cbn [length] in H.
  destruct (@exists_last _ l1) as (l2 & y & ->); [destruct l1; [cbn in H; lia|discriminate]|]. rewrite app_length in H. cbn [length] in H.
  destruct (@exists_last _ l2) as (l3 & x & ->); [destruct l2; [cbn in H; lia|discriminate]|]. exists l3, x, y, z. now rewrite <- !app_assoc.
Qed.
Lemma D2_right d p : Forall P p -> 0 <= e -> D2 d p -> D2 (d / 4 + INR (length p) * e) (right_half p).
Proof.
  intros F E0 D. apply D2_rev. unfold right_half. rewrite rev_involutive.
  intros i x y z Hx Hy Hz. apply half_nth in Hx as [_ ->]. apply half_nth in Hy as [_ ->]. apply half_nth in Hz as [L ->]. rewrite !rows_S.
  pose proof (rows_D2 i p d F D) as Di. pose proof (rows_P i p F) as Fi. pose proof (rows_length i p) as Li.
  destruct (last3 (rows i p)) as (q & a & b & c & Eq); [lia|]. rewrite Eq in *. apply Forall_app in Fi as [_ Fi].
  inversion Fi as [|? ? Pa Fi']. inversion Fi' as [|? ? Pb Fi'']. inversion Fi'' as [|? ? Pc _]. subst.
  assert (E1 : row (q ++ [a; b; c]) = (row (q ++ [a]) ++ [mid a b]) ++ [mid b c]).
  { change [a; b; c] with ([a] ++ [b; c]). rewrite app_assoc, row_snoc. f_equal. rewrite <- app_assoc. apply row_snoc. }
  rewrite E1. rewrite <- app_assoc. cbn [app]. rewrite row_snoc. change [a; b; c] with ([a; b] ++ [c]). rewrite app_assoc, last_last.
  change [mid a b; mid b c] with ([mid a b] ++ [mid b c]). rewrite (app_assoc (row (q ++ [a]))), !last_last.
  assert (K : Rabs (second a b c) <= d + INR i * (4 * e)).
  { apply (Di (length q) a b c); rewrite nth_error_app2 by lia.
    - now rewrite Nat.sub_diag.
    - replace (S (length q) - length q)%nat with 1%nat by lia. reflexivity.
    - replace (S (S (length q)) - length q)%nat with 2%nat by lia. reflexivity. }
  destruct (Hm a b Pa Pb) as [P1 X1]. destruct (Hm b c Pb Pc) as [P2 X2]. destruct (Hm (mid a b) (mid b c) P1 P2) as [_ X3].
  assert (I : INR i + 3 <= INR (length p)) by (replace 3 with (INR 3) by (cbn; lra); rewrite <- plus_INR; apply le_INR; lia).
  assert ((INR i + 3) * e <= INR (length p) * e) by (apply Rmult_le_compat_r; assumption).
  unfold second in *. apply Rabs_le_inv in K, X1, X2, X3. apply Rabs_le. lra.
Qed.
End Coord.

(** ** Rounding *)
Lemma rnd32_small a : Rabs a < bpow radix2 (-125) -> Rabs (rnd32 a - a) <= bpow radix2 (-150).
Proof.
  intros H. pose proof (error_le_half_ulp radix2 (SpecFloat.fexp 24 128) (fun x => negb (Z.even x)) a) as E.
  assert (U : ulp radix2 (SpecFloat.fexp 24 128) a = bpow radix2 (-149)).
  { exact (ulp_FLT_small radix2 (-149) 24 a H). }
  rewrite U in E. change (-150)%Z with (-1 + -149)%Z. rewrite bpow_plus. change (bpow radix2 (-1)) with (/ 2). exact E.
Qed.
Lemma rnd32_err a k : Rabs a <= bpow radix2 k -> Rabs (rnd32 a - a) <= bpow radix2 (k - 24) + bpow radix2 (-150).
Proof.
  intros H. pose proof (bpow_gt_0 radix2 (k - 24)). pose proof (bpow_gt_0 radix2 (-150)).
  destruct (Rlt_or_le (Rabs a) (bpow radix2 (-126))) as [L|L].
  - pose proof (rnd32_small a) as E. assert (Rabs a < bpow radix2 (-125)) by (eapply Rlt_trans; [exact L|apply bpow_lt; lia]). specialize (E H2). lra.
  - pose proof (rnd32_rel a L) as E. unfold Z.sub. rewrite bpow_plus. change (- (24))%Z with (-24)%Z.
    assert (Rabs a * bpow radix2 (-24) <= bpow radix2 k * bpow radix2 (-24)) by (apply Rmult_le_compat_r; [apply bpow_ge_0|exact H]). lra.
Qed.
Lemma rnd32_half a : generic_format radix2 (SpecFloat.fexp 24 128) a -> Rabs (rnd32 (a / 2) - a / 2) <= bpow radix2 (-150).
Proof.
  intros G. destruct (Rlt_or_le (Rabs (a / 2)) (bpow radix2 (-125))) as [L|L]; [now apply rnd32_small|].
  rewrite round_generic; [|typeclasses eauto|].
  - rewrite Rminus_diag_eq, Rabs_R0 by reflexivity. apply bpow_ge_0.
  - replace (a / 2) with (a * bpow radix2 (-1)) by (change (bpow radix2 (-1)) with (/ 2); reflexivity).
    assert (a <> 0). { intros ->. unfold Rdiv in L. rewrite Rmult_0_l, Rabs_R0 in L. pose proof (bpow_gt_0 radix2 (-125)). lra. }
    apply (mult_bpow_exact_FLT radix2 (-149) 24); [exact G|].
    assert (-124 <= mag radix2 a)%Z; [|lia]. apply Z.lt_le_incl. apply Z.lt_le_trans with (-123)%Z; [lia|].
    apply mag_ge_bpow. change (-123 - 1)%Z with (1 + -125)%Z. rewrite bpow_plus. change (bpow radix2 1) with 2.
    unfold Rdiv in L. rewrite Rabs_mult in L. rewrite (Rabs_pos_eq (/ 2)) in L by lra. lra.
Qed.
Lemma rnd32_errR a B : Rabs a <= B -> Rabs (rnd32 a - a) <= B * bpow radix2 (-24) + bpow radix2 (-150).
Proof.
  intros H. pose proof (bpow_gt_0 radix2 (-24)). pose proof (bpow_gt_0 radix2 (-150)). pose proof (Rabs_pos a).
  assert (Rabs a * bpow radix2 (-24) <= B * bpow radix2 (-24)) by (apply Rmult_le_compat_r; lra).
  assert (0 <= Rabs a * bpow radix2 (-24)) by (apply Rmult_le_pos; lra).
  destruct (Rlt_or_le (Rabs a) (bpow radix2 (-126))) as [L|L].
  - pose proof (rnd32_small a) as E. assert (Rabs a < bpow radix2 (-125)) by (eapply Rlt_trans; [exact L|apply bpow_lt; lia]). specialize (E H5). lra.
  - pose proof (rnd32_rel a L) as E. lra.
Qed.

(** ** Midpoints and second differences *)
Section Size.
Context {M : libm} (k : Z) (K : (0 <= k <= 100)%Z).
Let B := bpow radix2 k.
Let u := bpow radix2 (-24).
Let t := bpow radix2 (-150).
Definition err : R := B * u + 2 * t.
Lemma half_val : fin (gq 1 2) /\ B2R (gq 1 2) = / 2.
Proof. split; [vm_compute; reflexivity|]. bval (gq 1 2). lra. Qed.
Lemma B_1 : 1 <= B. Proof. unfold B. change 1 with (bpow radix2 0). apply bpow_le. lia. Qed.
Lemma t_pos : 0 < t. Proof. apply bpow_gt_0. Qed.
Lemma u_pos : 0 < u. Proof. apply bpow_gt_0. Qed.
Lemma err_pos : 0 <= err. Proof. unfold err. pose proof B_1. pose proof t_pos. pose proof u_pos. assert (0 < B * u) by (apply Rmult_lt_0_compat; lra). lra. Qed.
Lemma mid_coord a b : bnd k a -> bnd k b -> Rabs (B2R (gmul (gadd a b) (gq 1 2)) - (B2R a + B2R b) / 2) <= err.
Proof.
  intros Ba Bb. pose proof (bnd_add k a b ltac:(lia) Ba Bb) as BS. destruct Ba as [Fa Ba], Bb as [Fb Bb], BS as [FS BS]. fold B in Ba, Bb.
  assert (S : Rabs (B2R a + B2R b) <= 2 * B) by (eapply Rle_trans; [apply Rabs_triang|lra]).
  destruct (gadd_fin a b Fa Fb) as [_ V]. { apply (bpow_127 _ (k + 1)); [lia|]. rewrite bpow_S. fold B. lra. }
  destruct half_val as [Fh Vh].
  destruct (gmul_fin (gadd a b) (gq 1 2) FS Fh) as [F2 V2].
  { apply (bpow_127 _ (k + 1)); [lia|]. rewrite Vh, Rabs_mult, (Rabs_pos_eq (/ 2)) by lra. pose proof (Rabs_pos (B2R (gadd a b))). lra. }
  rewrite V2, Vh. fold (Rdiv (B2R (gadd a b)) 2).
  pose proof (rnd32_half (B2R (gadd a b))) as E2. rewrite V in E2 at 1.
  assert (G : generic_format radix2 (SpecFloat.fexp 24 128) (rnd32 (B2R a + B2R b))) by (apply generic_format_round; typeclasses eauto).
  specialize (E2 G). pose proof (rnd32_errR _ _ S) as E1. rewrite <- V in E1. fold t in E1, E2. fold u in E1.
  unfold err. apply Rabs_le_inv in E1, E2. apply Rabs_le. pose proof t_pos. lra.
Qed.
Lemma mid_x a b : vbnd k a -> vbnd k b -> vbnd k (mid a b) /\ Rabs (B2R (vx (mid a b)) - (B2R (vx a) + B2R (vx b)) / 2) <= err.
Proof. intros A C. split; [apply mid_bnd; auto; lia|]. apply mid_coord; [apply A|apply C]. Qed.
Lemma mid_y a b : vbnd k a -> vbnd k b -> vbnd k (mid a b) /\ Rabs (B2R (vy (mid a b)) - (B2R (vy a) + B2R (vy b)) / 2) <= err.
Proof. intros A C. split; [apply mid_bnd; auto; lia|]. apply mid_coord; [apply A|apply C]. Qed.
Lemma two_val : fin (gq 2 1) /\ B2R (gq 2 1) = 2.
Proof. split; [vm_compute; reflexivity|]. bval (gq 2 1). lra. Qed.
Lemma second_coord a b c : bnd k a -> bnd k b -> bnd k c ->
  fin (gadd (gsub a (gmul b (gq 2 1))) c) /\
  Rabs (B2R (gadd (gsub a (gmul b (gq 2 1))) c) - (B2R a - 2 * B2R b + B2R c)) <= 10 * err.
Proof.
  intros [Fa Ba] [Fb Bb] [Fc Bc]. fold B in Ba, Bb, Bc. destruct two_val as [F2 V2]. pose proof B_1 as B1. pose proof t_pos as T0. pose proof u_pos as U0.
  assert (Tt : t <= / 1000000) by (unfold t; apply Rle_trans with (bpow radix2 (-20)); [apply bpow_le; lia|change (bpow radix2 (-20)) with (/ 1048576); lra]).
  assert (Uu : u = / 16777216) by reflexivity.
  assert (Bk : B <= bpow radix2 100) by (apply bpow_le; lia).
  assert (Big : forall x, Rabs x <= 10 * B -> Rabs x <= bpow radix2 127).
  { intros x Hx. eapply Rle_trans; [exact Hx|]. apply Rle_trans with (bpow radix2 4 * bpow radix2 100); [change (bpow radix2 4) with 16; lra|]. rewrite <- bpow_plus. apply bpow_le. lia. }
  assert (S1 : Rabs (B2R b * 2) <= 2 * B) by (rewrite Rabs_mult, (Rabs_pos_eq 2) by lra; lra).
  destruct (gmul_fin b (gq 2 1) Fb F2) as [F3 V3]; [rewrite V2; apply Big; lra|]. rewrite V2 in V3. pose proof (rnd32_errR _ _ S1) as E1. rewrite <- V3 in E1. fold u t in E1.
  set (m := B2R (gmul b (gq 2 1))) in *. rewrite Uu in E1. apply Rabs_le_inv in E1, Ba, Bb, Bc, S1.
  assert (S2 : Rabs (B2R a - m) <= 3.001 * B) by (apply Rabs_le; lra).
  destruct (gsub_fin a (gmul b (gq 2 1)) Fa F3) as [F4 V4]; [fold m; apply Big; lra|]. fold m in V4. pose proof (rnd32_errR _ _ S2) as E2. rewrite <- V4 in E2. fold u t in E2.
  set (v := B2R (gsub a (gmul b (gq 2 1)))) in *. rewrite Uu in E2. apply Rabs_le_inv in E2, S2.
  assert (S3 : Rabs (v + B2R c) <= 4.01 * B) by (apply Rabs_le; lra).
  destruct (gadd_fin (gsub a (gmul b (gq 2 1))) c F4 Fc) as [F5 V5]; [fold v; apply Big; lra|]. fold v in V5. pose proof (rnd32_errR _ _ S3) as E3. rewrite <- V5 in E3. fold u t in E3.
  split; [exact F5|]. unfold err. rewrite Uu in *. apply Rabs_le_inv in E3. apply Rabs_le. lra.
Qed.

Definition cx (p : vec) : R := B2R (vx p).
Definition cy (p : vec) : R := B2R (vy p).
Lemma square_small x : fin x -> Rabs (B2R x) <= 0.35 -> fin (gmul x x) /\ 0 <= B2R (gmul x x) <= / 8.
Proof.
  intros F H. assert (Q : 0 <= B2R x * B2R x <= / 8).
  { split; [apply Rle_0_sqr|]. rewrite <- (Rabs_pos_eq (B2R x * B2R x)) by apply Rle_0_sqr. rewrite Rabs_mult. pose proof (Rabs_pos (B2R x)). nra. }
  destruct (gmul_fin x x F F) as [F1 V1]. { rewrite Rabs_pos_eq by lra. apply Rle_trans with 1; [lra|]. change 1 with (bpow radix2 0). apply bpow_le. lia. }
  split; [exact F1|]. rewrite V1. pose proof (rnd32_bound (B2R x * B2R x) (-3) ltac:(lia)) as R. change (bpow radix2 (-3)) with (/ 8) in R.
  rewrite Rabs_pos_eq in R by lra. specialize (R (proj2 Q)). apply Rabs_le_inv in R. split; [|lra].
  apply round_ge_generic; [typeclasses eauto|typeclasses eauto|apply generic_format_0|lra].
Qed.
Lemma not_bent a b c : vbnd k a -> vbnd k b -> vbnd k c -> Rabs (second cx a b c) + 10 * err <= 0.35 -> Rabs (second cy a b c) + 10 * err <= 0.35 -> ~ bent a b c.
Proof.
  intros [Ax Ay] [Bx By] [Cx Cy] Hx Hy. destruct (second_coord _ _ _ Ax Bx Cx) as [Fx Ex]. destruct (second_coord _ _ _ Ay By Cy) as [Fy Ey].
  unfold second, cx, cy in Hx, Hy. unfold bent, vlensq, vadd, vsub, vscl. cbn [vx vy].
  set (X := gadd (gsub (vx a) (gmul (vx b) (gq 2 1))) (vx c)) in *. set (Y := gadd (gsub (vy a) (gmul (vy b) (gq 2 1))) (vy c)) in *.
  destruct (square_small X Fx) as [FX VX].
  { replace (B2R X) with ((B2R X - (B2R (vx a) - 2 * B2R (vx b) + B2R (vx c))) + (B2R (vx a) - 2 * B2R (vx b) + B2R (vx c))) by ring. eapply Rle_trans; [apply Rabs_triang|lra]. }
  destruct (square_small Y Fy) as [FY VY].
  { replace (B2R Y) with ((B2R Y - (B2R (vy a) - 2 * B2R (vy b) + B2R (vy c))) + (B2R (vy a) - 2 * B2R (vy b) + B2R (vy c))) by ring. eapply Rle_trans; [apply Rabs_triang|lra]. }
  assert (S : Rabs (B2R (gmul X X) + B2R (gmul Y Y)) <= bpow radix2 (-2)) by (change (bpow radix2 (-2)) with (/ 4); rewrite Rabs_pos_eq; lra).
  destruct (gadd_fin _ _ FX FY) as [FS VS]; [eapply Rle_trans; [exact S|apply bpow_le; lia]|].
  pose proof (rnd32_bound _ (-2) ltac:(lia) S) as R. rewrite <- VS in R. change (bpow radix2 (-2)) with (/ 4) in R. apply Rabs_le_inv in R.
  assert (Q : fin (gq 1 4) /\ B2R (gq 1 4) = / 4). { split; [vm_compute; reflexivity|]. bval (gq 1 4). lra. }
  destruct Q as [FQ VQ]. unfold ggt. intros H. apply glt_iff in H as (_ & _ & H). rewrite !(key_fin 24 128) in H by assumption. rewrite VQ in H. lra.
Qed.
Lemma flat_small d p : Forall (vbnd k) p -> D2 cx d p -> D2 cy d p -> d + 10 * err <= 0.35 -> flat_enough p.
Proof.
  intros F Dx Dy H i a b c Ha Hb Hc. rewrite Forall_forall in F.
  apply not_bent; try (apply F; eapply nth_error_In; eassumption); [pose proof (Dx i a b c Ha Hb Hc)|pose proof (Dy i a b c Ha Hb Hc)]; lra.
Qed.
Lemma flat_dec p : flat_enough p \/ ~ flat_enough p.
Proof. destruct (is_flat p) eqn:E; [left; now apply is_flat_spec|right; now apply is_flat_false]. Qed.
Lemma halving n : forall p s x, s = 4 / 3 * (INR (length p) * err) -> s + / 64 + 10 * err <= 0.35 -> Forall (vbnd k) p -> D2 cx (s + x) p -> D2 cy (s + x) p ->
  x <= / 64 * 4 ^ n -> exists o, flattens p o.
Proof.
  induction n as [|n IH]; intros p s x Es Hs F Dx Dy Hx.
  - cbn [pow] in Hx. exists (piece p). apply flattens_flat. apply (flat_small (s + x)); auto. lra.
  - destruct (flat_dec p) as [Fl|Nf]; [exists (piece p); now apply flattens_flat|].
    assert (Hx' : x / 4 <= / 64 * 4 ^ n) by (cbn [pow] in Hx; lra).
    assert (Ed : (s + x) / 4 + INR (length p) * err = s + x / 4) by lra.
    destruct (IH (left_half p) s (x / 4)) as (l & Hl); try assumption.
    + now rewrite left_half_length.
    + apply left_bnd; auto; lia.
    + rewrite <- Ed. apply (D2_left cx (vbnd k) err mid_x); auto. apply err_pos.
    + rewrite <- Ed. apply (D2_left cy (vbnd k) err mid_y); auto. apply err_pos.
    + destruct (IH (right_half p) s (x / 4)) as (r & Hr); try assumption.
      * now rewrite right_half_length.
      * apply right_bnd; auto; lia.
      * rewrite <- Ed. apply (D2_right cx (vbnd k) err mid_x); auto. apply err_pos.
      * rewrite <- Ed. apply (D2_right cy (vbnd k) err mid_y); auto. apply err_pos.
      * exists (l ++ r). now apply flattens_split.
Qed.
Lemma D2_start (g : vec -> R) p : (forall q, vbnd k q -> Rabs (g q) <= B) -> Forall (vbnd k) p -> D2 g (4 * B) p.
Proof.
  intros G F i a b c Ha Hb Hc. rewrite Forall_forall in F. assert (Ga := G a (F a (nth_error_In _ _ Ha))). assert (Gb := G b (F b (nth_error_In _ _ Hb))). assert (Gc := G c (F c (nth_error_In _ _ Hc))).
  unfold second. apply Rabs_le_inv in Ga, Gb, Gc. apply Rabs_le. lra.
Qed.
Theorem flattens_exists p : Forall (vbnd k) p -> (INR (length p) + 8) * B <= bpow radix2 22 -> exists o, flattens p o.
Proof.
  intros F H. pose proof B_1 as B1. pose proof err_pos as E0. set (s := 4 / 3 * (INR (length p) * err)).
  assert (S0 : 0 <= s). { unfold s. pose proof (pos_INR (length p)). assert (0 <= INR (length p) * err) by (apply Rmult_le_pos; lra). lra. }
  assert (N : INR (length p) + 8 <= bpow radix2 22). { pose proof (pos_INR (length p)). eapply Rle_trans; [|exact H]. rewrite <- (Rmult_1_r (INR (length p) + 8)) at 1. apply Rmult_le_compat_l; lra. }
  assert (Tt : t <= bpow radix2 (-50)) by (unfold t; apply bpow_le; lia). change (bpow radix2 (-50)) with (/ 1125899906842624) in Tt.
  change (bpow radix2 22) with 4194304 in *.
  assert (Q : (INR (length p) + 8) * err <= 0.2500001).
  { unfold err. rewrite Rmult_plus_distr_l. assert (Uu : u = / 16777216) by reflexivity. rewrite Uu.
    assert (A1 : (INR (length p) + 8) * (B * / 16777216) <= / 4) by (rewrite <- Rmult_assoc; lra).
    assert (A2 : (INR (length p) + 8) * (2 * t) <= 4194304 * (2 * / 1125899906842624)).
    { pose proof (pos_INR (length p)). pose proof t_pos. apply Rmult_le_compat; lra. }
    lra. }
  apply (halving 14 p s (4 * B)); auto.
  - unfold s. lra.
  - eapply D2_le; [|apply (D2_start cx); auto; intros q [[_ Hq] _]; exact Hq]. lra.
  - eapply D2_le; [|apply (D2_start cy); auto; intros q [_ [_ Hq]]; exact Hq]. lra.
  - change (4 ^ 14) with (4 * (4 * (4 * (4 * (4 * (4 * (4 * (4 * (4 * (4 * (4 * (4 * (4 * (4 * 1)))))))))))))).
    pose proof (pos_INR (length p)). assert (8 * B <= (INR (length p) + 8) * B) by (apply Rmult_le_compat_r; lra). lra.
Qed.
End Size.

(** Results whose sign bit is clear. *)
From Coq Require Import Reals Lra.
From Flocq Require Import Core BinarySingleNaN.
From Verif Require Import GoFloat Curves FloatLemmas.
Open Scope R_scope.

Section Generic.
Context (prec emax : Z) {Hp : Prec_gt_0 prec} {He : Prec_lt_emax prec emax}.
Notation bf := (binary_float prec emax).
(** NaN, or not negative and not -0 *)
Definition pz (x : bf) : Prop := is_nan x = true \/ Bsign x = false.
Lemma pz_inf_SF (x : bf) : B2SF x = SpecFloat.S754_infinity false -> pz x.
Proof. intros H. destruct x; try discriminate H. cbn in H. right. cbn. congruence. Qed.
Lemma pz_pos (x : bf) : pz x -> 0 <= B2R x.
Proof.
  intros [N|S]; destruct x as [s|s| |s m e b]; try discriminate N; cbn [B2R]; try lra. cbn in S. subst s. apply F2R_ge_0. cbn. lia.
Qed.
Lemma pz_mult x y : pz x -> pz y -> pz (Bmult mode_NE x y).
Proof.
  intros [N|S] [N'|S']; destruct x as [s|s| |s m e b], y as [t|t| |t m' e' b']; try discriminate N; try discriminate N'; cbn [Bsign] in *; subst; try (now left); try (now right).
  set (x := B754_finite false m e b). set (y := B754_finite false m' e' b').
  pose proof (Bmult_correct prec emax Hp He mode_NE x y) as C. match type of C with if ?b then _ else _ => destruct b end.
  - destruct C as (_ & F & C). right. apply C. apply fin_num. unfold fin. rewrite F. reflexivity.
  - now apply pz_inf_SF.
Qed.
Lemma pz_square x : pz (Bmult mode_NE x x).
Proof.
  destruct x as [s|s| |s m e b] eqn:Ex; [right; cbn; now destruct s|right; cbn; now destruct s|now left|]. rewrite <- Ex.
  pose proof (Bmult_correct prec emax Hp He mode_NE x x) as C. destruct (Rlt_bool _ _).
  - destruct C as (_ & F & C). right. rewrite C; [apply xorb_nilpotent|]. apply fin_num. unfold fin. rewrite F, Ex. reflexivity.
  - rewrite xorb_nilpotent in C. now apply pz_inf_SF.
Qed.
Lemma pz_div x y : pz x -> pz y -> pz (Bdiv mode_NE x y).
Proof.
  intros [N|S] [N'|S']; destruct x as [s|s| |s m e b], y as [t|t| |t m' e' b']; try discriminate N; try discriminate N'; cbn [Bsign] in *; subst; try (now left); try (now right).
  set (x := B754_finite false m e b). set (y := B754_finite false m' e' b').
  assert (NZ : B2R y <> 0) by (apply Rgt_not_eq, F2R_gt_0; reflexivity).
  pose proof (Bdiv_correct prec emax Hp He mode_NE x y NZ) as C. match type of C with if ?b then _ else _ => destruct b end.
  - destruct C as (_ & F & C). right. apply C. apply fin_num. unfold fin. rewrite F. reflexivity.
  - now apply pz_inf_SF.
Qed.
Lemma pz_plus x y : pz x -> pz y -> pz (Bplus mode_NE x y).
Proof.
  intros Px Py. pose proof (pz_pos x Px) as Rx. pose proof (pz_pos y Py) as Ry.
  destruct Px as [N|S], Py as [N'|S']; destruct x as [s|s| |s m e b] eqn:Ex, y as [t|t| |t m' e' b'] eqn:Ey; try discriminate N; try discriminate N'; cbn [Bsign] in *; subst; try (now left); try (now right).
  set (x := B754_finite false m e b) in *. set (y := B754_finite false m' e' b') in *.
  pose proof (Bplus_correct prec emax Hp He mode_NE x y eq_refl eq_refl) as C. match type of C with if ?b then _ else _ => destruct b end.
  - destruct C as (_ & _ & C). right. rewrite C. assert (P : 0 < B2R x) by (apply F2R_gt_0; reflexivity). rewrite Rcompare_Gt by lra. reflexivity.
  - destruct C as (C & _). now apply pz_inf_SF.
Qed.
Lemma pz_sqrt x : pz x -> pz (Bsqrt mode_NE x).
Proof.
  intros [N|S]; destruct x as [s|s| |s m e b]; try discriminate N; cbn [Bsign] in *; subst; try (now left); try (now right).
  destruct (Bsqrt_correct prec emax Hp He mode_NE (B754_finite false m e b)) as (_ & _ & C). destruct (is_nan (Bsqrt mode_NE (B754_finite false m e b))) eqn:E; [now left|]. right. now apply C.
Qed.
Lemma pz_norm m e : pz (binary_normalize prec emax Hp He mode_NE (Zpos m) e false).
Proof.
  pose proof (binary_normalize_correct prec emax Hp He mode_NE (Zpos m) e false) as C. cbv zeta in C.
  assert (P : 0 < F2R (Float radix2 (Zpos m) e)) by (apply F2R_gt_0; reflexivity). destruct (Rlt_bool (Rabs _) _).
  - destruct C as (_ & _ & C). right. rewrite C. now rewrite Rcompare_Gt.
  - rewrite Rlt_bool_false in C by lra. now apply pz_inf_SF.
Qed.
Lemma pz_not_neg0 x : pz x -> x <> B754_zero true.
Proof. intros [H|H] ->; discriminate H. Qed.
End Generic.
Arguments pz {prec emax}.

Lemma pz_f_of_g (x : f32) : pz x -> pz (f_of_g x).
Proof. intros [N|S]; destruct x as [s|s| |s m e b]; try discriminate N; cbn in S || cbn; subst; cbn [f_of_g]; try (now left); try (now right). apply pz_norm. Qed.
Lemma pz_g_of_f (x : f64) : pz x -> pz (g_of_f x).
Proof. intros [N|S]; destruct x as [s|s| |s m e b]; try discriminate N; cbn in S || cbn; subst; cbn [g_of_f]; try (now left); try (now right). apply pz_norm. Qed.
Lemma pz_vdst {M : libm} a b : pz (vdst a b).
Proof. unfold vdst, gsqrt. apply pz_g_of_f, pz_sqrt, pz_f_of_g, pz_plus; apply pz_square. Qed.

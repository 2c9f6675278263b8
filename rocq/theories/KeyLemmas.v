(** Float operations as functions of real keys, overflow included. *)
From Coq Require Import Reals Lra ZArith Lia Bool.
From Flocq Require Import Core BinarySingleNaN.
From Verif Require Import GoFloat Curves FloatLemmas Float32Lemmas.
Open Scope R_scope.

Section Gen.
Context (prec emax : Z) {Hp : Prec_gt_0 prec} {He : Prec_lt_emax prec emax}.
Local Notation bf := (binary_float prec emax).
Local Notation fexp := (SpecFloat.fexp prec emax).
Local Notation rnd := (round radix2 fexp (round_mode mode_NE)).
Local Notation E := (bpow radix2 emax).

(** rounding to the extended range [-E, E], E standing for infinity *)
Definition ork (r : R) : R := Rmax (- E) (Rmin E (rnd r)).
Lemma ork_le a b : a <= b -> ork a <= ork b.
Proof.
  intros H. assert (rnd a <= rnd b) by (apply (rnd_le prec emax); assumption). unfold ork. unfold Rmax, Rmin. repeat destruct Rle_dec; lra.
Qed.
Lemma ork_in r : Rabs (rnd r) < E -> ork r = rnd r.
Proof. intros H. apply Rabs_lt_inv in H. unfold ork, Rmax, Rmin. repeat destruct Rle_dec; lra. Qed.
Lemma ork_hi r : E <= rnd r -> ork r = E.
Proof. intros H. pose proof (bpow_gt_0 radix2 emax). unfold ork, Rmax, Rmin. repeat destruct Rle_dec; lra. Qed.
Lemma ork_lo r : rnd r <= - E -> ork r = - E.
Proof. intros H. pose proof (bpow_gt_0 radix2 emax). unfold ork, Rmax, Rmin. repeat destruct Rle_dec; lra. Qed.
Lemma ork_key (x : bf) : fin x -> ork (B2R x) = key x.
Proof.
  intros F. rewrite (key_fin prec emax x F). pose proof (B2R_lt prec emax x F) as B. rewrite ork_in; [apply rnd_fmt; auto|].
  rewrite rnd_fmt by auto. now apply Rabs_lt.
Qed.
Lemma ork_0 : ork 0 = 0.
Proof. assert (H : rnd 0 = 0) by apply (rnd_0 prec emax). rewrite ork_in; [exact H|]. rewrite H, Rabs_R0. apply bpow_gt_0. Qed.
Lemma ork_pos a : 0 <= a -> 0 <= ork a.
Proof. intros H. rewrite <- ork_0. now apply ork_le. Qed.
Lemma ork_neg a : a <= 0 -> ork a <= 0.
Proof. intros H. rewrite <- ork_0. now apply ork_le. Qed.
Lemma ork_range a : - E <= ork a <= E.
Proof. pose proof (bpow_gt_0 radix2 emax). unfold ork, Rmax, Rmin. repeat destruct Rle_dec; lra. Qed.

Lemma B2R_sign (x : bf) : fin x -> if Bsign x then B2R x <= 0 else 0 <= B2R x.
Proof.
  intros F. destruct x as [s| | |s m e b]; try discriminate; cbn [Bsign B2R]; [destruct s; lra|].
  destruct s; [apply F2R_le_0|apply F2R_ge_0]; cbn; lia.
Qed.
Lemma overflow_inf s (x : bf) : B2SF x = binary_overflow prec emax mode_NE s -> x = B754_infinity s.
Proof. unfold binary_overflow, overflow_to_inf. destruct x as [| | |]; cbn; intros H; try discriminate. now injection H as ->. Qed.
Lemma key_inf s : key (B754_infinity s : bf) = if s then - E else E.
Proof. reflexivity. Qed.

Lemma Bplus_ork (x y : bf) : fin x -> fin y -> num (Bplus mode_NE x y) /\ key (Bplus mode_NE x y) = ork (B2R x + B2R y).
Proof.
  intros Fx Fy. pose proof (Bplus_correct prec emax Hp He mode_NE x y Fx Fy) as C.
  destruct (Rlt_bool_spec (Rabs (rnd (B2R x + B2R y))) E) as [L|L].
  - destruct C as (V & F & _). split; [now apply fin_num|]. rewrite (key_fin prec emax _ F), V, ork_in; auto.
  - destruct C as (O & S). apply overflow_inf in O. rewrite O. split; [reflexivity|]. rewrite key_inf.
    pose proof (B2R_sign x Fx) as Sx. pose proof (B2R_sign y Fy) as Sy. rewrite <- S in Sy.
    destruct (Bsign x).
    + assert (rnd (B2R x + B2R y) <= 0) by (rewrite <- (rnd_0 prec emax); apply (rnd_le prec emax); lra). symmetry. apply ork_lo.
      rewrite Rabs_left1 in L by assumption. lra.
    + assert (0 <= rnd (B2R x + B2R y)) by (rewrite <- (rnd_0 prec emax) at 1; apply (rnd_le prec emax); lra). symmetry. apply ork_hi.
      rewrite Rabs_pos_eq in L by assumption. lra.
Qed.
Lemma Bminus_ork (x y : bf) : fin x -> fin y -> num (Bminus mode_NE x y) /\ key (Bminus mode_NE x y) = ork (B2R x - B2R y).
Proof.
  intros Fx Fy. pose proof (Bminus_correct prec emax Hp He mode_NE x y Fx Fy) as C.
  destruct (Rlt_bool_spec (Rabs (rnd (B2R x - B2R y))) E) as [L|L].
  - destruct C as (V & F & _). split; [now apply fin_num|]. rewrite (key_fin prec emax _ F), V, ork_in; auto.
  - destruct C as (O & S). apply overflow_inf in O. rewrite O. split; [reflexivity|]. rewrite key_inf.
    pose proof (B2R_sign x Fx) as Sx. pose proof (B2R_sign y Fy) as Sy.
    destruct (Bsign x), (Bsign y); try discriminate S.
    + assert (rnd (B2R x - B2R y) <= 0) by (rewrite <- (rnd_0 prec emax); apply (rnd_le prec emax); lra). symmetry. apply ork_lo.
      rewrite Rabs_left1 in L by assumption. lra.
    + assert (0 <= rnd (B2R x - B2R y)) by (rewrite <- (rnd_0 prec emax) at 1; apply (rnd_le prec emax); lra). symmetry. apply ork_hi.
      rewrite Rabs_pos_eq in L by assumption. lra.
Qed.
Lemma ork_ovf r (s : bool) : E <= Rabs (rnd r) -> (if s then r <= 0 else 0 <= r) -> (if s then - E else E) = ork r.
Proof.
  intros L S. destruct s.
  - assert (rnd r <= 0) by (rewrite <- (rnd_0 prec emax); apply (rnd_le prec emax); lra). symmetry. apply ork_lo. rewrite Rabs_left1 in L by assumption. lra.
  - assert (0 <= rnd r) by (rewrite <- (rnd_0 prec emax) at 1; apply (rnd_le prec emax); lra). symmetry. apply ork_hi. rewrite Rabs_pos_eq in L by assumption. lra.
Qed.
Lemma Bmult_ork (x y : bf) : fin x -> fin y -> num (Bmult mode_NE x y) /\ key (Bmult mode_NE x y) = ork (B2R x * B2R y).
Proof.
  intros Fx Fy. pose proof (Bmult_correct prec emax Hp He mode_NE x y) as C.
  destruct (Rlt_bool_spec (Rabs (rnd (B2R x * B2R y))) E) as [L|L].
  - destruct C as (V & F & _). rewrite Fx, Fy in F. cbn in F. split; [now apply fin_num|]. rewrite (key_fin prec emax _ F), V, ork_in; auto.
  - apply overflow_inf in C. rewrite C. split; [reflexivity|]. rewrite key_inf. apply ork_ovf; [exact L|].
    pose proof (B2R_sign x Fx) as Sx. pose proof (B2R_sign y Fy) as Sy. destruct (Bsign x), (Bsign y); cbn [xorb]; nra.
Qed.
Lemma Bdiv_ork (x y : bf) : fin x -> B2R y <> 0 -> num (Bdiv mode_NE x y) /\ key (Bdiv mode_NE x y) = ork (B2R x / B2R y).
Proof.
  intros Fx Ny. assert (Fy : fin y) by (destruct y; try reflexivity; exfalso; now apply Ny). pose proof (Bdiv_correct prec emax Hp He mode_NE x y Ny) as C.
  destruct (Rlt_bool_spec (Rabs (rnd (B2R x / B2R y))) E) as [L|L].
  - destruct C as (V & F & _). rewrite Fx in F. split; [now apply fin_num|]. rewrite (key_fin prec emax _ F), V, ork_in; auto.
  - apply overflow_inf in C. rewrite C. split; [reflexivity|]. rewrite key_inf. apply ork_ovf; [exact L|].
    pose proof (B2R_sign x Fx) as Sx. pose proof (B2R_sign y Fy) as Sy.
    assert (Dv : forall a b, 0 <= a -> 0 < b -> 0 <= a / b) by (intros a b Ha Hb; apply Rmult_le_pos; [exact Ha|left; now apply Rinv_0_lt_compat]).
    destruct (Bsign x), (Bsign y); cbn [xorb].
    + replace (B2R x / B2R y) with ((- B2R x) / (- B2R y)) by (field; lra). apply Dv; lra.
    + replace (B2R x / B2R y) with (- ((- B2R x) / B2R y)) by (field; lra). pose proof (Dv (- B2R x) (B2R y)). lra.
    + replace (B2R x / B2R y) with (- (B2R x / (- B2R y))) by (field; lra). pose proof (Dv (B2R x) (- B2R y)). lra.
    + apply Dv; lra.
Qed.

(** non-negative numbers, +inf included *)
Definition nn (x : bf) : Prop := num x /\ 0 <= key x.
Lemma nn_cases x : nn x -> x = B754_infinity false \/ (fin x /\ 0 <= B2R x).
Proof.
  intros [N K]. destruct x as [s|s| |s m e b]; try discriminate N.
  - right. split; [reflexivity|]. cbn. lra.
  - left. rewrite key_inf in K. destruct s; [|reflexivity]. pose proof (bpow_gt_0 radix2 emax). lra.
  - right. rewrite (key_fin prec emax) in K by reflexivity. split; [reflexivity|exact K].
Qed.
Lemma nn_fin x : fin x -> 0 <= B2R x -> nn x.
Proof. intros F H. split; [now apply fin_num|]. now rewrite (key_fin prec emax x F). Qed.
Lemma nn_inf : nn (B754_infinity false : bf).
Proof. split; [reflexivity|]. rewrite key_inf. apply bpow_ge_0. Qed.
Lemma nn_plus x y : nn x -> nn y -> nn (Bplus mode_NE x y) /\ key x <= key (Bplus mode_NE x y) /\ key y <= key (Bplus mode_NE x y).
Proof.
  intros Hx Hy. pose proof (bpow_gt_0 radix2 emax) as EP.
  assert (U : forall z, nn z -> key z <= E).
  { intros z Hz. destruct (nn_cases z Hz) as [->|[F _]]; [rewrite key_inf; lra|]. rewrite (key_fin prec emax z F). pose proof (B2R_lt prec emax z F). lra. }
  destruct (nn_cases x Hx) as [->|[Fx Px]].
  - assert (R : Bplus mode_NE (B754_infinity false) y = B754_infinity false).
    { destruct (nn_cases y Hy) as [->|[Fy _]]; [reflexivity|]. destruct y; try discriminate; reflexivity. }
    rewrite R. split; [apply nn_inf|]. rewrite key_inf. split; [lra|now apply U].
  - destruct (nn_cases y Hy) as [->|[Fy Py]].
    + assert (R : Bplus mode_NE x (B754_infinity false) = B754_infinity false) by (destruct x; try discriminate; reflexivity).
      rewrite R. split; [apply nn_inf|]. rewrite key_inf. split; [now apply U|lra].
    + destruct (Bplus_ork x y Fx Fy) as [N K].
      assert (L1 : key x <= key (Bplus mode_NE x y)) by (rewrite K, <- (ork_key x Fx); apply ork_le; lra).
      assert (L2 : key y <= key (Bplus mode_NE x y)) by (rewrite K, <- (ork_key y Fy); apply ork_le; lra).
      split; [split; [exact N|]|auto]. destruct Hx as [_ K0]. lra.
Qed.
Lemma nn_square x : num x -> nn (Bmult mode_NE x x).
Proof.
  intros N. destruct x as [s|s| |s m e b] eqn:Ex; try discriminate N.
  - cbn. destruct s; (split; [reflexivity|]); rewrite (key_fin prec emax) by reflexivity; cbn; lra.
  - cbn. destruct s; cbn; apply nn_inf.
  - rewrite <- Ex. assert (F : fin x) by (subst; reflexivity). destruct (Bmult_ork x x F F) as [N' K]. split; [exact N'|]. rewrite K. apply ork_pos. nra.
Qed.
Lemma nn_sqrt x : nn x -> nn (Bsqrt mode_NE x).
Proof.
  intros H. destruct (nn_cases x H) as [->|[F P]]; [apply nn_inf|].
  destruct (Bsqrt_fin prec emax x F P) as [F' V]. apply nn_fin; [exact F'|]. rewrite V.
  rewrite <- (rnd_0 prec emax) at 1. apply (rnd_le prec emax). apply sqrt_pos.
Qed.
(** the difference of finite numbers is a number *)
Lemma num_minus x y : fin x -> fin y -> num (Bminus mode_NE x y).
Proof. intros Fx Fy. apply (Bminus_ork x y Fx Fy). Qed.
End Gen.
Arguments nn {prec emax}.

(** ** binary32 *)
Lemma g_of_f_ork (x : f64) : fin x -> num (g_of_f x) /\ key (g_of_f x) = ork 24 128 (B2R x).
Proof.
  intros F. destruct x as [s| | |s m e b]; try discriminate F; cbn [g_of_f].
  - split; [reflexivity|]. cbn [B2R]. rewrite (key_fin 24 128) by reflexivity. symmetry. exact (ork_0 24 128).
  - pose proof (binary_normalize_correct 24 128 p24 pe24 mode_NE (cond_Zopp s (Zpos m)) e s) as C. cbv zeta in C.
    change (F2R (Float radix2 (cond_Zopp s (Zpos m)) e)) with (B2R (B754_finite s m e b)) in C. set (x := B754_finite s m e b) in *.
    destruct (Rlt_bool_spec (Rabs (rnd32 (B2R x))) (bpow radix2 128)) as [L|L].
    + destruct C as (V & Fi & _). split; [now apply fin_num|]. rewrite (key_fin 24 128 _ Fi), V, (ork_in 24 128); auto.
    + apply overflow_inf in C. rewrite C. split; [reflexivity|]. rewrite (key_inf 24 128). apply (ork_ovf 24 128); [exact L|].
      destruct (Rlt_bool_spec (B2R x) 0); lra.
Qed.
Lemma f_of_g_num (x : f32) : num x -> num (f_of_g x).
Proof.
  intros N. destruct x as [s|s| |s m e b] eqn:Ex; try discriminate N; try reflexivity. rewrite <- Ex. apply fin_num.
  assert (F : fin x) by (subst; reflexivity). exact (proj1 (f_of_g_fin x F)).
Qed.
Lemma f_of_g_nn (x : f32) : nn x -> nn (f_of_g x).
Proof.
  intros H. destruct (nn_cases 24 128 x H) as [->|[F P]]; [apply nn_inf|]. destruct (f_of_g_fin x F) as [F' V].
  apply nn_fin; [exact F'|lra].
Qed.
Lemma g_of_f_nn (x : f64) : nn x -> nn (g_of_f x).
Proof.
  intros H. destruct (nn_cases 53 1024 x H) as [->|[F P]]; [apply nn_inf|]. destruct (g_of_f_ork x F) as [N K].
  split; [exact N|]. rewrite K. apply (ork_pos 24 128 _). exact P.
Qed.
Lemma gsqrt_nn x : nn x -> nn (gsqrt x).
Proof. intros H. unfold gsqrt. apply g_of_f_nn, nn_sqrt, f_of_g_nn, H. Qed.
Definition vfin (p : vec) : Prop := fin (vx p) /\ fin (vy p).
Lemma vdst_nn a b : vfin a -> vfin b -> nn (vdst a b).
Proof.
  intros [Ax Ay] [Bx By]. unfold vdst. apply gsqrt_nn. apply nn_plus; apply nn_square; apply num_minus; assumption.
Qed.

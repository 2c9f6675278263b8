(** A libm whose functions are the real ones, correctly rounded: what is assumed of libm can be met. *)
From Coq Require Import Reals Lra ZArith Lia.
From Flocq Require Import Core BinarySingleNaN.
From Verif Require Import GoFloat PP SpecPP SpecFormula BaseLemmas FloatLemmas Float32Lemmas KeyLemmas LazyProofs PPProofs PPBounds RelLemmas RelPow FormulaParts.
Open Scope R_scope.

(** the double a real number rounds to *)
Definition of_R (r : R) : f64 :=
  let x := rnd64 r in binary_normalize 53 1024 eq_refl eq_refl mode_NE (Ztrunc (scaled_mantissa radix2 (SpecFloat.fexp 53 1024) x)) (cexp radix2 (SpecFloat.fexp 53 1024) x) false.
Lemma of_R_ok r : Rabs r <= bpow radix2 1023 -> fin (of_R r) /\ B2R (of_R r) = rnd64 r.
Proof.
  intros H. unfold of_R. cbv zeta. set (m := Ztrunc _). set (e := cexp _ _ _). pose proof (binary_normalize_correct 53 1024 eq_refl eq_refl mode_NE m e false) as C. cbv zeta in C.
  assert (G : generic_format radix2 (SpecFloat.fexp 53 1024) (rnd64 r)) by (apply generic_format_round; typeclasses eauto).
  assert (E : F2R (Float radix2 m e) = rnd64 r) by (symmetry; exact G). rewrite E in C.
  assert (B : Rabs (rnd64 r) <= bpow radix2 1023) by (apply (rnd_bound 53 1024 _ 1023); [unfold SpecFloat.emin; lia|exact H]).
  assert (I : round radix2 (SpecFloat.fexp 53 1024) (round_mode mode_NE) (rnd64 r) = rnd64 r) by (apply round_generic; [typeclasses eauto|exact G]). rewrite I in C.
  rewrite Rlt_bool_true in C by (apply Rle_lt_trans with (1 := B), bpow_lt; lia). destruct C as (C1 & C2 & _). split; [exact C2|exact C1].
Qed.
Definition direction (x y : R) : R := let t := acos (x / sqrt (x * x + y * y)) in if Rle_dec 0 y then t else - t.
(** zero to a positive power is zero, to another power one; a negative number is taken without its sign *)
Definition exact_pow (x y : R) : R := if Req_EM_T x 0 then (if Rlt_dec 0 y then 0 else 1) else Rpower (Rabs x) y.
Definition exact_libm : libm := {| mpow := fun x y => of_R (exact_pow (B2R x) (B2R y)); mlog10 := fun x => of_R (log10 (B2R x)); mcbrt := fun x => of_R (rpow (Rabs (B2R x)) (1 / 3));
  msin := fun x => of_R (sin (B2R x)); mcos := fun x => of_R (cos (B2R x)); macos := fun x => of_R (acos (B2R x)); matan2 := fun y x => of_R (direction (B2R x) (B2R y)) |}.
Lemma b53 : / 9007199254740992 <= bpow radix2 (-40). Proof. change (bpow radix2 (-40)) with (/ 1099511627776). lra. Qed.
Lemma exact_close : @pow_close exact_libm.
Proof.
  constructor; cbn [mpow exact_libm].
  - intros x y _ _ P _ (L & U). unfold exact_pow. destruct (Req_EM_T (B2R x) 0) as [Z|_]; [lra|]. rewrite (Rabs_pos_eq (B2R x)) by lra. set (v := Rpower (B2R x) (B2R y)) in *. assert (V : 0 < v) by (pose proof (bpow_gt_0 radix2 (-950)); lra).
    destruct (of_R_ok v) as (F & E); [rewrite Rabs_pos_eq by lra; apply Rle_trans with (1 := U), bpow_le; lia|]. split; [exact F|]. rewrite E.
    pose proof (rel64 v) as R. rewrite (Rabs_pos_eq v) in R by lra. apply Rle_trans with (1 := R ltac:(apply Rle_trans with (2 := L), bpow_le; lia)). apply Rmult_le_compat_l; [lra|exact b53].
  - intros x y _ _ X Y. unfold exact_pow. destruct (Req_EM_T (B2R x) 0) as [_|N]; [|lra]. destruct (Rlt_dec 0 (B2R y)) as [_|N]; [|lra]. destruct (of_R_ok 0) as (F & E); [rewrite Rabs_R0; apply bpow_ge_0|]. split; [exact F|]. now rewrite E, rnd64_0.
  - intros x _ B. destruct (fq1_exact 2) as (_ & E2); [lia|]. rewrite E2. unfold exact_pow. destruct (Req_EM_T (B2R x) 0) as [Z|N].
    + destruct (Rlt_dec 0 2) as [_|N]; [|lra]. destruct (of_R_ok 0) as (F & E); [rewrite Rabs_R0; apply bpow_ge_0|]. split; [exact F|]. rewrite E, rnd64_0, Z. replace (0 - 0 ^ 2) with 0 by ring. rewrite Rabs_R0. pose proof (bpow_gt_0 radix2 (-1000)). lra.
    + assert (A : 0 < Rabs (B2R x)) by now apply Rabs_pos_lt. replace 2 with (INR 2) at 1 2 by reflexivity. rewrite Rpower_pow by exact A. rewrite pow2_abs. set (v := B2R x ^ 2). assert (V : 0 <= v) by apply pow2_ge_0.
      assert (VU : v <= bpow radix2 800). { unfold v. rewrite <- (pow2_abs (B2R x)). change 800%Z with (400 + 400)%Z. rewrite bpow_plus. replace (Rabs (B2R x) ^ 2) with (Rabs (B2R x) * Rabs (B2R x)) by ring. apply Rmult_le_compat; lra. }
      destruct (of_R_ok v) as (F & E); [rewrite Rabs_pos_eq by lra; apply Rle_trans with (1 := VU), bpow_le; lia|]. split; [exact F|]. rewrite E. pose proof (bpow_gt_0 radix2 (-1000)) as P0. pose proof (bpow_gt_0 radix2 (-40)) as P4.
      destruct (Rle_lt_dec (bpow radix2 (-1022)) v) as [G|G].
      * pose proof (rel64 v) as R. rewrite (Rabs_pos_eq v) in R by lra. specialize (R G). assert (v * / 9007199254740992 <= v * bpow radix2 (-40)) by (apply Rmult_le_compat_l; [lra|exact b53]). lra.
      * assert (X : rnd64 v <= bpow radix2 (-1022)). { apply round_le_generic; [typeclasses eauto|typeclasses eauto|apply generic_format_bpow; cbn; lia|lra]. } pose proof (rnd64_pos v V). assert (bpow radix2 (-1022) <= bpow radix2 (-1000)) by (apply bpow_le; lia). assert (0 <= v * bpow radix2 (-40)) by (apply Rmult_le_pos; lra). apply Rabs_le. lra.
Qed.
Lemma exact_log : @log_close exact_libm.
Proof.
  intros x _ (L & U). cbn [mlog10 exact_libm]. assert (B : 0 <= log10 (B2R x) <= 20).
  { unfold log10. pose proof ln_10 as L10. split; [apply Rmult_le_pos; [rewrite <- ln_1; apply ln_le'; lra|left; apply Rinv_0_lt_compat; lra]|]. apply Rmult_le_reg_r with (ln 10); [lra|]. unfold Rdiv. rewrite Rmult_assoc, Rinv_l, Rmult_1_r by lra.
    assert (X : ln (B2R x) <= 40). { apply Rle_trans with (ln (bpow radix2 40)); [apply ln_le'; lra|]. rewrite bpow_exp, ln_exp. pose proof ln2_le. lra. } lra. }
  destruct (of_R_ok (log10 (B2R x))) as (F & E); [rewrite Rabs_pos_eq by lra; apply Rle_trans with (bpow radix2 5); [repeat pw; lra|apply bpow_le; lia]|]. split; [exact F|]. rewrite E.
  pose proof (rnd64_err (log10 (B2R x)) 5 ltac:(lia)) as R. change (bpow radix2 5) with 32 in R. specialize (R ltac:(rewrite Rabs_pos_eq; lra)). apply Rle_trans with (1 := R). apply bpow_le. lia.
Qed.

(** Facts about Go's floating point operations, stated through real numbers. *)
From Coq Require Import Reals Lra.
From Flocq Require Import Core.
From Verif Require Import GoFloat.
Open Scope R_scope.

Section Gen.
Context (prec emax : Z) {Hp : Prec_gt_0 prec} {He : Prec_lt_emax prec emax}.
Notation bf := (binary_float prec emax).
Notation fexp := (SpecFloat.fexp prec emax).
Notation rnd := (round radix2 fexp (round_mode mode_NE)).

(** The value of a float in the extended order: infinities sit just outside
    the finite range, NaN (never compared) at 0. *)
Definition key (x : bf) : R :=
  match x with
  | B754_infinity s => if s then - bpow radix2 emax else bpow radix2 emax
  | _ => B2R x
  end.
Definition fin (x : bf) : Prop := is_finite x = true.
Definition num (x : bf) : Prop := is_nan x = false.

Lemma fin_num x : fin x -> num x.
Proof. destruct x; unfold fin, num; simpl; congruence. Qed.
Lemma key_fin x : fin x -> key x = B2R x.
Proof. destruct x; unfold fin; simpl; congruence. Qed.
Lemma B2R_lt x : fin x -> - bpow radix2 emax < B2R x < bpow radix2 emax.
Proof. intros H. apply Rabs_lt_inv. apply abs_B2R_lt_emax. Qed.

Lemma bpow_emax_pos : 0 < bpow radix2 emax.
Proof. apply bpow_gt_0. Qed.

Ltac rbool := repeat match goal with
  | |- context [Rlt_bool ?a ?b] => destruct (Rlt_bool_spec a b); try lra; try reflexivity
  | |- context [Rle_bool ?a ?b] => destruct (Rle_bool_spec a b); try lra; try reflexivity
  | |- context [Req_bool ?a ?b] => destruct (Req_bool_spec a b); try lra; try reflexivity
  end.

Lemma Bltb_key x y : num x -> num y -> Bltb x y = Rlt_bool (key x) (key y).
Proof.
  intros Hx Hy. destruct (is_finite x) eqn:Fx.
  - destruct (is_finite y) eqn:Fy.
    + rewrite Bltb_correct by assumption. now rewrite !key_fin.
    + rewrite (key_fin x) by assumption. pose proof (B2R_lt x Fx).
      destruct y as [|[]| |]; try discriminate; cbn [key]; rbool; destruct x as [[]|[]| |[]]; try discriminate; reflexivity.
  - destruct (is_finite y) eqn:Fy.
    + rewrite (key_fin y) by assumption. pose proof (B2R_lt y Fy).
      destruct x as [|[]| |]; try discriminate; cbn [key]; rbool; destruct y as [[]|[]| |[]]; try discriminate; reflexivity.
    + pose proof bpow_emax_pos.
      destruct x as [|[]| |]; try discriminate; destruct y as [|[]| |]; try discriminate; cbn [key]; rbool.
Qed.
Lemma Bleb_key x y : num x -> num y -> Bleb x y = Rle_bool (key x) (key y).
Proof.
  intros Hx Hy. destruct (is_finite x) eqn:Fx.
  - destruct (is_finite y) eqn:Fy.
    + rewrite Bleb_correct by assumption. now rewrite !key_fin.
    + rewrite (key_fin x) by assumption. pose proof (B2R_lt x Fx).
      destruct y as [|[]| |]; try discriminate; cbn [key]; rbool; destruct x as [[]|[]| |[]]; try discriminate; reflexivity.
  - destruct (is_finite y) eqn:Fy.
    + rewrite (key_fin y) by assumption. pose proof (B2R_lt y Fy).
      destruct x as [|[]| |]; try discriminate; cbn [key]; rbool; destruct y as [[]|[]| |[]]; try discriminate; reflexivity.
    + pose proof bpow_emax_pos.
      destruct x as [|[]| |]; try discriminate; destruct y as [|[]| |]; try discriminate; cbn [key]; rbool.
Qed.
Lemma Beqb_key x y : num x -> num y -> Beqb x y = Req_bool (key x) (key y).
Proof.
  intros Hx Hy. destruct (is_finite x) eqn:Fx.
  - destruct (is_finite y) eqn:Fy.
    + rewrite Beqb_correct by assumption. now rewrite !key_fin.
    + rewrite (key_fin x) by assumption. pose proof (B2R_lt x Fx).
      destruct y as [|[]| |]; try discriminate; cbn [key]; rbool; destruct x as [[]|[]| |[]]; try discriminate; reflexivity.
  - destruct (is_finite y) eqn:Fy.
    + rewrite (key_fin y) by assumption. pose proof (B2R_lt y Fy).
      destruct x as [|[]| |]; try discriminate; cbn [key]; rbool; destruct y as [[]|[]| |[]]; try discriminate; reflexivity.
    + pose proof bpow_emax_pos.
      destruct x as [|[]| |]; try discriminate; destruct y as [|[]| |]; try discriminate; cbn [key]; rbool.
Qed.
Lemma Bltb_num x y : Bltb x y = true -> num x /\ num y.
Proof. destruct x, y; unfold num; simpl; auto. Qed.
Lemma Bleb_num x y : Bleb x y = true -> num x /\ num y.
Proof. destruct x, y; unfold num; simpl; auto. Qed.
Lemma Beqb_num x y : Beqb x y = true -> num x /\ num y.
Proof. destruct x, y; unfold num; simpl; auto. Qed.

Lemma Blt_iff x y : Bltb x y = true <-> num x /\ num y /\ key x < key y.
Proof.
  split.
  - intros H. destruct (Bltb_num _ _ H) as [Hx Hy]. rewrite Bltb_key in H by assumption.
    destruct (Rlt_bool_spec (key x) (key y)); [auto|discriminate].
  - intros (Hx & Hy & H). rewrite Bltb_key by assumption. now apply Rlt_bool_true.
Qed.
Lemma Ble_iff x y : Bleb x y = true <-> num x /\ num y /\ key x <= key y.
Proof.
  split.
  - intros H. destruct (Bleb_num _ _ H) as [Hx Hy]. rewrite Bleb_key in H by assumption.
    destruct (Rle_bool_spec (key x) (key y)); [auto|discriminate].
  - intros (Hx & Hy & H). rewrite Bleb_key by assumption. now apply Rle_bool_true.
Qed.
Lemma Beq_iff x y : Beqb x y = true <-> num x /\ num y /\ key x = key y.
Proof.
  split.
  - intros H. destruct (Beqb_num _ _ H) as [Hx Hy]. rewrite Beqb_key in H by assumption.
    destruct (Req_bool_spec (key x) (key y)); [auto|discriminate].
  - intros (Hx & Hy & H). rewrite Beqb_key by assumption. now apply Req_bool_true.
Qed.
Lemma Blt_false x y : num x -> num y -> (Bltb x y = false <-> key y <= key x).
Proof. intros Hx Hy. rewrite Bltb_key by assumption. destruct (Rlt_bool_spec (key x) (key y)); split; try congruence; try lra. Qed.
Lemma Ble_false x y : num x -> num y -> (Bleb x y = false <-> key y < key x).
Proof. intros Hx Hy. rewrite Bleb_key by assumption. destruct (Rle_bool_spec (key x) (key y)); split; try congruence; try lra. Qed.

(** A float between two finite floats is finite. *)
Lemma fin_between x a b : fin a -> fin b -> Bleb a x = true -> Bleb x b = true -> fin x.
Proof.
  intros Ha Hb H1 H2. apply Ble_iff in H1, H2. destruct H1 as (_ & Hx & H1), H2 as (_ & _ & H2).
  rewrite (key_fin a) in H1 by assumption. rewrite (key_fin b) in H2 by assumption. pose proof (B2R_lt a Ha). pose proof (B2R_lt b Hb).
  destruct x as [|[]| |]; unfold num in Hx; try discriminate; cbn [key] in *; try reflexivity; lra.
Qed.
Lemma fin_of_key x : num x -> - bpow radix2 emax < key x < bpow radix2 emax -> fin x.
Proof. destruct x as [|[]| |]; unfold num, fin; simpl; intros; try reflexivity; try discriminate; lra. Qed.

(** ** arithmetic on finite numbers *)
Lemma emin_le : forall e, (emax - 1 = e)%Z -> (SpecFloat.emin prec emax <= e)%Z.
Proof. intros e <-. unfold SpecFloat.emin, Prec_gt_0, Prec_lt_emax in *. lia. Qed.

Lemma rnd_le a b : a <= b -> rnd a <= rnd b.
Proof. apply round_le; typeclasses eauto. Qed.
Lemma rnd_fmt x : rnd (B2R x) = B2R (x : bf).
Proof. apply round_generic; [typeclasses eauto|]. apply generic_format_B2R. Qed.
Lemma rnd_0 : rnd 0 = 0.
Proof. apply round_0. typeclasses eauto. Qed.
Lemma bpow_fmt e : (SpecFloat.emin prec emax <= e)%Z -> generic_format radix2 fexp (bpow radix2 e).
Proof.
  intros H. apply generic_format_bpow. unfold SpecFloat.fexp. unfold Prec_gt_0, Prec_lt_emax in *. lia.
Qed.
Lemma rnd_bound x e : (SpecFloat.emin prec emax <= e)%Z -> Rabs x <= bpow radix2 e -> Rabs (rnd x) <= bpow radix2 e.
Proof. intros H Hx. apply abs_round_le_generic; try typeclasses eauto; auto. now apply bpow_fmt. Qed.
Lemma no_ovf x : Rabs x <= bpow radix2 (emax - 1) -> Rabs (rnd x) < bpow radix2 emax.
Proof.
  intros H. eapply Rle_lt_trans; [eapply rnd_bound; [|exact H]|].
  - now apply emin_le.
  - apply bpow_lt. lia.
Qed.

Lemma fin_not_nan_inf x : fin x <-> is_finite x = true. Proof. reflexivity. Qed.

Lemma Bplus_fin x y : fin x -> fin y -> Rabs (B2R x + B2R y) <= bpow radix2 (emax - 1) ->
  fin (Bplus mode_NE x y) /\ B2R (Bplus mode_NE x y) = rnd (B2R x + B2R y).
Proof.
  intros Hx Hy H. pose proof (Bplus_correct prec emax _ _ mode_NE x y Hx Hy) as C.
  rewrite Rlt_bool_true in C by now apply no_ovf. tauto.
Qed.
Lemma Bminus_fin x y : fin x -> fin y -> Rabs (B2R x - B2R y) <= bpow radix2 (emax - 1) ->
  fin (Bminus mode_NE x y) /\ B2R (Bminus mode_NE x y) = rnd (B2R x - B2R y).
Proof.
  intros Hx Hy H. pose proof (Bminus_correct prec emax _ _ mode_NE x y Hx Hy) as C.
  rewrite Rlt_bool_true in C by now apply no_ovf. tauto.
Qed.
Lemma Bmult_fin x y : fin x -> fin y -> Rabs (B2R x * B2R y) <= bpow radix2 (emax - 1) ->
  fin (Bmult mode_NE x y) /\ B2R (Bmult mode_NE x y) = rnd (B2R x * B2R y).
Proof.
  intros Hx Hy H. pose proof (Bmult_correct prec emax _ _ mode_NE x y) as C.
  rewrite Rlt_bool_true in C by now apply no_ovf. unfold fin in *. rewrite Hx, Hy in C. tauto.
Qed.
Lemma Bdiv_fin x y : fin x -> fin y -> B2R y <> 0 -> Rabs (B2R x / B2R y) <= bpow radix2 (emax - 1) ->
  fin (Bdiv mode_NE x y) /\ B2R (Bdiv mode_NE x y) = rnd (B2R x / B2R y).
Proof.
  intros Hx Hy Hn H. pose proof (Bdiv_correct prec emax _ _ mode_NE x y Hn) as C.
  rewrite Rlt_bool_true in C by now apply no_ovf. unfold fin in *. rewrite Hx in C. tauto.
Qed.
Lemma Bsqrt_fin x : fin x -> 0 <= B2R x ->
  fin (Bsqrt mode_NE x) /\ B2R (Bsqrt mode_NE x) = rnd (sqrt (B2R x)).
Proof.
  intros Hx H. pose proof (Bsqrt_correct prec emax _ _ mode_NE x) as (C1 & C2 & _). split; [|exact C1].
  unfold fin. rewrite C2. destruct x as [| | |[] m e b]; try reflexivity; try discriminate.
  exfalso. cbn in H. pose proof (F2R_lt_0 radix2 (Float radix2 (Z.neg m) e) eq_refl). cbn in *. lra.
Qed.
Lemma Bopp_fin x : fin x -> fin (Bopp x) /\ B2R (Bopp x) = - B2R x.
Proof. intros H. split; [unfold fin; now rewrite is_finite_Bopp|apply B2R_Bopp]. Qed.
Lemma Babs_fin x : fin x -> fin (Babs x) /\ B2R (Babs x) = Rabs (B2R x).
Proof. intros H. split; [unfold fin; now rewrite is_finite_Babs|apply B2R_Babs]. Qed.

Lemma normalize_fin m e s : Rabs (F2R (Float radix2 m e)) <= bpow radix2 (emax - 1) ->
  fin (binary_normalize prec emax Hp He mode_NE m e s) /\
  B2R (binary_normalize prec emax Hp He mode_NE m e s) = rnd (F2R (Float radix2 m e)).
Proof.
  intros H. pose proof (binary_normalize_correct prec emax _ _ mode_NE m e s) as C. cbv zeta in C.
  rewrite Rlt_bool_true in C by now apply no_ovf. tauto.
Qed.

(** ** exact real value of a closed float *)
Lemma B2R_SF x : B2R x = SF2R radix2 (B2SF (x : bf)).
Proof. symmetry. apply SF2R_B2SF. Qed.
End Gen.

Arguments key {prec emax} x.
Arguments fin {prec emax} x.
Arguments num {prec emax} x.

Definition fexp64 := SpecFloat.fexp 53 1024.
Notation rnd64 := (round radix2 (SpecFloat.fexp 53 1024) (round_mode mode_NE)).
Notation rnd32 := (round radix2 (SpecFloat.fexp 24 128) (round_mode mode_NE)).

(** ** the same for Go's operators on float64 *)
Lemma flt_iff x y : flt x y = true <-> num x /\ num y /\ key x < key y.
Proof. apply Blt_iff. Qed.
Lemma fle_iff x y : fle x y = true <-> num x /\ num y /\ key x <= key y.
Proof. apply Ble_iff. Qed.
Lemma fgt_iff x y : fgt x y = true <-> num x /\ num y /\ key y < key x.
Proof. unfold fgt. rewrite Blt_iff. tauto. Qed.
Lemma fge_iff x y : fge x y = true <-> num x /\ num y /\ key y <= key x.
Proof. unfold fge. rewrite Ble_iff. tauto. Qed.
Lemma feq_iff x y : feq x y = true <-> num x /\ num y /\ key x = key y.
Proof. apply Beq_iff. Qed.
Lemma flt_false x y : num x -> num y -> (flt x y = false <-> key y <= key x).
Proof. apply Blt_false. Qed.
Lemma fle_false x y : num x -> num y -> (fle x y = false <-> key y < key x).
Proof. apply Ble_false. Qed.
Lemma fgt_false x y : num x -> num y -> (fgt x y = false <-> key x <= key y).
Proof. intros. now apply Blt_false. Qed.
Lemma fge_false x y : num x -> num y -> (fge x y = false <-> key x < key y).
Proof. intros. now apply Ble_false. Qed.

Lemma fadd_fin x y : fin x -> fin y -> Rabs (B2R x + B2R y) <= bpow radix2 1023 ->
  fin (fadd x y) /\ B2R (fadd x y) = rnd64 (B2R x + B2R y).
Proof. apply Bplus_fin. Qed.
Lemma fsub_fin x y : fin x -> fin y -> Rabs (B2R x - B2R y) <= bpow radix2 1023 ->
  fin (fsub x y) /\ B2R (fsub x y) = rnd64 (B2R x - B2R y).
Proof. apply Bminus_fin. Qed.
Lemma fmul_fin x y : fin x -> fin y -> Rabs (B2R x * B2R y) <= bpow radix2 1023 ->
  fin (fmul x y) /\ B2R (fmul x y) = rnd64 (B2R x * B2R y).
Proof. apply Bmult_fin. Qed.
Lemma fdiv_fin x y : fin x -> fin y -> B2R y <> 0 -> Rabs (B2R x / B2R y) <= bpow radix2 1023 ->
  fin (fdiv x y) /\ B2R (fdiv x y) = rnd64 (B2R x / B2R y).
Proof. apply Bdiv_fin. Qed.
Lemma fneg_fin x : fin x -> fin (fneg x) /\ B2R (fneg x) = - B2R x.
Proof. apply Bopp_fin. Qed.
Lemma fabs_fin x : fin x -> fin (fabs x) /\ B2R (fabs x) = Rabs (B2R x).
Proof. apply Babs_fin. Qed.
Lemma fsqrt_fin x : fin x -> 0 <= B2R x -> fin (fsqrt x) /\ B2R (fsqrt x) = rnd64 (sqrt (B2R x)).
Proof. apply Bsqrt_fin. Qed.

Lemma rnd64_le a b : a <= b -> rnd64 a <= rnd64 b. Proof. apply (rnd_le 53 1024). Qed.
Lemma rnd64_0 : rnd64 0 = 0. Proof. apply (rnd_0 53 1024). Qed.
Lemma rnd64_id (x : f64) : rnd64 (B2R x) = B2R x. Proof. apply (rnd_fmt 53 1024). Qed.
(** rounding keeps a bound that is itself a float *)
Lemma rnd64_le_f a (x : f64) : a <= B2R x -> rnd64 a <= B2R x.
Proof. intros H. rewrite <- (rnd64_id x). now apply rnd64_le. Qed.
Lemma rnd64_ge_f a (x : f64) : B2R x <= a -> B2R x <= rnd64 a.
Proof. intros H. rewrite <- (rnd64_id x). now apply rnd64_le. Qed.
Lemma rnd64_pos a : 0 <= a -> 0 <= rnd64 a.
Proof. intros H. rewrite <- rnd64_0. now apply rnd64_le. Qed.
Lemma rnd64_neg a : a <= 0 -> rnd64 a <= 0.
Proof. intros H. rewrite <- rnd64_0. now apply rnd64_le. Qed.

(** integers up to 2^53 are exact *)
Lemma fmt_Z z : (Z.abs z <= 2 ^ 53)%Z -> generic_format radix2 (SpecFloat.fexp 53 1024) (IZR z).
Proof.
  intros H. assert (Hc : (Z.abs z < 2 ^ 53 \/ Z.abs z = 2 ^ 53)%Z) by lia. destruct Hc as [Hc|Hc].
  - replace (IZR z) with (F2R (Float radix2 z 0)) by (unfold F2R; simpl; ring).
    apply generic_format_F2R. intros Hz. unfold cexp.
    assert (Hm : (mag radix2 (F2R (Float radix2 z 0)) <= 53)%Z).
    { apply mag_le_bpow. - unfold F2R; simpl. rewrite Rmult_1_r. now apply IZR_neq.
      - unfold F2R; simpl. rewrite Rmult_1_r, <- abs_IZR. apply IZR_lt. exact Hc. }
    unfold SpecFloat.fexp, SpecFloat.emin. cbn [Fexp]. lia.
  - assert (E : IZR z = bpow radix2 53 \/ IZR z = - bpow radix2 53).
    { destruct (Z.abs_spec z) as [[_ E]|[_ E]]; [left|right].
      - replace z with (2 ^ 53)%Z by lia. reflexivity.
      - replace z with (- 2 ^ 53)%Z by lia. rewrite opp_IZR. reflexivity. }
    pose proof (bpow_fmt 53 1024 53 ltac:(vm_compute; discriminate)).
    destruct E as [->| ->]; [assumption|now apply generic_format_opp].
Qed.
Lemma rnd64_Z z : (Z.abs z <= 2 ^ 53)%Z -> rnd64 (IZR z) = IZR z.
Proof. intros H. apply round_generic; [typeclasses eauto|]. now apply fmt_Z. Qed.
Lemma IZR_bound z e : (Z.abs z <= 2 ^ e)%Z -> (0 <= e <= 1023)%Z -> Rabs (IZR z) <= bpow radix2 1023.
Proof.
  intros H He. rewrite <- abs_IZR. apply Rle_trans with (bpow radix2 e); [|apply bpow_le; lia].
  rewrite <- IZR_Zpower by lia. now apply IZR_le.
Qed.
Lemma f_of_Z_rnd z : (Z.abs z <= 2 ^ 1023)%Z -> fin (f_of_Z z) /\ B2R (f_of_Z z) = rnd64 (IZR z).
Proof.
  intros H. unfold f_of_Z.
  assert (E : F2R (Float radix2 z 0) = IZR z) by (unfold F2R; simpl; ring).
  pose proof (normalize_fin 53 1024 z 0 false) as N. rewrite E in N. apply N.
  change (1024 - 1)%Z with 1023%Z. apply (IZR_bound z 1023 H). lia.
Qed.
Lemma f_of_Z_exact z : (Z.abs z <= 2 ^ 53)%Z -> fin (f_of_Z z) /\ B2R (f_of_Z z) = IZR z.
Proof.
  intros H. rewrite <- rnd64_Z by assumption. apply f_of_Z_rnd.
  eapply Z.le_trans; [exact H|]. now apply Z.pow_le_mono_r.
Qed.
Lemma Rdiv_1 x : x / 1 = x.
Proof. field. Qed.
Lemma fq1_exact z : (Z.abs z <= 2 ^ 53)%Z -> fin (fq z 1) /\ B2R (fq z 1) = IZR z.
Proof.
  intros H. unfold fq. destruct (f_of_Z_exact z H) as [F E].
  destruct (f_of_Z_exact 1 ltac:(vm_compute; discriminate)) as [F1 E1].
  destruct (fdiv_fin (f_of_Z z) (f_of_Z 1) F F1) as [F2 E2].
  - rewrite E1. lra.
  - rewrite E, E1, Rdiv_1. apply (IZR_bound z 53 H). lia.
  - split; [exact F2|]. rewrite E2, E, E1, Rdiv_1. now apply rnd64_Z.
Qed.
Lemma rnd64_exact_Z (z : Z) a : (Z.abs z <= 2 ^ 53)%Z -> a <= IZR z -> rnd64 a <= IZR z.
Proof. intros Hz H. rewrite <- (rnd64_Z z Hz). now apply rnd64_le. Qed.
Lemma rnd64_exact_Z' (z : Z) a : (Z.abs z <= 2 ^ 53)%Z -> IZR z <= a -> IZR z <= rnd64 a.
Proof. intros Hz H. rewrite <- (rnd64_Z z Hz). now apply rnd64_le. Qed.

(** ** math.Max and math.Min *)
Lemma fmax_key x y : num x -> num y -> num (fmax x y) /\ key (fmax x y) = Rmax (key x) (key y).
Proof.
  intros Hx Hy. unfold fmax.
  pose proof (bpow_gt_0 radix2 1024) as Hb.
  assert (Bd : forall z : f64, num z -> key z <= bpow radix2 1024).
  { intros z Hz. destruct (is_finite z) eqn:F.
    - rewrite key_fin by exact F. pose proof (B2R_lt _ _ z F). lra.
    - destruct z as [|[]| |]; try discriminate; cbn [key]; lra. }
  destruct (is_pinf x || is_pinf y) eqn:E1.
  { split; [reflexivity|]. cbn [key finf]. apply orb_true_iff in E1. destruct E1 as [E|E].
    - destruct x as [|[]| |]; try discriminate. cbn [key]. rewrite Rmax_left; [reflexivity|auto].
    - destruct y as [|[]| |]; try discriminate. cbn [key]. rewrite Rmax_right; [reflexivity|auto]. }
  unfold fisnan. unfold num in Hx, Hy. rewrite Hx, Hy. cbn [orb].
  destruct (is_zero x && is_zero y) eqn:E2.
  { apply andb_true_iff in E2. destruct E2 as [Ex Ey].
    destruct x; try discriminate. destruct y; try discriminate. cbn [Bsign].
    destruct s; split; try reflexivity; cbn [key B2R]; rewrite Rmax_left; lra. }
  destruct (fgt x y) eqn:E3.
  - split; [exact Hx|]. apply fgt_iff in E3. rewrite Rmax_left; [reflexivity|lra].
  - split; [exact Hy|]. apply fgt_false in E3; auto. rewrite Rmax_right; [reflexivity|lra].
Qed.
Lemma fmin_key x y : num x -> num y -> num (fmin x y) /\ key (fmin x y) = Rmin (key x) (key y).
Proof.
  intros Hx Hy. unfold fmin.
  pose proof (bpow_gt_0 radix2 1024) as Hb.
  assert (Bd : forall z : f64, num z -> - bpow radix2 1024 <= key z).
  { intros z Hz. destruct (is_finite z) eqn:F.
    - rewrite key_fin by exact F. pose proof (B2R_lt _ _ z F). lra.
    - destruct z as [|[]| |]; try discriminate; cbn [key]; lra. }
  destruct (is_ninf x || is_ninf y) eqn:E1.
  { split; [reflexivity|]. cbn [key fninf]. apply orb_true_iff in E1. destruct E1 as [E|E].
    - destruct x as [|[]| |]; try discriminate. cbn [key]. rewrite Rmin_left; [reflexivity|auto].
    - destruct y as [|[]| |]; try discriminate. cbn [key]. rewrite Rmin_right; [reflexivity|auto]. }
  unfold fisnan. unfold num in Hx, Hy. rewrite Hx, Hy. cbn [orb].
  destruct (is_zero x && is_zero y) eqn:E2.
  { apply andb_true_iff in E2. destruct E2 as [Ex Ey].
    destruct x; try discriminate. destruct y; try discriminate. cbn [Bsign].
    destruct s; split; try reflexivity; cbn [key B2R]; rewrite Rmin_left; lra. }
  destruct (flt x y) eqn:E3.
  - split; [exact Hx|]. apply flt_iff in E3. rewrite Rmin_left; [reflexivity|lra].
  - split; [exact Hy|]. apply flt_false in E3; auto. rewrite Rmin_right; [reflexivity|lra].
Qed.

(** ** float32 *)
Lemma gadd_fin x y : fin x -> fin y -> Rabs (B2R x + B2R y) <= bpow radix2 127 ->
  fin (gadd x y) /\ B2R (gadd x y) = rnd32 (B2R x + B2R y).
Proof. apply Bplus_fin. Qed.
Lemma gsub_fin x y : fin x -> fin y -> Rabs (B2R x - B2R y) <= bpow radix2 127 ->
  fin (gsub x y) /\ B2R (gsub x y) = rnd32 (B2R x - B2R y).
Proof. apply Bminus_fin. Qed.
Lemma gmul_fin x y : fin x -> fin y -> Rabs (B2R x * B2R y) <= bpow radix2 127 ->
  fin (gmul x y) /\ B2R (gmul x y) = rnd32 (B2R x * B2R y).
Proof. apply Bmult_fin. Qed.
Lemma gdiv_fin x y : fin x -> fin y -> B2R y <> 0 -> Rabs (B2R x / B2R y) <= bpow radix2 127 ->
  fin (gdiv x y) /\ B2R (gdiv x y) = rnd32 (B2R x / B2R y).
Proof. apply Bdiv_fin. Qed.
Lemma gneg_fin x : fin x -> fin (gneg x) /\ B2R (gneg x) = - B2R x.
Proof. apply Bopp_fin. Qed.
Lemma glt_iff x y : glt x y = true <-> num x /\ num y /\ key x < key y.
Proof. apply Blt_iff. Qed.
Lemma gle_iff x y : gle x y = true <-> num x /\ num y /\ key x <= key y.
Proof. apply Ble_iff. Qed.
Lemma ggt_iff x y : ggt x y = true <-> num x /\ num y /\ key y < key x.
Proof. unfold ggt. rewrite Blt_iff. tauto. Qed.
Lemma gge_iff x y : gge x y = true <-> num x /\ num y /\ key y <= key x.
Proof. unfold gge. rewrite Ble_iff. tauto. Qed.
Lemma geq_iff x y : geq x y = true <-> num x /\ num y /\ key x = key y.
Proof. apply Beq_iff. Qed.

Lemma rnd32_le a b : a <= b -> rnd32 a <= rnd32 b. Proof. apply (rnd_le 24 128). Qed.
Lemma rnd32_0 : rnd32 0 = 0. Proof. apply (rnd_0 24 128). Qed.
Lemma rnd32_id (x : f32) : rnd32 (B2R x) = B2R x. Proof. apply (rnd_fmt 24 128). Qed.
Lemma rnd32_le_f a (x : f32) : a <= B2R x -> rnd32 a <= B2R x.
Proof. intros H. rewrite <- (rnd32_id x). now apply rnd32_le. Qed.
Lemma rnd32_ge_f a (x : f32) : B2R x <= a -> B2R x <= rnd32 a.
Proof. intros H. rewrite <- (rnd32_id x). now apply rnd32_le. Qed.
Lemma rnd32_pos a : 0 <= a -> 0 <= rnd32 a.
Proof. intros H. rewrite <- rnd32_0. now apply rnd32_le. Qed.

Lemma F2R_finite {p e} s m ex b : F2R (Float radix2 (cond_Zopp s (Zpos m)) ex) = B2R (B754_finite s m ex b : binary_float p e).
Proof. reflexivity. Qed.
Lemma g_of_f_fin (x : f64) : fin x -> Rabs (B2R x) <= bpow radix2 127 -> fin (g_of_f x) /\ B2R (g_of_f x) = rnd32 (B2R x).
Proof.
  intros F H. destruct x as [s| | |s m e b]; try discriminate; cbn [g_of_f].
  - split; [reflexivity|]. cbn [B2R]. now rewrite rnd32_0.
  - apply (normalize_fin 24 128 _ e s). exact H.
Qed.
(** every float32 is a float64 *)
Lemma fmt32_64 x : generic_format radix2 (SpecFloat.fexp 24 128) x -> generic_format radix2 (SpecFloat.fexp 53 1024) x.
Proof.
  apply generic_inclusion_mag. intros _. unfold SpecFloat.fexp, SpecFloat.emin. lia.
Qed.
Lemma B2R32_lt (x : f32) : Rabs (B2R x) <= bpow radix2 1023.
Proof.
  destruct (is_finite x) eqn:F.
  - apply Rlt_le. eapply Rlt_le_trans; [apply abs_B2R_lt_emax|]. apply bpow_le. lia.
  - destruct x; try discriminate; cbn [B2R]; rewrite Rabs_R0; apply bpow_ge_0.
Qed.
Lemma f_of_g_fin (x : f32) : fin x -> fin (f_of_g x) /\ B2R (f_of_g x) = B2R x.
Proof.
  intros F. destruct x as [s| | |s m e b] eqn:E; try discriminate; cbn [f_of_g].
  - split; reflexivity.
  - assert (B : Rabs (F2R (Float radix2 (cond_Zopp s (Zpos m)) e)) <= bpow radix2 1023)
      by (pose proof (B2R32_lt x) as H; rewrite E in H; exact H).
    destruct (normalize_fin 53 1024 _ _ s B) as [N1 N2]. split; [exact N1|]. rewrite N2.
    apply round_generic; [typeclasses eauto|]. apply fmt32_64.
    pose proof (generic_format_B2R 24 128 x) as G. rewrite E in G. exact G.
Qed.

(** ** closed constants *)
Ltac bval x :=
  let H := fresh "V" in
  assert (H : B2R x = B2R x) by reflexivity;
  rewrite (B2R_SF _ _ x) in H at 2;
  let v := eval vm_compute in (B2SF x) in
  let E := fresh "E" in
  assert (E : B2SF x = v) by (vm_compute; reflexivity);
  rewrite E in H; clear E;
  unfold SF2R, F2R in H; cbn [Fnum Fexp cond_Zopp bpow radix2 radix_val Z.pow_pos Pos.iter Z.mul Pos.mul Pos.add Pos.succ] in H.

(** ** rounding errors *)
Lemma rnd64_err a k : (-1021 <= k <= 1023)%Z -> Rabs a <= bpow radix2 k -> Rabs (rnd64 a - a) <= bpow radix2 (k - 53).
Proof.
  intros Hk H. eapply Rle_trans; [apply error_le_half_ulp; typeclasses eauto|].
  assert (U : ulp radix2 (SpecFloat.fexp 53 1024) a <= bpow radix2 (k - 52)).
  { apply Rle_trans with (ulp radix2 (SpecFloat.fexp 53 1024) (bpow radix2 k)).
    - apply ulp_le; [typeclasses eauto|typeclasses eauto|]. now rewrite (Rabs_pos_eq (bpow _ _)) by apply bpow_ge_0.
    - rewrite ulp_bpow. apply bpow_le. unfold SpecFloat.fexp, SpecFloat.emin. lia. }
  replace (k - 53)%Z with (-1 + (k - 52))%Z by lia. rewrite bpow_plus. change (bpow radix2 (-1)) with (/ 2). lra.
Qed.
Lemma rnd64_abs_Z a z : (0 <= z <= 2 ^ 53)%Z -> Rabs a <= IZR z -> Rabs (rnd64 a) <= IZR z.
Proof.
  intros Hz H. apply Rabs_le. apply Rabs_le_inv in H. split.
  - rewrite <- opp_IZR. apply rnd64_exact_Z'; [lia|]. rewrite opp_IZR. lra.
  - apply rnd64_exact_Z; [lia|lra].
Qed.
Lemma small_1023 a : Rabs a <= 1267650600228229401496703205376 -> Rabs a <= bpow radix2 1023.
Proof.
  intros H. change 1267650600228229401496703205376 with (bpow radix2 100) in H.
  eapply Rle_trans; eauto; apply bpow_le; lia.
Qed.
Lemma fin_ge_le (x : f64) a b : fin a -> fin b -> fle a x = true -> fle x b = true -> fin x /\ B2R a <= B2R x <= B2R b.
Proof.
  intros Fa Fb H1 H2. assert (F : fin x) by (exact (fin_between 53 1024 x a b Fa Fb H1 H2)). split; [exact F|].
  apply fle_iff in H1, H2. rewrite (key_fin _ _ x), (key_fin _ _ a) in H1 by assumption.
  rewrite (key_fin _ _ x), (key_fin _ _ b) in H2 by assumption. tauto.
Qed.
Lemma fle_B2R (x y : f64) : fin x -> fin y -> (fle x y = true <-> B2R x <= B2R y).
Proof.
  intros Fx Fy. rewrite fle_iff, !key_fin by assumption. split; [tauto|]. intros. split; [now apply fin_num|]. split; [now apply fin_num|assumption].
Qed.
Lemma flt_B2R (x y : f64) : fin x -> fin y -> (flt x y = true <-> B2R x < B2R y).
Proof.
  intros Fx Fy. rewrite flt_iff, !key_fin by assumption. split; [tauto|]. intros. split; [now apply fin_num|]. split; [now apply fin_num|assumption].
Qed.
Lemma flt_bool (x y : f64) : fin x -> fin y -> flt x y = Rlt_bool (B2R x) (B2R y).
Proof. apply (Bltb_correct 53 1024). Qed.
Lemma fgt_bool (x y : f64) : fin x -> fin y -> fgt x y = Rlt_bool (B2R y) (B2R x).
Proof. intros. now apply (Bltb_correct 53 1024). Qed.

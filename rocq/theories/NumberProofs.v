(** Numbers in text: quotients are rounded correctly, and what strconv reads. *)
From Coq Require Import Reals Lra.
From Flocq Require Import Core BinarySingleNaN.
From Verif Require Import GoString BaseLemmas FloatLemmas.
Open Scope R_scope.

(** ** A quotient with a sticky bit rounds as the quotient does *)
Section Sticky.
Context (prec emax : Z) (Hp : Prec_gt_0 prec) (He : Prec_lt_emax prec emax).
Notation fx := (SpecFloat.fexp prec emax).
Notation rnd := (round radix2 fx (round_mode mode_NE)).
Lemma nearest_same q n x : (0 <= q)%Z -> (1 <= n)%Z -> IZR q / IZR (2 * n) < x < IZR (q + 1) / IZR (2 * n) ->
  ZnearestE x = (if q mod (2 * n) <? n then q / (2 * n) else q / (2 * n) + 1)%Z.
Proof.
  intros Q N B. set (m := (2 * n)%Z) in *. pose proof (Z.div_mod q m ltac:(lia)) as E. pose proof (Z.mod_pos_bound q m ltac:(lia)) as R. set (f := (q / m)%Z) in *. set (r := (q mod m)%Z) in *. clearbody f r.
  assert (PM : 0 < IZR m) by (apply (IZR_lt 0); lia). assert (EM : IZR m = 2 * IZR n) by (unfold m; rewrite mult_IZR; reflexivity).
  assert (A1 : IZR q / IZR m = IZR f + IZR r / IZR m) by (rewrite E, plus_IZR, mult_IZR; field; lra). assert (A2 : IZR (q + 1) / IZR m = IZR f + (IZR r + 1) / IZR m) by (rewrite E, !plus_IZR, mult_IZR; field; lra). rewrite A1, A2 in B.
  assert (H2 : IZR n / IZR m = / 2) by (rewrite EM; field; lra). assert (INV : 0 < / IZR m) by (apply Rinv_0_lt_compat; exact PM).
  destruct (Z.ltb_spec r n) as [L|L]; apply Znearest_imp; apply Rabs_def1.
  - assert ((IZR r + 1) / IZR m <= IZR n / IZR m) by (apply Rmult_le_compat_r; [lra|rewrite <- plus_IZR; apply IZR_le; lia]). lra.
  - assert (0 <= IZR r / IZR m) by (apply Rmult_le_pos; [apply (IZR_le 0); lia|lra]). lra.
  - rewrite plus_IZR. assert ((IZR r + 1) / IZR m <= IZR m / IZR m) by (apply Rmult_le_compat_r; [lra|rewrite <- plus_IZR; apply IZR_le; lia]). assert (IZR m / IZR m = 1) by (field; lra). lra.
  - rewrite plus_IZR. assert (IZR n / IZR m <= IZR r / IZR m) by (apply Rmult_le_compat_r; [lra|apply IZR_le; lia]). lra.
Qed.
Lemma between_same x y q s : (2 ^ (prec + 1) <= q)%Z -> (0 <= s)%Z ->
  IZR q * bpow radix2 (- s) < x < IZR (q + 1) * bpow radix2 (- s) -> IZR q * bpow radix2 (- s) < y < IZR (q + 1) * bpow radix2 (- s) -> rnd x = rnd y.
Proof.
  intros Q S X Y. set (h := bpow radix2 (- s)) in *. assert (H0 : 0 < h) by apply bpow_gt_0. assert (P0 : (0 < prec)%Z) by exact Hp. assert (Q0 : (0 < q)%Z) by (assert (0 < 2 ^ (prec + 1))%Z by (apply Z.pow_pos_nonneg; lia); lia).
  assert (PX : 0 < x) by (assert (0 < IZR q * h) by (apply Rmult_lt_0_compat; [apply (IZR_lt 0); lia|exact H0]); lra). destruct (mag radix2 x) as (e & HE). specialize (HE ltac:(lra)). rewrite Rabs_pos_eq in HE by lra.
  assert (BE : (prec + 2 - s <= e)%Z). { apply Znot_gt_le. intros G. assert (A : bpow radix2 e <= bpow radix2 (prec + 1 - s)) by (apply bpow_le; lia). assert (B : bpow radix2 (prec + 1 - s) = IZR (2 ^ (prec + 1)) * h) by (unfold Z.sub; rewrite bpow_plus; unfold h; apply f_equal2; [symmetry; apply (IZR_Zpower radix2); lia|reflexivity]).
    assert (C : IZR (2 ^ (prec + 1)) * h <= IZR q * h) by (apply Rmult_le_compat_r; [lra|apply IZR_le; lia]). lra. }
  assert (POW : forall k, (- s <= k)%Z -> bpow radix2 k = IZR (2 ^ (k + s)) * h). { intros k K. unfold h. rewrite (IZR_Zpower radix2) by lia. rewrite <- bpow_plus. apply f_equal. lia. }
  assert (GE : forall z w k, IZR k * h <= z -> z < IZR (q + 1) * h -> IZR q * h < w -> IZR k * h <= w). { intros z w k A B C. assert (k < q + 1)%Z by (apply lt_IZR, Rmult_lt_reg_r with h; lra). assert (IZR k * h <= IZR q * h) by (apply Rmult_le_compat_r; [lra|apply IZR_le; lia]). lra. }
  assert (LT : forall z w k, z < IZR k * h -> IZR q * h < z -> w < IZR (q + 1) * h -> w < IZR k * h). { intros z w k A B C. assert (q < k)%Z by (apply lt_IZR, Rmult_lt_reg_r with h; lra). assert (IZR (q + 1) * h <= IZR k * h) by (apply Rmult_le_compat_r; [lra|apply IZR_le; lia]). lra. }
  assert (HY : bpow radix2 (e - 1) <= y < bpow radix2 e). { rewrite (POW (e - 1)%Z) in HE |- * by lia. rewrite (POW e) in HE |- * by lia. split; [apply (GE x); lra|apply (LT x); lra]. }
  assert (MX : mag radix2 x = e :> Z) by (apply mag_unique_pos; exact HE). assert (MY : mag radix2 y = e :> Z) by (apply mag_unique_pos; exact HY).
  unfold round, scaled_mantissa, cexp. rewrite MX, MY. apply f_equal. set (c := fx e). assert (CC : (2 - s <= c)%Z) by (unfold c, SpecFloat.fexp; lia). clearbody c. apply f_equal2; [|reflexivity]. cbn [round_mode].
  set (n := (2 ^ (s + c - 1))%Z). assert (N1 : (1 <= n)%Z) by (unfold n; assert (0 < 2 ^ (s + c - 1))%Z by (apply Z.pow_pos_nonneg; lia); lia). assert (E2 : IZR (2 * n) = bpow radix2 (s + c)) by (rewrite <- (IZR_Zpower radix2) by lia; apply f_equal; unfold n; change (radix_val radix2) with 2%Z; replace (s + c)%Z with (1 + (s + c - 1))%Z at 2 by lia; rewrite Z.pow_add_r by lia; reflexivity).
  assert (SC : forall k, IZR k / IZR (2 * n) = IZR k * h * bpow radix2 (- c)) by (intros k; rewrite E2; unfold Rdiv, h; rewrite <- bpow_opp, Rmult_assoc, <- bpow_plus; apply f_equal2; [reflexivity|apply f_equal; lia]).
  pose proof (bpow_gt_0 radix2 (- c)) as PC. rewrite (nearest_same q n (x * _)), (nearest_same q n (y * _)); try reflexivity; try lia; rewrite !SC; split; apply Rmult_lt_compat_r; lra.
Qed.

(** What [binary_normalize] gives: the rounded value or an infinity. *)
Definition reads (sx : bool) (v : R) (f : binary_float prec emax) : Prop :=
  (Rabs (rnd v) < bpow radix2 emax /\ is_finite f = true /\ B2R f = rnd v /\ Bsign f = sx) \/ (bpow radix2 emax <= Rabs (rnd v) /\ f = B754_infinity sx).
Lemma normalize_reads m e sx : (sx = true <-> (m < 0)%Z) -> reads sx (F2R (Float radix2 m e)) (binary_normalize prec emax Hp He mode_NE m e sx).
Proof.
  intros S. pose proof (binary_normalize_correct prec emax Hp He mode_NE m e sx) as H. cbv zeta in H. change (SpecFloat.fexp prec emax) with fx in H.
  destruct (Rlt_bool_spec (Rabs (rnd (F2R (Float radix2 m e)))) (bpow radix2 emax)) as [L|L].
  - left. destruct H as (V & F & G). split; [exact L|]. split; [exact F|]. split; [exact V|]. rewrite G. destruct sx; [rewrite Rcompare_Lt; [reflexivity|]; apply F2R_lt_0; cbn; apply S; reflexivity|]. assert (P : (0 <= m)%Z) by (destruct (Z.lt_ge_cases m 0) as [X|X]; [apply S in X; discriminate X|exact X]). destruct (Rcompare_spec (F2R (Float radix2 m e)) 0) as [X|X|X]; try reflexivity. exfalso. apply (Rlt_not_le _ _ X). apply F2R_ge_0. exact P.
  - right. split; [exact L|]. assert (E : Rlt_bool (F2R (Float radix2 m e)) 0 = sx). { destruct sx; [apply Rlt_bool_true, F2R_lt_0; cbn; apply S; reflexivity|apply Rlt_bool_false, F2R_ge_0; cbn; destruct (Z.lt_ge_cases m 0) as [X|X]; [|exact X]; apply S in X; discriminate X]. }
    rewrite E in H. clear -H. destruct (binary_normalize _ _ _ _ _ _ _ _) as [s|s| |s m' e' b]; cbn in H; try discriminate H. injection H as ->. reflexivity.
Qed.
Lemma reads_ext sx v w f : rnd v = rnd w -> reads sx v f -> reads sx w f.
Proof. unfold reads. now intros ->. Qed.
Lemma rnd_cond (sx : bool) v w : rnd v = rnd w -> rnd (if sx then - v else v) = rnd (if sx then - w else w).
Proof. intros E. destruct sx; [|exact E]. cbn [round_mode] in *. rewrite !round_NE_opp. now rewrite E. Qed.
Theorem ratio_reads sx n d : (0 < n)%Z -> (0 < d)%Z -> reads sx (if sx then - (IZR n / IZR d) else IZR n / IZR d) (ratio_round prec emax Hp He sx n d).
Proof.
  intros N D. unfold ratio_round. set (s := Z.max 0 (Z.log2 d - Z.log2 n + prec + 3)). assert (P0 : (0 < prec)%Z) by exact Hp. pose proof (Z_div_mod (n * 2 ^ s) d ltac:(lia)) as DM. destruct (Z.div_eucl (n * 2 ^ s) d) as (q, r). destruct DM as (E & R).
  assert (S0 : (0 <= s)%Z) by (unfold s; lia). assert (PS : (0 < 2 ^ s)%Z) by (apply Z.pow_pos_nonneg; lia). assert (DR : 0 < IZR d) by (apply (IZR_lt 0); exact D).
  assert (BIG : (2 ^ (prec + 1) <= q)%Z).
  { pose proof (Z.log2_spec n N) as (L1 & _). pose proof (Z.log2_spec d D) as (_ & L2). pose proof (Z.log2_nonneg n). pose proof (Z.log2_nonneg d). assert (A : (2 ^ (prec + 2) * d <= n * 2 ^ s)%Z).
    { apply Z.le_trans with (2 ^ (prec + 2) * 2 ^ (Z.succ (Z.log2 d)))%Z; [apply Z.mul_le_mono_nonneg_l; [apply Z.pow_nonneg; lia|lia]|]. apply Z.le_trans with (2 ^ (Z.log2 n) * 2 ^ s)%Z; [|apply Z.mul_le_mono_nonneg_r; lia]. rewrite <- !Z.pow_add_r by (unfold s; lia). apply Z.pow_le_mono_r; [lia|unfold s; lia]. }
    replace (prec + 2)%Z with (1 + (prec + 1))%Z in A by lia. rewrite (Z.pow_add_r 2 1) in A by lia. assert (0 < 2 ^ (prec + 1))%Z by (apply Z.pow_pos_nonneg; lia). nia. }
  assert (V : IZR n / IZR d = (IZR q + IZR r / IZR d) * bpow radix2 (- s)).
  { assert (X : IZR n * IZR (2 ^ s) = IZR d * IZR q + IZR r) by (rewrite <- !mult_IZR, <- plus_IZR; now apply f_equal). rewrite bpow_opp. change (bpow radix2 s) with (bpow radix2 s). rewrite <- (IZR_Zpower radix2) by lia. change (radix_val radix2 ^ s)%Z with (2 ^ s)%Z. assert (0 < IZR (2 ^ s)) by (apply (IZR_lt 0); exact PS). replace (IZR q + IZR r / IZR d) with ((IZR d * IZR q + IZR r) / IZR d) by (field; lra). rewrite <- X. field. lra. }
  set (m := (2 * q + (if r =? 0 then 0 else 1))%Z). assert (QP : (0 < q)%Z) by (assert (0 < 2 ^ (prec + 1))%Z by (apply Z.pow_pos_nonneg; lia); lia).
  apply (reads_ext sx (F2R (Float radix2 (cond_Zopp sx m) (- s - 1)))).
  - assert (FM : F2R (Float radix2 (cond_Zopp sx m) (- s - 1)) = if sx then - (IZR m * bpow radix2 (- s - 1)) else IZR m * bpow radix2 (- s - 1)) by (unfold F2R; cbn [Fnum Fexp]; destruct sx; cbn [cond_Zopp]; [rewrite opp_IZR; ring|reflexivity]).
    rewrite FM. apply rnd_cond. assert (EM : IZR m * bpow radix2 (- s - 1) = (IZR q + (if (r =? 0)%Z then 0 else / 2)) * bpow radix2 (- s)).
    { unfold Z.sub. rewrite bpow_plus. change (bpow radix2 (- (1))) with (/ 2). unfold m. rewrite plus_IZR, mult_IZR. destruct (r =? 0)%Z; field. }
    rewrite EM, V. destruct (Z.eqb_spec r 0) as [->|NR]; [apply f_equal; unfold Rdiv; now rewrite Rmult_0_l|].
    pose proof (bpow_gt_0 radix2 (- s)) as H0. assert (QR : 0 < IZR r / IZR d < 1). { assert (0 < IZR r < IZR d) by (split; [apply (IZR_lt 0)|apply IZR_lt]; lia). split; [apply Rdiv_lt_0_compat; lra|apply Rmult_lt_reg_r with (IZR d); [lra|]; unfold Rdiv; rewrite Rmult_assoc, Rinv_l; lra]. }
    apply (between_same _ _ q s); auto; rewrite plus_IZR; split; apply Rmult_lt_compat_r; lra.
  - apply normalize_reads. destruct sx; cbn [cond_Zopp]; split; intros X; try reflexivity; try discriminate X; unfold m in *; destruct (r =? 0)%Z; lia.
Qed.
End Sticky.

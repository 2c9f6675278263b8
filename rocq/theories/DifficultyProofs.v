From Coq Require Import Reals Lra.
From Flocq Require Import Core.
From Verif Require Import Difficulty SpecMods SpecDifficulty BaseLemmas FloatLemmas ModsProofs.
Open Scope R_scope.

(** ** setters *)
Lemma calculate_ext d d' : d_hp d = d_hp d' -> d_cs d = d_cs d' -> d_od d = d_od d' -> d_ar d = d_ar d' ->
  d_Mods d = d_Mods d' -> d_CustomSpeed d = d_CustomSpeed d' -> calculate d = calculate d'.
Proof. intros E1 E2 E3 E4 E5 E6. unfold calculate, get_modified_time. rewrite E1, E2, E3, E4, E5, E6. reflexivity. Qed.
Lemma built_eq hp cs od ar m sp : built hp cs od ar m sp =
  calculate {| d_hp := hp; d_cs := cs; d_od := od; d_ar := ar;
               d_Preempt := f0; d_CircleRadius := f0; d_Mods := m;
               d_Hit50 := f0; d_Hit100 := f0; d_Hit300 := f0;
               d_HPMod := f0; d_SpinnerRatio := f0; d_Speed := f0;
               d_ARReal := f0; d_ODReal := f0; d_CustomSpeed := sp |}.
Proof. unfold built, set_custom_speed, set_mods, new_difficulty. apply calculate_ext; reflexivity. Qed.
Lemma call_built s hp cs od ar m sp : call (built hp cs od ar m sp) s =
  match s with
  | SetHP x => built x cs od ar m sp | SetCS x => built hp x od ar m sp | SetOD x => built hp cs x ar m sp
  | SetAR x => built hp cs od x m sp | SetMods x => built hp cs od ar x sp | SetSpeed x => built hp cs od ar m x
  end.
Proof. rewrite !built_eq. destruct s; cbn [call]; unfold set_hp, set_cs, set_od, set_ar, set_mods, set_custom_speed; rewrite ?built_eq; apply calculate_ext; reflexivity. Qed.
Lemma calls_built l : forall hp cs od ar m sp, fold_left call l (built hp cs od ar m sp) =
  built (last_given g_hp l hp) (last_given g_cs l cs) (last_given g_od l od) (last_given g_ar l ar)
        (last_given g_mods l m) (last_given g_speed l sp).
Proof.
  unfold last_given. induction l as [|s l IH]; intros; cbn [fold_left]; [reflexivity|].
  rewrite call_built. destruct s; cbn [g_hp g_cs g_od g_ar g_mods g_speed]; apply IH.
Qed.
Lemma new_built hp cs od ar : new_difficulty hp cs od ar = built hp cs od ar 0 (fq 1 1).
Proof. rewrite built_eq. reflexivity. Qed.

(** ** constants *)
Lemma q5 : fin (fq 5 1) /\ B2R (fq 5 1) = 5. Proof. now apply fq1_exact. Qed.
Lemma q10 : fin (fq 10 1) /\ B2R (fq 10 1) = 10. Proof. now apply fq1_exact. Qed.
Lemma q2 : fin (fq 2 1) /\ B2R (fq 2 1) = 2. Proof. now apply fq1_exact. Qed.

Lemma base_ok_R x : base_ok x -> fin x /\ 0 <= B2R x <= 10.
Proof.
  intros [H1 H2]. destruct q10 as [F10 V10]. destruct (fin_ge_le x f0 (fq 10 1) eq_refl F10 H1 H2) as [F R].
  split; [exact F|]. cbn [B2R f0] in R. lra.
Qed.
Lemma base_ok_intro x : fin x -> 0 <= B2R x <= 10 -> base_ok x.
Proof.
  intros F R. destruct q10 as [F10 V10]. assert (F0 : fin f0) by reflexivity.
  split; (apply fle_B2R; [assumption|assumption|]); [cbn [B2R f0]; lra|lra].
Qed.

(** ** DifficultyRate over the reals *)
Definition rateR (mn mid mx x : R) : R :=
  if Rlt_bool 5 x then rnd64 (mid + rnd64 (rnd64 (rnd64 (mx - mid) * rnd64 (x - 5)) / 5))
  else if Rlt_bool x 5 then rnd64 (mid - rnd64 (rnd64 (rnd64 (mid - mn) * rnd64 (5 - x)) / 5))
  else mid.

Lemma Rabs_mult_le a b x y : Rabs a <= x -> Rabs b <= y -> Rabs (a * b) <= x * y.
Proof. intros. rewrite Rabs_mult. apply Rmult_le_compat; auto; apply Rabs_pos. Qed.
Lemma Rabs_div5 a x : Rabs a <= x -> Rabs (a / 5) <= x.
Proof. intros H. apply Rabs_le. apply Rabs_le_inv in H. split; lra. Qed.

Lemma rate_R x mn mid mx : fin x -> 0 <= B2R x <= 10 -> fin mn -> fin mid -> fin mx ->
  Rabs (B2R mn) <= 2048 -> Rabs (B2R mid) <= 2048 -> Rabs (B2R mx) <= 2048 ->
  fin (difficulty_rate x mn mid mx) /\
  B2R (difficulty_rate x mn mid mx) = rateR (B2R mn) (B2R mid) (B2R mx) (B2R x).
Proof.
  intros Fx Rx Fn Fd Fm Bn Bd Bm. destruct q5 as [F5 V5].
  unfold difficulty_rate, rateR. rewrite fgt_bool, flt_bool, V5 by assumption.
  destruct (Rlt_bool_spec 5 (B2R x)) as [H|H].
  - apply Rabs_le_inv in Bn, Bd, Bm.
    destruct (fsub_fin mx mid Fm Fd) as [F1 V1]; [apply small_1023, Rabs_le; lra|].
    destruct (fsub_fin x (fq 5 1) Fx F5) as [F2 V2]; [apply small_1023, Rabs_le; lra|].
    assert (B1 : Rabs (rnd64 (B2R mx - B2R mid)) <= 4096) by (apply rnd64_abs_Z; [lia|apply Rabs_le; lra]).
    assert (B2 : Rabs (rnd64 (B2R x - 5)) <= 5) by (apply rnd64_abs_Z; [lia|apply Rabs_le; lra]).
    rewrite V5 in V2.
    pose proof (Rabs_mult_le _ _ _ _ B1 B2) as B3.
    destruct (fmul_fin _ _ F1 F2) as [F3 V3]; [rewrite V1, V2; apply small_1023; lra|].
    rewrite V1, V2 in V3.
    assert (B4 : Rabs (rnd64 (rnd64 (B2R mx - B2R mid) * rnd64 (B2R x - 5))) <= 20480) by (apply rnd64_abs_Z; [lia|lra]).
    destruct (fdiv_fin _ (fq 5 1) F3 F5) as [F6 V6]; [lra|rewrite V3, V5; apply Rabs_div5 in B4; apply small_1023; lra|].
    rewrite V3, V5 in V6.
    assert (B6 : Rabs (rnd64 (rnd64 (rnd64 (B2R mx - B2R mid) * rnd64 (B2R x - 5)) / 5)) <= 20480) by (apply rnd64_abs_Z; [lia|now apply Rabs_div5]).
    destruct (fadd_fin mid _ Fd F6) as [F7 V7].
    { rewrite V6. apply small_1023. apply Rabs_le_inv in B6. apply Rabs_le. lra. }
    rewrite V6 in V7. auto.
  - destruct (Rlt_bool_spec (B2R x) 5) as [H'|H']; [|auto].
    apply Rabs_le_inv in Bn, Bd, Bm.
    destruct (fsub_fin mid mn Fd Fn) as [F1 V1]; [apply small_1023, Rabs_le; lra|].
    destruct (fsub_fin (fq 5 1) x F5 Fx) as [F2 V2]; [apply small_1023, Rabs_le; lra|].
    assert (B1 : Rabs (rnd64 (B2R mid - B2R mn)) <= 4096) by (apply rnd64_abs_Z; [lia|apply Rabs_le; lra]).
    assert (B2 : Rabs (rnd64 (5 - B2R x)) <= 5) by (apply rnd64_abs_Z; [lia|apply Rabs_le; lra]).
    rewrite V5 in V2.
    pose proof (Rabs_mult_le _ _ _ _ B1 B2) as B3.
    destruct (fmul_fin _ _ F1 F2) as [F3 V3]; [rewrite V1, V2; apply small_1023; lra|].
    rewrite V1, V2 in V3.
    assert (B4 : Rabs (rnd64 (rnd64 (B2R mid - B2R mn) * rnd64 (5 - B2R x))) <= 20480) by (apply rnd64_abs_Z; [lia|lra]).
    destruct (fdiv_fin _ (fq 5 1) F3 F5) as [F6 V6]; [lra|rewrite V3, V5; apply Rabs_div5 in B4; apply small_1023; lra|].
    rewrite V3, V5 in V6.
    assert (B6 : Rabs (rnd64 (rnd64 (rnd64 (B2R mid - B2R mn) * rnd64 (5 - B2R x)) / 5)) <= 20480) by (apply rnd64_abs_Z; [lia|now apply Rabs_div5]).
    destruct (fsub_fin mid _ Fd F6) as [F7 V7].
    { rewrite V6. apply small_1023. apply Rabs_le_inv in B6. apply Rabs_le. lra. }
    rewrite V6 in V7. auto.
Qed.

(** monotonicity; [mid] must be a float so that the middle value is kept *)
Lemma Rmul_le_neg c a b : c <= 0 -> a <= b -> c * b <= c * a.
Proof. intros. apply Rmult_le_compat_neg_l; assumption. Qed.

Lemma rateR_dec (d : f64) mn mx x y : let mid := B2R d in mx <= mid <= mn -> x <= y -> rateR mn mid mx y <= rateR mn mid mx x.
Proof.
  intros mid Hm Hxy. unfold rateR.
  assert (C1 : rnd64 (mx - mid) <= 0) by (apply rnd64_neg; lra).
  assert (C2 : rnd64 (mid - mn) <= 0) by (apply rnd64_neg; lra).
  assert (Up : forall z, 5 < z -> rnd64 (mid + rnd64 (rnd64 (rnd64 (mx - mid) * rnd64 (z - 5)) / 5)) <= mid).
  { intros z Hz. unfold mid at 3. apply rnd64_le_f. fold mid.
    assert (rnd64 (rnd64 (rnd64 (mx - mid) * rnd64 (z - 5)) / 5) <= 0); [|lra]. apply rnd64_neg.
    assert (rnd64 (rnd64 (mx - mid) * rnd64 (z - 5)) <= 0); [|lra]. apply rnd64_neg.
    assert (0 <= rnd64 (z - 5)) by (apply rnd64_pos; lra). apply Rmul_le_neg with (c := rnd64 (mx - mid)) in H; [|exact C1]. lra. }
  assert (Dn : forall z, z < 5 -> mid <= rnd64 (mid - rnd64 (rnd64 (rnd64 (mid - mn) * rnd64 (5 - z)) / 5))).
  { intros z Hz. unfold mid at 1. apply rnd64_ge_f. fold mid.
    assert (rnd64 (rnd64 (rnd64 (mid - mn) * rnd64 (5 - z)) / 5) <= 0); [|lra]. apply rnd64_neg.
    assert (rnd64 (rnd64 (mid - mn) * rnd64 (5 - z)) <= 0); [|lra]. apply rnd64_neg.
    assert (0 <= rnd64 (5 - z)) by (apply rnd64_pos; lra). apply Rmul_le_neg with (c := rnd64 (mid - mn)) in H; [|exact C2]. lra. }
  destruct (Rlt_bool_spec 5 y), (Rlt_bool_spec 5 x), (Rlt_bool_spec y 5), (Rlt_bool_spec x 5); try lra; auto.
  - apply rnd64_le. apply Rplus_le_compat_l. apply rnd64_le. apply Rmult_le_compat_r; [lra|]. apply rnd64_le.
    apply Rmul_le_neg; [exact C1|]. apply rnd64_le. lra.
  - specialize (Up y H). specialize (Dn x H2). lra.
  - apply rnd64_le. apply Rplus_le_compat_l. apply Ropp_le_contravar. apply rnd64_le. apply Rmult_le_compat_r; [lra|]. apply rnd64_le.
    apply Rmul_le_neg; [exact C2|]. apply rnd64_le. lra.
Qed.
Lemma rateR_inc (d : f64) mn mx x y : let mid := B2R d in mn <= mid <= mx -> x <= y -> rateR mn mid mx x <= rateR mn mid mx y.
Proof.
  intros mid Hm Hxy. unfold rateR.
  assert (C1 : 0 <= rnd64 (mx - mid)) by (apply rnd64_pos; lra).
  assert (C2 : 0 <= rnd64 (mid - mn)) by (apply rnd64_pos; lra).
  assert (Up : forall z, 5 < z -> mid <= rnd64 (mid + rnd64 (rnd64 (rnd64 (mx - mid) * rnd64 (z - 5)) / 5))).
  { intros z Hz. unfold mid at 1. apply rnd64_ge_f. fold mid.
    assert (0 <= rnd64 (rnd64 (rnd64 (mx - mid) * rnd64 (z - 5)) / 5)); [|lra]. apply rnd64_pos.
    assert (0 <= rnd64 (rnd64 (mx - mid) * rnd64 (z - 5))); [|lra]. apply rnd64_pos.
    assert (0 <= rnd64 (z - 5)) by (apply rnd64_pos; lra). now apply Rmult_le_pos. }
  assert (Dn : forall z, z < 5 -> rnd64 (mid - rnd64 (rnd64 (rnd64 (mid - mn) * rnd64 (5 - z)) / 5)) <= mid).
  { intros z Hz. unfold mid at 3. apply rnd64_le_f. fold mid.
    assert (0 <= rnd64 (rnd64 (rnd64 (mid - mn) * rnd64 (5 - z)) / 5)); [|lra]. apply rnd64_pos.
    assert (0 <= rnd64 (rnd64 (mid - mn) * rnd64 (5 - z))); [|lra]. apply rnd64_pos.
    assert (0 <= rnd64 (5 - z)) by (apply rnd64_pos; lra). now apply Rmult_le_pos. }
  destruct (Rlt_bool_spec 5 y), (Rlt_bool_spec 5 x), (Rlt_bool_spec y 5), (Rlt_bool_spec x 5); try lra; auto.
  - apply rnd64_le. apply Rplus_le_compat_l. apply rnd64_le. apply Rmult_le_compat_r; [lra|]. apply rnd64_le.
    apply Rmult_le_compat_l; [exact C1|]. apply rnd64_le. lra.
  - specialize (Up y H). specialize (Dn x H2). lra.
  - apply rnd64_le. apply Rplus_le_compat_l. apply Ropp_le_contravar. apply rnd64_le. apply Rmult_le_compat_r; [lra|]. apply rnd64_le.
    apply Rmult_le_compat_l; [exact C2|]. apply rnd64_le. lra.
Qed.

(** distance to the exact two-piece line, for constants up to 2^k *)
Lemma rnd64_bpow a e : (-1000 <= e)%Z -> Rabs a <= bpow radix2 e -> Rabs (rnd64 a) <= bpow radix2 e.
Proof. intros He H. apply (rnd_bound 53 1024); [|exact H]. unfold SpecFloat.emin. lia. Qed.

Lemma rateR_err_k k mn mid mx x : (0 <= k <= 100)%Z -> 0 <= x <= 10 ->
  Rabs mn <= bpow radix2 k -> Rabs mid <= bpow radix2 k -> Rabs mx <= bpow radix2 k ->
  Rabs (rateR mn mid mx x - pieces mn mid mx x) <= bpow radix2 k * / 281474976710656.
Proof.
  intros Hk Hx Bn Bd Bm. unfold rateR, pieces.
  set (B := bpow radix2 k) in *.
  assert (HB : 0 < B) by apply bpow_gt_0.
  assert (Sh : forall j, bpow radix2 (k + j) = B * bpow radix2 j) by (intros; apply bpow_plus).
  apply Rabs_le_inv in Bn, Bd, Bm.
  assert (P : forall u v s, Rabs u <= 2 * B -> 0 <= v <= 5 -> (s = 1 \/ s = -1) ->
     Rabs (rnd64 (mid + s * rnd64 (rnd64 (rnd64 u * rnd64 v) / 5)) - (mid + s * (u * v / 5))) <= B * / 281474976710656).
  { intros u v s Hu Hv Hs.
    assert (Hu' : Rabs u <= bpow radix2 (k + 1)) by (rewrite Sh; change (bpow radix2 1) with 2; lra).
    pose proof (rnd64_err u (k + 1) ltac:(lia) Hu') as E1.
    pose proof (rnd64_bpow u (k + 1) ltac:(lia) Hu') as B1.
    replace (k + 1 - 53)%Z with (k + -52)%Z in E1 by lia. rewrite Sh in E1, B1.
    assert (Hv' : Rabs v <= bpow radix2 3) by (rewrite Rabs_pos_eq; change (bpow radix2 3) with 8; lra).
    pose proof (rnd64_err v 3 ltac:(lia) Hv') as E2.
    assert (B2 : Rabs (rnd64 v) <= 5) by (apply rnd64_abs_Z; [lia|rewrite Rabs_pos_eq; lra]).
    change (bpow radix2 1) with 2 in B1.
    pose proof (Rabs_mult_le _ _ _ _ B1 B2) as B3.
    assert (E6 : Rabs (rnd64 u * rnd64 v - u * v) <= B * / 4503599627370496 * 5 + 2 * B * / 1125899906842624).
    { replace (rnd64 u * rnd64 v - u * v) with ((rnd64 u - u) * rnd64 v + u * (rnd64 v - v)) by ring.
      eapply Rle_trans; [apply Rabs_triang|].
      pose proof (Rabs_mult_le _ _ _ _ E1 B2). pose proof (Rabs_mult_le _ _ _ _ Hu E2).
      change (bpow radix2 (-52)) with (/ 4503599627370496) in *. change (bpow radix2 (3 - 53)) with (/ 1125899906842624) in *. lra. }
    set (p := rnd64 u * rnd64 v) in *.
    assert (B3' : Rabs p <= bpow radix2 (k + 4)) by (rewrite Sh; change (bpow radix2 4) with 16; lra).
    pose proof (rnd64_err p (k + 4) ltac:(lia) B3') as E3.
    replace (k + 4 - 53)%Z with (k + -49)%Z in E3 by lia. rewrite Sh in E3. change (bpow radix2 (-49)) with (/ 562949953421312) in E3.
    assert (Hp : Rabs p <= 10 * B) by lra.
    assert (B4 : Rabs (rnd64 p) <= 10 * B + B * / 562949953421312).
    { apply Rabs_le_inv in E3, Hp. apply Rabs_le. lra. }
    assert (B5 : Rabs (rnd64 p / 5) <= bpow radix2 (k + 2)).
    { rewrite Sh. change (bpow radix2 2) with 4. apply Rabs_le_inv in B4. apply Rabs_le. lra. }
    pose proof (rnd64_err (rnd64 p / 5) (k + 2) ltac:(lia) B5) as E4.
    replace (k + 2 - 53)%Z with (k + -51)%Z in E4 by lia. rewrite Sh in E4. change (bpow radix2 (-51)) with (/ 2251799813685248) in E4.
    set (w := mid + s * rnd64 (rnd64 p / 5)) in *.
    assert (B7 : Rabs w <= bpow radix2 (k + 2)).
    { unfold w. rewrite Sh. change (bpow radix2 2) with 4. apply Rabs_le_inv in B4, E4. apply Rabs_le. destruct Hs as [-> | ->]; lra. }
    pose proof (rnd64_err w (k + 2) ltac:(lia) B7) as E5.
    replace (k + 2 - 53)%Z with (k + -51)%Z in E5 by lia. rewrite Sh in E5. change (bpow radix2 (-51)) with (/ 2251799813685248) in E5.
    unfold w in *. clear E1 E2 B1 B2 B3 B4 B5 B7 Hu Hu' Hv' B3'.
    apply Rabs_le_inv in E3, E4, E5, E6. apply Rabs_le. destruct Hs as [-> | ->]; lra. }
  destruct (Rlt_bool_spec 5 x), (Rle_dec x 5); try lra.
  - specialize (P (mx - mid) (x - 5) 1). rewrite !Rmult_1_l in P. apply P; [apply Rabs_le; lra|lra|auto].
  - destruct (Rlt_bool_spec x 5).
    + specialize (P (mid - mn) (5 - x) (-1)).
      replace (mid + -1 * rnd64 (rnd64 (rnd64 (mid - mn) * rnd64 (5 - x)) / 5)) with (mid - rnd64 (rnd64 (rnd64 (mid - mn) * rnd64 (5 - x)) / 5)) in P by ring.
      replace (mid + (mn - mid) * (5 - x) / 5) with (mid + -1 * ((mid - mn) * (5 - x) / 5)) by field.
      apply P; [apply Rabs_le; lra|lra|auto].
    + replace x with 5 by lra. replace (mid - (mid + (mn - mid) * (5 - 5) / 5)) with 0 by field. rewrite Rabs_R0. lra.
Qed.
Lemma rateR_err mn mid mx x : 0 <= x <= 10 -> Rabs mn <= 2048 -> Rabs mid <= 2048 -> Rabs mx <= 2048 ->
  Rabs (rateR mn mid mx x - pieces mn mid mx x) <= / 10000000000.
Proof.
  intros Hx Bn Bd Bm. pose proof (rateR_err_k 11 mn mid mx x ltac:(lia) Hx Bn Bd Bm) as H.
  change (bpow radix2 11) with 2048 in H. lra.
Qed.

(** ** HardRock / Easy adjustment *)
Definition adj (m : Z) (k x : f64) : f64 := ez_adjust m (hr_adjust m x k).
Definition adjR (hr ez : bool) (k x : R) : R :=
  let y := if hr then Rmin (rnd64 (x * k)) 10 else x in if ez then rnd64 (y / 2) else y.

Lemma hr_bit m : mactive m HardRock = Z.testbit m bHR.
Proof. apply (mactive_bit m 4). lia. Qed.
Lemma ez_bit m : mactive m Easy = Z.testbit m bEZ.
Proof. apply (mactive_bit m 1). lia. Qed.

Lemma adj_R m k x : base_ok x -> fin k -> 1 <= B2R k <= 2 ->
  base_ok (adj m k x) /\ B2R (adj m k x) = adjR (Z.testbit m bHR) (Z.testbit m bEZ) (B2R k) (B2R x).
Proof.
  intros Hx Fk Rk. apply base_ok_R in Hx as [Fx Rx]. destruct q10 as [F10 V10]. destruct q2 as [F2 V2].
  unfold adj, ez_adjust, hr_adjust, adjR. rewrite hr_bit, ez_bit.
  assert (Y : forall b : bool, let y := if b then fmin (fmul x k) (fq 10 1) else x in
     fin y /\ 0 <= B2R y <= 10 /\ B2R y = if b then Rmin (rnd64 (B2R x * B2R k)) 10 else B2R x).
  { intros [|]; cbn zeta; [|auto].
    assert (B : 0 <= B2R x * B2R k <= 20).
    { split; [apply Rmult_le_pos; lra|]. replace 20 with (10 * 2) by lra. apply Rmult_le_compat; lra. }
    destruct (fmul_fin x k Fx Fk) as [F1 V1]; [apply small_1023, Rabs_le; lra|].
    destruct (fmin_key (fmul x k) (fq 10 1)) as [N E]; try (apply fin_num; assumption).
    rewrite (key_fin _ _ (fmul x k)), (key_fin _ _ (fq 10 1)), V10, V1 in E by assumption.
    assert (P : 0 <= rnd64 (B2R x * B2R k)) by (apply rnd64_pos; lra).
    assert (Q : 0 <= Rmin (rnd64 (B2R x * B2R k)) 10 <= 10) by (unfold Rmin; destruct (Rle_dec _ _); lra).
    assert (F : fin (fmin (fmul x k) (fq 10 1))).
    { apply fin_of_key; [exact N|]. pose proof (B2R_lt 53 1024 (fq 10 1) F10). rewrite E. rewrite V10 in H. lra. }
    rewrite (key_fin _ _ (fmin _ _)) in E by exact F. split; [exact F|]. rewrite E. auto. }
  specialize (Y (Z.testbit m bHR)). cbn zeta in Y. set (y := if Z.testbit m bHR then _ else _) in *.
  destruct Y as (Fy & Ry & Vy). rewrite <- Vy.
  destruct (Z.testbit m bEZ); [|split; [now apply base_ok_intro|reflexivity]].
  destruct (fdiv_fin y (fq 2 1) Fy F2) as [F3 V3]; [lra|rewrite V2; apply small_1023, Rabs_le; lra|].
  rewrite V2 in V3. split; [|exact V3]. apply base_ok_intro; [exact F3|]. rewrite V3. split.
  - apply rnd64_pos. lra.
  - apply rnd64_exact_Z; [lia|lra].
Qed.
Lemma adjR_mono hr ez k x y : 0 <= k -> x <= y -> adjR hr ez k x <= adjR hr ez k y.
Proof.
  intros Hk H. unfold adjR.
  assert (Y : (if hr then Rmin (rnd64 (x * k)) 10 else x) <= (if hr then Rmin (rnd64 (y * k)) 10 else y)).
  { destruct hr; [|exact H]. apply Rle_min_compat_r. apply rnd64_le. now apply Rmult_le_compat_r. }
  destruct ez; [|exact Y]. apply rnd64_le. lra.
Qed.
Lemma Rmin_lip a b c : Rabs (Rmin a c - Rmin b c) <= Rabs (a - b).
Proof.
  pose proof (Rle_abs (a - b)). pose proof (Rle_abs (- (a - b))). rewrite Rabs_Ropp in H0.
  unfold Rmin. apply Rabs_le. destruct (Rle_dec a c), (Rle_dec b c); lra.
Qed.
Lemma adjR_err m k kr x : 0 <= x <= 10 -> 1 <= k <= 2 -> Rabs (k - kr) <= / 1000000000000000 ->
  Rabs (adjR (Z.testbit m bHR) (Z.testbit m bEZ) k x - modded m kr x) <= / 10000000000000.
Proof.
  intros Hx Hk Hkr. unfold adjR, modded.
  assert (Y : 0 <= (if Z.testbit m bHR then Rmin (rnd64 (x * k)) 10 else x) <= 10 /\
    Rabs ((if Z.testbit m bHR then Rmin (rnd64 (x * k)) 10 else x) - (if Z.testbit m bHR then Rmin (x * kr) 10 else x)) <= / 20000000000000).
  { destruct (Z.testbit m bHR); [|split; [lra|rewrite Rminus_eq_0, Rabs_R0; lra]].
    assert (B : 0 <= x * k <= 20).
    { split; [apply Rmult_le_pos; lra|]. replace 20 with (10 * 2) by lra. apply Rmult_le_compat; lra. }
    split.
    - pose proof (rnd64_pos (x * k) ltac:(lra)). unfold Rmin; destruct (Rle_dec _ _); lra.
    - eapply Rle_trans; [apply Rmin_lip|].
      pose proof (rnd64_err (x * k) 5 ltac:(lia)) as E. change (bpow radix2 (5 - 53)) with (/ 281474976710656) in E.
      change (bpow radix2 5) with 32 in E. specialize (E ltac:(apply Rabs_le; lra)).
      assert (E2 : Rabs (x * k - x * kr) <= 10 * / 1000000000000000).
      { rewrite <- Rmult_minus_distr_l. apply Rabs_mult_le; [rewrite Rabs_pos_eq; lra|exact Hkr]. }
      apply Rabs_le_inv in E, E2. apply Rabs_le. lra. }
  destruct Y as [Ry Y]. set (y := if Z.testbit m bHR then Rmin (rnd64 (x * k)) 10 else x) in *.
  set (z := if Z.testbit m bHR then Rmin (x * kr) 10 else x) in *.
  destruct (Z.testbit m bEZ); [|lra].
  pose proof (rnd64_err (y / 2) 3 ltac:(lia)) as E. change (bpow radix2 (3 - 53)) with (/ 1125899906842624) in E.
  change (bpow radix2 3) with 8 in E. specialize (E ltac:(apply Rabs_le; lra)).
  apply Rabs_le_inv in E, Y. apply Rabs_le. lra.
Qed.
Lemma adjR_hr_ge ez k (x : f64) : 0 <= B2R x <= 10 -> 1 <= k -> adjR false ez k (B2R x) <= adjR true ez k (B2R x).
Proof.
  intros Hx Hk. unfold adjR.
  assert (Y : B2R x <= Rmin (rnd64 (B2R x * k)) 10).
  { apply Rmin_glb; [|lra]. apply rnd64_ge_f. rewrite <- (Rmult_1_r (B2R x)) at 1. apply Rmult_le_compat_l; lra. }
  destruct ez; [|exact Y]. apply rnd64_le. lra.
Qed.
Lemma adjR_ez_le hr k (y : f64) x : B2R y = adjR hr false k x -> 0 <= B2R y -> adjR hr true k x <= adjR hr false k x.
Proof.
  intros E H. rewrite <- E. unfold adjR in *. rewrite <- E. apply rnd64_le_f. lra.
Qed.

(** ** the derived attributes *)
Lemma k14 : fin (fq 14 10) /\ 1 <= B2R (fq 14 10) <= 2 /\ Rabs (B2R (fq 14 10) - 7 / 5) <= / 1000000000000000.
Proof. bval (fq 14 10). rewrite V. split; [reflexivity|]. split; [lra|]. apply Rabs_le; lra. Qed.
Lemma k13 : fin (fq 13 10) /\ 1 <= B2R (fq 13 10) <= 2 /\ Rabs (B2R (fq 13 10) - 13 / 10) <= / 1000000000000000.
Proof. bval (fq 13 10). rewrite V. split; [reflexivity|]. split; [lra|]. apply Rabs_le; lra. Qed.

(** one row per attribute: constants a (at 0), b (at 5), c (at 10) *)
Definition row (a b c : f64) (ra rb rc : R) : Prop :=
  fin a /\ fin b /\ fin c /\ Rabs (B2R a - ra) <= / 10000000000 /\ Rabs (B2R b - rb) <= / 10000000000 /\ Rabs (B2R c - rc) <= / 10000000000
  /\ Rabs (B2R a) <= 2048 /\ Rabs (B2R b) <= 2048 /\ Rabs (B2R c) <= 2048.
Ltac solve_row a b c :=
  unfold row; bval a; bval b; bval c;
  repeat match goal with E : B2R _ = _ |- _ => rewrite E; clear E end;
  repeat split; try (vm_compute; reflexivity); try (apply Rabs_le; lra).
Lemma row_preempt : row (fq 1800 1) (fq 1200 1) (fq 450 1) 1800 1200 450.
Proof. solve_row (fq 1800 1) (fq 1200 1) (fq 450 1). Qed.
Lemma row_radius : row (fq 544 10) (fq 32 1) (fq 96 10) (544/10) 32 (96/10).
Proof. solve_row (fq 544 10) (fq 32 1) (fq 96 10). Qed.
Lemma row_50 : row (fq 200 1) (fq 150 1) (fq 100 1) 200 150 100.
Proof. solve_row (fq 200 1) (fq 150 1) (fq 100 1). Qed.
Lemma row_100 : row (fq 140 1) (fq 100 1) (fq 60 1) 140 100 60.
Proof. solve_row (fq 140 1) (fq 100 1) (fq 60 1). Qed.
Lemma row_300 : row (fq 80 1) (fq 50 1) (fq 20 1) 80 50 20.
Proof. solve_row (fq 80 1) (fq 50 1) (fq 20 1). Qed.
Lemma row_spin : row (fq 3 1) (fq 5 1) (fq 75 10) 3 5 (15/2).
Proof. solve_row (fq 3 1) (fq 5 1) (fq 75 10). Qed.

Lemma pieces_lip a b c a' b' c' x y e d : 0 <= x <= 10 -> 0 <= y <= 10 -> 0 <= e -> 0 <= d ->
  Rabs (a - a') <= e -> Rabs (b - b') <= e -> Rabs (c - c') <= e -> Rabs (x - y) <= d ->
  Rabs a' <= 2048 -> Rabs b' <= 2048 -> Rabs c' <= 2048 ->
  Rabs (pieces a b c x - pieces a' b' c' y) <= 3 * e + 2000 * d.
Proof.
  intros Hx Hy He Hd Ea Eb Ec Exy Ba Bb Bc.
  (* first change the constants, then the point *)
  assert (S1 : Rabs (pieces a b c x - pieces a' b' c' x) <= 3 * e).
  { unfold pieces. apply Rabs_le_inv in Ea, Eb, Ec. destruct (Rle_dec x 5).
    - replace (b + (a - b) * (5 - x) / 5 - (b' + (a' - b') * (5 - x) / 5)) with ((b - b') + ((a - a') - (b - b')) * ((5 - x) / 5)) by field.
      assert (0 <= (5 - x) / 5 <= 1) by lra. set (t := (5 - x) / 5) in *.
      assert (Rabs (((a - a') - (b - b')) * t) <= (2 * e) * 1) by (apply Rabs_mult_le; apply Rabs_le; lra).
      apply Rabs_le_inv in H0. apply Rabs_le. lra.
    - replace (b + (c - b) * (x - 5) / 5 - (b' + (c' - b') * (x - 5) / 5)) with ((b - b') + ((c - c') - (b - b')) * ((x - 5) / 5)) by field.
      assert (0 <= (x - 5) / 5 <= 1) by lra. set (t := (x - 5) / 5) in *.
      assert (Rabs (((c - c') - (b - b')) * t) <= (2 * e) * 1) by (apply Rabs_mult_le; apply Rabs_le; lra).
      apply Rabs_le_inv in H0. apply Rabs_le. lra. }
  assert (S2 : Rabs (pieces a' b' c' x - pieces a' b' c' y) <= 2000 * d).
  { unfold pieces. apply Rabs_le_inv in Ba, Bb, Bc.
    assert (M : forall p u v, Rabs p <= 4096 -> Rabs (p * u - p * v) <= 4096 * Rabs (u - v)).
    { intros p u v Hp. rewrite <- Rmult_minus_distr_l, Rabs_mult. apply Rmult_le_compat_r; [apply Rabs_pos|exact Hp]. }
    assert (A1 : Rabs (a' - b') <= 4096) by (apply Rabs_le; lra). assert (A2 : Rabs (c' - b') <= 4096) by (apply Rabs_le; lra).
    destruct (Rle_dec x 5), (Rle_dec y 5).
    - replace (b' + (a' - b') * (5 - x) / 5 - (b' + (a' - b') * (5 - y) / 5)) with (((a' - b') * y - (a' - b') * x) / 5) by field.
      pose proof (M _ y x A1) as M1. rewrite (Rabs_minus_sym y x) in M1. apply Rabs_le_inv in M1. apply Rabs_le. lra.
    - pose proof (M _ 5 x A1) as M1. pose proof (M _ y 5 A2) as M2. apply Rabs_le_inv in Exy.
      rewrite (Rabs_pos_eq (5 - x)) in M1 by lra. rewrite (Rabs_pos_eq (y - 5)) in M2 by lra. apply Rabs_le_inv in M1, M2. apply Rabs_le. lra.
    - pose proof (M _ 5 y A1) as M1. pose proof (M _ x 5 A2) as M2. apply Rabs_le_inv in Exy.
      rewrite (Rabs_pos_eq (5 - y)) in M1 by lra. rewrite (Rabs_pos_eq (x - 5)) in M2 by lra. apply Rabs_le_inv in M1, M2. apply Rabs_le. lra.
    - replace (b' + (c' - b') * (x - 5) / 5 - (b' + (c' - b') * (y - 5) / 5)) with (((c' - b') * x - (c' - b') * y) / 5) by field.
      pose proof (M _ x y A2) as M1. apply Rabs_le_inv in M1. apply Rabs_le. lra. }
  apply Rabs_le_inv in S1, S2. apply Rabs_le. lra.
Qed.

Lemma modded_range m k x : 0 <= x <= 10 -> 0 <= k -> 0 <= modded m k x <= 10.
Proof.
  intros Hx Hk. unfold modded. assert (0 <= (if Z.testbit m bHR then Rmin (x * k) 10 else x) <= 10).
  { destruct (Z.testbit m bHR); [|exact Hx]. assert (0 <= x * k) by (apply Rmult_le_pos; lra). unfold Rmin; destruct (Rle_dec _ _); lra. }
  destruct (Z.testbit m bEZ); lra.
Qed.

Lemma attr_formula m k kr x a b c ra rb rc : base_ok x -> fin k -> 1 <= B2R k <= 2 -> 0 <= kr -> Rabs (B2R k - kr) <= / 1000000000000000 ->
  row a b c ra rb rc -> Rabs ra <= 2048 -> Rabs rb <= 2048 -> Rabs rc <= 2048 ->
  fin (difficulty_rate (adj m k x) a b c) /\
  Rabs (B2R (difficulty_rate (adj m k x) a b c) - pieces ra rb rc (modded m kr (B2R x))) <= / 1000000000.
Proof.
  intros Hx Fk Rk Hkr0 Hkr (Fa & Fb & Fc & Ea & Eb & Ec & Ba & Bb & Bc) Hra Hrb Hrc.
  destruct (adj_R m k x Hx Fk Rk) as [By Vy]. apply base_ok_R in Hx as [Fx Rx]. apply base_ok_R in By as [Fy Ry].
  destruct (rate_R _ a b c Fy Ry Fa Fb Fc Ba Bb Bc) as [F V]. split; [exact F|]. rewrite V.
  pose proof (rateR_err (B2R a) (B2R b) (B2R c) _ Ry Ba Bb Bc) as E1.
  pose proof (adjR_err m (B2R k) kr (B2R x) Rx Rk Hkr) as E2. rewrite <- Vy in E2.
  pose proof (pieces_lip (B2R a) (B2R b) (B2R c) ra rb rc _ _ (/ 10000000000) (/ 10000000000000) Ry (modded_range m kr _ Rx Hkr0) ltac:(lra) ltac:(lra) Ea Eb Ec E2 Hra Hrb Hrc) as E3.
  apply Rabs_le_inv in E1, E3. apply Rabs_le. lra.
Qed.

(** ** monotonicity and ranges of the attributes *)
Lemma adj_mono m k x y : base_ok x -> base_ok y -> fle x y = true -> fin k -> 1 <= B2R k <= 2 -> B2R (adj m k x) <= B2R (adj m k y).
Proof.
  intros Hx Hy Hxy Fk Rk. rewrite (proj2 (adj_R m k x Hx Fk Rk)), (proj2 (adj_R m k y Hy Fk Rk)).
  apply base_ok_R in Hx as [Fx _]. apply base_ok_R in Hy as [Fy _]. apply fle_B2R in Hxy; auto. apply adjR_mono; [lra|exact Hxy].
Qed.
Definition consts (a b c : f64) : Prop := fin a /\ fin b /\ fin c /\
  Rabs (B2R a) <= 2048 /\ Rabs (B2R b) <= 2048 /\ Rabs (B2R c) <= 2048.
Lemma row_consts a b c ra rb rc : row a b c ra rb rc -> consts a b c.
Proof. unfold row, consts. tauto. Qed.
Lemma rate_le x y a b c : base_ok x -> base_ok y -> B2R x <= B2R y -> consts a b c -> B2R c <= B2R b <= B2R a ->
  fle (difficulty_rate y a b c) (difficulty_rate x a b c) = true.
Proof.
  intros Hx Hy Hxy (Fa & Fb & Fc & Ba & Bb & Bc) Ho. apply base_ok_R in Hx as [Fx Rx]. apply base_ok_R in Hy as [Fy Ry].
  destruct (rate_R x a b c) as [F1 V1]; auto. destruct (rate_R y a b c) as [F2 V2]; auto.
  apply fle_B2R; auto. rewrite V1, V2. apply rateR_dec; auto.
Qed.
Lemma rate_ge x y a b c : base_ok x -> base_ok y -> B2R x <= B2R y -> consts a b c -> B2R a <= B2R b <= B2R c ->
  fle (difficulty_rate x a b c) (difficulty_rate y a b c) = true.
Proof.
  intros Hx Hy Hxy (Fa & Fb & Fc & Ba & Bb & Bc) Ho. apply base_ok_R in Hx as [Fx Rx]. apply base_ok_R in Hy as [Fy Ry].
  destruct (rate_R x a b c) as [F1 V1]; auto. destruct (rate_R y a b c) as [F2 V2]; auto.
  apply fle_B2R; auto. rewrite V1, V2. apply rateR_inc; auto.
Qed.
Lemma fle_trans x y z : fle x y = true -> fle y z = true -> fle x z = true.
Proof. rewrite !fle_iff. intros (?&?&?) (?&?&?). repeat split; auto. lra. Qed.
Lemma base_0 : base_ok f0. Proof. split; vm_compute; reflexivity. Qed.
Lemma base_10 : base_ok (fq 10 1). Proof. split; vm_compute; reflexivity. Qed.

Lemma rate_range_dec x a b c : base_ok x -> consts a b c -> B2R c <= B2R b <= B2R a ->
  fle c (difficulty_rate (fq 10 1) a b c) = true -> fle (difficulty_rate f0 a b c) a = true ->
  fle c (difficulty_rate x a b c) = true /\ fle (difficulty_rate x a b c) a = true.
Proof.
  intros Hx Hc Ho H1 H2. destruct (base_ok_R x Hx) as [Fx Rx]. destruct q10 as [F10 V10]. split.
  - eapply fle_trans; [exact H1|]. apply rate_le; auto; [apply base_10|lra].
  - eapply fle_trans; [|exact H2]. apply rate_le; auto; [apply base_0|cbn [B2R f0]; lra].
Qed.
Lemma rate_range_inc x a b c : base_ok x -> consts a b c -> B2R a <= B2R b <= B2R c ->
  fle (difficulty_rate (fq 10 1) a b c) c = true -> fle a (difficulty_rate f0 a b c) = true ->
  fle a (difficulty_rate x a b c) = true /\ fle (difficulty_rate x a b c) c = true.
Proof.
  intros Hx Hc Ho H1 H2. destruct (base_ok_R x Hx) as [Fx Rx]. destruct q10 as [F10 V10]. split.
  - eapply fle_trans; [exact H2|]. apply rate_ge; auto; [apply base_0|cbn [B2R f0]; lra].
  - eapply fle_trans; [|exact H1]. apply rate_ge; auto; [apply base_10|lra].
Qed.
Ltac order a b c := bval a; bval b; bval c; split; lra.
Lemma ord_preempt : B2R (fq 450 1) <= B2R (fq 1200 1) <= B2R (fq 1800 1). Proof. order (fq 450 1) (fq 1200 1) (fq 1800 1). Qed.
Lemma ord_radius : B2R (fq 96 10) <= B2R (fq 32 1) <= B2R (fq 544 10). Proof. order (fq 96 10) (fq 32 1) (fq 544 10). Qed.
Lemma ord_50 : B2R (fq 100 1) <= B2R (fq 150 1) <= B2R (fq 200 1). Proof. order (fq 100 1) (fq 150 1) (fq 200 1). Qed.
Lemma ord_100 : B2R (fq 60 1) <= B2R (fq 100 1) <= B2R (fq 140 1). Proof. order (fq 60 1) (fq 100 1) (fq 140 1). Qed.
Lemma ord_300 : B2R (fq 20 1) <= B2R (fq 50 1) <= B2R (fq 80 1). Proof. order (fq 20 1) (fq 50 1) (fq 80 1). Qed.
Lemma ord_spin : B2R (fq 3 1) <= B2R (fq 5 1) <= B2R (fq 75 10). Proof. order (fq 3 1) (fq 5 1) (fq 75 10). Qed.

(** the attributes of a built difficulty *)
Lemma built_attrs hp cs od ar m sp : let d := built hp cs od ar m sp in
  let cs' := adj m (fq 13 10) cs in let od' := adj m (fq 14 10) od in let ar' := adj m (fq 14 10) ar in
  d_Preempt d = difficulty_rate ar' (fq 1800 1) (fq 1200 1) (fq 450 1) /\
  d_CircleRadius d = difficulty_rate cs' (fq 544 10) (fq 32 1) (fq 96 10) /\
  d_Hit50 d = difficulty_rate od' (fq 200 1) (fq 150 1) (fq 100 1) /\
  d_Hit100 d = difficulty_rate od' (fq 140 1) (fq 100 1) (fq 60 1) /\
  d_Hit300 d = difficulty_rate od' (fq 80 1) (fq 50 1) (fq 20 1) /\
  d_SpinnerRatio d = difficulty_rate od' (fq 3 1) (fq 5 1) (fq 75 10) /\
  d_HPMod d = adj m (fq 14 10) hp /\
  d_Speed d = fdiv (fq 1 1) (modified_time m sp (fq 1 1)) /\
  d_ARReal d = diff_from_rate (modified_time m sp (d_Preempt d)) (fq 1800 1) (fq 1200 1) (fq 450 1) /\
  d_ODReal d = diff_from_rate (modified_time m sp (d_Hit300 d)) (fq 80 1) (fq 50 1) (fq 20 1).
Proof. cbn zeta. rewrite built_eq. unfold calculate, get_modified_time, adj. cbn [d_Preempt d_CircleRadius d_Hit50 d_Hit100 d_Hit300 d_SpinnerRatio d_HPMod d_Speed d_ARReal d_ODReal d_Mods d_CustomSpeed d_ar d_cs d_od d_hp]. repeat split. Qed.

Lemma adj_ok m k x : base_ok x -> fin k -> 1 <= B2R k <= 2 -> base_ok (adj m k x).
Proof. intros. now apply adj_R. Qed.
Lemma adj14 m x : base_ok x -> base_ok (adj m (fq 14 10) x).
Proof. intros. destruct k14 as (F & R & _). now apply adj_ok. Qed.
Lemma adj13 m x : base_ok x -> base_ok (adj m (fq 13 10) x).
Proof. intros. destruct k13 as (F & R & _). now apply adj_ok. Qed.

Lemma attrs_range hp cs od ar m sp : base_ok cs -> base_ok od -> base_ok ar ->
  let d := built hp cs od ar m sp in
  (fle (fq 96 10) (d_CircleRadius d) = true /\ fle (d_CircleRadius d) (fq 544 10) = true) /\
  (fle (fq 450 1) (d_Preempt d) = true /\ fle (d_Preempt d) (fq 1800 1) = true) /\
  (fle (fq 20 1) (d_Hit300 d) = true /\ fle (d_Hit300 d) (fq 80 1) = true) /\
  (fle (fq 60 1) (d_Hit100 d) = true /\ fle (d_Hit100 d) (fq 140 1) = true) /\
  (fle (fq 100 1) (d_Hit50 d) = true /\ fle (d_Hit50 d) (fq 200 1) = true) /\
  (fle (fq 3 1) (d_SpinnerRatio d) = true /\ fle (d_SpinnerRatio d) (fq 75 10) = true).
Proof.
  intros Hcs Hod Har d. destruct (built_attrs hp cs od ar m sp) as (E1 & E2 & E3 & E4 & E5 & E6 & _). fold d in E1, E2, E3, E4, E5, E6.
  rewrite E1, E2, E3, E4, E5, E6.
  split; [|split; [|split; [|split; [|split]]]].
  - apply rate_range_dec; [now apply adj13|exact (row_consts _ _ _ _ _ _ row_radius)|exact ord_radius|vm_compute; reflexivity|vm_compute; reflexivity].
  - apply rate_range_dec; [now apply adj14|exact (row_consts _ _ _ _ _ _ row_preempt)|exact ord_preempt|vm_compute; reflexivity|vm_compute; reflexivity].
  - apply rate_range_dec; [now apply adj14|exact (row_consts _ _ _ _ _ _ row_300)|exact ord_300|vm_compute; reflexivity|vm_compute; reflexivity].
  - apply rate_range_dec; [now apply adj14|exact (row_consts _ _ _ _ _ _ row_100)|exact ord_100|vm_compute; reflexivity|vm_compute; reflexivity].
  - apply rate_range_dec; [now apply adj14|exact (row_consts _ _ _ _ _ _ row_50)|exact ord_50|vm_compute; reflexivity|vm_compute; reflexivity].
  - apply rate_range_inc; [now apply adj14|exact (row_consts _ _ _ _ _ _ row_spin)|exact ord_spin|vm_compute; reflexivity|vm_compute; reflexivity].
Qed.

(** ** DiffFromRate *)
Lemma dfr_err a b c r v1 v2 y : fin a -> fin b -> fin c -> fin r ->
  B2R (fdiv (fsub a b) (fq 5 1)) = v1 -> B2R (fdiv (fsub b c) (fq 5 1)) = v2 -> fin (fdiv (fsub a b) (fq 5 1)) -> fin (fdiv (fsub b c) (fq 5 1)) ->
  (v1 = 120 /\ v2 = 150 /\ B2R b = 1200 \/ v1 = 6 /\ v2 = 6 /\ B2R b = 50) -> B2R a = B2R b + 5 * v1 -> B2R c = B2R b - 5 * v2 ->
  0 <= B2R r <= 2048 -> 0 <= y <= 10 ->
  Rabs (B2R r - pieces (B2R a) (B2R b) (B2R c) y) <= v1 * / 10000000000000 ->
  fin (diff_from_rate r a b c) /\ Rabs (B2R (diff_from_rate r a b c) - y) <= / 1000000000000 * (7 / 10).
Proof.
  intros Fa Fb Fc Fr V1 V2 F1 F2 Hv Ea Ec Hr Hy Hp. unfold diff_from_rate. destruct q5 as [F5 V5].
  rewrite fgt_bool by assumption.
  set (s1 := fdiv (fsub a b) (fq 5 1)) in *. set (s2 := fdiv (fsub b c) (fq 5 1)) in *. cbn zeta.
  destruct (Rlt_bool_spec (B2R b) (B2R r)) as [C|C].
  - destruct (fsub_fin r a Fr Fa) as [G1 W1]; [apply small_1023, Rabs_le; destruct Hv as [(?&?&?)|(?&?&?)]; lra|].
    assert (Q0 : Rabs (B2R r - B2R a) <= bpow radix2 11) by (change (bpow radix2 11) with 2048; apply Rabs_le; destruct Hv as [(?&?&?)|(?&?&?)]; lra).
    pose proof (rnd64_err _ 11 ltac:(lia) Q0) as Q1. change (bpow radix2 (11 - 53)) with (/ 4398046511104) in Q1.
    pose proof (rnd64_bpow _ 11 ltac:(lia) Q0) as Q2. change (bpow radix2 11) with 2048 in Q2.
    rewrite <- W1 in Q1, Q2. destruct (fneg_fin _ G1) as [G2 W2].
    assert (Q3 : Rabs (- B2R (fsub r a) / v1) <= 512).
    { apply Rabs_le_inv in Q2. apply Rabs_le. destruct Hv as [(->&?&?)|(->&?&?)]; lra. }
    destruct (fdiv_fin (fneg (fsub r a)) s1 G2 F1) as [G3 W3].
    { rewrite V1. destruct Hv as [(->&?&?)|(->&?&?)]; lra. }
    { rewrite V1, W2. apply small_1023. lra. }
    split; [exact G3|]. rewrite W3, V1, W2.
    pose proof (rnd64_err _ 9 ltac:(lia) Q3) as Q4. change (bpow radix2 (9 - 53)) with (/ 17592186044416) in Q4.
    apply Rabs_le_inv in Q1, Q4, Hp. apply Rabs_le. clear Q0 Q2 Q3 W1 W2 W3 G1 G2 G3.
    unfold pieces in Hp. destruct Hv as [(->&->&Eb)|(->&->&Eb)]; rewrite Eb in *; rewrite Ea in *; rewrite Ec in *; destruct (Rle_dec y 5); lra.
  - destruct (fsub_fin r b Fr Fb) as [G1 W1]; [apply small_1023, Rabs_le; destruct Hv as [(?&?&?)|(?&?&?)]; lra|].
    assert (Q0 : Rabs (B2R r - B2R b) <= bpow radix2 11) by (change (bpow radix2 11) with 2048; apply Rabs_le; destruct Hv as [(?&?&?)|(?&?&?)]; lra).
    pose proof (rnd64_err _ 11 ltac:(lia) Q0) as Q1. change (bpow radix2 (11 - 53)) with (/ 4398046511104) in Q1.
    pose proof (rnd64_bpow _ 11 ltac:(lia) Q0) as Q2. change (bpow radix2 11) with 2048 in Q2.
    rewrite <- W1 in Q1, Q2.
    assert (Q3 : Rabs (B2R (fsub r b) / v2) <= 512).
    { apply Rabs_le_inv in Q2. apply Rabs_le. destruct Hv as [(?&->&?)|(?&->&?)]; lra. }
    destruct (fdiv_fin (fsub r b) s2 G1 F2) as [G3 W3].
    { rewrite V2. destruct Hv as [(?&->&?)|(?&->&?)]; lra. }
    { rewrite V2. apply small_1023. lra. }
    pose proof (rnd64_err _ 9 ltac:(lia) Q3) as Q4. change (bpow radix2 (9 - 53)) with (/ 17592186044416) in Q4.
    pose proof (rnd64_bpow _ 9 ltac:(lia) Q3) as Q5. change (bpow radix2 9) with 512 in Q5.
    rewrite V2 in W3. rewrite <- W3 in Q4, Q5.
    assert (Q6 : Rabs (5 - B2R (fdiv (fsub r b) s2)) <= 1024) by (apply Rabs_le_inv in Q5; apply Rabs_le; lra).
    destruct (fsub_fin (fq 5 1) _ F5 G3) as [G4 W4]; [rewrite V5; apply small_1023; lra|].
    split; [exact G4|]. rewrite V5 in W4. rewrite W4.
    pose proof (rnd64_err _ 10 ltac:(lia) Q6) as Q7. change (bpow radix2 (10 - 53)) with (/ 8796093022208) in Q7.
    apply Rabs_le_inv in Q1, Q4, Q7, Hp. apply Rabs_le. clear Q0 Q2 Q3 Q5 Q6 W1 W3 W4 G1 G3 G4.
    unfold pieces in Hp. destruct Hv as [(->&->&Eb)|(->&->&Eb)]; rewrite Eb in *; rewrite Ea in *; rewrite Ec in *; destruct (Rle_dec y 5); lra.
Qed.

Lemma dt_bit m : mactive m DoubleTime = Z.testbit m bDT. Proof. apply (mactive_bit m 6). lia. Qed.
Lemma ht_bit m : mactive m HalfTime = Z.testbit m bHT. Proof. apply (mactive_bit m 8). lia. Qed.

Lemma div1 x : fin x -> Rabs (B2R x) <= 2048 -> fin (fdiv x (fq 1 1)) /\ B2R (fdiv x (fq 1 1)) = B2R x.
Proof.
  intros F B. destruct (fq1_exact 1 ltac:(vm_compute; discriminate)) as [F1 V1].
  destruct (fdiv_fin x (fq 1 1) F F1) as [G W]; [lra|rewrite V1, Rdiv_1; apply small_1023; lra|].
  split; [exact G|]. rewrite W, V1, Rdiv_1. apply rnd64_id.
Qed.
Lemma modded_err_ar m x : base_ok x -> Rabs (B2R (adj m (fq 14 10) x) - modded m (7/5) (B2R x)) <= / 10000000000000.
Proof.
  intros Hx. destruct k14 as (F & R & E). rewrite (proj2 (adj_R m _ x Hx F R)). apply base_ok_R in Hx as [_ Rx]. now apply adjR_err.
Qed.

Lemma real_ar_od hp cs od ar m : base_ok od -> base_ok ar -> Z.testbit m bDT = false -> Z.testbit m bHT = false ->
  let d := built hp cs od ar m (fq 1 1) in
  (fin (d_ARReal d) /\ Rabs (B2R (d_ARReal d) - modded m (7/5) (B2R ar)) <= / 1000000000000) /\
  (fin (d_ODReal d) /\ Rabs (B2R (d_ODReal d) - modded m (7/5) (B2R od)) <= / 1000000000000).
Proof.
  intros Hod Har Hdt Hht d. destruct (built_attrs hp cs od ar m (fq 1 1)) as (E1 & _ & _ & _ & E5 & _ & _ & _ & E9 & E10).
  fold d in E1, E5, E9, E10. rewrite E9, E10, E5, E1. unfold modified_time. rewrite dt_bit, ht_bit, Hdt, Hht.
  split.
  - pose proof (adj14 m ar Har) as Hy. apply base_ok_R in Hy as [Fy Ry]. pose proof (modded_err_ar m ar Har) as Em.
    set (y := adj m (fq 14 10) ar) in *.
    destruct row_preempt as (Fa & Fb & Fc & _ & _ & _ & Ba & Bb & Bc).
    destruct (rate_R y _ _ _ Fy Ry Fa Fb Fc Ba Bb Bc) as [F V]. set (p := difficulty_rate y _ _ _) in *.
    pose proof (rateR_err_k 11 _ _ _ _ ltac:(lia) Ry Ba Bb Bc) as Er. rewrite <- V in Er. change (bpow radix2 11) with 2048 in Er.
    destruct (fq1_exact 1800 ltac:(vm_compute; discriminate)) as [_ V1800]. destruct (fq1_exact 1200 ltac:(vm_compute; discriminate)) as [_ V1200].
    destruct (fq1_exact 450 ltac:(vm_compute; discriminate)) as [_ V450].
    assert (Rp : 0 <= B2R p <= 2048).
    { apply Rabs_le_inv in Er. unfold pieces in Er. rewrite V1800, V1200, V450 in Er. destruct (Rle_dec (B2R y) 5); lra. }
    destruct (div1 p F) as [Fp Vp]; [apply Rabs_le; lra|].
    bval (fdiv (fsub (fq 1800 1) (fq 1200 1)) (fq 5 1)). bval (fdiv (fsub (fq 1200 1) (fq 450 1)) (fq 5 1)).
    assert (W1 : B2R (fdiv (fsub (fq 1800 1) (fq 1200 1)) (fq 5 1)) = 120) by lra.
    assert (W2 : B2R (fdiv (fsub (fq 1200 1) (fq 450 1)) (fq 5 1)) = 150) by lra.
    assert (G1 : fin (fdiv (fsub (fq 1800 1) (fq 1200 1)) (fq 5 1))) by (vm_compute; reflexivity).
    assert (G2 : fin (fdiv (fsub (fq 1200 1) (fq 450 1)) (fq 5 1))) by (vm_compute; reflexivity).
    destruct (dfr_err (fq 1800 1) (fq 1200 1) (fq 450 1) (fdiv p (fq 1 1)) 120 150 (B2R y) Fa Fb Fc Fp W1 W2 G1 G2) as [G W].
    + left. rewrite V1200. repeat split; reflexivity.
    + lra.
    + lra.
    + lra.
    + lra.
    + rewrite Vp. eapply Rle_trans; [exact Er|]. lra.
    + split; [exact G|]. apply Rabs_le_inv in W, Em. apply Rabs_le. lra.
  - pose proof (adj14 m od Hod) as Hy. apply base_ok_R in Hy as [Fy Ry]. pose proof (modded_err_ar m od Hod) as Em.
    set (y := adj m (fq 14 10) od) in *.
    destruct row_300 as (Fa & Fb & Fc & _ & _ & _ & Ba & Bb & Bc).
    destruct (rate_R y _ _ _ Fy Ry Fa Fb Fc Ba Bb Bc) as [F V]. set (p := difficulty_rate y _ _ _) in *.
    destruct (fq1_exact 80 ltac:(vm_compute; discriminate)) as [_ V1800]. destruct (fq1_exact 50 ltac:(vm_compute; discriminate)) as [_ V1200].
    destruct (fq1_exact 20 ltac:(vm_compute; discriminate)) as [_ V450].
    pose proof (rateR_err_k 7 (B2R (fq 80 1)) (B2R (fq 50 1)) (B2R (fq 20 1)) _ ltac:(lia) Ry) as Er. rewrite <- V in Er. change (bpow radix2 7) with 128 in Er.
    rewrite V1800, V1200, V450 in Er. specialize (Er ltac:(apply Rabs_le; lra) ltac:(apply Rabs_le; lra) ltac:(apply Rabs_le; lra)).
    assert (Rp : 0 <= B2R p <= 2048).
    { apply Rabs_le_inv in Er. unfold pieces in Er. destruct (Rle_dec (B2R y) 5); lra. }
    destruct (div1 p F) as [Fp Vp]; [apply Rabs_le; lra|].
    bval (fdiv (fsub (fq 80 1) (fq 50 1)) (fq 5 1)). bval (fdiv (fsub (fq 50 1) (fq 20 1)) (fq 5 1)).
    assert (W1 : B2R (fdiv (fsub (fq 80 1) (fq 50 1)) (fq 5 1)) = 6) by lra.
    assert (W2 : B2R (fdiv (fsub (fq 50 1) (fq 20 1)) (fq 5 1)) = 6) by lra.
    assert (G1 : fin (fdiv (fsub (fq 80 1) (fq 50 1)) (fq 5 1))) by (vm_compute; reflexivity).
    assert (G2 : fin (fdiv (fsub (fq 50 1) (fq 20 1)) (fq 5 1))) by (vm_compute; reflexivity).
    destruct (dfr_err (fq 80 1) (fq 50 1) (fq 20 1) (fdiv p (fq 1 1)) 6 6 (B2R y) Fa Fb Fc Fp W1 W2 G1 G2) as [G W].
    + right. rewrite V1200. repeat split; reflexivity.
    + lra.
    + lra.
    + lra.
    + lra.
    + rewrite Vp, V1800, V1200, V450. eapply Rle_trans; [exact Er|]. lra.
    + split; [exact G|]. apply Rabs_le_inv in W, Em. apply Rabs_le. lra.
Qed.

Lemma attrs_formula hp cs od ar m sp : base_ok hp -> base_ok cs -> base_ok od -> base_ok ar ->
  let d := built hp cs od ar m sp in
  let CS := modded m (13/10) (B2R cs) in let OD := modded m (7/5) (B2R od) in let AR := modded m (7/5) (B2R ar) in
  within (d_Preempt d) (pieces 1800 1200 450 AR) /\
  within (d_CircleRadius d) (pieces (544/10) 32 (96/10) CS) /\
  within (d_Hit50 d) (pieces 200 150 100 OD) /\
  within (d_Hit100 d) (pieces 140 100 60 OD) /\
  within (d_Hit300 d) (pieces 80 50 20 OD) /\
  within (d_SpinnerRatio d) (pieces 3 5 (15/2) OD) /\
  within (d_HPMod d) (modded m (7/5) (B2R hp)).
Proof.
  intros Hhp Hcs Hod Har d CS OD AR. destruct (built_attrs hp cs od ar m sp) as (E1 & E2 & E3 & E4 & E5 & E6 & E7 & _).
  fold d in E1, E2, E3, E4, E5, E6, E7. rewrite E1, E2, E3, E4, E5, E6, E7.
  destruct k14 as (F14 & R14 & D14). destruct k13 as (F13 & R13 & D13). unfold within.
  split; [|split; [|split; [|split; [|split; [|split]]]]].
  - apply (attr_formula m _ (7/5) ar _ _ _ 1800 1200 450 Har F14 R14 ltac:(lra) D14 row_preempt); apply Rabs_le; lra.
  - apply (attr_formula m _ (13/10) cs _ _ _ (544/10) 32 (96/10) Hcs F13 R13 ltac:(lra) D13 row_radius); apply Rabs_le; lra.
  - apply (attr_formula m _ (7/5) od _ _ _ 200 150 100 Hod F14 R14 ltac:(lra) D14 row_50); apply Rabs_le; lra.
  - apply (attr_formula m _ (7/5) od _ _ _ 140 100 60 Hod F14 R14 ltac:(lra) D14 row_100); apply Rabs_le; lra.
  - apply (attr_formula m _ (7/5) od _ _ _ 80 50 20 Hod F14 R14 ltac:(lra) D14 row_300); apply Rabs_le; lra.
  - apply (attr_formula m _ (7/5) od _ _ _ 3 5 (15/2) Hod F14 R14 ltac:(lra) D14 row_spin); apply Rabs_le; lra.
  - pose proof (modded_err_ar m hp Hhp) as Em. pose proof (adj14 m hp Hhp) as Hy. apply base_ok_R in Hy as [Fy _]. split; [exact Fy|]. lra.
Qed.
Lemma windows_order hp cs od ar m sp : base_ok od ->
  let d := built hp cs od ar m sp in flt (d_Hit300 d) (d_Hit100 d) = true /\ flt (d_Hit100 d) (d_Hit50 d) = true.
Proof.
  intros Hod d. destruct (built_attrs hp cs od ar m sp) as (_ & _ & E3 & E4 & E5 & _).
  fold d in E3, E4, E5. rewrite E3, E4, E5.
  destruct k14 as (F14 & R14 & D14).
  destruct (attr_formula m _ (7/5) od _ _ _ 200 150 100 Hod F14 R14 ltac:(lra) D14 row_50) as [G1 W1]; try (apply Rabs_le; lra).
  destruct (attr_formula m _ (7/5) od _ _ _ 140 100 60 Hod F14 R14 ltac:(lra) D14 row_100) as [G2 W2]; try (apply Rabs_le; lra).
  destruct (attr_formula m _ (7/5) od _ _ _ 80 50 20 Hod F14 R14 ltac:(lra) D14 row_300) as [G3 W3]; try (apply Rabs_le; lra).
  apply base_ok_R in Hod as [_ Ro]. pose proof (modded_range m (7/5) _ Ro ltac:(lra)) as Rm. set (o := modded m (7/5) (B2R od)) in *.
  apply Rabs_le_inv in W1, W2, W3. unfold pieces in *.
  split; apply flt_B2R; auto; destruct (Rle_dec o 5); lra.
Qed.
Lemma mono_attrs hp cs od ar cs' od' ar' m sp : base_ok cs -> base_ok od -> base_ok ar -> base_ok cs' -> base_ok od' -> base_ok ar' ->
  fle cs cs' = true -> fle od od' = true -> fle ar ar' = true ->
  let d := built hp cs od ar m sp in let d' := built hp cs' od' ar' m sp in
  fle (d_CircleRadius d') (d_CircleRadius d) = true /\ fle (d_Preempt d') (d_Preempt d) = true /\
  fle (d_Hit300 d') (d_Hit300 d) = true /\ fle (d_Hit100 d') (d_Hit100 d) = true /\ fle (d_Hit50 d') (d_Hit50 d) = true /\
  fle (d_SpinnerRatio d) (d_SpinnerRatio d') = true.
Proof.
  intros Hcs Hod Har Hcs' Hod' Har' Lc Lo La d d'.
  destruct (built_attrs hp cs od ar m sp) as (E1 & E2 & E3 & E4 & E5 & E6 & _). fold d in E1, E2, E3, E4, E5, E6.
  destruct (built_attrs hp cs' od' ar' m sp) as (D1 & D2 & D3 & D4 & D5 & D6 & _). fold d' in D1, D2, D3, D4, D5, D6.
  rewrite E1, E2, E3, E4, E5, E6, D1, D2, D3, D4, D5, D6.
  destruct k14 as (F14 & R14 & _). destruct k13 as (F13 & R13 & _).
  pose proof (adj_mono m _ _ _ Hcs Hcs' Lc F13 R13) as Mc. pose proof (adj_mono m _ _ _ Hod Hod' Lo F14 R14) as Mo.
  pose proof (adj_mono m _ _ _ Har Har' La F14 R14) as Ma.
  pose proof (adj13 m _ Hcs). pose proof (adj13 m _ Hcs'). pose proof (adj14 m _ Hod). pose proof (adj14 m _ Hod').
  pose proof (adj14 m _ Har). pose proof (adj14 m _ Har').
  split; [|split; [|split; [|split; [|split]]]].
  - exact (rate_le _ _ _ _ _ H H0 Mc (row_consts _ _ _ _ _ _ row_radius) ord_radius).
  - exact (rate_le _ _ _ _ _ H3 H4 Ma (row_consts _ _ _ _ _ _ row_preempt) ord_preempt).
  - exact (rate_le _ _ _ _ _ H1 H2 Mo (row_consts _ _ _ _ _ _ row_300) ord_300).
  - exact (rate_le _ _ _ _ _ H1 H2 Mo (row_consts _ _ _ _ _ _ row_100) ord_100).
  - exact (rate_le _ _ _ _ _ H1 H2 Mo (row_consts _ _ _ _ _ _ row_50) ord_50).
  - exact (rate_ge _ _ _ _ _ H1 H2 Mo (row_consts _ _ _ _ _ _ row_spin) ord_spin).
Qed.
(** harder mods *)
Definition adj_le m m' : Prop := forall k x, base_ok x -> fin k -> 1 <= B2R k <= 2 -> B2R (adj m k x) <= B2R (adj m' k x).
Lemma hr_adj_le m m' : Z.testbit m bHR = false -> Z.testbit m' bHR = true -> Z.testbit m bEZ = Z.testbit m' bEZ -> adj_le m m'.
Proof.
  intros H1 H2 H3 k x Hx Fk Rk. rewrite (proj2 (adj_R m k x Hx Fk Rk)), (proj2 (adj_R m' k x Hx Fk Rk)), H1, H2, H3.
  apply base_ok_R in Hx as [_ Rx]. apply adjR_hr_ge; lra.
Qed.
Lemma ez_adj_le m m' : Z.testbit m bEZ = false -> Z.testbit m' bEZ = true -> Z.testbit m bHR = Z.testbit m' bHR -> adj_le m' m.
Proof.
  intros H1 H2 H3 k x Hx Fk Rk. destruct (adj_R m k x Hx Fk Rk) as [O V]. rewrite V, (proj2 (adj_R m' k x Hx Fk Rk)), H1, H2, H3.
  apply base_ok_R in O as [_ Ro]. apply adjR_ez_le with (y := adj m k x); [|lra]. rewrite V, H1, H3. reflexivity.
Qed.
Lemma harder_attrs hp cs od ar m m' sp sp' : base_ok cs -> base_ok od -> base_ok ar -> adj_le m m' ->
  let d := built hp cs od ar m sp in let d' := built hp cs od ar m' sp' in
  fle (d_CircleRadius d') (d_CircleRadius d) = true /\ fle (d_Preempt d') (d_Preempt d) = true /\
  fle (d_Hit300 d') (d_Hit300 d) = true /\ fle (d_Hit100 d') (d_Hit100 d) = true /\ fle (d_Hit50 d') (d_Hit50 d) = true.
Proof.
  intros Hcs Hod Har L d d'.
  destruct (built_attrs hp cs od ar m sp) as (E1 & E2 & E3 & E4 & E5 & _). fold d in E1, E2, E3, E4, E5.
  destruct (built_attrs hp cs od ar m' sp') as (D1 & D2 & D3 & D4 & D5 & _). fold d' in D1, D2, D3, D4, D5.
  rewrite E1, E2, E3, E4, E5, D1, D2, D3, D4, D5.
  destruct k14 as (F14 & R14 & _). destruct k13 as (F13 & R13 & _).
  pose proof (L _ _ Hcs F13 R13) as Mc. pose proof (L _ _ Hod F14 R14) as Mo. pose proof (L _ _ Har F14 R14) as Ma.
  pose proof (adj13 m _ Hcs). pose proof (adj13 m' _ Hcs). pose proof (adj14 m _ Hod). pose proof (adj14 m' _ Hod).
  pose proof (adj14 m _ Har). pose proof (adj14 m' _ Har).
  split; [|split; [|split; [|split]]].
  - exact (rate_le _ _ _ _ _ H H0 Mc (row_consts _ _ _ _ _ _ row_radius) ord_radius).
  - exact (rate_le _ _ _ _ _ H3 H4 Ma (row_consts _ _ _ _ _ _ row_preempt) ord_preempt).
  - exact (rate_le _ _ _ _ _ H1 H2 Mo (row_consts _ _ _ _ _ _ row_300) ord_300).
  - exact (rate_le _ _ _ _ _ H1 H2 Mo (row_consts _ _ _ _ _ _ row_100) ord_100).
  - exact (rate_le _ _ _ _ _ H1 H2 Mo (row_consts _ _ _ _ _ _ row_50) ord_50).
Qed.
Lemma speed_value hp cs od ar m : 
  feq (d_Speed (built hp cs od ar m (fq 1 1)))
    (if Z.testbit m bDT then fq 3 2 else if Z.testbit m bHT then fq 3 4 else fq 1 1) = true.
Proof.
  destruct (built_attrs hp cs od ar m (fq 1 1)) as (_ & _ & _ & _ & _ & _ & _ & -> & _).
  unfold modified_time. rewrite dt_bit, ht_bit. destruct (Z.testbit m bDT); [vm_compute; reflexivity|].
  destruct (Z.testbit m bHT); vm_compute; reflexivity.
Qed.
Lemma calls_any l d : l <> [] -> fold_left call l d =
  built (last_given g_hp l (d_hp d)) (last_given g_cs l (d_cs d)) (last_given g_od l (d_od d)) (last_given g_ar l (d_ar d))
        (last_given g_mods l (d_Mods d)) (last_given g_speed l (d_CustomSpeed d)).
Proof.
  destruct l as [|s l]; [congruence|]. intros _. cbn [fold_left].
  assert (call d s = call (built (d_hp d) (d_cs d) (d_od d) (d_ar d) (d_Mods d) (d_CustomSpeed d)) s) as ->.
  { destruct s; cbn [call]; unfold set_hp, set_cs, set_od, set_ar, set_mods, set_custom_speed; rewrite ?built_eq; apply calculate_ext; reflexivity. }
  exact (calls_built (s :: l) _ _ _ _ _ _).
Qed.

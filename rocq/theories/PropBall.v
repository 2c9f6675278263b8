(** C102: where the ball of a slider is. *)
From Coq Require Import Reals Lra ZArith Lia Bool.
From Flocq Require Import Core BinarySingleNaN.
From Verif Require Import GoBase GoFloat Objects Curves SpecCurves SpecArc SpecLength SpecShape SpecBezier SpecBall SpecSane BaseLemmas FloatLemmas Float32Lemmas KeyLemmas BoundLemmas CurveBounds CurveProofs CurveStart LengthProofs BallProofs ValueBounds PathBounds PropCurves PropTerm PropLength PropShape PropBezier.
From Coq Require Import List.
Import ListNotations.
Open Scope R_scope.

(** How far from the curve: coordinates and lengths up to 2^m. *)
Definition ball_error (m : Z) : R := bpow radix2 (-12) + bpow radix2 (m - 18).

Section WithLibm.
Context {M : libm}.
(** A curve before and after it is given a length, of ordinary size. *)
Definition sized (m : Z) (mc : multicurve) (len : f64) : Prop :=
  (Z.of_nat (length (mc_lines mc)) <= 2 ^ 19)%Z /\ Forall (fun l => within m (ln_p1 l) /\ within m (ln_p2 l)) (mc_lines mc) /\ Forall not_tiny (mc_lines mc) /\
  path_length (mc_lines mc) <= bpow radix2 m /\ ggt (mc_length mc) g0 = true /\ is_finite len = true /\ 0 <= B2R len <= bpow radix2 m /\
  (ends_open (mc_lines mc) \/ B2R len <= B2R (mc_length mc)).
(** PointAt(t) is beside a line of the curve, and the way there along the curve
    is the fraction t of the length asked for.  Only the last line is prolonged,
    and only when more length is asked for than there is. *)
Theorem C102_walk : forall fuel typ pts len mc mc' m t, new_multicurve fuel typ pts = Ok mc -> new_multicurve_t fuel typ pts len = Ok mc' ->
  (0 <= m <= 28)%Z -> sized m mc len -> is_finite t = true ->
  exists q, mc_point_at mc' t = Ok q /\ (q = mc_first mc /\ geq (mc_length mc') g0 = true \/
    exists i l s, nth_error (mc_lines mc) i = Some l /\ 0 <= s /\ beside (ball_error m) l s q /\
      (1 < s -> B2R (mc_length mc) < B2R len /\ S i = length (mc_lines mc)) /\
      Rabs (walked (mc_lines mc) i l s - fraction (B2R t) * B2R len) <= 4 * length_error m (length (mc_lines mc))).
Proof.
  intros fuel typ pts len mc mc' m t E1 E2 Hm (HN & HB & HT & HP & G & FL & BL & OR) Ft.
  destruct (C30_lookups mc' t) as ((q & Q) & _). { unfold made. eauto 6. }
  exists q. split; [exact Q|]. unfold new_multicurve_t in E2. rewrite E1 in E2. cbn [bind] in E2. rewrite G in E2. apply Ok_inj in E2. subst mc'. cbn [mc_length finish_curve].
  assert (TL : mc_length mc = total_length (mc_lines mc)).
  { unfold new_multicurve in E1. destruct (curve_lines fuel typ pts) as [ls| |]; try discriminate. destruct pts as [|p ps]; [discriminate|]. apply Ok_inj in E1. subst mc. reflexivity. }
  rewrite TL in *. set (ls := mc_lines mc) in *.
  assert (EE : length_error m (length ls) = ((INR (length ls) + 16) * (4 * zed m) + bpow radix2 (-13))%R).
  { unfold length_error, zed, big, unit24. replace (m - 22)%Z with (m + (-24) + 2)%Z by lia. rewrite !bpow_plus. change (bpow radix2 2) with 4%R. ring. }
  assert (EB : ball_error m = bpow radix2 (-12) + 64 * zed m).
  { unfold ball_error, zed, big, unit24. replace (m - 18)%Z with (m + (-24) + 6)%Z by lia. rewrite !bpow_plus. change (bpow radix2 6) with 64%R. ring. }
  rewrite EE, EB. apply (trimmed_on m ls len (mc_first mc) t q); auto.
  destruct OR as [O|O]; [left|right; exact O]. split; [exact O|]. intros Z. rewrite Z in G. revert G. vm_compute. discriminate.
Qed.
(** So at every time: the ball has gone from the start of the curve the length
    of the slider times the distance from the nearest even number (2k) of the
    number of spans gone by. *)
Theorem C102_ball : forall fuel typ pts len mc m o sd time k, new_multicurve fuel typ pts = Ok mc -> ho_kind o = KSlider sd -> new_multicurve_t fuel typ pts len = Ok (sl_curve sd) ->
  (0 <= m <= 28)%Z -> sized m mc len -> time_upto (ho_start o) -> time_upto (ho_end o) -> time_upto time -> B2R (ho_start o) < B2R (ho_end o) ->
  is_finite (sl_span sd) = true -> bpow radix2 (-100) <= B2R (sl_span sd) ->
  let x := (Rmax (B2R (ho_start o)) (Rmin (B2R (ho_end o)) (B2R time)) - B2R (ho_start o)) / B2R (sl_span sd) in Rabs (x - 2 * IZR k) <= 1 ->
  exists q, position_at o time = Ok q /\ (q = mc_first mc /\ geq (mc_length (sl_curve sd)) g0 = true \/
    exists i l s, nth_error (mc_lines mc) i = Some l /\ 0 <= s /\ beside (ball_error m) l s q /\
      (1 < s -> B2R (mc_length mc) < B2R len /\ S i = length (mc_lines mc)) /\
      Rabs (walked (mc_lines mc) i l s - Rabs (x - 2 * IZR k) * B2R len) <=
        4 * length_error m (length (mc_lines mc)) + B2R len * (x * bpow radix2 (-51) + bpow radix2 (-23))).
Proof.
  intros fuel typ pts len mc m o sd time k E1 HK E2 Hm SZ TS TE TT LT FS BS x HX.
  destruct (C75_progress _ _ (sl_span sd) _ TS TE TT ltac:(lra) FS BS) as (p & P0 & PX & FP & VP). cbv zeta in PX. fold x in PX.
  (* the even number nearest to p *)
  assert (KP : exists j, Rabs (p - 2 * IZR j) <= 1).
  { exists (Zfloor ((p + 1) / 2)). pose proof (Zfloor_lb ((p + 1) / 2)) as A. pose proof (Zfloor_ub ((p + 1) / 2)) as B. apply Rabs_le. lra. }
  destruct KP as (j & HJ). pose proof (VP j HJ) as VJ. clear VP.
  assert (MIN : forall y a b, Rabs (y - 2 * IZR a) <= 1 -> Rabs (y - 2 * IZR a) <= Rabs (y - 2 * IZR b)).
  { intros y a b A. destruct (Z.eq_dec a b) as [->|N]; [lra|]. assert (D : (a - b <= -1 \/ 1 <= a - b)%Z) by lia. destruct D as [D|D]; apply IZR_le in D; rewrite minus_IZR in D; apply Rabs_le_inv in A; apply Rle_trans with 1; [apply Rabs_le; lra| |apply Rabs_le; lra|].
    - rewrite <- Rabs_Ropp. apply Rle_trans with (2 := Rle_abs _). lra.
    - apply Rle_trans with (2 := Rle_abs _). lra. }
  assert (LIP : Rabs (Rabs (p - 2 * IZR j) - Rabs (x - 2 * IZR k)) <= Rabs (p - x)).
  { pose proof (MIN p j k HJ) as M1. pose proof (MIN x k j HX) as M2.
    assert (T1 : Rabs (p - 2 * IZR k) <= Rabs (p - x) + Rabs (x - 2 * IZR k)) by (replace (p - 2 * IZR k) with ((p - x) + (x - 2 * IZR k)) by ring; apply Rabs_triang).
    assert (T2 : Rabs (x - 2 * IZR j) <= Rabs (p - x) + Rabs (p - 2 * IZR j)) by (rewrite (Rabs_minus_sym p x); replace (x - 2 * IZR j) with ((x - p) + (p - 2 * IZR j)) by ring; apply Rabs_triang).
    apply Rabs_le. lra. }
  set (pr := slider_progress (ho_start o) (ho_end o) (sl_span sd) time) in *. assert (RP : 0 <= B2R pr <= 1) by (rewrite VJ; split; [apply Rabs_pos|exact HJ]).
  assert (A1 : Rabs (B2R pr) <= 1) by (rewrite Rabs_pos_eq; lra).
  destruct (g_of_f_fin pr FP) as [FG VG]; [apply Rle_trans with (1 := A1); change 1 with (bpow radix2 0); apply bpow_le; lia|].
  assert (RG : 0 <= B2R (g_of_f pr) <= 1). { rewrite VG. split; [apply rnd32_pos; lra|]. rewrite <- (rnd32_Z 1) by lia. apply rnd32_le. lra. }
  assert (FR : fraction (B2R (g_of_f pr)) = B2R (g_of_f pr)) by (unfold fraction; rewrite Rmin_right, Rmax_right by lra; reflexivity).
  assert (EG : Rabs (B2R (g_of_f pr) - B2R pr) <= 1 * bpow radix2 (-24) + bpow radix2 (-150)) by (rewrite VG; apply BezierTerm.rnd32_errR; exact A1).
  destruct (C102_walk fuel typ pts len mc (sl_curve sd) m (g_of_f pr) E1 E2 Hm SZ FG) as (q & Q & D). rewrite FR in D.
  exists q. split.
  { unfold position_at. rewrite HK. unfold slider_position_at. assert (RE : is_retarded (ho_start o) (ho_end o) = false).
    { unfold is_retarded. destruct (feq (ho_start o) (ho_end o)) eqn:EQ; [|reflexivity]. apply feq_iff in EQ as (_ & _ & EQ). destruct TS as [F1 _], TE as [F2 _]. rewrite !(key_fin 53 1024) in EQ by assumption. lra. }
    rewrite RE. exact Q. }
  destruct D as [D|(i & l & s & N & S0 & B & LA & W)]; [left; exact D|right]. exists i, l, s. split; [exact N|]. split; [exact S0|]. split; [exact B|]. split; [exact LA|].
  destruct SZ as (_ & _ & _ & _ & _ & _ & BL & _).
  assert (Z : Rabs (B2R (g_of_f pr) * B2R len - Rabs (x - 2 * IZR k) * B2R len) <= B2R len * (x * bpow radix2 (-51) + bpow radix2 (-23))).
  { rewrite <- Rmult_minus_distr_r, Rabs_mult, (Rabs_pos_eq (B2R len)), Rmult_comm by lra. apply Rmult_le_compat_l; [lra|]. rewrite <- VJ in LIP.
    assert (B23 : bpow radix2 (-24) + bpow radix2 (-150) + bpow radix2 (-39) <= bpow radix2 (-23)).
    { assert (bpow radix2 (-150) <= bpow radix2 (-39)) by (apply bpow_le; lia). change (bpow radix2 (-23)) with (/ 8388608). change (bpow radix2 (-24)) with (/ 16777216). change (bpow radix2 (-39)) with (/ 549755813888) in *. lra. }
    apply Rabs_le_inv in EG, LIP. apply Rabs_le. lra. }
  apply Rabs_le_inv in W, Z. apply Rabs_le. lra.
Qed.
(** And a slider of type B that is not prolonged: the ball is beside the Bezier
    curve of one of the pieces. *)
Theorem C102_bezier : forall fuel pts len mc mc' m k t, new_multicurve fuel (lit "B") pts = Ok mc -> new_multicurve_t fuel (lit "B") pts len = Ok mc' ->
  (0 <= m <= 28)%Z -> sized m mc len -> B2R len <= B2R (mc_length mc) -> (0 <= k)%Z -> Forall (within k) pts -> ((Z.of_nat (length pts) + 8) * 2 ^ k <= 2 ^ 22)%Z -> is_finite t = true ->
  exists q, mc_point_at mc' t = Ok q /\ (q = mc_first mc /\ geq (mc_length mc') g0 = true \/
    exists ps p u, pieces 0 pts ps /\ In p ps /\ 0 <= u <= 1 /\
      Rabs (px q - bezier (map px p) u) <= bezier_gap k (length p) + ball_error m /\ Rabs (py q - bezier (map py p) u) <= bezier_gap k (length p) + ball_error m).
Proof.
  intros fuel pts len mc mc' m k t E1 E2 Hm SZ LE K F S Ft. destruct (C102_walk fuel _ pts len mc mc' m t E1 E2 Hm SZ Ft) as (q & Q & D). exists q. split; [exact Q|].
  destruct D as [D|(i & l & s & N & S0 & (BX & BY) & LA & _)]; [left; exact D|right].
  assert (S1 : 0 <= s <= 1). { split; [exact S0|]. destruct (Rle_or_lt s 1) as [C|C]; [exact C|]. destruct (LA C). lra. }
  destruct (C101_slider fuel k pts mc K F S E1) as (ps & qss & HP & EL & AL). exists ps. apply nth_error_In in N. rewrite EL in N. apply in_concat in N as (ls & I1 & I2). apply in_map_iff in I1 as (qs & <- & I1).
  assert (X : exists p, In p ps /\ along (bezier_gap k (length p)) p qs).
  { clear -AL I1. induction AL as [|p qs0 ps qss A AL IH]; [destruct I1|]. destruct I1 as [<-|I1]; [exists p; split; [left; reflexivity|exact A]|]. destruct (IH I1) as (p' & I & A'). exists p'. split; [right; exact I|exact A']. }
  destruct X as (p & IP & A). destruct (C101_covered _ _ _ _ _ _ A l s I2 S1) as (u & U & UX & UY). exists p, u. split; [exact HP|]. split; [exact IP|]. split; [exact U|].
  apply Rabs_le_inv in BX, BY, UX, UY. split; apply Rabs_le; lra.
Qed.
End WithLibm.

(** ** Concrete cases *)
(** a way to check the size of a curve *)
Definition cap (l : linear) : Z := if gle (ln_length l) (gq 20 1) then 21 else 400.
Definition fits (ls : list linear) : bool :=
  (Z.of_nat (length ls) <=? 1000)%Z && forallb (fun l => inside 12 (ln_p1 l) && inside 12 (ln_p2 l) && (vec_eqb (ln_p1 l) (ln_p2 l) || gle (gq 1 1048576) (ln_length l)) && gle (ln_length l) (gq 390 1)) ls &&
  (fold_right (fun l s => cap l + s) 0 ls <=? 4096)%Z.
Lemma fits_ok ls : fits ls = true -> (Z.of_nat (length ls) <= 1000)%Z /\ Forall (fun l => within 12 (ln_p1 l) /\ within 12 (ln_p2 l)) ls /\ Forall not_tiny ls /\ path_length ls <= bpow radix2 12.
Proof.
  unfold fits. rewrite !andb_true_iff. intros [[A B] C]. apply Z.leb_le in A, C. rewrite forallb_forall in B.
  assert (W : Forall (fun l => within 12 (ln_p1 l) /\ within 12 (ln_p2 l)) ls).
  { apply Forall_forall. intros l I. specialize (B l I). rewrite !andb_true_iff in B. destruct B as [[[B1 B2] _] _].
    assert (V : Forall (within 12) [ln_p1 l; ln_p2 l]) by (apply inside_ok; cbn [forallb]; rewrite B1, B2; reflexivity). inversion V as [|? ? V1 V']; subst. inversion V'; subst. auto. }
  split; [exact A|]. split; [exact W|]. split.
  { apply Forall_forall. intros l I. specialize (B l I). rewrite !andb_true_iff in B. destruct B as [[_ B] _]. apply orb_true_iff in B. exact B. }
  assert (G : Forall (fun l => gle (ln_length l) (gq 390 1) = true) ls). { apply Forall_forall. intros l I. specialize (B l I). rewrite !andb_true_iff in B. exact (proj2 B). }
  apply Rle_trans with (IZR (fold_right (fun l s => cap l + s)%Z 0%Z ls)); [|change (bpow radix2 12) with (IZR 4096); apply IZR_le; exact C].
  clear A B C. induction W as [|l ls [W1 W2] W IH]; [cbn [path_length fold_right]; lra|]. inversion G as [|? ? G2 G']; subst. specialize (IH G'). cbn [path_length fold_right]. rewrite plus_IZR. apply Rplus_le_compat; [|exact IH].
  destruct (vdst_acc _ _ 12 ltac:(lia) W1 W2) as (FG & PG & EG). fold (ln_length l) in *. rewrite <- gap_geo in EG. change (bpow radix2 (-21)) with (/ 2097152) in EG. pose proof (bpow_le radix2 (-69) (-20) ltac:(lia)) as T. change (bpow radix2 (-20)) with (/ 1048576) in T. apply Rabs_le_inv in EG.
  destruct (gq1_exact 20) as (F20 & V20); [lia|]. destruct (gq1_exact 390) as (F390 & V390); [lia|].
  unfold cap. destruct (gle (ln_length l) (gq 20 1)) eqn:G1.
  - apply gle_iff in G1 as (_ & _ & G1). rewrite !(key_fin 24 128) in G1 by assumption. rewrite V20 in G1. lra.
  - apply gle_iff in G2 as (_ & _ & G2). rewrite !(key_fin 24 128) in G2 by assumption. rewrite V390 in G2. lra.
Qed.
(** The corner of C30 is cut at 128 of its 164 pixels, and prolonged to 300. *)
Lemma corner_lines : process_linear corner = [mkLinear (pt 0 0) (pt 100 0); mkLinear (pt 100 0) (pt 100 64)].
Proof.
  unfold corner. cbn [process_linear]. assert (vec_eqb (pt 0 0) (pt 100 0) = false) as -> by (vm_compute; reflexivity).
  assert (vec_eqb (pt 100 0) (pt 100 64) = false) as -> by (vm_compute; reflexivity). reflexivity.
Qed.
Definition corner_mc : multicurve := finish_curve (process_linear corner) (pt 0 0).
Lemma corner_sized z : (0 <= z <= 4096)%Z -> sized 12 corner_mc (fq z 1).
Proof.
  intros Hz. destruct (fits_ok (process_linear corner)) as (A & B & C & D); [vm_compute; reflexivity|]. destruct (fq1_exact z) as (F & V); [lia|].
  unfold sized, corner_mc. cbn [mc_lines mc_length finish_curve]. split; [lia|]. split; [exact B|]. split; [exact C|]. split; [exact D|]. split; [vm_compute; reflexivity|]. split; [exact F|].
  split; [rewrite V; change (bpow radix2 12) with (IZR 4096); split; apply IZR_le; lia|]. left. intros ls l E. rewrite corner_lines in E. pose proof (f_equal (@rev _) E) as R. rewrite rev_app_distr in R. cbn [rev app] in R. injection R as <- _. vm_compute. reflexivity.
Qed.
Example C102_instance : forall M : libm, new_multicurve 0 (lit "L") corner = Ok corner_mc /\ sized 12 corner_mc (fq 128 1) /\ sized 12 corner_mc (fq 300 1) /\
  (exists a b, new_multicurve_t 0 (lit "L") corner (fq 128 1) = Ok a /\ new_multicurve_t 0 (lit "L") corner (fq 300 1) = Ok b /\
    (exists q, mc_point_at a (gq 1 2) = Ok q /\ vec_eqb q (pt 64 0) = true) /\ (exists q, mc_point_at a (gq 1 1) = Ok q /\ vec_eqb q (pt 100 28) = true) /\
    (exists q, mc_point_at b (gq 1 1) = Ok q /\ vec_eqb q (pt 100 200) = true)) /\ ball_error 12 <= 1 / 63 /\ 4 * length_error 12 2 <= 1 / 13.
Proof.
  intros M. split; [reflexivity|]. split; [apply corner_sized; lia|]. split; [apply corner_sized; lia|]. split.
  { exists (linear_mc corner (fq 128 1) (pt 0 0)), (linear_mc corner (fq 300 1) (pt 0 0)). split; [apply linear_curve|]. split; [apply linear_curve|].
    assert (X : forall mc t p, match mc_point_at mc t with Ok q => vec_eqb q p | _ => false end = true -> exists q, mc_point_at mc t = Ok q /\ vec_eqb q p = true) by (intros mc t p H; destruct (mc_point_at mc t) as [q| |]; try discriminate H; exists q; split; [reflexivity|exact H]).
    split; [apply X; vm_compute; reflexivity|]. split; apply X; vm_compute; reflexivity. }
  split; [unfold ball_error; change (bpow radix2 (12 - 18)) with (/ 64); change (bpow radix2 (-12)) with (/ 4096); lra|].
  unfold length_error. replace (INR 2) with 2 by (cbn; ring). change (bpow radix2 (12 - 22)) with (/ 1024). change (bpow radix2 (-13)) with (/ 8192). lra.
Qed.
(** The bent slider of C101, cut at 400 pixels. *)
Example C102_bezier_instance : forall M : libm, exists mc, new_multicurve 600 (lit "B") bent_slider = Ok mc /\ sized 12 mc (fq 400 1) /\ B2R (fq 400 1) <= B2R (mc_length mc) /\ (10 < length (mc_lines mc))%nat.
Proof.
  intros M. assert (T : match new_multicurve 600 (lit "B") bent_slider with Ok mc => fits (mc_lines mc) && ggt (mc_length mc) g0 && gge (mc_length mc) (gq 400 1) && is_finite (mc_length mc) && Nat.ltb 10 (length (mc_lines mc)) | _ => false end = true) by (vm_compute; reflexivity).
  destruct (new_multicurve 600 (lit "B") bent_slider) as [mc| |]; try discriminate T. rewrite !andb_true_iff in T. destruct T as ((((T1 & T2) & T3) & T4) & T5). apply Nat.ltb_lt in T5.
  exists mc. split; [reflexivity|]. destruct (fits_ok _ T1) as (A & B & C & D). destruct (fq1_exact 400) as (F & V); [lia|]. destruct (gq1_exact 400) as (F' & V'); [lia|].
  assert (LE : B2R (fq 400 1) <= B2R (mc_length mc)). { rewrite V. apply gge_iff in T3 as (_ & _ & T3). rewrite (key_fin 24 128 _ F'), (key_fin 24 128 _ T4), V' in T3. exact T3. }
  split; [|split; [exact LE|exact T5]]. unfold sized. split; [lia|]. split; [exact B|]. split; [exact C|]. split; [exact D|]. split; [exact T2|]. split; [exact F|].
  split; [rewrite V; change (bpow radix2 12) with 4096; lra|right; exact LE].
Qed.
(** A slider on the cut corner that goes there and back between 1000 and 2000 ms. *)
Definition corner_ball : hobj :=
  mkHobj (KSlider (mkSlider (linear_mc corner (fq 128 1) (pt 0 0)) None (fq 128 1) 2 [] (fq 500 1))) (pt 0 0) (pt 0 0) (fq 1000 1) (fq 2000 1) (pt 0 0) (pt 0 0) (pt 0 0) 0 0 0 0 [] false 0 0 0 0.
Example C102_ball_instance : forall M : libm, exists sd, ho_kind corner_ball = KSlider sd /\ new_multicurve_t 0 (lit "L") corner (fq 128 1) = Ok (sl_curve sd) /\
  time_upto (ho_start corner_ball) /\ time_upto (ho_end corner_ball) /\ time_upto (fq 1750 1) /\ B2R (ho_start corner_ball) < B2R (ho_end corner_ball) /\ is_finite (sl_span sd) = true /\ bpow radix2 (-100) <= B2R (sl_span sd) /\
  Rabs ((Rmax (B2R (ho_start corner_ball)) (Rmin (B2R (ho_end corner_ball)) (B2R (fq 1750 1))) - B2R (ho_start corner_ball)) / B2R (sl_span sd) - 2 * IZR 1) = / 2 /\
  exists q, position_at corner_ball (fq 1750 1) = Ok q /\ vec_eqb q (pt 64 0) = true.
Proof.
  intros M. eexists. split; [reflexivity|]. cbn [sl_curve sl_span ho_start ho_end corner_ball]. split; [apply linear_curve|].
  destruct (fq1_exact 1000) as (F1 & V1); [lia|]. destruct (fq1_exact 2000) as (F2 & V2); [lia|]. destruct (fq1_exact 1750) as (F3 & V3); [lia|]. destruct (fq1_exact 500) as (F5 & V5); [lia|].
  assert (P38 : 4096 <= bpow radix2 38) by (change 4096 with (bpow radix2 12); apply bpow_le; lia). assert (P1 : bpow radix2 (-100) <= 1) by (change 1 with (bpow radix2 0); apply bpow_le; lia).
  split; [split; [exact F1|rewrite V1; lra]|]. split; [split; [exact F2|rewrite V2; lra]|]. split; [split; [exact F3|rewrite V3; lra]|]. split; [rewrite V1, V2; lra|]. split; [exact F5|]. split; [rewrite V5; lra|]. split.
  - rewrite V1, V2, V3, V5, Rmin_right, Rmax_right by lra. rewrite Rabs_left; lra.
  - assert (T : match position_at corner_ball (fq 1750 1) with Ok q => vec_eqb q (pt 64 0) | _ => false end = true) by (vm_compute; reflexivity). destruct (position_at corner_ball (fq 1750 1)) as [q| |]; try discriminate T. exists q. split; [reflexivity|exact T].
Qed.

Print Assumptions C102_walk.
Print Assumptions C102_ball.
Print Assumptions C102_bezier.

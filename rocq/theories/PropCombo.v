(** C117 and C118.  The score points of a map on paper: how many, and when. *)
From Coq Require Import Reals Lra Permutation Sorted.
From Flocq Require Import Core BinarySingleNaN.
From Verif Require Import Parser DiffCalc SpecNumbers SpecParser SpecSpace SpecText SpecTiming SpecCurves SpecShape SpecSafety SpecTerm SpecLength SpecTempo SpecTicks SpecDiff SpecSheet SpecPaper BaseLemmas StringLemmas TextProofs FloatLemmas Float32Lemmas KeyLemmas SortLemmas TimingProofs LazyProofs LengthProofs.
From Verif Require Import PropSpace PropNumbers PropText PropParser PropSafety PropLength PropTerm PropShape PropTempo PropTicks PropDiff SheetProofs SheetBlocks SheetRead PropSheet PropSlides PropPaper.
Open Scope Z_scope.

(** ** Real arithmetic *)
Lemma ratio_near A B C A' B' C' : (0 < A -> 0 < B -> 0 < C -> Rabs (A' - A) <= A / 1000000000 -> Rabs (B' - B) <= B / 1000000000 -> Rabs (C' - C) <= C / 1000000000 ->
  0 < A' / (B' * C') /\ Rabs (A' / (B' * C') - A / (B * C)) <= A / (B * C) * (4 / 1000000000))%R.
Proof.
  intros PA PB PC EA EB EC. apply Rabs_le_inv in EA, EB, EC. set (e := (/ 1000000000)%R). assert (PB' : (0 < B')%R) by lra. assert (PC' : (0 < C')%R) by lra. set (X := (A / (B * C))%R).
  assert (PBC : (0 < B * C)%R) by (now apply Rmult_lt_0_compat). assert (PY : (0 < B' * C')%R) by (now apply Rmult_lt_0_compat). assert (PX : (0 < X)%R) by (apply Rdiv_lt_0_compat; lra). assert (XA : (X * (B * C) = A)%R) by (unfold X; field; lra).
  assert (Y1 : (B' * C' <= B * C * ((1 + e) * (1 + e)))%R) by (replace (B * C * ((1 + e) * (1 + e)))%R with (B * (1 + e) * (C * (1 + e)))%R by ring; unfold e; apply Rmult_le_compat; lra).
  assert (Y2 : (B * C * ((1 - e) * (1 - e)) <= B' * C')%R) by (replace (B * C * ((1 - e) * (1 - e)))%R with (B * (1 - e) * (C * (1 - e)))%R by ring; unfold e; apply Rmult_le_compat; lra).
  assert (Z1 : (X * (B' * C') <= A * ((1 + e) * (1 + e)))%R) by (rewrite <- XA, Rmult_assoc; apply Rmult_le_compat_l; lra). assert (Z2 : (A * ((1 - e) * (1 - e)) <= X * (B' * C'))%R) by (rewrite <- XA, Rmult_assoc; apply Rmult_le_compat_l; lra).
  split; [apply Rdiv_lt_0_compat; lra|]. apply Rabs_le. split.
  - apply Rmult_le_reg_r with (B' * C')%R; [exact PY|]. replace ((A' / (B' * C') - X) * (B' * C'))%R with (A' - X * (B' * C'))%R by (field; lra). unfold e in *. lra.
  - apply Rmult_le_reg_r with (B' * C')%R; [exact PY|]. replace ((A' / (B' * C') - X) * (B' * C'))%R with (A' - X * (B' * C'))%R by (field; lra). unfold e in *. lra.
Qed.
Lemma pace_near bt f v bz m sm : (0 < bt -> 0 < f -> 0 < v -> Rabs (bz - bt) <= bt / 1000000000 -> Rabs (m - f) <= f / 1000000000 -> Rabs (sm - v) <= v / 1000000000 ->
  Rabs (bz * m / (100 * sm) - bt * f / (100 * v)) <= bt * f / (100 * v) * (4 / 1000000000))%R.
Proof.
  intros Pb Pf Pv Eb Ef Ev. apply Rabs_le_inv in Eb, Ef, Ev. set (e := (/ 1000000000)%R). set (X := (bt * f / (100 * v))%R). assert (Pbf : (0 < bt * f)%R) by (now apply Rmult_lt_0_compat). assert (PX : (0 < X)%R) by (apply Rdiv_lt_0_compat; lra).
  assert (XV : (X * (100 * v) = bt * f)%R) by (unfold X; field; lra). assert (PS : (0 < 100 * sm)%R) by lra.
  assert (Y1 : (bz * m <= bt * f * ((1 + e) * (1 + e)))%R) by (replace (bt * f * ((1 + e) * (1 + e)))%R with (bt * (1 + e) * (f * (1 + e)))%R by ring; unfold e; apply Rmult_le_compat; lra).
  assert (Y2 : (bt * f * ((1 - e) * (1 - e)) <= bz * m)%R) by (replace (bt * f * ((1 - e) * (1 - e)))%R with (bt * (1 - e) * (f * (1 - e)))%R by ring; unfold e; apply Rmult_le_compat; lra).
  assert (Z1 : (X * (100 * sm) <= X * (100 * v * (1 + e)))%R) by (apply Rmult_le_compat_l; unfold e; lra). assert (Z2 : (X * (100 * v * (1 - e)) <= X * (100 * sm))%R) by (apply Rmult_le_compat_l; unfold e; lra).
  rewrite <- (Rmult_assoc X (100 * v)), XV in Z1, Z2.
  apply Rabs_le. split; apply Rmult_le_reg_r with (100 * sm)%R; try exact PS; replace ((bz * m / (100 * sm) - X) * (100 * sm))%R with (bz * m - X * (100 * sm))%R by (field; lra); unfold e in *; lra.
Qed.
Lemma min_near a b a' b' : (0 < a -> 0 < b -> Rabs (a' - a) <= a * (4 / 1000000000) -> Rabs (b' - b) <= b * (4 / 1000000000) -> Rabs (Rmin a' b' - Rmin a b) <= Rmin a b * (4 / 1000000000))%R.
Proof. intros PA PB EA EB. apply Rabs_le_inv in EA, EB. apply Rabs_le. unfold Rmin. destruct (Rle_dec a' b'), (Rle_dec a b); lra. Qed.
Lemma count_same L P u G len u' T N N' : (1 <= L <= 2048 -> 0 <= P <= 1000 -> 0 < u -> 0 < G -> Rabs (len - L) <= (P + 65 / 4) / 2048 + / 1000000000 ->
  Rabs (u' - u) <= u * (4 / 1000000000) -> Rabs (T - G) <= G * (4 / 1000000000) ->
  let w := (len + u') / 1000000 + / 100000000000 in let W := L / 100000 + (P + 17) / 2048 in
  (N' = 0%nat \/ INR N' * T <= len - u' + w) -> len - u' - w <= INR (S N') * T ->
  (N = 0%nat \/ INR N * G <= L - u - W) -> L - u + W < INR (S N) * G -> N' = N)%R.
Proof.
  intros BL BP Bu BG El Eu ET w W A1 A2 C1 C2. apply Rabs_le_inv in El, Eu, ET. assert (PT : (0 < T)%R) by lra. assert (LL : (L - 1 / 2 <= len <= L + 1 / 2)%R) by lra.
  destruct (lt_eq_lt_dec N' N) as [[H|H]|H]; [exfalso|exact H|exfalso].
  - destruct C1 as [C1|C1]; [lia|]. assert (SN : (INR (S N') <= INR N)%R) by (apply le_INR; lia). pose proof (pos_INR N) as PN. assert (NG : (0 <= INR N * G)%R) by (apply Rmult_le_pos; lra).
    assert (X1 : (INR (S N') * T <= INR N * T)%R) by (apply Rmult_le_compat_r; lra). assert (X2 : (INR N * T <= INR N * (G + G * (4 / 1000000000)))%R) by (apply Rmult_le_compat_l; lra).
    set (g := (INR N * G)%R) in *. replace (INR N * (G + G * (4 / 1000000000)))%R with (g + g * (4 / 1000000000))%R in X2 by (unfold g; ring). unfold W, w in *. lra.
  - destruct A1 as [A1|A1]; [lia|]. assert (SN : (INR (S N) <= INR N')%R) by (apply le_INR; lia). pose proof (pos_INR (S N)) as PN. assert (NG : (0 <= INR (S N) * G)%R) by (apply Rmult_le_pos; lra).
    assert (X1 : (INR (S N) * T <= INR N' * T)%R) by (apply Rmult_le_compat_r; lra). assert (X2 : (INR (S N) * (G - G * (4 / 1000000000)) <= INR (S N) * T)%R) by (apply Rmult_le_compat_l; lra).
    set (g := (INR (S N) * G)%R) in *. replace (INR (S N) * (G - G * (4 / 1000000000)))%R with (g - g * (4 / 1000000000))%R in X2 by (unfold g; ring). unfold W, w in *. lra.
Qed.
Lemma nearest_same l a b : nearest l a -> nearest l b -> (1 <= value l <= 100000)%R -> a = b.
Proof.
  intros A B V. destruct (near_value l a A) as (FA & EA); [rewrite Rabs_pos_eq; lra|]. destruct (near_value l b B) as (FB & _); [rewrite Rabs_pos_eq; lra|]. rewrite (Rabs_pos_eq (value l)) in EA by lra. apply Rabs_le_inv in EA.
  unfold nearest, nearest_float in A, B. cbv zeta in A, B. destruct A as [(_ & _ & A & _)|(_ & A)]; [|subst a; discriminate FA]. destruct B as [(_ & _ & B & _)|(_ & B)]; [|subst b; discriminate FB].
  rewrite <- B in A. apply B2R_inj; [| |exact A].
  - revert EA FA V. clear. destruct a as [sg| | |]; try discriminate; [|reflexivity]. intros EA _ V. exfalso. change (B2R (B754_zero sg)) with 0%R in EA. lra.
  - rewrite A in EA. revert EA FB V. clear. destruct b as [sg| | |]; try discriminate; [|reflexivity]. intros EA _ V. exfalso. change (B2R (B754_zero sg)) with 0%R in EA. lra.
Qed.
Lemma same_length {A B} (Q : A -> B -> Prop) l r : Forall2 Q l r -> length l = length r.
Proof. induction 1; cbn [length]; congruence. Qed.
Lemma span_length start D len T n N i : length (span_times start D len T n N i) = S N.
Proof. unfold span_times. rewrite app_length, map_length, seq_length. cbn [length]. lia. Qed.
Lemma spans_length start D len T n N is : length (flat_map (span_times start D len T n N) is) = (length is * S N)%nat.
Proof. induction is as [|i is IH]; [reflexivity|]. cbn [flat_map length]. rewrite app_length, span_length, IH. lia. Qed.

Lemma shift_near n d L v v' X X' : (1 <= n -> 0 <= d -> 0 <= L -> 0 < v -> Rabs (v' - v) <= v * (4 / 1000000000) -> 0 <= X <= n * L -> Rabs (X' - X) <= n * d + L * (4 / 1000000000) ->
  Rabs (X' * v' - X * v) <= n * (d * (1 + / 100000000) + L / 10000000) * v)%R.
Proof.
  intros Bn Bd BL Bv Ev BX EX. replace (X' * v' - X * v)%R with ((X' - X) * v' + X * (v' - v))%R by ring. eapply Rle_trans; [apply Rabs_triang|]. rewrite !Rabs_mult, (Rabs_pos_eq X) by lra.
  assert (V' : (Rabs v' <= v * (1 + 4 / 1000000000))%R) by (apply Rabs_le_inv in Ev; apply Rabs_le; lra).
  assert (A1 : (Rabs (X' - X) * Rabs v' <= (n * d + L * (4 / 1000000000)) * (v * (1 + 4 / 1000000000)))%R) by (apply Rmult_le_compat; auto using Rabs_pos).
  assert (A2 : (X * Rabs (v' - v) <= n * L * (v * (4 / 1000000000)))%R) by (apply Rmult_le_compat; [lra|apply Rabs_pos|lra|exact Ev]).
  assert (A3 : (0 <= n * d * v)%R) by (repeat apply Rmult_le_pos; lra). assert (A4 : (0 <= L * v)%R) by (apply Rmult_le_pos; lra). assert (A5 : (1 * (L * v) <= n * (L * v))%R) by (apply Rmult_le_compat_r; lra). lra.
Qed.
Definition off (B : R) (a b : R * bool) : Prop := (Rabs (fst a - fst b) <= B)%R /\ snd a = snd b.
Lemma map_both {A B C} (Q : B -> C -> Prop) (f : A -> B) (g : A -> C) l : (forall x, In x l -> Q (f x) (g x)) -> Forall2 Q (map f l) (map g l).
Proof. induction l as [|a l IH]; intros H; cbn [map]; constructor; [apply H; now left|apply IH; intros x I; apply H; now right]. Qed.
Lemma span_near start L v G len v' T d n N i : (0 < L -> 0 < len -> 0 < v -> 0 < G -> 0 <= d -> Rabs (len - L) <= d -> Rabs (v' - v) <= v * (4 / 1000000000) -> Rabs (T - G) <= G * (4 / 1000000000) ->
  (N = 0%nat \/ INR N * G <= L) -> (i < n)%nat ->
  Forall2 (off (INR n * (d * (1 + / 100000000) + L / 10000000) * v)) (span_times start (len * v') len T n N i) (span_times start (L * v) L G n N i))%R.
Proof.
  intros PL Pl Pv PG Pd El Ev ET BN Bi. assert (Bn : (INR i + 1 <= INR n)%R) by (rewrite <- S_INR; apply le_INR; lia). pose proof (pos_INR i) as Pi. assert (B1 : (1 <= INR n)%R) by lra. set (e := (4 / 1000000000)%R) in *. assert (Pe : (0 < e)%R) by (unfold e; lra).
  assert (WH : forall k, (0 <= k <= INR n)%R -> (Rabs (k * len * v' - k * L * v) <= INR n * (d * (1 + / 100000000) + L / 10000000) * v)%R).
  { intros k Bk. apply shift_near; auto; try lra.
    - split; [apply Rmult_le_pos; lra|apply Rmult_le_compat_r; lra].
    - replace (k * len - k * L)%R with (k * (len - L))%R by ring. rewrite Rabs_mult, Rabs_pos_eq by lra. assert (k * Rabs (len - L) <= INR n * d)%R by (apply Rmult_le_compat; auto using Rabs_pos; lra). fold e. assert (0 <= L * e)%R by (apply Rmult_le_pos; lra). lra. }
  unfold span_times. apply Forall2_app.
  - apply map_both. intros j J. apply in_seq in J. destruct BN as [BN|BN]; [lia|]. split; [cbn [fst]|reflexivity].
    assert (Bj : (0 <= INR j * G <= L)%R). { split; [apply Rmult_le_pos; [apply pos_INR|lra]|]. apply Rle_trans with (2 := BN). apply Rmult_le_compat_r; [lra|]. apply le_INR. lia. }
    assert (Ej : (Rabs (INR j * T - INR j * G) <= L * e)%R). { replace (INR j * T - INR j * G)%R with (INR j * (T - G))%R by ring. rewrite Rabs_mult, Rabs_pos_eq by apply pos_INR. apply Rle_trans with (INR j * (G * e))%R; [apply Rmult_le_compat_l; [apply pos_INR|exact ET]|]. rewrite <- Rmult_assoc. apply Rmult_le_compat_r; lra. }
    assert (EI : forall k, (0 <= k <= INR n)%R -> (Rabs (k * len - k * L) <= INR n * d)%R). { intros k Bk. replace (k * len - k * L)%R with (k * (len - L))%R by ring. rewrite Rabs_mult, Rabs_pos_eq by lra. apply Rmult_le_compat; auto using Rabs_pos; lra. }
    unfold passed. destruct (Nat.even i).
    + replace (start + (INR i + INR j * T / len) * (len * v') - (start + (INR i + INR j * G / L) * (L * v)))%R with ((INR i * len + INR j * T) * v' - (INR i * L + INR j * G) * v)%R by (field; lra).
      apply shift_near; auto; try lra.
      * split; [apply Rplus_le_le_0_compat; [apply Rmult_le_pos; lra|lra]|]. apply Rle_trans with ((INR i + 1) * L)%R; [lra|apply Rmult_le_compat_r; lra].
      * fold e. specialize (EI (INR i) ltac:(lra)). apply Rabs_le_inv in EI, Ej. apply Rabs_le. lra.
    + replace (start + (INR i + (1 - INR j * T / len)) * (len * v') - (start + (INR i + (1 - INR j * G / L)) * (L * v)))%R with (((INR i + 1) * len - INR j * T) * v' - ((INR i + 1) * L - INR j * G) * v)%R by (field; lra).
      assert (IL : (0 <= INR i * L)%R) by (apply Rmult_le_pos; lra). assert (IN : ((INR i + 1) * L <= INR n * L)%R) by (apply Rmult_le_compat_r; lra).
      apply shift_near; auto; try lra. fold e. specialize (EI (INR i + 1)%R ltac:(lra)). apply Rabs_le_inv in EI, Ej. apply Rabs_le. lra.
  - constructor; [|constructor]. destruct (Nat.ltb (S i) n) eqn:Q.
    + split; [cbn [fst]|reflexivity]. rewrite S_INR. replace (start + (INR i + 1) * (len * v') - (start + (INR i + 1) * (L * v)))%R with ((INR i + 1) * len * v' - (INR i + 1) * L * v)%R by ring. apply WH. lra.
    + split; [cbn [fst]|reflexivity]. pose proof (WH (INR n) ltac:(lra)) as W1. apply Rabs_le_inv in W1. set (B := (INR n * _ * v)%R) in *.
      replace (INR n * (len * v'))%R with (INR n * len * v')%R by ring. replace (INR n * (L * v))%R with (INR n * L * v)%R by ring. set (a := (INR n * len * v')%R) in *. set (c := (INR n * L * v)%R) in *. clearbody a c B. apply Rabs_le. unfold Rmax. repeat destruct (Rle_dec _ _); lra.
Qed.
Lemma due_off E B E' pts rs qs : (E + B <= E')%R -> Forall2 (due E) pts rs -> Forall2 (off B) rs qs -> Forall2 (due E') pts qs.
Proof.
  intros LE D. revert qs. induction D as [|k r pts rs (F & A & S) D IH]; intros qs O; inversion O as [|? q ? qs' (O1 & O2) O3]; subst; constructor; [|now apply IH].
  split; [exact F|]. split; [|congruence]. apply Rabs_le_inv in A, O1. apply Rabs_le. lra.
Qed.

Section WithLibm.
Context {M : libm}.
Definition has_points (s : sheet) (n : note) (o : hobj) : Prop :=
  match nt_shape n with
  | Slide _ ps k l => exists p q, in_force (sh_tempos s) (dec (nt_time n)) p /\ in_force (beats (sh_tempos s)) (dec (nt_time n)) q /\
      forall N, counted s p q (length ps) l N -> score_points o = dec k * (Z.of_nat N + 1)
  | _ => score_points o = 0
  end.
(** When the points are due: as C105 says, with the numbers on paper. *)
Definition due_on_paper (s : sheet) (n : note) (o : hobj) : Prop :=
  match nt_shape n with
  | Slide _ ps k l => exists p q, in_force (sh_tempos s) (dec (nt_time n)) p /\ in_force (beats (sh_tempos s)) (dec (nt_time n)) q /\
      forall N, counted s p q (length ps) l N -> exists sd pts, ho_kind o = KSlider sd /\ Permutation (sl_ticks sd) pts /\
        Forall2 (due (IZR (dec k) * (value l / 100000 + (INR (length ps) + 17) / 2048) * pace s p q + IZR (dec (nt_time n)) / 100000000000000 + / 100000000000)%R) pts
          (flat_map (span_times (IZR (dec (nt_time n))) (value l * pace s p q) (value l) (tick_space s p l) (Z.to_nat (dec k)) N) (seq 0 (Z.to_nat (dec k))))
  | _ => True
  end.
Lemma points_due : forall fuel s b, sheet_ok s -> usual (sh_speed s) -> usual (sh_ticks s) -> Forall lively (sh_tempos s) -> opening (sh_tempos s) -> Forall brief (sh_notes s) ->
  parse_bytes fuel (file_of s) = Ok (Some b) ->
  exists played, by_time (sh_notes s) played /\ Forall2 (fun n o => note_read n o /\ (has_points s n o /\ due_on_paper s n o)) played (bm_HitObjects b).
Proof.
  intros fuel s b OK U1 U2 LV OP BR R. rewrite (sheet_text fuel s OK) in R. destruct (rows_back fuel s b OK R) as (ns & BT & OKs & F). exists ns. split; [exact BT|].
  assert (BRs : Forall brief ns) by (eapply Permutation_Forall; [apply BT|exact BR]). pose proof (difficulty_of s OK) as Hd. pose proof (timing_of s OK) as Ht. destruct (sheet_rates s OK U1 U2 _ Hd) as (MS & MT).
  pose proof (slider_ticked fuel _ b _ R Hd MS MT) as SS. destruct (C55_timing fuel _ b _ _ R Ht Hd) as (T1 & T2 & ESM & ETR & _). cbv zeta in T1, T2, ESM, ETR.
  pose proof OK as (_ & _ & _ & _ & _ & _ & _ & _ & _ & _ & SP & TK & _ & TP & _ & _).
  pose proof (tempos_read s OK) as TR. pose proof (beats_read s OK) as BTR. pose proof (fun t => originals_read s (bm_Timings b) t OK OP T2) as ORIG.
  assert (SPN : nearest (sh_speed s) (t_SliderMult (bm_Timings b))) by (rewrite ESM; exact (C72_f64 _ SP)). destruct (near_value _ _ SPN) as (FSP & ESP); [unfold usual in U1; rewrite Rabs_pos_eq; lra|]. unfold usual in U1. rewrite (Rabs_pos_eq (value (sh_speed s))) in ESP by lra.
  assert (TKN : nearest (sh_ticks s) (t_TickRate (bm_Timings b))) by (rewrite ETR; exact (C72_f64 _ TK)). destruct (near_value _ _ TKN) as (FTK & ETK); [unfold usual in U2; rewrite Rabs_pos_eq; lra|]. unfold usual in U2. rewrite (Rabs_pos_eq (value (sh_ticks s))) in ETK by lra.
  assert (STEP : forall n o, note_ok n -> brief n -> note_read n o -> (type_of (note_fields n) = TSlider -> slider_of fuel (bm_Timings b) (note_fields n) o) -> has_points s n o /\ due_on_paper s n o).
  { intros n o NOK NB NR SL. rewrite (note_type n NOK) in SL. unfold has_points, due_on_paper. pose proof NR as (RX & RY & RT & RK). destruct (nt_shape n) as [|e|c ps k l] eqn:SH; [destruct RK as (RK & _); unfold score_points; now rewrite RK|destruct RK as (RK & _); unfold score_points; now rewrite RK|].
    destruct RK as (sd & vs & K & KR & KL & KP & (fu & KC) & _). pose proof (brief_length n sd vs fu (ho_startPos o) c ps k l NOK NB SH (conj RX RY) KP KL KC) as (FL & EL).
    destruct (note_field n NOK) as (_ & _ & _ & FLD & _). rewrite SH in FLD. destruct FLD as (_ & F6 & F7 & _).
    unfold brief in NB. rewrite SH in NB. destruct NB as (_ & LEN & VL & _ & _ & BK & BT0). pose proof NOK as NOK0. destruct NOK as (NX & NY & (DT & DT2 & DT3) & NOK). rewrite SH in NOK. destruct NOK as (_ & _ & NK & WL).
    assert (PX : parse_f64 (field 7 (note_fields n)) = sl_pixelLength sd) by (rewrite F7; apply (nearest_same l); [exact (C72_f64 l WL)|exact KL|lra]).
    destruct (SS _ _ (SL eq_refl)) as (sd' & K' & Y); [intros sd' K'; assert (sd' = sd) by congruence; subst sd'; now symmetry|]. assert (sd' = sd) by congruence. subst sd'. cbv zeta in Y. rewrite PX in Y.
    destruct (near_value l _ KL) as (FPX & EPX); [rewrite Rabs_pos_eq; lra|]. rewrite (Rabs_pos_eq (value l)) in EPX by lra.
    pose proof (note_start n NOK0) as ST. destruct ST as (FS & ES). assert (NS : fisnan (start_of (note_fields n)) = false) by (revert FS; generalize (start_of (note_fields n)); intros [| | |]; (reflexivity || discriminate)).
    destruct (C55_lookup fuel _ b _ _ R Ht NS) as (p & q & GP & SB & LU). destruct (in_force_read _ _ (nt_time n) _ q TR (conj FS ES) LU) as (tp & IT & IF & TRD).
    destruct (ORIG _ NS) as (z & GZ & LZ). destruct (in_force_read _ _ (nt_time n) _ z BTR (conj FS ES) LZ) as (tz & IZ & IFZ & (_ & NBZ & _)).
    assert (CB : cp_beat p = cp_beat q) by (rewrite SB; reflexivity). rewrite Forall_forall in LV. destruct (factor_read tp q (LV tp IT) TRD) as (m & STR & FB & FE0). assert (STP : stretched p m) by (unfold stretched in *; rewrite CB; exact STR).
    assert (NN : is_nan (cp_beat p) = false).
    { rewrite CB. pose proof (LV tp IT) as LT. destruct TRD as (_ & NBQ & _). unfold lively in LT. destruct (near_value _ _ NBQ) as (FF & _); [destruct (tp_speed tp); apply Rabs_le; lra|]. exact (fin_num 53 1024 _ FF). }
    unfold beats in IZ. apply filter_In in IZ as (IZ & SPZ). apply negb_true_iff in SPZ. pose proof (LV tz IZ) as LT. unfold lively in LT. rewrite SPZ in LT.
    destruct (near_value _ _ NBZ) as (FBZ & EB); [rewrite Rabs_pos_eq; lra|]. rewrite (Rabs_pos_eq (value (tp_beat tz))) in EB by lra.
    assert (PK : parse_int (field 6 (note_fields n)) = dec k) by (rewrite F6; apply show_int; destruct NK as (N1 & N2 & N3); split; [exact N1|split; [exact N2|lia]]). rewrite PK in Y. pose proof (dec_pos _ DT) as PT.
    assert (NI : (0 <= INR (length ps) <= 1000)%R) by (split; [apply pos_INR|replace 1000%R with (INR 1000) by (simpl; lra); apply le_INR; lia]).
    assert (EL' := EL). apply Rabs_le_inv in EL'. assert (EB' := EB). apply Rabs_le_inv in EB'. assert (EPX' := EPX). apply Rabs_le_inv in EPX'.
    enough (MAIN : forall N, counted s tp tz (length ps) l N -> score_points o = dec k * (Z.of_nat N + 1) /\ exists sd pts, ho_kind o = KSlider sd /\ Permutation (sl_ticks sd) pts /\
        Forall2 (due (IZR (dec k) * (value l / 100000 + (INR (length ps) + 17) / 2048) * pace s tp tz + IZR (dec (nt_time n)) / 100000000000000 + / 100000000000)%R) pts
          (flat_map (span_times (IZR (dec (nt_time n))) (value l * pace s tp tz) (value l) (tick_space s tp l) (Z.to_nat (dec k)) N) (seq 0 (Z.to_nat (dec k))))).
    { split; exists tp, tz; (split; [exact IF|]; split; [exact IFZ|]); intros N CN; apply (MAIN N CN). }
    intros N (C1 & C2).
    destruct (Y p z m GP GZ STP FBZ) as (N' & pts & TC & PM & DUE); [lra|exact BK|exact FS| |exact FL|lra|exact FPX|lra|].
    { rewrite ES, Rabs_pos_eq by (apply IZR_le; lia). change (bpow radix2 40) with (IZR (2 ^ 40)). apply IZR_le. lia. }
    rewrite NN in TC. destruct TC as (TC1 & TC2). cbv zeta in C1, C2.
    set (v0 := pace s tp tz). assert (EQ : N' = N /\ (0 < v0 /\ exists v', slide_time (B2R (t_SliderMult (bm_Timings b))) (B2R (cp_beat z)) m (B2R (mc_length (sl_curve sd))) = B2R (mc_length (sl_curve sd)) * v' /\ Rabs (v' - v0) <= v0 * (4 / 1000000000) /\ 0 < tick_space s tp l /\ Rabs (tick_gap (B2R (t_SliderMult (bm_Timings b))) (B2R (t_TickRate (bm_Timings b))) m (B2R (sl_pixelLength sd)) - tick_space s tp l) <= tick_space s tp l * (4 / 1000000000) /\ (N = 0%nat \/ INR N * tick_space s tp l <= value l))%R).
    { set (len := B2R (mc_length (sl_curve sd))) in *. set (sm := B2R (t_SliderMult (bm_Timings b))) in *. set (rt := B2R (t_TickRate (bm_Timings b))) in *. set (bz := B2R (cp_beat z)) in *. set (px := B2R (sl_pixelLength sd)) in *.
      set (v := value (sh_speed s)) in *. set (t := value (sh_ticks s)) in *. set (f := factor tp) in *. set (bt := value (tp_beat tz)) in *. set (L0 := value l) in *.
      assert (EM : (Rabs (m - f) <= f / 1000000000)%R) by (apply Rle_trans with (1 := FE0); lra).
      destruct (ratio_near (100 * v) t f (100 * sm) rt m) as (_ & G1); [lra|lra|lra|apply Rabs_le; apply Rabs_le_inv in ESP; lra|apply Rle_trans with (1 := ETK); lra|exact EM|].
      destruct (ratio_near (1000 * v) bt f (1000 * sm) bz m) as (_ & G2); [lra|lra|lra|apply Rabs_le; apply Rabs_le_inv in ESP; lra|apply Rle_trans with (1 := EB); lra|exact EM|].
      assert (PQ1 : (0 < 100 * v / (t * f))%R) by (apply Rdiv_lt_0_compat; [lra|apply Rmult_lt_0_compat; lra]). assert (PQ2 : (0 < 1000 * v / (bt * f))%R) by (apply Rdiv_lt_0_compat; [lra|apply Rmult_lt_0_compat; lra]).
      assert (TG : (Rabs (tick_gap sm rt m px - Rmin (100 * v / (t * f)) L0) <= Rmin (100 * v / (t * f)) L0 * (4 / 1000000000))%R) by (apply min_near; [exact PQ1|lra|exact G1|apply Rle_trans with (1 := EPX); lra]).
      assert (TS : (0 < Rmin (100 * v / (t * f)) L0)%R) by (apply Rmin_glb_lt; lra).
      assert (U : (10 / pace s tp tz = 1000 * v / (bt * f))%R) by (unfold pace; fold v bt f; field; repeat split; lra). rewrite U in C1, C2.
      split; [|assert (PV : (0 < v0)%R) by (unfold v0, pace; fold v bt f; apply Rdiv_lt_0_compat; [apply Rmult_lt_0_compat; lra|lra]); split; [exact PV|]; exists (bz * m / (100 * sm))%R; apply Rabs_le_inv in FE0; split; [unfold slide_time; apply Rabs_le_inv in ESP; field; lra|]; split; [|split; [exact TS|split; [exact TG|destruct C1 as [C1|C1]; [now left|right]; apply Rle_trans with (1 := C1); lra]]]].
      { apply (count_same L0 (INR (length ps)) (1000 * v / (bt * f)) (Rmin (100 * v / (t * f)) L0) len (len * 10 / slide_time sm bz m len) (tick_gap sm rt m px)).
      - exact VL.
      - exact NI.
      - exact PQ2.
      - exact TS.
      - exact EL.
      - apply Rabs_le_inv in FE0. replace (len * 10 / slide_time sm bz m len)%R with (1000 * sm / (bz * m))%R by (unfold slide_time; apply Rabs_le_inv in ESP; field; repeat split; lra). exact G2.
      - exact TG.
      - exact TC1.
      - exact TC2.
      - exact C1.
      - exact C2. }
      assert (EW : (Rabs (bz * m / (100 * sm) - bt * f / (100 * v)) <= bt * f / (100 * v) * (4 / 1000000000))%R) by (apply (pace_near bt f v bz m sm); [lra|lra|lra|apply Rle_trans with (1 := EB); lra|exact EM|apply Rle_trans with (1 := ESP); lra]).
      replace v0 with (bt * f / (100 * v))%R by (unfold v0, pace; fold v bt f; reflexivity). exact EW. }
    destruct EQ as (-> & PV & v' & ED & EV & PG & EG & NL).
    split.
    { unfold score_points. rewrite K. unfold zlen. rewrite (Permutation_length PM). assert (LD : length pts = (Z.to_nat (dec k) * S N)%nat) by (pose proof (same_length _ _ _ DUE) as Q; rewrite spans_length, seq_length in Q; exact Q). rewrite LD. lia. }
    exists sd, pts. split; [exact K|]. split; [exact PM|]. rewrite ED, ES in DUE. set (d := ((INR (length ps) + 65 / 4) / 2048 + / 1000000000)%R) in *. set (len := B2R (mc_length (sl_curve sd))) in *. assert (Bd : (0 <= d <= 1 / 2)%R) by (unfold d; lra).
    assert (KN : INR (Z.to_nat (dec k)) = IZR (dec k)) by (rewrite INR_IZR_INZ, Z2Nat.id by lia; reflexivity). assert (K1 : (1 <= IZR (dec k))%R) by (apply IZR_le; lia).
    eapply due_off; [|exact DUE|]; [|apply F2_flat; intros i I; apply in_seq in I; apply (span_near _ _ _ _ _ _ _ d); auto; (lra || lia)].
    rewrite KN, (Rabs_pos_eq (IZR (dec (nt_time n)))) by (apply IZR_le; lia). set (kk := IZR (dec k)) in *. set (P := INR (length ps)) in *. set (L0 := value l) in *. fold v0. apply Rabs_le_inv in EV.
    assert (LV' : (len * v' <= (L0 + d) * (v0 * (1 + 4 / 1000000000)))%R) by (apply Rmult_le_compat; lra). assert (KV : (0 < kk * v0)%R) by (apply Rmult_lt_0_compat; lra).
    assert (A : (kk * (len * v') <= kk * ((L0 + d) * (v0 * (1 + 4 / 1000000000))))%R) by (apply Rmult_le_compat_l; lra).
    assert (Bb : (kk * v0 * ((L0 + d) * (1 + 4 / 1000000000) / 500000 + d * (1 + / 100000000) + L0 / 10000000) <= kk * v0 * (L0 / 100000 + (P + 17) / 2048))%R) by (apply Rmult_le_compat_l; [lra|unfold d; lra]). lra. }
  clear -F OKs BRs STEP. revert F. generalize (bm_HitObjects b). induction OKs as [|n ns P FF IH]; intros objs F; inversion F as [|? ? ? ? (F1 & F2) F3]; subst; constructor; inversion BRs as [|? ? B1 B2]; subst; [split; [exact F1|now apply STEP]|now apply IH].
Qed.
Theorem C117_points : forall fuel s b, sheet_ok s -> usual (sh_speed s) -> usual (sh_ticks s) -> Forall lively (sh_tempos s) -> opening (sh_tempos s) -> Forall brief (sh_notes s) ->
  parse_bytes fuel (file_of s) = Ok (Some b) ->
  exists played, by_time (sh_notes s) played /\ Forall2 (fun n o => note_read n o /\ has_points s n o) played (bm_HitObjects b).
Proof. intros fuel s b OK U1 U2 LV OP BR R. destruct (points_due fuel s b OK U1 U2 LV OP BR R) as (pl & BT & F). exists pl. split; [exact BT|]. clear -F. induction F as [|n o ns os (A & B & _) F IH]; constructor; auto. Qed.
Theorem C118_due : forall fuel s b, sheet_ok s -> usual (sh_speed s) -> usual (sh_ticks s) -> Forall lively (sh_tempos s) -> opening (sh_tempos s) -> Forall brief (sh_notes s) ->
  parse_bytes fuel (file_of s) = Ok (Some b) ->
  exists played, by_time (sh_notes s) played /\ Forall2 (fun n o => note_read n o /\ due_on_paper s n o) played (bm_HitObjects b).
Proof. intros fuel s b OK U1 U2 LV OP BR R. destruct (points_due fuel s b OK U1 U2 LV OP BR R) as (pl & BT & F). exists pl. split; [exact BT|]. clear -F. induction F as [|n o ns os (A & _ & B) F IH]; constructor; auto. Qed.
(** The full combo. *)
Theorem C117_combo : forall fuel fuel' s b d a ticks, sheet_ok s -> usual (sh_speed s) -> usual (sh_ticks s) -> Forall lively (sh_tempos s) -> opening (sh_tempos s) -> Forall brief (sh_notes s) ->
  (forall n c ps k l p q, In n (sh_notes s) -> nt_shape n = Slide c ps k l -> in_force (sh_tempos s) (dec (nt_time n)) p -> in_force (beats (sh_tempos s)) (dec (nt_time n)) q -> counted s p q (length ps) l (ticks n)) ->
  parse_bytes fuel (file_of s) = Ok (Some b) -> calculate_single fuel' (bm_HitObjects b) d = Ok a -> at_MaxCombo a = full_combo s ticks.
Proof.
  intros fuel fuel' s b d a ticks OK U1 U2 LV OP BR CT R HA. destruct (C117_points fuel s b OK U1 U2 LV OP BR R) as (pl & (PM & _) & F). destruct (C40_counts _ _ _ _ HA) as (_ & _ & _ & _ & ->). unfold full_combo.
  set (g := fun n : note => 1 + match nt_shape n with Slide _ _ k _ => dec k * (Z.of_nat (ticks n) + 1) | _ => 0 end).
  assert (PI : forall l1 l2, Permutation l1 l2 -> fold_right (fun n c => g n + c) 0 l1 = fold_right (fun n c => g n + c) 0 l2) by (intros l1 l2 Q; induction Q; cbn [fold_right]; lia).
  change (zlen (bm_HitObjects b) + sum_points (bm_HitObjects b) = fold_right (fun n c => g n + c) 0 (sh_notes s)). rewrite (PI _ _ PM).
  assert (CT' : forall n c ps k l p q, In n pl -> nt_shape n = Slide c ps k l -> in_force (sh_tempos s) (dec (nt_time n)) p -> in_force (beats (sh_tempos s)) (dec (nt_time n)) q -> counted s p q (length ps) l (ticks n)) by (intros n c ps k l p q I; apply CT; eapply Permutation_in; [apply Permutation_sym; exact PM|exact I]).
  clear -F CT'. induction F as [|n o ns os (_ & HP) F IH]; [reflexivity|]. cbn [fold_right sum_points]. fold (sum_points os). unfold zlen in *. cbn [length]. rewrite Nat2Z.inj_succ. rewrite <- IH by (intros n' c ps k l p q I; apply (CT' n' c ps k l p q); now right).
  assert (E : score_points o + 1 = g n); [|lia]. unfold g, has_points in *. destruct (nt_shape n) as [|e|c ps k l] eqn:SH; [lia|lia|]. destruct HP as (p & q & I1 & I2 & HN). rewrite (HN (ticks n)); [lia|]. apply (CT' n c ps k l p q); auto. now left.
Qed.
End WithLibm.
(** The map of C115: the first slider has a tick every 87.5 pixels of 140.5, the last every 70
    of 80, so that both have one tick a span, and the full combo is 1 + (1 + 3 * 2) + (1 + 2). *)
Definition beat600 : tempo := mkTempo [3; 0; 0; 0] (L [6; 0; 0] None) false.
Example C117_instance : sheet_ok timed /\ usual (sh_speed timed) /\ usual (sh_ticks timed) /\ Forall lively (sh_tempos timed) /\ opening (sh_tempos timed) /\ Forall brief (sh_notes timed) /\
  (forall n c ps k l p q, In n (sh_notes timed) -> nt_shape n = Slide c ps k l -> in_force (sh_tempos timed) (dec (nt_time n)) p -> in_force (beats (sh_tempos timed)) (dec (nt_time n)) q -> counted timed p q (length ps) l 1) /\
  full_combo timed (fun _ => 1%nat) = 11.
Proof.
  destruct C115_instance as (A1 & A2 & A3 & A4 & A5 & A6 & _ & I1 & I2 & P1). do 6 (split; [assumption|]). split; [|reflexivity].
  assert (E0 : value (tp_beat faster) = (-80)%R) by (cbn [tp_beat faster]; level_in). assert (E2 : value (sh_speed timed) = (14 / 10)%R) by (cbn [sh_speed timed]; level_in). assert (E3 : value (sh_ticks timed) = 2%R) by (cbn [sh_ticks timed]; level_in).
  assert (E4 : value (tp_beat beat600) = 600%R) by (cbn [tp_beat beat600]; level_in).
  assert (F1 : factor faster = (8 / 10)%R) by (unfold factor; cbn [tp_speed faster]; fold faster; rewrite E0, Rmax_right, Rmin_right by lra; lra). assert (F2 : factor beat600 = 1%R) by reflexivity.
  assert (J1 : in_force (sh_tempos timed) 5000 beat600).
  { exists [faster; mkTempo [1; 0] (L [3; 0; 0] None) false; mkTempo [1; 5; 0; 0] (L [4; 0; 0] (Some [2; 5])) false; beat500], []. split; [reflexivity|]. left. split; [cbn; lia|]. split; intros r J; repeat (destruct J as [<-|J]; [cbn; lia|]); destruct J. }
  assert (J2 : in_force (beats (sh_tempos timed)) 5000 beat600).
  { exists [mkTempo [1; 0] (L [3; 0; 0] None) false; mkTempo [1; 5; 0; 0] (L [4; 0; 0] (Some [2; 5])) false; beat500], []. split; [reflexivity|]. left. split; [cbn; lia|]. split; intros r J; repeat (destruct J as [<-|J]; [cbn; lia|]); destruct J. }
  intros n c ps k l p q [<-|[<-|[<-|[]]]] SH H1 H2.
  - change (in_force (sh_tempos timed) 2000 p) in H1. change (in_force (beats (sh_tempos timed)) 2000 q) in H2. rewrite (in_force_one _ _ _ _ I1 H1), (in_force_one _ _ _ _ I2 H2). cbn [nt_shape] in SH. injection SH as <- <- <- <-.
    assert (EL : value (L [1; 4; 0] (Some [5])) = (1405 / 10)%R) by level_in. unfold counted, tick_space. cbv zeta. rewrite P1, F1, E2, E3, EL. cbn [length]. change (INR 2) with (1 + 1)%R. change (INR 1) with 1%R. rewrite Rmin_left by lra. split; [right|]; lra.
  - discriminate SH.
  - change (in_force (sh_tempos timed) 5000 p) in H1. change (in_force (beats (sh_tempos timed)) 5000 q) in H2. rewrite (in_force_one _ _ _ _ J1 H1), (in_force_one _ _ _ _ J2 H2). cbn [nt_shape] in SH. injection SH as <- <- <- <-.
    assert (EL : value (L [8; 0] None) = 80%R) by level_in. assert (P2 : pace timed beat600 beat600 = (600 / 140)%R) by (unfold pace; rewrite F2, E2, E4; lra). unfold counted, tick_space. cbv zeta. rewrite P2, F2, E2, E3, EL. cbn [length]. change (INR 2) with (1 + 1)%R. change (INR 1) with 1%R. rewrite Rmin_left by lra. split; [right|]; lra.
Qed.
(** On the same map the tick of the last slider, 70 pixels along, is due at 5300 and its tail 36 ms
    before its end, both to within 1/20 ms; the second of the three spans of the first goes back. *)
Example C118_instance :
  span_times 5000 (80 * (600 / 140)) 80 70 1 1 0 = [(5300, false); (5000 + 2400 / 7 - 36, false)]%R /\
  (IZR 1 * (80 / 100000 + (INR 1 + 17) / 2048) * (600 / 140) + IZR 5000 / 100000000000000 + / 100000000000 <= / 20)%R /\
  span_times 2000 (1405 / 10 * (400 / 140)) (1405 / 10) (875 / 10) 3 1 1 = [(2000 + 2 * (2810 / 7) - 250, false); (2000 + 2 * (2810 / 7), true)]%R.
Proof.
  split; [|split; [change (INR 1) with 1%R; lra|]].
  - unfold span_times. cbn [seq map app Nat.ltb Nat.leb]. unfold passed. cbn [Nat.even]. change (INR 0) with 0%R. change (INR 1) with 1%R. rewrite Rmax_right by lra. f_equal; [|f_equal]; apply f_equal2; (reflexivity || lra).
  - unfold span_times. cbn [seq map app Nat.ltb Nat.leb]. unfold passed. cbn [Nat.even]. change (INR 2) with (1 + 1)%R. change (INR 1) with 1%R. f_equal; [|f_equal]; apply f_equal2; (reflexivity || lra).
Qed.
Print Assumptions C117_points.
Print Assumptions C117_combo.
Print Assumptions C118_due.

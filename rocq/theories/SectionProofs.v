(** The section loop of the strain skills. *)
From Coq Require Import Reals Lra.
From Flocq Require Import Core BinarySingleNaN.
From Verif Require Import DiffCalc SpecDiff BaseLemmas FloatLemmas Float32Lemmas CurveProofs CurveStart DiffProofs.
Open Scope R_scope.

(** numbers of at least 2^(m-1) are multiples of 2^(m-53) *)
Lemma multiple_of x m : generic_format radix2 (SpecFloat.fexp 53 1024) x -> bpow radix2 (m - 1) <= Rabs x -> exists n, x = IZR n * bpow radix2 (m - 53).
Proof.
  intros F H. assert (NZ : x <> 0). { intros ->. rewrite Rabs_R0 in H. pose proof (bpow_gt_0 radix2 (m - 1)). lra. }
  pose proof (mag_ge_bpow radix2 x m H) as G. assert (E : (m - 53 <= cexp radix2 (SpecFloat.fexp 53 1024) x)%Z) by (unfold cexp, SpecFloat.fexp; lia).
  set (c := cexp radix2 (SpecFloat.fexp 53 1024) x) in *. exists (Ztrunc (scaled_mantissa radix2 (SpecFloat.fexp 53 1024) x) * 2 ^ (c - (m - 53)))%Z.
  rewrite F at 1. unfold F2R. cbn [Fnum Fexp]. fold c. rewrite mult_IZR, Rmult_assoc. f_equal.
  replace (2 ^ (c - (m - 53)))%Z with (Zpower radix2 (c - (m - 53))) by reflexivity. rewrite IZR_Zpower by lia. rewrite <- bpow_plus. f_equal. lia.
Qed.
(** rounding t/400 never crosses an integer *)
Lemma quotient_sound (t : f64) K : fin t -> Rabs (B2R t) <= 9007199254740992 -> (B2R t = 0 \/ bpow radix2 (-1000) <= Rabs (B2R t)) ->
  rnd64 (B2R t / 400) <= IZR K -> B2R t <= 400 * IZR K.
Proof.
  intros F B S H. destruct (Req_dec (B2R t) 0) as [Z|NZ].
  { rewrite Z in H |- *. replace (0 / 400) with 0 in H by field. rewrite rnd64_0 in H. lra. }
  destruct S as [S|S]; [contradiction|]. destruct (Rle_or_lt (B2R t) (400 * IZR K)) as [|G]; [assumption|exfalso].
  set (a := B2R t / 400) in *. assert (Ea : B2R t = 400 * a) by (unfold a; field).
  assert (Na : a <> 0) by (intros E; apply NZ; rewrite Ea, E; ring).
  set (m := mag radix2 a : Z). pose proof (bpow_mag_gt radix2 a) as U. pose proof (bpow_mag_le radix2 a Na) as L. fold m in U, L.
  assert (Aa : Rabs (B2R t) = 400 * Rabs a) by (rewrite Ea, Rabs_mult, (Rabs_pos_eq 400) by lra; reflexivity).
  assert (M1 : (m <= 45)%Z).
  { apply mag_le_bpow; [exact Na|]. change (bpow radix2 45) with 35184372088832. rewrite Aa in B. lra. }
  assert (M2 : (-1008 <= m)%Z).
  { cut (-1009 < m)%Z; [lia|]. apply (lt_bpow radix2). apply Rle_lt_trans with (Rabs a); [|exact U].
    assert (E : bpow radix2 (-1000) = 512 * bpow radix2 (-1009)) by (change 512 with (bpow radix2 9); rewrite <- bpow_plus; reflexivity).
    rewrite Aa, E in S. pose proof (bpow_gt_0 radix2 (-1009)) as PP. set (bb := bpow radix2 (-1009)) in *. clearbody bb. clear - S PP. lra. }
  assert (ER : Rabs (rnd64 a - a) <= / 2 * bpow radix2 (m - 53)).
  { eapply Rle_trans; [apply error_le_half_ulp; typeclasses eauto|]. apply Rmult_le_compat_l; [lra|]. rewrite ulp_neq_0 by exact Na. apply bpow_le.
    unfold cexp. fold m. unfold SpecFloat.fexp, SpecFloat.emin. lia. }
  apply Rabs_le_inv in ER.
  assert (G1 : a - IZR K <= / 2 * bpow radix2 (m - 53)) by lra.
  assert (MT : bpow radix2 (m + 8 - 1) <= Rabs (B2R t)).
  { rewrite Aa. replace (m + 8 - 1)%Z with (8 + (m - 1))%Z by ring. rewrite bpow_plus. change (bpow radix2 8) with 256. pose proof (bpow_gt_0 radix2 (m - 1)). lra. }
  destruct (multiple_of (B2R t) (m + 8) (generic_format_B2R 53 1024 t) MT) as (n & En). replace (m + 8 - 53)%Z with (m - 45)%Z in En by ring.
  assert (EK : 400 * IZR K = IZR (400 * K * 2 ^ (45 - m)) * bpow radix2 (m - 45)).
  { rewrite !mult_IZR. replace (2 ^ (45 - m))%Z with (Zpower radix2 (45 - m)) by reflexivity. rewrite IZR_Zpower by lia. rewrite Rmult_assoc, <- bpow_plus.
    replace (45 - m + (m - 45))%Z with 0%Z by ring. cbn [bpow]. ring. }
  set (w := (400 * K * 2 ^ (45 - m))%Z) in *. pose proof (bpow_gt_0 radix2 (m - 45)) as P. rewrite En, EK in G.
  assert (G2 : (w < n)%Z) by (apply lt_IZR; nra). assert (G3 : IZR w + 1 <= IZR n) by (rewrite <- plus_IZR; apply IZR_le; lia).
  assert (E8 : bpow radix2 (m - 45) = 256 * bpow radix2 (m - 53)) by (change 256 with (bpow radix2 8); rewrite <- bpow_plus; f_equal; ring).
  pose proof (bpow_gt_0 radix2 (m - 53)) as P'. assert (H0 : B2R t - 400 * IZR K <= 200 * bpow radix2 (m - 53)) by lra. rewrite En, EK, E8 in H0. nra.
Qed.
Lemma quotient_ceil (t : f64) : time_ok t -> Zceil (rnd64 (B2R t / 400)) = section_of (B2R t).
Proof.
  intros (F & B & S). unfold section_of. apply Zceil_imp. assert (F' : fin t) by exact F. split.
  - pose proof (Zceil_ub (B2R t / 400)) as U. pose proof (Zceil_lb (B2R t / 400)) as L.
    set (K := Zceil (B2R t / 400)) in *. apply Rnot_le_lt. intros H.
    pose proof (quotient_sound t (K - 1) F' B S H) as Q. rewrite minus_IZR in *. lra.
  - pose proof (Zceil_ub (B2R t / 400)) as U. set (K := Zceil (B2R t / 400)) in *. apply rnd64_exact_Z; [|exact U].
    assert (Rabs (IZR K) <= 35184372088832); [|rewrite <- abs_IZR in H; apply le_IZR in H; lia].
    pose proof (Zceil_lb (B2R t / 400)). fold K in H. apply Rabs_le_inv in B. apply Rabs_le. lra.
Qed.
Lemma section_bound t : Rabs t <= 9007199254740992 -> (Z.abs (section_of t) <= 22517998136853)%Z.
Proof.
  intros B. unfold section_of. pose proof (Zceil_ub (t / 400)) as U. pose proof (Zceil_lb (t / 400)) as L. apply Rabs_le_inv in B. set (K := Zceil (t / 400)) in *.
  assert (H1 : IZR K < IZR 22517998136854) by lra. assert (H2 : IZR (-22517998136853) <= IZR K) by lra.
  apply lt_IZR in H1. apply le_IZR in H2. lia.
Qed.
Lemma rnd64_even z : (Z.abs (25 * z) < 2 ^ 53)%Z -> rnd64 (IZR (400 * z)) = IZR (400 * z).
Proof.
  intros H. apply round_generic; [typeclasses eauto|].
  assert (E : F2R (Float radix2 (25 * z) 4) = IZR (400 * z)).
  { unfold F2R. cbn [Fnum Fexp]. change (bpow radix2 4) with 16. rewrite <- mult_IZR. f_equal. ring. }
  rewrite <- E. apply generic_format_F2R. intros Hz. unfold cexp.
  assert (Hm : (mag radix2 (F2R (Float radix2 (25 * z) 4)) <= 57)%Z).
  { apply mag_le_bpow; [rewrite E; apply IZR_neq; lia|]. rewrite E, <- abs_IZR. change (bpow radix2 57) with (IZR (2 ^ 57)). apply IZR_lt. lia. }
  unfold SpecFloat.fexp, SpecFloat.emin. cbn [Fexp]. lia.
Qed.
Lemma section_length_val : fin section_length /\ B2R section_length = 400.
Proof. apply (fq1_exact 400). lia. Qed.
Lemma fceil_val (x : f64) : fin x -> fin (fceil x) /\ B2R (fceil x) = IZR (Zceil (B2R x)).
Proof.
  intros F. destruct (Bnearbyint_correct 53 1024 pe53 mode_UP x) as (E & F' & _). unfold fceil. split; [unfold fin; rewrite F'; exact F|].
  rewrite E. unfold round, F2R, scaled_mantissa, cexp, FIX_exp. cbn [Fnum Fexp bpow Z.opp round_mode]. now rewrite !Rmult_1_r.
Qed.
(** the end of the first section *)
Lemma first_end t : time_ok t -> fin (fmul (fceil (fdiv t section_length)) section_length) /\
  B2R (fmul (fceil (fdiv t section_length)) section_length) = 400 * IZR (section_of (B2R t)).
Proof.
  intros T. pose proof T as (F & B & S). assert (F' : fin t) by exact F. destruct section_length_val as (Fl & El).
  destruct (fdiv_fin t section_length F' Fl) as (Fq & Eq); [rewrite El; lra| |].
  { apply small_1023. rewrite El. apply Rabs_le_inv in B. apply Rabs_le. lra. }
  rewrite El in Eq. destruct (fceil_val _ Fq) as (Fc & Ec). rewrite Eq, (quotient_ceil t T) in Ec.
  pose proof (section_bound _ B) as SB. assert (E400 : 400 * IZR (section_of (B2R t)) = IZR (400 * section_of (B2R t))) by (rewrite mult_IZR; reflexivity).
  destruct (fmul_fin _ section_length Fc Fl) as (Fm & Em).
  { rewrite Ec, El, Rmult_comm, E400. apply IZR_bound with 60%Z; lia. }
  split; [exact Fm|]. rewrite Em, Ec, El, Rmult_comm, E400. apply rnd64_even. lia.
Qed.

Section WithLibm.
Context {M : libm}.

Lemma max_section k t : (k <= Z.max k (section_of t))%Z. Proof. lia. Qed.
Lemma fgt_section (t e : f64) K : time_ok t -> fin e -> B2R e = 400 * IZR K ->
  fgt t e = Z.ltb K (section_of (B2R t)).
Proof.
  intros (Ft & _) Fe E. rewrite fgt_bool by assumption. rewrite E. unfold section_of.
  pose proof (Zceil_ub (B2R t / 400)) as U. pose proof (Zceil_lb (B2R t / 400)) as L. set (C := Zceil (B2R t / 400)) in *. clearbody C.
  destruct (Z.ltb_spec K C) as [H|H].
  - apply Rlt_bool_true. assert (H' : IZR K <= IZR C - 1) by (rewrite <- minus_IZR; apply IZR_le; lia). lra.
  - apply Rlt_bool_false. apply IZR_le in H. lra.
Qed.
Lemma next_end (e : f64) K : fin e -> B2R e = 400 * IZR K -> (Z.abs (25 * (K + 1)) < 2 ^ 53)%Z ->
  fin (fadd e section_length) /\ B2R (fadd e section_length) = 400 * IZR (K + 1).
Proof.
  intros Fe E B. destruct section_length_val as (Fl & El). assert (E1 : B2R e + B2R section_length = IZR (400 * (K + 1))) by (rewrite E, El, !mult_IZR, plus_IZR; ring).
  destruct (fadd_fin e section_length Fe Fl) as (F & EE); [rewrite E1; apply IZR_bound with 60%Z; lia|].
  split; [exact F|]. rewrite EE, E1, (rnd64_even _ B). now rewrite mult_IZR.
Qed.
Lemma loop_sections k t (T : time_ok t) fuel : forall s K, sk_prev s <> [] -> fin (sk_end s) -> B2R (sk_end s) = 400 * IZR K -> (Z.abs K <= 22517998136853)%Z ->
  (Z.max K (section_of (B2R t)) - K <= Z.of_nat fuel)%Z ->
  exists s', section_loop fuel k t s = Ok s' /\ sk_prev s' = sk_prev s /\ fin (sk_end s') /\ B2R (sk_end s') = 400 * IZR (Z.max K (section_of (B2R t))) /\
    (zlen (sk_peaks s') = zlen (sk_peaks s) + (Z.max K (section_of (B2R t)) - K))%Z.
Proof.
  pose proof T as (_ & B & _). apply section_bound in B.
  induction fuel as [|fuel IH]; intros s K P F E BK HF; cbn [section_loop]; rewrite (fgt_section t (sk_end s) K T F E); destruct (Z.ltb_spec K (section_of (B2R t))) as [H|H].
  - exfalso. lia.
  - exists s. rewrite Z.max_l by lia. repeat split; auto. lia.
  - unfold initial_strain. destruct (sk_prev s) as [|p r] eqn:EP; [contradiction|]. cbn [bind].
    destruct (next_end (sk_end s) K F E) as (F1 & E1); [lia|].
    match goal with |- context [section_loop fuel k t ?s1] => destruct (IH s1 (K + 1)%Z) as (s' & -> & P' & F' & E' & L') end; cbn [sk_prev sk_end sk_peaks]; [congruence|exact F1|exact E1|lia|lia|].
    exists s'. split; [reflexivity|]. cbn [sk_prev sk_peaks] in *. split; [exact P'|]. split; [exact F'|]. rewrite Z.max_r in * by lia. split; [exact E'|].
    rewrite L'. unfold zlen. rewrite app_length. cbn [length]. lia.
  - exists s. rewrite Z.max_l by lia. repeat split; auto. lia.
Qed.
Definition at_section (K : Z) (n : Z) (s : skill) : Prop :=
  sk_prev s <> [] /\ fin (sk_end s) /\ B2R (sk_end s) = 400 * IZR K /\ zlen (sk_peaks s) = n.
Lemma process_sections fuel k d s o K n : time_ok (do_StartTime o) -> at_section K n s -> (Z.abs K <= 22517998136853)%Z ->
  (Z.max K (section_of (B2R (do_StartTime o))) - K <= Z.of_nat fuel)%Z ->
  exists s', process fuel k d s o = Ok s' /\ at_section (Z.max K (section_of (B2R (do_StartTime o)))) (n + (Z.max K (section_of (B2R (do_StartTime o))) - K)) s'.
Proof.
  intros T (P & F & E & L) BK HF. unfold process. destruct (history_pos k) as (h & ->).
  destruct (firstn (S h) (sk_prev s)) as [|p r] eqn:EP; [apply firstn_nil_iff in EP; contradiction|].
  match goal with |- context [section_loop fuel k ?t ?s1] => destruct (loop_sections k t T fuel s1 K) as (s' & -> & P' & F' & E' & L') end; cbn [sk_prev sk_end]; [discriminate|exact F|exact E|exact BK|exact HF|].
  cbn [bind]. assert (exists rh, match k with Speed => speed_bonus d (p :: r) o | _ => Ok (sk_rhythm s') end = Ok rh) as (rh & ->) by (destruct k; [eauto|apply speed_bonus_ok|eauto]).
  cbn [bind]. eexists. split; [reflexivity|]. unfold at_section. cbn [sk_prev sk_end sk_peaks] in *. split; [discriminate|]. split; [exact F'|]. split; [exact E'|]. now rewrite L', L.
Qed.
Lemma process_first fuel k d o : time_ok (do_StartTime o) ->
  exists s', process fuel k d skill0 o = Ok s' /\ at_section (section_of (B2R (do_StartTime o))) 0 s'.
Proof.
  intros T. unfold process. destruct (history_pos k) as (h & ->). change (firstn (S h) (sk_prev skill0)) with (@nil dobj). cbn [sk_strain sk_rhythm sk_peak sk_peaks skill0].
  destruct (first_end _ T) as (F & E). set (e := fmul (fceil (fdiv (do_StartTime o) section_length)) section_length) in *. clearbody e.
  assert (G : fgt (do_StartTime o) e = false) by (rewrite (fgt_section _ _ _ T F E); apply Z.ltb_irrefl).
  assert (SL : forall s1, sk_end s1 = e -> section_loop fuel k (do_StartTime o) s1 = Ok s1) by (intros s1 H; destruct fuel; cbn [section_loop]; now rewrite H, G).
  rewrite SL by reflexivity. cbn [bind sk_rhythm sk_strain sk_peak sk_peaks sk_end].
  assert (exists rh, match k with Speed => speed_bonus d [] o | _ => Ok f0 end = Ok rh) as (rh & ->) by (destruct k; [eauto|apply speed_bonus_ok|eauto]).
  cbn [bind]. eexists. split; [reflexivity|]. unfold at_section. cbn [sk_prev sk_end sk_peaks]. split; [discriminate|]. auto.
Qed.
(** all skills together *)
Definition all_at (K n : Z) (s : skills) : Prop :=
  at_section K n (cs_aim s) /\ at_section K n (cs_aimNS s) /\ at_section K n (cs_speed s) /\ match cs_flash s with Some f => at_section K n f | None => True end.
Lemma all_sections fuel d s o K n : time_ok (do_StartTime o) -> all_at K n s -> (Z.abs K <= 22517998136853)%Z ->
  (Z.max K (section_of (B2R (do_StartTime o))) - K <= Z.of_nat fuel)%Z ->
  exists s', process_all fuel d s o = Ok s' /\ all_at (Z.max K (section_of (B2R (do_StartTime o)))) (n + (Z.max K (section_of (B2R (do_StartTime o))) - K)) s'.
Proof.
  intros T (A1 & A2 & A3 & A4) BK HF. unfold process_all.
  destruct (process_sections fuel (Aim true) d _ o K n T A1 BK HF) as (a & -> & Ha). cbn [bind].
  destruct (process_sections fuel (Aim false) d _ o K n T A2 BK HF) as (b & -> & Hb). cbn [bind].
  destruct (process_sections fuel Speed d _ o K n T A3 BK HF) as (c & -> & Hc). cbn [bind].
  destruct (cs_flash s) as [f|].
  - destruct (process_sections fuel Flash d _ o K n T A4 BK HF) as (e & -> & He). cbn [rmap bind]. eexists. split; [reflexivity|]. repeat split; try apply Ha; try apply Hb; try apply Hc; try apply He.
  - cbn [bind]. eexists. split; [reflexivity|]. repeat split; try apply Ha; try apply Hb; try apply Hc.
Qed.
Lemma all_first fuel d o : time_ok (do_StartTime o) ->
  exists s', process_all fuel d (new_skills d) o = Ok s' /\ all_at (section_of (B2R (do_StartTime o))) 0 s'.
Proof.
  intros T. unfold process_all, new_skills. cbn [cs_aim cs_aimNS cs_speed cs_flash].
  destruct (process_first fuel (Aim true) d o T) as (a & -> & Ha). cbn [bind].
  destruct (process_first fuel (Aim false) d o T) as (b & -> & Hb). cbn [bind].
  destruct (process_first fuel Speed d o T) as (c & -> & Hc). cbn [bind].
  destruct (check_mod d Flashlight).
  - destruct (process_first fuel Flash d o T) as (e & -> & He). cbn [rmap bind]. eexists. split; [reflexivity|]. repeat split; try apply Ha; try apply Hb; try apply Hc; try apply He.
  - cbn [bind]. eexists. split; [reflexivity|]. repeat split; try apply Ha; try apply Hb; try apply Hc.
Qed.
Lemma max_fold ts : forall K, (K <= fold_left (fun k u => Z.max k (section_of u)) ts K)%Z.
Proof. induction ts as [|t ts IH]; intros K; cbn [fold_left]; [lia|]. specialize (IH (Z.max K (section_of t))). lia. Qed.
Lemma fold_sections fuel d dos : forall s K n, Forall (fun o => time_ok (do_StartTime o)) dos -> all_at K n s -> (Z.abs K <= 22517998136853)%Z ->
  let K' := fold_left (fun k u => Z.max k (section_of u)) (map (fun o => B2R (do_StartTime o)) dos) K in
  (K' - K <= Z.of_nat fuel)%Z -> exists s', foldM (process_all fuel d) s dos = Ok s' /\ all_at K' (n + (K' - K)) s'.
Proof.
  induction dos as [|o dos IH]; intros s K n T A BK K' HF; cbn [foldM map fold_left] in *.
  - exists s. split; [reflexivity|]. subst K'. now rewrite Z.sub_diag, Z.add_0_r.
  - inversion T as [|? ? T1 T2]; subst. pose proof (max_fold (map (fun o => B2R (do_StartTime o)) dos) (Z.max K (section_of (B2R (do_StartTime o))))) as MF. fold K' in MF.
    pose proof T1 as (_ & B & _). apply section_bound in B.
    destruct (all_sections fuel d s o K n T1 A BK ltac:(lia)) as (s1 & -> & A1). cbn [bind].
    destruct (IH s1 _ _ T2 A1 ltac:(lia) ltac:(unfold K' in *; lia)) as (s' & E & A'). exists s'. split; [exact E|]. fold K' in A'.
    replace (n + (K' - K))%Z with (n + (Z.max K (section_of (B2R (do_StartTime o))) - K) + (K' - Z.max K (section_of (B2R (do_StartTime o)))))%Z by ring. exact A'.
Qed.
Lemma run_sections fuel d dos : Forall (fun o => time_ok (do_StartTime o)) dos -> (boundaries (map (fun o => B2R (do_StartTime o)) dos) <= Z.of_nat fuel)%Z ->
  exists s, foldM (process_all fuel d) (new_skills d) dos = Ok s /\ zlen (sk_peaks (cs_aim s)) = boundaries (map (fun o => B2R (do_StartTime o)) dos).
Proof.
  intros T HF. destruct dos as [|o dos]; [exists (new_skills d); split; reflexivity|]. cbn [foldM map boundaries] in *. inversion T as [|? ? T1 T2]; subst.
  destruct (all_first fuel d o T1) as (s1 & -> & A). cbn [bind]. pose proof T1 as (_ & B & _). apply section_bound in B.
  destruct (fold_sections fuel d dos s1 _ 0 T2 A B HF) as (s & E & (_ & _ & _ & L) & _). exists s. split; [exact E|exact L].
Qed.
End WithLibm.

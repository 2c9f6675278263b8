(** Proofs about poly-line curves: sections, lookups, ends. *)
From Coq Require Import Reals Lra ZArith Lia Bool.
From Flocq Require Import Core BinarySingleNaN.
From Verif Require Import GoFloat Curves Objects SpecCurves BaseLemmas SortLemmas FloatLemmas Float32Lemmas KeyLemmas BoundLemmas BezierProofs.
Import ListNotations.
Open Scope R_scope.

Section WithLibm.
Context {M : libm}.

(** ** Built curves *)
(** what both constructors make of a list of lines *)
Definition built (mc : multicurve) : Prop := exists ls p, mc = finish_curve ls p.
Lemma new_multicurve_built fuel typ pts mc : new_multicurve fuel typ pts = Ok mc ->
  exists ls p r, curve_lines fuel typ pts = Ok ls /\ pts = p :: r /\ mc = finish_curve ls p.
Proof.
  unfold new_multicurve. destruct (curve_lines fuel typ pts) as [ls| |]; cbn [bind]; try discriminate.
  destruct pts as [|p r]; [discriminate|]. intros H. injection H as <-. exists ls, p, r. auto.
Qed.
Lemma new_multicurve_t_built fuel typ pts len mc : new_multicurve_t fuel typ pts len = Ok mc ->
  exists ls p r, curve_lines fuel typ pts = Ok ls /\ pts = p :: r /\
    mc = finish_curve (if ggt (total_length ls) g0 then rev (trim_lines (rev ls) (fsub (f_of_g (total_length ls)) len)) else ls) p.
Proof.
  unfold new_multicurve_t. destruct (new_multicurve fuel typ pts) as [mc0| |] eqn:E; cbn [bind]; try discriminate.
  apply new_multicurve_built in E as (ls & p & r & E & -> & ->). intros H. injection H as <-. exists ls, p, r. split; [exact E|]. split; reflexivity.
Qed.

Lemma section_sums_length s ls : length (section_sums s ls) = length ls.
Proof. revert s. induction ls; intros s; cbn; [reflexivity|]. now rewrite IHls. Qed.
Lemma section_last s ls : fold_left (fun acc l => gadd acc (ln_length l)) ls s = last (s :: section_sums s ls) s.
Proof.
  revert s. induction ls as [|l ls IH]; intros s; [reflexivity|]. cbn [fold_left section_sums]. rewrite IH.
  change (last (s :: gadd s (ln_length l) :: section_sums (gadd s (ln_length l)) ls) s)
    with (last (gadd s (ln_length l) :: section_sums (gadd s (ln_length l)) ls) s).
  apply last_any. discriminate.
Qed.

Lemma mc_index_range ls p t : ls <> [] -> (fst (mc_index (finish_curve ls p) t) < length ls)%nat.
Proof. intros H. unfold mc_index. cbn [fst mc_lines finish_curve]. destruct ls; [congruence|]. cbn [length]. lia. Qed.
Lemma point_at_total ls p t : exists q, mc_point_at (finish_curve ls p) t = Ok q.
Proof.
  unfold mc_point_at. destruct (mc_lines (finish_curve ls p)) as [|l0 ls0] eqn:E; [now exists p|].
  cbn in E. rewrite <- E. destruct (geq _ _); [now exists p|].
  pose proof (mc_index_range ls p t) as R. destruct (mc_index (finish_curve ls p) t) as [i d]. cbn [fst] in R.
  assert (NE : ls <> []) by (rewrite E; discriminate). specialize (R NE).
  assert (LS : length (mc_sections (finish_curve ls p)) = S (length ls)) by (cbn; now rewrite section_sums_length).
  destruct (idx_range (mc_sections (finish_curve ls p)) (Z.of_nat i + 1)) as (hi & -> & _); [unfold zlen; rewrite LS; lia|].
  destruct (idx_range (mc_sections (finish_curve ls p)) (Z.of_nat i)) as (lo & -> & _); [unfold zlen; rewrite LS; lia|].
  destruct (idx_range ls (Z.of_nat i)) as (l & -> & _); [unfold zlen; lia|].
  cbn [bind]. destruct (geq _ _); eexists; reflexivity.
Qed.
Lemma line_at_total ls p t : exists l, mc_line_at (finish_curve ls p) t = Ok l.
Proof.
  unfold mc_line_at. destruct (mc_lines (finish_curve ls p)) as [|l0 ls0] eqn:E; [eexists; reflexivity|].
  cbn in E. rewrite <- E. destruct (idx_range ls (Z.of_nat (fst (mc_index (finish_curve ls p) t)))) as (l & -> & _).
  - pose proof (mc_index_range ls p t). unfold zlen. rewrite E in *. specialize (H ltac:(discriminate)). lia.
  - now exists l.
Qed.
Lemma angles_total ls p t : (exists a, mc_start_angle_at (finish_curve ls p) t = Ok a) /\ (exists a, mc_end_angle_at (finish_curve ls p) t = Ok a).
Proof.
  unfold mc_start_angle_at, mc_end_angle_at. destruct (line_at_total ls p t) as (l & ->).
  destruct (mc_lines (finish_curve ls p)); cbn [bind]; split; eexists; reflexivity.
Qed.

(** ** Monotone sections *)
Definition nlen (l : linear) : Prop := nn (ln_length l).
Lemma vfin_nlen l : vfin (ln_p1 l) -> vfin (ln_p2 l) -> nlen l.
Proof. apply vdst_nn. Qed.
Lemma gle_nn a b : nn a -> nn b -> key a <= key b -> gle a b = true.
Proof. intros [Na _] [Nb _] K. apply gle_iff. auto. Qed.
Lemma nn_0 : nn g0. Proof. split; [reflexivity|]. cbn. lra. Qed.
Lemma sections_nn ls : forall s, nn s -> Forall nlen ls -> Forall (fun x => nn x /\ key s <= key x) (section_sums s ls).
Proof.
  induction ls as [|l ls IH]; intros s Hs F; [constructor|]. inversion F as [|? ? Hl F']; subst. cbn [section_sums].
  destruct (nn_plus 24 128 s (ln_length l) Hs Hl) as (N & K & _). fold (gadd s (ln_length l)) in N, K.
  constructor; [auto|]. eapply Forall_impl; [|apply IH; [exact N|exact F']]. intros x [H1 H2]. split; [exact H1|lra].
Qed.
Lemma sections_sorted ls : forall s i j a b, nn s -> Forall nlen ls -> (i <= j)%nat ->
  nth_error (s :: section_sums s ls) i = Some a -> nth_error (s :: section_sums s ls) j = Some b -> gle a b = true.
Proof.
  induction ls as [|l ls IH]; intros s i j a b Hs F L Ha Hb.
  - destruct j as [|[|j]]; try discriminate. destruct i; [|lia]. cbn in *. injection Ha as <-. injection Hb as <-. apply gle_nn; auto. lra.
  - destruct i as [|i].
    + cbn in Ha. injection Ha as <-. destruct j as [|j]; cbn in Hb; [injection Hb as <-; apply gle_nn; auto; lra|].
      pose proof (sections_nn (l :: ls) s Hs F) as G. rewrite Forall_forall in G. destruct (G b) as [G1 G2]; [eapply nth_error_In; exact Hb|]. now apply gle_nn.
    + destruct j as [|j]; [lia|]. inversion F as [|? ? Hl F']; subst.
      apply (IH (gadd s (ln_length l)) i j a b); auto; [|lia]. exact (proj1 (nn_plus 24 128 s (ln_length l) Hs Hl)).
Qed.

(** ** A finite total means finite parts *)
Lemma total_fin_acc ls : forall s, fin (fold_left (fun acc l => gadd acc (ln_length l)) ls s) -> fin s /\ Forall (fun l => fin (ln_length l)) ls.
Proof.
  induction ls as [|l ls IH]; intros s H; [split; [exact H|constructor]|]. cbn [fold_left] in H. apply IH in H as [H F].
  apply gadd_inv in H as [Hs Hl]. split; [exact Hs|]. now constructor.
Qed.
Lemma total_fin ls : fin (total_length ls) -> Forall (fun l => fin (ln_length l)) ls.
Proof. intros H. now apply total_fin_acc in H. Qed.
Lemma fin_line l : fin (ln_length l) -> vfin (ln_p1 l) /\ vfin (ln_p2 l) /\ nlen l.
Proof. intros H. destruct (vdst_inv _ _ H) as (A & B & _). split; [exact A|]. split; [exact B|]. now apply vfin_nlen. Qed.
Lemma total_fin_nn ls : fin (total_length ls) -> Forall nlen ls.
Proof. intros H. eapply Forall_impl; [|apply total_fin, H]. intros l Hl. now apply fin_line. Qed.

(** ** Clamping *)
Lemma B2SF_eq {p e} (x y : binary_float p e) : B2SF x = B2SF y -> x = y.
Proof. apply B2SF_inj. Qed.
Lemma fmax_gt x y : flt y x = true -> is_pinf x = false -> fmax x y = x.
Proof.
  intros H I. apply flt_iff in H as (Ny & Nx & K). unfold fmax. rewrite I.
  assert (is_pinf y = false) as ->.
  { destruct y as [|[]| |]; try reflexivity. exfalso. rewrite (key_inf 53 1024) in K. destruct (is_finite x) eqn:F.
    - rewrite (key_fin 53 1024 x F) in K. pose proof (B2R_lt 53 1024 x F). lra.
    - destruct x as [|[]| |]; try discriminate. rewrite (key_inf 53 1024) in K. pose proof (bpow_gt_0 radix2 1024). lra. }
  unfold fisnan. unfold num in Nx, Ny. rewrite Nx, Ny. cbn [orb].
  assert (is_zero x && is_zero y = false) as ->.
  { destruct x as [s| | |]; try reflexivity. destruct y as [s'| | |]; try reflexivity. exfalso. cbn in K. lra. }
  assert (fgt x y = true) as ->; [|reflexivity]. apply fgt_iff. auto.
Qed.
Lemma fmax_lt x y : flt x y = true -> fmax x y = y.
Proof.
  intros H. apply flt_iff in H as (Nx & Ny & K). unfold fmax.
  assert (is_pinf x = false) as ->.
  { destruct x as [|[]| |]; try reflexivity. exfalso. rewrite (key_inf 53 1024) in K. destruct (is_finite y) eqn:F.
    - rewrite (key_fin 53 1024 y F) in K. pose proof (B2R_lt 53 1024 y F). lra.
    - destruct y as [|[]| |]; try discriminate; rewrite (key_inf 53 1024) in K; pose proof (bpow_gt_0 radix2 1024); lra. }
  destruct (is_pinf y) eqn:I; [destruct y as [|[]| |]; try discriminate; reflexivity|].
  unfold fisnan. unfold num in Nx, Ny. rewrite Nx, Ny. cbn [orb].
  assert (is_zero x && is_zero y = false) as ->.
  { destruct x as [s| | |]; try reflexivity. destruct y as [s'| | |]; try reflexivity. exfalso. cbn in K. lra. }
  assert (fgt x y = false) as ->; [|reflexivity]. apply fgt_false; auto. lra.
Qed.
Lemma fmax_gt' x y : flt y x = true -> fmax x y = x.
Proof. intros H. destruct (is_pinf x) eqn:I; [|now apply fmax_gt]. destruct x as [|[]| |]; try discriminate. reflexivity. Qed.
Lemma fmin_lt x y : flt x y = true -> fmin x y = x.
Proof.
  intros H. apply flt_iff in H as (Nx & Ny & K). unfold fmin.
  assert (I : is_ninf y = false).
  { destruct y as [|[]| |]; try reflexivity. exfalso. rewrite (key_inf 53 1024) in K. destruct (is_finite x) eqn:F.
    - rewrite (key_fin 53 1024 x F) in K. pose proof (B2R_lt 53 1024 x F). lra.
    - destruct x as [|[]| |]; try discriminate; rewrite (key_inf 53 1024) in K; pose proof (bpow_gt_0 radix2 1024); lra. }
  rewrite I, orb_false_r. destruct (is_ninf x) eqn:I2; [destruct x as [|[]| |]; try discriminate; reflexivity|].
  unfold fisnan. unfold num in Nx, Ny. rewrite Nx, Ny. cbn [orb].
  assert (is_zero x && is_zero y = false) as ->.
  { destruct x as [s| | |]; try reflexivity. destruct y as [s'| | |]; try reflexivity. exfalso. cbn in K. lra. }
  assert (flt x y = true) as ->; [|reflexivity]. apply flt_iff. auto.
Qed.
Lemma fmin_gt x y : flt y x = true -> fmin x y = y.
Proof.
  intros H. apply flt_iff in H as (Ny & Nx & K). unfold fmin.
  assert (I : is_ninf x = false).
  { destruct x as [|[]| |]; try reflexivity. exfalso. rewrite (key_inf 53 1024) in K. destruct (is_finite y) eqn:F.
    - rewrite (key_fin 53 1024 y F) in K. pose proof (B2R_lt 53 1024 y F). lra.
    - destruct y as [|[]| |]; try discriminate; rewrite (key_inf 53 1024) in K; pose proof (bpow_gt_0 radix2 1024); lra. }
  rewrite I. cbn [orb]. destruct (is_ninf y) eqn:I2; [destruct y as [|[]| |]; try discriminate; reflexivity|].
  unfold fisnan. unfold num in Nx, Ny. rewrite Nx, Ny. cbn [orb].
  assert (is_zero x && is_zero y = false) as ->.
  { destruct x as [s| | |]; try reflexivity. destruct y as [s'| | |]; try reflexivity. exfalso. cbn in K. lra. }
  assert (flt x y = false) as ->; [|reflexivity]. apply flt_false; auto. lra.
Qed.
Lemma fmax_self x : fisnan x = false -> fmax x x = x.
Proof.
  intros N. unfold fmax. destruct (is_pinf x) eqn:I; [destruct x as [|[]| |]; try discriminate; reflexivity|]. cbn [orb]. rewrite N. cbn [orb].
  destruct (is_zero x) eqn:Z; cbn [andb]; [destruct (Bsign x); reflexivity|]. destruct (fgt x x); reflexivity.
Qed.
Lemma fmin_self x : fisnan x = false -> fmin x x = x.
Proof.
  intros N. unfold fmin. destruct (is_ninf x) eqn:I; [destruct x as [|[]| |]; try discriminate; reflexivity|]. cbn [orb]. rewrite N. cbn [orb].
  destruct (is_zero x) eqn:Z; cbn [andb]; [destruct (Bsign x); reflexivity|]. destruct (flt x x); reflexivity.
Qed.

Lemma clamp_low t : gle t g0 = true -> clampF32 t g0 (gq 1 1) = clampF32 g0 g0 (gq 1 1).
Proof.
  intros H. unfold clampF32, gmax. assert (fmax (f_of_g g0) (f_of_g t) = fmax (f_of_g g0) (f_of_g g0)) as ->; [|reflexivity].
  change (f_of_g g0) with (B754_zero false : f64). destruct t as [s|s| |s m e b] eqn:Et.
  - destruct s; reflexivity.
  - destruct s; [reflexivity|discriminate H].
  - discriminate H.
  - rewrite <- Et in *. assert (F : fin t) by (subst; reflexivity). destruct (f_of_g_fin t F) as [F' V].
    change (fmax (B754_zero false) (B754_zero false)) with (B754_zero false : f64). apply fmax_gt'.
    apply flt_iff. split; [apply fin_num; exact F'|]. split; [reflexivity|]. rewrite (key_fin 53 1024 _ F'), V. cbn [key B2R].
    apply gle_iff in H as (_ & _ & H). rewrite (key_fin 24 128 t F) in H. cbn [key B2R g0] in H.
    destruct H as [H|H]; [exact H|]. exfalso. subst t. cbn [B2R] in H. apply eq_0_F2R in H. destruct s; discriminate H.
Qed.
Lemma clamp_high t : gge t (gq 1 1) = true -> clampF32 t g0 (gq 1 1) = clampF32 (gq 1 1) g0 (gq 1 1).
Proof.
  intros H. apply gge_iff in H as (Nt & N1 & K). set (one := gq 1 1) in *.
  destruct (gq1_exact 1 ltac:(lia)) as [F1 V1]. fold one in F1, V1.
  assert (K1 : key one = 1) by (rewrite (key_fin 24 128 one F1); exact V1).
  destruct (Rle_lt_or_eq_dec _ _ K) as [L|E].
  2:{ assert (t = one) as ->; [|reflexivity]. apply key_inj; auto. rewrite <- E, K1. lra. }
  unfold clampF32, gmin.
  assert (GM : forall x, num x -> key one <= key x -> gmax g0 x = g_of_f (f_of_g x)).
  { intros x Nx Kx. unfold gmax. rewrite fmax_lt; [reflexivity|]. apply flt_iff. split; [reflexivity|]. split; [now apply f_of_g_num|].
    apply (proj1 (f_of_g_key g0 eq_refl x Nx)). cbn [key B2R g0]. lra. }
  assert (ID : forall x : f32, num x -> key one <= key x -> g_of_f (f_of_g x) = x).
  { intros x Nx Kx. destruct x as [s|s| |s m e b] eqn:Ex; try reflexivity. rewrite <- Ex in *. assert (F : fin x) by (subst; reflexivity).
    destruct (f_of_g_fin x F) as [F' V]. destruct (g_of_f_ork (f_of_g x) F') as [N2 K2]. rewrite V, (ork_key 24 128 x F) in K2.
    apply key_inj; auto. rewrite K2. lra. }
  rewrite (GM t Nt) by lra. rewrite (ID t Nt) by lra. rewrite (GM one N1) by lra. rewrite (ID one N1) by lra.
  rewrite fmin_lt; [|apply flt_iff; split; [now apply f_of_g_num|split; [now apply f_of_g_num|now apply (f_of_g_key one)]]].
  rewrite fmin_self; [reflexivity|]. now apply f_of_g_num.
Qed.
Lemma point_clamped mc t u : clampF32 t g0 (gq 1 1) = clampF32 u g0 (gq 1 1) -> mc_point_at mc t = mc_point_at mc u.
Proof. intros H. unfold mc_point_at, mc_index. rewrite H. reflexivity. Qed.
Lemma slider_before p start en sd t : flt t start = true -> slider_position_at p start en sd t = slider_position_at p start en sd start.
Proof.
  intros H. unfold slider_position_at, slider_progress, clampF64. rewrite (fmax_gt' start t H).
  apply flt_iff in H as (_ & N & _). now rewrite (fmax_self start N).
Qed.
Lemma slider_after p start en sd t : fisnan start = false -> flt en t = true -> slider_position_at p start en sd t = slider_position_at p start en sd en.
Proof.
  intros Ns H. unfold slider_position_at. destruct (is_retarded start en) eqn:R; [reflexivity|].
  pose proof H as H'. apply flt_iff in H' as (Ne & Nt & K).
  assert (clampF64 t start en = clampF64 en start en) as E.
  { unfold clampF64. destruct (fmax_key start t Ns Nt) as [Nm Km].
    rewrite (fmin_lt en (fmax start t)); [|apply flt_iff; split; [exact Ne|split; [exact Nm|]]; rewrite Km; pose proof (Rmax_r (key start) (key t)); lra].
    symmetry. destruct (Rtotal_order (key start) (key en)) as [L|[L|L]].
    - rewrite fmax_lt by (apply flt_iff; auto). now apply fmin_self.
    - exfalso. unfold is_retarded in R. assert (feq start en = true); [apply feq_iff; auto|congruence].
    - rewrite fmax_gt' by (apply flt_iff; auto). apply fmin_lt. apply flt_iff. auto. }
  unfold slider_progress. now rewrite E.
Qed.
End WithLibm.

(** The pp values against their real formulas. *)
From Coq Require Import Reals Lra ZArith Lia.
From Flocq Require Import Core BinarySingleNaN.
From Verif Require Import PP SpecPP SpecFormula BaseLemmas FloatLemmas Float32Lemmas KeyLemmas LazyProofs PPProofs PPBounds RelLemmas RelPow FormulaParts FormulaRest.
Open Scope R_scope.

(** ** Effective misses *)
Lemma guess_float sl mc combo : (1 <= sl <= 2 ^ 20)%Z -> (1 <= mc <= 2 ^ 31)%Z -> (0 <= combo <= 2 ^ 31)%Z -> IZR combo <> IZR mc - IZR sl / 10 ->
  let th := fsub (f_of_Z mc) (fmul (fq 1 10) (f_of_Z sl)) in
  let c := if flt (f_of_Z combo) th then fdiv th (fmax (fq 1 1) (f_of_Z combo)) else f0 in
  let q := guessed_breaks (IZR sl) (IZR mc) (IZR combo) in
  fin c /\ 0 <= q /\ Rabs (B2R c - q) <= q / 2000000000.
Proof.
  intros HS HM HC NE th. pose proof (total_bounds sl HS) as SB. assert (mB : 1 <= IZR mc <= 2147483648) by (split; apply IZR_le; lia). assert (cB : 0 <= IZR combo <= 2147483648) by (split; apply IZR_le; lia).
  destruct (f_of_Z_exact sl ltac:(lia)) as (Fs & Es). destruct (f_of_Z_exact mc ltac:(lia)) as (Fm & Em). destruct (f_of_Z_exact combo ltac:(lia)) as (Fc & Ec). destruct (fq1_exact 1) as (F1 & E1); [lia|].
  assert (FT : fin (fq 1 10)) by (vm_compute; reflexivity). assert (BT : Rabs (B2R (fq 1 10) - 1 / 10) <= / 100000000000000000) by (bval (fq 1 10); rewrite V; apply Rabs_le; lra). apply Rabs_le_inv in BT.
  set (t := fq 1 10) in *. clearbody t.
  assert (PB : Rabs (B2R t * IZR sl - IZR sl / 10) <= 12 / 1000000000000).
  { replace (B2R t * IZR sl - IZR sl / 10) with ((B2R t - 1 / 10) * IZR sl) by field. rewrite Rabs_mult, (Rabs_pos_eq (IZR sl)) by lra. apply Rle_trans with (/ 100000000000000000 * 1048576); [|lra]. apply Rmult_le_compat; [apply Rabs_pos|lra|apply Rabs_le; lra|lra]. }
  apply Rabs_le_inv in PB. destruct (fmul_fin t (f_of_Z sl) FT Fs) as (FX & EX); [rewrite Es; apply Rle_trans with (bpow radix2 17); [apply Rabs_le; repeat pw; lra|apply bpow_le; lia]|]. rewrite Es in EX.
  pose proof (rnd64_err (B2R t * IZR sl) 17 ltac:(lia)) as RE. change (bpow radix2 17) with 131072 in RE. specialize (RE ltac:(apply Rabs_le; lra)). change (bpow radix2 (17 - 53)) with (/ 68719476736) in RE. rewrite <- EX in RE. apply Rabs_le_inv in RE.
  set (x := fmul t (f_of_Z sl)) in *. assert (XB : Rabs (B2R x - IZR sl / 10) <= 3 / 100000000000) by (apply Rabs_le; lra). clear RE PB. apply Rabs_le_inv in XB.
  destruct (fsub_fin (f_of_Z mc) x Fm FX) as (FTh & ET); [rewrite Em; apply Rle_trans with (bpow radix2 32); [apply Rabs_le; repeat pw; lra|apply bpow_le; lia]|]. rewrite Em in ET. fold th in FTh, ET.
  pose proof (rnd64_err (IZR mc - B2R x) 32 ltac:(lia)) as RE. change (bpow radix2 32) with 4294967296 in RE. specialize (RE ltac:(apply Rabs_le; lra)). change (bpow radix2 (32 - 53)) with (/ 2097152) in RE. rewrite <- ET in RE. apply Rabs_le_inv in RE.
  set (full := IZR mc - IZR sl / 10) in *.
  assert (GAP : IZR combo <= full - 1 / 10 \/ full + 1 / 10 <= IZR combo).
  { assert (T10 : 10 * full = IZR (10 * mc - sl)) by (unfold full; rewrite minus_IZR, mult_IZR; field). destruct (Z.lt_total (10 * combo) (10 * mc - sl)) as [L|[L|L]].
    - left. assert (IZR (10 * combo) <= IZR (10 * mc - sl) - 1) by (rewrite <- minus_IZR; apply IZR_le; lia). rewrite mult_IZR in H. lra.
    - exfalso. apply NE. assert (IZR (10 * combo) = IZR (10 * mc - sl)) by now rewrite L. rewrite mult_IZR in H. lra.
    - right. assert (IZR (10 * mc - sl) <= IZR (10 * combo) - 1) by (rewrite <- minus_IZR; apply IZR_le; lia). rewrite mult_IZR in H. lra. }
  unfold guessed_breaks. fold full. cbv zeta. destruct (Rlt_dec 0 (IZR sl)) as [_|N]; [|lra].
  destruct GAP as [G|G].
  - assert (L : flt (f_of_Z combo) th = true) by (apply flt_fin; auto; rewrite Ec; unfold full in *; lra). rewrite L. destruct (Rlt_dec (IZR combo) full) as [_|N]; [|lra].
    assert (FB : 1 / 10 <= full <= 4294967296) by (unfold full in *; lra).
    assert (TH : Rabs (B2R th - full) <= full * (31 / 100000000000)).
    { assert (Z : bpow radix2 (-1022) <= Rabs (IZR mc - B2R x)) by (rewrite Rabs_pos_eq by (unfold full in *; lra); apply Rle_trans with (bpow radix2 (-10)); [apply bpow_le; lia|repeat pw; unfold full in *; lra]).
      pose proof (rel64 _ Z) as R. rewrite <- ET, (Rabs_pos_eq (IZR mc - B2R x)) in R by (unfold full in *; lra). apply Rabs_le_inv in R. apply Rabs_le. unfold full in *. lra. }
    clear RE ET. apply Rabs_le_inv in TH. destruct (fmax_fin (fq 1 1) (f_of_Z combo) F1 Fc) as (FD & ED). rewrite E1, Ec in ED. set (dn := Rmax 1 (IZR combo)) in *. assert (DB : 1 <= dn <= 2147483648) by (unfold dn; split; [apply Rmax_l|apply Rmax_lub; lra]).
    assert (I : / 2147483648 <= / dn <= 1) by (split; [apply Rinv_le_contravar; lra|rewrite <- Rinv_1; apply Rinv_le_contravar; lra]).
    set (q := full / dn). assert (QB : 0 < q <= 4294967296) by (unfold q, Rdiv; split; [apply Rmult_lt_0_compat; lra|apply Rle_trans with (4294967296 * 1); [apply Rmult_le_compat; lra|lra]]).
    assert (VB : Rabs (B2R th / dn - q) <= q * (31 / 100000000000)).
    { unfold q. replace (B2R th / dn - full / dn) with ((B2R th - full) * / dn) by (unfold Rdiv; ring). rewrite Rabs_mult, (Rabs_pos_eq (/ dn)) by lra. replace (full / dn * (31 / 100000000000)) with (full * (31 / 100000000000) * / dn) by (unfold Rdiv; ring). apply Rmult_le_compat_r; [lra|apply Rabs_le; lra]. }
    apply Rabs_le_inv in VB. destruct (fdiv_fin th (fmax (fq 1 1) (f_of_Z combo)) FTh FD) as (FV & EV); [lra|rewrite ED; apply Rle_trans with (bpow radix2 33); [apply Rabs_le; repeat pw; lra|apply bpow_le; lia]|]. rewrite ED in EV.
    split; [exact FV|]. split; [lra|]. assert (Z : bpow radix2 (-1022) <= Rabs (B2R th / dn)).
    { assert (full * / 2147483648 <= q) by (unfold q, Rdiv; apply Rmult_le_compat_l; lra). rewrite Rabs_pos_eq by lra. apply Rle_trans with (bpow radix2 (-40)); [apply bpow_le; lia|]. repeat pw. lra. }
    pose proof (rel64 _ Z) as R. rewrite <- EV, (Rabs_pos_eq (B2R th / dn)) in R by lra. apply Rabs_le_inv in R. apply Rabs_le. lra.
  - assert (L : flt (f_of_Z combo) th = false). { destruct (flt (f_of_Z combo) th) eqn:L; [|reflexivity]. exfalso. apply flt_fin in L; auto. rewrite Ec in L. unfold full in *. lra. }
    rewrite L. destruct (Rlt_dec (IZR combo) full) as [Y|_]; [lra|]. split; [reflexivity|]. split; [lra|]. change (B2R f0) with 0. rewrite Rminus_diag_eq by reflexivity. rewrite Rabs_R0. lra.
Qed.
Lemma floor_same x q : (forall z : Z, Rabs (x - q) < Rabs (q - IZR z)) -> Zfloor x = Zfloor q.
Proof.
  intros H. apply Zfloor_imp. pose proof (Zfloor_lb q) as L. pose proof (Zfloor_ub q) as U. pose proof (H (Zfloor q)) as H1. pose proof (H (Zfloor q + 1)%Z) as H2. rewrite plus_IZR in *.
  rewrite (Rabs_pos_eq (q - IZR (Zfloor q))) in H1 by lra. rewrite (Rabs_left1 (q - _)) in H2 by lra. pose proof (Rle_abs (x - q)). pose proof (Rle_abs (- (x - q))) as A. rewrite Rabs_Ropp in A. lra.
Qed.
Lemma floor_min x t : Zfloor (Rmin x (IZR t)) = Z.min (Zfloor x) t.
Proof.
  unfold Rmin. destruct (Rle_dec x (IZR t)) as [L|L].
  - rewrite Z.min_l; [reflexivity|]. apply le_IZR. apply Rle_trans with x; [apply Zfloor_lb|exact L].
  - rewrite Zfloor_IZR, Z.min_r; [reflexivity|]. apply Zfloor_lub. lra.
Qed.
Lemma breaks_ok a combo miss total : map_ok a -> (0 <= combo <= 2 ^ 31)%Z -> (0 <= total <= 2 ^ 20)%Z -> guess_clear a combo ->
  let ea := mkAttr (at_Total a) (at_Aim a) (at_SliderFactor a) (at_Speed a) (at_Flashlight a) (at_ObjectCount a) (at_Circles a) (at_Sliders a) (at_Spinners a) (maxI 1 (at_MaxCombo a)) in
  effective_miss_count ea combo miss total = breaks_of a combo miss total.
Proof.
  intros MO C T (CL & GC) ea. destruct MO as (_ & _ & _ & _ & _ & _ & S & _ & MC). unfold effective_miss_count, breaks_of, guess_of in *. unfold ea. cbn [at_Sliders at_MaxCombo]. clear ea. rewrite maxI_max. rewrite maxI_max. f_equal. set (mc := Z.max 1 (at_MaxCombo a)) in *. set (sl := at_Sliders a) in *.
  destruct (f_of_Z_exact total ltac:(lia)) as (Ft & Et).
  assert (KEY : forall c q, fin c -> 0 <= q -> Rabs (B2R c - q) <= q / 2000000000 -> (q = 0 \/ forall z : Z, q / 1000000000 < Rabs (q - IZR z)) -> int_of_f (ffloor (fmin c (f_of_Z total))) = Zfloor (Rmin q (IZR total))).
  { intros c q F Q B G. destruct (fmin_fin c (f_of_Z total) F Ft) as (FM & EM). rewrite Et in EM.
    assert (C0 : 0 <= B2R c) by (apply Rabs_le_inv in B; lra). assert (tB : 0 <= IZR total <= 1048576) by (split; apply IZR_le; lia).
    assert (MB : 0 <= B2R (fmin c (f_of_Z total)) <= 1048576) by (rewrite EM; split; [apply Rmin_glb; lra|apply Rle_trans with (IZR total); [apply Rmin_r|lra]]).
    replace (int_of_f (ffloor (fmin c (f_of_Z total)))) with (Zfloor (B2R (fmin c (f_of_Z total)))).
    - rewrite EM, !floor_min. f_equal. destruct G as [Z|G]; [rewrite Z in *; f_equal; apply Rabs_le_inv in B; lra|]. apply floor_same. intros z. specialize (G z). lra.
    - symmetry. refine (proj1 (floor_int _ 1048576 FM MB _)). lia. }
  destruct (Z.ltb_spec 0 sl) as [P|P].
  - destruct (guess_float sl mc combo) as (F & Q & B); [lia|unfold mc; lia|lia|now apply CL|]. cbv zeta in F, B. now apply KEY.
  - assert (Z : guessed_breaks (IZR sl) (IZR mc) (IZR combo) = 0) by (unfold guessed_breaks; cbv zeta; destruct (Rlt_dec 0 (IZR sl)) as [L|_]; [apply IZR_le in P; lra|reflexivity]). rewrite Z in *. apply KEY; [reflexivity|lra| |now left]. change (B2R f0) with 0. rewrite Rminus_diag_eq by reflexivity. rewrite Rabs_R0. lra.
Qed.

Section WithLibm.
Context {M : libm} (PC : pow_close) (LC : log_close).
Lemma nv_opt (b : bool) n m k l v f r s : 0 <= n <= NN -> 0 <= m <= NN -> (0 <= k)%Z -> (0 <= l)%Z -> (k + l <= 900)%Z -> nv n k v r -> (b = true -> nv m l f s) -> (b = false -> s = 1) ->
  nv (n + m + 1) (k + l) (if b then fmul v f else v) (r * s).
Proof.
  intros N MM K L KL V F E. destruct b; [apply nv_mul; auto|]. rewrite (E eq_refl), Rmult_1_r. apply (nv_up n _ k _); [lra|lia|exact V].
Qed.
(** one more factor *)
Ltac fac := apply nv_mul; [unfold NN; lra|unfold NN; lra|lia|lia|lia| |].
Ltac opt := apply nv_opt; [unfold NN; lra|unfold NN; lra|lia|lia|lia| | |].

Lemma miss_one eff t s : (0 <? eff)%Z = false -> miss_factor (IZR eff) t s = 1.
Proof. intros E. apply Z.ltb_ge, IZR_le in E. unfold miss_factor. destruct (Rlt_dec 0 (IZR eff)); [lra|reflexivity]. Qed.
Context (a : attributes) (MO : map_ok a) (d : difficulty) (RN : rates_near d).
Context (combo n300 n100 n50 nmiss eff : Z) (H300 : (0 <= n300)%Z) (H100 : (0 <= n100)%Z) (H50 : (0 <= n50 <= 900)%Z) (HM : (0 <= nmiss)%Z) (HC : (0 <= combo <= 2 ^ 31)%Z).
Notation total := (n300 + n100 + n50 + nmiss)%Z.
Context (HT : (1 <= total <= 2 ^ 20)%Z) (HE : (0 <= eff)%Z) (BM : breaks_mild eff total).
Notation y := (play_of a combo n300 n100 n50 nmiss eff d).
(** the state the values are computed from *)
Context (p : ppv2) (P1 : pp_attribs p = mkAttr (at_Total a) (at_Aim a) (at_SliderFactor a) (at_Speed a) (at_Flashlight a) (at_ObjectCount a) (at_Circles a) (at_Sliders a) (at_Spinners a) (maxI 1 (at_MaxCombo a))).
Context (P2 : pp_scoreMaxCombo p = combo) (P3 : pp_great p = n300) (P4 : pp_ok p = n100) (P5 : pp_meh p = n50) (P6 : pp_miss p = nmiss) (P7 : pp_totalHits p = total).
Context (P8 : pp_accuracy p = pp_acc n300 n100 n50 total) (P9 : pp_effMiss p = eff) (P10 : pp_accObjects p = if Z.testbit (d_Mods d) 29 then at_ObjectCount a else at_Circles a).

Lemma aim_ok : nv 18000 410 (compute_aim p d) (aim_value (mactive (d_Mods d) TouchDevice) (mactive (d_Mods d) Hidden) y).
Proof.
  destruct MO as (RA & _ & _ & SF & _ & _ & HSl & _ & HMC). destruct RN as (AR & OD). destruct BM as ((BM1 & BM2) & BM3). unfold aim_value, accuracy, play_of. cbn [y_aim y_speed y_fl y_factor y_sliders y_spinners y_most y_combo y_great y_ok y_meh y_miss y_total y_breaks y_judged y_ar y_od].
  unfold compute_aim. cbv zeta. rewrite P1, P2, P4, P5, P6, P7, P8, P9. cbn [at_Aim at_SliderFactor at_Sliders at_MaxCombo]. rewrite minI_min, (wrap_id (n100 + n50)), (wrap_id (n100 + n50 + nmiss)), (wrap_id (maxI 1 _ - combo)) by (unfold int64; rewrite ?maxI_max; lia). rewrite maxI_max. set (mc := Z.max 1 (at_MaxCombo a)) in *. rewrite (proj2 (Z.ltb_lt 0 mc)) by (unfold mc; lia).
  assert (LOST : IZR (Z.min (n100 + n50 + nmiss) (mc - combo)) = Rmin (IZR n100 + IZR n50 + IZR nmiss) (IZR mc - IZR combo)). { rewrite <- !plus_IZR, <- minus_IZR. unfold Rmin. destruct (Rle_dec _ _) as [L|L]; [apply le_IZR in L; now rewrite Z.min_l|]. rewrite Z.min_r; [reflexivity|]. apply Z.lt_le_incl, lt_IZR. lra. }
  rewrite <- LOST. destruct (acc_nv n300 n100 n50 total ltac:(lia) ltac:(lia) ltac:(lia) ltac:(lia) HT) as (AC & ACB).
  match goal with |- nv _ _ _ (?b * ?l * ?m * ?c * ?ar * ?h * ?n * ?acc * ?od) => set (rb := b); set (rm := m); set (rc := c); set (rar := ar); set (rh := h); set (rn := n) end.
  apply (nv_up (400 + 20 + 1 + 16000 + 1 + 8 + 1 + 800 + 1 + 10 + 1 + 700 + 1 + 1 + 1 + 12 + 1) 18000 (100 + 2 + 201 + 60 + 6 + 3 + 5 + 23 + 2) 410); [lra|lia|].
  fac; [|now apply od_aim_nv]. fac; [|exact AC].
  change (fadd (fmul (fsub (fq 1 1) (at_SliderFactor a)) (mpow (fsub (fq 1 1) (fdiv (clampF64 (f_of_Z (Z.min (n100 + n50 + nmiss) (mc - combo))) f0 (fmul (f_of_Z (at_Sliders a)) (fq 15 100))) (fmul (f_of_Z (at_Sliders a)) (fq 15 100)))) (fq 3 1))) (at_SliderFactor a))
    with (nerf_f (at_Sliders a) (at_SliderFactor a) (Z.min (n100 + n50 + nmiss) (mc - combo))).
  opt.
  2:{ intros S. apply Z.ltb_lt in S. apply nerf_nv; auto; unfold mc; lia. }
  2:{ intros S. apply Z.ltb_ge, IZR_le in S. unfold rn, SpecFormula.nerf. destruct (Rlt_dec 0 (IZR (at_Sliders a))); [lra|reflexivity]. }
  opt.
  2:{ intros S. unfold rh, SpecFormula.hidden_factor. rewrite S. now apply hidden_nv. }
  2:{ intros S. unfold rh, SpecFormula.hidden_factor. now rewrite S. }
  fac.
  2:{ apply ar_factor_nv; auto; [now apply aim_ar_ab|]. pose proof (ar_bounds _ (proj2 AR)). lra. }
  fac; [|apply combo_nv; auto; unfold mc; lia].
  opt.
  2:{ intros S. apply Z.ltb_lt in S. apply aim_miss_nv; auto; lia. }
  2:{ intros S. now apply miss_one. }
  fac; [|now apply length_nv]. apply (base_nv PC 3); [lra|now apply touch_nv|now apply touch_le].
Qed.
Lemma speed_ok : nv 18600 540 (compute_speed p d) (speed_value (mactive (d_Mods d) Hidden) y).
Proof.
  destruct MO as (_ & RA & _ & SF & _ & _ & HSl & _ & HMC). destruct RN as (AR & OD). destruct BM as ((BM1 & BM2) & BM3). unfold speed_value, accuracy, play_of. cbn [y_aim y_speed y_fl y_factor y_sliders y_spinners y_most y_combo y_great y_ok y_meh y_miss y_total y_breaks y_judged y_ar y_od].
  unfold compute_speed. cbv zeta. rewrite P1, P2, P5, P7, P8, P9. cbn [at_Speed at_MaxCombo]. rewrite maxI_max. set (mc := Z.max 1 (at_MaxCombo a)) in *. rewrite (proj2 (Z.ltb_lt 0 mc)) by (unfold mc; lia).
  destruct (acc_nv n300 n100 n50 total ltac:(lia) ltac:(lia) ltac:(lia) ltac:(lia) HT) as (AC & ACB).
  match goal with |- nv _ _ _ (?b * ?l * ?m * ?c * ?ar * ?h * ?o * ?e) => set (rb := b); set (rm := m); set (rc := c); set (rar := ar); set (rh := h) end.
  apply (nv_up (400 + 20 + 1 + 16000 + 1 + 8 + 1 + 800 + 1 + 10 + 1 + (12 + 80 + 1) + 1 + 1100 + 1) 18600 (100 + 2 + 201 + 60 + 6 + 3 + (2 + 92) + 60) 540); [lra|lia|].
  fac; [|now apply meh_nv]. fac; [|fac; [now apply od_speed_nv|now apply speed_acc_nv]].
  opt.
  2:{ intros S. unfold rh, SpecFormula.hidden_factor. rewrite S. now apply hidden_nv. }
  2:{ intros S. unfold rh, SpecFormula.hidden_factor. now rewrite S. }
  fac.
  2:{ apply ar_factor_nv; auto; [apply (ab_up 6); [lra|]; now apply speed_ar_ab|]. pose proof (ar_bounds _ (proj2 AR)). lra. }
  fac; [|apply combo_nv; auto; unfold mc; lia].
  opt.
  2:{ intros S. apply Z.ltb_lt in S. apply speed_miss_nv; auto; lia. }
  2:{ intros S. now apply miss_one. }
  fac; [|now apply length_nv]. apply (base_nv PC 3); [lra|apply (touch_nv PC false); exact RA|apply (touch_le false); exact RA].
Qed.
Lemma acc_ok : nv 300 610 (compute_acc p d) (SpecFormula.acc_value (mactive (d_Mods d) Relax) (mactive (d_Mods d) Hidden) (mactive (d_Mods d) Flashlight) y).
Proof.
  destruct MO as (_ & _ & _ & _ & HO & HCi & _). destruct RN as (_ & OD). unfold SpecFormula.acc_value, judged_accuracy, play_of. cbn [y_aim y_speed y_fl y_factor y_sliders y_spinners y_most y_combo y_great y_ok y_meh y_miss y_total y_breaks y_judged y_ar y_od].
  unfold compute_acc. cbv zeta. rewrite P3, P4, P5, P7, P10. destruct (mactive (d_Mods d) Relax); [split; [apply nr_exact0; reflexivity|now left]|]. set (n := if Z.testbit (d_Mods d) 29 then at_ObjectCount a else at_Circles a). assert (NB : (0 <= n <= 2 ^ 20)%Z) by (unfold n; destruct (Z.testbit _ _); lia).
  rewrite (wrap_id (total - n)), (wrap_id (n300 - _)), (wrap_id (_ * 6)), (wrap_id (n100 * 2)), (wrap_id (_ + n100 * 2)), wrap_id by (unfold int64; lia).
  replace ((n300 - (total - n)) * 6 + n100 * 2 + n50)%Z with (6 * (n300 - (total - n)) + 2 * n100 + n50)%Z by ring.
  match goal with |- context [mpow ?x (fq 24 1)] => change x with (judged_f n300 n100 n50 total n) end.
  match goal with |- context [rpow ?x 24] => change x with (judged_r (IZR n300) (IZR n100) (IZR n50) (IZR total) (IZR n)) end.
  pose proof (judged_nv n300 n100 n50 total n ltac:(lia) ltac:(lia) ltac:(lia) ltac:(lia) ltac:(lia) NB) as J. destruct e24 as (F24 & E24).
  match goal with |- nv _ _ _ (_ * ?h * ?f) => set (rh := h); set (rf := f) end.
  apply (nv_up (60 + 80 + 1 + 1 + 1 + 5 + 1 + 1 + 1 + 1 + 1) 300 (40 + 552 + 2 + 10 + 1 + 1) 610); [lra|lia|].
  opt.
  2:{ intros S. unfold rf. rewrite S. kv. }
  2:{ intros S. unfold rf. now rewrite S. }
  opt.
  2:{ intros S. unfold rh. rewrite S. kv. }
  2:{ intros S. unfold rh. now rewrite S. }
  fac; [|now apply count_nv]. fac; [|kv]. fac; [now apply od_pow_nv|].
  apply (nv_pow PC 3 80 (/ 1000) 24 23); try assumption; try lia; unfold NN; lra.
Qed.
Lemma fl_ok : nv 16300 480 (compute_flashlight p d) (fl_value (mactive (d_Mods d) TouchDevice) (mactive (d_Mods d) Hidden) (mactive (d_Mods d) Flashlight) y).
Proof.
  destruct MO as (_ & _ & RA & _ & _ & _ & _ & _ & HMC). destruct RN as (AR & OD). destruct BM as ((BM1 & BM2) & BM3). unfold fl_value, accuracy, play_of. cbn [y_aim y_speed y_fl y_factor y_sliders y_spinners y_most y_combo y_great y_ok y_meh y_miss y_total y_breaks y_judged y_ar y_od].
  unfold compute_flashlight, check_mod. cbv zeta. destruct (mactive (d_Mods d) Flashlight); cbn [negb]; [|split; [apply nr_exact0; reflexivity|now left]].
  rewrite P1, P2, P7, P8, P9. cbn [at_Flashlight at_MaxCombo]. rewrite maxI_max. set (mc := Z.max 1 (at_MaxCombo a)) in *. rewrite (proj2 (Z.ltb_lt 0 mc)) by (unfold mc; lia). rewrite (wrap_id (total - 200)) by (unfold int64; lia).
  destruct (acc_nv n300 n100 n50 total ltac:(lia) ltac:(lia) ltac:(lia) ltac:(lia) HT) as (AC & ACB).
  match goal with |- nv _ _ _ (?s * 25 * ?h * ?m * ?c * ?l * _ * _) => set (rs := s); set (rm := m); set (rc := c); set (rh := h); change l with (scale_r (IZR total)) end.
  match goal with |- nv _ _ (fmul (fmul (fmul _ ?s) _) _) _ => change s with (scale_f total) end.
  apply (nv_up (10 + 0 + 1 + 1 + 1 + 16000 + 1 + 8 + 1 + 14 + 1 + 10 + 1 + 12 + 1) 16300 (200 + 5 + 1 + 201 + 60 + 1 + 1 + 2) 480); [lra|lia|].
  fac; [|now apply od_aim_nv]. fac; [|now apply half_acc_nv]. fac; [|now apply scale_nv]. fac; [|apply combo_nv; auto; unfold mc; lia].
  opt.
  2:{ intros S. apply Z.ltb_lt in S. apply speed_miss_nv; auto; lia. }
  2:{ intros S. now apply miss_one. }
  opt.
  2:{ intros S. unfold rh. rewrite S. kv. }
  2:{ intros S. unfold rh. now rewrite S. }
  fac; [|kv]. unfold rs. rewrite <- rpow_2 by (apply touch_le; exact RA). destruct e2 as (F2 & E2). apply (nv_pow PC 3 10 (/ 1000) 2 100); try (unfold NN; lra); try lia; auto. now apply touch_nv.
Qed.
Lemma final_ok brk : (0 <= brk <= 2 ^ 20)%Z -> (mactive (d_Mods d) SpunOut = true -> (2 * at_Spinners a <= total)%Z) ->
  nv 60100 5 (final_multiplier (d_Mods d) brk (at_Spinners a) total) (final_factor (mactive (d_Mods d) NoFail) (mactive (d_Mods d) SpunOut) (mactive (d_Mods d) Relax) (IZR brk) (IZR (at_Spinners a)) (IZR total)).
Proof.
  intros B S. destruct MO as (_ & _ & _ & _ & _ & _ & _ & HSp & _). unfold final_multiplier, final_factor. cbv zeta. rewrite (proj2 (Z.ltb_lt 0 total)) by lia. cbn [andb].
  apply (nv_up (1 + 60000 + 1 + 20 + 1 + 1 + 1) 60100 (1 + 1 + 2 + 1) 5); [lra|lia|]. 
  opt.
  2:{ intros ->. kv. }
  2:{ now intros ->. }
  opt.
  2:{ intros E. rewrite E. apply spun_nv; auto; try lia. }
  2:{ now intros ->. }
  opt.
  - kv.
  - intros E. rewrite E. now apply nofail_nv.
  - now intros ->.
Qed.
Lemma total_nv x1 x2 x3 x4 f r1 r2 r3 r4 rf : nv 18000 410 x1 r1 -> nv 18600 540 x2 r2 -> nv 300 610 x3 r3 -> nv 16300 480 x4 r4 -> nv 60100 5 f rf ->
  nv 100000 700 (fmul (mpow (fadd (fadd (fadd (mpow x1 (fq 11 10)) (mpow x2 (fq 11 10))) (mpow x3 (fq 11 10))) (mpow x4 (fq 11 10))) (fq 10 11)) f) (total_value r1 r2 r3 r4 rf).
Proof.
  intros H1 H2 H3 H4 HF. destruct e11 as (F11 & E11). destruct e1011 as (Fb & Eb). unfold total_value.
  assert (PW : forall n k x r, 0 <= n <= 18600 -> (0 <= k <= 610)%Z -> nv n k x r -> nv 21000 672 (mpow x (fq 11 10)) (rpow r (11 / 10))).
  { intros n k x r N K H. assert (kB : 0 <= IZR k <= 610) by (split; apply IZR_le; lia). apply (nv_pow PC n 21000 (/ 1000) (11 / 10) k); try assumption; try lia; unfold NN; lra. }
  apply (PW 18000 410%Z) in H1; [|lra|lia]. apply (PW 18600 540%Z) in H2; [|lra|lia]. apply (PW 300 610%Z) in H3; [|lra|lia]. apply (PW 16300 480%Z) in H4; [|lra|lia].
  assert (S : nv (21000 + 1 + 1 + 1) (672 + 1 + 1 + 1) (fadd (fadd (fadd (mpow x1 (fq 11 10)) (mpow x2 (fq 11 10))) (mpow x3 (fq 11 10))) (mpow x4 (fq 11 10))) (rpow r1 (11 / 10) + rpow r2 (11 / 10) + rpow r3 (11 / 10) + rpow r4 (11 / 10))).
  { apply nv_add; [unfold NN; lra|lia| |apply (nv_up 21000 _ 672 _); [lra|lia|exact H4]]. apply nv_add; [unfold NN; lra|lia| |apply (nv_up 21000 _ 672 _); [lra|lia|exact H3]]. apply nv_add; [unfold NN; lra|lia|exact H1|exact H2]. }
  apply (nv_up (22000 + 60100 + 1) 100000 (615 + 5) 700); [lra|lia|]. fac; [|exact HF]. change (672 + 1 + 1 + 1)%Z with 675%Z in S. apply (nv_pow PC (21000 + 1 + 1 + 1) 22000 (/ 1000) 1 675); try assumption; try lia; unfold NN; lra.
Qed.
End WithLibm.

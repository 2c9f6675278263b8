(** Strains and strain peaks against their real formulas. *)
From Coq Require Import Reals Lra List ZArith Lia Permutation.
From Flocq Require Import Core BinarySingleNaN.
From Verif Require Import DiffCalc SpecPP SpecStrain SpecFormula SpecRating BaseLemmas FloatLemmas Float32Lemmas KeyLemmas LazyProofs SkillProofs PPProofs RelLemmas RelPow FormulaParts SortReal WeighFormula.
Import ListNotations.
Open Scope R_scope.

(** ** The sum of faded contributions, step by step *)
Lemma rsum_app a b : rsum (a ++ b) = rsum a + rsum b.
Proof. unfold rsum. induction a as [|x a IH]; cbn [app fold_right]; [ring|rewrite IH; ring]. Qed.
Lemma firstn_S {A} (d : A) l : forall m, (m < length l)%nat -> firstn (S m) l = firstn m l ++ [nth m l d].
Proof. induction l as [|x l IH]; intros m H; [cbn in H; lia|]. destruct m as [|m]; [reflexivity|]. cbn [firstn app nth]. f_equal. apply IH. cbn in H. lia. Qed.
Lemma nth_drop {A} (d : A) l : forall n m, nth m (skipn n l) d = nth (n + m) l d.
Proof. induction l as [|x l IH]; intros [|n] m; cbn [skipn]; [reflexivity|now destruct m|reflexivity|]. cbn [Nat.add nth]. apply IH. Qed.
Lemma elapsed_S gaps j i : (j <= i)%nat -> (S i < length gaps)%nat -> elapsed gaps j (S i) = elapsed gaps j i + nth (S i) gaps 0.
Proof.
  intros J L. unfold elapsed. rewrite Nat.sub_succ_l by exact J. rewrite (firstn_S 0) by (rewrite skipn_length; lia). rewrite rsum_app. f_equal. unfold rsum. cbn [fold_right].
  rewrite nth_drop. replace (S j + (i - j))%nat with (S i) by lia. ring.
Qed.
Lemma elapsed_0 gaps i : elapsed gaps i i = 0.
Proof. unfold elapsed. now rewrite Nat.sub_diag. Qed.
Lemma Rpower_0' p : Rpower p (0 / 1000) = 1.
Proof. unfold Rpower, Rdiv. rewrite !Rmult_0_l. apply exp_0. Qed.
Lemma faded_0 p gaps vs : faded_sum p gaps vs 0 = nth 0 vs 0.
Proof. unfold faded_sum. cbn [seq map]. rewrite elapsed_0, Rpower_0'. unfold rsum. cbn [fold_right]. ring. Qed.
Lemma rsum_scale c l : rsum (map (fun x => x * c) l) = rsum l * c.
Proof. unfold rsum. induction l as [|x l IH]; cbn [map fold_right]; [ring|rewrite IH; ring]. Qed.
Lemma faded_S p gaps vs i : (S i < length gaps)%nat -> faded_sum p gaps vs (S i) = faded_sum p gaps vs i * Rpower p (nth (S i) gaps 0 / 1000) + nth (S i) vs 0.
Proof.
  intros L. unfold faded_sum. rewrite (seq_S (S i)), map_app, rsum_app. f_equal.
  - rewrite <- rsum_scale, map_map. f_equal. apply map_ext_in. intros j J. apply in_seq in J. rewrite elapsed_S by lia. rewrite Rdiv_plus_distr, Rpower_plus. ring.
  - cbn [map Nat.add]. rewrite elapsed_0, Rpower_0'. unfold rsum. cbn [fold_right]. ring.
Qed.
(** How many units of difficulty are left when each object brings one. *)
Definition ones (gaps : list R) : list R := map (fun _ => 1) gaps.
Lemma ones_nth gaps i : (i < length gaps)%nat -> nth i (ones gaps) 0 = 1.
Proof. revert i. induction gaps as [|g gaps IH]; intros i H; [cbn in H; lia|]. destruct i as [|i]; [reflexivity|]. cbn [ones map nth]. apply IH. cbn in H. lia. Qed.
Lemma power_unit p x : 0 < p <= 1 -> 0 <= x -> 0 < Rpower p x <= 1.
Proof.
  intros P X. split; [apply exp_pos|]. unfold Rpower. rewrite <- exp_0. assert (L : ln p <= 0) by (rewrite <- ln_1; apply ln_le'; lra). assert (Q : x * ln p <= 0) by (replace (x * ln p) with (- (x * - ln p)) by ring; assert (0 <= x * - ln p) by (apply Rmult_le_pos; lra); lra).
  destruct Q as [Q|Q]; [left; now apply exp_increasing|rewrite Q; lra].
Qed.
Lemma faded_nn p gaps vs i : Forall (fun v => 0 <= v) vs -> 0 <= faded_sum p gaps vs i.
Proof.
  intros V. unfold faded_sum, rsum. generalize (seq 0 (S i)). induction l as [|j l IH]; cbn [map fold_right]; [lra|]. assert (0 <= nth j vs 0). { destruct (Nat.lt_ge_cases j (length vs)) as [J|J]; [|rewrite nth_overflow by lia; lra]. apply (proj1 (Forall_nth _ _) V j 0 J). }
  assert (0 <= nth j vs 0 * Rpower p (elapsed gaps j i / 1000)) by (apply Rmult_le_pos; [assumption|left; apply exp_pos]). lra.
Qed.

Section WithLibm.
Context {M : libm} (PC : pow_close).

(** ** What is left after a while *)
Definition dl : R := 3 * e40.
Definition base_of (k : skill_kind) : f64 := match k with Speed => fq 30 100 | _ => fq 15 100 end.
Lemma base_f k : fin (base_of k) /\ 15 / 100 <= base_R k <= 30 / 100 /\ rel e40 (/ 4096) (base_of k) (base_R k).
Proof.
  assert (G : forall (x : f64) r, fin x -> 15 / 100 <= r <= 30 / 100 -> Rabs (B2R x - r) <= u53 / 4 -> fin x /\ 15 / 100 <= r <= 30 / 100 /\ rel e40 (/ 4096) x r).
  { intros x r F R B. split; [exact F|]. split; [exact R|]. split; [exact F|]. split; [lra|]. apply Rabs_le_inv in B. unfold u53, e40 in *. lra. }
  destruct k; (apply G; [vm_compute; reflexivity|cbn; lra|]); unfold base_of, base_R.
  - bval (fq 15 100). rewrite V. apply Rabs_le. unfold u53. lra.
  - bval (fq 30 100). rewrite V. apply Rabs_le. unfold u53. lra.
  - bval (fq 15 100). rewrite V. apply Rabs_le. unfold u53. lra.
Qed.
Lemma ln_base k : Rabs (ln (base_R k)) <= 3.
Proof.
  destruct (base_f k) as (_ & B & _). assert (S : sz 3 (base_R k)) by (right; repeat pw; lra). pose proof (ln_sz 3 (base_R k) ltac:(lra) S). pose proof ln2_le. lra.
Qed.
Lemma weight_f k : fin (weight_of k) /\ 15 / 100 <= weight_R k <= 1375 /\ 0 <= B2R (weight_of k) /\ Rabs (B2R (weight_of k) - weight_R k) <= weight_R k * u53.
Proof.
  destruct k; (split; [vm_compute; reflexivity|]); (split; [cbn; lra|]); unfold weight_of, weight_R.
  - bval (fq 2325 100). rewrite V. split; [lra|]. apply Rabs_le. unfold u53. lra.
  - bval (fq 1375 1). rewrite V. split; [lra|]. apply Rabs_le. unfold u53. lra.
  - bval (fq 15 100). rewrite V. split; [lra|]. apply Rabs_le. unfold u53. lra.
Qed.
(** [ms] as a float, its exact value off by a few roundings *)
Lemma left_near k (ms : f64) t : fin ms -> 0 <= t <= 300000 -> Rabs (B2R ms - t) <= t * u53 + tn ->
  let r := Rpower (base_R k) (t / 1000) in
  fin (left_over k ms) /\ 0 < r <= 1 /\ 0 <= B2R (left_over k ms) /\ Rabs (B2R (left_over k ms) - r) <= dl * r.
Proof.
  intros FM T BM r. destruct (base_f k) as (FB & BB & RB). destruct (fq1_exact 1000 ltac:(lia)) as (FK & EK). pose proof u53_in as U. pose proof tn_pos as TP. pose proof tn_lt as TL. pose proof e40_pos as E0.
  assert (R1 : 0 < r <= 1). { apply power_unit; [lra|]. apply Rmult_le_pos; lra. } apply Rabs_le_inv in BM. assert (tu : 0 <= t * u53 <= 300000 * u53) by (split; [apply Rmult_le_pos; lra|apply Rmult_le_compat_r; lra]).
  assert (MB : Rabs (B2R ms / B2R (fq 1000 1)) <= 301). { rewrite EK. apply Rabs_le. unfold u53 in *. lra. }
  destruct (op_mix (fdiv ms (fq 1000 1)) (B2R ms / B2R (fq 1000 1))) as (FD & BD & _).
  { apply Rle_trans with (1 := MB). apply Rle_trans with (bpow radix2 9); [change (bpow radix2 9) with 512; lra|apply bpow_le; lia]. } { intros H. apply fdiv_fin; auto. rewrite EK. lra. }
  assert (BD' : Rabs (B2R (fdiv ms (fq 1000 1)) - t / 1000) <= / 10 * e40).
  { assert (Rabs (B2R ms / B2R (fq 1000 1)) * u53 <= 301 * u53) by (apply Rmult_le_compat_r; lra). rewrite EK in *. apply Rabs_le_inv in BD. apply Rabs_le. assert (T2 : tn <= / 1000 * e40). { apply Rle_trans with (bpow radix2 (-60)); [apply bpow_le; lia|]. change (bpow radix2 (-60)) with (/ 1152921504606846976). unfold e40. lra. } unfold u53, e40 in *. lra. }
  assert (S1 : sz 3 (base_R k)) by (right; repeat pw; lra).
  destruct (pow_rel PC (/ 4096) 3 (/ 10) 300 3 (base_of k) (fdiv ms (fq 1000 1)) (base_R k) (t / 1000)) as (FP & _ & BP); auto; try (unfold NN; lra).
  - apply Rabs_le. lra.
  - apply ln_base.
  - apply (Rpower_sz 3 900); [lra|exact S1|lia|]. rewrite Rabs_pos_eq by lra. lra.
  - fold r in BP. change (mpow (base_of k) (fdiv ms (fq 1000 1))) with (left_over k ms) in FP, BP. assert (3 * e40 * r <= / 2 * r) by (apply Rmult_le_compat_r; unfold e40; lra).
    split; [exact FP|]. split; [exact R1|]. split; [lra|]. apply Rabs_le. unfold dl. lra.
Qed.

(** ** One step of the strain *)
Context (k : skill_kind) (ev ep : R) (HV : 0 <= ev <= / 64) (HP : bpow radix2 (-900) <= ep <= 1).
Lemma ep_pos : 0 < ep. Proof. pose proof (bpow_gt_0 radix2 (-900)). lra. Qed.
Definition vnear (v : f64) (V : R) : Prop := fin v /\ 0 <= B2R v /\ 0 <= V <= bpow radix2 60 /\ Rabs (B2R v - V) <= ev * V + ep.
(** after i objects *)
Definition snear (n E : R) (s : f64) (S L : R) : Prop :=
  fin s /\ 0 <= B2R s /\ 0 <= S <= n * bpow radix2 71 /\ 0 <= L <= n /\ Rabs (B2R s - S) <= E * S + (1 + E) * (weight_R k * ep) * L.
Lemma snear_eq n E s S0 L S1 L1 n' : snear n E s S0 L -> n = n' -> S0 = S1 -> L = L1 -> snear n' E s S1 L1.
Proof. intros H -> -> ->. exact H. Qed.
Lemma step_near n E s S0 L ms D v V : 0 <= n <= 2097152 -> ev <= E <= / 32 -> snear n E s S0 L ->
  fin (left_over k ms) -> 0 < D <= 1 -> 0 <= B2R (left_over k ms) -> Rabs (B2R (left_over k ms) - D) <= dl * D -> vnear v V ->
  snear (n + 1) (E + 6 * e40) (fadd (fmul s (left_over k ms)) (fmul v (weight_of k))) (S0 * D + weight_R k * V) (L * D + 1).
Proof.
  intros N HE (FS & S0' & HS & HL & BS) FD HD D0 BD (FV & V0 & HVV & BV). set (d := left_over k ms) in *. destruct (weight_f k) as (FW & HW & W0 & BW). set (wf := weight_of k) in *. set (w := weight_R k) in *.
  pose proof u53_in as U. pose proof tn_pos as TP. pose proof e40_pos as E0. pose proof ep_pos as EP. assert (E1 : e40 <= / 1000000000) by (unfold e40; lra). assert (UE : u53 <= / 1000 * e40) by (unfold u53, e40; lra).
  apply Rabs_le_inv in BD, BW. set (c := w * ep) in *. assert (C : 0 < c <= 1375) by (unfold c; split; [apply Rmult_lt_0_compat; lra|]; apply Rle_trans with (1375 * 1); [apply Rmult_le_compat; lra|lra]).
  assert (TC : tn <= / 1000 * e40 * c).
  { assert (bpow radix2 (-910) <= c). { unfold c. apply Rle_trans with (bpow radix2 (-3) * bpow radix2 (-900)); [rewrite <- bpow_plus; apply bpow_le; lia|]. change (bpow radix2 (-3)) with (/ 8). apply Rmult_le_compat; try lra. apply bpow_ge_0. }
    apply Rle_trans with (/ 1000 * e40 * bpow radix2 (-910)); [|apply Rmult_le_compat_l; lra]. apply Rle_trans with (bpow radix2 (-60) * bpow radix2 (-910)); [rewrite <- bpow_plus; apply bpow_le; lia|]. apply Rmult_le_compat_r; [apply bpow_ge_0|]. change (bpow radix2 (-60)) with (/ 1152921504606846976). unfold e40. lra. }
  set (SD := S0 * D) in *. assert (HSD : 0 <= SD <= S0) by (unfold SD; split; [apply Rmult_le_pos; lra|]; rewrite <- (Rmult_1_r S0) at 2; apply Rmult_le_compat_l; lra).
  set (LD := L * D) in *. assert (HLD : 0 <= LD <= L) by (unfold LD; split; [apply Rmult_le_pos; lra|]; rewrite <- (Rmult_1_r L) at 2; apply Rmult_le_compat_l; lra).
  assert (dD : 0 <= dl * D <= / 100 * D) by (split; [apply Rmult_le_pos; unfold dl; lra|apply Rmult_le_compat_r; unfold dl; lra]).
  set (cL := c * LD). assert (HcL : 0 <= cL <= 1375 * n) by (unfold cL; split; [apply Rmult_le_pos; lra|apply Rmult_le_compat; lra]).
  assert (ES : 0 <= E * SD <= / 32 * SD) by (split; [apply Rmult_le_pos; lra|apply Rmult_le_compat_r; lra]). assert (EL : 0 <= E * cL <= / 32 * cL) by (split; [apply Rmult_le_pos; lra|apply Rmult_le_compat_r; lra]).
  assert (eS : 0 <= e40 * SD) by (apply Rmult_le_pos; lra). assert (eL : 0 <= e40 * cL) by (apply Rmult_le_pos; lra). assert (eES : 0 <= e40 * (E * SD) <= e40 * (/ 32 * SD)) by (split; [apply Rmult_le_pos; lra|apply Rmult_le_compat_l; lra]). assert (eEL : 0 <= e40 * (E * cL) <= e40 * (/ 32 * cL)) by (split; [apply Rmult_le_pos; lra|apply Rmult_le_compat_l; lra]).
  (* the part left of before *)
  assert (Z1 : Rabs (B2R s * B2R d - SD) <= (E + 33 / 10 * e40) * SD + (1 + E + 33 / 10 * e40) * cL).
  { replace (B2R s * B2R d - SD) with ((B2R s - S0) * B2R d + S0 * (B2R d - D)) by (unfold SD; ring). eapply Rle_trans; [apply Rabs_triang|]. rewrite !Rabs_mult, (Rabs_pos_eq (B2R d)), (Rabs_pos_eq S0) by lra.
    apply Rle_trans with ((E * S0 + (1 + E) * c * L) * (D + dl * D) + S0 * (dl * D)).
    - apply Rplus_le_compat; [apply Rmult_le_compat; try apply Rabs_pos; try assumption; lra|apply Rmult_le_compat_l; [lra|apply Rabs_le; lra]].
    - replace ((E * S0 + (1 + E) * c * L) * (D + dl * D) + S0 * (dl * D)) with (E * SD + dl * (E * SD) + cL + E * cL + dl * cL + dl * (E * cL) + dl * SD) by (unfold SD, cL, LD; ring). unfold dl. lra. }
  assert (eS1 : e40 * SD <= / 1000 * SD) by (apply Rmult_le_compat_r; lra). assert (eL1 : e40 * cL <= / 1000 * cL) by (apply Rmult_le_compat_r; lra).
  assert (M1 : Rabs (B2R s * B2R d) <= 9 / 8 * SD + 9 / 8 * cL) by (apply Rabs_le_inv in Z1; apply Rabs_le; lra).
  pose proof (bpow_gt_0 radix2 71) as P41. assert (n41 : n * bpow radix2 71 <= 2097152 * bpow radix2 71) by (apply Rmult_le_compat_r; lra). assert (Q41 : bpow radix2 71 = 2361183241434822606848) by reflexivity.
  destruct (op_mix (fmul s d) (B2R s * B2R d)) as (F1 & B1 & P1).
  { apply Rle_trans with (bpow radix2 100); [change (bpow radix2 100) with 1267650600228229401496703205376; lra|apply bpow_le; lia]. } { intros H. now apply fmul_fin. }
  (* the object's own part *)
  set (VW := w * V) in *. assert (HVW : 0 <= VW <= 1375 * V) by (unfold VW; split; [apply Rmult_le_pos; lra|apply Rmult_le_compat_r; lra]). change (bpow radix2 60) with 1152921504606846976 in HVV.
  assert (wu : 0 <= w * u53 <= 1375 * u53) by (split; [apply Rmult_le_pos; lra|apply Rmult_le_compat_r; lra]). assert (eVW : 0 <= E * VW <= / 32 * VW) by (split; [apply Rmult_le_pos; lra|apply Rmult_le_compat_r; lra]). assert (evVW : 0 <= ev * VW <= E * VW) by (split; [apply Rmult_le_pos; lra|apply Rmult_le_compat_r; lra]).
  assert (uVW : 0 <= u53 * VW) by (apply Rmult_le_pos; lra). assert (uc : 0 <= u53 * c) by (apply Rmult_le_pos; lra). assert (ueVW : 0 <= u53 * (ev * VW) <= u53 * (/ 32 * VW)) by (split; [apply Rmult_le_pos; lra|apply Rmult_le_compat_l; lra]).
  assert (Z2 : Rabs (B2R v * B2R wf - VW) <= (E + 2 * u53) * VW + (1 + u53) * c).
  { replace (B2R v * B2R wf - VW) with ((B2R v - V) * B2R wf + V * (B2R wf - w)) by (unfold VW; ring). eapply Rle_trans; [apply Rabs_triang|]. rewrite !Rabs_mult, (Rabs_pos_eq (B2R wf)), (Rabs_pos_eq V) by lra.
    apply Rle_trans with ((ev * V + ep) * (w + w * u53) + V * (w * u53)).
    - apply Rplus_le_compat; [apply Rmult_le_compat; try apply Rabs_pos; try assumption; lra|apply Rmult_le_compat_l; [lra|apply Rabs_le; lra]].
    - replace ((ev * V + ep) * (w + w * u53) + V * (w * u53)) with (ev * VW + u53 * (ev * VW) + c + u53 * c + u53 * VW) by (unfold VW, c; ring). lra. }
  assert (uc1 : u53 * c <= / 1000 * c) by (apply Rmult_le_compat_r; lra). assert (uVW1 : u53 * VW <= / 1000 * VW) by (apply Rmult_le_compat_r; lra).
  assert (M2 : Rabs (B2R v * B2R wf) <= 9 / 8 * VW + 9 / 8 * c) by (apply Rabs_le_inv in Z2; apply Rabs_le; lra).
  destruct (op_mix (fmul v wf) (B2R v * B2R wf)) as (F2 & B2 & P2).
  { apply Rle_trans with (bpow radix2 100); [change (bpow radix2 100) with 1267650600228229401496703205376; lra|apply bpow_le; lia]. } { intros H. now apply fmul_fin. }
  set (x := fmul s d) in *. set (y := fmul v wf) in *.
  assert (uS : 0 <= u53 * SD <= / 1000 * (e40 * SD)) by (split; [apply Rmult_le_pos; lra|]; replace (/ 1000 * (e40 * SD)) with (/ 1000 * e40 * SD) by ring; apply Rmult_le_compat_r; lra).
  assert (uL : 0 <= u53 * cL <= / 1000 * (e40 * cL)) by (split; [apply Rmult_le_pos; lra|]; replace (/ 1000 * (e40 * cL)) with (/ 1000 * e40 * cL) by ring; apply Rmult_le_compat_r; lra).
  assert (uVe : u53 * VW <= / 1000 * (e40 * VW)) by (replace (/ 1000 * (e40 * VW)) with (/ 1000 * e40 * VW) by ring; apply Rmult_le_compat_r; lra). assert (uce : u53 * c <= / 1000 * (e40 * c)) by (replace (/ 1000 * (e40 * c)) with (/ 1000 * e40 * c) by ring; apply Rmult_le_compat_r; lra).
  assert (eV : 0 <= e40 * VW <= / 1000 * VW) by (split; [apply Rmult_le_pos; lra|apply Rmult_le_compat_r; lra]). assert (ec : 0 <= e40 * c <= / 1000 * c) by (split; [apply Rmult_le_pos; lra|apply Rmult_le_compat_r; lra]).
  assert (R1 : Rabs (B2R s * B2R d) * u53 <= 9 / 8 * (u53 * SD) + 9 / 8 * (u53 * cL)). { apply Rle_trans with ((9 / 8 * SD + 9 / 8 * cL) * u53); [apply Rmult_le_compat_r; lra|lra]. }
  assert (R2 : Rabs (B2R v * B2R wf) * u53 <= 9 / 8 * (u53 * VW) + 9 / 8 * (u53 * c)). { apply Rle_trans with ((9 / 8 * VW + 9 / 8 * c) * u53); [apply Rmult_le_compat_r; lra|lra]. }
  assert (Z : Rabs ((B2R x + B2R y) - (SD + VW)) <= (E + 34 / 10 * e40) * SD + (E + / 10 * e40) * VW + (1 + E + 34 / 10 * e40) * cL + (1 + / 10 * e40) * c).
  { apply Rabs_le_inv in B1, B2, Z1, Z2. apply Rabs_le. lra. }
  assert (MS : Rabs (B2R x + B2R y) <= 9 / 8 * (SD + VW) + 9 / 8 * (cL + c)) by (apply Rabs_le_inv in Z; apply Rabs_le; lra).
  destruct (op_mix (fadd x y) (B2R x + B2R y)) as (F3 & B3 & P3).
  { apply Rle_trans with (bpow radix2 100); [change (bpow radix2 100) with 1267650600228229401496703205376; lra|apply bpow_le; lia]. } { intros H. now apply fadd_fin. }
  assert (X0 : 0 <= B2R x) by (apply P1, Rmult_le_pos; lra). assert (Y0 : 0 <= B2R y) by (apply P2, Rmult_le_pos; lra).
  assert (R3 : Rabs (B2R x + B2R y) * u53 <= 9 / 8 * (u53 * SD) + 9 / 8 * (u53 * VW) + 9 / 8 * (u53 * cL) + 9 / 8 * (u53 * c)). { apply Rle_trans with ((9 / 8 * (SD + VW) + 9 / 8 * (cL + c)) * u53); [apply Rmult_le_compat_r; lra|lra]. }
  split; [exact F3|]. split; [apply P3; lra|]. split; [rewrite Q41 in *; lra|]. split; [lra|].
  replace (B2R (fadd x y) - (SD + VW)) with ((B2R (fadd x y) - (B2R x + B2R y)) + ((B2R x + B2R y) - (SD + VW))) by ring. eapply Rle_trans; [apply Rabs_triang|].
  change (weight_R k * ep) with c. replace ((1 + (E + 6 * e40)) * c * (LD + 1)) with (cL + E * cL + 6 * (e40 * cL) + c + E * c + 6 * (e40 * c)) by (unfold cL; ring). assert (0 <= E * c) by (apply Rmult_le_pos; lra). lra.
Qed.

(** ** All strains *)
Definition gap_ok (o : dobj) : Prop := fin (do_DeltaTime o) /\ 0 <= B2R (do_DeltaTime o) <= 300000.
Lemma nth_error_gap dos i o : nth_error dos i = Some o -> nth i (gaps_of dos) 0 = B2R (do_DeltaTime o) /\ (i < length (gaps_of dos))%nat.
Proof.
  intros H. split; [|unfold gaps_of; rewrite map_length; apply nth_error_Some; congruence]. apply nth_error_nth. unfold gaps_of. erewrite map_nth_error by exact H. reflexivity.
Qed.
Lemma strains_near d dos ss vs : strains_of k d dos ss -> Forall gap_ok dos -> length vs = length dos -> INR (length dos) <= 1048576 ->
  (forall i o V, nth_error dos i = Some o -> nth_error vs i = Some V -> vnear (strain_value k d (seen k dos i) o) V) ->
  forall i s, nth_error ss i = Some s ->
    snear (INR (S i)) (ev + 6 * e40 * INR (S i)) s (strain_R k (gaps_of dos) vs i) (faded_sum (base_R k) (gaps_of dos) (ones (gaps_of dos)) i).
Proof.
  intros (LS & ST) G LV LN VN. pose proof e40_pos as E0. assert (E1 : 6 * e40 <= / 100000000000) by (unfold e40; lra).
  assert (B : forall i, (i < length dos)%nat -> 0 <= INR i <= 1048575 /\ INR (S i) <= 1048576). { intros i H. pose proof (pos_INR i). assert (INR (S i) <= INR (length dos)) by (apply le_INR; lia). rewrite S_INR in *. lra. }
  assert (NX : forall i s, nth_error ss i = Some s -> exists o V, nth_error dos i = Some o /\ nth_error vs i = Some V /\ (i < length dos)%nat).
  { intros i s H. assert (I : (i < length dos)%nat) by (rewrite <- LS; apply nth_error_Some; congruence). destruct (nth_error dos i) as [o|] eqn:O; [|apply nth_error_None in O; lia]. destruct (nth_error vs i) as [V|] eqn:V'; [|apply nth_error_None in V'; lia]. now exists o, V. }
  assert (DL : forall i o, nth_error dos i = Some o -> let D := Rpower (base_R k) (nth i (gaps_of dos) 0 / 1000) in
    fin (left_over k (do_DeltaTime o)) /\ 0 < D <= 1 /\ 0 <= B2R (left_over k (do_DeltaTime o)) /\ Rabs (B2R (left_over k (do_DeltaTime o)) - D) <= dl * D).
  { intros i o O. destruct (nth_error_gap _ _ _ O) as (-> & _). destruct (proj1 (Forall_forall _ _) G o (nth_error_In _ _ O)) as (FG & BG). apply left_near; auto. rewrite Rminus_diag_eq by reflexivity. rewrite Rabs_R0. pose proof tn_pos. pose proof u53_in. assert (0 <= B2R (do_DeltaTime o) * u53) by (apply Rmult_le_pos; lra). lra. }
  induction i as [|i IH]; intros s H; destruct (NX _ s H) as (o & V & O & V' & I); specialize (ST _ o s O H); cbv zeta in ST; destruct (DL _ o O) as (DF & D1 & D0 & DB); destruct (nth_error_gap _ _ _ O) as (_ & GL); pose proof (VN _ o V O V') as VV; subst s.
  - pose proof (step_near 0 ev f0 0 0 (do_DeltaTime o) (Rpower (base_R k) (nth 0 (gaps_of dos) 0 / 1000)) (strain_value k d (seen k dos 0) o) V ltac:(lra) ltac:(lra)) as K. unfold strain_R. rewrite !faded_0, (ones_nth (gaps_of dos) 0 GL). rewrite (nth_error_nth vs 0 0 V'). cbn [INR]. replace (ev + 6 * e40 * 1) with (ev + 6 * e40) by ring.
    eapply snear_eq; [apply K; [|exact DF|exact D1|exact D0|exact DB|exact VV]|ring|ring|ring].
    split; [reflexivity|]. change (B2R f0) with 0. rewrite Rminus_diag_eq by reflexivity. rewrite Rabs_R0. lra.
  - destruct (nth_error ss i) as [s'|] eqn:S'; [|apply nth_error_None in S'; lia]. specialize (IH s' eq_refl). rewrite (nth_error_nth ss i f0 S'). destruct (B i ltac:(lia)) as (B1 & B2). destruct (B (S i) I) as (B3 & B4).
    assert (EB : 6 * e40 * INR (S i) <= / 1000). { apply Rle_trans with (/ 100000000000 * 1048576); [apply Rmult_le_compat; lra|lra]. } assert (EB0 : 0 <= 6 * e40 * INR (S i)) by (apply Rmult_le_pos; lra).
    pose proof (step_near (INR (S i)) (ev + 6 * e40 * INR (S i)) s' _ _ (do_DeltaTime o) _ _ V ltac:(lra) ltac:(lra) IH DF D1 D0 DB VV) as K.
    unfold strain_R in K |- *. rewrite !(faded_S (base_R k) (gaps_of dos)) by exact GL. rewrite (ones_nth (gaps_of dos) (S i) GL), (nth_error_nth vs (S i) 0 V'). rewrite (S_INR (S i)).
    replace (ev + 6 * e40 * (INR (S i) + 1)) with (ev + 6 * e40 * INR (S i) + 6 * e40) by ring. eapply snear_eq; [exact K|ring|ring|ring].
Qed.
Lemma load_le gaps i : (i < length gaps)%nat -> Forall (fun g => 0 <= g) gaps -> faded_sum (base_R k) gaps (ones gaps) i <= INR (S i).
Proof.
  destruct (base_f k) as (_ & B & _). intros I G. induction i as [|i IH]; [rewrite faded_0, ones_nth by exact I; cbn; lra|]. rewrite faded_S, ones_nth by exact I. rewrite (S_INR (S i)). specialize (IH ltac:(lia)).
  assert (D : 0 < Rpower (base_R k) (nth (S i) gaps 0 / 1000) <= 1). { apply power_unit; [lra|]. assert (0 <= nth (S i) gaps 0) by (apply (proj1 (Forall_nth _ _) G); exact I). apply Rmult_le_pos; lra. }
  assert (P : 0 <= faded_sum (base_R k) gaps (ones gaps) i). { apply faded_nn. unfold ones. apply Forall_map, Forall_forall. intros; lra. }
  assert (faded_sum (base_R k) gaps (ones gaps) i * Rpower (base_R k) (nth (S i) gaps 0 / 1000) <= faded_sum (base_R k) gaps (ones gaps) i * 1) by (apply Rmult_le_compat_l; lra). lra.
Qed.
End WithLibm.

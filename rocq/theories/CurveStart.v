(** Where a curve starts. *)
From Coq Require Import Reals Lra ZArith Lia Bool.
From Flocq Require Import Core BinarySingleNaN Mult_error.
From Verif Require Import GoFloat Curves Objects SpecCurves BaseLemmas SortLemmas FloatLemmas Float32Lemmas KeyLemmas BoundLemmas BezierProofs CurveProofs CurveBounds.
Import ListNotations.
Open Scope R_scope.

Section WithLibm.
Context {M : libm}.

Lemma Ok_inj {A} (x y : A) : Ok x = Ok y -> x = y.
Proof. intros H. now injection H. Qed.
Lemma geq_trans a b c : geq a b = true -> geq b c = true -> geq a c = true.
Proof. rewrite !geq_iff. intros (A & B & E) (B' & C & E'). repeat split; auto. congruence. Qed.
Lemma geq_sym a b : geq a b = true -> geq b a = true.
Proof. rewrite !geq_iff. intros (A & B & E). repeat split; auto. Qed.
Lemma geq_fin (a b : f32) : fin a -> fin b -> B2R a = B2R b -> geq a b = true.
Proof. intros A B E. apply geq_iff. rewrite (key_fin 24 128 a A), (key_fin 24 128 b B). split; [now apply fin_num|]. split; [now apply fin_num|exact E]. Qed.
Lemma vec_eqb_iff a b : vec_eqb a b = true <-> geq (vx a) (vx b) = true /\ geq (vy a) (vy b) = true.
Proof. apply andb_true_iff. Qed.
Lemma vec_eqb_trans a b c : vec_eqb a b = true -> vec_eqb b c = true -> vec_eqb a c = true.
Proof. rewrite !vec_eqb_iff. intros [? ?] [? ?]. split; eapply geq_trans; eassumption. Qed.
Lemma vec_eqb_sym a b : vec_eqb a b = true -> vec_eqb b a = true.
Proof. rewrite !vec_eqb_iff. intros [? ?]. split; now apply geq_sym. Qed.
Lemma vec_eqb_refl p : vfin p -> vec_eqb p p = true.
Proof. intros [A B]. apply vec_eqb_iff. split; now apply geq_fin. Qed.

Lemma gmul_0_r x z : fin x -> B2R z = 0 -> fin z -> fin (gmul x z) /\ B2R (gmul x z) = 0.
Proof.
  intros Fx Z Fz. destruct (gmul_fin x z Fx Fz) as [F V]; [rewrite Z, Rmult_0_r, Rabs_R0; apply bpow_ge_0|]. split; [exact F|].
  rewrite V, Z, Rmult_0_r. apply rnd32_0.
Qed.
Lemma gadd_0_l z x : fin x -> B2R z = 0 -> fin z -> fin (gadd z x) /\ B2R (gadd z x) = B2R x.
Proof.
  intros Fx Z Fz. destruct x as [s| | |s m e b] eqn:Ex; try discriminate.
  - destruct z as [s'| | |]; try discriminate; [destruct s, s'; split; reflexivity|]. exfalso. cbn [B2R] in Z. apply eq_0_F2R in Z. destruct s0; discriminate Z.
  - destruct z as [s'| | |s' m' e' b']; try discriminate; [split; reflexivity|]. exfalso. cbn [B2R] in Z. apply eq_0_F2R in Z. destruct s'; discriminate Z.
Qed.
Lemma gadd_0_r x z : fin x -> B2R z = 0 -> fin z -> fin (gadd x z) /\ B2R (gadd x z) = B2R x.
Proof.
  intros Fx Z Fz. destruct x as [s| | |s m e b] eqn:Ex; try discriminate.
  - destruct z as [s'| | |]; try discriminate; [destruct s, s'; split; reflexivity|]. exfalso. cbn [B2R] in Z. apply eq_0_F2R in Z. destruct s0; discriminate Z.
  - destruct z as [s'| | |s' m' e' b']; try discriminate; [split; reflexivity|]. exfalso. cbn [B2R] in Z. apply eq_0_F2R in Z. destruct s'; discriminate Z.
Qed.
Lemma lerp_0 a b z : vfin a -> fin (gsub (vx b) (vx a)) -> fin (gsub (vy b) (vy a)) -> fin z -> B2R z = 0 -> vec_eqb (vlerp a b z) a = true.
Proof.
  intros [Ax Ay] X Y Fz Z. apply vec_eqb_iff. unfold vlerp. cbn [vx vy].
  destruct (gmul_0_r _ z X Z Fz) as [F1 V1]. destruct (gmul_0_r _ z Y Z Fz) as [F2 V2].
  destruct (gadd_0_l _ (vx a) Ax V1 F1) as [F3 V3]. destruct (gadd_0_l _ (vy a) Ay V2 F2) as [F4 V4].
  split; apply geq_fin; auto.
Qed.

Lemma clamp_0 : clampF32 g0 g0 (gq 1 1) = g0.
Proof. apply B2SF_eq. vm_compute. reflexivity. Qed.
Lemma section_fin ls : forall s, fin (fold_left (fun acc l => gadd acc (ln_length l)) ls s) -> Forall (fun x => fin x) (s :: section_sums s ls).
Proof.
  induction ls as [|l ls IH]; intros s H; [constructor; [exact H|constructor]|]. cbn [fold_left] in H.
  constructor; [apply (total_fin_acc (l :: ls) s H)|]. cbn [section_sums]. now apply IH.
Qed.

(** the first point looked up is the first point of the first line *)
Lemma point_at_0 ls p : fin (total_length ls) -> exists q, mc_point_at (finish_curve ls p) g0 = Ok q /\
  (q = p \/ exists l r, ls = l :: r /\ (q = ln_p1 l \/ vec_eqb q (ln_p1 l) = true)).
Proof.
  intros FT. destruct ls as [|l r]; [exists p; split; [reflexivity|now left]|].
  unfold mc_point_at. cbn [mc_lines finish_curve]. destruct (geq _ _) eqn:E0; [exists p; split; [reflexivity|now left]|].
  set (ls := l :: r) in *. set (mc := finish_curve ls p).
  pose proof (total_fin_nn ls FT) as NN. pose proof (sections_nn ls g0 nn_0 NN) as SN.
  assert (D : fin (gmul (total_length ls) g0) /\ B2R (gmul (total_length ls) g0) = 0) by (apply gmul_0_r; auto; reflexivity).
  unfold mc_index. rewrite clamp_0. cbn [mc_length mc mc_sections finish_curve mc_lines tl].
  set (d := gmul (total_length ls) g0) in *.
  assert (S0 : search (length (section_sums g0 ls)) (fun i => match nth_error (section_sums g0 ls) i with Some s => gge s d | None => true end) = 0%nat).
  { pose proof (search_weak (fun i => match nth_error (section_sums g0 ls) i with Some s => gge s d | None => true end) (length (section_sums g0 ls))) as W.
    cbv zeta in W. destruct W as (_ & W & _). destruct (search _ _) as [|n]; [reflexivity|]. exfalso.
    specialize (W ltac:(lia)). rewrite Nat.sub_succ, Nat.sub_0_r in W.
    destruct (nth_error (section_sums g0 ls) n) as [s|] eqn:En; [|discriminate]. rewrite Forall_forall in SN. destruct (SN s (nth_error_In _ _ En)) as [[Ns Ks] _].
    assert (gge s d = true); [|congruence]. apply gge_iff. split; [exact Ns|]. split; [apply fin_num, D|]. rewrite (key_fin 24 128 d (proj1 D)), (proj2 D). exact Ks. }
  rewrite S0. cbn [Nat.min Z.of_nat]. cbn [Z.of_nat Z.add].
  change (idx (g0 :: section_sums g0 ls) 0) with (Ok g0). 
  change (idx (g0 :: section_sums g0 ls) 1) with (Ok (gadd g0 (ln_length l))).
  change (idx ls 0) with (Ok l). cbn [bind]. set (hi := gadd g0 (ln_length l)).
  destruct (geq (gsub hi g0) g0) eqn:EH; [exists (ln_p1 l); split; [reflexivity|right; exists l, r; auto]|].
  eexists. split; [reflexivity|]. right. exists l, r. split; [reflexivity|]. right.
  pose proof (total_fin ls FT) as FL. inversion FL as [|? ? Fl _]; subst.
  destruct (vdst_inv _ _ Fl) as (V1 & V2 & X & Y).
  assert (Fh : fin hi /\ B2R hi = B2R (ln_length l)) by (apply gadd_0_l; auto; reflexivity).
  assert (Fhi : fin (gsub hi g0) /\ B2R (gsub hi g0) = B2R hi).
  { destruct Fh as [Fh _]. destruct hi as [s| | |s m e b]; try discriminate; [destruct s; split; reflexivity|split; reflexivity]. }
  destruct Fhi as [Fg Vg].
  assert (NZ : B2R (gsub hi g0) <> 0).
  { intros Z. assert (geq (gsub hi g0) g0 = true); [|congruence]. apply geq_fin; auto. reflexivity. }
  assert (FN : fin (gsub d g0) /\ B2R (gsub d g0) = 0).
  { destruct D as [Fd Vd]. destruct d as [s| | |s m e b]; try discriminate; [destruct s; split; reflexivity|]. exfalso. cbn [B2R] in Vd. apply eq_0_F2R in Vd. destruct s; discriminate Vd. }
  destruct FN as [FN VN].
  destruct (gdiv_fin (gsub d g0) (gsub hi g0) FN Fg NZ) as [FQ VQ].
  { rewrite VN. unfold Rdiv. rewrite Rmult_0_l, Rabs_R0. apply bpow_ge_0. }
  apply lerp_0; auto. rewrite VQ, VN. unfold Rdiv. rewrite Rmult_0_l. apply rnd32_0.
Qed.

(** ** The first line starts at the first control point *)
Definition starts (p : vec) (ls : list linear) : Prop := forall l r, ls = l :: r -> vec_eqb (ln_p1 l) p = true.
Lemma process_linear_starts pts : forall p, vfin p -> starts p (process_linear (p :: pts)).
Proof.
  induction pts as [|b pts IH]; intros p Fp l r E; [discriminate|].
  change (process_linear (p :: b :: pts)) with (if vec_eqb p b then process_linear (b :: pts) else mkLinear p b :: process_linear (b :: pts)) in E.
  destruct (vec_eqb p b) eqn:Q.
  - assert (Fb : vfin b).
    { apply vec_eqb_iff in Q as [Q1 Q2]. destruct Fp as [F1 F2]. apply geq_iff in Q1 as (_ & N1 & K1). apply geq_iff in Q2 as (_ & N2 & K2).
      split; apply (fin_of_key 24 128); auto; rewrite <- ?K1, <- ?K2, (key_fin 24 128); auto; apply (B2R_lt 24 128); auto. }
    eapply vec_eqb_trans; [eapply IH; eassumption|]. now apply vec_eqb_sym.
  - injection E as <- _. now apply vec_eqb_refl.
Qed.
Lemma approx_bezier_first fuel p r ls : approximate_bezier fuel (p :: r) = Ok ls -> exists q s, ls = mkLinear p q :: s.
Proof.
  unfold approximate_bezier. destruct (create_bezier fuel (p :: r)) as [o| |] eqn:E; cbn [bind]; try discriminate.
  pose proof (create_bezier_result fuel (p :: r) ltac:(discriminate)) as R. rewrite E in R. destruct R as (o' & Fl & ->).
  destruct (flattens_hd (p :: r) o' ltac:(discriminate) Fl) as (x & ->). cbn [app hd]. intros H. injection H as <-.
  match goal with |- exists q s, pairs p ?L = _ => destruct L as [|q s] eqn:Ex; [destruct x; discriminate|] end. exists q, (pairs q s). reflexivity.
Qed.
Lemma process_bezier_starts fuel p pts : forall n i ls, process_bezier_loop fuel n (p :: pts) i 0 = Ok ls -> forall l r, ls = l :: r -> ln_p1 l = p.
Proof.
  induction n as [|n IH]; intros i ls; [intros H l r ->; discriminate|].
  cbn [process_bezier_loop]. destruct (Nat.ltb i (length (p :: pts))); [|intros H l r ->; discriminate].
  set (multi := _ && _). destruct (multi || Nat.eqb (S i) (length (p :: pts))); [|apply IH].
  set (sub := slice (p :: pts) 0 (S i)).
  destruct (match sub with [a; b] => Ok [mkLinear a b] | _ => approximate_bezier fuel sub end) as [l1| |] eqn:E1; cbn [bind]; try discriminate.
  destruct (process_bezier_loop fuel n (p :: pts) (S (if multi then S i else i)) (if multi then S i else i)) as [l2| |]; cbn [bind]; try discriminate.
  intros H l r E. injection H as <-. 
  assert (exists q s, l1 = mkLinear p q :: s) as (q & s & ->).
  { unfold sub, slice in E1. cbn [skipn Nat.sub firstn] in E1. destruct (firstn i pts) as [|b [|c t]].
    - eapply approx_bezier_first. exact E1.
    - injection E1 as <-. now exists b, [].
    - eapply approx_bezier_first. exact E1. }
  cbn in E. injection E as <- _. reflexivity.
Qed.
Lemma half_double (b : f32) : fin (gmul (gq 2 1) b) -> fin (gmul (gq 1 2) (gmul (gq 2 1) b)) /\ B2R (gmul (gq 1 2) (gmul (gq 2 1) b)) = B2R b.
Proof.
  intros F. destruct (gmul_inv _ _ F) as [F2 Fb]. 
  assert (H2 : B2R (gq 2 1) = 2) by (bval (gq 2 1); lra). assert (HH : B2R (gq 1 2) = / 2) by (bval (gq 1 2); lra).
  pose proof (Bmult_correct 24 128 p24 pe24 mode_NE (gq 2 1) b) as C. fold (gmul (gq 2 1) b) in C.
  assert (G : generic_format radix2 (SpecFloat.fexp 24 128) (2 * B2R b)).
  { replace (2 * B2R b) with (B2R b * bpow radix2 1) by (change (bpow radix2 1) with 2; lra).
    apply (mult_bpow_pos_exact_FLT radix2 (-149) 24); [apply (generic_format_B2R 24 128)|lia]. }
  rewrite H2 in C. change (round radix2 (SpecFloat.fexp 24 128) (round_mode mode_NE) (2 * B2R b)) with (rnd32 (2 * B2R b)) in C.
  assert (RR : rnd32 (2 * B2R b) = 2 * B2R b) by (apply round_generic; [typeclasses eauto|exact G]).
  rewrite RR in C. destruct (Rlt_bool_spec (Rabs (2 * B2R b)) (bpow radix2 128)) as [L|L].
  - destruct C as (V & _ & _). assert (LB : Rabs (B2R b) <= bpow radix2 127).
    { rewrite Rabs_mult, (Rabs_pos_eq 2) in L by lra. change (bpow radix2 128) with (bpow radix2 (127 + 1)) in L. rewrite bpow_plus in L. change (bpow radix2 1) with 2 in L. lra. }
    destruct (gmul_fin (gq 1 2) (gmul (gq 2 1) b)) as [F' V']; [vm_compute; reflexivity|exact F|rewrite V, HH; replace (/ 2 * (2 * B2R b)) with (B2R b) by lra; exact LB|].
    split; [exact F'|]. rewrite V', V, HH. replace (/ 2 * (2 * B2R b)) with (B2R b) by lra. apply rnd32_id.
  - exfalso. apply overflow_inf in C. rewrite C in F. discriminate.
Qed.
Lemma fin_prod_0 x z : fin (gmul x z) -> B2R z = 0 -> B2R (gmul x z) = 0.
Proof. intros F Z. destruct (gmul_inv _ _ F) as [Fx Fz]. now apply gmul_0_r. Qed.
Lemma catmull_coord_0 a b c d z : B2R z = 0 -> fin z -> fin (catmull_coord a b c d z) -> geq (catmull_coord a b c d z) b = true.
Proof.
  intros Z Fz F. unfold catmull_coord in *. set (x := gmul (gq 2 1) b) in *.
  pose proof (gmul_inv _ _ F) as [_ F1]. apply gadd_inv in F1 as [F1 F4]. apply gadd_inv in F1 as [F1 F3]. apply gadd_inv in F1 as [Fx F2].
  destruct (gmul_0_r z z Fz Z Fz) as [Fz2 Z2]. destruct (gmul_0_r z _ Fz Z2 Fz2) as [Fz3 Z3].
  pose proof (fin_prod_0 _ _ F2 Z) as V2. pose proof (fin_prod_0 _ _ F3 Z2) as V3. pose proof (fin_prod_0 _ _ F4 Z3) as V4.
  destruct (gadd_0_r x _ Fx V2 F2) as [G2 W2]. destruct (gadd_0_r _ _ G2 V3 F3) as [G3 W3]. destruct (gadd_0_r _ _ G3 V4 F4) as [G4 W4].
  destruct (half_double b Fx) as [FH VH]. fold x in FH, VH.
  match goal with |- geq (gmul _ ?y) _ = true => assert (EY : B2R y = B2R x) by (rewrite W4, W3, W2; reflexivity); set (yy := y) in * end.
  destruct (gmul_inv _ _ FH) as [_ _]. destruct (gmul_inv _ _ Fx) as [_ Fb].
  apply geq_fin; auto. rewrite <- VH.
  destruct (gmul_fin (gq 1 2) x) as [_ E1]; [vm_compute; reflexivity|exact Fx| |].
  2:{ destruct (gmul_fin (gq 1 2) yy) as [_ E2]; [vm_compute; reflexivity|exact G4| |].
      - rewrite EY. assert (HH : B2R (gq 1 2) = / 2) by (bval (gq 1 2); lra). rewrite HH. pose proof (B2R_lt 24 128 x Fx) as B.
        change (bpow radix2 128) with (bpow radix2 (127 + 1)) in B. rewrite bpow_plus in B. change (bpow radix2 1) with 2 in B. apply Rabs_le. lra.
      - rewrite E1, E2, EY. reflexivity. }
  assert (HH : B2R (gq 1 2) = / 2) by (bval (gq 1 2); lra). rewrite HH. pose proof (B2R_lt 24 128 x Fx) as B.
  change (bpow radix2 128) with (bpow radix2 (127 + 1)) in B. rewrite bpow_plus in B. change (bpow radix2 1) with 2 in B. apply Rabs_le. lra.
Qed.
Lemma process_catmull_starts p pts l r : process_catmull None (p :: pts) = l :: r -> vfin (ln_p1 l) -> vec_eqb (ln_p1 l) p = true.
Proof.
  destruct pts as [|p3 r']; [discriminate|]. intros E. cbn [process_catmull] in E.
  remember (match r' with p0 :: _ => p0 | [] => _ end) as p4. clear Heqp4.
  match type of E with _ ++ ?t = _ => remember t as tt; clear Heqtt end.
  change (approximate_catmull p p p3 p4 50) with
    (mkLinear (catmull_point p p p3 p4 (gdiv (g_of_Z 0) (g_of_Z 50))) (catmull_point p p p3 p4 (gdiv (g_of_Z (0 + 1)) (g_of_Z 50)))
      :: tl (approximate_catmull p p p3 p4 50)) in E.
  cbn [app] in E. apply (f_equal (fun x => hd l x)) in E. cbn [hd] in E. rewrite <- E. clear E. cbn [ln_p1]. intros [Fx Fy].
  assert (Z : fin (gdiv (g_of_Z 0) (g_of_Z 50)) /\ B2R (gdiv (g_of_Z 0) (g_of_Z 50)) = 0).
  { destruct (ratio_bnd 0 50 ltac:(lia) ltac:(lia)) as [F _]. split; [exact F|]. bval (gdiv (g_of_Z 0) (g_of_Z 50)). exact V. }
  destruct Z as [Fz Z]. apply vec_eqb_iff. split; apply catmull_coord_0; assumption.
Qed.

Lemma trim_first rls d l r : rev (trim_lines rls d) = l :: r -> exists l' r', rev rls = l' :: r' /\ ln_p1 l = ln_p1 l'.
Proof.
  revert d l r. induction rls as [|x rls IH]; intros d l r E; [discriminate|]. cbn [trim_lines] in E. cbn [rev].
  destruct (fgt _ _).
  - cbn [rev] in E. destruct (rev rls) as [|y s]; cbn [app] in E |- *; injection E as <- _; eexists; eexists; (split; [reflexivity|]); [|reflexivity].
    destruct (vec_eqb _ _); reflexivity.
  - apply IH in E as (l' & r' & E & H). rewrite E. cbn [app]. eauto.
Qed.
Lemma curve_starts fuel typ p pts ls : curve_lines fuel typ (p :: pts) = Ok ls -> no_arc typ (p :: pts) -> vfin p ->
  forall l r, ls = l :: r -> vfin (ln_p1 l) -> vec_eqb (ln_p1 l) p = true.
Proof.
  intros E NA Fp l r EL FL.
  assert (UL : ls = process_linear (p :: pts) -> vec_eqb (ln_p1 l) p = true) by (intros ->; eapply process_linear_starts; eassumption).
  assert (UB : process_bezier fuel (p :: pts) = Ok ls -> vec_eqb (ln_p1 l) p = true).
  { intros EB. rewrite (process_bezier_starts fuel p pts _ _ _ EB l r EL). now apply vec_eqb_refl. }
  unfold curve_lines in E. destruct (str_eqb typ (lit "P")) eqn:EP.
  - apply str_eqb_eq in EP. unfold process_perfect in E. destruct pts as [|b [|c [|d q]]]; try (injection E as <-; now apply UL); [|now apply UB].
    cbn in NA. rewrite (NA EP) in E. injection E as <-. now apply UL.
  - destruct (str_eqb typ (lit "L")); [injection E as <-; now apply UL|].
    destruct (str_eqb typ (lit "B")); [now apply UB|].
    destruct (str_eqb typ (lit "C")); apply Ok_inj in E; rewrite <- E in EL; [|discriminate EL]. exact (process_catmull_starts p pts l r EL FL).
Qed.
Theorem point_at_start fuel typ p pts len mc : new_multicurve_t fuel typ (p :: pts) len = Ok mc -> no_arc typ (p :: pts) -> vfin p ->
  fin (mc_length mc) -> exists q, mc_point_at mc g0 = Ok q /\ vec_eqb q p = true.
Proof.
  intros E NA Fp FT. apply new_multicurve_t_built in E as (ls & p' & r' & E & EP & ->). injection EP as <- <-.
  set (ls' := if ggt (total_length ls) g0 then _ else ls) in *. cbn [mc_length finish_curve] in FT.
  destruct (point_at_0 ls' p FT) as (q & EQ & [->|(l & r & EL & HQ)]).
  - exists p. split; [exact EQ|]. now apply vec_eqb_refl.
  - exists q. split; [exact EQ|].
    assert (FL : vfin (ln_p1 l)).
    { pose proof (total_fin ls' FT) as F. rewrite EL in F. inversion F; subst. now apply fin_line. }
    assert (S : vec_eqb (ln_p1 l) p = true).
    { unfold ls' in EL. destruct (ggt _ _).
      - apply trim_first in EL as (l' & r2 & EL & EP). rewrite rev_involutive in EL. rewrite EP in *. eapply curve_starts; eassumption.
      - eapply curve_starts; eassumption. }
    destruct HQ as [->|HQ]; [exact S|]. eapply vec_eqb_trans; eassumption.
Qed.
End WithLibm.

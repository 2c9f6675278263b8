(** C64: a slider's curve has the pixel length asked for. *)
From Coq Require Import Reals Lra.
From Flocq Require Import Core BinarySingleNaN.
From Verif Require Import Curves SpecCurves SpecLength BaseLemmas FloatLemmas Float32Lemmas KeyLemmas BoundLemmas CurveProofs CurveStart CurveBounds LengthProofs PropCurves PropTerm.
Open Scope Z_scope.

(** Distance from the length asked for that single precision can cause on a
    curve of n lines in a space of size 2^m; 2^-13 comes from the loop's 0.0001. *)
Definition length_error (m : Z) (n : nat) : R := ((INR n + 16) * bpow radix2 (m - 22) + bpow radix2 (-13))%R.

Section WithLibm.
Context {M : libm}.

(** C64.  NewMultiCurveT gives the curve the length asked for, whether by
    cutting or by extending: both the length it reports and the plane length
    of its lines.  Extending needs a last line with distinct ends. *)
Theorem C64_length : forall fuel typ pts len mc mc' m,
  new_multicurve fuel typ pts = Ok mc -> new_multicurve_t fuel typ pts len = Ok mc' ->
  0 <= m <= 30 -> Z.of_nat (length (mc_lines mc)) <= 2 ^ 20 ->
  Forall (fun l => within m (ln_p1 l) /\ within m (ln_p2 l)) (mc_lines mc) -> Forall not_tiny (mc_lines mc) ->
  (path_length (mc_lines mc) <= bpow radix2 m)%R -> ggt (mc_length mc) g0 = true ->
  is_finite len = true -> (0 <= B2R len <= bpow radix2 m)%R ->
  (ends_open (mc_lines mc) \/ (B2R len <= B2R (mc_length mc))%R) ->
  is_finite (mc_length mc') = true /\
  (Rabs (B2R (mc_length mc') - B2R len) <= length_error m (length (mc_lines mc)))%R /\
  (Rabs (path_length (mc_lines mc') - B2R len) <= length_error m (length (mc_lines mc)))%R.
Proof.
  intros fuel typ pts len mc mc' m E1 E2 Hm HN HB HT HP G FL BL OR. unfold new_multicurve_t in E2. rewrite E1 in E2. cbn [bind] in E2. rewrite G in E2.
  apply Ok_inj in E2. subst mc'. cbn [mc_length mc_lines finish_curve].
  assert (TL : mc_length mc = total_length (mc_lines mc)).
  { unfold new_multicurve in E1. destruct (curve_lines fuel typ pts) as [ls| |]; try discriminate. destruct pts as [|p ps]; [discriminate|]. apply Ok_inj in E1. subst mc. reflexivity. }
  rewrite TL in *. set (ls := mc_lines mc) in *.
  assert (E : length_error m (length ls) = ((INR (length ls) + 16) * (4 * zed m) + bpow radix2 (-13))%R).
  { unfold length_error, zed, big, unit24. replace (m - 22) with (m + (-24) + 2) by lia. rewrite !bpow_plus. change (bpow radix2 2) with 4%R. ring. }
  destruct (trimmed_length m Hm ls len) as (_ & A & B & C); auto.
  { destruct OR as [O|O]; [left|right; exact O]. split; [exact O|]. intros Z. rewrite Z in G. revert G. vm_compute. discriminate. }
  rewrite E. auto.
Qed.

(** A type L slider whose points have whole coordinates needs none of the side
    conditions on its lines. *)
Definition whole (p : vec) : Prop := exists a b : Z, B2R (vx p) = IZR a /\ B2R (vy p) = IZR b.
Lemma whole_long m p q : 0 <= m <= 30 -> within m p -> within m q -> whole p -> whole q -> vec_eqb p q = false -> not_tiny (mkLinear p q).
Proof.
  intros Hm Wp Wq (a & b & Ea & Eb) (c & d & Ec & Ed) NE. right. destruct (vdst_acc p q m ltac:(lia) Wp Wq) as (F & P & E).
  destruct q20_val as [F20 V20]. apply gle_iff. cbn [ln_length ln_p1 ln_p2]. unfold ln_length. cbn [ln_p1 ln_p2].
  split; [now apply fin_num|]. split; [now apply fin_num|]. rewrite (key_fin 24 128 _ F20), (key_fin 24 128 _ F), V20.
  assert (ONE : (1 <= geo p q)%R).
  { unfold geo. rewrite Ea, Eb, Ec, Ed, <- !minus_IZR. assert (D : (c - a <> 0 \/ d - b <> 0)%Z).
    { destruct (Z.eq_dec c a) as [->|]; [|left; lia]. destruct (Z.eq_dec d b) as [->|]; [|right; lia]. exfalso.
      destruct Wp as [[F1 _] [F2 _]], Wq as [[F3 _] [F4 _]]. unfold vec_eqb in NE.
      assert (geq (vx p) (vx q) = true) as X by (apply geq_iff; split; [now apply fin_num|]; split; [now apply fin_num|]; rewrite !(key_fin 24 128) by assumption; lra).
      assert (geq (vy p) (vy q) = true) as Y by (apply geq_iff; split; [now apply fin_num|]; split; [now apply fin_num|]; rewrite !(key_fin 24 128) by assumption; lra).
      rewrite X, Y in NE. discriminate. }
    assert (A1 : forall z : Z, z <> 0 -> (1 <= Rabs (IZR z))%R) by (intros z Hz; rewrite <- abs_IZR; apply IZR_le; lia).
    destruct D as [D|D]; [eapply Rle_trans; [exact (A1 _ D)|apply nrm_ge_l]|eapply Rle_trans; [exact (A1 _ D)|apply nrm_ge_r]]. }
  change (bpow radix2 (-20)) with (/ 1048576)%R. apply Rabs_le_inv in E. change (bpow radix2 (-21)) with (/ 2097152)%R in E.
  assert (bpow radix2 (-69) <= / 1048576)%R by (change (/ 1048576)%R with (bpow radix2 (-20)); apply bpow_le; lia). lra.
Qed.
Lemma linear_open pts : Forall (fun l => vec_eqb (ln_p1 l) (ln_p2 l) = false) (process_linear pts).
Proof.
  induction pts as [|a pts IH]; [constructor|]. destruct pts as [|b r]; [constructor|].
  change (process_linear (a :: b :: r)) with (if vec_eqb a b then process_linear (b :: r) else mkLinear a b :: process_linear (b :: r)).
  destruct (vec_eqb a b) eqn:E; [exact IH|constructor; [exact E|exact IH]].
Qed.
Lemma total_ge ls : forall s, nn s -> Forall nlen ls -> (key s <= key (fold_left (fun acc l => gadd acc (ln_length l)) ls s))%R /\ nn (fold_left (fun acc l => gadd acc (ln_length l)) ls s).
Proof.
  induction ls as [|l ls IH]; intros s Hs H; [cbn [fold_left]; split; [lra|exact Hs]|]. inversion H as [|? ? Hl H']; subst. cbn [fold_left].
  destruct (nn_plus 24 128 s (ln_length l) Hs Hl) as (N & A & _). destruct (IH _ N H') as [B C]. split; [|exact C]. fold (gadd s (ln_length l)) in *. lra.
Qed.
Theorem C64_linear : forall fuel pts len m, let ls := process_linear pts in
  0 <= m <= 30 -> Forall (within m) pts -> Forall whole pts -> (length pts <= 1000)%nat -> ls <> [] ->
  (path_length ls <= bpow radix2 m)%R -> is_finite len = true -> (0 <= B2R len <= bpow radix2 m)%R ->
  exists mc, new_multicurve_t fuel (lit "L") pts len = Ok mc /\ is_finite (mc_length mc) = true /\
  (Rabs (B2R (mc_length mc) - B2R len) <= length_error m (length ls))%R /\
  (Rabs (path_length (mc_lines mc) - B2R len) <= length_error m (length ls))%R.
Proof.
  intros fuel pts len m ls Hm HW HI HN NE HP FL BL.
  destruct pts as [|p0 ps]; [exfalso; apply NE; reflexivity|]. set (pts := p0 :: ps) in *.
  assert (N : new_multicurve fuel (lit "L") pts = Ok (finish_curve ls p0)) by reflexivity.
  destruct (new_multicurve_t fuel (lit "L") pts len) as [mc'| |] eqn:E; [|discriminate..]. exists mc'. split; [reflexivity|].
  pose proof (process_linear_in (fun p => within m p /\ whole p) pts) as PI. fold ls in PI.
  assert (LW : Forall (lin (fun p => within m p /\ whole p)) ls) by (apply PI; rewrite Forall_forall in *; intros p I; split; auto).
  pose proof (linear_open pts) as LO. fold ls in LO.
  assert (LN : (length ls <= length pts)%nat).
  { unfold ls. clear. generalize pts. intros l. induction l as [|a l IH]; [apply le_n|]. destruct l as [|b r]; [cbn; lia|].
    change (process_linear (a :: b :: r)) with (if vec_eqb a b then process_linear (b :: r) else mkLinear a b :: process_linear (b :: r)).
    destruct (vec_eqb a b); cbn [length] in *; lia. }
  assert (NT : Forall not_tiny ls).
  { rewrite Forall_forall in *. intros l I. destruct (LW l I) as [[W1 I1] [W2 I2]]. specialize (LO l I). destruct l as [p q]. now apply (whole_long m). }
  apply (C64_length fuel (lit "L") pts len (finish_curve ls p0) mc' m); auto; cbn [mc_lines mc_length finish_curve].
  - lia.
  - rewrite Forall_forall in *. intros l I. destruct (LW l I) as [[W1 _] [W2 _]]. auto.
  - (* a line of length at least 1 *) destruct ls as [|l ls0] eqn:EL; [congruence|]. inversion NT as [|? ? Tl _]; subst. inversion LO as [|? ? Ol _]; subst. destruct Tl as [Tl|Tl]; [congruence|].
    assert (NL : Forall nlen (l :: ls0)) by (eapply Forall_impl; [|exact LW]; intros x [[A _] [B _]]; apply vfin_nlen; eapply vbnd_vfin; eassumption).
    inversion NL as [|? ? Nl NL']; subst. unfold total_length. cbn [fold_left].
    destruct (nn_plus 24 128 g0 (ln_length l) nn_0 Nl) as (N0 & _ & A). destruct (total_ge ls0 _ N0 NL') as [B C]. fold (gadd g0 (ln_length l)) in *.
    destruct q20_val as [F20 V20]. apply gle_iff in Tl as (_ & _ & Tl). rewrite (key_fin 24 128 _ F20), V20 in Tl.
    pose proof (bpow_gt_0 radix2 (-20)). apply ggt_iff. split; [exact (proj1 C)|]. split; [reflexivity|]. change (key g0) with 0%R. lra.
  - left. intros ls' l EQ. rewrite Forall_forall in LO. apply LO. rewrite EQ. apply in_or_app. right. now left.
Qed.
End WithLibm.

(** ** Concrete cases *)
(** cut from 164 to 128 *)
Definition corner_len (len : f64) : f32 := mc_length (linear_mc corner len (pt 0 0)).
Example C64_instance : geq (corner_len (fq 128 1)) (gq 128 1) = true /\ geq (corner_len (fq 300 1)) (gq 300 1) = true /\
  Forall (within 10) corner /\ Forall whole corner /\ (length corner <= 1000)%nat /\ process_linear corner <> [] /\
  (path_length (process_linear corner) <= bpow radix2 10)%R /\ (length_error 10 (length (process_linear corner)) <= / 200)%R.
Proof.
  assert (E : process_linear corner = [mkLinear (pt 0 0) (pt 100 0); mkLinear (pt 100 0) (pt 100 64)]).
  { unfold corner. cbn [process_linear]. assert (vec_eqb (pt 0 0) (pt 100 0) = false) as -> by (vm_compute; reflexivity).
    assert (vec_eqb (pt 100 0) (pt 100 64) = false) as -> by (vm_compute; reflexivity). reflexivity. }
  assert (V : forall z, (Z.abs z <= 2 ^ 24) -> B2R (gq z 1) = IZR z) by (intros z Hz; exact (proj2 (gq1_exact z Hz))).
  split; [vm_compute; reflexivity|]. split; [vm_compute; reflexivity|]. split.
  { unfold corner. repeat apply Forall_cons; [..|apply Forall_nil]; unfold within, pt; cbn [vx vy].
    all: split; (split; [vm_compute; reflexivity|]); rewrite V by lia; change (bpow radix2 10) with 1024%R; apply Rabs_le; lra. }
  split. { unfold corner. repeat apply Forall_cons; [..|apply Forall_nil]; unfold whole, pt; cbn [vx vy]; eexists; eexists; split; apply V; lia. }
  split; [cbn; lia|]. rewrite E. split; [discriminate|]. split.
  - cbn [path_length]. unfold gap, pt. cbn [ln_p1 ln_p2 vx vy]. rewrite !V by lia.
    replace ((100 - 0) ^ 2 + (0 - 0) ^ 2)%R with (100 * 100)%R by ring. replace ((100 - 100) ^ 2 + (64 - 0) ^ 2)%R with (64 * 64)%R by ring.
    rewrite !sqrt_square by lra. change (bpow radix2 10) with 1024%R. lra.
  - unfold length_error. cbn [length]. replace (INR 2) with 2%R by (cbn; ring). change (bpow radix2 (10 - 22)) with (/ 4096)%R. change (bpow radix2 (-13)) with (/ 8192)%R. lra.
Qed.
(** The condition on the last line is needed: a slider whose last point is
    written three times keeps its 100 pixels when 200 are asked for. *)
Definition stuck : list vec := [pt 0 0; pt 100 0; pt 100 0; pt 100 0].
Theorem C64_not_extended : exists mc, @new_multicurve_t no_libm 5 (lit "B") stuck (fq 200 1) = Ok mc /\ geq (mc_length mc) (gq 100 1) = true.
Proof.
  assert (G : match @new_multicurve_t no_libm 5 (lit "B") stuck (fq 200 1) with Ok mc => geq (mc_length mc) (gq 100 1) | _ => false end = true) by (vm_compute; reflexivity).
  destruct (@new_multicurve_t no_libm 5 (lit "B") stuck (fq 200 1)) as [mc| |]; try discriminate G. exists mc. split; [reflexivity|exact G].
Qed.

Print Assumptions C64_length.
Print Assumptions C64_linear.
Print Assumptions C64_not_extended.

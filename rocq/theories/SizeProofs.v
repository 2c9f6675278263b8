(** How many steps and how many points a flattened curve takes. *)
From Coq Require Import Reals Lra ZArith Lia Bool.
From Flocq Require Import Core BinarySingleNaN Mult_error.
From Verif Require Import GoFloat Curves SpecCurves SpecSafety SpecTerm BaseLemmas CurveStart FloatLemmas Float32Lemmas KeyLemmas BoundLemmas BezierProofs CurveBounds BezierTerm CurveTerm ArcProofs.
Import ListNotations.
Open Scope nat_scope.

(** ** Counting the nodes of the subdivision *)
Section Count.
Context {M : libm}.
Inductive tree : nat -> list vec -> list vec -> Prop :=
| tree_leaf p : flat_enough p -> tree 1 p (piece p)
| tree_node p a b l r : ~ flat_enough p -> tree a (left_half p) l -> tree b (right_half p) r -> tree (S (a + b)) p (l ++ r).
Lemma tree_flattens m p o : tree m p o -> flattens p o.
Proof. induction 1; [now constructor|now apply flattens_split]. Qed.
Lemma tree_steps count m p o : 1 <= count -> tree m p o -> forall h parent flat free out ps,
  good count h ((parent :: flat) ++ free) -> holds h (parent :: flat) (p :: ps) ->
  exists h' free', good count h' (flat ++ free') /\ holds h' flat ps /\
    forall fuel, create_bezier_loop (m + fuel) count h (parent :: flat) free out = create_bezier_loop fuel count h' flat free' (out ++ o).
Proof.
  intros Hc. induction 1 as [p EF|p k1 k2 l r EF Fl IHl Fr IHr]; intros h parent flat free out ps G Hh;
    inversion Hh as [|? ? ? ? Hp Hps]; subst.
  all: assert (NP : ~ In parent flat) by (destruct G as (_ & _ & N & _); cbn [app] in N; inversion N; subst; intros H; apply H1, in_or_app; now left).
  all: assert (A2 : forall a, In a flat -> 2 <= a) by (destruct G as (_ & _ & _ & F); rewrite Forall_forall in F; intros a Ha; apply F; right; apply in_or_app; now left).
  - destruct (step_flat count h parent flat free out p Hc G Hp EF) as (h' & E & G' & O).
    exists h', (parent :: free). split; [exact G'|]. split.
    + eapply holds_only; [exact O| |exact Hps]. intros a Ha [?|[?|[]]]; specialize (A2 a Ha); lia.
    + intros fuel. apply E.
  - destruct (step_bent count h parent flat free out p Hc G Hp EF) as (h1 & rc & free1 & h0 & E & G' & Bl & Br & (x & ->) & O & NR).
    assert (H' : holds h1 (parent :: rc :: flat) (left_half p :: right_half p :: ps)).
    { constructor; [exact Bl|]. constructor; [exact Br|].
      assert (H0 : holds (h ++ x) flat ps).
      { unfold holds in *. clear - Hps. induction Hps; constructor; auto. unfold buf in *. rewrite nth_error_app1; auto. apply nth_error_Some. congruence. }
      eapply holds_only; [exact O| |exact H0]. intros a Ha [?|[?|[<-|[<-|[]]]]]; try contradiction; specialize (A2 a Ha); lia. }
    destruct (IHl h1 parent (rc :: flat) free1 out (right_half p :: ps) G' H') as (h2 & free2 & G2 & H2 & E2).
    destruct (IHr h2 rc flat free2 (out ++ l) ps G2 H2) as (h3 & free3 & G3 & H3 & E3).
    exists h3, free3. split; [exact G3|]. split; [exact H3|]. intros fuel. cbn [Nat.add]. rewrite E.
    rewrite <- Nat.add_assoc. rewrite E2, E3. now rewrite app_assoc.
Qed.
Lemma tree_creates m p o : p <> [] -> tree m p o -> forall fuel, m <= fuel -> create_bezier fuel p = Ok (o ++ [last p vzero]).
Proof.
  intros NE F. destruct (create_bezier_start p NE) as [G H].
  assert (Hc : 1 <= length p) by (destruct p; [congruence|cbn; lia]).
  destruct (tree_steps (length p) m p o Hc F _ 2 [] [] [] [] G H) as (h' & free' & _ & _ & E).
  intros fuel L. replace fuel with (m + (fuel - m)) by lia. unfold create_bezier. destruct p as [|a p]; [congruence|].
  rewrite E. destruct (fuel - m); cbn [create_bezier_loop bind app]; do 3 f_equal; apply (last_any (a :: p)); discriminate.
Qed.
Lemma piece_size p : length (piece p) = S (length p - 2).
Proof. unfold piece. cbn [length]. now rewrite map_length, seq_length. Qed.
End Count.

(** ** The depth of the subdivision *)
Section Depth.
Context {M : libm} (k : Z) (K : (0 <= k <= 100)%Z).
Open Scope R_scope.
Lemma tree_depth n : forall p s x, s = 4 / 3 * (INR (length p) * err k) -> s + / 64 + 10 * err k <= 0.35 -> Forall (vbnd k) p -> D2 cx (s + x) p -> D2 cy (s + x) p ->
  x <= / 64 * 4 ^ n -> exists m o, tree m p o /\ (m < 2 * 2 ^ n)%nat /\ (length o <= 2 ^ n * S (length p - 2))%nat.
Proof.
  induction n as [|n IH]; intros p s x Es Hs F Dx Dy Hx.
  - cbn [pow] in Hx. exists 1%nat, (piece p). split; [apply tree_leaf, (flat_small k K (s + x)); auto; lra|]. rewrite piece_size. cbn [Nat.pow]. lia.
  - pose proof (Nat.pow_nonzero 2 n ltac:(lia)) as Z2.
    destruct (flat_dec p) as [Fl|Nf]; [exists 1%nat, (piece p); split; [now apply tree_leaf|]; rewrite piece_size; rewrite Nat.pow_succ_r'; nia|].
    assert (Hx' : x / 4 <= / 64 * 4 ^ n) by (cbn [pow] in Hx; lra).
    assert (Ed : (s + x) / 4 + INR (length p) * err k = s + x / 4) by lra.
    destruct (IH (left_half p) s (x / 4)) as (m1 & l & Hl & B1 & L1); try assumption.
    + now rewrite left_half_length.
    + apply left_bnd; auto; lia.
    + rewrite <- Ed. apply (D2_left cx (vbnd k) (err k) (mid_x k K)); auto. now apply err_pos.
    + rewrite <- Ed. apply (D2_left cy (vbnd k) (err k) (mid_y k K)); auto. now apply err_pos.
    + destruct (IH (right_half p) s (x / 4)) as (m2 & r & Hr & B2 & L2); try assumption.
      * now rewrite right_half_length.
      * apply right_bnd; auto; lia.
      * rewrite <- Ed. apply (D2_right cx (vbnd k) (err k) (mid_x k K)); auto. now apply err_pos.
      * rewrite <- Ed. apply (D2_right cy (vbnd k) (err k) (mid_y k K)); auto. now apply err_pos.
      * exists (S (m1 + m2)), (l ++ r). split; [now apply tree_node|]. rewrite app_length. rewrite left_half_length in L1. rewrite right_half_length in L2.
        rewrite Nat.pow_succ_r'. split; nia.
Qed.
Lemma tree_exists n p : Forall (vbnd k) p -> (INR (length p) + 8) * bpow radix2 k <= bpow radix2 22 -> (k + 8 <= 2 * Z.of_nat n)%Z ->
  exists m o, tree m p o /\ (m < 2 * 2 ^ n)%nat /\ (length o <= 2 ^ n * S (length p - 2))%nat.
Proof.
  intros F H HN. pose proof (B_1 k K) as B1. pose proof (err_pos k K) as E0. set (B := bpow radix2 k) in *. set (s := 4 / 3 * (INR (length p) * err k)).
  assert (S0 : 0 <= s). { unfold s. pose proof (pos_INR (length p)). assert (0 <= INR (length p) * err k) by (apply Rmult_le_pos; lra). lra. }
  assert (N : INR (length p) + 8 <= bpow radix2 22). { pose proof (pos_INR (length p)). eapply Rle_trans; [|exact H]. rewrite <- (Rmult_1_r (INR (length p) + 8)) at 1. apply Rmult_le_compat_l; lra. }
  assert (Tt : bpow radix2 (-150) <= bpow radix2 (-50)) by (apply bpow_le; lia). change (bpow radix2 (-50)) with (/ 1125899906842624) in Tt.
  change (bpow radix2 22) with 4194304 in *.
  assert (Q : (INR (length p) + 8) * err k <= 0.2500001).
  { unfold err. fold B. rewrite Rmult_plus_distr_l. change (bpow radix2 (-24)) with (/ 16777216).
    assert (A1 : (INR (length p) + 8) * (B * / 16777216) <= / 4) by (rewrite <- Rmult_assoc; lra).
    assert (A2 : (INR (length p) + 8) * (2 * bpow radix2 (-150)) <= 4194304 * (2 * / 1125899906842624)).
    { pose proof (pos_INR (length p)). pose proof (bpow_gt_0 radix2 (-150)). apply Rmult_le_compat; lra. }
    lra. }
  apply (tree_depth n p s (4 * B)); auto.
  - unfold s. lra.
  - eapply D2_le; [|apply (D2_start k cx); auto; intros q [[_ Hq] _]; exact Hq]. fold B. lra.
  - eapply D2_le; [|apply (D2_start k cy); auto; intros q [_ [_ Hq]]; exact Hq]. fold B. lra.
  - assert (P4 : / 64 * 4 ^ n = bpow radix2 (2 * Z.of_nat n - 6)).
    { replace (4 ^ n) with (bpow radix2 (2 * Z.of_nat n)).
      - unfold Z.sub. rewrite bpow_plus. change (bpow radix2 (- (6))) with (/ 64). lra.
      - clear. induction n as [|n IH]; [reflexivity|]. replace (2 * Z.of_nat (S n))%Z with (2 + 2 * Z.of_nat n)%Z by lia. rewrite bpow_plus, IH. change (bpow radix2 2) with 4. reflexivity. }
    rewrite P4. unfold B. change 4 with (bpow radix2 2). rewrite <- bpow_plus. apply bpow_le. lia.
Qed.
End Depth.

(** ** Whole curves *)
Section WithLibm.
Context {M : libm}.
(** coordinates of at most 2^k, few enough, and n halvings are enough for 2^k *)
Definition sized (k : Z) (n : nat) (pts : list vec) : Prop :=
  (0 <= k <= 100)%Z /\ Forall (within k) pts /\ ((Z.of_nat (length pts) + 8) * 2 ^ k <= 2 ^ 22)%Z /\ (k + 8 <= 2 * Z.of_nat n)%Z.
Lemma create_sized k n p : p <> [] -> sized k n p -> exists out, length out <= 2 ^ n * S (length p - 2) + 1 /\ forall fuel, 2 * 2 ^ n <= S fuel -> create_bezier fuel p = Ok out.
Proof.
  intros NE (K & F & L & HN). destruct (tree_exists k K n p F) as (m & o & T & Hm & Ho); [|exact HN|].
  - change (bpow radix2 22) with (IZR (2 ^ 22)). rewrite <- (IZR_Zpower radix2 k) by lia. change (Zpower radix2 k) with (2 ^ k)%Z.
    rewrite INR_IZR_INZ. change 8%R with (IZR 8). rewrite <- plus_IZR, <- mult_IZR. now apply IZR_le.
  - exists (o ++ [last p vzero]). split; [rewrite app_length; cbn [length]; lia|]. intros fuel HF. apply (tree_creates m); auto. lia.
Qed.
Lemma pairs_size q l : length (pairs q l) = length l.
Proof. revert q. induction l as [|a l IH]; intros q; [reflexivity|]. cbn [pairs length]. now rewrite IH. Qed.
Lemma approx_sized k n p : p <> [] -> sized k n p -> exists ls, length ls <= 2 ^ n * length p /\ forall fuel, 2 * 2 ^ n <= S fuel -> approximate_bezier fuel p = Ok ls.
Proof.
  intros NE H. destruct (create_sized k n p NE H) as (out & L & E). unfold approximate_bezier.
  assert (P : 1 <= length p) by (destruct p; [congruence|cbn; lia]). pose proof (Nat.pow_nonzero 2 n ltac:(lia)) as Z2.
  destruct out as [|a r].
  - exfalso. specialize (E (2 * 2 ^ n) ltac:(lia)). pose proof (create_bezier_result (2 * 2 ^ n) p NE) as R. rewrite E in R. destruct R as (o & _ & C). destruct o; discriminate C.
  - exists (pairs a r). split; [|intros fuel HF; rewrite (E fuel HF); reflexivity]. rewrite pairs_size. cbn [length] in L. nia.
Qed.
Lemma slice_size (pts : list vec) lo hi : hi <= length pts -> length (slice pts lo hi) = hi - lo.
Proof. intros H. unfold slice. rewrite firstn_length, skipn_length. lia. Qed.
Lemma slice_sized k n pts lo hi : sized k n pts -> sized k n (slice pts lo hi).
Proof.
  intros (K & F & L & HN). split; [exact K|]. split; [|split; [|exact HN]].
  - rewrite Forall_forall in *. intros q Hq. apply F. unfold slice in Hq. rewrite <- (firstn_skipn lo pts). apply in_or_app. right.
    rewrite <- (firstn_skipn (hi - lo) (skipn lo pts)). apply in_or_app. now left.
  - assert (length (slice pts lo hi) <= length pts) by (unfold slice; rewrite firstn_length, skipn_length; lia). nia.
Qed.
Lemma bezier_sized k n pts : sized k n pts -> forall j i la, la <= i -> exists ls, length ls <= 2 ^ n * (length pts - la) /\
  forall fuel, 2 * 2 ^ n <= S fuel -> process_bezier_loop fuel j pts i la = Ok ls.
Proof.
  intros H. pose proof (Nat.pow_nonzero 2 n ltac:(lia)) as Z2. induction j as [|j IH]; intros i la L; [exists []; split; [apply Nat.le_0_l|reflexivity]|]. cbn [process_bezier_loop]. cbv zeta.
  destruct (Nat.ltb_spec i (length pts)) as [Hi|Hi]; [|exists []; split; [apply Nat.le_0_l|reflexivity]].
  set (multi := Nat.ltb (i + 2) (length pts) && _). destruct (multi || Nat.eqb (S i) (length pts)) eqn:EO.
  2:{ destruct (IH (S i) la ltac:(lia)) as (ls & Hl & E). exists ls. split; assumption. }
  pose proof (slice_size pts la (S i) Hi) as SL. pose proof (slice_sized k n pts la (S i) H) as SS.
  assert (A : exists ls, length ls <= 2 ^ n * (S i - la) /\ forall fuel, 2 * 2 ^ n <= S fuel ->
    match slice pts la (S i) with [a; b] => Ok [mkLinear a b] | _ => approximate_bezier fuel (slice pts la (S i)) end = Ok ls).
  { assert (NE : slice pts la (S i) <> []) by (intros C; rewrite C in SL; cbn [length] in SL; lia).
    destruct (approx_sized k n _ NE SS) as (ls & Hl & E). rewrite SL in Hl.
    destruct (slice pts la (S i)) as [|a [|b [|c r]]]; try (exists ls; split; assumption).
    exists [mkLinear a b]. cbn [length] in SL |- *. split; [nia|reflexivity]. }
  destruct A as (ls & Hl & E). destruct multi eqn:EM.
  - destruct (IH (S (S i)) (S i) ltac:(lia)) as (rs & Hr & E2). exists (ls ++ rs). rewrite app_length. split; [replace (length pts - la) with ((S i - la) + (length pts - S i)) by lia; rewrite Nat.mul_add_distr_l; lia|]. intros fuel HF. rewrite (E fuel HF). cbn [bind]. rewrite (E2 fuel HF). reflexivity.
  - cbn [orb] in EO. apply Nat.eqb_eq in EO. exists ls. split; [rewrite <- EO; exact Hl|]. intros fuel HF. rewrite (E fuel HF). cbn [bind].
    assert (R : process_bezier_loop fuel j pts (S i) i = Ok []). { destruct j; [reflexivity|]. cbn [process_bezier_loop]. destruct (Nat.ltb_spec (S i) (length pts)); [lia|reflexivity]. }
    rewrite R. cbn [bind]. now rewrite app_nil_r.
Qed.
Lemma linear_size pts : length (process_linear pts) <= length pts - 1.
Proof.
  induction pts as [|a pts IH]; [cbn; lia|]. destruct pts as [|b r]; [cbn; lia|]. 
  assert (E : process_linear (a :: b :: r) = if vec_eqb a b then process_linear (b :: r) else mkLinear a b :: process_linear (b :: r)) by reflexivity.
  rewrite E. destruct (vec_eqb a b); cbn [length] in *; lia.
Qed.
Lemma catmull_size pts : forall prev, length (process_catmull prev pts) = 50 * (length pts - 1).
Proof.
  induction pts as [|a pts IH]; intros prev; [reflexivity|]. destruct pts as [|b r]; [reflexivity|].
  match goal with |- length ?l = _ => assert (E : exists x, length x = 50 /\ l = x ++ process_catmull (Some a) (b :: r)) end.
  { eexists. split; [|reflexivity]. unfold approximate_catmull. now rewrite map_length, seq_length. }
  destruct E as (x & Lx & ->). rewrite app_length, IH, Lx. cbn [length]. lia.
Qed.
Lemma arc_size q fuel a b c ls : (1 <= q <= 4194304)%Z -> atan2_range -> radius_upto q a b c -> approximate_arc fuel a b c (gq 1 8) = Ok ls ->
  (Z.of_nat (length ls) <= Z.max 2 q)%Z.
Proof.
  intros Q HA HR H. destruct (radius_fin q a b c ltac:(lia) HR) as (Fr & Br & _).
  assert (HR' : radius_upto 4194304 a b c).
  { unfold radius_upto in *. destruct (g_of_Z_exact q ltac:(lia)) as [Fq Vq]. destruct (g_of_Z_exact 4194304 ltac:(lia)) as [Fn Vn].
    apply gle_iff. split; [now apply (fin_num 24 128)|]. split; [now apply (fin_num 24 128)|]. rewrite (key_fin 24 128 _ Fr), (key_fin 24 128 _ Fn), Vn. apply Rle_trans with (IZR q); [apply Br|]. apply IZR_le. lia. }
  unfold approximate_arc in H. apply bind_ok in H as (arc & E & H). destruct (arc_unstable arc); [apply Ok_inj in H; subst ls; cbn [length]; lia|]. cbv zeta in H.
  destruct (make_ok _ _); [|discriminate H]. apply Ok_inj in H. subst ls. rewrite map_length, seq_length.
  assert (Er : arc_r arc = vdst a (arc_centre_of a b c)).
  { unfold new_cirarc in E. cbv zeta in E. apply bind_ok in E as (e & _ & E). apply Ok_inj in E. subst arc. reflexivity. }
  destruct (arc_facts fuel a b c arc HA HR' E) as (_ & Ft & Bt & _). rewrite <- Er in Fr, Br. clear Er E HR HR'.
  set (t := arc_total arc) in *. set (r := arc_r arc) in *. clearbody t r.
  pose proof (IZR_le 1 q ltac:(lia)) as Q1. pose proof (IZR_le q 4194304 ltac:(lia)) as Q2.
  destruct (g_of_Z_exact q ltac:(lia)) as [Fq Vq].
  assert (X8 : exists x : f32, B2R x = (8 * IZR q)%R).
  { destruct (g_of_Z_exact q ltac:(lia)) as [_ V]. exists (gmul (gq 8 1) (g_of_Z q)). destruct (gq1_exact 8 ltac:(lia)) as [F8 V8].
    destruct (gmul_fin (gq 8 1) (g_of_Z q) F8 Fq ltac:(rewrite V8, Vq; apply small127; lra)) as [_ V']. rewrite V', V8, Vq.
    apply round_generic; [typeclasses eauto|].
    assert (G : generic_format radix2 (SpecFloat.fexp 24 128) (IZR q)) by (rewrite <- Vq; apply generic_format_B2R).
    change 8%R with (bpow radix2 3). rewrite Rmult_comm. apply (mult_bpow_pos_exact_FLT radix2 (-149)%Z 24%Z); [exact G|lia]. }
  destruct X8 as [x8 V8].
  assert (P : (- 6 <= B2R r * B2R t <= 8 * IZR q)%R) by nra.
  destruct (gmul_fin r t Fr Ft ltac:(apply small127; lra)) as [F1 V1].
  assert (P1 : (- 6 <= B2R (gmul r t) <= 8 * IZR q)%R).
  { rewrite V1. destruct (gq1_exact (-6) ltac:(lia)) as [_ V6]. split.
    - rewrite <- V6. apply rnd32_ge_f. rewrite V6. lra.
    - rewrite <- V8. apply rnd32_le_f. rewrite V8. lra. }
  destruct eighth_val as [F8 V8'].
  destruct (gmul_fin (gmul r t) (gq 1 8) F1 F8 ltac:(rewrite V8'; apply small127; lra)) as [F2 V2].
  assert (P2 : (-1 < B2R (gmul (gmul r t) (gq 1 8)) <= IZR q)%R).
  { rewrite V2, V8'. assert (X : B2R (gq (-3) 4) = (- (3 / 4))%R) by (bval (gq (-3) 4); rewrite V, opp_IZR; lra). split.
    - apply Rlt_le_trans with (B2R (gq (-3) 4)); [lra|]. apply rnd32_ge_f. rewrite X. lra.
    - rewrite <- Vq. apply rnd32_le_f. rewrite Vq. lra. }
  pose proof (int_of_g_ge _ q F2 P2 ltac:(lia)) as I. lia.
Qed.
Lemma trim_size ls : forall d, length (trim_lines ls d) <= length ls.
Proof. induction ls as [|l ls IH]; intros d; [cbn; lia|]. cbn [trim_lines]. cbv zeta. destruct (fgt _ _); [cbn [length]; lia|]. specialize (IH (fsub d (f_of_g (ln_length l)))). cbn [length]. lia. Qed.
Lemma curve_size fuel typ pts len mc : new_multicurve_t fuel typ pts len = Ok mc -> exists ls, curve_lines fuel typ pts = Ok ls /\ length (mc_lines mc) <= length ls.
Proof.
  unfold new_multicurve_t, new_multicurve. intros H. apply bind_ok in H as (m & E & H). apply bind_ok in E as (ls & E & E').
  destruct pts as [|p r]; [discriminate E'|]. apply Ok_inj in E'. subst m. apply Ok_inj in H. subst mc. exists ls. split; [exact E|].
  cbn [mc_lines finish_curve mc_length]. destruct (ggt _ _); [|lia]. rewrite rev_length. etransitivity; [apply trim_size|]. now rewrite rev_length.
Qed.
End WithLibm.

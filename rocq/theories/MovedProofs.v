(** Proof scripts for C95. *)
From Coq Require Import Reals List Lra Lia Bool.
From Flocq Require Import Core BinarySingleNaN Plus_error.
From Verif Require Import DiffCalc FloatLemmas Float32Lemmas VectorProofs SectionProofs SpecDiff SpecMoved MovedFloats MovedSim.
Import ListNotations.
Open Scope R_scope.

(** ** Building the difficulty objects *)
Section Build.
Context {M : libm}.
Context (d d' : difficulty) (T : f64 -> f64 -> Prop) (Q : vec -> vec -> Prop).
(** neighbours give like difficulty objects *)
Lemma objects_like (W : pobj -> pobj -> Prop) (N : pobj -> pobj -> Prop) :
  (forall ll ll' a a' c c', orel W ll ll' -> W a a' -> W c c' -> (forall l, ll = Some l -> N l a) -> N a c -> alike d d' T Q (new_dobj d c ll a) (new_dobj d' c' ll' a')) ->
  forall l l', Forall2 W l l' -> forall ll ll' a a', orel W ll ll' -> W a a' -> (forall x, ll = Some x -> N x a) ->
  (forall i x y, nth_error (a :: l) i = Some x -> nth_error (a :: l) (S i) = Some y -> N x y) ->
  Forall2 (alike d d' T Q) (diff_objects d ll a l) (diff_objects d' ll' a' l').
Proof.
  intros H l l' F. induction F as [|c c' l l' C F IH]; intros ll ll' a a' Hl A Nl Nn; cbn [diff_objects]; [constructor|].
  assert (Nac : N a c) by (apply (Nn 0%nat); reflexivity).
  constructor; [apply H; assumption|]. apply IH; [exact A|exact C| |].
  - intros x E. injection E as <-. exact Nac.
  - intros i x y X Y. apply (Nn (S i)); assumption.
Qed.
End Build.

(** ** The angle *)
Lemma g_of_f_opp (a : f64) : g_of_f (Bopp a) = Bopp (g_of_f a).
Proof.
  destruct a as [s|s| |s m e H]; try reflexivity. cbn [Bopp g_of_f].
  pose proof (binary_normalize_correct 24 128 p24 pe24 mode_NE (cond_Zopp s (Zpos m)) e s) as C. pose proof (binary_normalize_correct 24 128 p24 pe24 mode_NE (cond_Zopp (negb s) (Zpos m)) e (negb s)) as D. cbv zeta in C, D.
  set (z := F2R (Float radix2 (cond_Zopp s (Zpos m)) e)) in *. assert (E : F2R (Float radix2 (cond_Zopp (negb s) (Zpos m)) e) = - z) by (unfold z; destruct s; cbn [negb cond_Zopp]; unfold F2R; cbn [Fnum Fexp]; rewrite ?opp_IZR; ring).
  rewrite E in D. change (round_mode mode_NE) with ZnearestE in *. rewrite round_NE_opp, Rabs_Ropp in D.
  assert (Z0 : z <> 0) by (unfold z; apply F2R_neq_0; destruct s; discriminate). clearbody z.
  set (u := binary_normalize 24 128 p24 pe24 mode_NE (cond_Zopp s (Zpos m)) e s) in *. set (u' := binary_normalize 24 128 p24 pe24 mode_NE (cond_Zopp (negb s) (Zpos m)) e (negb s)) in *. clearbody u u'.
  destruct (Rlt_bool _ _).
  - destruct C as (C1 & C2 & C3), D as (D1 & D2 & D3). apply B2R_Bsign_inj; [exact D2|rewrite is_finite_Bopp; exact C2|rewrite B2R_Bopp, C1; exact D1|].
    rewrite Bsign_Bopp by (destruct u; try reflexivity; discriminate C2). rewrite C3, D3. destruct (Rcompare_spec z 0) as [P|P|P]; [rewrite Rcompare_Gt by lra|contradiction|rewrite Rcompare_Lt by lra]; reflexivity.
  - apply inf_of_SF in C, D. rewrite C, D. cbn [Bopp]. f_equal. destruct (Rlt_bool_spec z 0), (Rlt_bool_spec (- z) 0); try reflexivity; lra.
Qed.
Lemma fabs_opp (g : f32) : fabs (f_of_g (Bopp g)) = fabs (f_of_g g).
Proof.
  destruct (is_finite g) eqn:F; [|destruct g; try discriminate F; reflexivity].
  assert (F' : fin (Bopp g)) by (unfold fin; rewrite is_finite_Bopp; exact F). destruct (f_of_g_fin _ F) as (F1 & V1). destruct (f_of_g_fin _ F') as (F2 & V2). rewrite B2R_Bopp in V2.
  set (a := f_of_g g) in *. set (b := f_of_g (Bopp g)) in *. clearbody a b. unfold fabs. destruct a as [sa| | |sa ma ea Ha]; try discriminate F1; destruct b as [sb| | |sb mb eb Hb]; try discriminate F2; cbn [Babs]; try reflexivity.
  - exfalso. cbn [B2R] in V1. rewrite <- V1, Ropp_0 in V2. revert V2. cbn [B2R]. apply F2R_neq_0. destruct sb; discriminate.
  - exfalso. cbn [B2R] in V2. assert (V3 : B2R g = 0) by lra. rewrite V3 in V1. revert V1. cbn [B2R]. apply F2R_neq_0. destruct sa; discriminate.
  - apply B2R_inj; [reflexivity|reflexivity|]. cbn [B2R] in *. assert (P : F2R (Float radix2 (cond_Zopp sb (Zpos mb)) eb) = - F2R (Float radix2 (cond_Zopp sa (Zpos ma)) ea)) by congruence.
    apply (f_equal Rabs) in P. rewrite Rabs_Ropp in P. rewrite <- !F2R_Zabs in P. cbn [cond_Zopp] in *. rewrite !abs_cond_Zopp in P. exact P.
Qed.
Lemma gabs_even (a a' : f64) : fabs a' = fabs a -> gabs (g_of_f a') = gabs (g_of_f a).
Proof.
  intros E. assert (K : a' = a \/ a' = Bopp a).
  { destruct a as [s|s| |s m e H], a' as [s'|s'| |s' m' e' H']; cbn [fabs Babs] in E; try discriminate E; [destruct s, s'; auto|destruct s, s'; auto|auto|].
    assert (P : Rabs (B2R (B754_finite s m e H)) = Rabs (B2R (B754_finite s' m' e' H'))) by (rewrite <- !B2R_Babs; cbn [Babs]; rewrite E; reflexivity).
    destruct (Req_dec (B2R (B754_finite s m e H)) (B2R (B754_finite s' m' e' H'))) as [Q|Q].
    - left. apply B2R_inj; [reflexivity|reflexivity|symmetry; exact Q].
    - right. apply B2R_inj; [reflexivity|reflexivity|]. rewrite B2R_Bopp. revert P. unfold Rabs. destruct (Rcase_abs _), (Rcase_abs _); intros P; try lra; exfalso; apply Q; lra. }
  destruct K as [->| ->]; [reflexivity|]. unfold gabs. rewrite g_of_f_opp, fabs_opp. reflexivity.
Qed.

(** vectors *)
Definition vmir (s : symmetry) (v v' : vec) : Prop :=
  mir (rev_x s) (if swap s then vy v else vx v) (vx v') /\ mir (rev_y s) (if swap s then vx v else vy v) (vy v').
Lemma image_vmir s p p' : image s p p' -> vmir s p p'.
Proof. intros ((A1 & A2 & A3) & (B1 & B2 & B3)). split; left; [split; [exact A1|split; [exact A2|]]|split; [exact B1|split; [exact B2|]]]; [rewrite A3|rewrite B3]; reflexivity. Qed.
Lemma vmir_sub s v v' w w' : vmir s v v' -> vmir s w w' -> vmir s (vsub v w) (vsub v' w').
Proof. intros (A & B) (C & D). unfold vmir, vsub. cbn [vx vy]. destruct (swap s); split; apply mir_sub; assumption. Qed.
Lemma vmir_add s v v' w w' : vmir s v v' -> vmir s w w' -> vmir s (vadd v w) (vadd v' w').
Proof. intros (A & B) (C & D). unfold vmir, vadd. cbn [vx vy]. destruct (swap s); split; apply mir_add; assumption. Qed.
Lemma vmir_scl s v v' k : vmir s v v' -> vmir s (vscl v k) (vscl v' k).
Proof.
  intros (A & B). pose proof (mir_refl k) as K. unfold vmir, vscl. cbn [vx vy].
  pose proof (mir_mul _ _ _ _ _ _ A K) as A'. pose proof (mir_mul _ _ _ _ _ _ B K) as B'. rewrite xorb_false_r in A', B'. destruct (swap s); split; assumption.
Qed.
Lemma vmir_dst s p p' q q' : vmir s p p' -> vmir s q q' -> vdst p q = vdst p' q'.
Proof.
  intros A B. destruct (vmir_sub _ _ _ _ _ B A) as (C & D). unfold vdst. cbv zeta. unfold vsub in C, D. cbn [vx vy] in C, D. apply mir_square in C, D.
  destruct (swap s); rewrite <- C, <- D; [rewrite gadd_comm|]; reflexivity.
Qed.
(** sizes *)
Definition mid (x : f32) : Prop := fin x /\ Rabs (B2R x) <= bpow radix2 21 /\ (B2R x = 0 \/ bpow radix2 (-30) <= Rabs (B2R x)).
Lemma rnd32_abs_ge k x : (-100 <= k)%Z -> bpow radix2 k <= Rabs x -> bpow radix2 k <= Rabs (rnd32 x).
Proof. intros K H. apply abs_round_ge_generic; [typeclasses eauto|typeclasses eauto| |exact H]. apply generic_format_bpow. unfold SpecFloat.fexp, SpecFloat.emin. lia. Qed.
Lemma rnd32_abs_le k x : (-100 <= k)%Z -> Rabs x <= bpow radix2 k -> Rabs (rnd32 x) <= bpow radix2 k.
Proof. intros K H. apply abs_round_le_generic; [typeclasses eauto|typeclasses eauto| |exact H]. apply generic_format_bpow. unfold SpecFloat.fexp, SpecFloat.emin. lia. Qed.
Lemma tidy_sub (x y : f32) : tidy x -> tidy y -> mid (gsub x y) /\ (B2R x <> B2R y -> B2R (gsub x y) <> 0).
Proof.
  intros (Fx & a & Ha & Va) (Fy & b & Hb & Vb).
  assert (E : B2R x - B2R y = IZR (a - b) * bpow radix2 (-30)) by (rewrite Va, Vb, minus_IZR; ring).
  assert (P : bpow radix2 21 = IZR (2 ^ 51) * bpow radix2 (-30)) by (change (IZR (2 ^ 51)) with (bpow radix2 51); rewrite <- bpow_plus; reflexivity).
  assert (S : Rabs (B2R x - B2R y) <= bpow radix2 21).
  { rewrite E, Rabs_mult, (Rabs_pos_eq (bpow radix2 (-30))) by apply bpow_ge_0. rewrite P. apply Rmult_le_compat_r; [apply bpow_ge_0|]. rewrite <- abs_IZR. apply IZR_le. lia. }
  destruct (gsub_fin x y Fx Fy) as (F & V); [apply Rle_trans with (1 := S); apply bpow_le; lia|].
  assert (G : B2R x <> B2R y -> bpow radix2 (-30) <= Rabs (B2R (gsub x y))).
  { intros N. rewrite V. apply rnd32_abs_ge; [lia|]. rewrite E, Rabs_mult, (Rabs_pos_eq (bpow radix2 (-30))) by apply bpow_ge_0. rewrite <- (Rmult_1_l (bpow radix2 (-30))) at 1.
    apply Rmult_le_compat_r; [apply bpow_ge_0|]. rewrite <- abs_IZR. apply (IZR_le 1). assert (a - b <> 0)%Z; [|lia]. intros K. apply N. apply Rminus_diag_uniq. rewrite E, K. ring. }
  split; [split; [exact F|split]|].
  - rewrite V. apply rnd32_abs_le; [lia|exact S].
  - destruct (Req_dec (B2R x) (B2R y)) as [K|K]; [left; rewrite V, K, Rminus_diag_eq by reflexivity; apply round_0; typeclasses eauto|right; apply G, K].
  - intros N K. specialize (G N). rewrite K, Rabs_R0 in G. pose proof (bpow_gt_0 radix2 (-30)). lra.
Qed.
(** a product and its rounding have the same sign *)
Definition same_sign (p r : R) : Prop := (p = 0 /\ r = 0) \/ (0 < p /\ 0 < r) \/ (p < 0 /\ r < 0).
Lemma mid_mul (x y : f32) : mid x -> mid y -> fin (gmul x y) /\ Rabs (B2R (gmul x y)) <= bpow radix2 42 /\ same_sign (B2R x * B2R y) (B2R (gmul x y)).
Proof.
  intros (Fx & Ux & Lx) (Fy & Uy & Ly). assert (S : Rabs (B2R x * B2R y) <= bpow radix2 42).
  { rewrite Rabs_mult. change 42%Z with (21 + 21)%Z. rewrite bpow_plus. apply Rmult_le_compat; try apply Rabs_pos; assumption. }
  destruct (gmul_fin x y Fx Fy) as (F & V); [apply Rle_trans with (1 := S); apply bpow_le; lia|]. split; [exact F|split; [rewrite V; apply rnd32_abs_le; [lia|exact S]|]].
  set (p := B2R x * B2R y) in *. rewrite V. destruct (Req_dec p 0) as [K|K]; [left; rewrite K; split; [reflexivity|apply round_0; typeclasses eauto]|right].
  assert (L : bpow radix2 (-60) <= Rabs p).
  { unfold p. rewrite Rabs_mult. change (-60)%Z with (-30 + -30)%Z. rewrite bpow_plus. assert (B2R x <> 0) by (intros E; apply K; unfold p; rewrite E; ring). assert (B2R y <> 0) by (intros E; apply K; unfold p; rewrite E; ring).
    apply Rmult_le_compat; try apply bpow_ge_0; tauto. }
  apply (rnd32_abs_ge (-60)) in L; [|lia]. pose proof (bpow_gt_0 radix2 (-60)) as B.
  destruct (Rtotal_order p 0) as [H|[H|H]]; [right|contradiction|left].
  - split; [exact H|]. assert (R : rnd32 p <= 0) by (rewrite <- (round_0 radix2 (SpecFloat.fexp 24 128) ZnearestE); apply round_le; try typeclasses eauto; lra). rewrite Rabs_left1 in L by exact R. lra.
  - split; [exact H|]. assert (R : 0 <= rnd32 p) by (rewrite <- (round_0 radix2 (SpecFloat.fexp 24 128) ZnearestE); apply round_le; try typeclasses eauto; lra). rewrite Rabs_pos_eq in L by exact R. lra.
Qed.
Lemma some_turn x1 y1 x2 y2 p q r t : same_sign (x1 * x2) p -> same_sign (y1 * y2) q -> same_sign (x1 * y2) r -> same_sign (y1 * x2) t ->
  x1 <> 0 \/ y1 <> 0 -> x2 <> 0 \/ y2 <> 0 -> p + q <> 0 \/ r - t <> 0.
Proof.
  intros P Q R T N1 N2. destruct (Req_dec (p + q) 0) as [E|E]; [|now left]. right. intros E'.
  assert (K : (x1 * x2) * (y1 * y2) = (x1 * y2) * (y1 * x2)) by ring.
  assert (Z : x1 * x2 = 0 /\ y1 * y2 = 0 /\ x1 * y2 = 0 /\ y1 * x2 = 0).
  { destruct P as [P|[P|P]], Q as [Q|[Q|Q]]; try lra; destruct R as [R|[R|R]], T as [T|[T|T]]; try lra; exfalso; destruct P, Q, R, T; nra. }
  destruct Z as (Z1 & Z2 & Z3 & Z4). apply Rmult_integral in Z1, Z2, Z3, Z4. tauto.
Qed.
Lemma sum_nonzero (x y : f32) : fin x -> fin y -> Rabs (B2R x) <= bpow radix2 42 -> Rabs (B2R y) <= bpow radix2 42 ->
  fin (gadd x y) /\ (B2R x + B2R y <> 0 -> B2R (gadd x y) <> 0) /\ fin (gsub x y) /\ (B2R x - B2R y <> 0 -> B2R (gsub x y) <> 0).
Proof.
  intros Fx Fy Bx By. assert (P : bpow radix2 43 = 2 * bpow radix2 42) by (change 43%Z with (1 + 42)%Z; rewrite bpow_plus; reflexivity). pose proof (bpow_le radix2 43 127 ltac:(lia)) as Q.
  destruct (gadd_fin x y Fx Fy) as (F & V); [pose proof (Rabs_triang (B2R x) (B2R y)); lra|].
  destruct (gsub_fin x y Fx Fy) as (F' & V'); [pose proof (Rabs_triang (B2R x) (- B2R y)); rewrite Rabs_Ropp in *; unfold Rminus; lra|].
  assert (NF : Exp_not_FTZ (SpecFloat.fexp 24 128)) by (change (SpecFloat.fexp 24 128) with (FLT_exp (-149) 24); typeclasses eauto).
  split; [exact F|split; [|split; [exact F'|]]]; intros N; [rewrite V|rewrite V'].
  - apply round_plus_neq_0; try typeclasses eauto; try apply generic_format_B2R; exact N.
  - unfold Rminus in *. apply round_plus_neq_0; try typeclasses eauto; try apply generic_format_B2R; [apply generic_format_opp, generic_format_B2R|exact N].
Qed.
Lemma turn_same {M : libm} (s : symmetry) v1 v1' v2 v2' : atan2_even -> vmir s v1 v1' -> vmir s v2 v2' ->
  mid (vx v1) -> mid (vy v1) -> mid (vx v2) -> mid (vy v2) -> B2R (vx v1) <> 0 \/ B2R (vy v1) <> 0 -> B2R (vx v2) <> 0 \/ B2R (vy v2) <> 0 ->
  gabs (gatan2 (gsub (gmul (vx v1') (vy v2')) (gmul (vy v1') (vx v2'))) (vdot v1' v2')) = gabs (gatan2 (gsub (gmul (vx v1) (vy v2)) (gmul (vy v1) (vx v2))) (vdot v1 v2)).
Proof.
  intros EV (A1 & B1) (A2 & B2) M1 M2 M3 M4 N1 N2.
  destruct (mid_mul _ _ M1 M3) as (Fp & Bp & Sp). destruct (mid_mul _ _ M2 M4) as (Fq & Bq & Sq). destruct (mid_mul _ _ M1 M4) as (Fr & Br & Sr). destruct (mid_mul _ _ M2 M3) as (Ft & Bt & St).
  pose proof (some_turn _ _ _ _ _ _ _ _ Sp Sq Sr St N1 N2) as NZ.
  destruct (sum_nonzero _ _ Fp Fq Bp Bq) as (Fd & Nd & _ & _). destruct (sum_nonzero _ _ Fr Ft Br Bt) as (_ & _ & Fe & Ne). destruct (sum_nonzero _ _ Ft Fr Bt Br) as (_ & _ & Fe' & _).
  assert (DOT : mir false (vdot v1 v2) (vdot v1' v2')).
  { unfold vdot. pose proof (mir_mul _ _ _ _ _ _ A1 A2) as X. pose proof (mir_mul _ _ _ _ _ _ B1 B2) as Y. rewrite xorb_nilpotent in X, Y. pose proof (mir_add _ _ _ _ _ X Y) as Z. destruct (swap s); [rewrite gadd_comm|]; exact Z. }
  assert (DET : exists b, mir b (gsub (gmul (vx v1) (vy v2)) (gmul (vy v1) (vx v2))) (gsub (gmul (vx v1') (vy v2')) (gmul (vy v1') (vx v2')))).
  { pose proof (mir_mul _ _ _ _ _ _ A1 B2) as X. pose proof (mir_mul _ _ _ _ _ _ B1 A2) as Y. rewrite (xorb_comm (rev_y s)) in Y. pose proof (mir_sub _ _ _ _ _ X Y) as Z. destruct (swap s); [|exists (xorb (rev_x s) (rev_y s)); exact Z].
    exists (negb (xorb (rev_x s) (rev_y s))). apply fin_mir in Z; [|exact Fe']. destruct Z as (Fz & Vz). left. split; [exact Fe|split; [exact Fz|]]. rewrite Vz.
    unfold gsub. assert (OP : B2R (gsub (gmul (vy v1) (vx v2)) (gmul (vx v1) (vy v2))) = - B2R (gsub (gmul (vx v1) (vy v2)) (gmul (vy v1) (vx v2)))).
    { assert (QB : forall a b : f32, fin a -> fin b -> Rabs (B2R a) <= bpow radix2 42 -> Rabs (B2R b) <= bpow radix2 42 -> B2R (gsub a b) = rnd32 (B2R a - B2R b)).
      { intros a b Fa Fb Ba Bb. apply gsub_fin; [exact Fa|exact Fb|]. pose proof (Rabs_triang (B2R a) (- B2R b)) as TR. rewrite Rabs_Ropp in TR. assert (P : bpow radix2 43 = 2 * bpow radix2 42) by (change 43%Z with (1 + 42)%Z; rewrite bpow_plus; reflexivity). pose proof (bpow_le radix2 43 127 ltac:(lia)). unfold Rminus. lra. }
      rewrite (QB _ _ Ft Fr Bt Br), (QB _ _ Fr Ft Br Bt). rewrite <- (Ropp_minus_distr (B2R (gmul (vx v1) (vy v2)))). apply round_NE_opp. }
    unfold gsub in OP. rewrite OP. destruct (rev_x s), (rev_y s); cbn [xorb negb cneg]; ring. }
  destruct DET as (b & DET). apply fin_mir in DOT; [|exact Fd]. apply fin_mir in DET; [|exact Fe]. destruct DOT as (Fd' & Vd), DET as (Fde & Vde). cbn [cneg] in Vd.
  unfold vdot in *. unfold gatan2. apply gabs_even. destruct (f_of_g_fin _ Fd) as (G1 & W1). destruct (f_of_g_fin _ Fd') as (G2 & W2). destruct (f_of_g_fin _ Fe) as (G3 & W3). destruct (f_of_g_fin _ Fde) as (G4 & W4).
  apply EV; [exact G3|exact G1|exact G4|exact G2|rewrite W1, W2; exact Vd|rewrite W3, W4, Vde; destruct b; [right|left]; reflexivity|]. rewrite W1, W3. tauto.
Qed.

(** ** Mirrored maps *)
Section Mirror.
Context {M : libm}.
Lemma wrap_no d o : (forall sd, ho_kind o <> KSlider sd) -> wrap_object d o = Ok (mkPobj o None).
Proof. intros N. unfold wrap_object. destruct (ho_kind o) as [| |sd] eqn:K; try reflexivity; exfalso; eapply N; reflexivity. Qed.
Lemma wrap_all d objs : (forall o, In o objs -> forall sd, ho_kind o <> KSlider sd) -> mapM (wrap_object d) objs = Ok (map (fun o => mkPobj o None) objs).
Proof.
  induction objs as [|o objs IH]; intros N; cbn [mapM map]; [reflexivity|]. rewrite (wrap_no d o) by (apply N; now left). cbn [bind]. rewrite IH by (intros x X; apply N; now right). reflexivity.
Qed.
Lemma kind_same o o' : ho_kind o' = ho_kind o -> same_kind o o'.
Proof. intros K. unfold same_kind, add_object. rewrite K. reflexivity. Qed.
Lemma spinner_kind o o' : ho_kind o' = ho_kind o -> is_spinner o' = is_spinner o.
Proof. intros K. unfold is_spinner. now rewrite K. Qed.

Definition wlike (R : hobj -> hobj -> Prop) (p p' : pobj) : Prop := po_lazy p = None /\ po_lazy p' = None /\ R (po_obj p) (po_obj p').
(** slider-free maps whose objects are related by [R] *)
Lemma plain_results (R : hobj -> hobj -> Prop) (N : hobj -> hobj -> Prop) d d' T E Q : laws d d' T E Q ->
  (forall o o', R o o' -> (forall sd, ho_kind o <> KSlider sd) /\ ho_kind o' = ho_kind o) ->
  (forall ll ll' a a' c c', orel R ll ll' -> R a a' -> R c c' -> (forall l, ll = Some l -> N l a) -> N a c ->
     alike d d' T Q (new_dobj d (mkPobj c None) (option_map (fun o => mkPobj o None) ll) (mkPobj a None)) (new_dobj d' (mkPobj c' None) (option_map (fun o => mkPobj o None) ll') (mkPobj a' None))) ->
  forall objs objs', Forall2 R objs objs' -> (forall i x y, nth_error objs i = Some x -> nth_error objs (S i) = Some y -> N x y) ->
  forall fuel, all_results fuel objs d = all_results fuel objs' d'.
Proof.
  intros L HR HN objs objs' F Nn fuel. apply (results_like d d' T E Q L).
  - clear - F HR. induction F as [|o o' l l' H F IH]; constructor; [apply kind_same, HR, H|exact IH].
  - unfold create_difficulty_objects. rewrite !wrap_all.
    2:{ clear - F HR. induction F as [|o o' l l' H F IH]; intros x X; [destruct X|]. destruct X as [<-|X]; [destruct (HR _ _ H) as (A & B); rewrite B; exact A|apply IH, X]. }
    2:{ clear - F HR. induction F as [|o o' l l' H F IH]; intros x X; [destruct X|]. destruct X as [<-|X]; [apply (HR _ _ H)|apply IH, X]. }
    cbn [bind rrel]. destruct F as [|a a' l l' A F]; cbn [map]; [constructor|].
    apply (objects_like d d' T Q (wlike R) (fun x y => N (po_obj x) (po_obj y))).
    + intros ll ll' [a0 la] [a0' la'] [c lc] [c' lc'] Hl (L1 & L2 & Ha) (L3 & L4 & Hc) N1 N2. cbn [po_lazy po_obj] in *. subst.
      assert (X : exists u u', ll = option_map (fun o => mkPobj o None) u /\ ll' = option_map (fun o => mkPobj o None) u' /\ orel R u u' /\ (forall l0, u = Some l0 -> N l0 a0)).
      { destruct ll as [[x lx]|], ll' as [[x' lx']|]; cbn in Hl; try contradiction.
        - destruct Hl as (X1 & X2 & X3). cbn [po_lazy po_obj] in *. subst. exists (Some x), (Some x'). split; [reflexivity|split; [reflexivity|split; [exact X3|]]]. intros l0 E0. injection E0 as <-. apply (N1 _ eq_refl).
        - exists None, None. split; [reflexivity|split; [reflexivity|split; [exact I|]]]. intros l0 E0. discriminate E0. }
      destruct X as (u & u' & -> & -> & Hu & Nu). apply HN; assumption.
    + clear - F. induction F as [|x x' l l' H F IH]; cbn [map]; constructor; [split; [reflexivity|split; [reflexivity|exact H]]|exact IH].
    + exact I.
    + split; [reflexivity|split; [reflexivity|exact A]].
    + intros x E0. discriminate E0.
    + intros i x y X Y. change (mkPobj a None :: map (fun o => mkPobj o None) l) with (map (fun o => mkPobj o None) (a :: l)) in X, Y. rewrite nth_error_map in X, Y.
      destruct (nth_error (a :: l) i) eqn:X'; [|discriminate X]. destruct (nth_error (a :: l) (S i)) eqn:Y'; [|discriminate Y]. injection X as <-. injection Y as <-. cbn [po_obj]. apply (Nn i); assumption.
Qed.
Lemma eq_laws d : forall Q : vec -> vec -> Prop, (forall p p' q q' : vec, Q p p' -> Q q q' -> vdst p q = vdst p' q') -> laws d d eq eq Q.
Proof. intros Q H. constructor; try reflexivity; try (intros; subst; reflexivity). exact H. Qed.
Lemma mirror_results s d objs objs' : atan2_even -> Forall (tidy_place (d_Mods d)) objs -> moves (d_Mods d) objs -> Forall2 (mirrored s (d_Mods d)) objs objs' ->
  forall fuel, all_results fuel objs d = all_results fuel objs' d.
Proof.
  intros EV TP MV F. set (m := d_Mods d) in *.
  refine (plain_results (fun o o' => mirrored s m o o' /\ tidy_place m o)
    (fun a b => is_spinner a = false -> is_spinner b = false -> B2R (vx (stacked_start a m)) <> B2R (vx (stacked_start b m)) \/ B2R (vy (stacked_start a m)) <> B2R (vy (stacked_start b m)))
    d d eq eq (vmir s) (eq_laws d _ (vmir_dst s)) _ _ objs objs' _ _).
  - intros o o' ((N & K & _) & _). auto.
  - intros ll ll' a a' c c' Hl ((Na & Ka & Ta & Pa) & Ga) ((Nc & Kc & Tc & Pc) & Gc) Nl Nac. unfold new_dobj. cbn [po_obj po_lazy]. rewrite (spinner_kind _ _ Ka), (spinner_kind _ _ Kc), Ta, Tc. fold m.
    destruct (is_spinner c) eqn:Sc; [|destruct (is_spinner a) eqn:Sa]; cbn [orb].
    + constructor; try reflexivity; unfold base_spinner; cbn [do_base po_obj]; [rewrite (spinner_kind _ _ Kc); reflexivity|congruence|congruence].
    + constructor; try reflexivity; unfold base_spinner; cbn [do_base po_obj]; [rewrite (spinner_kind _ _ Kc); reflexivity| |]; intros _; apply image_vmir, Pc, eq_refl.
    + destruct (Pc eq_refl) as (C1 & C2), (Pa eq_refl) as (A1 & A2). apply image_vmir in A1, A2, C1, C2. unfold end_cursor. cbn [po_lazy po_obj].
      rewrite (vmir_dst s _ _ _ _ (vmir_scl s _ _ (scaling_factor d) C1) (vmir_scl s _ _ (scaling_factor d) A1)).
      constructor; cbn [do_DeltaTime do_StartTime do_Jump do_Movement do_Travel do_Angle do_MovementTime do_TravelTime do_StrainTime]; try reflexivity; unfold base_spinner; cbn [do_base po_obj].
      * destruct ll as [l|], ll' as [l'|]; cbn [orel] in Hl; try contradiction; cbn [option_map]; [|reflexivity]. destruct Hl as ((Nll & Kl & Tl & Pl) & Gl). cbn [po_obj]. rewrite (spinner_kind _ _ Kl). destruct (is_spinner l) eqn:Sl; [reflexivity|].
        unfold angle_of, end_cursor. cbn [po_lazy po_obj]. fold m. cbv zeta. f_equal. symmetry. destruct (Pl eq_refl) as (L1 & _). apply image_vmir in L1. destruct (Ga Sa) as (Gax & Gay), (Gc Sc) as (Gcx & Gcy), (Gl Sl) as (Glx & Gly).
        destruct (tidy_sub _ _ Glx Gax) as (X1 & X2), (tidy_sub _ _ Gly Gay) as (Y1 & Y2), (tidy_sub _ _ Gcx Gax) as (Z1 & Z2), (tidy_sub _ _ Gcy Gay) as (W1 & W2). specialize (Nl l eq_refl Sl eq_refl). specialize (Nac eq_refl eq_refl).
        apply (turn_same s); [exact EV|apply vmir_sub; assumption|apply vmir_sub; assumption|exact X1|exact Y1|exact Z1|exact W1| |]; cbn [vsub vx vy].
        -- destruct Nl as [Nl|Nl]; [left; apply X2, Nl|right; apply Y2, Nl].
        -- destruct Nac as [Nac|Nac]; [left; apply Z2; intros E; apply Nac; symmetry; exact E|right; apply W2; intros E; apply Nac; symmetry; exact E].
      * rewrite (spinner_kind _ _ Kc). reflexivity.
      * intros _. exact C1.
      * intros _. exact C2.
  - clear - F TP. induction F as [|o o' l l' H F IH]; constructor; [split; [exact H|now inversion TP]|apply IH; now inversion TP].
  - intros i x y X Y Sx Sy. exact (MV i x y X Y Sx Sy).
Qed.

(** ** Later maps *)
Definition tlike (n : Z) (x x' : f64) : Prop := exists t, (0 <= t <= 2 ^ 40)%Z /\ (0 <= t + 400 * n <= 2 ^ 40)%Z /\ x = f_of_Z t /\ x' = f_of_Z (t + 400 * n).
Definition elike (n : Z) (e e' : f64) : Prop := exists k, (0 <= k <= 2 ^ 42)%Z /\ (0 <= k + n <= 2 ^ 42)%Z /\ e = f_of_Z (400 * k) /\ e' = f_of_Z (400 * (k + n)).
Lemma clock_laws n d d' (Q : vec -> vec -> Prop) : same_feel d d' -> (forall p p' q q' : vec, Q p p' -> Q q q' -> vdst p q = vdst p' q') -> laws d d' (tlike n) (elike n) Q.
Proof.
  intros (S1 & S2 & S3 & S4) HQ. constructor; try (symmetry; assumption).
  - intros a a' b b' (t & T1 & T2 & -> & ->) (u & U1 & U2 & -> & ->). rewrite !whole_sub by lia. f_equal. lia.
  - intros a a' (t & T1 & T2 & -> & ->). pose proof (section_range t ltac:(lia)). pose proof (section_range (t + 400 * n) ltac:(lia)). exists (section_of (IZR t)). unfold first_end_of. rewrite !whole_first by lia. rewrite section_shift in *.
    split; [lia|split; [lia|split; reflexivity]].
  - intros t t' e e' (u & U1 & U2 & -> & ->) (k & K1 & K2 & -> & ->). rewrite !whole_gt by lia. destruct (Z.ltb_spec (400 * k) u), (Z.ltb_spec (400 * (k + n)) (u + 400 * n)); try reflexivity; lia.
  - intros e e' t t' (k & K1 & K2 & -> & ->) (u & U1 & U2 & -> & ->). rewrite !whole_sub by lia. f_equal. lia.
  - intros t t' e e' (u & U1 & U2 & -> & ->) (k & K1 & K2 & -> & ->) G. rewrite whole_gt in G by lia. apply Z.ltb_lt in G. exists (k + 1)%Z. rewrite !whole_next by lia. split; [lia|split; [lia|split; [reflexivity|f_equal; lia]]].
  - exact HQ.
Qed.
Lemma scaling_same d d' : d_CircleRadius d' = d_CircleRadius d -> scaling_factor d' = scaling_factor d.
Proof. intros E. unfold scaling_factor. rewrite E. reflexivity. Qed.
Lemma reached_delta d o o' t t' : clean_rate d -> reached_at d o t -> reached_at d o' t' -> fdiv (fsub (ho_start o) (ho_start o')) (d_Speed d) = f_of_Z (t - t').
Proof.
  intros (Fs & a & Ha & Va) (F1 & S1 & B1 & V1) (F2 & S2 & B2 & V2). apply (clock_delta _ _ _ a); try assumption; [rewrite V1|rewrite V2]; rewrite Va, mult_IZR; field.
Qed.
Lemma reached_start d o t : clean_rate d -> reached_at d o t -> fdiv (ho_start o) (d_Speed d) = f_of_Z t.
Proof.
  intros (Fs & a & Ha & Va) (F1 & S1 & B1 & V1). apply (div_whole _ _ a); try assumption; [rewrite V1, Va, mult_IZR; field|lia|intros _; exact S1].
Qed.
Lemma later_results n d d' objs objs' : clean_rate d -> clean_rate d' -> same_feel d d' -> Forall2 (later (400 * n) d d') objs objs' ->
  forall fuel, all_results fuel objs d = all_results fuel objs' d'.
Proof.
  intros Cd Cd' SF F. set (m := d_Mods d) in *. set (m' := d_Mods d') in *. pose proof SF as (_ & _ & RA & _).
  refine (plain_results (later (400 * n) d d') (fun _ _ => True) d d' (tlike n) (elike n) eq (clock_laws n d d' eq SF _) _ _ objs objs' F _).
  - intros p p' q q' -> ->. reflexivity.
  - intros o o' (N & K & _). auto.
  - intros ll ll' a a' c c' Hl (Na & Ka & Pa & Qa & ta & Ta & Ta') (Nc & Kc & Pc & Qc & tc & Tc & Tc') _ _. unfold new_dobj. cbn [po_obj po_lazy]. rewrite (spinner_kind _ _ Ka), (spinner_kind _ _ Kc).
    rewrite (reached_delta d _ _ _ _ Cd Tc Ta), (reached_delta d' _ _ _ _ Cd' Tc' Ta'), (reached_start d _ _ Cd Tc), (reached_start d' _ _ Cd' Tc'), (scaling_same _ _ RA).
    replace (tc + 400 * n - (ta + 400 * n))%Z with (tc - ta)%Z by lia. fold m m' in Pa, Qa, Pc, Qc |- *.
    assert (TL : tlike n (f_of_Z tc) (f_of_Z (tc + 400 * n))) by (exists tc; split; [apply Tc|split; [apply Tc'|split; reflexivity]]).
    destruct (is_spinner c) eqn:Sc; [|destruct (is_spinner a) eqn:Sa]; cbn [orb].
    + constructor; try reflexivity; unfold base_spinner; cbn [do_base po_obj]; [exact TL|rewrite (spinner_kind _ _ Kc); reflexivity|congruence|congruence].
    + constructor; try reflexivity; unfold base_spinner; cbn [do_base po_obj]; [exact TL|rewrite (spinner_kind _ _ Kc); reflexivity| |]; intros _; symmetry; assumption.
    + unfold end_cursor. cbn [po_lazy po_obj]. rewrite Pc, Pa.
      constructor; cbn [do_DeltaTime do_StartTime do_Jump do_Movement do_Travel do_Angle do_MovementTime do_TravelTime do_StrainTime]; try reflexivity; unfold base_spinner; cbn [do_base po_obj]; [exact TL| | | |].
      * destruct ll as [l|], ll' as [l'|]; cbn [orel] in Hl; try contradiction; cbn [option_map]; [|reflexivity]. destruct Hl as (Nl & Kl & Pl & Ql & _). cbn [po_obj]. rewrite (spinner_kind _ _ Kl). destruct (is_spinner l) eqn:Sl; [reflexivity|].
        unfold angle_of, end_cursor. cbn [po_lazy po_obj]. fold m m' in Pl |- *. cbv zeta. rewrite Pc, Pa, Pl. reflexivity.
      * rewrite (spinner_kind _ _ Kc). reflexivity.
      * intros _. symmetry. exact Pc.
      * intros _. symmetry. exact Qc.
  - intros; exact I.
Qed.

(** ** Fields that are read *)
Lemma same_modify d d' o o' p : same_rules d d' -> same_play o o' -> modify_position o' p (d_Mods d') = modify_position o p (d_Mods d).
Proof. intros (R & _) (_ & _ & _ & _ & _ & O1 & O2 & O3). unfold modify_position. rewrite R, O1, O2, O3. reflexivity. Qed.
Lemma same_start d d' o o' : same_rules d d' -> same_play o o' -> stacked_start o' (d_Mods d') = stacked_start o (d_Mods d).
Proof. intros R P. unfold stacked_start. rewrite (same_modify d d' o o' _ R P). destruct P as (_ & E & _). now rewrite E. Qed.
Lemma same_end d d' o o' : same_rules d d' -> same_play o o' -> stacked_end o' (d_Mods d') = stacked_end o (d_Mods d).
Proof. intros R P. unfold stacked_end. rewrite (same_modify d d' o o' _ R P). destruct P as (_ & _ & E & _). now rewrite E. Qed.
Lemma same_at d d' o o' t : same_rules d d' -> same_play o o' -> stacked_position_at o' t (d_Mods d') = stacked_position_at o t (d_Mods d).
Proof.
  intros R P. unfold stacked_position_at. replace (position_at o' t) with (position_at o t).
  - destruct (position_at o t); cbn [bind]; try reflexivity. now rewrite (same_modify d d' o o' _ R P).
  - destruct P as (K & P1 & P2 & T1 & T2 & _). unfold position_at. rewrite K, P1, T1, T2. reflexivity.
Qed.
Lemma same_step d d' o o' le sc b st t : same_rules d d' -> same_play o o' -> lazy_step o' (d_Mods d') le sc b st t = lazy_step o (d_Mods d) le sc b st t.
Proof. intros R P. unfold lazy_step. destruct st as [c di]. destruct (P) as (_ & _ & _ & _ & E & _). rewrite E, (same_at d d' o o' _ R P). reflexivity. Qed.
Lemma same_loop d d' o o' le sc ts : same_rules d d' -> same_play o o' -> forall st, lazy_loop o' (d_Mods d') le sc st ts = lazy_loop o (d_Mods d) le sc st ts.
Proof.
  intros R P. induction ts as [|t ts IH]; intros st; cbn [lazy_loop]; [reflexivity|]. rewrite (same_step d d' o o' _ _ _ _ _ R P).
  destruct (lazy_step o (d_Mods d) le sc _ st t); cbn [bind]; try reflexivity. apply IH.
Qed.
Lemma same_lazy d d' o o' sd : same_rules d d' -> same_play o o' -> new_lazy d' o' sd = new_lazy d o sd.
Proof.
  intros R P. unfold new_lazy. destruct (idx (sl_ticks sd) (zlen (sl_ticks sd) - 1)) as [lt| |]; cbn [bind]; try reflexivity. destruct (P) as (_ & _ & _ & E & _). rewrite E, (same_at d d' o o' _ R P).
  destruct (stacked_position_at o _ (d_Mods d)) as [le| |]; cbn [bind]; try reflexivity. destruct (R) as (_ & RA & _). rewrite RA, (same_start d d' o o' R P), (same_loop d d' o o' _ _ _ R P). reflexivity.
Qed.
Definition rlike (p p' : pobj) : Prop := po_lazy p' = po_lazy p /\ same_play (po_obj p) (po_obj p').
Lemma same_wrap d d' o o' : same_rules d d' -> same_play o o' -> rrel rlike (wrap_object d o) (wrap_object d' o').
Proof.
  intros R P. unfold wrap_object. destruct (P) as (K & _). rewrite K. destruct (ho_kind o) as [| |sd]; cbn [rrel]; try (split; [reflexivity|exact P]).
  rewrite (same_lazy d d' o o' sd R P). destruct (new_lazy d o sd); cbn [bind rrel]; try exact I. split; [reflexivity|exact P].
Qed.
Lemma reads_results d d' objs objs' : same_rules d d' -> Forall2 same_play objs objs' -> forall fuel, all_results fuel objs d = all_results fuel objs' d'.
Proof.
  intros R F fuel. pose proof (R) as (R1 & R2 & R3 & R4). apply (results_like d d' eq eq eq).
  - constructor; try (intros; subst; reflexivity); unfold check_mod; congruence.
  - clear - F. induction F as [|o o' l l' H F IH]; constructor; [apply kind_same, H|exact IH].
  - unfold create_difficulty_objects. refine (rrel_bind _ _ _ _ _ _ (mapM_rel same_play rlike _ _ _ _ (fun a a' => same_wrap d d' a a' R) F) _).
    intros ps ps' H. cbn [rrel]. destruct H as [|a a' l l' A H]; [constructor|].
    apply (objects_like d d' eq eq rlike (fun _ _ => True)); [|exact H|exact I|exact A|intros; exact I|intros; exact I]. clear - R R1 R2 R3 R4.
    intros ll ll' [a la] [a' la'] [c lc] [c' lc'] Hl (L1 & Pa) (L2 & Pc) _ _. cbn [po_lazy po_obj] in *. subst la' lc'. unfold new_dobj. cbn [po_obj po_lazy].
    destruct (Pa) as (Ka & _ & _ & Ta & _). destruct (Pc) as (Kc & _ & _ & Tc & Ec & _). rewrite (spinner_kind _ _ Ka), (spinner_kind _ _ Kc), R3, Ta, Tc, (scaling_same _ _ R2).
    destruct (is_spinner c || is_spinner a).
    + constructor; try reflexivity; unfold base_spinner; cbn [do_base po_obj]; [rewrite (spinner_kind _ _ Kc); reflexivity| |]; intros _; symmetry; [apply same_start|apply same_end]; assumption.
    + unfold end_cursor. cbn [po_lazy po_obj]. rewrite (same_start d d' c c' R Pc), (same_start d d' a a' R Pa), (same_end d d' a a' R Pa).
      assert (AN : match ll' with Some l => if is_spinner (po_obj l) then fnan else angle_of d' (mkPobj c' lc) l (mkPobj a' la) | None => fnan end = match ll with Some l => if is_spinner (po_obj l) then fnan else angle_of d (mkPobj c lc) l (mkPobj a la) | None => fnan end).
      { destruct ll as [[l lz]|], ll' as [[l' lz']|]; cbn [orel] in Hl; try contradiction; [|reflexivity]. destruct Hl as (E & Pl). cbn [po_lazy po_obj] in *. subst lz'. rewrite (spinner_kind l l' (proj1 Pl)). destruct (is_spinner l); [reflexivity|].
        unfold angle_of, end_cursor. cbn [po_lazy po_obj]. cbv zeta. rewrite (same_start d d' c c' R Pc), (same_start d d' a a' R Pa), (same_start d d' l l' R Pl). reflexivity. }
      rewrite AN. clear AN. 
      set (an := match ll with Some _ => _ | None => _ end). clearbody an. set (ju := f_of_g (vdst _ _)). clearbody ju. set (st := fmax _ _). clearbody st.
      destruct la as [z|]; (constructor; cbn [do_DeltaTime do_StartTime do_Jump do_Movement do_Travel do_Angle do_MovementTime do_TravelTime do_StrainTime]; [reflexivity|reflexivity|reflexivity|reflexivity|reflexivity|reflexivity|reflexivity|reflexivity|reflexivity| | | |]);
        unfold base_spinner, base_lazy; cbn [do_base po_obj po_lazy]; try exact (eq_sym (spinner_kind _ _ Kc)); try reflexivity; intros _; symmetry; try (apply same_start; assumption); apply same_end; assumption.
Qed.
End Mirror.

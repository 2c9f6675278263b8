(** C71: the lazy cursor of a slider. *)
From Coq Require Import Reals Lra.
From Flocq Require Import Core BinarySingleNaN.
From Verif Require Import DiffCalc DifficultyProofs SpecPP SpecSane SpecDist SpecDiff BaseLemmas FloatLemmas Float32Lemmas KeyLemmas BoundLemmas CurveProofs CurveBounds CurveStart BezierTerm PPProofs PPBounds PPChains ValueBounds LengthProofs ObjectBounds DistProofs LazyProofs DiffProofs PropDiff PropStrain PropRatings PropChain PropDist.
From Verif Require Import Preprocessing.
Import ListNotations.
Open Scope R_scope.

Section WithLibm.
Context {M : libm} (p : Z) (Hp : (3 <= p <= 40)%Z) (d : difficulty) (D : clocked d) (o : hobj) (T : tidy p d o) (TE : time_upto (ho_end o)).
(** normalised px per px *)
Notation scale := (50 / B2R (d_CircleRadius d)).
(** what a score point asks of the cursor: to come within 50 normalised px of a
    repeat and within 90 of anything else *)
Definition reach (is_last : bool) (t : tick) : R := if is_last then 90 else if tk_Reverse t then 50 else 90.
(** where it is: at the last one, the real end of the slider or where the slider is at the
    time of that point *)
Definition goal (is_last : bool) (lazyEnd : vec) (t : tick) (v : vec) : Prop :=
  if is_last then v = lazyEnd \/ stacked_position_at o (ho_end o) (d_Mods d) = Ok v else stacked_position_at o (tk_Time t) (d_Mods d) = Ok v.

(** the movement of one step *)
Lemma step_split is_last lazyEnd t c dist st : point_upto p lazyEnd -> time_upto (tk_Time t) -> point_upto (p + 1) c ->
  lazy_step o (d_Mods d) lazyEnd (fdiv (fq 50 1) (d_CircleRadius d)) is_last (c, dist) t = Ok st ->
  exists v, goal is_last lazyEnd t v /\ vbnd p v /\ (forall w, goal is_last lazyEnd t w -> (glt (vlen (vsub w c)) (vlen (vsub v c)) = false)) /\
    let len := fmul (fdiv (fq 50 1) (d_CircleRadius d)) (f_of_g (vlen (vsub v c))) in
    exists req, fin req /\ B2R req = reach is_last t /\
    st = if fgt len req then (vadd c (vscl (vsub v c) (g_of_f (fdiv (fsub len req) len))), gadd dist (g_of_f (fmul len (fdiv (fsub len req) len)))) else (c, dist).
Proof.
  intros L TU C H. unfold lazy_step in H. apply bind_ok in H as (pos & HP & H). cbv beta iota zeta in H. pose proof HP as HV. apply (ti_path _ _ _ T) in HV; [|destruct is_last; apply time40; assumption].
  assert (NS : forall w, vbnd (p + 1) w -> num (vlen (vsub w c))). { intros w W. destruct (vlen_bnd (p + 1 + 1) (vsub w c) ltac:(lia)) as ((F & _) & _); [apply vbnd_sub; [lia|exact W|exact C]|]. now apply fin_num. }
  assert (NL : num (vlen (vsub lazyEnd c))) by (apply NS, (vbnd_le p); [lia|exact L]). assert (NP : num (vlen (vsub pos c))) by (apply NS, (vbnd_le p); [lia|exact HV]).
  assert (RQ : exists req : f64, fin req /\ B2R req = reach is_last t /\ (if is_last then fq 90 1 else if tk_Reverse t then fq 50 1 else fq 90 1) = req).
  { destruct (fq1_exact 90) as (F9 & E9); [lia|]. destruct (fq1_exact 50) as (F5 & E5); [lia|]. eexists. split; [|split; [|reflexivity]]; unfold reach; destruct is_last; auto; destruct (tk_Reverse t); auto. }
  destruct RQ as (req & Fr & Er & EQ). match type of H with context [fgt _ ?r] => change r with (if is_last then fq 90 1 else if tk_Reverse t then fq 50 1 else fq 90 1) in H end. rewrite EQ in H. clear EQ.
  assert (FIN : forall v, (if is_last && glt (vlen (vsub lazyEnd c)) (vlen (vsub pos c)) then vsub lazyEnd c else vsub pos c) = vsub v c -> goal is_last lazyEnd t v -> vbnd p v -> (forall w, goal is_last lazyEnd t w -> (glt (vlen (vsub w c)) (vlen (vsub v c)) = false)) ->
    exists v, goal is_last lazyEnd t v /\ vbnd p v /\ (forall w, goal is_last lazyEnd t w -> (glt (vlen (vsub w c)) (vlen (vsub v c)) = false)) /\
    let len := fmul (fdiv (fq 50 1) (d_CircleRadius d)) (f_of_g (vlen (vsub v c))) in
    exists req, fin req /\ B2R req = reach is_last t /\
    st = if fgt len req then (vadd c (vscl (vsub v c) (g_of_f (fdiv (fsub len req) len))), gadd dist (g_of_f (fmul len (fdiv (fsub len req) len)))) else (c, dist)).
  { intros v EV G B MIN. exists v. split; [exact G|]. split; [exact B|]. split; [exact MIN|]. cbv zeta. exists req. split; [exact Fr|]. split; [exact Er|]. rewrite EV in H. destruct (fgt _ req); apply Ok_inj in H; now rewrite <- H. }
  assert (IRR : forall x : f32, num x -> glt x x = false). { intros x N. destruct (glt x x) eqn:G; [|reflexivity]. apply glt_iff in G as (_ & _ & G). lra. }
  destruct is_last.
  - cbn [andb] in FIN. destruct (glt (vlen (vsub lazyEnd c)) (vlen (vsub pos c))) eqn:G.
    + apply (FIN lazyEnd); [reflexivity|now left|exact L|]. intros w [-> |W]; [now apply IRR|]. rewrite HP in W. apply Ok_inj in W. subst w. destruct (glt (vlen (vsub pos c)) _) eqn:G'; [|reflexivity]. apply glt_iff in G as (_ & _ & G). apply glt_iff in G' as (_ & _ & G'). lra.
    + apply (FIN pos); [reflexivity|now right|exact HV|]. intros w [-> |W]; [exact G|]. rewrite HP in W. apply Ok_inj in W. subst w. now apply IRR.
  - cbn [andb] in FIN. apply (FIN pos); [reflexivity|exact HP|exact HV|]. intros w W. cbn [goal] in W. rewrite HP in W. apply Ok_inj in W. subst w. now apply IRR.
Qed.
(** C71.  Each score point pulls the cursor just within reach of its goal (at the end: of the
    nearer one), or leaves it where it is when it is within reach already; the distance added
    is the distance moved. *)
Theorem C71_step : forall is_last lazyEnd t c dist c' dist', point_upto p lazyEnd -> time_upto (tk_Time t) -> point_upto (p + 1) c ->
  lazy_step o (d_Mods d) lazyEnd (fdiv (fq 50 1) (d_CircleRadius d)) is_last (c, dist) t = Ok (c', dist') ->
  (exists v, goal is_last lazyEnd t v /\ scale * plane_dist c' v <= reach is_last t + bpow radix2 (p - 14)) /\
  (forall w, goal is_last lazyEnd t w -> scale * plane_dist c w <= reach is_last t - / 1000 -> c' = c /\ dist' = dist) /\
  ((c' = c /\ dist' = dist) \/
   exists x, dist' = gadd dist x /\ is_finite x = true /\ 0 <= B2R x <= bpow radix2 (p + 7) /\ Rabs (B2R x - scale * plane_dist c c') <= bpow radix2 (p - 12)).
Proof.
  intros is_last lazyEnd t c dist c' dist' L TU C H. destruct (step_split _ _ _ _ _ _ L TU C H) as (v & G & V & MIN & req & Fr & Er & E). clear H. assert (RB : 50 <= reach is_last t <= 90) by (unfold reach; destruct is_last; [lra|destruct (tk_Reverse t); lra]).
  assert (V' : vbnd (p + 1) v) by (apply (vbnd_le p); [lia|exact V]). destruct (len_near d D (p + 1) c v ltac:(lia) C V') as (FL & BL & EL). cbv zeta in *.
  assert (P16 : 16 <= bpow radix2 (p + 1)) by (change 16 with (bpow radix2 4); apply bpow_le; lia). assert (E14 : bpow radix2 (p - 14) = bpow radix2 (p + 1) * / 32768) by (replace (p - 14)%Z with (p + 1 + -15)%Z by lia; rewrite bpow_plus; reflexivity).
  pose proof (per_px_range d D) as PP. change (50 / B2R (d_CircleRadius d)) with (per_px d) in *.
  assert (WB : forall w, goal is_last lazyEnd t w -> vbnd p w). { intros w W. unfold goal in W. destruct is_last; [destruct W as [-> |W]; [exact L|]|]; (apply (ti_path _ _ _ T) in W; [exact W|apply time40; assumption]). }
  assert (NEAR : forall w, goal is_last lazyEnd t w -> per_px d * plane_dist c w <= reach is_last t - / 1000 -> B2R (fmul (fdiv (fq 50 1) (d_CircleRadius d)) (f_of_g (vlen (vsub v c)))) <= reach is_last t).
  { intros w W B. assert (W' : vbnd (p + 1) w) by (apply (vbnd_le p); [lia|now apply WB]). destruct (len_near d D (p + 1) c w ltac:(lia) C W') as (FW & BW & EW). cbv zeta in *.
    assert (N1 : fin (vlen (vsub v c)) /\ 0 <= B2R (vlen (vsub v c))). { destruct (vlen_bnd (p + 1 + 1) (vsub v c) ltac:(lia)) as ((F & _) & P0); [apply vbnd_sub; [lia|exact V'|exact C]|auto]. }
    assert (N2 : fin (vlen (vsub w c)) /\ 0 <= B2R (vlen (vsub w c))). { destruct (vlen_bnd (p + 1 + 1) (vsub w c) ltac:(lia)) as ((F & _) & P0); [apply vbnd_sub; [lia|exact W'|exact C]|auto]. }
    destruct N1 as (F1 & P1), N2 as (F2 & P2). assert (LE : B2R (vlen (vsub v c)) <= B2R (vlen (vsub w c))).
    { apply Rnot_lt_le. intros X. assert (Y : glt (vlen (vsub w c)) (vlen (vsub v c)) = true) by (apply glt_iff; split; [now apply fin_num|]; split; [now apply fin_num|]; rewrite !(key_fin 24 128) by assumption; exact X). rewrite (MIN w W) in Y. discriminate Y. }
    destruct (f_of_g_fin _ F1) as (G1 & Q1). destruct (f_of_g_fin _ F2) as (G2 & Q2). destruct (scale_near d D) as (FS & ES). apply Rabs_le_inv in ES.
    assert (LEN : B2R (fmul (fdiv (fq 50 1) (d_CircleRadius d)) (f_of_g (vlen (vsub v c)))) <= B2R (fmul (fdiv (fq 50 1) (d_CircleRadius d)) (f_of_g (vlen (vsub w c))))).
    { assert (BIG : forall u, vbnd (p + 1) u -> fin (vlen (vsub u c)) -> B2R (fmul (fdiv (fq 50 1) (d_CircleRadius d)) (f_of_g (vlen (vsub u c)))) = rnd64 (B2R (fdiv (fq 50 1) (d_CircleRadius d)) * B2R (vlen (vsub u c)))).
      { intros u U FU. destruct (f_of_g_fin _ FU) as (GU & QU). destruct (fmul_fin _ _ FS GU) as (_ & ->); [|now rewrite QU]. rewrite QU. destruct (vlen_bnd (p + 1 + 1) (vsub u c) ltac:(lia)) as ((_ & B') & P0); [apply vbnd_sub; [lia|exact U|exact C]|]. rewrite Rabs_pos_eq in B' by exact P0.
        rewrite Rabs_pos_eq by (apply Rmult_le_pos; lra). apply Rle_trans with (8 * bpow radix2 (p + 1 + 1 + 1)); [apply Rmult_le_compat; lra|]. change 8 with (bpow radix2 3). rewrite <- bpow_plus. apply bpow_le. lia. }
      rewrite (BIG v V' F1), (BIG w W' F2). apply rnd64_le. apply Rmult_le_compat_l; lra. }
    apply Rle_trans with (1 := LEN). apply Rabs_le_inv in EW. assert (0 <= plane_dist c w) by apply sqrt_pos. assert (0 <= per_px d * plane_dist c w) by (apply Rmult_le_pos; lra). lra. }
  destruct (fgt _ req) eqn:G'.
  - rewrite fgt_bool in G' by assumption. match goal with H : Rlt_bool ?a ?b = true |- _ => destruct (Rlt_bool_spec a b) as [GT|]; [clear H|discriminate H] end. rewrite Er in GT.
    assert (E' : c' = vadd c (vscl (vsub v c) (g_of_f (fdiv (fsub (fmul (fdiv (fq 50 1) (d_CircleRadius d)) (f_of_g (vlen (vsub v c)))) req) (fmul (fdiv (fq 50 1) (d_CircleRadius d)) (f_of_g (vlen (vsub v c))))))) /\ dist' = gadd dist (g_of_f (fmul (fmul (fdiv (fq 50 1) (d_CircleRadius d)) (f_of_g (vlen (vsub v c)))) (fdiv (fsub (fmul (fdiv (fq 50 1) (d_CircleRadius d)) (f_of_g (vlen (vsub v c)))) req) (fmul (fdiv (fq 50 1) (d_CircleRadius d)) (f_of_g (vlen (vsub v c)))))))).
    { split; [exact (f_equal fst E)|exact (f_equal snd E)]. } destruct E' as (Ec & Ed). clear E.
    destruct (move_num d D (p + 1) c v req (reach is_last t) ltac:(lia) C V' Fr Er RB GT) as (R1 & R2 & R3 & R4). cbv zeta in *. rewrite <- Ec in R1, R4. replace (p + 1 - 15)%Z with (p - 14)%Z in R1 by lia. replace (p + 1 - 13)%Z with (p - 12)%Z in R4 by lia.
    split; [exists v; auto|]. split; [intros w W B; exfalso; specialize (NEAR w W B); lra|]. right. eexists. split; [exact Ed|]. split; [exact R2|]. split; [|exact R4]. split; [apply R3|]. apply Rle_trans with (1 := proj2 R3). replace (p + 7)%Z with (6 + (p + 1))%Z by lia. rewrite (bpow_plus radix2 6). change (bpow radix2 6) with 64. lra.
  - assert (Ec : c' = c /\ dist' = dist) by (split; [exact (f_equal fst E)|exact (f_equal snd E)]). clear E. rewrite fgt_bool in G' by assumption. match goal with H : Rlt_bool ?a ?b = false |- _ => destruct (Rlt_bool_spec a b) as [|LE]; [discriminate H|clear H] end. rewrite Er in LE.
    split; [|split; [intros w _ _; exact Ec|left; exact Ec]]. destruct Ec as (-> & _). exists v. split; [exact G|]. rewrite E14. apply Rabs_le_inv in EL. lra.
Qed.

(** the cursor at the score points, from [c] on *)
Fixpoint follows (lazyEnd c : vec) (ts : list tick) (cs : list vec) : Prop :=
  match ts, cs with
  | [], [] => True
  | t :: r, c' :: cs' =>
      let is_last := match r with [] => true | _ => false end in
      (exists v, goal is_last lazyEnd t v /\ scale * plane_dist c' v <= reach is_last t + bpow radix2 (p - 14)) /\
      (forall w, goal is_last lazyEnd t w -> scale * plane_dist c w <= reach is_last t - / 1000 -> c' = c) /\
      follows lazyEnd c' r cs'
  | _, _ => False
  end.
(** its way from point to point *)
Fixpoint way (c : vec) (cs : list vec) : R := match cs with [] => 0 | c' :: r => plane_dist c c' + way c' r end.

Lemma sum_grows (a x : f32) : fin a -> fin x -> 0 <= B2R a -> 0 <= B2R x -> B2R a <= bpow radix2 120 -> B2R x <= bpow radix2 120 ->
  B2R a <= B2R (gadd a x) /\ Rabs (B2R (gadd a x) - (B2R a + B2R x)) <= B2R (gadd a x) * / 8388608 + / 100000000000.
Proof.
  intros Fa Fx A X BA BX. assert (E : bpow radix2 121 = bpow radix2 120 + bpow radix2 120) by exact (bpow_S 120). assert (G : bpow radix2 121 <= bpow radix2 127) by (apply bpow_le; lia).
  destruct (gadd_fin _ _ Fa Fx) as (F & V); [rewrite Rabs_pos_eq; lra|]. pose proof (rnd32_errR (B2R a + B2R x) (B2R a + B2R x) ltac:(rewrite Rabs_pos_eq; lra)) as Q. rewrite <- V, u24 in Q. pose proof tiny150 as T150. split; [rewrite V; apply rnd32_ge_f; lra|]. apply Rabs_le_inv in Q. apply Rabs_le. lra.
Qed.
Lemma loop_follows lazyEnd (L : vbnd p lazyEnd) ts : Forall (fun t => time_upto (tk_Time t)) ts -> forall n c dist st', (0 <= n)%Z -> (n + Z.of_nat (length ts) <= 2 ^ 20)%Z -> cur_ok p n (c, dist) ->
  lazy_loop o (d_Mods d) lazyEnd (fdiv (fq 50 1) (d_CircleRadius d)) (c, dist) ts = Ok st' ->
  exists cs, follows lazyEnd c ts cs /\ List.last cs c = fst st' /\
    forall P, 0 <= P -> Rabs (B2R dist - scale * P) <= IZR n * (B2R dist * / 4194304 + bpow radix2 (p - 11)) ->
      Rabs (B2R (snd st') - scale * (P + way c cs)) <= IZR (n + Z.of_nat (length ts)) * (B2R (snd st') * / 4194304 + bpow radix2 (p - 11)).
Proof.
  induction ts as [|t ts IH]; intros TS n c dist st' N NL C H; cbn [lazy_loop length] in *.
  { apply Ok_inj in H. subst st'. exists []. cbn [follows List.last way fst snd length Z.of_nat]. split; [exact I|]. split; [reflexivity|]. intros P P0 B. rewrite Rplus_0_r, Z.add_0_r. exact B. }
  inversion TS as [|? ? T1 T2]; subst. apply bind_ok in H as ((c1, d1) & H1 & H). set (il := match ts with [] => true | _ => false end) in *.
  destruct C as (Cv & Fd & Bd). cbn [fst snd] in Cv, Fd, Bd. destruct (C71_step il lazyEnd t c dist c1 d1 L T1 Cv H1) as (S1 & S2 & S3).
  pose proof (lazy_step_ok p ltac:(lia) d D o lazyEnd il n (c, dist) t (c1, d1) T L ltac:(lia) TE T1 (conj Cv (conj Fd Bd)) H1) as C1.
  destruct (IH T2 (n + 1)%Z c1 d1 st' ltac:(lia) ltac:(lia) C1 H) as (cs & F & E & W). exists (c1 :: cs). split; [cbn [follows]; fold il; split; [exact S1|]; split; [intros w G B; exact (proj1 (S2 w G B))|exact F]|].
  split; [rewrite <- E; destruct cs as [|a cs]; [reflexivity|]; change (List.last (c1 :: a :: cs) c) with (List.last (a :: cs) c); clear; revert a; induction cs as [|b cs IH]; intros a; [reflexivity|exact (IH b)]|].
  intros P P0 B. cbn [way]. rewrite <- Rplus_assoc. replace (n + Z.of_nat (S (length ts)))%Z with (n + 1 + Z.of_nat (length ts))%Z by lia. assert (D0 : 0 <= plane_dist c c1) by apply sqrt_pos. apply W; [lra|]. clear W IH H H1 S1 S2.
  assert (N0 : 0 <= IZR n) by (apply (IZR_le 0); lia). assert (N1 : IZR n <= 1048576) by (apply (IZR_le n 1048576); lia). rewrite plus_IZR. set (e := bpow radix2 (p - 11)) in *. assert (E0 : / 256 <= e) by (unfold e; change (/ 256) with (bpow radix2 (-8)); apply bpow_le; lia).
  destruct C1 as (_ & Fd1 & Bd1). cbn [fst snd] in Fd1, Bd1.
  assert (ST : B2R dist <= B2R d1 /\ Rabs (B2R d1 - (B2R dist + scale * plane_dist c c1)) <= B2R d1 * / 4194304 + e).
  { destruct S3 as [(-> & ->)|(x & -> & Fx & Bx & Ex)].
    - split; [lra|]. assert (Z0 : plane_dist c c = 0) by (unfold plane_dist; rewrite <- sqrt_0; apply f_equal; ring). rewrite Z0. apply Rabs_le. lra.
    - assert (BB : B2R dist <= bpow radix2 120). { apply Rle_trans with (1 := proj2 Bd). apply Rle_trans with (1048576 * bpow radix2 (p + 6)); [apply Rmult_le_compat_r; [apply bpow_ge_0|exact N1]|]. change 1048576 with (bpow radix2 20). rewrite <- bpow_plus. apply bpow_le. lia. }
      destruct (sum_grows dist x Fd Fx (proj1 Bd) (proj1 Bx) BB) as (G1 & G2); [apply Rle_trans with (1 := proj2 Bx), bpow_le; lia|]. split; [exact G1|].
      assert (E12 : bpow radix2 (p - 12) = e * / 2) by (unfold e; replace (p - 12)%Z with (p - 11 + -1)%Z by lia; rewrite bpow_plus; reflexivity). rewrite E12 in Ex. set (y := scale * plane_dist c c1) in *. clearbody y. apply Rabs_le_inv in Ex, G2. apply Rabs_le. lra. }
  destruct ST as (MO & ST). rewrite Rmult_plus_distr_l. set (y := scale * plane_dist c c1) in *. set (z := scale * P) in *. clearbody y z. set (u := B2R dist) in *. set (v := B2R d1) in *. clearbody u v.
  assert (K : IZR n * (u * / 4194304 + e) <= IZR n * (v * / 4194304 + e)) by (apply Rmult_le_compat_l; lra). apply Rabs_le_inv in ST, B. apply Rabs_le. rewrite Rmult_plus_distr_r. lra.
Qed.

Section Slider.
Context (sd : slider_data) (K : ho_kind o = KSlider sd) (l : lazy) (NL : new_lazy d o sd = Ok l).
(** where the slider is at its last score point *)
Definition real_end (v : vec) : Prop := exists t, idx (sl_ticks sd) (zlen (sl_ticks sd) - 1) = Ok t /\ stacked_position_at o (fadd (fsub (tk_Time t) (ho_start o)) (ho_start o)) (d_Mods d) = Ok v.
Definition bonus : f32 := g_of_f (mpow (fadd (fq 1 1) (fdiv (f_of_Z (wrap64 (sl_repeat sd - 1))) (fq 5 2))) (fq 2 5)).
(** C71.  The lazy cursor: it starts at the head, follows the score points, ends at the last
    one, and the travel distance is the length of its way, times the bonus for repeats. *)
Theorem C71_path : exists lazyEnd cs dist, real_end lazyEnd /\ follows lazyEnd (stacked_start o (d_Mods d)) (sl_ticks sd) cs /\
  List.last cs (stacked_start o (d_Mods d)) = lz_EndPos l /\ lz_Distance l = gmul dist bonus /\
  is_finite dist = true /\ 0 <= B2R dist <= bpow radix2 (p + 22) /\
  Rabs (B2R dist - scale * way (stacked_start o (d_Mods d)) cs) <= INR (length (sl_ticks sd)) * (B2R dist * / 4194304 + bpow radix2 (p - 11)).
Proof.
  pose proof NL as H. unfold new_lazy in H. cbv zeta in H. apply bind_ok in H as (lt & HT & H). apply bind_ok in H as (le & HE & H). apply bind_ok in H as (st & HL & H). apply Ok_inj in H.
  destruct (ti_slider _ _ _ T sd K) as (R & LT & _ & FT). pose proof HE as HV. apply (ti_path _ _ _ T) in HV; [|apply back; [rewrite Forall_forall in FT; apply FT; apply FinishProofs.idx_in in HT; exact HT|apply (ti_time _ _ _ T)]].
  assert (C0 : cur_ok p 0 (stacked_start o (d_Mods d), g0)) by (split; [cbn [fst]; apply (start_vbnd p d); [exact T|lia]|split; [reflexivity|cbn; lra]]).
  assert (LT' : (0 + Z.of_nat (length (sl_ticks sd)) <= 2 ^ 20)%Z) by (unfold zlen in LT; lia).
  pose proof (lazy_loop_ok p ltac:(lia) d D o le _ T HV TE FT 0 _ _ ltac:(lia) LT' C0 HL) as (_ & Fd & Bd).
  destruct (loop_follows le HV _ FT 0 _ _ _ ltac:(lia) LT' C0 HL) as (cs & F & E & W). exists le, cs, (snd st). split; [exists lt; split; assumption|]. split; [exact F|]. subst l. cbn [lz_EndPos lz_Distance]. split; [exact E|]. split; [reflexivity|]. split; [exact Fd|].
  split.
  - split; [apply Bd|]. apply Rle_trans with (1 := proj2 Bd). replace (p + 22)%Z with (16 + (p + 6))%Z by lia. rewrite (bpow_plus radix2 16). apply Rmult_le_compat_r; [apply bpow_ge_0|]. change (bpow radix2 16) with (IZR (2 ^ 16)). apply IZR_le. unfold zlen in LT. lia.
  - specialize (W 0 ltac:(lra)). rewrite Rplus_0_l, Z.add_0_l, <- INR_IZR_INZ in W. apply W. change (B2R g0) with 0. rewrite Rmult_0_r, Rmult_0_l, Rminus_0_r, Rabs_R0. lra.
Qed.
Lemma follows_end lazyEnd ts : forall cs c, ts <> [] -> follows lazyEnd c ts cs -> exists v, (v = lazyEnd \/ stacked_position_at o (ho_end o) (d_Mods d) = Ok v) /\ scale * plane_dist (List.last cs c) v <= 90 + bpow radix2 (p - 14).
Proof.
  induction ts as [|t ts IH]; intros cs c NE F; [congruence|]. destruct cs as [|c1 cs]; [destruct F|]. cbn [follows] in F. destruct F as (A & _ & F). destruct ts as [|t2 ts].
  - destruct cs as [|? ?]; [|destruct F]. destruct A as (v & G & B). exists v. split; [exact G|exact B].
  - destruct cs as [|c2 cs]; [destruct F|]. specialize (IH (c2 :: cs) c1 ltac:(discriminate) F). assert (E : forall (x y z : vec) l, List.last (x :: l) y = List.last (x :: l) z) by (intros x y z l0; revert x; induction l0 as [|b l0 IH0]; intros x; [reflexivity|exact (IH0 b)]).
    change (List.last (c1 :: c2 :: cs) c) with (List.last (c2 :: cs) c). rewrite (E c2 c c1 cs). exact IH.
Qed.
(** It ends within reach of the end of the slider ... *)
Theorem C71_end : exists v, (real_end v \/ stacked_position_at o (ho_end o) (d_Mods d) = Ok v) /\ scale * plane_dist (lz_EndPos l) v <= 90 + bpow radix2 (p - 14).
Proof.
  destruct C71_path as (le & cs & dist & RE & F & E & _). assert (NE : sl_ticks sd <> []). { destruct RE as (t & X & _). intros Q. rewrite Q in X. discriminate X. }
  destruct (follows_end le _ _ _ NE F) as (v & G & B). rewrite <- E. exists v. split; [|exact B]. destruct G as [-> |G]; auto.
Qed.
(** ... its way is at least as long as the straight line from the head ... *)
Lemma way_line cs : forall c, plane_dist c (List.last cs c) <= way c cs.
Proof.
  assert (E : forall (x y z : vec) l, List.last (x :: l) y = List.last (x :: l) z) by (intros x y z l0; revert x; induction l0 as [|b l0 IH0]; intros x; [reflexivity|exact (IH0 b)]).
  assert (Z0 : forall c, plane_dist c c = 0) by (intros c; unfold plane_dist; rewrite <- sqrt_0; apply f_equal; ring).
  induction cs as [|a cs IH]; intros c; cbn [way]; [cbn [List.last]; rewrite Z0; lra|]. apply Rle_trans with (1 := plane_tri c a _). apply Rplus_le_compat_l. specialize (IH a). destruct cs as [|b cs]; [cbn [List.last way]; rewrite Z0; lra|]. change (List.last (a :: b :: cs) c) with (List.last (b :: cs) c). now rewrite (E b c a cs).
Qed.
Lemma bonus_num : pow_ranges -> is_finite bonus = true /\ 1 <= B2R bonus <= bpow radix2 18.
Proof.
  intros PR. destruct (ti_slider _ _ _ T sd K) as (R & _). pose proof (bonus_ok PR _ R) as B. apply bd_iff in B as (Fb & Bb).
  assert (W : wrap64 (sl_repeat sd - 1) = (sl_repeat sd - 1)%Z) by (unfold wrap64; rewrite Z.mod_small by lia; lia). unfold bonus. rewrite W in *. destruct (f_of_Z_exact (sl_repeat sd - 1)) as (F & E); [lia|]. assert (PZ : 0 <= IZR (sl_repeat sd - 1) <= 65536) by (split; apply IZR_le; lia).
  destruct (unit_exp 2 5 ltac:(bdc)) as (F2 & E2). assert (B52 : fin (fq 5 2) /\ B2R (fq 5 2) = 5 / 2) by (split; [vm_compute; reflexivity|bval (fq 5 2); lra]). destruct B52 as (F52 & E52). destruct (fq1_exact 1) as (F1 & E1); [lia|].
  assert (Q0 : 0 <= IZR (sl_repeat sd - 1) / (5 / 2) <= 65536) by lra. destruct (fdiv_fin _ _ F F52) as (Fq & Eq); [lra|rewrite E, E52; rewrite Rabs_pos_eq by lra; apply Rle_trans with (bpow radix2 20); [change (bpow radix2 20) with 1048576; lra|apply bpow_le; lia]|]. rewrite E, E52 in Eq.
  assert (Q1 : 0 <= B2R (fdiv (f_of_Z (sl_repeat sd - 1)) (fq 5 2)) <= 65536) by (rewrite Eq; split; [apply rnd64_pos; lra|apply (rnd64_exact_Z 65536); [lia|lra]]).
  destruct (fadd_fin _ _ F1 Fq) as (Fa & Ea); [rewrite E1; rewrite Rabs_pos_eq by lra; apply Rle_trans with (bpow radix2 20); [change (bpow radix2 20) with 1048576; lra|apply bpow_le; lia]|]. rewrite E1 in Ea. set (x := fdiv _ (fq 5 2)) in *. clearbody x. assert (Q2 : 1 <= B2R (fadd (fq 1 1) x) <= 131072). { rewrite Ea. split; [|apply (rnd64_exact_Z 131072); [lia|lra]]. rewrite <- E1. apply rnd64_ge_f. rewrite E1. lra. }
  destruct (pow_above PR (fadd (fq 1 1) x) (fq 2 5) 17 1 Fa F2 ltac:(lia) ltac:(lia)) as (Fp & Bp); [change (bpow radix2 17) with 131072; exact Q2|exact E2|]. set (bo := mpow _ _) in *. clearbody bo. change (17 * 1 + 1)%Z with 18%Z in Bp.
  destruct (g_of_f_fin bo Fp) as (Fg & Eg). { rewrite Rabs_pos_eq by lra. apply Rle_trans with (1 := proj2 Bp), bpow_le. lia. } split; [exact Fg|]. rewrite Eg. split; [rewrite <- (rnd32_Z 1) by lia; apply rnd32_le; lra|]. change (bpow radix2 18) with 262144. rewrite <- (rnd32_Z 262144) by lia. apply rnd32_le. change (bpow radix2 18) with 262144 in Bp. lra.
Qed.
Theorem C71_travel : pow_ranges -> is_finite (lz_Distance l) = true /\
  scale * plane_dist (stacked_start o (d_Mods d)) (lz_EndPos l) <= B2R (lz_Distance l) + INR (length (sl_ticks sd)) * (B2R (lz_Distance l) * / 4194304 + bpow radix2 (p - 11)).
Proof.
  intros PR. destruct (bonus_num PR) as (Fb & Bb). destruct C71_path as (le & cs & dist & _ & F & E & ED & Fd & Bd & W). rewrite <- E, ED. pose proof (way_line cs (stacked_start o (d_Mods d))) as WL. pose proof (per_px_range d D) as PP. change (50 / B2R (d_CircleRadius d)) with (per_px d) in *.
  assert (S1 : per_px d * plane_dist (stacked_start o (d_Mods d)) (List.last cs (stacked_start o (d_Mods d))) <= per_px d * way (stacked_start o (d_Mods d)) cs) by (apply Rmult_le_compat_l; lra).
  assert (PB : B2R dist <= B2R dist * B2R bonus <= bpow radix2 (p + 22 + 18)) by (split; [rewrite <- (Rmult_1_r (B2R dist)) at 1; apply Rmult_le_compat_l; lra|rewrite (bpow_plus radix2 (p + 22)); apply Rmult_le_compat; lra]).
  destruct (gmul_fin _ _ Fd Fb) as (Fm & Em); [rewrite Rabs_pos_eq by lra; apply Rle_trans with (1 := proj2 PB), bpow_le; lia|]. split; [exact Fm|]. assert (G : B2R dist <= B2R (gmul dist bonus)) by (rewrite Em; apply rnd32_ge_f; lra).
  assert (N0 : 0 <= INR (length (sl_ticks sd))) by apply pos_INR. apply Rabs_le_inv in W. assert (X : INR (length (sl_ticks sd)) * (B2R dist * / 4194304 + bpow radix2 (p - 11)) <= INR (length (sl_ticks sd)) * (B2R (gmul dist bonus) * / 4194304 + bpow radix2 (p - 11))) by (apply Rmult_le_compat_l; lra). lra.
Qed.
(** ... and a slider all of whose score points are within reach of its head leaves the
    cursor where it is. *)
Lemma loop_still lazyEnd (L : vbnd p lazyEnd) s (SB : vbnd (p + 1) s) dist ts : Forall (fun t => time_upto (tk_Time t)) ts -> forall st',
  lazy_loop o (d_Mods d) lazyEnd (fdiv (fq 50 1) (d_CircleRadius d)) (s, dist) ts = Ok st' ->
  (forall pre t post, ts = pre ++ t :: post -> exists v, goal (match post with [] => true | _ => false end) lazyEnd t v /\ scale * plane_dist s v <= reach (match post with [] => true | _ => false end) t - / 1000) ->
  st' = (s, dist).
Proof.
  induction ts as [|t ts IH]; intros TS st' H A; cbn [lazy_loop] in H; [apply Ok_inj in H; now symmetry|]. inversion TS as [|? ? T1 T2]; subst. apply bind_ok in H as ((c1, d1) & H1 & H).
  destruct (A [] t ts eq_refl) as (v & G & V). destruct (C71_step _ lazyEnd t s dist c1 d1 L T1 SB H1) as (_ & S2 & _). destruct (S2 v G V) as (-> & ->). apply (IH T2 st' H). intros pre t' post Q. apply (A (t :: pre)). now rewrite Q.
Qed.
Theorem C71_still : pow_ranges -> (forall pre t post, sl_ticks sd = pre ++ t :: post -> post <> [] ->
    exists v, stacked_position_at o (tk_Time t) (d_Mods d) = Ok v /\ scale * plane_dist (stacked_start o (d_Mods d)) v <= (if tk_Reverse t then 50 else 90) - / 1000) ->
  (exists v, (real_end v \/ stacked_position_at o (ho_end o) (d_Mods d) = Ok v) /\ scale * plane_dist (stacked_start o (d_Mods d)) v <= 90 - / 1000) ->
  lz_EndPos l = stacked_start o (d_Mods d) /\ is_finite (lz_Distance l) = true /\ B2R (lz_Distance l) = 0.
Proof.
  intros PR A (v & V & B). destruct (bonus_num PR) as (Fb & Bb). pose proof NL as H. unfold new_lazy in H. cbv zeta in H. apply bind_ok in H as (lt & HT & H). apply bind_ok in H as (le & HE & H). apply bind_ok in H as (st & HL & H). apply Ok_inj in H.
  destruct (ti_slider _ _ _ T sd K) as (R & LT & _ & FT). pose proof HE as HV. apply (ti_path _ _ _ T) in HV; [|apply back; [rewrite Forall_forall in FT; apply FT; apply FinishProofs.idx_in in HT; exact HT|apply (ti_time _ _ _ T)]].
  apply loop_still in HL; [|exact HV|apply (start_vbnd p d); [exact T|lia]|exact FT|].
  - subst st l. cbn [lz_EndPos lz_Distance fst snd]. fold bonus. split; [reflexivity|]. destruct (gmul_fin g0 bonus eq_refl Fb) as (Fm & Em); change (B2R g0) with 0 in *; rewrite Rmult_0_l in *; [rewrite Rabs_R0; apply bpow_ge_0|]. split; [exact Fm|]. rewrite Em. apply rnd32_0.
  - intros pre t post Q. destruct post as [|t2 post].
    + exists v. split; [|exact B]. destruct V as [(t1 & X1 & Y1)|V]; [left|right; exact V]. rewrite HT in X1. apply Ok_inj in X1. subst t1. rewrite HE in Y1. apply Ok_inj in Y1. now symmetry.
    + destruct (A pre t (t2 :: post) Q ltac:(discriminate)) as (w & W & BW). exists w. split; [exact W|exact BW].
Qed.
End Slider.
End WithLibm.

(** A slider of 80 px, and one that is left after 16 px. *)
Definition demo_sd (ticks : list tick) : slider_data := mkSlider demo_curve None (fq 80 1) 1 ticks (fq 200 1).
Definition line_slider (e : Z) (ticks : list tick) : hobj :=
  mkHobj (KSlider (demo_sd ticks)) (mkVec (gq 100 1) (gq 100 1)) (mkVec (gq 180 1) (gq 100 1)) (fq 1000 1) (fq e 1) vzero vzero vzero 0 0 0 0 [] false 0 0 0 0.
Lemma line_tidy e ticks : (1000 <= e <= 2 ^ 20)%Z -> (zlen ticks <= 2 ^ 16)%Z -> Forall (fun t => time_upto (tk_Time t)) ticks -> @tidy 14 PropDiff.demo_diff (line_slider e ticks).
Proof.
  intros E LT TS. assert (V : forall v, small10 (vx v) && small10 (vy v) = true -> vbnd 10 v) by (intros v H; apply andb_true_iff in H as (X & Y); split; now apply small10_ok).
  assert (V0 : vbnd 10 vzero) by (apply V; vm_compute; reflexivity).
  destruct (@new_multicurve_t_built one_libm 9 (lit "L") [mkVec (gq 100 1) (gq 100 1); mkVec (gq 200 1) (gq 100 1)] (fq 80 1) demo_curve) as (ls & p & r & _ & EP & EC).
  { unfold demo_curve. destruct (new_multicurve_t _ _ _ _) eqn:Q; [reflexivity| |]; exfalso; apply (f_equal outcome_of) in Q; vm_compute in Q; discriminate Q. }
  set (ls' := if ggt (total_length ls) g0 then _ else ls) in EC. clearbody ls'. clear ls. rename ls' into ls. assert (EL : ls = mc_lines demo_curve) by (rewrite EC; reflexivity). injection EP as <- _.
  apply (PathBounds.slider_tidy _ _ (demo_sd ticks) ls (mkVec (gq 100 1) (gq 100 1)) 10).
  - reflexivity.
  - exact EC.
  - lia.
  - rewrite EL. vm_compute. reflexivity.
  - apply V. vm_compute. reflexivity.
  - rewrite EL. assert (C : forallb (fun l => (small10 (vx (ln_p1 l)) && small10 (vy (ln_p1 l))) && (small10 (vx (ln_p2 l)) && small10 (vy (ln_p2 l)))) (mc_lines demo_curve) = true) by (vm_compute; reflexivity). apply Forall_forall. intros l I. rewrite forallb_forall in C. specialize (C l I). apply andb_true_iff in C as (C1 & C2). split; [exact (V _ C1)|exact (V _ C2)].
  - apply V. vm_compute. reflexivity.
  - apply V. vm_compute. reflexivity.
  - exact V0.
  - exact V0.
  - exact V0.
  - apply (ms_upto 1000). lia.
  - apply (ms_upto e). lia.
  - unfold line_slider. cbn [ho_start ho_end]. destruct (fq1_exact 1000) as (_ & ->); [lia|]. destruct (fq1_exact e) as (_ & ->); [lia|]. apply IZR_le. lia.
  - left. destruct (fq1_exact 200) as (F & Q); [lia|]. split; [exact F|]. cbn [sl_span demo_sd]. rewrite Q. apply Rle_trans with (bpow radix2 0); [apply bpow_le; lia|change (bpow radix2 0) with 1%R; lra].
  - cbn [sl_repeat demo_sd]. lia.
  - exact LT.
  - exact TS.
Qed.
Definition far_ticks : list tick := [mkTick (fq 1100 1) false; mkTick (fq 1200 1) true].
Definition near_ticks : list tick := [mkTick (fq 1020 1) true; mkTick (fq 1040 1) false].
Definition left_at (r : res lazy) : option (list Z) := match r with Ok l => Some (map hundredths [f_of_g (vx (lz_EndPos l)); f_of_g (vy (lz_EndPos l)); f_of_g (lz_Distance l); lz_Time l]) | _ => None end.
(** the first is 109.6 normalised px long, so that the cursor has to move 19.6 of
    them, 14.33 px; the other leaves the cursor in place *)
Example C71_instance : @pow_ranges calm_libm /\ clocked PropDiff.demo_diff /\
  @tidy 14 PropDiff.demo_diff (line_slider 1200 far_ticks) /\ time_upto (ho_end (line_slider 1200 far_ticks)) /\
  left_at (@new_lazy calm_libm PropDiff.demo_diff (line_slider 1200 far_ticks) (demo_sd far_ticks)) = Some [11433; 10000; 1964; 20000]%Z /\
  @tidy 14 PropDiff.demo_diff (line_slider 1040 near_ticks) /\ time_upto (ho_end (line_slider 1040 near_ticks)) /\
  left_at (@new_lazy calm_libm PropDiff.demo_diff (line_slider 1040 near_ticks) (demo_sd near_ticks)) = Some [10000; 10000; 0; 4000]%Z.
Proof.
  split; [exact calm_pow|]. split; [exact demo_clocked|]. split; [apply line_tidy; [lia|vm_compute; discriminate|]; unfold far_ticks; repeat (apply Forall_cons; [apply ms_upto; lia|]); apply Forall_nil|]. split; [apply (ms_upto 1200); lia|]. split; [vm_compute; reflexivity|].
  split; [apply line_tidy; [lia|vm_compute; discriminate|]; unfold near_ticks; repeat (apply Forall_cons; [apply ms_upto; lia|]); apply Forall_nil|]. split; [apply (ms_upto 1040); lia|]. vm_compute. reflexivity.
Qed.

Print Assumptions C71_step. Print Assumptions C71_path. Print Assumptions C71_end. Print Assumptions C71_travel. Print Assumptions C71_still.

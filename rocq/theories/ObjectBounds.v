(** Difficulty objects of tidy objects are sane. *)
From Coq Require Import Reals Lra.
From Flocq Require Import Raux Zaux Core BinarySingleNaN.
From Verif Require FinishProofs.
From Verif Require Import DiffCalc SpecPP SpecSane BaseLemmas FloatLemmas Float32Lemmas KeyLemmas BoundLemmas CurveProofs CurveBounds CurveStart DiffProofs PPProofs PPBounds PPChains ValueBounds BezierTerm RatingBounds.
Import ListNotations.
Open Scope R_scope.

Lemma point_vbnd p v : point_upto p v <-> vbnd p v. Proof. reflexivity. Qed.
Lemma vlen_bnd k v : (-70 <= k <= 60)%Z -> vbnd k v -> bnd (k + 1) (vlen v) /\ 0 <= B2R (vlen v).
Proof.
  intros K [X Y]. unfold vlen. set (x := vx v) in *. set (y := vy v) in *.
  assert (S : bnd (k + k + 1) (gadd (gmul x x) (gmul y y))) by (apply bnd_add; [lia| |]; apply bnd_mul; auto; lia).
  destruct S as [F B]. assert (N : nn (gadd (gmul x x) (gmul y y))) by (apply nn_plus; apply nn_square; apply fin_num; [apply X|apply Y]).
  assert (P : 0 <= B2R (gadd (gmul x x) (gmul y y))) by (destruct N as [_ N]; now rewrite (key_fin 24 128 _ F) in N).
  destruct (gsqrt_fin _ F P) as [F' V]. rewrite Rabs_pos_eq in B by exact P.
  assert (SQ : sqrt (B2R (gadd (gmul x x) (gmul y y))) <= bpow radix2 (k + 1)).
  { rewrite <- (sqrt_square (bpow radix2 (k + 1))) by apply bpow_ge_0. apply sqrt_le_1_alt. rewrite <- bpow_plus. eapply Rle_trans; [exact B|]. apply bpow_le. lia. }
  split; [split; [exact F'|]|rewrite V; apply rnd32_pos, rnd64_pos, sqrt_pos]. rewrite V. apply rnd32_bound; [lia|]. apply (rnd_bound 53 1024); [cbn; lia|]. rewrite Rabs_pos_eq by apply sqrt_pos. exact SQ.
Qed.
(** a step towards a point within 2^p stays within 2^(p+1) *)
Lemma step_towards p c q r : (0 <= p <= 100)%Z -> bnd (p + 1) c -> bnd p q -> bnd 0 r -> 0 <= B2R r -> bnd (p + 1) (gadd c (gmul (gsub q c) r)).
Proof.
  intros P (Fc & Bc) (Fq & Bq) (Fr & Br) R0. change (bpow radix2 0) with 1 in Br. rewrite Rabs_pos_eq in Br by exact R0.
  rewrite bpow_S in *. pose proof (bpow_gt_0 radix2 p) as G. assert (G1 : 1 <= bpow radix2 p) by (change 1 with (bpow radix2 0); apply bpow_le; lia). set (B := bpow radix2 p) in *.
  assert (BIG : forall a, Rabs a <= B + B + B + B + B + B + B + B -> Rabs a <= bpow radix2 127).
  { intros a H. apply Rle_trans with (1 := H). apply Rle_trans with (bpow radix2 (3 + p)); [rewrite bpow_plus; change (bpow radix2 3) with 8; fold B; lra|apply bpow_le; lia]. }
  apply Rabs_le_inv in Bc, Bq. destruct (gsub_fin q c Fq Fc) as (Fm & Em); [apply BIG, Rabs_le; lra|].
  assert (U : bpow radix2 (-24) <= / 1000) by (change (bpow radix2 (-24)) with (/ 16777216); lra). assert (U0 : bpow radix2 (-150) <= bpow radix2 (-24)) by (apply bpow_le; lia). pose proof (bpow_gt_0 radix2 (-24)) as U1. pose proof (bpow_gt_0 radix2 (-150)) as U2.
  assert (EB : Rabs (rnd32 (B2R q - B2R c) - (B2R q - B2R c)) <= B / 4).
  { apply Rle_trans with (1 := rnd32_errR (B2R q - B2R c) (3 * B) ltac:(apply Rabs_le; lra)). assert (3 * B * bpow radix2 (-24) <= 3 * B * / 1000) by (apply Rmult_le_compat_l; lra). lra. }
  rewrite <- Em in EB. apply Rabs_le_inv in EB. set (mv := gsub q c) in *. set (x := B2R mv) in *.
  assert (RR : rnd32 x = x) by (apply rnd32_id).
  assert (MB : Rmin x 0 <= x * B2R r <= Rmax x 0). { unfold Rmin, Rmax. destruct (Rle_dec x 0); [split; nra|split; nra]. }
  assert (XB : -4 * B <= x <= 4 * B) by lra.
  destruct (gmul_fin mv r Fm Fr) as (Fp & Ep). { fold x. apply BIG, Rabs_le. unfold Rmin, Rmax in MB. destruct (Rle_dec x 0); lra. } fold x in Ep.
  assert (PB : Rmin x 0 <= B2R (gmul mv r) <= Rmax x 0).
  { rewrite Ep. unfold Rmin, Rmax in *. destruct (Rle_dec x 0).
    - split; [rewrite <- RR at 1; apply rnd32_le; lra|rewrite <- rnd32_0; apply rnd32_le; lra].
    - split; [rewrite <- rnd32_0 at 1; apply rnd32_le; lra|rewrite <- RR at 2; apply rnd32_le; lra]. }
  assert (SB : Rabs (B2R c + B2R (gmul mv r)) <= B + B). { apply Rabs_le. unfold Rmin, Rmax in PB. destruct (Rle_dec x 0); lra. }
  destruct (gadd_fin c _ Fc Fp) as (Fa & Ea); [apply BIG; lra|]. split; [exact Fa|]. rewrite Ea. rewrite bpow_S. fold B. replace (B + B) with (bpow radix2 (p + 1)) in * by (rewrite bpow_S; reflexivity). apply rnd32_bound; [lia|exact SB].
Qed.
Lemma upg_ok (n k : Z) (x y : f32) : (0 <= n < 2 ^ 20)%Z -> (0 <= k <= 100)%Z -> fin x -> 0 <= B2R x <= IZR n * bpow radix2 k -> fin y -> 0 <= B2R y <= bpow radix2 k ->
  fin (gadd x y) /\ 0 <= B2R (gadd x y) <= IZR (n + 1) * bpow radix2 k.
Proof.
  intros N K Fx Bx Fy By. rewrite plus_IZR, Rmult_plus_distr_r, Rmult_1_l.
  assert (H : IZR n * bpow radix2 k + bpow radix2 k = F2R (Float radix2 (n + 1) k)) by (unfold F2R; cbn [Fnum Fexp]; rewrite plus_IZR; ring).
  assert (G : rnd32 (IZR n * bpow radix2 k + bpow radix2 k) = IZR n * bpow radix2 k + bpow radix2 k).
  { apply round_generic; [typeclasses eauto|]. rewrite H. apply generic_format_FLT. exists (Float radix2 (n + 1) k); [reflexivity|cbn [Fnum]; change (Zpower radix2 24) with (2 ^ 24)%Z; lia|cbn [Fexp]; unfold SpecFloat.emin; lia]. }
  destruct (gadd_fin x y Fx Fy) as (F & E).
  { rewrite Rabs_pos_eq by lra. apply Rle_trans with (IZR n * bpow radix2 k + bpow radix2 k); [lra|]. apply Rle_trans with (bpow radix2 21 * bpow radix2 k); [|rewrite <- bpow_plus; apply bpow_le; lia].
    change (bpow radix2 21) with (IZR (2 ^ 21)). assert (IZR n + 1 <= IZR (2 ^ 21)) by (rewrite <- plus_IZR; apply IZR_le; lia). pose proof (bpow_gt_0 radix2 k). nra. }
  split; [exact F|]. rewrite E. split; [apply rnd32_pos; lra|]. rewrite <- G. apply rnd32_le. lra.
Qed.

Section WithLibm.
Context {M : libm} (PR : pow_ranges) (p : Z) (Hp : (0 <= p <= 40)%Z) (d : difficulty) (D : clocked d).

Lemma scale50 : bd 3 (fdiv (fq 50 1) (d_CircleRadius d)).
Proof.
  destruct D as (_ & _ & (Fr & Br)). destruct (fq1_exact 50) as (F5 & E5); [lia|]. assert (Q : 0 <= 50 / B2R (d_CircleRadius d) <= 8) by (split; [apply Rle_mult_inv_pos; lra|]; apply Rmult_le_reg_r with (B2R (d_CircleRadius d)); try lra; unfold Rdiv; rewrite Rmult_assoc, Rinv_l by lra; lra).
  destruct (fdiv_fin _ _ F5 Fr) as (Fs & Es); [lra|rewrite E5; apply big_1023; rewrite Rabs_pos_eq; lra|]. apply bd_iff. split; [exact Fs|]. rewrite Es, E5. change (bpow radix2 3) with 8. split; [apply rnd64_pos; lra|apply (rnd64_exact_Z 8); [lia|lra]].
Qed.
Lemma time40 x : time_upto x -> within (- bpow radix2 40) (bpow radix2 40) x.
Proof. intros (F & B). split; [exact F|]. assert (bpow radix2 38 <= bpow radix2 40) by (apply bpow_le; lia). lra. Qed.
(** the cursor on a slider and the distance it travelled after n score points *)
Definition cur_ok (n : Z) (st : vec * f32) : Prop := vbnd (p + 1) (fst st) /\ fin (snd st) /\ 0 <= B2R (snd st) <= IZR n * bpow radix2 (p + 6).
Lemma lazy_step_ok o lazyEnd last n st t st' : tidy p d o -> vbnd p lazyEnd -> (0 <= n < 2 ^ 20)%Z -> time_upto (ho_end o) -> time_upto (tk_Time t) -> cur_ok n st ->
  lazy_step o (d_Mods d) lazyEnd (fdiv (fq 50 1) (d_CircleRadius d)) last st t = Ok st' -> cur_ok (n + 1) st'.
Proof.
  intros T L N TE TU (C & Fd & Bd) H. unfold lazy_step in H. destruct st as (cursor, dist). cbn [fst snd] in *. apply bind_ok in H as (pos & HP & H). apply (ti_path _ _ _ T) in HP; [|destruct last; apply time40; assumption]. apply point_vbnd in HP.
  set (mov := if last && _ then _ else _) in H.
  assert (MV : exists q, vbnd p q /\ mov = vsub q cursor) by (unfold mov; destruct (last && _); [exists lazyEnd; exact (conj L eq_refl)|exists pos; exact (conj HP eq_refl)]). destruct MV as (q & Q & EM). rewrite EM in H. clear mov EM.
  assert (MB : vbnd (p + 1 + 1) (vsub q cursor)) by (apply vbnd_sub; [lia|apply (vbnd_le p); [lia|exact Q]|exact C]).
  destruct (vlen_bnd (p + 1 + 1) _ ltac:(lia) MB) as ((Fl & Bl) & Pl). rewrite Rabs_pos_eq in Bl by exact Pl. destruct (f_of_g_fin _ Fl) as (Fg & Eg).
  assert (LB : bd (3 + (p + 3)) (fmul (fdiv (fq 50 1) (d_CircleRadius d)) (f_of_g (vlen (vsub q cursor))))).
  { apply bd_mul; [exact scale50| |lia|lia|lia]. apply bd_iff. split; [exact Fg|]. rewrite Eg. split; [exact Pl|]. replace (p + 3)%Z with (p + 1 + 1 + 1)%Z by lia. exact Bl. }
  set (len := fmul _ _) in *. clearbody len. apply bd_iff in LB as (FL & BL).
  set (req := if last then _ else _) in H. assert (RQ : fin req /\ 50 <= B2R req <= 90).
  { destruct (fq1_exact 90) as (F9 & E9); [lia|]. destruct (fq1_exact 50) as (F5 & E5); [lia|]. unfold req. destruct last; [split; [exact F9|rewrite E9; lra]|]. destruct (tk_Reverse t); [split; [exact F5|rewrite E5; lra]|split; [exact F9|rewrite E9; lra]]. }
  destruct RQ as (Fr & Br). clearbody req.
  assert (KEEP : cur_ok (n + 1) (cursor, dist)). { split; [exact C|]. split; [exact Fd|]. cbn [snd]. split; [lra|]. apply Rle_trans with (1 := proj2 Bd). apply Rmult_le_compat_r; [apply bpow_ge_0|apply IZR_le; lia]. }
  destruct (fgt len req) eqn:G; [|apply Ok_inj in H; now subst st']. apply Ok_inj in H. subst st'.
  rewrite fgt_bool in G by assumption. destruct (Rlt_bool_spec (B2R req) (B2R len)) as [GT|]; [clear G|discriminate G].
  assert (HUGE : bpow radix2 (3 + (p + 3)) <= bpow radix2 127) by (apply bpow_le; lia). assert (HUGE' : bpow radix2 127 <= bpow radix2 1023) by (apply bpow_le; lia).
  destruct (fsub_fin _ _ FL Fr) as (Fs & Es); [rewrite Rabs_pos_eq; lra|]. assert (Bs : 0 <= B2R (fsub len req) <= B2R len) by (rewrite Es; split; [apply rnd64_pos; lra|apply rnd64_le_f; lra]).
  assert (QQ : 0 <= B2R (fsub len req) / B2R len <= 1) by (split; [apply Rle_mult_inv_pos; lra|]; apply Rmult_le_reg_r with (B2R len); try lra; unfold Rdiv; rewrite Rmult_assoc, Rinv_l by lra; lra).
  destruct (fdiv_fin _ _ Fs FL) as (Fq & Eq); [lra|apply big_1023; rewrite Rabs_pos_eq; lra|]. assert (Bq : 0 <= B2R (fdiv (fsub len req) len) <= 1) by (rewrite Eq; split; [apply rnd64_pos; lra|apply (rnd64_exact_Z 1); [lia|lra]]).
  set (ratio := fdiv _ len) in *. clearbody ratio. destruct (g_of_f_fin ratio Fq) as (Fr' & Er'). { apply Rle_trans with 1; [rewrite Rabs_pos_eq; lra|]. change 1 with (bpow radix2 0). apply bpow_le. lia. }
  assert (Br' : 0 <= B2R (g_of_f ratio) <= 1). { rewrite Er'. split; [apply rnd32_pos; lra|]. rewrite <- (rnd32_Z 1) by lia. apply rnd32_le. lra. }
  assert (RB : bnd 0 (g_of_f ratio)) by (split; [exact Fr'|rewrite Rabs_pos_eq by lra; change (bpow radix2 0) with 1; lra]).
  pose proof (bd_mul (3 + (p + 3)) 0 len ratio ltac:(apply bd_iff; split; [exact FL|exact BL]) ltac:(apply bd_iff; split; [exact Fq|change (bpow radix2 0) with 1; exact Bq]) ltac:(lia) ltac:(lia) ltac:(lia)) as PB.
  apply bd_iff in PB as (Fp & Bp). replace (3 + (p + 3) + 0)%Z with (p + 6)%Z in Bp by lia. destruct (g_of_f_fin _ Fp) as (Fp' & Ep'). { rewrite Rabs_pos_eq by lra. apply Rle_trans with (1 := proj2 Bp), bpow_le. lia. }
  split; [|cbn [snd]; apply upg_ok; auto; [lia|]].
  - cbn [fst]. destruct C as (Cx & Cy), Q as (Qx & Qy). unfold vadd, vscl, vsub. cbn [vx vy]. split; cbn [vx vy]; apply step_towards; auto; try lia; apply Br'.
  - rewrite Ep'. split; [apply rnd32_pos; lra|]. apply Rle_trans with (1 := Rle_abs _). apply rnd32_bound; [lia|]. rewrite Rabs_pos_eq; lra.
Qed.
Lemma lazy_loop_ok o lazyEnd ts (T : tidy p d o) (L : vbnd p lazyEnd) (TE : time_upto (ho_end o)) : Forall (fun t => time_upto (tk_Time t)) ts -> forall n st st', (0 <= n)%Z -> (n + Z.of_nat (length ts) <= 2 ^ 20)%Z -> cur_ok n st ->
  lazy_loop o (d_Mods d) lazyEnd (fdiv (fq 50 1) (d_CircleRadius d)) st ts = Ok st' -> cur_ok (n + Z.of_nat (length ts)) st'.
Proof.
  induction ts as [|t ts IH]; intros TS n st st' N NL C H; cbn [lazy_loop length] in *; [apply Ok_inj in H; subst st'; now rewrite Z.add_0_r|]. apply bind_ok in H as (st1 & H1 & H).
  inversion TS as [|? ? T1 T2]; subst. apply (lazy_step_ok o lazyEnd _ n) in H1; auto; [|lia]. apply (IH T2 (n + 1)%Z) in H; [|lia|lia|exact H1]. now replace (n + Z.of_nat (S (length ts)))%Z with (n + 1 + Z.of_nat (length ts))%Z by lia.
Qed.
Lemma sub38 (a b : f64) : time_upto a -> time_upto b -> fin (fsub a b) /\ - bpow radix2 39 <= B2R (fsub a b) <= bpow radix2 39.
Proof.
  intros (Fa & Ba) (Fb & Bb). assert (E : bpow radix2 39 = bpow radix2 38 + bpow radix2 38) by exact (bpow_S 38). assert (G : bpow radix2 39 <= bpow radix2 1023) by (apply bpow_le; lia).
  assert (AB : Rabs (B2R a - B2R b) <= bpow radix2 39) by (apply Rabs_le; lra). destruct (fsub_fin a b Fa Fb) as (F & V); [lra|]. split; [exact F|]. rewrite V. apply Rabs_le_inv. apply (rnd_bound 53 1024); [cbn; lia|exact AB].
Qed.
Lemma over_speed (x : f64) k : fin x -> Rabs (B2R x) <= bpow radix2 k -> (0 <= k <= 100)%Z -> fin (fdiv x (d_Speed d)) /\ Rabs (B2R (fdiv x (d_Speed d))) <= bpow radix2 (k + 3) /\ (0 <= B2R x -> 0 <= B2R (fdiv x (d_Speed d))).
Proof.
  intros Fx Bx K. destruct D as (_ & (Fs & Bs) & _). assert (Q : Rabs (B2R x / B2R (d_Speed d)) <= bpow radix2 (k + 3)).
  { unfold Rdiv. rewrite Rabs_mult, bpow_plus, (Rabs_pos_eq (/ _)) by (left; apply Rinv_0_lt_compat; lra). apply Rmult_le_compat; [apply Rabs_pos|left; apply Rinv_0_lt_compat; lra|exact Bx|]. change (bpow radix2 3) with 8. replace 8 with (/ (1 / 8)) by field. apply Rinv_le_contravar; lra. }
  destruct (fdiv_fin x _ Fx Fs) as (F & E); [lra|apply Rle_trans with (1 := Q), bpow_le; lia|]. split; [exact F|]. rewrite E. split; [apply (rnd_bound 53 1024); [cbn; lia|exact Q]|]. intros P. apply rnd64_pos, Rle_mult_inv_pos; lra.
Qed.
(** what wrapping an object gives *)
Definition wrapped (q : pobj) : Prop := tidy p d (po_obj q) /\ vbnd (p + 1) (end_cursor q (d_Mods d)) /\
  forall l, po_lazy q = Some l -> is_spinner (po_obj q) = false /\ (fin (lz_Distance l) /\ 0 <= B2R (lz_Distance l) <= bpow radix2 (p + 40)) /\ fin (lz_Time l) /\ Rabs (B2R (lz_Time l)) <= bpow radix2 39.
Lemma start_vbnd q o : tidy p d o -> (p <= q)%Z -> vbnd q (stacked_start o (d_Mods d)).
Proof. intros T Q. apply (vbnd_le p); [exact Q|]. apply (ti_start _ _ _ T). Qed.
Lemma bonus_ok r : (1 <= r <= 2 ^ 16)%Z -> bd 18 (mpow (fadd (fq 1 1) (fdiv (f_of_Z (wrap64 (r - 1))) (fq 5 2))) (fq 2 5)).
Proof.
  intros H. assert (W : wrap64 (r - 1) = (r - 1)%Z) by (unfold wrap64; rewrite Z.mod_small by lia; lia). rewrite W. destruct (f_of_Z_exact (r - 1)) as (F & E); [lia|].
  destruct (unit_exp 2 5 ltac:(bdc)) as (F2 & E2). change 18%Z with (17 * 1 + 1)%Z. apply (pow_bd PR 17 1); [|exact F2|exact E2|lia|lia|lia]. change 17%Z with (16 + 1)%Z. apply bd_add; [apply (bd_le 0); [exact bd_one|lia]| |lia|lia].
  apply bd_div; [|vm_compute; reflexivity| |lia|lia]; [|bval (fq 5 2); lra]. apply bd_iff. split; [exact F|]. rewrite E. change (bpow radix2 16) with (IZR (2 ^ 16)). split; [apply (IZR_le 0)|apply IZR_le]; lia.
Qed.
Lemma back a b : time_upto a -> time_upto b -> within (- bpow radix2 40) (bpow radix2 40) (fadd (fsub a b) b).
Proof.
  intros TA TB. destruct (sub38 _ _ TA TB) as (F & B). destruct TB as (Fb & Bb). assert (E : bpow radix2 39 = bpow radix2 38 + bpow radix2 38) by exact (bpow_S 38). assert (E' : bpow radix2 40 = bpow radix2 39 + bpow radix2 39) by exact (bpow_S 39). pose proof (bpow_gt_0 radix2 38).
  assert (W : Rabs (B2R (fsub a b) + B2R b) <= bpow radix2 40) by (apply Rabs_le; lra). destruct (fadd_fin _ _ F Fb) as (Fs & Es); [apply Rle_trans with (1 := W), bpow_le; lia|]. split; [exact Fs|]. rewrite Es. apply Rabs_le_inv. apply (rnd_bound 53 1024 _ 40); [cbn; lia|exact W].
Qed.
Lemma wrap_wrapped o q : tidy p d o -> wrap_object d o = Ok q -> wrapped q.
Proof.
  intros T H. unfold wrap_object in H. destruct (ho_kind o) as [| |sd] eqn:K; try (apply Ok_inj in H; subst q; split; [exact T|]; split; [cbn [end_cursor po_lazy po_obj]; apply start_vbnd; [exact T|lia]|intros l E; discriminate E]).
  apply bind_ok in H as (l & H & E). apply Ok_inj in E. subst q. unfold new_lazy in H. cbv zeta in H. apply bind_ok in H as (lt & HT & H). apply bind_ok in H as (le & HE & H). apply bind_ok in H as (st & HL & H). apply Ok_inj in H. subst l.
  destruct (ti_slider _ _ _ T sd K) as (R & LT & TE & FT). apply (ti_path _ _ _ T) in HE; [|apply back; [rewrite Forall_forall in FT; apply FT; apply FinishProofs.idx_in in HT; exact HT|apply (ti_time _ _ _ T)]]. apply point_vbnd in HE.
  apply (lazy_loop_ok o le _ T HE TE FT 0) in HL; [|lia|unfold zlen in LT; lia|split; [cbn [fst]; apply start_vbnd; [exact T|lia]|split; [reflexivity|cbn; lra]]].
  destruct HL as (C & Fd & Bd). unfold wrapped. cbn [po_obj po_lazy end_cursor lz_EndPos]. split; [exact T|]. split; [exact C|]. intros l E. injection E as <-. cbn [lz_Distance lz_Time].
  split; [unfold is_spinner; now rewrite K|]. split.
  - pose proof (bonus_ok _ R) as B. set (bo := mpow _ _) in *. clearbody bo. apply bd_iff in B as (Fb & Bb). destruct (g_of_f_fin bo Fb) as (Fg & Eg). { rewrite Rabs_pos_eq by lra. apply Rle_trans with (1 := proj2 Bb), bpow_le. lia. }
    assert (Bg : 0 <= B2R (g_of_f bo) <= bpow radix2 18). { rewrite Eg. split; [apply rnd32_pos; lra|]. apply Rle_trans with (1 := Rle_abs _). apply rnd32_bound; [lia|]. rewrite Rabs_pos_eq; lra. }
    assert (Bd' : 0 <= B2R (snd st) <= bpow radix2 (p + 22)). { split; [lra|]. apply Rle_trans with (1 := proj2 Bd). replace (p + 22)%Z with (16 + (p + 6))%Z by lia. rewrite (bpow_plus radix2 16). apply Rmult_le_compat_r; [apply bpow_ge_0|]. change (bpow radix2 16) with (IZR (2 ^ 16)). apply IZR_le. unfold zlen in LT. lia. }
    assert (Q : 0 <= B2R (snd st) * B2R (g_of_f bo) <= bpow radix2 (p + 40)). { split; [apply Rmult_le_pos; lra|]. replace (p + 40)%Z with (p + 22 + 18)%Z by lia. rewrite (bpow_plus radix2 (p + 22)). apply Rmult_le_compat; lra. }
    destruct (gmul_fin _ _ Fd Fg) as (F & E). { rewrite Rabs_pos_eq by lra. apply Rle_trans with (1 := proj2 Q), bpow_le. lia. }
    split; [exact F|]. rewrite E. split; [apply rnd32_pos; lra|]. apply Rle_trans with (1 := Rle_abs _). apply rnd32_bound; [lia|]. rewrite Rabs_pos_eq; lra.
  - apply idx_ok in HT as (_ & HT). apply nth_error_In in HT. rewrite Forall_forall in FT. destruct (sub38 _ _ (FT lt HT) (ti_time _ _ _ T)) as (F & B). split; [exact F|]. apply Rabs_le. lra.
Qed.
Lemma scaling_ok : bnd 3 (scaling_factor d) /\ 0 <= B2R (scaling_factor d).
Proof.
  unfold scaling_factor. cbv zeta. destruct D as (_ & _ & (Fr & Br)). destruct (g_of_f_fin (d_CircleRadius d) Fr) as (Fg & Eg). { apply Rle_trans with (bpow radix2 7); [change (bpow radix2 7) with 128; rewrite Rabs_pos_eq; lra|apply bpow_le; lia]. }
  assert (Bg : 8 <= B2R (g_of_f (d_CircleRadius d)) <= 100) by (rewrite Eg; split; [rewrite <- (rnd32_Z 8) by lia|rewrite <- (rnd32_Z 100) by lia]; apply rnd32_le; lra). set (r := g_of_f (d_CircleRadius d)) in *.
  destruct (gq1_exact 50) as (F5 & E5); [lia|]. destruct (gq1_exact 30) as (F3 & E3); [lia|]. destruct (gq1_exact 5) as (Fv & Ev); [lia|]. destruct (gq1_exact 1) as (F1 & E1); [lia|].
  assert (Q : 0 <= 50 / B2R r <= 7) by (split; [apply Rle_mult_inv_pos; lra|]; apply Rmult_le_reg_r with (B2R r); try lra; unfold Rdiv; rewrite Rmult_assoc, Rinv_l by lra; lra).
  assert (B127 : forall x, Rabs x <= 4096 -> Rabs x <= bpow radix2 127) by (intros x H; apply Rle_trans with (1 := H); change 4096 with (bpow radix2 12); apply bpow_le; lia).
  destruct (gdiv_fin _ _ F5 Fg) as (Fs & Es); [lra|rewrite E5; apply B127; rewrite Rabs_pos_eq; lra|]. rewrite E5 in Es.
  assert (Bs : 0 <= B2R (gdiv (gq 50 1) r) <= 7) by (rewrite Es; split; [apply rnd32_pos; lra|rewrite <- (rnd32_Z 7) by lia; apply rnd32_le; lra]). set (s := gdiv _ r) in *.
  destruct (flt (d_CircleRadius d) (fq 30 1)) eqn:L.
  2:{ split; [split; [exact Fs|rewrite Rabs_pos_eq by lra; change (bpow radix2 3) with 8; lra]|lra]. }
  assert (Lr : B2R r <= 30). { destruct (fq1_exact 30) as (F30 & E30); [lia|]. apply flt_fin in L; auto. rewrite E30 in L. rewrite Eg, <- (rnd32_Z 30) by lia. apply rnd32_le. lra. }
  destruct (gsub_fin _ _ F3 Fg) as (Fm & Em); [rewrite E3; apply B127, Rabs_le; lra|]. rewrite E3 in Em. assert (Bm : 0 <= B2R (gsub (gq 30 1) r) <= 30) by (rewrite Em; split; [apply rnd32_pos; lra|apply Rle_trans with (rnd32 (IZR 30)); [apply rnd32_le; lra|rewrite rnd32_Z by lia; lra]]).
  assert (MN : fin (gmin (gsub (gq 30 1) r) (gq 5 1)) /\ 0 <= B2R (gmin (gsub (gq 30 1) r) (gq 5 1)) <= 5).
  { unfold gmin. destruct (f_of_g_fin _ Fm) as (Fm' & Em'). destruct (f_of_g_fin _ Fv) as (Fv' & Ev'). destruct (fmin_fin _ _ Fm' Fv') as (Fn & En). rewrite Em', Ev', Ev in En.
    assert (Bn : 0 <= B2R (fmin (f_of_g (gsub (gq 30 1) r)) (f_of_g (gq 5 1))) <= 5) by (rewrite En; unfold Rmin; destruct (Rle_dec _ _); lra).
    destruct (g_of_f_fin _ Fn) as (Fo & Eo); [apply B127; rewrite Rabs_pos_eq; lra|]. split; [exact Fo|]. rewrite Eo. split; [apply rnd32_pos; lra|rewrite <- (rnd32_Z 5) by lia; apply rnd32_le; lra]. }
  destruct MN as (Fn & Bn). set (mn := gmin _ _) in *. clearbody mn.
  destruct (gdiv_fin _ _ Fn F5) as (Fd & Ed); [lra|rewrite E5; apply B127; rewrite Rabs_pos_eq; lra|]. rewrite E5 in Ed. assert (Bd : 0 <= B2R (gdiv mn (gq 50 1)) <= / 8).
  { rewrite Ed. split; [apply rnd32_pos; lra|]. assert (G8 : fin (gq 1 8) /\ B2R (gq 1 8) = / 8) by (split; [vm_compute; reflexivity|bval (gq 1 8); rewrite V; lra]). destruct G8 as (_ & G8). rewrite <- G8. apply rnd32_le_f. lra. }
  destruct (gadd_fin _ _ F1 Fd) as (Fa & Ea); [rewrite E1; apply B127; rewrite Rabs_pos_eq; lra|]. rewrite E1 in Ea. assert (Ba : 0 <= B2R (gadd (gq 1 1) (gdiv mn (gq 50 1))) <= 9 / 8).
  { rewrite Ea. split; [apply rnd32_pos; lra|]. assert (G8 : B2R (gq 9 8) = 9 / 8) by (bval (gq 9 8); rewrite V; lra). rewrite <- G8. apply rnd32_le_f. lra. }
  set (z := gadd _ _) in *. clearbody z. assert (PZ : 0 <= B2R s * B2R z <= 8). { split; [apply Rmult_le_pos; lra|]. apply Rle_trans with (7 * (9 / 8)); [apply Rmult_le_compat; lra|lra]. }
  destruct (gmul_fin _ _ Fs Fa) as (Fp & Ep); [apply B127; rewrite Rabs_pos_eq; lra|]. assert (PP : 0 <= B2R (gmul s z) <= 8) by (rewrite Ep; split; [apply rnd32_pos; lra|rewrite <- (rnd32_Z 8) by lia; apply rnd32_le; lra]).
  split; [split; [exact Fp|rewrite Rabs_pos_eq by lra; change (bpow radix2 3) with 8; lra]|lra].
Qed.
Lemma grainy_g (x : f32) : fin x -> 0 <= B2R x -> grainy (f_of_g x).
Proof.
  intros F P. unfold grainy. destruct (f_of_g_fin x F) as (_ & ->). destruct x as [s| | |s mm e b]; try discriminate F; [left; reflexivity|right].
  pose proof (abs_B2R_ge_emin 24 128 (B754_finite s mm e b) eq_refl) as H. rewrite Rabs_pos_eq in H by exact P. exact H.
Qed.
Lemma near_ok o q : tidy p d (po_obj (do_base o)) -> tidy p d (po_obj (do_base q)) -> near (p + 40) d o q.
Proof.
  intros T T'. unfold near. destruct (vdst_bnd p _ _ ltac:(lia) (ti_start _ _ _ T) (ti_end _ _ _ T')) as ((F & B) & P). destruct (f_of_g_fin _ F) as (F' & E). split; [exact F'|]. rewrite E. split; [exact P|].
  rewrite Rabs_pos_eq in B by exact P. apply Rle_trans with (1 := B), bpow_le. lia.
Qed.
Lemma max25 (x : f64) : fin x -> B2R x <= bpow radix2 42 -> within 25 (bpow radix2 42) (fmax x (fq 25 1)).
Proof.
  intros F B. destruct (fq1_exact 25) as (F2 & E2); [lia|]. destruct (fmax_fin x _ F F2) as (Fm & Em). split; [exact Fm|]. rewrite Em, E2. assert (25 <= bpow radix2 42) by (change (bpow radix2 42) with 4398046511104; lra). unfold Rmax. destruct (Rle_dec _ _); lra.
Qed.
Lemma new_ok cur ll last : wrapped cur -> wrapped last -> B2R (ho_start (po_obj last)) <= B2R (ho_start (po_obj cur)) ->
  sane (p + 40) (new_dobj d cur ll last) /\ (forall b, do_base b = last -> linked (new_dobj d cur ll last) b).
Proof.
  intros (TC & CC & _) (TL & CL & LZ) OR. 
  pose proof (ti_time _ _ _ TC) as TmC. pose proof (ti_time _ _ _ TL) as TmL. destruct (sub38 _ _ TmC TmL) as (Fd & Bd).
  destruct (over_speed (fsub (ho_start (po_obj cur)) (ho_start (po_obj last))) 39 Fd) as (FD & BD & PD); [apply Rabs_le; lra|lia|].
  assert (P0 : 0 <= B2R (fsub (ho_start (po_obj cur)) (ho_start (po_obj last)))).
  { destruct TmC as (Fa & Ba), TmL as (Fb & Bb). destruct (fsub_fin _ _ Fa Fb) as (_ & ->); [|apply rnd64_pos; lra]. apply Rle_trans with (bpow radix2 39); [|apply bpow_le; lia]. assert (E : bpow radix2 39 = bpow radix2 38 + bpow radix2 38) by exact (bpow_S 38). apply Rabs_le. lra. }
  specialize (PD P0). rewrite Rabs_pos_eq in BD by exact PD. change (39 + 3)%Z with 42%Z in BD.
  destruct TmC as (Fs & Bs). destruct (over_speed (ho_start (po_obj cur)) 38 Fs) as (FS & BS & _); [apply Rabs_le; lra|lia|].
  assert (DL : within 0 (bpow radix2 42) (fdiv (fsub (ho_start (po_obj cur)) (ho_start (po_obj last))) (d_Speed d))) by (split; [exact FD|lra]).
  assert (ST : within (- bpow radix2 42) (bpow radix2 42) (fdiv (ho_start (po_obj cur)) (d_Speed d))).
  { split; [exact FS|]. apply Rabs_le_inv in BS. assert (bpow radix2 (38 + 3) <= bpow radix2 42) by (apply bpow_le; lia). lra. }
  pose proof (max25 _ FD BD) as SN. set (delta := fdiv (fsub _ _) (d_Speed d)) in *. set (strain := fmax delta (fq 25 1)) in *.
  assert (Z0 : within 0 (bpow radix2 (p + 40)) f0) by (split; [reflexivity|cbn; split; [lra|apply bpow_ge_0]]).
  unfold new_dobj. cbv zeta. fold delta. fold strain. destruct (is_spinner (po_obj cur) || is_spinner (po_obj last)) eqn:SP.
  { split; [constructor; cbn [do_Jump do_Travel do_Movement do_StrainTime do_DeltaTime do_StartTime do_TravelTime]; auto; try (left; reflexivity)|].
    intros b Eb BL BS'. exfalso. unfold base_lazy in BL. rewrite Eb in BL. unfold base_spinner in BS'. cbn [do_base] in BS'. rewrite BS' in SP. cbn [orb] in SP. destruct (po_lazy last) as [l|]; [|discriminate BL]. destruct (LZ l eq_refl) as (Q & _). rewrite Q in SP. discriminate SP. }
  destruct scaling_ok as (SB & S0). set (sc := scaling_factor d) in *. clearbody sc.
  assert (V1 : vbnd (p + 4) (vscl (stacked_start (po_obj cur) (d_Mods d)) sc)) by (replace (p + 4)%Z with (p + 1 + 3)%Z by lia; apply vbnd_scl; [lia|apply start_vbnd; [exact TC|lia]|exact SB]).
  assert (V2 : vbnd (p + 4) (vscl (end_cursor last (d_Mods d)) sc)) by (replace (p + 4)%Z with (p + 1 + 3)%Z by lia; apply vbnd_scl; [lia|exact CL|exact SB]).
  destruct (vdst_bnd (p + 4) _ _ ltac:(lia) V1 V2) as ((Fj & Bj) & Pj). rewrite Rabs_pos_eq in Bj by exact Pj. pose proof (grainy_g _ Fj Pj) as GJ. destruct (f_of_g_fin _ Fj) as (FJ & EJ).
  set (jump := f_of_g (vdst _ _)) in *. assert (BJ : 0 <= B2R jump <= bpow radix2 (p + 4 + 2)) by (rewrite EJ; lra). clearbody jump. clear Fj Bj Pj EJ V1 V2.
  assert (W : bpow radix2 (p + 4 + 2) <= bpow radix2 (p + 40)) by (apply bpow_le; lia).
  assert (JW : within 0 (bpow radix2 (p + 40)) jump) by (split; [exact FJ|lra]).
  destruct (po_lazy last) as [l|] eqn:PL; cbv beta iota.
  2:{ split; [constructor; cbn [do_Jump do_Travel do_Movement do_StrainTime do_DeltaTime do_StartTime do_TravelTime]; auto; left; reflexivity|]. intros b Eb BL _. unfold base_lazy in BL. rewrite Eb, PL in BL. discriminate BL. }
  destruct (LZ l eq_refl) as (_ & (Fdi & Bdi) & Flt & Blt).
  destruct (over_speed (lz_Time l) 39 Flt Blt ltac:(lia)) as (FT & BT & _). change (39 + 3)%Z with 42%Z in BT. pose proof (max25 _ FT ltac:(apply Rabs_le_inv in BT; lra)) as TT. set (tt := fmax (fdiv (lz_Time l) _) _) in *. clearbody tt.
  assert (MT : within 25 (bpow radix2 42) (fmax (fsub strain tt) (fq 25 1))).
  { destruct SN as (F1 & B1), TT as (F2 & B2). assert (BIG : bpow radix2 42 <= bpow radix2 1023) by (apply bpow_le; lia). destruct (fsub_fin _ _ F1 F2) as (F & E); [apply Rabs_le; lra|]. apply max25; [exact F|]. rewrite E. apply rnd_le_pow; [lia|lra]. }
  assert (MV : fin (fmax f0 (fmin (fsub jump (fq 30 1)) (f_of_g (gsub (gmul (vdst (stacked_end (po_obj last) (d_Mods d)) (stacked_start (po_obj cur) (d_Mods d))) sc) (gq 120 1))))) /\
    0 <= B2R (fmax f0 (fmin (fsub jump (fq 30 1)) (f_of_g (gsub (gmul (vdst (stacked_end (po_obj last) (d_Mods d)) (stacked_start (po_obj cur) (d_Mods d))) sc) (gq 120 1))))) <= B2R jump).
  { destruct (fq1_exact 30) as (F3 & E3); [lia|]. assert (BIG : bpow radix2 (p + 4 + 2) <= bpow radix2 1023) by (apply bpow_le; lia). assert (B30 : 30 <= bpow radix2 1023) by (apply Rle_trans with (bpow radix2 5); [change (bpow radix2 5) with 32; lra|apply bpow_le; lia]).
    destruct (fsub_fin _ _ FJ F3) as (F1 & E1); [rewrite E3; apply Rabs_le; lra|]. assert (B1 : B2R (fsub jump (fq 30 1)) <= B2R jump) by (rewrite E1, E3; apply rnd64_le_f; lra).
    destruct (vdst_bnd p _ _ ltac:(lia) (ti_end _ _ _ TL) (ti_start _ _ _ TC)) as (VD & _). pose proof (bnd_mul (p + 2) 3 _ _ ltac:(lia) VD SB) as VM.
    assert (VS : bnd (p + 7 + 1) (gsub (gmul (vdst (stacked_end (po_obj last) (d_Mods d)) (stacked_start (po_obj cur) (d_Mods d))) sc) (gq 120 1))).
    { apply bnd_sub; [lia|apply (bnd_le (p + 2 + 3)); [lia|exact VM]|]. destruct (gq1_exact 120) as (Fg & Eg); [lia|]. split; [exact Fg|]. rewrite Eg, Rabs_pos_eq by lra. apply Rle_trans with (bpow radix2 7); [change (bpow radix2 7) with 128; lra|apply bpow_le; lia]. }
    destruct VS as (Fv & _). destruct (f_of_g_fin _ Fv) as (Fv' & _). destruct (fmin_fin _ _ F1 Fv') as (Fm & Em). destruct (fmax_fin f0 _ eq_refl Fm) as (Fx & Ex). split; [exact Fx|]. rewrite Ex. change (B2R f0) with 0. split; [apply Rmax_l|]. apply Rmax_lub; [lra|]. rewrite Em. apply Rle_trans with (1 := Rmin_l _ _). exact B1. }
  set (mov := fmax f0 _) in *. clearbody mov. destruct MV as (FM & BM). destruct (f_of_g_fin _ Fdi) as (FDI & EDI).
  split.
  - constructor; cbn [do_Jump do_Travel do_Movement do_StrainTime do_DeltaTime do_StartTime do_TravelTime]; auto.
    + split; [exact FDI|]. rewrite EDI. exact Bdi.
    + apply grainy_g; [exact Fdi|apply Bdi].
    + split; [exact FM|lra].
    + intros E. lra.
  - intros b _ _ _. cbn [do_MovementTime do_TravelTime]. auto.
Qed.
Lemma list_ok qs : forall ll last, Forall wrapped (last :: qs) -> in_order (map po_obj (last :: qs)) ->
  Forall (fun o => sane (p + 40) o /\ tidy p d (po_obj (do_base o))) (diff_objects d ll last qs) /\ chain (rev (diff_objects d ll last qs)) /\
  forall b, do_base b = last -> match diff_objects d ll last qs with [] => True | o :: _ => linked o b end.
Proof.
  induction qs as [|q qs IH]; intros ll last W O; cbn [diff_objects]; [split; [constructor|]; split; [intros [|i] a b H; discriminate H|auto]|].
  inversion W as [|? ? WL W']; subst. pose proof W' as W''. inversion W'' as [|? ? WQ _]; subst. destruct O as (O1 & O2). destruct (new_ok q ll last WQ WL O1) as (S & L). destruct (IH (Some last) q W' O2) as (F & C & N).
  split; [constructor; [split; [exact S|]|exact F]|split; [|exact L]].
  - replace (do_base (new_dobj d q ll last)) with q; [apply WQ|]. unfold new_dobj. cbv zeta. destruct (_ || _); [reflexivity|]. destruct (po_lazy last); reflexivity.
  - assert (EB : do_base (new_dobj d q ll last) = q) by (unfold new_dobj; cbv zeta; destruct (_ || _); [reflexivity|]; destruct (po_lazy last); reflexivity).
    specialize (N _ EB). cbn [rev]. set (o := new_dobj d q ll last) in *. clearbody o. set (r := diff_objects d (Some last) q qs) in *. clearbody r. clear - C N.
    intros i a b A B. destruct (Nat.lt_ge_cases (S i) (length (rev r))) as [H|H].
    + rewrite nth_error_app1 in A, B by lia. now apply (C i).
    + assert (LI : S i = length (rev r)). { assert (X : nth_error (rev r ++ [o]) (S i) <> None) by congruence. apply nth_error_Some in X. rewrite app_length in X. cbn [length] in X. lia. }
      rewrite nth_error_app2, LI, Nat.sub_diag in B by lia. cbn in B. injection B as <-. rewrite nth_error_app1 in A by lia. destruct r as [|o' r]; [discriminate LI|]. cbn [rev] in A, LI. rewrite app_length in LI. cbn [length] in LI. rewrite nth_error_app2 in A by lia. replace (i - length (rev r))%nat with 0%nat in A by lia. injection A as <-. exact N.
Qed.
Lemma create_sane objs dos : Forall (tidy p d) objs -> in_order objs -> create_difficulty_objects objs d = Ok dos ->
  Forall (sane (p + 40)) dos /\ (forall o q, In o dos -> In q dos -> near (p + 40) d o q) /\ chain (rev dos).
Proof.
  intros T O H. unfold create_difficulty_objects in H. apply bind_ok in H as (qs & HM & H). apply Ok_inj in H. subst dos. apply mapM_ok in HM.
  assert (W : Forall wrapped qs /\ map po_obj qs = objs).
  { clear O. induction HM as [|o q os qs Hq HM IH]; [split; [constructor|reflexivity]|]. inversion T as [|? ? T1 T2]; subst. destruct (IH T2) as (W & E). split; [constructor; [now apply (wrap_wrapped o)|exact W]|]. cbn [map]. rewrite E. f_equal.
    unfold wrap_object in Hq. destruct (ho_kind o); [apply Ok_inj in Hq; now subst q|apply Ok_inj in Hq; now subst q|]. apply bind_ok in Hq as (l & _ & Hq). apply Ok_inj in Hq. now subst q. }
  destruct W as (W & E). rewrite <- E in O. destruct qs as [|q qs]; [split; [constructor|]; split; [intros o q []|intros [|i] a b X; discriminate X]|].
  destruct (list_ok qs None q W O) as (F & C & _). split; [eapply Forall_impl; [|exact F]; intros o (X & _); exact X|]. split; [|exact C]. rewrite Forall_forall in F. intros o r Ho Hr. apply near_ok; [apply F in Ho; apply Ho|apply F in Hr; apply Hr].
Qed.
End WithLibm.

(** Which line a lookup on a curve uses. *)
From Coq Require Import Reals Lra ZArith Lia Bool.
From Flocq Require Import Core BinarySingleNaN.
From Verif Require Import GoFloat Curves Objects SpecCurves BaseLemmas SortLemmas FloatLemmas Float32Lemmas KeyLemmas BoundLemmas BezierProofs CurveProofs CurveBounds CurveStart.
Import ListNotations.
Open Scope R_scope.

Section WithLibm.
Context {M : libm}.

Lemma g_of_f_of_g (x : f32) : num x -> key x <> 0 -> g_of_f (f_of_g x) = x.
Proof.
  intros Nx Kx. destruct x as [s|s| |s m e b] eqn:Ex; try reflexivity. rewrite <- Ex in *. assert (F : fin x) by (subst; reflexivity).
  destruct (f_of_g_fin x F) as [F' V]. destruct (g_of_f_ork (f_of_g x) F') as [N2 K2]. rewrite V, (ork_key 24 128 x F) in K2.
  apply key_inj; auto. rewrite K2. exact Kx.
Qed.
Lemma one_val : fin (gq 1 1) /\ B2R (gq 1 1) = 1.
Proof. apply gq1_exact. vm_compute. discriminate. Qed.
Lemma clamp_mid t : glt g0 t = true -> glt t (gq 1 1) = true -> clampF32 t g0 (gq 1 1) = t.
Proof.
  intros H0 H1. apply glt_iff in H0 as (N0 & Nt & K0). apply glt_iff in H1 as (_ & N1 & K1). cbn [key B2R g0] in K0.
  assert (ID : g_of_f (f_of_g t) = t) by (apply g_of_f_of_g; [exact Nt|lra]).
  unfold clampF32, gmax, gmin. rewrite (fmax_lt (f_of_g g0) (f_of_g t)).
  2:{ apply flt_iff. split; [reflexivity|]. split; [now apply f_of_g_num|]. apply (proj1 (f_of_g_key g0 eq_refl t Nt)). cbn [key B2R g0]. lra. }
  rewrite ID. rewrite fmin_gt; [exact ID|]. apply flt_iff. split; [now apply f_of_g_num|]. split; [now apply f_of_g_num|].
  now apply (proj1 (f_of_g_key t Nt (gq 1 1) N1)).
Qed.
Lemma clamp_one : clampF32 (gq 1 1) g0 (gq 1 1) = gq 1 1.
Proof. apply B2SF_eq. vm_compute. reflexivity. Qed.
Lemma clamp_range t : num t -> fin (clampF32 t g0 (gq 1 1)) /\ 0 <= B2R (clampF32 t g0 (gq 1 1)) <= 1.
Proof.
  intros Nt. destruct one_val as [F1 V1].
  destruct (Rle_lt_dec (key t) 0) as [L|L].
  - rewrite clamp_low, clamp_0. + split; [reflexivity|]. cbn [B2R g0]. lra. + apply gle_iff. split; [exact Nt|]. split; [reflexivity|]. exact L.
  - destruct (Rle_lt_dec 1 (key t)) as [L1|L1].
    + rewrite clamp_high, clamp_one. * split; [exact F1|]. rewrite V1. lra.
      * apply gge_iff. split; [exact Nt|]. split; [now apply fin_num|]. rewrite (key_fin 24 128 _ F1), V1. exact L1.
    + assert (FT : fin t). { apply (fin_of_key 24 128); auto. assert (1 <= bpow radix2 128) by (change 1 with (bpow radix2 0); apply bpow_le; lia). lra. }
      rewrite clamp_mid.
      * split; [exact FT|]. rewrite <- (key_fin 24 128 t FT). lra.
      * apply glt_iff. split; [reflexivity|]. split; [exact Nt|]. exact L.
      * apply glt_iff. split; [exact Nt|]. split; [now apply fin_num|]. rewrite (key_fin 24 128 _ F1), V1. exact L1.
Qed.

Lemma nth_last {A} (l : list A) d : nth (length l - 1) l d = last l d.
Proof. destruct l as [|x l] using rev_ind; [reflexivity|]. rewrite last_last, app_length, app_nth2; cbn; [|lia]. now replace (_ - _ - _)%nat with 0%nat by lia. Qed.

(** the distance looked up: finite and between zero and the length *)
Lemma distance_range ls t : fin (total_length ls) -> num t ->
  fin (gmul (total_length ls) (clampF32 t g0 (gq 1 1))) /\ 0 <= B2R (gmul (total_length ls) (clampF32 t g0 (gq 1 1))) <= B2R (total_length ls).
Proof.
  intros FT Nt. destruct (clamp_range t Nt) as [Fc Bc]. set (c := clampF32 t g0 (gq 1 1)) in *. set (L := total_length ls) in *.
  assert (PL : 0 <= B2R L).
  { pose proof (sections_nn ls g0 nn_0 (total_fin_nn ls FT)) as S. pose proof (section_last g0 ls) as E. fold (total_length ls) in E. fold L in E.
    assert (In L (g0 :: section_sums g0 ls)) as [<-|I].
    { rewrite E. destruct (@exists_last _ (g0 :: section_sums g0 ls) ltac:(discriminate)) as (a & x & Ex). rewrite Ex, last_last. apply in_or_app. right. now left. }
    - cbn [B2R g0]. lra.
    - rewrite Forall_forall in S. destruct (S L I) as [[_ K] _]. rewrite (key_fin 24 128 L FT) in K. exact K. }
  assert (RND : forall a, 0 <= a <= B2R L -> 0 <= rnd32 a <= B2R L).
  { intros a Ha. pose proof (rnd32_le 0 a (proj1 Ha)) as A1. pose proof (rnd32_le a (B2R L) (proj2 Ha)) as A2. rewrite rnd32_0 in A1. rewrite rnd32_id in A2. lra. }
  pose proof (B2R_lt 24 128 L FT) as BL.
  destruct (Rle_lt_dec (B2R L) (bpow radix2 127)) as [S|S].
  - destruct (gmul_fin L c FT Fc) as [F V].
    + rewrite Rabs_pos_eq by nra. nra.
    + split; [exact F|]. rewrite V. apply RND. nra.
  - pose proof (Bmult_correct 24 128 p24 pe24 mode_NE L c) as C. fold (gmul L c) in C.
    change (round radix2 (SpecFloat.fexp 24 128) (round_mode mode_NE) (B2R L * B2R c)) with (rnd32 (B2R L * B2R c)) in C.
    assert (R : 0 <= rnd32 (B2R L * B2R c) <= B2R L). { apply RND. nra. }
    rewrite Rlt_bool_true in C.
    + destruct C as (V & F & _). rewrite V. split; [|exact R]. unfold fin. rewrite F, FT, Fc. reflexivity.
    + rewrite Rabs_pos_eq by lra. lra.
Qed.

Lemma nth_section ls : forall s i, (i <= length ls)%nat -> exists x, nth_error (s :: section_sums s ls) i = Some x.
Proof. intros s i H. destruct (nth_error (s :: section_sums s ls) i) eqn:E; [eauto|]. apply nth_error_None in E. cbn in E. rewrite section_sums_length in E. lia. Qed.
Lemma last_section ls x : ls <> [] -> nth_error (section_sums g0 ls) (length ls - 1) = Some x -> x = total_length ls.
Proof.
  intros NE E. unfold total_length. rewrite section_last. apply nth_error_nth with (d := g0) in E. rewrite <- E.
  rewrite <- (section_sums_length g0 ls), nth_last. destruct ls; [congruence|reflexivity].
Qed.
Theorem lookup_line ls p t : fin (total_length ls) -> num t -> ls <> [] -> geq (total_length ls) g0 = false ->
  let d := gmul (total_length ls) (clampF32 t g0 (gq 1 1)) in
  exists i lo hi l, nth_error (mc_sections (finish_curve ls p)) i = Some lo /\ nth_error (mc_sections (finish_curve ls p)) (S i) = Some hi /\
    nth_error ls i = Some l /\ (i = 0%nat \/ glt lo d = true) /\ gle d hi = true /\
    mc_point_at (finish_curve ls p) t = Ok (if geq (gsub hi lo) g0 then ln_p1 l else ln_point_at l (gdiv (gsub d lo) (gsub hi lo))).
Proof.
  intros FT Nt NE NZ d. destruct (distance_range ls t FT Nt) as [Fd Bd]. fold d in Fd, Bd.
  pose proof (total_fin_nn ls FT) as NN. pose proof (sections_nn ls g0 nn_0 NN) as SN.
  set (wf := section_sums g0 ls) in *.
  set (f := fun i => match nth_error wf i with Some s => gge s d | None => true end).
  assert (W := search_weak f (length wf)). cbv zeta in W. set (r := search (length wf) f) in *. destruct W as (W1 & W2 & W3).
  assert (LW : length wf = length ls) by apply section_sums_length.
  assert (RL : (r < length ls)%nat).
  { destruct (Nat.eq_dec r (length ls)) as [E|]; [|lia]. exfalso.
    assert (0 < r)%nat by (rewrite E; destruct ls; [congruence|cbn; lia]). specialize (W2 H). unfold f in W2.
    destruct (nth_error wf (r - 1)) as [s|] eqn:Es; [|discriminate].
    assert (s = total_length ls).
    { apply (last_section ls s NE). fold wf. now replace (length ls - 1)%nat with (r - 1)%nat by lia. }
    assert (gge s d = true); [|congruence]. subst s. apply gge_iff. split; [now apply fin_num|]. split; [now apply fin_num|].
    rewrite !(key_fin 24 128) by assumption. lra. }
  destruct (nth_section ls g0 r ltac:(lia)) as [lo Elo]. destruct (nth_section ls g0 (S r) ltac:(lia)) as [hi Ehi].
  destruct (nth_error ls r) as [l|] eqn:El; [|apply nth_error_None in El; lia].
  exists r, lo, hi, l. fold wf in Elo, Ehi. cbn [mc_sections finish_curve]. fold wf. 
  split; [exact Elo|]. split; [exact Ehi|]. split; [exact El|].
  assert (HI : gge hi d = true). { specialize (W3 ltac:(lia)). unfold f in W3. cbn [nth_error] in Ehi. now rewrite Ehi in W3. }
  split; [|split].
  - destruct r as [|r']; [now left|right]. specialize (W2 ltac:(lia)). unfold f in W2. cbn [nth_error] in Elo. rewrite Nat.sub_succ, Nat.sub_0_r in W2. rewrite Elo in W2.
    rewrite Forall_forall in SN. destruct (SN lo (nth_error_In _ _ Elo)) as [[Nl Kl] _].
    apply glt_iff. split; [exact Nl|]. split; [now apply fin_num|]. destruct (Rlt_le_dec (key lo) (key d)) as [H|H]; [exact H|].
    assert (gge lo d = true); [|congruence]. apply gge_iff. split; [exact Nl|]. split; [now apply fin_num|exact H].
  - apply gge_iff in HI as (A & B & K). apply gle_iff. auto.
  - unfold mc_point_at. cbn [mc_lines finish_curve mc_length]. assert (UN : forall A (u v : A), match ls with [] => u | _ :: _ => v end = v) by (destruct ls; [congruence|reflexivity]). rewrite UN, NZ.
    unfold mc_index. cbn [mc_length mc_sections finish_curve mc_lines tl]. fold wf d. fold f. fold r.
    rewrite (Nat.min_l r (length ls - 1)) by lia.
    assert (IX : forall A (x : list A) i y, nth_error x i = Some y -> idx x (Z.of_nat i) = Ok y).
    { intros A x i y E. unfold idx. rewrite (proj2 (Z.ltb_ge _ _)) by lia. rewrite Nat2Z.id, E. reflexivity. }
    replace (Z.of_nat r + 1)%Z with (Z.of_nat (S r)) by lia.
    rewrite (IX _ _ _ _ Ehi), (IX _ _ _ _ Elo), (IX _ _ _ _ El). cbn [bind]. destruct (geq (gsub hi lo) g0); reflexivity.
Qed.
End WithLibm.

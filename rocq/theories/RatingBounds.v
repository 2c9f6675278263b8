(** Sizes of strains, peaks and ratings. *)
From Coq Require Import Reals Lra Permutation.
From Flocq Require Import Raux Zaux Core BinarySingleNaN.
From Verif Require Import DiffCalc SpecPP SpecSane BaseLemmas FloatLemmas Float32Lemmas KeyLemmas SortLemmas SkillProofs CurveProofs CurveStart DiffProofs SectionProofs PPProofs PPBounds PPChains ValueBounds.
Import ListNotations.
Open Scope R_scope.

Definition upto_n (n k : Z) (x : f64) : Prop := fin x /\ 0 <= B2R x <= IZR n * bpow radix2 k.
Lemma upn_more n n' k x : upto_n n k x -> (n <= n')%Z -> upto_n n' k x.
Proof. intros (F & B) H. split; [exact F|]. apply IZR_le in H. pose proof (bpow_gt_0 radix2 k). assert (IZR n * bpow radix2 k <= IZR n' * bpow radix2 k) by (apply Rmult_le_compat_r; lra). lra. Qed.
Lemma upn_max n k x y : upto_n n k x -> upto_n n k y -> upto_n n k (fmax x y).
Proof. intros (Fx & Bx) (Fy & By). destruct (fmax_fin x y Fx Fy) as (F & E). split; [exact F|]. rewrite E. unfold Rmax. destruct (Rle_dec _ _); lra. Qed.
Lemma upn_0 n k : (0 <= n)%Z -> upto_n n k f0.
Proof. intros H. apply IZR_le in H. split; [reflexivity|]. cbn. split; [lra|]. apply Rmult_le_pos; [exact H|apply bpow_ge_0]. Qed.
Lemma upn_huge n k : (0 <= n <= 2 ^ 53)%Z -> (0 <= k <= 900)%Z -> IZR n * bpow radix2 k <= bpow radix2 1023.
Proof. intros N K. apply Rle_trans with (bpow radix2 53 * bpow radix2 k); [apply Rmult_le_compat_r; [apply bpow_ge_0|]; change (bpow radix2 53) with (IZR (2 ^ 53)); apply IZR_le; lia|]. rewrite <- bpow_plus. apply bpow_le. lia. Qed.
Lemma upn_unit n k x y : (0 <= n <= 2 ^ 53)%Z -> (0 <= k <= 900)%Z -> upto_n n k x -> bd 0 y -> upto_n n k (fmul x y).
Proof.
  intros N K (Fx & Bx) Y. apply bd_iff in Y as (Fy & By). change (bpow radix2 0) with 1 in By. pose proof (upn_huge n k N K) as H.
  assert (P : 0 <= B2R x * B2R y <= IZR n * bpow radix2 k). { split; [apply Rmult_le_pos; lra|]. apply Rle_trans with (B2R x * 1); [apply Rmult_le_compat_l; lra|lra]. }
  destruct (fmul_fin x y Fx Fy) as (F & E); [rewrite Rabs_pos_eq; lra|]. split; [exact F|]. rewrite E. split; [apply rnd64_pos; lra|apply rnd_le_Zpow; auto; lra].
Qed.
Lemma upn_mul n j k x y : (0 <= n <= 2 ^ 53)%Z -> (0 <= j)%Z -> (0 <= k)%Z -> (j + k <= 900)%Z -> upto_n n j x -> bd k y -> upto_n n (j + k) (fmul x y).
Proof.
  intros N J K JK (Fx & Bx) Y. apply bd_iff in Y as (Fy & By). pose proof (upn_huge n (j + k) N ltac:(lia)) as H.
  assert (P : 0 <= B2R x * B2R y <= IZR n * bpow radix2 (j + k)). { split; [apply Rmult_le_pos; lra|]. rewrite bpow_plus, <- Rmult_assoc. apply Rmult_le_compat; lra. }
  destruct (fmul_fin x y Fx Fy) as (F & E); [rewrite Rabs_pos_eq; lra|]. split; [exact F|]. rewrite E. split; [apply rnd64_pos; lra|apply rnd_le_Zpow; auto; [lia|lra]].
Qed.
Lemma upn_add n k x y : (0 <= n < 2 ^ 53)%Z -> (0 <= k <= 900)%Z -> upto_n n k x -> bd k y -> upto_n (n + 1) k (fadd x y).
Proof.
  intros N K (Fx & Bx) Y. apply bd_iff in Y as (Fy & By). pose proof (upn_huge (n + 1) k ltac:(lia) K) as H. rewrite plus_IZR, Rmult_plus_distr_r, Rmult_1_l in H.
  destruct (fadd_fin x y Fx Fy) as (F & E); [rewrite Rabs_pos_eq; lra|]. split; [exact F|]. rewrite E. split; [apply rnd64_pos; lra|apply rnd_le_Zpow; auto; [lia|rewrite plus_IZR; lra]].
Qed.
Lemma upn_bd n k j x : upto_n n k x -> (0 <= n <= 2 ^ j)%Z -> (0 <= j)%Z -> bd (j + k) x.
Proof.
  intros (F & B) N J. apply bd_iff. split; [exact F|]. split; [lra|]. apply Rle_trans with (1 := proj2 B). rewrite bpow_plus. apply Rmult_le_compat_r; [apply bpow_ge_0|].
  rewrite <- IZR_Zpower by exact J. apply IZR_le. change (Zpower radix2 j) with (2 ^ j)%Z. lia.
Qed.

Section WithLibm.
Context {M : libm} (PR : pow_ranges) (TR : trig_ranges) (LU : SpecDiff.log_unit) (m : Z) (Hm : (0 <= m <= 300)%Z) (d : difficulty) (D : clocked d) (all : list dobj).
Context (AS : Forall (sane m) all) (AN : forall o p, In o all -> In p all -> near m d o p).

Definition size : Z := 2 * m + 30.
Lemma decay_bd k ms : fin ms -> 0 <= B2R ms <= bpow radix2 60 -> bd 0 (strain_decay k ms).
Proof.
  intros F B. destruct (fq1_exact 1000) as (F1 & E1); [lia|]. unfold strain_decay.
  assert (Q : bd 60 (fdiv ms (fq 1000 1))) by (apply bd_div; [apply bd_iff; auto|exact F1|rewrite E1; lra|lia|lia]). apply bd_iff in Q as (Fq & Bq).
  apply (unit_bd PR); [destruct k; cbn [strain_decay_base]; bdc|exact Fq|lra].
Qed.
Definition chain (l : list dobj) : Prop := forall i a b, nth_error l i = Some a -> nth_error l (S i) = Some b -> linked a b.
Lemma chain_cons o l : chain l -> (forall p r, l = p :: r -> linked o p) -> chain (o :: l).
Proof. intros C H [|i] a b A B; cbn in A, B; [|now apply (C i)]. injection A as <-. destruct l as [|p r]; [discriminate B|]. cbn in B. injection B as <-. now apply (H p r). Qed.
Lemma nth_firstn {A} (l : list A) : forall h i x, nth_error (firstn h l) i = Some x -> nth_error l i = Some x.
Proof. induction l as [|y l IH]; intros [|h] [|i] x H; cbn in *; try discriminate; auto. now apply (IH h). Qed.
Lemma chain_firstn l h : chain l -> chain (firstn h l).
Proof. intros C i a b A B. apply (C i); now apply nth_firstn in A, B. Qed.

(** the bound of one object's own strain *)
Lemma value_bd k prev cur : In cur all -> Forall (fun p => In p all) prev -> chain (cur :: prev) -> (length prev <= history_length k)%nat ->
  bd size (fmul (strain_value k d prev cur) (skill_multiplier k)).
Proof.
  intros IC IP CH L. rewrite Forall_forall in AS. assert (SP : Forall (sane m) prev) by (apply Forall_forall; intros p Hp; rewrite Forall_forall in IP; auto). unfold size. destruct k; cbn [strain_value skill_multiplier history_length] in *.
  - apply (bd_le (m + 8 + 5)); [|lia]. apply bd_mul; [|bdc|lia|lia|lia]. apply (aim_bd PR TR m); [lia|auto|]. intros la ll r ->. inversion SP; subst. split; [assumption|]. split; [apply (CH 0%nat)|apply (CH 1%nat)]; reflexivity.
  - apply (bd_le (15 + 11)); [|lia]. apply bd_mul; [|bdc|lia|lia|lia]. apply (speed_bd PR m); auto; lia.
  - apply (bd_le (2 * m + 15 + 0)); [|lia]. apply bd_mul; [|bdc|lia|lia|lia]. apply (flash_bd PR m); auto; [lia|lia|]. rewrite Forall_forall in *. intros p Hp. apply AN; auto.
Qed.

(** ** The skill state after n objects *)
Definition st_ok (n : Z) (s : skill) : Prop :=
  Forall (fun p => In p all) (sk_prev s) /\ chain (sk_prev s) /\ upto_n n size (sk_strain s) /\ bd 7 (sk_rhythm s) /\
  upto_n n (size + 7) (sk_peak s) /\ Forall (upto_n n (size + 7)) (sk_peaks s) /\
  match sk_prev s with
  | [] => sk_peaks s = []
  | p :: _ => exists K, fin (sk_end s) /\ B2R (sk_end s) = IZR (400 * K) /\ (- 2 ^ 35 <= K <= 2 ^ 35)%Z /\ B2R (do_StartTime p) <= B2R (sk_end s) /\ (Z.of_nat (length (sk_peaks s)) <= K + 2 ^ 35)%Z
  end.
Lemma int_format z : (Z.abs z <= 2 ^ 53)%Z -> rnd64 (IZR z) = IZR z.
Proof. intros H. apply Rle_antisym; [apply rnd64_exact_Z|apply rnd64_exact_Z']; auto; apply Rle_refl. Qed.
Lemma initial_ok n k s p r : (0 <= n <= 2 ^ 31)%Z -> sk_prev s = p :: r -> In p all -> upto_n n size (sk_strain s) -> bd 7 (sk_rhythm s) -> fin (sk_end s) -> B2R (do_StartTime p) <= B2R (sk_end s) <= bpow radix2 42 ->
  exists x, initial_strain k s (sk_end s) = Ok x /\ upto_n n (size + 7) x.
Proof.
  intros N E IP S R Fe B. unfold initial_strain. rewrite E. eexists. split; [reflexivity|]. rewrite Forall_forall in AS. destruct (sn_start _ _ (AS p IP)) as (Fs & Bs).
  assert (DC : bd 0 (strain_decay k (fsub (sk_end s) (do_StartTime p)))).
  { pose proof (bpow_gt_0 radix2 42) as P. assert (T : bpow radix2 43 = bpow radix2 42 + bpow radix2 42) by (change 43%Z with (1 + 42)%Z; rewrite bpow_plus; change (bpow radix2 1) with 2; lra).
    assert (G : bpow radix2 43 <= bpow radix2 60) by (apply bpow_le; lia). assert (H : bpow radix2 43 <= bpow radix2 1023) by (apply bpow_le; lia).
    destruct (fsub_fin _ _ Fe Fs) as (Fd & Ed); [rewrite Rabs_pos_eq; lra|]. apply decay_bd; [exact Fd|]. rewrite Ed. split; [apply rnd64_pos; lra|]. apply Rle_trans with (2 := G). apply rnd_le_pow; [lia|lra]. }
  set (dc := strain_decay _ _) in *. clearbody dc. unfold size in *.
  assert (W : upto_n n (2 * m + 30 + 7) (sk_strain s)). { destruct S as (F & Q). split; [exact F|]. split; [lra|]. apply Rle_trans with (1 := proj2 Q). apply Rmult_le_compat_l; [apply (IZR_le 0); lia|apply bpow_le; lia]. }
  destruct k; [apply upn_unit; auto; lia| |apply upn_unit; auto; lia]. apply upn_unit; auto; [lia|lia|]. apply upn_mul; auto; lia.
Qed.
Lemma loop_ok n k p r start (N : (0 <= n <= 2 ^ 31)%Z) (IP : In p all) (Fs : fin start) (Bs : Rabs (B2R start) <= bpow radix2 42) : forall fuel s s', sk_prev s = p :: r -> st_ok n s -> section_loop fuel k start s = Ok s' ->
  sk_prev s' = p :: r /\ st_ok n s' /\ B2R start <= B2R (sk_end s').
Proof.
  assert (DONE : forall s s', sk_prev s = p :: r -> st_ok n s -> fgt start (sk_end s) = false -> Ok s = Ok s' -> sk_prev s' = p :: r /\ st_ok n s' /\ B2R start <= B2R (sk_end s')).
  { intros s s' E S G H. apply Ok_inj in H. subst s'. split; [exact E|]. split; [exact S|]. destruct S as (_ & _ & _ & _ & _ & _ & S). rewrite E in S. destruct S as (K & Fe & _). rewrite fgt_bool in G by assumption. destruct (Rlt_bool_spec (B2R (sk_end s)) (B2R start)) as [C|C]; [discriminate G|exact C]. }
  apply Rabs_le_inv in Bs. induction fuel as [|fuel IH]; intros s s' E S H; cbn [section_loop] in H; destruct (fgt start (sk_end s)) eqn:G; [discriminate H|now apply (DONE s)| |now apply (DONE s)].
  apply bind_ok in H as (x & HX & H). destruct S as (P1 & P2 & P3 & P4 & P5 & P6 & P7). rewrite E in P7. destruct P7 as (K & Fe & EK & BK & LS & LP).
  rewrite fgt_bool in G by assumption. destruct (Rlt_bool_spec (B2R (sk_end s)) (B2R start)) as [C|C]; [|discriminate G].
  destruct (initial_ok n k s p r N E IP P3 P4 Fe) as (y & HY & UY); [split; [exact LS|lra]|]. rewrite HX in HY. apply Ok_inj in HY. subst y.
  apply (IH _ s') in H; [exact H|exact E|]. destruct section_length_val as (Fl & El). 
  assert (K1 : (K + 1 <= 2 ^ 35)%Z). { assert (IZR (400 * K) < IZR (2 ^ 42)) by (change (IZR (2 ^ 42)) with (bpow radix2 42); lra). apply lt_IZR in H0. lia. }
  assert (SUM : B2R (sk_end s) + B2R section_length = IZR (400 * (K + 1))) by (rewrite EK, El, <- plus_IZR; f_equal; ring).
  destruct (fadd_fin _ _ Fe Fl) as (Fa & Ea). { rewrite SUM. apply Rle_trans with (bpow radix2 53); [|apply bpow_le; lia]. rewrite <- abs_IZR. change (bpow radix2 53) with (IZR (2 ^ 53)). apply IZR_le. lia. }
  rewrite SUM, int_format in Ea by lia.
  split; [exact P1|]. split; [exact P2|]. split; [exact P3|]. split; [exact P4|]. split; [exact UY|]. split; [apply Forall_app; split; [exact P6|constructor; [exact P5|constructor]]|]. cbn [sk_prev sk_end sk_peaks]. rewrite E. exists (K + 1)%Z.
  split; [exact Fa|]. split; [exact Ea|]. split; [lia|]. split; [|rewrite app_length; cbn [length]; lia]. rewrite Ea. apply Rle_trans with (1 := LS). rewrite EK. apply IZR_le. lia.
Qed.
Lemma process_ok fuel n k s o s' : (0 <= n < 2 ^ 31)%Z -> In o all -> (forall p r, sk_prev s = p :: r -> linked o p) -> (length (sk_prev s) <= S (history_length k))%nat -> st_ok n s -> process fuel k d s o = Ok s' ->
  st_ok (n + 1) s' /\ (exists r, sk_prev s' = o :: r) /\ (length (sk_prev s') <= S (history_length k))%nat.
Proof.
  intros N IO LK LH S H. pose proof (proj1 (Forall_forall _ _) AS o IO) as SO. destruct (sn_start _ _ SO) as (Fs & Bs). unfold process in H. cbv zeta in H.
  set (prev := firstn (history_length k) (sk_prev s)) in *. destruct S as (P1 & P2 & P3 & P4 & P5 & P6 & P7).
  assert (Q1 : Forall (fun p => In p all) prev). { rewrite Forall_forall in P1 |- *. intros p Hp. apply P1. unfold prev in Hp. rewrite <- (firstn_skipn (history_length k)). apply in_or_app. now left. }
  assert (Q2 : chain prev) by (apply chain_firstn; exact P2).
  assert (Q3 : (length prev <= history_length k)%nat) by (unfold prev; rewrite firstn_length; lia).
  assert (Q4 : chain (o :: prev)). { apply chain_cons; [exact Q2|]. intros p r E. unfold prev in E. destruct (sk_prev s) as [|p' r'] eqn:EP; [destruct (history_length k); discriminate E|]. destruct (history_pos k) as (h & Eh). rewrite Eh in E. cbn [firstn] in E. injection E as -> _. now apply (LK p r'). }
  apply bind_ok in H as (s1 & HL & H). apply bind_ok in H as (rh & HR & H). apply Ok_inj in H. subst s'. cbn [sk_prev].
  assert (L : sk_prev s1 = prev /\ sk_strain s1 = sk_strain s /\ upto_n n (size + 7) (sk_peak s1) /\ Forall (upto_n n (size + 7)) (sk_peaks s1) /\ bd 7 (sk_rhythm s1) /\
    exists K, fin (sk_end s1) /\ B2R (sk_end s1) = IZR (400 * K) /\ (- 2 ^ 35 <= K <= 2 ^ 35)%Z /\ B2R (do_StartTime o) <= B2R (sk_end s1) /\ (Z.of_nat (length (sk_peaks s1)) <= K + 2 ^ 35)%Z).
  { assert (KS : forall f s0 s2, section_loop f k (do_StartTime o) s0 = Ok s2 -> sk_strain s2 = sk_strain s0).
    { clear. induction f as [|f IH]; intros s0 s2 H; cbn [section_loop] in H; (destruct (fgt _ _); [|apply Ok_inj in H; now subst s2]); [discriminate H|]. apply bind_ok in H as (x & _ & H). apply IH in H. exact H. }
    assert (ST : sk_strain s1 = sk_strain s) by (apply KS in HL; exact HL).
    destruct prev as [|p r] eqn:EV.
    - assert (EP : sk_prev s = []). { destruct (sk_prev s) as [|p' r'] eqn:EP; [reflexivity|]. unfold prev in EV. destruct (history_pos k) as (h & Eh). rewrite Eh in EV. discriminate EV. }
      rewrite EP in P7. 
      destruct section_length_val as (Fl & El). pose proof (bpow_gt_0 radix2 42) as PP42.
      assert (QB : Rabs (B2R (do_StartTime o) / 400) <= IZR (2 ^ 34)) by (change (bpow radix2 42) with 4398046511104 in Bs; apply Rabs_le; change (IZR (2 ^ 34)) with 17179869184; lra).
      destruct (fdiv_fin _ section_length Fs Fl) as (Fq & Eq); [rewrite El; lra|rewrite El; apply Rle_trans with (1 := QB); change (IZR (2 ^ 34)) with (bpow radix2 34); apply bpow_le; lia|]. rewrite El in Eq. destruct (fceil_val _ Fq) as (Fc & Ec).
      apply Rabs_le_inv in QB. set (C := Zceil (B2R (fdiv (do_StartTime o) section_length))) in *.
      assert (BC : (- 2 ^ 34 <= C <= 2 ^ 34)%Z).
      { assert (QQ : IZR (- 2 ^ 34) <= B2R (fdiv (do_StartTime o) section_length) <= IZR (2 ^ 34)) by (rewrite Eq; split; [apply rnd64_exact_Z'|apply rnd64_exact_Z]; try lia; [rewrite opp_IZR; lra|lra]).
        split; [apply le_IZR; apply Rle_trans with (1 := proj1 QQ), Zceil_ub|]. unfold C. apply Zceil_glb. lra. }
      destruct (fmul_fin _ _ Fc Fl) as (Fe & Ee). { rewrite Ec, El, <- mult_IZR, <- abs_IZR. apply Rle_trans with (bpow radix2 53); [|apply bpow_le; lia]. change (bpow radix2 53) with (IZR (2 ^ 53)). apply IZR_le. lia. }
      rewrite Ec, El, <- mult_IZR, int_format in Ee by lia. rewrite Z.mul_comm in Ee.
      set (e := fmul (fceil _) section_length) in *. clearbody e.
      assert (NP : sk_prev s1 = [] /\ sk_peaks s1 = sk_peaks s /\ sk_peak s1 = sk_peak s /\ sk_rhythm s1 = sk_rhythm s /\ sk_end s1 = e /\ fgt (do_StartTime o) e = false).
      { destruct fuel as [|f]; cbn [section_loop sk_end] in HL; destruct (fgt (do_StartTime o) e) eqn:G; try discriminate HL; cbn [initial_strain sk_prev bind] in HL; try discriminate HL; apply Ok_inj in HL; subst s1; repeat split; reflexivity. }
      destruct NP as (N1 & N2 & N3 & N4 & N5 & N6). split; [exact N1|]. split; [exact ST|]. rewrite N3, N2, N4, N5, P7. split; [exact P5|]. split; [constructor|]. split; [exact P4|]. exists C. split; [exact Fe|]. split; [exact Ee|]. split; [lia|]. split; [|cbn [length]; lia].
      rewrite fgt_bool in N6 by assumption. destruct (Rlt_bool_spec (B2R e) (B2R (do_StartTime o))) as [X|X]; [discriminate N6|exact X].
    - assert (EP : exists r', sk_prev s = p :: r'). { destruct (sk_prev s) as [|p' r'] eqn:EP; unfold prev in EV; destruct (history_pos k) as (h & Eh); rewrite Eh in EV; [discriminate EV|]. cbn [firstn] in EV. injection EV as -> _. now exists r'. }
      destruct EP as (r' & EP). rewrite EP in P7. apply (loop_ok n k p r) in HL; [|lia|inversion Q1; assumption|exact Fs|apply Rabs_le; lra|reflexivity|].
      + destruct HL as (E1 & (_ & _ & _ & R4 & R5 & R6 & R7) & LE). rewrite E1 in R7. destruct R7 as (K & A1 & A2 & A3 & _ & A5). split; [exact E1|]. split; [exact ST|]. split; [exact R5|]. split; [exact R6|]. split; [exact R4|]. exists K. auto.
      + split; [exact Q1|]. split; [exact Q2|]. split; [exact P3|]. split; [exact P4|]. split; [exact P5|]. split; [exact P6|exact P7]. }
  destruct L as (E1 & E2 & U1 & U2 & U3 & K & A1 & A2 & A3 & A4 & A5). rewrite E2.
  assert (VB : bd size (fmul (strain_value k d prev o) (skill_multiplier k))) by (apply value_bd; auto).
  assert (SB : upto_n (n + 1) size (fadd (fmul (sk_strain s) (strain_decay k (do_DeltaTime o))) (fmul (strain_value k d prev o) (skill_multiplier k)))).
  { apply upn_add; [lia|unfold size; lia| |exact VB]. apply upn_unit; [lia|unfold size; lia|exact P3|]. destruct (sn_delta _ _ SO) as (Fd & Bd). apply decay_bd; [exact Fd|]. split; [lra|]. apply Rle_trans with (1 := proj2 Bd), bpow_le. lia. }
  set (st := fadd _ _) in *. clearbody st.
  assert (RB : bd 7 rh). { destruct k; try (apply Ok_inj in HR; subst rh; exact U3). apply (bonus_bd TR m d prev o) in HR; auto. rewrite Forall_forall in *. auto. }
  assert (W : upto_n (n + 1) (size + 7) st). { destruct SB as (F & B). split; [exact F|]. split; [lra|]. apply Rle_trans with (1 := proj2 B). apply Rmult_le_compat_l; [apply (IZR_le 0); lia|apply bpow_le; lia]. }
  split; [|split; [now exists prev|cbn [length]; lia]].
  split; [constructor; assumption|]. split; [exact Q4|]. split; [exact SB|]. split; [exact RB|]. split.
  - cbn [sk_peak]. apply upn_max; [|apply (upn_more n); [exact U1|lia]]. destruct k; [exact W| |exact W]. apply upn_mul; [lia|unfold size; lia|lia|unfold size; lia|exact SB|exact RB].
  - split; [|cbn [sk_prev]; exists K; auto]. cbn [sk_peaks]. eapply Forall_impl; [|exact U2]. intros x Hx. apply (upn_more n); [exact Hx|lia].
Qed.
Lemma st_0 : st_ok 0 skill0.
Proof.
  split; [constructor|]. split; [intros [|i] a b H; discriminate H|]. split; [apply upn_0; lia|]. split; [apply bd_0|]. split; [apply upn_0; lia|]. split; [constructor|reflexivity].
Qed.
Lemma run_ok fuel k dos : forall n s s', incl dos all -> chain (rev dos) -> (forall o r p r', dos = o :: r -> sk_prev s = p :: r' -> linked o p) -> (0 <= n)%Z -> (n + Z.of_nat (length dos) <= 2 ^ 31)%Z ->
  (length (sk_prev s) <= S (history_length k))%nat -> st_ok n s -> foldM (process fuel k d) s dos = Ok s' -> st_ok (n + Z.of_nat (length dos)) s'.
Proof.
  induction dos as [|o dos IH]; intros n s s' IN CH LK N NL LH S H; cbn [foldM] in H.
  - apply Ok_inj in H. subst s'. cbn [length]. now rewrite Z.add_0_r.
  - cbn [length] in *. apply bind_ok in H as (s1 & H1 & H). apply (process_ok fuel n k) in H1; auto; [|lia|apply IN; now left|intros p r E; now apply (LK o dos p r)].
    destruct H1 as (S1 & (r & E1) & L1). replace (n + Z.of_nat (Datatypes.S (length dos)))%Z with (n + 1 + Z.of_nat (length dos))%Z by lia. apply (IH _ s1); auto; try lia.
    + intros x Hx. apply IN. now right.
    + intros i a b A B. apply (CH i); cbn [rev]; [rewrite nth_error_app1|rewrite nth_error_app1]; auto; apply nth_error_Some; congruence.
    + intros o' r' p r'' -> EP. rewrite E1 in EP. injection EP as <- _. apply (CH (length (rev r'))); cbn [rev]; [rewrite nth_error_app1, nth_error_app2; [|lia|rewrite app_length; cbn [length]; lia]|rewrite nth_error_app2 by (rewrite app_length; cbn [length]; lia)].
      * now rewrite Nat.sub_diag.
      * rewrite app_length. cbn [length]. replace (Datatypes.S (length (rev r')) - (length (rev r') + 1))%nat with 0%nat by lia. reflexivity.
Qed.

(** ** From peaks to ratings *)
Lemma weighted_bd A l (HA : (0 <= A <= 900)%Z) w : bd 0 w -> forall n diff weight, Forall (bd A) l -> bd 0 weight -> upto_n n A diff -> (0 <= n)%Z -> (n + Z.of_nat (length l) <= 2 ^ 53)%Z ->
  upto_n (n + Z.of_nat (length l)) A (weighted_sum w diff weight l).
Proof.
  intros W. induction l as [|x l IH]; intros n diff weight F WB U N L; cbn [weighted_sum length] in *; [now rewrite Z.add_0_r|]. inversion F as [|? ? F1 F2]; subst.
  replace (n + Z.of_nat (S (length l)))%Z with (n + 1 + Z.of_nat (length l))%Z by lia. apply IH; [exact F2| | |lia|lia].
  - change 0%Z with (0 + 0)%Z. apply bd_mul; auto; lia.
  - apply upn_add; [lia|lia|exact U|]. replace A with (A + 0)%Z by lia. apply bd_mul; auto; lia.
Qed.
Lemma reduce_bd A k l : (0 <= A <= 900)%Z -> Forall (bd A) l -> forall i, Forall (bd A) (reduce_peaks k i l).
Proof.
  intros HA. induction 1 as [|x l X F IH]; intros i; cbn [reduce_peaks]; constructor; [|apply IH]. destruct (Nat.ltb_spec i (reduced_sections k)) as [H|H]; [|exact X].
  destruct (factor_pos k i LU H) as (Ff & Bf). replace A with (A + 0)%Z by lia. apply bd_mul; [exact X|apply bd_iff; split; [exact Ff|change (bpow radix2 0) with 1; lra]|lia|lia|lia].
Qed.
Lemma bd_nums A l : Forall (bd A) l -> nums l.
Proof. apply Forall_impl. intros x H. apply bd_fin in H. now apply fin_num. Qed.
Lemma value_of_bd A k l : (0 <= A <= 800)%Z -> Forall (bd A) l -> (Z.of_nat (length l) <= 2 ^ 37)%Z -> bd (A + 38) (difficulty_value_of k l).
Proof.
  intros HA F L. unfold difficulty_value_of. cbv zeta. destruct (reverse_sorts l (bd_nums A l F)) as (P1 & _). pose proof (Permutation_Forall P1 F) as F1. pose proof (reduce_bd A k _ ltac:(lia) F1 0) as F2.
  destruct (reverse_sorts _ (bd_nums A _ F2)) as (P2 & _). pose proof (Permutation_Forall P2 F2) as F3.
  assert (LL : length (reverse_sort (reduce_peaks k 0 (reverse_sort l))) = length l).
  { transitivity (length (reduce_peaks k 0 (reverse_sort l))); [exact (eq_sym (Permutation_length P2))|]. transitivity (length (reverse_sort l)); [|exact (eq_sym (Permutation_length P1))]. generalize (reverse_sort l) 0%nat. clear. induction l as [|x l IH]; intros i; cbn [reduce_peaks length]; auto. }
  set (srt := reverse_sort (reduce_peaks k 0 (reverse_sort l))) in *. clearbody srt.
  assert (W : bd 0 (decay_weight k)) by (destruct k; cbn [decay_weight]; bdc).
  pose proof (weighted_bd A srt ltac:(lia) _ W 0 f0 (fq 1 1) F3 bd_one (upn_0 0 A ltac:(lia)) ltac:(lia) ltac:(lia)) as U. rewrite LL in U. apply (upn_bd _ _ 37) in U; [|lia|lia].
  replace (A + 38)%Z with (37 + A + 1)%Z by lia. apply bd_mul; [exact U|destruct k; cbn [difficulty_multiplier]; bdc|lia|lia|lia].
Qed.
Lemma star_bd A x : bd (2 * A) x -> (0 <= A <= 400)%Z -> bd A (fmul (fsqrt x) star_scaling).
Proof. intros X HA. replace A with (A + 0)%Z by lia. apply bd_mul; [|unfold star_scaling; bdc|lia|lia|lia]. apply bd_sqrt; [exact X|lia]. Qed.
Lemma star_total A aim aimNS speed fl a : (0 <= A <= 128)%Z -> bd (2 * A) aim -> bd (2 * A) aimNS -> bd (2 * A) speed -> bd (2 * A) fl ->
  let r := stars_from_raw aim aimNS speed fl d a in
  bd A (at_Aim r) /\ bd (A + 17) (at_SliderFactor r) /\ bd A (at_Speed r) /\ bd A (at_Flashlight r) /\ bd 850 (at_Total r).
Proof.
  intros HA B1 B2 B3 B4. cbv zeta. unfold stars_from_raw. cbn [at_Aim at_SliderFactor at_Speed at_Flashlight at_Total].
  apply star_bd in B1; [|lia]. apply star_bd in B2; [|lia]. apply star_bd in B3; [|lia]. apply star_bd in B4; [|lia].
  set (x1 := fmul (fsqrt aim) _) in *. set (x2 := fmul (fsqrt aimNS) _) in *. set (x3 := fmul (fsqrt speed) _) in *. set (x4 := fmul (fsqrt fl) _) in *. clearbody x1 x2 x3 x4.
  assert (B3' : bd A (if check_mod d Relax then f0 else x3)) by (destruct (check_mod d Relax); [apply bd_0|exact B3]). set (y3 := if check_mod d Relax then f0 else x3) in *. clearbody y3.
  split; [exact B1|]. split.
  { destruct (fgt x1 (fq 1 100000)) eqn:G; [|apply (bd_le 0); [exact bd_one|lia]]. pose proof (bd_fin _ _ B1) as F1. assert (Fc : fin (fq 1 100000)) by (vm_compute; reflexivity). rewrite fgt_bool in G by assumption.
    destruct (Rlt_bool_spec (B2R (fq 1 100000)) (B2R x1)) as [C|C]; [clear G|discriminate G]. assert (L : bpow radix2 (-17) <= B2R x1) by (bval (fq 1 100000); change (bpow radix2 (-17)) with (/ 131072); lra).
    apply bd_iff in B2 as (F2 & B2). pose proof (bpow_gt_0 radix2 (-17)). assert (Q : 0 <= B2R x2 / B2R x1 <= bpow radix2 (A + 17)).
    { split; [apply Rle_mult_inv_pos; lra|]. apply Rmult_le_reg_r with (B2R x1); [lra|]. unfold Rdiv. rewrite Rmult_assoc, Rinv_l, Rmult_1_r by lra. apply Rle_trans with (1 := proj2 B2). apply Rle_trans with (bpow radix2 (A + 17) * bpow radix2 (-17)); [rewrite <- bpow_plus; apply bpow_le; lia|]. apply Rmult_le_compat_l; [apply bpow_ge_0|exact L]. }
    assert (bpow radix2 (A + 17) <= bpow radix2 1023) by (apply bpow_le; lia). destruct (fdiv_fin _ _ F2 F1) as (Fd & Ed); [lra|rewrite Rabs_pos_eq; lra|]. apply bd_iff. split; [exact Fd|]. rewrite Ed. split; [apply rnd64_pos; lra|apply rnd_le_pow; [lia|lra]]. }
  split; [exact B3'|]. split; [exact B4|].
  assert (E11 : fin (fq 11 10) /\ 0 <= B2R (fq 11 10) <= IZR 2). { assert (F : bd 1 (fq 11 10)) by bdc. apply bd_iff in F. change (bpow radix2 1) with 2 in F. exact F. }
  destruct (unit_exp 10 11 ltac:(bdc)) as (F10 & E10). destruct E11 as (F11 & E11).
  pose proof (base_bd PR A x1 B1 ltac:(lia)) as P1. pose proof (base_bd PR A y3 B3' ltac:(lia)) as P3. apply (bd_le _ 410) in P1; [|lia]. apply (bd_le _ 410) in P3; [|lia].
  assert (P4 : bd 410 (if check_mod d Flashlight then fmul (mpow x4 (fq 2 1)) (fq 25 1) else f0)).
  { destruct (check_mod d Flashlight); [|apply bd_0]. apply (bd_le (2 * A + 1 + 5)); [|lia]. apply bd_mul; [|bdc|lia|lia|lia]. apply bd_iff in B4 as (F4 & B4). apply (square_bd PR); [exact F4|rewrite Rabs_pos_eq; lra|lia]. }
  set (z1 := pp_base x1) in *. set (z3 := pp_base y3) in *. set (z4 := if check_mod d Flashlight then _ else f0) in *. clearbody z1 z3 z4.
  assert (PW : forall z, bd 410 z -> bd 821 (mpow z (fq 11 10))) by (intros z Z; apply (pow_bd PR 410 2); auto; lia).
  assert (SM : bd 824 (mpow (fadd (fadd (mpow z1 (fq 11 10)) (mpow z3 (fq 11 10))) (mpow z4 (fq 11 10))) (fq 10 11))).
  { apply (pow_bd PR 823 1); [|exact F10|exact E10|lia|lia|lia]. change 823%Z with (822 + 1)%Z. apply bd_add; [|apply (bd_le 821); [auto|lia]|lia|lia]. change 822%Z with (821 + 1)%Z. apply bd_add; auto; lia. }
  set (base := mpow _ (fq 10 11)) in *. clearbody base. destruct (fgt base _); [|apply bd_0].
  assert (T2 : fin (mpow (fq 2 1) (fq 10 11)) /\ 1 <= B2R (mpow (fq 2 1) (fq 10 11))).
  { destruct (fq1_exact 2) as (F2 & E2); [lia|]. destruct (pow_above PR (fq 2 1) (fq 10 11) 1 1 F2 F10) as (Fp & Bp); [lia|lia|rewrite E2; change (bpow radix2 1) with 2; lra|exact E10|]. split; [exact Fp|lra]. }
  destruct T2 as (FT & BT). set (t := mpow (fq 2 1) (fq 10 11)) in *. clearbody t.
  assert (CB : forall k x, (0 <= k <= 900)%Z -> bd k x -> bd k (mcbrt x)) by (intros k x K X; apply (bd_of k (bpow radix2 k)); [apply (cbrt_above TR); [exact K|apply bd_iff in X; exact X]|apply Rle_refl]).
  assert (IN : bd 841 (fmul (fdiv (fq 100000 1) t) base)) by (change 841%Z with (17 + 824)%Z; apply bd_mul; [apply bd_div; [bdc|exact FT|exact BT|lia|lia]|exact SM|lia|lia|lia]).
  apply (bd_le (1 + 0 + (841 + 1))); [|lia]. apply bd_mul; [apply bd_mul; [apply CB; [lia|bdc]|bdc|lia|lia|lia]| |lia|lia|lia]. apply bd_add; [apply CB; [lia|exact IN]|apply (bd_le 2); [bdc|lia]|lia|lia].
Qed.
Lemma peaks_bd n s : (0 <= n <= 2 ^ 31)%Z -> st_ok n s -> Forall (bd (31 + (size + 7))) (current_peaks s) /\ (Z.of_nat (length (current_peaks s)) <= 2 ^ 37)%Z.
Proof.
  intros N (_ & _ & _ & _ & P5 & P6 & P7). split.
  - apply Forall_app. split; [|constructor; [|constructor]]; [eapply Forall_impl; [|exact P6]; intros x Hx; cbv beta in Hx|]; (eapply upn_bd; [eassumption|lia|lia]).
  - unfold current_peaks. rewrite app_length. cbn [length]. destruct (sk_prev s); [rewrite P7; cbn [length]; lia|]. destruct P7 as (K & _ & _ & BK & _ & L). lia.
Qed.
Lemma diff_bd n k s : (0 <= n <= 2 ^ 31)%Z -> st_ok n s -> bd (2 * (m + 53)) (difficulty_value k s).
Proof. intros N S. destruct (peaks_bd n s N S) as (F & L). unfold difficulty_value. replace (2 * (m + 53))%Z with (31 + (size + 7) + 38)%Z by (unfold size; lia). apply value_of_bd; auto. unfold size. lia. Qed.
End WithLibm.

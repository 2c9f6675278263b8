(** Strain peaks against their real formulas. *)
From Coq Require Import Reals Lra List ZArith Lia Permutation.
From Flocq Require Import Core BinarySingleNaN.
From Verif Require Import DiffCalc SpecDiff SpecPP SpecStrain SpecFormula SpecRating BaseLemmas FloatLemmas Float32Lemmas KeyLemmas LazyProofs SkillProofs PPProofs RelLemmas RelPow FormulaParts SortReal WeighFormula ValueFormula StrainFormula.
Import ListNotations.
Open Scope R_scope.

(** ** Lists *)
Lemma filter_last {A} (f : A -> bool) l : forall pre e, filter f l = pre ++ [e] -> exists l1 l2, l = l1 ++ e :: l2 /\ filter f l2 = [] /\ f e = true.
Proof.
  induction l as [|x l IH]; intros pre e H; [destruct pre; discriminate H|]. cbn [filter] in H. destruct (f x) eqn:X.
  - destruct pre as [|p pre]; cbn [app] in H.
    + injection H as -> H. exists [], l. now split.
    + injection H as -> H. destruct (IH pre e H) as (l1 & l2 & -> & Q). exists (p :: l1), l2. now split.
  - destruct (IH pre e H) as (l1 & l2 & -> & Q). exists (x :: l1), l2. now split.
Qed.
Lemma filter_F2 {A B} (R : A -> B -> Prop) f g l m : Forall2 R l m -> (forall a b, R a b -> f a = g b) -> Forall2 R (filter f l) (filter g m).
Proof. intros F H. induction F as [|a b l m AB F IH]; cbn [filter]; [constructor|]. rewrite (H a b AB). destruct (g b); [now constructor|exact IH]. Qed.
Lemma F2_nth {A B} (R : A -> B -> Prop) l m : length l = length m -> (forall i a b, nth_error l i = Some a -> nth_error m i = Some b -> R a b) -> Forall2 R l m.
Proof.
  revert m. induction l as [|a l IH]; intros [|b m] L H; try discriminate L; constructor; [exact (H 0%nat a b eq_refl eq_refl)|]. apply IH; [now injection L|]. intros i. exact (H (S i)).
Qed.

(** ** Consecutive objects *)
Definition after (T : R) (a b : entry) : Prop :=
  en_section b = Z.max (en_section a) (section_of (B2R (en_time b))) /\ B2R (en_time b) - B2R (en_time a) <= T.
Fixpoint followed (T : R) (es : list entry) : Prop :=
  match es with a :: ((b :: _) as r) => after T a b /\ followed T r | _ => True end.
Fixpoint paced (T : R) (ts : list f64) : Prop :=
  match ts with a :: ((b :: _) as r) => B2R b - B2R a <= T /\ paced T r | _ => True end.
Definition own (e : entry) : Prop := (section_of (B2R (en_time e)) <= en_section e)%Z.
Lemma entries_from T ts : forall K xs t x, paced T (t :: ts) -> length xs = length ts ->
  followed T (mkEntry K t x :: entries (sections_from K (map (@B2R 53 1024) ts)) ts xs).
Proof.
  induction ts as [|u ts IH]; intros K xs t x P L; destruct xs as [|y xs]; try discriminate L; [exact I|]. cbn [map sections_from entries]. split; [|apply IH; [exact (proj2 P)|now injection L]]. split; [reflexivity|exact (proj1 P)].
Qed.
Lemma entries_followed T ts xs : paced T ts -> length xs = length ts -> followed T (entries (sections (map (@B2R 53 1024) ts)) ts xs).
Proof. destruct ts as [|t ts]; [intros _ _; exact I|]. destruct xs as [|x xs]; intros P L; [discriminate L|]. cbn [map sections entries]. apply entries_from; [exact P|now injection L]. Qed.
Lemma entries_own_from ts : forall K xs, Forall own (entries (sections_from K (map (@B2R 53 1024) ts)) ts xs).
Proof. induction ts as [|u ts IH]; intros K xs; destruct xs as [|y xs]; cbn [map sections_from entries]; constructor; [unfold own; cbn; lia|apply IH]. Qed.
Lemma entries_own ts xs : Forall own (entries (sections (map (@B2R 53 1024) ts)) ts xs).
Proof. destruct ts as [|t ts]; [constructor|]. destruct xs as [|x xs]; cbn [map sections entries]; constructor; [unfold own; cbn; lia|apply entries_own_from]. Qed.
Lemma followed_tail T l1 a l2 : followed T (l1 ++ a :: l2) -> followed T (a :: l2).
Proof. induction l1 as [|x l1 IH]; [auto|]. intros H. apply IH. destruct l1; cbn [app] in H |- *; exact (proj2 H). Qed.
Lemma sections_len ts : length (sections ts) = length ts.
Proof. destruct ts as [|t ts]; [reflexivity|]. cbn [sections length]. f_equal. generalize (section_of t). induction ts as [|u ts IH]; intros K; cbn [sections_from length]; auto. Qed.
Lemma entries_sections Ks : forall ts xs, length ts = length Ks -> length xs = length Ks -> map en_section (entries Ks ts xs) = Ks.
Proof. induction Ks as [|K Ks IH]; intros [|t ts] [|x xs] A B; try discriminate; [reflexivity|]. cbn [entries map en_section]. f_equal. apply IH; [now injection A|now injection B]. Qed.
Lemma section_bounds t : IZR (section_of t) - 1 < t / 400 <= IZR (section_of t).
Proof. unfold section_of. split; [|apply Zceil_ub]. pose proof (Zceil_lb (t / 400)). lra. Qed.

(** ** Floats near reals *)
Section Near.
Context {M : libm} (PC : pow_close) (k : skill_kind) (E A : R) (HE : 0 <= E <= / 32) (HA : bpow radix2 (-800) <= A <= bpow radix2 99).
Definition enear (e : entry) (m : mark) : Prop := ma_section m = en_section e /\ ma_time m = B2R (en_time e) /\ nears E A (en_shown e) (ma_shown m).
Lemma entries_near Ks : forall ts xs rs, Forall2 (nears E A) xs rs -> Forall2 enear (entries Ks ts xs) (marks Ks (map (@B2R 53 1024) ts) rs).
Proof.
  induction Ks as [|K Ks IH]; intros ts xs rs F; [constructor|]. destruct ts as [|t ts]; [constructor|]. destruct F as [|x r xs rs X F]; [constructor|]. cbn [entries map marks]. constructor; [now repeat split; try apply X|now apply IH].
Qed.
Lemma zero_near : nears (e' E) (A' A) f0 0.
Proof. split; [reflexivity|]. change (B2R f0) with 0. pose proof (bpow_gt_0 radix2 100). split; [lra|]. rewrite Rminus_diag_eq, Rabs_R0, Rmult_0_r by reflexivity. pose proof (A'_in A HA). pose proof (A_pos A HA). lra. Qed.
Lemma max_near e a x y r s : 0 <= e <= 1 -> nears e a x r -> nears e a y s -> nears e a (fmax x y) (Rmax r s).
Proof.
  intros HEE (FX & (RX & X0) & BX) (FY & (RY & Y0) & BY). destruct (fmax_fin x y FX FY) as (F & EQ). split; [exact F|]. rewrite EQ. split.
  - unfold Rmax. destruct (Rle_dec r s); destruct (Rle_dec (B2R x) (B2R y)); lra.
  - apply Rabs_le_inv in BX, BY. apply Rabs_le. assert (e * r <= 1 * r) by (apply Rmult_le_compat_r; lra). assert (e * s <= 1 * s) by (apply Rmult_le_compat_r; lra).
    unfold Rmax. destruct (Rle_dec r s) as [Q|Q]; destruct (Rle_dec (B2R x) (B2R y)); try lra.
    + assert (e * r <= e * s) by (apply Rmult_le_compat_l; lra). assert ((1 - e) * r <= (1 - e) * s) by (apply Rmult_le_compat_l; lra). lra.
    + assert (e * s <= e * r) by (apply Rmult_le_compat_l; lra). assert ((1 - e) * s <= (1 - e) * r) by (apply Rmult_le_compat_l; lra). lra.
Qed.
Lemma maxes_near e a xs rs : forall c r, 0 <= e <= 1 -> Forall2 (nears e a) xs rs -> nears e a c r -> nears e a (fold_left (fun m x => fmax x m) xs c) (fold_left (fun m x => Rmax x m) rs r).
Proof. intros c r HEE F. revert c r. induction F as [|x s xs rs X F IH]; intros c r C; cbn [fold_left]; [exact C|]. apply IH. now apply max_near. Qed.

Context (es : list entry) (ms : list mark) (EM : Forall2 enear es ms) (FO : followed 300000 es) (OW : Forall own es).
Context (FT : Forall (fun e => fin (en_time e) /\ Rabs (B2R (en_time e)) <= 9007199254740992) es).
Lemma carried_near K c : (K <= last (map en_section es) 0)%Z -> carried k es K c -> nears (e' E) (A' A) c (carried_R (base_R k) ms K).
Proof.
  intros KL C. unfold carried_R. assert (FF : Forall2 enear (filter (fun e => (en_section e <? K)%Z) es) (filter (fun m => (ma_section m <? K)%Z) ms)) by (apply filter_F2; [exact EM|]; intros a b (-> & _); reflexivity).
  destruct C as [(Q & ->)|(pre & e & b & Q & FB & EB & ->)]; rewrite Q in FF.
  - inversion FF. cbn [rev]. exact zero_near.
  - apply Forall2_app_inv_l in FF as (rp & re & _ & F1 & ->). inversion F1 as [|? m ? ? (SE & TE & NE) F0]; subst. inversion F0; subst. rewrite rev_app_distr. cbn [rev app].
    destruct (filter_last _ _ _ _ Q) as (l1 & l2 & Ees & N2 & LT). apply Z.ltb_lt in LT. subst es.
    assert (IE : In e (l1 ++ e :: l2)) by (apply in_or_app; right; now left). destruct (proj1 (Forall_forall _ _) FT e IE) as (FTE & BTE). pose proof (proj1 (Forall_forall _ _) OW e IE) as OE. unfold own in OE.
    apply followed_tail in FO. destruct l2 as [|e2 l2].
    { exfalso. rewrite map_app in KL. cbn [map] in KL. rewrite last_last in KL. lia. }
    destruct FO as ((S2 & T2) & _). cbn [filter] in N2. destruct (en_section e2 <? K)%Z eqn:L2; [discriminate N2|]. apply Z.ltb_ge in L2.
    assert (G2 : (K <= section_of (B2R (en_time e2)))%Z) by lia. pose proof (section_bounds (B2R (en_time e2))) as (SB2 & _). pose proof (section_bounds (B2R (en_time e))) as (_ & SB).
    apply IZR_le in G2. assert (O3 : (section_of (B2R (en_time e)) <= K - 1)%Z) by lia. apply IZR_le in O3. rewrite minus_IZR in O3, EB |- *. rewrite TE.
    set (t := B2R (en_time e)) in *. set (bt := 400 * (IZR K - 1)) in *. assert (D : 0 <= bt - t <= 300000) by (unfold bt; lra).
    destruct (op_mix (fsub b (en_time e)) (bt - t)) as (FS & BS & _). { rewrite Rabs_pos_eq by lra. apply Rle_trans with (bpow radix2 20); [change (bpow radix2 20) with 1048576; lra|apply bpow_le; lia]. } { intros H. unfold t in *. rewrite <- EB in H |- *. now apply fsub_fin. }
    rewrite (Rabs_pos_eq (bt - t)) in BS by lra. destruct (left_near PC k (fsub b (en_time e)) (bt - t) FS D BS) as (FL & PL & L0 & BL). apply (less_one E A HE HA); auto.
Qed.
Lemma peak_near K p : (K <= last (map en_section es) 0)%Z -> peak_of k es K p -> nears (e' E) (A' A) p (peak_R (base_R k) ms K).
Proof.
  intros KL (c & C & ->). unfold peak_R. pose proof (e'_in E HE). apply maxes_near; [lra| |now apply carried_near].
  assert (FF : Forall2 enear (filter (fun e => (en_section e =? K)%Z) es) (filter (fun m => (ma_section m =? K)%Z) ms)) by (apply filter_F2; [exact EM|]; intros a b (-> & _); reflexivity).
  clear C. induction FF as [|a b l m (_ & _ & N) F IH]; cbn [map]; constructor; [now apply nears_up|exact IH].
Qed.
End Near.

Section Peaks.
Context {M : libm} (PC : pow_close) (k : skill_kind) (E A : R) (HE : 0 <= E <= / 32) (HA : bpow radix2 (-800) <= A <= bpow radix2 99).
Lemma last_map_sections ts xs : length xs = length ts -> map en_section (entries (sections (map (@B2R 53 1024) ts)) ts xs) = sections (map (@B2R 53 1024) ts).
Proof. intros L. apply entries_sections; rewrite sections_len, map_length; auto. Qed.
Lemma entries_times Ks : forall ts xs, Forall (fun e : entry => In (en_time e) ts) (entries Ks ts xs).
Proof.
  induction Ks as [|K Ks IH]; intros ts xs; [constructor|]. destruct ts as [|t ts]; [constructor|]. destruct xs as [|x xs]; [constructor|]. cbn [entries]. constructor; [now left|]. eapply Forall_impl; [|apply IH]. intros e H. now right.
Qed.
(** [shown] and the peaks as [peaks_of] relates them *)
Lemma peaks_near ts xs rs peaks : Forall2 (nears E A) xs rs -> length xs = length ts -> paced 300000 ts -> Forall time_ok ts ->
  let Ks := sections (map (@B2R 53 1024) ts) in
  (ts = [] -> peaks = [f0]) -> (ts <> [] -> zlen peaks = (last Ks 0 - hd 0 Ks + 1)%Z) ->
  (forall n p, ts <> [] -> nth_error peaks n = Some p -> peak_of k (entries Ks ts xs) (hd 0 Ks + Z.of_nat n)%Z p) ->
  Forall2 (nears (e' E) (A' A)) peaks (peaks_R k (map (@B2R 53 1024) ts) rs) /\ peaks <> [].
Proof.
  intros F L P T Ks P0 P1 P2. destruct ts as [|t ts].
  - rewrite (P0 eq_refl). split; [|discriminate]. cbn [map peaks_R]. constructor; [apply (zero_near E A HA)|constructor].
  - specialize (P1 ltac:(discriminate)). assert (N0 : peaks <> []).
    { intros ->. unfold zlen in P1. cbn [length] in P1. assert (G : (hd 0 Ks <= last Ks 0)%Z); [|lia]. unfold Ks. cbn [map sections hd]. clear. generalize (section_of (B2R t)). induction ts as [|u ts IH]; intros K; [cbn; lia|]. cbn [map sections_from]. specialize (IH (Z.max K (section_of (B2R u)))).
      change (last (K :: Z.max K (section_of (B2R u)) :: sections_from (Z.max K (section_of (B2R u))) (map (B2R (prec:=53) (emax:=1024)) ts)) 0%Z) with (last (Z.max K (section_of (B2R u)) :: sections_from (Z.max K (section_of (B2R u))) (map (B2R (prec:=53) (emax:=1024)) ts)) 0%Z). lia. }
    split; [|exact N0].
    assert (EM := entries_near E A Ks (t :: ts) xs rs F). set (es := entries Ks (t :: ts) xs) in *. set (ms := marks Ks (map (B2R (prec:=53) (emax:=1024)) (t :: ts)) rs) in *.
    assert (FO : followed 300000 es) by (apply entries_followed; assumption). assert (OW : Forall own es) by apply entries_own.
    assert (FT : Forall (fun e : entry => fin (en_time e) /\ Rabs (B2R (en_time e)) <= 9007199254740992) es).
    { eapply Forall_impl; [|apply entries_times]. intros e H. cbv beta in H. destruct (proj1 (Forall_forall _ _) T _ H) as (T1 & T2 & _). now split. }
    assert (LS : map en_section es = Ks) by (apply last_map_sections; exact L).
    change (peaks_R k (map (B2R (prec:=53) (emax:=1024)) (t :: ts)) rs) with (map (fun n => peak_R (base_R k) ms (hd 0%Z Ks + Z.of_nat n)) (seq 0 (Z.to_nat (last Ks 0%Z - hd 0%Z Ks + 1)))).
    assert (LP : Z.to_nat (last Ks 0%Z - hd 0%Z Ks + 1) = length peaks) by (rewrite <- P1; unfold zlen; apply Nat2Z.id). rewrite LP.
    apply F2_nth; [now rewrite map_length, seq_length|]. intros n p r Hp Hr. assert (NL : (n < length peaks)%nat) by (apply nth_error_Some; congruence).
    rewrite nth_error_map in Hr. rewrite (nth_error_nth' (seq 0 (length peaks)) 0%nat) in Hr by (rewrite seq_length; exact NL). rewrite seq_nth in Hr by exact NL. cbn [option_map Nat.add] in Hr. injection Hr as <-.
    apply (peak_near PC k E A HE HA es ms EM FO OW FT); [|now apply P2]. rewrite LS. change (section_of (B2R t)) with (hd 0%Z Ks). rewrite <- LP in NL. clear - NL. set (a := last Ks 0%Z) in *. set (b := hd 0%Z Ks) in *. lia.
Qed.
(** ... and the value made of the peaks *)
Lemma rating_near (LC : log_close) peaks rs : Forall2 (nears (e' E) (A' A)) peaks rs -> 0 <= E <= / 64 -> A <= bpow radix2 98 -> peaks <> [] -> INR (length peaks) <= 1048576 ->
  fin (difficulty_value_of k peaks) /\ 0 <= B2R (difficulty_value_of k peaks) /\ 0 <= value_R k rs <= bpow radix2 121 /\
  Rabs (B2R (difficulty_value_of k peaks) - value_R k rs) <= (E + / 50000000) * value_R k rs + 108 / 100 * (A * geo (fading_R k) (length peaks)).
Proof.
  intros F E64 A98 NE L. pose proof (A'_in A HA) as AI. pose proof (A_pos A HA) as AP. assert (A99 : A' A <= bpow radix2 99). { unfold A'. change 99%Z with (98 + 1)%Z. rewrite bpow_plus. change (bpow radix2 1) with 2. assert (A * (4 * e40) <= A * 1) by (apply Rmult_le_compat_l; unfold e40; lra). lra. }
  destruct (value_near LC (e' E) (A' A) ltac:(unfold e', e40; lra) ltac:(lra) k peaks rs F NE L) as (V1 & V2 & V3 & V4). split; [exact V1|]. split; [exact V2|]. split; [exact V3|]. apply Rle_trans with (1 := V4).
  set (G := geo (fading_R k) (length peaks)) in *. assert (G0 : 0 <= G) by (apply geo_nn; destruct k; cbn; lra). apply Rplus_le_compat.
  - apply Rmult_le_compat_r; [lra|]. unfold e', e40. lra.
  - assert (AG : A' A * G <= (1 + / 1000) * (A * G)). { unfold A'. replace (A * (1 + 4 * e40) * G) with ((1 + 4 * e40) * (A * G)) by ring. apply Rmult_le_compat_r; [apply Rmult_le_pos; lra|unfold e40; lra]. } assert (0 <= A * G) by (apply Rmult_le_pos; lra). lra.
Qed.
Lemma geo_9 n : geo (9 / 10) n <= 10.
Proof. induction n as [|n IH]; cbn [geo]; lra. Qed.
End Peaks.

(** Strains, peaks and ratings below a bound that does not grow with the map. *)
From Coq Require Import Reals Lra List ZArith Lia Permutation.
From Flocq Require Import Core BinarySingleNaN.
From Verif Require Import DiffCalc SpecDiff SpecSane SpecStrain SpecFormula SpecSkill SpecRating BaseLemmas FloatLemmas SortReal WeighFormula ValueFormula StrainFormula PeakFormula RatingFormula.
Import ListNotations.
Open Scope R_scope.

Definition upto (X x : R) : Prop := 0 <= x <= X.

(** ** Strains *)
Lemma faded_upto p gaps vs V r : 0 < p <= 1 -> 0 <= V -> 0 <= r < 1 -> Forall (upto V) vs -> (length vs <= length gaps)%nat ->
  (forall i, (0 < i < length gaps)%nat -> Rpower p (nth i gaps 0 / 1000) <= r) -> forall i, (i < length gaps)%nat -> upto (V / (1 - r)) (faded_sum p gaps vs i).
Proof.
  intros P V0 R1 F L G. assert (N : forall i, upto V (nth i vs 0)).
  { intros i. destruct (Nat.lt_ge_cases i (length vs)) as [H|H]; [exact (proj1 (Forall_nth _ _) F i 0 H)|]. rewrite nth_overflow by lia. unfold upto. lra. }
  assert (Q : V = V / (1 - r) * (1 - r)) by (field; lra). set (B := V / (1 - r)) in *. assert (B0 : 0 <= B) by (unfold B; apply Rmult_le_pos; [lra|left; apply Rinv_0_lt_compat; lra]).
  induction i as [|i IH]; intros H.
  - rewrite faded_0. specialize (N 0%nat). unfold upto in *. split; [lra|]. assert (0 <= B * r) by (apply Rmult_le_pos; lra). lra.
  - rewrite faded_S by lia. specialize (IH ltac:(lia)). specialize (N (S i)). specialize (G (S i) ltac:(lia)). unfold upto in *. pose proof (exp_pos (nth (S i) gaps 0 / 1000 * ln p)) as E. fold (Rpower p (nth (S i) gaps 0 / 1000)) in E.
    set (x := Rpower p _) in *. set (s := faded_sum p gaps vs i) in *.
    assert (0 <= s * x) by (apply Rmult_le_pos; lra). assert (s * x <= B * r) by (apply Rmult_le_compat; lra). lra.
Qed.
(** ** Peaks *)
Lemma marks_in Ks : forall ts xs m, In m (marks Ks ts xs) -> In (ma_shown m) xs.
Proof. induction Ks as [|K Ks IH]; intros [|t ts] [|x xs] m; cbn [marks]; try (intros I; destruct I; fail). intros [<-|I]; [now left|right; now apply (IH ts xs)]. Qed.
Lemma marks_own_from ts : forall K xs m, In m (marks (sections_from K ts) ts xs) -> (section_of (ma_time m) <= ma_section m)%Z.
Proof.
  induction ts as [|t ts IH]; intros K xs m; cbn [sections_from marks]; [intros []|]. destruct xs as [|x xs]; [intros []|].
  intros [<-|H]; [cbn [ma_time ma_section]; lia|exact (IH _ _ _ H)].
Qed.
Lemma marks_own ts xs m : In m (marks (sections ts) ts xs) -> (section_of (ma_time m) <= ma_section m)%Z.
Proof.
  destruct ts as [|t ts]; cbn [sections marks]; [intros []|]. destruct xs as [|x xs]; [intros []|]. intros [<-|H]; [cbn [ma_time ma_section]; lia|now apply marks_own_from in H].
Qed.
Lemma peak_upto p X ts xs K : 0 < p <= 1 -> 0 <= X -> Forall (upto X) xs -> upto X (peak_R p (marks (sections ts) ts xs) K).
Proof.
  intros P X0 F. set (ms := marks (sections ts) ts xs). assert (S : forall m, In m ms -> upto X (ma_shown m)) by (intros m H; apply marks_in in H; rewrite Forall_forall in F; auto).
  assert (C : upto X (carried_R p ms K)).
  { unfold carried_R. destruct (rev _) as [|m r] eqn:E; [unfold upto; lra|]. assert (I : In m (filter (fun m => (ma_section m <? K)%Z) ms)) by (apply in_rev; rewrite E; now left).
    apply filter_In in I as (I & B). apply Z.ltb_lt in B. pose proof (marks_own ts xs m I) as O. pose proof (section_bounds (ma_time m)) as T. specialize (S m I). unfold upto in *.
    assert (Q : 0 <= (400 * IZR (K - 1) - ma_time m) / 1000). { assert (IZR (section_of (ma_time m)) <= IZR (K - 1)) by (apply IZR_le; lia). lra. }
    pose proof (power_unit p _ P Q) as U. set (w := Rpower p _) in *. split; [apply Rmult_le_pos; lra|]. apply Rle_trans with (X * 1); [apply Rmult_le_compat; lra|lra]. }
  unfold peak_R. assert (L : Forall (upto X) (map ma_shown (filter (fun m => (ma_section m =? K)%Z) ms))).
  { apply Forall_forall. intros x I. apply in_map_iff in I as (m & <- & I). apply filter_In in I as (I & _). auto. }
  revert C. generalize (carried_R p ms K). induction L as [|x l Hx L IH]; intros c C; cbn [fold_left]; [exact C|]. apply IH. unfold upto, Rmax in *. destruct (Rle_dec x c); lra.
Qed.
Lemma peaks_upto k X ts xs : 0 <= X -> Forall (upto X) xs -> Forall (upto X) (peaks_R k ts xs).
Proof.
  intros X0 F. unfold peaks_R. cbv zeta. destruct ts as [|t ts]; [constructor; [unfold upto; lra|constructor]|].
  apply Forall_forall. intros y I. apply in_map_iff in I as (n & <- & _). apply peak_upto; auto. destruct k; cbn [base_R]; lra.
Qed.
(** ** Values *)
Lemma weighed_upto q X l : 0 <= q < 1 -> 0 <= X -> Forall (upto X) l -> upto (X / (1 - q)) (weighed q l).
Proof.
  intros Q X0 F. assert (E : X = X / (1 - q) * (1 - q)) by (field; lra). set (B := X / (1 - q)) in *. assert (B0 : 0 <= B) by (unfold B; apply Rmult_le_pos; [lra|left; apply Rinv_0_lt_compat; lra]).
  induction F as [|x l Hx F IH]; cbn [weighed]; unfold upto in *; [lra|]. assert (0 <= q * weighed q l <= q * B) by (split; [apply Rmult_le_pos; lra|apply Rmult_le_compat_l; lra]). lra.
Qed.
Lemma lessen_upto n X l : forall i, Forall (upto X) l -> Forall (upto X) (lessen n i l).
Proof.
  induction l as [|x l IH]; intros i F; cbn [lessen]; [constructor|]. inversion F as [|? ? Hx Hl]; subst. constructor; [|auto].
  destruct (Nat.ltb_spec i n) as [H|H]; [|exact Hx]. pose proof (share_in n i H) as S. unfold upto in *. split; [apply Rmult_le_pos; lra|]. apply Rle_trans with (x * 1); [apply Rmult_le_compat_l; lra|lra].
Qed.
Lemma value_upto k X peaks : k <> Flash -> 0 <= X -> Forall (upto X) peaks -> upto (10 * X * scale_R k) (value_R k peaks).
Proof.
  intros NF X0 F. unfold value_R. assert (Q : fading_R k = 9 / 10) by (destruct k; [reflexivity|reflexivity|congruence]). rewrite Q.
  pose proof (weighed_upto (9 / 10) X (sort_R (lessen (top_peaks k) 0 (sort_R peaks))) ltac:(lra) X0 (sort_all _ _ (lessen_upto _ _ _ _ (sort_all _ _ F)))) as W.
  replace (X / (1 - 9 / 10)) with (10 * X) in W by lra. unfold upto in *. assert (0 <= scale_R k) by (destruct k; cbn [scale_R]; lra). split; [apply Rmult_le_pos; lra|apply Rmult_le_compat_r; lra].
Qed.
(** with nothing faded, the value of the peaks is at least three quarters of their sum *)
Lemma weighed_1 l : weighed 1 l = rsum l.
Proof. induction l as [|x l IH]; cbn [weighed rsum fold_right]; [reflexivity|]. rewrite IH. unfold rsum. lra. Qed.
Lemma rsum_perm l l' : Permutation l l' -> rsum l = rsum l'.
Proof. unfold rsum. induction 1; cbn [fold_right]; lra. Qed.
Lemma lessen_sum n l : forall i, Forall (fun x => 0 <= x) l -> 3 / 4 * rsum l <= rsum (lessen n i l) <= rsum l.
Proof.
  induction l as [|x l IH]; intros i F; cbn [lessen rsum fold_right]; [lra|]. inversion F as [|? ? Hx Hl]; subst. specialize (IH (S i) Hl). unfold rsum in *.
  destruct (Nat.ltb_spec i n) as [H|H]; [|lra]. pose proof (share_in n i H) as S. assert (x * (75 / 100) <= x * share_R n i <= x * 1) by (split; apply Rmult_le_compat_l; lra). lra.
Qed.
Lemma flash_value peaks : Forall (fun x => 0 <= x) peaks -> 3 / 4 * (106 / 100) * rsum peaks <= value_R Flash peaks <= 106 / 100 * rsum peaks.
Proof.
  intros F. unfold value_R. cbn [fading_R scale_R]. rewrite weighed_1. rewrite <- (rsum_perm _ _ (sort_perm_R (lessen (top_peaks Flash) 0 (sort_R peaks)))).
  pose proof (lessen_sum (top_peaks Flash) (sort_R peaks) 0 (sort_all _ _ F)) as L. rewrite <- (rsum_perm _ _ (sort_perm_R peaks)) in L. lra.
Qed.
(** ** How much one movement brings *)
Lemma square_in x : 0 <= sin x ^ 2 <= 1.
Proof. pose proof (SIN_bound x) as S. split; [apply pow2_ge_0|]. rewrite <- (pow1 2), <- pow2_abs. apply pow_incr. split; [apply Rabs_pos|apply Rabs_le; lra]. Qed.
Lemma prod_le a b : 0 <= a -> 0 <= b <= 1 -> 0 <= a * b <= a.
Proof. intros A B. split; [apply Rmult_le_pos; lra|]. apply Rle_trans with (a * 1); [apply Rmult_le_compat_l; lra|lra]. Qed.
Lemma prod_le' a b : 0 <= a -> 0 <= b <= 1 -> 0 <= b * a <= a.
Proof. rewrite Rmult_comm. apply prod_le. Qed.
Lemma cube_in a : 0 <= a <= 1 -> 0 <= a ^ 3 <= 1.
Proof. intros A. split; [apply pow_le; lra|]. rewrite <- (pow1 3). apply pow_incr. lra. Qed.
Lemma wide_le o b v v' a a' : 0 <= v -> 0 <= v' -> 0 <= wide_term o b v v' a a' <= Rmin v v'.
Proof.
  intros V V'. unfold wide_term. pose proof (wide_in a) as A. pose proof (wide_in a') as A'. pose proof (cube_in _ A') as C.
  assert (Q : 0 <= 1 - Rmin (wideness a) (wideness a' ^ 3) <= 1) by (unfold Rmin; destruct (Rle_dec _ _); lra).
  assert (M : 0 <= Rmin v v') by (apply Rmin_glb; lra). pose proof (prod_le (Rmin v v') _ M Q) as P. pose proof (prod_le' _ (wideness a) (proj1 P) A). lra.
Qed.
Lemma acute_le o v v' a a' a'' : 0 <= v -> 0 <= v' -> 0 < mo_time o -> 0 <= acute_term o v v' a a' a'' <= Rmin v v'.
Proof.
  intros V V' T. unfold acute_term. cbv zeta. assert (M : 0 <= Rmin v v') by (apply Rmin_glb; lra). pose proof (wide_in a) as A. pose proof (wide_in a') as A'. pose proof (wide_in a'') as A2.
  set (x := if Rlt_dec 100 (mo_time o) then 0 else _).
  assert (X : 0 <= x <= Rmin v v').
  { unfold x. destruct (Rlt_dec 100 (mo_time o)); [lra|]. unfold acuteness. assert (T0 : 0 <= 125 / mo_time o) by (apply quot_nn; lra). assert (B : 0 <= Rmin (Rmin v v') (125 / mo_time o) <= Rmin v v') by (split; [apply Rmin_glb; lra|apply Rmin_l]).
    pose proof (prod_le' _ (1 - wideness a') (proj1 B) ltac:(lra)) as P1. pose proof (square_in (PI / 2 * Rmin 1 ((100 - mo_time o) / 25))) as S1. pose proof (prod_le _ _ (proj1 P1) S1) as P2.
    pose proof (square_in (PI / 2 * (Rmin 100 (Rmax 50 (mo_jump o)) - 50) / 50)) as S2. pose proof (prod_le _ _ (proj1 P2) S2) as P3. pose proof (prod_le' _ (1 - wideness a) (proj1 P3) ltac:(lra)) as P4. lra. }
  pose proof (cube_in (acuteness a'') ltac:(unfold acuteness; lra)) as C. assert (Q : 0 <= 1 / 2 + 1 / 2 * (1 - Rmin x (acuteness a'' ^ 3)) <= 1) by (unfold Rmin at 1 2; destruct (Rle_dec _ _); lra).
  pose proof (prod_le x _ (proj1 X) Q). lra.
Qed.
Lemma change_le o b w : 0 < mo_time o -> 0 < mo_time b -> 0 <= (mo_jump o + mo_slide o) / mo_time o <= w -> 0 <= (mo_jump b + mo_slide b) / mo_time b <= w -> 0 <= change_term o b <= w.
Proof.
  intros T T' W W'. unfold change_term. cbv zeta. set (v' := (mo_jump b + mo_slide b) / mo_time b) in *. set (v := (mo_jump o + mo_slide o) / mo_time o) in *.
  assert (D : 0 <= Rabs (v' - v) <= w) by (split; [apply Rabs_pos|apply Rabs_le; lra]). set (x := Rabs (v' - v)) in *.
  set (least := Rmin (mo_time o) (mo_time b)). set (most := Rmax (mo_time o) (mo_time b)). assert (L : 0 < least <= most) by (unfold least, most, Rmin, Rmax; destruct (Rle_dec _ _); lra).
  assert (Q0 : 0 <= 125 / least) by (apply quot_nn; lra).
  assert (R : 0 <= (least / most) ^ 2 <= 1).
  { split; [apply pow2_ge_0|]. rewrite <- (pow1 2). apply pow_incr. split; [apply quot_nn; lra|]. apply Rmult_le_reg_r with most; [lra|]. replace (least / most * most) with least by (field; lra). lra. }
  match goal with |- 0 <= Rmax ?p (x * ?s) * ?y * _ <= w => assert (A : 0 <= Rmax p (x * s) <= x) end.
  { pose proof (prod_le x _ (proj1 D) (square_in (PI / 2 * Rmin 1 (Rmin (mo_jump o) (mo_jump b) / 100)))) as P. split; [apply Rle_trans with (2 := Rmax_r _ _); lra|]. apply Rmax_lub; [apply Rmin_r|lra]. }
  pose proof (prod_le _ _ (proj1 A) (square_in (PI / 2 * x / Rmax v' v))) as P1. pose proof (prod_le _ _ (proj1 P1) R) as P2. lra.
Qed.
(** every part of the movement at most at the velocity w *)
Record calm (ws : bool) (w : R) (o b b2 : motion) : Prop := {
  ca_now : velocity ws o b <= w; ca_before : velocity ws b b2 <= w;
  ca_through : (mo_jump o + mo_slide o) / mo_time o <= w; ca_through' : (mo_jump b + mo_slide b) / mo_time b <= w;
  ca_slide : ws = true -> mo_slide_time o <> 0 -> mo_slide o / mo_slide_time o <= w }.
Lemma aim_le ws w o b b2 : 0 <= mo_jump o -> 0 < mo_time o -> 0 <= mo_jump b -> 0 < mo_time b -> 0 <= mo_slide o -> 0 <= mo_slide b -> calm ws w o b b2 ->
  aim_formula ws o b b2 <= (13 / 4 + if ws then 3 / 2 else 0) * w.
Proof.
  intros J T J' T' SL SL' [C1 C2 C3 C4 C5]. unfold aim_formula. cbv zeta. pose proof (velocity_nn ws o b J T) as V. pose proof (velocity_nn ws b b2 J' T') as V'. set (v := velocity ws o b) in *. set (v' := velocity ws b b2) in *.
  set (angles := match mo_angle o with Some _ => _ | None => _ end). pose proof (Rmin_l v v') as ML.
  assert (W : match angles with Some (a, a', _) => wide_term o b v v' a a' | None => 0 end <= w).
  { destruct angles as [((a & a') & a2)|]; [|lra]. pose proof (wide_le o b v v' a a' V V'). lra. }
  assert (A : match angles with Some (a, a', a'') => acute_term o v v' a a' a'' | None => 0 end <= w).
  { destruct angles as [((a & a') & a2)|]; [|lra]. pose proof (acute_le o v v' a a' a2 V V' T). lra. }
  assert (C : (if Req_EM_T (Rmax v' v) 0 then 0 else change_term o b) <= w).
  { destruct (Req_EM_T (Rmax v' v) 0); [lra|]. apply change_le; auto; split; auto; apply quot_nn; lra. }
  assert (S : (if ws then if Req_EM_T (mo_slide_time o) 0 then 0 else 3 / 2 * (mo_slide o / mo_slide_time o) else 0) <= (if ws then 3 / 2 else 0) * w).
  { destruct ws; [|lra]. destruct (Req_EM_T (mo_slide_time o) 0) as [|N]; [lra|]. specialize (C5 eq_refl N). lra. }
  match goal with |- _ + Rmax ?x ?y + _ <= _ => assert (Rmax x y <= 9 / 4 * w) by (apply Rmax_lub; lra) end. lra.
Qed.

(** ** Speed *)
Lemma doubles_ge w g before : 0 < w -> 0 < g -> g <= doubles_gap w g before.
Proof.
  intros W G. unfold doubles_gap. destruct before as [p|]; [|lra]. destruct (Rlt_dec g w) as [A|A]; [|lra]. destruct (Rlt_dec g p) as [B|B]; [|lra].
  assert (Q : 0 < g / w < 1). { split; [apply Rmult_lt_0_compat; [exact G|now apply Rinv_0_lt_compat]|]. apply Rmult_lt_reg_r with w; [exact W|]. unfold Rdiv. rewrite Rmult_assoc, Rinv_l by lra. lra. }
  assert (0 <= (p - g) * (1 - g / w)) by (apply Rmult_le_pos; lra). lra.
Qed.
Lemma capped_ge w g : 0 < g -> g <= capped_gap w g.
Proof.
  intros G. unfold capped_gap. set (c := Rmin 1 _). assert (C : 92 / 100 <= c <= 1). { unfold c. split; [apply Rmin_glb; [lra|apply Rmax_l]|apply Rmin_l]. }
  assert (1 <= / c). { rewrite <- Rinv_1. apply Rinv_le_contravar; lra. } unfold Rdiv. rewrite <- (Rmult_1_r g) at 1. apply Rmult_le_compat_l; lra.
Qed.
Lemma rpow_le1 x y : 0 <= x <= 1 -> 0 <= y -> rpow x y <= 1.
Proof. intros X Y. unfold rpow. destruct (Req_EM_T x 0); [lra|]. apply (power_unit x y); lra. Qed.
Lemma speed_le w g before dist : 0 < w -> 25 <= g -> 0 <= dist -> speed_formula w g before dist <= 139 / 800.
Proof.
  intros W G D. unfold speed_formula. cbv zeta. pose proof (doubles_ge w g before W ltac:(lra)) as A. pose proof (capped_ge w (doubles_gap w g before) ltac:(lra)) as B. set (t := capped_gap w _) in *.
  assert (R : 0 <= rpow (Rmin 125 dist / 125) (7 / 2) <= 1).
  { split; [apply rpow_nn|]. apply rpow_le1; [|lra]. pose proof (Rmin_l 125 dist). assert (0 <= Rmin 125 dist) by (apply Rmin_glb; lra). lra. }
  set (r := rpow _ _) in *. set (b := if Rlt_dec t 75 then _ else _). assert (BB : 0 <= b <= 139 / 64).
  { unfold b. destruct (Rlt_dec t 75); [|lra]. pose proof (pow2_ge_0 ((75 - t) / 40)). assert (((75 - t) / 40) ^ 2 <= (5 / 4) ^ 2) by (apply pow_incr; lra). lra. }
  assert (BR : 0 <= b * r <= b) by (split; [apply Rmult_le_pos; lra|rewrite <- (Rmult_1_r b) at 2; apply Rmult_le_compat_l; lra]).
  assert (IT : 0 < / t <= / 25) by (split; [apply Rinv_0_lt_compat; lra|apply Rinv_le_contravar; lra]). unfold Rdiv at 1.
  apply Rle_trans with ((139 / 32) * / 25); [apply Rmult_le_compat; lra|lra].
Qed.

(** ** Rhythm *)
Definition beat_ok (s : R) (b : beat) : Prop := (0 <= be_last b <= 7)%Z /\ (0 <= be_size b <= 7)%Z /\ 0 <= be_start b <= 4 /\ 0 <= be_sum b <= s.
Lemma share_in w p c : 0 < w -> 0 <= window_share w p c <= 1.
Proof. intros W. unfold window_share. split; [|apply Rmin_l]. apply Rmin_glb; [lra|]. apply quot_nn; [apply Rmax_l|lra]. Qed.
Lemma ratio_in p c : 1 <= ratio_bonus p c <= 4.
Proof. unfold ratio_bonus. set (x := sin _ ^ 2). assert (0 <= x) by apply pow2_ge_0. pose proof (Rmin_l (1 / 2) x). assert (0 <= Rmin (1 / 2) x) by (apply Rmin_glb; lra). lra. Qed.
Lemma change_in b c p l cs ps : 0 <= change_weight b c p l cs ps <= 1.
Proof.
  unfold change_weight. assert (P : forall x y, 0 <= x <= 1 -> 0 <= y <= 1 -> 0 <= x * y <= 1) by (intros x y X Y; split; [apply Rmult_le_pos; lra|rewrite <- (Rmult_1_r 1); apply Rmult_le_compat; lra]).
  repeat apply P; repeat match goal with |- context [if ?x then _ else _] => destruct x end; lra.
Qed.
Lemma root_in k : (0 <= k <= 7)%Z -> 0 <= sqrt (4 + IZR k) / 2 <= sqrt 11 / 2.
Proof.
  intros K. assert (0 <= IZR k <= 7) by (split; apply IZR_le; lia). assert (sqrt (4 + IZR k) <= sqrt 11) by (apply sqrt_le_1_alt; lra). pose proof (sqrt_pos (4 + IZR k)). lra.
Qed.
Lemma beat_step_ok w age c p l cs ps b s : 0 < w -> 0 <= age <= 1 -> beat_ok s b -> beat_ok (s + 11) (beat_step w age c p l cs ps b).
Proof.
  intros W A (B1 & B2 & B3 & B4). unfold beat_step. cbv zeta. pose proof (share_in w p c W) as SH. pose proof (ratio_in p c) as RA.
  assert (E : 0 <= window_share w p c * ratio_bonus p c <= 4) by (split; [apply Rmult_le_pos; lra|replace 4 with (1 * 4) by lra; apply Rmult_le_compat; lra]). set (e := window_share w p c * ratio_bonus p c) in *.
  destruct (be_on b).
  - destruct (faster c p || slower c p)%bool.
    + pose proof (change_in b c p l cs ps) as CW. set (cw := change_weight _ _ _ _ _ _) in *. assert (E' : 0 <= e * cw <= 4) by (split; [apply Rmult_le_pos; lra|replace 4 with (4 * 1) by lra; apply Rmult_le_compat; lra]).
      split; [exact B2|]. split; [cbn [be_size]; lia|]. split; [cbn [be_start]; exact E'|]. cbn [be_sum]. set (e' := e * cw) in *.
      assert (Q : 0 <= sqrt (e' * be_start b) <= 4). { split; [apply sqrt_pos|]. replace 4 with (sqrt (4 * 4)) by (apply sqrt_square; lra). apply sqrt_le_1_alt. apply Rmult_le_compat; lra. }
      pose proof (root_in _ B1) as R1. pose proof (root_in _ B2) as R2. set (q := sqrt (e' * be_start b)) in *. set (r1 := sqrt (4 + IZR (be_last b)) / 2) in *. set (r2 := sqrt (4 + IZR (be_size b)) / 2) in *.
      assert (QA : 0 <= q * age <= 4) by (split; [apply Rmult_le_pos; lra|replace 4 with (4 * 1) by lra; apply Rmult_le_compat; lra]).
      assert (X : 0 <= q * age * r2 <= 4 * (sqrt 11 / 2)) by (split; [apply Rmult_le_pos; lra|apply Rmult_le_compat; lra]).
      assert (Y : 0 <= q * age * r2 * r1 <= 4 * (sqrt 11 / 2) * (sqrt 11 / 2)) by (split; [apply Rmult_le_pos; lra|apply Rmult_le_compat; lra]).
      assert (sqrt 11 * sqrt 11 = 11) by (apply sqrt_sqrt; lra). lra.
    + split; [exact B1|]. split; [cbn [be_size]; lia|]. split; [exact B3|]. cbn [be_sum]. lra.
  - destruct (faster c p); (split; [exact B1|]); (split; [cbn [be_size]; lia|]); (split; [cbn [be_start]; lra|]); cbn [be_sum]; lra.
Qed.
Lemma beats_upto w now taps : 0 < w -> forall i b s, (i <= length taps)%nat -> beat_ok s b -> beat_ok (s + 11 * INR i) (beats w now taps i b).
Proof.
  intros W. induction i as [|i IH]; intros b s I B; [cbn [beats INR]; now replace (s + 11 * 0) with s by lra|].
  rewrite S_INR. replace (s + 11 * (INR i + 1)) with ((s + 11) + 11 * INR i) by lra. cbn [beats]. apply IH; [lia|].
  assert (K : beat_ok (s + 11) b). { destruct B as (B1 & B2 & B3 & B4). split; [exact B1|]. split; [exact B2|]. split; [exact B3|lra]. }
  destruct (nth_error taps i) as [c|]; [|exact K]. destruct (nth_error taps (S i)) as [p|]; [|exact K]. destruct (nth_error taps (S (S i))) as [l|]; [|exact K].
  destruct (Rlt_dec (now - tp_time c) 5000); [|exact K]. apply beat_step_ok; [exact W| |exact B]. set (n := INR (length taps)).
  assert (N : INR (S i) <= n) by (apply le_INR; lia). pose proof (pos_INR i) as P. rewrite S_INR in *. split; [apply age_nn; lra|]. unfold age_of. apply Rle_trans with (1 := Rmin_l _ _).
  apply Rmult_le_reg_r with n; [lra|]. unfold Rdiv. rewrite Rmult_assoc, Rinv_l by lra. lra.
Qed.
Lemma rhythm_le w now taps : 0 < w -> (length taps <= 32)%nat -> rhythm_formula w now taps <= 8.
Proof.
  intros W L. unfold rhythm_formula. assert (B0 : beat_ok 0 (mkBeat 0 1 0 false 0)) by (unfold beat_ok; cbn [be_last be_size be_start be_sum]; repeat split; try lia; lra).
  destruct (beats_upto w now taps W (length taps - 2) _ 0 ltac:(lia) B0) as (_ & _ & _ & B). set (s := be_sum _) in *.
  assert (INR (length taps - 2) <= 30) by (change 30 with (IZR (Z.of_nat 30)); rewrite <- INR_IZR_INZ; apply le_INR; lia).
  assert (sqrt (4 + 3 / 4 * s) <= sqrt (16 * 16)) by (apply sqrt_le_1_alt; lra). rewrite sqrt_square in H0 by lra. lra.
Qed.

(** Bezier curves over the reals: sub-curves, second differences, distance from the chord. *)
From Coq Require Import Reals Lra Lia List FunctionalExtensionality.
From Flocq Require Import Core.Raux.
From Verif Require Import SpecBezier SpecCurveApi.
Import ListNotations.
Open Scope R_scope.

(** mix neighbours in the ratio s *)
Definition mixf (s : R) (g : nat -> R) : nat -> R := fun i => (1 - s) * g i + s * g (S i).
Fixpoint mixn (n : nat) (s : R) (g : nat -> R) : nat -> R := match n with O => g | S n' => mixn n' s (mixf s g) end.
Definition bz (n : nat) (g : nat -> R) (t : R) : R := mixn n t g 0%nat.

Lemma mixf_comm s t g : mixf s (mixf t g) = mixf t (mixf s g).
Proof. extensionality i. unfold mixf. ring. Qed.
Lemma mixn_mixf n s t g : mixn n s (mixf t g) = mixf t (mixn n s g).
Proof. revert g. induction n as [|n IH]; intros g; [reflexivity|]. cbn [mixn]. rewrite mixf_comm. apply IH. Qed.
Lemma mixn_comm n m s t g : mixn n s (mixn m t g) = mixn m t (mixn n s g).
Proof. revert g. induction m as [|m IH]; intros g; [reflexivity|]. cbn [mixn]. rewrite IH, mixn_mixf. reflexivity. Qed.
Lemma mixn_S n s g : mixn (S n) s g = mixf s (mixn n s g).
Proof. cbn [mixn]. apply mixn_mixf. Qed.
(** linearity *)
Lemma mixn_lin n s a b g h : mixn n s (fun i => a * g i + b * h i) = fun i => a * mixn n s g i + b * mixn n s h i.
Proof.
  revert g h. induction n as [|n IH]; intros g h; [reflexivity|]. cbn [mixn]. rewrite <- IH. f_equal. extensionality i. unfold mixf. ring.
Qed.
(** The control points of the part of the curve between a and b. *)
Definition part (n : nat) (a b : R) (g : nat -> R) : nat -> R := fun i => mixn i b (mixn (n - i) a g) 0%nat.
Lemma mixn_ext n s g h m : (forall i, (i <= n + m)%nat -> g i = h i) -> forall i, (i <= m)%nat -> mixn n s g i = mixn n s h i.
Proof.
  revert g h. induction n as [|n IH]; intros g h H i L; [apply H; lia|]. cbn [mixn]. apply IH; [|exact L]. intros j Lj. unfold mixf. rewrite !H by lia. reflexivity.
Qed.
Lemma bz_ext n g h t : (forall i, (i <= n)%nat -> g i = h i) -> bz n g t = bz n h t.
Proof. intros H. unfold bz. apply (mixn_ext n t g h 0); [|lia]. intros i L. apply H. lia. Qed.
Lemma bz_S n g t : bz (S n) g t = bz n (mixf t g) t.
Proof. reflexivity. Qed.
Lemma mixf_mix a b t g : (fun i => (1 - t) * mixf a g i + t * mixf b g i) = mixf ((1 - t) * a + t * b) g.
Proof. extensionality i. unfold mixf. ring. Qed.
Lemma part_mix n a b t g i : (i <= n)%nat -> mixf t (part (S n) a b g) i = part n a b (mixf ((1 - t) * a + t * b) g) i.
Proof.
  intros L. unfold mixf at 1, part. replace (S n - i)%nat with (S (n - i)) by lia. replace (S n - S i)%nat with (n - i)%nat by lia.
  cbn [mixn]. rewrite <- (mixn_mixf (n - i) a b g). rewrite <- mixf_mix, !mixn_lin. reflexivity.
Qed.
Theorem bz_part n : forall a b t g, bz n (part n a b g) t = bz n g ((1 - t) * a + t * b).
Proof.
  induction n as [|n IH]; intros a b t g; [reflexivity|]. rewrite !bz_S. rewrite <- IH. apply bz_ext. intros i L. now apply part_mix.
Qed.

(** ** Bounds *)
Definition nearf (n : nat) (e : R) (g h : nat -> R) : Prop := forall i, (i <= n)%nat -> Rabs (g i - h i) <= e.
Lemma nearf_mix n e s g h : 0 <= s <= 1 -> nearf (S n) e g h -> nearf n e (mixf s g) (mixf s h).
Proof.
  intros Hs H i L. pose proof (H i ltac:(lia)) as H1. pose proof (H (S i) ltac:(lia)) as H2. unfold mixf. apply Rabs_le_inv in H1, H2. apply Rabs_le.
  assert ((1 - s) * - e <= (1 - s) * (g i - h i) <= (1 - s) * e) by (split; apply Rmult_le_compat_l; lra).
  assert (s * - e <= s * (g (S i) - h (S i)) <= s * e) by (split; apply Rmult_le_compat_l; lra). lra.
Qed.
Lemma nearf_mixn m : forall n e s g h, 0 <= s <= 1 -> nearf (m + n) e g h -> nearf n e (mixn m s g) (mixn m s h).
Proof. induction m as [|m IH]; intros n e s g h Hs H; [exact H|]. cbn [mixn]. apply IH; [exact Hs|]. now apply nearf_mix. Qed.
Lemma nearf_bz n e t g h : 0 <= t <= 1 -> nearf n e g h -> Rabs (bz n g t - bz n h t) <= e.
Proof. intros T H. unfold bz. apply (nearf_mixn n 0 e t g h T); [|lia]. now rewrite Nat.add_0_r. Qed.
Lemma nearf_part n e a b g h : 0 <= a <= 1 -> 0 <= b <= 1 -> nearf n e g h -> nearf n e (part n a b g) (part n a b h).
Proof.
  intros A B H i L. unfold part. apply (nearf_mixn i 0 e b); [exact B| |lia]. apply nearf_mixn; [exact A|]. intros j Lj. apply H. lia.
Qed.

(** second differences *)
Definition sd (g : nat -> R) : nat -> R := fun i => g i - 2 * g (S i) + g (S (S i)).
Definition sd_upto (n : nat) (d : R) (g : nat -> R) : Prop := forall i, (S (S i) <= n)%nat -> Rabs (sd g i) <= d.
Lemma sd_mix s g : sd (mixf s g) = mixf s (sd g).
Proof. extensionality i. unfold sd, mixf. ring. Qed.
Lemma sd_upto_mix n d s g : 0 <= s <= 1 -> sd_upto (S n) d g -> sd_upto n d (mixf s g).
Proof.
  intros Hs H i L. rewrite sd_mix. unfold mixf. pose proof (H i ltac:(lia)) as H1. pose proof (H (S i) ltac:(lia)) as H2. apply Rabs_le_inv in H1, H2. apply Rabs_le.
  assert ((1 - s) * - d <= (1 - s) * sd g i <= (1 - s) * d) by (split; apply Rmult_le_compat_l; lra).
  assert (s * - d <= s * sd g (S i) <= s * d) by (split; apply Rmult_le_compat_l; lra). lra.
Qed.
Lemma sd_upto_mixn m : forall n d s g, 0 <= s <= 1 -> sd_upto (m + n) d g -> sd_upto n d (mixn m s g).
Proof. induction m as [|m IH]; intros n d s g Hs H; [exact H|]. cbn [mixn]. apply IH; [exact Hs|]. now apply sd_upto_mix. Qed.
Lemma sd_part n a b g i : (S (S i) <= n)%nat -> sd (part n a b g) i = (b - a) * (b - a) * sd (mixn i b (mixn (n - S (S i)) a g)) 0.
Proof.
  intros L. unfold sd at 1, part. replace (n - i)%nat with (S (S (n - S (S i)))) by lia. replace (n - S i)%nat with (S (n - S (S i))) by lia.
  set (m := (n - S (S i))%nat). rewrite !mixn_S. rewrite !mixn_mixf. rewrite !(mixn_comm i m b a). set (G := mixn m a (mixn i b g)).
  unfold sd, mixf. ring.
Qed.
Lemma sd_upto_part n d a b g : 0 <= a <= 1 -> 0 <= b <= 1 -> sd_upto n d g -> sd_upto n ((b - a) * (b - a) * d) (part n a b g).
Proof.
  intros A B H i L. rewrite sd_part by exact L. rewrite Rabs_mult, (Rabs_pos_eq ((b - a) * (b - a))) by apply Rle_0_sqr.
  apply Rmult_le_compat_l; [apply Rle_0_sqr|]. apply (sd_upto_mixn i 2 d b _ B); [|lia]. apply sd_upto_mixn; [exact A|]. intros j Lj. apply H. lia.
Qed.
(** first differences drift apart by at most d each *)
Lemma drift d g n : sd_upto (S n) d g -> Rabs ((g (S n) - g n) - (g 1%nat - g 0%nat)) <= INR n * d.
Proof.
  induction n as [|n IH]; intros H.
  - replace (g 1%nat - g 0%nat - (g 1%nat - g 0%nat)) with 0 by ring. rewrite Rabs_R0. cbn [INR]. lra.
  - assert (H' : sd_upto (S n) d g) by (intros i L; apply H; lia). specialize (IH H'). pose proof (H n ltac:(lia)) as K. unfold sd in K.
    rewrite S_INR. apply Rabs_le_inv in IH, K. apply Rabs_le. lra.
Qed.
Lemma mixf_0 t g : mixf t g 0%nat = (1 - t) * g 0%nat + t * g 1%nat. Proof. reflexivity. Qed.
(** the curve and its chord *)
Theorem chord n : forall d t g, 0 <= t <= 1 -> 0 <= d -> sd_upto n d g -> Rabs (bz n g t - ((1 - t) * g 0%nat + t * g n)) <= t * (1 - t) * (d * INR n * (INR n - 1) / 2).
Proof.
  induction n as [|n IH]; intros d t g T D H.
  - unfold bz. cbn [mixn INR]. replace (g 0%nat - ((1 - t) * g 0%nat + t * g 0%nat)) with 0 by ring. rewrite Rabs_R0. lra.
  - rewrite bz_S. specialize (IH d t (mixf t g) T D (sd_upto_mix n d t g T H)). pose proof (drift d g n H) as K. unfold mixf at 2 3 in IH.
    assert (T1 : 0 <= t * (1 - t)) by (apply Rmult_le_pos; lra).
    set (X := bz n (mixf t g) t) in *. clearbody X.
    replace (X - ((1 - t) * g 0%nat + t * g (S n))) with
      ((X - ((1 - t) * ((1 - t) * g 0%nat + t * g 1%nat) + t * ((1 - t) * g n + t * g (S n)))) + (t * (1 - t)) * - ((g (S n) - g n) - (g 1%nat - g 0%nat))) by ring.
    eapply Rle_trans; [apply Rabs_triang|]. rewrite Rabs_mult, Rabs_Ropp, (Rabs_pos_eq (t * (1 - t))) by exact T1.
    assert (Q : t * (1 - t) * Rabs ((g (S n) - g n) - (g 1%nat - g 0%nat)) <= t * (1 - t) * (INR n * d)) by (apply Rmult_le_compat_l; assumption).
    rewrite S_INR. lra.
Qed.
Lemma chord_8 n d t g : 0 <= t <= 1 -> 0 <= d -> sd_upto n d g -> Rabs (bz n g t - ((1 - t) * g 0%nat + t * g n)) <= d * INR n ^ 2 / 8.
Proof.
  intros T D H. eapply Rle_trans; [apply (chord n d t g T D H)|]. pose proof (pos_INR n) as N0.
  assert (A : t * (1 - t) <= / 4) by (assert (0 <= (t - / 2) * (t - / 2)) by apply Rle_0_sqr; lra). assert (A0 : 0 <= t * (1 - t)) by (apply Rmult_le_pos; lra).
  assert (P : 0 <= d * INR n) by (apply Rmult_le_pos; assumption).
  assert (P2 : 0 <= d * INR n * INR n) by (apply Rmult_le_pos; assumption).
  apply Rle_trans with (t * (1 - t) * (d * INR n * INR n / 2)); [apply Rmult_le_compat_l; [exact A0|lra]|].
  apply Rle_trans with (/ 4 * (d * INR n * INR n / 2)); [apply Rmult_le_compat_r; lra|]. cbn [pow]. lra.
Qed.

(** ** Control points and the chord *)
Lemma convex_up c n : (forall i, (S (S i) <= n)%nat -> 0 <= sd c i) -> forall j, (S j <= n)%nat -> c j - c 0%nat <= INR j * (c (S j) - c j).
Proof.
  intros H. induction j as [|j IH]; intros L; [cbn [INR]; lra|]. specialize (IH ltac:(lia)). pose proof (H j ltac:(lia)) as K. unfold sd in K. rewrite S_INR.
  pose proof (pos_INR j) as J. assert ((INR j + 1) * (c (S j) - c j) <= (INR j + 1) * (c (S (S j)) - c (S j))) by (apply Rmult_le_compat_l; lra). lra.
Qed.
Lemma convex_down c n : (forall i, (S (S i) <= n)%nat -> 0 <= sd c i) -> forall m j, (S (j + m) <= n)%nat -> c (S j) - c j <= c (S (j + m)) - c (j + m)%nat.
Proof.
  intros H. induction m as [|m IH]; intros j L; [rewrite Nat.add_0_r; lra|]. specialize (IH j ltac:(lia)). pose proof (H (j + m)%nat ltac:(lia)) as K. unfold sd in K.
  replace (j + S m)%nat with (S (j + m)) by lia. lra.
Qed.
Lemma convex_far c n : (forall i, (S (S i) <= n)%nat -> 0 <= sd c i) -> forall m j, (j + m <= n)%nat -> (S j <= n)%nat -> INR m * (c (S j) - c j) <= c (j + m)%nat - c j.
Proof.
  intros H. induction m as [|m IH]; intros j L L'; [rewrite Nat.add_0_r; cbn [INR]; lra|]. specialize (IH j ltac:(lia) L'). pose proof (convex_down c n H m j ltac:(lia)) as K.
  rewrite S_INR. replace (j + S m)%nat with (S (j + m)) by lia. lra.
Qed.
Lemma convex c n : (forall i, (S (S i) <= n)%nat -> 0 <= sd c i) -> forall j, (j <= n)%nat -> INR n * c j <= (INR n - INR j) * c 0%nat + INR j * c n.
Proof.
  intros H j L. destruct (Nat.eq_dec j n) as [->|NE]; [lra|]. pose proof (convex_up c n H j ltac:(lia)) as U. pose proof (convex_far c n H (n - j) j ltac:(lia) ltac:(lia)) as D.
  replace (j + (n - j))%nat with n in D by lia. rewrite minus_INR in D by lia. pose proof (pos_INR j). assert (LE : INR j <= INR n) by (apply le_INR; lia).
  assert (A : (INR n - INR j) * (c j - c 0%nat) <= (INR n - INR j) * (INR j * (c (S j) - c j))) by (apply Rmult_le_compat_l; lra).
  assert (B : INR j * ((INR n - INR j) * (c (S j) - c j)) <= INR j * (c n - c j)) by (apply Rmult_le_compat_l; lra). lra.
Qed.
Lemma convex_dev n d g : sd_upto n d g -> forall j, (j <= n)%nat -> INR n * g j - ((INR n - INR j) * g 0%nat + INR j * g n) <= INR n * (d * INR j * (INR n - INR j) / 2).
Proof.
  intros H j L. pose (w := fun i : nat => g i - d * INR i * (INR n - INR i) / 2).
  assert (C : forall i, (S (S i) <= n)%nat -> 0 <= sd w i).
  { intros i Li. pose proof (H i Li) as K. apply Rabs_le_inv in K. unfold sd in *. unfold w. rewrite !S_INR. lra. }
  pose proof (convex w n C j L) as Q. unfold w in Q. change (INR 0) with 0 in Q. lra.
Qed.
Lemma sd_opp n d g : sd_upto n d g -> sd_upto n d (fun i => - g i).
Proof. intros H i L. unfold sd. replace (- g i - 2 * - g (S i) + - g (S (S i))) with (- sd g i) by (unfold sd; ring). rewrite Rabs_Ropp. now apply H. Qed.
Theorem control_chord n d g j : (0 < n)%nat -> 0 <= d -> sd_upto n d g -> (j <= n)%nat ->
  Rabs (g j - ((1 - INR j / INR n) * g 0%nat + INR j / INR n * g n)) <= d * INR n ^ 2 / 8.
Proof.
  intros N D H L. assert (N0 : 0 < INR n) by (apply lt_0_INR; lia). pose proof (convex_dev n d g H j L) as A. pose proof (convex_dev n d _ (sd_opp n d g H) j L) as B. cbn beta in B.
  assert (Q : d * INR j * (INR n - INR j) / 2 <= d * INR n ^ 2 / 8).
  { assert (0 <= d * ((INR j - INR n / 2) * (INR j - INR n / 2))) by (apply Rmult_le_pos; [exact D|apply Rle_0_sqr]). cbn [pow]. lra. }
  set (q := d * INR j * (INR n - INR j) / 2) in *. set (Z := g j - ((1 - INR j / INR n) * g 0%nat + INR j / INR n * g n)).
  assert (E : INR n * Z = INR n * g j - ((INR n - INR j) * g 0%nat + INR j * g n)) by (unfold Z; field; lra).
  assert (A' : Z <= q) by (apply Rmult_le_reg_l with (INR n); [exact N0|lra]).
  assert (B' : - q <= Z) by (apply Rmult_le_reg_l with (INR n); [exact N0|lra]). apply Rabs_le. lra.
Qed.

(** ** Bernstein's form *)
Lemma bernstein_S n g t : sum_f_R0 (fun i => C (S n) i * t ^ i * (1 - t) ^ (S n - i) * g i) (S n) =
  (1 - t) * sum_f_R0 (fun i => C n i * t ^ i * (1 - t) ^ (n - i) * g i) n + t * sum_f_R0 (fun i => C n i * t ^ i * (1 - t) ^ (n - i) * g (S i)) n.
Proof.
  assert (C0 : forall m, C m 0 = 1) by (intros m; unfold C; rewrite Nat.sub_0_r; cbn [fact INR]; field; apply INR_fact_neq_0).
  assert (Cn : forall m, C m m = 1) by (intros m; unfold C; rewrite Nat.sub_diag; cbn [fact INR]; field; apply INR_fact_neq_0).
  destruct n as [|n].
  - cbn [sum_f_R0]. rewrite !C0, Cn. cbn. ring.
  - rewrite (decomp_sum _ (S (S n))) by lia. cbn [Nat.pred]. rewrite tech5.
    rewrite (decomp_sum (fun i => C (S n) i * t ^ i * (1 - t) ^ (S n - i) * g i) (S n)) by lia. cbn [Nat.pred].
    rewrite (tech5 (fun i => C (S n) i * t ^ i * (1 - t) ^ (S n - i) * g (S i)) n).
    rewrite !C0, !Cn. rewrite !Nat.sub_diag, !Nat.sub_0_r.
    assert (E : sum_f_R0 (fun i => C (S (S n)) (S i) * t ^ S i * (1 - t) ^ (S (S n) - S i) * g (S i)) n =
      (1 - t) * sum_f_R0 (fun i => C (S n) (S i) * t ^ S i * (1 - t) ^ (S n - S i) * g (S i)) n + t * sum_f_R0 (fun i => C (S n) i * t ^ i * (1 - t) ^ (S n - i) * g (S i)) n).
    { rewrite !scal_sum, <- plus_sum. apply sum_eq. intros i L. rewrite <- pascal by lia.
      replace (S (S n) - S i)%nat with (S (n - i)) by lia. replace (S n - i)%nat with (S (n - i)) by lia. replace (S n - S i)%nat with (n - i)%nat by lia. cbn [pow]. ring. }
    rewrite E. cbn [pow]. ring.
Qed.
Lemma bernstein n : forall g t, sum_f_R0 (fun i => C n i * t ^ i * (1 - t) ^ (n - i) * g i) n = bz n g t.
Proof.
  induction n as [|n IH]; intros g t.
  - cbn [sum_f_R0]. unfold bz. cbn [mixn]. unfold C. cbn. field.
  - rewrite bernstein_S, (IH g), (IH (fun i => g (S i))), bz_S. unfold bz, mixf. rewrite mixn_lin. reflexivity.
Qed.
Lemma bezier_bz c t : bezier c t = bz (length c - 1) (fun i => nth i c 0) t.
Proof. unfold bezier. apply (bernstein (length c - 1) (fun i => nth i c 0)). Qed.
(** de Casteljau's construction computes the same *)
Lemma mix_nth t l : forall i, (S i < length l)%nat -> nth i (mix t l) 0 = (1 - t) * nth i l 0 + t * nth (S i) l 0.
Proof.
  induction l as [|a l IH]; intros i L; [cbn in L; lia|]. destruct l as [|b l]; [cbn in L; lia|]. destruct i as [|i]; [reflexivity|].
  change (mix t (a :: b :: l)) with ((1 - t) * a + t * b :: mix t (b :: l)). cbn [nth]. apply IH. cbn in *. lia.
Qed.
Lemma mix_length t l : length (mix t l) = (length l - 1)%nat.
Proof.
  induction l as [|a l IH]; [reflexivity|]. destruct l as [|b l]; [reflexivity|]. change (mix t (a :: b :: l)) with ((1 - t) * a + t * b :: mix t (b :: l)). cbn [length] in *. rewrite IH. lia.
Qed.
Lemma mixed_bz n : forall t l, length l = S n -> mixed n t l = bz n (fun i => nth i l 0) t.
Proof.
  induction n as [|n IH]; intros t l L.
  - destruct l; reflexivity.
  - cbn [mixed]. rewrite IH by (rewrite mix_length; lia). rewrite bz_S. apply bz_ext. intros i Li. unfold mixf. apply mix_nth. lia.
Qed.
Theorem casteljau_bezier l t : l <> [] -> casteljau l t = bezier l t.
Proof.
  intros NE. rewrite bezier_bz. unfold casteljau. apply mixed_bz. destruct l; [congruence|]. cbn [length]. lia.
Qed.

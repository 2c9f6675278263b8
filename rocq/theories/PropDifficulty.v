(** Properties C06-C10 and C53: the Difficulty type. *)
From Coq Require Import Reals Lra.
From Verif Require Import Difficulty SpecMods SpecDifficulty FloatLemmas DifficultyProofs.
Open Scope Z_scope.

(** Whether a closed base value is in range is a computation. *)
Definition base_okb (x : f64) : bool := fle f0 x && fle x (fq 10 1).
Lemma base_okb_ok x : base_okb x = true -> base_ok x.
Proof. unfold base_okb, base_ok. now rewrite andb_true_iff. Qed.
Ltac base := apply base_okb_ok; vm_compute; reflexivity.

(** C06.  Derived attributes are never stale: whatever the starting value [d]
    (even one with arbitrary derived fields), after one or more setter calls it
    is the freshly built Difficulty of the last value given to each setting. *)
Theorem C06_never_stale : forall l d, l <> [] -> fold_left call l d =
  built (last_given g_hp l (d_hp d)) (last_given g_cs l (d_cs d)) (last_given g_od l (d_od d)) (last_given g_ar l (d_ar d))
        (last_given g_mods l (d_Mods d)) (last_given g_speed l (d_CustomSpeed d)).
Proof. exact calls_any. Qed.
Print Assumptions C06_never_stale.
(** ... and from NewDifficulty for any history, the empty one included. *)
Theorem C06_from_new : forall l hp cs od ar, fold_left call l (new_difficulty hp cs od ar) =
  built (last_given g_hp l hp) (last_given g_cs l cs) (last_given g_od l od) (last_given g_ar l ar)
        (last_given g_mods l 0) (last_given g_speed l (fq 1 1)).
Proof. intros. rewrite new_built. apply calls_built. Qed.
Print Assumptions C06_from_new.
(** ... so two histories with the same last values give the same Difficulty. *)
Theorem C06_order_irrelevant : forall l l' hp cs od ar,
  (forall x, last_given g_hp l x = last_given g_hp l' x) -> (forall x, last_given g_cs l x = last_given g_cs l' x) ->
  (forall x, last_given g_od l x = last_given g_od l' x) -> (forall x, last_given g_ar l x = last_given g_ar l' x) ->
  (forall x, last_given g_mods l x = last_given g_mods l' x) -> (forall x, last_given g_speed l x = last_given g_speed l' x) ->
  fold_left call l (new_difficulty hp cs od ar) = fold_left call l' (new_difficulty hp cs od ar).
Proof. intros l l' hp cs od ar E1 E2 E3 E4 E5 E6. now rewrite !C06_from_new, E1, E2, E3, E4, E5, E6. Qed.
Print Assumptions C06_order_irrelevant.
(** HardRock+DoubleTime set before the base values and an overwritten AR: the
    attributes are those of CS 4, OD 8, AR 9 with both mods. *)
Definition history := [SetMods (16 + 64); SetAR (fq 3 1); SetCS (fq 4 1); SetOD (fq 8 1); SetAR (fq 9 1)].
Example C06_instance :
  let d := fold_left call history (new_difficulty (fq 5 1) (fq 5 1) (fq 5 1) (fq 5 1)) in
  d = built (fq 5 1) (fq 4 1) (fq 8 1) (fq 9 1) 80 (fq 1 1) /\
  feq (d_Preempt d) (fq 450 1) = true /\ feq (d_Hit300 d) (fq 20 1) = true /\ feq (d_ARReal d) (fq 11 1) = true.
Proof.
  intros d. split; [exact (C06_from_new history _ _ _ _)|]. vm_compute. auto.
Qed.
Example C06_order_instance :
  fold_left call [SetMods 16; SetAR (fq 3 1); SetAR (fq 9 1)] (new_difficulty (fq 5 1) (fq 5 1) (fq 5 1) (fq 5 1)) =
  fold_left call [SetAR (fq 9 1); SetMods 2; SetMods 16] (new_difficulty (fq 5 1) (fq 5 1) (fq 5 1) (fq 5 1)).
Proof. apply C06_order_irrelevant; intro; reflexivity. Qed.

(** C07.  Documented ranges. *)
Theorem C07_ranges : forall hp cs od ar m sp, base_ok cs -> base_ok od -> base_ok ar ->
  let d := built hp cs od ar m sp in
  (fle (fq 96 10) (d_CircleRadius d) = true /\ fle (d_CircleRadius d) (fq 544 10) = true) /\
  (fle (fq 450 1) (d_Preempt d) = true /\ fle (d_Preempt d) (fq 1800 1) = true) /\
  (fle (fq 20 1) (d_Hit300 d) = true /\ fle (d_Hit300 d) (fq 80 1) = true) /\
  (fle (fq 60 1) (d_Hit100 d) = true /\ fle (d_Hit100 d) (fq 140 1) = true) /\
  (fle (fq 100 1) (d_Hit50 d) = true /\ fle (d_Hit50 d) (fq 200 1) = true) /\
  (fle (fq 3 1) (d_SpinnerRatio d) = true /\ fle (d_SpinnerRatio d) (fq 75 10) = true).
Proof. exact attrs_range. Qed.
Print Assumptions C07_ranges.
Theorem C07_windows_ordered : forall hp cs od ar m sp, base_ok od ->
  let d := built hp cs od ar m sp in flt (d_Hit300 d) (d_Hit100 d) = true /\ flt (d_Hit100 d) (d_Hit50 d) = true.
Proof. exact windows_order. Qed.
Print Assumptions C07_windows_ordered.
(** the ends of the ranges are reached (9.6 up to rounding), so they cannot be narrowed *)
Example C07_instance :
  base_ok f0 /\ base_ok (fq 10 1) /\ base_ok (fq 73 10) /\
  feq (d_CircleRadius (built f0 f0 f0 f0 0 (fq 1 1))) (fq 544 10) = true /\
  fle (d_CircleRadius (built f0 (fq 10 1) f0 f0 0 (fq 1 1))) (fq 9600000000001 1000000000000) = true /\
  feq (d_Hit300 (built f0 f0 (fq 73 10) f0 16 (fq 1 1))) (fq 20 1) = true.
Proof. split; [base|]. split; [base|]. split; [base|]. vm_compute. auto. Qed.

(** C08.  Monotone in the base values. *)
Theorem C08_monotone : forall hp cs od ar cs' od' ar' m sp,
  base_ok cs -> base_ok od -> base_ok ar -> base_ok cs' -> base_ok od' -> base_ok ar' ->
  fle cs cs' = true -> fle od od' = true -> fle ar ar' = true ->
  let d := built hp cs od ar m sp in let d' := built hp cs' od' ar' m sp in
  fle (d_CircleRadius d') (d_CircleRadius d) = true /\ fle (d_Preempt d') (d_Preempt d) = true /\
  fle (d_Hit300 d') (d_Hit300 d) = true /\ fle (d_Hit100 d') (d_Hit100 d) = true /\ fle (d_Hit50 d') (d_Hit50 d) = true /\
  fle (d_SpinnerRatio d) (d_SpinnerRatio d') = true.
Proof. exact mono_attrs. Qed.
Print Assumptions C08_monotone.
Example C08_instance :
  let d := built (fq 5 1) (fq 4 1) (fq 7 1) (fq 8 1) 2 (fq 1 1) in
  let d' := built (fq 5 1) (fq 5 1) (fq 8 1) (fq 9 1) 2 (fq 1 1) in
  (fle (d_CircleRadius d') (d_CircleRadius d) = true /\ fle (d_Preempt d') (d_Preempt d) = true /\
   fle (d_Hit300 d') (d_Hit300 d) = true /\ fle (d_Hit100 d') (d_Hit100 d) = true /\ fle (d_Hit50 d') (d_Hit50 d) = true /\
   fle (d_SpinnerRatio d) (d_SpinnerRatio d') = true) /\ flt (d_Preempt d') (d_Preempt d) = true.
Proof. split; [apply C08_monotone; first [base | vm_compute; reflexivity]|vm_compute; reflexivity]. Qed.

(** C09.  HardRock never makes a stat easier, Easy never harder: masks that
    agree on the other of the two mods. *)
Theorem C09_hardrock : forall hp cs od ar m m' sp sp', base_ok cs -> base_ok od -> base_ok ar ->
  Z.testbit m bHR = false -> Z.testbit m' bHR = true -> Z.testbit m bEZ = Z.testbit m' bEZ ->
  let d := built hp cs od ar m sp in let d' := built hp cs od ar m' sp' in
  fle (d_CircleRadius d') (d_CircleRadius d) = true /\ fle (d_Preempt d') (d_Preempt d) = true /\
  fle (d_Hit300 d') (d_Hit300 d) = true /\ fle (d_Hit100 d') (d_Hit100 d) = true /\ fle (d_Hit50 d') (d_Hit50 d) = true.
Proof. intros. apply harder_attrs; auto. now apply hr_adj_le. Qed.
Print Assumptions C09_hardrock.
Theorem C09_easy : forall hp cs od ar m m' sp sp', base_ok cs -> base_ok od -> base_ok ar ->
  Z.testbit m bEZ = false -> Z.testbit m' bEZ = true -> Z.testbit m bHR = Z.testbit m' bHR ->
  let d := built hp cs od ar m sp in let d' := built hp cs od ar m' sp' in
  fle (d_CircleRadius d) (d_CircleRadius d') = true /\ fle (d_Preempt d) (d_Preempt d') = true /\
  fle (d_Hit300 d) (d_Hit300 d') = true /\ fle (d_Hit100 d) (d_Hit100 d') = true /\ fle (d_Hit50 d) (d_Hit50 d') = true.
Proof. intros. apply harder_attrs; auto. now apply ez_adj_le. Qed.
Print Assumptions C09_easy.
Example C09_instance :
  let d m := built (fq 5 1) (fq 4 1) (fq 7 1) (fq 8 1) m (fq 1 1) in
  (Z.testbit 8 bHR = false /\ Z.testbit (8 + 16) bHR = true /\ Z.testbit 8 bEZ = Z.testbit (8 + 16) bEZ) /\
  (Z.testbit 0 bEZ = false /\ Z.testbit 2 bEZ = true /\ Z.testbit 0 bHR = Z.testbit 2 bHR) /\
  flt (d_CircleRadius (d 24)) (d_CircleRadius (d 8)) = true /\ flt (d_Hit50 (d 0)) (d_Hit50 (d 2)) = true.
Proof. vm_compute. auto 10. Qed.

(** C10.  Clock rate, and real AR/OD. *)
Theorem C10_speed : forall hp cs od ar m,
  feq (d_Speed (built hp cs od ar m (fq 1 1)))
    (if Z.testbit m bDT then fq 3 2 else if Z.testbit m bHT then fq 3 4 else fq 1 1) = true.
Proof. exact speed_value. Qed.
Print Assumptions C10_speed.
Theorem C10_real_ar_od : forall hp cs od ar m, base_ok od -> base_ok ar -> Z.testbit m bDT = false -> Z.testbit m bHT = false ->
  let d := built hp cs od ar m (fq 1 1) in
  (fin (d_ARReal d) /\ Rabs (B2R (d_ARReal d) - modded m (7/5) (B2R ar)) <= / 1000000000000)%R /\
  (fin (d_ODReal d) /\ Rabs (B2R (d_ODReal d) - modded m (7/5) (B2R od)) <= / 1000000000000)%R.
Proof. exact real_ar_od. Qed.
Print Assumptions C10_real_ar_od.
Example C10_instance :
  base_ok (fq 83 10) /\ Z.testbit 24 bDT = false /\ Z.testbit 24 bHT = false /\ Z.testbit 576 bDT = true /\
  feq (d_ARReal (built f0 f0 (fq 83 10) (fq 3 1) 24 (fq 1 1))) (fq 42 10) = true.
Proof. split; [base|]. vm_compute. auto. Qed.

(** C53.  The attributes are osu!'s published formulas up to rounding. *)
Theorem C53_formulas : forall hp cs od ar m sp, base_ok hp -> base_ok cs -> base_ok od -> base_ok ar ->
  let d := built hp cs od ar m sp in
  let CS := modded m (13/10) (B2R cs) in let OD := modded m (7/5) (B2R od) in let AR := modded m (7/5) (B2R ar) in
  within (d_Preempt d) (pieces 1800 1200 450 AR) /\
  within (d_CircleRadius d) (pieces (544/10) 32 (96/10) CS) /\
  within (d_Hit50 d) (pieces 200 150 100 OD) /\
  within (d_Hit100 d) (pieces 140 100 60 OD) /\
  within (d_Hit300 d) (pieces 80 50 20 OD) /\
  within (d_SpinnerRatio d) (pieces 3 5 (15/2) OD) /\
  within (d_HPMod d) (modded m (7/5) (B2R hp)).
Proof. exact attrs_formula. Qed.
Print Assumptions C53_formulas.
(** OD 8: a 32 ms window for a 300 *)
Example C53_instance : base_ok (fq 8 1) /\
  within (d_Hit300 (built (fq 5 1) (fq 4 1) (fq 8 1) (fq 9 1) 0 (fq 1 1))) 32.
Proof.
  assert (H8 : base_ok (fq 8 1)) by base. assert (H4 : base_ok (fq 4 1)) by base.
  assert (H5 : base_ok (fq 5 1)) by base. assert (H9 : base_ok (fq 9 1)) by base. split; [exact H8|].
  destruct (C53_formulas _ _ _ _ 0 (fq 1 1) H5 H4 H8 H9) as (_ & _ & _ & _ & W & _).
  assert (E : pieces 80 50 20 (modded 0 (7 / 5) (B2R (fq 8 1))) = 32%R).
  { unfold modded. change (Z.testbit 0 bHR) with false. change (Z.testbit 0 bEZ) with false. cbv iota zeta.
    rewrite (proj2 (fq1_exact 8 ltac:(easy))). unfold pieces. destruct (Rle_dec 8 5); lra. }
  rewrite <- E. exact W.
Qed.

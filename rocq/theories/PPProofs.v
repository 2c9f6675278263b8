(** The integer side of the performance points: defaults, accuracy, effective
    misses. *)
From Coq Require Import Reals Lra.
From Flocq Require Import Raux Zaux Core BinarySingleNaN.
From Verif Require Import PP SpecPP BaseLemmas FloatLemmas Float32Lemmas SliderFree SkillProofs CurveProofs.
Open Scope Z_scope.

Lemma wrap_id z : int64 z -> wrap64 z = z.
Proof. unfold int64, wrap64. intros H. rewrite Z.mod_small; lia. Qed.
Lemma wrap_mod z : exists k, wrap64 z = z + k * 2 ^ 64.
Proof. exists (- ((z + 2 ^ 63) / 2 ^ 64)). unfold wrap64. rewrite Z.mod_eq by lia. lia. Qed.
Lemma wrap_same z z' : (exists k, z = z' + k * 2 ^ 64) -> wrap64 z = wrap64 z'.
Proof. intros (k & ->). unfold wrap64. f_equal. rewrite <- (Z.mod_add (z' + 2 ^ 63) k (2 ^ 64)) by lia. f_equal. lia. Qed.
Lemma wrap_range z : int64 (wrap64 z).
Proof. unfold int64, wrap64. pose proof (Z.mod_pos_bound (z + 2 ^ 63) (2 ^ 64)). lia. Qed.
Lemma maxI_max a b : maxI a b = Z.max a b. Proof. unfold maxI. destruct (Z.ltb_spec b a); lia. Qed.
Lemma minI_min a b : minI a b = Z.min a b. Proof. unfold minI. destruct (Z.ltb_spec a b); lia. Qed.

(** ** Clamping and flooring *)
Open Scope R_scope.
Lemma floor_int (x : f64) n : fin x -> 0 <= B2R x <= IZR n -> (n <= 2 ^ 53)%Z -> int_of_f (ffloor x) = Zfloor (B2R x) /\ (0 <= Zfloor (B2R x) <= n)%Z.
Proof.
  intros F B N. assert (R : (0 <= Zfloor (B2R x) <= n)%Z).
  { split; [apply Zfloor_lub; exact (proj1 B)|]. apply le_IZR. apply Rle_trans with (B2R x); [apply Zfloor_lb|apply B]. }
  split; [|exact R]. pose proof (Bnearbyint_correct 53 1024 _ mode_DN x) as (E & Fi & _). fold (ffloor x) in E, Fi.
  rewrite round_FIX_IZR in E. cbn [round_mode] in E. set (y := ffloor x) in *. rewrite F in Fi. pose proof (Btrunc_correct 53 1024 _ y) as T. rewrite E in T.
  assert (T' : Btrunc y = Zfloor (B2R x)).
  { apply eq_IZR. rewrite T, round_FIX_IZR. now rewrite Ztrunc_IZR. }
  destruct y as [s|s| |s m e b]; try discriminate Fi; unfold int_of_f; rewrite T'; unfold min_int64, max_int64;
    rewrite (proj2 (Z.leb_le _ _)), (proj2 (Z.leb_le _ _)) by lia; reflexivity.
Qed.

(** ** Accuracy *)
Lemma fZ_rnd z : int64 z -> fin (f_of_Z z) /\ B2R (f_of_Z z) = rnd64 (IZR z).
Proof. intros H. apply f_of_Z_rnd. apply Z.le_trans with (2 ^ 63)%Z; [unfold int64 in H; lia|]. now apply Z.pow_le_mono_r. Qed.
Lemma fZ_int z : int64 z -> fin (f_of_Z z) /\ Rabs (B2R (f_of_Z z)) <= 9223372036854775808 /\ (z <> 0%Z -> B2R (f_of_Z z) <> 0).
Proof.
  intros H. destruct (fZ_rnd z H) as (F & E).
  split; [exact F|]. rewrite E. split.
  - apply (rnd_bound 53 1024 _ 63); [vm_compute; discriminate|]. change (bpow radix2 63) with (IZR (2 ^ 63)). rewrite <- abs_IZR. apply IZR_le. unfold int64 in H. lia.
  - intros Z0 C. destruct (Z.lt_total z 0) as [L|[L|L]]; [|lia|].
    + assert (X : rnd64 (IZR z) <= IZR (-1)) by (apply rnd64_exact_Z; [lia|apply IZR_le; lia]). rewrite C in X. lra.
    + assert (X : IZR 1 <= rnd64 (IZR z)) by (apply rnd64_exact_Z'; [lia|apply IZR_le; lia]). rewrite C in X. lra.
Qed.
Lemma acc_unit n300 n100 n50 total : int64 n300 -> int64 n100 -> int64 n50 -> int64 total -> within 0 1 (pp_acc n300 n100 n50 total).
Proof.
  intros A B C T. unfold pp_acc. destruct (Z.eqb_spec total 0) as [Z|Z]; [split; [reflexivity|change (B2R f0) with 0; lra]|].
  apply clamp_unit. destruct (fZ_int _ A) as (FA & BA & _). destruct (fZ_int _ B) as (FB & BB & _). destruct (fZ_int _ C) as (FC & BC & _). destruct (fZ_int _ T) as (FT & BT & NT). specialize (NT Z).
  destruct (fq1_exact 50) as (F50 & E50); [lia|]. destruct (fq1_exact 100) as (F100 & E100); [lia|]. destruct (fq1_exact 300) as (F300 & E300); [lia|].
  assert (MUL : forall (x c : f64) r, fin x -> fin c -> B2R c = r -> 0 <= r <= 300 -> Rabs (B2R x) <= 9223372036854775808 ->
     fin (fmul x c) /\ Rabs (B2R (fmul x c)) <= bpow radix2 72 /\ B2R (fmul x c) = rnd64 (B2R x * r)).
  { intros x c r Fx Fc Ec Br Bx. assert (Bm : Rabs (B2R x * B2R c) <= bpow radix2 72).
    { rewrite Ec, Rabs_mult, (Rabs_pos_eq r) by lra. apply Rle_trans with (9223372036854775808 * 300); [apply Rmult_le_compat; try lra; apply Rabs_pos|].
      change (bpow radix2 72) with (IZR (2 ^ 72)). lra. }
    destruct (fmul_fin x c Fx Fc) as (F & E); [apply Rle_trans with (1 := Bm); apply bpow_le; lia|]. split; [exact F|]. rewrite E. split; [|now rewrite Ec].
    apply (rnd_bound 53 1024); [vm_compute; discriminate|exact Bm]. }
  destruct (MUL _ _ 50 FC F50 E50 ltac:(lra) BC) as (F1 & B1 & _). destruct (MUL _ _ 100 FB F100 E100 ltac:(lra) BB) as (F2 & B2 & _).
  destruct (MUL _ _ 300 FA F300 E300 ltac:(lra) BA) as (F3 & B3 & _). destruct (MUL _ _ 300 FT F300 E300 ltac:(lra) BT) as (F4 & _ & E4).
  assert (ADD : forall (x y : f64) k, (72 <= k < 80)%Z -> fin x -> fin y -> Rabs (B2R x) <= bpow radix2 k -> Rabs (B2R y) <= bpow radix2 k -> fin (fadd x y) /\ Rabs (B2R (fadd x y)) <= bpow radix2 (k + 1)).
  { intros x y k K Fx Fy Bx By. assert (Bm : Rabs (B2R x + B2R y) <= bpow radix2 (k + 1)).
    { rewrite bpow_plus. change (bpow radix2 1) with 2. pose proof (Rabs_triang (B2R x) (B2R y)). lra. }
    destruct (fadd_fin x y Fx Fy) as (F & E); [apply Rle_trans with (1 := Bm); apply bpow_le; lia|]. split; [exact F|]. rewrite E.
    apply (rnd_bound 53 1024); [unfold SpecFloat.emin; lia|exact Bm]. }
  destruct (ADD _ _ 72%Z ltac:(lia) F1 F2 B1 B2) as (F5 & B5). assert (B3' : Rabs (B2R (fmul (f_of_Z n300) (fq 300 1))) <= bpow radix2 73) by (apply Rle_trans with (1 := B3); apply bpow_le; lia).
  destruct (ADD _ _ 73%Z ltac:(lia) F5 F3 B5 B3') as (F6 & B6). set (num_ := fadd (fadd _ _) _) in *. set (den := fmul (f_of_Z total) (fq 300 1)) in *.
  assert (T1 : 1 <= Rabs (B2R (f_of_Z total))).
  { destruct (fZ_rnd total T) as (_ & ->).
    destruct (Z.lt_total total 0) as [L|[L|L]]; [|lia|].
    + assert (X : rnd64 (IZR total) <= IZR (-1)) by (apply rnd64_exact_Z; [lia|apply IZR_le; lia]). unfold Rabs. destruct (Rcase_abs _); lra.
    + assert (X : IZR 1 <= rnd64 (IZR total)) by (apply rnd64_exact_Z'; [lia|apply IZR_le; lia]). unfold Rabs. destruct (Rcase_abs _); lra. }
  assert (D1 : 1 <= Rabs (B2R den)).
  { rewrite E4. unfold Rabs in T1. destruct (Rcase_abs (B2R (f_of_Z total))) as [L|L].
    - assert (X : rnd64 (B2R (f_of_Z total) * 300) <= IZR (-1)) by (apply rnd64_exact_Z; [lia|lra]). unfold Rabs. destruct (Rcase_abs _); lra.
    - assert (X : IZR 1 <= rnd64 (B2R (f_of_Z total) * 300)) by (apply rnd64_exact_Z'; [lia|lra]). unfold Rabs. destruct (Rcase_abs _); lra. }
  destruct (fdiv_fin num_ den F6 F4) as (F & _); [intros X; rewrite X, Rabs_R0 in D1; lra| |exact (fin_num _ _ _ F)].
  unfold Rdiv. rewrite Rabs_mult. rewrite (Rabs_inv (B2R den)). apply Rle_trans with (bpow radix2 74 * 1); [|rewrite Rmult_1_r; apply bpow_le; lia].
  apply Rmult_le_compat; try apply Rabs_pos; [left; apply Rinv_0_lt_compat; lra|exact B6|]. rewrite <- Rinv_1. apply Rinv_le_contravar; lra.
Qed.
(** small counts: the correctly rounded quotient *)
Lemma acc_value n300 n100 n50 total : (0 <= n300 <= 2 ^ 40)%Z -> (0 <= n100 <= 2 ^ 40)%Z -> (0 <= n50 <= 2 ^ 40)%Z -> (0 < total <= 2 ^ 40)%Z ->
  (n300 + n100 + n50 <= total)%Z ->
  is_finite (pp_acc n300 n100 n50 total) = true /\ B2R (pp_acc n300 n100 n50 total) = rnd64 (IZR (300 * n300 + 100 * n100 + 50 * n50) / IZR (300 * total)).
Proof.
  intros A B C T S. unfold pp_acc. rewrite (proj2 (Z.eqb_neq total 0)) by lia.
  destruct (f_of_Z_exact n300) as (FA & EA); [lia|]. destruct (f_of_Z_exact n100) as (FB & EB); [lia|]. destruct (f_of_Z_exact n50) as (FC & EC); [lia|]. destruct (f_of_Z_exact total) as (FT & ET); [lia|].
  destruct (fq1_exact 50) as (F50 & E50); [lia|]. destruct (fq1_exact 100) as (F100 & E100); [lia|]. destruct (fq1_exact 300) as (F300 & E300); [lia|].
  assert (MUL : forall (x c : f64) n r, fin x -> fin c -> B2R x = IZR n -> B2R c = IZR r -> (0 <= r <= 300)%Z -> (0 <= n <= 2 ^ 40)%Z -> fin (fmul x c) /\ B2R (fmul x c) = IZR (r * n)).
  { intros x c n r Fx Fc Ex Ec Br Bn. assert (L : (Z.abs (r * n) <= 2 ^ 53)%Z) by nia. destruct (fmul_fin x c Fx Fc) as (F & E).
    - rewrite Ex, Ec, <- mult_IZR. apply (IZR_bound _ 53); [rewrite Z.mul_comm; exact L|lia].
    - split; [exact F|]. rewrite E, Ex, Ec, <- mult_IZR, Z.mul_comm. now apply rnd64_Z. }
  assert (ADD : forall (x y : f64) n m, fin x -> fin y -> B2R x = IZR n -> B2R y = IZR m -> (Z.abs (n + m) <= 2 ^ 53)%Z -> fin (fadd x y) /\ B2R (fadd x y) = IZR (n + m)).
  { intros x y n m Fx Fy Ex Ey L. destruct (fadd_fin x y Fx Fy) as (F & E).
    - rewrite Ex, Ey, <- plus_IZR. apply (IZR_bound _ 53); [exact L|lia].
    - split; [exact F|]. rewrite E, Ex, Ey, <- plus_IZR. now apply rnd64_Z. }
  destruct (MUL _ _ _ _ FC F50 EC E50 ltac:(lia) ltac:(lia)) as (F1 & E1). destruct (MUL _ _ _ _ FB F100 EB E100 ltac:(lia) ltac:(lia)) as (F2 & E2).
  destruct (MUL _ _ _ _ FA F300 EA E300 ltac:(lia) ltac:(lia)) as (F3 & E3). destruct (MUL _ _ _ _ FT F300 ET E300 ltac:(lia) ltac:(lia)) as (F4 & E4).
  destruct (ADD _ _ _ _ F1 F2 E1 E2 ltac:(lia)) as (F5 & E5). destruct (ADD _ _ _ _ F5 F3 E5 E3 ltac:(lia)) as (F6 & E6).
  set (x := fadd (fadd _ _) _) in *. set (y := fmul (f_of_Z total) _) in *. clearbody x y.
  assert (Q : 0 <= B2R x / B2R y <= 1).
  { rewrite E6, E4. assert (P : 0 < IZR (300 * total)) by (apply IZR_lt; lia). split; [apply Rle_mult_inv_pos; [apply IZR_le; lia|exact P]|].
    apply Rmult_le_reg_r with (1 := P). unfold Rdiv. rewrite Rmult_assoc, Rinv_l, Rmult_1_r, Rmult_1_l by lra. apply IZR_le. lia. }
  destruct (fdiv_fin x y F6 F4) as (F & E); [rewrite E4; apply IZR_neq; lia|rewrite Rabs_pos_eq by apply Q; apply Rle_trans with 1; [apply Q|]; change 1 with (bpow radix2 0); apply bpow_le; lia|].
  assert (Q' : 0 <= B2R (fdiv x y) <= 1).
  { rewrite E. split; [apply rnd64_pos; apply Q|]. apply (rnd64_exact_Z 1); [lia|apply Q]. }
  destruct (clamp_unit _ (fin_num _ _ _ F)) as (F' & B'). split; [exact F'|].
  rewrite E6, E4 in E. replace (300 * n300 + 100 * n100 + 50 * n50)%Z with (50 * n50 + 100 * n100 + 300 * n300)%Z by ring. rewrite <- E.
  destruct (fq1_exact 1) as (F1' & E1'); [lia|]. rewrite <- (key_fin _ _ _ F'), <- (key_fin _ _ _ F). unfold clampF64.
  destruct (fmax_key f0 (fdiv x y) eq_refl (fin_num _ _ _ F)) as (N2 & K2). destruct (fmin_key (fq 1 1) (fmax f0 (fdiv x y)) (fin_num _ _ _ F1') N2) as (_ & K3).
  rewrite K3, K2, (key_fin _ _ _ F1'), (key_fin _ _ _ F), E1'. cbn [key f0 B2R]. rewrite Rmax_right by lra. apply Rmin_right. lra.
Qed.
(** all 300s, any positive count *)
Lemma acc_perfect n : (0 < n < 2 ^ 63)%Z -> pp_acc n 0 0 n = fq 1 1.
Proof.
  intros N. unfold pp_acc. rewrite (proj2 (Z.eqb_neq n 0)) by lia. assert (I : int64 n) by (unfold int64; lia). destruct (fZ_int n I) as (F & B & NZ). specialize (NZ ltac:(lia)).
  destruct (fq1_exact 300) as (F300 & E300); [lia|].
  assert (P : 1 <= B2R (f_of_Z n)).
  { destruct (fZ_rnd n I) as (_ & ->). apply (rnd64_exact_Z' 1); [lia|apply IZR_le; lia]. }
  rewrite Rabs_pos_eq in B by lra.
  destruct (fmul_fin _ _ F F300) as (F4 & E4). { rewrite E300, Rabs_pos_eq by lra. apply Rle_trans with (bpow radix2 72); [|apply bpow_le; lia]. change (bpow radix2 72) with (IZR (2 ^ 72)). lra. }
  assert (P4 : 1 <= B2R (fmul (f_of_Z n) (fq 300 1))) by (rewrite E4, E300; apply (rnd64_exact_Z' 1); [lia|lra]).
  set (x := fmul (f_of_Z n) (fq 300 1)) in *. clearbody x.
  assert (Z0 : fadd (fadd (fmul (f_of_Z 0) (fq 50 1)) (fmul (f_of_Z 0) (fq 100 1))) x = x).
  { replace (fadd (fmul (f_of_Z 0) (fq 50 1)) (fmul (f_of_Z 0) (fq 100 1))) with f0 by (apply B2SF_eq; vm_compute; reflexivity).
    destruct x as [s|s| |s m e b]; try discriminate F4; [cbn in P4; lra|reflexivity]. }
  rewrite Z0, div_self by (auto; lra). apply B2SF_eq. vm_compute. reflexivity.
Qed.

(** ** Effective misses *)
Lemma fZ_mono a b : int64 a -> int64 b -> (a <= b)%Z -> B2R (f_of_Z a) <= B2R (f_of_Z b).
Proof. intros A B H. destruct (fZ_rnd a A) as (_ & ->). destruct (fZ_rnd b B) as (_ & ->). apply rnd64_le. now apply IZR_le. Qed.
(** the full combo threshold *)
Definition threshold (a : attributes) : f64 := fsub (f_of_Z (at_MaxCombo a)) (fmul (fq 1 10) (f_of_Z (at_Sliders a))).
Definition tenth := fq 1 10.
Lemma tenth_val : fin tenth /\ 0 <= B2R tenth <= 1.
Proof.
  assert (F : fin tenth) by (vm_compute; reflexivity). split; [exact F|]. assert (H0 : fle f0 tenth = true) by (vm_compute; reflexivity). assert (H1 : fle tenth (fq 1 1) = true) by (vm_compute; reflexivity).
  destruct (fq1_exact 1) as (F1 & E1); [lia|]. destruct (fle_between f0 tenth (fq 1 1) eq_refl F1 H0 H1) as (_ & B). rewrite E1 in B. exact B.
Qed.
Lemma threshold_val a : int64 (at_MaxCombo a) -> int64 (at_Sliders a) -> (0 <= at_MaxCombo a)%Z -> (0 <= at_Sliders a)%Z ->
  fin (threshold a) /\ B2R (threshold a) <= B2R (f_of_Z (at_MaxCombo a)).
Proof.
  intros A B A0 B0. unfold threshold. fold tenth. destruct (fZ_int _ A) as (FA & BA & _). destruct (fZ_int _ B) as (FB & BB & _). destruct tenth_val as (Ft & Bt).
  assert (PA : 0 <= B2R (f_of_Z (at_MaxCombo a))) by (destruct (fZ_rnd _ A) as (_ & ->); apply rnd64_pos; now apply IZR_le).
  assert (PB : 0 <= B2R (f_of_Z (at_Sliders a))) by (destruct (fZ_rnd _ B) as (_ & ->); apply rnd64_pos; now apply IZR_le).
  rewrite Rabs_pos_eq in BA, BB by assumption.
  assert (Q : 0 <= B2R tenth * B2R (f_of_Z (at_Sliders a)) <= 9223372036854775808) by (split; nra).
  destruct (fmul_fin tenth _ Ft FB) as (F1 & E1); [rewrite Rabs_pos_eq by apply Q; apply Rle_trans with (bpow radix2 63); [change (bpow radix2 63) with (IZR (2 ^ 63)); lra|apply bpow_le; lia]|].
  assert (Q1 : 0 <= B2R (fmul tenth (f_of_Z (at_Sliders a))) <= 9223372036854775808).
  { rewrite E1. split; [apply rnd64_pos; apply Q|]. apply Rle_trans with (Rabs (rnd64 (B2R tenth * B2R (f_of_Z (at_Sliders a))))); [apply RRle_abs|].
    apply (rnd_bound 53 1024 _ 63); [vm_compute; discriminate|]. change (bpow radix2 63) with (IZR (2 ^ 63)). rewrite Rabs_pos_eq; lra. }
  set (m := fmul tenth _) in *. clearbody m. destruct (fsub_fin _ m FA F1) as (F2 & E2); [apply Rle_trans with (bpow radix2 63); [change (bpow radix2 63) with (IZR (2 ^ 63)); apply Rabs_le; lra|apply bpow_le; lia]|].
  split; [exact F2|]. rewrite E2. apply rnd64_le_f. lra.
Qed.
Definition combo_count (a : attributes) (combo : Z) : f64 :=
  if (0 <? at_Sliders a)%Z then
    if flt (f_of_Z combo) (threshold a) then fdiv (threshold a) (fmax (fq 1 1) (f_of_Z combo)) else f0
  else f0.
Lemma eff_eq a combo miss total : effective_miss_count a combo miss total =
  maxI miss (int_of_f (ffloor (fmin (combo_count a combo) (f_of_Z total)))).
Proof. reflexivity. Qed.
Lemma flt_fin (x y : f64) : fin x -> fin y -> flt x y = true <-> B2R x < B2R y.
Proof. intros Fx Fy. rewrite flt_iff, (key_fin _ _ _ Fx), (key_fin _ _ _ Fy). pose proof (fin_num _ _ _ Fx). pose proof (fin_num _ _ _ Fy). tauto. Qed.
Lemma flt_fin_false (x y : f64) : fin x -> fin y -> flt x y = false <-> B2R y <= B2R x.
Proof. intros Fx Fy. rewrite (flt_false _ _ (fin_num _ _ _ Fx) (fin_num _ _ _ Fy)), (key_fin _ _ _ Fx), (key_fin _ _ _ Fy). reflexivity. Qed.
Lemma fmax_fin (x y : f64) : fin x -> fin y -> fin (fmax x y) /\ B2R (fmax x y) = Rmax (B2R x) (B2R y).
Proof.
  intros Fx Fy. destruct (fmax_key x y (fin_num _ _ _ Fx) (fin_num _ _ _ Fy)) as (N & K). rewrite (key_fin _ _ _ Fx), (key_fin _ _ _ Fy) in K.
  assert (F : fin (fmax x y)). { apply fin_of_key; [exact N|]. rewrite K. pose proof (B2R_lt _ _ x Fx). pose proof (B2R_lt _ _ y Fy). unfold Rmax. destruct (Rle_dec _ _); lra. }
  split; [exact F|]. now rewrite (key_fin _ _ _ F) in K.
Qed.
Lemma fmin_fin (x y : f64) : fin x -> fin y -> fin (fmin x y) /\ B2R (fmin x y) = Rmin (B2R x) (B2R y).
Proof.
  intros Fx Fy. destruct (fmin_key x y (fin_num _ _ _ Fx) (fin_num _ _ _ Fy)) as (N & K). rewrite (key_fin _ _ _ Fx), (key_fin _ _ _ Fy) in K.
  assert (F : fin (fmin x y)). { apply fin_of_key; [exact N|]. rewrite K. pose proof (B2R_lt _ _ x Fx). pose proof (B2R_lt _ _ y Fy). unfold Rmin. destruct (Rle_dec _ _); lra. }
  split; [exact F|]. now rewrite (key_fin _ _ _ F) in K.
Qed.
Definition counts64 (a : attributes) : Prop := int64 (at_MaxCombo a) /\ int64 (at_Sliders a) /\ (0 <= at_MaxCombo a)%Z /\ (0 <= at_Sliders a)%Z.
Lemma div_ge1 (x y : f64) : fin x -> fin y -> 0 <= B2R x -> 1 <= B2R y -> B2R x <= bpow radix2 1000 ->
  fin (fdiv x y) /\ B2R (fdiv x y) = rnd64 (B2R x / B2R y) /\ 0 <= B2R (fdiv x y) <= B2R x.
Proof.
  intros Fx Fy Px Py Bx. assert (Q : 0 <= B2R x / B2R y <= B2R x).
  { split; [apply Rle_mult_inv_pos; lra|]. apply Rmult_le_reg_r with (B2R y); [lra|]. unfold Rdiv. rewrite Rmult_assoc, Rinv_l by lra. nra. }
  destruct (fdiv_fin x y Fx Fy) as (F & E); [lra|rewrite Rabs_pos_eq by apply Q; apply Rle_trans with (bpow radix2 1000); [lra|apply bpow_le; lia]|].
  split; [exact F|]. split; [exact E|]. rewrite E. split; [apply rnd64_pos; apply Q|]. apply rnd64_le_f. apply Q.
Qed.
Lemma one_max combo : int64 combo -> fin (fmax (fq 1 1) (f_of_Z combo)) /\ B2R (fmax (fq 1 1) (f_of_Z combo)) = Rmax 1 (B2R (f_of_Z combo)).
Proof. intros C. destruct (fq1_exact 1) as (F1 & E1); [lia|]. destruct (fZ_int _ C) as (FC & _ & _). destruct (fmax_fin _ _ F1 FC) as (F & E). rewrite E1 in E. auto. Qed.
Lemma count_val a combo : counts64 a -> int64 combo -> (0 <= combo)%Z -> fin (combo_count a combo) /\ 0 <= B2R (combo_count a combo).
Proof.
  intros (A1 & A2 & A3 & A4) C C0. unfold combo_count. destruct (_ <? _)%Z; [|split; [reflexivity|apply Rle_refl]].
  destruct (threshold_val a A1 A2 A3 A4) as (FT & BT). destruct (fZ_int _ C) as (FC & BC & _).
  destruct (flt _ _) eqn:L; [|split; [reflexivity|apply Rle_refl]]. apply (flt_fin _ _ FC FT) in L.
  assert (PC : 0 <= B2R (f_of_Z combo)) by (destruct (fZ_rnd _ C) as (_ & ->); apply rnd64_pos; now apply IZR_le).
  destruct (one_max _ C) as (FM & EM). pose proof (Rmax_l 1 (B2R (f_of_Z combo))) as PM. destruct (fZ_int _ A1) as (_ & BA & _).
  destruct (div_ge1 _ _ FT FM) as (F & _ & B); [lra|lra| |tauto].
  apply Rabs_le_inv in BA. apply Rle_trans with (bpow radix2 63); [change (bpow radix2 63) with (IZR (2 ^ 63)); lra|apply bpow_le; lia].
Qed.
Lemma count_anti a combo combo' : counts64 a -> int64 combo -> int64 combo' -> (0 <= combo <= combo')%Z -> B2R (combo_count a combo') <= B2R (combo_count a combo).
Proof.
  intros A C C' H. pose proof A as (A1 & A2 & A3 & A4). destruct (count_val a combo A C ltac:(lia)) as (_ & P). unfold combo_count in *. destruct (_ <? _)%Z; [|apply Rle_refl].
  destruct (threshold_val a A1 A2 A3 A4) as (FT & BT). destruct (fZ_int _ C) as (FC & BC & _). destruct (fZ_int _ C') as (FC' & BC' & _).
  destruct (flt (f_of_Z combo') _) eqn:L'; [|exact P]. apply (flt_fin _ _ FC' FT) in L'. pose proof (fZ_mono _ _ C C' ltac:(lia)) as MO.
  rewrite (proj2 (flt_fin _ _ FC FT)) by lra. destruct (one_max _ C) as (FM & EM). destruct (one_max _ C') as (FM' & EM').
  assert (PC : 0 <= B2R (f_of_Z combo)) by (destruct (fZ_rnd _ C) as (_ & ->); apply rnd64_pos; apply IZR_le; lia).
  pose proof (Rmax_l 1 (B2R (f_of_Z combo))) as PM. pose proof (Rmax_l 1 (B2R (f_of_Z combo'))) as PM'. destruct (fZ_int _ A1) as (_ & BA & _).
  assert (BT' : B2R (threshold a) <= bpow radix2 1000) by (apply Rabs_le_inv in BA; apply Rle_trans with (bpow radix2 63); [change (bpow radix2 63) with (IZR (2 ^ 63)); lra|apply bpow_le; lia]).
  destruct (div_ge1 _ _ FT FM) as (_ & -> & _); try lra. destruct (div_ge1 _ _ FT FM') as (_ & -> & _); try lra.
  apply rnd64_le. unfold Rdiv. apply Rmult_le_compat_l; [lra|]. rewrite EM, EM'. apply Rinv_le_contravar; [lra|]. apply Rle_max_compat_l. exact MO.
Qed.
Lemma eff_val a combo miss total : counts64 a -> int64 combo -> (0 <= combo)%Z -> (0 <= total <= 2 ^ 53)%Z ->
  effective_miss_count a combo miss total = Z.max miss (Zfloor (Rmin (B2R (combo_count a combo)) (IZR total))) /\
  (0 <= Zfloor (Rmin (B2R (combo_count a combo)) (IZR total)) <= total)%Z.
Proof.
  intros A C C0 T. rewrite eff_eq, maxI_max. destruct (count_val a combo A C C0) as (F & P). destruct (f_of_Z_exact total) as (FT & ET); [lia|].
  destruct (fmin_fin _ _ F FT) as (FM & EM). rewrite ET in EM. assert (TP : 0 <= IZR total) by (apply IZR_le; lia).
  destruct (floor_int _ total FM) as (E & B); [rewrite EM; split; [apply Rmin_glb; lra|apply Rmin_r]|lia|]. rewrite E, EM in *. auto.
Qed.
Lemma eff_bounds a combo miss total : counts64 a -> int64 combo -> (0 <= combo)%Z -> (0 <= miss <= total)%Z -> (total <= 2 ^ 53)%Z ->
  (miss <= effective_miss_count a combo miss total <= total)%Z.
Proof. intros A C C0 T T'. destruct (eff_val a combo miss total A C C0 ltac:(lia)) as (-> & B). lia. Qed.
Lemma eff_anti a combo combo' miss total : counts64 a -> int64 combo -> int64 combo' -> (0 <= combo <= combo')%Z -> (0 <= total <= 2 ^ 53)%Z ->
  (effective_miss_count a combo' miss total <= effective_miss_count a combo miss total)%Z.
Proof.
  intros A C C' H T. destruct (eff_val a combo miss total A C ltac:(lia) T) as (-> & _). destruct (eff_val a combo' miss total A C' ltac:(lia) T) as (-> & _).
  apply Z.max_le_compat_l. apply Zfloor_le. apply Rle_min_compat_r. now apply count_anti.
Qed.
Lemma count_full a combo : counts64 a -> int64 combo -> (at_Sliders a = 0 \/ at_MaxCombo a <= combo)%Z -> combo_count a combo = f0.
Proof.
  intros (A1 & A2 & A3 & A4) C H. unfold combo_count. destruct (Z.ltb_spec 0 (at_Sliders a)) as [S|S]; [|reflexivity]. destruct H as [H|H]; [lia|].
  destruct (threshold_val a A1 A2 A3 A4) as (FT & BT). destruct (fZ_int _ C) as (FC & BC & _). rewrite (proj2 (flt_fin_false _ _ FC FT)); [reflexivity|].
  pose proof (fZ_mono _ _ A1 C H). lra.
Qed.
Lemma eff_full a combo miss total : counts64 a -> int64 combo -> (0 <= combo)%Z -> (at_Sliders a = 0 \/ at_MaxCombo a <= combo)%Z -> (0 <= miss)%Z -> (0 <= total <= 2 ^ 53)%Z ->
  effective_miss_count a combo miss total = miss.
Proof.
  intros A C C0 H M T. destruct (eff_val a combo miss total A C C0 T) as (-> & _). rewrite (count_full a combo A C H). change (B2R f0) with 0.
  rewrite Rmin_left by (apply IZR_le; lia). rewrite (Zfloor_IZR 0). lia.
Qed.

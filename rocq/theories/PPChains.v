(** The four pp values as products of bounded, monotone factors. *)
From Coq Require Import Reals Lra.
From Flocq Require Import Raux Zaux Core BinarySingleNaN.
From Verif Require Import PP SpecPP BaseLemmas FloatLemmas Float32Lemmas SkillProofs CurveProofs PPProofs PPBounds.
Open Scope R_scope.

Ltac bdc := apply bd_const; [vm_compute; reflexivity|vm_compute; reflexivity|vm_compute; reflexivity|lia].
Lemma small_int z : (Z.abs z <= 2 ^ 53)%Z -> Rabs (IZR z) <= bpow radix2 1023. Proof. intros H. apply (IZR_bound z 53); [exact H|lia]. Qed.
Lemma big_1023 x : Rabs x <= 4096 -> Rabs x <= bpow radix2 1023.
Proof. intros H. apply Rle_trans with (1 := H). change 4096 with (bpow radix2 12). apply bpow_le. lia. Qed.
Lemma pow_1024 : bpow radix2 10 = 1024. Proof. reflexivity. Qed.
(** a difference of finite numbers within integer bounds *)
Lemma sub_Z (x y : f64) lo hi : fin x -> fin y -> (-4096 <= lo)%Z -> (hi <= 4096)%Z -> IZR lo <= B2R x - B2R y <= IZR hi ->
  fin (fsub x y) /\ IZR lo <= B2R (fsub x y) <= IZR hi.
Proof.
  intros Fx Fy L H B. assert (L' : -4096 <= IZR lo) by (apply IZR_le; lia). assert (H' : IZR hi <= 4096) by (apply IZR_le; lia).
  assert (LH : (lo <= hi)%Z) by (apply le_IZR; lra).
  destruct (fsub_fin x y Fx Fy) as (F & E); [apply big_1023; apply Rabs_le; lra|]. split; [exact F|]. rewrite E. split; [apply rnd64_exact_Z'|apply rnd64_exact_Z]; try lia; lra.
Qed.
Lemma add_Z (x y : f64) lo hi : fin x -> fin y -> (-4096 <= lo)%Z -> (hi <= 4096)%Z -> IZR lo <= B2R x + B2R y <= IZR hi ->
  fin (fadd x y) /\ IZR lo <= B2R (fadd x y) <= IZR hi.
Proof.
  intros Fx Fy L H B. assert (L' : -4096 <= IZR lo) by (apply IZR_le; lia). assert (H' : IZR hi <= 4096) by (apply IZR_le; lia).
  assert (LH : (lo <= hi)%Z) by (apply le_IZR; lra).
  destruct (fadd_fin x y Fx Fy) as (F & E); [apply big_1023; apply Rabs_le; lra|]. split; [exact F|]. rewrite E. split; [apply rnd64_exact_Z'|apply rnd64_exact_Z]; try lia; lra.
Qed.
(** a product with a factor in [0,1] *)
Lemma mul_unit (c y : f64) lo hi : bd 0 c -> fin y -> (-4096 <= lo <= 0)%Z -> (0 <= hi <= 4096)%Z -> IZR lo <= B2R y <= IZR hi ->
  fin (fmul c y) /\ IZR lo <= B2R (fmul c y) <= IZR hi.
Proof.
  rewrite bd_iff. change (bpow radix2 0) with 1. intros (Fc & Bc) Fy L H B.
  assert (L' : -4096 <= IZR lo <= 0) by (split; [apply (IZR_le (-4096))|apply (IZR_le _ 0)]; lia). assert (H' : 0 <= IZR hi <= 4096) by (split; [apply (IZR_le 0)|apply (IZR_le _ 4096)]; lia).
  assert (Q : IZR lo <= B2R c * B2R y <= IZR hi) by (split; nra).
  destruct (fmul_fin c y Fc Fy) as (F & E); [apply big_1023; apply Rabs_le; lra|]. split; [exact F|]. rewrite E. split; [apply rnd64_exact_Z'|apply rnd64_exact_Z]; try lia; lra.
Qed.
Lemma between_Z (c : f64) lo hi : is_finite c = true -> (Z.abs lo <= 2 ^ 53)%Z -> (Z.abs hi <= 2 ^ 53)%Z -> fle (f_of_Z lo) c = true -> fle c (f_of_Z hi) = true -> IZR lo <= B2R c <= IZR hi.
Proof.
  intros F L H A B. destruct (f_of_Z_exact lo L) as (Fl & El). destruct (f_of_Z_exact hi H) as (Fh & Eh). destruct (fle_between _ c _ Fl Fh A B) as (_ & X). now rewrite El, Eh in X.
Qed.
Lemma bd_10 x lo hi : fin x -> 0 <= lo -> hi <= 1024 -> lo <= B2R x <= hi -> bd 10 x.
Proof. intros F L H B. apply bd_iff. rewrite pow_1024. split; [exact F|lra]. Qed.

Section WithLibm.
Context {M : libm}.
Context (PR : pow_ranges) (LR : log_above).

(** ** Factors that depend on the difficulty *)
Definition ar_high (d : difficulty) : f64 := fmul (fq 3 10) (fsub (d_ARReal d) (fq 1033 100)).
Definition ar_aim (d : difficulty) : f64 :=
  if fgt (d_ARReal d) (fq 1033 100) then ar_high d
  else if flt (d_ARReal d) (fq 8 1) then fmul (fq 1 10) (fsub (fq 8 1) (d_ARReal d)) else f0.
Definition ar_speed (d : difficulty) : f64 := if fgt (d_ARReal d) (fq 1033 100) then ar_high d else f0.
Lemma bd_0 k : bd k f0.
Proof. apply bd_iff. split; [reflexivity|]. change (B2R f0) with 0. pose proof (bpow_gt_0 radix2 k). lra. Qed.
Lemma high_bd d : diff_ok d -> fgt (d_ARReal d) (fq 1033 100) = true -> bd 10 (ar_high d).
Proof.
  intros ((F & B) & _) G. unfold ar_high. assert (Fc : fin (fq 1033 100)) by (vm_compute; reflexivity).
  assert (Bc : IZR 10 <= B2R (fq 1033 100) <= IZR 11) by (apply between_Z; [exact Fc|lia|lia|vm_compute; reflexivity|vm_compute; reflexivity]).
  apply fgt_iff in G as (_ & _ & G). rewrite (key_fin _ _ _ Fc), (key_fin _ _ _ F) in G. set (c := fq 1033 100) in *. clearbody c.
  destruct (sub_Z (d_ARReal d) c 0 3) as (F1 & B1); [exact F|exact Fc|lia|lia|lra|]. destruct (mul_unit (fq 3 10) _ 0 3 ltac:(bdc) F1) as (F2 & B2); [lia|lia|exact B1|].
  apply (bd_10 _ 0 3); auto; lra.
Qed.
Lemma aim_ar_bd d : diff_ok d -> bd 10 (ar_aim d).
Proof.
  intros D. unfold ar_aim. destruct (fgt _ _) eqn:G; [now apply high_bd|]. destruct (flt _ _) eqn:L; [|apply bd_0]. destruct D as ((F & B) & _).
  destruct (fq1_exact 8) as (F8 & E8); [lia|]. apply (flt_fin _ _ F F8) in L. rewrite E8 in L.
  destruct (sub_Z (fq 8 1) (d_ARReal d) 0 1008) as (F1 & B1); [exact F8|exact F|lia|lia|rewrite E8; lra|]. destruct (mul_unit (fq 1 10) _ 0 1008 ltac:(bdc) F1) as (F2 & B2); [lia|lia|exact B1|].
  apply (bd_10 _ 0 1008); auto; lra.
Qed.
Lemma speed_ar_bd d : diff_ok d -> bd 10 (ar_speed d).
Proof. intros D. unfold ar_speed. destruct (fgt _ _) eqn:G; [now apply high_bd|apply bd_0]. Qed.
Definition hidden_factor (d : difficulty) : f64 := fadd (fq 1 1) (fmul (fq 4 100) (fsub (fq 12 1) (d_ARReal d))).
Lemma hidden_bd d : diff_ok d -> bd 10 (hidden_factor d).
Proof.
  intros ((F & B) & _). unfold hidden_factor. destruct (fq1_exact 12) as (F12 & E12); [lia|]. destruct one_val as (F1 & E1).
  destruct (sub_Z (fq 12 1) (d_ARReal d) (-1) 1012) as (Fa & Ba); [exact F12|exact F|lia|lia|rewrite E12; lra|]. destruct (mul_unit (fq 4 100) _ (-1) 1012 ltac:(bdc) Fa) as (Fb & Bb); [lia|lia|exact Ba|].
  destruct (add_Z (fq 1 1) _ 0 1013 F1 Fb) as (Fc & Bc); [lia|lia|rewrite E1; lra|]. apply (bd_10 _ 0 1013); auto; lra.
Qed.
Lemma od_bd d c k : diff_ok d -> bd 0 c -> fin k -> 1 <= B2R k -> bd 22 (fadd c (fdiv (mpow (d_ODReal d) (fq 2 1)) k)).
Proof.
  intros (_ & (F & B)) C Fk Bk. apply (le2_add 21); [lia|lia|apply (le2_le 0); [lia|exact C]|]. apply le2_div; [lia|lia| |exact Fk|exact Bk].
  apply (square_bd PR _ 10); [exact F| |lia]. rewrite pow_1024. apply Rabs_le. lra.
Qed.
Lemma aim_od_bd d : diff_ok d -> bd 22 (fadd (fq 98 100) (fdiv (mpow (d_ODReal d) (fq 2 1)) (fq 2500 1))).
Proof. intros D. destruct (fq1_exact 2500) as (Fk & Ek); [lia|]. apply od_bd; [exact D|bdc|exact Fk|rewrite Ek; lra]. Qed.
Lemma speed_od_bd d : diff_ok d -> bd 22 (fadd (fq 95 100) (fdiv (mpow (d_ODReal d) (fq 2 1)) (fq 750 1))).
Proof. intros D. destruct (fq1_exact 750) as (Fk & Ek); [lia|]. apply od_bd; [exact D|bdc|exact Fk|rewrite Ek; lra]. Qed.
Lemma speed_acc_bd d acc : diff_ok d -> bd 0 acc -> bd 0 (mpow acc (fdiv (fsub (fq 145 10) (fmax (d_ODReal d) (fq 8 1))) (fq 2 1))).
Proof.
  intros (_ & (F & B)) A. destruct (fq1_exact 8) as (F8 & E8); [lia|]. destruct (fq1_exact 2) as (F2 & E2); [lia|]. destruct (fmax_fin _ _ F F8) as (Fm & Em). rewrite E8 in Em.
  assert (Bm : 8 <= B2R (fmax (d_ODReal d) (fq 8 1)) <= 14) by (rewrite Em; split; [apply Rmax_r|apply Rmax_lub; lra]). set (m := fmax _ _) in *. clearbody m.
  assert (Fc : fin (fq 145 10)) by (vm_compute; reflexivity). assert (Bc : IZR 14 <= B2R (fq 145 10) <= IZR 15) by (apply between_Z; [exact Fc|lia|lia|vm_compute; reflexivity|vm_compute; reflexivity]).
  destruct (sub_Z (fq 145 10) m 0 7 Fc Fm) as (Fs & Bs); [lia|lia|lra|]. destruct (div_ge1 _ _ Fs F2) as (Fd & _ & Bd); [lra|rewrite E2; lra| |].
  { apply Rle_trans with 7; [lra|]. apply Rle_trans with (bpow radix2 3); [cbn; lra|apply bpow_le; lia]. }
  apply (unit_bd PR); [exact A|exact Fd|apply Bd].
Qed.
(** the punishment of 50s *)
Definition meh_count (meh total : Z) : f64 :=
  if fge (f_of_Z meh) (fdiv (f_of_Z total) (fq 500 1)) then fsub (f_of_Z meh) (fdiv (f_of_Z total) (fq 500 1)) else f0.
Lemma meh_bd meh total : (0 <= meh <= 2 ^ 31)%Z -> (0 <= total <= 2 ^ 31)%Z -> bd 0 (mpow (fq 98 100) (meh_count meh total)).
Proof.
  intros A T. apply (unit_bd PR); [bdc| |].
  all: unfold meh_count; destruct (bd_Z 31 meh A ltac:(lia)) as (Ba & _); destruct (bd_Z 31 total T ltac:(lia)) as (Bt & _); destruct (fq1_exact 500) as (F5 & E5); [lia|].
  all: assert (Bh : bd 31 (fdiv (f_of_Z total) (fq 500 1))) by (apply le2_div; [lia|lia|exact Bt|exact F5|rewrite E5; lra]).
  all: set (h := fdiv _ _) in *; apply bd_iff in Ba as (Fa & Ba); apply bd_iff in Bh as (Fh & Bh); destruct (fge _ _) eqn:G; [|first [reflexivity|apply Rle_refl]].
  all: apply fge_iff in G as (_ & _ & G); rewrite (key_fin _ _ _ Fa), (key_fin _ _ _ Fh) in G.
  all: assert (S : bpow radix2 31 <= bpow radix2 1023) by (apply bpow_le; lia); destruct (fsub_fin _ _ Fa Fh) as (Fs & Es); [rewrite Rabs_pos_eq; lra|].
  - exact Fs.
  - rewrite Es. apply rnd64_pos. lra.
Qed.

(** ** Aim *)
Definition nerf (p : ppv2) : f64 :=
  let a := pp_attribs p in
  let eds := fmul (f_of_Z (at_Sliders a)) (fq 15 100) in
  if (0 <? at_Sliders a)%Z then
    fadd (fmul (fsub (fq 1 1) (at_SliderFactor a))
               (mpow (fsub (fq 1 1) (fdiv (clampF64 (f_of_Z (minI (wrap64 (wrap64 (pp_ok p + pp_meh p) + pp_miss p)) (wrap64 (at_MaxCombo a - pp_scoreMaxCombo p)))) f0 eds) eds)) (fq 3 1)))
         (at_SliderFactor a)
  else fq 1 1.
Definition same_map (p q : ppv2) : Prop :=
  pp_attribs p = pp_attribs q /\ pp_totalHits p = pp_totalHits q /\ pp_accuracy p = pp_accuracy q /\ pp_meh p = pp_meh q /\ pp_great p = pp_great q /\ pp_ok p = pp_ok q /\
  pp_miss p = pp_miss q /\ pp_accObjects p = pp_accObjects q.
Definition state_ok (p : ppv2) : Prop :=
  attrs_ok (pp_attribs p) /\ (0 <= pp_totalHits p <= 2 ^ 31)%Z /\ bd 0 (pp_accuracy p) /\ (0 <= pp_meh p <= 2 ^ 31)%Z.
(** the same with ratings up to [2 ^ k] *)
Definition state_upto (k : Z) (p : ppv2) : Prop :=
  (bd k (at_Aim (pp_attribs p)) /\ bd k (at_Speed (pp_attribs p)) /\ bd k (at_Flashlight (pp_attribs p))) /\ (0 <= pp_totalHits p <= 2 ^ 31)%Z /\ bd 0 (pp_accuracy p) /\ (0 <= pp_meh p <= 2 ^ 31)%Z.
Lemma touch_bd k x (b : bool) : (0 <= k <= 200)%Z -> bd k x -> bd (k + 1) (if b then mpow x (fq 8 10) else x).
Proof. intros K X. destruct b; [|apply (le2_le k); [lia|exact X]]. destruct (unit_exp 8 10) as (Fe & Be); [bdc|]. replace (k + 1)%Z with (k * 1 + 1)%Z by lia. apply (pow_bd PR k 1); auto; lia. Qed.
Lemma rating_bd x : within 0 1048576 x -> bd 20 x.
Proof. intros H. apply (within_bd _ _ _ H). apply Rle_refl. Qed.
Lemma state_upto_20 p : state_ok p -> state_upto 20 p.
Proof. intros (A & S). split; [|exact S]. destruct A as (A1 & A2 & A3 & _). split; [|split]; apply rating_bd; assumption. Qed.
Lemma aim_wide k j p q d : (0 <= k <= 128)%Z -> (0 <= j <= 150)%Z -> diff_ok d -> state_upto k p -> same_map p q ->
  le2 0 (pen (pp_effMiss p) (pp_totalHits p) (f_of_Z (pp_effMiss p))) (pen (pp_effMiss q) (pp_totalHits q) (f_of_Z (pp_effMiss q))) ->
  le2 0 (scal (pp_scoreMaxCombo p) (at_MaxCombo (pp_attribs p))) (scal (pp_scoreMaxCombo q) (at_MaxCombo (pp_attribs q))) ->
  le2 j (nerf p) (nerf q) -> le2 (3 * k + j + 134) (compute_aim p d) (compute_aim q d).
Proof.
  intros K J D (A & T & AC & _) (E1 & E2 & E3 & _) P S N. unfold compute_aim. fold (ar_high d) (ar_aim d) (hidden_factor d). rewrite <- E1, <- E2, <- E3 in *.
  replace (3 * k + j + 134)%Z with ((3 * k + j + 112) + 22)%Z by lia. apply le2_mul; [lia|lia|lia| |apply aim_od_bd; exact D].
  rewrite <- (Z.add_0_r (3 * k + j + 112)). apply le2_mul; [lia|lia|lia| |exact AC].
  replace (3 * k + j + 112)%Z with ((3 * k + 112) + j)%Z by lia. apply le2_opt; [lia|lia|lia| |].
  2:{ unfold nerf in N. rewrite <- E1 in N. exact N. }
  replace (3 * k + 112)%Z with ((3 * k + 102) + 10)%Z by lia. apply le2_opt; [lia|lia|lia| |destruct (mactive _ _); [apply hidden_bd; exact D|apply (le2_le 0); [lia|exact bd_one]]].
  replace (3 * k + 102)%Z with ((3 * k + 58) + 44)%Z by lia. apply le2_mul; [lia|lia|lia| |].
  2:{ apply (le2_add 43); [lia|lia|apply (le2_le 0); [lia|exact bd_one]|]. change 43%Z with (10 + 33)%Z. apply le2_mul; [lia|lia|lia|apply aim_ar_bd; exact D|apply length_bd; auto]. }
  rewrite <- (Z.add_0_r (3 * k + 58)). apply le2_opt; [lia|lia|lia| |exact S]. rewrite <- (Z.add_0_r (3 * k + 58)). apply le2_opt; [lia|lia|lia| |exact P].
  replace (3 * k + 58)%Z with (((k + 1 + 7) * 3 + 1) + 33)%Z by lia. apply le2_mul; [lia|lia|lia| |apply length_bd; auto].
  apply (base_bd PR (k + 1)); [|lia]. apply touch_bd; [lia|]. apply A.
Qed.
Lemma speed_wide k p q d : (0 <= k <= 128)%Z -> diff_ok d -> state_upto k p -> same_map p q ->
  le2 0 (pen (pp_effMiss p) (pp_totalHits p) (mpow (f_of_Z (pp_effMiss p)) (fq 875 1000))) (pen (pp_effMiss q) (pp_totalHits q) (mpow (f_of_Z (pp_effMiss q)) (fq 875 1000))) ->
  le2 0 (scal (pp_scoreMaxCombo p) (at_MaxCombo (pp_attribs p))) (scal (pp_scoreMaxCombo q) (at_MaxCombo (pp_attribs q))) ->
  le2 (3 * k + 134) (compute_speed p d) (compute_speed q d).
Proof.
  intros K D (A & T & AC & ME) (E1 & E2 & E3 & E4 & _) P S. unfold compute_speed. fold (ar_high d) (ar_speed d) (hidden_factor d) (meh_count (pp_meh p) (pp_totalHits p)) (meh_count (pp_meh q) (pp_totalHits q)). rewrite <- E1, <- E2, <- E3, <- E4 in *.
  rewrite <- (Z.add_0_r (3 * k + 134)). apply le2_mul; [lia|lia|lia| |apply meh_bd; auto]. replace (3 * k + 134)%Z with ((3 * k + 112) + 22)%Z by lia. apply le2_mul; [lia|lia|lia| |].
  2:{ change 22%Z with (22 + 0)%Z. apply le2_mul; [lia|lia|lia|apply speed_od_bd; exact D|apply speed_acc_bd; auto]. }
  replace (3 * k + 112)%Z with ((3 * k + 102) + 10)%Z by lia. apply le2_opt; [lia|lia|lia| |destruct (mactive _ _); [apply hidden_bd; exact D|apply (le2_le 0); [lia|exact bd_one]]].
  replace (3 * k + 102)%Z with ((3 * k + 58) + 44)%Z by lia. apply le2_mul; [lia|lia|lia| |].
  2:{ apply (le2_add 43); [lia|lia|apply (le2_le 0); [lia|exact bd_one]|]. change 43%Z with (10 + 33)%Z. apply le2_mul; [lia|lia|lia|apply speed_ar_bd; exact D|apply length_bd; auto]. }
  rewrite <- (Z.add_0_r (3 * k + 58)). apply le2_opt; [lia|lia|lia| |exact S]. rewrite <- (Z.add_0_r (3 * k + 58)). apply le2_opt; [lia|lia|lia| |exact P].
  replace (3 * k + 58)%Z with (((k + 1 + 7) * 3 + 1) + 33)%Z by lia. apply le2_mul; [lia|lia|lia| |apply length_bd; auto].
  apply (base_bd PR (k + 1)); [|lia]. apply (le2_le k); [lia|]. apply A.
Qed.
Lemma aim_chain p q d : diff_ok d -> state_ok p -> same_map p q ->
  le2 0 (pen (pp_effMiss p) (pp_totalHits p) (f_of_Z (pp_effMiss p))) (pen (pp_effMiss q) (pp_totalHits q) (f_of_Z (pp_effMiss q))) ->
  le2 0 (scal (pp_scoreMaxCombo p) (at_MaxCombo (pp_attribs p))) (scal (pp_scoreMaxCombo q) (at_MaxCombo (pp_attribs q))) ->
  le2 1 (nerf p) (nerf q) -> le2 200 (compute_aim p d) (compute_aim q d).
Proof. intros D S SM P SC N. apply (le2_le (3 * 20 + 1 + 134)); [lia|]. apply aim_wide; auto; [lia|lia|now apply state_upto_20]. Qed.
Lemma speed_chain p q d : diff_ok d -> state_ok p -> same_map p q ->
  le2 0 (pen (pp_effMiss p) (pp_totalHits p) (mpow (f_of_Z (pp_effMiss p)) (fq 875 1000))) (pen (pp_effMiss q) (pp_totalHits q) (mpow (f_of_Z (pp_effMiss q)) (fq 875 1000))) ->
  le2 0 (scal (pp_scoreMaxCombo p) (at_MaxCombo (pp_attribs p))) (scal (pp_scoreMaxCombo q) (at_MaxCombo (pp_attribs q))) ->
  le2 200 (compute_speed p d) (compute_speed q d).
Proof. intros D S SM P SC. apply (le2_le (3 * 20 + 134)); [lia|]. apply speed_wide; auto; [lia|now apply state_upto_20]. Qed.
(** ** Flashlight *)
Definition fl_scale (total : Z) : f64 :=
  let s := fadd (fq 7 10) (fmul (fq 1 10) (fmin (fq 1 1) (fdiv (f_of_Z total) (fq 200 1)))) in
  if (200 <? total)%Z then fadd s (fmul (fq 2 10) (fmin (fq 1 1) (fdiv (f_of_Z (wrap64 (total - 200))) (fq 200 1)))) else s.
Lemma fl_scale_bd total : (0 <= total <= 2 ^ 31)%Z -> bd 2 (fl_scale total).
Proof.
  intros T. unfold fl_scale. destruct (fq1_exact 200) as (F2 & E2); [lia|].
  assert (Q : forall z, (0 <= z <= 2 ^ 31)%Z -> bd 0 (fmin (fq 1 1) (fdiv (f_of_Z z) (fq 200 1)))).
  { intros z Z. destruct (bd_Z 31 z Z ltac:(lia)) as (Bz & _). assert (Bq : bd 31 (fdiv (f_of_Z z) (fq 200 1))) by (apply le2_div; [lia|lia|exact Bz|exact F2|rewrite E2; lra]).
    apply bd_iff in Bq as (Fq & Rq). apply le2_min'; [exact bd_one|exact Fq|exact Fq|lra]. }
  assert (S : bd 1 (fadd (fq 7 10) (fmul (fq 1 10) (fmin (fq 1 1) (fdiv (f_of_Z total) (fq 200 1)))))).
  { apply (le2_add 0); [lia|lia|bdc|]. apply (le2_mul 0 0); [lia|lia|lia|bdc|]. apply Q. lia. }
  destruct (Z.ltb_spec 200 total) as [L|L]; [|apply (le2_le 1); [lia|exact S]]. apply (le2_add 1); [lia|lia|exact S|]. apply (le2_le 0); [lia|]. apply (le2_mul 0 0); [lia|lia|lia|bdc|].
  rewrite wrap_id by (unfold int64; lia). apply Q. lia.
Qed.
Lemma flash_wide k p q d : (0 <= k <= 128)%Z -> diff_ok d -> state_upto k p -> same_map p q ->
  le2 0 (pen (pp_effMiss p) (pp_totalHits p) (mpow (f_of_Z (pp_effMiss p)) (fq 875 1000))) (pen (pp_effMiss q) (pp_totalHits q) (mpow (f_of_Z (pp_effMiss q)) (fq 875 1000))) ->
  le2 0 (scal (pp_scoreMaxCombo p) (at_MaxCombo (pp_attribs p))) (scal (pp_scoreMaxCombo q) (at_MaxCombo (pp_attribs q))) ->
  le2 (2 * k + 34) (compute_flashlight p d) (compute_flashlight q d).
Proof.
  intros K D (A & T & AC & ME) (E1 & E2 & E3 & E4 & _) P S. unfold compute_flashlight. destruct (negb _); [apply (le2_le 0); [lia|apply bd_0]|]. fold (fl_scale (pp_totalHits p)) (fl_scale (pp_totalHits q)). rewrite <- E1, <- E2, <- E3 in *.
  replace (2 * k + 34)%Z with ((2 * k + 12) + 22)%Z by lia. apply le2_mul; [lia|lia|lia| |apply aim_od_bd; exact D]. replace (2 * k + 12)%Z with ((2 * k + 11) + 1)%Z by lia. apply le2_mul; [lia|lia|lia| |].
  2:{ destruct (fq1_exact 2) as (F2 & Ev); [lia|]. apply (le2_add 0); [lia|lia|bdc|]. apply le2_div; [lia|lia|exact AC|exact F2|rewrite Ev; lra]. }
  replace (2 * k + 11)%Z with ((2 * k + 9) + 2)%Z by lia. apply le2_mul; [lia|lia|lia| |apply fl_scale_bd; exact T].
  rewrite <- (Z.add_0_r (2 * k + 9)). apply le2_opt; [lia|lia|lia| |exact S]. rewrite <- (Z.add_0_r (2 * k + 9)). apply le2_opt; [lia|lia|lia| |exact P].
  replace (2 * k + 9)%Z with ((2 * k + 8) + 1)%Z by lia. apply le2_opt; [lia|lia|lia| |destruct (check_mod _ _); [bdc|apply (le2_le 0); [lia|exact bd_one]]].
  replace (2 * k + 8)%Z with (((k + 1) * 2 + 1) + 5)%Z by lia. apply le2_mul; [lia|lia|lia| |bdc]. destruct (fq1_exact 2) as (F2 & Ev); [lia|].
  apply (pow_bd PR (k + 1) 2); [|exact F2|rewrite Ev; lra|lia|lia|lia]. apply touch_bd; [lia|]. apply A.
Qed.
Lemma flash_chain p q d : diff_ok d -> state_ok p -> same_map p q ->
  le2 0 (pen (pp_effMiss p) (pp_totalHits p) (mpow (f_of_Z (pp_effMiss p)) (fq 875 1000))) (pen (pp_effMiss q) (pp_totalHits q) (mpow (f_of_Z (pp_effMiss q)) (fq 875 1000))) ->
  le2 0 (scal (pp_scoreMaxCombo p) (at_MaxCombo (pp_attribs p))) (scal (pp_scoreMaxCombo q) (at_MaxCombo (pp_attribs q))) ->
  le2 200 (compute_flashlight p d) (compute_flashlight q d).
Proof. intros D S SM P SC. apply (le2_le (2 * 20 + 34)); [lia|]. apply flash_wide; auto; [lia|now apply state_upto_20]. Qed.
End WithLibm.

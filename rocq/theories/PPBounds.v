(** Sizes and monotonicity of the performance points.  [le2 k x y]: both are
    finite, 0 <= x <= y <= 2^k. *)
From Coq Require Import Reals Lra.
From Flocq Require Import Raux Zaux Core BinarySingleNaN.
From Verif Require Import PP SpecPP BaseLemmas FloatLemmas Float32Lemmas SkillProofs CurveProofs PPProofs.
Open Scope R_scope.

Definition le2 (k : Z) (x y : f64) : Prop := fin x /\ fin y /\ 0 <= B2R x <= B2R y /\ B2R y <= bpow radix2 k.
Definition bd (k : Z) (x : f64) : Prop := le2 k x x.
Lemma bd_iff k x : bd k x <-> fin x /\ 0 <= B2R x <= bpow radix2 k.
Proof. unfold bd, le2. split; [intros (F & _ & B & C); split; [exact F|lra]|intros (F & B); repeat split; auto; lra]. Qed.
Lemma le2_bd k x y : le2 k x y -> bd k x /\ bd k y.
Proof. rewrite !bd_iff. intros (Fx & Fy & B & C). split; split; auto; lra. Qed.
Lemma le2_le j k x y : (j <= k)%Z -> le2 j x y -> le2 k x y.
Proof. intros H (Fx & Fy & B & C). split; [exact Fx|]. split; [exact Fy|]. split; [exact B|]. apply Rle_trans with (1 := C). now apply bpow_le. Qed.
Lemma le2_fle k x y : le2 k x y -> fle x y = true.
Proof. intros (Fx & Fy & B & _). apply fle_iff. rewrite (key_fin _ _ _ Fx), (key_fin _ _ _ Fy). pose proof (fin_num _ _ _ Fx). pose proof (fin_num _ _ _ Fy). tauto. Qed.
Lemma bd_within k x : bd k x -> within 0 (bpow radix2 k) x.
Proof. rewrite bd_iff. auto. Qed.
Lemma within_bd k hi x : within 0 hi x -> hi <= bpow radix2 k -> bd k x.
Proof. intros (F & B) H. apply bd_iff. split; [exact F|lra]. Qed.
Lemma bd_const k c : is_finite c = true -> fle f0 c = true -> fle c (f_of_Z (2 ^ k)) = true -> (0 <= k <= 53)%Z -> bd k c.
Proof.
  intros F H0 H1 K. destruct (f_of_Z_exact (2 ^ k)) as (F2 & E2). { rewrite Z.abs_eq by (apply Z.pow_nonneg; lia). apply Z.pow_le_mono_r; lia. }
  destruct (fle_between f0 c _ eq_refl F2 H0 H1) as (_ & B). rewrite E2 in B. apply bd_iff. split; [exact F|]. change (B2R f0) with 0 in B.
  rewrite <- (IZR_Zpower radix2) by lia. exact B.
Qed.
Ltac bdc := apply bd_const; [vm_compute; reflexivity|vm_compute; reflexivity|vm_compute; reflexivity|lia].

Lemma rnd_le_pow a k : (-1074 <= k)%Z -> a <= bpow radix2 k -> rnd64 a <= bpow radix2 k.
Proof.
  intros K H. rewrite <- (round_generic radix2 (SpecFloat.fexp 53 1024) (round_mode mode_NE) (bpow radix2 k)); [now apply rnd64_le|].
  apply (bpow_fmt 53 1024). exact K.
Qed.
Lemma le2_mul j k x x' y y' : (0 <= j)%Z -> (0 <= k)%Z -> (j + k <= 1000)%Z -> le2 j x x' -> le2 k y y' -> le2 (j + k) (fmul x y) (fmul x' y').
Proof.
  intros J K JK (Fx & Fx' & Bx & Cx) (Fy & Fy' & By & Cy). pose proof (bpow_gt_0 radix2 j) as Pj. pose proof (bpow_gt_0 radix2 k) as Pk.
  assert (P1 : 0 <= B2R x * B2R y) by (apply Rmult_le_pos; lra). assert (P2 : B2R x * B2R y <= B2R x' * B2R y') by (apply Rmult_le_compat; lra).
  assert (P3 : B2R x' * B2R y' <= bpow radix2 (j + k)) by (rewrite bpow_plus; apply Rmult_le_compat; lra).
  assert (P4 : bpow radix2 (j + k) <= bpow radix2 1023) by (apply bpow_le; lia).
  destruct (fmul_fin x y Fx Fy) as (F & E); [rewrite Rabs_pos_eq; lra|]. destruct (fmul_fin x' y' Fx' Fy') as (F' & E'); [rewrite Rabs_pos_eq; lra|].
  split; [exact F|]. split; [exact F'|]. rewrite E, E'. split; [split; [now apply rnd64_pos|now apply rnd64_le]|]. apply rnd_le_pow; [lia|exact P3].
Qed.
Lemma le2_add k x x' y y' : (0 <= k)%Z -> (k <= 1000)%Z -> le2 k x x' -> le2 k y y' -> le2 (k + 1) (fadd x y) (fadd x' y').
Proof.
  intros K K' (Fx & Fx' & Bx & Cx) (Fy & Fy' & By & Cy). 
  assert (P3 : B2R x' + B2R y' <= bpow radix2 (k + 1)) by (rewrite bpow_plus; change (bpow radix2 1) with 2; lra).
  assert (P4 : bpow radix2 (k + 1) <= bpow radix2 1023) by (apply bpow_le; lia).
  destruct (fadd_fin x y Fx Fy) as (F & E); [rewrite Rabs_pos_eq; lra|]. destruct (fadd_fin x' y' Fx' Fy') as (F' & E'); [rewrite Rabs_pos_eq; lra|].
  split; [exact F|]. split; [exact F'|]. rewrite E, E'. split; [split; [apply rnd64_pos; lra|apply rnd64_le; lra]|]. apply rnd_le_pow; [lia|exact P3].
Qed.
Lemma le2_div k x x' y : (0 <= k)%Z -> (k <= 1000)%Z -> le2 k x x' -> fin y -> 1 <= B2R y -> le2 k (fdiv x y) (fdiv x' y).
Proof.
  intros K K' (Fx & Fx' & Bx & Cx) Fy By. assert (P : bpow radix2 k <= bpow radix2 1000) by (apply bpow_le; lia).
  destruct (div_ge1 x y Fx Fy) as (F & E & B); try lra. destruct (div_ge1 x' y Fx' Fy) as (F' & E' & B'); try lra.
  split; [exact F|]. split; [exact F'|]. split; [split; [apply B|]|lra]. rewrite E, E'. apply rnd64_le. unfold Rdiv. apply Rmult_le_compat_r; [left; apply Rinv_0_lt_compat; lra|lra].
Qed.
Lemma one_val : fin (fq 1 1) /\ B2R (fq 1 1) = 1. Proof. apply (fq1_exact 1). lia. Qed.
Lemma bd_one : bd 0 (fq 1 1). Proof. bdc. Qed.
Lemma le2_min k x x' c : bd k c -> fin x -> fin x' -> 0 <= B2R x <= B2R x' -> le2 k (fmin x c) (fmin x' c).
Proof.
  rewrite bd_iff. intros (Fc & Bc) Fx Fx' B. destruct (fmin_fin x c Fx Fc) as (F & E). destruct (fmin_fin x' c Fx' Fc) as (F' & E').
  split; [exact F|]. split; [exact F'|]. rewrite E, E'. split; [split; [apply Rmin_glb; lra|apply Rle_min_compat_r; lra]|]. apply Rle_trans with (B2R c); [apply Rmin_r|apply Bc].
Qed.
Lemma le2_min' k x x' c : bd k c -> fin x -> fin x' -> 0 <= B2R x <= B2R x' -> le2 k (fmin c x) (fmin c x').
Proof.
  rewrite bd_iff. intros (Fc & Bc) Fx Fx' B. destruct (fmin_fin c x Fc Fx) as (F & E). destruct (fmin_fin c x' Fc Fx') as (F' & E').
  split; [exact F|]. split; [exact F'|]. rewrite E, E'. split; [split; [apply Rmin_glb; lra|apply Rle_min_compat_l; lra]|]. apply Rle_trans with (B2R c); [apply Rmin_l|apply Bc].
Qed.
(** 1 - x *)
Lemma le2_compl x x' : le2 0 x x' -> le2 0 (fsub (fq 1 1) x') (fsub (fq 1 1) x).
Proof.
  intros (Fx & Fx' & Bx & Cx). change (bpow radix2 0) with 1 in Cx. destruct one_val as (F1 & E1).
  assert (S : 1 <= bpow radix2 1023) by (change 1 with (bpow radix2 0); apply bpow_le; lia).
  destruct (fsub_fin _ x F1 Fx) as (F & E); [rewrite E1, Rabs_pos_eq; lra|]. destruct (fsub_fin _ x' F1 Fx') as (F' & E'); [rewrite E1, Rabs_pos_eq; lra|].
  split; [exact F'|]. split; [exact F|]. rewrite E, E', E1. split; [split; [apply rnd64_pos; lra|apply rnd64_le; lra]|]. apply rnd_le_pow; [lia|]. change (bpow radix2 0) with 1. lra.
Qed.
Lemma bd_Z k z : (0 <= z <= 2 ^ k)%Z -> (0 <= k <= 53)%Z -> bd k (f_of_Z z) /\ B2R (f_of_Z z) = IZR z.
Proof.
  intros Z K. assert (2 ^ k <= 2 ^ 53)%Z by (apply Z.pow_le_mono_r; lia). destruct (f_of_Z_exact z) as (F & E); [lia|]. split; [|exact E]. apply bd_iff. split; [exact F|]. rewrite E, <- (IZR_Zpower radix2) by lia.
  split; apply IZR_le; [lia|]. change (Zpower radix2 k) with (2 ^ k)%Z. lia.
Qed.
(** a/b for 0 <= a <= b, monotone in a *)
Lemma le2_ratio a a' b : (0 <= a <= a')%Z -> (a' <= b <= 2 ^ 53)%Z -> (0 < b)%Z -> le2 0 (fdiv (f_of_Z a) (f_of_Z b)) (fdiv (f_of_Z a') (f_of_Z b)).
Proof.
  intros A AB B. destruct (f_of_Z_exact a) as (Fa & Ea); [lia|]. destruct (f_of_Z_exact a') as (Fa' & Ea'); [lia|]. destruct (f_of_Z_exact b) as (Fb & Eb); [lia|].
  assert (P : 1 <= IZR b) by (apply IZR_le; lia). assert (Pa : 0 <= IZR a) by (apply IZR_le; lia). assert (Pa' : IZR a <= IZR a') by (apply IZR_le; lia). assert (Pb : IZR a' <= IZR b) by (apply IZR_le; lia).
  assert (Q : bpow radix2 53 <= bpow radix2 1000) by (apply bpow_le; lia). change (bpow radix2 53) with (IZR (2 ^ 53)) in Q. assert (Q' : IZR b <= IZR (2 ^ 53)) by (apply IZR_le; lia).
  destruct (div_ge1 _ _ Fa Fb) as (F & E & C); try lra. destruct (div_ge1 _ _ Fa' Fb) as (F' & E' & C'); try lra.
  split; [exact F|]. split; [exact F'|]. rewrite E, E', Ea, Ea', Eb. assert (Ib : 0 < / IZR b) by (apply Rinv_0_lt_compat; lra). split; [split|].
  - apply rnd64_pos. unfold Rdiv. apply Rmult_le_pos; lra.
  - apply rnd64_le. unfold Rdiv. apply Rmult_le_compat_r; lra.
  - apply rnd_le_pow; [lia|]. change (bpow radix2 0) with 1. apply Rmult_le_reg_r with (IZR b); [lra|]. unfold Rdiv. rewrite Rmult_assoc, Rinv_l by lra. lra.
Qed.
Lemma mul_1 (v : f64) : fin v -> fin (fmul v (fq 1 1)) /\ B2R (fmul v (fq 1 1)) = B2R v.
Proof.
  intros F. destruct one_val as (F1 & E1). pose proof (B2R_lt _ _ v F) as L. assert (X : rnd64 (B2R v * B2R (fq 1 1)) = B2R v) by (rewrite E1, Rmult_1_r; apply rnd64_id).
  pose proof (Bmult_correct 53 1024 _ _ mode_NE v (fq 1 1)) as C. rewrite X in C. rewrite Rlt_bool_true in C by (apply Rabs_lt; exact L). destruct C as (E & Fi & _). split; [|exact E].
  unfold fin, fmul. rewrite Fi, F. vm_compute. reflexivity.
Qed.
(** an optional factor *)
Lemma le2_opt j k v v' (b b' : bool) m m' : (0 <= j)%Z -> (0 <= k)%Z -> (j + k <= 1000)%Z -> le2 j v v' -> le2 k (if b then m else fq 1 1) (if b' then m' else fq 1 1) ->
  le2 (j + k) (if b then fmul v m else v) (if b' then fmul v' m' else v').
Proof.
  intros J K JK V M. pose proof (le2_mul j k v v' _ _ J K JK V M) as (F & F' & B & C). destruct V as (Fv & Fv' & _).
  destruct (mul_1 v Fv) as (_ & E). destruct (mul_1 v' Fv') as (_ & E').
  split; [destruct b; assumption|]. split; [destruct b'; assumption|]. destruct b, b'; rewrite ?E, ?E' in *; auto.
Qed.

Section WithLibm.
Context {M : libm}.
Context (PR : pow_ranges) (LR : log_above).

(** ** Powers *)
Lemma pow_bd k n x y : bd k x -> fin y -> 0 <= B2R y <= IZR n -> (0 <= k)%Z -> (1 <= n)%Z -> (k * n <= 900)%Z -> bd (k * n + 1) (mpow x y).
Proof.
  intros X Fy By K N KN. apply bd_iff in X. destruct X as (Fx & Bx). pose proof (bpow_gt_0 radix2 (k * n + 1)).
  destruct (Rle_dec (B2R x) 1) as [L|L].
  - apply (within_bd _ 1); [apply PR; auto; lra|]. change 1 with (bpow radix2 0). apply bpow_le. nia.
  - destruct (pow_above PR x y k n) as (F & B); auto; [lra|]. apply bd_iff. split; [exact F|lra].
Qed.
Lemma unit_bd x y : bd 0 x -> fin y -> 0 <= B2R y -> bd 0 (mpow x y).
Proof. intros X Fy By. apply bd_iff in X as (Fx & Bx). apply (within_bd _ 1); [now apply PR|]. apply Rle_refl. Qed.
Lemma square_bd x k : fin x -> Rabs (B2R x) <= bpow radix2 k -> (0 <= k <= 400)%Z -> bd (2 * k + 1) (mpow x (fq 2 1)).
Proof. intros F B K. eapply within_bd; [apply (pow_square PR x k); auto|]. apply Rle_refl. Qed.
Lemma const_pos k c : bd k c -> fin c /\ 0 <= B2R c <= bpow radix2 k. Proof. apply bd_iff. Qed.
Ltac cst c k := let H := fresh in assert (H : bd k c) by bdc; apply bd_iff in H.

(** [fq] is monotone enough: an exponent in (0,1] *)
Lemma unit_exp n d : bd 0 (fq n d) -> fin (fq n d) /\ 0 <= B2R (fq n d) <= IZR 1.
Proof. intros H. apply bd_iff in H. exact H. Qed.

(** ** ppBase *)
Lemma base_bd k x : bd k x -> (0 <= k <= 200)%Z -> bd ((k + 7) * 3 + 1) (pp_base x).
Proof.
  intros X K. unfold pp_base. apply bd_iff in X as (Fx & Bx).
  assert (C : fin (fq 675 10000) /\ / 16 <= B2R (fq 675 10000)).
  { assert (F : fin (fq 675 10000)) by (vm_compute; reflexivity). split; [exact F|]. assert (L : fle (fq 1 16) (fq 675 10000) = true) by (vm_compute; reflexivity).
    assert (F16 : fin (fq 1 16)) by (vm_compute; reflexivity). apply fle_iff in L as (_ & _ & L). rewrite (key_fin _ _ _ F16), (key_fin _ _ _ F) in L.
    assert (E16 : B2R (fq 1 16) = / 16); [|lra]. unfold fq. destruct (f_of_Z_exact 1) as (Fa & Ea); [lia|]. destruct (f_of_Z_exact 16) as (Fb & Eb); [lia|].
    assert (Q : B2R (f_of_Z 1) / B2R (f_of_Z 16) = bpow radix2 (-4)) by (rewrite Ea, Eb; cbn; lra). assert (Q4 : bpow radix2 (-4) = / 16) by (cbn; lra).
    destruct (fdiv_fin _ _ Fa Fb) as (_ & ->); [rewrite Eb; lra|rewrite Q, Rabs_pos_eq by (left; apply bpow_gt_0); apply bpow_le; lia|].
    rewrite Q, <- Q4. apply round_generic; [typeclasses eauto|]. apply (bpow_fmt 53 1024). vm_compute. discriminate. }
  destruct C as (Fc & Bc). set (c := fq 675 10000) in *. clearbody c.
  assert (Q : 0 <= B2R x / B2R c <= bpow radix2 (k + 4)).
  { split; [apply Rle_mult_inv_pos; lra|]. apply Rmult_le_reg_r with (B2R c); [lra|]. unfold Rdiv. rewrite Rmult_assoc, Rinv_l, Rmult_1_r by lra. rewrite bpow_plus. change (bpow radix2 4) with 16.
    pose proof (bpow_gt_0 radix2 k). nra. }
  assert (S : bpow radix2 (k + 4) <= bpow radix2 1023) by (apply bpow_le; lia).
  destruct (fdiv_fin x c Fx Fc) as (F1 & E1); [lra|rewrite Rabs_pos_eq; lra|].
  assert (B1 : 0 <= B2R (fdiv x c) <= bpow radix2 (k + 4)) by (rewrite E1; split; [apply rnd64_pos; lra|apply rnd_le_pow; [lia|lra]]).
  set (q := fdiv x c) in *. clearbody q. destruct one_val as (Fo & Eo). destruct (fmax_fin _ q Fo F1) as (F2 & E2). rewrite Eo in E2.
  assert (P1 : 1 <= bpow radix2 (k + 4)) by (change 1 with (bpow radix2 0); apply bpow_le; lia).
  assert (B2 : 1 <= B2R (fmax (fq 1 1) q) <= bpow radix2 (k + 4)) by (rewrite E2; split; [apply Rmax_l|apply Rmax_lub; lra]).
  set (m := fmax _ q) in *. clearbody m. destruct (fq1_exact 5) as (F5 & E5); [lia|]. destruct (fq1_exact 4) as (F4 & E4); [lia|].
  assert (P7 : 5 * bpow radix2 (k + 4) <= bpow radix2 (k + 7)) by (replace (k + 7)%Z with (3 + (k + 4))%Z by ring; rewrite (bpow_plus radix2 3); change (bpow radix2 3) with 8; lra).
  assert (S7 : bpow radix2 (k + 7) <= bpow radix2 1023) by (apply bpow_le; lia).
  destruct (fmul_fin _ m F5 F2) as (F6 & E6); [rewrite E5, Rabs_pos_eq; lra|].
  assert (B6 : 5 <= B2R (fmul (fq 5 1) m) <= bpow radix2 (k + 7)) by (rewrite E6, E5; split; [apply (rnd64_exact_Z' 5); [lia|lra]|apply rnd_le_pow; [lia|lra]]).
  set (w := fmul _ m) in *. clearbody w. destruct (fsub_fin w _ F6 F4) as (F7 & E7); [rewrite E4, Rabs_pos_eq; lra|].
  assert (B7 : 1 <= B2R (fsub w (fq 4 1)) <= bpow radix2 (k + 7)) by (rewrite E7, E4; split; [apply (rnd64_exact_Z' 1); [lia|lra]|apply rnd_le_pow; [lia|lra]]).
  destruct (fq1_exact 3) as (F3 & E3); [lia|]. destruct (fq1_exact 100000) as (F8 & E8); [lia|].
  apply le2_div; [lia|lia| |exact F8|rewrite E8; lra]. apply pow_bd; [apply bd_iff; split; [exact F7|lra]|exact F3|rewrite E3; lra|lia|lia|lia].
Qed.

(** ** Length bonus *)
Lemma length_bd total : (0 <= total <= 2 ^ 31)%Z -> bd 33 (length_bonus total).
Proof.
  intros T. unfold length_bonus. destruct (bd_Z 31 total T ltac:(lia)) as (Bt & Et). destruct (fq1_exact 2000) as (F2 & E2); [lia|].
  assert (Bq : bd 31 (fdiv (f_of_Z total) (fq 2000 1))) by (apply le2_div; [lia|lia|exact Bt|exact F2|rewrite E2; lra]).
  set (q := fdiv _ _) in *. apply bd_iff in Bq as Bq'. destruct Bq' as (Fq & Rq).
  assert (LB : bd 1 (fadd (fq 95 100) (fmul (fq 4 10) (fmin (fq 1 1) q)))).
  { apply (le2_add 0); [lia|lia|bdc|]. apply (le2_mul 0 0); [lia|lia|lia|bdc|]. apply le2_min'; [exact bd_one|exact Fq|exact Fq|lra]. }
  destruct (Z.ltb_spec 2000 total) as [L|L]; [|apply (le2_le 1); [lia|exact LB]].
  apply (le2_add 32); [lia|lia|apply (le2_le 1); [lia|exact LB]|]. apply (le2_le (31 + 0)); [lia|]. apply le2_mul; [lia|lia|lia| |bdc].
  assert (Q1 : 1 <= B2R q).
  { unfold q. apply bd_iff in Bt as (Ft & _). assert (L' : 2000 <= IZR total) by (apply IZR_le; lia). destruct (div_ge1 _ _ Ft F2) as (_ & E & _); [rewrite Et; lra|rewrite E2; lra| |].
    - rewrite Et. apply Rle_trans with (bpow radix2 31); [change (bpow radix2 31) with (IZR (2 ^ 31)); apply IZR_le; lia|apply bpow_le; lia].
    - rewrite E, Et, E2. apply (rnd64_exact_Z' 1); [lia|]. lra. }
  eapply within_bd; [apply LR; [exact Fq|exact Q1]|]. lra.
Qed.

(** ** Miss penalty and combo scaling *)
Definition pen (eff total : Z) (expo : f64) : f64 := if (0 <? eff)%Z then miss_penalty eff total expo else fq 1 1.
Lemma penalty_bd eff total expo : (0 <= eff <= total)%Z -> (total <= 2 ^ 31)%Z -> fin expo -> 0 <= B2R expo -> bd 0 (pen eff total expo).
Proof.
  intros E T F B. unfold pen. destruct (Z.ltb_spec 0 eff) as [L|L]; [|exact bd_one]. unfold miss_penalty. apply (le2_mul 0 0); [lia|lia|lia|bdc|].
  apply unit_bd; auto. apply le2_compl. destruct (unit_exp 775 1000) as (Fe & Be); [bdc|]. apply unit_bd; [|exact Fe|apply Be]. apply le2_ratio; lia.
Qed.
Definition scal (combo mc : Z) : f64 := if (0 <? mc)%Z then combo_scaling combo mc else fq 1 1.
Lemma mc_pow_val combo mc : (0 <= combo <= 2 ^ 31)%Z -> (1 <= mc <= 2 ^ 31)%Z ->
  fin (mpow (f_of_Z combo) (fq 8 10)) /\ 0 <= B2R (mpow (f_of_Z combo) (fq 8 10)) <= bpow radix2 32 /\
  fin (mpow (f_of_Z mc) (fq 8 10)) /\ 1 <= B2R (mpow (f_of_Z mc) (fq 8 10)) <= bpow radix2 32.
Proof.
  intros C N. destruct (unit_exp 8 10) as (Fe & Be); [bdc|]. destruct (bd_Z 31 combo C ltac:(lia)) as (Bc & _). destruct (bd_Z 31 mc ltac:(lia) ltac:(lia)) as (Bm & Em).
  assert (Pc : bd 32 (mpow (f_of_Z combo) (fq 8 10))) by (apply (pow_bd 31 1); auto; lia). apply bd_iff in Pc as (F1 & B1). split; [exact F1|]. split; [exact B1|].
  apply bd_iff in Bm as (Fm & Bm). destruct (pow_above PR (f_of_Z mc) (fq 8 10) 31 1 Fm Fe ltac:(lia) ltac:(lia)) as (F2 & B2); [rewrite Em in *; split; [apply IZR_le; lia|lra]|exact Be|]. auto.
Qed.
Lemma scaling_bd combo mc : (0 <= combo <= 2 ^ 31)%Z -> (0 <= mc <= 2 ^ 31)%Z -> bd 0 (scal combo mc).
Proof.
  intros C N. unfold scal. destruct (Z.ltb_spec 0 mc) as [L|L]; [|exact bd_one]. unfold combo_scaling. destruct (mc_pow_val combo mc C ltac:(lia)) as (F1 & B1 & F2 & B2).
  assert (D : bd 32 (fdiv (mpow (f_of_Z combo) (fq 8 10)) (mpow (f_of_Z mc) (fq 8 10)))) by (apply le2_div; [lia|lia|apply bd_iff; auto|exact F2|lra]).
  apply bd_iff in D as (F & B). apply le2_min; [exact bd_one|exact F|exact F|lra].
Qed.
(** at full combo the scaling is 1 *)
Lemma scaling_full mc : (1 <= mc <= 2 ^ 31)%Z -> B2R (scal mc mc) = 1.
Proof.
  intros N. unfold scal. rewrite (proj2 (Z.ltb_lt 0 mc)) by lia. unfold combo_scaling. destruct (mc_pow_val mc mc ltac:(lia) N) as (_ & _ & F2 & B2). set (x := mpow _ _) in *. clearbody x.
  destruct (div_ge1 x x F2 F2) as (F & E & _); try lra. { apply Rle_trans with (bpow radix2 32); [lra|apply bpow_le; lia]. }
  replace (B2R x / B2R x) with (IZR 1) in E by (unfold Rdiv; rewrite Rinv_r; lra). rewrite (rnd64_Z 1) in E by lia. destruct one_val as (F1 & E1). destruct (fmin_fin _ _ F F1) as (_ & ->). rewrite E, E1. apply Rmin_left. lra.
Qed.
Lemma scaling_le_full combo mc : (0 <= combo <= 2 ^ 31)%Z -> (1 <= mc <= 2 ^ 31)%Z -> le2 0 (scal combo mc) (scal mc mc).
Proof.
  intros C N. pose proof (scaling_bd combo mc C ltac:(lia)) as B. pose proof (scaling_bd mc mc ltac:(lia) ltac:(lia)) as B'. pose proof (scaling_full mc N) as E.
  apply bd_iff in B as (F & B). apply bd_iff in B' as (F' & B'). change (bpow radix2 0) with 1 in *. split; [exact F|]. split; [exact F'|]. change (bpow radix2 0) with 1. lra.
Qed.
End WithLibm.

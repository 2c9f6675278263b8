(** The rhythm multiplier of the speed skill against its real formula. *)
From Coq Require Import Reals Lra ZArith Lia List Bool.
From Flocq Require Import Core BinarySingleNaN.
From Verif Require Import DiffCalc SpecPP SpecSane SpecFormula SpecSkill BaseLemmas FloatLemmas Float32Lemmas KeyLemmas LazyProofs SkillProofs PPProofs PPBounds ValueBounds RelLemmas RelPow FormulaParts UnitLemmas AimFormula SpeedFormula CurveStart.
Import ListNotations.
Open Scope R_scope.

Lemma rnd_rel50 z : 1 <= z -> z - z * bpow radix2 (-53) <= rnd64 z <= z + z * bpow radix2 (-53).
Proof.
  intros Z. assert (bpow radix2 (-1022) <= Rabs z) by (rewrite Rabs_pos_eq by lra; apply Rle_trans with 1; [change 1 with (bpow radix2 0); apply bpow_le; lia|exact Z]).
  pose proof (rel64 z H) as R. rewrite (Rabs_pos_eq z) in R by lra. apply Rabs_le_inv in R. change (bpow radix2 (-53)) with (/ 9007199254740992). lra.
Qed.
(** a comparison that is not a hair from turning comes out right *)
Lemma clear_dec (x y : f64) z : fin x -> fin y -> B2R y = rnd64 z -> 1 <= z -> clear_gt (B2R x) z -> flt y x = (if Rlt_dec z (B2R x) then true else false).
Proof.
  intros FX FY EY Z C. pose proof (rnd_rel50 z Z) as R. destruct (Rlt_dec z (B2R x)) as [H|H].
  - destruct C as [C|C]; [lra|]. rewrite Rabs_pos_eq in C by lra. apply flt_fin; auto. rewrite EY. assert (z * bpow radix2 (-53) < z * bpow radix2 (-50)) by (apply Rmult_lt_compat_l; [lra|apply bpow_lt; lia]). lra.
  - apply flt_fin_false; auto. rewrite EY. apply rnd64_ge_f. lra.
Qed.

Lemma lim_32 : lim 32 (/ 250). Proof. limk 5%Z. Qed.
(** relative and absolute error together *)
Definition mx (n a : R) (x : f64) (r : R) : Prop := fin x /\ Rabs (B2R x - r) <= (n * r + a) * e40 /\ 0 <= r.
Lemma mx_up n a m b x r : n <= m -> a <= b -> mx n a x r -> mx m b x r.
Proof.
  intros N A (F & E & P). split; [exact F|]. split; [|exact P]. apply Rle_trans with (1 := E). apply Rmult_le_compat_r; [pose proof e40_pos; lra|]. assert (n * r <= m * r) by (apply Rmult_le_compat_r; lra). lra.
Qed.
Lemma mx_ab n x r : 0 <= r -> ab n x r -> mx 0 n x r.
Proof. intros P (F & E). split; [exact F|]. split; [|exact P]. replace (0 * r + n) with n by ring. exact E. Qed.
Lemma mx_mul n a m b c d N A x y r s : mx n a x r -> mx m b y s -> 0 <= n <= 20000 -> 0 <= m <= 20000 -> 0 <= a <= 1000 -> 0 <= b <= 1000 -> r <= c -> s <= d -> 0 <= c <= 4 -> 0 <= d <= 4 -> n + m + 0 <= N -> a * d + b * c + / 50 <= A ->
  mx N A (fmul x y) (r * s).
Proof.
  intros (FX & EX & PX) (FY & EY & PY) HN HM HA HB RC SD HC HD HNN HAA. pose proof e40_pos as E0. assert (E1 : e40 <= / 1000000000000) by (unfold e40; lra).
  apply Rabs_le_inv in EX, EY. set (dx := B2R x - r) in *. set (dy := B2R y - s) in *.
  assert (NR : 0 <= n * r <= 80000) by (split; [apply Rmult_le_pos; lra|apply Rle_trans with (20000 * 4); [apply Rmult_le_compat; lra|lra]]). assert (MS : 0 <= m * s <= 80000) by (split; [apply Rmult_le_pos; lra|apply Rle_trans with (20000 * 4); [apply Rmult_le_compat; lra|lra]]).
  assert (RS : 0 <= r * s <= 16) by (split; [apply Rmult_le_pos; lra|apply Rle_trans with (4 * 4); [apply Rmult_le_compat; lra|lra]]).
  assert (DX : Rabs dx <= 81000 * e40) by (apply Rabs_le; split; apply Rmult_le_reg_r with 1; try lra; assert ((n * r + a) * e40 <= 81000 * e40) by (apply Rmult_le_compat_r; lra); lra).
  assert (DY : Rabs dy <= 81000 * e40) by (apply Rabs_le; split; apply Rmult_le_reg_r with 1; try lra; assert ((m * s + b) * e40 <= 81000 * e40) by (apply Rmult_le_compat_r; lra); lra).
  assert (T : Rabs (B2R x * B2R y - r * s) <= ((n + m) * (r * s) + (a * d + b * c) + 7 / 1000) * e40).
  { replace (B2R x * B2R y - r * s) with (dx * s + r * dy + dx * dy) by (unfold dx, dy; ring). apply Rle_trans with (1 := Rabs_triang _ _). apply Rle_trans with ((n * r + a) * e40 * s + r * ((m * s + b) * e40) + (81000 * e40) * (81000 * e40)).
    - apply Rplus_le_compat; [|rewrite Rabs_mult; apply Rmult_le_compat; auto; apply Rabs_pos]. apply Rle_trans with (1 := Rabs_triang _ _). rewrite !Rabs_mult, (Rabs_pos_eq s), (Rabs_pos_eq r) by lra. apply Rplus_le_compat; [apply Rmult_le_compat_r; [lra|apply Rabs_le; lra]|apply Rmult_le_compat_l; [lra|apply Rabs_le; lra]].
    - assert (81000 * e40 * (81000 * e40) <= / 100 * e40 * (6561 / 10000)). { replace (81000 * e40 * (81000 * e40)) with (6561000000 * e40 * e40) by ring. replace (/ 100 * e40 * (6561 / 10000)) with ((/ 100 * (6561 / 10000)) * e40) by ring. apply Rmult_le_compat_r; [lra|]. unfold e40. lra. }
      assert (a * s <= a * d) by (apply Rmult_le_compat_l; lra). assert (b * r <= b * c) by (apply Rmult_le_compat_l; lra). 
      replace ((n * r + a) * e40 * s + r * ((m * s + b) * e40)) with (((n + m) * (r * s) + (a * s + b * r)) * e40) by ring. assert (((n + m) * (r * s) + (a * s + b * r)) * e40 <= ((n + m) * (r * s) + (a * d + b * c)) * e40) by (apply Rmult_le_compat_r; lra). lra. }
  assert (BIG : ((n + m) * (r * s) + (a * d + b * c) + 7 / 1000) * e40 <= / 1000). { apply Rle_trans with (700000 * e40); [apply Rmult_le_compat_r; [lra|]|unfold e40; lra]. assert ((n + m) * (r * s) <= 40000 * 16) by (apply Rmult_le_compat; lra). assert (a * d <= 1000 * 4) by (apply Rmult_le_compat; lra). assert (b * c <= 1000 * 4) by (apply Rmult_le_compat; lra). lra. }
  destruct (round_lim 131072 16 (fmul x y) (B2R x * B2R y) lim_100k) as (F & _). { apply Rabs_le. apply Rabs_le_inv in T. lra. } { intros H. apply fmul_fin; auto. }
  split; [exact F|]. split; [|lra].
  assert (RD : Rabs (B2R (fmul x y) - B2R x * B2R y) <= / 250 * e40).
  { destruct (round_lim 32 (/ 250) (fmul x y) (B2R x * B2R y) lim_32) as (_ & E); [apply Rabs_le; apply Rabs_le_inv in T; lra|intros H; apply fmul_fin; auto|exact E]. }
  assert ((n + m) * (r * s) <= N * (r * s)) by (apply Rmult_le_compat_r; lra). replace (B2R (fmul x y) - r * s) with ((B2R (fmul x y) - B2R x * B2R y) + (B2R x * B2R y - r * s)) by ring. apply Rle_trans with (1 := Rabs_triang _ _).
  apply Rle_trans with ((/ 250) * e40 + ((n + m) * (r * s) + (a * d + b * c) + 7 / 1000) * e40); [lra|]. rewrite <- Rmult_plus_distr_r. apply Rmult_le_compat_r; lra.
Qed.
(** ** Square roots *)
Lemma sqrt_sum a b : 0 <= a -> 0 <= b -> sqrt (a + b) <= sqrt a + sqrt b.
Proof.
  intros A B. apply Rsqr_incr_0_var; [|pose proof (sqrt_pos a); pose proof (sqrt_pos b); lra]. unfold Rsqr. rewrite sqrt_sqrt by lra. pose proof (sqrt_pos a) as P. pose proof (sqrt_pos b) as Q. pose proof (sqrt_sqrt a A). pose proof (sqrt_sqrt b B). assert (0 <= sqrt a * sqrt b) by (apply Rmult_le_pos; lra).
  replace ((sqrt a + sqrt b) * (sqrt a + sqrt b)) with (sqrt a * sqrt a + sqrt b * sqrt b + 2 * (sqrt a * sqrt b)) by ring. lra.
Qed.
Lemma sqrt_err d a x r : 0 <= x -> 0 <= r <= 16 -> 0 <= d <= / 1000 -> 0 <= a -> Rabs (x - r) <= d * r + a -> Rabs (sqrt x - sqrt r) <= 4 * d + sqrt a.
Proof.
  intros X R D A E. apply Rabs_le_inv in E. assert (S4 : 0 <= sqrt r <= 4). { split; [apply sqrt_pos|]. replace 4 with (sqrt 16); [apply sqrt_le_1_alt; lra|]. replace 16 with (4 * 4) by ring. apply sqrt_square. lra. }
  assert (DS : d * sqrt r <= d * 4) by (apply Rmult_le_compat_l; lra). assert (D0 : 0 <= d * sqrt r) by (apply Rmult_le_pos; lra). pose proof (sqrt_pos a) as P.
  assert (U : forall y z, 0 <= y -> 0 <= z -> y <= z * (1 + d) -> sqrt y <= sqrt z + d * sqrt z). { intros y z Y Z H. apply Rle_trans with (sqrt (z * ((1 + d) * (1 + d)))). - apply sqrt_le_1_alt. apply Rle_trans with (1 := H). apply Rmult_le_compat_l; [exact Z|]. assert (0 <= d * (1 + d)) by (apply Rmult_le_pos; lra). lra. - rewrite sqrt_mult by (try lra; apply Rmult_le_pos; lra). rewrite sqrt_square by lra. right. ring. }
  apply Rabs_le. split.
  - (* sqrt r <= sqrt x + ... *) assert (H : sqrt (r * (1 - d)) <= sqrt x + sqrt a). { apply Rle_trans with (sqrt (x + a)); [apply sqrt_le_1_alt; lra|apply sqrt_sum; lra]. }
    assert (L : sqrt r - d * sqrt r <= sqrt (r * (1 - d))). { apply Rsqr_incr_0_var; [|apply sqrt_pos]. unfold Rsqr. rewrite (sqrt_sqrt (r * (1 - d))) by (apply Rmult_le_pos; lra). replace ((sqrt r - d * sqrt r) * (sqrt r - d * sqrt r)) with ((sqrt r * sqrt r) * ((1 - d) * (1 - d))) by ring. rewrite sqrt_sqrt by lra. apply Rmult_le_compat_l; [lra|]. apply Rle_trans with (1 * (1 - d)); [apply Rmult_le_compat_r; lra|lra]. } lra.
  - apply Rle_trans with (sqrt (r * (1 + d) + a) - sqrt r); [apply Rplus_le_compat_r, sqrt_le_1_alt; lra|]. pose proof (sqrt_sum (r * (1 + d)) a ltac:(apply Rmult_le_pos; lra) A). pose proof (U (r * (1 + d)) r ltac:(apply Rmult_le_pos; lra) ltac:(lra) (Rle_refl _)). lra.
Qed.
(** a root of a number from 1 on *)
Lemma sqrt_lip a b : 1 <= b -> 0 <= a -> Rabs (sqrt a - sqrt b) <= Rabs (a - b).
Proof.
  intros B A. assert (1 <= sqrt b) by (rewrite <- sqrt_1; apply sqrt_le_1_alt; exact B). pose proof (sqrt_pos a) as P. replace (a - b) with ((sqrt a - sqrt b) * (sqrt a + sqrt b)). 2:{ replace ((sqrt a - sqrt b) * (sqrt a + sqrt b)) with (sqrt a * sqrt a - sqrt b * sqrt b) by ring. rewrite !sqrt_sqrt by lra. ring. }
  rewrite Rabs_mult, (Rabs_pos_eq (sqrt a + _)) by lra. rewrite <- (Rmult_1_r (Rabs (sqrt a - sqrt b))) at 1. apply Rmult_le_compat_l; [apply Rabs_pos|lra].
Qed.
Lemma mx_sqrt x r : mx 22000 600 x r -> 0 <= B2R x -> r <= 16 -> ab 26000000 (fsqrt x) (sqrt r) /\ 0 <= sqrt r <= 4.
Proof.
  intros (F & E & P) X R. assert (S4 : 0 <= sqrt r <= 4). { split; [apply sqrt_pos|]. replace 4 with (sqrt 16); [apply sqrt_le_1_alt; lra|]. replace 16 with (4 * 4) by ring. apply sqrt_square. lra. }
  split; [|exact S4]. assert (A : Rabs (sqrt (B2R x) - sqrt r) <= 4 * (22000 * e40) + sqrt (600 * e40)). { apply sqrt_err; try (unfold e40; lra). replace (22000 * e40 * r + 600 * e40) with ((22000 * r + 600) * e40) by ring. exact E. }
  assert (SQ : sqrt (600 * e40) <= 25690000 * e40). { replace (25690000 * e40) with (sqrt (25690000 * e40 * (25690000 * e40))) by (apply sqrt_square; unfold e40; lra). apply sqrt_le_1_alt. unfold e40. lra. }
  apply Rabs_le_inv in A. destruct (fsqrt_fin _ F X) as (FQ & EQ). destruct (round_lim 8 (/ 1000) (fsqrt x) (sqrt (B2R x)) lim_8) as (_ & B); [apply Rabs_le; unfold e40 in *; lra|auto|]. apply Rabs_le_inv in B. split; [exact FQ|]. apply Rabs_le. unfold e40 in *. lra.
Qed.
(** the weight of an island *)
Lemma island_ab k : (0 <= k <= 7)%Z -> ab 1 (fsqrt (fadd (fq 4 1) (f_of_Z k))) (sqrt (4 + IZR k)) /\ 2 <= sqrt (4 + IZR k) <= 332 / 100.
Proof.
  intros K. assert (KR : 0 <= IZR k <= 7) by (split; [apply (IZR_le 0)|apply (IZR_le _ 7)]; lia). destruct (f_of_Z_exact k) as (FK & EK); [lia|]. destruct (fq1_exact 4) as (F4 & E4); [lia|].
  destruct (fadd_fin _ _ F4 FK) as (FA & EA). { rewrite E4, EK, Rabs_pos_eq by lra. apply Rle_trans with (bpow radix2 4); [change (bpow radix2 4) with 16; lra|apply bpow_le; lia]. }
  assert (EA' : B2R (fadd (fq 4 1) (f_of_Z k)) = 4 + IZR k). { rewrite EA, E4, EK, <- (plus_IZR 4 k). apply rnd64_Z. lia. }
  assert (SB : 2 <= sqrt (4 + IZR k) <= 332 / 100). { split; [replace 2 with (sqrt 4); [apply sqrt_le_1_alt; lra|replace 4 with (2 * 2) by ring; apply sqrt_square; lra]|]. replace (332 / 100) with (sqrt (332 / 100 * (332 / 100))) by (apply sqrt_square; lra). apply sqrt_le_1_alt. lra. }
  split; [|exact SB]. destruct (fsqrt_fin _ FA) as (FQ & EQ); [rewrite EA'; lra|]. rewrite EA' in EQ. destruct (round_lim 8 (/ 1000) (fsqrt (fadd (fq 4 1) (f_of_Z k))) (sqrt (4 + IZR k)) lim_8) as (_ & B); [apply Rabs_le; lra|auto|]. split; [exact FQ|]. apply Rle_trans with (1 := B). unfold e40. lra.
Qed.
Lemma parity a b : (0 <= a)%Z -> (0 <= b)%Z -> (Z.rem a 2 =? Z.rem b 2)%Z = Bool.eqb (Z.even a) (Z.even b).
Proof.
  intros A B. rewrite !Z.rem_mod_nonneg by lia. rewrite !Zmod_even. destruct (Z.even a), (Z.even b); reflexivity.
Qed.
Lemma fne_zero x : fin x -> (B2R x = 0 -> fne x f0 = false) /\ (B2R x <> 0 -> fne x f0 = true).
Proof.
  intros F. unfold fne. rewrite (Beqb_correct 53 1024 x f0 F eq_refl). change (B2R f0) with 0. split; intros H; [rewrite Req_bool_true by exact H; reflexivity|rewrite Req_bool_false by exact H; reflexivity].
Qed.

(** ** How much an earlier object still counts *)
Lemma age_dec now t : fin now -> fin t -> 0 <= B2R now - B2R t <= bpow radix2 43 -> clear_gt 5000 (B2R now - B2R t) ->
  let x := fdiv (fmax f0 (fsub (fq 5000 1) (fsub now t))) (fq 5000 1) in
  fne x f0 = (if Rlt_dec (B2R now - B2R t) 5000 then true else false) /\
  (B2R now - B2R t < 5000 -> ab 1 x (Rmax 0 (5000 - (B2R now - B2R t)) / 5000)).
Proof.
  intros FN FT D C x. set (D0 := B2R now - B2R t) in *. destruct (fq1_exact 5000) as (F5 & E5); [lia|].
  assert (B43 : bpow radix2 43 <= bpow radix2 1000) by (apply bpow_le; lia). assert (B44 : bpow radix2 1000 + 5000 <= bpow radix2 1023) by (apply Rle_trans with (bpow radix2 1000 + bpow radix2 1000); [apply Rplus_le_compat_l; apply Rle_trans with (bpow radix2 13); [repeat pw; lra|apply bpow_le; lia]|replace (bpow radix2 1000 + bpow radix2 1000) with (bpow radix2 1001) by (change 1001%Z with (1000 + 1)%Z; rewrite bpow_plus; change (bpow radix2 1) with 2; ring); apply bpow_le; lia]).
  assert (C43 : bpow radix2 43 = 8796093022208) by reflexivity.
  destruct (fsub_fin _ _ FN FT) as (FD & ED); [fold D0; rewrite Rabs_pos_eq by lra; lra|]. fold D0 in ED.
  assert (RD : 0 <= B2R (fsub now t) <= 8796093022208) by (rewrite ED; split; [apply rnd64_pos; lra|apply (rnd64_exact_Z 8796093022208); [lia|lra]]).
  destruct (fsub_fin _ _ F5 FD) as (FE & EE); [rewrite E5; apply Rabs_le; lra|]. rewrite E5 in EE.
  destruct (fmax_fin f0 _ eq_refl FE) as (FM & EM). change (B2R f0) with 0 in EM. set (m := fmax f0 (fsub (fq 5000 1) (fsub now t))) in *.
  assert (EB : B2R (fsub (fq 5000 1) (fsub now t)) <= 5000) by (rewrite EE; apply (rnd64_exact_Z 5000); [lia|lra]).
  assert (MB : 0 <= B2R m <= 5000) by (rewrite EM; split; [apply Rmax_l|apply Rmax_lub; lra]).
  assert (QB : 0 <= B2R m / 5000 <= 1) by lra.
  destruct (fdiv_fin m (fq 5000 1) FM F5) as (FX & EX); [rewrite E5; lra|rewrite E5, Rabs_pos_eq by lra; lra|]. rewrite E5 in EX. fold x in FX, EX. destruct (fne_zero x FX) as (Z0 & Z1).
  destruct (Rlt_dec D0 5000) as [L|L].
  - assert (P : / 2199023255552 <= 5000 - B2R (fsub now t)).
    { rewrite ED. destruct C as [C|C]; [lra|]. rewrite Rabs_pos_eq in C by lra. destruct (Rle_lt_dec D0 4000) as [S|S]; [assert (rnd64 D0 <= 4000) by (apply (rnd64_exact_Z 4000); [lia|lra]); lra|]. pose proof (rnd_rel50 D0 ltac:(lra)) as R. change (bpow radix2 (-50)) with (/ 1125899906842624) in C. change (bpow radix2 (-53)) with (/ 9007199254740992) in R. lra. }
    assert (P2 : / 2199023255552 <= B2R m). { rewrite EM. apply Rle_trans with (2 := Rmax_r _ _). rewrite EE. change (/ 2199023255552) with (bpow radix2 (-41)) in *. apply rnd_ge_pow; [lia|exact P]. }
    split.
    + apply Z1. rewrite EX. assert (bpow radix2 (-60) <= rnd64 (B2R m / 5000)); [|pose proof (bpow_gt_0 radix2 (-60)); lra]. apply rnd_ge_pow; [lia|]. change (bpow radix2 (-60)) with (/ 1152921504606846976). lra.
    + intros _. assert (A1 : ab 1 (fsub now t) D0). { split; [exact FD|]. destruct (round_lim 8192 1 (fsub now t) D0 lim_8k) as (_ & Q); [rewrite Rabs_pos_eq; lra|intros _; split; [exact FD|exact ED]|exact Q]. }
      assert (A2 : ab 2 (fsub (fq 5000 1) (fsub now t)) (5000 - D0)) by (apply (u_sub 8192 1 0 1); try lra; [exact lim_8k|now apply ab_is|exact A1|rewrite Rabs_pos_eq; lra]).
      apply (over_ab 8 (/ 1000) 2); try lra; [exact lim_8|apply ab_max; [apply u_0; lra|exact A2]|exact F5|]. rewrite (Rmax_right 0 (5000 - D0)) by lra. rewrite Rabs_pos_eq by lra. lra.
  - split; [|intros H; lra]. apply Z0. rewrite EX. assert (M0 : B2R m = 0). { rewrite EM. apply Rmax_left. rewrite EE. rewrite <- (rnd64_0). apply rnd64_le. assert (5000 <= B2R (fsub now t)); [|lra]. rewrite ED. apply (rnd64_exact_Z' 5000); [lia|lra]. } rewrite M0. unfold Rdiv. rewrite Rmult_0_l. apply rnd64_0.
Qed.
Lemma age_ab n i x r : (0 < n <= 1000)%nat -> (i <= n)%nat -> ab 1 x r -> ab 1 (fmin (fdiv (f_of_Z (Z.of_nat n - Z.of_nat i)) (f_of_Z (Z.of_nat n))) x) (Rmin ((INR n - INR i) / INR n) r) /\ 0 <= (INR n - INR i) / INR n <= 1.
Proof.
  intros HN HI A. assert (NR : 1 <= INR n <= 1000). { rewrite INR_IZR_INZ. split; [apply (IZR_le 1)|apply (IZR_le _ 1000)]; lia. } assert (IR : 0 <= INR i <= INR n). { rewrite !INR_IZR_INZ. split; [apply (IZR_le 0)|apply IZR_le]; lia. }
  assert (Q : 0 <= (INR n - INR i) / INR n <= 1). { split; apply Rmult_le_reg_r with (INR n); try lra; unfold Rdiv; rewrite Rmult_assoc, Rinv_l, Rmult_1_r by lra; lra. }
  split; [|exact Q]. apply u_min; [|exact A]. destruct (f_of_Z_exact (Z.of_nat n - Z.of_nat i)) as (FA & EA); [lia|]. destruct (f_of_Z_exact (Z.of_nat n)) as (FN & EN); [lia|]. rewrite minus_IZR, <- !INR_IZR_INZ in EA. rewrite <- INR_IZR_INZ in EN.
  apply (over_ab 8 (/ 1000) 0); try lra; [exact lim_8|now apply ab_is|exact FN|rewrite Rabs_pos_eq; lra].
Qed.

(** ** The size of a change *)
Lemma share_ab w W p c : rel e50 1 w W -> 2 <= W <= 1024 -> within 25 (bpow radix2 20) p -> within 25 (bpow radix2 20) c ->
  let w6 := fmul w (fq 6 10) in let x := fmin (fq 1 1) (fmin (fq 1 1) (fdiv (fmax f0 (fsub (fabs (fsub p c)) w6)) w6)) in
  ab 15 x (window_share W (B2R p) (B2R c)) /\ 0 <= B2R x /\ 0 <= window_share W (B2R p) (B2R c) <= 1.
Proof.
  change (bpow radix2 20) with 1048576. intros RW WB (FP & PB) (FC & CB) w6 x. pose proof e40_pos as E0. destruct (fq1_exact 1) as (F1 & E1); [lia|].
  assert (A6 : ab 2 w6 (6 / 10 * W)).
  { apply (nr_ab (3 / 1024) 2 620); try lra. apply (rel50_nr 3); [|lra]. rewrite (Rmult_comm (6 / 10)). apply (rel_up e50 ltac:(unfold e50; lra) (1 + 1 + 1)); [lra|]. apply mul50; try lra; [exact RW| |apply mid_in; lra]. split; [vm_compute; reflexivity|]. split; [lra|]. bval (fq 6 10). rewrite V. unfold e50. lra. }
  set (W6 := 6 / 10 * W) in *. assert (W6B : 12 / 10 <= W6 <= 620) by (unfold W6; lra). destruct A6 as (F6 & B6). pose proof B6 as B6'. apply Rabs_le_inv in B6'. assert (V6 : W6 - / 1000 <= B2R w6 <= W6 + / 1000) by (unfold e40 in B6'; lra).
  assert (SB : 0 <= window_share W (B2R p) (B2R c) <= 1). { unfold window_share. fold W6. split; [apply Rmin_glb; [lra|]; apply Rle_mult_inv_pos; [apply Rmax_l|lra]|apply Rmin_l]. }
  assert (AD : ab 256 (fabs (fsub p c)) (Rabs (B2R p - B2R c))). { apply u_abs. apply (u_sub 2097152 256 0 0); try lra; [exact lim_2m|now apply ab_is|now apply ab_is|]. assert (Rabs (B2R p - B2R c) <= 1048576) by (apply Rabs_le; lra). lra. }
  assert (DB : 0 <= Rabs (B2R p - B2R c) <= 1048576) by (split; [apply Rabs_pos|apply Rabs_le; lra]). set (D := Rabs (B2R p - B2R c)) in *. assert (AN : ab 514 (fsub (fabs (fsub p c)) w6) (D - W6)). { apply (u_sub 2097152 256 256 2); try lra; [exact lim_2m|exact AD|split; [exact F6|exact B6]|]. assert (Rabs (D - W6) <= 1050000) by (apply Rabs_le; lra). lra. }
  assert (AM : ab 514 (fmax f0 (fsub (fabs (fsub p c)) w6)) (Rmax 0 (D - W6))) by (apply ab_max; [apply u_0; lra|exact AN]). destruct AM as (FM & BM). apply Rabs_le_inv in BM.
  assert (MB : 0 <= B2R (fmax f0 (fsub (fabs (fsub p c)) w6)) <= 1050000). { destruct AN as (FN & BN). destruct (fmax_fin f0 _ eq_refl FN) as (_ & EM). change (B2R f0) with 0 in EM. apply Rabs_le_inv in BN. rewrite EM. split; [apply Rmax_l|apply Rmax_lub; [lra|unfold e40 in BN; lra]]. }
  set (nu := fmax f0 (fsub (fabs (fsub p c)) w6)) in *.
  assert (QB : 0 <= B2R nu / B2R w6 <= 1050000). { split; [apply Rle_mult_inv_pos; lra|]. apply Rmult_le_reg_r with (B2R w6); [lra|]. unfold Rdiv. rewrite Rmult_assoc, Rinv_l, Rmult_1_r by lra. apply Rle_trans with (1050000 * 1); [lra|apply Rmult_le_compat_l; lra]. }
  destruct (fdiv_fin nu w6 FM F6) as (FQ & EQ); [lra|rewrite Rabs_pos_eq by lra; apply Rle_trans with (bpow radix2 21); [repeat pw; lra|apply bpow_le; lia]|].
  assert (Q0 : 0 <= B2R (fdiv nu w6)) by (rewrite EQ; apply rnd64_pos; lra). destruct (fmin_fin (fq 1 1) _ F1 FQ) as (FI & EI). destruct (fmin_fin (fq 1 1) _ F1 FI) as (FX & EX). fold x in FX, EX. rewrite E1 in EI, EX.
  assert (XV : B2R x = Rmin 1 (B2R (fdiv nu w6))). { rewrite EX, EI. unfold Rmin. destruct (Rle_dec 1 (B2R (fdiv nu w6))); destruct (Rle_dec 1 _); lra. }
  split; [|split; [rewrite XV; apply Rmin_glb; lra|exact SB]]. destruct (Rle_lt_dec (3 * W6) D) as [H|H].
  - assert (Q1 : 1 <= B2R (fdiv nu w6)). { rewrite EQ. apply (rnd64_exact_Z' 1); [lia|]. apply Rmult_le_reg_r with (B2R w6); [lra|]. unfold Rdiv. rewrite Rmult_assoc, Rinv_l, Rmult_1_r by lra. rewrite Rmax_right in BM by lra. unfold e40 in BM. lra. }
    split; [exact FX|]. rewrite XV, Rmin_left by lra. unfold window_share. fold W6 D. rewrite Rmin_left; [rewrite Rminus_diag_eq by reflexivity; rewrite Rabs_R0; lra|]. rewrite Rmax_right by lra. apply Rmult_le_reg_r with W6; [lra|]. unfold Rdiv. rewrite Rmult_assoc, Rinv_l, Rmult_1_r by lra. lra.
  - assert (AD1 : ab 1 (fabs (fsub p c)) D). { apply u_abs. apply (u_sub 8192 1 0 0); try lra; [exact lim_8k|now apply ab_is|now apply ab_is|fold D; lra]. }
    assert (AN1 : ab 4 (fsub (fabs (fsub p c)) w6) (D - W6)). { apply (u_sub 8192 1 1 2); try lra; [exact lim_8k|exact AD1|split; [exact F6|exact B6]|]. assert (Rabs (D - W6) <= 2000) by (apply Rabs_le; lra). lra. }
    assert (AM1 : ab 4 nu (Rmax 0 (D - W6))) by (apply ab_max; [apply u_0; lra|exact AN1]).
    assert (RQ : 0 <= Rmax 0 (D - W6) / W6 <= 2). { split; [apply Rle_mult_inv_pos; [apply Rmax_l|lra]|]. apply Rmult_le_reg_r with W6; [lra|]. unfold Rdiv. rewrite Rmult_assoc, Rinv_l, Rmult_1_r by lra. apply Rmax_lub; lra. }
    assert (AQ : ab 15 (fdiv nu w6) (Rmax 0 (D - W6) / W6)). { apply (u_div 8 (/ 1000) (12 / 10) 2 4 2); try lra; [exact lim_8|exact AM1|split; [exact F6|exact B6]|rewrite Rabs_pos_eq; lra]. }
    assert (AX : ab 15 x (Rmin 1 (Rmin 1 (Rmax 0 (D - W6) / W6)))) by (apply u_min; [apply (ab_up 0); [lra|exact one_ab]|apply u_min; [apply (ab_up 0); [lra|exact one_ab]|exact AQ]]).
    unfold window_share. fold D W6. set (q := Rmax 0 (D - W6) / W6) in *. replace (Rmin 1 q) with (Rmin 1 (Rmin 1 q)); [exact AX|]. unfold Rmin. destruct (Rle_dec 1 q); destruct (Rle_dec 1 _); lra.
Qed.

Section WithLibm.
Context {M : libm} (SM : skill_maths).
Lemma ratio_nr p c : within 25 (bpow radix2 20) p -> within 25 (bpow radix2 20) c ->
  nr 10900 (fadd (fq 1 1) (fmul (fq 6 1) (fmin (fq 1 2) (mpow (msin (fdiv fpi (fdiv (fmin p c) (fmax p c)))) (fq 2 1))))) (ratio_bonus (B2R p) (B2R c)) /\ 1 <= ratio_bonus (B2R p) (B2R c) <= 4.
Proof.
  change (bpow radix2 20) with 1048576. intros (FP & PB) (FC & CB). unfold ratio_bonus.
  destruct (fmin_fin _ _ FP FC) as (Fn & En). destruct (fmax_fin _ _ FP FC) as (Fm & Em). set (lo := Rmin (B2R p) (B2R c)) in *. set (hi := Rmax (B2R p) (B2R c)) in *.
  assert (LO : 25 <= lo <= 1048576) by (unfold lo; split; [apply Rmin_glb; lra|apply Rle_trans with (1 := Rmin_l _ _); lra]). assert (HI : 25 <= hi <= 1048576) by (unfold hi; split; [apply Rle_trans with (2 := Rmax_l _ _); lra|apply Rmax_lub; lra]). assert (LH : lo <= hi) by (apply Rle_trans with (1 := Rmin_l _ _), Rmax_l). clearbody lo hi.
  assert (QB : / 50000 <= lo / hi <= 1). { split; apply Rmult_le_reg_r with hi; try lra; unfold Rdiv; rewrite Rmult_assoc, Rinv_l, Rmult_1_r by lra; lra. }
  assert (HB : 1 <= hi / lo <= 41944). { split; apply Rmult_le_reg_r with lo; try lra; unfold Rdiv; rewrite Rmult_assoc, Rinv_l, Rmult_1_r by lra; lra. }
  assert (Q : rel e50 1 (fdiv (fmin p c) (fmax p c)) (lo / hi)). { apply (rel_up e50 ltac:(unfold e50; lra) (0 + 0 + 1)); [lra|]. apply div50; try lra; [split; [exact Fn|rewrite En; lra]|split; [exact Fm|rewrite Em; lra]|apply mid_in; lra]. }
  pose proof pi_box as PB'. assert (PIR : rel e50 5 fpi PI). { split; [vm_compute; reflexivity|]. split; [lra|]. pose proof (Rabs_le_inv _ _ pi_digits). bval fpi. rewrite V. unfold e50. lra. }
  assert (EQ : PI / (lo / hi) = PI * (hi / lo)) by (field; lra). assert (AB : 3 <= PI * (hi / lo) <= 131800). { split; [apply Rle_trans with (3 * 1); [lra|apply Rmult_le_compat; lra]|apply Rle_trans with (314159266 / 100000000 * 41944); [apply Rmult_le_compat; lra|lra]]. }
  assert (A : rel e50 7 (fdiv fpi (fdiv (fmin p c) (fmax p c))) (PI * (hi / lo))). { rewrite <- EQ. apply (rel_up e50 ltac:(unfold e50; lra) (5 + 1 + 1)); [lra|]. apply div50; try lra; [exact PIR|exact Q|rewrite EQ; apply mid_in; lra]. }
  assert (AA : ab 902 (fdiv fpi (fdiv (fmin p c) (fmax p c))) (PI * (hi / lo))). { apply (nr_ab (7 / 1024) 902 131800); try lra. apply (rel50_nr 7); [exact A|lra]. }
  pose proof (sin2_un SM 902 1810 _ _ AA ltac:(rewrite Rabs_pos_eq; lra) ltac:(lra) ltac:(lra)) as S2.
  assert (H2 : un 1810 (fq 1 2) (1 / 2)). { split; [apply (ab_up (/ 100)); [lra|uk]|]. split; [|lra]. split; [vm_compute; reflexivity|]. bval (fq 1 2). rewrite V. lra. }
  destruct (un_min _ _ _ _ _ H2 S2) as (MA & _ & MB). set (s2 := Rmin (1 / 2) (sin (PI * (hi / lo)) ^ 2)) in *. assert (SH : s2 <= 1 / 2) by apply Rmin_l.
  set (y := fmin (fq 1 2) _) in *. clearbody s2 y. split; [|lra]. apply (ab_nr 10900 10900 1); try lra. apply (u_add 8 (/ 1000) 0 10880); try lra; [exact lim_8|exact one_ab| |rewrite Rabs_pos_eq; lra].
  apply (u_mul 8 (/ 1000) 6 1 0 1810); try lra; [exact lim_8|apply (uz 6); lia|exact MA|rewrite Rabs_pos_eq; lra|rewrite Rabs_pos_eq; lra].
Qed.

(** a value with an error and not negative on either side, up to 4 *)
Definition mp (a : R) (x : f64) (r : R) : Prop := mx 10900 a x r /\ 0 <= B2R x /\ r <= 4.
Lemma eff_mp w W p c : rel e50 1 w W -> 2 <= W <= 1024 -> within 25 (bpow radix2 20) p -> within 25 (bpow radix2 20) c ->
  mp 61 (fmul (fmin (fq 1 1) (fmin (fq 1 1) (fdiv (fmax f0 (fsub (fabs (fsub p c)) (fmul w (fq 6 10)))) (fmul w (fq 6 10)))))
              (fadd (fq 1 1) (fmul (fq 6 1) (fmin (fq 1 2) (mpow (msin (fdiv fpi (fdiv (fmin p c) (fmax p c)))) (fq 2 1)))))) (window_share W (B2R p) (B2R c) * ratio_bonus (B2R p) (B2R c)).
Proof.
  intros RW WB P C. destruct (share_ab w W p c RW WB P C) as (SA & SP & SB). destruct (ratio_nr p c P C) as ((FR & _ & RE) & RB). cbv zeta in *. set (sh := fmin (fq 1 1) _) in *. set (ra := fadd (fq 1 1) _) in *. clearbody sh ra. set (r := window_share _ _ _) in *. set (s := ratio_bonus _ _) in *. clearbody r s.
  assert (MR : mx 10900 0 ra s). { split; [exact FR|]. split; [|lra]. apply Rabs_le. replace ((10900 * s + 0) * e40) with (10900 * e40 * s) by ring. lra. }
  assert (X : mx 10900 61 (fmul sh ra) (r * s)). { apply (mx_mul 0 15 10900 0 1 4); try lra; [apply mx_ab; [lra|exact SA]|exact MR]. }
  split; [exact X|]. split.
  - destruct (fmul_fin sh ra (proj1 SA) FR) as (_ & ->). { destruct SA as (_ & SA). apply Rabs_le_inv in SA. assert (0 <= B2R sh <= 2) by (unfold e40 in SA; lra). assert (0 <= B2R ra <= 5) by (unfold e40 in RE; lra). rewrite Rabs_pos_eq by (apply Rmult_le_pos; lra). apply Rle_trans with (2 * 5); [apply Rmult_le_compat; lra|]. apply Rle_trans with (bpow radix2 4); [change (bpow radix2 4) with 16; lra|apply bpow_le; lia]. }
    apply rnd64_pos. apply Rmult_le_pos; [lra|]. unfold e40 in RE; lra.
  - apply Rle_trans with (1 * 4); [apply Rmult_le_compat; lra|lra].
Qed.
Lemma mp_scale (b : bool) a x r k kr : mp a x r -> 0 <= a <= 1000 -> fin k -> B2R k = kr -> 0 <= kr <= 1 -> mp (a + / 50) (if b then fmul x k else x) (r * (if b then kr else 1)).
Proof.
  intros (X & XP & RU) A FK EK K. pose proof X as (FX & XE & XR). destruct b; [|rewrite Rmult_1_r; split; [apply (mx_up 10900 a); [lra|lra|exact X]|split; [exact XP|exact RU]]]. split; [|split].
  - apply (mx_mul 10900 a 0 0 4 1); try lra; [exact X|]. split; [exact FK|]. split; [|lra]. rewrite EK, Rminus_diag_eq, Rabs_R0 by reflexivity. lra.
  - assert (B2R x <= 5). { apply Rabs_le_inv in XE. assert ((10900 * r + a) * e40 <= 50000 * e40) by (apply Rmult_le_compat_r; [pose proof e40_pos; lra|lra]). unfold e40 in *. lra. }
    destruct (fmul_fin x k FX FK) as (_ & ->); [|apply rnd64_pos; apply Rmult_le_pos; lra]. rewrite EK, Rabs_pos_eq by (apply Rmult_le_pos; lra). apply Rle_trans with (5 * 1); [apply Rmult_le_compat; lra|]. apply Rle_trans with (bpow radix2 4); [change (bpow radix2 4) with 16; lra|apply bpow_le; lia].
  - apply Rle_trans with (4 * 1); [apply Rmult_le_compat; lra|lra].
Qed.

(** one change of the rhythm *)
Lemma term_ab x y r s age ra k l : mp 62 x r -> mp 62 y s -> ab 1 age ra -> 0 <= ra <= 1 -> (0 <= k <= 7)%Z -> (0 <= l <= 7)%Z ->
  let t := sqrt (r * s) * ra * (sqrt (4 + IZR k) / 2) * (sqrt (4 + IZR l) / 2) in
  ab 72000000 (fdiv (fmul (fdiv (fmul (fmul (fsqrt (fmul x y)) age) (fsqrt (fadd (fq 4 1) (f_of_Z k)))) (fq 2 1)) (fsqrt (fadd (fq 4 1) (f_of_Z l)))) (fq 2 1)) t /\ 0 <= t <= 12.
Proof.
  intros (X & XP & XU) (Y & YP & YU) A RA K L t. pose proof X as (FX & XE & XR). pose proof Y as (FY & YE & YR).
  assert (RS : 0 <= r * s <= 16) by (split; [apply Rmult_le_pos; lra|apply Rle_trans with (4 * 4); [apply Rmult_le_compat; lra|lra]]).
  assert (PM : mx 22000 600 (fmul x y) (r * s)) by (apply (mx_mul 10900 62 10900 62 4 4); try lra; assumption).
  assert (P0 : 0 <= B2R (fmul x y)). { assert (X5 : B2R x <= 5). { apply Rabs_le_inv in XE. assert ((10900 * r + 62) * e40 <= 50000 * e40) by (apply Rmult_le_compat_r; [pose proof e40_pos; lra|lra]). unfold e40 in *. lra. } assert (Y5 : B2R y <= 5). { apply Rabs_le_inv in YE. assert ((10900 * s + 62) * e40 <= 50000 * e40) by (apply Rmult_le_compat_r; [pose proof e40_pos; lra|lra]). unfold e40 in *. lra. }
    destruct (fmul_fin x y FX FY) as (_ & ->); [|apply rnd64_pos; apply Rmult_le_pos; lra]. rewrite Rabs_pos_eq by (apply Rmult_le_pos; lra). apply Rle_trans with (5 * 5); [apply Rmult_le_compat; lra|]. apply Rle_trans with (bpow radix2 5); [change (bpow radix2 5) with 32; lra|apply bpow_le; lia]. }
  destruct (mx_sqrt _ _ PM P0 ltac:(lra)) as (SA & SB). destruct (island_ab k K) as (KA & KB). destruct (island_ab l L) as (LA & LB). destruct (fq1_exact 2) as (F2 & E2); [lia|].
  set (q := fsqrt (fmul x y)) in *. set (kx := fsqrt (fadd (fq 4 1) (f_of_Z k))) in *. set (lx := fsqrt (fadd (fq 4 1) (f_of_Z l))) in *. set (qr := sqrt (r * s)) in *. set (kr := sqrt (4 + IZR k)) in *. set (lr := sqrt (4 + IZR l)) in *. clearbody q kx lx qr kr lr.
  assert (T1 : 0 <= qr * ra <= 4) by (split; [apply Rmult_le_pos; lra|apply Rle_trans with (4 * 1); [apply Rmult_le_compat; lra|lra]]).
  assert (A1 : ab 26000100 (fmul q age) (qr * ra)) by (apply (u_mul 8192 1 4 1 26000000 1); try lra; [exact lim_8k|exact SA|exact A|rewrite Rabs_pos_eq; lra|rewrite Rabs_pos_eq; lra]).
  assert (T2 : 0 <= qr * ra * kr <= 4 * (332 / 100)) by (split; [apply Rmult_le_pos; lra|apply Rmult_le_compat; lra]).
  assert (A2 : ab 86321000 (fmul (fmul q age) kx) (qr * ra * kr)) by (apply (u_mul 8192 1 4 (332 / 100) 26000100 1); try lra; [exact lim_8k|exact A1|exact KA|rewrite Rabs_pos_eq; lra|rewrite Rabs_pos_eq; lra]).
  assert (A3 : ab 43161000 (fdiv (fmul (fmul q age) kx) (fq 2 1)) (qr * ra * kr / 2)) by (apply (over_ab 8192 1 86321000); try lra; [exact lim_8k|exact A2|exact F2|rewrite Rabs_pos_eq; lra]).
  assert (T4 : 0 <= qr * ra * kr / 2 * lr <= 7 * (332 / 100)) by (split; [apply Rmult_le_pos; lra|apply Rmult_le_compat; lra]).
  assert (A4 : ab 143300000 (fmul (fdiv (fmul (fmul q age) kx) (fq 2 1)) lx) (qr * ra * kr / 2 * lr)) by (apply (u_mul 8192 1 7 (332 / 100) 43161000 1); try lra; [exact lim_8k|exact A3|exact LA|rewrite Rabs_pos_eq; lra|rewrite Rabs_pos_eq; lra]).
  assert (ET : t = qr * ra * kr / 2 * lr / 2) by (unfold t; field). rewrite ET. split; [|lra]. apply (over_ab 8192 1 143300000); try lra; [exact lim_8k|exact A4|exact F2|rewrite Rabs_pos_eq; lra].
Qed.

(** ** One step *)
Record in_step (k : nat) (r : Skills.rhythm) (b : beat) : Prop := {
  is_last : rh_prevIsland r = be_last b /\ (0 <= be_last b <= 7)%Z;
  is_size : rh_island r = be_size b /\ (1 <= be_size b <= 7)%Z;
  is_start : mp 62 (rh_startRatio r) (be_start b);
  is_on : rh_switch r = be_on b;
  is_sum : ab (72000001 * INR k) (rh_sum r) (be_sum b);
  is_sum_le : 0 <= be_sum b <= 12 * INR k }.
Lemma in_step_up k r b : in_step k r b -> in_step (S k) r b.
Proof.
  intros [A B C D E F]. split; auto; rewrite S_INR; [apply (ab_up (72000001 * INR k)); [lra|exact E]|lra].
Qed.
Lemma brisk_in o : sane 16 o -> brisk o -> within 25 (bpow radix2 20) (do_StrainTime o).
Proof. intros S B. destruct (sn_strain _ _ S) as (F & H). unfold brisk in B. split; [exact F|lra]. Qed.
Lemma gt_54 p c : within 25 (bpow radix2 20) p -> within 25 (bpow radix2 20) c -> clear_gt (B2R p) (5 / 4 * B2R c) -> flt (fmul (fq 5 4) c) p = (if Rlt_dec (5 / 4 * B2R c) (B2R p) then true else false) /\ flt (fmul c (fq 5 4)) p = (if Rlt_dec (5 / 4 * B2R c) (B2R p) then true else false).
Proof.
  change (bpow radix2 20) with 1048576. intros (FP & PB) (FC & CB) CL. assert (F5 : fin (fq 5 4)) by (vm_compute; reflexivity). assert (E5 : B2R (fq 5 4) = 5 / 4) by (bval (fq 5 4); rewrite V; lra). assert (BB : Rabs (5 / 4 * B2R c) <= bpow radix2 1023) by (rewrite Rabs_pos_eq by lra; apply Rle_trans with (bpow radix2 22); [repeat pw; lra|apply bpow_le; lia]).
  destruct (fmul_fin (fq 5 4) c F5 FC) as (F1 & E1); [rewrite E5; exact BB|]. destruct (fmul_fin c (fq 5 4) FC F5) as (F2 & E2); [rewrite E5, Rmult_comm; exact BB|]. rewrite E5 in E1, E2. rewrite (Rmult_comm (B2R c)) in E2. split; apply clear_dec; auto; lra.
Qed.
Lemma gt_10 p c : within 25 (bpow radix2 20) p -> within 25 (bpow radix2 20) c -> clear_gt (B2R p) (B2R c + 10) -> flt (fadd c (fq 10 1)) p = (if Rlt_dec (B2R c + 10) (B2R p) then true else false).
Proof.
  change (bpow radix2 20) with 1048576. intros (FP & PB) (FC & CB) CL. destruct (fq1_exact 10) as (F5 & E5); [lia|]. destruct (fadd_fin c (fq 10 1) FC F5) as (F1 & E1); [rewrite E5, Rabs_pos_eq by lra; apply Rle_trans with (bpow radix2 22); [repeat pw; lra|apply bpow_le; lia]|]. rewrite E5 in E1. apply clear_dec; auto; lra.
Qed.
Lemma step_ok k w W n i cur c p l r b : rel e50 1 w W -> 2 <= W <= 1024 -> (0 < n <= 1000)%nat -> (i <= n)%nat -> (k <= 30)%nat -> sane 16 cur -> sane 16 c -> sane 16 p -> sane 16 l -> brisk c -> brisk p -> brisk l ->
  B2R (do_StartTime c) <= B2R (do_StartTime cur) -> step_clear (B2R (do_StartTime cur)) c p l -> in_step k r b ->
  in_step (S k) (rhythm_step cur w n i c p l r)
    (if Rlt_dec (B2R (do_StartTime cur) - B2R (do_StartTime c)) 5000
     then beat_step W (age_of (INR n) (INR i) (B2R (do_StartTime cur) - B2R (do_StartTime c))) (B2R (do_StrainTime c)) (B2R (do_StrainTime p)) (B2R (do_StrainTime l)) (base_lazy c) (base_lazy p) b
     else b).
Proof.
  intros RW WB HN HI HK SC S1 S2 S3 B1 B2 B3 OR (C1 & C2 & C3 & C4 & C5) IS. pose proof (brisk_in _ S1 B1) as T1. pose proof (brisk_in _ S2 B2) as T2. pose proof (brisk_in _ S3 B3) as T3.
  destruct (sn_start _ _ SC) as (FS & BS). destruct (sn_start _ _ S1) as (FT & BT). assert (B43 : bpow radix2 43 = 2 * bpow radix2 42) by (change 43%Z with (1 + 42)%Z; rewrite bpow_plus; reflexivity).
  destruct (age_dec _ _ FS FT ltac:(lra) C5) as (AD & AA). unfold rhythm_step. cbv zeta in AD, AA |- *. set (dc := fdiv (fmax f0 _) (fq 5000 1)) in *. set (D := B2R (do_StartTime cur) - B2R (do_StartTime c)) in *. rewrite AD. destruct (Rlt_dec D 5000) as [L5|L5]; [|now apply in_step_up]. specialize (AA L5).
  destruct (age_ab n i _ _ HN HI AA) as (AG & AGB). set (age := fmin (fdiv (f_of_Z _) _) dc) in *. fold (age_of (INR n) (INR i) D) in AG. assert (RB : 0 <= age_of (INR n) (INR i) D <= 1) by (unfold age_of; split; [apply Rmin_glb; [lra|]; apply Rle_mult_inv_pos; [apply Rmax_l|lra]|apply Rle_trans with (1 := Rmin_l _ _); lra]).
  set (ra := age_of (INR n) (INR i) D) in *. clearbody age ra. clear AD AA. clearbody dc.
  pose proof (eff_mp w W _ _ RW WB T2 T1) as EF. set (cd := do_StrainTime c) in *. set (pd := do_StrainTime p) in *. set (ld := do_StrainTime l) in *. set (eff := fmul (fmin (fq 1 1) _) _) in *. unfold beat_step. cbv zeta. set (e := window_share W (B2R pd) (B2R cd) * ratio_bonus (B2R pd) (B2R cd)) in *. clearbody eff e.
  destruct (gt_54 pd cd T2 T1 C1) as (G1 & _). destruct (gt_54 cd pd T1 T2 C2) as (_ & G2). fold (faster (B2R cd) (B2R pd)) in G1. fold (slower (B2R cd) (B2R pd)) in G2. change (fgt pd (fmul (fq 5 4) cd)) with (flt (fmul (fq 5 4) cd) pd). rewrite G1, G2.
  pose proof (gt_10 ld pd T3 T2 C3) as G3. pose proof (gt_10 pd cd T2 T1 C4) as G4. change (fgt ld (fadd pd (fq 10 1))) with (flt (fadd pd (fq 10 1)) ld). change (fgt pd (fadd cd (fq 10 1))) with (flt (fadd cd (fq 10 1)) pd). rewrite G3, G4.
  assert (EF62 : mp 62 eff e) by (destruct EF as (X & Y); split; [apply (mx_up 10900 61); [lra|lra|exact X]|exact Y]).
  pose proof IS as [(I1 & J1) (I2 & J2) I3 I4 I5 I6]. rewrite I4. destruct (be_on b).
  - destruct (faster (B2R cd) (B2R pd) || slower (B2R cd) (B2R pd))%bool; cbn [negb].
    + rewrite I1, I2, (parity (be_last b) (be_size b)) by lia.
      destruct (fq1_exact 1) as (F1 & E1); [lia|]. assert (K8 : fin (fq 1 8) /\ B2R (fq 1 8) = 1 / 8) by (split; [vm_compute; reflexivity|bval (fq 1 8); rewrite V; lra]). assert (K4 : fin (fq 1 4) /\ B2R (fq 1 4) = 1 / 4) by (split; [vm_compute; reflexivity|bval (fq 1 4); rewrite V; lra]). assert (K2 : fin (fq 1 2) /\ B2R (fq 1 2) = 1 / 2) by (split; [vm_compute; reflexivity|bval (fq 1 2); rewrite V; lra]).
      pose proof (mp_scale (base_lazy c) _ _ _ _ _ EF ltac:(lra) (proj1 K8) (proj2 K8) ltac:(lra)) as M1. pose proof (mp_scale (base_lazy p) _ _ _ _ _ M1 ltac:(lra) (proj1 K4) (proj2 K4) ltac:(lra)) as M2. pose proof (mp_scale (be_last b =? be_size b)%Z _ _ _ _ _ M2 ltac:(lra) (proj1 K4) (proj2 K4) ltac:(lra)) as M3.
      pose proof (mp_scale (Bool.eqb (Z.even (be_last b)) (Z.even (be_size b))) _ _ _ _ _ M3 ltac:(lra) (proj1 K2) (proj2 K2) ltac:(lra)) as M4. pose proof (mp_scale ((if Rlt_dec (B2R pd + 10) (B2R ld) then true else false) && (if Rlt_dec (B2R cd + 10) (B2R pd) then true else false))%bool _ _ _ _ _ M4 ltac:(lra) (proj1 K8) (proj2 K8) ltac:(lra)) as M5.
      set (eff5 := if ((if Rlt_dec (B2R pd + 10) (B2R ld) then true else false) && _)%bool then _ else _) in *.
      assert (EW : e * change_weight b (B2R cd) (B2R pd) (B2R ld) (base_lazy c) (base_lazy p) = e * (if base_lazy c then 1 / 8 else 1) * (if base_lazy p then 1 / 4 else 1) * (if (be_last b =? be_size b)%Z then 1 / 4 else 1) * (if Bool.eqb (Z.even (be_last b)) (Z.even (be_size b)) then 1 / 2 else 1) * (if ((if Rlt_dec (B2R pd + 10) (B2R ld) then true else false) && (if Rlt_dec (B2R cd + 10) (B2R pd) then true else false))%bool then 1 / 8 else 1)).
      { unfold change_weight. destruct (Rlt_dec (B2R pd + 10) (B2R ld)); destruct (Rlt_dec (B2R cd + 10) (B2R pd)); cbn [andb]; ring. }
      rewrite <- EW in M5. set (e5 := e * change_weight b _ _ _ _ _) in *. clearbody eff5 e5. assert (M6 : mp 62 eff5 e5) by (destruct M5 as (X & Y); split; [apply (mx_up 10900 (61 + / 50 + / 50 + / 50 + / 50 + / 50)); [lra|lra|exact X]|exact Y]).
      destruct (term_ab _ _ _ _ _ _ (be_size b) (be_last b) M6 I3 AG RB ltac:(lia) ltac:(lia)) as (TA & TB). cbv zeta in TA, TB. set (t := sqrt (e5 * be_start b) * ra * _ * _) in *. set (tf := fdiv (fmul (fdiv _ _) _) (fq 2 1)) in *. clearbody t tf.
      assert (KR : 0 <= INR k <= 30) by (rewrite INR_IZR_INZ; split; [apply (IZR_le 0)|apply (IZR_le _ 30)]; lia).
      split; cbn [rh_prevIsland rh_island rh_startRatio rh_switch rh_sum be_last be_size be_start be_on be_sum]; auto; try lia.
      * rewrite S_INR. apply (u_add 8192 1 (72000001 * INR k) 72000000); try lra; [exact lim_8k|exact I5|exact TA|rewrite Rabs_pos_eq; lra].
      * rewrite S_INR. lra.
    + rewrite I2. destruct (be_size b <? 7)%Z eqn:LT; [apply Z.ltb_lt in LT|apply Z.ltb_ge in LT]; apply in_step_up; split; cbn [rh_prevIsland rh_island rh_startRatio rh_switch rh_sum be_last be_size be_start be_on be_sum]; auto; rewrite ?Z.min_r by lia; rewrite ?Z.min_l by lia; lia.
  - destruct (faster (B2R cd) (B2R pd)); apply in_step_up; [|exact IS]. split; cbn [rh_prevIsland rh_island rh_startRatio rh_switch rh_sum be_last be_size be_start be_on be_sum]; auto; lia.
Qed.

(** ** The loop *)
Lemma beats_ok d W cur prev : let w := fdiv (d_Hit300 d) (d_Speed d) in rel e50 1 w W -> 2 <= W <= 1024 -> sane 16 cur -> Forall (sane 16) prev -> Forall brisk prev -> (length prev <= 32)%nat ->
  Forall (fun o => B2R (do_StartTime o) <= B2R (do_StartTime cur)) prev ->
  (forall i c p l, nth_error prev i = Some c -> nth_error prev (S i) = Some p -> nth_error prev (S (S i)) = Some l -> step_clear (B2R (do_StartTime cur)) c p l) ->
  forall i k r b r', (k + i <= 30)%nat -> in_step k r b -> rhythm_loop cur w prev i r = Ok r' ->
  in_step (k + i) r' (beats W (B2R (do_StartTime cur)) (map tap_of prev) i b).
Proof.
  intros w RW WB SC SP BP LP OR CL. induction i as [|i IH]; intros k r b r' KI IS H; cbn [rhythm_loop beats] in *.
  - apply Ok_inj in H. subst r'. now rewrite Nat.add_0_r.
  - apply bind_ok in H as (c & Hc & H). apply bind_ok in H as (p & Hp & H). apply bind_ok in H as (l & Hl & H).
    assert (G : forall z j x, idx prev z = Ok x -> z = Z.of_nat j -> nth_error prev j = Some x) by (intros z j x Hx ->; apply idx_ok in Hx; destruct Hx as (_ & Hx); rewrite Nat2Z.id in Hx; exact Hx).
    apply (G _ i) in Hc; [|lia]. apply (G _ (S i)) in Hp; [|lia]. apply (G _ (S (S i))) in Hl; [|lia].
    rewrite (map_nth_error tap_of _ _ Hc), (map_nth_error tap_of _ _ Hp), (map_nth_error tap_of _ _ Hl), map_length. cbn [tap_of tp_time tp_gap tp_slider].
    assert (IN : forall P j x, Forall P prev -> nth_error prev j = Some x -> P x) by (intros P j x HP Hx; rewrite Forall_forall in HP; apply HP; now apply nth_error_In in Hx).
    replace (k + S i)%nat with (S k + i)%nat by lia. apply (IH (S k) (rhythm_step cur w (length prev) (S i) c p l r)); [lia| |exact H].
    assert (LN : (S (S i) < length prev)%nat) by (apply nth_error_Some; rewrite Hl; discriminate).
    apply step_ok; auto; try lia; try (eapply IN; eassumption). apply (IN (fun o => B2R (do_StartTime o) <= B2R (do_StartTime cur)) _ _ OR Hc). now apply (CL i).
Qed.
Theorem rhythm_ab d cur prev x : clocked d -> sane 16 cur -> Forall (sane 16) prev -> Forall brisk prev -> (length prev <= 32)%nat ->
  Forall (fun o => B2R (do_StartTime o) <= B2R (do_StartTime cur)) prev ->
  (forall i c p l, nth_error prev i = Some c -> nth_error prev (S i) = Some p -> nth_error prev (S (S i)) = Some l -> step_clear (B2R (do_StartTime cur)) c p l) ->
  base_spinner cur = false -> speed_bonus d prev cur = Ok x ->
  is_finite x = true /\ Rabs (B2R x - rhythm_formula (B2R (d_Hit300 d) / B2R (d_Speed d)) (B2R (do_StartTime cur)) (map tap_of prev)) <= / 4096.
Proof.
  intros CD SC SP BP LP OR CL NS H. destruct (window_rel d CD) as (RW & _ & WB). unfold speed_bonus in H. rewrite NS in H. apply bind_ok in H as (r & H & E). apply Ok_inj in E. subst x. set (W := B2R (d_Hit300 d) / B2R (d_Speed d)) in *.
  assert (I0 : in_step 0 (mkRhythm 0 f0 1 f0 false) (mkBeat 0 1 0 false 0)).
  { split; cbn [rh_prevIsland rh_island rh_startRatio rh_switch rh_sum be_last be_size be_start be_on be_sum]; auto; try lia; try (cbn [INR]; lra); [|apply u_0; cbn [INR]; lra]. split; [|split; [change (B2R f0) with 0; lra|lra]]. apply (mx_up 0 0); [lra|lra|]. apply mx_ab; [lra|apply u_0; lra]. }
  pose proof (beats_ok d W cur prev RW WB SC SP BP LP OR CL (length prev - 2) 0 _ _ _ ltac:(lia) I0 H) as [_ _ _ _ (FS & ES) SB]. unfold rhythm_formula. rewrite map_length. set (s := be_sum _) in *. cbn [plus] in *.
  assert (KR : 0 <= INR (length prev - 2) <= 30) by (rewrite INR_IZR_INZ; split; [apply (IZR_le 0)|apply (IZR_le _ 30)]; lia). assert (AS : ab 2160000030 (rh_sum r) s) by (apply (ab_up (72000001 * INR (length prev - 2))); [lra|split; [exact FS|exact ES]]).
  assert (A1 : ab 1620000030 (fmul (rh_sum r) (fq 3 4)) (s * (3 / 4))) by (apply (u_mul 8192 1 360 (3 / 4) 2160000030 0); try lra; [exact lim_8k|exact AS| |rewrite Rabs_pos_eq; lra|rewrite Rabs_pos_eq; lra]; apply ab_is; [vm_compute; reflexivity|bval (fq 3 4); rewrite V; lra]).
  assert (A2 : ab 1620000040 (fadd (fq 4 1) (fmul (rh_sum r) (fq 3 4))) (4 + s * (3 / 4))) by (apply (u_add 8192 1 0 1620000030); try lra; [exact lim_8k|apply (uz 4); lia|exact A1|rewrite Rabs_pos_eq; lra]).
  destruct A2 as (F2 & E2). rewrite (Rmult_comm s) in E2. set (y := fadd (fq 4 1) _) in *. apply Rabs_le_inv in E2. assert (Y0 : 3 <= B2R y <= 400) by (unfold e40 in E2; lra).
  destruct (fsqrt_fin y F2) as (FQ & EQ); [lra|]. assert (LP' : Rabs (sqrt (B2R y) - sqrt (4 + 3 / 4 * s)) <= 405500000 * e40).
  { assert (SA : 1 <= sqrt (B2R y)) by (rewrite <- sqrt_1; apply sqrt_le_1_alt; lra). assert (SC2 : 2 <= sqrt (4 + 3 / 4 * s)) by (replace 2 with (sqrt 4) by (replace 4 with (2 * 2) by ring; apply sqrt_square; lra); apply sqrt_le_1_alt; lra).
    assert (SA2 : 1999 / 1000 <= sqrt (B2R y)). { replace (1999 / 1000) with (sqrt (1999 / 1000 * (1999 / 1000))) by (apply sqrt_square; lra). apply sqrt_le_1_alt. unfold e40 in E2. lra. }
    assert (PR : (sqrt (B2R y) - sqrt (4 + 3 / 4 * s)) * (sqrt (B2R y) + sqrt (4 + 3 / 4 * s)) = B2R y - (4 + 3 / 4 * s)). { replace ((sqrt (B2R y) - sqrt (4 + 3 / 4 * s)) * (sqrt (B2R y) + sqrt (4 + 3 / 4 * s))) with (sqrt (B2R y) * sqrt (B2R y) - sqrt (4 + 3 / 4 * s) * sqrt (4 + 3 / 4 * s)) by ring. rewrite !sqrt_sqrt by lra. ring. }
    apply Rmult_le_reg_r with (3999 / 1000); [lra|]. apply Rle_trans with (Rabs (sqrt (B2R y) - sqrt (4 + 3 / 4 * s)) * (sqrt (B2R y) + sqrt (4 + 3 / 4 * s))); [apply Rmult_le_compat_l; [apply Rabs_pos|lra]|].
    rewrite <- (Rabs_pos_eq (sqrt (B2R y) + sqrt (4 + 3 / 4 * s))) by lra. rewrite <- Rabs_mult, PR. apply Rabs_le. unfold e40 in *. lra. }
  assert (SU : sqrt (4 + 3 / 4 * s) <= 20) by (replace 20 with (sqrt 400) by (replace 400 with (20 * 20) by ring; apply sqrt_square; lra); apply sqrt_le_1_alt; lra). pose proof (sqrt_pos (4 + 3 / 4 * s)) as SU0.
  assert (AQ : ab 405500010 (fsqrt y) (sqrt (4 + 3 / 4 * s))). { apply Rabs_le_inv in LP'. destruct (round_lim 8192 1 (fsqrt y) (sqrt (B2R y)) lim_8k) as (_ & B); [apply Rabs_le; unfold e40 in LP'; lra|auto|]. apply Rabs_le_inv in B. split; [exact FQ|]. apply Rabs_le. lra. }
  destruct (fq1_exact 2) as (F2' & E2'); [lia|]. destruct (over_ab 8192 1 405500010 202760000 _ _ _ 2 lim_8k AQ F2' E2') as (FR & ER); try lra; [rewrite Rabs_pos_eq; lra|]. split; [exact FR|]. apply Rle_trans with (1 := ER). unfold e40. lra.
Qed.
End WithLibm.

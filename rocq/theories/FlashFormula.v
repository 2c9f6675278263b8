(** The flashlight strain of an object against its real formula. *)
From Coq Require Import Reals Lra ZArith Lia List Bool.
From Flocq Require Import Core BinarySingleNaN.
From Verif Require Import DiffCalc SpecPP SpecSane SpecFormula SpecEval SpecSkill BaseLemmas FloatLemmas Float32Lemmas KeyLemmas LazyProofs SkillProofs PPProofs PPBounds ValueBounds ObjectBounds RelLemmas RelPow FormulaParts UnitLemmas AimFormula PropEval.
Import ListNotations.
Open Scope R_scope.

Section WithLibm.
Context {M : libm} (PC : pow_close).

Lemma fade_nv i : (i <= 31)%nat -> nv 40 10 (mpow (fq 8 10) (f_of_Z (Z.of_nat i))) ((8 / 10) ^ i).
Proof.
  intros HI. assert (IR : 0 <= INR i <= 31) by (rewrite INR_IZR_INZ; split; [apply (IZR_le 0)|apply (IZR_le _ 31)]; lia). destruct (f_of_Z_exact (Z.of_nat i)) as (FI & EI); [lia|]. rewrite <- INR_IZR_INZ in EI.
  assert (LO : / 1024 <= (8 / 10) ^ i <= 1). { split; [|rewrite <- (pow1 i); apply pow_incr; lra]. apply Rle_trans with ((8 / 10) ^ 31); [lra|]. replace 31%nat with (i + (31 - i))%nat at 1 by lia. rewrite pow_add. rewrite <- (Rmult_1_r ((8 / 10) ^ i)) at 2. apply Rmult_le_compat_l; [apply pow_le; lra|]. rewrite <- (pow1 (31 - i)). apply pow_incr. lra. }
  assert (RP : Rpower (8 / 10) (INR i) = (8 / 10) ^ i) by (apply Rpower_pow; lra). split; [|right; change (bpow radix2 (- (10))) with (/ 1024); change (bpow radix2 10) with 1024; lra].
  rewrite <- RP. apply rel_nr. apply (pow_rel PC 1 40 0 31 1); try (unfold NN; lra).
  - apply nr_rel; [kst|lra].
  - exact FI.
  - rewrite EI, Rminus_diag_eq, Rabs_R0 by reflexivity. lra.
  - rewrite Rabs_pos_eq; lra.
  - assert (ln (8 / 10) < 0) by (rewrite <- ln_1; apply ln_increasing; lra). rewrite Rabs_left by lra. assert (- ln (8 / 10) <= 1); [|lra]. rewrite <- ln_Rinv by lra. replace (/ (8 / 10)) with (5 / 4) by field. apply Rle_trans with (ln 2); [apply ln_le'; lra|apply ln2_le].
  - rewrite RP. apply mid_in. lra.
Qed.
Lemma apart_nv d cur p : near 16 d cur p -> nv 0 149 (apart d cur p) (B2R (apart d cur p)).
Proof.
  intros N. pose proof N as (F & B). fold (apart d cur p) in F, B. apply grain_sz; [exact N|]. unfold apart in *. set (g := vdst _ _) in *. clearbody g.
  assert (FG : fin g). { destruct g; try reflexivity; discriminate F. } apply grainy_g; [exact FG|]. destruct (f_of_g_fin g FG) as (_ & E). rewrite <- E. lra.
Qed.
Lemma scale_nv d : clocked d -> nv 1 3 (fdiv (fq 52 1) (d_CircleRadius d)) (52 / B2R (d_CircleRadius d)) /\ 52 / 100 <= 52 / B2R (d_CircleRadius d) <= 65 / 10.
Proof.
  intros (_ & _ & (FR & RB)). assert (B : 52 / 100 <= 52 / B2R (d_CircleRadius d) <= 65 / 10) by (split; apply Rmult_le_reg_r with (B2R (d_CircleRadius d)); try lra; replace (52 / B2R (d_CircleRadius d) * B2R (d_CircleRadius d)) with 52 by (field; lra); lra).
  split; [|exact B]. split; [|size]. assert (N52 : nv 0 6 (fq 52 1) 52) by kv. assert (NR : nv 0 7 (d_CircleRadius d) (B2R (d_CircleRadius d))) by (split; [apply nr_is; [exact FR|reflexivity|lra]|size]).
  apply (nr_up (0 + 0 + 1)); [lra|]. apply (nv_div 0 0 6 7); try (unfold NN; lra); try lia; assumption.
Qed.
Definition seen_ok (d : difficulty) (cur : dobj) (ip : nat * dobj) : Prop := (fst ip <= 31)%nat /\ sane 16 (snd ip) /\ near 16 d cur (snd ip).
Lemma sum_nv d cur : clocked d -> forall l t T res R j, (j + length l <= 32)%nat -> Forall (seen_ok d cur) l -> nv (INR j) (42 + Z.of_nat j) t T -> nv (150 + INR j) (500 + Z.of_nat j) res R ->
  nv (150 + INR (j + length l)) (500 + Z.of_nat (j + length l)) (fold_left fadd (map (fun x => flash_share d cur (fst x) (snd x)) (combine l (running t l))) res) (R + fold_right Rplus 0 (map (sight_term (52 / B2R (d_CircleRadius d))) (sights_from d cur T l))).
Proof.
  intros CD. destruct (scale_nv d CD) as (NS & SB). set (s := 52 / B2R (d_CircleRadius d)) in *. induction l as [|(i, p) l IH]; intros t T res R j HJ HL NT NR.
  - cbn [running combine map fold_left sights_from fold_right length] in *. rewrite Nat.add_0_r, Rplus_0_r. exact NR.
  - apply Forall_cons_iff in HL as ((HI & S & N) & HL). cbn [fst snd length] in *. cbn [running combine map fold_left sights_from fold_right fst snd]. cbv zeta. rewrite <- Rplus_assoc. replace (j + Datatypes.S (length l))%nat with (Datatypes.S j + length l)%nat by lia.
    assert (JR : 0 <= INR j <= 31) by (rewrite INR_IZR_INZ; split; [apply (IZR_le 0)|apply (IZR_le _ 31)]; lia). assert (KZ : (42 + Z.of_nat j + 1 = 42 + Z.of_nat (Datatypes.S j))%Z) by lia.
    destruct (sn_strain _ _ S) as (FS & SBD). assert (NST : nv (INR j) (42 + Z.of_nat j) (do_StrainTime p) (B2R (do_StrainTime p))). { split; [apply (nr_up 0); [lra|]; apply nr_is; [exact FS|reflexivity|lra]|right]. split; [apply Rle_trans with 1; [change 1 with (bpow radix2 0); apply bpow_le; lia|lra]|apply Rle_trans with (bpow radix2 42); [lra|apply bpow_le; lia]]. }
    assert (NT' : nv (INR (Datatypes.S j)) (42 + Z.of_nat (Datatypes.S j)) (fadd t (do_StrainTime p)) (T + B2R (do_StrainTime p))). { rewrite S_INR, <- KZ. apply nv_add; try assumption; [unfold NN; lra|lia]. }
    apply IH; [lia|exact HL|exact NT'|]. rewrite S_INR. replace (150 + (INR j + 1)) with (150 + INR j + 1) by ring. replace (500 + Z.of_nat (Datatypes.S j))%Z with (500 + Z.of_nat j + 1)%Z by lia. apply nv_add; [unfold NN; lra|lia|exact NR|].
    unfold flash_share, sight_term. cbn [fst snd si_age si_since si_jump si_dist]. cbv zeta. fold s.
    assert (NJ : nv 0 149 (do_Jump p) (B2R (do_Jump p))) by (apply grain_sz; [apply (sane_16 p S)|apply (sn_jump_grain _ _ S)]). assert (N25 : nv 0 5 (fq 25 1) 25) by kv.
    assert (NE : nv 3 157 (fmin (fq 1 1) (fdiv (fdiv (do_Jump p) (fdiv (fq 52 1) (d_CircleRadius d))) (fq 25 1))) (Rmin 1 (B2R (do_Jump p) / s / 25))).
    { apply nv_min; [unfold NN; lra|apply (nv_up 0 3 0 157); [lra|lia|exact one_nv]|]. apply (nv_up (2 + 0 + 1) 3 (152 + 5) 157); [lra|lia|]. apply nv_div; try (unfold NN; lra); try lia; try lra; [|exact N25]. apply (nv_up (0 + 1 + 1) 2 (149 + 3) 152); [lra|lia|]. apply nv_div; try (unfold NN; lra); try lia; try lra; assumption. }
    pose proof (nv_mul 40 3 10 157 _ _ _ _ ltac:(unfold NN; lra) ltac:(unfold NN; lra) ltac:(lia) ltac:(lia) ltac:(lia) (fade_nv i HI) NE) as M1.
    pose proof (nv_mul (40 + 3 + 1) 1 (10 + 157) 3 _ _ _ _ ltac:(unfold NN; lra) ltac:(unfold NN; lra) ltac:(lia) ltac:(lia) ltac:(lia) M1 NS) as M2.
    pose proof (nv_mul (40 + 3 + 1 + 1 + 1) 0 (10 + 157 + 3) 149 _ _ _ _ ltac:(unfold NN; lra) ltac:(unfold NN; lra) ltac:(lia) ltac:(lia) ltac:(lia) M2 (apart_nv d cur p N)) as M3.
    assert (TP : 0 < T + B2R (do_StrainTime p)). { destruct NT as ((_ & T0 & _) & _). lra. }
    pose proof (nv_div (40 + 3 + 1 + 1 + 1 + 0 + 1) (INR (Datatypes.S j)) (10 + 157 + 3 + 149) (42 + Z.of_nat (Datatypes.S j)) _ _ _ _ ltac:(unfold NN; lra) ltac:(rewrite S_INR; unfold NN; lra) ltac:(lia) M3 NT' TP) as M4.
    refine (nv_up _ _ _ _ _ _ _ _ M4); [rewrite S_INR; lra|lia].
Qed.
Lemma visible_ok d cur prev : Forall (sane 16) prev -> Forall (near 16 d cur) prev -> (length prev <= 32)%nat -> Forall (seen_ok d cur) (visible prev) /\ (length (visible prev) <= 32)%nat.
Proof.
  intros SP NP LP. split.
  - apply Forall_forall. intros (i, p) H. unfold visible in H. apply filter_In in H as (H & _). pose proof (in_combine_r _ _ _ _ H) as HP. apply in_combine_l in H. apply in_seq in H. rewrite Forall_forall in SP, NP. split; [cbn [fst]; lia|]. split; [now apply SP|now apply NP].
  - unfold visible. apply Nat.le_trans with (length (combine (seq 0 (length prev)) prev)); [|rewrite combine_length, seq_length; lia]. induction (combine (seq 0 (length prev)) prev) as [|a l IH]; [apply Nat.le_refl|]. cbn [filter]. destruct (negb _); cbn [length]; lia.
Qed.
Lemma sights_le d cur s : 52 / 100 <= s <= 65 / 10 -> forall l T, 0 <= T -> Forall (seen_ok d cur) l ->
  0 <= fold_right Rplus 0 (map (sight_term s) (sights_from d cur T l)) <= 17100 * INR (length l).
Proof.
  intros SB. induction l as [|(i, p) l IH]; intros T HT HL; cbn [sights_from map fold_right length]; [cbn [INR]; lra|]. apply Forall_cons_iff in HL as ((_ & S & N) & HL). cbn [snd] in *. destruct (sn_strain _ _ S) as (_ & TB). destruct (sn_jump _ _ S) as (_ & JB). destruct N as (_ & AB). fold (apart d cur p) in AB. change (bpow radix2 16) with 65536 in *.
  specialize (IH (T + B2R (do_StrainTime p)) ltac:(lra) HL). rewrite S_INR. assert (TM : 0 <= sight_term s (mkSight i (T + B2R (do_StrainTime p)) (B2R (do_Jump p)) (B2R (apart d cur p))) <= 17100); [|lra].
  unfold sight_term. cbn [si_age si_since si_jump si_dist]. assert (P1 : 0 <= (8 / 10) ^ i <= 1) by (split; [apply pow_le; lra|rewrite <- (pow1 i); apply pow_incr; lra]).
  assert (P2 : 0 <= Rmin 1 (B2R (do_Jump p) / s / 25) <= 1) by (split; [apply Rmin_glb; [lra|]; apply Rle_mult_inv_pos; [apply Rle_mult_inv_pos; lra|lra]|apply Rmin_l]). set (a := (8 / 10) ^ i) in *. set (b := Rmin 1 _) in *. set (c := B2R (apart d cur p)) in *. set (t := T + B2R (do_StrainTime p)) in *. assert (25 <= t) by (unfold t; lra). clearbody a b c t.
  assert (0 <= a * b <= 1 * 1) by (split; [apply Rmult_le_pos; lra|apply Rmult_le_compat; lra]). assert (0 <= a * b * s <= 1 * (65 / 10)) by (split; [apply Rmult_le_pos; lra|apply Rmult_le_compat; lra]). assert (AC : 0 <= a * b * s * c <= 65 / 10 * 65536) by (split; [apply Rmult_le_pos; lra|apply Rmult_le_compat; lra]). pose proof (over_le _ t _ AC ltac:(lra)). lra.
Qed.
Theorem flash_close d cur prev : clocked d -> Forall (sane 16) prev -> Forall (near 16 d cur) prev -> (length prev <= 32)%nat -> base_spinner cur = false ->
  let r := flash_formula (B2R (d_CircleRadius d)) (sights_of d prev cur) in
  is_finite (flash_value d prev cur) = true /\ Rabs (B2R (flash_value d prev cur) - r) <= r * bpow radix2 (-30) + bpow radix2 (-1000).
Proof.
  intros CD SP NP LP NSP r. rewrite (C69_flash d prev cur NSP). destruct (visible_ok d cur prev SP NP LP) as (VO & VL).
  assert (N0 : nv (INR 0) (42 + Z.of_nat 0) f0 0) by (split; [apply nr_exact0; reflexivity|now left]). assert (N0' : nv (150 + INR 0) (500 + Z.of_nat 0) f0 0) by (split; [apply nr_exact0; reflexivity|now left]).
  pose proof (sum_nv d cur CD (visible prev) f0 0 f0 0 0 ltac:(lia) VO N0 N0') as NSUM. fold (flash_sum d prev cur) in NSUM. fold (sights_of d prev cur) in NSUM. rewrite Rplus_0_l in NSUM. cbn [plus] in NSUM.
  assert (VR : 0 <= INR (length (visible prev)) <= 32) by (rewrite INR_IZR_INZ; split; [apply (IZR_le 0)|apply (IZR_le _ 32)]; lia).
  apply (nv_up _ 182 _ 532) in NSUM; [|lra|lia].
  set (nr' := match sights_of d prev cur with s :: _ => match si_age s with O => Rmin 1 (si_dist s / 75) | _ => 1 end | [] => 1 end).
  assert (NN' : nv 1 156 (flash_near d prev cur) nr' /\ 0 <= nr' <= 1).
  { unfold nr', sights_of, flash_near. destruct (visible prev) as [|(i, p) l]; cbn [sights_from si_age si_dist]; [split; [apply (nv_up 0 1 0 156); [lra|lia|exact one_nv]|lra]|]. destruct i as [|i]; [|split; [apply (nv_up 0 1 0 156); [lra|lia|exact one_nv]|lra]].
    apply Forall_cons_iff in VO as ((_ & _ & N) & _). cbn [snd] in N. pose proof (apart_nv d cur p N) as NA. assert (N75 : nv 0 7 (fq 75 1) 75) by kv. pose proof N as (_ & AB). fold (apart d cur p) in AB. split.
    - apply nv_min; [unfold NN; lra|apply (nv_up 0 1 0 156); [lra|lia|exact one_nv]|]. apply (nv_up (0 + 0 + 1) 1 (149 + 7) 156); [lra|lia|]. apply nv_div; try (unfold NN; lra); try lia; try lra; assumption.
    - split; [apply Rmin_glb; lra|apply Rmin_l]. }
  destruct NN' as (NN' & NB').
  destruct (sights_le d cur _ (proj2 (scale_nv d CD)) (visible prev) 0 (Rle_refl 0) VO) as (S0 & S1). fold (sights_of d prev cur) in S0, S1. destruct (nv_mul 1 182 156 532 _ _ _ _ ltac:(unfold NN; lra) ltac:(unfold NN; lra) ltac:(lia) ltac:(lia) ltac:(lia) NN' NSUM) as ((FX & X0 & XE) & _).
  fold nr' in r. unfold r, flash_formula. fold nr'. assert (YB : nr' * fold_right Rplus 0 (map (sight_term (52 / B2R (d_CircleRadius d))) (sights_of d prev cur)) <= 1000000) by (apply Rle_trans with (1 * 1000000); [apply Rmult_le_compat; lra|lra]). set (y := nr' * fold_right Rplus 0 _) in *. set (x := fmul _ _) in *. clearbody x y.
  pose proof e40_pos as E0. assert (E1 : bpow radix2 (-30) = 1024 * e40) by (unfold e40; repeat pw; lra). assert (YY : 0 <= y ^ 2) by apply pow2_ge_0.
  assert (XY : Rabs (B2R x - y) <= 184 * e40 * y) by (apply Rabs_le; lra). assert (SM : 184 * e40 <= / 1000000) by (unfold e40; lra). assert (YE : 184 * e40 * y <= / 1000000 * y) by (apply Rmult_le_compat_r; lra).
  destruct (close_square PC x FX) as (FP & BP). { apply Rle_trans with (bpow radix2 41); [|apply bpow_le; lia]. change (bpow radix2 41) with 2199023255552. apply Rabs_le. lra. }
  rewrite b40 in BP. split; [exact FP|]. assert (X2 : B2R x ^ 2 <= 2 * y ^ 2). { apply Rle_trans with ((y * (1 + / 1000000)) ^ 2); [apply pow_incr; lra|]. replace ((y * (1 + / 1000000)) ^ 2) with ((1 + / 1000000) ^ 2 * y ^ 2) by ring. apply Rmult_le_compat_r; lra. }
  assert (XS : Rabs (B2R x ^ 2 - y ^ 2) <= 400 * e40 * y ^ 2). { replace (B2R x ^ 2 - y ^ 2) with ((B2R x - y) * (B2R x + y)) by ring. rewrite Rabs_mult. apply Rle_trans with (184 * e40 * y * (21 / 10 * y)); [apply Rmult_le_compat; [apply Rabs_pos|apply Rabs_pos|exact XY|rewrite Rabs_pos_eq; lra]|]. replace (184 * e40 * y * (21 / 10 * y)) with (184 * (21 / 10) * e40 * y ^ 2) by ring. apply Rmult_le_compat_r; [exact YY|]. lra. }
  replace (B2R (mpow x (fq 2 1)) - y ^ 2) with ((B2R (mpow x (fq 2 1)) - B2R x ^ 2) + (B2R x ^ 2 - y ^ 2)) by ring. apply Rle_trans with (1 := Rabs_triang _ _). rewrite E1. assert (B2R x ^ 2 * e40 <= 2 * y ^ 2 * e40) by (apply Rmult_le_compat_r; lra). replace (y ^ 2 * (1024 * e40)) with (2 * y ^ 2 * e40 + 400 * e40 * y ^ 2 + 622 * (y ^ 2 * e40)) by ring. assert (0 <= y ^ 2 * e40) by (apply Rmult_le_pos; lra). lra.
Qed.
End WithLibm.

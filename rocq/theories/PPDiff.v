(** The difficulties of C51: real AR and OD for every mod combination and clock rates from 1/8 to 8. *)
From Coq Require Import Reals Lra.
From Flocq Require Import Raux Zaux Core BinarySingleNaN.
From Verif Require Import SpecDifficulty PP SpecPP BaseLemmas FloatLemmas Float32Lemmas DifficultyProofs SkillProofs CurveProofs PPProofs PPBounds PPChains.
Open Scope R_scope.
Notation within := SpecPP.within.
Lemma rnd_Z r lo hi : (-100000 <= lo)%Z -> (hi <= 100000)%Z -> IZR lo <= r <= IZR hi -> Rabs r <= bpow radix2 1023 /\ IZR lo <= rnd64 r <= IZR hi.
Proof.
  intros L H B. assert (L' : -100000 <= IZR lo) by (apply IZR_le; lia). assert (H' : IZR hi <= 100000) by (apply IZR_le; lia). assert (LH : (lo <= hi)%Z) by (apply le_IZR; lra).
  split; [|split; [apply rnd64_exact_Z'|apply rnd64_exact_Z]; try lia; lra].
  apply Rle_trans with (bpow radix2 17); [change (bpow radix2 17) with 131072; apply Rabs_le; lra|apply bpow_le; lia].
Qed.
Lemma quot_bounds x y lo hi : 0 < y -> lo * y <= x <= hi * y -> lo <= x / y <= hi.
Proof. intros Y B. split; apply Rmult_le_reg_r with y; auto; unfold Rdiv; rewrite Rmult_assoc, Rinv_l by lra; lra. Qed.
Lemma rate_bounds c sp : within (1 / 8) 8 sp -> fin c -> 1 / 2 <= B2R c <= 2 -> fin (fmul c sp) /\ 1 / 16 <= B2R (fmul c sp) <= 16.
Proof.
  intros (F & B) Fc Bc. assert (P : 1 / 16 <= B2R c * B2R sp <= 16) by (split; nra).
  destruct (fmul_fin c sp Fc F) as (Fm & Em). { apply Rle_trans with (bpow radix2 4); [change (bpow radix2 4) with 16; apply Rabs_le; lra|apply bpow_le; lia]. }
  split; [exact Fm|]. rewrite Em. split.
  - assert (F16 : fin (fq 1 16)) by (vm_compute; reflexivity). assert (E16 : B2R (fq 1 16) = 1 / 16).
    { unfold B2R. assert (X : B2SF (fq 1 16) = SpecFloat.S754_finite false 4503599627370496 (-56)) by (vm_compute; reflexivity).
      destruct (fq 1 16); cbn in X; try discriminate X. injection X as -> -> ->. unfold F2R. cbn. lra. }
    rewrite <- E16. apply rnd64_ge_f. rewrite E16. lra.
  - apply (rnd64_exact_Z 16); [lia|lra].
Qed.
Lemma time_bounds m sp t lo hi : within (1 / 8) 8 sp -> (1 <= lo)%Z -> (hi <= 2000)%Z -> fin t -> 16 * IZR lo <= B2R t <= IZR hi ->
  fin (modified_time m sp t) /\ IZR lo <= B2R (modified_time m sp t) <= IZR (16 * hi).
Proof.
  intros S L H F B. assert (Q : forall c, fin c -> 1 / 16 <= B2R c <= 16 -> fin (fdiv t c) /\ IZR lo <= B2R (fdiv t c) <= IZR (16 * hi)).
  { intros c Fc Bc. assert (L1 : 1 <= IZR lo) by (apply IZR_le; lia). destruct (rnd_Z (B2R t / B2R c) lo (16 * hi)) as (X & Y); [lia|lia|rewrite mult_IZR; apply quot_bounds; [lra|split; nra]|].
    destruct (fdiv_fin t c F Fc) as (Fd & Ed); [lra|exact X|]. rewrite Ed. auto. }
  unfold modified_time. destruct (mactive m DoubleTime); [|destruct (mactive m HalfTime)].
  - assert (Fc : fin (fq 3 2)) by (vm_compute; reflexivity). assert (Bc : IZR 1 <= B2R (fq 3 2) <= IZR 2) by (apply between_Z; [exact Fc|lia|lia|vm_compute; reflexivity|vm_compute; reflexivity]).
    destruct (rate_bounds (fq 3 2) sp S Fc) as (Fm & Bm); [lra|]. now apply Q.
  - assert (Fc : fin (fq 3 4)) by (vm_compute; reflexivity). assert (E : B2R (fq 3 4) = 3 / 4).
    { unfold B2R. assert (X : B2SF (fq 3 4) = SpecFloat.S754_finite false 6755399441055744 (-53)) by (vm_compute; reflexivity).
      destruct (fq 3 4); cbn in X; try discriminate X. injection X as -> -> ->. unfold F2R. cbn. lra. }
    destruct (rate_bounds (fq 3 4) sp S Fc) as (Fm & Bm); [lra|]. now apply Q.
  - destruct S as (Fs & Bs). apply Q; [exact Fs|lra].
Qed.
(** DiffFromRate for the two sets of constants *)
Lemma step_val (x : f64) z : B2SF x = B2SF (fq z 1) -> (Z.abs z <= 2 ^ 53)%Z -> fin x /\ B2R x = IZR z.
Proof. intros E Z. apply B2SF_eq in E. subst x. now apply fq1_exact. Qed.
Lemma ar_of_time t : fin t -> 28 <= B2R t <= 28800 -> within (-1000) 13 (diff_from_rate t (fq 1800 1) (fq 1200 1) (fq 450 1)).
Proof.
  intros F B. unfold diff_from_rate. cbv zeta. destruct (step_val (fdiv (fsub (fq 1800 1) (fq 1200 1)) (fq 5 1)) 120) as (F1 & E1); [vm_compute; reflexivity|lia|].
  destruct (step_val (fdiv (fsub (fq 1200 1) (fq 450 1)) (fq 5 1)) 150) as (F2 & E2); [vm_compute; reflexivity|lia|].
  set (a := fdiv (fsub (fq 1800 1) (fq 1200 1)) (fq 5 1)) in *. set (b := fdiv (fsub (fq 1200 1) (fq 450 1)) (fq 5 1)) in *. clearbody a b. destruct (fq1_exact 1800) as (F18 & E18); [lia|]. destruct (fq1_exact 1200) as (F12 & E12); [lia|]. destruct (fq1_exact 5) as (F5 & E5); [lia|].
  change (fgt t) with (fun y => flt y t). cbv beta. destruct (flt _ _) eqn:G.
  - apply flt_fin in G; [|exact F12|exact F]. rewrite E12 in G. destruct (rnd_Z (B2R t - 1800) (-600) 27000) as (X & Y); [lia|lia|lra|].
    destruct (fsub_fin t (fq 1800 1) F F18) as (Fs & Es); [rewrite E18; exact X|]. rewrite E18 in Es. destruct (fneg_fin (fsub t (fq 1800 1)) Fs) as (Fn & En).
    destruct (rnd_Z (B2R (fneg (fsub t (fq 1800 1))) / 120) (-225) 5) as (X' & Y'); [lia|lia|apply quot_bounds; [lra|rewrite En, Es; lra]|].
    destruct (fdiv_fin _ a Fn F1) as (Fd & Ed); [rewrite E1; lra|rewrite E1; exact X'|]. rewrite E1 in Ed. split; [exact Fd|]. rewrite Ed. lra.
  - apply flt_fin_false in G; [|exact F12|exact F]. rewrite E12 in G. destruct (rnd_Z (B2R t - 1200) (-1172) 0) as (X & Y); [lia|lia|lra|].
    destruct (fsub_fin t (fq 1200 1) F F12) as (Fs & Es); [rewrite E12; exact X|]. rewrite E12 in Es.
    destruct (rnd_Z (B2R (fsub t (fq 1200 1)) / 150) (-8) 0) as (X' & Y'); [lia|lia|apply quot_bounds; [lra|rewrite Es; lra]|].
    destruct (fdiv_fin _ b Fs F2) as (Fd & Ed); [rewrite E2; lra|rewrite E2; exact X'|]. rewrite E2 in Ed.
    destruct (rnd_Z (5 - B2R (fdiv (fsub t (fq 1200 1)) b)) 5 13) as (X2 & Y2); [lia|lia|rewrite Ed; lra|].
    destruct (fsub_fin (fq 5 1) _ F5 Fd) as (Fr & Er); [rewrite E5; exact X2|]. rewrite E5 in Er. split; [exact Fr|]. rewrite Er. lra.
Qed.
Lemma od_of_time t : fin t -> 1 <= B2R t <= 1280 -> within (-1000) 14 (diff_from_rate t (fq 80 1) (fq 50 1) (fq 20 1)).
Proof.
  intros F B. unfold diff_from_rate. cbv zeta. destruct (step_val (fdiv (fsub (fq 80 1) (fq 50 1)) (fq 5 1)) 6) as (F1 & E1); [vm_compute; reflexivity|lia|].
  destruct (step_val (fdiv (fsub (fq 50 1) (fq 20 1)) (fq 5 1)) 6) as (F2 & E2); [vm_compute; reflexivity|lia|].
  set (a := fdiv (fsub (fq 80 1) (fq 50 1)) (fq 5 1)) in *. set (b := fdiv (fsub (fq 50 1) (fq 20 1)) (fq 5 1)) in *. clearbody a b. destruct (fq1_exact 80) as (F18 & E18); [lia|]. destruct (fq1_exact 50) as (F12 & E12); [lia|]. destruct (fq1_exact 5) as (F5 & E5); [lia|].
  change (fgt t) with (fun y => flt y t). cbv beta. destruct (flt _ _) eqn:G.
  - apply flt_fin in G; [|exact F12|exact F]. rewrite E12 in G. destruct (rnd_Z (B2R t - 80) (-30) 1200) as (X & Y); [lia|lia|lra|].
    destruct (fsub_fin t (fq 80 1) F F18) as (Fs & Es); [rewrite E18; exact X|]. rewrite E18 in Es. destruct (fneg_fin (fsub t (fq 80 1)) Fs) as (Fn & En).
    destruct (rnd_Z (B2R (fneg (fsub t (fq 80 1))) / 6) (-200) 5) as (X' & Y'); [lia|lia|apply quot_bounds; [lra|rewrite En, Es; lra]|].
    destruct (fdiv_fin _ a Fn F1) as (Fd & Ed); [rewrite E1; lra|rewrite E1; exact X'|]. rewrite E1 in Ed. split; [exact Fd|]. rewrite Ed. lra.
  - apply flt_fin_false in G; [|exact F12|exact F]. rewrite E12 in G. destruct (rnd_Z (B2R t - 50) (-49) 0) as (X & Y); [lia|lia|lra|].
    destruct (fsub_fin t (fq 50 1) F F12) as (Fs & Es); [rewrite E12; exact X|]. rewrite E12 in Es.
    destruct (rnd_Z (B2R (fsub t (fq 50 1)) / 6) (-9) 0) as (X' & Y'); [lia|lia|apply quot_bounds; [lra|rewrite Es; lra]|].
    destruct (fdiv_fin _ b Fs F2) as (Fd & Ed); [rewrite E2; lra|rewrite E2; exact X'|]. rewrite E2 in Ed.
    destruct (rnd_Z (5 - B2R (fdiv (fsub t (fq 50 1)) b)) 5 14) as (X2 & Y2); [lia|lia|rewrite Ed; lra|].
    destruct (fsub_fin (fq 5 1) _ F5 Fd) as (Fr & Er); [rewrite E5; exact X2|]. rewrite E5 in Er. split; [exact Fr|]. rewrite Er. lra.
Qed.
Lemma built_ok hp cs od ar m sp : base_ok od -> base_ok ar -> within (1 / 8) 8 sp -> diff_ok (SpecDifficulty.built hp cs od ar m sp).
Proof.
  intros Hod Har S. destruct (attrs_range hp f0 od ar m sp base_0 Hod Har) as (_ & (P1 & P2) & (H1 & H2) & _).
  destruct (built_attrs hp cs od ar m sp) as (Ep & _ & _ & _ & Eh & _ & _ & _ & Ear & Eod). destruct (built_attrs hp f0 od ar m sp) as (Ep' & _ & _ & _ & Eh' & _).
  rewrite <- Ep in Ep'. rewrite <- Eh in Eh'. rewrite Ep' in P1, P2. rewrite Eh' in H1, H2. unfold diff_ok. rewrite Ear, Eod.
  destruct (fq1_exact 450) as (F1 & E1); [lia|]. destruct (fq1_exact 1800) as (F2 & E2); [lia|]. destruct (fq1_exact 20) as (F3 & E3); [lia|]. destruct (fq1_exact 80) as (F4 & E4); [lia|].
  destruct (fle_between _ _ _ F1 F2 P1 P2) as (Fp & Bp). destruct (fle_between _ _ _ F3 F4 H1 H2) as (Fh & Bh). rewrite E1, E2 in Bp. rewrite E3, E4 in Bh.
  destruct (time_bounds m sp _ 28 1800 S ltac:(lia) ltac:(lia) Fp) as (Ft & Bt); [lra|]. destruct (time_bounds m sp _ 1 80 S ltac:(lia) ltac:(lia) Fh) as (Ft' & Bt'); [lra|].
  split; [apply ar_of_time; [exact Ft|exact Bt]|apply od_of_time; [exact Ft'|exact Bt']].
Qed.

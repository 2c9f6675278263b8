(** The centre of an arc through three points of whole coordinates. *)
From Coq Require Import Reals ZArith Lra Lia List Bool.
From Flocq Require Import Core BinarySingleNaN.
From Verif Require Import GoFloat Curves SpecCurves SpecArc BaseLemmas FloatLemmas Float32Lemmas KeyLemmas BoundLemmas CurveProofs ArcProofs BezierTerm DistProofs LengthProofs NearLemmas ArcShape.
Import ListNotations.
Open Scope R_scope.

Definition isZ (x : f32) (z : Z) : Prop := fin x /\ B2R x = IZR z.
Lemma isZ_b127 z : (Z.abs z <= 2 ^ 24)%Z -> Rabs (IZR z) <= bpow radix2 127.
Proof. intros H. apply (IZR_bound32 z 24); lia. Qed.
Lemma isZ_add x y a b : isZ x a -> isZ y b -> (Z.abs (a + b) <= 2 ^ 24)%Z -> isZ (gadd x y) (a + b).
Proof. intros (Fx & Vx) (Fy & Vy) H. destruct (gadd_fin x y Fx Fy) as (F & V); [rewrite Vx, Vy, <- plus_IZR; now apply isZ_b127|]. split; [exact F|]. rewrite V, Vx, Vy, <- plus_IZR. now apply rnd32_Z. Qed.
Lemma isZ_sub x y a b : isZ x a -> isZ y b -> (Z.abs (a - b) <= 2 ^ 24)%Z -> isZ (gsub x y) (a - b).
Proof. intros (Fx & Vx) (Fy & Vy) H. destruct (gsub_fin x y Fx Fy) as (F & V); [rewrite Vx, Vy, <- minus_IZR; now apply isZ_b127|]. split; [exact F|]. rewrite V, Vx, Vy, <- minus_IZR. now apply rnd32_Z. Qed.
Lemma isZ_mul x y a b : isZ x a -> isZ y b -> (Z.abs (a * b) <= 2 ^ 24)%Z -> isZ (gmul x y) (a * b).
Proof. intros (Fx & Vx) (Fy & Vy) H. destruct (gmul_fin x y Fx Fy) as (F & V); [rewrite Vx, Vy, <- mult_IZR; now apply isZ_b127|]. split; [exact F|]. rewrite V, Vx, Vy, <- mult_IZR. now apply rnd32_Z. Qed.

Notation U3 := 134217728.
Lemma scale3 : 1 <= U3 <= bpow radix2 100.
Proof. split; [lra|]. change U3 with (bpow radix2 27). apply bpow_le. lia. Qed.
(** a square times a difference *)
Lemma term_near x y s d : isZ x s -> isZ y d -> (0 <= s <= 524288)%Z -> (Z.abs d <= 1024)%Z -> near U3 4 5 (gmul x y) (IZR s * IZR d).
Proof.
  intros (Fx & Vx) (Fy & Vy) Hs Hd. apply (near_up U3 4 (0 + 4 + 1)); [lra|lra|lra|]. apply (near_round U3 4 0 _ (B2R x * B2R y)); [apply scale3|lra|lra| | |].
  - rewrite <- mult_IZR, <- abs_IZR. replace (4 * U3) with (IZR 536870912) by lra. apply IZR_le. nia.
  - rewrite Vx, Vy, Rminus_diag_eq, Rabs_R0 by reflexivity. lra.
  - intros L. now apply gmul_fin.
Qed.
Lemma sum_near x y z r s t : near U3 4 5 x r -> near U3 4 5 y s -> near U3 4 5 z t -> near U3 12 37 (gadd (gadd x y) z) (r + s + t).
Proof.
  intros X Y Z. pose proof (near_add U3 scale3 _ _ _ _ _ _ _ _ X Y ltac:(lra) ltac:(lra) ltac:(lra) ltac:(lra)) as XY.
  pose proof (near_add U3 scale3 _ _ _ _ _ _ _ _ XY Z ltac:(lra) ltac:(lra) ltac:(lra) ltac:(lra)) as N. eapply near_up; [| | |exact N]; lra.
Qed.
(** the quotient *)
Lemma quotient_near n d N D : near U3 12 37 n N -> isZ d D -> (0 < Z.abs D <= 2 ^ 24)%Z ->
  let q := gmul n (gdiv (gq 1 1) d) in fin q /\ Rabs (B2R q - N / IZR D) <= 300 / Rabs (IZR D) + Rabs (N / IZR D) * bpow radix2 (-22).
Proof.
  intros (Fn & Bn & Dn) (Fd & Vd) HD q. unfold ulp24 in Dn. destruct (gq1_exact 1 ltac:(lia)) as (F1 & V1).
  assert (DP : 1 <= Rabs (IZR D) <= 16777216) by (rewrite <- abs_IZR; split; [apply (IZR_le 1)|apply (IZR_le _ 16777216)]; lia).
  assert (DN : IZR D <> 0) by (intros E; rewrite E, Rabs_R0 in DP; lra). set (i := / IZR D). assert (AI : Rabs i = / Rabs (IZR D)) by (apply Rabs_inv).
  assert (IB : / 16777216 <= Rabs i <= 1). { rewrite AI. split; [apply Rinv_le_contravar; lra|]. rewrite <- Rinv_1. apply Rinv_le_contravar; lra. }
  assert (Q1 : B2R (gq 1 1) / B2R d = i) by (rewrite V1, Vd; unfold i, Rdiv; ring).
  destruct (gdiv_fin (gq 1 1) d F1 Fd) as (Fi & Vi); [rewrite Vd; exact DN|rewrite Q1; apply small127; apply Rabs_le_inv; lra|]. rewrite Q1 in Vi.
  assert (Ri : Rabs (rnd32 i - i) <= Rabs i * / 16777216).
  { apply rnd32_rel. apply Rle_trans with (2 := proj1 IB). change (/ 16777216) with (bpow radix2 (-24)). apply bpow_le. lia. }
  set (j := rnd32 i) in *. assert (JB : Rabs j <= Rabs i * (1 + / 16777216)) by (replace j with (i + (j - i)) by ring; apply Rle_trans with (1 := Rabs_triang _ _); lra).
  set (nn := B2R n) in *. assert (NB : Rabs nn <= 13 * U3) by (replace nn with (N + (nn - N)) by ring; apply Rle_trans with (1 := Rabs_triang _ _); lra).
  assert (PB : Rabs (nn * j) <= 13 * U3 * 2). { rewrite Rabs_mult. apply Rmult_le_compat; try apply Rabs_pos; lra. }
  destruct (gmul_fin n _ Fn Fi ltac:(rewrite Vi; fold nn; apply small127; apply Rabs_le_inv; lra)) as (Fq & Vq). fold q in Fq, Vq. split; [exact Fq|]. rewrite Vq, Vi. fold nn.
  (** product against quotient *)
  assert (P1 : Rabs (nn * j - N * i) <= 296 * Rabs i * (1 + / 16777216) + Rabs (N * i) * / 16777216).
  { replace (nn * j - N * i) with ((nn - N) * j + N * (j - i)) by ring. apply Rle_trans with (1 := Rabs_triang _ _). rewrite !Rabs_mult.
    assert (Rabs (nn - N) * Rabs j <= 296 * (Rabs i * (1 + / 16777216))) by (apply Rmult_le_compat; try apply Rabs_pos; lra).
    assert (Rabs N * Rabs (j - i) <= Rabs N * (Rabs i * / 16777216)) by (apply Rmult_le_compat_l; [apply Rabs_pos|exact Ri]). lra. }
  pose proof (rnd32_errR (nn * j) (Rabs (nn * j)) (Rle_refl _)) as R2. change (bpow radix2 (-24)) with (/ 16777216) in R2.
  assert (T : bpow radix2 (-150) <= / 16777216 * / 16777216) by (change (/ 16777216 * / 16777216) with (bpow radix2 (-24) * bpow radix2 (-24)); rewrite <- bpow_plus; apply bpow_le; lia).
  assert (AB : Rabs (nn * j) <= Rabs (N * i) + (296 * Rabs i * (1 + / 16777216) + Rabs (N * i) * / 16777216)).
  { replace (nn * j) with (N * i + (nn * j - N * i)) by ring. apply Rle_trans with (1 := Rabs_triang _ _). lra. }
  unfold Rdiv. fold i. rewrite <- AI. change (bpow radix2 (-22)) with (/ 4194304). pose proof (Rabs_pos (N * i)).
  replace (rnd32 (nn * j) - N * i) with ((rnd32 (nn * j) - nn * j) + (nn * j - N * i)) by ring. apply Rle_trans with (1 := Rabs_triang _ _). lra.
Qed.
Lemma centre_near a b c : whole 512 a -> whole 512 b -> whole 512 c -> side (px a) (py a) (px c) (py c) (px b) (py b) <> 0 ->
  let o := arc_centre_of a b c in exists X Y, circumcentre a b c X Y /\ fin (vx o) /\ fin (vy o) /\
    Rabs (px o - X) <= 150 / area2 a b c + Rabs X * bpow radix2 (-22) /\ Rabs (py o - Y) <= 150 / area2 a b c + Rabs Y * bpow radix2 (-22).
Proof.
  intros (Fax & Fay & ax & ay & Bax & Bay & Vax & Vay) (Fbx & Fby & bx & by_ & Bbx & Bby & Vbx & Vby) (Fcx & Fcy & cx & cy & Bcx & Bcy & Vcx & Vcy) SD.
  assert (Ax : isZ (vx a) ax) by (split; assumption). assert (Ay : isZ (vy a) ay) by (split; assumption).
  assert (Bx : isZ (vx b) bx) by (split; assumption). assert (By : isZ (vy b) by_) by (split; assumption).
  assert (Cx : isZ (vx c) cx) by (split; assumption). assert (Cy : isZ (vy c) cy) by (split; assumption).
  assert (PR : forall p q, (Z.abs p <= 512)%Z -> (Z.abs q <= 1024)%Z -> (Z.abs (p * q) <= 524288)%Z) by (intros; rewrite Z.abs_mul; nia).
  assert (SQ : forall p, (Z.abs p <= 512)%Z -> (0 <= p * p <= 262144)%Z) by (intros; nia).
  pose proof (isZ_sub _ _ _ _ By Cy ltac:(lia)) as S1. pose proof (isZ_sub _ _ _ _ Cy Ay ltac:(lia)) as S2. pose proof (isZ_sub _ _ _ _ Ay By ltac:(lia)) as S3.
  pose proof (isZ_sub _ _ _ _ Cx Bx ltac:(lia)) as T1. pose proof (isZ_sub _ _ _ _ Ax Cx ltac:(lia)) as T2. pose proof (isZ_sub _ _ _ _ Bx Ax ltac:(lia)) as T3.
  pose proof (PR ax (by_ - cy)%Z ltac:(lia) ltac:(lia)) as P1. pose proof (PR bx (cy - ay)%Z ltac:(lia) ltac:(lia)) as P2. pose proof (PR cx (ay - by_)%Z ltac:(lia) ltac:(lia)) as P3.
  pose proof (isZ_mul _ _ _ _ Ax S1 ltac:(lia)) as M1. pose proof (isZ_mul _ _ _ _ Bx S2 ltac:(lia)) as M2. pose proof (isZ_mul _ _ _ _ Cx S3 ltac:(lia)) as M3.
  pose proof (isZ_add _ _ _ _ M1 M2 ltac:(lia)) as M12. pose proof (isZ_add _ _ _ _ M12 M3 ltac:(lia)) as M123.
  destruct (gq1_exact 2 ltac:(lia)) as (F2 & V2). assert (Z2 : isZ (gq 2 1) 2) by (split; assumption).
  pose proof (isZ_mul _ _ _ _ Z2 M123 ltac:(lia)) as ZD. set (A2 := (ax * (by_ - cy) + bx * (cy - ay) + cx * (ay - by_))%Z) in *.
  assert (ES : side (px a) (py a) (px c) (py c) (px b) (py b) = IZR A2).
  { unfold side, A2. rewrite Vax, Vay, Vbx, Vby, Vcx, Vcy, !plus_IZR, !mult_IZR, !minus_IZR. ring. }
  assert (AN : (0 < Z.abs (2 * A2) <= 2 ^ 24)%Z). { split; [|lia]. assert (A2 <> 0%Z) by (intros E; apply SD; rewrite ES, E; reflexivity). lia. }
  assert (L : forall p q x y, isZ p x -> isZ q y -> (Z.abs x <= 512)%Z -> (Z.abs y <= 512)%Z -> isZ (vlensq (mkVec p q)) (x * x + y * y)).
  { intros p q x y Hp Hq Kx Ky. unfold vlensq. cbn [vx vy]. pose proof (SQ x Kx). pose proof (SQ y Ky). apply isZ_add; [apply isZ_mul; auto; lia|apply isZ_mul; auto; lia|lia]. }
  assert (LA : isZ (vlensq a) (ax * ax + ay * ay)) by (destruct a; apply L; assumption). assert (LB : isZ (vlensq b) (bx * bx + by_ * by_)) by (destruct b; apply L; assumption). assert (LC : isZ (vlensq c) (cx * cx + cy * cy)) by (destruct c; apply L; assumption).
  pose proof (SQ ax Bax). pose proof (SQ ay Bay). pose proof (SQ bx Bbx). pose proof (SQ by_ Bby). pose proof (SQ cx Bcx). pose proof (SQ cy Bcy).
  pose proof (sum_near _ _ _ _ _ _ (term_near _ _ _ _ LA S1 ltac:(lia) ltac:(lia)) (term_near _ _ _ _ LB S2 ltac:(lia) ltac:(lia)) (term_near _ _ _ _ LC S3 ltac:(lia) ltac:(lia))) as NX.
  pose proof (sum_near _ _ _ _ _ _ (term_near _ _ _ _ LA T1 ltac:(lia) ltac:(lia)) (term_near _ _ _ _ LB T2 ltac:(lia) ltac:(lia)) (term_near _ _ _ _ LC T3 ltac:(lia) ltac:(lia))) as NY.
  destruct (quotient_near _ _ _ _ NX ZD AN) as (FX & DX). destruct (quotient_near _ _ _ _ NY ZD AN) as (FY & DY).
  assert (AE : 300 / Rabs (IZR (2 * A2)) = 150 / area2 a b c).
  { unfold area2. rewrite ES, mult_IZR, Rabs_mult, (Rabs_pos_eq 2) by lra. field. apply Rabs_no_R0. rewrite <- ES. exact SD. }
  rewrite AE in DX, DY. intros o. eexists _, _. split; [|split; [exact FX|split; [exact FY|split; [exact DX|exact DY]]]].
  assert (DN : IZR ax * (IZR by_ - IZR cy) + IZR bx * (IZR cy - IZR ay) + IZR cx * (IZR ay - IZR by_) <> 0) by (intros E; apply SD; rewrite ES; unfold A2; rewrite !plus_IZR, !mult_IZR, !minus_IZR; exact E).
  unfold circumcentre, A2. cbv zeta. rewrite Vax, Vay, Vbx, Vby, Vcx, Vcy, !mult_IZR, !plus_IZR, !mult_IZR, !minus_IZR. split; field; lra.
Qed.
(** then the three points are about as far from it *)
Lemma equidistant a b c : whole 512 a -> whole 512 b -> whole 512 c -> side (px a) (py a) (px c) (py c) (px b) (py b) <> 0 ->
  let o := arc_centre_of a b c in exists X Y, circumcentre a b c X Y /\
    let e := 600 / area2 a b c + 2 * (Rabs X + Rabs Y) * bpow radix2 (-22) in
    Rabs (dist o b - dist o a) <= e /\ Rabs (dist o c - dist o a) <= e.
Proof.
  intros Wa Wb Wc SD o. destruct (centre_near a b c Wa Wb Wc SD) as (X & Y & (E1 & E2) & _ & _ & DX & DY). fold o in DX, DY. exists X, Y. split; [split; assumption|]. cbv zeta.
  assert (D : forall p, Rabs (dist o p - nrm (X - px p) (Y - py p)) <= (150 / area2 a b c + Rabs X * bpow radix2 (-22)) + (150 / area2 a b c + Rabs Y * bpow radix2 (-22))).
  { intros p. unfold dist. replace ((px p - px o) * (px p - px o) + (py p - py o) * (py p - py o)) with ((px o - px p) * (px o - px p) + (py o - py p) * (py o - py p)) by ring.
    fold (nrm (px o - px p) (py o - py p)). apply nrm_near; [replace (px o - px p - (X - px p)) with (px o - X) by ring; exact DX|replace (py o - py p - (Y - py p)) with (py o - Y) by ring; exact DY]. }
  assert (Q1 : nrm (X - px a) (Y - py a) = nrm (X - px b) (Y - py b)) by (unfold nrm; now rewrite E1). assert (Q2 : nrm (X - px a) (Y - py a) = nrm (X - px c) (Y - py c)) by (unfold nrm; now rewrite E2).
  pose proof (D a) as Da. pose proof (D b) as Db. pose proof (D c) as Dc. rewrite <- Q1 in Db. rewrite <- Q2 in Dc. set (R0 := nrm (X - px a) (Y - py a)) in *. unfold Rdiv in *.
  apply Rabs_le_inv in Da, Db, Dc. split; apply Rabs_le; lra.
Qed.

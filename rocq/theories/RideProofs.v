(** Proof scripts for C103: from the time a slider is said to take to the time it takes. *)
From Coq Require Import Reals Lra ZArith Lia.
From Flocq Require Import Core.
Open Scope R_scope.

(** Distance from the nearest even number varies no faster than the number. *)
Lemma even_near y a b : Rabs (y - 2 * IZR a) <= 1 -> Rabs (y - 2 * IZR a) <= Rabs (y - 2 * IZR b).
Proof.
  intros A. destruct (Z.eq_dec a b) as [->|N]; [lra|]. assert (D : (a - b <= -1 \/ 1 <= a - b)%Z) by lia.
  destruct D as [D|D]; apply IZR_le in D; rewrite minus_IZR in D; apply Rabs_le_inv in A; apply Rle_trans with 1; [apply Rabs_le; lra| |apply Rabs_le; lra|].
  - rewrite <- Rabs_Ropp. apply Rle_trans with (2 := Rle_abs _). lra.
  - apply Rle_trans with (2 := Rle_abs _). lra.
Qed.
Lemma even_lip x y j k : Rabs (x - 2 * IZR j) <= 1 -> Rabs (y - 2 * IZR k) <= 1 -> Rabs (Rabs (x - 2 * IZR j) - Rabs (y - 2 * IZR k)) <= Rabs (x - y).
Proof.
  intros HX HY. pose proof (even_near x j k HX) as M1. pose proof (even_near y k j HY) as M2.
  assert (T1 : Rabs (x - 2 * IZR k) <= Rabs (x - y) + Rabs (y - 2 * IZR k)) by (replace (x - 2 * IZR k) with ((x - y) + (y - 2 * IZR k)) by ring; apply Rabs_triang).
  assert (T2 : Rabs (y - 2 * IZR j) <= Rabs (x - y) + Rabs (x - 2 * IZR j)) by (rewrite (Rabs_minus_sym x y); replace (y - 2 * IZR j) with ((y - x) + (x - 2 * IZR j)) by ring; apply Rabs_triang).
  apply Rabs_le. lra.
Qed.
Lemma even_exists x : exists j, Rabs (x - 2 * IZR j) <= 1.
Proof. exists (Zfloor ((x + 1) / 2)). pose proof (Zfloor_lb ((x + 1) / 2)) as A. pose proof (Zfloor_ub ((x + 1) / 2)) as B. apply Rabs_le. lra. Qed.

Lemma clip_lip s e e' t : Rabs (Rmax s (Rmin e' t) - Rmax s (Rmin e t)) <= Rabs (e' - e).
Proof. unfold Rmax, Rmin, Rabs. repeat (destruct (Rle_dec _ _) || destruct (Rcase_abs _)); lra. Qed.

(** The spans gone by, of length D' and end e, against those of length D. *)
Lemma spans_near s e t D D' span n len len' err h : 1 <= n -> 1 <= D -> 0 < len -> 0 <= err -> 4 * err <= len -> Rabs (len' - len) <= err -> D' = D * (len' / len) -> Rabs (span - D') <= D' / 1000000 ->
  0 <= h -> Rabs (e - (s + n * D')) <= n * D' / 1000000 + h ->
  let x := (Rmax s (Rmin (s + n * D) t) - s) / D in let x' := (Rmax s (Rmin e t) - s) / span in
  0 <= x <= n /\ 3 / 4 * D <= D' <= 5 / 4 * D /\ len * Rabs (x' - x) <= n * (3 * err + len / 250000) + 2 * h * (len / D) /\ Rabs (x' - x) <= n + 2 * h.
Proof.
  intros Hn HD Hl He E4 HL -> HS Hh HE x x'. set (d := err / len). assert (Dd : err = d * len) by (unfold d; field; lra).
  assert (d0 : 0 <= d <= / 4). { split; [unfold d; apply Rmult_le_pos; [lra|apply Rlt_le, Rinv_0_lt_compat; lra]|]. apply Rmult_le_reg_r with len; lra. }
  assert (RL : Rabs (len' / len - 1) <= d). { replace (len' / len - 1) with ((len' - len) / len) by (field; lra). unfold Rdiv, d. rewrite Rabs_mult, (Rabs_pos_eq (/ len)) by (apply Rlt_le, Rinv_0_lt_compat; lra). apply Rmult_le_compat_r; [apply Rlt_le, Rinv_0_lt_compat; lra|exact HL]. }
  set (r := len' / len) in *. clearbody r. apply Rabs_le_inv in RL, HS, HE.
  assert (D1 : - (D * d) <= D * r - D <= D * d). { split; [replace (- (D * d)) with (D * - d) by ring|]; replace (D * r - D) with (D * (r - 1)) by ring; apply Rmult_le_compat_l; lra. }
  assert (Dd0 : 0 <= D * d <= D / 4). { split; [apply Rmult_le_pos; lra|]. replace (D / 4) with (D * / 4) by field. apply Rmult_le_compat_l; lra. }
  set (D' := D * r) in *. clearbody D'. assert (RD : 3 / 4 * D <= D' <= 5 / 4 * D) by lra.
  assert (SP : 74 / 100 * D <= span) by lra.
  (* times *)
  set (y := Rmax s (Rmin (s + n * D) t) - s). set (y' := Rmax s (Rmin e t) - s).
  assert (nD : 0 < n * D) by (apply Rmult_lt_0_compat; lra).
  assert (Y0 : 0 <= y <= n * D). { unfold y, Rmax, Rmin. repeat destruct (Rle_dec _ _); lra. }
  assert (YY : Rabs (y' - y) <= n * (D * d + D * (13 / 10000000)) + h).
  { unfold y, y'. replace (Rmax s (Rmin e t) - s - (Rmax s (Rmin (s + n * D) t) - s)) with (Rmax s (Rmin e t) - Rmax s (Rmin (s + n * D) t)) by ring. apply Rle_trans with (1 := clip_lip _ _ _ _).
    assert (A : n * (- (D * d)) <= n * (D' - D) <= n * (D * d)) by (split; apply Rmult_le_compat_l; lra).
    assert (B : 0 <= n * D' <= n * (5 / 4 * D)) by (split; [apply Rmult_le_pos; lra|apply Rmult_le_compat_l; lra]). apply Rabs_le. lra. }
  assert (X : 0 <= x <= n). { unfold x. fold y. split; [apply Rmult_le_pos; [lra|apply Rlt_le, Rinv_0_lt_compat; lra]|]. apply Rmult_le_reg_r with D; [lra|]. unfold Rdiv. rewrite Rmult_assoc, Rinv_l by lra. lra. }
  split; [exact X|]. split; [exact RD|].
  assert (XX : span * (x' - x) = (y' - y) + x * (D - span)). { unfold x, x'. fold y y'. field. lra. }
  assert (XB : span * Rabs (x' - x) <= 2 * (n * (D * d + D * (13 / 10000000))) + h).
  { rewrite <- (Rabs_pos_eq span) at 1 by lra. rewrite <- Rabs_mult, XX. apply Rle_trans with (1 := Rabs_triang _ _). rewrite Rabs_mult, (Rabs_pos_eq x) by lra.
    assert (Z : x * Rabs (D - span) <= n * (D * d + D * (13 / 10000000))) by (apply Rmult_le_compat; [lra|apply Rabs_pos|lra|apply Rabs_le; lra]). lra. }
  assert (XC : 74 / 100 * D * Rabs (x' - x) <= 2 * (n * (D * d + D * (13 / 10000000))) + h) by (apply Rle_trans with (2 := XB); apply Rmult_le_compat_r; [apply Rabs_pos|exact SP]).
  assert (XE : Rabs (x' - x) <= n * (3 * d + / 250000) + 2 * (h / D)).
  { apply Rmult_le_reg_l with (74 / 100 * D); [lra|]. apply Rle_trans with (1 := XC).
    assert (nd : 0 <= n * (D * d)) by (apply Rmult_le_pos; lra).
    replace (74 / 100 * D * (n * (3 * d + / 250000) + 2 * (h / D))) with (222 / 100 * (n * (D * d)) + 74 / 100 * (4 / 1000000) * (n * D) + 148 / 100 * h) by (field; lra). lra. }
  split.
  - apply Rle_trans with (len * (n * (3 * d + / 250000) + 2 * (h / D))); [apply Rmult_le_compat_l; lra|]. apply Req_le. rewrite Dd. field. lra.
  - apply Rle_trans with (1 := XE). assert (HH : h / D <= h). { apply Rmult_le_reg_r with D; [lra|]. unfold Rdiv. rewrite Rmult_assoc, Rinv_l, Rmult_1_r by lra. rewrite <- (Rmult_1_r h) at 1. apply Rmult_le_compat_l; lra. }
    assert (NN : n * (3 * d + / 250000) <= n * 1) by (apply Rmult_le_compat_l; lra). lra.
Qed.

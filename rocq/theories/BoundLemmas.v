(** Magnitude bounds for float32 expressions, and inversion of finiteness. *)
From Coq Require Import Reals Lra ZArith Lia Bool.
From Flocq Require Import Core BinarySingleNaN.
From Verif Require Import GoFloat Curves FloatLemmas Float32Lemmas KeyLemmas.
Open Scope R_scope.

(** ** x is finite and at most 2^k in magnitude *)
Definition bnd (k : Z) (x : f32) : Prop := fin x /\ Rabs (B2R x) <= bpow radix2 k.
Lemma bnd_le j k x : (j <= k)%Z -> bnd j x -> bnd k x.
Proof. intros H [F B]. split; [exact F|]. eapply Rle_trans; [exact B|]. now apply bpow_le. Qed.
Lemma rnd32_bound a k : (-149 <= k)%Z -> Rabs a <= bpow radix2 k -> Rabs (rnd32 a) <= bpow radix2 k.
Proof. intros H B. apply (rnd_bound 24 128); [exact H|exact B]. Qed.
Lemma bpow_127 a k : (k <= 127)%Z -> Rabs a <= bpow radix2 k -> Rabs a <= bpow radix2 127.
Proof. intros H B. eapply Rle_trans; [exact B|]. now apply bpow_le. Qed.
Lemma bpow_S k : bpow radix2 (k + 1) = bpow radix2 k + bpow radix2 k.
Proof. rewrite bpow_plus. change (bpow radix2 1) with 2. lra. Qed.
Lemma bnd_add k a b : (-149 <= k <= 126)%Z -> bnd k a -> bnd k b -> bnd (k + 1) (gadd a b).
Proof.
  intros K [Fa Ba] [Fb Bb].
  assert (S : Rabs (B2R a + B2R b) <= bpow radix2 (k + 1)) by (rewrite bpow_S; eapply Rle_trans; [apply Rabs_triang|lra]).
  destruct (gadd_fin a b Fa Fb) as [F V]; [apply (bpow_127 _ (k + 1)); [lia|exact S]|]. split; [exact F|]. rewrite V. apply rnd32_bound; [lia|exact S].
Qed.
Lemma bnd_sub k a b : (-149 <= k <= 126)%Z -> bnd k a -> bnd k b -> bnd (k + 1) (gsub a b).
Proof.
  intros K [Fa Ba] [Fb Bb].
  assert (S : Rabs (B2R a - B2R b) <= bpow radix2 (k + 1)).
  { rewrite bpow_S. unfold Rminus. eapply Rle_trans; [apply Rabs_triang|]. rewrite Rabs_Ropp. lra. }
  destruct (gsub_fin a b Fa Fb) as [F V]; [apply (bpow_127 _ (k + 1)); [lia|exact S]|]. split; [exact F|]. rewrite V. apply rnd32_bound; [lia|exact S].
Qed.
Lemma bnd_mul j k a b : (-149 <= j + k <= 127)%Z -> bnd j a -> bnd k b -> bnd (j + k) (gmul a b).
Proof.
  intros K [Fa Ba] [Fb Bb].
  assert (S : Rabs (B2R a * B2R b) <= bpow radix2 (j + k)).
  { rewrite Rabs_mult, bpow_plus. apply Rmult_le_compat; auto using Rabs_pos. }
  destruct (gmul_fin a b Fa Fb) as [F V]; [apply (bpow_127 _ (j + k)); [lia|exact S]|]. split; [exact F|]. rewrite V. apply rnd32_bound; [lia|exact S].
Qed.
Lemma bnd_neg k a : bnd k a -> bnd k (gneg a).
Proof. intros [F B]. destruct (gneg_fin a F) as [F' V]. split; [exact F'|]. now rewrite V, Rabs_Ropp. Qed.
Ltac bnd_const := split; [vm_compute; reflexivity|match goal with |- Rabs (B2R ?x) <= _ => bval x end; match goal with H : B2R _ = _ |- _ => rewrite H end;
  cbn [bpow radix2 radix_val Z.pow_pos Pos.iter Z.mul Pos.mul]; rewrite Rabs_pos_eq; lra].
Lemma bnd_q2 : bnd 1 (gq 2 1). Proof. bnd_const. Qed.
Lemma bnd_q3 : bnd 2 (gq 3 1). Proof. bnd_const. Qed.
Lemma bnd_q4 : bnd 2 (gq 4 1). Proof. bnd_const. Qed.
Lemma bnd_q5 : bnd 3 (gq 5 1). Proof. bnd_const. Qed.
Lemma bnd_half : bnd (-1) (gq 1 2). Proof. bnd_const. Qed.
Lemma bnd_quarter : bnd (-2) (gq 1 4). Proof. bnd_const. Qed.
Lemma bnd_0 k : bnd k g0.
Proof. split; [reflexivity|]. cbn. rewrite Rabs_R0. apply bpow_ge_0. Qed.

Definition vbnd (k : Z) (p : vec) : Prop := bnd k (vx p) /\ bnd k (vy p).
Lemma vbnd_vfin k p : vbnd k p -> vfin p.
Proof. intros [[F _] [F' _]]. split; assumption. Qed.
Lemma vbnd_le j k p : (j <= k)%Z -> vbnd j p -> vbnd k p.
Proof. intros H [A B]. split; now apply (bnd_le j). Qed.
Lemma vbnd_add k a b : (-149 <= k <= 126)%Z -> vbnd k a -> vbnd k b -> vbnd (k + 1) (vadd a b).
Proof. intros K [A1 A2] [B1 B2]. split; now apply bnd_add. Qed.
Lemma vbnd_sub k a b : (-149 <= k <= 126)%Z -> vbnd k a -> vbnd k b -> vbnd (k + 1) (vsub a b).
Proof. intros K [A1 A2] [B1 B2]. split; now apply bnd_sub. Qed.
Lemma vbnd_scl j k a m : (-149 <= j + k <= 127)%Z -> vbnd j a -> bnd k m -> vbnd (j + k) (vscl a m).
Proof. intros K [A1 A2] B. split; now apply bnd_mul. Qed.

(** ** A finite result has finite operands *)
Lemma gadd_inv x y : fin (gadd x y) -> fin x /\ fin y.
Proof. destruct x as [|[]| |], y as [|[]| |]; cbn; intros H; try discriminate H; split; reflexivity. Qed.
Lemma gsub_inv x y : fin (gsub x y) -> fin x /\ fin y.
Proof. destruct x as [|[]| |], y as [|[]| |]; cbn; intros H; try discriminate H; split; reflexivity. Qed.
Lemma gmul_inv x y : fin (gmul x y) -> fin x /\ fin y.
Proof. destruct x as [|[]| |], y as [|[]| |]; cbn; intros H; try discriminate H; split; reflexivity. Qed.
Lemma fsqrt_inv x : fin (fsqrt x) -> fin x.
Proof. destruct x as [|[]| |[]]; cbn; intros H; try discriminate H; reflexivity. Qed.
Lemma f_of_g_inv x : fin (f_of_g x) -> fin x.
Proof. destruct x as [|[]| |[]]; intros H; try discriminate H; reflexivity. Qed.
Lemma g_of_f_inv x : fin (g_of_f x) -> fin x.
Proof. destruct x as [|[]| |[]]; intros H; try discriminate H; reflexivity. Qed.
Lemma gsqrt_inv x : fin (gsqrt x) -> fin x.
Proof. intros H. apply g_of_f_inv, fsqrt_inv, f_of_g_inv in H. exact H. Qed.
Lemma vdst_inv a b : fin (vdst a b) -> vfin a /\ vfin b /\ fin (gsub (vx b) (vx a)) /\ fin (gsub (vy b) (vy a)).
Proof.
  intros H. apply gsqrt_inv, gadd_inv in H as [Hx Hy]. apply gmul_inv in Hx as [Hx _], Hy as [Hy _].
  destruct (gsub_inv _ _ Hx), (gsub_inv _ _ Hy). repeat split; assumption.
Qed.

(** ** Floats with the same key *)
Lemma key_inj {prec emax} {Hp : Prec_gt_0 prec} {He : Prec_lt_emax prec emax} (x y : binary_float prec emax) : num x -> num y -> key x = key y -> key x <> 0 -> x = y.
Proof.
  intros Nx Ny K Z0. pose proof (bpow_gt_0 radix2 emax) as EP.
  destruct x as [sx|sx| |sx mx ex bx] eqn:Ex; try discriminate Nx.
  - exfalso. apply Z0. rewrite (key_fin prec emax) by reflexivity. reflexivity.
  - destruct (is_finite y) eqn:Fy.
    + rewrite (key_fin prec emax y Fy) in K. pose proof (B2R_lt prec emax y Fy). rewrite (key_inf prec emax) in K. destruct sx; lra.
    + destruct y as [|sy| |]; try discriminate. rewrite !(key_inf prec emax) in K. destruct sx, sy; try reflexivity; lra.
  - rewrite <- Ex in *. assert (Fx : fin x) by (subst; reflexivity). destruct (is_finite y) eqn:Fy.
    + rewrite (key_fin prec emax x Fx) in K, Z0. rewrite (key_fin prec emax y Fy) in K.
      apply (B2R_inj prec emax); [subst; reflexivity| |exact K]. destruct y; try discriminate; [|reflexivity]. exfalso. apply Z0. rewrite K. reflexivity.
    + destruct y as [|sy| |]; try discriminate. rewrite (key_fin prec emax x Fx) in K. pose proof (B2R_lt prec emax x Fx). rewrite (key_inf prec emax) in K. destruct sy; lra.
Qed.
Lemma f_of_g_key (x : f32) : num x -> (forall y : f32, num y -> (key x < key y <-> key (f_of_g x) < key (f_of_g y))) .
Proof.
  intros Nx y Ny. pose proof (bpow_lt radix2 128 1024 ltac:(lia)) as B. pose proof (bpow_gt_0 radix2 128) as P.
  assert (K : forall z : f32, num z -> (fin z /\ key (f_of_g z) = key z /\ - bpow radix2 128 < key z < bpow radix2 128) \/
     (key z = bpow radix2 128 /\ key (f_of_g z) = bpow radix2 1024) \/ (key z = - bpow radix2 128 /\ key (f_of_g z) = - bpow radix2 1024)).
  { intros z Nz. destruct (is_finite z) eqn:Fz.
    - left. destruct (f_of_g_fin z Fz) as [F' V]. rewrite (key_fin 53 1024 _ F'), (key_fin 24 128 z Fz), V. split; [exact Fz|]. split; [reflexivity|]. apply (B2R_lt 24 128); exact Fz.
    - right. destruct z as [|[]| |]; try discriminate; [right|left]; split; reflexivity. }
  destruct (K x Nx) as [(_ & E & ?)|[(E1 & E2)|(E1 & E2)]], (K y Ny) as [(_ & E' & ?)|[(E1' & E2')|(E1' & E2')]]; lra.
Qed.

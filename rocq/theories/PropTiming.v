(** Properties C11-C15: timing points. *)
From Coq Require Import Permutation.
From Verif Require Import Timing SpecTiming TimingProofs.

(** Sample points used by the instances below. *)
Definition red (t b : Z) : cpoint := mk_point (fq t 1) (fq b 1) 1 1 (fq 1 1) 4 false false false.
Definition green (t b : Z) : cpoint := mk_point (fq t 1) (fq b 1) 1 1 (fq 1 1) 4 true false false.
Definition sample : list cpoint := [green 500 (-50); red 0 300; red 1000 400; green 1000 (-200); red (-10) 250].
Example sample_fresh : Forall fresh sample.
Proof. repeat constructor. Qed.

(** C11.  GetPointAt returns the governing point. *)
Theorem C11_lookup : forall l t, Forall fresh l -> fisnan t = false -> l <> [] ->
  exists p q, get_point_at (finalize_points (added l)) t = Ok p /\ same_but_base p q /\ looked_up l t q.
Proof. exact c11. Qed.
Print Assumptions C11_lookup.
Theorem C11_lookup_original : forall l t, Forall fresh l -> fisnan t = false -> l <> [] ->
  let tim := finalize_points (added l) in
  t_original tim = uninherited_or_first (t_points tim) /\
  exists p, get_original_point_at tim t = Ok p /\ looked_up (uninherited_or_first (t_points tim)) t p.
Proof. exact c11_orig. Qed.
Print Assumptions C11_lookup_original.
Theorem C11_empty_panics : forall t,
  get_point_at (finalize_points (added [])) t = Panic /\ get_original_point_at (finalize_points (added [])) t = Panic.
Proof. split; reflexivity. Qed.
Print Assumptions C11_empty_panics.
(** at 1000 the governing point is the green line added last, before -10 the earliest *)
Example C11_instance :
  rmap cp_beat (get_point_at (finalize_points (added sample)) (fq 1000 1)) = Ok (fq (-200) 1) /\
  rmap cp_beat (get_point_at (finalize_points (added sample)) (fq (-50) 1)) = Ok (fq 250 1) /\
  rmap cp_beat (get_original_point_at (finalize_points (added sample)) (fq 700 1)) = Ok (fq 300 1).
Proof. repeat split. Qed.

(** C12.  FinalizePoints is a stable sort that keeps every point. *)
Theorem C12_stable_sort : forall l, Forall fresh l ->
  let ps := t_points (finalize_points (added l)) in
  exists l', Forall2 same_but_base ps l' /\ Permutation l l' /\ time_ordered ps /\
    forall t, filter (fun p => feq (cp_Time p) t) l' = filter (fun p => feq (cp_Time p) t) l.
Proof. exact c12. Qed.
Print Assumptions C12_stable_sort.
Example C12_instance :
  map cp_beat (t_points (finalize_points (added sample))) = [fq 250 1; fq 300 1; fq (-50) 1; fq 400 1; fq (-200) 1].
Proof. reflexivity. Qed.
(** uninherited points keep their own base beat length *)
Theorem C12_uninherited_unchanged : forall l, Forall fresh l ->
  forall p, In p (t_points (finalize_points (added l))) -> cp_Inherited p = false -> In p l.
Proof.
  intros l HF p Hp Hi. destruct (C12_stable_sort l HF) as (l' & S & P & _ & _).
  apply In_nth_error in Hp. destruct Hp as [i Hi'].
  destruct (C13_helper l HF i p Hi') as [Hb|Hb]; [|congruence].
  assert (exists q, In q l' /\ same_but_base p q) as (q & Hq & Hs).
  { clear -S Hi'. revert i Hi'. induction S as [|x y ps l' H S IH]; intros [|i] Hi'; try discriminate.
    - injection Hi' as <-. exists y. split; [now left|exact H].
    - destruct (IH i Hi') as (q & Hq & Hs). exists q. split; [now right|exact Hs]. }
  apply (Permutation_in _ (Permutation_sym P)) in Hq. rewrite Forall_forall in HF. destruct (HF q Hq) as [Hfb _].
  assert (p = q); [|congruence]. rewrite Hs, Hb, (same_beat _ _ Hs), <- Hfb. destruct q; reflexivity.
Qed.
Print Assumptions C12_uninherited_unchanged.

(** C13.  The base beat length comes from the governing uninherited point. *)
Theorem C13_base_beat_length : forall l, Forall (fun p => cp_base p = cp_beat p) l -> forall i p,
  nth_error (t_points (finalize_points (added l))) i = Some p ->
  exists k q, (k <= i)%nat /\ nth_error (t_points (finalize_points (added l))) k = Some q /\
    (cp_Inherited q = false \/ k = 0%nat) /\ cp_base p = cp_beat q /\
    (forall j r, (k < j <= i)%nat -> nth_error (t_points (finalize_points (added l))) j = Some r -> cp_Inherited r = true).
Proof. exact c13. Qed.
Print Assumptions C13_base_beat_length.
Example C13_instance :
  map cp_base (t_points (finalize_points (added sample))) = [fq 250 1; fq 300 1; fq 300 1; fq 400 1; fq 400 1].
Proof. reflexivity. Qed.

(** C14.  GetRatio is 1 on non-negative or NaN beat lengths and otherwise in [0.1, 10]. *)
Theorem C14_ratio : forall p,
  (fge (cp_beat p) f0 = true \/ fisnan (cp_beat p) = true -> get_ratio p = fq 1 1) /\
  fle (fq 1 10) (get_ratio p) = true /\ fle (get_ratio p) (fq 10 1) = true.
Proof. exact ratio_range. Qed.
Print Assumptions C14_ratio.
(** between the clamps it is the percentage, rounded to float32 *)
Theorem C14_ratio_value : forall p,
  fle (fq (-1000) 1) (cp_beat p) = true -> fle (cp_beat p) (fq (-10) 1) = true ->
  get_ratio p = f_of_g (gdiv (g_of_f (fneg (cp_beat p))) (gq 100 1)) /\
  get_beat_length p = fmul (cp_base p) (get_ratio p).
Proof. intros p H1 H2. split; [now apply ratio_value|reflexivity]. Qed.
Print Assumptions C14_ratio_value.
Example C14_instance :
  get_ratio (green 0 (-50)) = f_of_g (gq 1 2) /\ get_ratio (green 0 (-1)) = f_of_g (gq 1 10) /\
  get_ratio (green 0 5) = fq 1 1 /\
  get_ratio (mk_point f0 fninf 0 0 f0 4 true false false) = f_of_g (gq 10 1) /\
  get_ratio (mk_point f0 fnan 0 0 f0 4 true false false) = fq 1 1.
Proof. repeat split. Qed.

(** C15.  Calling FinalizePoints twice duplicates the uninherited points. *)
Theorem C15_finalize_twice : forall l, Forall fresh l ->
  let t1 := finalize_points (added l) in let t2 := finalize_points t1 in
  t_points t2 = t_points t1 /\ t_original t2 = t_original t1 ++ t_original t1 /\
  (l <> [] -> t_original t1 <> []).
Proof. exact c15. Qed.
Print Assumptions C15_finalize_twice.
Example C15_instance : length (t_original (finalize_points (finalize_points (added sample)))) = 6%nat.
Proof. reflexivity. Qed.

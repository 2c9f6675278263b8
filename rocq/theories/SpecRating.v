(** Strains, strain peaks and ratings in real numbers. *)
From Coq Require Import Reals List ZArith.
From Flocq Require Import Raux Zaux Core BinarySingleNaN.
From Verif Require Import DiffCalc SpecDiff SpecSane SpecStrain SpecFormula SpecSkill.
Import ListNotations.
Open Scope R_scope.

Definition rsum (l : list R) : R := fold_right Rplus 0 l.

(** ** Strain *)
(** Share of a strain left after a second, and what one unit of an object's own
    difficulty counts. *)
Definition base_R (k : skill_kind) : R := match k with Speed => 30 / 100 | _ => 15 / 100 end.
Definition weight_R (k : skill_kind) : R := match k with Aim _ => 2325 / 100 | Speed => 1375 | Flash => 15 / 100 end.
(** The time from object j to object i, of which [gaps] are the times to the
    objects before. *)
Definition elapsed (gaps : list R) (j i : nat) : R := rsum (firstn (i - j) (skipn (S j) gaps)).
(** What all objects up to the i-th have brought, each faded since. *)
Definition faded_sum (p : R) (gaps vs : list R) (i : nat) : R :=
  rsum (map (fun j => nth j vs 0 * Rpower p (elapsed gaps j i / 1000)) (seq 0 (S i))).
Definition strain_R (k : skill_kind) (gaps vs : list R) (i : nat) : R := weight_R k * faded_sum (base_R k) gaps vs i.

(** ** Peaks *)
(** An object with its section (400 ms each), its time and the strain shown. *)
Record mark := mkMark { ma_section : Z; ma_time : R; ma_shown : R }.
Fixpoint marks (Ks : list Z) (ts shown : list R) : list mark :=
  match Ks, ts, shown with K :: Ks, t :: ts, x :: xs => mkMark K t x :: marks Ks ts xs | _, _, _ => [] end.
(** A section starts with what is left, at its start, of the last object before it. *)
Definition carried_R (p : R) (ms : list mark) (K : Z) : R :=
  match rev (filter (fun m => (ma_section m <? K)%Z) ms) with
  | [] => 0
  | m :: _ => ma_shown m * Rpower p ((400 * IZR (K - 1) - ma_time m) / 1000)
  end.
Definition peak_R (p : R) (ms : list mark) (K : Z) : R :=
  fold_left (fun m x => Rmax x m) (map ma_shown (filter (fun m => (ma_section m =? K)%Z) ms)) (carried_R p ms K).
(** One peak per section from the first object's to the last one's. *)
Definition peaks_R (k : skill_kind) (ts shown : list R) : list R :=
  let Ks := sections ts in
  let ms := marks Ks ts shown in
  match ts with
  | [] => [0]
  | _ => map (fun n => peak_R (base_R k) ms (hd 0%Z Ks + Z.of_nat n)) (seq 0 (Z.to_nat (last Ks 0%Z - hd 0%Z Ks + 1)))
  end.

(** ** Rating *)
(** Sorting, the largest first. *)
Fixpoint put (x : R) (l : list R) : list R :=
  match l with [] => [x] | y :: r => if Rlt_dec x y then y :: put x r else x :: y :: r end.
Definition sort_R (l : list R) : list R := fold_right put [] l.
(** The i-th highest of the first n counts 75 % and 25 % of log10 (1 + 9 i / n). *)
Definition share_R (n i : nat) : R := 75 / 100 + 25 / 100 * log10 (1 + 9 * (INR i / INR n)).
Fixpoint lessen (n i : nat) (l : list R) : list R :=
  match l with [] => [] | x :: r => (if (i <? n)%nat then x * share_R n i else x) :: lessen n (S i) r end.
(** x0 + q x1 + q^2 x2 + ... *)
Fixpoint weighed (q : R) (l : list R) : R := match l with [] => 0 | x :: r => x + q * weighed q r end.
Definition fading_R (k : skill_kind) : R := match k with Flash => 1 | _ => 9 / 10 end.
Definition scale_R (k : skill_kind) : R := match k with Speed => 104 / 100 | _ => 106 / 100 end.
Definition value_R (k : skill_kind) (peaks : list R) : R :=
  weighed (fading_R k) (sort_R (lessen (top_peaks k) 0 (sort_R peaks))) * scale_R k.
Definition stars_R (v : R) : R := sqrt v * (675 / 10000).

(** ** A whole map *)
Section WithLibm.
Context {M : libm}.
(** What an object brings, for the objects seen before it, latest first: nothing
    for spinners, and for aim nothing right after one or before the third object. *)
Definition own_R (k : skill_kind) (d : difficulty) (prev : list dobj) (cur : dobj) : R :=
  if is_spinner (po_obj (do_base cur)) then 0 else
  match k with
  | Aim ws => match prev with
              | last :: ll :: _ => if is_spinner (po_obj (do_base last)) then 0 else aim_formula ws (motion_of cur) (motion_of last) (motion_of ll)
              | _ => 0
              end
  | Speed => speed_formula (2 * (B2R (d_Hit300 d) / B2R (d_Speed d))) (B2R (do_StrainTime cur)) (match prev with p :: _ => Some (B2R (do_StrainTime p)) | [] => None end)
               (B2R (do_Travel cur) + B2R (do_Jump cur))
  | Flash => flash_formula (B2R (d_CircleRadius d)) (sights_of d prev cur)
  end.
(** The rhythm multiplier counts for speed only. *)
Definition bonus_R (k : skill_kind) (d : difficulty) (prev : list dobj) (cur : dobj) : R :=
  match k with
  | Speed => if is_spinner (po_obj (do_base cur)) then 0 else rhythm_formula (B2R (d_Hit300 d) / B2R (d_Speed d)) (B2R (do_StartTime cur)) (map tap_of prev)
  | _ => 1
  end.
Fixpoint along {A} (f : list dobj -> dobj -> A) (k : skill_kind) (before rest : list dobj) : list A :=
  match rest with [] => [] | o :: r => f (firstn (memory k) before) o :: along f k (o :: before) r end.
Definition gaps_of (dos : list dobj) : list R := map (fun o => B2R (do_DeltaTime o)) dos.
Definition starts_of (dos : list dobj) : list R := map (fun o => B2R (do_StartTime o)) dos.
Definition shown_R (k : skill_kind) (d : difficulty) (dos : list dobj) : list R :=
  let vs := along (own_R k d) k [] dos in
  map (fun ib => strain_R k (gaps_of dos) vs (fst ib) * snd ib) (combine (seq 0 (length dos)) (along (bonus_R k d) k [] dos)).
Definition map_stars (k : skill_kind) (d : difficulty) (dos : list dobj) : R :=
  stars_R (value_R k (peaks_R k (starts_of dos) (shown_R k d dos))).
(** How many objects count at once at most: each 1, fading as strains do. *)
Definition load (k : skill_kind) (dos : list dobj) (i : nat) : R := faded_sum (base_R k) (gaps_of dos) (map (fun _ => 1) (gaps_of dos)) i.
Definition max_load (k : skill_kind) (dos : list dobj) : R := fold_right Rmax 1 (map (load k dos) (seq 0 (length dos))).
(** How far floats may be from the real strains and peaks, as a share of them and besides. *)
Definition rel_slack (k : skill_kind) (dos : list dobj) : R :=
  match k with Speed => bpow radix2 (-10) | _ => bpow radix2 (-25) + INR (length dos) * bpow radix2 (-37) end.
Definition abs_slack (k : skill_kind) (dos : list dobj) : R :=
  match k with Aim _ => max_load k dos * bpow radix2 (-16) | Speed => max_load k dos * bpow radix2 (-13) | Flash => bpow radix2 (-790) end.
(** ... and from the ratings, for large ones and for small ones. *)
Definition large_slack (k : skill_kind) (dos : list dobj) : R :=
  match k with Aim _ => max_load k dos * bpow radix2 (-20) | Speed => max_load k dos * bpow radix2 (-17) | Flash => bpow radix2 (-780) end.
Definition small_slack (k : skill_kind) (dos : list dobj) : R :=
  match k with Aim _ => sqrt (max_load k dos) * bpow radix2 (-10) | Speed => sqrt (max_load k dos) * bpow radix2 (-8) | Flash => bpow radix2 (-390) end.

(** A map whose ratings the formulas are compared with: distances up to 65536 px of a
    circle with radius 50, no pause over 5 minutes, times within 55 hours, at
    most 2^20 objects, and no gaps a hair from a comparison of the code. *)
Record plain (d : difficulty) (dos : list dobj) : Prop := {
  pl_clock : clocked d;
  pl_sane : Forall (sane 16) dos;
  pl_brisk : Forall (fun o => B2R (do_DeltaTime o) <= 300000 /\ brisk o) dos;
  pl_times : Forall (fun o => time_ok (do_StartTime o) /\ Rabs (B2R (do_StartTime o)) <= 200000000) dos;
  pl_angles : Forall angle_ok dos;
  pl_before : forall j i p o, (j < i)%nat -> nth_error dos j = Some p -> nth_error dos i = Some o -> near 16 d o p /\ B2R (do_StartTime p) <= B2R (do_StartTime o);
  pl_next : forall i p o, nth_error dos i = Some p -> nth_error dos (S i) = Some o -> linked o p /\ rhythm_clear o p /\ B2R (do_StartTime o) - B2R (do_StartTime p) <= 300000;
  pl_clear : forall i j l p c cur, (S (S i) < j)%nat -> nth_error dos i = Some l -> nth_error dos (S i) = Some p -> nth_error dos (S (S i)) = Some c -> nth_error dos j = Some cur ->
    step_clear (B2R (do_StartTime cur)) c p l;
  pl_few : (Z.of_nat (length dos) <= 1048576)%Z }.
End WithLibm.

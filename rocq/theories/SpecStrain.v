(** Specification vocabulary for strains and strain peaks. *)
From Coq Require Import Reals Permutation.
From Flocq Require Import Core BinarySingleNaN.
From Verif Require Import DiffCalc SpecDiff.
Import ListNotations.
Open Scope Z_scope.

Section WithLibm.
Context {M : libm}.

(** Share of a strain left after ms milliseconds: 15 % (speed: 30 %) per second. *)
Definition left_over (k : skill_kind) (ms : f64) : f64 :=
  mpow (match k with Speed => fq 30 100 | _ => fq 15 100 end) (fdiv ms (fq 1000 1)).
Definition weight_of (k : skill_kind) : f64 :=
  match k with Aim _ => fq 2325 100 | Speed => fq 1375 1 | Flash => fq 15 100 end.
(** How many earlier objects a skill may look at. *)
Definition memory (k : skill_kind) : nat := match k with Aim _ => 2 | Speed => 32 | Flash => 10 end.
(** The objects before the i-th one that the skill sees, latest first. *)
Definition seen (k : skill_kind) (dos : list dobj) (i : nat) : list dobj := firstn (memory k) (rev (firstn i dos)).

(** One strain per object: what is left of the previous one plus the object's own. *)
Definition strains_of (k : skill_kind) (d : difficulty) (dos : list dobj) (ss : list f64) : Prop :=
  length ss = length dos /\
  forall i o s, nth_error dos i = Some o -> nth_error ss i = Some s ->
    let before := match i with O => f0 | S j => nth j ss f0 end in
    s = fadd (fmul before (left_over k (do_DeltaTime o))) (fmul (strain_value k d (seen k dos i) o) (weight_of k)).
(** What counts for the peaks: the strain, for speed times the rhythm bonus. *)
Definition shown_of (k : skill_kind) (d : difficulty) (dos : list dobj) (ss shown : list f64) : Prop :=
  length shown = length dos /\
  forall i o s x, nth_error dos i = Some o -> nth_error ss i = Some s -> nth_error shown i = Some x ->
    match k with
    | Speed => exists b, speed_bonus d (seen k dos i) o = Ok b /\ x = fmul s b
    | _ => x = s
    end.

(** Section of each object: the largest section of a start time so far. *)
Fixpoint sections_from (K : Z) (ts : list R) : list Z :=
  match ts with [] => [] | t :: r => let K' := Z.max K (section_of t) in K' :: sections_from K' r end.
Definition sections (ts : list R) : list Z :=
  match ts with [] => [] | t :: r => section_of t :: sections_from (section_of t) r end.
Record entry := mkEntry { en_section : Z; en_time : f64; en_shown : f64 }.
Fixpoint entries (Ks : list Z) (ts shown : list f64) : list entry :=
  match Ks, ts, shown with K :: Ks, t :: ts, x :: xs => mkEntry K t x :: entries Ks ts xs | _, _, _ => [] end.
(** A section starts with what is left of the last object before it, at the
    boundary 400 (K - 1); the first section starts with 0. *)
Definition carried (k : skill_kind) (es : list entry) (K : Z) (c : f64) : Prop :=
  (filter (fun e => en_section e <? K) es = [] /\ c = f0) \/
  exists pre e b, filter (fun e => en_section e <? K) es = pre ++ [e] /\
    is_finite b = true /\ B2R b = (400 * IZR (K - 1))%R /\ c = fmul (en_shown e) (left_over k (fsub b (en_time e))).
(** The peak of a section: the largest of that and of what its objects show. *)
Definition peak_of (k : skill_kind) (es : list entry) (K : Z) (p : f64) : Prop :=
  exists c, carried k es K c /\
    p = fold_left (fun m x => fmax x m) (map en_shown (filter (fun e => en_section e =? K) es)) c.
(** The peaks of all sections from the first to the last. *)
Definition peaks_of (k : skill_kind) (d : difficulty) (dos : list dobj) (peaks : list f64) : Prop :=
  exists ss shown, strains_of k d dos ss /\ shown_of k d dos ss shown /\
    let ts := map do_StartTime dos in
    let Ks := sections (map (@B2R 53 1024) ts) in
    let es := entries Ks ts shown in
    (dos = [] -> peaks = [f0]) /\
    (dos <> [] -> zlen peaks = last Ks 0 - hd 0 Ks + 1) /\
    forall n p, dos <> [] -> nth_error peaks n = Some p -> peak_of k es (hd 0 Ks + Z.of_nat n) p.
End WithLibm.

(** ** From peaks to a rating *)
Section Rating.
Context {M : libm}.
(** The number of the highest peaks that count less. *)
Definition top_peaks (k : skill_kind) : nat := match k with Speed => 5 | _ => 10 end.
(** The i-th highest counts 75 % and 25 % of log10 (1 + 9 i / n). *)
Definition share (k : skill_kind) (i : nat) : f64 :=
  fadd (fq 75 100) (fmul (fq 25 100) (mlog10 (fadd (fq 1 1) (fmul (fq 9 1) (fdiv (fq (Z.of_nat i) 1) (fq (Z.of_nat (top_peaks k)) 1)))))).
Definition scale_of (k : skill_kind) : f64 := match k with Speed => fq 104 100 | _ => fq 106 100 end.
(** Each peak weighs this times the next higher one's weight; the highest weighs 1. *)
Definition fading (k : skill_kind) : f64 := match k with Flash => fq 1 1 | _ => fq 9 10 end.
Fixpoint faded (k : skill_kind) (i : nat) : f64 := match i with O => fq 1 1 | S j => fmul (faded k j) (fading k) end.
Fixpoint weigh (k : skill_kind) (i : nat) (l : list f64) : list f64 :=
  match l with [] => [] | x :: r => fmul x (faded k i) :: weigh k (S i) r end.
Definition rating (k : skill_kind) (peaks : list f64) (v : f64) : Prop :=
  exists hi lo srt, Permutation peaks hi /\ descending hi /\
    length lo = length hi /\
    (forall i x y, nth_error hi i = Some x -> nth_error lo i = Some y -> y = if (i <? top_peaks k)%nat then fmul x (share k i) else x) /\
    Permutation lo srt /\ descending srt /\
    v = fmul (fold_left fadd (weigh k 0 srt) f0) (scale_of k).
End Rating.

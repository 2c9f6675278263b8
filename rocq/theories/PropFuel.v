(** C59: the step budget is not part of the result. *)
From Verif Require Import Parser DiffCalc SpecDiff FuelProofs PropParser PropDiff PropCurves.
Open Scope Z_scope.

Section WithLibm.
Context {M : libm}.

(** C59.  Whatever a computation delivers within some number of loop steps, a
    panic included, it delivers within any larger number: parsing, ... *)
Theorem C59_parse : forall n m text, (n <= m)%nat -> parse_bytes n text <> Hang -> parse_bytes m text = parse_bytes n text.
Proof. intros n m text L H. unfold parse_bytes, parse_text in *. exact (upto_ok _ _ (parse_lines_up n m L _) H). Qed.
(** ... the difficulty calculation in its five forms, ... *)
Theorem C59_single : forall n m objs d, (n <= m)%nat ->
  (calculate_single n objs d <> Hang -> calculate_single m objs d = calculate_single n objs d) /\
  (calculate_single_with_peaks n objs d <> Hang -> calculate_single_with_peaks m objs d = calculate_single_with_peaks n objs d).
Proof.
  intros n m objs d L. split; intros H.
  - exact (upto_ok _ _ (upto_rmap _ _ _ (single_full_up n m L objs d)) H).
  - exact (upto_ok _ _ (single_peaks_up n m L objs d) H).
Qed.
Theorem C59_step : forall n m objs d, (n <= m)%nat ->
  (calculate_step n objs d <> Hang -> calculate_step m objs d = calculate_step n objs d) /\
  (calculate_step_with_peaks n objs d <> Hang -> calculate_step_with_peaks m objs d = calculate_step_with_peaks n objs d).
Proof.
  intros n m objs d L. split; intros H.
  - exact (upto_ok _ _ (upto_rmap _ _ _ (step_full_up n m L objs d)) H).
  - exact (upto_ok _ _ (step_peaks_up n m L objs d) H).
Qed.
Theorem C59_peaks : forall n m objs d, (n <= m)%nat ->
  calculate_strain_peaks n objs d <> Hang -> calculate_strain_peaks m objs d = calculate_strain_peaks n objs d.
Proof. intros n m objs d L H. exact (upto_ok _ _ (strain_peaks_up n m L objs d) H). Qed.
(** ... and curves. *)
Theorem C59_curve : forall n m typ pts len, (n <= m)%nat ->
  new_multicurve_t n typ pts len <> Hang -> new_multicurve_t m typ pts len = new_multicurve_t n typ pts len.
Proof. intros n m typ pts len L H. exact (upto_ok _ _ (new_multicurve_t_up n m L typ pts len) H). Qed.
(** Hence two budgets that are both enough give the same outcome, and there is
    nothing between finishing and running forever: either some budget is enough
    and from then on the outcome is fixed, or none is. *)
Theorem C59_unique : forall n m text, parse_bytes n text <> Hang -> parse_bytes m text <> Hang -> parse_bytes n text = parse_bytes m text.
Proof.
  intros n m text Hn Hm. destruct (Nat.le_ge_cases n m) as [L|L]; [symmetry; now apply C59_parse|now apply C59_parse].
Qed.
End WithLibm.

(** Budgets that are not enough and budgets that are. *)
Definition ticking_map : str := concat (map (fun l => lit l ++ [chr 10]) [
  "[Metadata]"; "Title:A"; "[Difficulty]"; "SliderMultiplier:1.4"; "SliderTickRate:2"; "[TimingPoints]"; "0,300"; "[HitObjects]";
  "100,100,4000,2,0,L|500:100,1,300"]%string).
Example C59_instance_parse : match @parse_bytes no_libm 2 ticking_map, @parse_bytes no_libm 9 ticking_map with
  | Hang, Ok (Some b) => Nat.eqb (length (bm_HitObjects b)) 1 | _, _ => false end = true.
Proof. vm_compute. reflexivity. Qed.
Example C59_instance_single : outcome_of (@calculate_single one_libm 5 demo demo_diff) = Returns /\ outcome_of (@calculate_single one_libm 2 demo demo_diff) = Hangs.
Proof. split; vm_compute; reflexivity. Qed.

Print Assumptions C59_parse.
Print Assumptions C59_single.
Print Assumptions C59_step.
Print Assumptions C59_peaks.
Print Assumptions C59_curve.
Print Assumptions C59_unique.

(** The step budget of a loop only decides whether it is enough: a larger one
    never changes a result. *)
From Verif Require Import Parser DiffCalc BaseLemmas.
Open Scope Z_scope.

(** [x] ran out of steps, or [y] is the same outcome. *)
Definition upto {A} (x y : res A) : Prop := x = Hang \/ x = y.
Lemma upto_refl {A} (x : res A) : upto x x.
Proof. now right. Qed.
Lemma upto_bind {A B} (x y : res A) (f g : A -> res B) : upto x y -> (forall a, upto (f a) (g a)) -> upto (bind x f) (bind y g).
Proof. intros [->| ->] H; [now left|]. destruct y; cbn [bind]; [apply H|now right|now left]. Qed.
Lemma upto_rmap {A B} (x y : res A) (f : A -> B) : upto x y -> upto (rmap f x) (rmap f y).
Proof. intros H. apply upto_bind; [exact H|]. intros; apply upto_refl. Qed.
Lemma upto_mapM {A B} (f g : A -> res B) l : (forall a, upto (f a) (g a)) -> upto (mapM f l) (mapM g l).
Proof. intros H. induction l as [|x l IH]; [apply upto_refl|]. cbn [mapM]. apply upto_bind; [apply H|]. intros. apply upto_bind; [exact IH|]. intros; apply upto_refl. Qed.
Lemma upto_foldM {A S} (f g : S -> A -> res S) l : (forall s a, upto (f s a) (g s a)) -> forall s, upto (foldM f s l) (foldM g s l).
Proof. intros H. induction l as [|x l IH]; intros s; [apply upto_refl|]. cbn [foldM]. apply upto_bind; [apply H|]. intros; apply IH. Qed.
Lemma upto_ok {A} (x y : res A) : upto x y -> x <> Hang -> y = x.
Proof. intros [E|E] N; [contradiction|now symmetry]. Qed.


Section WithLibm.
Context {M : libm}.
Section Fuel.
Context (n m : nat) (L : (n <= m)%nat).

Lemma arc_wrap_up s : forall e, upto (arc_wrap n s e) (arc_wrap m s e).
Proof.
  clear -L. revert m L. induction n as [|n' IH]; intros m L e.
  - cbn [arc_wrap]. destruct m; cbn [arc_wrap]; destruct (glt e s); (now left) || apply upto_refl.
  - destruct m as [|m']; [lia|]. cbn [arc_wrap]. destruct (glt e s); [|apply upto_refl]. apply IH. lia.
Qed.
Lemma new_cirarc_up a b c : upto (new_cirarc n a b c) (new_cirarc m a b c).
Proof. unfold new_cirarc. cbv zeta. apply upto_bind; [apply arc_wrap_up|]. intros; apply upto_refl. Qed.
Lemma approximate_arc_up a b c d : upto (approximate_arc n a b c d) (approximate_arc m a b c d).
Proof. unfold approximate_arc. apply upto_bind; [apply new_cirarc_up|]. intros; apply upto_refl. Qed.
Lemma bezier_loop_up count : forall h flat free out, upto (create_bezier_loop n count h flat free out) (create_bezier_loop m count h flat free out).
Proof.
  clear -L. revert m L. induction n as [|n' IH]; intros m L h flat free out.
  - destruct flat as [|p flat]; [|now left]. destruct m; apply upto_refl.
  - destruct m as [|m']; [lia|]. destruct flat as [|p flat]; [apply upto_refl|]. cbn [create_bezier_loop].
    apply upto_bind; [apply upto_refl|]. intros pb. destruct (is_flat pb).
    + apply upto_bind; [apply upto_refl|]. intros st. apply IH. lia.
    + destruct free as [|x fr]; (apply upto_bind; [apply upto_refl|]; intros h1; apply upto_bind; [apply upto_refl|]; intros h2; apply IH; lia).
Qed.
Lemma create_bezier_up cp : upto (create_bezier n cp) (create_bezier m cp).
Proof. unfold create_bezier. destruct cp; [apply upto_refl|]. apply upto_bind; [apply bezier_loop_up|]. intros; apply upto_refl. Qed.
Lemma approximate_bezier_up cp : upto (approximate_bezier n cp) (approximate_bezier m cp).
Proof. unfold approximate_bezier. apply upto_bind; [apply create_bezier_up|]. intros; apply upto_refl. Qed.
Lemma process_bezier_loop_up k pts : forall i l, upto (process_bezier_loop n k pts i l) (process_bezier_loop m k pts i l).
Proof.
  induction k as [|k IH]; intros i l; [apply upto_refl|]. cbn [process_bezier_loop]. cbv zeta.
  destruct (Nat.ltb i (length pts)); [|apply upto_refl]. destruct (_ || _); [|apply IH].
  apply upto_bind; [|intros; apply upto_bind; [apply IH|intros; apply upto_refl]].
  destruct (slice pts l (S i)) as [|a [|b [|c r]]]; try apply approximate_bezier_up. apply upto_refl.
Qed.
Lemma process_perfect_up pts : upto (process_perfect n pts) (process_perfect m pts).
Proof.
  unfold process_perfect. destruct pts as [|a [|b [|c [|d r]]]]; try apply upto_refl.
  - destruct (is_straight a b c); [apply upto_refl|apply approximate_arc_up].
  - apply process_bezier_loop_up.
Qed.
Lemma curve_lines_up t pts : upto (curve_lines n t pts) (curve_lines m t pts).
Proof.
  unfold curve_lines. destruct (str_eqb t (lit "P")); [apply process_perfect_up|]. destruct (str_eqb t (lit "L")); [apply upto_refl|].
  destruct (str_eqb t (lit "B")); [apply process_bezier_loop_up|]. apply upto_refl.
Qed.
Lemma new_multicurve_up t pts : upto (new_multicurve n t pts) (new_multicurve m t pts).
Proof. unfold new_multicurve. apply upto_bind; [apply curve_lines_up|]. intros; apply upto_refl. Qed.
Lemma new_multicurve_t_up t pts len : upto (new_multicurve_t n t pts len) (new_multicurve_t m t pts len).
Proof. unfold new_multicurve_t. apply upto_bind; [apply new_multicurve_up|]. intros; apply upto_refl. Qed.
Lemma new_slider_up d : upto (new_slider n d) (new_slider m d).
Proof.
  unfold new_slider. cbv zeta. do 6 (apply upto_bind; [apply upto_refl|intro]). apply upto_bind; [apply new_multicurve_t_up|]. intros; apply upto_refl.
Qed.
Lemma create_object_up d : upto (create_object n d) (create_object m d).
Proof.
  unfold create_object. cbv zeta. apply upto_bind; [apply upto_refl|intro].
  destruct (has_type _ CIRCLE); [apply upto_refl|]. destruct (has_type _ SPINNER); [apply upto_refl|].
  destruct (has_type _ SLIDER); [apply upto_rmap, new_slider_up|apply upto_refl].
Qed.
Lemma parse_hit_object_up d s : upto (parse_hit_object n d s) (parse_hit_object m d s).
Proof.
  unfold parse_hit_object. cbv zeta. apply upto_bind; [apply upto_refl|intro]. apply upto_bind; [apply upto_refl|intros (((c & sl) & sp) & t)].
  apply upto_bind; [apply create_object_up|intro; apply upto_refl].
Qed.
Lemma section_line_up l st : upto (section_line n l st) (section_line m l st).
Proof.
  destruct st as [sec fv me ge di ev ti obs]. unfold section_line.
  do 5 (match goal with |- upto (if ?b then _ else _) _ => destruct b; [apply upto_refl|] end).
  match goal with |- upto (if ?b then _ else _) _ => destruct b end; [|apply upto_refl].
  destruct (tokenize l ","); [|apply upto_refl]. apply upto_bind; [apply parse_hit_object_up|intro; apply upto_refl].
Qed.
Lemma parse_line_up st l : upto (parse_line n st l) (parse_line m st l).
Proof. unfold parse_line. cbv zeta. destruct (get_section l); [apply section_line_up|apply upto_refl]. Qed.
Lemma tick_loop_up td cl md rv ss sp : forall d, upto (tick_loop n d td cl md rv ss sp) (tick_loop m d td cl md rv ss sp).
Proof.
  clear -L. revert m L. induction n as [|n' IH]; intros m L d.
  - destruct m as [|m']; cbn [tick_loop]; destruct (fle d cl); try apply upto_refl; destruct (fge d _); try apply upto_refl. now left.
  - destruct m as [|m']; [lia|]. cbn [tick_loop]. destruct (fle d cl); [|apply upto_refl]. destruct (fge d _); [apply upto_refl|].
    cbv zeta. apply upto_bind; [apply IH; lia|intro; apply upto_refl].
Qed.
Lemma span_ticks_up nan td cl md s e sp r i : upto (span_ticks n nan td cl md s e sp r i) (span_ticks m nan td cl md s e sp r i).
Proof. unfold span_ticks. cbv zeta. apply upto_bind; [destruct nan; [apply upto_refl|apply tick_loop_up]|intro; apply upto_refl]. Qed.
Lemma set_timing_up tim o : upto (set_timing n tim o) (set_timing m tim o).
Proof.
  unfold set_timing. destruct (ho_kind o); try apply upto_refl. unfold slider_set_timing. cbv zeta.
  apply upto_bind; [apply upto_refl|intro]. apply upto_bind; [apply upto_mapM; intro; apply span_ticks_up|intro; apply upto_refl].
Qed.
Lemma finish_parse_up st : upto (finish_parse n st) (finish_parse m st).
Proof.
  unfold finish_parse. cbv zeta. match goal with |- upto (if ?b then _ else _) _ => destruct b end; [apply upto_refl|].
  apply upto_bind; [apply upto_mapM; intro; apply set_timing_up|intro; apply upto_refl].
Qed.
Lemma parse_lines_up ls : upto (parse_lines n ls) (parse_lines m ls).
Proof. unfold parse_lines. apply upto_bind; [apply upto_foldM; intros; apply parse_line_up|]. intros; apply finish_parse_up. Qed.

Lemma section_loop_up k st : forall s, upto (section_loop n k st s) (section_loop m k st s).
Proof.
  clear -L. revert m L. induction n as [|n' IH]; intros m L s.
  - destruct m as [|m']; cbn [section_loop]; destruct (fgt st (sk_end s)); try apply upto_refl. now left.
  - destruct m as [|m']; [lia|]. cbn [section_loop]. destruct (fgt st (sk_end s)); [|apply upto_refl].
    apply upto_bind; [apply upto_refl|intro; apply IH; lia].
Qed.
Lemma process_up k d s o : upto (process n k d s o) (process m k d s o).
Proof. unfold process. cbv zeta. apply upto_bind; [apply section_loop_up|intro; apply upto_refl]. Qed.
Lemma process_all_up d s o : upto (process_all n d s o) (process_all m d s o).
Proof.
  unfold process_all. do 3 (apply upto_bind; [apply process_up|intro]).
  apply upto_bind; [destruct (cs_flash s); [apply upto_rmap, process_up|apply upto_refl]|intro; apply upto_refl].
Qed.
Lemma single_loop_up d objs dos : forall s a i, upto (single_loop n d s a objs dos i) (single_loop m d s a objs dos i).
Proof.
  induction dos as [|o dos IH]; intros s a i; [apply upto_refl|]. cbn [single_loop].
  apply upto_bind; [apply upto_refl|intro]. apply upto_bind; [apply process_all_up|intro; apply IH].
Qed.
Lemma step_loop_up d objs dos : forall s st i, upto (step_loop n d s st objs dos i) (step_loop m d s st objs dos i).
Proof.
  induction dos as [|o dos IH]; intros s a i; [apply upto_refl|]. cbn [step_loop]. cbv zeta.
  apply upto_bind; [apply upto_refl|intro]. apply upto_bind; [apply upto_refl|intro]. apply upto_bind; [apply process_all_up|intro; apply IH].
Qed.
Lemma single_full_up objs d : upto (calculate_single_full n objs d) (calculate_single_full m objs d).
Proof.
  unfold calculate_single_full. do 2 (apply upto_bind; [apply upto_refl|intro]). apply upto_bind; [apply single_loop_up|intro; apply upto_refl].
Qed.
Lemma step_full_up objs d : upto (calculate_step_full n objs d) (calculate_step_full m objs d).
Proof.
  unfold calculate_step_full. do 2 (apply upto_bind; [apply upto_refl|intro]). apply upto_bind; [apply step_loop_up|intro; apply upto_refl].
Qed.
Lemma single_peaks_up objs d : upto (calculate_single_with_peaks n objs d) (calculate_single_with_peaks m objs d).
Proof. unfold calculate_single_with_peaks. apply upto_bind; [apply single_full_up|intro; apply upto_refl]. Qed.
Lemma step_peaks_up objs d : upto (calculate_step_with_peaks n objs d) (calculate_step_with_peaks m objs d).
Proof. unfold calculate_step_with_peaks. apply upto_bind; [apply step_full_up|intro; apply upto_refl]. Qed.
Lemma strain_peaks_up objs d : upto (calculate_strain_peaks n objs d) (calculate_strain_peaks m objs d).
Proof.
  unfold calculate_strain_peaks. apply upto_bind; [apply upto_refl|intro]. apply upto_bind; [|intro; apply upto_refl].
  apply upto_foldM. intros ((aim & sp) & fl) o. unfold peaks_step. do 2 (apply upto_bind; [apply process_up|intro]).
  apply upto_bind; [destruct fl; [apply upto_rmap, process_up|apply upto_refl]|intro; apply upto_refl].
Qed.
End Fuel.
End WithLibm.

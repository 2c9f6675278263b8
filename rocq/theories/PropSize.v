(** Property C107: how large curves get and how long building them takes. *)
From Coq Require Import Reals Permutation.
From Flocq Require Import Core BinarySingleNaN.
From Verif Require Import GoFloat Curves Objects Parser SpecParser SpecSafety SpecTerm SpecCurves SpecShape SpecSliders BaseLemmas CurveStart StackingProofs StringLemmas ObjectProofs FinishProofs CurveTerm ArcProofs SizeProofs PropTerm PropShape.
From Verif Require Import PropSafety PropParser PropCurves.
Import ListNotations.
Open Scope Z_scope.

Section WithLibm.
Context {M : libm}.

(** C107.  Control points of magnitude at most 2^k, fewer than 2^(22-k) of
    them, are flattened within n halvings, where n is at least k/2 + 4: the loop
    goes round at most 2^(n+1) - 1 times and at most 2^n points come out for
    each gap between control points, and the last one. *)
Theorem C107_bezier : forall k n cp, cp <> [] -> 0 <= k <= 100 -> Forall (within k) cp -> (zlen cp + 8) * 2 ^ k <= 2 ^ 22 -> k + 8 <= 2 * n ->
  exists out, zlen out <= 2 ^ n * Z.max 1 (zlen cp - 1) + 1 /\
    forall fuel, 2 ^ (n + 1) - 1 <= Z.of_nat fuel -> create_bezier fuel cp = Ok out.
Proof.
  intros k n cp NE K F L HN. set (m := Z.to_nat n).
  assert (Em : n = Z.of_nat m) by (unfold m; lia).
  assert (P : 2 ^ n = Z.of_nat (2 ^ m)) by (rewrite Em, Nat2Z.inj_pow; reflexivity).
  destruct (create_sized k m cp NE) as (out & Lo & E); [split; [exact K|]; split; [exact F|]; split; [exact L|lia]|].
  exists out. unfold zlen in *. split; [rewrite P; nia|]. intros fuel HF. apply E. rewrite Z.pow_add_r, P in HF by lia. change (2 ^ 1) with 2 in HF. lia.
Qed.

(** How many lines the curve of a slider has at most, by its type letter: one
    for each gap between the points; fifty for each gap; 2^n for each point; one
    for each pixel of the circle's radius. *)
Definition few_lines (typ : str) (pts : list vec) (lines : Z) : Prop :=
  (typ = lit "L" -> lines <= zlen pts - 1) /\
  (typ = lit "C" -> lines <= 50 * (zlen pts - 1)) /\
  (uses_bezier typ pts -> forall k n, 0 <= k <= 100 -> Forall (within k) pts -> (zlen pts + 8) * 2 ^ k <= 2 ^ 22 -> k + 8 <= 2 * n -> lines <= 2 ^ n * zlen pts) /\
  (typ = lit "P" -> zlen pts <= 2 -> lines <= 1) /\
  (typ = lit "P" -> forall a b c r, pts = [a; b; c] -> 1 <= r <= 4194304 -> atan2_range -> radius_upto r a b c -> lines <= Z.max 2 r) /\
  (typ <> lit "L" -> typ <> lit "C" -> typ <> lit "B" -> typ <> lit "P" -> lines = 0).
Lemma bezier_lines fuel pts ls k n : process_bezier fuel pts = Ok ls -> 0 <= k <= 100 -> Forall (within k) pts -> (zlen pts + 8) * 2 ^ k <= 2 ^ 22 -> k + 8 <= 2 * n -> zlen ls <= 2 ^ n * zlen pts.
Proof.
  intros H K F L HN. set (m := Z.to_nat n). assert (Em : n = Z.of_nat m) by (unfold m; lia).
  assert (P : 2 ^ n = Z.of_nat (2 ^ m)) by (rewrite Em, Nat2Z.inj_pow; reflexivity).
  destruct (bezier_sized k m pts ltac:(split; [exact K|]; split; [exact F|]; split; [exact L|lia]) (length pts) 0%nat 0%nat ltac:(lia)) as (ls' & Hl & E).
  set (big := (fuel + 2 * 2 ^ m)%nat). specialize (E big ltac:(unfold big; lia)).
  assert (EE : process_bezier big pts = Ok ls).
  { unfold process_bezier in *. destruct (FuelProofs.process_bezier_loop_up fuel big ltac:(unfold big; lia) (length pts) pts 0%nat 0%nat) as [Q|Q]; rewrite <- H; [rewrite Q in H; discriminate H|symmetry; exact Q]. }
  unfold process_bezier in EE. rewrite EE in E. apply Ok_inj in E. subst ls'. rewrite Nat.sub_0_r in Hl. unfold zlen. rewrite P. nia.
Qed.
Theorem C107_curve : forall fuel typ pts len mc, new_multicurve_t fuel typ pts len = Ok mc -> few_lines typ pts (zlen (mc_lines mc)).
Proof.
  intros fuel typ pts len mc H. assert (NE : 1 <= zlen pts).
  { unfold new_multicurve_t, new_multicurve in H. apply bind_ok in H as (m & E & _). apply bind_ok in E as (x & _ & E). destruct pts; [discriminate E|]. unfold zlen. cbn [length]. lia. }
  destruct (curve_size fuel typ pts len mc H) as (ls & E & L). apply inj_le in L. fold (zlen (mc_lines mc)) (zlen ls) in L. set (lines := zlen (mc_lines mc)) in *.
  assert (L0 : 0 <= lines) by (unfold lines, zlen; lia). clearbody lines. clear H.
  pose proof (linear_size pts) as HL. apply inj_le in HL. rewrite Nat2Z.inj_sub in HL by (unfold zlen in NE; lia). change (Z.of_nat (length pts)) with (zlen pts) in HL. change (Z.of_nat 1) with 1 in HL. fold (zlen (process_linear pts)) in HL.
  unfold curve_lines in E. split; [|split; [|split; [|split; [|split]]]].
  - intros ->. apply Ok_inj in E. subst ls. lia.
  - intros ->. apply Ok_inj in E. subst ls. unfold zlen in *. rewrite catmull_size in L. lia.
  - intros U k n K F Q HN. assert (B : process_bezier fuel pts = Ok ls).
    { destruct U as [->|[-> U]]; [exact E|]. destruct pts as [|a [|b [|c [|d r]]]]; cbn [length] in U; try lia. exact E. }
    pose proof (bezier_lines fuel pts ls k n B K F Q HN). lia.
  - intros -> U. assert (B : ls = process_linear pts). { destruct pts as [|a [|b [|c r]]]; unfold zlen in U; cbn [length] in U; try lia; apply Ok_inj in E; now subst ls. }
    subst ls. lia.
  - intros -> a b c r -> R HA HR. unfold process_perfect in E. change (str_eqb (lit "P") (lit "P")) with true in E. cbv iota in E. destruct (is_straight a b c).
    + apply Ok_inj in E. subst ls. unfold zlen in HL at 2. cbn [length] in HL. lia.
    + pose proof (arc_size r fuel a b c ls R HA HR E). unfold zlen in L. lia.
  - intros N1 N2 N3 N4. assert (D : forall s, typ <> s -> str_eqb typ s = false) by (intros s N; destruct (str_eqb typ s) eqn:Q; [apply str_eqb_eq in Q; contradiction|reflexivity]).
    rewrite !D in E by assumption. apply Ok_inj in E. subst ls. unfold zlen in L. cbn [length] in L. lia.
Qed.
(** A step budget of 2^(n+1) is enough for any curve, whatever its type. *)
Theorem C107_budget : forall typ pts len k n fuel, pts <> [] -> atan2_range -> tame_arc typ pts ->
  0 <= k <= 100 -> Forall (within k) pts -> (zlen pts + 8) * 2 ^ k <= 2 ^ 22 -> k + 8 <= 2 * n -> 2 ^ (n + 1) - 1 <= Z.of_nat fuel ->
  exists mc, new_multicurve_t fuel typ pts len = Ok mc.
Proof.
  intros typ pts len k n fuel NE HA HC K F L HN HF. set (m := Z.to_nat n). assert (Em : n = Z.of_nat m) by (unfold m; lia).
  assert (P : 2 ^ n = Z.of_nat (2 ^ m)) by (rewrite Em, Nat2Z.inj_pow; reflexivity). rewrite Z.pow_add_r, P in HF by lia. change (2 ^ 1) with 2 in HF.
  pose proof (Nat.pow_nonzero 2 m ltac:(lia)) as N2.
  destruct (bezier_sized k m pts ltac:(split; [exact K|]; split; [exact F|]; split; [exact L|lia]) (length pts) 0%nat 0%nat ltac:(lia)) as (bl & _ & EB). specialize (EB fuel ltac:(lia)).
  change (process_bezier_loop fuel (length pts) pts 0 0) with (process_bezier fuel pts) in EB.
  assert (C : exists ls, curve_lines fuel typ pts = Ok ls).
  { unfold curve_lines. destruct (str_eqb typ (lit "P")) eqn:EP.
    - apply str_eqb_eq in EP. unfold process_perfect. destruct pts as [|a [|b [|c [|d r]]]]; try (eexists; reflexivity); [|eauto].
      destruct (is_straight a b c) eqn:ES; [eexists; reflexivity|]. destruct fuel as [|f]; [lia|]. apply (arc_returns f a b c HA). apply HC; auto.
    - destruct (str_eqb typ (lit "L")); [eexists; reflexivity|]. destruct (str_eqb typ (lit "B")); [eauto|]. destruct (str_eqb typ (lit "C")); eexists; reflexivity. }
  destruct C as (ls & E). unfold new_multicurve_t, new_multicurve. rewrite E. cbn [bind]. destruct pts as [|p r]; [congruence|]. eexists. reflexivity.
Qed.
(** So it is for every slider of a parsed map. *)
Theorem C107_parsed : forall fuel ls b hr, parse_lines fuel ls = Ok (Some b) -> section_rows ls "HitObjects" hr ->
  exists played, Permutation (filter is_object hr) played /\
    Forall2 (fun fs o => type_of fs = TSlider -> exists sd typ texts pts, ho_kind o = KSlider sd /\
      barred (field 5 fs) (typ :: texts) /\ Forall2 point_text texts pts /\
      few_lines typ (mkVec (parse_f32 (field 0 fs)) (parse_f32 (field 1 fs)) :: pts) (zlen (mc_lines (sl_curve sd)))) played (bm_HitObjects b).
Proof.
  intros fuel ls b hr H Hh. destruct (C73_rows fuel ls b hr H Hh) as (pl & P & F & _). exists pl. split; [exact P|].
  eapply F2_impl; [|exact F]. intros fs o (_ & G) T. destruct (G T) as (sd & typ & texts & pts & es & K & B & F2 & E & _).
  exists sd, typ, texts, pts. split; [exact K|]. split; [exact B|]. split; [exact F2|]. exact (C107_curve _ _ _ _ _ E).
Qed.
End WithLibm.

(** ** Concrete cases *)
(** an arch of 4096 by 8192 pixels: at most 2047 rounds and 2049 points *)
Example C107_instance : arch <> [] /\ Forall (within 12) arch /\ (zlen arch + 8) * 2 ^ 12 <= 2 ^ 22 /\ 12 + 8 <= 2 * 10 /\
  (forall M : libm, match create_bezier 2047 arch with Ok l => Some (zlen l) | _ => None end = Some 513).
Proof.
  split; [discriminate|]. split; [apply inside_ok; vm_compute; reflexivity|]. split; [vm_compute; discriminate|]. split; [lia|].
  intros M. vm_compute. reflexivity.
Qed.
Example C107_instance_curve : tame_arc (lit "B") arch /\ @atan2_range zero_libm /\
  (match @new_multicurve_t zero_libm 2047 (lit "B") arch (fq 5000 1) with Ok mc => zlen (mc_lines mc) | _ => 0 end = 286) /\
  (match @new_multicurve_t zero_libm 1 (lit "L") arch (fq 15000 1) with Ok mc => zlen (mc_lines mc) | _ => 0 end = 2) /\
  (match @new_multicurve_t zero_libm 1 (lit "C") arch (fq 1 1) with Ok mc => zlen (mc_lines mc) | _ => 0 end = 1).
Proof.
  split; [intros a b c E; discriminate E|]. split; [apply PropSafety.C23_instance|]. split; [vm_compute; reflexivity|]. split; vm_compute; reflexivity.
Qed.
Example C107_parsed_instance : match @parse_lines zero_libm 2047 curvy_map with
  | Ok (Some b) => map (fun o => match ho_kind o with KSlider sd => zlen (mc_lines (sl_curve sd)) | _ => 0 end) (bm_HitObjects b)
  | _ => [] end = [0; 39; 28; 2; 59; 78; 0].
Proof. vm_compute. reflexivity. Qed.

Print Assumptions C107_bezier.
Print Assumptions C107_curve.
Print Assumptions C107_budget.
Print Assumptions C107_parsed.

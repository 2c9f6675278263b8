(** C114.  A map with sliders, written down as a file, is read back as it was. *)
From Coq Require Import Reals Lra Permutation Sorted.
From Flocq Require Import Core BinarySingleNaN.
From Verif Require Import Parser SpecNumbers SpecParser SpecSpace SpecText SpecTiming SpecCurves SpecSafety SpecTerm SpecLength SpecSheet BaseLemmas StringLemmas TextProofs FloatLemmas Float32Lemmas KeyLemmas LengthProofs SizeProofs.
From Verif Require Import PropSpace PropNumbers PropText PropParser PropSafety PropLength PropTerm SheetProofs SheetBlocks SheetRead PropSheet.
Open Scope Z_scope.

(** SliderMultiplier and SliderTickRate from 1/16 to 16. *)
Definition usual (l : literal) : Prop := (1 / 16 <= value l <= 16)%R.
(** Sliders of straight lines in a field of 4096 by 4096 pixels. *)
Definition straight (n : note) : Prop :=
  match nt_shape n with
  | Slide c ps k l => c = "L"%char /\ (length ps < 1000)%nat /\ (1 / 16 <= value l <= 8388608)%R /\
      Forall (fun p => dec (fst p) < 4096 /\ dec (snd p) < 4096) ((nt_x n, nt_y n) :: ps)
  | _ => True
  end.

Lemma between l (a b : f64) : SpecNumbers.well_formed l -> is_finite a = true -> is_finite b = true -> (B2R a <= value l <= B2R b)%R ->
  fle a (parse_f64 (written l)) = true /\ fle (parse_f64 (written l)) b = true /\ is_finite (parse_f64 (written l)) = true /\ (B2R a <= B2R (parse_f64 (written l)) <= B2R b)%R.
Proof.
  intros W FA FB (L1 & L2). pose proof (C72_f64 l W) as H. unfold nearest_float in H. cbv zeta in H. set (r := round _ _ _ _) in *. set (x := parse_f64 (written l)) in *. clearbody x.
  assert (R1 : (B2R a <= r)%R) by (apply (round_ge_generic radix2 (FLT_exp (3 - 1024 - 53) 53) ZnearestE); [apply generic_format_B2R|exact L1]).
  assert (R2 : (r <= B2R b)%R) by (apply (round_le_generic radix2 (FLT_exp (3 - 1024 - 53) 53) ZnearestE); [apply generic_format_B2R|exact L2]).
  destruct H as [(_ & F & E & _)|(L & _)].
  - rewrite <- E in R1, R2. unfold fle. rewrite !Bleb_correct by assumption. split; [now apply Rle_bool_true|]. split; [now apply Rle_bool_true|]. split; [exact F|split; assumption].
  - exfalso. pose proof (abs_B2R_lt_emax _ _ a) as A. pose proof (abs_B2R_lt_emax _ _ b) as B. revert L. apply Rlt_not_le. apply Rabs_lt. apply Rabs_lt_inv in A, B. lra.
Qed.
Lemma sixteenth : is_finite (fq 1 16) = true /\ B2R (fq 1 16) = (1 / 16)%R.
Proof. split; [vm_compute; reflexivity|bval (fq 1 16); lra]. Qed.
Lemma limit40 : is_finite (gq (2 ^ 40) 1) = true /\ B2R (gq (2 ^ 40) 1) = 1099511627776%R.
Proof. split; [vm_compute; reflexivity|bval (gq (2 ^ 40) 1); lra]. Qed.
Lemma usual_moderate l : SpecNumbers.well_formed l -> usual l -> moderate (parse_f64 (written l)).
Proof.
  intros W U. pose proof sixteenth as A.
  destruct A as (A1 & A2). destruct (fq1_exact 16) as (B1 & B2); [lia|]. destruct (between l (fq 1 16) (fq 16 1) W A1 B1) as (H1 & H2 & _); [rewrite A2, B2; exact U|]. now split.
Qed.
Lemma settings_same ls sec a b : settings ls sec a -> settings ls sec b -> a = b.
Proof. rewrite !settings_iff. congruence. Qed.
Lemma rows_same ls sec a b : section_rows ls sec a -> section_rows ls sec b -> a = b.
Proof. rewrite !section_rows_iff. congruence. Qed.
Lemma events_none s : sheet_ok s -> section_rows (sheet_lines s) "Events" [].
Proof. intros OK. apply section_rows_iff. rewrite (sheet_sections s OK), !body_app, !body_block. repeat match goal with |- context [str_eqb (lit ?a) (lit ?b)] => let v := eval vm_compute in (str_eqb (lit a) (lit b)) in change (str_eqb (lit a) (lit b)) with v end. reflexivity. Qed.
Lemma pair_colon p : In ":"%char (pair_text p).
Proof. unfold pair_text. apply in_or_app. right. now left. Qed.
Lemma note_object_ok n : note_ok n -> object_ok (note_fields n).
Proof.
  intros OK. unfold object_ok. rewrite (note_type n OK). destruct (note_field n OK) as (_ & _ & _ & E & _). pose proof OK as (_ & _ & _ & S). destruct (nt_shape n) as [|e|c ps k l] eqn:SH.
  - unfold note_fields. rewrite SH. cbn. lia.
  - unfold note_fields. rewrite SH. cbn. lia.
  - destruct E as (E5 & E6 & E7 & E8). destruct S as (C & P & (K1 & K2 & K3) & W). split; [lia|]. rewrite E5, E6. split; [|split; [|lia]].
    + unfold bars. rewrite (path_bars c ps C P). cbn [tl]. apply Forall_map. apply Forall_forall. intros p _. apply pair_colon.
    + rewrite show_int by (split; [exact K1|split; [exact K2|lia]]). pose proof (dec_pos k K1). lia.
Qed.
Lemma sheet_rows s : sheet_ok s -> rows_ok (sheet_lines s).
Proof.
  intros OK. split; intros r R.
  - rewrite (rows_same _ _ _ _ R (events_none s OK)). constructor.
  - rewrite (rows_same _ _ _ _ R (objects_of s OK)). destruct OK as (_ & _ & _ & _ & _ & _ & _ & _ & _ & _ & _ & _ & _ & _ & NT & _). apply Forall_map. eapply Forall_impl; [|exact NT]. apply note_object_ok.
Qed.
Lemma sheet_rates s : sheet_ok s -> usual (sh_speed s) -> usual (sh_ticks s) -> rates_ok (sheet_lines s).
Proof.
  intros OK U1 U2 ds D. rewrite (settings_same _ _ _ _ D (difficulty_of s OK)). destruct OK as (_ & _ & _ & _ & _ & _ & _ & _ & _ & _ & SP & TK & _).
  split; [exact (usual_moderate _ SP U1)|exact (usual_moderate _ TK U2)].
Qed.

Section WithLibm.
Context {M : libm}.
(** Reading the file of a map whose sliders are tame ends, with the map. *)
Theorem C114_round_trip : forall s, atan2_range -> sheet_ok s -> usual (sh_speed s) -> usual (sh_ticks s) -> sliders_tame (sheet_lines s) ->
  exists b, settles_on (fun fuel => parse_bytes fuel (file_of s)) (Some b) /\ reproduces s b.
Proof.
  intros s HA OK U1 U2 T. destruct (C63_lines (sheet_lines s) HA (sheet_rows s OK) T (sheet_rates s OK U1 U2)) as (r & n & E).
  destruct (read_back n s r OK (E n (le_n n))) as (b & -> & H). exists b. split; [|exact H]. exists n. intros m L. rewrite (sheet_text m s OK). now apply E.
Qed.
(** However the sliders are, a result is the map. *)
Theorem C114_result : forall fuel s r, sheet_ok s -> parse_bytes fuel (file_of s) = Ok r -> exists b, r = Some b /\ reproduces s b.
Proof. intros fuel s r OK R. rewrite (sheet_text fuel s OK) in R. exact (read_back fuel s r OK R). Qed.

(** ** Straight sliders are tame *)
Definition vec_of (p : list Z * list Z) : vec := mkVec (parse_f32 (show (fst p))) (parse_f32 (show (snd p))).
Definition in_field (p : list Z * list Z) : Prop := (natural (fst p) (2 ^ 24) /\ natural (snd p) (2 ^ 24)) /\ dec (fst p) < 4096 /\ dec (snd p) < 4096.
Lemma control_pair p : natural (fst p) (2 ^ 24) -> natural (snd p) (2 ^ 24) -> control_point (pair_text p) = vec_of p.
Proof.
  intros (P & _) (Q & _). unfold control_point, pair_text. assert (NC : forall ds, digits ds -> ~ In ":"%char (show ds)) by (intros ds D; apply show_without; [exact D|vm_compute; intros [? ?]; auto]).
  rewrite split_app by (now apply NC). rewrite split_single by (now apply NC). reflexivity.
Qed.
Lemma field_vec p : in_field p -> is_finite (vx (vec_of p)) = true /\ is_finite (vy (vec_of p)) = true /\ B2R (vx (vec_of p)) = IZR (dec (fst p)) /\ B2R (vy (vec_of p)) = IZR (dec (snd p)) /\
  (0 <= IZR (dec (fst p)) <= 4096)%R /\ (0 <= IZR (dec (snd p)) <= 4096)%R.
Proof.
  intros ((P & Q) & B1 & B2). destruct (show_f32 _ P) as (F1 & E1). destruct (show_f32 _ Q) as (F2 & E2). cbn [vec_of vx vy]. repeat (split; [assumption|]). destruct P as (P & _), Q as (Q & _). pose proof (dec_pos _ P). pose proof (dec_pos _ Q).
  split; split; apply IZR_le; lia.
Qed.
Lemma field_within p : in_field p -> within 23 (vec_of p).
Proof.
  intros H. destruct (field_vec p H) as (F1 & F2 & E1 & E2 & B1 & B2). change (bpow radix2 23) with 8388608%R. unfold within. rewrite E1, E2. change (bpow radix2 23) with 8388608%R. split; (split; [assumption|rewrite Rabs_pos_eq; lra]).
Qed.
Lemma gap_field p q : in_field p -> in_field q -> (gap (mkLinear (vec_of p) (vec_of q)) <= 8192)%R.
Proof.
  intros P Q. destruct (field_vec p P) as (_ & _ & E1 & E2 & B1 & B2). destruct (field_vec q Q) as (_ & _ & E3 & E4 & B3 & B4). unfold gap. cbn [ln_p1 ln_p2]. rewrite E1, E2, E3, E4.
  rewrite <- (sqrt_pow2 8192) by lra. apply sqrt_le_1_alt. assert (S : forall u v, (0 <= u <= 4096 -> 0 <= v <= 4096 -> (u - v) ^ 2 <= 4096 ^ 2)%R) by (intros u v A B; assert (-4096 <= u - v <= 4096)%R by lra; nra).
  pose proof (S _ _ B3 B1). pose proof (S _ _ B4 B2). lra.
Qed.
Lemma path_field ps : forall p, in_field p -> Forall in_field ps -> (path_length (process_linear (map vec_of (p :: ps))) <= 8192 * INR (length ps))%R.
Proof.
  induction ps as [|q ps IH]; intros p P F; [cbn [map process_linear path_length length INR]; lra|]. inversion F as [|? ? Q F']; subst. specialize (IH q Q F'). pose proof (gap_field p q P Q) as G.
  change (map vec_of (p :: q :: ps)) with (vec_of p :: vec_of q :: map vec_of ps). change (map vec_of (q :: ps)) with (vec_of q :: map vec_of ps) in IH. change (length (q :: ps)) with (S (length ps)). rewrite S_INR.
  change (process_linear (vec_of p :: vec_of q :: map vec_of ps)) with (if vec_eqb (vec_of p) (vec_of q) then process_linear (vec_of q :: map vec_of ps) else mkLinear (vec_of p) (vec_of q) :: process_linear (vec_of q :: map vec_of ps)).
  destruct (vec_eqb _ _); [lra|]. cbn [path_length]. lra.
Qed.
Lemma straight_tame n : note_ok n -> straight n -> type_of (note_fields n) = TSlider -> slider_tame (note_fields n).
Proof.
  intros OK ST T. rewrite (note_type n OK) in T. destruct (note_field n OK) as (E0 & E1 & _ & E & _). pose proof OK as (X & Y & _ & S). unfold straight in ST. destruct (nt_shape n) as [|e|c ps k l] eqn:SH; try discriminate T. clear T.
  destruct E as (E5 & E6 & E7 & E8). destruct S as (C & P & _ & W). destruct ST as (-> & LEN & V & FD).
  assert (RT : row_type (note_fields n) = lit "L") by (unfold row_type, bars; rewrite E5, (path_bars _ ps C P); reflexivity).
  assert (SP : slider_points (note_fields n) = map vec_of ((nt_x n, nt_y n) :: ps)).
  { unfold slider_points, bars. rewrite E0, E1, E5, (path_bars _ ps C P). cbn [tl map]. f_equal. rewrite map_map. apply map_ext_in. intros p I. rewrite Forall_forall in P. destruct (P p I). now apply control_pair. }
  assert (IN : Forall in_field ((nt_x n, nt_y n) :: ps)).
  { apply Forall_forall. intros p I. rewrite Forall_forall in FD. split; [|now apply FD]. destruct I as [<-|I]; [split; assumption|]. rewrite Forall_forall in P. now apply P. }
  unfold slider_tame, row_curve. rewrite RT, SP, E7. split; [|split; [|split]].
  - intros [U|(U & _)]; discriminate U.
  - intros a b d U. discriminate U.
  - pose proof sixteenth as A. destruct A as (A1 & A2). destruct (fq1_exact 8388608) as (B1 & B2); [lia|].
    destruct (between l (fq 1 16) (fq 8388608 1) W A1 B1) as (_ & _ & F & L & _); [rewrite A2, B2; exact V|]. unfold flt. rewrite Bltb_correct by assumption. apply Rlt_bool_false. exact L.
  - intros fuel mc E. destruct (fq1_exact 8388608) as (B1 & B2); [lia|]. destruct (between l f0 (fq 8388608 1) W eq_refl B1) as (_ & _ & F & L); [rewrite B2; change (B2R f0) with 0%R; lra|]. change (B2R f0) with 0%R in L. rewrite B2 in L.
    set (pts := map vec_of ((nt_x n, nt_y n) :: ps)) in *. set (len := parse_f64 (written l)) in *. clearbody len.
    destruct (process_linear pts) as [|ln lns] eqn:PL.
    + assert (NM : new_multicurve fuel (lit "L") pts = Ok (finish_curve [] (vec_of (nt_x n, nt_y n)))) by (unfold new_multicurve; change (curve_lines fuel (lit "L") pts) with (Ok (process_linear pts)); rewrite PL; reflexivity).
      unfold new_multicurve_t in E. rewrite NM in E. cbn [bind] in E. change (ggt (mc_length (finish_curve [] (vec_of (nt_x n, nt_y n)))) g0) with false in E. cbv iota in E. apply CurveStart.Ok_inj in E. subst mc. reflexivity.
    + assert (INW : (INR (length ps) <= 999)%R) by (replace 999%R with (INR 999) by (simpl; lra); apply le_INR; lia). pose proof (pos_INR (length ps)) as POS.
      assert (PF : (path_length (process_linear pts) <= 8192 * INR (length ps))%R) by (inversion IN; subst; now apply path_field).
      destruct (C64_linear fuel pts len 23) as (mc' & E' & FM & LM & _); [lia| | | | | |exact F| |].
      * apply Forall_map. eapply Forall_impl; [|exact IN]. apply field_within.
      * apply Forall_map. eapply Forall_impl; [|exact IN]. intros p Q. destruct (field_vec p Q) as (_ & _ & Q1 & Q2 & _). exists (dec (fst p)), (dec (snd p)). split; [exact Q1|exact Q2].
      * unfold pts. rewrite map_length. cbn [length]. lia.
      * rewrite PL. discriminate.
      * change (bpow radix2 23) with 8388608%R. lra.
      * change (bpow radix2 23) with 8388608%R. exact L.
      * rewrite E in E'. apply CurveStart.Ok_inj in E'. subst mc'.
        assert (LE : (length_error 23 (length (process_linear pts)) <= 4096)%R).
        { assert (LL : (INR (length (process_linear pts)) <= 1000)%R).
          { replace 1000%R with (INR 1000) by (simpl; lra). apply le_INR. pose proof (SizeProofs.linear_size pts) as Q. unfold pts in Q at 2. rewrite map_length in Q. cbn [length] in Q. lia. }
          unfold length_error. change (bpow radix2 (23 - 22)) with 2%R. assert (SM : (bpow radix2 (-13) <= bpow radix2 0)%R) by (apply bpow_le; lia). change (bpow radix2 0) with 1%R in SM. lra. }
        apply Rabs_le_inv in LM. unfold ggt. rewrite Bltb_correct by (exact FM || exact (proj1 limit40)). apply Rlt_bool_false.
        rewrite (proj2 limit40). lra.
Qed.
Theorem C114_straight : forall s, sheet_ok s -> Forall straight (sh_notes s) -> sliders_tame (sheet_lines s).
Proof.
  intros s OK ST r fs R I T. rewrite (rows_same _ _ _ _ R (objects_of s OK)) in I. apply in_map_iff in I as (n & <- & I). destruct OK as (_ & _ & _ & _ & _ & _ & _ & _ & _ & _ & _ & _ & _ & _ & NT & _). rewrite Forall_forall in NT, ST. apply straight_tame; auto.
Qed.
End WithLibm.

(** ** Concrete cases *)
(** Two straight sliders, one of them coming back twice. *)
Definition lined : sheet :=
  {| sh_version := [1; 4]; sh_leniency := L [0] (Some [7]); sh_title := lit "Lines"; sh_artist := []; sh_creator := [];
     sh_hp := L [5] None; sh_cs := L [4] None; sh_od := L [8] None; sh_ar := L [9] None; sh_speed := L [1] (Some [4]); sh_ticks := L [2] None;
     sh_tempos := [mkTempo [1; 0] (L [3; 0; 0] None) false];
     sh_notes := [mkNote [2; 0; 0] [1; 0; 0] [2; 0; 0; 0] true (Slide "L" [([3; 0; 0], [1; 5; 0]); ([3; 0; 0], [2; 5; 0])] [3] (L [1; 4; 0] (Some [5])));
                  mkNote [1; 0; 0] [1; 0; 0] [1; 0; 0; 0] false Circle; mkNote [0] [0] [5; 0; 0; 0] false (Slide "L" [([0], [0; 9; 0])] [1] (L [8; 0] None))] |}.
(** The same with a Bezier slider and an arc. *)
Definition curved : sheet :=
  {| sh_version := [1; 4]; sh_leniency := L [0] (Some [7]); sh_title := lit "Lines"; sh_artist := []; sh_creator := [];
     sh_hp := L [5] None; sh_cs := L [4] None; sh_od := L [8] None; sh_ar := L [9] None; sh_speed := L [1] (Some [4]); sh_ticks := L [2] None;
     sh_tempos := [mkTempo [1; 0] (L [3; 0; 0] None) false];
     sh_notes := [mkNote [0] [0] [1; 0; 0; 0] false (Slide "B" [([1; 0; 0], [3; 0; 0]); ([1; 0; 0], [3; 0; 0]); ([2; 0; 0], [0]); ([3; 0; 0], [2; 0; 0])] [1] (L [5; 0; 0] None));
                  mkNote [2; 0; 0] [1; 0; 0] [9; 0; 0] true (Slide "P" [([2; 5; 0], [1; 5; 0]); ([3; 0; 0], [1; 0; 0])] [2] (L [1; 4; 0] None))] |}.
Lemma lit_name s : trim_space (lit s) = lit s -> forallb (fun c => (byte_of c <? 128) && negb (byte_of c =? 10)) (lit s) = true -> name_ok (lit s).
Proof.
  intros T F. rewrite forallb_forall in F. apply name_ok_b; [exact T| |].
  - apply forallb_forall. intros c I. specialize (F c I). apply andb_true_iff in F. apply F.
  - apply ascii_well. apply Forall_forall. intros c I. specialize (F c I). apply andb_true_iff in F as [F _]. now apply Z.ltb_lt.
Qed.
Ltac sheet_by := 
  split; [apply natural_ok; reflexivity|]; split; [apply fixed_ok; [reflexivity|discriminate]|]; split; [apply lit_name; [vm_compute; reflexivity|reflexivity]|]; split; [apply (lit_name ""); [vm_compute; reflexivity|reflexivity]|];
  split; [apply (lit_name ""); [vm_compute; reflexivity|reflexivity]|]; split; [discriminate|];
  split; [split; [apply fixed_ok; [reflexivity|discriminate]|level_in]|]; split; [split; [apply fixed_ok; [reflexivity|discriminate]|level_in]|]; split; [split; [apply fixed_ok; [reflexivity|discriminate]|level_in]|]; split; [split; [apply fixed_ok; [reflexivity|discriminate]|level_in]|];
  split; [apply fixed_ok; [reflexivity|discriminate]|]; split; [apply fixed_ok; [reflexivity|discriminate]|]; split; [discriminate|]; split; [constructor; [split; [apply natural_ok; reflexivity|apply fixed_ok; [reflexivity|discriminate]]|constructor]|];
  split; [repeat (constructor; [split; [apply natural_ok; reflexivity|split; [apply natural_ok; reflexivity|split; [apply natural_ok; reflexivity|
    first [exact I|split; [cbn; tauto|split; [repeat (constructor; [split; apply natural_ok; reflexivity|]); constructor|split; [apply natural_ok; reflexivity|apply fixed_ok; [reflexivity|discriminate]]]]]]]]|]); constructor|];
  apply Forall_forall; intros l I; apply Z.ltb_lt; revert l I; apply forallb_forall; vm_compute; reflexivity.
Example C114_instance : sheet_ok lined /\ Forall straight (sh_notes lined) /\ usual (sh_speed lined) /\ usual (sh_ticks lined) /\ @atan2_range zero_libm /\
  nth 22 (sheet_lines lined) [] = lit "200,100,2000,6,0,L|300:150|300:250,3,140.5".
Proof.
  split; [sheet_by|]. split.
  - constructor; [|constructor; [exact I|constructor; [|constructor]]]; (split; [reflexivity|]; split; [cbn; lia|]; split; [level_in|]; repeat (constructor; [split; reflexivity|]); constructor).
  - split; [unfold usual; level_in|]. split; [unfold usual; level_in|]. split; [apply PropSafety.C23_instance|reflexivity].
Qed.
Example C114_instance_curved : sheet_ok curved /\ @sliders_tame zero_libm (sheet_lines curved) /\ nth 22 (sheet_lines curved) [] = lit "0,0,1000,2,0,B|100:300|100:300|200:0|300:200,1,500".
Proof.
  assert (OK : sheet_ok curved) by sheet_by. split; [exact OK|]. split; [|reflexivity]. intros r fs R J _. rewrite (rows_same _ _ _ _ R (objects_of _ OK)) in J. apply tame_check_ok. revert fs J. apply forallb_forall. vm_compute. reflexivity.
Qed.

Print Assumptions C114_round_trip.
Print Assumptions C114_result.
Print Assumptions C114_straight.

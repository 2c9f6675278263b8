(** C113.  A map written down as a file is read back as it was. *)
From Coq Require Import Reals Lra Permutation Sorted.
From Flocq Require Import Core BinarySingleNaN.
From Verif Require Import Parser SpecNumbers SpecParser SpecSpace SpecText SpecTiming SpecSheet BaseLemmas StringLemmas TextProofs.
From Verif Require Import PropSpace PropNumbers PropText PropParser SheetProofs SheetBlocks SheetRead.
Open Scope Z_scope.

Section WithLibm.
Context {M : libm}.
(** Whatever the map of circles and spinners, writing it down and reading the file gives it back. *)
Theorem C113_round_trip : forall fuel s, sheet_ok s -> Forall (fun n => is_slide n = false) (sh_notes s) ->
  exists b, parse_bytes fuel (file_of s) = Ok (Some b) /\ reproduces s b.
Proof.
  intros fuel s OK NS. destruct (sheet_reads fuel s OK NS) as (r & R). destruct (read_back fuel s r OK R) as (b & -> & H). exists b. rewrite (sheet_text fuel s OK). split; [exact R|exact H].
Qed.
(** Notes written in order are played as written, and the order is always determined. *)
Theorem C113_order : (forall file a b, by_time file a -> by_time file b -> a = b) /\ (forall file, StronglySorted earlier file -> by_time file file).
Proof.
  split; [|intros file S; split; [apply Permutation_refl|split; [exact S|reflexivity]]].
  intros file a b (_ & SA & FA) (_ & SB & FB). assert (F : forall t, filter (fun n => dec (nt_time n) =? t) a = filter (fun n => dec (nt_time n) =? t) b) by (intros t; now rewrite FA, FB). clear file FA FB.
  revert b SB F. induction SA as [|x a SA IH HA]; intros b SB F.
  - destruct b as [|y b]; [reflexivity|]. specialize (F (dec (nt_time y))). cbn [filter] in F. rewrite Z.eqb_refl in F. discriminate F.
  - destruct b as [|y b]; [specialize (F (dec (nt_time x))); cbn [filter] in F; rewrite Z.eqb_refl in F; discriminate F|]. inversion SB as [|? ? SB' HB]; subst.
    assert (L1 : dec (nt_time y) <= dec (nt_time x)).
    { assert (I : In x (y :: b)). { assert (X : In x (filter (fun n => dec (nt_time n) =? dec (nt_time x)) (x :: a))) by (cbn [filter]; rewrite Z.eqb_refl; now left). rewrite F in X. now apply filter_In in X. }
      destruct I as [<-|I]; [lia|]. rewrite Forall_forall in HB. exact (HB x I). }
    assert (L2 : dec (nt_time x) <= dec (nt_time y)).
    { assert (I : In y (x :: a)). { assert (X : In y (filter (fun n => dec (nt_time n) =? dec (nt_time y)) (y :: b))) by (cbn [filter]; rewrite Z.eqb_refl; now left). rewrite <- F in X. now apply filter_In in X. }
      destruct I as [<-|I]; [lia|]. rewrite Forall_forall in HA. exact (HA y I). }
    assert (E : dec (nt_time x) = dec (nt_time y)) by lia. assert (XY : x = y). { specialize (F (dec (nt_time x))). cbn [filter] in F. rewrite <- E, Z.eqb_refl in F. congruence. } subst y.
    f_equal. apply IH; [exact SB'|]. intros t. specialize (F t). cbn [filter] in F. destruct (dec (nt_time x) =? t); [congruence|exact F].
Qed.
(** With a byte order mark and Windows line ends the file reads the same. *)
Theorem C113_windows : forall fuel s, sheet_ok s -> Forall (fun l => zlen l < 10485759) (sheet_lines s) ->
  parse_bytes fuel (mark8 ++ concat (map (fun l => l ++ [carriage; newline]) (sheet_lines s))) = parse_bytes fuel (file_of s).
Proof.
  intros fuel s OK LEN. rewrite (sheet_text fuel s OK). pose proof (sheet_tidy s OK) as T. unfold parse_bytes. change (decode_text (mark8 ++ ?t)) with t.
  pose proof (C56_lines (map (fun l => (l, true)) (sheet_lines s))) as C. rewrite !map_map in C. cbn [fst] in C. rewrite map_id in C.
  assert (E2 : concat (map (fun x : str => ended (x, true) ++ [newline]) (sheet_lines s)) = concat (map (fun l => l ++ [carriage; newline]) (sheet_lines s))).
  { f_equal. apply map_ext. intros l. unfold ended. cbn [fst snd]. now rewrite <- app_assoc. }
  rewrite E2 in C. apply C. apply Forall_map. rewrite Forall_forall in *. intros l I. destruct (T l I) as (T1 & T2 & _). cbn [fst snd]. split; [exact T1|].
  split; [unfold ended, zlen in *; cbn [fst snd]; rewrite app_length; cbn [length]; specialize (LEN l I); cbv beta in LEN; lia|discriminate].
Qed.
End WithLibm.

(** ** A concrete case *)
(** Two circles and a spinner, written out of order. *)
Definition L (ds : list Z) (f : option (list Z)) : literal := mkLit Unsigned ds f None.
Definition paper : sheet :=
  {| sh_version := [1; 4]; sh_leniency := L [0] (Some [7]); sh_title := lit "Two  words: [x]"; sh_artist := []; sh_creator := SpecSpace.utf8 233 ++ lit "a";
     sh_hp := L [5] None; sh_cs := L [4] None; sh_od := L [] (Some [8; 5]); sh_ar := L [9] (Some []); sh_speed := L [1] (Some [4]); sh_ticks := L [1] None;
     sh_tempos := [mkTempo [1; 0] (mkLit Unsigned [3] (Some [3; 3]) (Some (false, Plus, [2]))) false; mkTempo [5; 0; 0; 0] (L [4; 0; 0] None) false];
     sh_notes := [mkNote [2; 0; 0] [1; 0; 0] [2; 0; 0; 0] true Circle; mkNote [2; 5; 6] [1; 9; 2] [0; 9; 0; 0] false (Spin [1; 5; 0; 0]); mkNote [5; 1; 2] [0] [2; 0; 0; 0] false Circle] |}.
Lemma name_ok_b t : trim_space t = t -> forallb (fun c => negb (byte_of c =? 10)) t = true -> SpecText.well_formed t -> name_ok t.
Proof.
  intros T N W. split; [apply C111_trim in T; apply T|]. split; [|exact W]. intros I. rewrite forallb_forall in N. specialize (N _ I). vm_compute in N. discriminate N.
Qed.
Lemma fixed_ok ds f : forallb (fun d => (0 <=? d) && (d <=? 9)) (ds ++ match f with None => [] | Some f => f end) = true -> ds ++ match f with None => [] | Some f => f end <> [] -> SpecNumbers.well_formed (L ds f).
Proof.
  intros H N. split; [|split; [exact N|exact I]]. apply Forall_forall. intros d D. rewrite forallb_forall in H. specialize (H d D). apply andb_true_iff in H as [H1 H2]. apply Z.leb_le in H1, H2. lia.
Qed.
Lemma natural_ok ds b : forallb (fun d => (0 <=? d) && (d <=? 9)) ds && negb (match ds with [] => true | _ => false end) && (dec ds <? b) = true -> natural ds b.
Proof.
  intros H. apply andb_true_iff in H as [H H3]. apply andb_true_iff in H as [H1 H2]. split; [|split; [now destruct ds|now apply Z.ltb_lt]]. apply Forall_forall. intros d D. rewrite forallb_forall in H1. specialize (H1 d D). apply andb_true_iff in H1 as [A B]. apply Z.leb_le in A, B. lia.
Qed.
Ltac level_in := unfold value; match goal with |- context [powerRZ 10 ?e] => let v := eval vm_compute in e in change e with v end; match goal with |- context [IZR (signed ?a ?b)] => let v := eval vm_compute in (signed a b) in change (signed a b) with v end; unfold powerRZ; match goal with |- context [Pos.to_nat ?p] => let v := eval vm_compute in (Pos.to_nat p) in change (Pos.to_nat p) with v | _ => idtac end; cbn [pow]; lra.
Example C113_instance : (sheet_ok paper /\ Forall (fun n => is_slide n = false) (sh_notes paper)) /\ by_time (sh_notes paper) [mkNote [2; 5; 6] [1; 9; 2] [0; 9; 0; 0] false (Spin [1; 5; 0; 0]); mkNote [2; 0; 0] [1; 0; 0] [2; 0; 0; 0] true Circle; mkNote [5; 1; 2] [0] [2; 0; 0; 0] false Circle] /\
  nth 23 (sheet_lines paper) [] = lit "200,100,2000,5,0" /\ nth 24 (sheet_lines paper) [] = lit "256,192,0900,8,0,1500".
Proof.
  split; [|split; [|split; reflexivity]].
  - split; [|repeat constructor]. assert (N : forall ds b, forallb (fun d => (0 <=? d) && (d <=? 9)) ds && negb (match ds with [] => true | _ => false end) && (dec ds <? b) = true -> natural ds b) by exact natural_ok.
    split; [apply N; reflexivity|]. split; [apply fixed_ok; [reflexivity|discriminate]|]. split; [apply name_ok_b; [vm_compute; reflexivity|reflexivity|apply ascii_well; repeat constructor]|].
    split; [apply name_ok_b; [vm_compute; reflexivity|reflexivity|exists []; split; [constructor|reflexivity]]|].
    split; [apply name_ok_b; [vm_compute; reflexivity|reflexivity|exists [SpecSpace.utf8 233; lit "a"]; split; [constructor; [apply SpecMods.U2; split; vm_compute; discriminate|constructor; [apply SpecMods.U1; split; vm_compute; discriminate|constructor]]|reflexivity]]|].
    split; [discriminate|]. assert (LV : forall ds f, forallb (fun d => (0 <=? d) && (d <=? 9)) (ds ++ match f with None => [] | Some f => f end) = true -> ds ++ match f with None => [] | Some f => f end <> [] -> (0 <= value (L ds f) <= 10)%R -> level (L ds f)) by (intros ds f A B C; split; [now apply fixed_ok|exact C]).
    split; [apply LV; [reflexivity|discriminate|level_in]|]. split; [apply LV; [reflexivity|discriminate|level_in]|]. split; [apply LV; [reflexivity|discriminate|level_in]|]. split; [apply LV; [reflexivity|discriminate|level_in]|].
    split; [apply fixed_ok; [reflexivity|discriminate]|]. split; [apply fixed_ok; [reflexivity|discriminate]|]. split; [discriminate|]. split.
    + constructor; [split; [apply N; reflexivity|]|constructor; [split; [apply N; reflexivity|apply fixed_ok; [reflexivity|discriminate]]|constructor]].
      split; [repeat constructor; discriminate|]. split; [discriminate|]. split; [repeat constructor; discriminate|]. split; [discriminate|reflexivity].
    + split; [repeat (constructor; [split; [apply N; reflexivity|split; [apply N; reflexivity|split; [apply N; reflexivity|first [exact I|apply N; reflexivity]]]]|]); constructor|].
      apply Forall_forall. intros l I. apply Z.ltb_lt. revert l I. apply forallb_forall. vm_compute. reflexivity.
  - split; [apply perm_swap|]. split; [|intros t; cbn [filter sh_notes paper nt_time]; change (dec [0; 9; 0; 0]) with 900; change (dec [2; 0; 0; 0]) with 2000; destruct (Z.eqb_spec 900 t), (Z.eqb_spec 2000 t); try reflexivity; lia].
    repeat constructor; unfold earlier; vm_compute; discriminate.
Qed.
Example C113_windows_instance : Forall (fun l => zlen l < 10485759) (sheet_lines paper).
Proof. apply Forall_forall. intros l I. apply Z.ltb_lt. revert l I. apply forallb_forall. vm_compute. reflexivity. Qed.

Print Assumptions C113_round_trip.
Print Assumptions C113_order.
Print Assumptions C113_windows.

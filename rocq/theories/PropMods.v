(** Properties C01-C05: mods. *)
From Verif Require Import Mods SpecMods ModsProofs.
From Coq Require Import String List. Import ListNotations. Open Scope Z_scope.

(** C01.  Formatting and parsing back gives the same mods. *)
Theorem C01_mod_string_round_trip : forall m,
  defined_mods m -> implied_present m -> parse_mods (mods_string m) = Ok m.
Proof. exact roundtrip. Qed.
Print Assumptions C01_mod_string_round_trip.
(** HD+HR+DT+NC+PF+SD satisfies the hypotheses, and formats as expected. *)
Example C01_instance :
  let m := 8 + 16 + 64 + 512 + 16384 + 32 in
  defined_mods m /\ implied_present m /\ mods_string m = lit "HDHRNCPF" /\ parse_mods (lit "HDHRNCPF") = Ok m.
Proof. unfold defined_mods, implied_present, has; repeat split; vm_compute; congruence. Qed.

(** Without the implied mods the round trip fails (so the hypothesis is needed). *)
Example C01_hypothesis_needed : parse_mods (mods_string 512) = Ok (512 + 64).
Proof. vm_compute. reflexivity. Qed.

(** C02.  ParseMods panics exactly on texts of odd byte length whose last byte
    is a rune of its own; on every other text it returns a value. *)
Theorem C02_parse_mods_panics_iff : forall s,
  (parse_mods s = Panic <-> last_byte_alone s /\ Nat.odd (length s) = true) /\
  (parse_mods s <> Panic -> exists m, parse_mods s = Ok m).
Proof.
  intros s. destruct (parse_mods_outcome s) as [H1 H2]. split; [split|].
  - intros HP. destruct (Classical_Prop.classic (last_byte_alone s /\ Nat.odd (length s) = true)) as [H|H]; [exact H|].
    destruct (H2 H) as [m Hm]. congruence.
  - exact H1.
  - intros HP. apply H2. intros H. apply HP, H1, H.
Qed.
Print Assumptions C02_parse_mods_panics_iff.
Theorem C02_ascii_odd_panics : forall s,
  Forall (fun c => 0 <= byte_of c <= 127) s -> Nat.odd (length s) = true -> parse_mods s = Panic.
Proof.
  intros s HF Ho. apply C02_parse_mods_panics_iff. split; [|exact Ho].
  apply ascii_last_alone; [exact HF|]. intros ->. discriminate.
Qed.
Print Assumptions C02_ascii_odd_panics.
Example C02_instance_panic : parse_mods (lit "HDH") = Panic. Proof. reflexivity. Qed.
Example C02_instance_ok : parse_mods (lit "HDHR") = Ok 24. Proof. reflexivity. Qed.
(** a 3-byte rune: odd length, but the last byte is not a rune of its own *)
Example C02_instance_rune : exists m, parse_mods [chr 226; chr 130; chr 172] = Ok m.
Proof. eexists. vm_compute. reflexivity. Qed.

(** C03.  The result uses only defined bits and is closed under implication. *)
Theorem C03_parse_mods_closed : forall s m, parse_mods s = Ok m -> defined_mods m /\ implied_present m.
Proof. exact parse_closed. Qed.
Print Assumptions C03_parse_mods_closed.
(** A text made of known acronyms denotes the union of their values, so order
    and repetition do not matter. *)
Theorem C03_acronyms_denote_union : forall l,
  Forall (fun p => In p acronyms) l ->
  parse_mods (concat (map (fun p => lit (fst p)) l)) = Ok (fold_right Z.lor 0 (map snd l)).
Proof. exact parse_meaning. Qed.
Print Assumptions C03_acronyms_denote_union.
(** Order and repetition of any two-byte ASCII acronyms, known or not. *)
Theorem C03_order_and_repetition : forall l l' : list str,
  (forall x, In x l -> exists a b, x = [a; b] /\ byte_of a <= 127 /\ byte_of b <= 127) ->
  (forall x, In x l <-> In x l') ->
  parse_mods (concat l) = parse_mods (concat l').
Proof.
  intros l l' HA HE.
  assert (HB : forall x, In x l -> acro x).
  { intros x Hx. destruct (HA x Hx) as (a & b & -> & Ha & Hb). exists a, b.
    unfold ascii7. rewrite !in_rng_iff. unfold rng.
    pose proof (byte_of_range a). pose proof (byte_of_range b). repeat split; lia. }
  apply order_insensitive; [apply Forall_forall; exact HB| |exact HE].
  apply Forall_forall. intros x Hx. apply HB, HE, Hx.
Qed.
Print Assumptions C03_order_and_repetition.
Example C03_instance : parse_mods (lit "DTHDxxHD") = parse_mods (lit "HDxxDT") /\ parse_mods (lit "HDDT") = Ok 72.
Proof. split; reflexivity. Qed.
Example C03_instance_acronyms : Forall (fun p => In p acronyms) [("NC", 576); ("HD", 8)]%string.
Proof. repeat constructor; cbn [In acronyms]; tauto. Qed.

(** C04.  Compatible is false exactly on a documented conflict, hence is
    inherited by every sub-combination. *)
Theorem C04_compatible_iff : forall m,
  compatible m = false <-> has m bTG \/ exists a b, In (a, b) conflicts /\ has m a /\ has m b.
Proof. exact compatible_iff. Qed.
Print Assumptions C04_compatible_iff.
Theorem C04_compatible_downward : forall m m', subset m' m -> compatible m = true -> compatible m' = true.
Proof. exact compatible_down. Qed.
Print Assumptions C04_compatible_downward.
Example C04_instance : compatible (8 + 16 + 64) = true /\ compatible (16 + 2) = false /\ compatible (8 + 16) = true.
Proof. repeat split. Qed.
Example C04_instance_subset : subset (8 + 16) (8 + 16 + 64).
Proof.
  intros k Hk H. unfold has in *. change (8 + 16 + 64) with (Z.lor (8 + 16) 64).
  rewrite Z.lor_spec, H. reflexivity.
Qed.

(** C05.  The score multiplier depends on eleven mods only, lies in [0, 1.6],
    and is 0 exactly with Relax or Autopilot. *)
Theorem C05_depends_on_scoring_mods_only : forall m m',
  (forall k, In k [bNF; bEZ; bHT; bHD; bHR; bDT; bFL; bRX; bAP; bSO; bV2] -> Z.testbit m k = Z.testbit m' k) ->
  score_multiplier m = score_multiplier m'.
Proof.
  intros m m' H. rewrite !sm_eq.
  unfold bNF, bEZ, bHT, bHD, bHR, bDT, bFL, bRX, bAP, bSO, bV2 in H.
  rewrite !H by (cbn [In]; tauto). reflexivity.
Qed.
Print Assumptions C05_depends_on_scoring_mods_only.
Theorem C05_range : forall m,
  fle f0 (score_multiplier m) = true /\ fle (score_multiplier m) (fq 16 10) = true /\
  (feq (score_multiplier m) f0 = true <-> has m bRX \/ has m bAP).
Proof. intros m. rewrite sm_eq. apply sm_range. Qed.
Print Assumptions C05_range.
Example C05_instance : feq (score_multiplier (8 + 64)) (fmul (fq 106 100) (fq 112 100)) = true
  /\ score_multiplier (8 + 64 + 4) = score_multiplier (8 + 64 + 32).
Proof.
  split; [vm_compute; reflexivity|]. apply C05_depends_on_scoring_mods_only.
  intros k Hk. cbn [In] in Hk. repeat (destruct Hk as [<-|Hk]; [reflexivity|]). destruct Hk.
Qed.

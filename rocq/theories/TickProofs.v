(** Ticks of sliders against the real formulas. *)
From Coq Require Import Reals Lra ZArith Lia List Bool.
From Flocq Require Import Core BinarySingleNaN.
From Verif Require Import GoFloat Curves Objects Timing SpecSliders SpecTicks SpecTempo SpecTerm BaseLemmas FloatLemmas KeyLemmas LazyProofs PPProofs PlayTiming RelLemmas TempoProofs.
Import ListNotations.
Open Scope R_scope.

Definition u52 : R := / 4503599627370496.
Lemma big_ok x : Rabs x <= 1000000000000000000000000000000 -> Rabs x <= bpow radix2 200.
Proof. intros H. apply Rle_trans with (1 := H). apply Rle_trans with (bpow radix2 100); [change (bpow radix2 100) with 1267650600228229401496703205376; lra|apply bpow_le; lia]. Qed.
Lemma big_ok' x : Rabs x <= 1000000000000000000000000000000 -> Rabs x <= bpow radix2 1023.
Proof. intros H. apply Rle_trans with (1 := big_ok _ H). apply bpow_le. lia. Qed.
Definition far : R := 1000000000000000000000000000000.

(** Steps. *)
Section Steps.
Context (t len mind : f64) (Ft : fin t) (Bt : 99 / 10000 <= B2R t <= 1000000) (Fl : fin len) (Bl : 0 <= B2R len <= 1000000).
Local Notation T := (B2R t).
Definition step_at (j : nat) (d : f64) : Prop := fin d /\ Rabs (B2R d - INR j * T) <= INR j * INR j * T * u52 /\ INR j * u52 <= / 10000000.
Lemma step_close j d : step_at j d -> fin d /\ Rabs (B2R d - INR j * T) <= INR j * T * / 10000000.
Proof.
  intros (F & E & J). split; [exact F|]. apply Rle_trans with (1 := E). replace (INR j * INR j * T * u52) with (INR j * T * (INR j * u52)) by ring. apply Rmult_le_compat_l; [apply Rmult_le_pos; [apply pos_INR|lra]|exact J].
Qed.
Lemma step_next j d : (1 <= j)%nat -> step_at j d -> B2R d <= B2R len -> step_at (S j) (fadd d t).
Proof.
  intros J1 H DL. destruct (step_close _ _ H) as (F & C). destruct H as (_ & E & J). assert (J0 : 1 <= INR j) by (apply le_INR in J1; exact J1).
  set (x := INR j) in *. assert (P : 99 / 10000 * x <= x * T) by (rewrite Rmult_comm; apply Rmult_le_compat_l; lra). apply Rabs_le_inv in C.
  assert (XT : x * T <= 1000001) by lra. assert (X : x <= 101010202) by lra.
  destruct (fadd_fin d t F Ft) as (Fa & Ea). { apply big_ok'. rewrite Rabs_pos_eq; lra. }
  assert (N : Rabs (rnd64 (B2R d + T) - (B2R d + T)) <= (B2R d + T) * / 9007199254740992).
  { assert (SM : bpow radix2 (-1022) <= Rabs (B2R d + T)). { rewrite Rabs_pos_eq by lra. apply Rle_trans with (bpow radix2 (-10)); [apply bpow_le; lia|]. change (bpow radix2 (-10)) with (/ 1024). lra. }
    pose proof (rel64 _ SM) as R. rewrite (Rabs_pos_eq (B2R d + T)) in R by lra. exact R. }
  split; [exact Fa|]. rewrite (S_INR j), Ea. fold x. apply Rabs_le_inv in N. apply Rabs_le_inv in E. split.
  - assert (Q : (B2R d + T) * / 9007199254740992 <= (x + 1) * T * u52). { unfold u52. assert (0 <= (x + 1) * T) by (apply Rmult_le_pos; lra). lra. }
    assert (K : x * x * T * u52 + (x + 1) * T * u52 <= (x + 1) * (x + 1) * T * u52).
    { replace ((x + 1) * (x + 1) * T * u52) with (x * x * T * u52 + (x + 1) * T * u52 + x * T * u52) by ring. assert (0 <= x * T * u52) by (apply Rmult_le_pos; [lra|unfold u52; lra]). lra. }
    apply Rabs_le. replace ((x + 1) * T) with (x * T + T) by ring. lra.
  - unfold u52. lra.
Qed.
Lemma steps_near j d ds : (1 <= j)%nat -> step_at j d -> tick_distances t len mind d ds ->
  Forall2 (fun d k => step_at k d /\ B2R d <= B2R len /\ fge d (fsub len mind) = false) ds (seq j (length ds)) /\
  exists d', step_at (j + length ds) d' /\ (B2R len < B2R d' \/ fge d' (fsub len mind) = true).
Proof.
  intros J H TD. revert j J H. induction TD as [d E|d r L G TD IH]; intros j J H.
  - split; [constructor|]. exists d. cbn [length]. rewrite Nat.add_0_r. split; [exact H|]. destruct E as [E|E]; [left|now right]. destruct H as (F & _).
    destruct (Rlt_le_dec (B2R len) (B2R d)) as [?|X]; [assumption|exfalso]. assert (fle d len = true); [|congruence]. apply fle_iff. split; [now apply (fin_num 53 1024)|]. split; [now apply (fin_num 53 1024)|]. now rewrite (key_fin 53 1024 _ F), (key_fin 53 1024 _ Fl).
  - assert (DL : B2R d <= B2R len). { apply fle_iff in L as (_ & _ & L). now rewrite (key_fin 53 1024 _ (proj1 H)), (key_fin 53 1024 _ Fl) in L. }
    destruct (IH (S j) ltac:(lia) (step_next j d J H DL)) as (A & B). cbn [length seq]. split; [constructor; [split; [exact H|split; [exact DL|exact G]]|exact A]|]. rewrite <- Nat.add_succ_comm. exact B.
Qed.
End Steps.

(** Adding up times. *)
Lemma span_start_near start span D i : fin start -> Rabs (B2R start) <= 1100000000000 -> fin span -> 0 < D <= 1000000000000 -> Rabs (B2R span - D) <= D * (3 / 10000000) -> 0 <= IZR (Z.of_nat i) <= 100000 ->
  fin (span_start start span i) /\ Rabs (B2R (span_start start span i) - (B2R start + INR i * D)) <= INR i * D * (4 / 10000000) + Rabs (B2R start) * / 8000000000000000 + 3 / 1000000000000.
Proof.
  intros FS BS FD BD ND BI. unfold span_start. destruct (f_of_Z_exact (Z.of_nat i)) as (FI & EI). { apply proj2 in BI. apply le_IZR in BI. lia. }
  rewrite INR_IZR_INZ. set (x := IZR (Z.of_nat i)) in *. set (w := B2R span) in *. apply Rabs_le_inv in ND. set (s := B2R start) in *.
  assert (XD : 0 <= x * D <= 100000000000000000) by (split; [apply Rmult_le_pos; lra|apply Rle_trans with (100000 * 1000000000000); [apply Rmult_le_compat; lra|lra]]).
  assert (XW : x * D - x * D * (3 / 10000000) <= x * w <= x * D + x * D * (3 / 10000000)).
  { replace (x * D - x * D * (3 / 10000000)) with (x * (D - D * (3 / 10000000))) by ring. replace (x * D + x * D * (3 / 10000000)) with (x * (D + D * (3 / 10000000))) by ring. split; apply Rmult_le_compat_l; lra. }
  destruct (fmul_fin (f_of_Z (Z.of_nat i)) span FI FD) as (F1 & E1). { rewrite EI. fold x w. apply big_ok'. rewrite Rabs_pos_eq; lra. } rewrite EI in E1. fold x w in E1.
  pose proof (err64 (x * w) ltac:(apply big_ok; rewrite Rabs_pos_eq; lra)) as N1. rewrite <- E1 in N1. rewrite (Rabs_pos_eq (x * w)) in N1 by lra. apply Rabs_le_inv in N1. set (a := fmul _ span) in *. clearbody a.
  assert (AS : Rabs (s + B2R a) <= Rabs s + x * D * 2 + 1). { apply Rle_trans with (1 := Rabs_triang _ _).  assert (Rabs (B2R a) <= x * D * 2 + 1) by (apply Rabs_le; lra). lra. }
  destruct (fadd_fin start a FS F1) as (F2 & E2). { fold s. apply big_ok'. lra. } fold s in E2. split; [exact F2|]. pose proof (err64 (s + B2R a) ltac:(apply big_ok; lra)) as N2. rewrite <- E2 in N2. apply Rabs_le_inv in N2. pose proof (Rabs_pos s). apply Rabs_le. lra.
Qed.
Lemma later_near s a S0 A0 eS eA : fin s -> fin a -> Rabs (B2R s - S0) <= eS -> Rabs (B2R a - A0) <= eA -> Rabs S0 + Rabs A0 <= 1000000000000000000 -> eS <= 1000000000000000000 -> eA <= 1000000000000000000 ->
  fin (fadd s a) /\ Rabs (B2R (fadd s a) - (S0 + A0)) <= (eS + eA) * (1 + / 8000000000000000) + (Rabs S0 + Rabs A0) * / 9000000000000000 + / 1000000000000.
Proof.
  intros Fs Fa Ns Na B Bs Ba. pose proof (Rabs_pos (B2R s - S0)). pose proof (Rabs_pos (B2R a - A0)).
  assert (AB : Rabs (B2R s + B2R a) <= Rabs S0 + Rabs A0 + eS + eA).
  { replace (B2R s + B2R a) with (S0 + A0 + ((B2R s - S0) + (B2R a - A0))) by ring. apply Rle_trans with (1 := Rabs_triang _ _). pose proof (Rabs_triang S0 A0). pose proof (Rabs_triang (B2R s - S0) (B2R a - A0)). lra. }
  destruct (fadd_fin s a Fs Fa) as (F & E); [apply big_ok'; lra|]. split; [exact F|]. pose proof (err64 (B2R s + B2R a) ltac:(apply big_ok; lra)) as N. rewrite <- E in N. apply Rabs_le_inv in N. apply Rabs_le_inv in Ns. apply Rabs_le_inv in Na. pose proof (Rabs_pos S0). pose proof (Rabs_pos A0). apply Rabs_le. lra.
Qed.
Lemma rmax_lip a b c d e : Rabs (a - c) <= e -> Rabs (b - d) <= e -> Rabs (Rmax a b - Rmax c d) <= e.
Proof. intros A B. apply Rabs_le_inv in A. apply Rabs_le_inv in B. apply Rabs_le. unfold Rmax. destruct (Rle_dec a b); destruct (Rle_dec c d); lra. Qed.
(** The tail. *)
Lemma tail_near start en L e : fin start -> Rabs (B2R start) <= 1100000000000 -> fin en -> 0 <= L <= 100000000000000000 -> Rabs (B2R en - (B2R start + L)) <= e -> e <= 1000000000000 + L ->
  let x := fmax (fadd start (fdiv (fsub en start) (fq 2 1))) (fsub en (fq 36 1)) in
  fin x /\ Rabs (B2R x - Rmax (B2R start + L / 2) (B2R start + L - 36)) <= e * (11 / 10) + L / 1000000000000000 + Rabs (B2R start) / 1000000000000000 + 4 / 1000000000000.
Proof.
  intros FS BS FE BL NE BE. cbv zeta. destruct (fq1_exact 2 ltac:(lia)) as (F2 & E2). destruct (fq1_exact 36 ltac:(lia)) as (F36 & E36). set (s := B2R start) in *. pose proof (Rabs_pos s) as PS. pose proof (Rabs_pos (B2R en - (s + L))) as PE.
  assert (DE : Rabs (B2R en - s) <= L + e). { replace (B2R en - s) with (L + (B2R en - (s + L))) by ring. apply Rle_trans with (1 := Rabs_triang _ _). rewrite (Rabs_pos_eq L); lra. }
  destruct (fsub_fin en start FE FS) as (F1 & E1); [fold s; apply big_ok'; lra|]. fold s in E1. pose proof (err64 (B2R en - s) ltac:(apply big_ok; lra)) as N1. rewrite <- E1 in N1. set (d := fsub en start) in *. clearbody d.
  assert (DD : Rabs (B2R d) <= L + e + 1000). { replace (B2R d) with (B2R en - s + (B2R d - (B2R en - s))) by ring. apply Rle_trans with (1 := Rabs_triang _ _). lra. }
  assert (HD : Rabs (B2R d / 2) = Rabs (B2R d) / 2) by (unfold Rdiv; rewrite Rabs_mult; f_equal; apply Rabs_pos_eq; lra).
  destruct (fdiv_fin d (fq 2 1) F1 F2) as (F3 & E3); [rewrite E2; lra|rewrite E2; apply big_ok'; lra|]. rewrite E2 in E3. pose proof (err64 (B2R d / 2) ltac:(apply big_ok; lra)) as N3. rewrite <- E3 in N3. set (h := fdiv d _) in *. clearbody h.
  assert (NH : Rabs (B2R h - L / 2) <= e * (51 / 100) + L / 4000000000000000 + 2 / 1000000000000).
  { apply Rabs_le_inv in N1. apply Rabs_le_inv in N3. apply Rabs_le_inv in NE. apply Rabs_le. pose proof (Rabs_pos (B2R d)). pose proof (Rabs_pos (B2R en - s)). lra. }
  assert (AL : Rabs (L / 2) = L / 2) by (apply Rabs_pos_eq; lra).
  destruct (later_near start h s (L / 2) 0 _ FS F3 ltac:(unfold s; rewrite Rminus_diag_eq by reflexivity; rewrite Rabs_R0; lra) NH) as (F4 & N4); [lra|lra|lra|].
  assert (D6 : Rabs (B2R en - 36) <= Rabs s + L + e + 36). { replace (B2R en - 36) with (s + (L + (B2R en - (s + L)) - 36)) by ring. apply Rle_trans with (1 := Rabs_triang _ _). apply Rabs_le_inv in NE. assert (Rabs (L + (B2R en - (s + L)) - 36) <= L + e + 36) by (apply Rabs_le; lra). lra. }
  destruct (fsub_fin en (fq 36 1) FE F36) as (F5 & E5); [rewrite E36; apply big_ok'; lra|]. rewrite E36 in E5. pose proof (err64 (B2R en - 36) ltac:(apply big_ok; lra)) as N5. rewrite <- E5 in N5.
  destruct (fmax_fin _ _ F4 F5) as (F6 & E6). split; [exact F6|]. rewrite E6. apply rmax_lip.
  - apply Rle_trans with (1 := N4). lra.
  - apply Rabs_le_inv in N5. apply Rabs_le_inv in NE. apply Rabs_le. lra.
Qed.
(** The smaller of the two gaps. *)
Lemma gap_near (g pix : f64) G e : rel e26 12 g G -> e = 12 * e26 -> fin pix -> 0 < B2R pix ->
  let td := if fgt g pix then pix else g in fin td /\ Rabs (B2R td - Rmin G (B2R pix)) <= Rmin G (B2R pix) * e.
Proof.
  intros (F & P & B) -> FP PP. cbv zeta. replace (12 * e26 * G) with (G * (12 * e26)) in B by ring. assert (E0 : 0 <= 12 * e26 <= / 1000) by (unfold e26; lra). set (e := 12 * e26) in *. clearbody e. assert (GE : 0 <= G * e) by (apply Rmult_le_pos; lra).
  destruct (fgt g pix) eqn:H.
  - assert (K : B2R pix < B2R g). { unfold fgt in H. apply flt_iff in H as (_ & _ & H). now rewrite (key_fin 53 1024 _ F), (key_fin 53 1024 _ FP) in H. }
    split; [exact FP|]. apply Rabs_le. unfold Rmin. destruct (Rle_dec G (B2R pix)) as [L|L]; [lra|]. assert (0 <= B2R pix * e) by (apply Rmult_le_pos; lra). lra.
  - assert (K : B2R g <= B2R pix). { destruct (Rlt_le_dec (B2R pix) (B2R g)) as [X|X]; [exfalso|exact X]. assert (fgt g pix = true); [|congruence]. unfold fgt. apply flt_iff. split; [now apply (fin_num 53 1024)|]. split; [now apply (fin_num 53 1024)|]. now rewrite (key_fin 53 1024 _ F), (key_fin 53 1024 _ FP). }
    split; [exact F|]. apply Rabs_le. unfold Rmin. destruct (Rle_dec G (B2R pix)) as [L|L]; [lra|].
    assert (X : B2R pix * (1 - e) <= G * (1 - e)) by (apply Rmult_le_compat_r; lra). assert (0 <= B2R pix * e) by (apply Rmult_le_pos; lra). lra.
Qed.
Lemma F2_in_r {A B} (P : A -> B -> Prop) l1 l2 y : Forall2 P l1 l2 -> In y l2 -> exists x, P x y.
Proof. intros H. induction H as [|a b l1 l2 H0 H IH]; intros I; [destruct I|]. destruct I as [<-|I]; [now exists a|auto]. Qed.

Section Slider.
Context (t len mind : f64) (T L : R) (Ft : fin t) (Nt : Rabs (B2R t - T) <= T * (12 * e26)) (BT : / 100 <= T <= 900000) (Fl : fin len) (Bl : / 1000000 <= B2R len <= 1000000).
Local Lemma t_in : 99 / 10000 <= B2R t <= 1000000.
Proof. apply Rabs_le_inv in Nt. unfold e26 in Nt. lra. Qed.
Lemma step_real j d : step_at t j d -> fin d /\ Rabs (B2R d - INR j * T) <= INR j * T * (28 / 100000000).
Proof.
  intros H. destruct (step_close t t_in _ _ H) as (F & C). split; [exact F|]. apply Rabs_le_inv in C. apply Rabs_le_inv in Nt. pose proof (pos_INR j) as J. set (x := INR j) in *.
  assert (A : x * B2R t <= x * (T + T * (12 * e26))) by (apply Rmult_le_compat_l; lra). assert (B : x * (T - T * (12 * e26)) <= x * B2R t) by (apply Rmult_le_compat_l; lra).
  replace (x * (T + T * (12 * e26))) with (x * T + x * T * (12 * e26)) in A by ring. replace (x * (T - T * (12 * e26))) with (x * T - x * T * (12 * e26)) in B by ring. unfold e26 in A, B.
  assert (0 <= x * T) by (apply Rmult_le_pos; lra). apply Rabs_le. lra.
Qed.
(** How many there are. *)
Lemma count_near ds D : 0 < D -> rel e26 17 mind (B2R len * 10 / D) -> B2R len * 10 / D <= 1000000000 -> step_at t 1 t -> tick_distances t len mind t ds ->
  tick_count D (B2R len) T ((B2R len + B2R len * 10 / D) / 1000000 + / 100000000000) (length ds) /\
  Forall2 (fun d k => step_at t k d /\ B2R d <= B2R len /\ fge d (fsub len mind) = false) ds (seq 1 (length ds)).
Proof.
  intros PD (Fm & Pm & Bm) Um S1 TD. destruct (steps_near t len mind Ft t_in Fl ltac:(lra) 1 t ds (le_n 1) S1 TD) as (A & d' & S' & C'). split; [|exact A].
  unfold tick_count. set (Q := B2R len * 10 / D) in *. unfold e26 in Bm. set (l := B2R len) in *.
  destruct (fsub_fin len mind Fl Fm) as (Fd & Ed); [fold l; apply big_ok'; apply Rabs_le; lra|]. fold l in Ed. pose proof (err64 (l - B2R mind) ltac:(apply big_ok; apply Rabs_le; lra)) as N. rewrite <- Ed in N. set (lim := fsub len mind) in *. clearbody lim.
  assert (AL : Rabs (l - B2R mind) <= l + B2R mind) by (apply Rabs_le; lra). apply Rabs_le_inv in N. split.
  - destruct (length ds) as [|k] eqn:EN; [now left|right]. destruct (F2_in_r _ _ _ (S k) A) as (d & S & DL & G). { apply in_seq. lia. }
    destruct (step_real _ _ S) as (F & C). apply Rabs_le_inv in C. assert (X : B2R d <= B2R lim). { destruct (Rle_lt_dec (B2R d) (B2R lim)) as [?|X]; [assumption|exfalso]. assert (fge d lim = true); [|congruence]. apply fge_iff. split; [now apply (fin_num 53 1024)|]. split; [now apply (fin_num 53 1024)|]. rewrite (key_fin 53 1024 _ F), (key_fin 53 1024 _ Fd). lra. }
    set (x := INR (Datatypes.S k) * T) in *. clearbody x. lra.
  - change (1 + length ds)%nat with (Datatypes.S (length ds)) in S'. destruct (step_real _ _ S') as (F & C). apply Rabs_le_inv in C. set (x := INR (Datatypes.S (length ds)) * T) in *. clearbody x.
    destruct (Rle_lt_dec l x) as [X|X]; [lra|]. assert (Y : l < B2R d' \/ B2R lim <= B2R d'). { destruct C' as [C'|C']; [now left|right]. apply fge_iff in C' as (_ & _ & C'). now rewrite (key_fin 53 1024 _ F), (key_fin 53 1024 _ Fd) in C'. }
    destruct Y; lra.
Qed.
(** When they are due. *)
Lemma progress_near i k d : step_at t k d -> B2R d <= B2R len ->
  fin (progress i len d) /\ Rabs (B2R (progress i len d) - passed i (INR k * T / B2R len)) <= 3 / 10000000 /\ Rabs (passed i (INR k * T / B2R len)) <= 1 + / 1000000.
Proof.
  intros S DL. destruct (step_real _ _ S) as (F & C). set (l := B2R len) in *. assert (X0 : 0 <= INR k * T) by (apply Rmult_le_pos; [apply pos_INR|lra]). set (x := INR k * T) in *. apply Rabs_le_inv in C. assert (XL : x <= l * (1 + 3 / 10000000)) by lra.
  assert (PL : 0 < / l) by (apply Rinv_0_lt_compat; lra).
  assert (Q : 0 <= x / l <= 1 + 3 / 10000000). { split; [apply Rmult_le_pos; lra|]. apply Rmult_le_reg_r with l; [lra|]. unfold Rdiv at 1. rewrite Rmult_assoc, Rinv_l by lra. lra. }
  assert (B : x / l - x / l * (28 / 100000000) <= B2R d / l <= x / l + x / l * (28 / 100000000)).
  { split; apply Rmult_le_reg_r with l; try lra; unfold Rdiv; rewrite ?Rmult_plus_distr_r, ?Rmult_minus_distr_r; replace (x * / l * l) with x by (field; lra); replace (B2R d * / l * l) with (B2R d) by (field; lra); replace (x * / l * (28 * / 100000000) * l) with (x * (28 * / 100000000)) by (field; lra); lra. }
  assert (D1 : Rabs (B2R d / l) <= 2) by (apply Rabs_le; lra). destruct (fdiv_fin d len F Fl) as (Fq & Eq); [fold l; lra|fold l; apply big_ok'; lra|]. fold l in Eq. pose proof (err64 (B2R d / l) ltac:(apply big_ok; lra)) as N. rewrite <- Eq in N. set (q := fdiv d len) in *.
  assert (NQ : Rabs (B2R q - x / l) <= 29 / 100000000) by (apply Rabs_le_inv in N; apply Rabs_le; lra).
  unfold progress, passed. destruct (Nat.even i).
  - fold q. split; [exact Fq|]. split; [lra|apply Rabs_le; lra].
  - fold q. clearbody q. destruct (fq1_exact 1 ltac:(lia)) as (F1 & E1). apply Rabs_le_inv in NQ. assert (D2 : Rabs (1 - B2R q) <= 2) by (apply Rabs_le; lra).
    destruct (fsub_fin (fq 1 1) q F1 Fq) as (Fs & Es); [rewrite E1; apply big_ok'; lra|]. rewrite E1 in Es. pose proof (err64 (1 - B2R q) ltac:(apply big_ok; lra)) as N2. rewrite <- Es in N2. apply Rabs_le_inv in N2. split; [exact Fs|]. split; apply Rabs_le; lra.
Qed.
Lemma points_near start en span D n ds i e :
  fin start -> Rabs (B2R start) <= 1100000000000 -> fin span -> 0 < D <= 1000000000000 -> Rabs (B2R span - D) <= D * (3 / 10000000) -> INR n <= 100000 -> (i < n)%nat ->
  fin en -> Rabs (B2R en - (B2R start + INR n * D)) <= e -> e = INR n * D / 1000000 + Rabs (B2R start) / 1000000000000000 + / 1000000000000 ->
  Forall2 (fun d k => step_at t k d /\ B2R d <= B2R len /\ fge d (fsub len mind) = false) ds (seq 1 (length ds)) ->
  Forall2 (due (INR n * D / 500000 + Rabs (B2R start) / 100000000000000 + / 100000000000)) (span_points start en span len n ds i) (span_times (B2R start) D (B2R len) T n (length ds) i).
Proof.
  intros FS BS Fw BD Nw Bn In FE NE He FD. set (E := INR n * D / 500000 + _ + _).
  assert (IN : INR i + 1 <= INR n) by (rewrite <- S_INR; apply le_INR; lia). pose proof (pos_INR i) as I0.
  assert (ID : INR i * D + D <= INR n * D). { replace (INR i * D + D) with ((INR i + 1) * D) by ring. apply Rmult_le_compat_r; lra. }
  assert (I1 : 0 <= INR i * D) by (apply Rmult_le_pos; lra). assert (ND : INR n * D <= 100000000000000000). { apply Rle_trans with (100000 * 1000000000000); [apply Rmult_le_compat; lra|lra]. }
  destruct (span_start_near start span D i FS BS Fw BD Nw) as (F0 & N0). { rewrite <- INR_IZR_INZ. lra. }
  pose proof (Rabs_pos (B2R start)) as PS. set (s := B2R start) in *.
  assert (AS : Rabs (s + INR i * D) <= Rabs s + INR i * D). { apply Rle_trans with (1 := Rabs_triang _ _). rewrite (Rabs_pos_eq (INR i * D)); lra. }
  unfold span_points, span_times. set (ss := span_start start span i) in *. clearbody ss. apply Forall2_app.
  - clear FE NE. generalize (seq 1 (length ds)) FD. clear FD. intros ks FD. induction FD as [|d k ds ks (S & DL & _) FD IH]; cbn [map]; constructor; [|exact IH].
    destruct (progress_near i k d S DL) as (Fp & Np & Bp). set (p := progress i len d) in *. clearbody p. set (z := passed i _) in *. clearbody z.
    assert (BW : Rabs (B2R span) <= D * (11 / 10)) by (apply Rabs_le_inv in Nw; apply Rabs_le; lra).
    assert (NP : Rabs (B2R p * B2R span - z * D) <= D * (65 / 100000000)).
    { replace (B2R p * B2R span - z * D) with ((B2R p - z) * B2R span + z * (B2R span - D)) by ring. apply Rle_trans with (1 := Rabs_triang _ _). rewrite !Rabs_mult.
      assert (Rabs (B2R p - z) * Rabs (B2R span) <= 3 / 10000000 * (D * (11 / 10))) by (apply Rmult_le_compat; auto using Rabs_pos). assert (Rabs z * Rabs (B2R span - D) <= (1 + / 1000000) * (D * (3 / 10000000))) by (apply Rmult_le_compat; auto using Rabs_pos). lra. }
    assert (AZ : Rabs (z * D) <= D * (1 + / 1000000)). { rewrite Rabs_mult, (Rabs_pos_eq D) by lra. rewrite Rmult_comm. apply Rmult_le_compat_l; lra. }
    assert (AP : Rabs (B2R p * B2R span) <= D * 2). { replace (B2R p * B2R span) with (z * D + (B2R p * B2R span - z * D)) by ring. apply Rle_trans with (1 := Rabs_triang _ _). lra. }
    destruct (fmul_fin p span Fp Fw) as (Fm & Em); [apply big_ok'; lra|]. pose proof (err64 (B2R p * B2R span) ltac:(apply big_ok; lra)) as Nm. rewrite <- Em in Nm. set (a := fmul p span) in *. clearbody a.
    assert (NA : Rabs (B2R a - z * D) <= D * (66 / 100000000) + / 1000000000000). { replace (B2R a - z * D) with ((B2R a - B2R p * B2R span) + (B2R p * B2R span - z * D)) by ring. apply Rle_trans with (1 := Rabs_triang _ _). lra. }
    destruct (later_near ss a _ _ _ _ F0 Fm N0 NA) as (FA & XA); [lra|lra|lra|]. split; [exact FA|]. cbn [tk_Time tk_Reverse fst snd]. split; [|reflexivity].
    replace (s + (INR i + z) * D) with (s + INR i * D + z * D) by ring. apply Rle_trans with (1 := XA). unfold E. lra.
  - constructor; [|constructor]. destruct (Nat.ltb (S i) n).
    + destruct (later_near ss span _ D _ _ F0 Fw N0 Nw) as (FA & XA); [rewrite (Rabs_pos_eq D) by lra; lra|lra|lra|]. split; [exact FA|]. cbn [tk_Time tk_Reverse fst snd]. split; [|reflexivity].
      rewrite (S_INR i). replace (s + (INR i + 1) * D) with (s + INR i * D + D) by ring. apply Rle_trans with (1 := XA). rewrite (Rabs_pos_eq D) by lra. unfold E. lra.
    + destruct (tail_near start en (INR n * D) e FS BS FE ltac:(lra) NE ltac:(fold s; lra)) as (FA & XA). fold s in XA. split; [exact FA|]. cbn [tk_Time tk_Reverse fst snd]. split; [|reflexivity]. apply Rle_trans with (1 := XA). unfold E. lra.
Qed.
End Slider.

(** Arithmetic on mirrored coordinates and on whole times (proof scripts for
    C95). *)
From Coq Require Import Reals Lra Lia Bool.
From Flocq Require Import Raux Zaux Core BinarySingleNaN.
From Verif Require Import DiffCalc FloatLemmas Float32Lemmas VectorProofs SectionProofs SpecDiff.
Open Scope R_scope.

(** ** Whole numbers of milliseconds *)
Lemma f_of_Z_sign z : (0 <= z)%Z -> Bsign (f_of_Z z) = false.
Proof.
  intros H. unfold f_of_Z. pose proof (binary_normalize_correct 53 1024 p53 pe53 mode_NE z 0 false) as C. cbv zeta in C.
  destruct (Rlt_bool _ _).
  - destruct C as (_ & _ & C). rewrite C. rewrite <- (F2R_0 radix2 0). unfold F2R. cbn [Fnum Fexp]. assert (0 <= IZR z) by now apply IZR_le.
    destruct (Rcompare_spec (IZR z * bpow radix2 0) (IZR 0 * bpow radix2 0)) as [Q|Q|Q]; try reflexivity. exfalso. cbn in Q. lra.
  - rewrite Rlt_bool_false in C by (unfold F2R; cbn [Fnum Fexp bpow]; apply (IZR_le 0) in H; lra).
    assert (E : binary_normalize 53 1024 p53 pe53 mode_NE z 0 false = B754_infinity false) by (apply B2SF_inj; exact C). rewrite E. reflexivity.
Qed.
Lemma whole (x : f64) z : fin x -> B2R x = IZR z -> (Z.abs z <= 2 ^ 53)%Z -> (z = 0%Z -> Bsign x = false) -> x = f_of_Z z.
Proof.
  intros F V B S. destruct (f_of_Z_exact z B) as (F' & V'). apply B2R_Bsign_inj; [exact F|exact F'|congruence|].
  destruct (Z.eq_dec z 0) as [->|N]; [rewrite S by reflexivity; symmetry; apply f_of_Z_sign; lia|].
  destruct x as [s| | |s m e H]; try discriminate F; [exfalso; apply N; apply eq_IZR; symmetry; exact V|].
  destruct (f_of_Z z) as [s'| | |s' m' e' H']; try discriminate F'; [exfalso; apply N; apply eq_IZR; symmetry; exact V'|]. cbn [Bsign].
  assert (E : B2R (B754_finite s m e H) = B2R (B754_finite s' m' e' H')) by (rewrite V, V'; reflexivity). apply B2R_inj in E; [now inversion E|reflexivity|reflexivity].
Qed.
Lemma whole_sub a b : (Z.abs a <= 2 ^ 51)%Z -> (Z.abs b <= 2 ^ 51)%Z -> fsub (f_of_Z a) (f_of_Z b) = f_of_Z (a - b).
Proof.
  intros Ha Hb. destruct (f_of_Z_exact a ltac:(lia)) as (Fa & Va). destruct (f_of_Z_exact b ltac:(lia)) as (Fb & Vb).
  destruct (fsub_fin _ _ Fa Fb) as (F & V); rewrite Va, Vb, <- minus_IZR in *; [apply IZR_bound with 53%Z; lia|].
  apply whole; [exact F|rewrite V; apply rnd64_Z; lia|lia|]. intros H. assert (E : a = b) by lia. subst b.
  pose proof (Bminus_correct 53 1024 p53 pe53 mode_NE (f_of_Z a) (f_of_Z a) Fa Fa) as C. cbv zeta in C. change (Bminus mode_NE (f_of_Z a) (f_of_Z a)) with (fsub (f_of_Z a) (f_of_Z a)) in C.
  rewrite Rminus_diag_eq in C by reflexivity. rewrite round_0, Rabs_R0 in C by typeclasses eauto. rewrite Rlt_bool_true in C by apply bpow_gt_0.
  destruct C as (_ & _ & C). rewrite C. rewrite Rcompare_Eq by reflexivity. now destruct (Bsign (f_of_Z a)).
Qed.
Lemma f_of_Z_ok t : (0 <= t <= 2 ^ 50)%Z -> time_ok (f_of_Z t).
Proof.
  intros H. destruct (f_of_Z_exact t ltac:(lia)) as (F & V). split; [exact F|]. rewrite V. split.
  - rewrite <- abs_IZR. apply IZR_le. lia.
  - destruct (Z.eq_dec t 0) as [->|N]; [now left|right]. apply Rle_trans with (bpow radix2 0); [apply bpow_le; lia|]. rewrite <- abs_IZR. change (bpow radix2 0) with (IZR 1). apply IZR_le. lia.
Qed.
Lemma section_shift t n : section_of (IZR (t + 400 * n)) = (section_of (IZR t) + n)%Z.
Proof.
  unfold section_of. rewrite plus_IZR, mult_IZR. replace ((IZR t + 400 * IZR n) / 400) with (IZR t / 400 + IZR n) by field.
  apply Zceil_imp. pose proof (Zceil_lb (IZR t / 400)). pose proof (Zceil_ub (IZR t / 400)). rewrite minus_IZR, plus_IZR. lra.
Qed.
Lemma section_range t : (0 <= t <= 2 ^ 50)%Z -> (0 <= section_of (IZR t) <= 2 ^ 42)%Z.
Proof.
  intros H. unfold section_of. pose proof (Zceil_lb (IZR t / 400)) as Lo. pose proof (Zceil_ub (IZR t / 400)) as Up.
  assert (H0 : 0 <= IZR t) by now apply (IZR_le 0). assert (H1 : IZR t <= IZR (2 ^ 50)) by now apply IZR_le.
  split.
  - assert (-1 < Zceil (IZR t / 400))%Z; [|lia]. apply lt_IZR. apply Rlt_le_trans with 0; [lra|]. apply Rle_trans with (2 := Up). lra.
  - assert (Zceil (IZR t / 400) < 2 ^ 42 + 1)%Z; [|lia]. apply lt_IZR. rewrite plus_IZR. assert (IZR (2 ^ 50) = 256 * IZR (2 ^ 42)) by (rewrite <- mult_IZR; reflexivity). assert (0 <= IZR (2 ^ 42)) by (apply IZR_le; lia). lra.
Qed.
Lemma whole_first t : (0 <= t <= 2 ^ 50)%Z -> fmul (fceil (fdiv (f_of_Z t) section_length)) section_length = f_of_Z (400 * section_of (IZR t)).
Proof.
  intros H. destruct (first_end (f_of_Z t) (f_of_Z_ok t H)) as (F & V). pose proof (section_range t H) as B.
  rewrite (proj2 (f_of_Z_exact t ltac:(lia))) in V. rewrite <- mult_IZR in V. apply whole; [exact F|exact V|lia|].
  intros Z0. assert (t = 0%Z) as ->; [|vm_compute; reflexivity].
  destruct (Z.eq_dec t 0) as [E|N]; [exact E|exfalso]. unfold section_of in Z0. pose proof (Zceil_ub (IZR t / 400)) as U. assert (Zceil (IZR t / 400) = 0)%Z as E by lia. rewrite E in U.
  assert (1 <= IZR t) by (apply (IZR_le 1); lia). lra.
Qed.
Lemma whole_gt a b : (Z.abs a <= 2 ^ 53)%Z -> (Z.abs b <= 2 ^ 53)%Z -> fgt (f_of_Z a) (f_of_Z b) = Z.ltb b a.
Proof.
  intros Ha Hb. destruct (f_of_Z_exact a Ha) as (Fa & Va). destruct (f_of_Z_exact b Hb) as (Fb & Vb). rewrite fgt_bool by assumption. rewrite Va, Vb.
  destruct (Z.ltb_spec b a) as [L|L]; [apply Rlt_bool_true, IZR_lt, L|apply Rlt_bool_false, IZR_le, L].
Qed.
Lemma whole_next k : (0 <= k <= 2 ^ 42)%Z -> fadd (f_of_Z (400 * k)) section_length = f_of_Z (400 * (k + 1)).
Proof.
  intros H. destruct (f_of_Z_exact (400 * k) ltac:(lia)) as (Fa & Va). destruct section_length_val as (Fl & Vl).
  assert (Q : IZR (400 * k) + 400 = IZR (400 * (k + 1))) by (rewrite !mult_IZR, plus_IZR; ring).
  destruct (fadd_fin _ _ Fa Fl) as (F & V); rewrite Va, Vl, Q in *; [apply IZR_bound with 53%Z; lia|].
  apply whole; [exact F|rewrite V; apply rnd64_Z; lia|lia|lia].
Qed.
(** a clock rate that is a multiple of 1/1024 *)
Lemma steps_exact z : (Z.abs z < 2 ^ 53)%Z -> rnd64 (IZR z / 1024) = IZR z / 1024.
Proof.
  intros H. apply round_generic; [typeclasses eauto|]. apply generic_format_FLT.
  exists (Float radix2 z (-10)); [unfold F2R; cbn [Fnum Fexp]; change (bpow radix2 (-10)) with (/ 1024); reflexivity|exact H|cbn; lia].
Qed.
Lemma pos_sign (x : f64) : 0 < B2R x -> Bsign x = false.
Proof. intros P. destruct x as [s|s| |s m e H]; cbn [B2R] in P; try lra. destruct s; [|reflexivity]. exfalso. pose proof (F2R_lt_0 radix2 (Float radix2 (Zneg m) e) ltac:(reflexivity)). cbn [cond_Zopp] in P. change (- Z.pos m)%Z with (Zneg m) in P. lra. Qed.
Lemma div_whole (x s : f64) a t : fin x -> fin s -> B2R s = IZR a / 1024 -> (1 <= a <= 4096)%Z -> B2R x = IZR (a * t) / 1024 -> (Z.abs t <= 2 ^ 51)%Z -> (t = 0%Z -> Bsign x = false) ->
  fdiv x s = f_of_Z t.
Proof.
  intros Fx Fs Vs Ha Vx Ht S. assert (Pa : 1 <= IZR a) by (apply (IZR_le 1); lia). assert (Q : B2R x / B2R s = IZR t) by (rewrite Vx, Vs, mult_IZR; field; lra).
  destruct (fdiv_fin x s Fx Fs) as (F & V); [rewrite Vs; lra|rewrite Q; apply IZR_bound with 53%Z; lia|]. rewrite Q in V.
  apply whole; [exact F|rewrite V; apply rnd64_Z; lia|lia|]. intros Z0.
  pose proof (Bdiv_correct 53 1024 p53 pe53 mode_NE x s ltac:(rewrite Vs; lra)) as C. cbv zeta in C. change (Bdiv mode_NE x s) with (fdiv x s) in C. rewrite Q, Z0 in C. rewrite round_0, Rabs_R0 in C by typeclasses eauto. rewrite Rlt_bool_true in C by apply bpow_gt_0.
  destruct C as (_ & _ & C). rewrite C by (destruct (fdiv x s); try reflexivity; discriminate F). rewrite (S Z0), (pos_sign s); [reflexivity|rewrite Vs; lra].
Qed.
Lemma clock_delta (x y s : f64) a t u : fin x -> fin y -> fin s -> B2R s = IZR a / 1024 -> (1 <= a <= 4096)%Z -> B2R x = IZR (a * t) / 1024 -> B2R y = IZR (a * u) / 1024 ->
  (0 <= t <= 2 ^ 40)%Z -> (0 <= u <= 2 ^ 40)%Z -> Bsign x = false -> Bsign y = false -> fdiv (fsub x y) s = f_of_Z (t - u).
Proof.
  intros Fx Fy Fs Vs Ha Vx Vy Ht Hu Sx Sy.
  assert (Q : B2R x - B2R y = IZR (a * (t - u)) / 1024) by (rewrite Vx, Vy, !mult_IZR, minus_IZR; field).
  assert (B : (Z.abs (a * (t - u)) < 2 ^ 53)%Z) by (rewrite Z.abs_mul; nia).
  destruct (fsub_fin x y Fx Fy) as (F & V); rewrite Q in *.
  { unfold Rdiv. rewrite Rabs_mult, (Rabs_pos_eq (/ 1024)) by lra. pose proof (IZR_bound (a * (t - u)) 53 ltac:(lia) ltac:(lia)). pose proof (Rabs_pos (IZR (a * (t - u)))). lra. }
  apply div_whole with a; [exact F|exact Fs|exact Vs|exact Ha|rewrite V; apply steps_exact, B|lia|]. intros Z0.
  pose proof (Bminus_correct 53 1024 p53 pe53 mode_NE x y Fx Fy) as C. cbv zeta in C. change (Bminus mode_NE x y) with (fsub x y) in C.
  assert (Q0 : B2R x - B2R y = 0) by (rewrite Q, Z0, Z.mul_0_r; lra). rewrite Q0 in C. rewrite round_0, Rabs_R0 in C by typeclasses eauto. rewrite Rlt_bool_true in C by apply bpow_gt_0.
  destruct C as (_ & _ & C). rewrite C, Rcompare_Eq, Sx by reflexivity. reflexivity.
Qed.

(** ** Coordinates up to sign *)
Definition cneg (b : bool) (x : R) : R := if b then - x else x.
(** [x'] is [x], or [-x] if [b], except that the sign of a zero is free *)
Definition mir (b : bool) (x x' : f32) : Prop :=
  (fin x /\ fin x' /\ B2R x' = cneg b (B2R x)) \/ (is_finite x = false /\ x' = if b then Bopp x else x).
Lemma sign_pos (x : f32) : Bsign x = false -> 0 <= B2R x.
Proof. destruct x as [s|s| |s m e H]; cbn [Bsign B2R]; intros E; try lra. subst s. apply F2R_ge_0. cbn. lia. Qed.
Lemma sign_neg (x : f32) : Bsign x = true -> B2R x <= 0.
Proof. destruct x as [s|s| |s m e H]; cbn [Bsign B2R]; intros E; try lra. subst s. apply F2R_le_0. cbn. lia. Qed.
Lemma sign_val (x x' : f32) b : B2R x' = cneg b (B2R x) -> B2R x <> 0 -> Bsign x' = xorb b (Bsign x).
Proof.
  intros E N. pose proof (sign_pos x). pose proof (sign_neg x). pose proof (sign_pos x'). pose proof (sign_neg x').
  destruct b, (Bsign x), (Bsign x'); cbn [cneg xorb] in *; try reflexivity; exfalso; repeat match goal with H : ?a = ?a -> _ |- _ => specialize (H eq_refl) end; lra.
Qed.
Lemma fin_mir b (x x' : f32) : fin x -> mir b x x' -> fin x' /\ B2R x' = cneg b (B2R x).
Proof. intros F [(_ & F' & E)|(N & _)]; [auto|]. unfold fin in F. congruence. Qed.
Lemma mir_refl x : mir false x x.
Proof. destruct (is_finite x) eqn:F; [left|right]; auto. Qed.
Lemma inf_mir b (x x' : f32) s : x = B754_infinity s -> x' = B754_infinity (xorb b s) -> mir b x x'.
Proof. intros -> ->. right. split; [reflexivity|]. destruct b; cbn [Bopp xorb]; [now destruct s|now destruct s]. Qed.
Lemma cneg_round b r : round radix2 (SpecFloat.fexp 24 128) ZnearestE (cneg b r) = cneg b (round radix2 (SpecFloat.fexp 24 128) ZnearestE r).
Proof. destruct b; [apply round_NE_opp|reflexivity]. Qed.
Lemma cneg_abs b r : Rabs (cneg b r) = Rabs r.
Proof. destruct b; [apply Rabs_Ropp|reflexivity]. Qed.
Lemma cneg_minus b r s : cneg b r - cneg b s = cneg b (r - s).
Proof. destruct b; cbn; ring. Qed.
Lemma cneg_plus b r s : cneg b r + cneg b s = cneg b (r + s).
Proof. destruct b; cbn; ring. Qed.
Lemma cneg_mult b c r s : cneg b r * cneg c s = cneg (xorb b c) (r * s).
Proof. destruct b, c; cbn; ring. Qed.
Lemma not_small r : Rlt_bool (Rabs (round radix2 (SpecFloat.fexp 24 128) ZnearestE r)) (bpow radix2 128) = false -> r <> 0.
Proof. intros H E. rewrite E, round_0, Rabs_R0 in H by typeclasses eauto. rewrite Rlt_bool_true in H by apply bpow_gt_0. discriminate H. Qed.
Lemma mir_sub b x x' y y' : mir b x x' -> mir b y y' -> mir b (gsub x y) (gsub x' y').
Proof.
  intros [(Fx & Fx' & Vx)|(Nx & ->)] [(Fy & Fy' & Vy)|(Ny & ->)].
  - pose proof (Bminus_correct 24 128 p24 pe24 mode_NE x y Fx Fy) as C. pose proof (Bminus_correct 24 128 p24 pe24 mode_NE x' y' Fx' Fy') as D. cbv zeta in C, D.
    change (Bminus mode_NE x y) with (gsub x y) in C. change (Bminus mode_NE x' y') with (gsub x' y') in D. change (round_mode mode_NE) with ZnearestE in *.
    rewrite Vx, Vy, cneg_minus, cneg_round, cneg_abs in D. destruct (Rlt_bool _ _) eqn:S.
    + destruct C as (C1 & C2 & _), D as (D1 & D2 & _). left. split; [exact C2|split; [exact D2|]]. rewrite D1, C1. reflexivity.
    + apply not_small in S. destruct C as (C & SC), D as (D & SD). apply inf_of_SF in C, D. apply (inf_mir b _ _ _ C). rewrite D. f_equal.
      destruct (Req_dec (B2R x) 0) as [Z|N]; [|apply (sign_val x x' b Vx N)].
      rewrite SC, SD, (sign_val y y' b Vy); [|intros E; apply S; rewrite Z, E; ring]. now destruct b, (Bsign y).
  - destruct x as [sx| | |sx mx ex Hx]; try discriminate Fx; destruct x' as [sx'| | |sx' mx' ex' Hx']; try discriminate Fx'; destruct y as [|sy| |]; try discriminate Ny; right; split; try reflexivity; destruct b; reflexivity.
  - destruct y as [sy| | |sy my ey Hy]; try discriminate Fy; destruct y' as [sy'| | |sy' my' ey' Hy']; try discriminate Fy'; destruct x as [|sx| |]; try discriminate Nx; right; split; try reflexivity; destruct b; reflexivity.
  - destruct x as [|sx| |]; try discriminate Nx; destruct y as [|sy| |]; try discriminate Ny; right; split; try (destruct sx, sy; reflexivity); destruct b; try reflexivity; destruct sx, sy; reflexivity.
Qed.
Lemma mir_add b x x' y y' : mir b x x' -> mir b y y' -> mir b (gadd x y) (gadd x' y').
Proof.
  intros [(Fx & Fx' & Vx)|(Nx & ->)] [(Fy & Fy' & Vy)|(Ny & ->)].
  - pose proof (Bplus_correct 24 128 p24 pe24 mode_NE x y Fx Fy) as C. pose proof (Bplus_correct 24 128 p24 pe24 mode_NE x' y' Fx' Fy') as D. cbv zeta in C, D.
    change (Bplus mode_NE x y) with (gadd x y) in C. change (Bplus mode_NE x' y') with (gadd x' y') in D. change (round_mode mode_NE) with ZnearestE in *.
    rewrite Vx, Vy, cneg_plus, cneg_round, cneg_abs in D. destruct (Rlt_bool _ _) eqn:S.
    + destruct C as (C1 & C2 & _), D as (D1 & D2 & _). left. split; [exact C2|split; [exact D2|]]. rewrite D1, C1. reflexivity.
    + apply not_small in S. destruct C as (C & SC), D as (D & SD). apply inf_of_SF in C, D. apply (inf_mir b _ _ _ C). rewrite D. f_equal.
      destruct (Req_dec (B2R x) 0) as [Z|N]; [|apply (sign_val x x' b Vx N)].
      rewrite SC, SD, (sign_val y y' b Vy); [|intros E; apply S; rewrite Z, E; ring]. now destruct b, (Bsign y).
  - destruct x as [sx| | |sx mx ex Hx]; try discriminate Fx; destruct x' as [sx'| | |sx' mx' ex' Hx']; try discriminate Fx'; destruct y as [|sy| |]; try discriminate Ny; right; split; try reflexivity; destruct b; reflexivity.
  - destruct y as [sy| | |sy my ey Hy]; try discriminate Fy; destruct y' as [sy'| | |sy' my' ey' Hy']; try discriminate Fy'; destruct x as [|sx| |]; try discriminate Nx; right; split; try reflexivity; destruct b; reflexivity.
  - destruct x as [|sx| |]; try discriminate Nx; destruct y as [|sy| |]; try discriminate Ny; right; split; try (destruct sx, sy; reflexivity); destruct b; try reflexivity; destruct sx, sy; reflexivity.
Qed.
Lemma zero_val s : B2R (B754_zero s : f32) = 0. Proof. reflexivity. Qed.
Lemma finite_nonzero s m e H : B2R (B754_finite s m e H : f32) <> 0.
Proof. cbn [B2R]. apply F2R_neq_0. destruct s; discriminate. Qed.
(** times the same number *)
Lemma mir_mul b c x x' y y' : mir b x x' -> mir c y y' -> mir (xorb b c) (gmul x y) (gmul x' y').
Proof.
  intros [(Fx & Fx' & Vx)|(Nx & ->)] [(Fy & Fy' & Vy)|(Ny & ->)].
  - pose proof (Bmult_correct 24 128 p24 pe24 mode_NE x y) as C. pose proof (Bmult_correct 24 128 p24 pe24 mode_NE x' y') as D. cbv zeta in C, D.
    change (Bmult mode_NE x y) with (gmul x y) in C. change (Bmult mode_NE x' y') with (gmul x' y') in D. change (round_mode mode_NE) with ZnearestE in *.
    rewrite Vx, Vy, cneg_mult, cneg_round, cneg_abs in D. destruct (Rlt_bool _ _) eqn:S.
    + destruct C as (C1 & C2 & _), D as (D1 & D2 & _). left. split; [exact (eq_trans C2 (andb_true_intro (conj Fx Fy)))|split; [exact (eq_trans D2 (andb_true_intro (conj Fx' Fy')))|]]. rewrite D1, C1. reflexivity.
    + apply not_small in S. apply inf_of_SF in C, D. apply (inf_mir (xorb b c) _ _ _ C). rewrite D. f_equal.
      rewrite (sign_val x x' b Vx), (sign_val y y' c Vy); [now destruct b, c, (Bsign x), (Bsign y)|intros E; apply S; rewrite E; ring|intros E; apply S; rewrite E; ring].
  - destruct y as [|sy| |]; try discriminate Ny; [|right; destruct x as [sx| | |sx mx ex Hx]; try discriminate Fx; destruct x' as [sx'| | |sx' mx' ex' Hx']; try discriminate Fx'; (split; [reflexivity|]); destruct (xorb b c), c; reflexivity].
    destruct x as [sx| | |sx mx ex Hx]; try discriminate Fx.
    + assert (V0 : B2R x' = 0) by (rewrite Vx, zero_val; destruct b; cbn; ring). destruct (zero_form x' Fx' V0) as (s' & ->). right. split; [reflexivity|]. destruct (xorb b c), c; reflexivity.
    + pose proof (sign_val _ x' b Vx (finite_nonzero _ _ _ _)) as SV. cbn [Bsign] in SV. destruct x' as [sx'| | |sx' mx' ex' Hx']; try discriminate Fx'; [exfalso; rewrite zero_val in Vx; apply (finite_nonzero sx mx ex Hx); destruct b; cbn [cneg] in Vx; lra|]. cbn [Bsign] in SV. subst sx'.
      apply (inf_mir (xorb b c) _ _ (xorb sx sy)); [reflexivity|]. destruct c; cbn [Bopp]; unfold gmul, Bmult; f_equal; destruct b, sx, sy; reflexivity.
  - destruct x as [|sx| |]; try discriminate Nx; [|right; destruct y as [sy| | |sy my ey Hy]; try discriminate Fy; destruct y' as [sy'| | |sy' my' ey' Hy']; try discriminate Fy'; (split; [reflexivity|]); destruct (xorb b c), b; reflexivity].
    destruct y as [sy| | |sy my ey Hy]; try discriminate Fy.
    + assert (V0 : B2R y' = 0) by (rewrite Vy, zero_val; destruct c; cbn; ring). destruct (zero_form y' Fy' V0) as (s' & ->). right. split; [reflexivity|]. destruct (xorb b c), b; reflexivity.
    + pose proof (sign_val _ y' c Vy (finite_nonzero _ _ _ _)) as SV. cbn [Bsign] in SV. destruct y' as [sy'| | |sy' my' ey' Hy']; try discriminate Fy'; [exfalso; rewrite zero_val in Vy; apply (finite_nonzero sy my ey Hy); destruct c; cbn [cneg] in Vy; lra|]. cbn [Bsign] in SV. subst sy'.
      apply (inf_mir (xorb b c) _ _ (xorb sx sy)); [reflexivity|]. destruct b; cbn [Bopp]; unfold gmul, Bmult; f_equal; destruct c, sx, sy; reflexivity.
  - destruct x as [|sx| |]; try discriminate Nx; destruct y as [|sy| |]; try discriminate Ny; right; (split; [reflexivity|]); destruct b, c; try reflexivity; cbn [Bopp xorb]; unfold gmul, Bmult; try (f_equal; destruct sx, sy; reflexivity).
Qed.
Lemma mir_square b x x' : mir b x x' -> gmul x x = gmul x' x'.
Proof.
  intros [(Fx & Fx' & Vx)|(Nx & ->)].
  - apply square_same; [exact Fx|exact Fx'|]. rewrite Vx, cneg_abs. reflexivity.
  - destruct b; [|reflexivity]. destruct x as [|s| |]; try discriminate Nx; [|reflexivity]. cbn [Bopp]. unfold gmul, Bmult. f_equal. now destruct s.
Qed.
Lemma mir_eq x x' : mir false x x' -> B2R x <> 0 -> x = x'.
Proof.
  intros [(F & F' & V)|(N & E)] Z; [|now symmetry]. cbn [cneg] in V. apply B2R_Bsign_inj; [exact F|exact F'|now symmetry|]. rewrite (sign_val x x' false V Z). now destruct (Bsign x).
Qed.
Lemma gadd_comm (x y : f32) : gadd x y = gadd y x.
Proof.
  destruct (is_finite x) eqn:Fx; [destruct (is_finite y) eqn:Fy|].
  - pose proof (Bplus_correct 24 128 p24 pe24 mode_NE x y Fx Fy) as C. pose proof (Bplus_correct 24 128 p24 pe24 mode_NE y x Fy Fx) as D. cbv zeta in C, D.
    change (Bplus mode_NE x y) with (gadd x y) in C. change (Bplus mode_NE y x) with (gadd y x) in D. rewrite (Rplus_comm (B2R y)) in D. destruct (Rlt_bool _ _).
    + destruct C as (C1 & C2 & C3), D as (D1 & D2 & D3). apply B2R_Bsign_inj; [exact C2|exact D2|congruence|]. rewrite C3, D3, (andb_comm (Bsign y)). reflexivity.
    + destruct C as (C & SC), D as (D & SD). apply B2SF_inj. rewrite C, D, SC. reflexivity.
  - destruct x as [[]| | |[] m e E]; try discriminate Fx; destruct y as [|[]| |]; try discriminate Fy; reflexivity.
  - destruct x as [|[]| |]; try discriminate Fx; destruct y as [[]|[]| |[] m e E]; reflexivity.
Qed.

(** Proof scripts for C112: scanning a number with underscores. *)
From Coq Require Import Reals Lia.
From Verif Require Import GoString BaseLemmas SpecNumbers SpecLiterals.
Open Scope Z_scope.

Notation plain := without_underscores.
Definition under (s : str) : bool := existsb (fun c => Ascii.eqb c "_") s.
Lemma under_app a b : under (a ++ b) = under a || under b. Proof. apply existsb_app. Qed.
Lemma plain_app a b : plain (a ++ b) = plain a ++ plain b. Proof. apply filter_app. Qed.
Lemma plain_cons c s : Ascii.eqb c "_" = false -> plain (c :: s) = c :: plain s.
Proof. intros H. unfold plain. cbn [filter]. now rewrite H. Qed.
Lemma figure_dec hex c : figure hex c <-> (is_digit c || (hex && is_hex_letter c) = true).
Proof.
  unfold figure. split.
  - intros H. destruct hex; destruct c as [[] [] [] [] [] [] [] []]; vm_compute; try reflexivity; exfalso; vm_compute in H; intuition (try discriminate; congruence).
  - intros H. destruct hex; destruct c as [[] [] [] [] [] [] [] []]; vm_compute in H; try discriminate H; vm_compute; intuition (try discriminate).
Qed.
Lemma figure_in (hex : bool) c : digit_in (if hex then 16 else 10) c = if is_digit c || (hex && is_hex_letter c) then Some (figure_value c) else None.
Proof. destruct hex; destruct c as [[] [] [] [] [] [] [] []]; vm_compute; reflexivity. Qed.
Definition base (hex : bool) : Z := if hex then 16 else 10.
Definition horner (hex : bool) (v : Z) (s : str) : Z := fold_left (fun v c => v * base hex + figure_value c) s v.
Definition ofr (f : option str) : str := match f with None => [] | Some f => f end.
Definition dotted (f : option str) : str := match f with None => [] | Some f => "."%char :: f end.
Definition full (s : str) : bool := match s with [] => false | _ => true end.
Definition isome {A} (f : option A) : bool := match f with None => false | _ => true end.
Definition stops (hex : bool) (s : str) : Prop := match s with [] => True | x :: _ => ~ figure hex x end.
Lemma figure_not hex c : figure hex c -> Ascii.eqb c "_" = false /\ Ascii.eqb c "." = false /\ Ascii.eqb c "+" = false /\ Ascii.eqb c "-" = false.
Proof. intros H. apply figure_dec in H. destruct hex; destruct c as [[] [] [] [] [] [] [] []]; vm_compute in H; try discriminate H; repeat split; reflexivity. Qed.
Lemma scan hex : forall s v fr dg dot un, let r := read_mant (base hex) v fr dg dot un s in
  exists c i f, s = c ++ m_rest r /\ m_under r = un || under c /\ stops hex (m_rest r) /\ (forall x t, m_rest r = x :: t -> Ascii.eqb x "_" = false /\ (x = "."%char -> m_dot r = true)) /\
    plain c = i ++ dotted f /\ Forall (figure hex) (i ++ ofr f) /\ (dot = true -> f = None) /\ m_dot r = dot || isome f /\
    m_val r = horner hex v (i ++ ofr f) /\ m_frac r = fr + (if dot then zlen i else zlen (ofr f)) /\ m_digits r = dg || full (i ++ ofr f).
Proof.
  assert (Z0 : zlen (@nil ascii) = 0) by reflexivity.
  induction s as [|c0 r IH]; intros v fr dg dot un.
  - cbn [read_mant]. exists [], [], None. cbn [m_rest m_under m_dot m_val m_frac m_digits app under existsb ofr dotted isome full stops horner fold_left]. rewrite Z0, !orb_false_r. repeat split; auto; try discriminate. destruct dot; lia.
  - cbn [read_mant]. destruct (Ascii.eqb c0 "_") eqn:EU.
    { destruct (IH v fr dg dot true) as (c & i & f & A & B & C & D & E & F). cbv zeta. exists (c0 :: c), i, f. split; [cbn [app]; now f_equal|]. split; [rewrite B; cbn [under existsb]; rewrite EU; now destruct un|]. split; [exact C|]. split; [exact D|]. split; [unfold plain; cbn [filter]; rewrite EU; exact E|exact F]. }
    destruct (Ascii.eqb_spec c0 ".") as [->|ND].
    { destruct dot.
      - exists [], [], None. cbn [m_rest m_under m_dot m_val m_frac m_digits app under existsb ofr dotted isome full stops horner fold_left]. rewrite Z0, !orb_false_r, Z.add_0_r. repeat split; auto; try (intros; discriminate). + intros Q. apply figure_not in Q as (_ & Q & _). discriminate Q. + injection H as <- _. reflexivity.
      - destruct (IH v fr dg true un) as (c & i & f & A & B & C & D & E & F & G & H & I & J & K). cbv zeta. rewrite (G eq_refl) in *. cbn [ofr dotted] in *. rewrite app_nil_r in *. exists ("."%char :: c), [], (Some i). cbn [app ofr dotted isome orb]. split; [now f_equal|]. split; [exact B|]. split; [exact C|]. split; [exact D|]. split; [unfold plain; cbn [filter]; cbn; f_equal; exact E|]. split; [exact F|]. split; [discriminate|]. split; [exact H|]. split; [exact I|]. split; [exact J|exact K]. }
    pose proof (figure_in hex c0) as FI. fold (base hex) in FI. rewrite FI. clear FI. destruct (is_digit c0 || (hex && is_hex_letter c0)) eqn:EF.
    + apply figure_dec in EF. destruct (IH (v * base hex + figure_value c0) (if dot then fr + 1 else fr) true dot un) as (c & i & f & A & B & C & D & E & F & G & H & I & J & K). cbv zeta. exists (c0 :: c), (c0 :: i), f. split; [cbn [app]; now f_equal|]. split; [rewrite B; cbn [under existsb]; rewrite EU; reflexivity|]. split; [exact C|]. split; [exact D|]. split; [rewrite plain_cons by exact EU; cbn [app]; now f_equal|]. split; [cbn [app]; now constructor|]. split; [exact G|]. split; [exact H|]. split; [exact I|]. split; [|cbn [app full]; rewrite K, orb_true_r; reflexivity].
      rewrite J. destruct dot; [|reflexivity]. unfold zlen. cbn [length]. lia.
    + exists [], [], None. cbn [m_rest m_under m_dot m_val m_frac m_digits app under existsb ofr dotted isome full stops horner fold_left]. rewrite Z0, !orb_false_r. repeat split; auto; try discriminate; try (destruct dot; lia).
      * intros Q. apply figure_dec in Q. congruence.
      * injection H as <- _. exact EU.
      * injection H as <- _. contradiction.
Qed.
Lemma span hex a b x y : Forall (figure hex) a -> Forall (figure hex) b -> stops hex x -> stops hex y -> a ++ x = b ++ y -> a = b /\ x = y.
Proof.
  intros A. revert b. induction A as [|c a C A IH]; intros b B X Y E.
  - destruct B as [|d b D B]; [now split|]. cbn [app] in E. subst x. now elim X.
  - destruct B as [|d b D B]; [cbn [app] in E; subst y; now elim Y|]. cbn [app] in E. injection E as -> E. destruct (IH b B X Y E) as (-> & ->). now split.
Qed.
Lemma scan_exp : forall s e un, let '(e', un', rest) := read_exp e un s in
  exists c, s = c ++ rest /\ un' = un || under c /\ Forall (figure false) (plain c) /\ stops false rest /\ (forall x t, rest = x :: t -> Ascii.eqb x "_" = false) /\
    (0 <= e -> horner false e (plain c) < 100000 -> e' = horner false e (plain c)).
Proof.
  assert (GE : forall s e, Forall (figure false) s -> 0 <= e -> e <= horner false e s).
  { intros s e F. revert e. induction F as [|c s C F IH]; intros e E; [cbn; lia|]. change (horner false e (c :: s)) with (horner false (e * 10 + figure_value c) s). assert (0 <= figure_value c) by (unfold figure_value; destruct C as [C|(C & _)]; [|discriminate C]; destruct (byte_of c <=? 57) eqn:Q; lia). specialize (IH (e * 10 + figure_value c) ltac:(lia)). lia. }
  induction s as [|c0 r IH]; intros e un.
  - cbn [read_exp]. exists []. cbn. rewrite orb_false_r. repeat split; auto; try discriminate.
  - cbn [read_exp]. destruct (Ascii.eqb c0 "_") eqn:EU.
    { specialize (IH e true). destruct (read_exp e true r) as ((e', un'), rest). destruct IH as (c & A & B & C & D & E & F). exists (c0 :: c). split; [cbn [app]; now f_equal|]. split; [rewrite B; cbn [under existsb]; rewrite EU; now destruct un|]. unfold plain. cbn [filter]. rewrite EU. cbn [negb]. auto. }
    destruct (is_digit c0) eqn:ED.
    + specialize (IH (if e <? 10000 then e * 10 + digit_val c0 else e) un). destruct (read_exp _ un r) as ((e', un'), rest). destruct IH as (c & A & B & C & D & E & F). assert (FG : figure false c0) by (apply figure_dec; rewrite ED; reflexivity).
      assert (VV : figure_value c0 = digit_val c0 /\ 0 <= digit_val c0) by (unfold figure_value, digit_val; destruct FG as [Q|(Q & _)]; [|discriminate Q]; destruct (byte_of c0 <=? 57) eqn:Q'; lia). destruct VV as (VV & VP).
      exists (c0 :: c). rewrite plain_cons by exact EU. split; [cbn [app]; now f_equal|]. split; [rewrite B; cbn [under existsb]; rewrite EU; reflexivity|]. split; [now constructor|]. split; [exact D|]. split; [exact E|].
      intros P L. change (horner false e (c0 :: plain c)) with (horner false (e * 10 + figure_value c0) (plain c)) in *. rewrite VV in *. pose proof (GE (plain c) (e * 10 + digit_val c0) C ltac:(lia)). destruct (Z.ltb_spec e 10000); [|lia]. apply F; [lia|exact L].
    + exists []. cbn. rewrite orb_false_r. assert (NF : ~ figure false c0) by (intros Q; apply figure_dec in Q; rewrite ED in Q; discriminate Q). repeat split; auto. intros x t Q. now injection Q as <- _.
Qed.

(** ** The number behind sign and prefix *)
Definition mark (hex : bool) : ascii := if hex then "p"%char else "e"%char.
Definition scale (hex : bool) : Z := if hex then 4 else 1.
Definition read_body (hex : bool) (body : str) : option (Z * Z * bool) :=
  let mt := read_mant (base hex) 0 0 false false false body in
  if negb (m_digits mt) then None else
  match m_rest mt with
  | [] => if hex then None else Some (m_val mt, 0 - scale hex * m_frac mt, m_under mt)
  | c :: r =>
      if Ascii.eqb (lower c) (mark hex) then
        match snd (strip_sign r) with
        | d :: _ =>
            if is_digit d then
              match read_exp 0 (m_under mt) (snd (strip_sign r)) with
              | (e, un, []) => Some (m_val mt, (if fst (strip_sign r) then - e else e) - scale hex * m_frac mt, un)
              | _ => None
              end
            else None
        | [] => None
        end
      else None
  end.
Definition cut (s : str) : bool * str :=
  match s with
  | c :: x :: (_ :: _) as r0 => if Ascii.eqb c "0" && Ascii.eqb (lower x) "x" then (true, skipn 2 s) else (false, s)
  | _ => (false, s)
  end.
Lemma cut_base s : (match s with "0"%char :: x :: (_ :: _) as r0 => if Ascii.eqb (lower x) "x" then (16, skipn 2 s) else (10, s) | _ => (10, s) end) = (base (fst (cut s)), snd (cut s)).
Proof.
  unfold cut. destruct s as [|c [|x [|y r]]]; [reflexivity|destruct c as [[] [] [] [] [] [] [] []]; reflexivity|destruct c as [[] [] [] [] [] [] [] []]; reflexivity|].
  destruct (Ascii.eqb_spec c "0") as [->|N]; [destruct (Ascii.eqb (lower x) "x"); reflexivity|]. cbn [andb fst snd base]. destruct c as [[] [] [] [] [] [] [] []]; try reflexivity. now elim N.
Qed.
Lemma read_float_cut s0 : let '(neg, s) := strip_sign s0 in let '(hex, body) := cut s in
  read_float s0 = match read_body hex body with
                  | None => None
                  | Some (m, e, un) => if un && negb (underscore_ok s0) then None else Some (if hex then NumHex neg m e else NumDec neg m e)
                  end.
Proof.
  unfold read_float. destruct (strip_sign s0) as (neg, s). destruct (cut s) as (hex, body) eqn:EC. pose proof (cut_base s) as CB. rewrite EC in CB. cbn [fst snd] in CB.
  match goal with |- (let '(b, d) := ?X in _) = _ => replace X with (base hex, body) by (symmetry; exact CB) end. clear CB EC. cbv beta iota zeta. unfold read_body. cbv zeta. set (mt := read_mant (base hex) 0 0 false false false body). clearbody mt.
  destruct (negb (m_digits mt)); [reflexivity|]. destruct (m_rest mt) as [|c r].
  - destruct hex; cbn [base]; [reflexivity|]. change (10 =? 16) with false. cbv iota. destruct (m_under mt && negb (underscore_ok s0)); [reflexivity|]. cbn [scale]. do 2 f_equal. lia.
  - assert (EM : (if base hex =? 16 then "p"%char else "e"%char) = mark hex) by (destruct hex; reflexivity). rewrite EM. destruct (Ascii.eqb (lower c) (mark hex)); [|reflexivity]. destruct (strip_sign r) as (eneg, r'). cbn [fst snd]. destruct r' as [|d r2]; [reflexivity|]. destruct (is_digit d); [|reflexivity].
    destruct (read_exp 0 (m_under mt) (d :: r2)) as ((e, un), rest). destruct rest; [|reflexivity]. destruct (un && negb (underscore_ok s0)); [reflexivity|]. destruct hex; cbn [base scale]; [reflexivity|]. change (10 =? 16) with false. cbv iota. do 2 f_equal. lia.
Qed.
Definition form (hex : bool) (i : str) (f : option str) (x : option (bool * sign * str)) : str :=
  i ++ dotted f ++ match x with None => [] | Some (up, s, ds) => lit (exp_letter hex up) ++ sign_str s ++ ds end.
Definition fine (hex : bool) (i : str) (f : option str) (x : option (bool * sign * str)) : Prop :=
  Forall (figure hex) (i ++ ofr f) /\ i ++ ofr f <> [] /\ match x with None => hex = false | Some (_, _, ds) => Forall (figure false) ds /\ ds <> [] end.
Lemma strip_cases r : exists s, r = sign_str s ++ snd (strip_sign r) /\ fst (strip_sign r) = is_minus s.
Proof.
  destruct r as [|c r]; [exists Unsigned; now split|]. destruct (Ascii.eqb_spec c "+") as [->|N1]; [exists Plus; now split|]. destruct (Ascii.eqb_spec c "-") as [->|N2]; [exists Minus; now split|].
  exists Unsigned. cbn [sign_str app is_minus]. destruct c as [[] [] [] [] [] [] [] []]; try (split; reflexivity); congruence.
Qed.
Lemma mark_letter hex c : Ascii.eqb (lower c) (mark hex) = true -> exists up, [c] = lit (exp_letter hex up).
Proof. intros H. destruct hex; destruct c as [[] [] [] [] [] [] [] []]; vm_compute in H; try discriminate H; first [exists true; reflexivity|exists false; reflexivity]. Qed.
Lemma plain_sign s : plain (sign_str s) = sign_str s /\ under (sign_str s) = false. Proof. destruct s; split; reflexivity. Qed.
Lemma letter_facts hex up : exists c, lit (exp_letter hex up) = [c] /\ Ascii.eqb (lower c) (mark hex) = true /\ Ascii.eqb c "_" = false /\ Ascii.eqb c "." = false /\ ~ figure hex c.
Proof. assert (N : forall c, is_digit c || (hex && is_hex_letter c) = false -> ~ figure hex c) by (intros c H Q; apply figure_dec in Q; congruence). destruct hex, up; eexists; (split; [reflexivity|]); (split; [reflexivity|]); (split; [reflexivity|]); (split; [reflexivity|]); apply N; reflexivity. Qed.
Lemma body_some hex body m e un : read_body hex body = Some (m, e, un) -> un = under body /\ exists i f x, plain body = form hex i f x /\ fine hex i f x.
Proof.
  unfold read_body. cbv zeta. destruct (scan hex body 0 0 false false false) as (c & i & f & A & B & C & D & E & F & _ & G & H & I & J). cbn [orb] in *. set (mt := read_mant (base hex) 0 0 false false false body) in *. clearbody mt. rewrite J.
  destruct (full (i ++ ofr f)) eqn:FU; [|discriminate]. cbn [negb]. assert (NE : i ++ ofr f <> []) by (intros Q; rewrite Q in FU; discriminate FU). destruct (m_rest mt) as [|k r].
  - destruct hex; [discriminate|]. intros Q. injection Q as _ _ <-. rewrite app_nil_r in A. subst c. split; [exact B|]. exists i, f, None. split; [unfold form; rewrite app_nil_r; exact E|]. split; [exact F|]. split; [exact NE|reflexivity].
  - destruct (Ascii.eqb (lower k) (mark hex)) eqn:EM; [|discriminate]. destruct (strip_cases r) as (s & R & _). destruct (snd (strip_sign r)) as [|d r2] eqn:ER; [discriminate|]. destruct (is_digit d) eqn:ED; [|discriminate].
    pose proof (scan_exp (d :: r2) 0 (m_under mt)) as X. destruct (read_exp 0 (m_under mt) (d :: r2)) as ((e', un'), rest). destruct X as (c2 & A2 & B2 & C2 & _). destruct rest; [|discriminate]. rewrite app_nil_r in A2. intros Q. injection Q as _ _ <-.
    destruct (D k r eq_refl) as (NU & _). split.
    + rewrite B2, B, A, under_app. change (under (k :: r)) with (Ascii.eqb k "_" || under r). rewrite NU, R, under_app, (proj2 (plain_sign s)), A2. reflexivity.
    + destruct (mark_letter hex k EM) as (up & EL). exists i, f, (Some (up, s, plain c2)). split.
      * unfold form. rewrite <- EL. rewrite A, plain_app, E, (plain_cons k r NU), R, plain_app, (proj1 (plain_sign s)), A2, <- app_assoc. reflexivity.
      * split; [exact F|]. split; [exact NE|]. split; [exact C2|]. rewrite <- A2. assert (FG : figure false d) by (apply figure_dec; now rewrite ED). destruct (figure_not false d FG) as (Q & _). rewrite plain_cons by exact Q. discriminate.
Qed.
Definition pw (x : option (bool * sign * str)) : Z := match x with None => 0 | Some (_, s, ds) => signed s (denotes 10 ds) end.
Lemma plain_stops hex s : stops hex s -> (forall x t, s = x :: t -> Ascii.eqb x "_" = false) -> stops hex (plain s) /\ (plain s = [] -> s = []).
Proof. destruct s as [|x t]; [intros _ _; split; [exact I|reflexivity]|]. intros S H. rewrite plain_cons by (now apply (H x t)). split; [exact S|discriminate]. Qed.
Lemma not_dot hex : ~ figure hex "."%char. Proof. intros H. apply figure_not in H as (_ & H & _). discriminate H. Qed.
Lemma body_all hex body i f x : plain body = form hex i f x -> fine hex i f x -> separated hex body ->
  exists e, read_body hex body = Some (horner hex 0 (i ++ ofr f), e, under body) /\ (Z.abs (pw x) < 100000 -> e = pw x - scale hex * zlen (ofr f)).
Proof.
  intros PF (FG & NE & XX) SP. unfold read_body. cbv zeta. destruct (scan hex body 0 0 false false false) as (c & i' & f' & A & B & C & D & E & F & _ & G & H & I & J). cbn [orb] in *. set (mt := read_mant (base hex) 0 0 false false false body) in *. clearbody mt.
  set (T := match x with None => [] | Some (up, s, ds) => lit (exp_letter hex up) ++ sign_str s ++ ds end) in *. assert (ST : stops hex T /\ forall r, T <> "."%char :: r).
  { subst T. destruct x as [((up, s), ds)|]; [|split; [exact Logic.I|discriminate]]. destruct (letter_facts hex up) as (k & -> & _ & _ & K & NF). split; [exact NF|]. intros r Q. cbn [app] in Q. injection Q as -> _. discriminate K. }
  destruct ST as (ST & TD). destruct (plain_stops hex (m_rest mt) C (fun x t Q => proj1 (D x t Q))) as (SR & NR).
  assert (U : i' = i /\ f' = f /\ plain (m_rest mt) = T).
  { rewrite A, plain_app, E, <- app_assoc in PF. unfold form in PF. fold T in PF. apply Forall_app in F as (Fi & Ff). apply Forall_app in FG as (Gi & Gf).
    apply span with (hex := hex) in PF as (-> & PF); [|exact Fi|exact Gi|destruct f'; [exact (not_dot hex)|exact SR]|destruct f; [exact (not_dot hex)|exact ST]]. split; [reflexivity|].
    destruct f' as [f'|], f as [f|]; cbn [dotted app ofr] in *.
    - injection PF as PF. apply span with (hex := hex) in PF as (-> & PF); auto.
    - now elim (TD (f' ++ plain (m_rest mt))).
    - exfalso. destruct (m_rest mt) as [|k t]; [discriminate PF|]. destruct (D k t eq_refl) as (NU & DOT). rewrite plain_cons in PF by exact NU. injection PF as -> _. specialize (DOT eq_refl). rewrite G in DOT. discriminate DOT.
    - auto. }
  destruct U as (-> & -> & RT). rewrite H, I, J. assert (FU : full (i ++ ofr f) = true) by (destruct (i ++ ofr f); [now elim NE|reflexivity]). rewrite FU. cbn [negb]. subst T. destruct x as [((up, s), ds)|].
  - destruct XX as (FD & ND). destruct (letter_facts hex up) as (k & EL & K1 & K2 & K3 & K4). rewrite EL in RT. cbn [app] in RT. destruct (m_rest mt) as [|k' t]; [discriminate RT|]. destruct (D k' t eq_refl) as (NU & _). rewrite plain_cons in RT by exact NU. injection RT as -> RT. rewrite K1.
    assert (NEXT : forall a y b, body = a ++ y :: b -> ~ figure hex y -> Ascii.eqb y "_" = false -> forall z b', b = z :: b' -> Ascii.eqb z "_" = false).
    { intros a y b EB NF NY z b' ->. destruct (Ascii.eqb_spec z "_") as [->|]; [|reflexivity]. exfalso. destruct (SP (a ++ [y]) b') as ([(_ & Q)|(a' & c' & Q & Q')] & _); [rewrite EB, <- app_assoc; reflexivity|destruct a; discriminate Q|]. apply app_inj_tail in Q as (_ & ->). contradiction. }
    assert (T2 : exists t2, strip_sign t = (is_minus s, t2) /\ t = sign_str s ++ t2 /\ plain t2 = ds /\ exists d t3, t2 = d :: t3 /\ figure false d).
    { assert (N1 := NEXT c k t A K4 NU). destruct t as [|z t]; [exfalso; destruct s; cbn in RT; [|discriminate RT|discriminate RT]; now apply ND|]. pose proof (N1 z t eq_refl) as NZ. rewrite plain_cons in RT by exact NZ.
      assert (SG : forall sg, s = sg -> sg <> Unsigned -> exists t2, strip_sign (z :: t) = (is_minus s, t2) /\ z :: t = sign_str s ++ t2 /\ plain t2 = ds /\ exists d t3, t2 = d :: t3 /\ figure false d).
      { intros sg -> NUn. assert (EZ : [z] = sign_str sg /\ plain t = ds) by (destruct sg; [congruence| |]; cbn in RT; injection RT as -> RT; split; auto). destruct EZ as (EZ & ET). assert (ZF : ~ figure hex z) by (intros Q; apply figure_not in Q as (_ & _ & Q1 & Q2); destruct sg; cbn in EZ; [congruence| |]; injection EZ as ->; discriminate).
        exists t. split; [destruct sg; cbn in EZ; [congruence| |]; injection EZ as ->; reflexivity|]. split; [rewrite <- EZ; reflexivity|]. split; [exact ET|]. destruct t as [|d t3]; [cbn in ET; congruence|]. assert (NDd := NEXT (c ++ [k]) z (d :: t3)). rewrite <- app_assoc in NDd. specialize (NDd A ZF NZ d t3 eq_refl). rewrite plain_cons in ET by exact NDd. exists d, t3. split; [reflexivity|]. subst ds. now inversion FD. }
      destruct s; [|apply (SG Plus); [reflexivity|discriminate]|apply (SG Minus); [reflexivity|discriminate]]. clear SG. cbn [sign_str app] in RT. subst ds. inversion FD as [|? ? FZ FD']; subst. exists (z :: t). destruct (figure_not false z FZ) as (_ & _ & Q1 & Q2). split; [|split; [reflexivity|split; [now rewrite plain_cons by exact NZ|eauto]]].
      clear -Q1 Q2. destruct z as [[] [] [] [] [] [] [] []]; try reflexivity; vm_compute in Q1, Q2; discriminate. }
    destruct T2 as (t2 & SS & ET & PD & d & t3 & ET2 & FZ). rewrite SS. cbn [fst snd]. rewrite ET2. assert (DG : is_digit d = true) by (apply figure_dec in FZ; cbn [andb] in FZ; now rewrite orb_false_r in FZ). rewrite DG, <- ET2.
    pose proof (scan_exp t2 0 (m_under mt)) as X. destruct (read_exp 0 (m_under mt) t2) as ((e', un'), rest). destruct X as (c2 & A2 & B2 & C2 & D2 & E2 & F2). assert (R0 : rest = []).
    { destruct rest as [|y rest]; [reflexivity|exfalso]. pose proof (E2 y rest eq_refl) as NY. rewrite A2, plain_app, plain_cons in PD by exact NY. rewrite <- PD in FD. apply Forall_app in FD as (_ & FD). inversion FD; subst. now apply D2. }
    subst rest. rewrite app_nil_r in A2. subst c2. rewrite PD in *. exists ((if is_minus s then - e' else e') - scale hex * zlen (ofr f)). split.
    + rewrite Z.add_0_l. do 2 f_equal. rewrite B2, B, A, under_app. change (under (k :: t)) with (Ascii.eqb k "_" || under t). rewrite NU, ET, under_app, (proj2 (plain_sign s)). reflexivity.
    + cbn [pw]. change (denotes 10 ds) with (horner false 0 ds). intros L. assert (e' = horner false 0 ds) by (apply F2; [lia|]; unfold signed in L; destruct (is_minus s); lia). subst e'. unfold signed. destruct (is_minus s); reflexivity.
  - subst hex. assert (R0 : m_rest mt = []) by (now apply NR). rewrite R0 in *. rewrite app_nil_r in A. subst c. exists (0 - scale false * zlen (ofr f)). split; [rewrite Z.add_0_l, B; reflexivity|reflexivity].
Qed.

(** ** Underscores *)
Definition sep (hex : bool) (saw : saw_t) (s : str) : Prop := forall a b, s = a ++ "_"%char :: b ->
  ((a = [] /\ saw = SawDigit) \/ exists a' c, a = a' ++ [c] /\ figure hex c) /\ exists c b', b = c :: b' /\ figure hex c.
Lemma sep_skip hex saw saw' c r : Ascii.eqb c "_" = false -> (saw' = SawDigit <-> figure hex c) -> (sep hex saw (c :: r) <-> sep hex saw' r).
Proof.
  intros NU S. split; intros H a b E.
  - destruct (H (c :: a) b) as (B & AF); [cbn [app]; now f_equal|]. split; [|exact AF]. destruct B as [(Q & _)|(a' & c' & Q & FC)]; [discriminate Q|]. destruct a as [|y a].
    + left. split; [reflexivity|]. apply S. change [c] with ([] ++ [c]) in Q. apply app_inj_tail in Q as (_ & ->). exact FC.
    + right. destruct a' as [|z a']; [cbn in Q; destruct a; discriminate Q|]. cbn [app] in Q. injection Q as _ Q. exists a', c'. now split.
  - destruct a as [|y a]; [cbn in E; injection E as -> _; discriminate NU|]. cbn [app] in E. injection E as <- E. destruct (H a b E) as (B & AF). split; [|exact AF]. right. destruct B as [(-> & Q)|(a' & c' & -> & FC)]; [exists [], c; split; [reflexivity|now apply S]|exists (c :: a'), c'; now split].
Qed.
Lemma loop_iff hex : forall s saw, underscore_loop hex saw s = true <-> sep hex saw s /\ (saw = SawUnder -> exists c b, s = c :: b /\ figure hex c).
Proof.
  induction s as [|c r IH]; intros saw.
  - cbn [underscore_loop]. split.
    + intros H. split; [intros a b E; destruct a; discriminate E|]. intros ->. discriminate H.
    + intros (_ & H). destruct saw; try reflexivity. destruct (H eq_refl) as (c & b & Q & _). discriminate Q.
  - cbn [underscore_loop]. destruct (is_digit c || (hex && is_hex_letter c)) eqn:EF.
    { apply figure_dec in EF. destruct (figure_not hex c EF) as (NU & _). rewrite IH, (sep_skip hex saw SawDigit c r NU) by tauto. split; intros (A & _); (split; [exact A|]); [eauto|discriminate]. }
    assert (NF : ~ figure hex c) by (intros Q; apply figure_dec in Q; congruence). destruct (Ascii.eqb_spec c "_") as [->|NC].
    + assert (K : underscore_loop hex SawUnder r = true /\ saw = SawDigit <-> sep hex saw ("_"%char :: r) /\ (saw = SawUnder -> exists c b, "_"%char :: r = c :: b /\ figure hex c)).
      { rewrite IH. split.
        - intros ((A & B) & ->). split; [|discriminate]. intros a b E. destruct a as [|y a]; [cbn in E; injection E as <-; split; [left; now split|now apply B]|]. cbn [app] in E. injection E as <- E. destruct (A a b E) as ([(-> & Q)|(a' & c' & -> & FC)] & AF); [discriminate Q|]. split; [|exact AF]. right. exists ("_"%char :: a'), c'. now split.
        - intros (A & B). destruct (A [] r eq_refl) as ([(_ & ->)|(a' & c' & Q & _)] & AF); [|destruct a'; discriminate Q]. split; [|reflexivity]. split; [|intros _; exact AF]. intros a b E. destruct (A ("_"%char :: a) b) as (BB & CC); [cbn [app]; now f_equal|]. split; [|exact CC]. destruct BB as [(Q & _)|(a' & c' & Q & FC)]; [discriminate Q|]. right. destruct a as [|y a].
          + exfalso. change ["_"%char] with ([] ++ ["_"%char]) in Q. apply app_inj_tail in Q as (_ & <-). contradiction.
          + destruct a' as [|z a']; [cbn in Q; destruct a; discriminate Q|]. cbn [app] in Q. injection Q as _ Q. exists a', c'. now split. }
      destruct saw; (split; [intros H|intros H]); try discriminate H; try (apply K in H as (_ & Q); discriminate Q); [apply K; now split|apply K in H; apply H].
    + assert (NU : Ascii.eqb c "_" = false) by (now apply Ascii.eqb_neq). destruct saw.
      * rewrite IH, (sep_skip hex SawStart SawOther c r NU) by (split; [discriminate|contradiction]). split; intros (A & _); (split; [exact A|discriminate]).
      * rewrite IH, (sep_skip hex SawDigit SawOther c r NU) by (split; [discriminate|contradiction]). split; intros (A & _); (split; [exact A|discriminate]).
      * split; [discriminate|]. intros (_ & H). destruct (H eq_refl) as (c' & b & Q & FC). injection Q as <- _. contradiction.
      * rewrite IH, (sep_skip hex SawOther SawOther c r NU) by (split; [discriminate|contradiction]). split; intros (A & _); (split; [exact A|discriminate]).
Qed.

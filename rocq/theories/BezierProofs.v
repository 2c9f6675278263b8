(** Proofs about the Bezier flattening: the buffer-recycling loop against the
    recursive subdivision. *)
From Coq Require Import Permutation.
From Verif Require Import Curves SpecCurves BaseLemmas.
Import ListNotations.
Open Scope nat_scope.

Section WithLibm.
Context {M : libm}.

(** ** Rows *)
Lemma row_length p : length (row p) = length p - 1.
Proof.
  induction p as [|a p IH]; [reflexivity|]. destruct p as [|b p]; [reflexivity|].
  change (row (a :: b :: p)) with (mid a b :: row (b :: p)). cbn [length]. rewrite IH. cbn [length]. lia.
Qed.
Lemma triangle_length n p : length (triangle n p) = n.
Proof. revert p. induction n; intros p; cbn; [reflexivity|now rewrite IHn]. Qed.
Lemma left_half_length p : length (left_half p) = length p.
Proof. unfold left_half. now rewrite map_length, triangle_length. Qed.
Lemma right_half_length p : length (right_half p) = length p.
Proof. unfold right_half. now rewrite rev_length, map_length, triangle_length. Qed.
Lemma left_half_hd p : hd vzero (left_half p) = hd vzero p.
Proof. destruct p; reflexivity. Qed.
Lemma right_half_last p : last (right_half p) vzero = last p vzero.
Proof. destruct p as [|a p]; [reflexivity|]. unfold right_half. cbn [length triangle map rev]. apply last_last. Qed.
Lemma both_halves_length p : length (both_halves p) = 2 * length p - 1.
Proof.
  unfold both_halves. rewrite app_length, left_half_length. pose proof (right_half_length p) as H.
  destruct (right_half p) as [|x r]; cbn [tl length] in *; lia.
Qed.

Lemma is_flat_spec p : is_flat p = true <-> flat_enough p.
Proof.
  induction p as [|a p IH].
  - split; [intros _ i x y z H; destruct i; discriminate H|reflexivity].
  - destruct p as [|b [|c p]].
    1,2: split; [intros _ i x y z H1 H2 H3; destruct i as [|[|i]]; cbn in *; try discriminate; destruct i; discriminate|reflexivity].
    change (is_flat (a :: b :: c :: p)) with
      (if ggt (vlensq (vadd (vsub a (vscl b (gq 2 1))) c)) (gq 1 4) then false else is_flat (b :: c :: p)).
    destruct (ggt (vlensq (vadd (vsub a (vscl b (gq 2 1))) c)) (gq 1 4)) eqn:E.
    + split; [discriminate|]. intros H. exfalso. apply (H 0 a b c); auto.
    + rewrite IH. split; intros H.
      * intros [|i] x y z H1 H2 H3.
        { cbn in H1, H2, H3. injection H1 as <-. injection H2 as <-. injection H3 as <-. unfold bent. rewrite E. discriminate. }
        exact (H i x y z H1 H2 H3).
      * intros i x y z H1 H2 H3. exact (H (S i) x y z H1 H2 H3).
Qed.
Lemma is_flat_false p : is_flat p = false <-> ~ flat_enough p.
Proof. rewrite <- is_flat_spec. destruct (is_flat p); split; congruence. Qed.

(** ** Heap steps *)
Definition buf (h : bheap) (a : nat) (b : list vec) : Prop := nth_error h a = Some b.
Lemma nth_mid {A} (d : list A) x r : nth_error (d ++ x :: r) (length d) = Some x.
Proof. rewrite nth_error_app2 by lia. now rewrite Nat.sub_diag. Qed.
Lemma hget_buf h a b i v : buf h a b -> nth_error b i = Some v -> hget h a i = Ok v.
Proof. unfold buf, hget. intros -> ->. reflexivity. Qed.
Lemma hset_buf h a b i v : buf h a b -> i < length b -> hset h a i v = Ok (upd h a (upd b i v)).
Proof. unfold buf, hset. intros -> L. apply Nat.ltb_lt in L. now rewrite L. Qed.
Lemma buf_upd h a b b' : buf h a b -> buf (upd h a b') a b'.
Proof.
  unfold buf. intros H. rewrite nth_upd. rewrite Nat.eqb_refl. assert (L : a < length h) by (apply nth_error_Some; congruence).
  apply Nat.ltb_lt in L. now rewrite L.
Qed.
Lemma buf_other (h : bheap) a b' c : a <> c -> nth_error (upd h a b') c = nth_error h c.
Proof. intros H. rewrite nth_upd. destruct (Nat.eqb_spec a c); [congruence|reflexivity]. Qed.
(** h' differs from h at most in the buffers listed *)
Definition only (S : list nat) (h h' : bheap) : Prop :=
  length h' = length h /\ forall c, ~ In c S -> nth_error h' c = nth_error h c.
Lemma only_refl S h : only S h h.
Proof. split; auto. Qed.
Lemma only_trans S h1 h2 h3 : only S h1 h2 -> only S h2 h3 -> only S h1 h3.
Proof. intros [L1 E1] [L2 E2]. split; [congruence|]. intros c Hc. rewrite E2, E1; auto. Qed.
Lemma only_upd S h a b : In a S -> only S h (upd h a b).
Proof. intros I. split; [apply upd_length|]. intros c Hc. apply buf_other. intros ->. contradiction. Qed.
Lemma only_incl S S' h h' : incl S S' -> only S h h' -> only S' h h'.
Proof. intros I [L E]. split; [exact L|]. intros c Hc. apply E. intros H. apply Hc, I, H. Qed.
Lemma only_buf S h h' a b : only S h h' -> ~ In a S -> buf h a b -> buf h' a b.
Proof. intros [_ E] N H. unfold buf. now rewrite E. Qed.

(** copying one buffer into another *)
Lemma copy_loop (src dst : nat) (fs fd : nat -> nat) : src <> dst ->
  forall s s0 s1 dd d0 d1 i0 h,
  buf h src (s0 ++ s ++ s1) -> buf h dst (d0 ++ dd ++ d1) -> length dd = length s ->
  (forall k, fs (i0 + k) = length s0 + k /\ fd (i0 + k) = length d0 + k) ->
  exists h', foldM (fun h i => let* v := hget h src (fs i) in hset h dst (fd i) v) h (seq i0 (length s)) = Ok h' /\
    buf h' src (s0 ++ s ++ s1) /\ buf h' dst (d0 ++ s ++ d1) /\ only [dst] h h'.
Proof.
  intros ND. induction s as [|x s IH]; intros s0 s1 dd d0 d1 i0 h Bs Bd L F.
  - destruct dd; [|discriminate]. exists h. cbn. split; [reflexivity|]. split; [exact Bs|]. split; [exact Bd|apply only_refl].
  - destruct dd as [|y dd]; [discriminate|]. injection L as L. cbn [length seq foldM].
    destruct (F 0) as [F1 F2]. rewrite !Nat.add_0_r in F1, F2. rewrite F1, F2.
    rewrite (hget_buf _ _ _ _ x Bs) by (cbn [app]; apply nth_mid). cbn [bind].
    rewrite (hset_buf _ _ _ _ x Bd) by (rewrite app_length; cbn [app length]; lia). cbn [bind].
    cbn [app] in Bd |- *. rewrite upd_app.
    destruct (IH (s0 ++ [x]) s1 dd (d0 ++ [x]) d1 (S i0) (upd h dst (d0 ++ x :: dd ++ d1))) as (h' & E & B1 & B2 & O).
    + unfold buf. rewrite buf_other by congruence. rewrite <- app_assoc. exact Bs.
    + rewrite <- app_assoc. cbn [app]. eapply buf_upd. exact Bd.
    + exact L.
    + intros k. specialize (F (S k)). rewrite <- Nat.add_succ_comm in F. rewrite !app_length. cbn [length].
      destruct F as [-> ->]. split; lia.
    + exists h'. split; [exact E|]. rewrite <- !app_assoc in B1, B2. cbn [app] in B1, B2. split; [exact B1|]. split; [exact B2|].
      refine (only_trans _ _ _ _ _ O); apply only_upd; now left.
Qed.

(** one row of midpoints computed in place *)
Lemma mid_loop : forall rw done tail h, rw <> [] -> buf h 0 (done ++ rw ++ tail) ->
  exists h', foldM (fun h j => let* a := hget h 0 j in let* b := hget h 0 (S j) in
                      hset h 0 j (vscl (vadd a b) (gq 1 2))) h (seq (length done) (length rw - 1)) = Ok h' /\
    buf h' 0 (done ++ row rw ++ last rw vzero :: tail) /\ only [0] h h'.
Proof.
  induction rw as [|x rw IH]; intros done tail h NE B; [congruence|]. destruct rw as [|y rw].
  - exists h. cbn. split; [reflexivity|]. split; [exact B|apply only_refl].
  - change (row (x :: y :: rw)) with (mid x y :: row (y :: rw)). change (last (x :: y :: rw) vzero) with (last (y :: rw) vzero).
    replace (length (x :: y :: rw) - 1) with (S (length (y :: rw) - 1)) by (cbn [length]; lia).
    cbn [seq foldM]. cbn [app] in B.
    rewrite (hget_buf _ _ _ _ x B) by apply nth_mid. cbn [bind].
    rewrite (hget_buf _ _ _ _ y B).
    2:{ rewrite nth_error_app2 by lia. replace (S (length done) - length done) with 1 by lia. reflexivity. }
    cbn [bind]. rewrite (hset_buf _ _ _ _ _ B) by (rewrite app_length; cbn [length]; lia). cbn [bind]. rewrite upd_app.
    fold (mid x y).
    destruct (IH (done ++ [mid x y]) tail (upd h 0 (done ++ mid x y :: y :: rw ++ tail))) as (h' & E & B' & O).
    + discriminate.
    + rewrite <- app_assoc. cbn [app]. eapply buf_upd. exact B.
    + rewrite app_length in E. cbn [length] in E. rewrite Nat.add_1_r in E. exists h'. cbn [length] in *. split; [exact E|].
      rewrite <- app_assoc in B'. split; [exact B'|]. refine (only_trans _ _ _ _ _ O); apply only_upd; now left.
Qed.

(** the main loop of Subdivide; [rw] is the current row, [i] = rows done *)
Lemma rows_loop (l r : nat) : l <> 0 -> l <> r -> forall rw i hs tails rb lrest h count,
  length rw + i = count -> length hs = i -> length tails = i -> length lrest >= length rw ->
  buf h 0 (rw ++ tails) -> buf h l (hs ++ lrest) -> (exists pre, length pre = length rw /\ rb = pre ++ tails) -> buf h r rb ->
  exists h', foldM (fun h i =>
      let* a := hget h 0 0 in
      let* h := hset h l i a in
      let* b := hget h 0 (count - i - 1) in
      let* h := hset h r (count - i - 1) b in
      subdivide_mid (count - i - 1) h) h (seq i (length rw)) = Ok h' /\
    buf h' l (hs ++ map (fun r => hd vzero r) (triangle (length rw) rw) ++ skipn (length rw) lrest) /\
    buf h' r (rev (map (fun r => last r vzero) (triangle (length rw) rw)) ++ tails) /\
    buf h' 0 (rev (map (fun r => last r vzero) (triangle (length rw) rw)) ++ tails) /\
    only [0; l; r] h h'.
Proof.
  intros L0 LR rw. remember (length rw) as n eqn:En. revert rw En.
  induction n as [|n IH]; intros rw En i hs tails rb lrest h count C Hh Ht Hl B0 Bl (pre & Lp & ->) Br.
  - destruct rw; [|discriminate]. destruct pre; [|discriminate]. exists h. cbn. rewrite ?app_nil_r in *.
    split; [reflexivity|]. repeat split; auto.
  - destruct rw as [|x rw]; [discriminate|]. injection En as En. cbn [seq foldM].
    assert (LR' : length (row (x :: rw)) = n) by (rewrite row_length; cbn [length]; lia).
    assert (Ci : count - i - 1 = n) by lia. rewrite Ci.
    rewrite (hget_buf _ _ _ _ x B0) by reflexivity. cbn [bind].
    destruct lrest as [|y lrest]; [cbn in Hl; lia|].
    rewrite (hset_buf _ _ _ _ x Bl) by (rewrite app_length; cbn [length]; lia). cbn [bind]. rewrite <- Hh, upd_app.
    set (h1 := upd h l (hs ++ x :: lrest)).
    assert (B0' : buf h1 0 ((x :: rw) ++ tails)) by (unfold buf, h1; rewrite buf_other by auto; exact B0).
    assert (Bl' : buf h1 l (hs ++ x :: lrest)) by (eapply buf_upd; exact Bl).
    assert (Br' : buf h1 r (pre ++ tails)) by (unfold buf, h1; rewrite buf_other by auto; exact Br).
    assert (Glast : nth_error ((x :: rw) ++ tails) n = Some (last (x :: rw) vzero)).
    { rewrite (app_removelast_last vzero (l := x :: rw)) at 1 by discriminate. rewrite <- app_assoc.
      assert (length (removelast (x :: rw)) = n).
      { pose proof (app_removelast_last vzero (l := x :: rw)) as E. specialize (E ltac:(discriminate)).
        apply (f_equal (@length _)) in E. rewrite app_length in E. cbn [length] in E. lia. }
      replace n with (length (removelast (x :: rw))) by assumption. apply nth_mid. }
    rewrite (hget_buf _ _ _ _ _ B0' Glast). cbn [bind].
    set (lx := last (x :: rw) vzero).
    assert (exists pre' z, pre = pre' ++ [z] /\ length pre' = n) as (pre' & z & Ep & Lp').
    { exists (removelast pre), (last pre vzero). assert (N : pre <> []) by (destruct pre; [discriminate Lp|discriminate]).
      pose proof (app_removelast_last vzero N) as E. split; [exact E|]. apply (f_equal (@length _)) in E. rewrite app_length in E. cbn [length] in E. lia. }
    subst pre. rewrite <- app_assoc in Br'. cbn [app] in Br'.
    rewrite (hset_buf _ _ _ _ lx Br') by (rewrite app_length; cbn [length]; lia). cbn [bind].
    assert (U : upd (pre' ++ z :: tails) n lx = pre' ++ lx :: tails) by (rewrite <- Lp'; apply upd_app). rewrite U. clear U.
    set (h2 := upd h1 r (pre' ++ lx :: tails)).
    assert (B0'' : exists rb0, buf h2 0 rb0 /\ rb0 = (x :: rw) ++ tails).
    { destruct (Nat.eq_dec r 0) as [->|Nr].
      - assert (E : pre' ++ z :: tails = (x :: rw) ++ tails) by (unfold buf in B0', Br'; congruence).
        exists (pre' ++ lx :: tails). split; [eapply buf_upd; exact B0'|].
        assert (E2 : pre' ++ [z] = x :: rw).
        { change (z :: tails) with ([z] ++ tails) in E. rewrite app_assoc in E. now apply app_inv_tail in E. }
        change (lx :: tails) with ([lx] ++ tails). rewrite app_assoc. f_equal. unfold lx. rewrite <- E2. now rewrite last_last.
      - exists ((x :: rw) ++ tails). split; [|reflexivity]. unfold buf, h2. rewrite buf_other by auto. exact B0'. }
    destruct B0'' as (rb0 & B0'' & ->).
    assert (Bl'' : buf h2 l (hs ++ x :: lrest)) by (unfold buf, h2; rewrite buf_other by auto; exact Bl').
    assert (Br'' : buf h2 r (pre' ++ lx :: tails)) by (eapply buf_upd; exact Br').
    destruct (mid_loop (x :: rw) [] tails h2 ltac:(discriminate) B0'') as (h3 & E3 & B3 & O3).
    unfold subdivide_mid. cbn [length] in E3. rewrite Nat.sub_succ, Nat.sub_0_r in E3. rewrite En. rewrite E3. cbn [bind]. fold lx in B3. cbn [app] in B3.
    assert (Bl3 : buf h3 l ((hs ++ [x]) ++ lrest)).
    { rewrite <- app_assoc. eapply only_buf; [exact O3| |exact Bl'']. intros [?|[]]; auto. }
    assert (Br3 : exists rb3, buf h3 r rb3 /\ exists p3, length p3 = n /\ rb3 = p3 ++ lx :: tails).
    { destruct (Nat.eq_dec r 0) as [->|Nr].
      - eexists. split; [exact B3|]. exists (row (x :: rw)). auto.
      - eexists. split; [eapply only_buf; [exact O3| |exact Br'']; intros [?|[]]; auto|]. exists pre'. auto. }
    destruct Br3 as (rb3 & Br3 & P3).
    rewrite <- En.
    destruct (IH (row (x :: rw)) (eq_sym LR') (S i) (hs ++ [x]) (lx :: tails) rb3 lrest h3 count) as (h' & E & Bl4 & Br4 & B04 & O4).
    + rewrite <- C. lia.
    + rewrite app_length. cbn [length]. lia.
    + cbn [length]. lia.
    + cbn [length] in Hl. lia.
    + exact B3.
    + exact Bl3.
    + exact P3.
    + exact Br3.
    + exists h'. rewrite <- Hh in E. split; [exact E|].
      rewrite <- app_assoc in Bl4. cbn [triangle map rev hd skipn]. rewrite <- !app_assoc. cbn [app]. fold lx.
      repeat split; try assumption.
      * destruct O4 as [LL _], O3 as [LL3 _]. rewrite LL, LL3. unfold h2, h1. now rewrite !upd_length.
      * intros c Hc. destruct O4 as [_ E4], O3 as [_ E3']. rewrite E4 by exact Hc. cbn [In] in Hc.
        rewrite E3' by (cbn [In]; tauto). unfold h2, h1. rewrite !buf_other by tauto. reflexivity.
Qed.

Lemma subdivide_ok cp l r p b0 lb rb h :
  p <> [] -> cp <> 0 -> l <> 0 -> l <> r -> buf h cp p ->
  buf h 0 b0 -> length b0 = length p -> buf h l lb -> length lb >= length p -> buf h r rb -> length rb = length p ->
  exists h', subdivide (length p) cp l r h = Ok h' /\ buf h' l (left_half p ++ skipn (length p) lb) /\
    buf h' r (right_half p) /\ buf h' 0 (right_half p) /\ only [0; l; r] h h'.
Proof.
  intros NE Hcp Hl Hlr Bc B0 L0 Bl Ll Br Lr. unfold subdivide, subdivide_copy.
  destruct (copy_loop cp 0 (fun i => i) (fun i => i) Hcp p [] [] b0 [] [] 0 h) as (h1 & E1 & _ & B01 & O1).
  - cbn [app]. rewrite app_nil_r. exact Bc.
  - cbn [app]. rewrite app_nil_r. exact B0.
  - exact L0.
  - intros k. split; reflexivity.
  - rewrite E1. cbn [bind]. cbn [app] in B01. 
    assert (Bl1 : buf h1 l lb) by (eapply only_buf; [exact O1| |exact Bl]; intros [?|[]]; auto).
    assert (Br1 : exists rb1, buf h1 r rb1 /\ length rb1 = length p).
    { destruct (Nat.eq_dec r 0) as [->|N].
      - eexists. split; [exact B01|]. now rewrite app_nil_r.
      - exists rb. split; [|exact Lr]. eapply only_buf; [exact O1| |exact Br]. intros [?|[]]; auto. }
    destruct Br1 as (rb1 & Br1 & Lr1).
    destruct (rows_loop l r Hl Hlr p 0 [] [] rb1 lb h1 (length p)) as (h2 & E2 & Bl2 & Br2 & B02 & O2).
    + lia.
    + reflexivity.
    + reflexivity.
    + exact Ll.
    + exact B01.
    + exact Bl1.
    + exists rb1. split; [exact Lr1|now rewrite app_nil_r].
    + exact Br1.
    + exists h2. split; [exact E2|]. cbn [app] in Bl2. rewrite app_nil_r in Br2, B02.
      split; [exact Bl2|]. split; [exact Br2|]. split; [exact B02|].
      eapply only_trans; [|exact O2]. eapply only_incl; [|exact O1]. intros x [<-|[]]. now left.
Qed.

Lemma mapM_map {A B} (f : A -> res B) (g : A -> B) l : (forall x, In x l -> f x = Ok (g x)) -> mapM f l = Ok (map g l).
Proof.
  induction l as [|a l IH]; intros H; [reflexivity|]. cbn. rewrite H by now left. cbn [bind]. rewrite IH; [reflexivity|].
  intros x Hx. apply H. now right.
Qed.
Lemma approximate_ok cp p b0 b1 h out :
  p <> [] -> 2 <= cp -> buf h cp p -> buf h 0 b0 -> length b0 = length p -> buf h 1 b1 -> length b1 = 2 * length p - 1 ->
  exists h', bz_approximate (length p) cp h out = Ok (h', out ++ piece p) /\ only [0; 1] h h' /\
    (exists b0', buf h' 0 b0' /\ length b0' = length p) /\ (exists b1', buf h' 1 b1' /\ length b1' = 2 * length p - 1).
Proof.
  intros NE Hcp Bc B0 L0 B1 L1. unfold bz_approximate.
  destruct (subdivide_ok cp 1 0 p b0 b1 b0 h) as (h1 & E1 & Bl & Br & _ & O1); try assumption; try lia.
  rewrite E1. cbn [bind].
  assert (Lp : 1 <= length p) by (destruct p; [congruence|cbn; lia]).
  pose proof (right_half_length p) as RL. destruct (right_half p) as [|x rt] eqn:ER; [cbn in RL; lia|]. cbn [length] in RL.
  destruct (copy_loop 0 1 (fun i => i + 1) (fun i => length p + i) ltac:(discriminate) rt [x] [] (skipn (length p) b1) (left_half p) [] 0 h1)
    as (h2 & E2 & B02 & B12 & O2).
  - cbn [app]. rewrite app_nil_r. exact Br.
  - rewrite app_nil_r. exact Bl.
  - rewrite skipn_length. lia.
  - intros k. cbn [length]. rewrite left_half_length. lia.
  - replace (length p - 1) with (length rt) by lia. rewrite E2. cbn [bind].
    rewrite app_nil_r in B12. change rt with (tl (x :: rt)) in B12. rewrite <- ER in B12. fold (both_halves p) in B12.
    assert (Bc2 : buf h2 cp p).
    { eapply only_buf; [exact O2|intros [?|[]]; lia|]. eapply only_buf; [exact O1|intros [?|[?|[?|[]]]]; lia|exact Bc]. }
    assert (G0 : nth_error p 0 = Some (hd vzero p)) by (destruct p; [congruence|reflexivity]).
    rewrite (hget_buf _ _ _ _ _ Bc2 G0). cbn [bind].
    rewrite (mapM_map _ (fun i => smooth (nth (2 * i - 1) (both_halves p) vzero) (nth (2 * i) (both_halves p) vzero)
                       (nth (2 * i + 1) (both_halves p) vzero))).
    + cbn [bind]. exists h2. split; [reflexivity|]. split.
      * apply (only_trans _ _ h1); [eapply only_incl; [|exact O1]|eapply only_incl; [|exact O2]]; intros y; cbn [In]; intuition.
      * split; eexists; (split; [eassumption|]); [cbn; rewrite app_nil_r; lia|]. rewrite both_halves_length. lia.
    + intros i Hi. apply in_seq in Hi.
      assert (G : forall k, k < 2 * length p - 1 -> hget h2 1 k = Ok (nth k (both_halves p) vzero)).
      { intros k Hk. eapply hget_buf; [exact B12|]. apply nth_error_nth'. rewrite both_halves_length. lia. }
      rewrite !G by lia. reflexivity.
Qed.

(** ** The loop *)
(** the two scratch buffers, and one buffer of [count] points at every listed address *)
Definition good (count : nat) (h : bheap) (addrs : list nat) : Prop :=
  (exists b, buf h 0 b /\ length b = count) /\ (exists b, buf h 1 b /\ length b = 2 * count - 1) /\
  NoDup addrs /\ Forall (fun a => 2 <= a /\ exists b, buf h a b /\ length b = count) addrs.
Definition holds (h : bheap) (flat : list nat) (ps : list (list vec)) : Prop := Forall2 (fun a p => buf h a p) flat ps.
Lemma good_perm count h l l' : Permutation l l' -> good count h l -> good count h l'.
Proof.
  intros P (A & B & N & F). repeat split; auto.
  - eapply Permutation_NoDup; eassumption.
  - eapply Permutation_Forall; eassumption.
Qed.
Lemma holds_only S h h' flat ps : only S h h' -> (forall a, In a flat -> ~ In a S) -> holds h flat ps -> holds h' flat ps.
Proof.
  intros O N H. unfold holds in *. induction H; constructor; auto.
  - eapply only_buf; [exact O| |eassumption]. apply N. now left.
  - apply IHForall2. intros a Ha. apply N. now right.
Qed.

(** one iteration on a flat piece *)
Lemma step_flat count h parent flat free out p : 1 <= count ->
  good count h (parent :: flat ++ free) -> buf h parent p -> flat_enough p ->
  exists h', (forall fuel, create_bezier_loop (S fuel) count h (parent :: flat) free out =
             create_bezier_loop fuel count h' flat (parent :: free) (out ++ piece p)) /\
    good count h' (flat ++ parent :: free) /\ only [0; 1] h h'.
Proof.
  intros Hc (( b0 & B0 & L0) & (b1 & B1 & L1) & N & F) Bp Hf.
  pose proof (Forall_inv F) as [P2 (pb & Bpb & Lpb)].
  assert (pb = p) by (unfold buf in *; congruence). subst pb. symmetry in Lpb. rewrite Lpb in Hc, L0, L1, F |- *. clear Lpb count.
  destruct (approximate_ok parent p b0 b1 h out) as (h' & E & O & G0 & G1); auto; try lia.
  { intros ->. cbn in *. lia. }
  exists h'. split.
  { intros fuel. cbn [create_bezier_loop]. unfold buf in Bp. rewrite Bp. cbn [bind]. rewrite (proj2 (is_flat_spec p) Hf).
    rewrite E. reflexivity. } split; [|exact O].
  split; [exact G0|]. split; [exact G1|]. 
  assert (PP : Permutation (parent :: flat ++ free) (flat ++ parent :: free)) by apply Permutation_middle.
  split; [eapply Permutation_NoDup; eassumption|]. eapply Permutation_Forall; [exact PP|].
  eapply Forall_impl; [|exact F]. intros a (A2 & b & Bb & Lb). split; [exact A2|]. exists b. split; [|exact Lb].
  eapply only_buf; [exact O| |exact Bb]. intros [?|[?|[]]]; lia.
Qed.

(** one iteration on a bent piece *)
Lemma step_bent count h parent flat free out p : 1 <= count ->
  good count h (parent :: flat ++ free) -> buf h parent p -> ~ flat_enough p ->
  exists h' rc free' h0, (forall fuel, create_bezier_loop (S fuel) count h (parent :: flat) free out =
             create_bezier_loop fuel count h' (parent :: rc :: flat) free' out) /\
    good count h' (parent :: (rc :: flat) ++ free') /\ buf h' parent (left_half p) /\ buf h' rc (right_half p) /\
    (exists x, h0 = h ++ x) /\ only [0; 1; parent; rc] h0 h' /\ ~ In rc flat.
Proof.
  intros Hc ((b0 & B0 & L0) & (b1 & B1 & L1) & N & F) Bp Hf.
  pose proof (Forall_inv F) as [P2 (pb & Bpb & Lpb)].
  assert (pb = p) by (unfold buf in *; congruence). subst pb. symmetry in Lpb. rewrite Lpb in Hc, L0, L1, F |- *. clear Lpb count.
  set (alloc := match free with a :: fr => (a, fr, h) | [] => (length h, [], h ++ [repeat vzero (length p)]) end).
  destruct alloc as [[rc free'] h0] eqn:EA.
  assert (EX : exists x, h0 = h ++ x).
  { subst alloc. destruct free; injection EA as <- <- <-; [now exists [repeat vzero (length p)]|exists []; now rewrite app_nil_r]. }
  assert (KEEP : forall a b, buf h a b -> buf h0 a b).
  { destruct EX as (x & ->). intros a b H. unfold buf. rewrite nth_error_app1; [exact H|]. apply nth_error_Some. unfold buf in H. congruence. }
  assert (Q : NoDup (parent :: rc :: flat ++ free') /\ Forall (fun a => 2 <= a /\ exists b, buf h0 a b /\ length b = length p) (parent :: rc :: flat ++ free')).
  { assert (F0 : Forall (fun a => 2 <= a /\ exists b, buf h0 a b /\ length b = length p) (parent :: flat ++ free)).
    { eapply Forall_impl; [|exact F]. intros a (A & b & Bb & Lb). split; [exact A|]. exists b. auto. }
    subst alloc. destruct free as [|a fr]; injection EA as <- <- <-.
    - rewrite app_nil_r in *. assert (FRESH : forall a, In a (parent :: flat) -> a < length h).
      { intros a Ha. rewrite Forall_forall in F. destruct (F a Ha) as (_ & b & Bb & _). apply nth_error_Some. unfold buf in Bb. congruence. }
      assert (LH : 2 <= length h). { specialize (FRESH parent (or_introl eq_refl)). lia. }
      split.
      + inversion N; subst. constructor.
        * intros [E|E]; [|contradiction]. specialize (FRESH parent (or_introl eq_refl)). lia.
        * constructor; [|assumption]. intros H. specialize (FRESH _ (or_intror H)). lia.
      + inversion F0; subst. constructor; [assumption|]. constructor; [|assumption].
        split; [exact LH|]. exists (repeat vzero (length p)). split; [|apply repeat_length]. unfold buf.
        rewrite nth_error_app2 by lia. now rewrite Nat.sub_diag.
    - assert (PP : Permutation (parent :: flat ++ a :: fr) (parent :: a :: flat ++ fr)).
      { constructor. symmetry. apply Permutation_middle. }
      split; [eapply Permutation_NoDup; eassumption|eapply Permutation_Forall; eassumption]. }
  destruct Q as [N' F0']. 
  pose proof F0' as F0''. inversion F0'' as [|? ? [_ (pb & Bpb' & _)] F1]; subst. inversion F1 as [|? ? [R2 (rb & Brb & Lrb)] F2]; subst.
  assert (NPR : parent <> rc) by (inversion N' as [|? ? HH]; subst; intros ->; apply HH; now left).
  assert (NRF : ~ In rc (flat ++ free')) by (inversion N' as [|? ? HH HH2]; subst; inversion HH2; assumption).
  destruct (subdivide_ok parent 1 rc p b0 b1 rb h0) as (h1 & E1 & Bl & Br & B01 & O1); try lia; auto.
  { intros ->. cbn in *. lia. }
  assert (Bp1 : buf h1 parent p) by (eapply only_buf; [exact O1| |apply KEEP, Bpb]; intros [?|[?|[?|[]]]]; lia).
  destruct (copy_loop 1 parent (fun i => i) (fun i => i) ltac:(lia) (left_half p) [] (skipn (length p) b1) p [] [] 0 h1) as (h2 & E2 & B12 & Bp2 & O2).
  - exact Bl.
  - cbn [app]. rewrite app_nil_r. exact Bp1.
  - symmetry. apply left_half_length.
  - intros k. split; reflexivity.
  - rewrite left_half_length in E2. cbn [app] in Bp2, B12. rewrite app_nil_r in Bp2.
    assert (OO : only [0; 1; parent; rc] h0 h2).
    { apply (only_trans _ _ h1); [eapply only_incl; [|exact O1]|eapply only_incl; [|exact O2]]; intros y; cbn [In]; intuition. }
    assert (Br2 : buf h2 rc (right_half p)) by (eapply only_buf; [exact O2| |exact Br]; intros [?|[]]; auto).
    exists h2, rc, free', h0. split.
    { intros fuel. cbn [create_bezier_loop]. unfold buf in Bp. rewrite Bp. cbn [bind]. rewrite (proj2 (is_flat_false p) Hf).
      fold alloc. rewrite EA, E1. cbn [bind]. rewrite E2. reflexivity. } split; [|split; [exact Bp2|split; [exact Br2|split; [exact EX|split; [exact OO|]]]]].
    2:{ intros H. apply NRF, in_or_app. now left. }
    split; [|split; [|split]].
    + exists (right_half p). split; [|apply right_half_length]. eapply only_buf; [exact O2| |exact B01]. intros [?|[]]; lia.
    + eexists. split; [exact B12|]. rewrite app_length, left_half_length, skipn_length. lia.
    + exact N'.
    + constructor; [split; [exact P2|exists (left_half p); split; [exact Bp2|apply left_half_length]]|].
      constructor; [split; [exact R2|exists (right_half p); split; [exact Br2|apply right_half_length]]|].
      apply Forall_forall. intros a Ha. rewrite Forall_forall in F2. destruct (F2 a Ha) as (A2 & b & Bb & Lb).
      split; [exact A2|]. exists b. split; [|exact Lb]. eapply only_buf; [exact OO| |exact Bb].
      intros [?|[?|[<-|[<-|[]]]]]; try lia; [|contradiction]. inversion N' as [|? ? HH HH2]; subst. apply HH. now right.
Qed.

(** what the loop returns *)
Lemma loop_result count : 1 <= count -> forall fuel h flat free out ps, good count h (flat ++ free) -> holds h flat ps ->
  match create_bezier_loop fuel count h flat free out with
  | Ok o => exists os, Forall2 flattens ps os /\ o = out ++ concat os
  | Panic => False
  | Hang => True
  end.
Proof.
  intros Hc. induction fuel as [|fuel IH]; intros h flat free out ps G Hh.
  - destruct flat; cbn; [|exact I]. inversion Hh; subst. exists []. split; [constructor|]. cbn. now rewrite app_nil_r.
  - destruct flat as [|parent flat].
    + cbn. inversion Hh; subst. exists []. split; [constructor|]. cbn. now rewrite app_nil_r.
    + inversion Hh as [|? p ? ps' Hp Hps]; subst.
      assert (NP : ~ In parent flat).
      { destruct G as (_ & _ & N & _). cbn [app] in N. inversion N; subst. intros H. apply H1, in_or_app. now left. }
      assert (A2 : forall a, In a flat -> 2 <= a).
      { destruct G as (_ & _ & _ & F). rewrite Forall_forall in F. intros a Ha. apply F. right. apply in_or_app. now left. }
      destruct (is_flat p) eqn:EF.
      * apply is_flat_spec in EF. destruct (step_flat count h parent flat free out p Hc G Hp EF) as (h' & E & G' & O).
        rewrite E. specialize (IH h' flat (parent :: free) (out ++ piece p) ps' G').
        assert (H' : holds h' flat ps').
        { eapply holds_only; [exact O| |exact Hps]. intros a Ha [?|[?|[]]]; specialize (A2 a Ha); lia. }
        specialize (IH H'). destruct (create_bezier_loop fuel count h' flat (parent :: free) (out ++ piece p)); auto.
        destruct IH as (os & F & ->). exists (piece p :: os). split; [constructor; [now constructor|exact F]|]. cbn [concat]. now rewrite !app_assoc.
      * apply is_flat_false in EF. destruct (step_bent count h parent flat free out p Hc G Hp EF) as (h' & rc & free' & h0 & E & G' & Bl & Br & (x & ->) & O & NR).
        rewrite E. specialize (IH h' (parent :: rc :: flat) free' out (left_half p :: right_half p :: ps') G').
        assert (H' : holds h' (parent :: rc :: flat) (left_half p :: right_half p :: ps')).
        { constructor; [exact Bl|]. constructor; [exact Br|].
          assert (H0 : holds (h ++ x) flat ps').
          { unfold holds in *. clear - Hps. induction Hps; constructor; auto. unfold buf in *. rewrite nth_error_app1; auto. apply nth_error_Some. congruence. }
          eapply holds_only; [exact O| |exact H0]. intros a Ha [?|[?|[<-|[<-|[]]]]]; try contradiction; specialize (A2 a Ha); lia. }
        specialize (IH H'). destruct (create_bezier_loop fuel count h' (parent :: rc :: flat) free' out); auto.
        destruct IH as (os & F & ->). inversion F as [|? l ? os1 Fl Fr1]; subst. inversion Fr1 as [|? r ? os2 Fr Fo]; subst.
        exists ((l ++ r) :: os2). split; [constructor; [now constructor|exact Fo]|]. cbn. now rewrite !app_assoc.
Qed.

(** enough fuel for every flattening *)
Lemma loop_complete count p o : 1 <= count -> flattens p o -> forall h parent flat free out ps,
  good count h ((parent :: flat) ++ free) -> holds h (parent :: flat) (p :: ps) ->
  exists k h' free', good count h' (flat ++ free') /\ holds h' flat ps /\
    forall fuel, create_bezier_loop (k + fuel) count h (parent :: flat) free out = create_bezier_loop fuel count h' flat free' (out ++ o).
Proof.
  intros Hc. induction 1 as [p EF|p l r EF Fl IHl Fr IHr]; intros h parent flat free out ps G Hh;
    inversion Hh as [|? ? ? ? Hp Hps]; subst.
  all: assert (NP : ~ In parent flat) by (destruct G as (_ & _ & N & _); cbn [app] in N; inversion N; subst; intros H; apply H1, in_or_app; now left).
  all: assert (A2 : forall a, In a flat -> 2 <= a) by (destruct G as (_ & _ & _ & F); rewrite Forall_forall in F; intros a Ha; apply F; right; apply in_or_app; now left).
  - destruct (step_flat count h parent flat free out p Hc G Hp EF) as (h' & E & G' & O).
    exists 1, h', (parent :: free). split; [exact G'|]. split.
    + eapply holds_only; [exact O| |exact Hps]. intros a Ha [?|[?|[]]]; specialize (A2 a Ha); lia.
    + intros fuel. apply E.
  - destruct (step_bent count h parent flat free out p Hc G Hp EF) as (h1 & rc & free1 & h0 & E & G' & Bl & Br & (x & ->) & O & NR).
    assert (H' : holds h1 (parent :: rc :: flat) (left_half p :: right_half p :: ps)).
    { constructor; [exact Bl|]. constructor; [exact Br|].
      assert (H0 : holds (h ++ x) flat ps).
      { unfold holds in *. clear - Hps. induction Hps; constructor; auto. unfold buf in *. rewrite nth_error_app1; auto. apply nth_error_Some. congruence. }
      eapply holds_only; [exact O| |exact H0]. intros a Ha [?|[?|[<-|[<-|[]]]]]; try contradiction; specialize (A2 a Ha); lia. }
    destruct (IHl h1 parent (rc :: flat) free1 out (right_half p :: ps) G' H') as (k1 & h2 & free2 & G2 & H2 & E2).
    destruct (IHr h2 rc flat free2 (out ++ l) ps G2 H2) as (k2 & h3 & free3 & G3 & H3 & E3).
    exists (S (k1 + k2)), h3, free3. split; [exact G3|]. split; [exact H3|]. intros fuel. cbn [Nat.add]. rewrite E.
    rewrite <- Nat.add_assoc. rewrite E2, E3. now rewrite app_assoc.
Qed.

Lemma create_bezier_start p : p <> [] ->
  good (length p) [repeat vzero (length p); repeat vzero (length p * 2 - 1); p] [2] /\
  holds [repeat vzero (length p); repeat vzero (length p * 2 - 1); p] [2] [p].
Proof.
  intros NE. split.
  - split; [eexists; split; [reflexivity|apply repeat_length]|]. split; [eexists; split; [reflexivity|rewrite repeat_length; lia]|].
    split; [repeat constructor; intros []|]. constructor; [|constructor]. split; [lia|]. exists p. split; reflexivity.
  - constructor; [reflexivity|constructor].
Qed.
Lemma last_any {A} (l : list A) a b : l <> [] -> last l a = last l b.
Proof. induction l as [|x [|y l] IH]; intros H; [congruence|reflexivity|]. change (last (y :: l) a = last (y :: l) b). apply IH. discriminate. Qed.
Theorem create_bezier_result fuel p : p <> [] ->
  match create_bezier fuel p with
  | Ok o => exists o', flattens p o' /\ o = o' ++ [last p vzero]
  | Panic => False
  | Hang => True
  end.
Proof.
  intros NE. destruct (create_bezier_start p NE) as [G H].
  assert (Hc : 1 <= length p) by (destruct p; [congruence|cbn; lia]).
  pose proof (loop_result (length p) Hc fuel _ [2] [] [] [p] G H) as R. unfold create_bezier. destruct p as [|a p]; [congruence|].
  destruct (create_bezier_loop _ _ _ _ _ _); cbn [bind]; [|exact R|exact I]. destruct R as (os & F & ->).
  inversion F as [|? o' ? ? F1 F2]; subst. inversion F2; subst. exists o'. split; [exact F1|]. cbn. rewrite app_nil_r.
  f_equal. f_equal. apply (last_any (a :: p)). discriminate.
Qed.
Theorem create_bezier_complete p o : p <> [] -> flattens p o -> exists fuel0, forall fuel, (fuel0 <= fuel) -> create_bezier fuel p = Ok (o ++ [last p vzero]).
Proof.
  intros NE F. destruct (create_bezier_start p NE) as [G H].
  assert (Hc : 1 <= length p) by (destruct p; [congruence|cbn; lia]).
  destruct (loop_complete (length p) p o Hc F _ 2 [] [] [] [] G H) as (k & h' & free' & _ & _ & E).
  exists k. intros fuel L. replace fuel with (k + (fuel - k)) by lia. unfold create_bezier. destruct p as [|a p]; [congruence|].
  rewrite E. destruct (fuel - k); cbn [create_bezier_loop bind app]; do 3 f_equal; apply (last_any (a :: p)); discriminate.
Qed.

(** ** Consequences *)
Lemma flattens_hd p o : p <> [] -> flattens p o -> exists r, o = hd vzero p :: r.
Proof.
  intros NE F. revert NE. induction F as [p EF|p l r EF Fl IHl Fr IHr]; intros NE.
  - eexists. reflexivity.
  - destruct IHl as (x & ->).
    + intros E. apply (f_equal (@length _)) in E. rewrite left_half_length in E. destruct p; [congruence|discriminate].
    + rewrite left_half_hd. now exists (x ++ r).
Qed.
Lemma pairs_connected p l : connected (pairs p l).
Proof.
  revert p. induction l as [|q l IH]; intros p i a b; [destruct i; discriminate|]. destruct i as [|i].
  - destruct l; cbn; [discriminate|]. intros H1 H2. injection H1 as <-. injection H2 as <-. reflexivity.
  - cbn. apply IH.
Qed.
Lemma pairs_snoc p l q : exists ls, pairs p (l ++ [q]) = ls ++ [mkLinear (last (p :: l) p) q].
Proof.
  revert p. induction l as [|x l IH]; intros p; [now exists []|]. destruct (IH x) as (ls & E). exists (mkLinear p x :: ls). cbn [app pairs]. rewrite E.
  cbn [app]. do 3 f_equal. f_equal. change (last (p :: x :: l) p) with (last (x :: l) p). apply last_any. discriminate.
Qed.
End WithLibm.

(** beatmap/stackleniency.go.  Objects are a list; a Go pointer to an object
    is its index.  Every index used is below the length; reading outside
    returns [dummy] (lemmas show it is never reached). *)
From Verif Require Export Objects.

Section WithLibm.
Context {M : libm}.

Definition dummy : hobj :=
  {| ho_kind := KCircle; ho_startPos := vzero; ho_endPos := vzero; ho_start := f0; ho_end := f0;
     ho_off := vzero; ho_offEZ := vzero; ho_offHR := vzero; ho_idx := 0; ho_idxEZ := 0; ho_idxHR := 0;
     ho_id := -1; ho_sounds := []; ho_newCombo := false; ho_comboNumber := 0; ho_comboSet := 0;
     ho_comboSetHax := 0; ho_colorOffset := 0 |}.
Definition ob (l : list hobj) (n : nat) : hobj := nth n l dummy.
Definition set_ix (m : modifier) (l : list hobj) (n : nat) (v : Z) : list hobj :=
  upd l n (set_stack_index m v (ob l n)).
Definition get_ix (m : modifier) (l : list hobj) (n : nat) : Z := get_stack_index m (ob l n).

(** stackDistance -- stackleniency.go:11; the comparison [Dst(..) < 3] *)
Definition near (a b : vec) : bool := glt (vdst a b) (gq 3 1).

(** first pass, inner loop -- stackleniency.go:66-86; [ns] are the n still to do *)
Fixpoint pass1_inner (m : modifier) (th : f64) (objs : list hobj) (base : nat) (ns : list nat)
    : list hobj * nat :=
  match ns with
  | [] => (objs, base)
  | n :: r =>
      if is_spinner (ob objs base) then (objs, base)
      else if is_spinner (ob objs n) then pass1_inner m th objs base r
      else if fgt (fsub (ho_start (ob objs n)) (ho_end (ob objs base))) th then (objs, base)
      else if near (ho_startPos (ob objs base)) (ho_startPos (ob objs n))
           || (is_slider (ob objs base) && near (ho_endPos (ob objs base)) (ho_startPos (ob objs n)))
      then pass1_inner m th (set_ix m objs n 0) n r
      else pass1_inner m th objs base r
  end.
(** first pass, outer loop -- stackleniency.go:63-95; [i] counts down, the
    current index is i-1 *)
Fixpoint pass1 (m : modifier) (th : f64) (objs : list hobj) (ext : Z) (i : nat) : list hobj * Z :=
  match i with
  | O => (objs, ext)
  | S i' =>
      let '(objs', base) := pass1_inner m th objs i' (seq (S i') (length objs - S i')) in
      if ext <? Z.of_nat base then
        if Z.of_nat base =? zlen objs - 1 then (objs', Z.of_nat base)
        else pass1 m th objs' (Z.of_nat base) i'
      else pass1 m th objs' ext i'
  end.

(** the slider-tail adjustment -- stackleniency.go:126-131 *)
Definition shift_tail (m : modifier) (n : nat) (offset : Z) (objs : list hobj) (js : list nat) : list hobj :=
  fold_left (fun objs j =>
      if near (ho_endPos (ob objs n)) (ho_startPos (ob objs j))
      then set_ix m objs j (get_ix m objs j - offset) else objs) js objs.
(** second pass, circle branch -- stackleniency.go:108-140; [n] counts down,
    the current index is n-1; [ci] is the pointer objectI; [i] the outer index *)
Fixpoint pass2_circle (m : modifier) (th : f64) (i : nat) (objs : list hobj) (ci : nat) (est : nat) (n : nat)
    : list hobj * nat :=
  match n with
  | O => (objs, est)
  | S n' =>
      if is_spinner (ob objs n') then pass2_circle m th i objs ci est n'
      else if fgt (fsub (ho_start (ob objs ci)) (ho_end (ob objs n'))) th then (objs, est)
      else
        let '(objs, est) := if Nat.ltb n' est then (set_ix m objs n' 0, n') else (objs, est) in
        if is_slider (ob objs n') && near (ho_endPos (ob objs n')) (ho_startPos (ob objs ci)) then
          let offset := get_ix m objs ci - get_ix m objs n' + 1 in
          (shift_tail m n' offset objs (seq (S n') (i - n')), est)
        else if near (ho_startPos (ob objs n')) (ho_startPos (ob objs ci)) then
          pass2_circle m th i (set_ix m objs n' (get_ix m objs ci + 1)) n' est n'
        else pass2_circle m th i objs ci est n'
  end.
(** second pass, slider branch -- stackleniency.go:143-159 *)
Fixpoint pass2_slider (m : modifier) (th : f64) (objs : list hobj) (ci : nat) (n : nat) : list hobj :=
  match n with
  | O => objs
  | S n' =>
      if is_spinner (ob objs n') then pass2_slider m th objs ci n'
      else if fgt (fsub (ho_start (ob objs ci)) (ho_start (ob objs n'))) th then objs
      else if near (ho_endPos (ob objs n')) (ho_startPos (ob objs ci)) then
        pass2_slider m th (set_ix m objs n' (get_ix m objs ci + 1)) n' n'
      else pass2_slider m th objs ci n'
  end.
(** second pass, outer loop -- stackleniency.go:97-161 *)
Fixpoint pass2 (m : modifier) (th : f64) (objs : list hobj) (est : nat) (i : nat) : list hobj :=
  match i with
  | O => objs
  | S i' =>
      if negb (get_ix m objs i =? 0) || is_spinner (ob objs i) then pass2 m th objs est i'
      else if is_slider (ob objs i) then pass2 m th (pass2_slider m th objs i i) est i'
      else let '(objs, est) := pass2_circle m th i objs i est i in pass2 m th objs est i'
  end.
(** applyNewStacking -- stackleniency.go:61-162 *)
Definition apply_new_stacking (m : modifier) (th : f64) (objs : list hobj) : list hobj :=
  let '(objs, ext) := pass1 m th objs (zlen objs - 1) (length objs) in
  pass2 m th objs 0 (Z.to_nat ext).

(** applyOldStacking -- stackleniency.go:164-191 *)
Fixpoint old_inner (m : modifier) (th : f64) (i : nat) (objs : list hobj) (startTime : f64)
    (sliderStack : Z) (ns : list nat) : list hobj :=
  match ns with
  | [] => objs
  | n :: r =>
      if fgt (fsub (ho_start (ob objs n)) th) startTime then objs
      else if near (ho_startPos (ob objs n)) (ho_startPos (ob objs i)) then
        old_inner m th i (set_ix m objs i (get_ix m objs i + 1)) (ho_end (ob objs n)) sliderStack r
      else if near (ho_startPos (ob objs n)) (ho_endPos (ob objs i)) then
        let ss := sliderStack + 1 in
        old_inner m th i (set_ix m objs n (get_ix m objs n - ss)) (ho_end (ob objs n)) ss r
      else old_inner m th i objs startTime sliderStack r
  end.
Definition apply_old_stacking (m : modifier) (th : f64) (objs : list hobj) : list hobj :=
  fold_left (fun objs i =>
      if (get_ix m objs i =? 0) || is_slider (ob objs i)
      then old_inner m th i objs (ho_end (ob objs i)) 0 (seq (S i) (length objs - S i))
      else objs) (seq 0 (length objs)) objs.

(** the loops around it -- stackleniency.go:40-58 *)
Definition stack_finish (m : modifier) (radius : f64) (o : hobj) : hobj :=
  if is_spinner o then
    set_stack_index HardRock 0 (set_stack_index Easy 0 (set_stack_index MNone 0 o))
  else set_stack_offset m
         (gdiv (gmul (gneg (g_of_Z (get_stack_index m o))) (g_of_f radius)) (gq 10 1)) o.
(** processStacking -- stackleniency.go:36-59 *)
Definition process_stacking (objs : list hobj) (version : Z) (diff : difficulty) (leniency : f64)
    : list hobj :=
  let th := ffloor (fmul (d_Preempt diff) leniency) in
  let m := d_Mods diff in
  let objs := map (set_stack_index m 0) objs in
  let objs := if 6 <=? version then apply_new_stacking m th objs else apply_old_stacking m th objs in
  map (stack_finish m (d_CircleRadius diff)) objs.
(** calculateStackLeniency -- stackleniency.go:23-34 *)
Definition stack_leniency (d : difficulty) (version : Z) (leniency : f64) (objs : list hobj) : list hobj :=
  let nm := new_difficulty (d_hp d) (d_cs d) (d_od d) (d_ar d) in
  let objs := process_stacking objs version nm leniency in
  let objs := process_stacking objs version (set_mods nm Easy) leniency in
  process_stacking objs version (set_mods nm HardRock) leniency.
End WithLibm.

(** math/math32, math/vector and math/curves. *)
From Verif Require Export GoFloat GoSort Difficulty.

Section WithLibm.
Context {M : libm}.

(** ** math/math32/math.go -- float32 wrappers around float64 functions *)
Definition gabs (v : f32) : f32 := g_of_f (fabs (f_of_g v)).            (* math.go:7-9 *)
Definition gatan2 (y x : f32) : f32 := g_of_f (matan2 (f_of_g y) (f_of_g x)). (* math.go:23-25 *)
Definition gceil (v : f32) : f32 := g_of_f (fceil (f_of_g v)).          (* math.go:27-29 *)
Definition gcos (v : f32) : f32 := g_of_f (mcos (f_of_g v)).            (* math.go:31-33 *)
Definition gsin (v : f32) : f32 := g_of_f (msin (f_of_g v)).            (* math.go:51-53 *)
Definition gsqrt (v : f32) : f32 := g_of_f (fsqrt (f_of_g v)).          (* math.go:55-57 *)
Definition gmax (a b : f32) : f32 := g_of_f (fmax (f_of_g a) (f_of_g b)). (* math.go:59-61 *)
Definition gmin (a b : f32) : f32 := g_of_f (fmin (f_of_g a) (f_of_g b)). (* math.go:63-65 *)
Definition gpow (a b : f32) : f32 := g_of_f (mpow (f_of_g a) (f_of_g b)). (* math.go:75-77 *)
(** mutils.ClampF32 -- utils.go:8-10 *)
Definition clampF32 (x mn mx : f32) : f32 := gmin mx (gmax mn x).

(** ** math/vector/vector2f.go *)
(** type Vector2f -- vector2f.go:10-12 *)
Record vec := mkVec { vx : f32; vy : f32 }.
Definition vzero : vec := mkVec g0 g0.
(** Go's == on the struct *)
Definition vec_eqb (a b : vec) : bool := geq (vx a) (vx b) && geq (vy a) (vy b).
(** NewVec2fRad -- vector2f.go:18-20 *)
Definition vec_rad (rad len : f32) : vec := mkVec (gmul (gcos rad) len) (gmul (gsin rad) len).
(** Add -- vector2f.go:34-36 *)
Definition vadd (a b : vec) : vec := mkVec (gadd (vx a) (vx b)) (gadd (vy a) (vy b)).
(** Sub -- vector2f.go:42-44 *)
Definition vsub (a b : vec) : vec := mkVec (gsub (vx a) (vx b)) (gsub (vy a) (vy b)).
(** Dot -- vector2f.go:58-60 *)
Definition vdot (a b : vec) : f32 := gadd (gmul (vx a) (vx b)) (gmul (vy a) (vy b)).
(** Dst -- vector2f.go:62-67 *)
Definition vdst (a b : vec) : f32 :=
  let x := gsub (vx b) (vx a) in
  let y := gsub (vy b) (vy a) in
  gsqrt (gadd (gmul x x) (gmul y y)).
(** AngleRV -- vector2f.go:96-98 *)
Definition vangle_rv (a b : vec) : f32 := gatan2 (gsub (vy a) (vy b)) (gsub (vx a) (vx b)).
(** Lerp -- vector2f.go:100-105 *)
Definition vlerp (a b : vec) (t : f32) : vec :=
  mkVec (gadd (gmul (gsub (vx b) (vx a)) t) (vx a)) (gadd (gmul (gsub (vy b) (vy a)) t) (vy a)).
(** Len -- vector2f.go:117-119 *)
Definition vlen (a : vec) : f32 := gsqrt (gadd (gmul (vx a) (vx a)) (gmul (vy a) (vy a))).
(** LenSq -- vector2f.go:121-123 *)
Definition vlensq (a : vec) : f32 := gadd (gmul (vx a) (vx a)) (gmul (vy a) (vy a)).
(** Scl -- vector2f.go:125-127 *)
Definition vscl (a : vec) (m : f32) : vec := mkVec (gmul (vx a) m) (gmul (vy a) m).
(** IsStraightLine32 -- vector2f.go:137-139 *)
Definition is_straight (a b c : vec) : bool :=
  glt (gabs (gsub (gmul (gsub (vy b) (vy a)) (gsub (vx c) (vx a)))
                  (gmul (gsub (vx b) (vx a)) (gsub (vy c) (vy a))))) (gq 1 1000).

(** ** math/curves/linear.go *)
(** type Linear, NewLinear -- linear.go:7-13 *)
Record linear := mkLinear { ln_p1 : vec; ln_p2 : vec }.
(** PointAt -- linear.go:15-17 *)
Definition ln_point_at (l : linear) (t : f32) : vec := vlerp (ln_p1 l) (ln_p2 l) t.
(** GetStartAngle, GetEndAngle -- linear.go:19-25 *)
Definition ln_start_angle (l : linear) : f32 := vangle_rv (ln_p1 l) (ln_p2 l).
Definition ln_end_angle (l : linear) : f32 := vangle_rv (ln_p2 l) (ln_p1 l).
(** GetLength -- linear.go:27-29 *)
Definition ln_length (l : linear) : f32 := vdst (ln_p1 l) (ln_p2 l).

(** ** math/curves/cirarc.go *)
(** type CirArc -- cirarc.go:9-15 (pt1..pt3 are only used by the angle getters) *)
Record cirarc := mkArc {
  arc_centre : vec; arc_start : f32; arc_total : f32; arc_dir : f32; arc_r : f32; arc_unstable : bool }.
(** [for endAngle < arc.startAngle { endAngle += 2*Pi }] -- cirarc.go:38-40 *)
Fixpoint arc_wrap (fuel : nat) (start en : f32) : res f32 :=
  if glt en start then
    match fuel with O => Hang | S fuel' => arc_wrap fuel' start (gadd en (gmul (gq 2 1) gpi)) end
  else Ok en.
(** NewCirArc -- cirarc.go:17-53 *)
Definition arc_centre_of (a b c : vec) : vec :=
  let d := gmul (gq 2 1)
             (gadd (gadd (gmul (vx a) (gsub (vy b) (vy c))) (gmul (vx b) (gsub (vy c) (vy a))))
                   (gmul (vx c) (gsub (vy a) (vy b)))) in
  let aSq := vlensq a in
  let bSq := vlensq b in
  let cSq := vlensq c in
  vscl (mkVec (gadd (gadd (gmul aSq (gsub (vy b) (vy c))) (gmul bSq (gsub (vy c) (vy a))))
                    (gmul cSq (gsub (vy a) (vy b))))
              (gadd (gadd (gmul aSq (gsub (vx c) (vx b))) (gmul bSq (gsub (vx a) (vx c))))
                    (gmul cSq (gsub (vx b) (vx a)))))
       (gdiv (gq 1 1) d).
Definition new_cirarc (fuel : nat) (a b c : vec) : res cirarc :=
  let centre := arc_centre_of a b c in
  let r := vdst a centre in
  let start := vangle_rv a centre in
  let* en := arc_wrap fuel start (vangle_rv c centre) in
  let total := gsub en start in
  let aToC := vsub c a in
  let aToC := mkVec (vy aToC) (gneg (vx aToC)) in
  let flip := glt (vdot aToC (vsub b a)) g0 in
  Ok {| arc_centre := centre; arc_start := start;
        arc_total := if flip then gsub g2pi total else total;
        arc_dir := if flip then gneg (gq 1 1) else gq 1 1;
        arc_r := r; arc_unstable := is_straight a b c |}.
(** PointAt -- cirarc.go:55-57 *)
Definition arc_point_at (arc : cirarc) (t : f32) : vec :=
  vadd (vec_rad (gadd (arc_start arc) (gmul (gmul (arc_dir arc) t) (arc_total arc))) (arc_r arc))
       (arc_centre arc).
(** GetLength -- cirarc.go:59-61 *)
Definition arc_length (arc : cirarc) : f32 := gmul (arc_r arc) (arc_total arc).

(** make([]T, n): panics for negative n and when n elements of the given size
    exceed the 2^48-byte address space of linux/amd64.  Running out of memory
    below that limit is not modelled. *)
Definition make_ok (n elem : Z) : bool := (0 <=? n) && (n * elem <=? 2 ^ 48).

(** ApproximateCircularArc -- approximation.go:7-23 *)
Definition approximate_arc (fuel : nat) (a b c : vec) (detail : f32) : res (list linear) :=
  let* arc := new_cirarc fuel a b c in
  if arc_unstable arc then Ok [mkLinear a b; mkLinear b c]
  else
    let segments := int_of_g (gmul (gmul (arc_r arc) (arc_total arc)) detail) in
    if make_ok segments 16 then
      Ok (map (fun i => mkLinear (arc_point_at arc (gdiv (g_of_Z (Z.of_nat i)) (g_of_Z segments)))
                                 (arc_point_at arc (gdiv (g_of_Z (Z.of_nat i + 1)) (g_of_Z segments))))
              (seq 0 (Z.to_nat segments)))
    else Panic.

(** ** math/curves/catmull.go *)
(** one coordinate of findPoint -- catmull.go:36-42 *)
Definition catmull_coord (a b c d t : f32) : f32 :=
  let t2 := gmul t t in
  let t3 := gmul t t2 in
  gmul (gq 1 2)
    (gadd (gadd (gadd (gmul (gq 2 1) b) (gmul (gadd (gneg a) c) t))
                (gmul (gsub (gadd (gsub (gmul (gq 2 1) a) (gmul (gq 5 1) b)) (gmul (gq 4 1) c)) d) t2))
          (gmul (gadd (gsub (gadd (gneg a) (gmul (gq 3 1) b)) (gmul (gq 3 1) c)) d) t3)).
Definition catmull_point (p1 p2 p3 p4 : vec) (t : f32) : vec :=
  mkVec (catmull_coord (vx p1) (vx p2) (vx p3) (vx p4) t)
        (catmull_coord (vy p1) (vy p2) (vy p3) (vy p4) t).
(** NewCatmull's ApproxLength -- catmull.go:21-27 (read only by GetLength and
    the angle getters, which no modelled code calls) *)
Definition catmull_length (p1 p2 p3 p4 : vec) : f32 :=
  let pl := gceil (vdst p2 p3) in
  fold_left (fun acc i =>
      gadd acc (vdst (catmull_point p1 p2 p3 p4 (gdiv (g_of_Z (Z.of_nat i)) pl))
                     (catmull_point p1 p2 p3 p4 (gdiv (g_of_Z (Z.of_nat i - 1)) pl))))
    (seq 1 (Z.to_nat (int_of_g pl))) g0.
(** ApproximateCatmullRom -- approximation.go:25-35 (always called with four
    points and detail 50; NewCatmull's unused length is not computed here) *)
Definition approximate_catmull (p1 p2 p3 p4 : vec) (detail : nat) : list linear :=
  map (fun i => mkLinear (catmull_point p1 p2 p3 p4 (gdiv (g_of_Z (Z.of_nat i)) (g_of_Z (Z.of_nat detail))))
                         (catmull_point p1 p2 p3 p4 (gdiv (g_of_Z (Z.of_nat i + 1)) (g_of_Z (Z.of_nat detail)))))
      (seq 0 detail).

(** ** math/curves/bezierapproximator.go
    The slices handed around by CreateBezier alias each other, so they live in
    a heap: a list of buffers addressed by position.  Address 0 is
    subdivisionBuffer1, address 1 is subdivisionBuffer2. *)
Definition bheap := list (list vec).
Definition hget (h : bheap) (a i : nat) : res vec :=
  match nth_error h a with
  | Some b => match nth_error b i with Some v => Ok v | None => Panic end
  | None => Panic
  end.
Definition hset (h : bheap) (a i : nat) (v : vec) : res bheap :=
  match nth_error h a with
  | Some b => if Nat.ltb i (length b) then Ok (upd h a (upd b i v)) else Panic
  | None => Panic
  end.
(** IsFlatEnough -- bezierapproximator.go:51-59 *)
Fixpoint is_flat (cp : list vec) : bool :=
  match cp with
  | a :: ((b :: c :: _) as r) =>
      if ggt (vlensq (vadd (vsub a (vscl b (gq 2 1))) c)) (gq 1 4) then false else is_flat r
  | _ => true
  end.
(** Subdivide -- bezierapproximator.go:61-77; [cp], [l], [r] are addresses *)
Definition subdivide_copy (count : nat) (cp : nat) (h : bheap) : res bheap :=
  foldM (fun h i => let* v := hget h cp i in hset h 0 i v) h (seq 0 count).
Definition subdivide_mid (m : nat) (h : bheap) : res bheap :=
  foldM (fun h j =>
      let* a := hget h 0 j in
      let* b := hget h 0 (S j) in
      hset h 0 j (vscl (vadd a b) (gq 1 2))) h (seq 0 m).
Definition subdivide (count : nat) (cp l r : nat) (h : bheap) : res bheap :=
  let* h := subdivide_copy count cp h in
  foldM (fun h i =>
      let* a := hget h 0 0 in
      let* h := hset h l i a in
      let* b := hget h 0 (count - i - 1) in
      let* h := hset h r (count - i - 1) b in
      subdivide_mid (count - i - 1) h) h (seq 0 count).
(** Approximate -- bezierapproximator.go:79-96 *)
Definition bz_approximate (count : nat) (cp : nat) (h : bheap) (out : list vec)
    : res (bheap * list vec) :=
  let* h := subdivide count cp 1 0 h in
  let* h := foldM (fun h i => let* v := hget h 0 (i + 1) in hset h 1 (count + i) v) h (seq 0 (count - 1)) in
  let* p0 := hget h cp 0 in
  let* ps := mapM (fun i =>
      let* a := hget h 1 (2 * i - 1) in
      let* b := hget h 1 (2 * i) in
      let* c := hget h 1 (2 * i + 1) in
      Ok (vscl (vadd (vadd a (vscl b (gq 2 1))) c) (gq 1 4))) (seq 1 (count - 2)) in
  Ok (h, out ++ p0 :: ps).
(** the loop of CreateBezier -- bezierapproximator.go:122-152; the stacks are
    lists of addresses, top first *)
Fixpoint create_bezier_loop (fuel count : nat) (h : bheap) (flat free : list nat) (out : list vec)
    : res (list vec) :=
  match flat with
  | [] => Ok out
  | parent :: flat' =>
      match fuel with
      | O => Hang
      | S fuel' =>
          let* pb := match nth_error h parent with Some b => Ok b | None => Panic end in
          if is_flat pb then
            let* st := bz_approximate count parent h out in
            create_bezier_loop fuel' count (fst st) flat' (parent :: free) (snd st)
          else
            let '(rc, free', h) :=
              match free with
              | a :: fr => (a, fr, h)
              | [] => (length h, [], h ++ [repeat vzero count])
              end in
            let* h := subdivide count parent 1 rc h in
            let* h := foldM (fun h i => let* v := hget h 1 i in hset h parent i v) h (seq 0 count) in
            create_bezier_loop fuel' count h (parent :: rc :: flat') free' out
      end
  end.
(** NewBezierApproximator + CreateBezier -- bezierapproximator.go:47-49, 98-156 *)
Definition create_bezier (fuel : nat) (cp : list vec) : res (list vec) :=
  let count := length cp in
  match cp with
  | [] => Panic (* make([]Vector2f, -1) in NewBezierApproximator *)
  | p :: _ =>
      let h := [repeat vzero count; repeat vzero (count * 2 - 1); cp] in
      let* out := create_bezier_loop fuel count h [2%nat] [] [] in
      Ok (out ++ [last cp p])
  end.
(** ApproximateBezier -- approximation.go:37-47 *)
Fixpoint pairs (p : vec) (l : list vec) : list linear :=
  match l with [] => [] | q :: r => mkLinear p q :: pairs q r end.
Definition approximate_bezier (fuel : nat) (cp : list vec) : res (list linear) :=
  let* ex := create_bezier fuel cp in
  match ex with [] => Panic | p :: r => Ok (pairs p r) end.

(** ** math/curves/bezier.go (not called by the parser; part of the API) *)
(** MinI64 -- utils.go:36-42 *)
Definition minI64 (a b : Z) : Z := if a <? b then a else b.
(** BinomialCoefficient -- bezier.go:80-97, int64 arithmetic *)
Definition binomial (n k : Z) : Z :=
  if (k <? 0) || (n <? k) then 0
  else if (k =? 0) || (k =? n) then 1
  else
    let k := minI64 k (wrap64 (n - k)) in
    fold_left (fun c i => wrap64 (c * Z.quot (wrap64 (wrap64 (n + 1) - Z.of_nat i)) (Z.of_nat i)))
      (seq 1 (Z.to_nat k)) 1.
(** bernstein -- bezier.go:100-102 *)
Definition bernstein (i n : Z) (t : f32) : f32 :=
  gmul (gmul (g_of_Z (binomial n i)) (gpow t (g_of_Z i))) (gpow (gsub (gq 1 1) t) (g_of_Z (n - i))).
(** (Bezier).PointAt -- bezier.go:56-65 *)
Fixpoint bezier_sum (i n : Z) (t : f32) (acc : vec) (pts : list vec) : vec :=
  match pts with
  | [] => acc
  | p :: r =>
      let b := bernstein i n t in
      bezier_sum (i + 1) n t (mkVec (gadd (vx acc) (gmul (vx p) b)) (gadd (vy acc) (gmul (vy p) b))) r
  end.
Definition bezier_point_at (pts : list vec) (t : f32) : vec :=
  bezier_sum 0 (zlen pts - 1) t vzero pts.

(** ** math/curves/multicurve.go *)
(** type MultiCurve -- multicurve.go:11-16 *)
Record multicurve := mkMulti {
  mc_sections : list f32; mc_lines : list linear; mc_length : f32; mc_first : vec }.
(** processLinear -- multicurve.go:183-193 *)
Fixpoint process_linear (pts : list vec) : list linear :=
  match pts with
  | a :: ((b :: _) as r) => if vec_eqb a b then process_linear r else mkLinear a b :: process_linear r
  | _ => []
  end.
(** processBezier -- multicurve.go:195-219; at most one iteration per point *)
Definition slice {A} (l : list A) (lo hi : nat) : list A := firstn (hi - lo) (skipn lo l).
Fixpoint process_bezier_loop (fuel : nat) (k : nat) (pts : list vec) (i last : nat) : res (list linear) :=
  match k with
  | O => Ok []
  | S k' =>
      if Nat.ltb i (length pts) then
        let multi := Nat.ltb (i + 2) (length pts) &&
          match nth_error pts i, nth_error pts (S i) with
          | Some a, Some b => vec_eqb a b | _, _ => false end in
        if multi || Nat.eqb (S i) (length pts) then
          let sub := slice pts last (S i) in
          let* ls := match sub with
                     | [a; b] => Ok [mkLinear a b]
                     | _ => approximate_bezier fuel sub
                     end in
          let i' := if multi then S i else i in
          let* rest := process_bezier_loop fuel k' pts (S i') i' in
          Ok (ls ++ rest)
        else process_bezier_loop fuel k' pts (S i) last
      else Ok []
  end.
Definition process_bezier (fuel : nat) (pts : list vec) : res (list linear) :=
  process_bezier_loop fuel (length pts) pts 0 0.
(** processPerfect -- multicurve.go:171-181 *)
Definition process_perfect (fuel : nat) (pts : list vec) : res (list linear) :=
  match pts with
  | a :: b :: c :: r =>
      match r with
      | _ :: _ => process_bezier fuel pts
      | [] => if is_straight a b c then Ok (process_linear pts)
              else approximate_arc fuel a b c (gq 1 8)
      end
  | _ => Ok (process_linear pts)
  end.
(** processCatmull -- multicurve.go:221-249; [prev] is points[i-1] if i > 0 *)
Fixpoint process_catmull (prev : option vec) (pts : list vec) : list linear :=
  match pts with
  | p2 :: ((p3 :: r) as rest) =>
      let p1 := match prev with Some p => p | None => p2 end in
      let p4 := match r with p :: _ => p | [] => vadd p3 (vsub p3 p2) end in
      approximate_catmull p1 p2 p3 p4 50 ++ process_catmull (Some p2) rest
  | _ => []
  end.
(** sections and length -- multicurve.go:32-47, 75-88 *)
Fixpoint section_sums (prev : f32) (ls : list linear) : list f32 :=
  match ls with
  | [] => []
  | l :: r => let s := gadd prev (ln_length l) in s :: section_sums s r
  end.
Definition total_length (ls : list linear) : f32 :=
  fold_left (fun acc l => gadd acc (ln_length l)) ls g0.
(** NewMultiCurve -- multicurve.go:18-50 *)
Definition curve_lines (fuel : nat) (typ : str) (pts : list vec) : res (list linear) :=
  if str_eqb typ (lit "P") then process_perfect fuel pts
  else if str_eqb typ (lit "L") then Ok (process_linear pts)
  else if str_eqb typ (lit "B") then process_bezier fuel pts
  else if str_eqb typ (lit "C") then Ok (process_catmull None pts)
  else Ok [].
Definition finish_curve (ls : list linear) (first : vec) : multicurve :=
  {| mc_sections := g0 :: section_sums g0 ls; mc_lines := ls;
     mc_length := total_length ls; mc_first := first |}.
Definition new_multicurve (fuel : nat) (typ : str) (pts : list vec) : res multicurve :=
  let* ls := curve_lines fuel typ pts in
  match pts with
  | [] => Panic
  | p :: _ => Ok (finish_curve ls p)
  end.
(** the trimming loop of NewMultiCurveT -- multicurve.go:58-72, on the
    reversed list of lines *)
Fixpoint trim_lines (rls : list linear) (diff : f64) : list linear :=
  match rls with
  | [] => []
  | l :: r =>
      let len := f_of_g (ln_length l) in
      if fgt len (fadd diff (fq 1 10000)) then
        (if vec_eqb (ln_p1 l) (ln_p2 l) then l
         else mkLinear (ln_p1 l)
                (ln_point_at l (gdiv (gsub (ln_length l) (g_of_f diff)) (ln_length l)))) :: r
      else trim_lines r (fsub diff len)
  end.
(** NewMultiCurveT -- multicurve.go:52-91 *)
Definition new_multicurve_t (fuel : nat) (typ : str) (pts : list vec) (desired : f64) : res multicurve :=
  let* mc := new_multicurve fuel typ pts in
  let ls := if ggt (mc_length mc) g0
            then rev (trim_lines (rev (mc_lines mc)) (fsub (f_of_g (mc_length mc)) desired))
            else mc_lines mc in
  Ok (finish_curve ls (mc_first mc)).
(** index of the line at t -- multicurve.go:98-105, 131-138 *)
Definition mc_index (mc : multicurve) (t : f32) : nat * f32 :=
  let desired := gmul (mc_length mc) (clampF32 t g0 (gq 1 1)) in
  let wf := tl (mc_sections mc) in
  let index := search (length wf) (fun i =>
    match nth_error wf i with Some s => gge s desired | None => true end) in
  (Nat.min index (length (mc_lines mc) - 1), desired).
(** PointAt -- multicurve.go:93-112 *)
Definition mc_point_at (mc : multicurve) (t : f32) : res vec :=
  match mc_lines mc with
  | [] => Ok (mc_first mc)
  | _ =>
      if geq (mc_length mc) g0 then Ok (mc_first mc)
      else
        let '(i, desired) := mc_index mc t in
        let* hi := idx (mc_sections mc) (Z.of_nat i + 1) in
        let* lo := idx (mc_sections mc) (Z.of_nat i) in
        let* l := idx (mc_lines mc) (Z.of_nat i) in
        if geq (gsub hi lo) g0 then Ok (ln_p1 l)
        else Ok (ln_point_at l (gdiv (gsub desired lo) (gsub hi lo)))
  end.
(** getLineAt and the angle getters -- multicurve.go:118-165 *)
Definition mc_line_at (mc : multicurve) (t : f32) : res linear :=
  match mc_lines mc with
  | [] => Ok (mkLinear vzero vzero)
  | _ => idx (mc_lines mc) (Z.of_nat (fst (mc_index mc t)))
  end.
Definition mc_start_angle_at (mc : multicurve) (t : f32) : res f32 :=
  match mc_lines mc with
  | [] => Ok g0
  | _ => let* l := mc_line_at mc t in Ok (ln_start_angle l)
  end.
Definition mc_end_angle_at (mc : multicurve) (t : f32) : res f32 :=
  match mc_lines mc with
  | [] => Ok g0
  | _ => let* l := mc_line_at mc t in Ok (ln_end_angle l)
  end.
End WithLibm.

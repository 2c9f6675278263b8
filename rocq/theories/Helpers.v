(** The helpers nothing else in the library calls: math/vector, math/math32,
    math/mutils and math/curves (curve objects). *)
From Coq Require Import ZArith List.
From Verif Require Export Curves.
Import ListNotations.
Open Scope Z_scope.

Section WithLibm.
Context {M : libm}.

(** ** math/math32/math.go *)
(** Acos -- math.go:11-13 *)
Definition gacos (v : f32) : f32 := g_of_f (macos (f_of_g v)).
(** Floor -- math.go:35-37 *)
Definition gfloor (v : f32) : f32 := g_of_f (ffloor (f_of_g v)).
(** Round -- math.go:43-45 *)
Definition ground (v : f32) : f32 := gfloor (gadd v (gq 1 2)).
(** Mod -- math.go:67-69 *)
Definition gmod (a b : f32) : f32 := g_of_f (fmod (f_of_g a) (f_of_g b)).

(** ** math/mutils/utils.go *)
(** LerpF32 -- utils.go:56-58 *)
Definition lerpF32 (mn mx t : f32) : f32 := gadd mn (gmul (gsub mx mn) t).

(** ** math/vector/vector2f.go *)
(** AddS, SubS, Mult -- vector2f.go:38-40, 46-52 *)
Definition vadds (v : vec) (x y : f32) : vec := mkVec (gadd (vx v) x) (gadd (vy v) y).
Definition vsubs (v : vec) (x y : f32) : vec := mkVec (gsub (vx v) x) (gsub (vy v) y).
Definition vmult (a b : vec) : vec := mkVec (gmul (vx a) (vx b)) (gmul (vy a) (vy b)).
(** Mid -- vector2f.go:54-56 *)
Definition vmid (a b : vec) : vec := mkVec (gdiv (gadd (vx a) (vx b)) (gq 2 1)) (gdiv (gadd (vy a) (vy b)) (gq 2 1)).
(** DstSq -- vector2f.go:69-74 *)
Definition vdstsq (a b : vec) : f32 :=
  let x := gsub (vx b) (vx a) in let y := gsub (vy b) (vy a) in gadd (gmul x x) (gmul y y).
(** AngleR, Angle -- vector2f.go:76-82 *)
Definition vangle_r (v : vec) : f32 := gatan2 (vy v) (vx v).
Definition vangle (v : vec) : f32 := gdiv (gmul (vangle_r v) (gq 180 1)) gpi.
(** Nor -- vector2f.go:84-94; epsilon -- vector2f.go:8 *)
Definition vnor (v : vec) : vec :=
  let length := vlensq v in
  if glt length (gq 1 100000) then v
  else let length := gsqrt length in mkVec (gdiv (vx v) length) (gdiv (vy v) length).
(** Rotate -- vector2f.go:107-115 *)
Definition vrotate (v : vec) (rad : f32) : vec :=
  let c := gcos rad in let s := gsin rad in
  mkVec (gsub (gmul (vx v) c) (gmul (vy v) s)) (gadd (gmul (vx v) s) (gmul (vy v) c)).
(** Abs -- vector2f.go:129-131 *)
Definition vabs (v : vec) : vec := mkVec (gabs (vx v)) (gabs (vy v)).
(** AngleBetween32 -- vector2f.go:141-147 *)
Definition angle_ratio (centre p1 p2 : vec) : f32 :=
  let a := vdst centre p1 in let b := vdst centre p2 in let c := vdst p1 p2 in
  gdiv (gsub (gadd (gmul a a) (gmul b b)) (gmul c c)) (gmul (gmul (gq 2 1) a) b).
Definition angle_between (centre p1 p2 : vec) : f32 := gacos (angle_ratio centre p1 p2).

(** ** math/curves/bezier.go *)
(** type Bezier -- bezier.go:9-13 *)
Record bezier := mkBezier { bz_points : list vec; bz_control : f32; bz_length : f32 }.
(** NewBezierNA -- bezier.go:25-35 *)
Fixpoint control_from (acc : f32) (prev : vec) (pts : list vec) : f32 :=
  match pts with
  | [] => acc
  | p :: r => control_from (gadd acc (vdst p prev)) p r
  end.
Definition control_length (pts : list vec) : f32 := match pts with [] => g0 | p :: r => control_from g0 p r end.
Definition new_bezier_na (pts : list vec) : bezier := mkBezier pts (control_length pts) (control_length pts).
(** the points the loop of CalculateLength visits, and the sum over them --
    bezier.go:43-50; [int_of_g] of a NaN or an infinity is negative, so the
    loop does not run *)
Definition walk_step (pts : list vec) (sections : f32) (st : f32 * vec) (i : nat) : f32 * vec :=
  let current := bezier_point_at pts (gdiv (g_of_Z (Z.of_nat i)) sections) in
  (gadd (fst st) (vdst current (snd st)), current).
(** CalculateLength -- bezier.go:38-53 *)
Definition calculate_length (bz : bezier) : res bezier :=
  let sections := gceil (bz_control bz) in
  match bz_points bz with
  | [] => Panic
  | p :: _ =>
      let st := fold_left (walk_step (bz_points bz) sections) (seq 1 (Z.to_nat (int_of_g sections))) (g0, p) in
      Ok (mkBezier (bz_points bz) (bz_control bz) (fst st))
  end.
(** NewBezier -- bezier.go:16-21 *)
Definition new_bezier (pts : list vec) : res bezier := calculate_length (new_bezier_na pts).
(** GetStartAngle, GetEndAngle -- bezier.go:71-77 *)
Definition bz_start_angle (bz : bezier) : res f32 :=
  match bz_points bz with
  | [] => Panic
  | p :: _ => Ok (vangle_rv p (bezier_point_at (bz_points bz) (gdiv (gq 1 1) (bz_control bz))))
  end.
Definition bz_end_angle (bz : bezier) : res f32 :=
  match rev (bz_points bz) with
  | [] => Panic
  | p :: _ => Ok (vangle_rv p (bezier_point_at (bz_points bz) (gsub (gq 1 1) (gdiv (gq 1 1) (bz_control bz)))))
  end.

(** ** math/curves/catmull.go *)
(** type Catmull -- catmull.go:8-11 *)
Record catmull := mkCatmull { cm_points : list vec; cm_length : f32 }.
(** NewCatmull -- catmull.go:13-30 *)
Definition new_catmull (pts : list vec) : res catmull :=
  match pts with
  | [a; b; c; d] => Ok (mkCatmull pts (catmull_length a b c d))
  | _ => Panic
  end.
(** PointAt -- catmull.go:32-34 *)
Definition cm_point_at (cm : catmull) (t : f32) : res vec :=
  match cm_points cm with
  | a :: b :: c :: d :: _ => Ok (catmull_point a b c d t)
  | _ => Panic
  end.
(** GetStartAngle, GetEndAngle -- catmull.go:48-54 *)
Definition cm_start_angle (cm : catmull) : res f32 :=
  match cm_points cm with
  | [] => Panic
  | p :: _ => bind (cm_point_at cm (gdiv (gq 1 1) (cm_length cm))) (fun q => Ok (vangle_rv p q))
  end.
Definition cm_end_angle (cm : catmull) : res f32 :=
  match rev (cm_points cm) with
  | [] => Panic
  | p :: _ => bind (cm_point_at cm (gdiv (gsub (cm_length cm) (gq 1 1)) (cm_length cm))) (fun q => Ok (vangle_rv p q))
  end.

(** ** math/curves/cirarc.go *)
(** GetStartAngle, GetEndAngle of an arc made from [a], [b], [c] -- cirarc.go:63-69 *)
Definition arc_start_angle (a : vec) (arc : cirarc) : f32 := vangle_rv a (arc_point_at arc (gdiv (gq 1 1) (arc_length arc))).
Definition arc_end_angle (c : vec) (arc : cirarc) : f32 := vangle_rv c (arc_point_at arc (gdiv (gsub (arc_length arc) (gq 1 1)) (arc_length arc))).
End WithLibm.

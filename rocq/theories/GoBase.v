(** Runtime base of the Go model: outcomes, integers, byte strings, slices.
    Nothing here is specific to gosu-pp; it fixes how Go's own run-time
    behaviour (panics, non-termination, int64 arithmetic) is represented. *)
From Coq Require Export String Ascii ZArith Bool Lia List.
Export ListNotations.
Open Scope Z_scope.

(** Outcome of running Go code: a value, a run-time panic (index out of
    range, nil dereference, negative make), or loop fuel exhausted.  Every
    loop whose termination is not structural takes a [fuel : nat]; [Hang]
    means that many iterations were not enough. *)
Inductive res (A : Type) : Type :=
| Ok (a : A)
| Panic
| Hang.
Arguments Ok {A} a.
Arguments Panic {A}.
Arguments Hang {A}.

Definition bind {A B} (x : res A) (f : A -> res B) : res B :=
  match x with Ok a => f a | Panic => Panic | Hang => Hang end.
Notation "'let*' x ':=' e 'in' f" := (bind e (fun x => f))
  (at level 200, x pattern, e at level 100, f at level 200, right associativity).

Definition rmap {A B} (f : A -> B) (x : res A) : res B := bind x (fun a => Ok (f a)).

(** Sequential application of a fallible function to a list (a Go range loop
    that appends one result per element). *)
Fixpoint mapM {A B} (f : A -> res B) (l : list A) : res (list B) :=
  match l with
  | [] => Ok []
  | x :: r => let* y := f x in let* ys := mapM f r in Ok (y :: ys)
  end.

(** Sequential fold of a fallible step (a Go range loop updating state). *)
Fixpoint foldM {A S} (f : S -> A -> res S) (s : S) (l : list A) : res S :=
  match l with
  | [] => Ok s
  | x :: r => let* s' := f s x in foldM f s' r
  end.

(** Go's [int] is 64 bit: two's complement wrap-around. *)
Definition wrap64 (z : Z) : Z := (z + 2^63) mod 2^64 - 2^63.
Definition min_int64 : Z := - 2^63.
Definition max_int64 : Z := 2^63 - 1.
Definition in_int64 (z : Z) : Prop := min_int64 <= z <= max_int64.

(** Slice indexing [l[i]] with bounds check. *)
Definition idx {A} (l : list A) (i : Z) : res A :=
  if i <? 0 then Panic
  else match nth_error l (Z.to_nat i) with Some x => Ok x | None => Panic end.

(** Slice element assignment at a natural index (no effect out of range;
    callers only use indices below the length). *)
Fixpoint upd {A} (l : list A) (i : nat) (x : A) : list A :=
  match l, i with
  | [], _ => []
  | _ :: r, O => x :: r
  | y :: r, S i' => y :: upd r i' x
  end.

(** [l[i] = x] with bounds check. *)
Definition set_idx {A} (l : list A) (i : Z) (x : A) : res (list A) :=
  if (i <? 0) || (Z.of_nat (List.length l) <=? i) then Panic else Ok (upd l (Z.to_nat i) x).

(** Go strings are byte strings. *)
Definition str := list ascii.
Definition lit (s : string) : str := list_ascii_of_string s.
Definition byte_of (c : ascii) : Z := Z.of_N (N_of_ascii c).
Definition chr (n : N) : ascii := ascii_of_N n.

Fixpoint str_eqb (a b : str) : bool :=
  match a, b with
  | [], [] => true
  | x :: a', y :: b' => Ascii.eqb x y && str_eqb a' b'
  | _, _ => false
  end.

Definition zlen {A} (l : list A) : Z := Z.of_nat (List.length l).

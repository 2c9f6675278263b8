(** Go's sort package, as used by the repo. *)
From Verif Require Export GoBase.

(** sort.Search(n, f): binary search for the smallest index with f true,
    loop [for i < j { h := (i+j)/2; if !f(h) {i = h+1} else {j = h} }].
    [fuel = n] iterations always suffice (lemma [search_fuel_enough]). *)
Fixpoint search_loop (fuel : nat) (f : nat -> bool) (i j : nat) : nat :=
  match fuel with
  | O => i
  | S fuel' =>
      if Nat.ltb i j then
        let h := Nat.div2 (i + j) in
        if f h then search_loop fuel' f i h else search_loop fuel' f (S h) j
      else i
  end.
Definition search (n : nat) (f : nat -> bool) : nat := search_loop n f 0 n.

(** sort.SliceStable: for a strict weak order [lt] the result of a stable
    sort is unique, so the algorithm used does not matter; modelled as
    insertion sort.  (With NaN keys the order is not strict weak and Go's
    result depends on its merge strategy; theorems that look at the order
    exclude NaN keys.)  sort.Slice is modelled by the same function: it agrees
    with Go's up to the order of elements with equal keys. *)
Fixpoint insert {A} (lt : A -> A -> bool) (x : A) (l : list A) : list A :=
  match l with
  | [] => [x]
  | y :: r => if lt y x then y :: insert lt x r else x :: y :: r
  end.
Definition stable_sort {A} (lt : A -> A -> bool) (l : list A) : list A :=
  fold_right (insert lt) [] l.

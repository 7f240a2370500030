(** Go's container/heap (go1.19 src/container/heap/heap.go) over the slices of
    db/core/index/utils/heap.go. *)
From Verif Require Import GoBase FloatModel.

(** db/core/index/utils/heap.go:5-8 Element *)
Record elem := Elem { e_id : N; e_dist : fl }.

Section heap.
  Context {A : Type} (less : A -> A -> bool).

  (** heap.go:19 Less(i, j) on a slice; an out-of-range index cannot occur in
      the calls below (proved by their correctness). *)
  Definition less_at (l : list A) (i j : nat) : bool :=
    match l !! i, l !! j with
    | Some a, Some b => less a b
    | _, _ => false
    end.

  (** heap.go:17 Swap(i, j) *)
  Definition swap (l : list A) (i j : nat) : list A :=
    match l !! i, l !! j with
    | Some a, Some b => <[i := b]> (<[j := a]> l)
    | _, _ => l
    end.

  (** container/heap up(h, j):
      for { i := (j-1)/2; if i == j || !h.Less(j, i) { break }; h.Swap(i, j); j = i }
      ((j-1)/2 is 0 for j = 0 because Go truncates.)  [fuel] bounds the loop. *)
  Fixpoint up (fuel : nat) (l : list A) (j : nat) : list A :=
    match fuel with
    | O => l
    | S f =>
        let i := (j - 1) / 2 in
        if (i =? j) || negb (less_at l j i) then l
        else up f (swap l i j) i
    end.

  (** container/heap down(h, i0, n) *)
  Fixpoint down (fuel : nat) (l : list A) (i n : nat) : list A :=
    match fuel with
    | O => l
    | S f =>
        let j1 := 2 * i + 1 in
        if n <=? j1 then l
        else
          let j2 := j1 + 1 in
          let j := if (j2 <? n) && less_at l j2 j1 then j2 else j1 in
          if negb (less_at l j i) then l
          else down f (swap l i j) j n
    end.

  (** container/heap Init: for i := n/2 - 1; i >= 0; i-- { down(h, i, n) } *)
  Fixpoint init_loop (k : nat) (l : list A) (n : nat) : list A :=
    match k with
    | O => l
    | S i => init_loop i (down (S n) l i n) n
    end.
  Definition heap_init (l : list A) : list A := init_loop (length l / 2) l (length l).

  (** container/heap Push: h.Push(x); up(h, h.Len()-1); heap.go:21-23 *)
  Definition heap_push (l : list A) (x : A) : list A :=
    let l' := l ++ [x] in up (length l') l' (length l' - 1).

  (** container/heap Pop: n := h.Len()-1; h.Swap(0, n); down(h, 0, n);
      return h.Pop(); heap.go:25-32.  On an empty heap Swap(0,-1) panics. *)
  Definition heap_pop (l : list A) : out (A * list A) :=
    match l with
    | [] => Pan PIndex
    | _ =>
        let n := length l - 1 in
        let l' := down (S n) (swap l 0 n) 0 n in
        match l' !! n with
        | Some x => Val (x, take n l')
        | None => Pan PIndex
        end
    end.

  (** heap.go:34-36 Peek: h.Elements[h.Len()-1] (the LAST slice element) *)
  Definition heap_peek (l : list A) : out A := or_pan PIndex (last l).
End heap.

(** heap.go:41-43, 50-52, 62-64: elements[i].Distance < elements[j].Distance *)
Definition min_less (a b : elem) : bool := fltb (e_dist a) (e_dist b).
(** heap.go:78-80, 86-88: elements[i].Distance > elements[j].Distance *)
Definition max_less (a b : elem) : bool := fltb (e_dist b) (e_dist a).

(** heap.go:47-58 NewMinHeapFromSlice *)
Definition new_min_heap (s : list elem) : list elem := heap_init min_less s.
(** heap.go:60-73 NewMinHeapFromSliceDeep: make([]Element, len(s), capacity)
    panics when len(s) > capacity. *)
Definition new_min_heap_deep (s : list elem) (capacity : nat) : out (list elem) :=
  if decide (length s <= capacity) then Val (heap_init min_less s) else Pan PMake.
(** heap.go:84-97 NewMaxHeapFromSliceDeep *)
Definition new_max_heap_deep (s : list elem) (capacity : nat) : out (list elem) :=
  if decide (length s <= capacity) then Val (heap_init max_less s) else Pan PMake.

(** heap.go:38-45, 75-82 NewMinHeap / NewMaxHeap: a slice of [capacity] zero
    elements (not an empty heap). *)
Definition new_heap_cap (capacity : nat) : list elem := replicate capacity (Elem 0 fzero).

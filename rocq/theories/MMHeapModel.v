(** The min-max heap of db/core/index/utils/mmheap.go. *)
From Verif Require Import GoBase FloatModel HeapModel.

Section mmheap.
  Context {A : Type} (less : A -> A -> bool).

  (** mmheap.go:128-135 isLess, isGreater as comparisons of two elements *)
  Definition is_less (a b : A) : bool := less a b.
  Definition is_greater (a b : A) : bool := less b a.

  (** mmheap.go:120-123 isOnMinLevel: int(math.Log2(float64(i)+1)) even.
      Simplification: math.Log2 is taken to be exact (true below 2^48). *)
  Definition on_min_level (i : nat) : bool := Nat.even (Nat.log2 (i + 1)).

  (** mmheap.go:141-148 swapIf *)
  Definition swap_if (cmp : A -> A -> bool) (l : list A) (i j : nat) : list A * bool :=
    if less_at cmp l i j then (swap l i j, true) else (l, false).

  (** mmheap.go:170-180 upX; [fuel] bounds the loop *)
  Fixpoint up_x (fuel : nat) (cmp : A -> A -> bool) (l : list A) (i : nat) : list A :=
    match fuel with
    | O => l
    | S f =>
        if 2 <? i then
          let grandparent := ((i - 1) / 2 - 1) / 2 in
          let '(l', swapped) := swap_if cmp l i grandparent in
          if swapped then up_x f cmp l' grandparent else l
        else l
    end.

  (** mmheap.go:152-168 up *)
  Definition mm_up (l : list A) (i : nat) : list A :=
    let parent := (i - 1) / 2 in
    let fuel := S i in
    if on_min_level i then
      if (0 <? i) && less_at is_greater l i parent
      then up_x fuel is_greater (swap l i parent) parent
      else up_x fuel is_less l i
    else
      if (0 <? i) && less_at is_less l i parent
      then up_x fuel is_less (swap l i parent) parent
      else up_x fuel is_greater l i.

  (** mmheap.go:267-277 least *)
  Definition least (cmp : A -> A -> bool) (l : list A) (i j n : nat) : nat * bool :=
    if n <=? j then (i, true)
    else if less_at cmp l i j then (i, false) else (j, false).

  (** mmheap.go:225-262 minDescendent; None stands for -1 *)
  Definition min_descendent (cmp : A -> A -> bool) (l : list A) (i n : nat) : option nat :=
    let left := i * 2 + 1 in
    if n <=? left then None
    else
      let right := left + 1 in
      let '(m, done) := least cmp l left right n in
      if done then Some m else
      let '(m, done) := least cmp l m (left * 2 + 1) n in
      if done then Some m else
      let '(m, done) := least cmp l m (left * 2 + 2) n in
      if done then Some m else
      let '(m, done) := least cmp l m (right * 2 + 1) n in
      if done then Some m else
      let '(m, _) := least cmp l m (right * 2 + 2) n in
      Some m.

  (** mmheap.go:192-220 downX; [fuel] bounds the loop *)
  Fixpoint down_x (fuel : nat) (cmp : A -> A -> bool) (l : list A) (i n : nat)
      (recursed : bool) : list A * bool :=
    match fuel with
    | O => (l, recursed)
    | S f =>
        match min_descendent cmp l i n with
        | None => (l, recursed)
        | Some m =>
            let parent := (m - 1) / 2 in
            if i =? parent then (fst (swap_if cmp l m i), recursed)
            else
              let '(l1, swapped) := swap_if cmp l m i in
              if negb swapped then (l1, recursed)
              else
                let l2 := fst (swap_if cmp l1 parent m) in
                down_x f cmp l2 m n true
        end
    end.

  (** mmheap.go:184-190 down *)
  Definition mm_down (l : list A) (i n : nat) : list A * bool :=
    if on_min_level i then down_x (S n) is_less l i n false
    else down_x (S n) is_greater l i n false.

  (** mmheap.go:28-33 Init: for i := n / 2; i > 0; i-- { down(h, i, n) } *)
  Fixpoint mm_init_loop (k : nat) (l : list A) (n : nat) : list A :=
    match k with
    | O => l
    | S k' => mm_init_loop k' (fst (mm_down l k n)) n
    end.
  Definition mm_init (l : list A) : list A := mm_init_loop (length l / 2) l (length l).

  (** mmheap.go:36-40 Push *)
  Definition mm_push (l : list A) (x : A) : list A := mm_up (l ++ [x]) (length l).

  (** mmheap.go:44-50 Pop; on an empty heap Swap(0,-1) panics *)
  Definition mm_pop (l : list A) : out (A * list A) :=
    match l with
    | [] => Pan PIndex
    | _ =>
        let i := length l - 1 in
        let l' := fst (mm_down (swap l 0 i) 0 i) in
        match l' !! i with Some x => Val (x, take i l') | None => Pan PIndex end
    end.

  (** mmheap.go:106-116 indexOfMax for n > 0 *)
  Definition index_of_max (l : list A) (n : nat) : nat :=
    if n <=? 2 then n - 1
    else if less_at less l 2 1 then 1 else 2.

  (** mmheap.go:54-63 PopMax; on an empty heap Swap(-1,-1) panics *)
  Definition mm_pop_max (l : list A) : out (A * list A) :=
    match l with
    | [] => Pan PIndex
    | _ =>
        let n := length l in
        let i := index_of_max l n in
        let j := n - 1 in
        let l' := fst (mm_down (swap l i j) i j) in
        match l' !! j with Some x => Val (x, take j l') | None => Pan PIndex end
    end.

  (** mmheap.go:66-78 Remove *)
  Definition mm_remove (l : list A) (i : nat) : out (A * list A) :=
    if decide (i < length l) then
      let j := length l - 1 in
      let l' :=
        if i =? j then l
        else
          let '(l1, moved) := mm_down (swap l i j) i j in
          if moved then l1 else mm_up l1 i in
      match l' !! j with Some x => Val (x, take j l') | None => Pan PIndex end
    else Pan PIndex.

  (** mmheap.go:86-91 Fix *)
  Definition mm_fix (l : list A) (i : nat) : list A :=
    let '(l1, moved) := mm_down l i (length l) in
    if moved then l1 else mm_up l1 i.
End mmheap.

(** mmheap.go:10-21 NewMinMaxHeapFromSlice *)
Definition new_mm_heap (s : list elem) : list elem := mm_init min_less s.

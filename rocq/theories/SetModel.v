(** The generic Set type of db/core/index/utils/set.go over any countable
    element type; the Go map is a finite set, and a range over it visits
    [elements] in some order (no function below depends on the order). *)
From Verif Require Import GoBase.

Section set.
  Context {T : Type} `{Countable T}.

  (** set.go:13-21 NewSet *)
  Definition set_new (es : list T) : gset T := fold_left (fun s e => {[e]} ∪ s) es ∅.
  (** set.go:52-55 Add *)
  Definition set_add (s : gset T) (e : T) : gset T := {[e]} ∪ s.
  (** set.go:58-61 Remove *)
  Definition set_remove (s : gset T) (e : T) : gset T := s ∖ {[e]}.
  (** set.go:64-67 Has *)
  Definition set_has (s : gset T) (e : T) : bool := bool_decide (e ∈ s).
  (** set.go:47-49 Cardinality *)
  Definition set_card (s : gset T) : nat := size s.
  (** set.go:24-30 Clone *)
  Definition set_clone (s : gset T) : gset T := fold_left set_add (elements s) ∅.
  (** set.go:33-39 ToSlice *)
  Definition set_to_slice (s : gset T) : list T := elements s.
  (** set.go:70-77 IsSubset *)
  Definition set_is_subset (s s2 : gset T) : bool := forallb (set_has s2) (elements s).
  (** set.go:42-44 Equals *)
  Definition set_equals (s s2 : gset T) : bool := (set_card s =? set_card s2) && set_is_subset s s2.
  (** set.go:80-88 Diff *)
  Definition set_diff (s s2 : gset T) : gset T :=
    fold_left (fun d v => if negb (set_has s2 v) then set_add d v else d) (elements s) ∅.
  (** set.go:92-108 SymDiff *)
  Definition set_symdiff (s s2 : gset T) : gset T :=
    let sd := fold_left (fun d v => if negb (set_has s2 v) then set_add d v else d) (elements s) ∅ in
    fold_left (fun d v => if negb (set_has s v) then set_add d v else d) (elements s2) sd.
  (** set.go:167-175 Union(sets...) *)
  Definition set_union_all (sets : list (gset T)) : gset T :=
    fold_left (fun u s => fold_left set_add (elements s) u) sets ∅.
  (** set.go:111-113 *)
  Definition set_union (s s2 : gset T) : gset T := set_union_all [s; s2].
  (** set.go:197-218 twoSetsIntersection *)
  Definition two_sets_intersection (s1 s2 : gset T) : gset T :=
    let '(ss, ls) := if set_card s1 <? set_card s2 then (s1, s2) else (s2, s1) in
    fold_left (fun i v => if set_has ls v then set_add i v else i) (elements ss) ∅.
  (** set.go:183-190 the loop of Intersection; the early exit is a break, so
      the accumulated intersection is returned *)
  Fixpoint intersection_loop (acc : gset T) (sets : list (gset T)) : gset T :=
    match sets with
    | [] => acc
    | s :: rest =>
        if (set_card acc =? 0) || (set_card s =? 0) then acc
        else intersection_loop (two_sets_intersection acc s) rest
    end.
  (** set.go:178-193 Intersection(sets...) *)
  Definition set_intersection_all (sets : list (gset T)) : gset T :=
    match sets with
    | [] => set_new []
    | s :: rest => intersection_loop s rest
    end.
  (** set.go:116-118 *)
  Definition set_intersect (s s2 : gset T) : gset T := set_intersection_all [s; s2].
  (** set.go:121-128 All *)
  Definition set_all (s : gset T) (pred : T -> bool) : bool :=
    (fix go l := match l with [] => true | e :: l' => if negb (pred e) then false else go l' end) (elements s).
  (** set.go:131-138 Some: the body is a copy of All *)
  Definition set_some (s : gset T) (pred : T -> bool) : bool :=
    (fix go l := match l with [] => true | e :: l' => if negb (pred e) then false else go l' end) (elements s).
  (** set.go:141-150 Filter *)
  Definition set_filter (s : gset T) (pred : T -> bool) : gset T :=
    fold_left (fun f e => if pred e then set_add f e else f) (elements s) ∅.
  (** set.go:153-155 Clear *)
  Definition set_clear (s : gset T) : gset T := ∅.
End set.

(** C58: the generic Set type implements the set operations. *)
From Verif Require Import GoBase SetModel ProofBase.
Open Scope nat_scope.

Section set.
  Context {T : Type} `{Countable T}.
  Implicit Types (s : gset T) (x : T) (l : list T).

  Lemma fold_add_elem (g : T -> bool) l (acc : gset T) x :
    x ∈ fold_left (fun d v => if g v then set_add d v else d) l acc <-> x ∈ acc \/ (x ∈ l /\ g x = true).
  Proof.
    revert acc; induction l as [|y l IH]; intros acc; cbn [fold_left]; [set_solver|].
    rewrite IH. unfold set_add. destruct (g y) eqn:E; split.
    - intros [Hx|[Hx Hg]]; [|set_solver]. apply elem_of_union in Hx as [Hx|Hx]; [|by left].
      apply elem_of_singleton in Hx. subst. right. split; [constructor|done].
    - intros [Hx|[Hx Hg]]; [set_solver|]. apply elem_of_cons in Hx as [->|Hx]; set_solver.
    - set_solver.
    - intros [Hx|[Hx Hg]]; [set_solver|]. apply elem_of_cons in Hx as [->|Hx]; [congruence|set_solver].
  Qed.
  Lemma fold_plain_elem l (acc : gset T) x : x ∈ fold_left set_add l acc <-> x ∈ acc \/ x ∈ l.
  Proof.
    revert acc; induction l as [|y l IH]; intros acc; cbn [fold_left]; [set_solver|].
    rewrite IH. unfold set_add. rewrite elem_of_union, elem_of_singleton, elem_of_cons. naive_solver.
  Qed.
  Lemma go_forallb (pred : T -> bool) l :
    (fix go l := match l with [] => true | e :: l' => if negb (pred e) then false else go l' end) l = true
    <-> forall x, x ∈ l -> pred x = true.
  Proof.
    induction l as [|y l IH]; [set_solver|]. destruct (pred y) eqn:E; cbn [negb].
    - rewrite IH. split; [|set_solver]. intros Hl x [->|Hx]%elem_of_cons; auto.
    - split; [done|]. intros Hl. rewrite (Hl y) in E by constructor. done.
  Qed.
  Lemma has_spec s x : set_has s x = true <-> x ∈ s.
  Proof. unfold set_has. apply bool_decide_eq_true. Qed.
  Lemma has_spec_neg s x : negb (set_has s x) = true <-> x ∉ s.
  Proof. rewrite negb_true_iff, <- not_true_iff_false, has_spec. done. Qed.

  Lemma union_all_elem (sets : list (gset T)) (acc : gset T) x :
    x ∈ fold_left (fun u s => fold_left set_add (elements s) u) sets acc
    <-> x ∈ acc \/ exists s, s ∈ sets /\ x ∈ s.
  Proof.
    revert acc; induction sets as [|s sets IH]; intros acc; cbn [fold_left]; [set_solver|].
    rewrite IH, fold_plain_elem, elem_of_elements. setoid_rewrite elem_of_cons. naive_solver.
  Qed.
  Lemma two_sets_elem s1 s2 x : x ∈ two_sets_intersection s1 s2 <-> x ∈ s1 /\ x ∈ s2.
  Proof.
    unfold two_sets_intersection. destruct (set_card s1 <? set_card s2);
      rewrite (fold_add_elem (set_has _)), elem_of_elements, has_spec; set_solver.
  Qed.
  Lemma intersection_loop_elem sets acc x :
    Forall (fun s => s <> ∅) sets ->
    x ∈ intersection_loop acc sets <-> x ∈ acc /\ forall s, s ∈ sets -> x ∈ s.
  Proof.
    intros Hne. revert acc; induction Hne as [|s sets Hs Hne IH]; intros acc; cbn [intersection_loop]; [set_solver|].
    unfold set_card. destruct (size acc =? 0) eqn:E1; cbn [orb].
    { apply Nat.eqb_eq, size_empty_iff in E1. set_solver. }
    destruct (size s =? 0) eqn:E2.
    { apply Nat.eqb_eq, size_empty_iff in E2. set_solver. }
    rewrite IH, two_sets_elem. set_solver.
  Qed.

  (** The set-valued operations, by membership. *)
  Theorem C58_set_valued_operations :
    forall s s2 (sets : list (gset T)) l (pred : T -> bool) x,
      (x ∈ set_new l <-> x ∈ l) /\
      (forall e, x ∈ set_add s e <-> x = e \/ x ∈ s) /\
      (forall e, x ∈ set_remove s e <-> x <> e /\ x ∈ s) /\
      (x ∈ set_clone s <-> x ∈ s) /\
      (x ∈ set_diff s s2 <-> x ∈ s /\ x ∉ s2) /\
      (x ∈ set_symdiff s s2 <-> (x ∈ s /\ x ∉ s2) \/ (x ∈ s2 /\ x ∉ s)) /\
      (x ∈ set_union_all sets <-> exists s', s' ∈ sets /\ x ∈ s') /\
      (x ∈ set_union s s2 <-> x ∈ s \/ x ∈ s2) /\
      (x ∈ SetModel.set_filter s pred <-> x ∈ s /\ pred x = true) /\
      (x ∉ set_clear s).
  Proof.
    intros s s2 sets l pred x. split_and!.
    - unfold set_new. rewrite (fold_plain_elem l ∅ x). set_solver.
    - intros e. unfold set_add. set_solver.
    - intros e. unfold set_remove. set_solver.
    - unfold set_clone. rewrite fold_plain_elem. set_solver.
    - unfold set_diff. rewrite (fold_add_elem (fun v => negb (set_has s2 v))), has_spec_neg. set_solver.
    - unfold set_symdiff. rewrite (fold_add_elem (fun v => negb (set_has s v))), has_spec_neg.
      rewrite (fold_add_elem (fun v => negb (set_has s2 v))), has_spec_neg. set_solver.
    - unfold set_union_all. rewrite union_all_elem. set_solver.
    - unfold set_union, set_union_all. rewrite union_all_elem. set_solver.
    - unfold SetModel.set_filter. rewrite (fold_add_elem pred). set_solver.
    - unfold set_clear. set_solver.
  Qed.

  (** The Boolean and numeric answers. *)
  Theorem C58_set_answers :
    forall s s2 (pred : T -> bool) x,
      (set_has s x = true <-> x ∈ s) /\
      (NoDup (set_to_slice s) /\ (forall y, y ∈ set_to_slice s <-> y ∈ s) /\ set_card s = length (set_to_slice s)) /\
      (set_is_subset s s2 = true <-> forall y, y ∈ s -> y ∈ s2) /\
      (set_equals s s2 = true <-> forall y, y ∈ s <-> y ∈ s2) /\
      (set_all s pred = true <-> forall y, y ∈ s -> pred y = true).
  Proof.
    intros s s2 pred x.
    assert (set_is_subset s s2 = true <-> s ⊆ s2) as Hsub.
    { unfold set_is_subset. rewrite forallb_forall. setoid_rewrite has_spec.
      setoid_rewrite <- elem_of_list_In. set_solver. }
    split_and!.
    - apply has_spec.
    - apply NoDup_elements.
    - intros y. unfold set_to_slice. apply elem_of_elements.
    - done.
    - exact Hsub.
    - unfold set_equals, set_card. rewrite andb_true_iff, Nat.eqb_eq, Hsub. split.
      + intros [E Hs]. pose proof (size_difference s2 s Hs) as Hd. rewrite E, Nat.sub_diag in Hd.
        apply size_empty_inv in Hd. intros y. split; [by apply Hs|]. intros Hy. destruct (decide (y ∈ s)); [done|set_solver].
      + intros E. assert (s = s2) as -> by set_solver. done.
    - unfold set_all. rewrite go_forallb. set_solver.
  Qed.

  (** Intersection of any number of sets: right as long as no set after the
      first is empty. *)
  Theorem C58_intersection_partial :
    forall s sets x, Forall (fun s' => s' <> ∅) sets ->
      x ∈ set_intersection_all (s :: sets) <-> forall s', s' ∈ s :: sets -> x ∈ s'.
  Proof. intros s sets x Hne. cbn [set_intersection_all]. rewrite intersection_loop_elem by done. set_solver. Qed.

  (** Some answers what All answers. *)
  Theorem C58_some_partial :
    forall s (pred : T -> bool),
      (set_some s pred = true <-> forall y, y ∈ s -> pred y = true) /\
      (forall y, s = {[y]} -> set_some s pred = true <-> exists z, z ∈ s /\ pred z = true).
  Proof.
    intros s pred. assert (set_some s pred = true <-> forall y, y ∈ s -> pred y = true) as E.
    { unfold set_some. rewrite go_forallb. set_solver. }
    split; [done|]. intros y ->. rewrite E. set_solver.
  Qed.
End set.
Print Assumptions C58_set_valued_operations.
Print Assumptions C58_set_answers.
Print Assumptions C58_intersection_partial.
Print Assumptions C58_some_partial.

(** Intersecting with an empty set returns the first set. *)
Theorem C58_intersection_refuted :
  exists (s s2 : gset N) x, x ∈ set_intersect s s2 /\ x ∉ s2.
Proof.
  exists {[1%N]}, ∅, 1%N. split; [|set_solver]. eapply bool_decide_unpack. by vm_compute.
Qed.
Print Assumptions C58_intersection_refuted.

(** Some answers false although an element satisfies the predicate, and true on
    the empty set. *)
Theorem C58_some_refuted :
  (exists (s : gset N) pred x, x ∈ s /\ pred x = true /\ set_some s pred = false) /\
  (exists (s : gset N) pred, set_some s pred = true /\ forall x, x ∈ s -> pred x = false).
Proof.
  split.
  - exists {[1%N; 2%N]}, (N.eqb 1), 1%N. split_and!; [set_solver|done|by vm_compute].
  - exists ∅, (N.eqb 1). split; [by vm_compute|set_solver].
Qed.
Print Assumptions C58_some_refuted.

Example C58_case : 1%N ∈ set_intersection_all [ {[1;2]}; {[1;3]}; {[1;2;3]} ]%N
  /\ Forall (fun s' : gset N => s' <> ∅) [ {[1;3]}; {[1;2;3]} ]%N.
Proof. split; [eapply bool_decide_unpack; by vm_compute|]. repeat constructor; by vm_compute. Qed.

(** Properties of the binary heaps: C26, C27. *)
From Verif Require Import GoBase FloatModel HeapModel ProofBase FloatProofs HeapProofs.
From Coq Require Import SpecFloat.
Open Scope nat_scope.

(** A script of heap operations. *)
Inductive hop := HPush (x : elem) | HPop.

(** The code: run the script on a heap slice; the popped elements and the
    final slice. *)
Fixpoint run_heap (less : elem -> elem -> bool) (l : list elem) (ops : list hop)
    : out (list elem * list elem) :=
  match ops with
  | [] => Val ([], l)
  | HPush x :: ops' => run_heap less (heap_push less l x) ops'
  | HPop :: ops' =>
      '(x, l') ← heap_pop less l;
      '(ps, l'') ← run_heap less l' ops';
      Val (x :: ps, l'')
  end.

(** The specification: a bag of elements, [before a b] meaning that [a] must be
    taken before [b].  A pop takes any element that nothing else precedes. *)
Inductive pq_run (before : elem -> elem -> Prop) : list elem -> list hop -> list elem -> list elem -> Prop :=
| PqEnd bag bag' : bag ≡ₚ bag' -> pq_run before bag [] [] bag'
| PqPush x bag ops ps bag' : pq_run before (x :: bag) ops ps bag' -> pq_run before bag (HPush x :: ops) ps bag'
| PqPop x rest bag ops ps bag' :
    bag ≡ₚ x :: rest -> (forall y, y ∈ rest -> ~ before y x) ->
    pq_run before rest ops ps bag' -> pq_run before bag (HPop :: ops) (x :: ps) bag'.

(** A script that never pops an empty heap. *)
Fixpoint legal (n : nat) (ops : list hop) : Prop :=
  match ops with
  | [] => True
  | HPush _ :: ops' => legal (S n) ops'
  | HPop :: ops' => match n with O => False | S n' => legal n' ops' end
  end.

Definition not_nan (e : elem) : Prop := e_dist e <> S754_nan.
Definition ops_not_nan (ops : list hop) : Prop :=
  Forall (fun o => match o with HPush x => not_nan x | HPop => True end) ops.
Definition nearer (a b : elem) : Prop := SFltb (e_dist a) (e_dist b) = true.
Definition further (a b : elem) : Prop := SFltb (e_dist b) (e_dist a) = true.

Lemma not_nan_enum e : not_nan e -> enum e.
Proof. unfold not_nan, enum, num. by destruct (e_dist e). Qed.

Lemma pq_run_perm before bag1 bag2 ops ps bag' :
  bag1 ≡ₚ bag2 -> pq_run before bag1 ops ps bag' -> pq_run before bag2 ops ps bag'.
Proof.
  intros E H. revert bag2 E. induction H as [bag bag' E'|x bag ops ps bag' H IH|x rest bag ops ps bag' E' Hm H IH];
    intros bag2 E.
  - constructor. by rewrite <- E.
  - constructor. apply IH. by constructor.
  - econstructor; [|done|done]. by rewrite <- E.
Qed.

Lemma run_heap_pq less before :
  (forall a, less a a = false) -> (forall a b, less a b = true -> less b a = false) ->
  (forall a b c, enum a -> enum b -> enum c -> less a b = false -> less b c = false -> less a c = false) ->
  (forall a b, before a b <-> less a b = true) ->
  forall ops l, Forall enum l -> heap_ok less l -> ops_not_nan ops -> legal (length l) ops ->
  exists ps l', run_heap less l ops = Val (ps, l') /\ pq_run before l ops ps l'.
Proof.
  intros Hirr Has Hnt Hb ops. induction ops as [|[x|] ops IH]; intros l Hg Hh Hops Hleg.
  - exists [], l. split; [done|]. by constructor.
  - inversion_clear Hops as [|?? Hx Hops']. apply not_nan_enum in Hx.
    destruct (IH (heap_push less l x)) as (ps & l' & E & H); try done.
    + rewrite heap_push_perm. by constructor.
    + by eapply heap_push_ok.
    + by rewrite heap_push_perm.
    + exists ps, l'. split; [done|]. constructor. eapply pq_run_perm; [|done]. apply heap_push_perm.
  - inversion_clear Hops as [|?? _ Hops']. cbn [legal] in Hleg.
    destruct (length l) as [|n] eqn:El; [done|].
    destruct (heap_pop_some less l) as (x & l1 & E1); [by intros ->|].
    pose proof (heap_pop_perm less _ _ _ E1) as Hp.
    destruct (heap_pop_ok less enum Hirr Has Hnt _ _ _ Hg Hh E1) as (Hh1 & _ & Hmin).
    destruct (IH l1) as (ps & l' & E & H); try done.
    + rewrite Hp in Hg. by inversion Hg.
    + rewrite Hp in El. cbn [length] in El. injection El as El. by rewrite El.
    + exists (x :: ps), l'. cbn [run_heap]. rewrite E1. cbn [mbind out_bind]. rewrite E. split; [done|].
      econstructor; [done| |done]. intros y Hy Hbef. apply Hb in Hbef.
      assert (le less x y) as Hle by (apply Hmin; rewrite Hp; by constructor). unfold le in Hle. congruence.
Qed.

(** ** C26 The binary heap is a priority queue *)
Theorem C26_min_heap_is_priority_queue :
  forall s ops, Forall not_nan s -> ops_not_nan ops -> legal (length s) ops ->
    exists ps l', run_heap min_less (new_min_heap s) ops = Val (ps, l') /\ pq_run nearer s ops ps l'.
Proof.
  intros s ops Hs Hops Hleg. assert (Forall enum s) as He by (eapply Forall_impl; [done|apply not_nan_enum]).
  destruct (run_heap_pq min_less nearer min_less_irr min_less_asym min_less_ntrans) with (ops := ops) (l := new_min_heap s)
    as (ps & l' & E & H).
  - done.
  - unfold new_min_heap. by rewrite heap_init_perm.
  - by apply (heap_init_ok min_less enum min_less_irr min_less_asym min_less_ntrans).
  - done.
  - unfold new_min_heap. by rewrite heap_init_perm.
  - exists ps, l'. split; [done|]. eapply pq_run_perm; [|done]. apply heap_init_perm.
Qed.
Print Assumptions C26_min_heap_is_priority_queue.

Theorem C26_max_heap_is_priority_queue :
  forall s capacity ops, Forall not_nan s -> ops_not_nan ops -> legal (length s) ops -> length s <= capacity ->
    exists h ps l', new_max_heap_deep s capacity = Val h /\
      run_heap max_less h ops = Val (ps, l') /\ pq_run further s ops ps l'.
Proof.
  intros s capacity ops Hs Hops Hleg Hcap. assert (Forall enum s) as He by (eapply Forall_impl; [done|apply not_nan_enum]).
  unfold new_max_heap_deep. rewrite decide_True by done. eexists.
  destruct (run_heap_pq max_less further max_less_irr max_less_asym max_less_ntrans) with (ops := ops) (l := heap_init max_less s)
    as (ps & l' & E & H).
  - done.
  - by rewrite heap_init_perm.
  - by apply (heap_init_ok max_less enum max_less_irr max_less_asym max_less_ntrans).
  - done.
  - by rewrite heap_init_perm.
  - exists ps, l'. split_and!; [done..|]. eapply pq_run_perm; [|done]. apply heap_init_perm.
Qed.
Print Assumptions C26_max_heap_is_priority_queue.

(** The capacity must hold the slice, as in make. *)
Theorem C26_deep_copy_capacity :
  forall s capacity,
    (length s > capacity -> new_max_heap_deep s capacity = Pan PMake /\ new_min_heap_deep s capacity = Pan PMake) /\
    (length s <= capacity -> new_min_heap_deep s capacity = Val (new_min_heap s) /\ exists h, new_max_heap_deep s capacity = Val h /\ h ≡ₚ s).
Proof.
  intros s capacity. unfold new_max_heap_deep, new_min_heap_deep. split; intros H.
  - by rewrite !decide_False by lia.
  - rewrite !decide_True by lia. split; [done|]. eexists. split; [done|]. apply heap_init_perm.
Qed.
Print Assumptions C26_deep_copy_capacity.

Definition e3 : elem := Elem 3 (f32_val 1077936128%N). (* 3.0 *)
Definition e2 : elem := Elem 2 (f32_val 1073741824%N). (* 2.0 *)
Definition e1 : elem := Elem 1 (f32_val 1065353216%N). (* 1.0 *)
Example C26_case : run_heap min_less (new_min_heap [e3; e1]) [HPush e2; HPop; HPop; HPop] = Val ([e1; e2; e3], [])
  /\ legal (length [e3; e1]) [HPush e2; HPop; HPop; HPop] /\ Forall not_nan [e3; e1].
Proof. split_and!; [by vm_compute|done|]. repeat constructor; by vm_compute. Qed.

(** ** C27 Peek shows the furthest kept element *)

(** The full claim is false: on the max-heap built from (1, 2) Peek returns 1. *)
Theorem C27_peek_is_furthest_refuted :
  exists s h e y, Forall not_nan s /\ new_max_heap_deep s 3 = Val h /\
    heap_peek h = Val e /\ y ∈ h /\ further y e.
Proof.
  exists [e1; e2], [e2; e1], e1, e2. split_and!; try by vm_compute.
  - repeat constructor; by vm_compute.
  - constructor.
Qed.
Print Assumptions C27_peek_is_furthest_refuted.

(** What holds: Peek returns an element of the heap, and the furthest one when
    only one element is kept. *)
Theorem C27_peek_partial :
  forall h, h <> [] -> exists e, heap_peek h = Val e /\ e ∈ h /\
    (length h = 1 -> forall y, y ∈ h -> ~ further y e).
Proof.
  intros h Hh. unfold heap_peek. destruct (last h) as [e|] eqn:E; [|by apply last_None in E].
  exists e. split; [done|]. split; [by apply last_Some_elem_of|]. intros Hl y Hy.
  destruct h as [|a [|b h]]; try done. cbn in E. injection E as ->.
  apply elem_of_list_singleton in Hy as ->. unfold further. by rewrite fltb_irrefl.
Qed.
Print Assumptions C27_peek_partial.

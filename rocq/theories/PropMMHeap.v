(** Properties of the min-max heap: C28, C29, C69. *)
From Verif Require Import GoBase FloatModel ProofBase FloatProofs HeapModel HeapProofs MMHeapModel MMHeapProofs.
From Coq Require Import SpecFloat.
Open Scope nat_scope.

(** A script of min-max heap operations. *)
Inductive mop := MPush (x : elem) | MPop | MPopMax.

Fixpoint run_mm (l : list elem) (ops : list mop) : out (list elem * list elem) :=
  match ops with
  | [] => Val ([], l)
  | MPush x :: ops' => run_mm (mm_push min_less l x) ops'
  | MPop :: ops' =>
      '(x, l') ← mm_pop min_less l; '(ps, l'') ← run_mm l' ops'; Val (x :: ps, l'')
  | MPopMax :: ops' =>
      '(x, l') ← mm_pop_max min_less l; '(ps, l'') ← run_mm l' ops'; Val (x :: ps, l'')
  end.

Definition closer (a b : elem) : Prop := SFltb (e_dist a) (e_dist b) = true.

(** The specification: a bag; Pop takes an element with nothing closer, PopMax
    one that is closer to nothing. *)
Inductive depq_run : list elem -> list mop -> list elem -> list elem -> Prop :=
| DqEnd bag bag' : bag ≡ₚ bag' -> depq_run bag [] [] bag'
| DqPush x bag ops ps bag' : depq_run (x :: bag) ops ps bag' -> depq_run bag (MPush x :: ops) ps bag'
| DqPop x rest bag ops ps bag' :
    bag ≡ₚ x :: rest -> (forall y, y ∈ rest -> ~ closer y x) ->
    depq_run rest ops ps bag' -> depq_run bag (MPop :: ops) (x :: ps) bag'
| DqPopMax x rest bag ops ps bag' :
    bag ≡ₚ x :: rest -> (forall y, y ∈ rest -> ~ closer x y) ->
    depq_run rest ops ps bag' -> depq_run bag (MPopMax :: ops) (x :: ps) bag'.

Fixpoint mlegal (n : nat) (ops : list mop) : Prop :=
  match ops with
  | [] => True
  | MPush _ :: ops' => mlegal (S n) ops'
  | _ :: ops' => match n with O => False | S n' => mlegal n' ops' end
  end.
Definition mnot_nan (e : elem) : Prop := e_dist e <> S754_nan.
Definition mops_not_nan (ops : list mop) : Prop :=
  Forall (fun o => match o with MPush x => mnot_nan x | _ => True end) ops.

Lemma mnot_nan_enum e : mnot_nan e -> enum e.
Proof. unfold mnot_nan, enum, num. by destruct (e_dist e). Qed.

Lemma depq_run_perm bag1 bag2 ops ps bag' :
  bag1 ≡ₚ bag2 -> depq_run bag1 ops ps bag' -> depq_run bag2 ops ps bag'.
Proof.
  intros E H. revert bag2 E.
  induction H as [bag bag' E'|x bag ops ps bag' H IH|x rest bag ops ps bag' E' Hm H IH|x rest bag ops ps bag' E' Hm H IH];
    intros bag2 E.
  - constructor. by rewrite <- E.
  - constructor. apply IH. by constructor.
  - econstructor; [|done|done]. by rewrite <- E.
  - eapply DqPopMax; [|done|done]. by rewrite <- E.
Qed.

Lemma run_mm_depq ops l :
  Forall enum l -> mm_ok min_less l -> mops_not_nan ops -> mlegal (length l) ops ->
  exists ps l', run_mm l ops = Val (ps, l') /\ depq_run l ops ps l'.
Proof.
  revert l. induction ops as [|[x| |] ops IH]; intros l Hg Hh Hops Hleg.
  - exists [], l. split; [done|]. by constructor.
  - inversion_clear Hops as [|?? Hx Hops']. apply mnot_nan_enum in Hx.
    destruct (IH (mm_push min_less l x)) as (ps & l' & E & H); try done.
    + rewrite mm_push_perm. by constructor.
    + by apply (mm_push_ok min_less enum min_less_irr min_less_asym min_less_ntrans).
    + by rewrite (Permutation_length (mm_push_perm _ _ _)).
    + exists ps, l'. split; [done|]. constructor. eapply depq_run_perm; [|done]. apply mm_push_perm.
  - inversion_clear Hops as [|?? _ Hops']. cbn [mlegal] in Hleg.
    destruct (length l) as [|n] eqn:El; [done|].
    destruct (mm_pop_some min_less l) as (x & l1 & E1); [by intros ->|].
    destruct (mm_pop_ok min_less enum min_less_irr min_less_asym min_less_ntrans _ _ _ Hg Hh E1) as (Hp & Hh1 & Hmin).
    destruct (IH l1) as (ps & l' & E & H); try done.
    + rewrite Hp in Hg. by inversion Hg.
    + rewrite Hp in El. cbn [length] in El. injection El as El. by rewrite El.
    + exists (x :: ps), l'. cbn [run_mm]. rewrite E1. cbn [mbind out_bind]. rewrite E. split; [done|].
      econstructor; [done| |done]. intros y Hy Hc.
      assert (R min_less true x y) as HR by (apply Hmin; rewrite Hp; by constructor).
      cbn [R] in HR. unfold min_less, fltb in HR. unfold closer in Hc. congruence.
  - inversion_clear Hops as [|?? _ Hops']. cbn [mlegal] in Hleg.
    destruct (length l) as [|n] eqn:El; [done|].
    destruct (mm_pop_max_some min_less l) as (x & l1 & E1); [by intros ->|].
    destruct (mm_pop_max_ok min_less enum min_less_irr min_less_asym min_less_ntrans _ _ _ Hg Hh E1) as (Hp & Hh1 & Hmax).
    destruct (IH l1) as (ps & l' & E & H); try done.
    + rewrite Hp in Hg. by inversion Hg.
    + rewrite Hp in El. cbn [length] in El. injection El as El. by rewrite El.
    + exists (x :: ps), l'. cbn [run_mm]. rewrite E1. cbn [mbind out_bind]. rewrite E. split; [done|].
      eapply DqPopMax; [done| |done]. intros y Hy Hc.
      assert (R min_less false x y) as HR by (apply Hmax; rewrite Hp; by constructor).
      cbn [R] in HR. unfold min_less, fltb in HR. unfold closer in Hc. congruence.
Qed.

(** ** C28 The min-max heap is a double-ended priority queue *)
Theorem C28_minmax_heap_is_double_ended_queue :
  forall ops, mops_not_nan ops -> mlegal 0 ops ->
    exists ps l', run_mm [] ops = Val (ps, l') /\ depq_run [] ops ps l'.
Proof.
  intros ops Hops Hleg. apply run_mm_depq; try done.
  intros a c _ Hc. cbn in Hc. lia.
Qed.
Print Assumptions C28_minmax_heap_is_double_ended_queue.

(** Popping an empty heap is the only way to panic. *)
Theorem C28_minmax_heap_empty_pop_panics :
  mm_pop min_less [] = Pan PIndex /\ mm_pop_max min_less [] = Pan PIndex.
Proof. done. Qed.
Print Assumptions C28_minmax_heap_empty_pop_panics.

Definition me (k : N) (bits : N) : elem := Elem k (f32_val bits).
(* 5, 1, 4, 2, 3 *)
Definition mscript : list mop :=
  [MPush (me 5 1084227584%N); MPush (me 1 1065353216%N); MPush (me 4 1082130432%N); MPush (me 2 1073741824%N);
   MPush (me 3 1077936128%N); MPopMax; MPop; MPopMax; MPop; MPop].
Example C28_case : mops_not_nan mscript /\ mlegal 0 mscript /\
  (fst <$> (match run_mm [] mscript with Val r => Some r | _ => None end))
  = Some [me 5 1084227584%N; me 1 1065353216%N; me 4 1082130432%N; me 2 1073741824%N; me 3 1077936128%N].
Proof. split_and!; [repeat constructor; by vm_compute|done|by vm_compute]. Qed.

(** ** C29 A min-max heap can be built from any slice *)

(** False for the code: Init skips the root, so from (2, 1) Pop returns 2. *)
Theorem C29_minmax_from_slice_refuted :
  exists s x l' y, Forall mnot_nan s /\ mm_pop min_less (new_mm_heap s) = Val (x, l') /\ y ∈ s /\ closer y x.
Proof.
  exists [me 2 1073741824%N; me 1 1065353216%N], (me 2 1073741824%N), [me 1 1065353216%N], (me 1 1065353216%N).
  split_and!; [repeat constructor; by vm_compute|by vm_compute|by right; left|by vm_compute].
Qed.
Print Assumptions C29_minmax_from_slice_refuted.

(** What holds: it works when the first element of the slice is a closest one
    (in particular for a slice of one element), and never loses an element. *)
Theorem C29_minmax_from_slice_partial :
  forall s ops, Forall mnot_nan s -> (forall x y, head s = Some x -> y ∈ s -> ~ closer y x) ->
    mops_not_nan ops -> mlegal (length s) ops ->
    exists ps l', run_mm (new_mm_heap s) ops = Val (ps, l') /\ depq_run s ops ps l'.
Proof.
  intros s ops Hs Hhd Hops Hleg.
  assert (Forall enum s) as He by (eapply Forall_impl; [done|apply mnot_nan_enum]).
  destruct (run_mm_depq ops (new_mm_heap s)) as (ps & l' & E & H).
  - unfold new_mm_heap. by rewrite mm_init_perm.
  - apply (mm_init_ok_root_min min_less enum min_less_irr min_less_asym min_less_ntrans); [done|].
    intros y Hy. destruct s as [|x s]; [by inversion Hy|]. specialize (Hhd x y eq_refl Hy).
    cbn [lookup_total R]. apply not_true_is_false. exact Hhd.
  - done.
  - unfold new_mm_heap. by rewrite (Permutation_length (mm_init_perm _ _)).
  - exists ps, l'. split; [done|]. eapply depq_run_perm; [|done]. apply mm_init_perm.
Qed.
Print Assumptions C29_minmax_from_slice_partial.

Theorem C29_minmax_from_slice_keeps_elements :
  forall s, new_mm_heap s ≡ₚ s.
Proof. intros. apply mm_init_perm. Qed.
Print Assumptions C29_minmax_from_slice_keeps_elements.

Example C29_case : let s := [me 1 1065353216%N; me 2 1073741824%N; me 3 1077936128%N] in
  (forall x y, head s = Some x -> y ∈ s -> ~ closer y x).
Proof.
  intros s x y [= <-] Hy. unfold s in Hy. rewrite !elem_of_cons in Hy.
  destruct Hy as [-> |[-> |[-> |Hy]]]; [by vm_compute..|]. by inversion Hy.
Qed.

(** ** C69 Removing or changing an element inside a min-max heap *)

Lemma run_mm_ok ops l ps l' :
  Forall enum l -> mm_ok min_less l -> mops_not_nan ops -> run_mm l ops = Val (ps, l') ->
  Forall enum l' /\ mm_ok min_less l'.
Proof.
  revert l ps. induction ops as [|[x| |] ops IH]; intros l ps Hg Hh Hops E; cbn [run_mm] in E.
  - apply Val_inj in E. apply pair_inj in E as [_ <-]. done.
  - inversion_clear Hops as [|?? Hx Hops']. apply mnot_nan_enum in Hx. eapply (IH _ ps); [| |done|exact E].
    + rewrite mm_push_perm. by constructor.
    + by apply (mm_push_ok min_less enum min_less_irr min_less_asym min_less_ntrans).
  - inversion_clear Hops as [|?? _ Hops']. destruct (mm_pop min_less l) as [[x l1]|?|?] eqn:E1; [|done..]. cbn [mbind out_bind] in E.
    destruct (run_mm l1 ops) as [[ps1 l2]|?|?] eqn:E2; [|done..]. apply Val_inj in E. apply pair_inj in E as [_ <-].
    destruct (mm_pop_ok min_less enum min_less_irr min_less_asym min_less_ntrans _ _ _ Hg Hh E1) as (Hp & Hh1 & _).
    apply (IH l1 ps1); try done. rewrite Hp in Hg. by inversion Hg.
  - inversion_clear Hops as [|?? _ Hops']. destruct (mm_pop_max min_less l) as [[x l1]|?|?] eqn:E1; [|done..]. cbn [mbind out_bind] in E.
    destruct (run_mm l1 ops) as [[ps1 l2]|?|?] eqn:E2; [|done..]. apply Val_inj in E. apply pair_inj in E as [_ <-].
    destruct (mm_pop_max_ok min_less enum min_less_irr min_less_asym min_less_ntrans _ _ _ Hg Hh E1) as (Hp & Hh1 & _).
    apply (IH l1 ps1); try done. rewrite Hp in Hg. by inversion Hg.
Qed.
Lemma run_mm_ok0 ops ps l : mops_not_nan ops -> run_mm [] ops = Val (ps, l) -> Forall enum l /\ mm_ok min_less l.
Proof. intros H E. eapply run_mm_ok; [constructor| |done|exact E]. intros a c _ Hc. cbn in Hc. lia. Qed.

(** What "still a double-ended queue" means for a heap [l]. *)
Definition still_depq (l : list elem) : Prop :=
  forall ops, mops_not_nan ops -> mlegal (length l) ops ->
    exists ps l', run_mm l ops = Val (ps, l') /\ depq_run l ops ps l'.

(* pushes 7, 1, 2, 6, 8, 11, 9, 10, 5, 3, 4, 12 *)
Definition rm_script : list mop :=
  [MPush (me 7 1088421888%N); MPush (me 1 1065353216%N); MPush (me 2 1073741824%N); MPush (me 6 1086324736%N);
   MPush (me 8 1090519040%N); MPush (me 11 1093664768%N); MPush (me 9 1091567616%N); MPush (me 10 1092616192%N);
   MPush (me 5 1084227584%N); MPush (me 3 1077936128%N); MPush (me 4 1082130432%N); MPush (me 12 1094713344%N)].

(** False for the code: if down moves the element that came in from the end,
    nothing compares that element with what stands above position i.  From the
    twelve elements above, Remove(3) takes the 5 and the 11 ends up below the 10;
    the second PopMax then returns 10 while 11 is still inside. *)
Theorem C69_remove_refuted :
  exists ops ps l i x l' ps' l'' y z,
    mops_not_nan ops /\ run_mm [] ops = Val (ps, l) /\ mm_remove min_less l i = Val (x, l') /\
    run_mm l' [MPopMax; MPopMax] = Val (ps', l'') /\ ps' !! 1 = Some y /\ z ∈ l'' /\ closer y z.
Proof.
  eexists rm_script, _, _, 3, _, _, _, _, (me 10 1092616192%N), (me 11 1093664768%N).
  split; [repeat constructor; by vm_compute|].
  split; [vm_compute; reflexivity|]. split; [vm_compute; reflexivity|]. split; [vm_compute; reflexivity|].
  split; [by vm_compute|]. split; [|by vm_compute].
  apply elem_of_list_lookup. exists 1. by vm_compute.
Qed.
Print Assumptions C69_remove_refuted.

(** What holds: Remove takes exactly the element asked for and loses nothing;
    the order survives when it stood at one of the three topmost positions or at
    a position without children. *)
Theorem C69_remove_partial :
  forall ops ps l i, mops_not_nan ops -> run_mm [] ops = Val (ps, l) -> i < length l ->
    exists x l', l !! i = Some x /\ mm_remove min_less l i = Val (x, l') /\ l ≡ₚ x :: l' /\
      (i <= 2 \/ length l' <= 2 * i + 1 -> still_depq l').
Proof.
  intros ops ps l i Hops E Hi. destruct (run_mm_ok0 _ _ _ Hops E) as [Hg Hh].
  destruct (mm_remove_at min_less enum min_less_irr min_less_asym min_less_ntrans l i Hg Hi) as (l' & E' & Hp & Hok).
  exists (l !!! i), l'. split; [by apply list_lookup_lookup_total_lt|]. split; [done|]. split; [done|].
  intros Hor ops' Hops' Hleg.
  assert (length l = S (length l')) as Hlen by (by rewrite (Permutation_length Hp)).
  apply run_mm_depq; [|apply Hok; [done|]|done|done].
  - rewrite Hp in Hg. by inversion Hg.
  - destruct Hor as [H|H]; [by left|right; lia].
Qed.
Print Assumptions C69_remove_partial.

(** An index outside the heap panics. *)
Theorem C69_remove_outside_panics :
  forall l i, length l <= i -> mm_remove min_less l i = Pan PIndex.
Proof. intros l i H. unfold mm_remove. rewrite decide_False by lia. done. Qed.
Print Assumptions C69_remove_outside_panics.

(** Fix, after the element at [i] was changed: false for the code.  From 5, 4,
    1, 5 (in heap order 1, 5, 4, 5), the second becomes 0; Pop then returns 1. *)
Theorem C69_fix_refuted :
  exists ops ps l i x y l' z,
    mops_not_nan ops /\ mnot_nan x /\ run_mm [] ops = Val (ps, l) /\ i < length l /\
    mm_pop min_less (mm_fix min_less (<[i := x]> l) i) = Val (y, l') /\ z ∈ l' /\ closer z y.
Proof.
  eexists [MPush (me 5 1084227584%N); MPush (me 4 1082130432%N); MPush (me 1 1065353216%N); MPush (me 6 1084227584%N)],
    _, _, 1, (me 7 0%N), _, _, (me 7 0%N).
  split; [repeat constructor; by vm_compute|]. split; [by vm_compute|].
  split; [vm_compute; reflexivity|]. split; [cbn; lia|]. split; [vm_compute; reflexivity|].
  split; [|by vm_compute]. apply elem_of_list_lookup.
  first [exists 0; by vm_compute|exists 1; by vm_compute|exists 2; by vm_compute].
Qed.
Print Assumptions C69_fix_refuted.

(** What holds: Fix never loses an element, and restores the order when the
    changed element is the root or has no children. *)
Theorem C69_fix_partial :
  forall ops ps l i x, mops_not_nan ops -> mnot_nan x -> run_mm [] ops = Val (ps, l) -> i < length l ->
    mm_fix min_less (<[i := x]> l) i ≡ₚ <[i := x]> l /\
    (i = 0 \/ length l <= 2 * i + 1 -> still_depq (mm_fix min_less (<[i := x]> l) i)).
Proof.
  intros ops ps l i x Hops Hx E Hi. destruct (run_mm_ok0 _ _ _ Hops E) as [Hg Hh]. apply mnot_nan_enum in Hx.
  destruct (mm_fix_at min_less enum min_less_irr min_less_asym min_less_ntrans l i x Hg Hx Hi) as [Hp Hok].
  split; [done|]. intros Hor ops' Hops' Hleg. apply run_mm_depq; [|by apply Hok|done|done].
  rewrite Hp. by apply Forall_insert.
Qed.
Print Assumptions C69_fix_partial.

(** On the same twelve elements: Remove(1), an inner position, and Remove(6), a leaf. *)
Example C69_case :
  exists ps l, run_mm [] rm_script = Val (ps, l) /\ length l = 12 /\ 12 - 1 <= 2 * 6 + 1 /\
    (forall l', mm_remove min_less l 1 = Val (me 10 1092616192%N, l') ->
       fst <$> (match run_mm l' [MPopMax; MPopMax; MPop] with Val r => Some r | _ => None end)
       = Some [me 12 1094713344%N; me 11 1093664768%N; me 1 1065353216%N]).
Proof.
  eexists _, _. split; [vm_compute; reflexivity|]. split; [done|]. split; [lia|].
  intros l' E. vm_compute in E. injection E as <-. by vm_compute.
Qed.

(** container/heap and db/core/index/utils/heap.go: the heap operations keep
    the multiset of elements, keep the heap order and pop minimal elements. *)
From Verif Require Import GoBase FloatModel HeapModel ProofBase FloatProofs.
Open Scope nat_scope.

Global Instance elem_inhabited : Inhabited elem := populate (Elem 0 fzero).

Section swap.
  Context {A : Type} `{Inhabited A}.
  Implicit Types l : list A.

  Lemma swap_length l i j : length (swap l i j) = length l.
  Proof.
    unfold swap. destruct (l !! i); [|done]. destruct (l !! j); [|done]. by rewrite !insert_length.
  Qed.
  Lemma lookup_is l i : i < length l -> l !! i = Some (l !!! i).
  Proof. apply list_lookup_lookup_total_lt. Qed.
  Lemma less_at_in (less : A -> A -> bool) l i j :
    i < length l -> j < length l -> less_at less l i j = less (l !!! i) (l !!! j).
  Proof. intros Hi Hj. unfold less_at. by rewrite (lookup_is l i), (lookup_is l j). Qed.
  Lemma swap_in l i j :
    i < length l -> j < length l -> swap l i j = <[i := l !!! j]> (<[j := l !!! i]> l).
  Proof. intros Hi Hj. unfold swap. by rewrite (lookup_is l i), (lookup_is l j). Qed.
  Lemma swap_at l i j k :
    i < length l -> j < length l ->
    swap l i j !!! k = if decide (k = i) then l !!! j else if decide (k = j) then l !!! i else l !!! k.
  Proof.
    intros Hi Hj. rewrite swap_in by done. case_decide as E1; [subst|].
    { by rewrite list_lookup_total_insert by (by rewrite insert_length). }
    rewrite list_lookup_total_insert_ne by done. case_decide as E2; [subst|].
    - by rewrite list_lookup_total_insert.
    - by rewrite list_lookup_total_insert_ne.
  Qed.
  Lemma swap_perm l i j : swap l i j ≡ₚ l.
  Proof.
    unfold swap. destruct (l !! i) as [a|] eqn:Ei; [|done]. destruct (l !! j) as [b|] eqn:Ej; [|done].
    pose proof (lookup_lt_Some _ _ _ Ei) as Hi. pose proof (lookup_lt_Some _ _ _ Ej) as Hj.
    destruct (decide (i = j)) as [->|Hij].
    { rewrite list_insert_insert. rewrite list_insert_id; [done|]. congruence. }
    apply Permutation_inj. split; [by rewrite !insert_length|].
    set (f := fun k => if decide (k = i) then j else if decide (k = j) then i else k).
    exists f. split.
    - intros x y. unfold f. repeat case_decide; lia.
    - intros k. unfold f. case_decide as E1; [subst k|].
      { rewrite list_lookup_insert by (by rewrite insert_length). done. }
      rewrite list_lookup_insert_ne by done. case_decide as E2; [subst k|].
      + by rewrite list_lookup_insert.
      + by rewrite list_lookup_insert_ne.
  Qed.
End swap.

Section heap.
  Context {A : Type} `{Inhabited A} (less : A -> A -> bool).
  Implicit Types l : list A.
  Definition le (a b : A) : Prop := less b a = false.

  Notation par i := ((i - 1) / 2).

  (** ** No order needed: multiset, length, untouched part *)
  Lemma up_perm fuel l j : up less fuel l j ≡ₚ l.
  Proof.
    revert l j; induction fuel as [|f IH]; intros l j; cbn [up]; [done|].
    destruct (_ || _); [done|]. rewrite IH. apply swap_perm.
  Qed.
  Lemma down_perm fuel l i n : down less fuel l i n ≡ₚ l.
  Proof.
    revert l i; induction fuel as [|f IH]; intros l i; cbn [down]; [done|].
    destruct (n <=? 2 * i + 1); [done|]. destruct (negb _); [done|]. rewrite IH. apply swap_perm.
  Qed.
  Lemma down_length fuel l i n : length (down less fuel l i n) = length l.
  Proof. apply Permutation_length, down_perm. Qed.
  Lemma init_loop_perm k l n : init_loop less k l n ≡ₚ l.
  Proof.
    revert l; induction k as [|k IH]; intros l; cbn [init_loop]; [done|]. rewrite IH. apply down_perm.
  Qed.
  Lemma heap_init_perm l : heap_init less l ≡ₚ l.
  Proof. apply init_loop_perm. Qed.
  Lemma heap_push_perm l x : heap_push less l x ≡ₚ x :: l.
  Proof. unfold heap_push. rewrite up_perm. rewrite Permutation_app_comm. done. Qed.

  Lemma down_above fuel l i n k :
    n <= length l -> n <= k -> down less fuel l i n !!! k = l !!! k.
  Proof.
    revert l i; induction fuel as [|f IH]; intros l i Hn Hk; cbn [down]; [done|].
    destruct (n <=? 2 * i + 1) eqn:E1; [done|]. apply Nat.leb_gt in E1.
    set (j := if (2 * i + 1 + 1 <? n) && _ then _ else _).
    assert (j < n /\ i < n) as [Hj Hi].
    { unfold j. destruct (2 * i + 1 + 1 <? n) eqn:E2; cbn [andb];
        [apply Nat.ltb_lt in E2|]; [|lia]. destruct (less_at _ _ _ _); lia. }
    destruct (negb _); [done|]. rewrite IH by (rewrite ?swap_length; lia).
    rewrite swap_at by lia. rewrite !decide_False by lia. done.
  Qed.

  Lemma heap_pop_some l : l <> [] -> exists x l', heap_pop less l = Val (x, l').
  Proof.
    intros Hl. unfold heap_pop. destruct l as [|a l]; [done|].
    set (n := length (a :: l) - 1). set (l2 := down _ _ _ _ _).
    destruct (l2 !! n) eqn:E; [by do 2 eexists|].
    apply lookup_ge_None_1 in E. unfold l2 in E. rewrite down_length, swap_length in E.
    unfold n in E. cbn [length] in E. lia.
  Qed.
  Lemma heap_pop_inv l x l' :
    heap_pop less l = Val (x, l') ->
    exists l2, l2 = down less (length l) (swap l 0 (length l - 1)) 0 (length l - 1) /\
      0 < length l /\ l2 !! (length l - 1) = Some x /\ l' = take (length l - 1) l2.
  Proof.
    unfold heap_pop. destruct l as [|a l]; [done|].
    replace (S (length (a :: l) - 1)) with (length (a :: l)) by (cbn [length]; lia).
    set (l2 := down _ _ _ _ _). destruct (l2 !! _) eqn:E; [|done].
    intros [-> <-]%Val_inj%pair_inj. exists l2. split; [done|]. split; [cbn [length]; lia|]. done.
  Qed.
  Lemma heap_pop_perm l x l' : heap_pop less l = Val (x, l') -> l ≡ₚ x :: l'.
  Proof.
    intros (l2 & E2 & Hl & Hx & ->)%heap_pop_inv.
    assert (length l2 = length l) as Hlen by (by rewrite E2, down_length, swap_length).
    transitivity l2. { rewrite E2, down_perm, swap_perm. done. }
    rewrite <- (take_drop_middle l2 _ _ Hx) at 1.
    rewrite drop_ge by lia. by rewrite Permutation_app_comm.
  Qed.
  Lemma heap_pop_length l x l' : heap_pop less l = Val (x, l') -> length l = S (length l').
  Proof. intros E. by rewrite (heap_pop_perm _ _ _ E). Qed.

  (** ** The order *)
  Context (good : A -> Prop).
  Hypothesis less_irr : forall a, less a a = false.
  Hypothesis less_asym : forall a b, less a b = true -> less b a = false.
  Hypothesis less_ntrans : forall a b c, good a -> good b -> good c ->
    less a b = false -> less b c = false -> less a c = false.

  Lemma le_refl a : le a a. Proof. apply less_irr. Qed.
  Lemma le_trans a b c : good a -> good b -> good c -> le a b -> le b c -> le a c.
  Proof. unfold le. intros. by eapply (less_ntrans c b a). Qed.
  Lemma less_le a b : less a b = true -> le a b.
  Proof. apply less_asym. Qed.

  (** Edges (parent, child) below [n] whose parent is at least [k]. *)
  Definition heap_from (l : list A) (k n : nat) : Prop :=
    forall c, 0 < c < n -> k <= par c -> le (l !!! par c) (l !!! c).
  (** The same with the edges out of [i] exempt, but grandchildren compared. *)
  Definition heap_hole (l : list A) (k n i : nat) : Prop :=
    (forall c, 0 < c < n -> k <= par c -> par c <> i -> le (l !!! par c) (l !!! c)) /\
    (0 < i -> k <= par i -> forall c, 0 < c < n -> par c = i -> le (l !!! par i) (l !!! c)).

  Definition heap_ok (l : list A) : Prop := heap_from l 0 (length l).

  Lemma par_child1 i : par (2 * i + 1) = i.
  Proof. replace (2 * i + 1 - 1) with (i * 2) by lia. by apply Nat.div_mul. Qed.
  Lemma par_child2 i : par (2 * i + 1 + 1) = i.
  Proof.
    replace (2 * i + 1 + 1 - 1) with (1 + i * 2) by lia. rewrite Nat.div_add by lia. done.
  Qed.
  Lemma par_inv c i : 0 < c -> par c = i -> c = 2 * i + 1 \/ c = 2 * i + 1 + 1.
  Proof.
    intros Hc E. pose proof (Nat.div_mod (c - 1) 2). pose proof (Nat.mod_upper_bound (c - 1) 2). lia.
  Qed.
  Lemma par_lt c : 0 < c -> par c < c.
  Proof. intros. pose proof (Nat.div_lt_upper_bound (c - 1) 2 c). lia. Qed.

  Lemma Forall_good_at l i : Forall good l -> i < length l -> good (l !!! i).
  Proof. intros Hg Hi. by apply Forall_lookup_total_1. Qed.

  Lemma down_heap fuel l k n i :
    Forall good l -> n <= length l -> n - i <= fuel -> k <= i ->
    heap_hole l k n i -> heap_from (down less fuel l i n) k n.
  Proof.
    revert l i. induction fuel as [|f IH]; intros l i Hg Hn Hf Hk [H1 H2]; cbn [down].
    - intros c Hc Hp. apply H1; try done. pose proof (par_lt c). lia.
    - destruct (n <=? 2 * i + 1) eqn:E1.
      { apply Nat.leb_le in E1. intros c Hc Hp. apply H1; try done. intros E.
        apply par_inv in E; lia. }
      apply Nat.leb_gt in E1.
      set (j := if (2 * i + 1 + 1 <? n) && _ then _ else _).
      assert (j < n /\ i < j /\ par j = i /\
        forall c, 0 < c < n -> par c = i -> le (l !!! j) (l !!! c)) as (Hj & Hij & Hpj & Hmin).
      { unfold j. destruct (2 * i + 1 + 1 <? n) eqn:E2; cbn [andb].
        - apply Nat.ltb_lt in E2. rewrite less_at_in by lia.
          destruct (less (l !!! (2 * i + 1 + 1)) (l !!! (2 * i + 1))) eqn:E3.
          + split_and!; [lia|lia|apply par_child2|]. intros c Hc E. destruct (par_inv c i) as [-> | ->]; [lia|done| |].
            * by apply less_le.
            * apply le_refl.
          + split_and!; [lia|lia|apply par_child1|]. intros c Hc E. destruct (par_inv c i) as [-> | ->]; [lia|done| |].
            * apply le_refl.
            * done.
        - apply Nat.ltb_ge in E2. split_and!; [lia|lia|apply par_child1|].
          intros c Hc E. destruct (par_inv c i) as [-> | ->]; [lia|done|apply le_refl|lia]. }
      clearbody j. rewrite less_at_in by lia.
      destruct (less (l !!! j) (l !!! i)) eqn:E3; cbn [negb].
      2:{ intros c Hc Hp. destruct (decide (par c = i)) as [E|E]; [|by apply H1].
          rewrite E. eapply le_trans; [..|apply Hmin; done]; try (apply Forall_good_at; [done|lia]). done. }
      apply IH; [by rewrite swap_perm|by rewrite swap_length|lia|lia|].
      split.
      + intros c Hc Hp Hne. pose proof (par_lt c). rewrite !swap_at by lia.
        destruct (decide (c = i)) as [->|Hci].
        { rewrite decide_False by lia. rewrite decide_False by lia.
          apply H2; try done; lia. }
        destruct (decide (c = j)) as [->|Hcj].
        { rewrite decide_True by done. by apply less_le. }
        case_decide as E4; [|rewrite decide_False by done; by apply H1].
        by apply Hmin.
      + intros _ _ c Hc Hpc. pose proof (par_lt c). rewrite Hpj. rewrite !swap_at by lia.
        rewrite decide_True by done. rewrite !decide_False by lia.
        rewrite <- Hpc. apply H1; try done; lia.
  Qed.

  Lemma down_from fuel l k n :
    Forall good l -> n <= length l -> n <= fuel -> heap_from l (S k) n -> heap_from (down less fuel l k n) k n.
  Proof.
    intros Hg Hn Hf Hh. apply down_heap; try done; [lia|]. split.
    - intros c Hc Hp Hne. apply Hh; [done|lia].
    - intros Hk Hp. pose proof (par_lt k). lia.
  Qed.

  Lemma init_loop_heap k l n :
    Forall good l -> n = length l -> heap_from l k n -> heap_from (init_loop less k l n) 0 n.
  Proof.
    revert l. induction k as [|k IH]; intros l Hg Hn Hh; cbn [init_loop]; [done|].
    apply IH; [by rewrite down_perm|by rewrite down_length|]. apply down_from; [done|lia|lia|done].
  Qed.
  Lemma heap_init_ok l : Forall good l -> heap_ok (heap_init less l).
  Proof.
    intros Hg. unfold heap_ok. rewrite (Permutation_length (heap_init_perm l)). unfold heap_init. apply init_loop_heap; try done.
    intros c Hc Hp. exfalso. pose proof (Nat.div_mod (c - 1) 2). pose proof (Nat.div_mod (length l) 2).
    pose proof (Nat.mod_upper_bound (length l) 2). pose proof (Nat.mod_upper_bound (c - 1) 2). lia.
  Qed.

  (** Up: the element at [j] may be smaller than its ancestors. *)
  Definition heap_bump (l : list A) (n j : nat) : Prop :=
    (forall c, 0 < c < n -> c <> j -> le (l !!! par c) (l !!! c)) /\
    (0 < j -> forall c, 0 < c < n -> par c = j -> le (l !!! par j) (l !!! c)).

  Lemma up_heap fuel l n j :
    Forall good l -> n = length l -> j < n -> j <= fuel ->
    heap_bump l n j -> heap_from (up less fuel l j) 0 n.
  Proof.
    revert l j. induction fuel as [|f IH]; intros l j Hg Hn Hj Hf [H1 H2]; cbn [up].
    - assert (j = 0) as -> by lia. intros c Hc _. apply H1; lia.
    - destruct (decide (j = 0)) as [->|Hj0].
      { cbn. intros c Hc _. apply H1; lia. }
      pose proof (par_lt j). rewrite less_at_in by lia.
      destruct (_ =? j) eqn:E1; [apply Nat.eqb_eq in E1; lia|]. cbn [orb].
      destruct (less (l !!! j) (l !!! par j)) eqn:E2; cbn [negb].
      2:{ intros c Hc _. destruct (decide (c = j)) as [->|]; [done|by apply H1]. }
      apply IH; [by rewrite swap_perm|by rewrite swap_length|lia|lia|].
      split.
      + intros c Hc Hne. pose proof (par_lt c). rewrite !swap_at by lia.
        rewrite (decide_False (P := c = par j)) by done.
        destruct (decide (c = j)) as [->|Hcj].
        { rewrite decide_True by done. by apply less_le. }
        case_decide as E3.
        { eapply le_trans; [..|apply H1; done]; try (apply Forall_good_at; [done|lia]).
          rewrite E3. by apply less_le. }
        case_decide as E4; [|by apply H1]. apply H2; try done. lia.
      + intros Hp c Hc Hpc. pose proof (par_lt c). pose proof (par_lt (par j)). rewrite !swap_at by lia.
        rewrite (decide_False (P := par (par j) = par j)) by lia.
        rewrite (decide_False (P := par (par j) = j)) by lia.
        rewrite (decide_False (P := c = par j)) by lia.
        destruct (decide (c = j)) as [->|Hcj].
        { apply H1; lia. }
        eapply (le_trans _ (l !!! par j)); try (apply Forall_good_at; [done|lia]).
        * apply H1; lia.
        * rewrite <- Hpc. by apply H1.
  Qed.

  Lemma heap_push_ok l x : Forall good l -> good x -> heap_ok l -> heap_ok (heap_push less l x).
  Proof.
    intros Hg Hx Hh. unfold heap_ok. rewrite (Permutation_length (heap_push_perm l x)).
    unfold heap_push. apply up_heap.
    - apply Forall_app. split; [done|]. by constructor.
    - rewrite app_length. cbn [length]. lia.
    - rewrite app_length. cbn [length]. lia.
    - rewrite app_length. cbn [length]. lia.
    - rewrite app_length. cbn [length]. split.
      + intros c Hc Hne. pose proof (par_lt c).
        rewrite !lookup_total_app_l by lia. apply Hh; lia.
      + intros _ c Hc Hpc. pose proof (par_lt c). lia.
  Qed.

  Lemma heap_root l i : Forall good l -> heap_ok l -> i < length l -> le (l !!! 0) (l !!! i).
  Proof.
    intros Hg Hh. induction i as [i IH] using lt_wf_ind. intros Hi.
    destruct (decide (i = 0)) as [->|Hi0]; [apply le_refl|]. pose proof (par_lt i).
    eapply le_trans; [..|apply Hh; lia]; try (apply Forall_good_at; [done|lia]).
    apply IH; lia.
  Qed.

  Lemma heap_pop_ok l x l' :
    Forall good l -> heap_ok l -> heap_pop less l = Val (x, l') ->
    heap_ok l' /\ x = l !!! 0 /\ forall y, y ∈ l -> le x y.
  Proof.
    intros Hg Hh (l2 & E2 & Hl & Hx & ->)%heap_pop_inv.
    assert (length l2 = length l) as Hlen by (by rewrite E2, down_length, swap_length).
    assert (x = l !!! 0) as Hx0.
    { apply list_lookup_total_correct in Hx. rewrite E2 in Hx.
      rewrite down_above in Hx by (rewrite ?swap_length; lia).
      rewrite swap_at in Hx by lia. case_decide as E; [by rewrite <- Hx, E|].
      by rewrite decide_True in Hx. }
    split_and!; [|done|].
    - assert (heap_from l2 0 (length l - 1)) as H2.
      { rewrite E2. apply down_from; [by rewrite swap_perm|by rewrite swap_length; lia|lia|].
        intros c Hc Hp. pose proof (par_lt c). rewrite !swap_at by lia.
        rewrite !decide_False by lia. apply Hh; lia. }
      intros c Hc _. rewrite take_length in Hc. pose proof (par_lt c).
      rewrite !list_lookup_total_alt, !lookup_take, <- !list_lookup_total_alt by lia.
      apply H2; lia.
    - intros y [i Hi]%elem_of_list_lookup. subst x. apply list_lookup_total_correct in Hi as Hy. subst y.
      apply heap_root; [done..|]. by apply lookup_lt_Some in Hi.
  Qed.
End heap.

(** ** The two instances over distances *)
Definition enum (e : elem) : Prop := num (e_dist e).

Lemma min_less_irr a : min_less a a = false. Proof. apply fltb_irrefl. Qed.
Lemma max_less_irr a : max_less a a = false. Proof. apply fltb_irrefl. Qed.
Lemma min_less_asym a b : min_less a b = true -> min_less b a = false. Proof. apply fltb_asym. Qed.
Lemma max_less_asym a b : max_less a b = true -> max_less b a = false. Proof. apply fltb_asym. Qed.
Lemma min_less_ntrans a b c : enum a -> enum b -> enum c ->
  min_less a b = false -> min_less b c = false -> min_less a c = false.
Proof. unfold min_less. intros. by eapply (fltb_ntrans _ (e_dist b)). Qed.
Lemma max_less_ntrans a b c : enum a -> enum b -> enum c ->
  max_less a b = false -> max_less b c = false -> max_less a c = false.
Proof. unfold max_less. intros. by eapply (fltb_ntrans _ (e_dist b)). Qed.

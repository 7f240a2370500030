(** The min-max heap: push, pop and popMax keep the multiset of elements and
    the min-max order (elements on even levels are below their descendants,
    elements on odd levels above them). *)
From Verif Require Import GoBase FloatModel ProofBase HeapModel HeapProofs MMHeapModel.
Open Scope nat_scope.

Notation par i := ((i - 1) / 2).

(** ** Ancestors and levels *)
Inductive anc : nat -> nat -> Prop :=
| AncPar c : 0 < c -> anc (par c) c
| AncUp a c : 0 < c -> anc a (par c) -> anc a c.

Lemma anc_lt a c : anc a c -> a < c.
Proof. induction 1 as [c Hc|a c Hc H IH]; [by apply par_lt|]. pose proof (par_lt c Hc). lia. Qed.
Lemma anc_inv a c : anc a c -> a = par c \/ anc a (par c).
Proof. inversion 1; auto. Qed.
Lemma anc_pos a c : anc a c -> 0 < c.
Proof. by inversion 1. Qed.
Lemma anc_trans a b c : anc a b -> anc b c -> anc a c.
Proof. intros H1 H2. induction H2 as [c Hc|b c Hc H IH]; [by apply AncUp|]. apply AncUp; auto. Qed.
Lemma anc_zero c : 0 < c -> anc 0 c.
Proof.
  induction c as [c IH] using lt_wf_ind. intros Hc. pose proof (par_lt c Hc) as Hp.
  destruct (decide (par c = 0)) as [E|E].
  - rewrite <- E. by apply AncPar.
  - apply AncUp; [done|]. apply IH; lia.
Qed.
Lemma anc_child1 i : anc i (2 * i + 1).
Proof. rewrite <- (par_child1 i) at 1. apply AncPar. lia. Qed.
Lemma anc_child2 i : anc i (2 * i + 1 + 1).
Proof. rewrite <- (par_child2 i) at 1. apply AncPar. lia. Qed.
(** A proper descendant is a child, a grandchild or below a grandchild. *)
Lemma anc_cases i c : anc i c ->
  par c = i \/ (0 < par c /\ par (par c) = i) \/ (exists g, 0 < par g /\ par (par g) = i /\ anc i g /\ anc g c).
Proof.
  induction 1 as [c Hc|a c Hc H IH]; [by left|]. right.
  destruct IH as [E|[[Hp E]|(g & Hg & E & H1 & H2)]].
  - left. split; [by eapply anc_pos|done].
  - right. exists (par c). split_and!; try done. by apply AncPar.
  - right. exists g. split_and!; try done. by apply AncUp.
Qed.

Lemma level_child1 i : on_min_level (2 * i + 1) = negb (on_min_level i).
Proof.
  unfold on_min_level. replace (2 * i + 1 + 1) with (2 * (i + 1)) by lia.
  rewrite Nat.log2_double by lia. rewrite Nat.even_succ. by rewrite <- Nat.negb_even.
Qed.
Lemma level_child2 i : on_min_level (2 * i + 1 + 1) = negb (on_min_level i).
Proof.
  unfold on_min_level. replace (2 * i + 1 + 1 + 1) with (2 * (i + 1) + 1) by lia.
  rewrite Nat.log2_succ_double by lia. rewrite Nat.even_succ. by rewrite <- Nat.negb_even.
Qed.
Lemma level_par c : 0 < c -> on_min_level c = negb (on_min_level (par c)).
Proof.
  intros Hc. destruct (par_inv c (par c) Hc eq_refl) as [E|E]; rewrite E at 1.
  - apply level_child1.
  - apply level_child2.
Qed.
Lemma level_gp c : 0 < c -> 0 < par c -> on_min_level (par (par c)) = on_min_level c.
Proof. intros Hc Hp. rewrite (level_par c Hc), (level_par (par c) Hp). by rewrite negb_involutive. Qed.

Section mmheap.
  Context {A : Type} `{Inhabited A} (less : A -> A -> bool).
  Implicit Types l : list A.

  (** ** Multisets *)
  Lemma swap_if_perm cmp l i j : fst (swap_if cmp l i j) ≡ₚ l.
  Proof. unfold swap_if. destruct (less_at cmp l i j); [apply swap_perm|done]. Qed.
  Lemma up_x_perm fuel cmp l i : up_x fuel cmp l i ≡ₚ l.
  Proof.
    revert l i; induction fuel as [|f IH]; intros l i; cbn [up_x]; [done|].
    destruct (2 <? i); [|done]. unfold swap_if. destruct (less_at _ _ _ _); [|done].
    rewrite IH. apply swap_perm.
  Qed.
  Lemma mm_up_perm l i : mm_up less l i ≡ₚ l.
  Proof.
    unfold mm_up. destruct (on_min_level i); (destruct (_ && _); rewrite up_x_perm; [apply swap_perm|done]).
  Qed.
  Lemma down_x_perm fuel cmp l i n r : fst (down_x fuel cmp l i n r) ≡ₚ l.
  Proof.
    revert l i r; induction fuel as [|f IH]; intros l i r; cbn [down_x]; [done|].
    destruct (min_descendent _ _ _ _) as [m|]; [|done].
    destruct (i =? _); [cbn [fst]; apply swap_if_perm|].
    unfold swap_if at 1. destruct (less_at cmp l m i); cbn [negb fst]; [|done].
    rewrite IH, swap_if_perm. apply swap_perm.
  Qed.
  Lemma mm_down_perm l i n : fst (mm_down less l i n) ≡ₚ l.
  Proof. unfold mm_down. destruct (on_min_level i); apply down_x_perm. Qed.
  Lemma mm_down_length l i n : length (fst (mm_down less l i n)) = length l.
  Proof. apply Permutation_length, mm_down_perm. Qed.
  Lemma mm_init_perm l : mm_init less l ≡ₚ l.
  Proof.
    unfold mm_init. generalize (length l) at 2. generalize (length l / 2). intros k n. revert l.
    induction k as [|k IH]; intros l; cbn [mm_init_loop]; [done|]. rewrite IH. apply mm_down_perm.
  Qed.
  Lemma mm_push_perm l x : mm_push less l x ≡ₚ x :: l.
  Proof. unfold mm_push. rewrite mm_up_perm. by rewrite Permutation_app_comm. Qed.

  Lemma mm_pop_some l : l <> [] -> exists x l', mm_pop less l = Val (x, l').
  Proof.
    intros Hl. unfold mm_pop. destruct l as [|a l]; [done|].
    set (l2 := fst _). destruct (l2 !! _) eqn:E; [by do 2 eexists|].
    apply lookup_ge_None_1 in E. unfold l2 in E. rewrite mm_down_length, swap_length in E.
    cbn [length] in E. lia.
  Qed.
  Lemma mm_pop_max_some l : l <> [] -> exists x l', mm_pop_max less l = Val (x, l').
  Proof.
    intros Hl. unfold mm_pop_max. destruct l as [|a l]; [done|].
    set (l2 := fst _). destruct (l2 !! _) eqn:E; [by do 2 eexists|].
    apply lookup_ge_None_1 in E. unfold l2 in E. rewrite mm_down_length, swap_length in E.
    cbn [length] in E. lia.
  Qed.

  (** ** The order *)
  Context (good : A -> Prop).
  Hypothesis less_irr : forall a, less a a = false.
  Hypothesis less_asym : forall a b, less a b = true -> less b a = false.
  Hypothesis less_ntrans : forall a b c, good a -> good b -> good c ->
    less a b = false -> less b c = false -> less a c = false.

  (** Direction [true]: [a] is not above [b]; [false]: not below. *)
  Definition R (d : bool) (a b : A) : Prop := if d then less b a = false else less a b = false.
  Definition cmp_of (d : bool) : A -> A -> bool := if d then is_less less else is_greater less.

  Lemma R_refl d a : R d a a. Proof. destruct d; apply less_irr. Qed.
  Lemma R_trans d a b c : good a -> good b -> good c -> R d a b -> R d b c -> R d a c.
  Proof. destruct d; cbn [R]; intros; [by eapply (less_ntrans c b a)|by eapply (less_ntrans a b c)]. Qed.
  Lemma R_neg d a b : R (negb d) a b <-> R d b a.
  Proof. by destruct d. Qed.
  Lemma cmp_true d a b : cmp_of d a b = true -> R d a b.
  Proof. destruct d; cbn [cmp_of R]; unfold is_less, is_greater; apply less_asym. Qed.
  Lemma cmp_false d a b : cmp_of d a b = false -> R d b a.
  Proof. destruct d; cbn [cmp_of R]; unfold is_less, is_greater; done. Qed.

  Notation lv := on_min_level.

  (** All ancestor/descendant pairs below [n] with ancestor at least [k]. *)
  Definition mm_from (l : list A) (k n : nat) : Prop :=
    forall a c, k <= a -> c < n -> anc a c -> R (lv a) (l !!! a) (l !!! c).
  Definition mm_ok (l : list A) : Prop := mm_from l 0 (length l).

  Lemma good_at l i : Forall good l -> i < length l -> good (l !!! i).
  Proof. intros Hg Hi. by apply Forall_lookup_total_1. Qed.

  (** *** minDescendent *)
  Definition near_desc (i c : nat) : Prop := anc i c /\ (par c = i \/ (0 < par c /\ par (par c) = i)).

  Lemma near_desc_list i c : near_desc i c ->
    c = 2*i+1 \/ c = 2*i+2 \/ c = 4*i+3 \/ c = 4*i+4 \/ c = 4*i+5 \/ c = 4*i+6.
  Proof.
    intros [Ha [E|[Hp E]]]; pose proof (anc_pos _ _ Ha) as Hc.
    - destruct (par_inv c i Hc E); lia.
    - destruct (par_inv (par c) i Hp E) as [E1|E1]; destruct (par_inv c (par c) Hc eq_refl); lia.
  Qed.
  Lemma near_desc_children i : near_desc i (2*i+1) /\ near_desc i (2*i+2).
  Proof.
    split; split.
    - apply anc_child1.
    - left. apply par_child1.
    - replace (2*i+2) with (2*i+1+1) by lia. apply anc_child2.
    - left. replace (2*i+2) with (2*i+1+1) by lia. apply par_child2.
  Qed.
  Lemma near_desc_gc i j : near_desc i j -> par j = i -> near_desc i (2*j+1) /\ near_desc i (2*j+2).
  Proof.
    intros [Ha _] E. pose proof (anc_pos _ _ Ha).
    split; split.
    - eapply anc_trans; [done|apply anc_child1].
    - right. by rewrite par_child1.
    - eapply anc_trans; [done|]. replace (2*j+2) with (2*j+1+1) by lia. apply anc_child2.
    - right. replace (2*j+2) with (2*j+1+1) by lia. by rewrite par_child2.
  Qed.

  Lemma min_descendent_spec d l i n m :
    Forall good l -> n <= length l -> min_descendent (cmp_of d) l i n = Some m ->
    m < n /\ near_desc i m /\ forall c, c < n -> near_desc i c -> R d (l !!! m) (l !!! c).
  Proof.
    intros Hg Hn. unfold min_descendent, least.
    destruct (near_desc_children i) as [N1 N2].
    assert (par (2*i+1) = i) as P1 by apply par_child1.
    assert (par (2*i+2) = i) as P2 by (replace (2*i+2) with (2*i+1+1) by lia; apply par_child2).
    destruct (near_desc_gc i _ N1 P1) as [N3 N4]. destruct (near_desc_gc i _ N2 P2) as [N5 N6].
    replace (i * 2 + 1) with (2*i+1) by lia.
    replace (2*i+1+1) with (2*i+2) by lia.
    replace ((2*i+1)*2+1) with (4*i+3) by lia. replace ((2*i+1)*2+2) with (4*i+4) by lia.
    replace ((2*i+2)*2+1) with (4*i+5) by lia. replace ((2*i+2)*2+2) with (4*i+6) by lia.
    replace (2*(2*i+1)+1) with (4*i+3) in N3 by lia. replace (2*(2*i+1)+2) with (4*i+4) in N4 by lia.
    replace (2*(2*i+2)+1) with (4*i+5) in N5 by lia. replace (2*(2*i+2)+2) with (4*i+6) in N6 by lia.
    destruct (n <=? 2*i+1) eqn:L1; [done|]. apply Nat.leb_gt in L1.
    (* one comparison step *)
    assert (forall a j, a < n -> j < n ->
      exists b, (if less_at (cmp_of d) l a j then (a, false) else (j, false)) = (b, false) /\ b < n /\
        (b = a \/ b = j) /\ R d (l !!! b) (l !!! a) /\ R d (l !!! b) (l !!! j)) as step.
    { intros a j Ha Hj. rewrite less_at_in by lia. destruct (cmp_of d (l !!! a) (l !!! j)) eqn:E.
      - exists a. split_and!; auto using R_refl, cmp_true.
      - exists j. split_and!; auto using R_refl, cmp_false. }
    assert (forall b a c, b < n -> a < n -> c < n -> R d (l !!! b) (l !!! a) -> R d (l !!! a) (l !!! c) ->
      R d (l !!! b) (l !!! c)) as tr.
    { intros b a c Hb Ha Hc. apply R_trans; apply good_at; try done; lia. }
    destruct (n <=? 2*i+2) eqn:L2.
    { apply Nat.leb_le in L2. intros [= <-]. split_and!; [lia|done|].
      intros c Hc Nc. apply near_desc_list in Nc. assert (c = 2*i+1) as -> by lia. apply R_refl. }
    apply Nat.leb_gt in L2. destruct (step (2*i+1) (2*i+2)) as (b1 & -> & B1 & W1 & R11 & R12); [lia..|].
    assert (near_desc i b1) as Nb1 by (destruct W1 as [-> | ->]; done).
    destruct (n <=? 4*i+3) eqn:L3.
    { apply Nat.leb_le in L3. intros [= <-]. split_and!; [lia|done|].
      intros c Hc Nc. apply near_desc_list in Nc. assert (c = 2*i+1 \/ c = 2*i+2) as [-> | ->] by lia; done. }
    apply Nat.leb_gt in L3. destruct (step b1 (4*i+3)) as (b2 & -> & B2 & W2 & R21 & R22); [lia..|].
    assert (near_desc i b2) as Nb2 by (destruct W2 as [-> | ->]; done).
    assert (R d (l !!! b2) (l !!! (2*i+1))) by (eapply tr; [..|exact R21|exact R11]; lia).
    assert (R d (l !!! b2) (l !!! (2*i+2))) by (eapply tr; [..|exact R21|exact R12]; lia).
    destruct (n <=? 4*i+4) eqn:L4.
    { apply Nat.leb_le in L4. intros [= <-]. split_and!; [lia|done|].
      intros c Hc Nc. apply near_desc_list in Nc.
      assert (c = 2*i+1 \/ c = 2*i+2 \/ c = 4*i+3) as [-> |[-> | ->]] by lia; done. }
    apply Nat.leb_gt in L4. destruct (step b2 (4*i+4)) as (b3 & -> & B3 & W3 & R31 & R32); [lia..|].
    assert (near_desc i b3) as Nb3 by (destruct W3 as [-> | ->]; done).
    assert (R d (l !!! b3) (l !!! (2*i+1))) by (apply (tr b3 b2); [lia..|done|done]).
    assert (R d (l !!! b3) (l !!! (2*i+2))) by (apply (tr b3 b2); [lia..|done|done]).
    assert (R d (l !!! b3) (l !!! (4*i+3))) by (apply (tr b3 b2); [lia..|done|done]).
    destruct (n <=? 4*i+5) eqn:L5.
    { apply Nat.leb_le in L5. intros [= <-]. split_and!; [lia|done|].
      intros c Hc Nc. apply near_desc_list in Nc.
      assert (c = 2*i+1 \/ c = 2*i+2 \/ c = 4*i+3 \/ c = 4*i+4) as [-> |[-> |[-> | ->]]] by lia; done. }
    apply Nat.leb_gt in L5. destruct (step b3 (4*i+5)) as (b4 & -> & B4 & W4 & R41 & R42); [lia..|].
    assert (near_desc i b4) as Nb4 by (destruct W4 as [-> | ->]; done).
    assert (R d (l !!! b4) (l !!! (2*i+1))) by (apply (tr b4 b3); [lia..|done|done]).
    assert (R d (l !!! b4) (l !!! (2*i+2))) by (apply (tr b4 b3); [lia..|done|done]).
    assert (R d (l !!! b4) (l !!! (4*i+3))) by (apply (tr b4 b3); [lia..|done|done]).
    assert (R d (l !!! b4) (l !!! (4*i+4))) by (apply (tr b4 b3); [lia..|done|done]).
    destruct (n <=? 4*i+6) eqn:L6.
    { apply Nat.leb_le in L6. intros [= <-]. split_and!; [lia|done|].
      intros c Hc Nc. apply near_desc_list in Nc.
      assert (c = 2*i+1 \/ c = 2*i+2 \/ c = 4*i+3 \/ c = 4*i+4 \/ c = 4*i+5) as [-> |[-> |[-> |[-> | ->]]]] by lia; done. }
    apply Nat.leb_gt in L6. destruct (step b4 (4*i+6)) as (b5 & -> & B5 & W5 & R51 & R52); [lia..|].
    assert (near_desc i b5) as Nb5 by (destruct W5 as [-> | ->]; done).
    intros [= <-]. split_and!; [lia|done|].
    intros c Hc Nc. apply near_desc_list in Nc.
    destruct Nc as [-> |[-> |[-> |[-> |[-> | ->]]]]]; try done; apply (tr b5 b4); (lia || done).
  Qed.

  Lemma min_descendent_none d l i n : min_descendent (cmp_of d) l i n = None -> n <= 2*i+1.
  Proof.
    unfold min_descendent. destruct (n <=? i * 2 + 1) eqn:E.
    - apply Nat.leb_le in E. lia.
    - destruct (least _ _ _ _ _) as [m1 []]; [done|]. destruct (least _ _ _ _ _) as [m2 []]; [done|].
      destruct (least _ _ _ _ _) as [m3 []]; [done|]. destruct (least _ _ _ _ _) as [m4 []]; [done|].
      by destruct (least _ _ _ _ _) as [m5 ?].
  Qed.
  Lemma anc_child_le i c : anc i c -> 2*i+1 <= c.
  Proof.
    induction 1 as [c Hc|a c Hc H' IH].
    - destruct (par_inv c (par c) Hc eq_refl); lia.
    - pose proof (par_lt c Hc). lia.
  Qed.

  (** *** down *)
  Definition mm_hole (l : list A) (k n i : nat) : Prop :=
    forall a c, k <= a -> c < n -> anc a c -> a <> i -> R (lv a) (l !!! a) (l !!! c).

  (** Ancestors of a node and of its parent. *)
  Lemma anc_of_par a c : 0 < c -> anc a c -> a <> par c -> anc a (par c).
  Proof. intros Hc Ha Hne. apply anc_inv in Ha as [?|?]; [done|done]. Qed.

  Lemma down_x_ok fuel l k n i r :
    Forall good l -> n <= length l -> n - i <= fuel -> k <= i -> i < n ->
    mm_hole l k n i -> mm_from (fst (down_x fuel (cmp_of (lv i)) l i n r)) k n.
  Proof.
    revert l i r. induction fuel as [|f IH]; intros l i r Hg Hn Hf Hk Hi Hh; [lia|]. cbn [down_x].
    destruct (min_descendent _ _ _ _) as [m|] eqn:Em.
    2:{ apply min_descendent_none in Em. intros a c Ha Hc Hac. apply Hh; try done. intros ->.
        apply anc_child_le in Hac. lia. }
    apply min_descendent_spec in Em as (Hm & [Ham Hnm] & Hbest); [|done..].
    pose proof (anc_lt _ _ Ham) as Him. pose proof (anc_pos _ _ Ham) as Hm0.
    set (d := lv i) in *.
    assert (forall x, x < n -> good (l !!! x)) as G by (intros; apply good_at; [done|lia]).
    (* m is best among all descendants of i *)
    assert (forall c, c < n -> anc i c -> R d (l !!! m) (l !!! c)) as Hall.
    { intros c Hc Hic. destruct (anc_cases i c Hic) as [E|[[Hp E]|(g & Hgp & E & H1 & H2)]].
      - apply Hbest; [done|]. split; [done|]. by left.
      - apply Hbest; [done|]. split; [done|]. by right.
      - pose proof (anc_lt _ _ H1). pose proof (anc_lt _ _ H2).
        apply (R_trans d _ (l !!! g)); [apply G; lia..| |].
        + apply Hbest; [lia|]. split; [done|]. by right.
        + replace d with (lv g); [apply Hh; try done; lia|]. unfold d. rewrite <- E. symmetry.
          apply level_gp; [by eapply anc_pos|done]. }
    destruct (i =? par m) eqn:Ep.
    - apply Nat.eqb_eq in Ep. cbn [fst]. unfold swap_if. rewrite less_at_in by lia.
      destruct (cmp_of d (l !!! m) (l !!! i)) eqn:Ec; cbn [fst].
      + pose proof (cmp_true _ _ _ Ec) as Rmi.
        intros a c Ha Hc Hac. pose proof (anc_lt _ _ Hac).
        rewrite !swap_at by lia.
        destruct (decide (a = m)) as [->|Ham'].
        { (* edges out of m *)
          rewrite !decide_False by lia. assert (lv m = negb d) as -> by (rewrite level_par, <- Ep; done).
          apply (R_trans _ _ (l !!! m)); [apply G; lia..| |].
          - by apply R_neg.
          - replace (negb d) with (lv m) by (rewrite level_par, <- Ep; done). apply Hh; try done; lia. }
        destruct (decide (a = i)) as [->|Hai].
        { destruct (decide (c = m)); [by subst|]. rewrite decide_False by lia. by apply Hall. }
        destruct (decide (c = m)) as [->|Hcm].
        { apply Hh; try done; try lia. rewrite Ep. apply anc_of_par; try done. lia. }
        destruct (decide (c = i)) as [->|Hci].
        { apply Hh; try done; try lia. by eapply anc_trans. }
        by apply Hh.
      + apply cmp_false in Ec. intros a c Ha Hc Hac.
        destruct (decide (a = i)) as [->|Hai]; [|by apply Hh].
        apply (R_trans _ _ (l !!! m)); [apply G; pose proof (anc_lt _ _ Hac); lia..|done|]. by apply Hall.
    - apply Nat.eqb_neq in Ep. destruct Hnm as [?|[Hp Hpp]]; [congruence|].
      set (p := par m) in *.
      assert (anc p m) as Hpm by (by apply AncPar).
      assert (anc i p) as Hip by (rewrite <- Hpp; by apply AncPar).
      pose proof (anc_lt _ _ Hpm). pose proof (anc_lt _ _ Hip).
      assert (lv p = negb d) as Lp by (rewrite level_par, Hpp; done).
      assert (lv m = d) as Lm by (unfold d; rewrite <- Hpp; symmetry; by apply level_gp).
      assert (forall a, anc a m -> a = p \/ a = i \/ anc a i) as Hancm.
      { intros a Ha. apply anc_inv in Ha as [->|Ha]; [by left|]. fold p in Ha.
        apply anc_inv in Ha as [->|Ha]; [right; left; done|]. rewrite Hpp in Ha. by right; right. }
      assert (forall a, anc a p -> a = i \/ anc a i) as Hancp.
      { intros a Ha. apply anc_inv in Ha as [->|Ha]; [left; done|]. rewrite Hpp in Ha. by right. }
      unfold swap_if at 1. rewrite less_at_in by lia.
      destruct (cmp_of d (l !!! m) (l !!! i)) eqn:Ec; cbn [negb fst].
      2:{ apply cmp_false in Ec. intros a c Ha Hc Hac.
        destruct (decide (a = i)) as [->|Hai]; [|by apply Hh].
        apply (R_trans _ _ (l !!! m)); [apply G; pose proof (anc_lt _ _ Hac); lia..|done|]. by apply Hall. }
      pose proof (cmp_true _ _ _ Ec) as Rmi. rewrite <- Lm at 2. 
      unfold swap_if. rewrite less_at_in by (rewrite swap_length; lia).
      rewrite !swap_at by lia. rewrite !(decide_False (P := p = m)) by lia.
      rewrite !(decide_False (P := p = i)) by lia. rewrite decide_True by done.
      rewrite Lm. destruct (cmp_of d (l !!! p) (l !!! i)) eqn:Ec2; cbn [fst].
      + pose proof (cmp_true _ _ _ Ec2) as Rpi. rewrite <- Lm.
        apply IH; [by rewrite !swap_perm|by rewrite !swap_length|lia|lia|lia|].
        intros a c Ha Hc Hac Hne. pose proof (anc_lt _ _ Hac).
        rewrite !(swap_at (swap l m i)) by (rewrite swap_length; lia). rewrite !swap_at by lia.
        rewrite !(decide_False (P := m = i)) by lia. rewrite !(decide_True (P := m = m)) by done.
        rewrite !(decide_False (P := p = i)) by lia. rewrite !(decide_False (P := p = m)) by lia.
        rewrite !(decide_False (P := a = m)) by done.
        destruct (decide (a = p)) as [->|Hap].
        { rewrite !(decide_False (P := c = p)) by lia. rewrite Lp. destruct (decide (c = m)) as [->|].
          - by apply R_neg.
          - rewrite !(decide_False (P := c = i)) by lia.
            apply (R_trans _ _ (l !!! p)); [apply G; lia..| |].
            + by apply R_neg.
            + rewrite <- Lp. apply Hh; try done; lia. }
        destruct (decide (a = i)) as [->|Hai].
        { destruct (decide (c = p)); [done|].
          destruct (decide (c = m)) as [->|]; [by apply Hall; [lia|]|].
          rewrite !(decide_False (P := c = i)) by lia. by apply Hall. }
        destruct (decide (c = p)) as [->|Hcp].
        { apply Hh; try done; try lia. apply Hancp in Hac as [?|?]; [done|done]. }
        destruct (decide (c = m)) as [->|Hcm].
        { apply Hh; try done; try lia. apply Hancm in Hac as [?|[?|?]]; [done..|]. by eapply anc_trans. }
        destruct (decide (c = i)) as [->|Hci].
        { apply Hh; try done; try lia. by eapply anc_trans. }
        by apply Hh.
      + apply cmp_false in Ec2. rewrite <- Lm.
        apply IH; [by rewrite !swap_perm|by rewrite !swap_length|lia|lia|lia|].
        intros a c Ha Hc Hac Hne. pose proof (anc_lt _ _ Hac).
        rewrite !swap_at by lia.
        rewrite !(decide_False (P := a = m)) by done.
        destruct (decide (a = i)) as [->|Hai].
        { destruct (decide (c = m)) as [->|]; [done|].
          rewrite !(decide_False (P := c = i)) by lia. by apply Hall. }
        destruct (decide (c = m)) as [->|Hcm].
        { destruct (decide (a = p)) as [->|Hap].
          - rewrite Lp. by apply R_neg.
          - apply Hh; try done; try lia. apply Hancm in Hac as [?|[?|?]]; done. }
        destruct (decide (c = i)) as [->|Hci].
        { apply Hh; try done; try lia. by eapply anc_trans. }
        by apply Hh.
  Qed.

  Lemma mm_down_ok l k n i :
    Forall good l -> n <= length l -> k <= i -> i < n ->
    mm_hole l k n i -> mm_from (fst (mm_down less l i n)) k n.
  Proof.
    intros Hg Hn Hk Hi Hh. unfold mm_down.
    assert ((if lv i then down_x (S n) (is_less less) l i n false else down_x (S n) (is_greater less) l i n false)
      = down_x (S n) (cmp_of (lv i)) l i n false) as -> by (by destruct (lv i)).
    apply down_x_ok; try done. lia.
  Qed.
  Lemma mm_down_ge l i n : n <= i -> fst (mm_down less l i n) = l.
  Proof.
    intros Hi. unfold mm_down. destruct (lv i); cbn [down_x]; unfold min_descendent;
      rewrite (proj2 (Nat.leb_le n (i * 2 + 1))) by lia; done.
  Qed.

  (** Positions not below [i], or from [n] on, are not touched. *)
  Lemma down_x_out fuel d l i n r k :
    Forall good l -> n <= length l -> i < n -> (k < i \/ n <= k) ->
    fst (down_x fuel (cmp_of d) l i n r) !!! k = l !!! k.
  Proof.
    revert l i r. induction fuel as [|f IH]; intros l i r Hg Hn Hi Hk; cbn [down_x]; [done|].
    destruct (min_descendent _ _ _ _) as [m|] eqn:Em; [|done].
    apply min_descendent_spec in Em as (Hm & [Ham Hnm] & _); [|done..].
    pose proof (anc_lt _ _ Ham) as Him.
    destruct (i =? par m) eqn:Ep.
    - cbn [fst]. unfold swap_if. destruct (less_at _ _ _ _); [|done]. cbn [fst].
      rewrite swap_at by lia. rewrite !decide_False by lia. done.
    - apply Nat.eqb_neq in Ep. destruct Hnm as [?|[Hp Hpp]]; [congruence|].
      pose proof (par_lt m). pose proof (par_lt (par m) Hp).
      unfold swap_if at 1. destruct (less_at _ _ _ _); cbn [negb fst]; [|done].
      rewrite IH; [|by rewrite swap_if_perm, swap_perm
                   |by rewrite (Permutation_length (swap_if_perm _ _ _ _)), swap_length|done|lia].
      unfold swap_if. destruct (less_at _ (swap l m i) _ _); cbn [fst].
      + rewrite (swap_at (swap l m i)) by (rewrite swap_length; lia). rewrite !decide_False by lia.
        rewrite swap_at by lia. rewrite !decide_False by lia. done.
      + rewrite swap_at by lia. rewrite !decide_False by lia. done.
  Qed.
  Lemma mm_down_out l i n k :
    Forall good l -> n <= length l -> (k < i \/ n <= k) -> fst (mm_down less l i n) !!! k = l !!! k.
  Proof.
    intros Hg Hn Hk. destruct (decide (i < n)); [|by rewrite mm_down_ge by lia]. unfold mm_down.
    destruct (lv i); [apply (down_x_out _ true)|apply (down_x_out _ false)]; done.
  Qed.

  (** *** up *)
  Definition mm_bump (d : bool) (l : list A) (n i : nat) : Prop :=
    (forall a c, c < n -> anc a c -> c <> i -> R (lv a) (l !!! a) (l !!! c)) /\
    (forall a, anc a i -> lv a = negb d -> R (negb d) (l !!! a) (l !!! i)).

  Lemma up_x_ok fuel l n i :
    Forall good l -> n <= length l -> i < n -> i < fuel ->
    mm_bump (lv i) l n i -> mm_from (up_x fuel (cmp_of (lv i)) l i) 0 n.
  Proof.
    revert l i. induction fuel as [|f IH]; intros l i Hg Hn Hi Hf [H1 H2]; [lia|]. cbn [up_x].
    assert (forall x, x < n -> good (l !!! x)) as G by (intros; apply good_at; [done|lia]).
    destruct (2 <? i) eqn:E2.
    2:{ apply Nat.ltb_ge in E2. intros a c _ Hc Hac.
        destruct (decide (c = i)) as [->|Hci]; [|by apply H1].
        assert (par i = 0) as P0 by (destruct i as [|[|[|]]]; [done..|lia]).
        assert (a = 0) as ->.
        { apply anc_inv in Hac as [->|Hac]; [done|]. rewrite P0 in Hac. apply anc_lt in Hac. lia. }
        pose proof (anc_pos _ _ Hac) as Hi0.
        assert (lv 0 = negb (lv i)) as E0 by (rewrite (level_par i Hi0), P0, negb_involutive; done).
        rewrite E0. apply H2; done. }
    apply Nat.ltb_lt in E2. set (d := lv i) in *.
    assert (0 < par i) as Hp.
    { destruct (decide (par i = 0)) as [E|]; [|lia]. destruct (par_inv i 0); try done; lia. }
    set (p := par i) in *. set (g := par p) in *.
    assert (anc p i) as Hpi by (apply AncPar; lia).
    assert (anc g p) as Hgp by (by apply AncPar).
    assert (anc g i) as Hgi by (by eapply anc_trans).
    pose proof (anc_lt _ _ Hpi). pose proof (anc_lt _ _ Hgp).
    assert (lv g = d) as Lg by (unfold d, g, p; apply level_gp; [lia|done]).
    assert (lv p = negb d) as Lp by (unfold d; rewrite (level_par i) by lia; by rewrite negb_involutive).
    assert (forall a, anc a i -> a = p \/ a = g \/ anc a g) as Hanci.
    { intros a Ha. apply anc_inv in Ha as [->|Ha]; [by left|]. fold p in Ha.
      apply anc_inv in Ha as [->|Ha]; [right; left; done|]. by right; right. }
    unfold swap_if. rewrite less_at_in by lia.
    destruct (cmp_of d (l !!! i) (l !!! g)) eqn:Ec.
    2:{ apply cmp_false in Ec. intros a c _ Hc Hac.
        destruct (decide (c = i)) as [->|Hci]; [|by apply H1].
        destruct (decide (lv a = negb d)) as [La|La]; [rewrite La; by apply H2|].
        apply Hanci in Hac as [->|[->|Hag]]; [done|by rewrite Lg|].
        pose proof (anc_lt _ _ Hag).
        assert (lv a = d) as La' by (destruct (lv a), d; done).
        apply (R_trans _ _ (l !!! g)); [apply G; lia..| |by rewrite La'].
        apply H1; [lia|done|lia]. }
    pose proof (cmp_true _ _ _ Ec) as Rig. rewrite <- Lg.
    apply IH; [by rewrite swap_perm|by rewrite swap_length|lia|lia|]. rewrite Lg. split.
    - intros a c Hc Hac Hcg. pose proof (anc_lt _ _ Hac). rewrite !swap_at by lia.
      rewrite !(decide_False (P := c = g)) by done.
      destruct (decide (a = i)) as [->|Hai].
      { rewrite !(decide_False (P := c = i)) by lia. fold d. rewrite <- Lg. apply H1; [done|by eapply anc_trans|lia]. }
      destruct (decide (a = g)) as [->|Hag].
      { rewrite Lg. destruct (decide (c = i)) as [->|Hci]; [done|].
        apply (R_trans _ _ (l !!! g)); [apply G; lia..|done|]. rewrite <- Lg. by apply H1. }
      destruct (decide (c = i)) as [->|Hci]; [|by apply H1].
      apply Hanci in Hac as [->|[->|Hac]]; [|done|apply H1; [lia|done|lia]].
      rewrite Lp. apply R_neg. rewrite <- Lg. apply H1; [lia|done|lia].
    - intros a Hag La. pose proof (anc_lt _ _ Hag). rewrite !swap_at by lia.
      rewrite !(decide_False (P := a = i)) by lia. rewrite !(decide_False (P := a = g)) by lia.
      rewrite !(decide_False (P := g = i)) by lia. rewrite decide_True by done.
      apply H2; [by eapply anc_trans|done].
  Qed.

  (** up leaves what is behind [i] alone. *)
  Lemma up_x_out fuel cmp l i k : i < length l -> i < k -> up_x fuel cmp l i !!! k = l !!! k.
  Proof.
    revert l i. induction fuel as [|f IH]; intros l i Hi Hk; cbn [up_x]; [done|]. destruct (2 <? i) eqn:E2; [|done]. apply Nat.ltb_lt in E2.
    change (((i - 1) / 2 - 1) / 2) with (par (par i)). pose proof (par_lt i ltac:(lia)).
    assert (par (par i) <= par i) by (destruct (decide (par i = 0)) as [->|]; [done|]; pose proof (par_lt (par i)); lia).
    unfold swap_if. destruct (less_at cmp l i (par (par i))); [|done].
    rewrite IH by (rewrite ?swap_length; lia). rewrite swap_at by lia. rewrite !decide_False by lia. done.
  Qed.
  Lemma mm_up_out l i k : i < length l -> i < k -> mm_up less l i !!! k = l !!! k.
  Proof.
    intros Hi Hk. unfold mm_up. change ((i - 1) / 2) with (par i).
    destruct (0 <? i) eqn:E0; cbn [andb]; [|destruct (lv i); by apply up_x_out].
    apply Nat.ltb_lt in E0. pose proof (par_lt i E0).
    destruct (lv i); (destruct (less_at _ _ _ _); [rewrite up_x_out by (rewrite ?swap_length; lia); rewrite swap_at by lia; by rewrite !decide_False by lia|by apply up_x_out]).
  Qed.

  (** An element without children that may be out of place. *)
  Lemma mm_up_leaf l n i :
    Forall good l -> n <= length l -> i < n -> n <= 2 * i + 1 ->
    (forall a c, c < n -> anc a c -> c <> i -> R (lv a) (l !!! a) (l !!! c)) -> mm_from (mm_up less l i) 0 n.
  Proof.
    intros Hg Hl Hi Hleaf H1.
    assert (forall c, c < n -> ~ anc i c) as Hno by (intros c Hc Ha; apply anc_child_le in Ha; lia).
    assert (forall k, k < n -> good (l !!! k)) as G by (intros; apply good_at; [done|lia]).
    unfold mm_up.
    assert ((if lv i then
              if (0 <? i) && less_at (is_greater less) l i (par i)
              then up_x (S i) (is_greater less) (swap l i (par i)) (par i)
              else up_x (S i) (is_less less) l i
            else
              if (0 <? i) && less_at (is_less less) l i (par i)
              then up_x (S i) (is_less less) (swap l i (par i)) (par i)
              else up_x (S i) (is_greater less) l i) =
            (if (0 <? i) && less_at (cmp_of (negb (lv i))) l i (par i)
             then up_x (S i) (cmp_of (negb (lv i))) (swap l i (par i)) (par i)
             else up_x (S i) (cmp_of (lv i)) l i)) as -> by (by destruct (lv i)).
    destruct (0 <? i) eqn:E0; cbn [andb].
    2:{ apply Nat.ltb_ge in E0. apply up_x_ok; try done; [lia|]. split; [done|].
        intros a Ha. apply anc_lt in Ha. lia. }
    apply Nat.ltb_lt in E0. pose proof (par_lt i E0) as Hp. set (p := par i) in *.
    assert (anc p i) as Hpi by (by apply AncPar).
    assert (lv p = negb (lv i)) as Lp by (rewrite (level_par i E0), negb_involutive; done).
    assert (forall a, anc a i -> a = p \/ anc a p) as Hanci by (intros a Ha; by apply anc_inv in Ha).
    rewrite less_at_in by lia.
    destruct (cmp_of (negb (lv i)) (l !!! i) (l !!! p)) eqn:Ec.
    - apply cmp_true in Ec. rewrite <- Lp in *.
      apply up_x_ok; [by rewrite swap_perm|by rewrite swap_length|lia|lia|]. split.
      + intros a c Hc Hac Hcp. pose proof (anc_lt _ _ Hac).
        assert (a <> i) as Hai by (intros ->; by apply (Hno c)). rewrite !swap_at by lia.
        rewrite !(decide_False (P := c = p)) by done. rewrite !(decide_False (P := a = i)) by done.
        destruct (decide (a = p)) as [->|Hap].
        { destruct (decide (c = i)) as [->|Hci]; [done|].
          apply (R_trans _ _ (l !!! p)); [apply G; lia..|done|]. by apply H1. }
        destruct (decide (c = i)) as [->|Hci]; [|by apply H1].
        apply Hanci in Hac as [->|Hac]; [done|]. apply H1; [lia|done|lia].
      + intros a Hap La. pose proof (anc_lt _ _ Hap). rewrite !swap_at by lia.
        rewrite !(decide_False (P := a = i)) by lia. rewrite !(decide_False (P := a = p)) by lia.
        rewrite !(decide_False (P := p = i)) by lia. rewrite decide_True by done.
        apply (R_trans _ _ (l !!! p)); [apply G; lia..| |by apply R_neg].
        rewrite <- La. apply H1; [lia|done|lia].
    - apply cmp_false in Ec. apply up_x_ok; try done; [lia|]. split; [done|].
      intros a Hai La. apply Hanci in Hai as [->|Hap]; [done|]. pose proof (anc_lt _ _ Hap).
      apply (R_trans _ _ (l !!! p)); [apply G; lia..| |done].
      rewrite <- La. apply H1; [lia|done|lia].
  Qed.

  (** A new last element. *)
  Lemma mm_push_ok l x : Forall good l -> good x -> mm_ok l -> mm_ok (mm_push less l x).
  Proof.
    intros Hg Hx Hh. unfold mm_ok. rewrite (Permutation_length (mm_push_perm l x)). cbn [length].
    unfold mm_push. apply mm_up_leaf; [|rewrite app_length; cbn; lia|lia|lia|].
    - apply Forall_app; split; [done|by constructor].
    - intros a c Hc Hac Hne. pose proof (anc_lt _ _ Hac). rewrite !lookup_total_app_l by lia. apply Hh; [lia|lia|done].
  Qed.

  (** Where everything is in place, up does nothing. *)
  Lemma R_cmp d a b : R d a b -> cmp_of d b a = false.
  Proof. by destruct d. Qed.
  Lemma up_x_id fuel l n i : n <= length l -> i < n -> mm_from l 0 n -> up_x fuel (cmp_of (lv i)) l i = l.
  Proof.
    intros Hl Hi Hh. destruct fuel as [|f]; [done|]. cbn [up_x]. destruct (2 <? i) eqn:E2; [|done]. apply Nat.ltb_lt in E2.
    assert (0 < par i) as Hp.
    { destruct (decide (par i = 0)) as [E|]; [|lia]. destruct (par_inv i 0); try done; lia. }
    assert (anc (par (par i)) i) as Ha by (eapply anc_trans; [by apply AncPar|apply AncPar; lia]).
    pose proof (anc_lt _ _ Ha).
    unfold swap_if. change (((i - 1) / 2 - 1) / 2) with (par (par i)). rewrite less_at_in by lia.
    rewrite R_cmp; [done|]. rewrite <- (level_gp i) by lia. apply Hh; [lia|done|done].
  Qed.
  Lemma mm_up_id l n i : n <= length l -> i < n -> mm_from l 0 n -> mm_up less l i = l.
  Proof.
    intros Hl Hi Hh.
    assert (Hpar : 0 < i -> less_at (cmp_of (negb (lv i))) l i (par i) = false).
    { intros H0. pose proof (par_lt i H0). rewrite less_at_in by lia. apply R_cmp. rewrite (level_par i H0), negb_involutive. apply Hh; [lia|done|by apply AncPar]. }
    pose proof (up_x_id (S i) l n i Hl Hi Hh) as Hx. unfold mm_up. change ((i - 1) / 2) with (par i).
    destruct (0 <? i) eqn:E0; [apply Nat.ltb_lt in E0; specialize (Hpar E0)|]; destruct (lv i); cbn [andb negb cmp_of] in *; rewrite ?Hpar; done.
  Qed.

  (** *** The extremes *)
  Lemma mm_root_min l i : mm_ok l -> i < length l -> R true (l !!! 0) (l !!! i).
  Proof.
    intros Hh Hi. destruct (decide (i = 0)) as [->|]; [apply R_refl|].
    change true with (lv 0). apply Hh; [lia|done|]. apply anc_zero. lia.
  Qed.
  Lemma below_12 c : 2 < c -> anc 1 c \/ anc 2 c.
  Proof.
    induction c as [c IH] using lt_wf_ind. intros Hc. pose proof (par_lt c).
    assert (0 < par c) as Hp.
    { destruct (decide (par c = 0)) as [E|]; [|lia]. destruct (par_inv c 0); try done; lia. }
    destruct (decide (par c = 1)) as [E|E1]; [left; rewrite <- E; apply AncPar; lia|].
    destruct (decide (par c = 2)) as [E|E2]; [right; rewrite <- E; apply AncPar; lia|].
    destruct (IH (par c)) as [IH'|IH']; [lia|lia| |]; [left|right]; (apply AncUp; [lia|done]).
  Qed.
  Lemma index_of_max_spec l :
    Forall good l -> mm_ok l -> 0 < length l ->
    index_of_max less l (length l) < length l /\
    (length l = 1 \/ 0 < index_of_max less l (length l) <= 2) /\
    forall i, i < length l -> R false (l !!! index_of_max less l (length l)) (l !!! i).
  Proof.
    intros Hg Hh Hl. unfold index_of_max.
    destruct (length l <=? 2) eqn:E.
    - apply Nat.leb_le in E. split_and!; [lia|lia|]. intros i Hi.
      destruct (decide (i = length l - 1)) as [->|]; [apply R_refl|].
      assert (i = 0) as -> by lia. assert (length l - 1 = 1) as -> by lia.
      apply (mm_root_min l 1); [done|lia].
    - apply Nat.leb_gt in E. rewrite less_at_in by lia.
      assert (forall i, i < length l -> good (l !!! i)) as G by (intros; by apply good_at).
      assert (forall j, (j = 1 \/ j = 2) -> R false (l !!! j) (l !!! 1) -> R false (l !!! j) (l !!! 2) ->
        forall i, i < length l -> R false (l !!! j) (l !!! i)) as fin.
      { intros j Hj R1 R2 i Hi. destruct (decide (i = 0)) as [->|].
        { apply (mm_root_min l j); [done|lia]. }
        destruct (decide (i = 1)) as [->|]; [done|]. destruct (decide (i = 2)) as [->|]; [done|].
        destruct (below_12 i) as [Ha|Ha]; [lia| |].
        - apply (R_trans _ _ (l !!! 1)); [apply G; lia..|done|]. change false with (lv 1). apply Hh; [lia|done|done].
        - apply (R_trans _ _ (l !!! 2)); [apply G; lia..|done|]. change false with (lv 2). apply Hh; [lia|done|done]. }
      destruct (less (l !!! 2) (l !!! 1)) eqn:E12; (split_and!; [lia|lia|]).
      + apply fin; [by left|apply R_refl|]. cbn [R]. by apply less_asym.
      + apply fin; [by right| |apply R_refl]. done.
  Qed.

  (** *** pop *)
  Lemma mm_from_take l n : mm_from l 0 n -> n <= length l -> mm_ok (take n l).
  Proof.
    intros Hh Hn a c _ Hc Hac. rewrite take_length in Hc. pose proof (anc_lt _ _ Hac).
    rewrite !list_lookup_total_alt, !lookup_take, <- !list_lookup_total_alt by lia.
    apply Hh; [lia|lia|done].
  Qed.

  (** Removing the element at [i] by swapping it with the last one. *)
  Lemma remove_at l i l2 :
    Forall good l -> mm_ok l -> i < length l -> (i = 0 \/ par i = 0) ->
    l2 = fst (mm_down less (swap l i (length l - 1)) i (length l - 1)) ->
    l2 !! (length l - 1) = Some (l !!! i) /\ l ≡ₚ (l !!! i) :: take (length l - 1) l2 /\
    mm_ok (take (length l - 1) l2).
  Proof.
    intros Hg Hh Hi Hi0 E2. set (j := length l - 1) in *.
    assert (Forall good (swap l i j)) as Hgs by (by rewrite swap_perm).
    assert (length l2 = length l) as Hlen by (by rewrite E2, mm_down_length, swap_length).
    assert (l2 !!! j = l !!! i) as Ej.
    { rewrite E2. rewrite mm_down_out by (rewrite ?swap_length; lia || done).
      rewrite swap_at by lia. case_decide; [by subst|]. by rewrite decide_True. }
    assert (l2 !! j = Some (l !!! i)) as Hj by (rewrite lookup_is by lia; by rewrite Ej).
    split; [done|]. split.
    - transitivity l2. { rewrite E2, mm_down_perm, swap_perm. done. }
      rewrite <- (take_drop_middle l2 _ _ Hj) at 1. rewrite drop_ge by lia. by rewrite Permutation_app_comm.
    - apply mm_from_take; [|lia]. rewrite E2.
      destruct (decide (i < j)) as [Hij|Hij].
      + apply mm_down_ok; [done|rewrite swap_length; lia|lia|done|].
        intros a c _ Hc Hac Hai. pose proof (anc_lt _ _ Hac). rewrite !swap_at by lia.
        rewrite !(decide_False (P := a = i)) by done. rewrite !(decide_False (P := a = j)) by lia.
        rewrite !(decide_False (P := c = j)) by lia.
        destruct (decide (c = i)) as [->|Hci]; [|apply Hh; [lia|lia|done]].
        (* the last element now sits at i; its only ancestor is the root *)
        assert (a = 0) as ->.
        { destruct Hi0 as [->|Hp]; [lia|]. apply anc_inv in Hac as [->|Hac]; [done|].
          rewrite Hp in Hac. apply anc_lt in Hac. lia. }
        apply (mm_root_min l j); [done|lia].
      + rewrite mm_down_ge by lia. assert (i = j) as -> by lia.
        intros a c _ Hc Hac. pose proof (anc_lt _ _ Hac). rewrite !swap_at by lia.
        rewrite !decide_False by lia. apply Hh; [lia|lia|done].
  Qed.

  (** Remove: always takes the element asked for; the order is kept at a leaf
      and at the three topmost positions. *)
  Lemma mm_remove_at l i : Forall good l -> i < length l ->
    exists l', mm_remove less l i = Val (l !!! i, l') /\ l ≡ₚ (l !!! i) :: l' /\
      (mm_ok l -> i <= 2 \/ length l - 1 <= 2 * i + 1 -> mm_ok l').
  Proof.
    intros Hg Hi. unfold mm_remove. rewrite decide_True by done. set (j := length l - 1).
    destruct (i =? j) eqn:Eij.
    { apply Nat.eqb_eq in Eij. assert (Hj : l !! j = Some (l !!! j)) by (apply lookup_is; lia). rewrite Hj. exists (take j l).
      split; [by rewrite Eij|]. split.
      - rewrite <- (take_drop_middle l j (l !!! j)) at 1; [|done]. rewrite drop_ge by lia. rewrite Eij. by rewrite Permutation_app_comm.
      - intros Hh _. apply mm_from_take; [|lia]. intros a c _ Hc Hac. apply Hh; [lia|lia|done]. }
    apply Nat.eqb_neq in Eij. assert (Hij : i < j) by lia.
    destruct (mm_down less (swap l i j) i j) as [l1 moved] eqn:Ed.
    assert (E1 : l1 = fst (mm_down less (swap l i j) i j)) by (by rewrite Ed).
    assert (Hgs : Forall good (swap l i j)) by (by rewrite swap_perm).
    assert (Hl1 : length l1 = length l) by (by rewrite E1, mm_down_length, swap_length).
    assert (Hp1 : l1 ≡ₚ l) by (rewrite E1, mm_down_perm; apply swap_perm).
    assert (Hj1 : l1 !!! j = l !!! i).
    { rewrite E1, mm_down_out by (rewrite ?swap_length; lia || done). rewrite swap_at by lia. case_decide; [by subst|]. by rewrite decide_True. }
    set (l2 := if moved then l1 else mm_up less l1 i).
    assert (Hp2 : l2 ≡ₚ l) by (unfold l2; destruct moved; [done|by rewrite mm_up_perm]).
    assert (Hl2 : length l2 = length l) by (by rewrite (Permutation_length Hp2)).
    assert (Hj2 : l2 !!! j = l !!! i).
    { unfold l2. destruct moved; [done|]. rewrite mm_up_out by lia. done. }
    assert (Hj : l2 !! j = Some (l !!! i)) by (rewrite lookup_is by lia; by rewrite Hj2).
    rewrite Hj. exists (take j l2). split; [done|]. split.
    - rewrite <- Hp2 at 1. rewrite <- (take_drop_middle l2 _ _ Hj) at 1. rewrite drop_ge by lia. by rewrite Permutation_app_comm.
    - intros Hh Hor. apply mm_from_take; [|lia].
      assert (Hg1 : Forall good l1) by (by rewrite Hp1).
      destruct Hor as [Hi2|Hleaf].
      + assert (Hok : mm_from l1 0 j).
        { rewrite E1. apply mm_down_ok; [done|rewrite swap_length; lia|lia|done|].
          intros a c _ Hc Hac Hai. pose proof (anc_lt _ _ Hac). rewrite !swap_at by lia.
          rewrite !(decide_False (P := a = i)) by done. rewrite !(decide_False (P := a = j)) by lia.
          rewrite !(decide_False (P := c = j)) by lia.
          destruct (decide (c = i)) as [->|Hci]; [|apply Hh; [lia|lia|done]].
          assert (a = 0) as ->.
          { assert (Hpi : par i = 0) by (destruct i as [|[|[|i]]]; [done..|lia]). apply anc_inv in Hac as [->|Hac]; [done|]. rewrite Hpi in Hac. apply anc_lt in Hac. lia. }
          apply (mm_root_min l j); [done|lia]. }
        unfold l2. destruct moved; [done|]. rewrite (mm_up_id l1 j i); [done|lia|done|done].
      + assert (moved = false /\ l1 = swap l i j) as [-> ->].
        { assert (Hn : min_descendent (is_less less) (swap l i j) i j = None /\ min_descendent (is_greater less) (swap l i j) i j = None).
          { unfold min_descendent. rewrite (proj2 (Nat.leb_le _ _)) by lia. done. }
          destruct Hn as [Hn1 Hn2]. unfold mm_down in Ed. cbn [down_x] in Ed. rewrite Hn1, Hn2 in Ed. destruct (lv i); by apply pair_inj in Ed as [<- <-]. }
        unfold l2. apply mm_up_leaf; [done|lia|done|done|].
        intros a c Hc Hac Hci. pose proof (anc_lt _ _ Hac).
        assert (a <> i) by (intros ->; apply anc_child_le in Hac; lia). rewrite !swap_at by lia.
        rewrite !(decide_False (P := a = i)) by done. rewrite !(decide_False (P := a = j)) by lia.
        rewrite !(decide_False (P := c = i)) by done. rewrite !(decide_False (P := c = j)) by lia. apply Hh; [lia|lia|done].
  Qed.

  (** Fix after the element at [i] was replaced: right at the root and at leaves. *)
  Lemma mm_fix_at l i x : Forall good l -> good x -> i < length l ->
    mm_fix less (<[i := x]> l) i ≡ₚ <[i := x]> l /\
    (mm_ok l -> i = 0 \/ length l <= 2 * i + 1 -> mm_ok (mm_fix less (<[i := x]> l) i)).
  Proof.
    intros Hg Hx Hi. set (l0 := <[i := x]> l). assert (Hl0 : length l0 = length l) by (apply insert_length).
    assert (Hg0 : Forall good l0) by (by apply Forall_insert).
    assert (Hat : forall k, k <> i -> l0 !!! k = l !!! k) by (intros k Hk; unfold l0; by rewrite list_lookup_total_insert_ne).
    unfold mm_fix. destruct (mm_down less l0 i (length l0)) as [l1 moved] eqn:Ed.
    assert (E1 : l1 = fst (mm_down less l0 i (length l0))) by (by rewrite Ed).
    assert (Hp1 : l1 ≡ₚ l0) by (rewrite E1; apply mm_down_perm).
    assert (Hl1 : length l1 = length l) by (by rewrite (Permutation_length Hp1)).
    assert (Hp2 : (if moved then l1 else mm_up less l1 i) ≡ₚ l0) by (destruct moved; [done|by rewrite mm_up_perm]).
    split; [done|]. intros Hh Hor. unfold mm_ok. rewrite (Permutation_length Hp2), Hl0.
    destruct Hor as [->|Hleaf].
    - assert (Hok : mm_from l1 0 (length l)).
      { rewrite E1, Hl0. apply mm_down_ok; [done|lia|lia|lia|]. intros a c _ Hc Hac Ha. pose proof (anc_lt _ _ Hac).
        rewrite !Hat by lia. apply Hh; [lia|done|done]. }
      destruct moved; [done|]. rewrite (mm_up_id l1 (length l) 0); [done|lia|done|done].
    - assert (moved = false /\ l1 = l0) as [-> ->].
      { assert (Hn : min_descendent (is_less less) l0 i (length l0) = None /\ min_descendent (is_greater less) l0 i (length l0) = None).
        { unfold min_descendent. rewrite (proj2 (Nat.leb_le _ _)) by lia. done. }
        destruct Hn as [Hn1 Hn2]. unfold mm_down in Ed. cbn [down_x] in Ed. rewrite Hn1, Hn2 in Ed. destruct (lv i); by apply pair_inj in Ed as [<- <-]. }
      apply mm_up_leaf; [done|lia|done|done|]. intros a c Hc Hac Hci.
      assert (a <> i) by (intros ->; apply anc_child_le in Hac; lia). rewrite !Hat by done. apply Hh; [lia|done|done].
  Qed.

  Lemma mm_pop_ok l x l' :
    Forall good l -> mm_ok l -> mm_pop less l = Val (x, l') ->
    l ≡ₚ x :: l' /\ mm_ok l' /\ forall y, y ∈ l -> R true x y.
  Proof.
    intros Hg Hh. unfold mm_pop. destruct l as [|b l0]; [done|]. set (l := b :: l0) in *.
    assert (0 < length l) as Hl by (cbn; lia).
    destruct (remove_at l 0 _ Hg Hh Hl (or_introl eq_refl) eq_refl) as (E & Hp & Hok).
    rewrite E. intros [<- <-]%Val_inj%pair_inj. split_and!; [done..|].
    intros y [i Hi]%elem_of_list_lookup. pose proof (list_lookup_total_correct _ _ _ Hi) as <-.
    apply mm_root_min; [done|]. by apply lookup_lt_Some in Hi.
  Qed.

  Lemma mm_pop_max_ok l x l' :
    Forall good l -> mm_ok l -> mm_pop_max less l = Val (x, l') ->
    l ≡ₚ x :: l' /\ mm_ok l' /\ forall y, y ∈ l -> R false x y.
  Proof.
    intros Hg Hh. unfold mm_pop_max. destruct l as [|b l0]; [done|]. set (l := b :: l0) in *.
    assert (0 < length l) as Hl by (cbn; lia).
    destruct (index_of_max_spec l Hg Hh Hl) as (Hlt & Hrange & Hmax).
    set (i := index_of_max less l (length l)) in *.
    assert (i = 0 \/ par i = 0) as Hi0.
    { destruct Hrange as [?|[? ?]]; [left; lia|right]. assert (i = 1 \/ i = 2) as [-> | ->] by lia; done. }
    destruct (remove_at l i _ Hg Hh Hlt Hi0 eq_refl) as (E & Hp & Hok).
    rewrite E. intros [<- <-]%Val_inj%pair_inj. split_and!; [done..|].
    intros y [k Hk]%elem_of_list_lookup. pose proof (list_lookup_total_correct _ _ _ Hk) as <-.
    apply Hmax. by apply lookup_lt_Some in Hk.
  Qed.

  (** *** Init: positions from 1 on are put in order, the root is not *)
  Lemma mm_init_loop_ok k l n :
    Forall good l -> n = length l -> mm_from l (S k) n ->
    mm_from (mm_init_loop less k l n) 1 n /\ mm_init_loop less k l n !!! 0 = l !!! 0.
  Proof.
    revert l. induction k as [|k IH]; intros l Hg Hn Hh; cbn [mm_init_loop]; [done|].
    destruct (IH (fst (mm_down less l (S k) n))) as [H1 H2].
    - by rewrite mm_down_perm.
    - by rewrite mm_down_length.
    - destruct (decide (S k < n)).
      + apply mm_down_ok; [done|lia|lia|done|]. intros a c Ha Hc Hac Hne. apply Hh; [lia|done|done].
      + rewrite mm_down_ge by lia. intros a c Ha Hc Hac. apply anc_lt in Hac. lia.
    - split; [done|]. rewrite H2. apply mm_down_out; [done|lia|lia].
  Qed.
  Lemma mm_init_from1 l : Forall good l -> mm_from (mm_init less l) 1 (length l) /\ mm_init less l !!! 0 = l !!! 0.
  Proof.
    intros Hg. unfold mm_init. apply mm_init_loop_ok; [done..|].
    intros a c Ha Hc Hac. exfalso. apply anc_child_le in Hac.
    pose proof (Nat.div_mod (length l) 2). pose proof (Nat.mod_upper_bound (length l) 2). lia.
  Qed.
  Lemma mm_init_ok_root_min l :
    Forall good l -> (forall y, y ∈ l -> R true (l !!! 0) y) -> mm_ok (mm_init less l).
  Proof.
    intros Hg Hmin a c _ Hc Hac. rewrite (Permutation_length (mm_init_perm l)) in Hc.
    destruct (mm_init_from1 l Hg) as [H1 H0].
    destruct (decide (a = 0)) as [->|]; [|apply H1; [lia|done|done]].
    rewrite H0. apply Hmin. apply (elem_of_Permutation_proper _ _ _ (mm_init_perm l)).
    apply elem_of_list_lookup_total_2.
    by rewrite (Permutation_length (mm_init_perm l)).
  Qed.
End mmheap.

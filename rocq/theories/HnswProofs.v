(** The structural invariant of the HNSW graph and the rely/guarantee proof
    that searches and inserts keep it, never panic, and block only while
    holding no vertex mutex.  [conc = false] is the sequential case (no other
    thread runs), [conc = true] allows any interference by other inserts. *)
From stdpp Require Export sorting.
From Verif Require Import GoBase FloatModel HeapModel ProgModel StateModel WalModel HnswModel
  ProofBase CodecProofs FloatProofs HeapProofs WpProofs.
Open Scope nat_scope.

Definition max_conn (P : hparams) (l : nat) : nat := match l with O => mMax0 P | _ => hp_mMax P end.

(** Vertex [n] exists and reaches layer [l]. *)
Definition valid (s : st) (l : nat) (n : N) : Prop :=
  exists v, nodes s !! n = Some v /\ l < length (v_conns v).

(** Vertices stay, with their vector and number of layers. *)
Definition ext (s s1 : st) : Prop :=
  forall n v, nodes s !! n = Some v ->
  exists v1, nodes s1 !! n = Some v1 /\ v_vec v1 = v_vec v /\ length (v_conns v1) = length (v_conns v).

Lemma ext_refl s : ext s s.
Proof. intros n v Hn. by exists v. Qed.
Lemma ext_trans s1 s2 s3 : ext s1 s2 -> ext s2 s3 -> ext s1 s3.
Proof.
  intros H1 H2 n v Hn. destruct (H1 n v Hn) as (v1 & Hn1 & Ev1 & El1).
  destruct (H2 n v1 Hn1) as (v2 & Hn2 & Ev2 & El2). exists v2. split; [done|]. split; congruence.
Qed.
Lemma valid_ext s s1 l n : ext s s1 -> valid s l n -> valid s1 l n.
Proof. intros He (v & Hn & Hl). destruct (He n v Hn) as (v1 & Hn1 & _ & El). exists v1. rewrite El. done. Qed.
Lemma valid_le s l l' n : l' <= l -> valid s l n -> valid s l' n.
Proof. intros Hle (v & Hn & Hl). exists v. split; [done|lia]. Qed.

Lemma ext_nonempty s s1 : ext s s1 -> nodes s <> ∅ -> nodes s1 <> ∅.
Proof.
  intros Hx Ha Hb. apply map_choose in Ha as (k & v & Hk). destruct (Hx k v Hk) as (v1 & Hk1 & _).
  rewrite Hb in Hk1. done.
Qed.

(** The part of the collection no index operation but Delete touches. *)
Definition frame (s s1 : st) : Prop :=
  deleted s1 = deleted s /\ wlog s1 = wlog s /\ cnt s1 = cnt s /\ cfile s1 = cfile s /\
  objs s1 = objs s /\ vecs s1 = vecs s /\ chan s1 = chan s /\ closed s1 = closed s.
Lemma frame_refl s : frame s s. Proof. done. Qed.
Lemma frame_trans s1 s2 s3 : frame s1 s2 -> frame s2 s3 -> frame s1 s3.
Proof. intros (?&?&?&?&?&?&?&?) (?&?&?&?&?&?&?&?). repeat split; congruence. Qed.

(** Thread [t] holds no vertex mutex. *)
Definition free (t : nat) (s : st) : Prop := forall n v, nodes s !! n = Some v -> v_lock v <> Some t.

Section inv.
  Context (P : hparams) (conc : bool) (okv : fvec -> Prop) (U : gset N).

  Definition slack : nat := if conc then 1 else 0.
  Definition degb (l : nat) : nat := Nat.max (max_conn P l) (hp_m P + slack).

  Record Inv (s : st) : Prop := MkInv {
    inv_conn : forall n v l cs c, nodes s !! n = Some v -> v_conns v !! l = Some cs -> c ∈ cs -> valid s l c;
    inv_deg : forall n v l cs, nodes s !! n = Some v -> v_conns v !! l = Some cs -> length cs <= degb l;
    inv_vec : forall n v, nodes s !! n = Some v -> okv (v_vec v);
    inv_lev : forall n v, nodes s !! n = Some v -> 0 < length (v_conns v);
    inv_ep : nodes s <> ∅ -> exists v, nodes s !! ep s = Some v /\ length (v_conns v) = S (maxl s);
    inv_once : once s = true -> nodes s <> ∅;
    inv_univ : forall n, is_Some (nodes s !! n) -> n ∈ U
  }.

  (** How the connections of a vertex may change while somebody else holds its
      mutex: its own inserter stores a list of at most M neighbours. *)
  Definition cchange (v v1 : vertex) : Prop :=
    forall l cs1, v_conns v1 !! l = Some cs1 -> v_conns v !! l = Some cs1 \/ length cs1 <= hp_m P.
  Lemma cchange_refl v : cchange v v. Proof. intros l cs. by left. Qed.
  Lemma cchange_trans v1 v2 v3 : cchange v1 v2 -> cchange v2 v3 -> cchange v1 v3.
  Proof. intros H1 H2 l cs Hl. destruct (H2 l cs Hl) as [H|]; [by apply H1|by right]. Qed.

  (** The mutexes held by [t] are not touched by others. *)
  Definition lockrel (t : nat) (s s1 : st) : Prop :=
    (forall n v, nodes s !! n = Some v -> v_lock v = Some t ->
      exists v1, nodes s1 !! n = Some v1 /\ v_lock v1 = Some t /\ cchange v v1) /\
    (forall n v1, nodes s1 !! n = Some v1 -> v_lock v1 = Some t ->
      exists v, nodes s !! n = Some v /\ v_lock v = Some t).
  Lemma lockrel_refl t s : lockrel t s s.
  Proof. split; intros n v Hn Hl; exists v; [|done]. by split_and!; [..|apply cchange_refl]. Qed.
  Lemma lockrel_trans t s1 s2 s3 : lockrel t s1 s2 -> lockrel t s2 s3 -> lockrel t s1 s3.
  Proof.
    intros [F1 B1] [F2 B2]. split; intros n v Hn Hl.
    - destruct (F1 n v Hn Hl) as (v1 & Hn1 & Hl1 & C1). destruct (F2 n v1 Hn1 Hl1) as (v2 & Hn2 & Hl2 & C2).
      exists v2. by split_and!; [..|eapply cchange_trans].
    - destruct (B2 n v Hn Hl) as (v1 & Hn1 & Hl1). by apply (B1 n v1).
  Qed.
  Lemma lockrel_free t s s1 : lockrel t s s1 -> free t s -> free t s1.
  Proof. intros [_ HB] Hf n v Hn Hl. destruct (HB n v Hn Hl) as (v0 & Hn0 & Hl0). by eapply Hf. Qed.

  (** What thread [t], owner of the ids [own], sees of the others. *)
  Record hrely (t : nat) (own : gset N) (s s1 : st) : Prop := MkRely {
    rely_inv : Inv s -> Inv s1;
    rely_ext : ext s s1;
    rely_own : forall id, id ∈ own -> nodes s !! id = None -> nodes s1 !! id = None;
    rely_lock : lockrel t s s1;
    rely_seq : conc = false -> s1 = s
  }.
  Lemma hrely_refl t own s : hrely t own s s.
  Proof. split; try done; [apply ext_refl|apply lockrel_refl]. Qed.
  Lemma hrely_trans t own s1 s2 s3 : hrely t own s1 s2 -> hrely t own s2 s3 -> hrely t own s1 s3.
  Proof.
    intros [I1 X1 O1 L1 Q1] [I2 X2 O2 L2 Q2]. split; [auto|by eapply ext_trans|auto|by eapply lockrel_trans|].
    intros Hc. rewrite (Q2 Hc). auto.
  Qed.

  (** What thread [t] promises to the others. *)
  Record hguar (t : nat) (own : gset N) (s s1 : st) : Prop := MkGuar {
    guar_inv : Inv s1;
    guar_ext : ext s s1;
    guar_own : forall id, nodes s !! id = None -> is_Some (nodes s1 !! id) -> id ∈ own;
    guar_lock : forall t', t' <> t -> lockrel t' s s1;
    guar_frame : frame s s1
  }.
  Lemma hguar_refl t own s : Inv s -> hguar t own s s.
  Proof.
    intros HI. split; [done|apply ext_refl| |intros; apply lockrel_refl|apply frame_refl].
    intros id E [v Hv]. congruence.
  Qed.

  (** A thread waits for a mutex held by another one, holding none itself. *)
  Definition hblk (t : nat) (s : st) : Prop :=
    free t s /\ exists n v t', nodes s !! n = Some v /\ v_lock v = Some t' /\ t' <> t.

  (** ** Preservation of the invariant by state changes *)
  Lemma Inv_same s s1 :
    nodes s1 = nodes s -> ep s1 = ep s -> maxl s1 = maxl s -> (once s1 = true -> once s = true) -> Inv s -> Inv s1.
  Proof.
    intros En Ee Em Eo [H1 H2 H3 H4 H5 H6 H7]. unfold valid in *.
    split; unfold valid; rewrite ?En, ?Ee, ?Em; try done. auto.
  Qed.
  Lemma ext_same s s1 : nodes s1 = nodes s -> ext s s1.
  Proof. intros E n v Hn. exists v. by rewrite E. Qed.
  Lemma lockrel_same t s s1 : nodes s1 = nodes s -> lockrel t s s1.
  Proof.
    intros E. split; intros n v; rewrite ?E; intros Hn Hl; exists v; rewrite ?E; [|done].
    by split_and!; [..|apply cchange_refl].
  Qed.

  Lemma nodes_upd_nonempty (m : gmap N vertex) n v : <[n := v]> m <> ∅.
  Proof. apply insert_non_empty. Qed.

  (** Replacing vertex [n] by one with the same vector and number of layers. *)
  Definition upd (n : N) (v' : vertex) (s : st) : st := set_nodes (<[n := v']> (nodes s)) s.

  Lemma ext_upd s n v v' :
    nodes s !! n = Some v -> v_vec v' = v_vec v -> length (v_conns v') = length (v_conns v) -> ext s (upd n v' s).
  Proof.
    intros Hn Ev El k w Hk. cbn. destruct (decide (k = n)) as [->|Hne].
    - rewrite lookup_insert. exists v'. by simplify_eq.
    - rewrite lookup_insert_ne by done. by exists w.
  Qed.
  Lemma Inv_upd s n v v' :
    Inv s -> nodes s !! n = Some v -> v_vec v' = v_vec v -> length (v_conns v') = length (v_conns v) ->
    (forall l cs, v_conns v' !! l = Some cs -> v_conns v !! l = Some cs \/ (length cs <= degb l /\ Forall (valid s l) cs)) ->
    Inv (upd n v' s).
  Proof.
    intros HI Hn Ev El Hc. pose proof (ext_upd s n v v' Hn Ev El) as He.
    assert (forall k w, nodes (upd n v' s) !! k = Some w -> w = v' /\ k = n \/ k <> n /\ nodes s !! k = Some w) as Hk.
    { intros k w. cbn. destruct (decide (k = n)) as [->|Hne].
      - rewrite lookup_insert. intros [= <-]. by left.
      - rewrite lookup_insert_ne by done. by right. }
    split.
    - intros k w l cs c [[-> ->]|[Hne Hw]]%Hk Hl Hin; eapply valid_ext; try exact He.
      + destruct (Hc l cs Hl) as [Hl0|[_ Hv]]; [by eapply inv_conn|]. by eapply Forall_forall.
      + by eapply inv_conn.
    - intros k w l cs [[-> ->]|[Hne Hw]]%Hk Hl.
      + destruct (Hc l cs Hl) as [Hl0|[Hd _]]; [by eapply inv_deg|done].
      + by eapply inv_deg.
    - intros k w [[-> ->]|[Hne Hw]]%Hk; [rewrite Ev|]; by eapply inv_vec.
    - intros k w [[-> ->]|[Hne Hw]]%Hk; [rewrite El|]; by eapply inv_lev.
    - intros _. destruct (inv_ep s HI) as (w & Hw & Hwl); [intros E; by rewrite E in Hn|].
      destruct (He _ _ Hw) as (w1 & Hw1 & _ & Ew). exists w1. cbn in *. split; [done|congruence].
    - intros _. cbn. apply nodes_upd_nonempty.
    - intros k [w [[-> ->]|[Hne Hw]]%Hk]; eapply inv_univ; eauto.
  Qed.

  (** Adding a vertex without connections. *)
  Lemma ext_add s id v : nodes s !! id = None -> ext s (upd id v s).
  Proof.
    intros Hn k w Hk. cbn. rewrite lookup_insert_ne by (intros ->; congruence). by exists w.
  Qed.
  Lemma init_conns_lookup level l cs : init_conns level !! l = Some cs -> cs = [].
  Proof. unfold init_conns. by intros [-> _]%lookup_replicate. Qed.
  Lemma init_conns_length level : length (init_conns level) = S level.
  Proof. unfold init_conns. rewrite replicate_length. lia. Qed.
  Lemma Inv_add s id level vec :
    Inv s -> nodes s !! id = None -> id ∈ U -> okv vec -> nodes s <> ∅ ->
    Inv (upd id (Vertex (init_conns level) vec None) s).
  Proof.
    intros HI Hn HU Hv Hne. pose proof (ext_add s id (Vertex (init_conns level) vec None) Hn) as He.
    set (v' := Vertex _ _ _) in *.
    assert (forall k w, nodes (upd id v' s) !! k = Some w -> w = v' /\ k = id \/ k <> id /\ nodes s !! k = Some w) as Hk.
    { intros k w. cbn. destruct (decide (k = id)) as [->|Hd].
      - rewrite lookup_insert. intros [= <-]. by left.
      - rewrite lookup_insert_ne by done. by right. }
    split.
    - intros k w l cs c [[-> ->]|[Hd Hw]]%Hk Hl Hin.
      + apply init_conns_lookup in Hl as ->. by apply elem_of_nil in Hin.
      + eapply valid_ext; [exact He|]. by eapply inv_conn.
    - intros k w l cs [[-> ->]|[Hd Hw]]%Hk Hl; [|by eapply inv_deg].
      apply init_conns_lookup in Hl as ->. cbn. lia.
    - intros k w [[-> ->]|[Hd Hw]]%Hk; [done|]. by eapply inv_vec.
    - intros k w [[-> ->]|[Hd Hw]]%Hk; [cbn; rewrite init_conns_length; lia|]. by eapply inv_lev.
    - intros _. destruct (inv_ep s HI Hne) as (w & Hw & Hwl).
      destruct (He _ _ Hw) as (w1 & Hw1 & _ & Ew). exists w1. cbn in *. split; [done|congruence].
    - intros _. cbn. apply nodes_upd_nonempty.
    - intros k [w [[-> ->]|[Hd Hw]]%Hk]; [done|]. eapply inv_univ; eauto.
  Qed.
End inv.

(** ** Popping a heap until it is empty *)
Fixpoint drain (n : nat) (h : list elem) : list elem :=
  match n with
  | O => []
  | S n' => match heap_pop min_less h with Val (e, h') => e :: drain n' h' | _ => [] end
  end.
Definition nearer_eq (a b : elem) : Prop := fltb (e_dist b) (e_dist a) = false.

Lemma drain_perm n h : length h <= n -> drain n h ≡ₚ h.
Proof.
  revert h. induction n as [|n IH]; intros h Hn; cbn [drain].
  { destruct h; [done|cbn in Hn; lia]. }
  destruct h as [|a h]; [done|].
  destruct (heap_pop_some min_less (a :: h)) as (e & h' & Hpop); [done|]. rewrite Hpop.
  rewrite (heap_pop_perm _ _ _ _ Hpop). pose proof (heap_pop_length _ _ _ _ Hpop). cbn in *. rewrite IH; [done|lia].
Qed.
Lemma drain_sorted n h : Forall enum h -> heap_ok min_less h -> StronglySorted nearer_eq (drain n h).
Proof.
  revert h. induction n as [|n IH]; intros h Hg Hok; cbn [drain]; [constructor|].
  destruct (heap_pop min_less h) as [[e h']| |] eqn:Hpop; [|constructor..].
  pose proof (heap_pop_perm _ _ _ _ Hpop) as Pp.
  destruct (heap_pop_ok min_less enum min_less_irr min_less_asym min_less_ntrans _ _ _ Hg Hok Hpop) as (Hok' & _ & Hmin).
  rewrite Pp in Hg. apply Forall_cons in Hg as [_ Hg]. constructor; [by apply IH|].
  apply Forall_forall. intros y Hy. assert (y ∈ h') as Hy'.
  { clear -Hy. revert h' Hy. induction n as [|n IH]; intros h' Hy; cbn [drain] in Hy; [by apply elem_of_nil in Hy|].
    destruct (heap_pop min_less h') as [[e0 h0]| |] eqn:Hp; [|by apply elem_of_nil in Hy..].
    rewrite (heap_pop_perm _ _ _ _ Hp). apply elem_of_cons in Hy as [->|Hy]; [by apply elem_of_list_here|].
    apply elem_of_list_further. by apply IH. }
  apply Hmin. rewrite Pp. by apply elem_of_list_further.
Qed.
Lemma drain_more n h : length h <= n -> drain n h = drain (length h) h.
Proof.
  revert h. induction n as [|n IH]; intros h Hn; [destruct h; [done|cbn in Hn; lia]|].
  destruct h as [|a h]; [done|].
  destruct (heap_pop_some min_less (a :: h)) as (e & h' & Hpop); [done|].
  pose proof (heap_pop_length _ _ _ _ Hpop) as Hl. rewrite Hl. cbn [drain]. rewrite Hpop. f_equal.
  apply IH. cbn in *. lia.
Qed.

Definition live (dels : gset N) (e : elem) : Prop := e_id e ∉ dels.
Global Instance live_dec dels e : Decision (live dels e) := ltac:(unfold live; apply _).

Lemma take_live_ok n h dels k :
  length h <= n -> take_live n h dels k = Val (take k (filter (live dels) (drain n h))).
Proof.
  revert h k. induction n as [|n IH]; intros h k Hn; cbn [take_live drain].
  { destruct h; [by destruct k|cbn in Hn; lia]. }
  destruct h as [|a h]; [by destruct k|].
  destruct k as [|k]; [done|].
  destruct (heap_pop_some min_less (a :: h)) as (e & h' & Hpop); [done|]. rewrite Hpop. cbn [mbind out_bind].
  pose proof (heap_pop_length _ _ _ _ Hpop) as Hl. cbn in Hl.
  case_bool_decide as Hd; rewrite IH by (cbn in *; lia).
  - rewrite filter_cons_False by (unfold live; tauto). done.
  - rewrite filter_cons_True by done. done.
Qed.
Lemma pop_ids_drain n h : n <= length h -> pop_ids n h = Val (take n (e_id <$> drain (length h) h)).
Proof.
  revert h. induction n as [|n IH]; intros h Hn; [done|]. cbn [pop_ids].
  destruct (heap_pop_some min_less h) as (e & h' & Hpop); [by destruct h; [cbn in Hn; lia|]|].
  pose proof (heap_pop_length _ _ _ _ Hpop) as Hl. rewrite Hl. cbn [drain]. rewrite Hpop. cbn [mbind out_bind].
  rewrite IH by lia. done.
Qed.

(** ** Programs *)
Section progs.
  Context (P : hparams) (conc : bool) (okv : fvec -> Prop) (U : gset N).
  Notation Inv := (Inv P conc okv U).
  Notation hrely := (hrely P conc okv U).
  Notation hguar := (hguar P conc okv U).

  Context {L : Type} (tid_of : L -> nat) (own : L -> gset N).
  Context (E : L -> st -> st -> Prop) (GU : L -> st -> L -> st -> Prop) (B : L -> st -> Prop).
  Context (E_refl : forall x s, E x s s).
  Context (E_trans : forall x s1 s2 s3, E x s1 s2 -> E x s2 s3 -> E x s1 s3).
  Context (HE : forall x s s1, E x s s1 -> hrely (tid_of x) (own x) s s1).
  Context (HGU : forall x s s1, Inv s -> hguar (tid_of x) (own x) s s1 -> GU x s x s1).
  Context (HB : forall x s, Inv s -> hblk (tid_of x) s -> B x s).
  Context (Hdist : forall v1 v2, okv v1 -> okv v2 -> exists d, dist P v1 v2 = Val d).
  Context (Hdeg : hp_m P + slack conc <= mMax0 P).

  Notation wp := (wp E GU B).

  Definition nonan : Prop := forall v1 v2 d, okv v1 -> okv v2 -> dist P v1 v2 = Val d -> num d.

  (** [e] is a vertex reaching layer [l], with its true distance to [q]. *)
  Definition evalid (q : fvec) (s : st) (l : nat) (e : elem) : Prop :=
    exists v, nodes s !! e_id e = Some v /\ l < length (v_conns v) /\ dist P (v_vec v) q = Val (e_dist e).
  Lemma evalid_ext q s s1 l e : ext s s1 -> evalid q s l e -> evalid q s1 l e.
  Proof.
    intros He (v & Hn & Hl & Hd). destruct (He _ v Hn) as (v1 & Hn1 & Ev & El).
    exists v1. rewrite El, Ev. done.
  Qed.
  Lemma evalid_le q s l l' e : l' <= l -> evalid q s l e -> evalid q s l' e.
  Proof. intros Hle (v & Hn & Hl & Hd). exists v. split_and!; [done|lia|done]. Qed.
  Lemma evalid_valid q s l e : evalid q s l e -> valid s l (e_id e).
  Proof. intros (v & Hn & Hl & Hd). by exists v. Qed.
  Lemma evalid_num q s l e : Inv s -> okv q -> nonan -> evalid q s l e -> enum e.
  Proof. intros HI Hq Hnn (v & Hn & Hl & Hd). eapply Hnn; [|done..]. by eapply inv_vec. Qed.

  Lemma E_inv x s s1 : E x s s1 -> Inv s -> Inv s1.
  Proof. intros H. by eapply rely_inv, HE. Qed.
  Lemma E_ext x s s1 : E x s s1 -> ext s s1.
  Proof. intros H. by eapply rely_ext, HE. Qed.
  Lemma E_free x s s1 : E x s s1 -> free (tid_of x) s -> free (tid_of x) s1.
  Proof. intros H. eapply lockrel_free. by eapply rely_lock, HE. Qed.
  Lemma E_evalid x s s1 q l e : E x s s1 -> evalid q s l e -> evalid q s1 l e.
  Proof. intros H. eapply evalid_ext. by eapply E_ext. Qed.
  Lemma E_evalids x s s1 q l es : E x s s1 -> Forall (evalid q s l) es -> Forall (evalid q s1 l) es.
  Proof. intros H Hf. eapply Forall_impl; [exact Hf|]. intros e. by eapply E_evalid. Qed.
  Lemma E_valid x s s1 l n : E x s s1 -> valid s l n -> valid s1 l n.
  Proof. intros H. eapply valid_ext. by eapply E_ext. Qed.
  Lemma E_valids x s s1 l ns : E x s s1 -> Forall (valid s l) ns -> Forall (valid s1 l) ns.
  Proof. intros H Hf. eapply Forall_impl; [exact Hf|]. intros e. by eapply E_valid. Qed.

  (** The postcondition of a program that changes nothing. *)
  Definition ro {A} (x : L) (s : st) (Pst : A -> st -> Prop) : L -> out A -> st -> Prop :=
    fun x' r s' => x' = x /\ E x s s' /\ exists a, r = Val a /\ Pst a s'.

  Lemma wp_seq {A C} (p : prog st A) (k : A -> prog st C) (Pst : A -> st -> Prop) Q x s :
    wp p (ro x s Pst) x s ->
    (forall a s1, E x s s1 -> Pst a s1 -> wp (k a) Q x s1) ->
    wp (p ≫= k) Q x s.
  Proof.
    intros Hp Hk. apply wp_bind; [done|]. eapply wp_mono; [|exact Hp].
    intros x' r s' (-> & He & a & -> & Ha). by apply Hk.
  Qed.
  Lemma wp_lift_val {A C} (r : out A) (k : A -> prog st C) (a : A) Q x s :
    r = Val a -> wp (k a) Q x s -> wp (lift r ≫= k) Q x s.
  Proof. intros ->. done. Qed.
  Lemma wp_ro_weaken {A} (p : prog st A) (Pst Pst' : A -> st -> Prop) x s s0 :
    E x s0 s -> (forall a s', E x s s' -> Pst a s' -> Pst' a s') ->
    wp p (ro x s Pst) x s -> wp p (ro x s0 Pst') x s.
  Proof.
    intros H0 HP. apply wp_mono. intros x' r s' (-> & He & a & -> & Ha).
    split_and!; [done|by eapply E_trans|]. exists a. split; [done|]. by apply HP.
  Qed.
  Lemma wp_ro_ret {A} (a : A) (Pst : A -> st -> Prop) x s s0 :
    E x s0 s -> (forall s', E x s s' -> Pst a s') -> wp (mret a) (ro x s0 Pst) x s.
  Proof.
    intros H0 HP s1 He. split_and!; [done|by eapply E_trans|]. exists a. split; [done|by apply HP].
  Qed.

  (** Reading the state. *)
  Lemma wp_read {A C} (f : st -> out A) (k : A -> prog st C) Q x s :
    Inv s ->
    (forall s1, E x s s1 -> Inv s1 -> exists a, f s1 = Val a /\ wp (k a) Q x s1) ->
    wp (act (fun s => (s, f s)) ≫= k) Q x s.
  Proof.
    intros HI Hk. apply wp_bind; [done|]. apply wp_act. intros s1 He. cbn [fst snd].
    assert (Inv s1) as HI1 by by eapply E_inv. exists x. split; [by apply HGU, hguar_refl|].
    intros s3 He3. destruct (Hk s1 He HI1) as (a & -> & Hw). by eapply wp_env.
  Qed.
  Lemma wp_read_vertex {C} n (k : vertex -> prog st C) Q x s :
    Inv s -> (exists v, nodes s !! n = Some v) ->
    (forall v s1, E x s s1 -> Inv s1 -> nodes s1 !! n = Some v -> wp (k v) Q x s1) ->
    wp (read_vertex n ≫= k) Q x s.
  Proof.
    intros HI [v Hv] Hk. unfold read_vertex. apply wp_read; [done|]. intros s1 He HI1.
    destruct (E_ext _ _ _ He n v Hv) as (v1 & Hn1 & _). exists v1. rewrite Hn1. split; [done|]. by apply Hk.
  Qed.
  Lemma wp_read_conns {C} n l (k : list N -> prog st C) Q x s :
    Inv s -> free (tid_of x) s -> valid s l n ->
    (forall cs s1, E x s s1 -> Inv s1 -> Forall (valid s1 l) cs -> length cs <= mMax0 P ->
       (conc = false -> exists v, nodes s1 !! n = Some v /\ v_conns v !! l = Some cs) -> wp (k cs) Q x s1) ->
    wp (read_conns P (tid_of x) n l ≫= k) Q x s.
  Proof.
    intros HI Hf Hv Hk. apply wp_bind; [done|]. unfold read_conns. apply wp_act_lock. intros s1 He.
    assert (Inv s1) as HI1 by by eapply E_inv. assert (valid s1 l n) as (v & Hn & Hl) by by eapply E_valid.
    assert (free (tid_of x) s1) as Hf1 by by eapply E_free.
    rewrite Hn. destruct (v_lock v) as [t'|] eqn:El.
    { apply HB; [done|]. split; [done|]. exists n, v, t'. split_and!; [done..|]. intros ->. by eapply Hf1. }
    destruct (lookup_lt_is_Some_2 _ _ Hl) as [cs Hcs]. rewrite Hcs.
    assert (length cs <= mMax0 P) as Hlen.
    { pose proof (inv_deg _ _ _ _ _ HI1 n v l cs Hn Hcs) as Hd. unfold degb in Hd.
      unfold max_conn, mMax0 in *. destruct l; lia. }
    rewrite decide_True by done. exists x. split; [by apply HGU, hguar_refl|].
    intros s3 He3. eapply wp_env; [exact E_trans|exact He3|]. apply Hk; try done.
    - apply Forall_forall. intros c Hc. by eapply inv_conn.
    - intros _. by exists v.
  Qed.

  (** ** searchLayer *)
  Definition eids (l : list elem) : list N := e_id <$> l.

  (** What holds of the local variables of searchLayer. *)
  Record sl_inv (q : fvec) (eps : list elem) (ef l : nat) (s : st) (x : slstate) : Prop := MkSl {
    sli_ne : sl_near x <> [];
    sli_len : length (sl_near x) <= ef;
    sli_nd : NoDup (eids (sl_near x));
    sli_ev : Forall (evalid q s l) (sl_near x);
    sli_cnd : NoDup (eids (sl_cands x));
    sli_cev : Forall (evalid q s l) (sl_cands x);
    sli_vis : forall e, e ∈ sl_near x \/ e ∈ sl_cands x -> e_id e ∈ sl_visited x;
    sli_dom : forall n, n ∈ sl_visited x -> is_Some (nodes s !! n);
    sli_heap : nonan -> heap_ok max_less (sl_near x);
    sli_best : nonan -> forall e, e ∈ eps -> exists e', e' ∈ sl_near x /\ fltb (e_dist e) (e_dist e') = false
  }.
  Definition meas (x : slstate) : nat := size (U ∖ sl_visited x) + length (sl_cands x).

  Lemma sl_inv_env q eps ef l x s s1 sl : E x s s1 -> sl_inv q eps ef l s sl -> sl_inv q eps ef l s1 sl.
  Proof.
    intros He []. split; try done; try (by eapply E_evalids).
    intros n Hn. destruct (sli_dom0 n Hn) as [v Hv]. destruct (E_ext _ _ _ He n v Hv) as (v1 & -> & _). by eexists.
  Qed.

  Lemma eids_perm (a b : list elem) : a ≡ₚ b -> eids a ≡ₚ eids b.
  Proof. intros H. unfold eids. by rewrite H. Qed.

  Lemma consider_ok q eps ef l s x nid d v :
    Inv s -> okv q -> 1 <= ef ->
    sl_inv q eps ef l s (SL (sl_visited x) (sl_cands x) (sl_near x)) ->
    nid ∉ sl_visited x -> nodes s !! nid = Some v -> l < length (v_conns v) -> dist P (v_vec v) q = Val d ->
    exists x', consider ef nid d (SL ({[nid]} ∪ sl_visited x) (sl_cands x) (sl_near x)) = Val x' /\
      sl_visited x' = {[nid]} ∪ sl_visited x /\
      length (sl_cands x') <= S (length (sl_cands x)) /\
      sl_inv q eps ef l s x'.
  Proof.
    intros HI Hq Hef [Hne Hlen Hnd Hev Hcnd Hcev Hvis Hdom Hheap Hbest] Hnv Hn Hl Hd. cbn [sl_near sl_cands sl_visited] in *.
    set (e := Elem nid d). assert (evalid q s l e) as He by (by exists v).
    assert (forall e, e ∈ sl_near x \/ e ∈ sl_cands x -> e_id e ∈ {[nid]} ∪ sl_visited x) as Hvis'.
    { intros e0 H0. apply elem_of_union_r. by apply Hvis. }
    assert (forall n, n ∈ {[nid]} ∪ sl_visited x -> is_Some (nodes s !! n)) as Hdom'.
    { intros n [->%elem_of_singleton|Hin]%elem_of_union; [by eexists|by apply Hdom]. }
    assert (nid ∉ eids (sl_near x)) as Hnear.
    { intros (e0 & E0 & Hin)%elem_of_list_fmap. apply Hnv. rewrite E0. apply Hvis. by left. }
    assert (nid ∉ eids (sl_cands x)) as Hcands.
    { intros (e0 & E0 & Hin)%elem_of_list_fmap. apply Hnv. rewrite E0. apply Hvis. by right. }
    unfold consider. cbn [sl_near sl_cands sl_visited].
    unfold heap_peek. destruct (last (sl_near x)) as [f|] eqn:Ef; [|by apply last_None in Ef].
    cbn [or_pan mbind out_bind].
    destruct (fltb d (e_dist f) || (length (sl_near x) <? ef)) eqn:Ec.
    2:{ eexists. split; [done|]. cbn [sl_near sl_cands sl_visited]. split_and!; [done|lia|]. by split. }
    pose proof (heap_push_perm min_less (sl_cands x) e) as Pc.
    pose proof (heap_push_perm max_less (sl_near x) e) as Pn.
    fold e. set (near := heap_push max_less (sl_near x) e) in *. set (cands := heap_push min_less (sl_cands x) e) in *.
    assert (NoDup (eids cands)) as Hcnd'.
    { rewrite (eids_perm _ _ Pc). cbn. by constructor. }
    assert (Forall (evalid q s l) cands) as Hcev'.
    { rewrite Pc. by constructor. }
    assert (length cands = S (length (sl_cands x))) as Hclen by (by rewrite (Permutation_length Pc)).
    assert (NoDup (eids near)) as Hnd'.
    { rewrite (eids_perm _ _ Pn). cbn. by constructor. }
    assert (Forall (evalid q s l) near) as Hev'.
    { rewrite Pn. by constructor. }
    assert (length near = S (length (sl_near x))) as Hnlen by (by rewrite (Permutation_length Pn)).
    assert (forall e0, e0 ∈ near \/ e0 ∈ cands -> e_id e0 ∈ {[nid]} ∪ sl_visited x) as Hvis2.
    { intros e0. rewrite Pn, Pc, !elem_of_cons. intros [[->|H0]|[->|H0]].
      - apply elem_of_union_l. by apply elem_of_singleton.
      - apply Hvis'. by left.
      - apply elem_of_union_l. by apply elem_of_singleton.
      - apply Hvis'. by right. }
    assert (forall e0, nonan -> e0 ∈ near -> enum e0) as Hnum.
    { intros e0 Hnn Hin. eapply evalid_num; try done. rewrite Forall_forall in Hev'. by apply Hev'. }
    assert (nonan -> heap_ok max_less near) as Hheap'.
    { intros Hnn. apply (heap_push_ok max_less enum max_less_irr max_less_asym max_less_ntrans); [|..|by apply Hheap].
      - apply Forall_forall. intros e0 Hin. apply Hnum; [done|]. rewrite Pn. by apply elem_of_list_further.
      - apply Hnum; [done|]. rewrite Pn. by apply elem_of_list_here. }
    assert (nonan -> forall e0, e0 ∈ eps -> exists e', e' ∈ near /\ fltb (e_dist e0) (e_dist e') = false) as Hbest'.
    { intros Hnn e0 Hin. destruct (Hbest Hnn e0 Hin) as (e' & H' & Hlt). exists e'. split; [|done].
      rewrite Pn. by apply elem_of_list_further. }
    destruct (ef <? length near) eqn:El.
    - destruct (heap_pop_some max_less near) as (top & near' & Hpop); [intros E0; rewrite E0 in Hnlen; done|].
      rewrite Hpop. cbn [mbind out_bind]. eexists. split; [done|]. cbn [sl_near sl_cands sl_visited].
      pose proof (heap_pop_perm max_less _ _ _ Hpop) as Pp. pose proof (Permutation_length Pp) as Lp. cbn [length] in Lp.
      split_and!; [done|lia|]. split; cbn [sl_near sl_cands sl_visited]; try done.
      + intros ->. cbn [length] in Lp. destruct (sl_near x); [done|]. cbn [length] in *. lia.
      + lia.
      + rewrite (eids_perm _ _ Pp) in Hnd'. cbn in Hnd'. by apply NoDup_cons in Hnd' as [_ ?].
      + rewrite Pp in Hev'. by apply Forall_cons in Hev' as [_ ?].
      + intros e0 [Hin|Hin]; apply Hvis2; [|by right]. left. rewrite Pp. by apply elem_of_list_further.
      + intros Hnn. eapply (heap_pop_ok max_less enum max_less_irr max_less_asym max_less_ntrans); [| |exact Hpop]; [|by apply Hheap'].
        apply Forall_forall. intros e0. by apply Hnum.
      + intros Hnn e0 Hin. destruct (Hbest' Hnn e0 Hin) as (e' & H' & Hlt).
        rewrite Pp, elem_of_cons in H'. destruct H' as [->|H']; [|by exists e'].
        destruct near' as [|b rest]; [exfalso; cbn [length] in *; destruct (sl_near x); [done|]; cbn [length] in *; lia|].
        exists b. split; [by apply elem_of_list_here|].
        destruct (heap_pop_ok max_less enum max_less_irr max_less_asym max_less_ntrans _ _ _
          ltac:(apply Forall_forall; intros e1; by apply Hnum) (Hheap' Hnn) Hpop) as (_ & _ & Hmax).
        assert (b ∈ near) as Hb by (rewrite Pp; apply elem_of_list_further, elem_of_list_here).
        assert (top ∈ near) as Ht by (rewrite Pp; apply elem_of_list_here).
        specialize (Hmax b Hb). unfold le, max_less in Hmax.
        destruct (decide (fltb (e_dist e0) (e_dist b) = true)) as [Hc|Hc]; [|by apply not_true_is_false].
        exfalso. assert (num (e_dist e0)) as Hn0.
        { by apply fltb_num in Hc as [? _]. }
        assert (fltb (e_dist e0) (e_dist b) = false); [|congruence].
        eapply (fltb_ntrans _ (e_dist top)); try done; by apply Hnum.
    - eexists. split; [done|]. cbn [sl_near sl_cands sl_visited]. split_and!; [done|lia|]. split; cbn [sl_near sl_cands sl_visited]; try done.
      + intros E0. rewrite E0 in Hnlen. done.
      + apply Nat.ltb_ge in El. lia.
  Qed.

  Lemma size_visit (vis : gset N) n : n ∈ U -> n ∉ vis -> S (size (U ∖ ({[n]} ∪ vis))) = size (U ∖ vis).
  Proof.
    intros HU Hn. replace (U ∖ ({[n]} ∪ vis)) with ((U ∖ vis) ∖ {[n]}) by set_solver.
    rewrite size_difference by set_solver. rewrite size_singleton.
    assert (size (U ∖ vis) <> 0); [|lia]. intros E0%size_empty_inv. set_solver.
  Qed.

  Lemma wp_visit_conns q eps ef l conns sl x s s0 :
    Inv s -> okv q -> 1 <= ef -> E x s0 s -> Forall (valid s l) conns -> sl_inv q eps ef l s sl ->
    wp (visit_conns P q ef conns sl) (ro x s0 (fun sl' s' => sl_inv q eps ef l s' sl' /\ meas sl' <= meas sl)) x s.
  Proof.
    revert sl s. induction conns as [|nid rest IH]; intros sl s HI Hq Hef H0 Hcs Hsl; cbn [visit_conns].
    { apply wp_ro_ret; [done|]. intros s' He. split; [|done]. by eapply sl_inv_env. }
    apply Forall_cons in Hcs as [Hv Hcs].
    case_bool_decide as Hvis; [by apply IH|].
    destruct (last (sl_near sl)) as [f|] eqn:Ef; [|by apply last_None in Ef; destruct Hsl].
    eapply wp_lift_val; [cbn [sl_near]; unfold heap_peek; by rewrite Ef|].
    apply wp_read_vertex; [done|destruct Hv as (v & ? & _); eauto|].
    intros v s1 He1 HI1 Hn. assert (valid s1 l nid) as (v' & Hn' & Hl) by by eapply E_valid. simplify_eq.
    destruct (Hdist (v_vec v) q) as [d Hd]; [by eapply inv_vec|done|].
    eapply wp_lift_val; [done|].
    destruct (consider_ok q eps ef l s1 sl nid d v) as (sl' & Hc & Ev & El & Hsl'); try done.
    { destruct sl; cbn. by eapply sl_inv_env. }
    eapply wp_lift_val; [exact Hc|].
    eapply wp_mono; [|apply IH; try done; [by eapply E_trans|by eapply E_valids]].
    intros x' r s' (-> & He' & sl2 & -> & Hsl2 & Hm). split_and!; [done..|]. exists sl2. split_and!; [done..|].
    etrans; [exact Hm|]. unfold meas. rewrite Ev. assert (nid ∈ U) by (eapply inv_univ; eauto).
    pose proof (size_visit (sl_visited sl) nid). lia.
  Qed.

  Lemma wp_search_loop fuel q eps ef l sl x s s0 :
    Inv s -> free (tid_of x) s -> okv q -> 1 <= ef -> E x s0 s -> sl_inv q eps ef l s sl -> meas sl <= fuel ->
    wp (search_loop P (tid_of x) fuel q ef l sl) (ro x s0 (fun sl' s' => sl_inv q eps ef l s' sl')) x s.
  Proof.
    revert sl s. induction fuel as [|fuel IH]; intros sl s HI Hf Hq Hef H0 Hsl Hm; cbn [search_loop].
    { destruct (sl_cands sl) as [|c cs] eqn:Ec.
      - apply wp_ro_ret; [done|]. intros s' He. by eapply sl_inv_env.
      - unfold meas in Hm. rewrite Ec in Hm. cbn [length] in Hm. lia. }
    destruct (sl_cands sl) as [|c0 cs0] eqn:Ec.
    { apply wp_ro_ret; [done|]. intros s' He. by eapply sl_inv_env. }
    rewrite <- Ec. destruct (heap_pop_some min_less (sl_cands sl)) as (c & cands & Hpop); [by rewrite Ec|].
    pose proof (heap_pop_perm min_less _ _ _ Hpop) as Pp. pose proof (Permutation_length Pp) as Lp. cbn [length] in Lp.
    eapply wp_lift_val; [exact Hpop|]. cbn beta iota.
    destruct (last (sl_near sl)) as [f|] eqn:Ef; [|by apply last_None in Ef; destruct Hsl].
    eapply wp_lift_val; [unfold heap_peek; by rewrite Ef|].
    assert (sl_inv q eps ef l s (SL (sl_visited sl) cands (sl_near sl))) as Hsl1.
    { destruct Hsl. split; cbn [sl_near sl_cands sl_visited]; try done.
      - rewrite (eids_perm _ _ Pp) in sli_cnd0. cbn in sli_cnd0. by apply NoDup_cons in sli_cnd0 as [_ ?].
      - rewrite Pp in sli_cev0. by apply Forall_cons in sli_cev0 as [_ ?].
      - intros e [Hin|Hin]; apply sli_vis0; [by left|right]. rewrite Pp. by apply elem_of_list_further. }
    assert (evalid q s l c) as Hcv.
    { destruct Hsl. rewrite Forall_forall in sli_cev0. apply sli_cev0. rewrite Pp. by apply elem_of_list_here. }
    destruct (fltb (e_dist f) (e_dist c)).
    { apply wp_ro_ret; [done|]. intros s' He. by eapply sl_inv_env. }
    apply wp_read_conns; [done..|by eapply evalid_valid|]. intros cs s1 He1 HI1 Hcs Hlen _.
    eapply wp_seq; [apply wp_visit_conns; try done; by eapply sl_inv_env|].
    intros sl2 s2 He2 [Hsl2 Hm2]. apply IH; try done.
    - by eapply E_inv.
    - eapply E_free; [done|]. by eapply E_free.
    - eapply E_trans; [done|]. by eapply E_trans.
    - unfold meas in *. cbn [sl_cands sl_visited] in Hm2. lia.
  Qed.

  Lemma wp_search_layer fuel q eps ef l x s s0 :
    Inv s -> free (tid_of x) s -> okv q -> 1 <= ef -> E x s0 s ->
    eps <> [] -> length eps <= ef -> NoDup (eids eps) -> Forall (evalid q s l) eps -> size U <= fuel ->
    wp (search_layer P (tid_of x) fuel q eps ef l)
      (ro x s0 (fun near s' => near <> [] /\ length near <= ef /\ NoDup (eids near) /\ Forall (evalid q s' l) near /\
        (nonan -> heap_ok max_less near) /\
        (nonan -> forall e, e ∈ eps -> exists e', e' ∈ near /\ fltb (e_dist e) (e_dist e') = false))) x s.
  Proof.
    intros HI Hf Hq Hef H0 Hne Hlen Hnd Hev Hfuel. unfold search_layer, new_min_heap_deep, new_max_heap_deep.
    rewrite !decide_True by lia. eapply wp_lift_val; [reflexivity|]. eapply wp_lift_val; [reflexivity|].
    pose proof (heap_init_perm min_less eps) as Pc. pose proof (heap_init_perm max_less eps) as Pn.
    assert (forall e, e ∈ eps -> nonan -> enum e) as Hnum.
    { intros e Hin Hnn. eapply evalid_num; try done. rewrite Forall_forall in Hev. by apply Hev. }
    eapply wp_seq.
    - apply (wp_search_loop fuel q eps ef l); try done.
      + split; cbn [sl_near sl_cands sl_visited].
        * intros E0. rewrite E0 in Pn. by apply Permutation_nil_l in Pn.
        * by rewrite (Permutation_length Pn).
        * by rewrite (eids_perm _ _ Pn).
        * by rewrite Pn.
        * by rewrite (eids_perm _ _ Pc).
        * by rewrite Pc.
        * intros e. rewrite Pn, Pc. intros Hin. apply elem_of_list_to_set, elem_of_list_fmap. exists e. split; [done|by destruct Hin].
        * intros n (e & -> & Hin)%elem_of_list_to_set%elem_of_list_fmap. rewrite Forall_forall in Hev.
          destruct (Hev e Hin) as (v & -> & _). by eexists.
        * intros Hnn. apply (heap_init_ok max_less enum max_less_irr max_less_asym max_less_ntrans).
          apply Forall_forall. intros e Hin. by apply Hnum.
        * intros Hnn e Hin. exists e. split; [by rewrite Pn|apply fltb_irrefl].
      + unfold meas. cbn [sl_cands sl_visited]. rewrite (Permutation_length Pc).
        change (e_id <$> eps) with (eids eps). set (vis := list_to_set (eids eps) : gset N).
        assert (vis ⊆ U) as Hsub.
        { intros n (e & -> & Hin)%elem_of_list_to_set%elem_of_list_fmap. rewrite Forall_forall in Hev.
          destruct (Hev e Hin) as (v & Hn & _). eapply inv_univ; eauto. }
        rewrite size_difference by done. unfold vis. rewrite size_list_to_set by done.
        unfold eids at 1. rewrite fmap_length. apply subseteq_size in Hsub. unfold vis in Hsub.
        rewrite size_list_to_set in Hsub by done. unfold eids in Hsub. rewrite fmap_length in Hsub. lia.
    - intros sl s1 He1 Hsl. apply wp_ro_ret; [by eapply E_trans|]. intros s2 He2.
      pose proof (sl_inv_env _ _ _ _ _ _ _ _ He2 Hsl) as []. done.
  Qed.

  (** ** The greedy descent *)
  Lemma head_single {A} (l : list A) : l <> [] -> length l <= 1 -> exists a, l = [a].
  Proof. destruct l as [|a [|]]; cbn; try done; [by exists a|lia]. Qed.

  Lemma wp_descend fuel q l stop e x s s0 :
    Inv s -> free (tid_of x) s -> okv q -> E x s0 s -> evalid q s l e -> size U <= fuel ->
    wp (descend P (tid_of x) fuel q l stop e)
      (ro x s0 (fun e' s' => evalid q s' (Nat.min l stop) e' /\ (nonan -> fltb (e_dist e) (e_dist e') = false))) x s.
  Proof.
    revert e s s0. induction l as [|l IH]; intros e s s0 HI Hf Hq H0 Hev Hfuel; cbn [descend].
    { apply wp_ro_ret; [done|]. intros s' He. split; [by eapply E_evalid|intros; apply fltb_irrefl]. }
    destruct (stop <? S l) eqn:Es.
    2:{ apply Nat.ltb_ge in Es. apply wp_ro_ret; [done|]. intros s' He. split; [|intros; apply fltb_irrefl].
        rewrite Nat.min_l by lia. by eapply E_evalid. }
    apply Nat.ltb_lt in Es.
    eapply wp_seq.
    { apply wp_search_layer; try done; try (cbn; lia); [|by constructor].
      cbn. constructor; [set_solver|constructor]. }
    intros near s1 He1 (Hne & Hlen & Hnd & Hnv & _ & Hbest). destruct (head_single near Hne Hlen) as [e' ->].
    apply Forall_cons in Hnv as [Hev' _]. cbn [head].
    eapply wp_lift_val; [done|].
    eapply wp_mono; [|apply (IH e' s1 s1); try done].
    - intros x' r s' (-> & He' & e2 & -> & Hev2 & Hb2). split_and!; [done|eapply E_trans; [done|]; by eapply E_trans|]. exists e2. split; [done|].
      rewrite Nat.min_r in * by lia. split; [done|]. intros Hnn.
      destruct (Hbest Hnn e) as (e3 & ->%elem_of_list_singleton & Hb3); [by apply elem_of_list_here|].
      assert (Inv s1) as HI1 by (by eapply E_inv). assert (Inv s') as HI' by (by eapply E_inv).
      assert (enum e /\ enum e' /\ enum e2) as (? & ? & ?).
      { split_and!; [eapply (evalid_num q s)|eapply (evalid_num q s1)|eapply (evalid_num q s')]; done. }
      eapply fltb_ntrans; [..|exact Hb3|by apply Hb2]; done.
    - by eapply E_inv.
    - by eapply E_free.
    - eapply evalid_le; [|done]. lia.
  Qed.

  (** ** Neighbour selection *)
  Lemma wp_heur_check e result x s s0 :
    Inv s -> E x s0 s -> (exists v, nodes s !! e_id e = Some v) -> Forall (fun r => exists v, nodes s !! r = Some v) result ->
    wp (heur_check P e result) (ro x s0 (fun _ _ => True)) x s.
  Proof.
    revert s. induction result as [|r rest IH]; intros s HI H0 [ev He] Hr; cbn [heur_check].
    { by apply wp_ro_ret. }
    apply Forall_cons in Hr as [[rv Hrv] Hr].
    apply wp_read; [done|]. intros s1 He1 HI1.
    destruct (E_ext _ _ _ He1 _ _ He) as (ev1 & Hev1 & _). destruct (E_ext _ _ _ He1 _ _ Hrv) as (rv1 & Hrv1 & _).
    exists (ev1, rv1). rewrite Hev1, Hrv1. split; [done|].
    destruct (Hdist (v_vec ev1) (v_vec rv1)) as [d Hd]; [by eapply inv_vec..|].
    eapply wp_lift_val; [done|]. destruct (fltb d (e_dist e)).
    - apply wp_ro_ret; [by eapply E_trans|done].
    - apply IH; [done|by eapply E_trans|by eexists|].
      eapply Forall_impl; [exact Hr|]. intros n [v Hv]. destruct (E_ext _ _ _ He1 _ _ Hv) as (v1 & ? & _). by exists v1.
  Qed.

  Definition present (s : st) (n : N) : Prop := exists v, nodes s !! n = Some v.
  Lemma present_ext s s1 n : ext s s1 -> present s n -> present s1 n.
  Proof. intros He [v Hv]. destruct (He _ _ Hv) as (v1 & ? & _). by exists v1. Qed.
  Lemma E_present x s s1 n : E x s s1 -> present s n -> present s1 n.
  Proof. intros He. eapply present_ext. by eapply E_ext. Qed.

  Lemma wp_heur_loop n q m result x s s0 :
    Inv s -> E x s0 s -> Forall (present s) (eids q) -> Forall (present s) result -> length q <= n -> length result <= m ->
    wp (heur_loop P n q m result)
      (ro x s0 (fun res _ => length res <= m /\ forall i, i ∈ res -> i ∈ result \/ i ∈ eids q)) x s.
  Proof.
    revert q result s. induction n as [|n IH]; intros q result s HI H0 Hq Hr Hlen Hm; cbn [heur_loop].
    { destruct q; [|cbn in Hlen; lia]. apply wp_ro_ret; [done|]. intros s' _. split; [done|by left]. }
    destruct q as [|e0 q0].
    { apply wp_ro_ret; [done|]. intros s' _. split; [done|by left]. }
    set (q := e0 :: q0) in *. assert (q <> []) as Hne by done. clearbody q. clear e0 q0.
    destruct (length result <? m) eqn:El.
    2:{ apply wp_ro_ret; [done|]. intros s' _. split; [done|by left]. }
    apply Nat.ltb_lt in El.
    destruct (heap_pop_some min_less q) as (e & q' & Hpop); [done|].
    pose proof (heap_pop_perm min_less _ _ _ Hpop) as Pp. pose proof (Permutation_length Pp) as Lp. cbn [length] in Lp.
    eapply wp_lift_val; [exact Hpop|]. cbn beta iota.
    rewrite (eids_perm _ _ Pp) in Hq. cbn in Hq. apply Forall_cons in Hq as [He Hq].
    eapply wp_seq; [by apply wp_heur_check|].
    intros ok s1 He1 _.
    eapply wp_mono; [|apply (IH q' (if ok then result ++ [e_id e] else result))].
    - intros x' r s' (-> & He' & res & -> & Hl & Hin). split_and!; [done..|]. exists res. split_and!; [done..|].
      intros i Hi. rewrite (eids_perm _ _ Pp). cbn. rewrite elem_of_cons.
      destruct (Hin i Hi) as [Hi'|Hi']; [|by auto]. destruct ok; [|by auto].
      apply elem_of_app in Hi' as [?|Hs]; [by auto|]. apply elem_of_list_singleton in Hs as ->. auto.
    - by eapply E_inv.
    - by eapply E_trans.
    - eapply Forall_impl; [exact Hq|]. intros i. by eapply E_present.
    - assert (Forall (present s1) result) by (eapply Forall_impl; [exact Hr|]; intros i; by eapply E_present).
      destruct ok; [|done]. apply Forall_app. split; [done|]. constructor; [|done]. by eapply E_present.
    - lia.
    - destruct ok; [|lia]. rewrite app_length. cbn. lia.
  Qed.

  Lemma pop_ids_ok n h : n <= length h ->
    exists ids, pop_ids n h = Val ids /\ length ids = n /\ forall i, i ∈ ids -> i ∈ eids h.
  Proof.
    revert h. induction n as [|n IH]; intros h Hn; cbn [pop_ids].
    { exists []. split_and!; try done. intros i Hi. by apply elem_of_nil in Hi. }
    destruct (heap_pop_some min_less h) as (e & h' & Hpop); [by destruct h; [cbn in Hn; lia|]|].
    pose proof (heap_pop_perm min_less _ _ _ Hpop) as Pp. pose proof (Permutation_length Pp) as Lp. cbn [length] in Lp.
    rewrite Hpop. cbn [mbind out_bind]. destruct (IH h') as (ids & -> & Hl & Hin); [lia|]. cbn [mbind out_bind].
    exists (e_id e :: ids). split_and!; [done|cbn; lia|]. intros i. rewrite (eids_perm _ _ Pp). cbn.
    rewrite !elem_of_cons. intros [->|Hi]; auto.
  Qed.

  Lemma wp_select_neighbors cands m x s s0 :
    Inv s -> E x s0 s -> Forall (present s) (eids cands) ->
    wp (select_neighbors P cands m)
      (ro x s0 (fun res _ => length res <= m /\ forall i, i ∈ res -> i ∈ eids cands)) x s.
  Proof.
    intros HI H0 Hc. unfold select_neighbors. destruct (hp_heuristic P).
    - unfold select_heuristic. pose proof (heap_init_perm min_less cands) as Pp.
      eapply wp_mono; [|apply (wp_heur_loop (length cands)); try done].
      + intros x' r s' (-> & He & res & -> & Hl & Hin). split_and!; [done..|]. exists res. split_and!; [done..|].
        intros i Hi. destruct (Hin i Hi) as [Hn|Hi']; [by apply elem_of_nil in Hn|]. by rewrite (eids_perm _ _ Pp) in Hi'.
      + by rewrite (eids_perm _ _ Pp).
      + by rewrite (Permutation_length Pp).
      + cbn. lia.
    - unfold select_simple. pose proof (heap_init_perm min_less cands) as Pp.
      destruct (pop_ids_ok (Nat.min m (length cands)) (heap_init min_less cands)) as (ids & -> & Hl & Hin).
      { rewrite (Permutation_length Pp). lia. }
      apply wp_ro_ret; [done|]. intros s' _. split; [lia|]. intros i Hi. apply Hin in Hi. by rewrite (eids_perm _ _ Pp) in Hi.
  Qed.

  Lemma wp_conn_elems base cs x s s0 :
    Inv s -> E x s0 s -> okv base -> Forall (present s) cs ->
    wp (conn_elems P base cs) (ro x s0 (fun es _ => eids es = cs)) x s.
  Proof.
    revert s s0. induction cs as [|c cs IH]; intros s s0 HI H0 Hb Hc; cbn [conn_elems].
    { by apply wp_ro_ret. }
    apply Forall_cons in Hc as [Hp Hc]. apply wp_read_vertex; [done..|]. intros v s1 He1 HI1 Hn.
    destruct (Hdist base (v_vec v)) as [d Hd]; [done|by eapply inv_vec|]. eapply wp_lift_val; [done|].
    eapply wp_seq; [apply IH; try done|].
    - eapply Forall_impl; [exact Hc|]. intros i. by eapply E_present.
    - intros es s2 He2 Hes. apply wp_ro_ret; [eapply E_trans; [done|]; by eapply E_trans|]. intros s3 _. cbn. by rewrite <- Hes.
  Qed.

  (** ** Writing steps *)
  (** The postcondition of a program that may change the graph. *)
  Definition wr {A} (x : L) (s : st) (Pst : A -> st -> Prop) : L -> out A -> st -> Prop :=
    fun x' r s' => x' = x /\ Inv s' /\ ext s s' /\ exists a, r = Val a /\ Pst a s'.

  Lemma wp_wseq {A C} (p : prog st A) (k : A -> prog st C) (Pst : A -> st -> Prop) Q x s :
    wp p (wr x s Pst) x s ->
    (forall a s1, Inv s1 -> ext s s1 -> Pst a s1 -> wp (k a) Q x s1) ->
    wp (p ≫= k) Q x s.
  Proof.
    intros Hp Hk. apply wp_bind; [done|]. eapply wp_mono; [|exact Hp].
    intros x' r s' (-> & HI & He & a & -> & Ha). by apply Hk.
  Qed.
  Lemma wp_wr_ret {A} (a : A) (Pst : A -> st -> Prop) x s s0 :
    Inv s -> ext s0 s -> (forall s', E x s s' -> Pst a s') -> wp (mret a) (wr x s0 Pst) x s.
  Proof.
    intros HI H0 HP s1 He. split_and!; [done|by eapply E_inv|eapply ext_trans; [done|by eapply E_ext]|].
    exists a. split; [done|by apply HP].
  Qed.

  Lemma wp_wal_write {C} data d (k : unit -> prog st C) Q x s :
    data = Val d -> Inv s ->
    (forall s1, E x s s1 -> forall s2, E x (wal_append d s1) s2 -> wp (k tt) Q x s2) ->
    wp (wal_write data ≫= k) Q x s.
  Proof.
    intros -> HI Hk. apply wp_bind; [done|]. cbn [wal_write]. apply wp_act. intros s1 He. cbn [fst snd].
    exists x. split.
    - apply HGU; [by eapply E_inv|]. split.
      + assert (Inv s1) as HI1 by by eapply E_inv. eapply Inv_same; [..|exact HI1]; done.
      + by apply ext_same.
      + intros id E0 [v Hv]. cbn in Hv. congruence.
      + intros t' _. by apply lockrel_same.
      + done.
    - intros s3 He3. by eapply Hk.
  Qed.

  (** Thread [t] holds the mutex of [n], whose layer-[l] list is [cs] unless
      its own inserter has stored at most M neighbours meanwhile. *)
  Definition holding (t : nat) (n : N) (l : nat) (cs : list N) (s : st) : Prop :=
    exists v cs1, nodes s !! n = Some v /\ v_lock v = Some t /\ v_conns v !! l = Some cs1 /\
      (cs1 = cs \/ (conc = true /\ length cs1 <= hp_m P)) /\
      forall k w, nodes s !! k = Some w -> v_lock w = Some t -> k = n.

  Lemma holding_env x n l cs s s1 : E x s s1 -> holding (tid_of x) n l cs s -> holding (tid_of x) n l cs s1.
  Proof.
    intros He (v & cs1 & Hn & Hl & Hc & Hcs & Honly). destruct (HE _ _ _ He) as [_ HX _ HL Hseq].
    destruct (decide (conc = true)) as [Ec|Ec%not_true_is_false].
    2:{ rewrite (Hseq Ec). by exists v, cs1. }
    destruct HL as [HF HBw]. destruct (HF n v Hn Hl) as (v1 & Hn1 & Hl1 & Hcc).
    destruct (HX n v Hn) as (v1' & Hn1' & _ & Elen). simplify_eq.
    destruct (lookup_lt_is_Some_2 (v_conns v1) l) as [cs2 Hcs2]; [rewrite Elen; by eapply lookup_lt_Some|].
    exists v1, cs2. split_and!; [done..| |].
    - destruct (Hcc l cs2 Hcs2) as [Heq|Hm]; [|by right]. simplify_eq. done.
    - intros k w Hk Hw. destruct (HBw k w Hk Hw) as (w0 & Hk0 & Hw0). by eapply Honly.
  Qed.
  Lemma holding_same t n l cs s s1 : nodes s1 = nodes s -> holding t n l cs s -> holding t n l cs s1.
  Proof. unfold holding. by intros ->. Qed.

  (** Facts about storing a new version of one vertex. *)
  Lemma lockrel_upd t s n v v' :
    nodes s !! n = Some v -> (v_lock v = Some t -> v_lock v' = Some t /\ cchange P v v') ->
    (v_lock v' = Some t -> v_lock v = Some t) -> lockrel P t s (upd n v' s).
  Proof.
    intros Hn H1 H2. split; intros k w; cbn.
    - intros Hk Hl. destruct (decide (k = n)) as [->|Hne].
      + rewrite lookup_insert. simplify_eq. exists v'. split; [done|]. by apply H1.
      + rewrite lookup_insert_ne by done. exists w. split_and!; [done..|apply cchange_refl].
    - destruct (decide (k = n)) as [->|Hne].
      + rewrite lookup_insert. intros [= <-] Hl. exists v. by auto.
      + rewrite lookup_insert_ne by done. intros Hk Hl. by exists w.
  Qed.
  Lemma guar_upd t o s n v v' :
    Inv s -> nodes s !! n = Some v -> v_vec v' = v_vec v -> length (v_conns v') = length (v_conns v) ->
    (forall l cs, v_conns v' !! l = Some cs -> v_conns v !! l = Some cs \/ (length cs <= degb P conc l /\ Forall (valid s l) cs)) ->
    (forall t', t' <> t -> lockrel P t' s (upd n v' s)) ->
    hguar t o s (upd n v' s).
  Proof.
    intros HI Hn Ev El Hc Hlk. split; [by eapply Inv_upd|by eapply ext_upd| |done|done].
    intros id E0 [w Hw]. cbn in Hw. rewrite lookup_insert_ne in Hw by (intros ->; congruence). congruence.
  Qed.

  Lemma wp_lock_conns {C} n l (k : vertex * list N -> prog st C) Q x s :
    Inv s -> free (tid_of x) s -> valid s l n ->
    (forall v cs s1, Inv s1 -> ext s s1 -> holding (tid_of x) n l cs s1 -> okv (v_vec v) ->
       Forall (valid s1 l) cs -> wp (k (v, cs)) Q x s1) ->
    wp (lock_conns (tid_of x) n l ≫= k) Q x s.
  Proof.
    intros HI Hf Hv Hk. apply wp_bind; [done|]. unfold lock_conns. apply wp_act_lock. intros s1 He.
    assert (Inv s1) as HI1 by by eapply E_inv. assert (valid s1 l n) as (v & Hn & Hl) by by eapply E_valid.
    assert (free (tid_of x) s1) as Hf1 by by eapply E_free.
    rewrite Hn. destruct (v_lock v) as [t'|] eqn:El.
    { apply HB; [done|]. split; [done|]. exists n, v, t'. split_and!; [done..|]. intros ->. by eapply Hf1. }
    destruct (lookup_lt_is_Some_2 _ _ Hl) as [cs Hcs]. rewrite Hcs.
    set (v' := Vertex (v_conns v) (v_vec v) (Some (tid_of x))). change (set_nodes _ s1) with (upd n v' s1).
    assert (hguar (tid_of x) (own x) s1 (upd n v' s1)) as Hg.
    { eapply guar_upd; try done; [by left|]. intros t' Hne. eapply lockrel_upd; [done|..]; cbn; congruence. }
    exists x. split; [by apply HGU|]. intros s3 He3.
    assert (ext s1 (upd n v' s1)) as Hx1 by by eapply guar_ext.
    apply Hk.
    - eapply E_inv; [done|]. by eapply guar_inv.
    - eapply ext_trans; [by eapply E_ext|]. eapply ext_trans; [done|by eapply E_ext].
    - eapply holding_env; [done|]. exists v', cs. cbn. rewrite lookup_insert. split_and!; try done; [by left|].
      intros k0 w Hk0 Hw. destruct (decide (k0 = n)) as [|Hne]; [done|]. rewrite lookup_insert_ne in Hk0 by done.
      exfalso. by eapply Hf1.
    - cbn. by eapply inv_vec.
    - eapply E_valids; [done|]. apply Forall_forall. intros c Hc. eapply valid_ext; [done|]. by eapply inv_conn.
  Qed.

  (** Releasing the mutex while storing a new list. *)
  Lemma wp_unlock_upd (f : vertex -> out vertex) n l cs x s s0 (g : list N -> list N) :
    Inv s -> ext s0 s -> holding (tid_of x) n l cs s ->
    (forall v cs1, v_conns v !! l = Some cs1 -> f v = Val (Vertex (<[l := g cs1]> (v_conns v)) (v_vec v) (v_lock v))) ->
    (forall s1 cs1, E x s s1 -> Inv s1 -> (cs1 = cs \/ (conc = true /\ length cs1 <= hp_m P)) ->
       Forall (valid s1 l) cs1 -> length (g cs1) <= degb P conc l /\ Forall (valid s1 l) (g cs1)) ->
    wp (act (fun s =>
      match nodes s !! n with
      | None => (s, Pan PNil)
      | Some v =>
          match f v with
          | Val v' => (set_nodes (<[n := Vertex (v_conns v') (v_vec v') None]> (nodes s)) s, Val tt)
          | Err e => (s, Err e)
          | Pan p => (s, Pan p)
          end
      end)) (wr x s0 (fun _ s' => free (tid_of x) s')) x s.
  Proof.
    intros HI H0 Hh Hf Hg. apply wp_act. intros s1 He.
    assert (Inv s1) as HI1 by by eapply E_inv.
    destruct (holding_env _ _ _ _ _ _ He Hh) as (v & cs1 & Hn & Hl & Hc & Hcs & Honly).
    rewrite Hn, (Hf v cs1 Hc). cbn [v_conns v_vec fst snd].
    set (v' := Vertex (<[l := g cs1]> (v_conns v)) (v_vec v) None). change (set_nodes _ s1) with (upd n v' s1).
    destruct (Hg s1 cs1 He HI1 Hcs) as [Hlen Hval].
    { apply Forall_forall. intros c Hin. by eapply inv_conn. }
    assert (hguar (tid_of x) (own x) s1 (upd n v' s1)) as Hgu.
    { eapply guar_upd; try done; cbn.
      - by rewrite insert_length.
      - intros l0 cs0 Hl0. destruct (decide (l0 = l)) as [->|Hne].
        + rewrite list_lookup_insert in Hl0 by (by eapply lookup_lt_Some). simplify_eq. by right.
        + rewrite list_lookup_insert_ne in Hl0 by done. by left.
      - intros t' Hne. eapply lockrel_upd; [done|..]; cbn; congruence. }
    exists x. split; [by apply HGU|]. intros s3 He3. split_and!; [done|eapply E_inv; [done|by eapply guar_inv]| |].
    - eapply ext_trans; [done|]. eapply ext_trans; [by eapply E_ext|]. eapply ext_trans; [by eapply guar_ext|by eapply E_ext].
    - exists tt. split; [done|]. eapply E_free; [done|]. intros k w Hk Hw. cbn in Hk.
      destruct (decide (k = n)) as [->|Hne].
      + rewrite lookup_insert in Hk. by simplify_eq.
      + rewrite lookup_insert_ne in Hk by done. by apply Hne, (Honly k w).
  Qed.

  Lemma valids_present s l ns : Forall (valid s l) ns -> Forall (present s) ns.
  Proof. intros H. eapply Forall_impl; [exact H|]. intros n (v & Hn & _). by exists v. Qed.

  Lemma wp_link_one id vec l n x s s0 :
    Inv s -> ext s0 s -> free (tid_of x) s -> okv vec -> valid s l n -> valid s l id ->
    wp (link_one P (tid_of x) id vec l (max_conn P l) n) (wr x s0 (fun _ s' => free (tid_of x) s')) x s.
  Proof.
    intros HI H0 Hf Hvec Hn Hid. unfold link_one. apply wp_lock_conns; [done..|].
    intros v cs s1 HI1 Hx1 Hh1 Hv1 Hcs1. cbn beta iota.
    assert (valid s1 l id) as Hid1 by by eapply valid_ext.
    destruct (length cs <? max_conn P l) eqn:El.
    - apply Nat.ltb_lt in El. eapply wp_wal_write; [by rewrite enc_add_conn_eq|done|].
      intros s2 He2 s3 He3. unfold add_conn_unlock.
      assert (Inv s2) as HI2 by by eapply E_inv.
      assert (Inv s3) as HI3. { eapply E_inv; [done|]. eapply Inv_same; [..|exact HI2]; done. }
      assert (ext s1 s3) as Hx3.
      { apply (ext_trans _ _ _ (E_ext _ _ _ He2)). eapply ext_trans; [|exact (E_ext _ _ _ He3)]. by apply ext_same. }
      apply (wp_unlock_upd (fun v => vertex_add_conn v l id) n l cs x s3 s0 (fun cs => cs ++ [id])); [done|..].
      + eapply ext_trans; [done|]. by eapply ext_trans.
      + apply (holding_env _ _ _ _ _ _ He3). apply (holding_same _ _ _ _ s2); [done|]. exact (holding_env _ _ _ _ _ _ He2 Hh1).
      + intros v0 cs0 Hl0. unfold vertex_add_conn. by rewrite Hl0.
      + intros s4 cs4 He4 HI4 Hcs4 Hval. rewrite app_length. cbn [length]. split.
        * unfold degb, slack. destruct Hcs4 as [->|[-> Hm]]; lia.
        * apply Forall_app. split; [done|]. constructor; [|done]. eapply E_valid; [done|]. by eapply valid_ext.
    - destruct (Hdist (v_vec v) vec) as [d Hd]; [done..|]. eapply wp_lift_val; [done|].
      eapply wp_seq; [apply wp_conn_elems; try done; by eapply valids_present|].
      intros es s2 He2 Hes.
      assert (Inv s2) as HI2 by by eapply E_inv.
      assert (Forall (valid s2 l) (id :: cs)) as Hval2.
      { constructor; [by eapply E_valid|by eapply E_valids]. }
      eapply wp_seq.
      { apply wp_select_neighbors; try done. change (eids (Elem id d :: es)) with (id :: eids es). rewrite Hes. by eapply valids_present. }
      intros ns s3 He3 [Hlen Hin].
      assert (Inv s3) as HI3 by by eapply E_inv.
      assert (Forall (valid s3 l) ns) as Hns.
      { apply Forall_forall. intros i Hi%Hin. change (eids (Elem id d :: es)) with (id :: eids es) in Hi. rewrite Hes in Hi. rewrite Forall_forall in Hval2.
        eapply E_valid; [done|]. by apply Hval2. }
      destruct (enc_set_conns n l ns) as [r| |] eqn:Er; [|by rewrite enc_set_conns_eq in Er..].
      eapply wp_wal_write; [done..|].
      intros s4 He4 s5 He5. unfold set_conns_unlock.
      assert (Inv s4) as HI4 by by eapply E_inv.
      assert (Inv s5) as HI5. { eapply E_inv; [done|]. eapply Inv_same; [..|exact HI4]; done. }
      assert (ext s3 s5) as Hx5.
      { apply (ext_trans _ _ _ (E_ext _ _ _ He4)). eapply ext_trans; [|exact (E_ext _ _ _ He5)]. by apply ext_same. }
      apply (wp_unlock_upd (fun v => vertex_set_conns v l ns) n l cs x s5 s0 (fun _ => ns)); [done|..].
      + eapply ext_trans; [done|]. apply (ext_trans _ _ _ Hx1). apply (ext_trans _ _ _ (E_ext _ _ _ He2)).
        exact (ext_trans _ _ _ (E_ext _ _ _ He3) Hx5).
      + apply (holding_env _ _ _ _ _ _ He5). apply (holding_same _ _ _ _ s4); [done|].
        apply (holding_env _ _ _ _ _ _ He4), (holding_env _ _ _ _ _ _ He3). exact (holding_env _ _ _ _ _ _ He2 Hh1).
      + intros v0 cs0 Hl0. unfold vertex_set_conns. by rewrite Hl0.
      + intros s6 cs6 He6 HI6 _ _. split; [unfold degb; lia|]. eapply E_valids; [done|].
        eapply Forall_impl; [exact Hns|]. intros i. by eapply valid_ext.
  Qed.

  Lemma wp_link_all id vec l ns x s s0 :
    Inv s -> ext s0 s -> free (tid_of x) s -> okv vec -> Forall (valid s l) ns -> valid s l id ->
    wp (link_all P (tid_of x) id vec l (max_conn P l) ns) (wr x s0 (fun _ s' => free (tid_of x) s')) x s.
  Proof.
    revert s. induction ns as [|n ns IH]; intros s HI H0 Hf Hvec Hns Hid; cbn [link_all].
    { apply wp_wr_ret; [done..|]. intros s' He. by eapply E_free. }
    apply Forall_cons in Hns as [Hn Hns].
    eapply wp_wseq; [apply wp_link_one; try done; apply ext_refl|]. intros [] s1 HI1 Hx1 Hf1.
    apply IH; try done; [by eapply ext_trans| |by eapply valid_ext].
    eapply Forall_impl; [exact Hns|]. intros i. by eapply valid_ext.
  Qed.

  (** insert.go:75: the unlocked store into the new vertex. *)
  Lemma wp_set_conns_unlocked {C} id l ns (k : unit -> prog st C) Q x s :
    Inv s -> free (tid_of x) s -> valid s l id -> Forall (valid s l) ns -> length ns <= hp_m P ->
    (forall s1, Inv s1 -> ext s s1 -> free (tid_of x) s1 -> wp (k tt) Q x s1) ->
    wp (set_conns_unlocked id l ns ≫= k) Q x s.
  Proof.
    intros HI Hf Hid Hns Hlen Hk. apply wp_bind; [done|]. apply wp_act. intros s1 He.
    assert (Inv s1) as HI1 by by eapply E_inv. assert (free (tid_of x) s1) as Hf1 by by eapply E_free.
    assert (valid s1 l id) as (v & Hn & Hl) by by eapply E_valid.
    destruct (lookup_lt_is_Some_2 _ _ Hl) as [cs Hcs]. rewrite Hn. unfold vertex_set_conns. rewrite Hcs.
    cbn [or_pan mbind out_bind fst snd].
    set (v' := Vertex _ _ _). change (set_nodes _ s1) with (upd id v' s1).
    assert (hguar (tid_of x) (own x) s1 (upd id v' s1)) as Hg.
    { eapply guar_upd; try done; cbn.
      - by rewrite insert_length.
      - intros l0 cs0 Hl0. destruct (decide (l0 = l)) as [->|Hne].
        + rewrite list_lookup_insert in Hl0 by done. simplify_eq. right. split; [unfold degb; lia|]. by eapply E_valids.
        + rewrite list_lookup_insert_ne in Hl0 by done. by left.
      - intros t' Hne. eapply lockrel_upd; [done| |done]. cbn. intros Hlk. split; [done|].
        intros l0 cs0 Hl0. cbn in Hl0. destruct (decide (l0 = l)) as [->|Hne0].
        + rewrite list_lookup_insert in Hl0 by done. simplify_eq. by right.
        + rewrite list_lookup_insert_ne in Hl0 by done. by left. }
    exists x. split; [by apply HGU|]. intros s3 He3. apply Hk.
    - eapply E_inv; [done|]. by eapply guar_inv.
    - apply (ext_trans _ _ _ (E_ext _ _ _ He)). eapply ext_trans; [by eapply guar_ext|exact (E_ext _ _ _ He3)].
    - apply (E_free _ _ _ He3). intros k0 w Hk0 Hw. cbn in Hk0. destruct (decide (k0 = id)) as [->|Hne].
      + rewrite lookup_insert in Hk0. simplify_eq. by apply (Hf1 id v).
      + rewrite lookup_insert_ne in Hk0 by done. by apply (Hf1 k0 w).
  Qed.

  Lemma evalids_valids q s l es : Forall (evalid q s l) es -> Forall (valid s l) (eids es).
  Proof.
    intros H. apply Forall_fmap. eapply Forall_impl; [exact H|]. intros e. apply evalid_valid.
  Qed.
  Lemma evalids_ext q s s1 l es : ext s s1 -> Forall (evalid q s l) es -> Forall (evalid q s1 l) es.
  Proof. intros Hx H. eapply Forall_impl; [exact H|]. intros e. by apply evalid_ext. Qed.

  Lemma wp_construct_layer {C} fuel id vec l eps (k : list elem -> prog st C) Q x s :
    1 <= hp_efc P -> Inv s -> free (tid_of x) s -> okv vec -> valid s l id ->
    eps <> [] -> length eps <= hp_efc P -> NoDup (eids eps) -> Forall (evalid vec s l) eps -> size U <= fuel ->
    (forall near s1, Inv s1 -> ext s s1 -> free (tid_of x) s1 -> near <> [] -> length near <= hp_efc P ->
       NoDup (eids near) -> Forall (evalid vec s1 l) near -> wp (k near) Q x s1) ->
    wp (near ← search_layer P (tid_of x) fuel vec eps (hp_efc P) l;
        ns ← select_neighbors P near (hp_m P);
        wal_write (enc_set_conns id l ns);;
        set_conns_unlocked id l ns;;
        link_all P (tid_of x) id vec l (max_conn P l) ns;;
        k near) Q x s.
  Proof.
    intros Hefc HI Hf Hvec Hid Hne Hlen Hnd Hev Hfuel Hk.
    eapply wp_seq; [apply (wp_search_layer _ _ _ _ _ _ s s); done|].
    intros near s1 He1 (Hnne & Hnlen & Hnnd & Hnev & _).
    assert (Inv s1) as HI1 by by eapply E_inv.
    assert (free (tid_of x) s1) as Hf1 by by eapply E_free.
    eapply wp_seq; [apply wp_select_neighbors; try done; by eapply valids_present, evalids_valids|].
    intros ns s2 He2 [Hns Hin].
    assert (Inv s2) as HI2 by by eapply E_inv.
    assert (free (tid_of x) s2) as Hf2 by by eapply E_free.
    assert (Forall (valid s2 l) ns) as Hval2.
    { pose proof (evalids_valids _ _ _ _ Hnev) as Hnv. rewrite Forall_forall in Hnv. apply Forall_forall. intros i Hi%Hin.
      eapply E_valid; [exact He2|]. by apply Hnv. }
    destruct (enc_set_conns id l ns) as [r| |] eqn:Er; [|by rewrite enc_set_conns_eq in Er..].
    eapply wp_wal_write; [done..|]. intros s3 He3 s4 He4.
    assert (Inv s3) as HI3 by by eapply E_inv.
    assert (Inv s4) as HI4 by (eapply E_inv; [done|]; eapply Inv_same; [..|exact HI3]; done).
    assert (ext s2 s4) as Hx4.
    { apply (ext_trans _ _ _ (E_ext _ _ _ He3)). eapply ext_trans; [|exact (E_ext _ _ _ He4)]. by apply ext_same. }
    assert (free (tid_of x) s4) as Hf4.
    { apply (E_free _ _ _ He4). apply (lockrel_free P (tid_of x) s3); [by apply lockrel_same|]. by apply (E_free _ _ _ He3). }
    assert (ext s s2) as Hx2 by (eapply ext_trans; [exact (E_ext _ _ _ He1)|exact (E_ext _ _ _ He2)]).
    apply wp_set_conns_unlocked; [done|done|apply (valid_ext s2); [done|by apply (valid_ext s)]|
      eapply Forall_impl; [exact Hval2|]; intros i; by apply valid_ext|done|].
    intros s5 HI5 Hx5 Hf5.
    assert (ext s s5) as Hx05 by (apply (ext_trans _ _ _ Hx2), (ext_trans _ _ _ Hx4); done).
    eapply wp_wseq; [apply (wp_link_all id vec _ ns x s5 s5); try done;
      [apply ext_refl|eapply Forall_impl; [exact Hval2|]; intros i Hi; apply (valid_ext s4); [done|]; by apply (valid_ext s2)
      |by apply (valid_ext s)]|].
    intros [] s6 HI6 Hx6 Hf6. apply Hk; try done.
    - by apply (ext_trans _ _ _ Hx05).
    - apply (evalids_ext _ s5); [done|]. apply (evalids_ext _ s4); [done|]. apply (evalids_ext _ s2); [done|].
      by apply (evalids_ext _ s1); [exact (E_ext _ _ _ He2)|].
  Qed.

  Lemma wp_construct fuel id vec l eps x s s0 :
    1 <= hp_efc P -> Inv s -> ext s0 s -> free (tid_of x) s -> okv vec -> valid s l id ->
    eps <> [] -> length eps <= hp_efc P -> NoDup (eids eps) -> Forall (evalid vec s l) eps -> size U <= fuel ->
    wp (construct P (tid_of x) fuel id vec l eps) (wr x s0 (fun _ s' => free (tid_of x) s')) x s.
  Proof.
    intros Hefc. revert eps s. induction l as [|l IH]; intros eps s HI H0 Hf Hvec Hid Hne Hlen Hnd Hev Hfuel; cbn [construct].
    - apply (wp_construct_layer fuel id vec 0 eps (fun _ => mret tt)); try done.
      intros near s1 HI1 Hx1 Hf1 _ _ _ _.
      apply wp_wr_ret; [done|by apply (ext_trans _ _ _ H0)|]. intros s' He. by eapply E_free.
    - apply (wp_construct_layer fuel id vec (S l) eps (fun near => construct P (tid_of x) fuel id vec l near)); try done.
      intros near s1 HI1 Hx1 Hf1 Hnne Hnlen Hnnd Hnev. apply IH; try done.
      + by apply (ext_trans _ _ _ H0).
      + apply (valid_le _ (S l)); [lia|]. by apply (valid_ext s).
      + eapply Forall_impl; [exact Hnev|]. intros e He. apply (evalid_le _ _ (S l)); [lia|exact He].
  Qed.

  (** ** Insert *)
  Definition inserted (id : N) (vec : fvec) (level : nat) (s : st) : Prop :=
    exists v, nodes s !! id = Some v /\ v_vec v = vec /\ (length (v_conns v) = 1 \/ length (v_conns v) = S level).
  Lemma inserted_ext id vec level s s1 : ext s s1 -> inserted id vec level s -> inserted id vec level s1.
  Proof.
    intros Hx (v & Hn & Hv & Hl). destruct (Hx _ _ Hn) as (v1 & Hn1 & Hv1 & Hl1). exists v1.
    split_and!; [done|congruence|]. destruct Hl; [left|right]; congruence.
  Qed.

  Lemma guar_add t o s id level vec :
    Inv s -> nodes s !! id = None -> id ∈ U -> id ∈ o -> okv vec -> nodes s <> ∅ ->
    hguar t o s (upd id (Vertex (init_conns level) vec None) s).
  Proof.
    intros HI Hn HU Ho Hv Hne. split.
    - by apply Inv_add.
    - by apply ext_add.
    - intros k Hk [w Hw]. cbn in Hw. destruct (decide (k = id)) as [->|]; [done|].
      rewrite lookup_insert_ne in Hw by done. congruence.
    - intros t' _. split; intros k w; cbn.
      + intros Hk Hl. rewrite lookup_insert_ne by (intros ->; congruence). exists w. split_and!; [done..|apply cchange_refl].
      + destruct (decide (k = id)) as [->|]; [rewrite lookup_insert; by intros [= <-]|].
        rewrite lookup_insert_ne by done. intros Hk Hl. by exists w.
    - done.
  Qed.

  Lemma wp_hnsw_insert fuel level vec id x s s0 :
    1 <= hp_efc P -> Inv s -> ext s0 s -> free (tid_of x) s -> okv vec -> id ∈ own x -> id ∈ U ->
    nodes s !! id = None -> size U <= fuel ->
    wp (hnsw_insert P (tid_of x) fuel level vec id)
      (wr x s0 (fun _ s' => free (tid_of x) s' /\ inserted id vec level s')) x s.
  Proof.
    intros Hefc HI H0 Hf Hvec Hown HU Hnone Hfuel. unfold hnsw_insert, once_insert.
    destruct (enc_set_entry id 0) as [r1| |] eqn:E1; [|by rewrite enc_set_entry_eq in E1..].
    destruct (enc_add_vertex id 0) as [r2| |] eqn:E2; [|by rewrite enc_add_vertex_eq in E2..].
    apply wp_bind; [done|]. apply wp_act. intros s1 He1.
    assert (Inv s1) as HI1 by by eapply E_inv. assert (free (tid_of x) s1) as Hf1 by by eapply E_free.
    assert (nodes s1 !! id = None) as Hn1 by (by eapply rely_own; [apply HE| |]).
    assert (ext s0 s1) as Hx01 by (apply (ext_trans _ _ _ H0); by eapply E_ext).
    assert (forall s2, Inv s2 -> ext s0 s2 -> free (tid_of x) s2 -> nodes s2 !! id = None -> nodes s2 <> ∅ ->
      wp (wal_write (enc_add_vertex id level);; add_node id level vec;;
          '(epid, epv, cur) ← read_entry;
          d ← lift (dist P (v_vec epv) vec);
          e ← descend P (tid_of x) fuel vec cur level (Elem epid d);
          construct P (tid_of x) fuel id vec (Nat.min cur level) [e];;
          raise_entry id level cur)
        (wr x s0 (fun _ s' => free (tid_of x) s' /\ inserted id vec level s')) x s2) as Hmain.
    { clear dependent s1. clear E1 E2 r1 r2. clear dependent s.
      intros s HI H0 Hf Hnone Hne.
      destruct (enc_add_vertex id level) as [r| |] eqn:Er; [|by rewrite enc_add_vertex_eq in Er..].
      eapply wp_wal_write; [done..|]. intros s1 He1 s2 He2.
      assert (Inv s1) as HI1 by by eapply E_inv.
      assert (Inv s2) as HI2 by (eapply E_inv; [done|]; eapply Inv_same; [..|exact HI1]; done).
      assert (ext s1 s2) as Hx12 by (eapply ext_trans; [|exact (E_ext _ _ _ He2)]; by apply ext_same).
      assert (nodes s2 !! id = None) as Hn2.
      { eapply rely_own; [by apply HE|done|]. cbn. eapply rely_own; [by apply HE|done..]. }
      assert (free (tid_of x) s2) as Hf2.
      { apply (E_free _ _ _ He2). apply (lockrel_free P (tid_of x) s1); [by apply lockrel_same|]. by apply (E_free _ _ _ He1). }
      assert (nodes s2 <> ∅) as Hne2.
      { apply (ext_nonempty s1); [done|]. apply (ext_nonempty s); [|done]. exact (E_ext _ _ _ He1). }
      assert (ext s0 s2) as Hx02.
      { apply (ext_trans _ _ _ H0). apply (ext_trans _ _ _ (E_ext _ _ _ He1)). done. }
      clear dependent s s1. clear Er r.
      apply wp_bind; [done|]. unfold add_node. apply wp_act. intros s3 He3. cbn [fst snd].
      change (set_nodes _ s3) with (upd id (Vertex (init_conns level) vec None) s3).
      assert (Inv s3) as HI3 by by eapply E_inv.
      assert (nodes s3 !! id = None) as Hn3 by (eapply rely_own; [by apply HE|done..]).
      assert (hguar (tid_of x) (own x) s3 (upd id (Vertex (init_conns level) vec None) s3)) as Hg.
      { apply guar_add; try done. by apply (ext_nonempty s2); [exact (E_ext _ _ _ He3)|]. }
      exists x. split; [by apply HGU|]. intros s4 He4.
      assert (Inv s4) as HI4 by (eapply E_inv; [done|]; by eapply guar_inv).
      assert (ext s0 s4) as Hx04.
      { apply (ext_trans _ _ _ Hx02), (ext_trans _ _ _ (E_ext _ _ _ He3)).
        apply (ext_trans _ _ _ (guar_ext _ _ _ _ _ _ _ _ Hg)). exact (E_ext _ _ _ He4). }
      assert (exists v, nodes s4 !! id = Some v /\ v_vec v = vec /\ length (v_conns v) = S level) as Hid4.
      { destruct (E_ext _ _ _ He4 id (Vertex (init_conns level) vec None)) as (v & Hv & Ev & El).
        - cbn. by rewrite lookup_insert.
        - exists v. cbn in Ev, El. rewrite init_conns_length in El. done. }
      assert (free (tid_of x) s4) as Hf4.
      { apply (E_free _ _ _ He4). intros k w Hk Hw. cbn in Hk. destruct (decide (k = id)) as [->|].
        - rewrite lookup_insert in Hk. by simplify_eq.
        - rewrite lookup_insert_ne in Hk by done. by apply (E_free _ _ _ He3 Hf2 k w). }
      clear dependent s2 s3. rename s4 into s. 
      unfold read_entry. apply wp_read; [done|]. intros s1 He1 HI1.
      assert (nodes s1 <> ∅) as Hne1.
      { destruct Hid4 as (v & Hv & _). apply (ext_nonempty s); [exact (E_ext _ _ _ He1)|]. intros E0. by rewrite E0 in Hv. }
      destruct (inv_ep _ _ _ _ _ HI1 Hne1) as (ev & Hev & Hlev). eexists. rewrite Hev. split; [reflexivity|]. cbn beta iota.
      destruct (Hdist (v_vec ev) vec) as [d Hd]; [by eapply inv_vec|done|]. eapply wp_lift_val; [done|].
      assert (free (tid_of x) s1) as Hf1 by by eapply E_free.
      set (cur := maxl s1) in *. set (epid := ep s1) in *.
      eapply wp_seq.
      { apply (wp_descend fuel vec cur level (Elem epid d) x s1 s1); try done. exists ev. cbn. split_and!; [done|lia|done]. }
      intros e s2 He2 [Hev2 _]. assert (Inv s2) as HI2 by by eapply E_inv.
      assert (ext s s2) as Hx2 by (apply (ext_trans _ _ _ (E_ext _ _ _ He1)); exact (E_ext _ _ _ He2)).
      eapply wp_wseq.
      { apply (wp_construct fuel id vec (Nat.min cur level) [e] x s2 s2); try done; try (cbn; lia).
        - apply ext_refl.
        - by eapply E_free.
        - destruct Hid4 as (v & Hv & _ & Hl). apply (valid_ext s); [done|]. exists v. split; [done|lia].
        - cbn. constructor; [set_solver|constructor].
        - by constructor. }
      intros [] s3 HI3 Hx3 Hf3.
      assert (exists v, nodes s3 !! id = Some v /\ v_vec v = vec /\ length (v_conns v) = S level) as Hid3.
      { destruct Hid4 as (v & Hv & Ev & El). destruct (ext_trans _ _ _ Hx2 Hx3 _ _ Hv) as (v3 & Hv3 & Ev3 & El3).
        exists v3. split_and!; congruence. }
      unfold raise_entry. destruct (enc_set_entry id level) as [r| |] eqn:Er; [|by rewrite enc_set_entry_eq in Er..].
      apply wp_act. intros s4 He4. assert (Inv s4) as HI4' by by eapply E_inv.
      assert (ext s0 s4) as Hx4.
      { apply (ext_trans _ _ _ Hx04), (ext_trans _ _ _ Hx2), (ext_trans _ _ _ Hx3). exact (E_ext _ _ _ He4). }
      assert (exists v, nodes s4 !! id = Some v /\ v_vec v = vec /\ length (v_conns v) = S level) as (v4 & Hv4 & Ev4 & El4).
      { destruct Hid3 as (v & Hv & Ev & El). destruct (E_ext _ _ _ He4 _ _ Hv) as (v4 & Hv4 & Ev4 & El4).
        exists v4. split_and!; congruence. }
      assert (free (tid_of x) s4) as Hf4' by by eapply E_free.
      destruct (cur <? level) eqn:Ec; cbn [fst snd].
      - assert (hguar (tid_of x) (own x) s4 (set_entry id level (wal_append r s4))) as Hg'.
        { split; [|by apply ext_same| |intros; by apply lockrel_same|done].
          - destruct HI4'. split; try done. intros _. by exists v4.
          - intros k Hk [w Hw]. cbn in Hw. congruence. }
        exists x. split; [by apply HGU|]. intros s5 He5.
        assert (ext s4 s5) as Hx5 by (eapply ext_trans; [|exact (E_ext _ _ _ He5)]; by apply ext_same).
        split_and!; [done|eapply E_inv; [done|by eapply guar_inv]|by apply (ext_trans _ _ _ Hx4)|].
        exists tt. split; [done|]. split.
        + apply (E_free _ _ _ He5). apply (lockrel_free P (tid_of x) s4); [by apply lockrel_same|done].
        + apply (inserted_ext _ _ _ s4); [done|]. exists v4. auto.
      - exists x. split; [by apply HGU, hguar_refl|]. intros s5 He5.
        split_and!; [done|by eapply E_inv|apply (ext_trans _ _ _ Hx4); exact (E_ext _ _ _ He5)|].
        exists tt. split; [done|]. split; [by eapply E_free|].
        apply (inserted_ext _ _ _ s4); [exact (E_ext _ _ _ He5)|]. exists v4. auto. }
    destruct (once s1) eqn:Eo; cbn [fst snd].
    - exists x. split; [by apply HGU, hguar_refl|]. intros s2 He2. cbn beta iota.
      apply Hmain.
      + by eapply E_inv.
      + apply (ext_trans _ _ _ Hx01). exact (E_ext _ _ _ He2).
      + by eapply E_free.
      + by eapply rely_own; [apply HE| |].
      + apply (ext_nonempty s1); [exact (E_ext _ _ _ He2)|]. by eapply inv_once.
    - case_bool_decide as En; cbn [fst snd].
      + set (s2 := set_nodes _ _).
        assert (nodes s2 = {[ id := Vertex (init_conns 0) vec None ]}) as En2 by (cbn; cbn in En; by rewrite En).
        assert (forall k w, nodes s2 !! k = Some w -> k = id /\ w = Vertex (init_conns 0) vec None) as Hk.
        { intros k w. rewrite En2. intros [<- <-]%lookup_singleton_Some. done. }
        cbn in En.
        assert (hguar (tid_of x) (own x) s1 s2) as Hg.
        { split.
          - split.
            + intros n v l cs c [-> ->]%Hk Hl Hin. apply (init_conns_lookup 0) in Hl as ->. by apply elem_of_nil in Hin.
            + intros n v l cs [-> ->]%Hk Hl. apply (init_conns_lookup 0) in Hl as ->. cbn. lia.
            + by intros n v [-> ->]%Hk.
            + intros n v [-> ->]%Hk. cbn. lia.
            + intros _. rewrite En2. exists (Vertex (init_conns 0) vec None). split; [|done]. cbn. apply lookup_singleton.
            + intros _. rewrite En2. apply map_non_empty_singleton.
            + intros n [v [-> ->]%Hk]. done.
          - intros n v Hn. by rewrite En in Hn.
          - intros n _ [v [-> ->]%Hk]. done.
          - intros t' _. split.
            + intros n v Hn. by rewrite En in Hn.
            + intros n v [-> ->]%Hk. done.
          - done. }
        exists x. split; [by apply HGU|]. intros s3 He3. cbn beta iota. clearbody s2.
        apply wp_wr_ret.
        * eapply E_inv; [done|]. by eapply guar_inv.
        * apply (ext_trans _ _ _ Hx01), (ext_trans _ _ _ (guar_ext _ _ _ _ _ _ _ _ Hg)). exact (E_ext _ _ _ He3).
        * intros s4 He4. split.
          -- apply (E_free _ _ _ He4), (E_free _ _ _ He3). intros n v [-> ->]%Hk. done.
          -- apply (inserted_ext _ _ _ s3); [exact (E_ext _ _ _ He4)|]. apply (inserted_ext _ _ _ s2); [exact (E_ext _ _ _ He3)|].
             exists (Vertex (init_conns 0) vec None). rewrite En2, lookup_singleton. auto.
      + assert (hguar (tid_of x) (own x) s1 (set_once true s1)) as Hg.
        { split; [|by apply ext_same| |intros; by apply lockrel_same|done].
          - destruct HI1. by split.
          - intros k Hk [w Hw]. cbn in Hw. congruence. }
        exists x. split; [by apply HGU|]. intros s2 He2. cbn beta iota.
        apply Hmain.
        * eapply E_inv; [done|]. by eapply guar_inv.
        * apply (ext_trans _ _ _ Hx01), (ext_trans _ _ _ (guar_ext _ _ _ _ _ _ _ _ Hg)). exact (E_ext _ _ _ He2).
        * apply (E_free _ _ _ He2). done.
        * by eapply rely_own; [apply HE| |].
        * apply (ext_nonempty (set_once true s1)); [exact (E_ext _ _ _ He2)|done].
  Qed.

  (** ** Search *)
  Lemma wp_hnsw_search fuel q k x s s0 :
    1 <= hp_ef P -> Inv s -> E x s0 s -> free (tid_of x) s -> okv q -> nodes s <> ∅ -> size U <= fuel -> (0 <= k)%Z ->
    wp (hnsw_search P (tid_of x) fuel q k)
      (ro x s0 (fun res s' => exists near dels,
         near <> [] /\ length near <= hp_ef P /\ NoDup (eids near) /\ Forall (evalid q s' 0) near /\
         (exists s4, E x s0 s4 /\ E x s4 s' /\ dels = deleted s4) /\
         res = take (Z.to_nat k) (filter (live dels) (drain (length near) (new_min_heap near))))) x s.
  Proof.
    intros Hef HI H0 Hf Hq Hne Hfuel Hk. unfold hnsw_search.
    destruct (k <? 0)%Z eqn:Ek; [lia|]. clear Ek.
    unfold read_entry. apply wp_read; [done|]. intros s1 He1 HI1.
    assert (nodes s1 <> ∅) as Hne1 by (apply (ext_nonempty s); [exact (E_ext _ _ _ He1)|done]).
    destruct (inv_ep _ _ _ _ _ HI1 Hne1) as (ev & Hev & Hlev). eexists. rewrite Hev. split; [reflexivity|]. cbn beta iota.
    destruct (Hdist (v_vec ev) q) as [d Hd]; [by eapply inv_vec|done|]. eapply wp_lift_val; [done|].
    assert (free (tid_of x) s1) as Hf1 by by eapply E_free.
    eapply wp_seq.
    { apply (wp_descend fuel q (maxl s1) 0 (Elem (ep s1) d) x s1 s1); try done. exists ev. cbn. split_and!; [done|lia|done]. }
    intros e s2 He2 [Hev2 _]. rewrite Nat.min_r in Hev2 by lia.
    assert (Inv s2) as HI2 by by eapply E_inv. assert (free (tid_of x) s2) as Hf2 by by eapply E_free.
    eapply wp_seq.
    { apply (wp_search_layer _ _ _ _ _ _ s2 s2); try done.
      - cbn. constructor; [set_solver|constructor].
      - by constructor. }
    intros near s3 He3 (Hnne & Hnlen & Hnnd & Hnev & _). assert (Inv s3) as HI3 by by eapply E_inv.
    apply wp_read; [done|]. intros s4 He4 HI4. eexists. split; [reflexivity|].
    unfold new_min_heap. pose proof (heap_init_perm min_less near) as Pp.
    rewrite take_live_ok by (by rewrite (Permutation_length Pp)).
    assert (E x s0 s4) as H04.
    { apply (E_trans _ _ _ _ H0), (E_trans _ _ _ _ He1), (E_trans _ _ _ _ He2), (E_trans _ _ _ _ He3). done. }
    apply wp_ro_ret; [done|].
    intros s5 He5. exists near, (deleted s4). split_and!; try done.
    - apply (E_evalids _ _ _ _ _ _ He5). by apply (E_evalids _ _ _ _ _ _ He4).
    - by exists s4.
  Qed.
End progs.

(** How many records a call adds to the index log, whatever the other
    goroutines do: an accounting of records against a budget. *)
From stdpp Require Import relations.
From Verif Require Import GoBase FloatModel HeapModel ProgModel StateModel WalModel HnswModel StoreModel CollModel CallModel
  ProofBase WalProofs WpProofs HnswProofs SeqLog StepProofs.
Open Scope nat_scope.

(** Records written for one vertex that draws [level]: its vertex record, and
    per layer its list and one record for each of at most M neighbours
    (insert.go:31-113).  The record of a new entry point (insert.go:118-124)
    takes the place of the layers the vertex is alone on. *)
Definition insert_cost (P : hparams) (level : nat) : nat := 1 + (level + 1) * (hp_m P + 1).
(** Bytes of the longest record (wal.go:54-129): a list of connections of a
    vertex that is full, or has just been given its neighbours. *)
Definition rec_max (P : hparams) : nat := 17 + 8 * Nat.max 1 (Nat.max (hp_m P) (2 * hp_mMax P)).
Definition costs (P : hparams) (levels : list nat) : nat := sum_list (insert_cost P <$> levels).

Lemma put_at_length b off d r : put_at b off d = Val r -> length r = length b.
Proof.
  unfold put_at. case_decide; [|done]. intros <-%Val_inj. rewrite !app_length, take_length, drop_length. lia.
Qed.
Lemma put_ids_length ns : forall b off r, put_ids b off ns = Val r -> length r = length b.
Proof.
  induction ns as [|n ns IH]; intros b off r; cbn [put_ids]; [by intros <-%Val_inj|]. destruct (put_u64 b off n) as [b'| |] eqn:E; [|done..].
  cbn [mbind out_bind]. intros H. rewrite (IH _ _ _ H). by eapply put_at_length.
Qed.
Ltac enc_len H :=
  repeat match type of H with
  | (?x ≫= _) = Val _ => let b := fresh "b" in let E := fresh "E" in
      destruct x as [b| |] eqn:E; [|done..]; cbn [mbind out_bind] in H; apply put_at_length in E
  end.
Lemma enc_add_vertex_len id l r : enc_add_vertex id l = Val r -> length r = 13.
Proof. unfold enc_add_vertex. intros H. enc_len H. apply put_at_length in H. rewrite H, E0, E. unfold zero_bytes. by rewrite replicate_length. Qed.
Lemma enc_set_entry_len id l r : enc_set_entry id l = Val r -> length r = 13.
Proof. unfold enc_set_entry. intros H. enc_len H. apply put_at_length in H. rewrite H, E0, E. unfold zero_bytes. by rewrite replicate_length. Qed.
Lemma enc_set_conns_len id l ns r : enc_set_conns id l ns = Val r -> length r = 17 + 8 * length ns.
Proof. unfold enc_set_conns. intros H. enc_len H. apply put_ids_length in H. rewrite H, E2, E1, E0, E. unfold zero_bytes. by rewrite replicate_length. Qed.
Lemma enc_add_conn_len id l n r : enc_add_conn id l n = Val r -> length r = 21.
Proof. unfold enc_add_conn. intros H. enc_len H. apply put_at_length in H. rewrite H, E1, E0, E. unfold zero_bytes. by rewrite replicate_length. Qed.
Lemma enc_delete_len id r : enc_delete id = Val r -> length r = 9.
Proof. unfold enc_delete. intros H. enc_len H. apply put_at_length in H. rewrite H, E. unfold zero_bytes. by rewrite replicate_length. Qed.

Section account.
  Context (P : hparams).
  (** A weight of records, bounded for the records an index with [P] writes. *)
  Context (w : bytes -> nat) (u : nat) (Hw : forall r, length r <= rec_max P -> w r <= u).
  (** Do the objects in the channel of an InsertBatch2 count? *)
  Context (ch : bool).
  Definition wsum (l : list bytes) : nat := sum_list (w <$> l).
  (** What has been written, plus what the objects still in the channel may cost. *)
  Definition pot (s : st) : nat := wsum (log_view s) + (if ch then u * costs P (snd <$> chan s) else 0).
  Lemma wsum_app l1 l2 : wsum (l1 ++ l2) = wsum l1 + wsum l2.
  Proof. unfold wsum. by rewrite fmap_app, sum_list_with_app || (induction l1; cbn; lia). Qed.

  Fixpoint lb {A} (p : prog st A) (n : nat) (Q : A -> nat -> Prop) : Prop :=
    match p with
    | Done (Val a) => Q a n
    | Done _ => True
    | Step f => forall s, match f s with
                          | Some (s', p') => exists n', pot s' + n' <= pot s + n /\ lb p' n' Q
                          | None => True
                          end
    end.
  Lemma lb_bind {A B} (p : prog st A) (k : A -> prog st B) n Q :
    lb p n (fun a m => lb (k a) m Q) -> lb (p ≫= k) n Q.
  Proof.
    change (p ≫= k) with (pbind p k). revert n. induction p as [r|f IH] using prog_ind'; intros n; cbn [pbind lb].
    - by destruct r.
    - intros H s. specialize (H s). destruct (f s) as [[s' p']|] eqn:E; [|done]. destruct H as (m & Hm & H). exists m. split; [done|]. by eapply IH.
  Qed.
  Lemma lb_mono {A} (p : prog st A) n (Q Q' : A -> nat -> Prop) : (forall a m, Q a m -> Q' a m) -> lb p n Q -> lb p n Q'.
  Proof.
    intros HQ. revert n. induction p as [r|f IH] using prog_ind'; intros n; cbn [lb].
    - destruct r; [apply HQ|done..].
    - intros H s. specialize (H s). destruct (f s) as [[s' p']|] eqn:E; [|done]. destruct H as (m & Hm & H). exists m. split; [done|]. by eapply IH.
  Qed.
  (** More budget does no harm. *)
  Lemma lb_more {A} (p : prog st A) n d (Q : A -> nat -> Prop) : lb p n Q -> lb p (n + d) (fun a m => exists m0, m = m0 + d /\ Q a m0).
  Proof.
    revert n. induction p as [r|f IH] using prog_ind'; intros n; cbn [lb].
    - destruct r; [|done..]. intros H. by exists n.
    - intros H s. specialize (H s). destruct (f s) as [[s' p']|] eqn:E; [|done]. destruct H as (m & Hm & H). exists (m + d). split; [lia|]. by eapply IH.
  Qed.
  Lemma lb_frame {A} (p : prog st A) n d (Q : A -> nat -> Prop) : lb p n (fun a _ => Q a d) -> (forall a m m', m <= m' -> Q a m -> Q a m') ->
    lb p (n + d) Q.
  Proof.
    intros H HQ. eapply lb_mono; [|apply (lb_more _ _ d _ H)]. cbn. intros a m (m0 & -> & Ha). eapply HQ; [|done]. lia.
  Qed.

  (** One atomic step. *)
  Lemma lb_act {A} (f : st -> st * out A) n m (Q : A -> nat -> Prop) :
    (forall s, pot (fst (f s)) + m <= pot s + n /\ match snd (f s) with Val a => Q a m | _ => True end) -> lb (act f) n Q.
  Proof. intros H s. specialize (H s). destruct (f s) as [s' r]. destruct H as [H1 H2]. exists m. split; [done|]. by destruct r. Qed.
  Lemma lb_lift {A} (r : out A) n (Q : A -> nat -> Prop) : (forall a, r = Val a -> Q a n) -> lb (lift r) n Q.
  Proof. intros H. destruct r; cbn; auto. Qed.
  Lemma lb_ret {A} (a : A) n (Q : A -> nat -> Prop) : Q a n -> lb (mret a) n Q.
  Proof. done. Qed.
  Lemma lb_read {A} (f : st -> out A) n (Q : A -> nat -> Prop) : (forall a, Q a n) -> lb (act (fun s => (s, f s))) n Q.
  Proof. intros H. apply (lb_act _ n n). intros s. cbn. split; [lia|]. destruct (f s); auto. Qed.
  Lemma pot_append r s : length r <= rec_max P -> pot (wal_append r s) <= pot s + u.
  Proof.
    intros H%Hw. unfold pot, log_view. cbn [wal_append set_wal wlog batch chan]. rewrite fmap_app, app_assoc, wsum_app. unfold wsum at 2. cbn. lia.
  Qed.
  Lemma lb_wal d n (Q : unit -> nat -> Prop) : (forall r, d = Val r -> length r <= rec_max P) -> Q tt n -> lb (wal_write d) (u + n) Q.
  Proof.
    intros Hd H. unfold wal_write. destruct d as [r| |]; [|done..]. apply (lb_act _ (u + n) n). intros s. cbn [fst snd]. split; [|done].
    pose proof (pot_append r s (Hd r eq_refl)). lia.
  Qed.

  Context (tid : nat).
  Lemma lb_read_conns c l n (Q : list N -> nat -> Prop) : (forall cs, Q cs n) -> lb (read_conns P tid c l) n Q.
  Proof.
    intros H s. destruct (nodes s !! c) as [v|]; [|by exists n]. destruct (v_lock v); [done|].
    destruct (v_conns v !! l) as [cs|]; [case_decide|]; (exists n; split; [done|]; try done). apply H.
  Qed.
  Lemma lb_visit q ef cs n : forall x (Q : slstate -> nat -> Prop), (forall x, Q x n) -> lb (visit_conns P q ef cs x) n Q.
  Proof.
    induction cs as [|c cs IH]; intros x Q H; cbn [visit_conns]; [apply H|]. case_bool_decide; [by apply IH|].
    apply lb_bind, lb_lift. intros f _. apply lb_bind, lb_read. intros v. apply lb_bind, lb_lift. intros d _. apply lb_bind, lb_lift. intros y _. by apply IH.
  Qed.
  Lemma lb_loop q ef l fuel n : forall x (Q : slstate -> nat -> Prop), (forall x, Q x n) -> lb (search_loop P tid fuel q ef l x) n Q.
  Proof.
    induction fuel as [|fuel IH]; intros x Q H; cbn [search_loop]; destruct (sl_cands x) eqn:Ec; try apply H; [done|].
    apply lb_bind, lb_lift. intros [c cands] _. apply lb_bind, lb_lift. intros f _. destruct (fltb _ _); [apply H|].
    apply lb_bind, lb_read_conns. intros cs. apply lb_bind, lb_visit. intros y. by apply IH.
  Qed.
  Lemma lb_layer fuel q eps ef l n (Q : list elem -> nat -> Prop) : (forall near, Q near n) -> lb (search_layer P tid fuel q eps ef l) n Q.
  Proof.
    intros H. unfold search_layer. apply lb_bind, lb_lift. intros c _. apply lb_bind, lb_lift. intros m _. apply lb_bind, lb_loop. intros x. apply H.
  Qed.
  Lemma lb_descend fuel q l stop n : forall e (Q : elem -> nat -> Prop), (forall e, Q e n) -> lb (descend P tid fuel q l stop e) n Q.
  Proof.
    induction l as [|l IH]; intros e Q H; cbn [descend]; [apply H|].
    match goal with |- context [if ?b then _ else _] => destruct b end; [|apply H].
    apply lb_bind, lb_layer. intros near. apply lb_bind, lb_lift. intros e' _. by apply IH.
  Qed.
  Lemma lb_check e res n (Q : bool -> nat -> Prop) : (forall b, Q b n) -> lb (heur_check P e res) n Q.
  Proof.
    intros H. induction res as [|r res IH]; cbn [heur_check]; [apply H|].
    apply lb_bind, lb_read. intros [ev rv]. apply lb_bind, lb_lift. intros d _. destruct (fltb _ _); [apply H|done].
  Qed.
  Lemma lb_heur k n : forall q m res (Q : list N -> nat -> Prop), length res <= m -> (forall ns, length ns <= m -> Q ns n) -> lb (heur_loop P k q m res) n Q.
  Proof.
    induction k as [|k IH]; intros q m res Q Hr H; cbn [heur_loop]; destruct q as [|e0 q0] eqn:Eq; try by apply H.
    - destruct (_ <? _); [done|by apply H].
    - destruct (Nat.ltb_spec (length res) m); [|by apply H]. apply lb_bind, lb_lift. intros [e q'] _. apply lb_bind, lb_check. intros ok.
      apply IH; [|done]. destruct ok; [|done]. rewrite app_length. cbn. lia.
  Qed.
  Lemma pop_ids_length k : forall h ids, pop_ids k h = Val ids -> length ids = k.
  Proof.
    induction k as [|k IH]; intros h ids; cbn [pop_ids]; [by intros <-%Val_inj|]. destruct (heap_pop _ h) as [[e h']| |]; [|done..].
    cbn [mbind out_bind]. destruct (pop_ids k h') as [is| |] eqn:E; [|done..]. cbn [mbind out_bind]. intros <-%Val_inj. cbn. by rewrite (IH _ _ E).
  Qed.
  Lemma lb_select cands m n (Q : list N -> nat -> Prop) : (forall ns, length ns <= m -> Q ns n) -> lb (select_neighbors P cands m) n Q.
  Proof.
    intros H. unfold select_neighbors, select_heuristic, select_simple. destruct (hp_heuristic P); [apply lb_heur; [cbn; lia|done]|].
    apply lb_lift. intros ids E. apply pop_ids_length in E. apply H. lia.
  Qed.
  Lemma lb_lock c l n (Q : vertex * list N -> nat -> Prop) : (forall x, Q x n) -> lb (lock_conns tid c l) n Q.
  Proof.
    intros H s. destruct (nodes s !! c) as [v|]; [|by exists n]. destruct (v_lock v); [done|].
    destruct (v_conns v !! l) as [cs|]; (exists n; split; [done|]; try done). apply H.
  Qed.
  Lemma lb_upd (f : st -> st * out unit) n (Q : unit -> nat -> Prop) :
    (forall s, pot (fst (f s)) = pot s) -> Q tt n -> lb (act f) n Q.
  Proof. intros H HQ. apply (lb_act _ n n). intros s. rewrite H. split; [lia|]. by destruct (snd (f s)) as [[]| |]. Qed.
  Lemma lb_elems b cs n (Q : list elem -> nat -> Prop) : (forall es, Q es n) -> lb (conn_elems P b cs) n Q.
  Proof.
    revert Q. induction cs as [|c cs IH]; intros Q H; cbn [conn_elems]; [apply H|]. apply lb_bind, lb_read. intros v. apply lb_bind, lb_lift. intros d _.
    apply lb_bind, IH. intros es. apply H.
  Qed.
  Lemma lb_link_one id vec l mc k n (Q : unit -> nat -> Prop) : mc <= 2 * hp_mMax P -> Q tt n ->
    lb (link_one P tid id vec l mc k) (u + n) Q.
  Proof.
    intros Hmc H. unfold link_one. apply lb_bind, lb_lock. intros [nv cs]. destruct (_ <? _).
    - apply lb_bind, lb_wal; [intros r Hr%enc_add_conn_len; unfold rec_max; lia|]. apply lb_upd; [|done].
      intros s. destruct (nodes s !! k) as [v|]; [|done]. by destruct (vertex_add_conn v l id).
    - apply lb_bind, lb_lift. intros d _. apply lb_bind, lb_elems. intros es. apply lb_bind, lb_select. intros ns Hns.
      apply lb_bind, lb_wal; [intros r Hr%enc_set_conns_len; unfold rec_max; lia|].
      apply lb_upd; [|done]. intros s. destruct (nodes s !! k) as [v|]; [|done]. by destruct (vertex_set_conns v l ns).
  Qed.
  Lemma lb_link_all id vec l mc ns n (Q : unit -> nat -> Prop) : mc <= 2 * hp_mMax P -> Q tt n ->
    lb (link_all P tid id vec l mc ns) (u * length ns + n) Q.
  Proof.
    intros Hmc H. induction ns as [|k ns IH]; cbn [link_all length]; [by rewrite Nat.mul_0_r|].
    apply lb_bind. replace (u * S (length ns) + n) with (u + (u * length ns + n)) by lia. by apply lb_link_one.
  Qed.
  (** Spare budget may be given up. *)
  Lemma lb_less {A} (p : prog st A) n n' (Q : A -> nat -> Prop) : n' <= n -> (forall a m m', m <= m' -> Q a m -> Q a m') -> lb p n' Q -> lb p n Q.
  Proof.
    intros Hn HQ. replace n with (n' + (n - n')) by lia. intros H. eapply lb_mono; [|by apply lb_more].
    cbn. intros a m (m0 & -> & H0). eapply HQ; [|done]. lia.
  Qed.
  Definition at_least (n : nat) : forall A, A -> nat -> Prop := fun A _ m => n <= m.
  Lemma lb_construct fuel id vec l n : forall eps, lb (construct P tid fuel id vec l eps) (u * ((l + 1) * (hp_m P + 1)) + n) (at_least n unit).
  Proof.
    assert (Hup : forall A (a : A) m m', m <= m' -> at_least n A a m -> at_least n A a m') by (unfold at_least; intros; lia).
    induction l as [|l IH]; intros eps; cbn [construct];
      apply lb_bind, lb_layer; intros near; apply lb_bind, lb_select; intros ns Hns; apply lb_bind.
    - replace (u * ((0 + 1) * (hp_m P + 1)) + n) with (u + (u * hp_m P + n)) by lia.
      apply lb_wal; [intros r Hr%enc_set_conns_len; unfold rec_max; lia|].
      apply lb_bind, lb_upd; [intros s; destruct (nodes s !! id) as [v|]; [|done]; by destruct (vertex_set_conns v _ ns)|].
      apply lb_bind. apply (lb_less _ _ (u * length ns + n)); [nia| |].
      + intros a m m' Hm H. cbn [lb] in *. by eapply Hup.
      + apply lb_link_all; [unfold mMax0; lia|]. apply lb_ret. unfold at_least; lia.
    - replace (u * ((S l + 1) * (hp_m P + 1)) + n) with (u + (u * hp_m P + (u * ((l + 1) * (hp_m P + 1)) + n))) by lia.
      apply lb_wal; [intros r Hr%enc_set_conns_len; unfold rec_max; lia|].
      apply lb_bind, lb_upd; [intros s; destruct (nodes s !! id) as [v|]; [|done]; by destruct (vertex_set_conns v _ ns)|].
      apply lb_bind. apply (lb_less _ _ (u * length ns + (u * ((l + 1) * (hp_m P + 1)) + n))); [nia| |].
      + intros a m m' Hm H. eapply lb_less; [exact Hm|apply Hup|done].
      + apply lb_link_all; [lia|]. apply IH.
  Qed.
  Lemma lb_once id vec n (Q : bool -> nat -> Prop) : Q true n -> (Q false (2 * u + n)) -> lb (once_insert id vec) (2 * u + n) Q.
  Proof.
    intros Ht Hf. unfold once_insert. destruct (enc_set_entry id 0) as [r1| |] eqn:E1; [|done..]. destruct (enc_add_vertex id 0) as [r2| |] eqn:E2; [|done..].
    apply enc_set_entry_len in E1. apply enc_add_vertex_len in E2. intros s. destruct (once s); [by exists (2 * u + n)|].
    case_bool_decide as Hn; [|by exists (2 * u + n)]. exists n. split; [|done].
    pose proof (pot_append r1 (set_once true s) ltac:(unfold rec_max; lia)) as H1.
    pose proof (pot_append r2 (set_entry id 0 (wal_append r1 (set_once true s))) ltac:(unfold rec_max; lia)) as H2.
    change (pot (set_entry id 0 (wal_append r1 (set_once true s)))) with (pot (wal_append r1 (set_once true s))) in H2.
    change (pot (set_once true s)) with (pot s) in H1.
    match goal with |- pot ?a + _ <= _ => change (pot a) with (pot (wal_append r2 (set_entry id 0 (wal_append r1 (set_once true s))))) end. lia.
  Qed.
  Lemma lb_hnsw fuel level vec id n : lb (hnsw_insert P tid fuel level vec id) (u * insert_cost P level + n) (at_least n unit).
  Proof.
    unfold hnsw_insert, insert_cost. apply lb_bind.
    apply (lb_less _ _ (2 * u + (u * ((level + 1) * (hp_m P + 1) - 1) + n))); [nia| |].
    { intros [] m m' Hm; [|intros H; eapply lb_less; [exact Hm|unfold at_least; intros; lia|exact H]]. cbn [lb]. unfold at_least. cbn. lia. }
    apply lb_once. { apply lb_ret. unfold at_least. lia. }
    replace (2 * u + (u * ((level + 1) * (hp_m P + 1) - 1) + n)) with (u + (u * ((level + 1) * (hp_m P + 1)) + n)) by nia.
    apply lb_bind, lb_wal; [intros r Hr%enc_add_vertex_len; unfold rec_max; lia|]. apply lb_bind, lb_upd; [done|].
    apply lb_bind, lb_read. intros [[epid epv] cur]. apply lb_bind, lb_lift. intros d _. apply lb_bind, lb_descend. intros e. apply lb_bind.
    assert (Hr : forall m, (if cur <? level then u + n else n) <= m -> lb (raise_entry id level cur) m (at_least n unit)).
    { intros m Hm. unfold raise_entry. destruct (enc_set_entry id level) as [r| |] eqn:E; [|done..]. apply enc_set_entry_len in E. intros s.
      destruct (cur <? level); exists n; (split; [|unfold at_least; cbn; lia]); [|lia].
      pose proof (pot_append r s ltac:(unfold rec_max; lia)) as H. change (pot (set_entry id level (wal_append r s))) with (pot (wal_append r s)). lia. }
    eapply lb_mono; [|apply (lb_less _ _ (u * ((Nat.min cur level + 1) * (hp_m P + 1)) + (if cur <? level then u + n else n)))].
    - intros a m H. apply Hr. exact H.
    - destruct (Nat.ltb_spec cur level).
      + assert ((Nat.min cur level + 1) * (hp_m P + 1) + 1 <= (level + 1) * (hp_m P + 1)) by nia. nia.
      + apply Nat.add_le_mono_r, Nat.mul_le_mono_l, Nat.mul_le_mono_r. lia.
    - unfold at_least. intros; lia.
    - apply lb_construct.
  Qed.
  Lemma pot_flush io s : pot (fst (wal_flush io s)) = pot s.
  Proof.
    unfold wal_flush. destruct (batch s) as [|b bs] eqn:Eb; [done|]. rewrite <- Eb. destruct (in_order _ _); [|done].
    destruct io; [|done]. unfold pot, log_view. cbn [fst set_wal wlog batch chan]. by rewrite fmap_nil, app_nil_r.
  Qed.
End account.

Section calls.
  Context (C : cparams) (w : bytes -> nat) (u : nat) (Hw : forall r, length r <= rec_max (cp_h C) -> w r <= u).
  Local Notation P := (cp_h C).
  Lemma lb_insert_one ch tid level o n : lb P w u ch (insert_one C tid level o) (u * insert_cost P level + n) (at_least n object).
  Proof.
    unfold insert_one. apply lb_bind, (lb_act _ _ _ _ _ _ (u * insert_cost P level + n)). intros s. destruct (closed s); cbn [fst snd]; (split; [done|]); [done|].
    apply lb_bind. unfold put_object. apply lb_bind, lb_lift. intros ob _. apply lb_bind, lb_lift. intros vb _. apply lb_bind, lb_upd.
    { intros s'. destruct (bc_put _ _ _ _); [by destruct (closed s')|done..]. }
    apply lb_upd. { intros s'. destruct (bc_put _ _ _ _); [by destruct (closed s')|done..]. }
    apply lb_bind. eapply lb_mono; [|by apply lb_hnsw]. unfold at_least. cbn. done.
  Qed.
  Lemma lb_insert ch tid io level o n : lb P w u ch (CollModel.insert C tid io level o) (u * insert_cost P level + n) (at_least n object).
  Proof.
    unfold CollModel.insert, check_open. apply lb_bind, lb_read. intros _. apply lb_bind, lb_lift. intros _ _. apply lb_bind, lb_lift. intros os _.
    destruct os as [|o' [|]]; [done| |done]. apply lb_bind. eapply lb_mono; [|apply lb_insert_one]. intros o'' m Hm. unfold flush. apply lb_bind, lb_upd.
    - intros s. apply pot_flush.
    - apply lb_ret. exact Hm.
  Qed.
  Lemma lb_delete ch f io id n : lb P w u ch (delete_found f io id) (u + n) (at_least n unit).
  Proof.
    unfold delete_found. apply lb_bind, lb_read. intros [o|]; [|apply lb_ret; unfold at_least; lia].
    apply lb_bind, lb_upd; [intros s; by destruct (closed s)|]. apply lb_bind. unfold hnsw_delete. destruct (enc_delete id) as [r| |] eqn:E; [|done..].
    apply enc_delete_len in E. intros s. exists n. split.
    - pose proof (pot_append P w u Hw ch r s ltac:(unfold rec_max; lia)) as H.
      match goal with |- pot ?p ?w ?u ?h ?a + _ <= _ => change (pot p w u h a) with (pot p w u h (wal_append r s)) end. lia.
    - cbn. apply lb_upd; [intros s'; apply pot_flush|unfold at_least; lia].
  Qed.
  Lemma lb_worker ch tid : forall os n, lb P w u ch (worker C tid os) (u * costs P (snd <$> os) + n) (at_least n (list object)).
  Proof.
    induction os as [|[o level] os IH]; intros n; cbn [worker]; [apply lb_ret; unfold at_least; lia|]. apply lb_bind.
    change (costs P (snd <$> (o, level) :: os)) with (insert_cost P level + costs P (snd <$> os)).
    replace (u * (insert_cost P level + costs P (snd <$> os)) + n) with (u * insert_cost P level + (u * costs P (snd <$> os) + n)) by lia.
    eapply lb_mono; [|apply lb_insert_one]. intros o' m Hm. apply lb_bind.
    eapply (lb_less _ _ _ _ _ _ _ _ Hm); [intros a m1 m2 Hm2 H; eapply Nat.le_trans; [|exact Hm2]; exact H|].
    eapply lb_mono; [|apply IH]. intros a m' H. exact H.
  Qed.
  Lemma lb_worker2 tid : forall k n, lb P w u true (worker2 C k tid) n (at_least n (list object)).
  Proof.
    induction k as [|k IH]; intros n; cbn [worker2]; apply lb_bind; intros s; destruct (chan s) as [|[o level] os] eqn:Ec;
      try (exists n; split; [done|]; cbn; unfold at_least; lia).
    all: exists (u * insert_cost P level + n); split;
      [unfold pot; cbn [set_chan chan]; rewrite Ec; change (costs P (snd <$> (o, level) :: os)) with (insert_cost P level + costs P (snd <$> os));
       change (log_view (set_chan os s)) with (log_view s); lia|].
    all: cbn [lb]; apply lb_bind; eapply lb_mono; [|apply lb_insert_one]; intros o' m Hm.
    { done. }
    apply lb_bind. eapply (lb_less _ _ _ _ _ _ _ _ Hm); [intros a m1 m2 Hm2 H; eapply Nat.le_trans; [|exact Hm2]; exact H|].
    eapply lb_mono; [|apply IH]. intros a m' H. exact H.
  Qed.

  (** Any number of goroutines, each with its budget. *)
  Lemma lb_machine {A} ch (ts : list (prog st A)) ns s s' ts' :
    Forall2 (fun p n => lb P w u ch p n (fun _ _ => True)) ts ns -> rtc mstep (s, ts) (s', ts') ->
    pot P w u ch s' <= pot P w u ch s + sum_list ns.
  Proof.
    intros H Hr. remember (s, ts) as x eqn:Ex. remember (s', ts') as y eqn:Ey. revert s ts ns H Ex Ey.
    induction Hr as [x|x y z Hxy Hyz IH]; intros s ts ns H Ex Ey; [simplify_eq; lia|].
    destruct Hxy as [s0 ts0 i f s1 p1 Hi Hf]. injection Ex as -> ->.
    destruct (Forall2_lookup_l _ _ _ _ _ H Hi) as (n & Hn & Hl). specialize (Hl s). rewrite Hf in Hl. destruct Hl as (n' & Hle & Hl).
    assert (H' : Forall2 (fun p n => lb P w u ch p n (fun _ _ => True)) (<[i:=p1]> ts) (<[i:=n']> ns)) by (by apply Forall2_insert).
    specialize (IH _ _ _ H' eq_refl Ey).
    assert (Hsum : sum_list (<[i:=n']> ns) + n = sum_list ns + n').
    { clear -Hn. revert i Hn. induction ns as [|m ns IH]; intros [|i] Hn; try done.
      - injection Hn as ->. change (n' + sum_list ns + n = n + sum_list ns + n'). lia.
      - specialize (IH i Hn). change (m + sum_list (<[i:=n']> ns) + n = m + sum_list ns + n'). lia. }
    lia.
  Qed.
  Lemma lb_exec {A} ch (p : prog st A) n s s' r : lb P w u ch p n (fun _ _ => True) -> exec p s = Some (s', r) ->
    pot P w u ch s' <= pot P w u ch s + n.
  Proof.
    revert n s. induction p as [r0|f IH] using prog_ind'; intros n s H; cbn [exec]; [intros [= -> ->]; lia|].
    specialize (H s). destruct (f s) as [[s1 p1]|] eqn:E; [|done]. destruct H as (n' & Hle & H). intros Hx. specialize (IH _ _ _ E n' s1 H Hx). lia.
  Qed.
End calls.

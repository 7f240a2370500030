(** Two more facts about programs: which part of the state an answer depends
    on, and that the index programs return no errors (they succeed or panic). *)
From stdpp Require Import relations.
From Verif Require Import GoBase FloatModel HeapModel ProgModel StateModel WalModel HnswModel StoreModel CollModel
  ProofBase CodecProofs CodecSpec LogProofs WpProofs StepProofs.
Open Scope nat_scope.

(** ** Runs from related states *)
Section sim.
  Context {S : Type} (R : S -> S -> Prop).

  Fixpoint sim {A} (p : prog S A) : Prop :=
    match p with
    | Done _ => True
    | Step f => forall s1 s2, R s1 s2 ->
        match f s1 with
        | Some (s1', p') => exists s2', f s2 = Some (s2', p') /\ R s1' s2' /\ sim p'
        | None => f s2 = None
        end
    end.
  Lemma sim_bind {A B} (p : prog S A) (k : A -> prog S B) : sim p -> (forall a, sim (k a)) -> sim (p ≫= k).
  Proof.
    intros Hp Hk. change (p ≫= k) with (pbind p k). induction p as [r|f IH] using prog_ind'; cbn [pbind sim] in *.
    - destruct r; [apply Hk|done..].
    - intros s1 s2 HR. specialize (Hp s1 s2 HR). destruct (f s1) as [[s1' p']|] eqn:E.
      + destruct Hp as (s2' & -> & HR' & Hp'). exists s2'. split; [done|]. split; [done|]. by eapply IH.
      + by rewrite Hp.
  Qed.
  Lemma sim_done {A} (r : out A) : sim (Done r). Proof. done. Qed.
  Lemma sim_lift {A} (r : out A) : sim (lift r : prog S A). Proof. done. Qed.
  Lemma sim_ret {A} (a : A) : sim (mret a : prog S A). Proof. done. Qed.
  Lemma sim_read {A} (f : S -> out A) : (forall s1 s2, R s1 s2 -> f s1 = f s2) -> sim (act (fun s => (s, f s))).
  Proof. intros H s1 s2 HR. rewrite (H s1 s2 HR). by exists s2. Qed.
  Lemma sim_exec {A} (p : prog S A) s1 s2 :
    sim p -> R s1 s2 ->
    match exec p s1 with
    | Some (s1', r) => exists s2', exec p s2 = Some (s2', r) /\ R s1' s2'
    | None => exec p s2 = None
    end.
  Proof.
    revert s1 s2. induction p as [r|f IH] using prog_ind'; intros s1 s2 Hp HR; cbn [exec].
    - by exists s2.
    - cbn [sim] in Hp. specialize (Hp s1 s2 HR). destruct (f s1) as [[s1' p']|] eqn:E.
      + destruct Hp as (s2' & -> & HR' & Hp'). by eapply IH.
      + by rewrite Hp.
  Qed.
End sim.

(** What searching and reading looks at. *)
Definition same_view (s1 s2 : st) : Prop :=
  nodes s1 = nodes s2 /\ ep s1 = ep s2 /\ maxl s1 = maxl s2 /\ deleted s1 = deleted s2 /\
  objs s1 = objs s2 /\ vecs s1 = vecs s2 /\ closed s1 = closed s2.
Lemma same_view_refl s : same_view s s. Proof. done. Qed.
Lemma same_view_sym s1 s2 : same_view s1 s2 -> same_view s2 s1.
Proof. intros (?&?&?&?&?&?&?). by unfold same_view. Qed.

Ltac sim_tac :=
  repeat first
    [ apply sim_bind; [|intros ?]
    | apply sim_ret | apply sim_lift | apply sim_done
    | match goal with |- sim _ (match ?x with _ => _ end) => destruct x end
    | match goal with |- sim _ (if ?x then _ else _) => destruct x end ].

Section view.
  Context (P : hparams) (tid : nat).
  Notation vsim := (sim same_view).

  Lemma sim_read_vertex n : vsim (read_vertex n).
  Proof. apply sim_read. by intros s1 s2 (-> & _). Qed.
  Lemma sim_read_conns n l : vsim (read_conns P tid n l).
  Proof.
    intros s1 s2 (En & Ee & Em & Ed & Eo & Ev & Ec). rewrite En.
    destruct (nodes s2 !! n) as [v|]; [|exists s2; by split_and!].
    destruct (v_lock v); [done|]. destruct (v_conns v !! l) as [cs|]; [case_decide|].
    - exists s2. by split_and!.
    - eexists. split_and!; [done|..|done]. by split_and!.
    - eexists. split_and!; [done|..|done]. by split_and!.
  Qed.
  Lemma sim_visit_conns q ef cs x : vsim (visit_conns P q ef cs x).
  Proof.
    revert x. induction cs as [|c cs IH]; intros x; cbn [visit_conns]; [done|].
    case_bool_decide; [apply IH|]. sim_tac. { apply sim_read_vertex. } apply IH.
  Qed.
  Lemma sim_search_loop fuel q ef l x : vsim (search_loop P tid fuel q ef l x).
  Proof.
    revert x. induction fuel as [|fuel IH]; intros x; cbn [search_loop]; destruct (sl_cands x) eqn:Ec; try done.
    sim_tac; [apply sim_read_conns|apply sim_visit_conns|apply IH].
  Qed.
  Lemma sim_search_layer fuel q eps ef l : vsim (search_layer P tid fuel q eps ef l).
  Proof. unfold search_layer. sim_tac. apply sim_search_loop. Qed.
  Lemma sim_descend fuel q l stop e : vsim (descend P tid fuel q l stop e).
  Proof.
    revert e. induction l as [|l IH]; intros e; cbn [descend]; [done|].
    match goal with |- context [if ?b then _ else _] => destruct b end; [|done].
    apply sim_bind; [apply sim_search_layer|intros near]. sim_tac; apply IH.
  Qed.
  Lemma sim_search fuel q k : vsim (hnsw_search P tid fuel q k).
  Proof.
    unfold hnsw_search. destruct (k <? 0)%Z; [done|].
    apply sim_bind; [apply sim_read; by intros s1 s2 (-> & -> & -> & _)|intros [[epid epv] cur]].
    apply sim_bind; [apply sim_lift|intros d].
    apply sim_bind; [apply sim_descend|intros e].
    apply sim_bind; [apply sim_search_layer|intros near].
    apply sim_bind; [apply sim_read; by intros s1 s2 (_ & _ & _ & -> & _)|intros dels]. apply sim_lift.
  Qed.
End view.

Section coll.
  Context (C : cparams).
  Lemma get_object_view s1 s2 id : same_view s1 s2 -> get_object (cp_json C) s1 id = get_object (cp_json C) s2 id.
  Proof. intros (_ & _ & _ & _ & Eo & Ev & Ec). unfold get_object. by rewrite Eo, Ev, Ec. Qed.
  Lemma get_objects_view s1 s2 ids : same_view s1 s2 -> get_objects (cp_json C) s1 ids = get_objects (cp_json C) s2 ids.
  Proof. intros H. induction ids as [|id ids IH]; [done|]. cbn [get_objects]. by rewrite (get_object_view _ _ _ H), IH. Qed.
  Lemma sim_semantic_search tid o k : sim same_view (semantic_search C tid o k).
  Proof.
    unfold semantic_search. apply sim_bind; [apply sim_read; by intros s1 s2 (_&_&_&_&_&_&->)|intros _].
    apply sim_bind; [apply sim_lift|]. intros [|o' [|? ?]]; [done| |done].
    apply sim_bind; [apply sim_search|intros es].
    apply sim_bind; [apply sim_read; intros s1 s2 H; by apply get_objects_view|intros os].
    apply sim_bind; [apply sim_lift|done].
  Qed.
  Lemma sim_get ids : sim same_view (CollModel.get C ids).
  Proof. apply sim_read. intros s1 s2 H. rewrite (get_objects_view _ _ _ H). by destruct H as (_&_&_&_&_&_&->). Qed.
  (** The reply of a search depends on nothing else. *)
  Lemma search_view s1 s2 tid o k :
    same_view s1 s2 -> snd <$> exec (semantic_search C tid o k) s1 = snd <$> exec (semantic_search C tid o k) s2.
  Proof.
    intros H. pose proof (sim_exec _ _ _ _ (sim_semantic_search tid o k) H) as Hx.
    destruct (exec (semantic_search C tid o k) s1) as [[s1' r]|]; [|by rewrite Hx].
    destruct Hx as (s2' & -> & _). done.
  Qed.
  Lemma get_view s1 s2 ids : same_view s1 s2 -> snd <$> exec (CollModel.get C ids) s1 = snd <$> exec (CollModel.get C ids) s2.
  Proof.
    intros H. pose proof (sim_exec _ _ _ _ (sim_get ids) H) as Hx.
    destruct (exec (CollModel.get C ids) s1) as [[s1' r]|]; [|by rewrite Hx].
    destruct Hx as (s2' & -> & _). done.
  Qed.
End coll.

(** ** The index reports no errors *)
Definition ok_out {A} (r : out A) : Prop := forall e, r <> Err e.
Lemma ok_bind {A B} (o : out A) (k : A -> out B) : ok_out o -> (forall a, ok_out (k a)) -> ok_out (o ≫= k).
Proof. intros Ho Hk e. destruct o as [a|x|z]; cbn; [apply Hk|by destruct (Ho x)|done]. Qed.
Lemma ok_val {A} (a : A) : ok_out (Val a). Proof. done. Qed.
Lemma ok_pan {A} p : ok_out (Pan p : out A). Proof. done. Qed.
Lemma ok_or_pan {A} p (x : option A) : ok_out (or_pan p x). Proof. by destruct x. Qed.

Section noerr.
  Context {S : Type}.
  Fixpoint no_err {A} (p : prog S A) : Prop :=
    match p with
    | Done r => ok_out r
    | Step f => forall s, match f s with Some (_, p') => no_err p' | None => True end
    end.
  Lemma no_err_bind {A B} (p : prog S A) (k : A -> prog S B) : no_err p -> (forall a, no_err (k a)) -> no_err (p ≫= k).
  Proof.
    intros Hp Hk. change (p ≫= k) with (pbind p k). induction p as [r|f IH] using prog_ind'; cbn [pbind no_err] in *.
    - destruct r as [a|x|z]; [apply Hk|by destruct (Hp x)|done].
    - intros s. specialize (Hp s). destruct (f s) as [[s' p']|] eqn:E; [|done]. by eapply IH.
  Qed.
  Lemma no_err_act {A} (f : S -> S * out A) : (forall s, ok_out (snd (f s))) -> no_err (act f).
  Proof. intros H s. specialize (H s). by destruct (f s). Qed.
  Lemma no_err_lock {A} (f : S -> option (S * out A)) : (forall s s' r, f s = Some (s', r) -> ok_out r) -> no_err (act_lock f).
  Proof. intros H s. specialize (H s). destruct (f s) as [[s' r]|]; [by eapply H|done]. Qed.
  Lemma no_err_ret {A} (a : A) : no_err (mret a : prog S A). Proof. done. Qed.
  Lemma no_err_exec {A} (p : prog S A) s s' r : no_err p -> exec p s = Some (s', r) -> ok_out r.
  Proof.
    revert s. induction p as [r0|f IH] using prog_ind'; intros s Hp; cbn [exec].
    - by intros [_ <-]%Some_pair_inj.
    - cbn [no_err] in Hp. specialize (Hp s). destruct (f s) as [[s1 p']|] eqn:E; [|done]. by eapply IH.
  Qed.
  Lemma no_err_mstep {A} (m m' : machine S A) : mstep m m' -> Forall no_err (snd m) -> Forall no_err (snd m').
  Proof.
    intros [s ts i f s' p' Hi Hf] Hall. cbn [snd] in *. apply Forall_insert; [done|].
    rewrite Forall_lookup in Hall. specialize (Hall i _ Hi s). by rewrite Hf in Hall.
  Qed.
End noerr.

Ltac ok_tac :=
  repeat first
    [ apply ok_val | apply ok_pan | apply ok_or_pan
    | apply ok_bind; [|intros ?]
    | match goal with |- ok_out (match ?x with _ => _ end) => destruct x end
    | match goal with |- ok_out (if ?x then _ else _) => destruct x end ].

Lemma ok_heap_pop {A} (less : A -> A -> bool) l : ok_out (heap_pop less l).
Proof. unfold heap_pop. destruct l; [done|]. by destruct (_ !! _). Qed.
Lemma ok_heap_peek {A} (l : list A) : ok_out (heap_peek l).
Proof. apply ok_or_pan. Qed.
Lemma ok_euclid_loop v1 v2 sum : ok_out (euclid_loop v1 v2 sum).
Proof. revert v2 sum. induction v1 as [|a v1 IH]; intros [|b v2] sum; cbn [euclid_loop]; try done. Qed.
Lemma ok_dot_stmt v1 v2 i sum : ok_out (dot_stmt v1 v2 i sum).
Proof. unfold dot_stmt, vidx. ok_tac. Qed.
Lemma ok_dot_loop n v1 v2 i sum : ok_out (dot_loop n v1 v2 i sum).
Proof.
  revert i sum. induction n as [|n IH]; intros i sum; cbn [dot_loop]; [done|]. destruct (decide (i < length v1)); [|done].
  do 8 (apply ok_bind; [apply ok_dot_stmt|intros ?]). apply IH.
Qed.
Lemma ok_dist P v1 v2 : ok_out (dist P v1 v2).
Proof.
  unfold dist, dist_func. destruct (hp_dist P); [apply ok_dot_loop|]. unfold euclidean. apply ok_bind; [apply ok_euclid_loop|done].
Qed.
Lemma ok_consider ef nid d x : ok_out (consider ef nid d x).
Proof.
  unfold consider. apply ok_bind; [apply ok_heap_peek|intros f]. ok_tac. apply ok_heap_pop.
Qed.
Lemma ok_pop_ids n h : ok_out (pop_ids n h).
Proof. revert h. induction n as [|n IH]; intros h; cbn [pop_ids]; [done|]. apply ok_bind; [apply ok_heap_pop|intros [e h']]. apply ok_bind; [apply IH|done]. Qed.

Ltac ne_tac :=
  repeat first
    [ apply no_err_bind; [|intros ?]
    | apply no_err_ret
    | match goal with |- no_err (match ?x with _ => _ end) => destruct x end
    | match goal with |- no_err (if ?x then _ else _) => destruct x end ].

Section index_noerr.
  Context (P : hparams) (tid : nat).
  Lemma ne_read_vertex n : no_err (read_vertex n).
  Proof. apply no_err_act. intros s. apply ok_or_pan. Qed.
  Lemma ne_wal_write d : ok_out d -> no_err (wal_write d).
  Proof. intros H. destruct d as [d|e|z]; [|by destruct (H e)|done]. by apply no_err_act. Qed.
  Lemma ne_read_conns n l : no_err (read_conns P tid n l).
  Proof.
    apply no_err_lock. intros s s' r. destruct (nodes s !! n) as [v|]; [|by intros [= <- <-]].
    destruct (v_lock v); [done|]. destruct (v_conns v !! l) as [cs|]; [case_decide|]; by intros [= <- <-].
  Qed.
  Lemma ne_visit_conns q ef cs x : no_err (visit_conns P q ef cs x).
  Proof.
    revert x. induction cs as [|c cs IH]; intros x; cbn [visit_conns]; [done|].
    case_bool_decide; [apply IH|]. apply no_err_bind; [apply ok_heap_peek|intros ?].
    apply no_err_bind; [apply ne_read_vertex|intros ?]. apply no_err_bind; [apply ok_dist|intros ?].
    apply no_err_bind; [apply ok_consider|intros ?]. apply IH.
  Qed.
  Lemma ne_search_loop fuel q ef l x : no_err (search_loop P tid fuel q ef l x).
  Proof.
    revert x. induction fuel as [|fuel IH]; intros x; cbn [search_loop]; destruct (sl_cands x) eqn:Ec; try done.
    apply no_err_bind; [apply ok_heap_pop|intros [c cs]]. apply no_err_bind; [apply ok_heap_peek|intros f].
    destruct (fltb _ _); [done|]. apply no_err_bind; [apply ne_read_conns|intros ?].
    apply no_err_bind; [apply ne_visit_conns|intros ?]. apply IH.
  Qed.
  Lemma ne_search_layer fuel q eps ef l : no_err (search_layer P tid fuel q eps ef l).
  Proof.
    unfold search_layer. apply no_err_bind; [unfold new_min_heap_deep; by case_decide|intros ?].
    apply no_err_bind; [unfold new_max_heap_deep; by case_decide|intros ?].
    apply no_err_bind; [apply ne_search_loop|done].
  Qed.
  Lemma ne_heur_check e res : no_err (heur_check P e res).
  Proof.
    induction res as [|r res IH]; cbn [heur_check]; [done|].
    apply no_err_bind; [apply no_err_act; intros s; cbn; ok_tac|intros [ev rv]].
    apply no_err_bind; [apply ok_dist|intros ?]. by destruct (fltb _ _).
  Qed.
  Lemma ne_heur_loop n q m res : no_err (heur_loop P n q m res).
  Proof.
    revert q res. induction n as [|n IH]; intros q res; cbn [heur_loop]; destruct q as [|x q]; try done; destruct (_ <? _); try done.
    apply no_err_bind; [apply ok_heap_pop|intros [e q']]. apply no_err_bind; [apply ne_heur_check|intros ok]. apply IH.
  Qed.
  Lemma ne_select cands m : no_err (select_neighbors P cands m).
  Proof. unfold select_neighbors, select_heuristic. destruct (hp_heuristic P); [apply ne_heur_loop|apply ok_pop_ids]. Qed.
  Lemma ne_lock_conns n l : no_err (lock_conns tid n l).
  Proof.
    apply no_err_lock. intros s s' r. destruct (nodes s !! n) as [v|]; [|by intros [= <- <-]].
    destruct (v_lock v); [done|]. destruct (v_conns v !! l) as [cs|]; by intros [= <- <-].
  Qed.
  Lemma ok_add_conn v l id : ok_out (vertex_add_conn v l id).
  Proof. unfold vertex_add_conn. ok_tac. Qed.
  Lemma ok_set_conns v l ns : ok_out (vertex_set_conns v l ns).
  Proof. unfold vertex_set_conns. ok_tac. Qed.
  Lemma ne_add_conn_unlock n l id : no_err (add_conn_unlock n l id).
  Proof.
    apply no_err_act. intros s. destruct (nodes s !! n) as [v|]; [|done]. pose proof (ok_add_conn v l id) as H.
    destruct (vertex_add_conn v l id) as [v'|e|z]; [done|by destruct (H e)|done].
  Qed.
  Lemma ne_set_conns_unlock n l ns : no_err (set_conns_unlock n l ns).
  Proof.
    apply no_err_act. intros s. destruct (nodes s !! n) as [v|]; [|done]. pose proof (ok_set_conns v l ns) as H.
    destruct (vertex_set_conns v l ns) as [v'|e|z]; [done|by destruct (H e)|done].
  Qed.
  Lemma ne_set_conns_unlocked n l ns : no_err (set_conns_unlocked n l ns).
  Proof.
    apply no_err_act. intros s. destruct (nodes s !! n) as [v|]; [|done]. pose proof (ok_set_conns v l ns) as H.
    destruct (vertex_set_conns v l ns) as [v'|e|z]; [done|by destruct (H e)|done].
  Qed.
  Lemma ne_conn_elems b cs : no_err (conn_elems P b cs).
  Proof.
    induction cs as [|c cs IH]; cbn [conn_elems]; [done|]. apply no_err_bind; [apply ne_read_vertex|intros ?].
    apply no_err_bind; [apply ok_dist|intros ?]. apply no_err_bind; [apply IH|done].
  Qed.
  Lemma ok_enc o : ok_out (enc_wop o).
  Proof. destruct (enc_wop_total o) as [r ->]. done. Qed.
  Lemma ne_link_one id vec l mc n : no_err (link_one P tid id vec l mc n).
  Proof.
    unfold link_one. apply no_err_bind; [apply ne_lock_conns|]. intros [nv cs]. destruct (_ <? _).
    - apply no_err_bind; [apply ne_wal_write, (ok_enc (WAddConn n l id))|intros _]. apply ne_add_conn_unlock.
    - apply no_err_bind; [apply ok_dist|intros d]. apply no_err_bind; [apply ne_conn_elems|intros es].
      apply no_err_bind; [apply ne_select|intros ns]. apply no_err_bind; [apply ne_wal_write, (ok_enc (WSetConns n l ns))|intros _].
      apply ne_set_conns_unlock.
  Qed.
  Lemma ne_link_all id vec l mc ns : no_err (link_all P tid id vec l mc ns).
  Proof. induction ns as [|n ns IH]; cbn [link_all]; [done|]. apply no_err_bind; [apply ne_link_one|intros _]. apply IH. Qed.
  Lemma ne_construct fuel id vec l eps : no_err (construct P tid fuel id vec l eps).
  Proof.
    revert eps. induction l as [|l IH]; intros eps; cbn [construct].
    all: apply no_err_bind; [apply ne_search_layer|intros near].
    all: apply no_err_bind; [apply ne_select|intros ns].
    all: match goal with |- context [enc_set_conns ?i0 ?l0 ?ns0] => apply no_err_bind; [apply ne_wal_write, (ok_enc (WSetConns i0 l0 ns0))|intros _] end.
    all: apply no_err_bind; [apply ne_set_conns_unlocked|intros _].
    all: apply no_err_bind; [apply ne_link_all|intros _].
    - done.
    - apply IH.
  Qed.
  Lemma ne_descend fuel q l stop e : no_err (descend P tid fuel q l stop e).
  Proof.
    revert e. induction l as [|l IH]; intros e; cbn [descend]; [done|].
    match goal with |- context [if ?b then _ else _] => destruct b end; [|done].
    apply no_err_bind; [apply ne_search_layer|intros near]. apply no_err_bind; [apply ok_or_pan|intros e']. apply IH.
  Qed.
  Lemma ne_insert fuel level vec id : no_err (hnsw_insert P tid fuel level vec id).
  Proof.
    unfold hnsw_insert. apply no_err_bind.
    { unfold once_insert. destruct (enc_set_entry id 0); [|done..]. destruct (enc_add_vertex id 0); [|done..].
      apply no_err_act. intros s. destruct (once s); [done|]. by case_bool_decide. }
    intros [|]; [done|].
    apply no_err_bind; [apply ne_wal_write, (ok_enc (WAddVertex id level))|intros _].
    apply no_err_bind; [by apply no_err_act|intros _].
    apply no_err_bind; [apply no_err_act; intros s; cbn; ok_tac|intros [[epid epv] cur]].
    apply no_err_bind; [apply ok_dist|intros d].
    apply no_err_bind; [apply ne_descend|intros e].
    apply no_err_bind; [apply ne_construct|intros _].
    unfold raise_entry. pose proof (ok_enc (WSetEntry id level)) as Hk. cbn [enc_wop] in Hk. destruct (enc_set_entry id level) as [r|x|z]; [|by destruct (Hk x)|done].
    apply no_err_act. intros s. by destruct (cur <? level).
  Qed.
  Lemma ok_take_live n h dels k : ok_out (take_live n h dels k).
  Proof.
    revert h k. induction n as [|n IH]; intros [|x h] [|k]; cbn [take_live]; try done.
    apply ok_bind; [apply ok_heap_pop|intros [e h']]. destruct (bool_decide _); [apply IH|]. apply ok_bind; [apply IH|done].
  Qed.
  Lemma ne_search fuel q k : no_err (hnsw_search P tid fuel q k).
  Proof.
    unfold hnsw_search. destruct (k <? 0)%Z; [done|].
    apply no_err_bind; [apply no_err_act; intros s; cbn; ok_tac|intros [[epid epv] cur]].
    apply no_err_bind; [apply ok_dist|intros d].
    apply no_err_bind; [apply ne_descend|intros e].
    apply no_err_bind; [apply ne_search_layer|intros near].
    apply no_err_bind; [by apply no_err_act|intros dels]. apply ok_take_live.
  Qed.
End index_noerr.

(** ** Which errors the collection reports *)
Section errs.
  Context {S : Type} (E : err_t -> Prop).
  Definition out_errs {A} (r : out A) : Prop := forall e, r = Err e -> E e.
  Fixpoint errs {A} (p : prog S A) : Prop :=
    match p with
    | Done r => out_errs r
    | Step f => forall s, match f s with Some (_, p') => errs p' | None => True end
    end.
  Lemma errs_no_err {A} (p : prog S A) : no_err p -> errs p.
  Proof.
    induction p as [r|f IH] using prog_ind'; cbn [no_err errs].
    - intros H e He. by destruct (H e).
    - intros H s. specialize (H s). destruct (f s) as [[s' p']|] eqn:Ef; [|done]. by eapply IH.
  Qed.
  Lemma errs_bind {A B} (p : prog S A) (k : A -> prog S B) : errs p -> (forall a, errs (k a)) -> errs (p ≫= k).
  Proof.
    intros Hp Hk. change (p ≫= k) with (pbind p k). induction p as [r|f IH] using prog_ind'; cbn [pbind errs] in *.
    - destruct r as [a|x|z]; [apply Hk| |done]. intros e [= <-]. by apply Hp.
    - intros s. specialize (Hp s). destruct (f s) as [[s' p']|] eqn:Ef; [|done]. by eapply IH.
  Qed.
  Lemma errs_act {A} (f : S -> S * out A) : (forall s, out_errs (snd (f s))) -> errs (act f).
  Proof. intros H s. specialize (H s). by destruct (f s). Qed.
  Lemma errs_exec {A} (p : prog S A) s s' r : errs p -> exec p s = Some (s', r) -> out_errs r.
  Proof.
    revert s. induction p as [r0|f IH] using prog_ind'; intros s Hp; cbn [exec].
    - by intros [_ <-]%Some_pair_inj.
    - cbn [errs] in Hp. specialize (Hp s). destruct (f s) as [[s1 p']|] eqn:Ef; [|done]. by eapply IH.
  Qed.
  Lemma errs_rtc {A} (m m' : machine S A) : rtc mstep m m' -> Forall errs (snd m) -> Forall errs (snd m').
  Proof.
    induction 1 as [|m m1 m' Hs Hr IH]; [done|]. intros Hall. apply IH.
    destruct Hs as [s ts i f s' p' Hi Hf]. cbn [snd] in *. apply Forall_insert; [done|].
    rewrite Forall_lookup in Hall. specialize (Hall i _ Hi s). by rewrite Hf in Hall.
  Qed.
End errs.

(** insert_one fails for these reasons only. *)
Definition ins_err (e : err_t) : Prop := e = EFileClosed \/ e = EJSON \/ e = EValueTooLarge.
Lemma ser_props_err J p e : ser_props J p = Err e -> e = EJSON.
Proof.
  destruct (j_enc J p) as [js|] eqn:Ej; [|unfold ser_props; rewrite Ej; congruence]. by rewrite (ser_props_eq _ _ _ Ej).
Qed.
Lemma errs_put J m o : errs ins_err (put_object J m o).
Proof.
  unfold put_object. apply errs_bind.
  { intros e He. right; left. by eapply ser_props_err. }
  intros ob. apply errs_bind.
  { intros e He. by rewrite ser_vec_eq in He. }
  intros vb. apply errs_bind; [|intros _].
  all: apply errs_act; intros s; unfold bc_put; destruct (_ <? _)%N; [|destruct (closed s)]; cbn [snd]; [| |done]; intros e [= <-]; unfold ins_err; auto.
Qed.
Lemma errs_mono {S A} (E1 E2 : err_t -> Prop) (p : prog S A) : (forall e, E1 e -> E2 e) -> errs E1 p -> errs E2 p.
Proof.
  intros HE. induction p as [r|f IH] using prog_ind'; cbn [errs].
  - intros H e He. by apply HE, H.
  - intros H s. specialize (H s). destruct (f s) as [[s' p']|] eqn:Ef; [|done]. by eapply IH.
Qed.
Lemma errs_insert_one C tid level o : errs ins_err (insert_one C tid level o).
Proof.
  unfold insert_one. apply errs_bind; [|intros id]. 
  { apply errs_act. intros s. destruct (closed s); cbn [snd]; [|done]. intros e [= <-]. by left. }
  apply errs_bind; [|intros _].
  { apply errs_put. }
  apply errs_bind; [apply errs_no_err, ne_insert|done].
Qed.
Lemma errs_worker C tid os : errs ins_err (worker C tid os).
Proof. induction os as [|[o l] os IH]; cbn [worker]; [done|]. apply errs_bind; [apply errs_insert_one|intros o']. apply errs_bind; [apply IH|done]. Qed.
Lemma errs_worker2 C n tid : errs ins_err (worker2 C n tid).
Proof.
  induction n as [|n IH]; cbn [worker2]; (apply errs_bind; [apply errs_act; intros s; by destruct (chan s)|]); intros [[o l]|]; try done.
  - apply errs_bind; [apply errs_insert_one|done].
  - apply errs_bind; [apply errs_insert_one|intros o']. apply errs_bind; [apply IH|done].
Qed.

(** Properties of every single atomic step of a program, whatever the state
    it is run in: [steps R p] says each step of [p] relates the state before
    and after by [R].  This needs no invariant and covers runs that panic. *)
From stdpp Require Import relations.
From Verif Require Import GoBase FloatModel HeapModel ProgModel StateModel WalModel HnswModel StoreModel CollModel
  ProofBase WpProofs.
Open Scope nat_scope.

Section steps.
  Context {S : Type} (R : S -> S -> Prop).

  Fixpoint steps {A} (p : prog S A) : Prop :=
    match p with
    | Done _ => True
    | Step f => forall s, match f s with Some (s', p') => R s s' /\ steps p' | None => True end
    end.

  Lemma steps_bind {A B} (p : prog S A) (k : A -> prog S B) :
    steps p -> (forall a, steps (k a)) -> steps (p ≫= k).
  Proof.
    intros Hp Hk. change (p ≫= k) with (pbind p k).
    induction p as [r|f IH] using prog_ind'; cbn [pbind steps] in *.
    - destruct r; [apply Hk|done..].
    - intros s. specialize (Hp s). destruct (f s) as [[s' p']|] eqn:E; [|done].
      destruct Hp as [HR Hp]. split; [done|]. by eapply IH.
  Qed.
  Lemma steps_done {A} (r : out A) : steps (Done r). Proof. done. Qed.
  Lemma steps_lift {A} (r : out A) : steps (lift r : prog S A). Proof. done. Qed.
  Lemma steps_ret {A} (a : A) : steps (mret a : prog S A). Proof. done. Qed.
  Lemma steps_act {A} (f : S -> S * out A) : (forall s, R s (fst (f s))) -> steps (act f).
  Proof. intros H s. specialize (H s). destruct (f s). cbn in *. done. Qed.
  Lemma steps_act_lock {A} (f : S -> option (S * out A)) :
    (forall s s' r, f s = Some (s', r) -> R s s') -> steps (act_lock f).
  Proof. intros H s. specialize (H s). destruct (f s) as [[s' r]|]; [|done]. split; [|done]. by eapply H. Qed.

  Context (Rrefl : forall s, R s s) (Rtrans : forall a b c, R a b -> R b c -> R a c).

  Lemma steps_exec {A} (p : prog S A) s s' r : steps p -> exec p s = Some (s', r) -> R s s'.
  Proof using Rrefl Rtrans.
    revert s. induction p as [r0|f IH] using prog_ind'; intros s Hp; cbn [exec].
    - by intros [= <- <-].
    - cbn [steps] in Hp. specialize (Hp s). destruct (f s) as [[s2 p']|] eqn:E; [|done].
      destruct Hp as [HR Hp]. intros Hx. eapply Rtrans; [exact HR|]. by eapply IH.
  Qed.

  Lemma steps_mstep {A} (m m' : machine S A) :
    mstep m m' -> Forall steps (snd m) -> R (fst m) (fst m') /\ Forall steps (snd m').
  Proof.
    intros [s ts i f s' p' Hi Hf] Hall. cbn [fst snd] in *.
    rewrite Forall_lookup in Hall. pose proof (Hall i _ Hi) as Hp. cbn [steps] in Hp. specialize (Hp s). rewrite Hf in Hp.
    destruct Hp as [HR Hp]. split; [done|]. apply Forall_insert; [|done]. by apply Forall_lookup.
  Qed.
  Lemma steps_rtc {A} (m m' : machine S A) :
    rtc mstep m m' -> Forall steps (snd m) -> R (fst m) (fst m') /\ Forall steps (snd m').
  Proof using Rrefl Rtrans.
    induction 1 as [m|m m1 m' Hs Hr IH]; intros Hall; [by split|].
    destruct (steps_mstep _ _ Hs Hall) as [HR1 Hall1]. destruct (IH Hall1) as [HR2 Hall2]. split; [|done]. by eapply Rtrans.
  Qed.
End steps.

Lemma steps_mono {S A} (R R' : S -> S -> Prop) (p : prog S A) :
  (forall s s', R s s' -> R' s s') -> steps R p -> steps R' p.
Proof.
  intros HR. induction p as [r|f IH] using prog_ind'; cbn [steps]; [done|].
  intros H s. specialize (H s). destruct (f s) as [[s' p']|] eqn:E; [|done].
  destruct H as [H1 H2]. split; [by apply HR|]. by eapply IH.
Qed.

(** ** The index programs *)
(** A relation that allows what the index programs do. *)
Record idx_rel (R : st -> st -> Prop) : Prop := IdxRel {
  ir_refl : forall s, R s s;
  ir_nodes : forall s m, R s (set_nodes m s);
  ir_wal : forall s d, R s (wal_append d s)
}.

Ltac steps_tac :=
  repeat first
    [ apply steps_bind; [|intros ?]
    | apply steps_ret | apply steps_lift | apply steps_done
    | match goal with |- steps _ (match ?x with _ => _ end) => destruct x end
    | match goal with |- steps _ (if ?x then _ else _) => destruct x end ].

Section index.
  Context (P : hparams) (tid : nat) (R : st -> st -> Prop) (HR : idx_rel R).

  Lemma steps_read {A} (f : st -> out A) : steps R (act (fun s => (s, f s))).
  Proof using HR. apply steps_act. intros s. apply HR. Qed.
  Lemma steps_read_vertex n : steps R (read_vertex n).
  Proof using HR. apply steps_read. Qed.
  Lemma steps_wal_write d : steps R (wal_write d).
  Proof using HR. destruct d; [|done..]. apply steps_act. intros s. apply HR. Qed.
  Lemma steps_read_conns n l : steps R (read_conns P tid n l).
  Proof using HR.
    apply steps_act_lock. intros s s' r. destruct (nodes s !! n) as [v|]; [|intros [= <- <-]; apply HR].
    destruct (v_lock v); [done|]. destruct (v_conns v !! l) as [cs|]; [case_decide|]; intros [= <- <-]; apply HR.
  Qed.
  Lemma steps_visit_conns q ef cs x : steps R (visit_conns P q ef cs x).
  Proof using HR.
    revert x. induction cs as [|c cs IH]; intros x; cbn [visit_conns]; [done|].
    case_bool_decide; [apply IH|]. steps_tac. { apply steps_read_vertex. } apply IH.
  Qed.
  Lemma steps_search_loop fuel q ef l x : steps R (search_loop P tid fuel q ef l x).
  Proof using HR.
    revert x. induction fuel as [|fuel IH]; intros x; cbn [search_loop]; destruct (sl_cands x) eqn:Ec; try done.
    steps_tac.
    - apply steps_read_conns.
    - apply steps_visit_conns.
    - apply IH.
  Qed.
  Lemma steps_search_layer fuel q eps ef l : steps R (search_layer P tid fuel q eps ef l).
  Proof using HR. unfold search_layer. steps_tac. apply steps_search_loop. Qed.
  Lemma steps_heur_check e res : steps R (heur_check P e res).
  Proof using HR.
    induction res as [|r res IH]; cbn [heur_check]; [done|]. steps_tac; [|apply IH].
    apply steps_read.
  Qed.
  Lemma steps_heur_loop n q m res : steps R (heur_loop P n q m res).
  Proof using HR.
    revert q res. induction n as [|n IH]; intros q res; cbn [heur_loop]; steps_tac; [apply steps_heur_check|apply IH].
  Qed.
  Lemma steps_select cands m : steps R (select_neighbors P cands m).
  Proof using HR. unfold select_neighbors, select_heuristic. destruct (hp_heuristic P); [apply steps_heur_loop|done]. Qed.
  Lemma steps_lock_conns n l : steps R (lock_conns tid n l).
  Proof using HR.
    apply steps_act_lock. intros s s' r. destruct (nodes s !! n) as [v|]; [|intros [= <- <-]; apply HR].
    destruct (v_lock v); [done|]. destruct (v_conns v !! l) as [cs|]; intros [= <- <-]; apply HR.
  Qed.
  Lemma steps_add_conn_unlock n l id : steps R (add_conn_unlock n l id).
  Proof using HR.
    apply steps_act. intros s. destruct (nodes s !! n) as [v|]; [|apply HR]. destruct (vertex_add_conn v l id); apply HR.
  Qed.
  Lemma steps_set_conns_unlock n l ns : steps R (set_conns_unlock n l ns).
  Proof using HR.
    apply steps_act. intros s. destruct (nodes s !! n) as [v|]; [|apply HR]. destruct (vertex_set_conns v l ns); apply HR.
  Qed.
  Lemma steps_set_conns_unlocked n l ns : steps R (set_conns_unlocked n l ns).
  Proof using HR.
    apply steps_act. intros s. destruct (nodes s !! n) as [v|]; [|apply HR]. destruct (vertex_set_conns v l ns); apply HR.
  Qed.
  Lemma steps_conn_elems b cs : steps R (conn_elems P b cs).
  Proof using HR. induction cs as [|c cs IH]; cbn [conn_elems]; [done|]. steps_tac; [apply steps_read_vertex|apply IH]. Qed.
  Lemma steps_link_one id vec l mc n : steps R (link_one P tid id vec l mc n).
  Proof using HR.
    unfold link_one. apply steps_bind; [apply steps_lock_conns|]. intros [nv cs]. steps_tac.
    - apply steps_wal_write.
    - apply steps_add_conn_unlock.
    - apply steps_conn_elems.
    - apply steps_select.
    - apply steps_wal_write.
    - apply steps_set_conns_unlock.
  Qed.
  Lemma steps_link_all id vec l mc ns : steps R (link_all P tid id vec l mc ns).
  Proof using HR. induction ns as [|n ns IH]; cbn [link_all]; [done|].
    apply steps_bind; [apply steps_link_one|intros _]. apply IH. Qed.
  Lemma steps_construct fuel id vec l eps : steps R (construct P tid fuel id vec l eps).
  Proof using HR.
    revert eps. induction l as [|l IH]; intros eps; cbn [construct].
    all: apply steps_bind; [apply steps_search_layer|intros near].
    all: apply steps_bind; [apply steps_select|intros ns].
    all: apply steps_bind; [apply steps_wal_write|intros _].
    all: apply steps_bind; [apply steps_set_conns_unlocked|intros _].
    all: apply steps_bind; [apply steps_link_all|intros _].
    - done.
    - apply IH.
  Qed.
  Lemma steps_descend fuel q l stop e : steps R (descend P tid fuel q l stop e).
  Proof using HR.
    revert e. induction l as [|l IH]; intros e; cbn [descend]; [done|].
    match goal with |- context [if ?b then _ else _] => destruct b end; [|done].
    apply steps_bind; [apply steps_search_layer|intros near]. steps_tac; apply IH.
  Qed.

  Context (Hentry : forall s e l, R s (set_entry e l s)) (Honce : forall s, R s (set_once true s)).
  Context (Rtrans : forall a b c, R a b -> R b c -> R a c).
  Lemma steps_once_insert id vec : steps R (once_insert id vec).
  Proof using HR Hentry Honce Rtrans.
    unfold once_insert. destruct (enc_set_entry id 0) as [r1| |]; [|done..]. destruct (enc_add_vertex id 0) as [r2| |]; [|done..].
    apply steps_act. intros s. destruct (once s); [apply HR|]. case_bool_decide; cbn [fst]; [|apply Honce].
    eapply Rtrans; [apply Honce|]. eapply Rtrans; [apply (ir_wal _ HR) with (d := r1)|].
    eapply Rtrans; [apply Hentry|]. eapply Rtrans; [apply (ir_wal _ HR) with (d := r2)|]. apply HR.
  Qed.
  Lemma steps_raise_entry id level cur : steps R (raise_entry id level cur).
  Proof using HR Hentry Rtrans.
    unfold raise_entry. destruct (enc_set_entry id level) as [r| |]; [|done..]. apply steps_act. intros s.
    destruct (cur <? level); cbn [fst]; [|apply HR]. eapply Rtrans; [apply (ir_wal _ HR) with (d := r)|apply Hentry].
  Qed.
  Lemma steps_insert fuel level vec id : steps R (hnsw_insert P tid fuel level vec id).
  Proof using HR Hentry Honce Rtrans.
    unfold hnsw_insert. apply steps_bind; [apply steps_once_insert|]. intros [|]; [done|].
    apply steps_bind; [apply steps_wal_write|intros _].
    apply steps_bind; [apply steps_act; intros s; apply HR|intros _].
    apply steps_bind; [apply steps_read|intros [[epid epv] cur]].
    apply steps_bind; [apply steps_lift|intros d].
    apply steps_bind; [apply steps_descend|intros e].
    apply steps_bind; [apply steps_construct|intros _]. apply steps_raise_entry.
  Qed.
  Lemma steps_search fuel q k : steps R (hnsw_search P tid fuel q k).
  Proof using HR.
    unfold hnsw_search. destruct (k <? 0)%Z; [done|].
    apply steps_bind; [apply steps_read|intros [[epid epv] cur]].
    apply steps_bind; [apply steps_lift|intros d].
    apply steps_bind; [apply steps_descend|intros e].
    apply steps_bind; [apply steps_search_layer|intros near].
    apply steps_bind; [apply steps_read|intros dels]. apply steps_lift.
  Qed.
End index.

(** ** Instances *)
(** The entry point is not touched by the construction of a vertex. *)
Definition keep_entry (s s' : st) : Prop := ep s' = ep s /\ maxl s' = maxl s /\ once s' = once s.
Lemma keep_entry_rel : idx_rel keep_entry. Proof. by split. Qed.

(** The stores, the counter and the disk part of the log are not touched. *)
Definition keep_store (s s' : st) : Prop :=
  deleted s' = deleted s /\ wlog s' = wlog s /\ cnt s' = cnt s /\ cfile s' = cfile s /\
  objs s' = objs s /\ vecs s' = vecs s /\ chan s' = chan s /\ closed s' = closed s.
Lemma keep_store_rel : idx_rel keep_store. Proof. by split. Qed.
Lemma keep_store_refl s : keep_store s s. Proof. done. Qed.
Lemma keep_store_trans a b c : keep_store a b -> keep_store b c -> keep_store a c.
Proof. intros (?&?&?&?&?&?&?&?) (?&?&?&?&?&?&?&?). repeat split; congruence. Qed.

Lemma insert_keep_store P t fuel level vec id : steps keep_store (hnsw_insert P t fuel level vec id).
Proof. apply steps_insert; [apply keep_store_rel|done|done|apply keep_store_trans]. Qed.
Lemma search_keep_store P t fuel q k : steps keep_store (hnsw_search P t fuel q k).
Proof. apply steps_search, keep_store_rel. Qed.

(** Collection calls made at the same time behave as if made one at a time.

    [at_run] is the specification: goroutines whose calls happen all at once at
    some moment between call and return.  The rest is the simulation of
    [LinModel.con_run] by it. *)
From stdpp Require Import relations.
From Verif Require Import GoBase FloatModel HeapModel ProgModel StateModel WalModel HnswModel StoreModel CollModel CallModel LinModel
  ProofBase CodecProofs WpProofs StepProofs CallProofs HistProofs StoreView.
Open Scope nat_scope.

(** ** The atomic object *)
(** A goroutine as its callers see it. *)
Inductive aclient := AIdle | APend (c : call) | ADone (r : reply).

Section atomic.
  (** [bad]: the calls that may behave in other ways than the call made on its
      own. *)
  Context (C : cparams) (bad : call -> Prop).

  (** What a call does, all at once.  Besides the call made on its own: *)
  Inductive effect (s : st) : call -> st -> reply -> Prop :=
  | EffCall c s' r : call_run C s c s' r -> effect s c s' r
  (* the bytes that Delete read from the two stores are damaged: it fails *)
  | EffBad io id ob vb r :
      bad (CDelete io id) -> (p ← de_props (cp_json C) ob; v ← de_vec vb; Val (Some (Object id p (Some v)))) = r -> (forall o, r <> Val o) ->
      effect s (CDelete io id) s (RUnit (_ ← r; Val tt))
  (* GetSize counts some of the objects of a call that is going on *)
  | EffSize n : bad CSize -> store_size s <= n -> effect s CSize s (RSize (Val n)).

  Inductive at_step : st * list aclient -> list vis -> list (call * reply) -> st * list aclient -> Prop :=
  | AtCall s ts i c : ts !! i = Some AIdle -> at_step (s, ts) [VCall i c] [] (s, <[i := APend c]> ts)
  | AtEffect s ts i c s' r :
      ts !! i = Some (APend c) -> effect s c s' r -> at_step (s, ts) [] [(c, r)] (s', <[i := ADone r]> ts)
  | AtRet s ts i r : ts !! i = Some (ADone r) -> at_step (s, ts) [VRet i r] [] (s, <[i := AIdle]> ts).
  Inductive at_run : st * list aclient -> list vis -> list (call * reply) -> st * list aclient -> Prop :=
  | AtNil m : at_run m [] [] m
  | AtSnoc m vs1 es1 m1 vs2 es2 m2 :
      at_run m vs1 es1 m1 -> at_step m1 vs2 es2 m2 -> at_run m (vs1 ++ vs2) (es1 ++ es2) m2.
End atomic.

(** ** Reading changes nothing *)
(** Every step leaves the state alone, or panics (a panic of searchLayer
    leaves the mutex of a vertex locked). *)
Fixpoint ro {A} (p : prog st A) : Prop :=
  match p with
  | Done _ => True
  | Step f => forall s, match f s with
                        | Some (s', p') => (s' = s /\ ro p') \/ exists z, p' = Done (Pan z)
                        | None => True
                        end
  end.
Lemma ro_bind {A B} (p : prog st A) (k : A -> prog st B) : ro p -> (forall a, ro (k a)) -> ro (p ≫= k).
Proof.
  intros Hp Hk. change (p ≫= k) with (pbind p k). induction p as [r|f IH] using prog_ind'; cbn [pbind ro] in *.
  - destruct r; [apply Hk|done..].
  - intros s. specialize (Hp s). destruct (f s) as [[s' p']|] eqn:E; [|done].
    destruct Hp as [[-> Hp]|[z ->]]; [left; split; [done|by eapply IH]|right; by exists z].
Qed.
Lemma ro_lift {A} (r : out A) : ro (lift r). Proof. done. Qed.
Lemma ro_ret {A} (a : A) : ro (mret a). Proof. done. Qed.
Lemma ro_done {A} (r : out A) : ro (Done r). Proof. done. Qed.
Lemma ro_read {A} (f : st -> out A) : ro (act (fun s => (s, f s))).
Proof. intros s. by left. Qed.
Lemma ro_exec {A} (p : prog st A) s s' r : ro p -> exec p s = Some (s', r) -> (forall z, r <> Pan z) -> s' = s.
Proof.
  intros Hp Hx Hr. revert s Hx. induction p as [r0|f IH] using prog_ind'; intros s; cbn [exec]; [by intros [= -> _]|].
  cbn [ro] in Hp. specialize (Hp s). destruct (f s) as [[s1 p']|] eqn:E; [|done].
  destruct Hp as [[-> Hp]|[z ->]]; [by eapply IH|]. cbn. intros [= _ <-]. by destruct (Hr z).
Qed.

Ltac ro_tac :=
  repeat first
    [ apply ro_bind; [|intros ?]
    | apply ro_ret | apply ro_lift | apply ro_done
    | match goal with |- ro (match ?x with _ => _ end) => destruct x end
    | match goal with |- ro (if ?x then _ else _) => destruct x end ].
Section ro.
  Context (P : hparams) (tid : nat).
  Lemma ro_read_conns n l : ro (read_conns P tid n l).
  Proof.
    intros s. destruct (nodes s !! n) as [v|]; [|by left].
    destruct (v_lock v); [done|]. destruct (v_conns v !! l) as [cs|]; [case_decide|]; [by left|right; by eexists..].
  Qed.
  Lemma ro_visit_conns q ef cs x : ro (visit_conns P q ef cs x).
  Proof.
    revert x. induction cs as [|c cs IH]; intros x; cbn [visit_conns]; [done|].
    case_bool_decide; [apply IH|]. ro_tac. { apply ro_read. } apply IH.
  Qed.
  Lemma ro_search_loop fuel q ef l x : ro (search_loop P tid fuel q ef l x).
  Proof.
    revert x. induction fuel as [|fuel IH]; intros x; cbn [search_loop]; destruct (sl_cands x) eqn:Ec; try done.
    ro_tac.
    - apply ro_read_conns.
    - apply ro_visit_conns.
    - apply IH.
  Qed.
  Lemma ro_search_layer fuel q eps ef l : ro (search_layer P tid fuel q eps ef l).
  Proof. unfold search_layer. ro_tac. apply ro_search_loop. Qed.
  Lemma ro_descend fuel q l stop e : ro (descend P tid fuel q l stop e).
  Proof.
    revert e. induction l as [|l IH]; intros e; cbn [descend]; [done|].
    match goal with |- context [if ?b then _ else _] => destruct b end; [|done].
    apply ro_bind; [apply ro_search_layer|intros near]. ro_tac; apply IH.
  Qed.
  Lemma ro_search fuel q k : ro (hnsw_search P tid fuel q k).
  Proof.
    unfold hnsw_search. destruct (k <? 0)%Z; [done|].
    apply ro_bind; [apply ro_read|intros [[epid epv] cur]].
    apply ro_bind; [apply ro_lift|intros d].
    apply ro_bind; [apply ro_descend|intros e].
    apply ro_bind; [apply ro_search_layer|intros near].
    apply ro_bind; [apply ro_read|intros dels]. apply ro_lift.
  Qed.
End ro.
Lemma ro_semantic C tid o k : ro (semantic_search C tid o k).
Proof.
  unfold semantic_search. apply ro_bind; [apply ro_read|intros _]. apply ro_bind; [done|]. intros [|o' [|? ?]]; [done| |done].
  apply ro_bind; [apply ro_search|intros es]. apply ro_bind; [apply ro_read|intros os]. by apply ro_bind.
Qed.
Lemma ro_get C ids : ro (CollModel.get C ids). Proof. apply ro_read. Qed.

(** ** What the stores keep while a call runs *)
Definition sub (s s' : st) : Prop :=
  (forall k, objs s' !! k = None -> objs s !! k = None) /\ (forall k, vecs s' !! k = None -> vecs s !! k = None) /\
  (closed s' = true -> closed s = true).
Lemma sub_refl s : sub s s. Proof. done. Qed.
Lemma sub_trans a b c : sub a b -> sub b c -> sub a c.
Proof. intros (H1 & H2 & H3) (H4 & H5 & H6). split_and!; auto. Qed.
Lemma sub_same s s' : objs s' = objs s -> vecs s' = vecs s -> closed s' = closed s -> sub s s'.
Proof. intros E1 E2 E3. unfold sub. by rewrite E1, E2, E3. Qed.
Lemma sub_size s s' : sub s s' -> store_size s <= store_size s'.
Proof.
  intros (H1 & _). unfold store_size. rewrite <- !size_dom. apply subseteq_size. intros k. rewrite !elem_of_dom, <- !not_eq_None_Some. auto.
Qed.
Definition grow (s s' : st) : Prop := sub s s' /\ deleted s ⊆ deleted s'.
Definition shrink (s s' : st) : Prop := sub s' s /\ deleted s ⊆ deleted s'.
Lemma grow_trans a b c : grow a b -> grow b c -> grow a c.
Proof. intros [H1 H2] [H3 H4]. split; [by eapply sub_trans|by transitivity (deleted b)]. Qed.
Lemma shrink_trans a b c : shrink a b -> shrink b c -> shrink a c.
Proof. intros [H1 H2] [H3 H4]. split; [by eapply sub_trans|by transitivity (deleted b)]. Qed.
Lemma grow_same s s' : objs s' = objs s -> vecs s' = vecs s -> closed s' = closed s -> deleted s' = deleted s -> grow s s'.
Proof. intros E1 E2 E3 E4. split; [by apply sub_same|by rewrite E4]. Qed.
Lemma grow_idx : idx_rel grow. Proof. split; intros; done. Qed.
Lemma flush_keeps io s : objs (fst (wal_flush io s)) = objs s /\ vecs (fst (wal_flush io s)) = vecs s /\
  closed (fst (wal_flush io s)) = closed s /\ deleted (fst (wal_flush io s)) = deleted s.
Proof. unfold wal_flush. by repeat case_match. Qed.
Lemma grow_flush io s : grow s (fst (wal_flush io s)).
Proof. destruct (flush_keeps io s) as (?&?&?&?). by apply grow_same. Qed.
Lemma grow_known s s' id : grow s s' -> known s id -> known s' id.
Proof.
  intros [(H1 & _) H2] [H|(id' & Hid & Hd)]; [left; auto|right]. exists id'. split; [done|]. by apply H2.
Qed.

Section sub.
  Context (C : cparams).
  Lemma grow_read {A} (f : st -> out A) : steps grow (act (fun s => (s, f s))).
  Proof. by apply steps_act. Qed.
  Lemma grow_insert_one tid level o : steps grow (insert_one C tid level o).
  Proof.
    unfold insert_one. apply steps_bind.
    { apply steps_act. intros s. destruct (closed s); by apply grow_same. }
    intros id. apply steps_bind.
    { unfold put_object. apply steps_bind; [done|intros ob]. apply steps_bind; [done|intros vb]. apply steps_bind.
      - apply steps_act. intros s. unfold bc_put. destruct (_ <? _)%N; [done|]. destruct (closed s); [done|]. cbn. split; [|done]. split_and!; cbn; [|done..].
        intros k. rewrite lookup_insert_None. tauto.
      - intros _. apply steps_act. intros s. unfold bc_put. destruct (_ <? _)%N; [done|]. destruct (closed s); [done|]. cbn. split; [|done]. split_and!; cbn; [done| |done].
        intros k. rewrite lookup_insert_None. tauto. }
    intros _. apply steps_bind; [|done]. apply steps_insert; [apply grow_idx|done|done|apply grow_trans].
  Qed.
  Lemma grow_insert io level o : steps grow (CollModel.insert C 0 io level o).
  Proof.
    unfold CollModel.insert. apply steps_bind; [apply grow_read|intros _]. apply steps_bind; [done|intros _]. apply steps_bind; [done|].
    intros [|o' [|? ?]]; [done| |done]. apply steps_bind; [apply grow_insert_one|intros o'']. apply steps_bind; [|done].
    apply steps_act. intros s. apply grow_flush.
  Qed.
  Lemma grow_worker tid os : steps grow (worker C tid os).
  Proof.
    induction os as [|[o l] os IH]; cbn [worker]; [done|]. apply steps_bind; [apply grow_insert_one|intros o'].
    apply steps_bind; [apply IH|done].
  Qed.
  Lemma grow_worker2 n tid : steps grow (worker2 C n tid).
  Proof.
    induction n as [|n IH]; cbn [worker2]; (apply steps_bind; [apply steps_act; intros s; destruct (chan s); by apply grow_same|]); intros [[o l]|]; try done.
    - apply steps_bind; [apply grow_insert_one|done].
    - apply steps_bind; [apply grow_insert_one|intros o']. apply steps_bind; [apply IH|done].
  Qed.
  Lemma grow_batch os : Forall (steps grow) (batch_threads C os).
  Proof. apply Forall_forall. intros p Hp. apply elem_of_list_fmap in Hp as (i & -> & _). apply grow_worker. Qed.
  Lemma grow_batch2 os : Forall (steps grow) (batch2_threads C os).
  Proof. apply Forall_forall. intros p Hp. apply elem_of_list_fmap in Hp as (i & -> & _). apply grow_worker2. Qed.
  Lemma shrink_delete_rest io id : steps shrink (delete_rest io id).
  Proof.
    unfold delete_rest. apply steps_bind.
    { apply steps_act. intros s. destruct (closed s); [done|]. split; [|done]. split; cbn; [|done]. intros k. rewrite lookup_delete_None. tauto. }
    intros _. apply steps_bind.
    { unfold hnsw_delete. rewrite enc_delete_eq. apply steps_act. intros s. split; [by apply sub_same|]. cbn. set_solver. }
    intros _. apply steps_act. intros s. destruct (flush_keeps io s) as (?&?&?&?). unfold flush. cbn.
    split; [by apply sub_same|set_solver].
  Qed.
  Lemma shrink_close : steps shrink close.
  Proof. apply steps_act. intros s. destruct (closed s); done. Qed.
  Lemma shrink_update o : steps shrink (update o).
  Proof. by apply steps_act. Qed.
  Lemma delete_rest_exec io id s : exists s' r, exec (delete_rest io id) s = Some (s', r) /\ forall id', known s id' -> known s' id'.
  Proof.
    unfold delete_rest. rewrite exec_bind. unfold delete_object. rewrite exec_act. destruct (closed s); [eauto|].
    rewrite exec_bind. unfold hnsw_delete. rewrite enc_delete_eq, exec_act. unfold flush. rewrite exec_act.
    match goal with |- context [wal_flush io ?x] => pose proof (flush_keeps io x) as (E1 & _ & _ & E2); destruct (wal_flush io x) as [s' r] end.
    exists s', r. split; [done|]. cbn in E1, E2. intros id' Hk. unfold known. rewrite E1, E2.
    destruct (decide (id_key id = id_key id')) as [Hid|Hid]; [right; exists id; split; [done|set_solver]|].
    destruct Hk as [Hk|(id2 & Hi2 & Hd)]; [left; by rewrite lookup_delete_ne|right; exists id2; split; [done|set_solver]].
  Qed.
End sub.

(** ** The simulation *)
(** A search has panicked. *)
Definition search_panic (t : client) : Prop :=
  match t with TR _ (YSearch (Done (Pan _))) | TRet (RSearch (Pan _)) => True | _ => False end.
Definition search_panicked (vs : list vis) (ts : list client) : Prop :=
  (exists i z, VRet i (RSearch (Pan z)) ∈ vs) \/ exists i t, ts !! i = Some t /\ search_panic t.

Section sim.
  Context (C : cparams) (bad : call -> Prop) (Hsize : bad CSize).

  (** Delete, Update and Close have all their effect when they take c.mu, the
      other calls when they give it back. *)
  Definition early (b : xbody) : option (prog st unit) :=
    match b with XUnit p | XDel p => Some p | _ => None end.
  Definition xrel (c : call) (sa : st) (b : xbody) (s : st) : Prop :=
    match b with
    | XIns p => exists io level o, c = CInsert io level o /\ exec (CollModel.insert C 0 io level o) sa = exec p s /\ steps grow p
    | XUnit _ | XDel _ => False
    | XBatch two io ol => c = (if two then CBatch2 io ol else CBatch io ol) /\ s = sa
    | XWork two io ts => exists ol os, batch_prepare C sa (ol.*1) = Val os /\ Forall (steps grow) ts /\
        if two then c = CBatch2 io ol /\ rtc mstep (set_chan (zip os (ol.*2)) sa, batch2_threads C (zip os (ol.*2))) (s, ts)
        else c = CBatch io ol /\ rtc mstep (sa, batch_threads C (zip os (ol.*2))) (s, ts)
    | XEnd r => call_run C sa c s r
    end.
  Definition threl (s sa : st) (t : client) (a : aclient) : Prop :=
    match t with
    | TIdle => a = AIdle
    | TCall c => a = APend c
    | TLook io id _ | TWait io id => a = APend (CDelete io id)
    | TX c b =>
        match early b with
        | Some p => exists r, a = ADone (RUnit r) /\ exec p s = Some (sa, r) /\ steps shrink p /\ (forall id, known s id -> known sa id)
        | None => a = APend c /\ xrel c sa b s /\ grow sa s
        end
    | TR c (YGet p) => exists ids, c = CGet ids /\ a = APend c /\ exec (CollModel.get C ids) sa = exec p sa /\ ro p
    | TR c (YSearch p) => exists o k, c = CSearch o k /\ a = APend c /\ exec (semantic_search C 0 o k) sa = exec p sa /\ ro p
    | TRet r => a = ADone r
    end.
  Lemma threl_free s sa s' sa' t a : ~ holds t -> threl s sa t a -> threl s' sa' t a.
  Proof. destruct t; cbn; tauto. Qed.

  (** Delete has seen the object. *)
  Definition found (id : N) (t : client) : Prop :=
    match t with TLook _ id' _ | TWait _ id' => id' = id | _ => False end.
  Record rel (s : st) (ts : list client) (sa : st) (as' : list aclient) : Prop := MkRel {
    rel_len : length as' = length ts;
    rel_th : forall i t a, ts !! i = Some t -> as' !! i = Some a -> threl s sa t a;
    rel_eq : (forall i t, ts !! i = Some t -> ~ holds_x t) -> sa = s;
    rel_sub : sub sa s;
    rel_excl : forall i j t u, ts !! i = Some t -> ts !! j = Some u -> holds_x t -> holds u -> i = j;
    rel_found : forall i t id, ts !! i = Some t -> found id t -> known s id \/ known sa id
  }.

  Lemma holds_x_holds t : holds_x t -> holds t. Proof. by destruct t. Qed.

  (** Thread [i] goes from [t] to [t']; the others do not notice. *)
  Lemma rel_upd s ts sa as' i t s' t' sa' a' :
    rel s ts sa as' -> ts !! i = Some t ->
    threl s' sa' t' a' ->
    (s' = s /\ sa' = sa) \/ (forall j u, j <> i -> ts !! j = Some u -> ~ holds u) ->
    sub sa' s' ->
    (~ holds_x t' -> (forall j u, j <> i -> ts !! j = Some u -> ~ holds_x u) -> sa' = s') ->
    (holds t' -> forall j u, j <> i -> ts !! j = Some u -> ~ holds_x u) ->
    (holds_x t' -> forall j u, j <> i -> ts !! j = Some u -> ~ holds u) ->
    (forall id, found id t' -> known s' id \/ known sa' id) ->
    (forall id, known s id \/ known sa id -> known s' id \/ known sa' id) ->
    rel s' (<[i := t']> ts) sa' (<[i := a']> as').
  Proof.
    intros [HL HT HE HS HX HF] Hi Ht' Hoth Hsub Heq Hh Hx Hf Hk. pose proof (lookup_lt_Some _ _ _ Hi) as Hlt. split.
    - by rewrite !insert_length.
    - intros j u a. destruct (decide (j = i)) as [->|Hne].
      + rewrite !list_lookup_insert by lia. by intros [= <-] [= <-].
      + rewrite !list_lookup_insert_ne by done. intros Hu Ha. pose proof (HT j u a Hu Ha) as Hr.
        destruct Hoth as [[-> ->]|Hoth]; [done|]. eapply threl_free; [|exact Hr]. by eapply Hoth.
    - intros Hno. apply Heq.
      + apply (Hno i). by rewrite list_lookup_insert.
      + intros j u Hne Hu. apply (Hno j). by rewrite list_lookup_insert_ne.
    - done.
    - intros j k u v Hj Hk' Hu Hv.
      destruct (decide (j = i)) as [->|Hji]; destruct (decide (k = i)) as [->|Hki]; try done.
      + rewrite list_lookup_insert in Hj by done. injection Hj as <-. rewrite list_lookup_insert_ne in Hk' by done.
        exfalso. by eapply Hx.
      + rewrite list_lookup_insert in Hk' by done. injection Hk' as <-. rewrite list_lookup_insert_ne in Hj by done.
        exfalso. by eapply Hh.
      + rewrite list_lookup_insert_ne in Hj, Hk' by done. by eapply HX.
    - intros j u id Hj Hu. destruct (decide (j = i)) as [->|Hji].
      + rewrite list_lookup_insert in Hj by done. injection Hj as <-. by apply Hf.
      + rewrite list_lookup_insert_ne in Hj by done. apply Hk. by eapply HF.
  Qed.

  Lemma at_run_app m vs1 es1 m1 vs2 es2 m2 :
    at_run C bad m vs1 es1 m1 -> at_run C bad m1 vs2 es2 m2 -> at_run C bad m (vs1 ++ vs2) (es1 ++ es2) m2.
  Proof.
    intros H1 H2. induction H2 as [|m1 vs es m2 vs' es' m3 _ IH Hs]; [by rewrite !app_nil_r|].
    rewrite !app_assoc. by eapply AtSnoc; [apply IH|].
  Qed.
  Lemma at_run_one m vs es m' : at_step C bad m vs es m' -> at_run C bad m vs es m'.
  Proof. intros H. by apply (AtSnoc C bad m [] [] m vs es m'); [constructor|]. Qed.

  Lemma rel_other s ts sa as' i t : rel s ts sa as' -> ts !! i = Some t ->
    (holds_x t -> forall j u, j <> i -> ts !! j = Some u -> ~ holds u) /\
    (holds t -> forall j u, j <> i -> ts !! j = Some u -> ~ holds_x u).
  Proof.
    intros HR Hi. split.
    - intros Ht j u Hne Hu Hh. apply Hne. symmetry. by eapply (rel_excl _ _ _ _ HR).
    - intros Ht j u Hne Hu Hh. apply Hne. by eapply (rel_excl _ _ _ _ HR).
  Qed.

  (** A step that leaves the states alone and ends outside of c.mu. *)
  Lemma rel_quiet s ts sa as' i t t' a' :
    rel s ts sa as' -> ts !! i = Some t -> ~ holds_x t -> ~ holds t' -> threl s sa t' a' ->
    (forall id, found id t' -> known s id \/ known sa id) ->
    rel s (<[i := t']> ts) sa (<[i := a']> as').
  Proof.
    intros HR Hi Ht Hh' Hr Hf. eapply rel_upd; [exact HR|exact Hi|exact Hr|by left|by apply HR| | | |exact Hf|done].
    - intros _ Ho. apply (rel_eq _ _ _ _ HR). intros j u Hu. destruct (decide (j = i)) as [->|Hne]; [congruence|by eapply Ho].
    - done.
    - intros Hx. by destruct (Hh' (holds_x_holds _ Hx)).
  Qed.

  Lemma xstart_rel c b s : xstart C c = Some b -> early b = None -> xrel c s b s.
  Proof.
    destruct c; cbn [xstart]; intros [= <-]; cbn [early xrel]; try done. intros _.
    eexists _, _, _. split_and!; [done..|apply grow_insert].
  Qed.
  Lemma xstart_early c b p s :
    xstart C c = Some b -> early b = Some p -> exists s' r, exec p s = Some (s', r) /\ call_run C s c s' (RUnit r) /\ steps shrink p /\ (forall id, known s id -> known s' id).
  Proof.
    destruct c; cbn [xstart]; intros [= <-]; cbn [early]; try done; intros [= <-].
    - eexists _, _. split; [by unfold update, check_open; rewrite exec_act|]. split; [apply RunUpdate|split; [apply shrink_update|done]].
      unfold update, check_open. by rewrite exec_act.
    - destruct (exec close s) as [[s' r]|] eqn:E; [|by unfold close in E; rewrite exec_act in E].
      exists s', r. split; [done|]. split; [by apply RunClose|split; [apply shrink_close|]].
      unfold close in E. rewrite exec_act in E. destruct (closed s); injection E as <- <-; done.
  Qed.

  Lemma flush_grow io s s' r : wal_flush io s = (s', r) -> grow s s'.
  Proof. intros E. pose proof (grow_flush io s) as H. by rewrite E in H. Qed.

  (** A step inside the critical section. *)
  Lemma xrel_step c sa b s s' b' : xrel c sa b s -> grow sa s -> xstep C s b s' b' -> xrel c sa b' s' /\ grow s s' /\ early b' = None.
  Proof.
    intros Hr Hs Hx. destruct Hx as [f s s' p' Hf|f s s' p' Hf|f s s' p' Hf|two io ol s r Hp Hv|io ol s os Hp|io ol s os Hp|two io ts s s' ts' Hm|two io rs s s' r Hg Hf|two io rs s e Hg];
      cbn [xrel] in *; try done.
    - destruct Hr as (io & level & o & -> & He & Hst). cbn [exec steps] in *. specialize (Hst s). rewrite Hf in He, Hst.
      destruct Hst as [Hs1 Hst]. split_and!; [eexists _, _, _; by split_and!|done|done].
    - destruct Hr as [-> ->]. split_and!; [|done|done]. destruct two; [by eapply RunBatch2Refused|by eapply RunBatchRefused].
    - destruct Hr as [-> ->]. split_and!; [|done|done]. exists ol, os. split_and!; [done|apply grow_batch|done|done].
    - destruct Hr as [-> ->]. split_and!; [|done|done]. exists ol, os. split_and!; [done|apply grow_batch2|done|done].
    - destruct Hr as (ol & os & Hp & Hall & Hr). destruct (steps_mstep _ _ _ Hm Hall) as [Hs1 Hall'].
      split; [|split; [done|done]]. exists ol, os. split_and!; [done|done|].
      destruct two; destruct Hr as [-> Hr]; (split; [done|by eapply rtc_r]).
    - destruct Hr as (ol & os & Hp & Hall & Hr). pose proof (flush_grow _ _ _ _ Hf) as Hs1. split; [|split].
      + destruct two; destruct Hr as [-> Hr]; cbn [drop_chan].
        * eapply RunBatch2; [done|]. by eapply BatchOk.
        * eapply RunBatch; [done|]. by eapply BatchOk.
      + eapply grow_trans; [exact Hs1|]. destruct two; [|done]. by apply grow_same.
      + done.
    - destruct Hr as (ol & os & Hp & Hall & Hr). split; [|split].
      + destruct two; destruct Hr as [-> Hr]; cbn [drop_chan].
        * eapply RunBatch2; [done|]. by eapply BatchErr.
        * eapply RunBatch; [done|]. by eapply BatchErr.
      + destruct two; [|done]. by apply grow_same.
      + done.
  Qed.
  Lemma xrel_reply c sa b s r : xrel c sa b s -> xreply b = Some r -> call_run C sa c s r.
  Proof.
    destruct b as [[r0|]|[r0|]|[r0|]| | |r0]; cbn [xrel xreply]; try done; intros Hr [= <-]; [|done].
    destruct Hr as (io & level & o & -> & He & _). by apply RunInsert.
  Qed.
  Lemma early_step s b s' b' p : xstep C s b s' b' -> early b = Some p ->
    exists p', early b' = Some p' /\ exec p s = exec p' s' /\ (steps shrink p -> shrink s s' /\ steps shrink p').
  Proof.
    intros Hx. destruct Hx as [f s s' p' Hf|f s s' p' Hf|f s s' p' Hf| | | | | | ]; cbn [early]; try done;
      intros [= <-]; exists p'; (split; [done|]); cbn [exec steps]; rewrite Hf; (split; [done|]); intros Hst; specialize (Hst s); by rewrite Hf in Hst.
  Qed.
  Lemma early_reply b p r : early b = Some p -> xreply b = Some r -> exists r0, p = Done r0 /\ r = RUnit r0.
  Proof. destruct b as [[?|]|[?|]|[?|]| | |]; cbn; try done; intros [= <-] [= <-]; eauto. Qed.

  Lemma exec_shrink {A} (p : prog st A) s s' r : steps shrink p -> exec p s = Some (s', r) -> shrink s s'.
  Proof. intros Hp Hx. eapply (steps_exec shrink); [..|exact Hx]; [done|apply shrink_trans|done]. Qed.
  Lemma rel_at s ts sa as' i t : rel s ts sa as' -> ts !! i = Some t -> exists a, as' !! i = Some a /\ threl s sa t a.
  Proof.
    intros HR Hi. destruct (lookup_lt_is_Some_2 as' i) as [a Ha].
    { rewrite (rel_len _ _ _ _ HR). by eapply lookup_lt_Some. }
    exists a. split; [done|]. by eapply rel_th.
  Qed.
  Lemma nobody s ts sa as' : rel s ts sa as' -> Forall (fun t => ~ holds t) ts -> sa = s.
  Proof.
    intros HR Hf. apply (rel_eq _ _ _ _ HR). intros i t Hi Hx. rewrite Forall_lookup in Hf. by apply (Hf i t Hi), holds_x_holds.
  Qed.
  Lemma nobody_x s ts sa as' : rel s ts sa as' -> Forall (fun t => ~ holds_x t) ts -> sa = s.
  Proof. intros HR Hf. apply (rel_eq _ _ _ _ HR). intros i t Hi. rewrite Forall_lookup in Hf. by apply (Hf i). Qed.

  Lemma sim_step s ts sa as' vs s' ts' :
    rel s ts sa as' -> con_step C (s, ts) vs (s', ts') ->
    ((forall io id, bad (CDelete io id)) \/ forall i io id ob vb, ts !! i = Some (TLook io id ob) -> vecs s !! id_key id = Some vb ->
      exists p v, de_props (cp_json C) ob = Val p /\ de_vec vb = Val v) ->
    (exists sa' es as2, at_run C bad (sa, as') vs es (sa', as2) /\ rel s' ts' sa' as2) \/
    exists i t, ts' !! i = Some t /\ search_panic t.
  Proof.
    intros HR Hcs Hbad. inversion Hcs as [s0 ts0 i t vs0 s0' t' Hi Hst]; subst. clear Hcs.
    destruct (rel_at _ _ _ _ _ _ HR Hi) as (a & Ha & Hrel). destruct (rel_other _ _ _ _ _ _ HR Hi) as [HOx HOh].
    pose proof (rel_sub _ _ _ _ HR) as Hsub. pose proof (lookup_lt_Some _ _ _ Hi) as Hlt.
    assert (forall c r, a = APend c -> effect C bad sa c sa r -> ~ holds_x t ->
      exists sa' es as2, at_run C bad (sa, as') [] es (sa', as2) /\ rel s (<[i := TRet r]> ts) sa' as2) as Hret.
    { intros c r -> He Hnx. exists sa, [(c, r)], (<[i := ADone r]> as'). split; [apply at_run_one; by eapply AtEffect|].
      eapply rel_quiet; [exact HR|exact Hi|exact Hnx|by intros []|done|by intros ? []]. }
    assert (forall t', a = APend (match t' with TLook io id _ | TWait io id => CDelete io id | _ => CSize end) ->
      ~ holds_x t -> match t' with TLook _ _ _ | TWait _ _ => True | _ => False end ->
      (forall id, found id t' -> known s id \/ known sa id) ->
      exists sa' es as2, at_run C bad (sa, as') [] es (sa', as2) /\ rel s (<[i := t']> ts) sa' as2) as Hstay.
    { intros t2 -> Hnx Ht2 Hf. exists sa, [], as'. split; [constructor|]. rewrite <- (list_insert_id as' i _ Ha).
      eapply rel_quiet; [exact HR|exact Hi|exact Hnx|by destruct t2; try done; intros []|by destruct t2|exact Hf]. }
    inversion Hst; subst; clear Hst.
    - (* call *) left. cbn in Hrel. subst a. exists sa, [], (<[i := APend c]> as'). split; [apply at_run_one; by apply AtCall|].
      eapply rel_quiet; [exact HR|exact Hi|by intros []|by intros []|done|by intros ? []].
    - (* lock *) left. cbn in Hrel. subst a. pose proof (nobody _ _ _ _ HR H0) as ->. rewrite Forall_lookup in H0.
      destruct (early b) as [p|] eqn:Eb.
      + destruct (xstart_early _ _ _ s' H Eb) as (s2 & r & Hex & Hcr & Hst & Hkn).
        exists s2, [(c, RUnit r)], (<[i := ADone (RUnit r)]> as'). split; [apply at_run_one; eapply AtEffect; [done|by apply EffCall]|].
        eapply rel_upd; [exact HR|exact Hi| | | | | | |by intros ? []|naive_solver].
        * cbn. rewrite Eb. by exists r.
        * right. intros j u _ Hu. by apply (H0 j u Hu).
        * apply (exec_shrink _ _ _ _ Hst Hex).
        * intros Hn. by destruct Hn.
        * intros _ j u _ Hu Hx. by apply (H0 j u Hu), holds_x_holds.
        * intros _ j u _ Hu. by apply (H0 j u Hu).
      + exists s', [], as'. split; [constructor|]. rewrite <- (list_insert_id as' i _ Ha).
        eapply rel_upd; [exact HR|exact Hi| |by left|done|done| | |by intros ? []|done].
        * cbn. rewrite Eb. split; [done|]. split; [by apply xstart_rel|done].
        * intros _ j u _ Hu Hx. by apply (H0 j u Hu), holds_x_holds.
        * intros _ j u _ Hu. by apply (H0 j u Hu).
    - (* a step of the critical section *) left. exists sa, [], as'. split; [constructor|]. rewrite <- (list_insert_id as' i _ Ha).
      cbn in Hrel. destruct (early b) as [p|] eqn:Eb.
      + destruct Hrel as (r & -> & Hex & Hst & Hkn). destruct (early_step _ _ _ _ _ H Eb) as (p' & Eb' & Hpp & Hss). destruct (Hss Hst) as [Hsh Hst'].
        rewrite Hpp in Hex. pose proof (exec_shrink _ _ _ _ Hst' Hex) as [Hsub' Hdel'].
        eapply rel_upd; [exact HR|exact Hi| |by right; apply HOx|exact Hsub'| | | |by intros ? []|].
        * cbn. rewrite Eb'. exists r. split_and!; [done..|]. intros id [Hk|(id' & Hid & Hd)].
          -- apply Hkn. left. intros Hn. apply Hk. by apply Hsh.
          -- right. exists id'. split; [done|by apply Hdel'].
        * intros Hn. by destruct Hn.
        * intros _. by apply HOh.
        * intros _. by apply HOx.
        * naive_solver.
      + destruct Hrel as (-> & Hxr & Hg). destruct (xrel_step _ _ _ _ _ _ Hxr Hg H) as (Hxr' & Hg1 & Hnd').
        pose proof (grow_trans _ _ _ Hg Hg1) as Hg'.
        eapply rel_upd; [exact HR|exact Hi| |by right; apply HOx|apply Hg'| | | |by intros ? []|].
        * cbn. by rewrite Hnd'.
        * intros Hn. by destruct Hn.
        * intros _. by apply HOh.
        * intros _. by apply HOx.
        * intros id [Hk|Hk]; left; [exact (grow_known _ _ _ Hg1 Hk)|exact (grow_known _ _ _ Hg' Hk)].
    - (* unlock *) left. cbn in Hrel. destruct (early b) as [p|] eqn:Eb.
      + destruct Hrel as (r0 & -> & Hex & _). destruct (early_reply _ _ _ Eb H) as (r1 & -> & ->). cbn in Hex. injection Hex as -> ->.
        exists sa, [], as'. split; [constructor|]. rewrite <- (list_insert_id as' i _ Ha).
        eapply rel_upd; [exact HR|exact Hi|done|by right; apply HOx|done|done|done|done|by intros ? []|done].
      + destruct Hrel as (-> & Hxr & Hg). exists s', [(c, r)], (<[i := ADone r]> as').
        split. { apply at_run_one. eapply AtEffect; [done|]. apply EffCall. by eapply xrel_reply. }
        eapply rel_upd; [exact HR|exact Hi|done|by right; apply HOx|done|done|done|done|by intros ? []|].
        intros id [Hk|Hk]; left; [done|by eapply grow_known].
    - (* rlock *) left. cbn in Hrel. subst a. pose proof (nobody_x _ _ _ _ HR H0) as ->. rewrite Forall_lookup in H0.
      exists s', [], as'. split; [constructor|]. rewrite <- (list_insert_id as' i _ Ha).
      eapply rel_upd; [exact HR|exact Hi| |by left|done|done| | |by intros ? []|done].
      + destruct c; cbn in H; try done; injection H as <-; cbn.
        * eexists. split_and!; [done..|apply ro_get].
        * eexists _, _. split_and!; [done..|apply ro_semantic].
      + intros _ j u _ Hu. by apply (H0 j u Hu).
      + done.
    - (* a reader's step *)
      assert (sa = s) as ->.
      { apply (rel_eq _ _ _ _ HR). intros j u Hu. destruct (decide (j = i)) as [->|Hne]; [rewrite Hi in Hu; injection Hu as <-; by intros []|].
        by apply (HOh I j u). }
      assert (forall b'', (s' = s -> threl s s (TR c b'') a) -> s' = s ->
        exists sa' es as2, at_run C bad (s, as') [] es (sa', as2) /\ rel s' (<[i := TR c b'']> ts) sa' as2) as Hgo.
      { intros b'' Ht' ->. exists s, [], as'. split; [constructor|]. rewrite <- (list_insert_id as' i _ Ha).
        eapply rel_upd; [exact HR|exact Hi|by apply Ht'|by left|done|done|by intros _; apply HOh|done|by intros ? []|done]. }
      inversion H; subst.
      + destruct Hrel as (ids & -> & -> & Hex & Hro). cbn [exec ro] in Hex, Hro. specialize (Hro s). match goal with H : _ s = Some _ |- _ => rewrite H in Hex, Hro end.
        destruct Hro as [[-> Hro]|[z ->]].
        * left. apply Hgo; [|done]. intros _. cbn. by exists ids.
        * left. unfold CollModel.get in Hex. rewrite exec_act in Hex. cbn [exec] in Hex.
          apply Some_pair_inj in Hex as [<- Hex]. apply Hgo; [|done]. intros _. cbn [threl]. exists ids. split_and!; [done|done| |done].
          unfold CollModel.get. rewrite exec_act. by rewrite Hex.
      + destruct Hrel as (o & k & -> & -> & Hex & Hro). cbn [exec ro] in Hex, Hro. specialize (Hro s). match goal with H : _ s = Some _ |- _ => rewrite H in Hex, Hro end.
        destruct Hro as [[-> Hro]|[z ->]].
        * left. apply Hgo; [|done]. intros _. cbn. by exists o, k.
        * right. exists i, (TR (CSearch o k) (YSearch (Done (Pan z)))). split; [by rewrite list_lookup_insert|done].
    - (* runlock *)
      assert (sa = s') as ->.
      { apply (rel_eq _ _ _ _ HR). intros j u Hu. destruct (decide (j = i)) as [->|Hne]; [rewrite Hi in Hu; injection Hu as <-; by intros []|].
        by apply (HOh I j u). }
      left. apply (Hret c r); [| |by intros []].
      + destruct b; cbn in Hrel; naive_solver.
      + apply EffCall. destruct b as [[r0|]|[r0|]]; try done; cbn in H; injection H as <-.
        * destruct Hrel as (ids & -> & -> & Hex & _). by apply RunGet.
        * destruct Hrel as (o & k & -> & -> & Hex & _). by apply RunSearch.
    - (* size *) left. cbn in Hrel. subst a. eapply Hret; [done| |by intros []].
      match goal with H : exec get_size _ = _ |- _ => unfold get_size in H; rewrite exec_act in H; injection H as <- end.
      destruct (closed s') eqn:Ec.
      + apply EffCall, RunSize. unfold get_size. rewrite exec_act. by rewrite (proj2 (proj2 Hsub) Ec).
      + apply EffSize; [done|]. by apply sub_size.
    - (* lookups of Delete *) left. cbn in Hrel. subst a. apply (Hstay (TLook io id ob)); [done|by intros []|done|].
      intros ? <-. left. left. congruence.
    - left. cbn in Hrel. subst a. eapply Hret; [done| |by intros []]. apply EffCall. eapply RunDelete; [apply LookGone; left; by apply Hsub|done].
    - left. cbn in Hrel. subst a. eapply Hret; [done| |by intros []]. apply EffCall. eapply RunDelete; [apply LookClosed; by apply Hsub|done].
    - left. cbn in Hrel. subst a. eapply Hret; [done| |by intros []]. apply EffCall. eapply RunDelete; [apply LookGone; right; by apply Hsub|done].
    - left. cbn in Hrel. subst a. eapply Hret; [done| |by intros []]. apply EffCall. eapply RunDelete; [apply LookClosed; by apply Hsub|done].
    - left. cbn in Hrel. subst a. eapply Hret; [done| |by intros []]. destruct Hbad as [Hbad|Hbad]; [by eapply EffBad|].
      exfalso. destruct (Hbad i io id ob vb) as (p & v & E1 & E2); [done..|]. match goal with H : forall o, _ <> Val o |- _ => apply (H (Some (Object id p (Some v)))) end. by rewrite E1; cbn; rewrite E2.
    - left. cbn in Hrel. subst a. apply (Hstay (TWait io id)); [done|by intros []|done|].
      intros ? <-. by apply (rel_found _ _ _ _ HR i (TLook io id ob)).
    - (* Delete takes c.mu: all of it happens now *) left. cbn in Hrel. subst a.
      match goal with H : Forall _ ts |- _ => pose proof (nobody _ _ _ _ HR H) as ->; rewrite Forall_lookup in H; rename H into Hno end.
      destruct (delete_rest_exec io id s') as (s2 & r & Hex & Hkn).
      exists s2, [(CDelete io id, RUnit r)], (<[i := ADone (RUnit r)]> as'). split.
      + apply at_run_one. eapply AtEffect; [done|]. apply EffCall. eapply (RunDelete _ _ _ _ (Val (Some (Object 0 ∅ None)))); [apply LookSeen|exact Hex].
        by destruct (rel_found _ _ _ _ HR i (TWait io id) id Hi).
      + eapply rel_upd; [exact HR|exact Hi| | | | | | |by intros ? []|naive_solver].
        * cbn. exists r. split_and!; [done|done|apply shrink_delete_rest|done].
        * right. intros j u _ Hu. by apply (Hno j u Hu).
        * apply (exec_shrink _ _ _ _ (shrink_delete_rest io id) Hex).
        * intros Hn. by destruct Hn.
        * intros _ j u _ Hu Hx. by apply (Hno j u Hu), holds_x_holds.
        * intros _ j u _ Hu. by apply (Hno j u Hu).
    - (* return *) left. cbn in Hrel. subst a. exists sa, [], (<[i := AIdle]> as'). split; [apply at_run_one; by apply AtRet|].
      eapply rel_quiet; [exact HR|exact Hi|by intros []|by intros []|done|by intros ? []].
  Qed.
End sim.


Lemma panicked_step C s ts vs1 vs2 s' ts' :
  search_panicked vs1 ts -> con_step C (s, ts) vs2 (s', ts') -> search_panicked (vs1 ++ vs2) ts'.
Proof.
  intros Hp Hcs. inversion Hcs as [s0 ts0 i t vs0 s0' t' Hi Hst]; subst. pose proof (lookup_lt_Some _ _ _ Hi) as Hlt.
  destruct Hp as [(j & z & Hz)|(j & u & Hu & Hpu)]; [left; exists j, z; set_solver|].
  destruct (decide (j = i)) as [->|Hne]; [|right; exists j, u; by rewrite list_lookup_insert_ne].
  rewrite Hi in Hu. injection Hu as <-. destruct t as [| | | | |c b|r]; try done.
  - destruct b as [|[[]|]]; try done. inversion Hst; subst.
    + match goal with H : ystep _ _ _ _ |- _ => inversion H end.
    + match goal with H : yreply _ = _ |- _ => injection H as <- end.
      right. eexists i, _. split; [by rewrite list_lookup_insert|done].
  - destruct r as [| | | |r| ]; try done. destruct r as [| |z]; try done. inversion Hst; subst. left. exists i, z. set_solver.
Qed.

(** ** The stored bytes are encodings all along *)
Section enc.
  Context (C : cparams).
  Definition exbody (b : xbody) : Prop :=
    match b with
    | XIns p => steps (enc_rel C) p
    | XUnit p | XDel p => steps (enc_rel C) p
    | XWork _ _ ts => Forall (steps (enc_rel C)) ts
    | XBatch _ _ _ | XEnd _ => True
    end.
  Definition erbody (b : rbody) : Prop :=
    match b with YGet p => steps (enc_rel C) p | YSearch p => steps (enc_rel C) p end.
  Definition eclient (t : client) : Prop :=
    match t with
    | TLook _ _ ob => (N.of_nat (length ob) <= cp_maxval C)%N /\ exists p, ser_props (cp_json C) p = Val ob
    | TX _ b => exbody b
    | TR _ b => erbody b
    | _ => True
    end.
  Lemma enc_delete_rest io id : steps (enc_rel C) (delete_rest io id).
  Proof.
    unfold delete_rest. apply steps_bind.
    { apply steps_act. intros s. destruct (closed s); [by apply enc_same|]. intros [H1 H2]. split; [|done]. intros k b. cbn. intros [_ Hb]%lookup_delete_Some. by eapply H1. }
    intros _. apply steps_bind; [|intros _; apply enc_flush].
    unfold hnsw_delete. rewrite enc_delete_eq. apply steps_act. intros s. by apply enc_same.
  Qed.
  Lemma exbody_start c b : xstart C c = Some b -> exbody b.
  Proof.
    destruct c; cbn [xstart]; intros [= <-]; cbn [exbody]; try done.
    - apply enc_insert.
    - apply steps_act. intros s. by apply enc_same.
    - apply steps_act. intros s. by destruct (closed s); apply enc_same.
  Qed.
  Lemma exbody_step s b s' b' : exbody b -> xstep C s b s' b' -> enc_rel C s s' /\ exbody b'.
  Proof.
    intros Hb Hx. destruct Hx as [f s s' p' Hf|f s s' p' Hf|f s s' p' Hf|two io ol s r Hp Hv|io ol s os Hp|io ol s os Hp|two io ts s s' ts' Hm|two io rs s s' r Hg Hf|two io rs s e Hg];
      cbn [exbody steps] in *.
    1-3: specialize (Hb s); by rewrite Hf in Hb.
    - split; [apply enc_rel_refl|done].
    - split; [apply enc_rel_refl|]. unfold batch_threads. apply Forall_fmap, Forall_true. intros i. apply enc_worker.
    - split; [by apply enc_same|]. unfold batch2_threads. apply Forall_fmap, Forall_true. intros i. apply enc_worker2.
    - exact (steps_mstep _ _ _ Hm Hb).
    - split; [|done]. pose proof (enc_wal_flush C io s) as He. rewrite Hf in He. cbn [fst] in He.
      destruct two; [|done]. cbn [drop_chan]. intros H0. by apply He.
    - split; [|done]. destruct two; by apply enc_same.
  Qed.
  Lemma erbody_start c b : rstart C c = Some b -> erbody b.
  Proof.
    destruct c; cbn [rstart]; intros [= <-]; cbn [erbody].
    - apply steps_act. intros s. by apply enc_same.
    - eapply steps_mono; [apply enc_keep|]. apply steps_search_keep.
  Qed.
  Lemma erbody_step s b s' b' : erbody b -> ystep s b s' b' -> enc_rel C s s' /\ erbody b'.
  Proof. intros Hb Hx. destruct Hx as [f s s' p' Hf|f s s' p' Hf]; cbn [erbody steps] in *; specialize (Hb s); by rewrite Hf in Hb. Qed.

  Lemma enc_con_step s ts vs s' ts' :
    enc_ok C s -> Forall eclient ts -> con_step C (s, ts) vs (s', ts') -> enc_ok C s' /\ Forall eclient ts'.
  Proof.
    intros He Hts Hcs. inversion Hcs as [s0 ts0 i t vs0 s0' t' Hi Hst]; subst. clear Hcs.
    pose proof (proj1 (Forall_lookup _ _) Hts _ _ Hi) as Ht.
    cut (enc_ok C s' /\ eclient t'). { intros [H1 H2]. split; [done|]. by apply Forall_insert. }
    inversion Hst; subst; clear Hst; cbn [eclient] in *; try done.
    - split; [done|]. by eapply exbody_start.
    - match goal with H : xstep _ _ _ _ _ |- _ => destruct (exbody_step _ _ _ _ Ht H) as [H1 H2] end. split; [by apply H1|done].
    - split; [done|]. by eapply erbody_start.
    - match goal with H : ystep _ _ _ _ |- _ => destruct (erbody_step _ _ _ _ Ht H) as [H1 H2] end. split; [by apply H1|done].
    - split; [done|]. by eapply (proj1 He).
    - split; [done|]. apply enc_delete_rest.
  Qed.
  Lemma enc_decodes s ob vb k :
    enc_ok C s -> (cp_maxval C < 2 ^ 32)%N -> json_total (cp_json C) ->
    (N.of_nat (length ob) <= cp_maxval C)%N -> (exists p, ser_props (cp_json C) p = Val ob) -> vecs s !! k = Some vb ->
    exists p v, de_props (cp_json C) ob = Val p /\ de_vec vb = Val v.
  Proof.
    intros [H1 H2] Hm Hj Lo (p & Ep) Ev. destruct (H2 _ _ Ev) as (Lv & v & Evv).
    destruct (j_enc (cp_json C) p) as [js|] eqn:Ej; [|unfold ser_props in Ep; by rewrite Ej in Ep].
    destruct (Hj _ _ Ej) as (q & Eq).
    pose proof (ser_props_eq _ _ _ Ej) as E3. rewrite Ep in E3. apply Val_inj in E3.
    assert (Hjs : (N.of_nat (length js) < 2 ^ 32)%N).
    { rewrite E3, app_length, le_put_length in Lo. lia. }
    destruct (de_ser_props (cp_json C) _ _ [] Ej Hjs) as (b & Eb & Hd). rewrite Ep in Eb. apply Val_inj in Eb as <-.
    rewrite app_nil_r, Eq in Hd. rewrite Hd.
    destruct (de_enc_vec v vb Evv) as (w & ->); [lia|]. eauto.
  Qed.
End enc.

Lemma sim_run C (bad : call -> Prop) s n vs m :
  bad CSize ->
  (forall io id, bad (CDelete io id)) \/ (enc_ok C s /\ (cp_maxval C < 2 ^ 32)%N /\ json_total (cp_json C)) ->
  con_run C (s, replicate n TIdle) vs m ->
  (exists sa es as', at_run C bad (s, replicate n AIdle) vs es (sa, as') /\ rel C m.1 m.2 sa as') \/ search_panicked vs m.2.
Proof.
  intros Hsize Hb Hcr.
  cut (((forall io id, bad (CDelete io id)) \/ (enc_ok C m.1 /\ Forall (eclient C) m.2 /\ (cp_maxval C < 2 ^ 32)%N /\ json_total (cp_json C))) /\
    ((exists sa es as', at_run C bad (s, replicate n AIdle) vs es (sa, as') /\ rel C m.1 m.2 sa as') \/ search_panicked vs m.2)); [by intros [_ ?]|].
  remember (s, replicate n TIdle) as m0 eqn:Em. induction Hcr as [m|m vs1 m1 vs2 m2 Hr IH Hs]; subst.
  - split.
    { destruct Hb as [Hb|(H1 & H2 & H3)]; [by left|right]. split_and!; [done| |done|done]. cbn. by apply Forall_replicate. }
    left. eexists s, [], _. split; [constructor|]. cbn. split.
    + by rewrite !replicate_length.
    + intros i t a [-> _]%lookup_replicate [-> _]%lookup_replicate. done.
    + done.
    + done.
    + by intros i j t u [-> _]%lookup_replicate _ [].
    + by intros i t id [-> _]%lookup_replicate [].
  - destruct m1 as [s1 ts1], m2 as [s2 ts2]. destruct (IH eq_refl) as [He IH']. cbn [fst snd] in *. split.
    { destruct He as [He|(H1 & H2 & H3 & H4)]; [by left|right]. destruct (enc_con_step _ _ _ _ _ _ H1 H2 Hs). by split_and!. }
    destruct IH' as [(sa & es & as' & Ha & HR)|Hp].
    + destruct (sim_step C bad Hsize _ _ _ _ _ _ _ HR Hs) as [(sa' & es' & as2 & Ha' & HR')|(i & t & Hi & Ht)].
      * destruct He as [He|(H1 & H2 & H3 & H4)]; [by left|right]. intros i io id ob vb Hi Hv.
        pose proof (proj1 (Forall_lookup _ _) H2 _ _ Hi) as [Hl Hp]. by eapply enc_decodes.
      * left. exists sa', (es ++ es'), as2. split; [by eapply at_run_app|done].
      * right. right. by exists i, t.
    + right. by eapply panicked_step.
Qed.

(** One thread running alone: every write to the index is preceded by its log
    record, and neighbour lists stay within their bounds.  Needs no assumption
    on the index, the vectors or the parameters, and covers calls that panic. *)
From Verif Require Import GoBase FloatModel HeapModel ProgModel StateModel WalModel HnswModel CollModel
  ProofBase CodecProofs CodecSpec LogProofs FloatProofs HeapProofs WpProofs StepProofs.
Open Scope nat_scope.

(** ** Two states with the same index, up to vectors and mutexes *)
Definition conns_of (s : st) : gmap N (list (list N)) := v_conns <$> nodes s.
Record same_idx (a b : st) : Prop := MkSame {
  si_ep : ep b = ep a;
  si_maxl : maxl b = maxl a;
  si_del : deleted b = deleted a;
  si_conns : conns_of b = conns_of a
}.
Lemma same_idx_refl s : same_idx s s. Proof. done. Qed.
Lemma same_idx_sym a b : same_idx a b -> same_idx b a. Proof. by intros [? ? ? ?]. Qed.
Lemma same_idx_trans a b c : same_idx a b -> same_idx b c -> same_idx a c.
Proof. intros [? ? ? ?] [? ? ? ?]. split; congruence. Qed.

Lemma conns_lookup s n : conns_of s !! n = v_conns <$> nodes s !! n.
Proof. apply lookup_fmap. Qed.
Lemma same_idx_lookup a b n v : same_idx a b -> nodes a !! n = Some v -> exists v', nodes b !! n = Some v' /\ v_conns v' = v_conns v.
Proof.
  intros Hs Hn. pose proof (conns_lookup a n) as Ha. pose proof (conns_lookup b n) as Hb.
  rewrite (si_conns _ _ Hs), Ha, Hn in Hb. cbn in Hb. destruct (nodes b !! n) as [v'|]; [|done]. exists v'. cbn in Hb.
  split; [done|congruence].
Qed.
Lemma conns_insert s n v : v_conns <$> <[n := v]> (nodes s) = <[n := v_conns v]> (conns_of s).
Proof. apply fmap_insert. Qed.
Lemma conns_insert_same s n v v' : nodes s !! n = Some v -> v_conns v' = v_conns v -> v_conns <$> <[n := v']> (nodes s) = conns_of s.
Proof. intros Hn Hv. rewrite conns_insert, Hv. apply insert_id. by rewrite conns_lookup, Hn. Qed.

(** The records [os] describe how [s'] came from [s]. *)
Definition effect (os : list wop) (s s' : st) : Prop :=
  forall b, same_idx s b -> exists b', wops_apply os b = Val b' /\ same_idx s' b'.
Lemma effect_nil s s' : same_idx s s' -> effect [] s s'.
Proof. intros Hs b Hb. exists b. split; [done|]. by eapply same_idx_trans; [apply same_idx_sym|]. Qed.
Lemma wops_apply_app os1 os2 s : wops_apply (os1 ++ os2) s = (s' ← wops_apply os1 s; wops_apply os2 s').
Proof.
  revert s. induction os1 as [|o os1 IH]; intros s; cbn [app wops_apply]; [done|].
  destruct (wop_apply o s); cbn [mbind out_bind]; [apply IH|done..].
Qed.
Lemma effect_app os1 os2 s1 s2 s3 : effect os1 s1 s2 -> effect os2 s2 s3 -> effect (os1 ++ os2) s1 s3.
Proof.
  intros H1 H2 b Hb. destruct (H1 b Hb) as (b1 & E1 & Hb1). destruct (H2 b1 Hb1) as (b2 & E2 & Hb2).
  exists b2. split; [|done]. rewrite wops_apply_app, E1. done.
Qed.

(** ** The logic *)
Section seqlog.
  Context (P : hparams) (okid : N -> Prop) (lmax : nat).

  Definition bnd (l : nat) : nat := Nat.max (hp_m P) (match l with O => mMax0 P | _ => hp_mMax P end).
  Definition okop (o : wop) : Prop :=
    match o with
    | WAddVertex id l | WSetEntry id l => okid id /\ l <= lmax
    | WSetConns id l ns => okid id /\ l <= lmax /\ Forall okid ns /\ length ns <= bnd l
    | WAddConn id l n => okid id /\ l <= lmax /\ okid n
    | WDelete id => okid id
    end.

  Definition JV (v : vertex) : Prop := forall l cs, v_conns v !! l = Some cs -> length cs <= bnd l /\ Forall okid cs.
  Definition J (s : st) : Prop := forall n v, nodes s !! n = Some v -> okid n /\ JV v.

  Definition logged (s s' : st) : Prop :=
    exists os rs, Forall okop os /\ Forall2 (fun o r => enc_wop o = Val r) os rs /\
      snd <$> batch s' = (snd <$> batch s) ++ rs /\ effect os s s'.

  Lemma logged_same s s' : batch s' = batch s -> same_idx s s' -> logged s s'.
  Proof. intros Eb Hs. exists [], []. rewrite Eb, app_nil_r. split_and!; [constructor..|done|by apply effect_nil]. Qed.
  Lemma logged_refl s : logged s s. Proof. by apply logged_same. Qed.
  Lemma logged_trans s1 s2 s3 : logged s1 s2 -> logged s2 s3 -> logged s1 s3.
  Proof.
    intros (os1 & rs1 & O1 & E1 & B1 & F1) (os2 & rs2 & O2 & E2 & B2 & F2). exists (os1 ++ os2), (rs1 ++ rs2). split_and!.
    - by apply Forall_app.
    - by apply Forall2_app.
    - by rewrite B2, B1, app_assoc.
    - by eapply effect_app.
  Qed.
  (** A record written now, its effect done in the same step or later. *)
  Lemma logged_one o r s s' :
    okop o -> enc_wop o = Val r -> snd <$> batch s' = (snd <$> batch s) ++ [r] -> effect [o] s s' -> logged s s'.
  Proof. intros. exists [o], [r]. split_and!; [by repeat constructor|by repeat constructor|done..]. Qed.

  Definition tr {A} (p : prog st A) (Q : A -> Prop) : Prop :=
    forall s s' r, J s -> exec p s = Some (s', r) -> J s' /\ forall a, r = Val a -> logged s s' /\ Q a.

  Lemma tr_mono {A} (p : prog st A) (Q Q' : A -> Prop) : (forall a, Q a -> Q' a) -> tr p Q -> tr p Q'.
  Proof. intros HQ Hp s s' r HJ Hx. destruct (Hp s s' r HJ Hx) as [HJ' Hr]. split; [done|]. intros a Ha. destruct (Hr a Ha). auto. Qed.
  Lemma tr_bind {A B} (p : prog st A) (k : A -> prog st B) Q Q' :
    tr p Q -> (forall a, Q a -> tr (k a) Q') -> tr (p ≫= k) Q'.
  Proof.
    intros Hp Hk s s' r HJ Hx. rewrite exec_bind in Hx.
    destruct (exec p s) as [[s1 r1]|] eqn:E1; [|done]. destruct (Hp _ _ _ HJ E1) as [HJ1 Hr1].
    destruct r1 as [a|e|z].
    - destruct (Hr1 a eq_refl) as [HL1 HQ]. destruct (Hk a HQ s1 s' r HJ1 Hx) as [HJ' Hr']. split; [done|].
      intros b Hb. destruct (Hr' b Hb) as [HL2 HQ']. split; [by eapply logged_trans|done].
    - apply Some_pair_inj in Hx as [<- <-]. by split.
    - apply Some_pair_inj in Hx as [<- <-]. by split.
  Qed.
  Lemma tr_ret {A} (a : A) (Q : A -> Prop) : Q a -> tr (mret a) Q.
  Proof. intros HQ s s' r HJ Hx. apply Some_pair_inj in Hx as [<- <-]. split; [done|]. intros b <-%Val_inj. split; [apply logged_refl|done]. Qed.
  Lemma tr_lift {A} (o : out A) (Q : A -> Prop) : (forall a, o = Val a -> Q a) -> tr (lift o) Q.
  Proof. intros HQ s s' r HJ Hx. rewrite exec_lift in Hx. apply Some_pair_inj in Hx as [<- <-]. split; [done|]. intros b ->. split; [apply logged_refl|auto]. Qed.
  Lemma tr_done_pan {A} z (Q : A -> Prop) : tr (Done (Pan z)) Q.
  Proof. intros s s' r HJ Hx. apply Some_pair_inj in Hx as [<- <-]. by split. Qed.
  Lemma tr_read {A} (f : st -> out A) (Q : A -> Prop) :
    (forall s a, J s -> f s = Val a -> Q a) -> tr (act (fun s => (s, f s))) Q.
  Proof. intros HQ s s' r HJ Hx. rewrite exec_act in Hx. apply Some_pair_inj in Hx as [<- <-]. split; [done|]. intros a Ha. split; [apply logged_refl|eauto]. Qed.

  Lemma J_lock s n v lk : J s -> nodes s !! n = Some v -> J (set_nodes (<[n := Vertex (v_conns v) (v_vec v) lk]> (nodes s)) s).
  Proof.
    intros HJ Hn k w. cbn. destruct (decide (k = n)) as [->|Hne].
    - rewrite lookup_insert. intros [= <-]. apply (HJ n v Hn).
    - rewrite lookup_insert_ne by done. apply HJ.
  Qed.
  Lemma J_upd s n v' : J s -> okid n -> JV v' -> J (set_nodes (<[n := v']> (nodes s)) s).
  Proof.
    intros HJ Hn Hv k w. cbn. destruct (decide (k = n)) as [->|Hne].
    - rewrite lookup_insert. by intros [= <-].
    - rewrite lookup_insert_ne by done. apply HJ.
  Qed.
  Lemma J_same s s' : nodes s' = nodes s -> J s -> J s'.
  Proof. unfold J. by intros ->. Qed.
  Lemma JV_upd v l cs lk : JV v -> length cs <= bnd l -> Forall okid cs -> JV (Vertex (<[l := cs]> (v_conns v)) (v_vec v) lk).
  Proof.
    intros HV Hl Hf k ds. cbn. destruct (decide (k = l)) as [->|Hne].
    - intros Hk. pose proof (lookup_lt_Some _ _ _ Hk) as Hlt. rewrite insert_length in Hlt.
      rewrite list_lookup_insert in Hk by done. by injection Hk as <-.
    - rewrite list_lookup_insert_ne by done. apply HV.
  Qed.

  Definition oke (l : list elem) : Prop := Forall okid (e_id <$> l).
  Lemma oke_perm a b : a ≡ₚ b -> oke a -> oke b.
  Proof. unfold oke. by intros ->. Qed.
  Lemma oke_app a b : oke (a ++ b) <-> oke a /\ oke b.
  Proof. unfold oke. by rewrite fmap_app, Forall_app. Qed.
  Lemma heap_pop_oke less l x l' : heap_pop less l = Val (x, l') -> oke l -> okid (e_id x) /\ oke l'.
  Proof. intros Hp Ho. apply heap_pop_perm in Hp. apply (oke_perm _ _ Hp) in Ho. by apply Forall_cons in Ho. Qed.
  Lemma heap_push_oke less l x : oke l -> okid (e_id x) -> oke (heap_push less l x).
  Proof. intros Ho Hx. eapply oke_perm; [symmetry; apply heap_push_perm|]. by constructor. Qed.
  Lemma heap_init_oke less l : oke l -> oke (heap_init less l).
  Proof. intros Ho. eapply oke_perm; [symmetry; apply heap_init_perm|]. done. Qed.

  Lemma tr_read_vertex n : tr (read_vertex n) (fun v => okid n /\ JV v).
  Proof. apply tr_read. intros s v HJ Hv. destruct (nodes s !! n) as [w|] eqn:E; [|done]. apply Val_inj in Hv as <-. by apply (HJ n w). Qed.
  Lemma tr_read_conns t n l : tr (read_conns P t n l) (Forall okid).
  Proof.
    intros s s' r HJ. unfold read_conns. rewrite exec_act_lock. destruct (nodes s !! n) as [v|] eqn:En.
    2:{ intros [<- <-]%Some_pair_inj. by split. }
    destruct (v_lock v); [done|]. destruct (v_conns v !! l) as [cs|] eqn:El.
    2:{ intros [<- <-]%Some_pair_inj. split; [by apply J_lock|done]. }
    case_decide; intros [<- <-]%Some_pair_inj; (split; [done || by apply J_lock|]); [|done].
    intros a <-%Val_inj. split; [apply logged_refl|]. by eapply HJ.
  Qed.

  Definition okx (x : slstate) : Prop := oke (sl_cands x) /\ oke (sl_near x).
  Lemma consider_okx ef n d x x' : okid n -> okx x -> consider ef n d x = Val x' -> okx x'.
  Proof.
    intros Hn [Hc Hr]. unfold consider. destruct (heap_peek (sl_near x)); cbn [mbind out_bind]; [|done..].
    destruct (_ || _); [|by intros <-%Val_inj].
    destruct (ef <? _).
    - destruct (heap_pop max_less _) as [[y near']| |] eqn:Ep; cbn [mbind out_bind]; [|done..]. intros <-%Val_inj.
      split; [by apply heap_push_oke|]. eapply heap_pop_oke; [exact Ep|]. by apply heap_push_oke.
    - intros <-%Val_inj. split; by apply heap_push_oke.
  Qed.
  Lemma tr_visit_conns q ef cs x : Forall okid cs -> okx x -> tr (visit_conns P q ef cs x) okx.
  Proof.
    revert x. induction cs as [|c cs IH]; intros x Hcs Hx; cbn [visit_conns]; [by apply tr_ret|].
    apply Forall_cons in Hcs as [Hc Hcs]. case_bool_decide; [by apply IH|].
    eapply tr_bind; [by apply (tr_lift _ (fun _ => True))|intros _ _].
    eapply tr_bind; [apply tr_read_vertex|intros v _].
    eapply tr_bind; [by apply (tr_lift _ (fun _ => True))|intros d _].
    eapply tr_bind; [apply (tr_lift _ okx)|intros x' Hx'; by apply IH].
    intros x' Hx'. eapply consider_okx; [exact Hc| |exact Hx']. done.
  Qed.
  Lemma tr_search_loop t fuel q ef l x : okx x -> tr (search_loop P t fuel q ef l x) okx.
  Proof.
    revert x. induction fuel as [|fuel IH]; intros x Hx; cbn [search_loop]; destruct (sl_cands x) as [|e0 es] eqn:Ec;
      try by (apply tr_ret || apply tr_done_pan).
    rewrite <- Ec.
    eapply tr_bind; [apply (tr_lift _ (fun '(c, cands) => okid (e_id c) /\ oke cands))|].
    { intros [c cands] Hp. eapply heap_pop_oke; [exact Hp|apply Hx]. }
    intros [c cands] [Hc Hcands]. eapply tr_bind; [by apply (tr_lift _ (fun _ => True))|intros f _].
    destruct (fltb _ _). { apply tr_ret. by split; [|apply Hx]. }
    eapply tr_bind; [apply tr_read_conns|intros conns Hconns].
    eapply tr_bind; [apply tr_visit_conns; [done|by split; [|apply Hx]]|intros x' Hx']. by apply IH.
  Qed.
  Lemma tr_search_layer t fuel q eps ef l : oke eps -> tr (search_layer P t fuel q eps ef l) oke.
  Proof.
    intros He. unfold search_layer.
    eapply tr_bind; [apply (tr_lift _ oke)|intros cands Hc].
    { unfold new_min_heap_deep. intros a. case_decide; [|done]. intros <-%Val_inj. by apply heap_init_oke. }
    eapply tr_bind; [apply (tr_lift _ oke)|intros near Hn].
    { unfold new_max_heap_deep. intros a. case_decide; [|done]. intros <-%Val_inj. by apply heap_init_oke. }
    eapply tr_bind; [by apply tr_search_loop|intros x Hx]. apply tr_ret, Hx.
  Qed.
  Lemma tr_descend t fuel q l stop e : okid (e_id e) -> tr (descend P t fuel q l stop e) (fun e => okid (e_id e)).
  Proof.
    revert e. induction l as [|l IH]; intros e He; cbn [descend]; [by apply tr_ret|].
    destruct (stop <? S l); [|by apply tr_ret].
    eapply tr_bind; [apply tr_search_layer; by constructor|intros near Hn].
    eapply tr_bind; [apply (tr_lift _ (fun e => okid (e_id e)))|intros e' He'; by apply IH].
    intros e' He'. destruct near; [done|]. apply Val_inj in He' as <-. by apply Forall_cons in Hn as [? _].
  Qed.

  Lemma pop_ids_oke n h ids : oke h -> pop_ids n h = Val ids -> Forall okid ids /\ length ids = n.
  Proof.
    revert h ids. induction n as [|n IH]; intros h ids Ho; cbn [pop_ids]; [by intros <-%Val_inj|].
    destruct (heap_pop min_less h) as [[e h']| |] eqn:Ep; cbn [mbind out_bind]; [|done..].
    destruct (pop_ids n h') as [ids'| |] eqn:Ei; cbn [mbind out_bind]; [|done..]. intros <-%Val_inj.
    destruct (heap_pop_oke _ _ _ _ Ep Ho) as [He Ho']. destruct (IH _ _ Ho' Ei). split; [by constructor|cbn; lia].
  Qed.
  Lemma tr_heur_check e res : tr (heur_check P e res) (fun _ => True).
  Proof.
    induction res as [|r res IH]; cbn [heur_check]; [by apply tr_ret|].
    eapply tr_bind; [by apply (tr_read _ (fun _ => True))|intros [ev rv] _].
    eapply tr_bind; [by apply (tr_lift _ (fun _ => True))|intros d _]. destruct (fltb _ _); [by apply tr_ret|exact IH].
  Qed.
  Lemma tr_heur_loop n q m res :
    oke q -> Forall okid res -> length res <= m -> tr (heur_loop P n q m res) (fun ns => Forall okid ns /\ length ns <= m).
  Proof.
    revert q res. induction n as [|n IH]; intros q res Hq Hr Hl; cbn [heur_loop]; destruct q as [|e0 q0] eqn:Eq; rewrite <- ?Eq in *;
      try (apply tr_ret; by split); (destruct (length res <? m) eqn:Em; [|apply tr_ret; by split]).
    { apply tr_done_pan. }
    apply Nat.ltb_lt in Em.
    eapply tr_bind; [apply (tr_lift _ (fun '(c, cands) => okid (e_id c) /\ oke cands))|].
    { intros [c cands] Hp. eapply heap_pop_oke; [exact Hp|done]. }
    intros [e q'] [He Hq']. eapply tr_bind; [apply tr_heur_check|intros ok _]. apply IH; [done|..]; destruct ok; try done.
    - apply Forall_app. split; [done|by constructor].
    - rewrite app_length. cbn. lia.
  Qed.
  Lemma tr_select cands m : oke cands -> tr (select_neighbors P cands m) (fun ns => Forall okid ns /\ length ns <= m).
  Proof.
    intros Ho. unfold select_neighbors. destruct (hp_heuristic P).
    - unfold select_heuristic. apply tr_heur_loop; [by apply heap_init_oke|constructor|cbn; lia].
    - apply tr_lift. intros ns Hns. unfold select_simple in Hns. apply pop_ids_oke in Hns as [H1 H2]; [split; [done|lia]|]. by apply heap_init_oke.
  Qed.
  Lemma tr_conn_elems base cs : Forall okid cs -> tr (conn_elems P base cs) oke.
  Proof.
    induction cs as [|c cs IH]; intros Hcs; cbn [conn_elems]; [apply tr_ret; constructor|].
    apply Forall_cons in Hcs as [Hc Hcs].
    eapply tr_bind; [apply tr_read_vertex|intros v _].
    eapply tr_bind; [by apply (tr_lift _ (fun _ => True))|intros d _].
    eapply tr_bind; [by apply IH|intros es Hes]. apply tr_ret. by constructor.
  Qed.

  (** ** Writes *)
  Lemma effect_upd o s s' n v l cs :
    nodes s !! n = Some v -> l < length (v_conns v) ->
    (o = WSetConns n l cs \/ exists c, o = WAddConn n l c /\ cs = (v_conns v !!! l) ++ [c]) ->
    ep s' = ep s -> maxl s' = maxl s -> deleted s' = deleted s ->
    conns_of s' = <[n := <[l := cs]> (v_conns v)]> (conns_of s) -> effect [o] s s'.
  Proof.
    intros Hn Hl Ho Ee Em Ed Ec b Hb. destruct (same_idx_lookup _ _ _ _ Hb Hn) as (w & Hw & Ew).
    assert (wop_apply o b = Val (set_nodes (<[n := Vertex (<[l := cs]> (v_conns w)) (v_vec w) (v_lock w)]> (nodes b)) b)) as Ho'.
    { destruct Ho as [->|(c & -> & ->)]; cbn [wop_apply]; rewrite Hw, Ew, decide_True by done; done. }
    eexists. split; [cbn [wops_apply]; rewrite Ho'; reflexivity|]. destruct Hb as [B1 B2 B3 B4].
    split; cbn; try congruence. rewrite Ec. unfold conns_of. cbn [nodes set_nodes]. rewrite conns_insert, B4. cbn. by rewrite Ew.
  Qed.

  Lemma steps_eq_exec {A} (p : prog st A) s s' r : steps (fun a b : st => b = a) p -> exec p s = Some (s', r) -> s' = s.
  Proof. apply (steps_exec (fun a b : st => b = a)); congruence. Qed.
  Lemma steps_eq_read {A} (f : st -> out A) : steps (fun a b : st => b = a) (act (fun s => (s, f s))).
  Proof. by apply steps_act. Qed.
  Lemma steps_eq_select cands m : steps (fun a b : st => b = a) (select_neighbors P cands m).
  Proof.
    unfold select_neighbors, select_heuristic. destruct (hp_heuristic P); [|done].
    generalize (length cands) (heap_init min_less cands) ([] : list N). intros n.
    induction n as [|n IH]; intros q res; cbn [heur_loop]; destruct q as [|e0 q0] eqn:Eq; rewrite <- ?Eq; try done;
      destruct (_ <? m); try done.
    apply steps_bind; [done|]. intros [e q']. apply steps_bind; [|intros; apply IH].
    induction res as [|r res IHr]; cbn [heur_check]; [done|].
    apply steps_bind; [apply steps_eq_read|]. intros [ev rv]. apply steps_bind; [done|]. intros d. by destruct (fltb _ _).
  Qed.
  Lemma steps_eq_conn_elems base cs : steps (fun a b : st => b = a) (conn_elems P base cs).
  Proof.
    induction cs as [|c cs IH]; cbn [conn_elems]; [done|].
    apply steps_bind; [apply steps_eq_read|]. intros v. apply steps_bind; [done|]. intros d. by apply steps_bind.
  Qed.

  Lemma wal_write_exec data r s :
    data = Val r -> exec (wal_write data) s = Some (wal_append r s, Val tt).
  Proof. intros ->. done. Qed.
  Lemma batch_append r s : snd <$> batch (wal_append r s) = (snd <$> batch s) ++ [r].
  Proof. cbn. by rewrite fmap_app. Qed.

  Lemma lookup_total_Some {A} `{Inhabited A} (l : list A) i x : l !! i = Some x -> l !!! i = x.
  Proof. intros H0. by apply list_lookup_total_correct. Qed.

  (** Updating a vertex while holding its mutex, or the vertex being inserted. *)
  Lemma tr_link_one t id vec l n :
    okid id -> l <= lmax -> tr (link_one P t id vec l (match l with O => mMax0 P | _ => hp_mMax P end) n) (fun _ => True).
  Proof.
    intros Hid Hlm s s' r HJ Hx. unfold link_one in Hx. rewrite exec_bind in Hx.
    unfold lock_conns in Hx at 1. rewrite exec_act_lock in Hx.
    destruct (nodes s !! n) as [v|] eqn:En.
    2:{ apply Some_pair_inj in Hx as [<- <-]. by split. }
    destruct (v_lock v) eqn:Elk; [done|]. destruct (v_conns v !! l) as [cs|] eqn:El.
    2:{ apply Some_pair_inj in Hx as [<- <-]. split; [by apply J_lock|done]. }
    cbn beta iota in Hx. set (v' := Vertex (v_conns v) (v_vec v) (Some t)) in *.
    set (s1 := set_nodes (<[n:=v']> (nodes s)) s) in *.
    assert (J s1) as HJ1 by by apply J_lock. destruct (HJ n v En) as [Hokn HV]. destruct (HV l cs El) as [Hlen Hcs].
    pose proof (lookup_lt_Some _ _ _ El) as Hllt.
    assert (nodes s1 !! n = Some v') as En1 by apply lookup_insert.
    assert (forall o r0 ns, okop o -> enc_wop o = Val r0 -> length ns <= bnd l -> Forall okid ns ->
      (o = WSetConns n l ns \/ exists c, o = WAddConn n l c /\ ns = (v_conns v !!! l) ++ [c]) ->
      let s3 := set_nodes (<[n := Vertex (<[l := ns]> (v_conns v)) (v_vec v) None]> (nodes s1)) (wal_append r0 s1) in
      J s3 /\ logged s s3) as Hupd.
    { intros o r0 ns Ho Henc Hns Hf Hcase s3. split.
      - apply (J_upd (wal_append r0 s1)); [by eapply J_same; [|exact HJ1]|done|]. by apply (JV_upd v).
      - apply (logged_one o r0); [done|done|cbn; by rewrite fmap_app|].
        apply (effect_upd o s s3 n v l ns); try done. unfold s3, conns_of. cbn [nodes set_nodes s1].
        rewrite insert_insert. rewrite conns_insert. done. }
    destruct (length cs <? _) eqn:Elt.
    - apply Nat.ltb_lt in Elt. rewrite exec_bind in Hx. destruct (enc_wop_total (WAddConn n l id)) as [r0 Hr0].
      pose proof Hr0 as Hr0'. cbn [enc_wop] in Hr0'. rewrite (wal_write_exec _ r0) in Hx by done.
      unfold add_conn_unlock in Hx. rewrite exec_act in Hx. change (nodes (wal_append r0 s1)) with (nodes s1) in Hx. rewrite En1 in Hx.
      unfold vertex_add_conn in Hx. change (v_conns v') with (v_conns v) in Hx. rewrite El in Hx. cbn [or_pan mbind out_bind] in Hx.
      apply Some_pair_inj in Hx as [<- <-]. cbn [v_conns v_vec].
      destruct (Hupd (WAddConn n l id) r0 (cs ++ [id])) as [HJ3 HL3]; try done.
      + rewrite app_length. cbn. unfold bnd. destruct l; lia.
      + apply Forall_app. split; [done|by constructor].
      + right. exists id. split; [done|]. by rewrite (lookup_total_Some _ _ _ El).
    - rewrite exec_bind in Hx. rewrite exec_lift in Hx. destruct (dist P (v_vec v') vec) as [d|e|z].
      2,3: apply Some_pair_inj in Hx as [<- <-]; by split.
      rewrite exec_bind in Hx. destruct (exec (conn_elems P (v_vec v') cs) s1) as [[s2 r2]|] eqn:Ece; [|done].
      pose proof (steps_eq_exec _ _ _ _ (steps_eq_conn_elems _ _) Ece) as ->.
      destruct (tr_conn_elems (v_vec v') cs Hcs _ _ _ HJ1 Ece) as [_ Hes].
      destruct r2 as [es|e|z]. 2,3: apply Some_pair_inj in Hx as [<- <-]; by split.
      destruct (Hes es eq_refl) as [_ Hoke].
      rewrite exec_bind in Hx. match type of Hx with context [select_neighbors P ?c ?m] =>
        destruct (exec (select_neighbors P c m) s1) as [[s2 r2]|] eqn:Esel; [|done]; pose proof (tr_select c m) as Htr end.
      pose proof (steps_eq_exec _ _ _ _ (steps_eq_select _ _) Esel) as ->.
      destruct (Htr ltac:(by constructor) _ _ _ HJ1 Esel) as [_ Hns].
      destruct r2 as [ns|e|z]. 2,3: apply Some_pair_inj in Hx as [<- <-]; by split.
      destruct (Hns ns eq_refl) as [_ [Hnok Hnlen]].
      assert (length ns <= bnd l) as Hnb by (unfold bnd; destruct l; lia).
      rewrite exec_bind in Hx. destruct (enc_wop_total (WSetConns n l ns)) as [r0 Hr0].
      pose proof Hr0 as Hr0'. cbn [enc_wop] in Hr0'. rewrite (wal_write_exec _ r0) in Hx by done.
      unfold set_conns_unlock in Hx. rewrite exec_act in Hx. change (nodes (wal_append r0 s1)) with (nodes s1) in Hx. rewrite En1 in Hx.
      unfold vertex_set_conns in Hx. change (v_conns v') with (v_conns v) in Hx. rewrite El in Hx. cbn [or_pan mbind out_bind] in Hx.
      apply Some_pair_inj in Hx as [<- <-]. cbn [v_conns v_vec].
      destruct (Hupd (WSetConns n l ns) r0 ns) as [HJ3 HL3]; try done. by left.
  Qed.
  Lemma tr_link_all t id vec l ns :
    okid id -> l <= lmax -> tr (link_all P t id vec l (match l with O => mMax0 P | _ => hp_mMax P end) ns) (fun _ => True).
  Proof.
    intros Hid Hl. induction ns as [|n ns IH]; cbn [link_all]; [by apply tr_ret|].
    eapply tr_bind; [by apply tr_link_one|intros _ _; exact IH].
  Qed.

  (** insert.go:74-75: the record of the new vertex's list, then the list *)
  Lemma tr_set_conns id l ns :
    okid id -> l <= lmax -> Forall okid ns -> length ns <= hp_m P ->
    tr (wal_write (enc_set_conns id l ns);; set_conns_unlocked id l ns) (fun _ => True).
  Proof.
    intros Hid Hl Hns Hlen s s' r HJ Hx. rewrite exec_bind in Hx.
    destruct (enc_wop_total (WSetConns id l ns)) as [r0 Hr0]. pose proof Hr0 as Hr0'. cbn [enc_wop] in Hr0'.
    rewrite (wal_write_exec _ r0) in Hx by done. unfold set_conns_unlocked in Hx. rewrite exec_act in Hx.
    change (nodes (wal_append r0 s)) with (nodes s) in Hx. destruct (nodes s !! id) as [v|] eqn:En.
    2:{ apply Some_pair_inj in Hx as [<- <-]. split; [by eapply J_same; [|exact HJ]|done]. }
    unfold vertex_set_conns in Hx. destruct (v_conns v !! l) as [cs|] eqn:El; cbn [or_pan mbind out_bind] in Hx.
    2:{ apply Some_pair_inj in Hx as [<- <-]. split; [by eapply J_same; [|exact HJ]|done]. }
    apply Some_pair_inj in Hx as [<- <-]. destruct (HJ id v En) as [_ HV].
    assert (length ns <= bnd l) as Hnb by (unfold bnd; lia). split.
    - apply (J_upd (wal_append r0 s)); [by eapply J_same; [|exact HJ]|done|]. by apply (JV_upd v).
    - intros [] _. split; [|done]. apply (logged_one (WSetConns id l ns) r0); [done|done|cbn; by rewrite fmap_app|].
      eapply (effect_upd _ _ _ id v l ns); try done; [by eapply lookup_lt_Some|by left|].
      unfold conns_of. cbn [nodes set_nodes]. rewrite conns_insert. done.
  Qed.

  Lemma tr_assoc {A B C} (p : prog st A) (q : A -> prog st B) (k : B -> prog st C) Q :
    tr ((p ≫= q) ≫= k) Q -> tr (p ≫= (fun a => q a ≫= k)) Q.
  Proof.
    intros H0 s s' r HJ Hx. apply (H0 s s' r HJ). rewrite <- Hx. rewrite !exec_bind.
    destruct (exec p s) as [[s1 [a|e|z]]|]; [|done..]. by rewrite exec_bind.
  Qed.
  Lemma tr_construct t fuel id vec l eps :
    okid id -> l <= lmax -> oke eps -> tr (construct P t fuel id vec l eps) (fun _ => True).
  Proof.
    intros Hid. revert eps. induction l as [|l IH]; intros eps Hl He; cbn [construct].
    all: eapply tr_bind; [by apply tr_search_layer|intros near Hn].
    all: eapply tr_bind; [by apply tr_select|intros ns [Hns Hlen]].
    all: apply tr_assoc.
    all: (eapply tr_bind; [by apply tr_set_conns|intros _ _]).
    - eapply tr_bind; [apply (tr_link_all t id vec 0); [done|lia]|intros _ _]. by apply tr_ret.
    - eapply tr_bind; [apply (tr_link_all t id vec (S l)); [done|lia]|intros _ _]. apply IH; [lia|done].
  Qed.

  Lemma effect_entry s s' id l :
    ep s' = id -> maxl s' = l -> deleted s' = deleted s -> conns_of s' = conns_of s -> effect [WSetEntry id l] s s'.
  Proof.
    intros Ee Em Ed Ec b [B1 B2 B3 B4]. eexists. split; [reflexivity|]. split; cbn; try congruence.
    unfold conns_of in *. cbn. congruence.
  Qed.
  Lemma effect_vertex s s' id l vec :
    ep s' = ep s -> maxl s' = maxl s -> deleted s' = deleted s ->
    nodes s' = <[id := Vertex (init_conns l) vec None]> (nodes s) -> effect [WAddVertex id l] s s'.
  Proof.
    intros Ee Em Ed En b [B1 B2 B3 B4]. eexists. split; [reflexivity|]. split; cbn; try congruence.
    unfold conns_of in *. cbn [nodes set_nodes]. rewrite En, !fmap_insert, B4. cbn. unfold init_conns. by rewrite Nat.add_1_r.
  Qed.
  Lemma JV_init l vec lk : JV (Vertex (init_conns l) vec lk).
  Proof. intros k cs. cbn. unfold init_conns. intros [-> _]%lookup_replicate. split; [cbn; lia|constructor]. Qed.

  Lemma tr_once_insert id vec : okid id -> tr (once_insert id vec) (fun _ => True).
  Proof.
    intros Hid s s' r HJ Hx. unfold once_insert in Hx.
    destruct (enc_wop_total (WSetEntry id 0)) as [r1 H1], (enc_wop_total (WAddVertex id 0)) as [r2 H2].
    pose proof H1 as H1'. pose proof H2 as H2'. cbn [enc_wop] in H1', H2'. rewrite H1', H2', exec_act in Hx.
    destruct (once s). { apply Some_pair_inj in Hx as [<- <-]. split; [done|]. intros. split; [apply logged_refl|done]. }
    cbn zeta in Hx. destruct (bool_decide _).
    2:{ apply Some_pair_inj in Hx as [<- <-]. split; [by eapply J_same; [|exact HJ]|]. intros. split; [by apply logged_same|done]. }
    apply Some_pair_inj in Hx as [<- <-]. split.
    - match goal with |- J (set_nodes (<[_ := _]> (nodes ?x)) _) => apply (J_upd x) end;
        [by eapply J_same; [|exact HJ]|done|apply JV_init].
    - intros a _. split; [|done]. exists [WSetEntry id 0; WAddVertex id 0], [r1; r2]. split_and!.
      + repeat constructor; try done; cbn; lia.
      + by repeat constructor.
      + cbn. by rewrite !fmap_app, <- app_assoc.
      + apply (effect_app [_] [_] s (set_entry id 0 (wal_append r1 (set_once true s)))).
        * by apply effect_entry.
        * eapply effect_vertex; done.
  Qed.
  Lemma tr_add_vertex id level vec :
    okid id -> level <= lmax -> tr (wal_write (enc_add_vertex id level);; add_node id level vec) (fun _ => True).
  Proof.
    intros Hid Hl s s' r HJ Hx. rewrite exec_bind in Hx. destruct (enc_wop_total (WAddVertex id level)) as [r2 H2].
    pose proof H2 as H2'. cbn [enc_wop] in H2'. rewrite (wal_write_exec _ r2) in Hx by done.
    unfold add_node in Hx. rewrite exec_act in Hx. apply Some_pair_inj in Hx as [<- <-]. split.
    - apply (J_upd (wal_append r2 s)); [by eapply J_same; [|exact HJ]|done|apply JV_init].
    - intros a _. split; [|done]. apply (logged_one (WAddVertex id level) r2); [done|done|cbn; by rewrite fmap_app|].
      by eapply effect_vertex.
  Qed.
  Lemma tr_raise_entry id level cur : okid id -> level <= lmax -> tr (raise_entry id level cur) (fun _ => True).
  Proof.
    intros Hid Hl s s' r HJ Hx. unfold raise_entry in Hx. destruct (enc_wop_total (WSetEntry id level)) as [r2 H2].
    pose proof H2 as H2'. cbn [enc_wop] in H2'. rewrite H2', exec_act in Hx. destruct (cur <? level).
    - apply Some_pair_inj in Hx as [<- <-]. split; [by eapply J_same; [|exact HJ]|]. intros a _. split; [|done].
      apply (logged_one (WSetEntry id level) r2); [done|done|cbn; by rewrite fmap_app|]. by apply effect_entry.
    - apply Some_pair_inj in Hx as [<- <-]. split; [done|]. intros a _. split; [apply logged_refl|done].
  Qed.

  Lemma tr_hnsw_insert t fuel level vec id :
    okid id -> level <= lmax -> tr (hnsw_insert P t fuel level vec id) (fun _ => True).
  Proof.
    intros Hid Hl. unfold hnsw_insert. eapply tr_bind; [by apply tr_once_insert|].
    intros [|] _; [by apply tr_ret|]. apply tr_assoc. eapply tr_bind; [by apply tr_add_vertex|intros _ _].
    eapply tr_bind; [apply (tr_read _ (fun '(epid, _, _) => okid epid))|].
    { intros s [[epid epv] cur] HJ. destruct (nodes s !! ep s) as [v|] eqn:E; cbn [or_pan mbind out_bind]; [|done].
      intros Ha%Val_inj. injection Ha as <- <- <-. by destruct (HJ _ _ E). }
    intros [[epid epv] cur] Hep. eapply tr_bind; [by apply (tr_lift _ (fun _ => True))|intros d _].
    eapply tr_bind; [by apply tr_descend|intros e He].
    eapply tr_bind; [apply tr_construct; [done|lia|by constructor]|intros _ _]. by apply tr_raise_entry.
  Qed.
  Lemma tr_hnsw_delete id : okid id -> tr (hnsw_delete id) (fun _ => True).
  Proof.
    intros Hid s s' r HJ Hx. unfold hnsw_delete in Hx. destruct (enc_wop_total (WDelete id)) as [r2 H2].
    pose proof H2 as H2'. cbn [enc_wop] in H2'. rewrite H2', exec_act in Hx. apply Some_pair_inj in Hx as [<- <-].
    split; [by eapply J_same; [|exact HJ]|]. intros a _. split; [|done].
    apply (logged_one (WDelete id) r2); [done|done|cbn; by rewrite fmap_app|].
    intros b [B1 B2 B3 B4]. eexists. split; [reflexivity|]. split; cbn; try congruence. unfold conns_of in *. cbn. congruence.
  Qed.
  Lemma tr_hnsw_search t fuel q k : tr (hnsw_search P t fuel q k) (fun _ => True).
  Proof.
    unfold hnsw_search. destruct (k <? 0)%Z; [apply tr_done_pan|].
    eapply tr_bind; [apply (tr_read _ (fun '(epid, _, _) => okid epid))|].
    { intros s [[epid epv] cur] HJ. destruct (nodes s !! ep s) as [v|] eqn:E; cbn [or_pan mbind out_bind]; [|done].
      intros Ha%Val_inj. injection Ha as <- <- <-. by destruct (HJ _ _ E). }
    intros [[epid epv] cur] Hep. eapply tr_bind; [by apply (tr_lift _ (fun _ => True))|intros d _].
    eapply tr_bind; [by apply tr_descend|intros e He].
    eapply tr_bind; [apply tr_search_layer; by constructor|intros near Hn].
    eapply tr_bind; [by apply (tr_read _ (fun _ => True))|intros dels _]. by apply tr_lift.
  Qed.
End seqlog.

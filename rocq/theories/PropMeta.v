(** Properties that relate two runs: C87 (another k), C88 (before and after a
    Delete), C89 (a batch of one object and Insert). *)
From stdpp Require Import relations.
From Verif Require Import GoBase FloatModel HeapModel ProgModel StateModel WalModel HnswModel StoreModel CollModel CallModel
  ProofBase CodecProofs HeapProofs WpProofs HnswProofs StepProofs SimProofs StoreProofs HistProofs RestoreProofs AlignProofs HistRun MetaProofs PropRestore.
Open Scope nat_scope.

(** ** C87 Asking for more extends the answer *)
(** In every state whatsoever, of an index in order or not. *)
Theorem C87_more_extends : forall C tid s o k1 k2 s' n hs, (0 <= k1 <= k2)%Z ->
  exec (semantic_search C tid o k2) s = Some (s', Val (n, hs)) ->
  exec (semantic_search C tid o k1) s = Some (s', Val (length (take (Z.to_nat k1) hs), take (Z.to_nat k1) hs)).
Proof.
  intros C tid s o k1 k2 s' n hs [Hk1 Hk2] Hx.
  destruct (semantic_inv _ _ _ _ _ _ _ _ Hx) as (-> & Hcl & _ & o' & near & He & Hc & _ & _ & HF).
  eapply semantic_back; try done. apply (Forall2_take _ _ _ (Z.to_nat k1)) in HF. rewrite take_take, Nat.min_l in HF by lia. done.
Qed.
Print Assumptions C87_more_extends.
(** An answer shorter than asked for is the whole answer. *)
Theorem C87_short_is_all : forall C tid s o k1 k2 s' n hs, (k1 <= k2)%Z ->
  exec (semantic_search C tid o k1) s = Some (s', Val (n, hs)) -> (Z.of_nat (length hs) < k1)%Z ->
  exec (semantic_search C tid o k2) s = Some (s', Val (n, hs)).
Proof.
  intros C tid s o k1 k2 s' n hs Hk Hx Hs.
  destruct (semantic_inv _ _ _ _ _ _ _ _ Hx) as (-> & Hcl & Hk1 & o' & near & He & Hc & _ & -> & HF).
  eapply semantic_back; try done; [lia|]. pose proof (Forall2_length _ _ _ HF) as Hl. rewrite take_length in Hl.
  rewrite take_ge in HF by lia. by rewrite take_ge by lia.
Qed.
Print Assumptions C87_short_is_all.

(** ** C88 Deleting hides one object and nothing else *)
(** Every id is a uint64. *)
Definition ids_u64 (s : st) : Prop := forall i, is_Some (nodes s !! i) -> (i < 2 ^ 64)%N.
Theorem C88_delete_hides_one : forall C tid io id s s1 o k s2 n hs,
  ids_u64 s -> (id < 2 ^ 64)%N -> (0 <= k)%Z ->
  exec (delete_obj C io id) s = Some (s1, Val tt) ->
  exec (semantic_search C tid o (k + 1)) s = Some (s2, Val (n, hs)) ->
  let rest := take (Z.to_nat k) (filter (fun h => h_id h <> id) hs) in
  exec (semantic_search C tid o k) s1 = Some (s1, Val (length rest, rest)).
Proof.
  intros C tid io id s s1 o k s2 n hs Hu Hid Hk Hd Hx rest.
  destruct (semantic_inv _ _ _ _ _ _ _ _ Hx) as (-> & Hcl & _ & o' & near & He & Hc & Hnd & _ & HF).
  replace (Z.to_nat (k + 1)) with (S (Z.to_nat k)) in HF by lia.
  pose proof (shown_filter _ _ id _ _ HF) as HF2. apply (Forall2_take _ _ _ (Z.to_nat k)) in HF2.
  rewrite <- take_filter_ne in HF2 by (by apply ranking_nodup). fold rest in HF2.
  destruct (delete_effect _ _ _ _ _ Hd) as [[-> Hnone]|(Hg & Edel & Ecl & Evec & Eobj)].
  - assert (Hni : id ∉ (h_id <$> hs)).
    { intros Hin. rewrite (shown_ids _ _ _ _ HF) in Hin. apply elem_of_list_fmap in Hin as (e & -> & Hin).
      apply elem_of_list_lookup in Hin as [i Hi]. destruct (Forall2_lookup_l _ _ _ _ _ HF Hi) as (h & _ & ob & Hob & _). by rewrite Hnone in Hob. }
    unfold rest. rewrite filter_ne_notin by done. rewrite (C87_more_extends _ _ _ _ _ _ _ _ _ (conj Hk (ltac:(lia) : (k <= k + 1)%Z)) Hx). done.
  - assert (Hc1 : exec (search_core (cp_h C) tid (cp_fuel C) (vec_or_nil o')) s1 = Some (s1, Val near)).
    { pose proof (sim_exec _ _ _ _ (g_core (cp_h C) tid (cp_fuel C) (vec_or_nil o')) Hg) as H. rewrite Hc in H. destruct H as (s3 & H & _).
      by destruct (core_nodup _ _ _ _ _ _ _ H) as [_ ->]. }
    eapply semantic_back; try done; [congruence|]. rewrite Edel, ranking_delete.
    assert (Hall : Forall (fun e => is_Some (nodes s !! e_id e)) near) by (by eapply core_found).
    assert (Hk2 : Forall (fun e => id_key (e_id e) <> id_key id) (take (Z.to_nat k) (filter (fun e => e_id e <> id) (ranking near (deleted s))))).
    { apply Forall_take, Forall_forall. intros e [Hne Hin]%elem_of_list_filter Ek. apply ranking_in in Hin. rewrite Forall_forall in Hall.
      apply id_key_inj in Ek; [done| |done]. by apply Hu, Hall. }
    clearbody rest. clear -HF2 Hk2 Ecl Evec Eobj. induction HF2 as [|e h es hs' He HF IH]; [constructor|]. apply Forall_cons in Hk2 as [Hk1 Hk2]. constructor; [|by apply IH].
    apply (shown_other C s s1 id); try done. intros k0 Hk0. by rewrite Eobj, lookup_delete_ne.
Qed.
Print Assumptions C88_delete_hides_one.
(** [delete_obj] is a Delete that nobody interferes with. *)
Theorem C88_delete_is_the_call : forall C io id s s' r,
  exec (delete_obj C io id) s = Some (s', r) -> call_run C s (CDelete io id) s' (RUnit r).
Proof.
  intros C io id s s' r Hx. eapply RunDelete; [apply LookNow|].
  unfold delete_obj, delete_found in *. rewrite exec_bind, exec_act in *. done.
Qed.
Print Assumptions C88_delete_is_the_call.

(** ** C89 A batch of one object is an Insert *)
Lemma steps_top {S A} (p : prog S A) : steps (fun a b => True -> True) p.
Proof. induction p as [r|f IH] using prog_ind'; [done|]. intros s. destruct (f s) as [[s' p']|] eqn:E; [|done]. split; [done|]. by eapply IH. Qed.
(** One goroutine works, the others have nothing to do. *)
Lemma solo_run {S A} (Q : S -> Prop) (idle : prog S A -> Prop) (dn : A) :
  (forall q f, idle q -> q = Step f -> forall s, Q s -> f s = Some (s, Done (Val dn))) ->
  (forall r, idle (Done r) -> r = Val dn) -> idle (Done (Val dn)) ->
  forall m m', rtc mstep m m' -> forall i p, snd m !! i = Some p -> steps (fun a b => Q a -> Q b) p -> Q (fst m) ->
  (forall j q, j <> i -> snd m !! j = Some q -> idle q) ->
  forall s' rs, m' = (s', Done <$> rs) ->
  exists r, exec p (fst m) = Some (s', r) /\ rs !! i = Some r /\ forall j r', j <> i -> rs !! j = Some r' -> r' = Val dn.
Proof.
  intros Hst Hdn Hid m m' Hr. induction Hr as [m|m m1 m' Hs Hr IH]; intros i p Hi Hp HQ Hot s' rs Hm.
  - subst m. cbn [fst snd] in *. rewrite list_lookup_fmap in Hi. destruct (rs !! i) as [r|] eqn:Er; [|done]. injection Hi as <-.
    exists r. split_and!; [done|done|]. intros j r' Hj Hr'. apply Hdn, (Hot j); [done|]. by rewrite list_lookup_fmap, Hr'.
  - destruct Hs as [s ts j f s1 p' Hj Hf]. cbn [fst snd] in *. destruct (decide (j = i)) as [->|Hne].
    + rewrite Hi in Hj. injection Hj as ->. cbn [steps] in Hp. specialize (Hp s). rewrite Hf in Hp. destruct Hp as [Hq Hp].
      cbn [exec]. rewrite Hf. apply (IH i p'); try done.
      * apply list_lookup_insert. by eapply lookup_lt_Some.
      * by apply Hq.
      * intros j q Hj Hjq. rewrite list_lookup_insert_ne in Hjq by done. by eapply Hot.
    + rewrite (Hst _ f (Hot j _ Hne Hj) eq_refl s HQ) in Hf. injection Hf as <- <-. apply (IH i p); try done.
      * by rewrite list_lookup_insert_ne.
      * intros l q Hl Hlq. destruct (decide (l = j)) as [->|Hlj]; [|rewrite list_lookup_insert_ne in Hlq by done; by eapply Hot].
        rewrite list_lookup_insert in Hlq by (by eapply lookup_lt_Some). by injection Hlq as <-.
Qed.

Definition keep_chan (a b : st) : Prop := chan b = chan a.
Lemma insert_one_chan C tid level o : steps (fun a b => chan a = [] -> chan b = []) (insert_one C tid level o).
Proof.
  apply (steps_mono keep_chan); [intros a b; unfold keep_chan; congruence|]. unfold insert_one.
  apply steps_bind; [|intros id].
  { unfold fetch_and_inc. apply steps_act. intros s. repeat case_match; done. }
  apply steps_bind; [|intros _].
  { unfold put_object. apply steps_bind; [apply steps_lift|intros ob]. apply steps_bind; [apply steps_lift|intros vb].
    apply steps_bind; [|intros _]; apply steps_act; intros s; (destruct (bc_put _ _ _ _); [by destruct (closed s)|done..]). }
  apply steps_bind; [|intros _; apply steps_ret]. eapply steps_mono; [|apply insert_keep_store]. by intros a b (_ & _ & _ & _ & _ & _ & ? & _).
Qed.

Lemma chunk_one {A} w i (x : A) : i < w -> chunk w i [x] = if i =? w - 1 then [x] else [].
Proof.
  intros Hi. unfold chunk. cbn [length]. destruct (decide (w = 1)) as [->|Hw].
  - assert (i = 0) as -> by lia. done.
  - rewrite Nat.div_small, Nat.mod_small by lia. rewrite !Nat.mul_0_r. destruct (i =? w - 1); done.
Qed.

(** What the caller sees: the objects that were completed. *)
Definition completed (rs : list (out (list object))) : list object :=
  flat_map (fun r => match r with Val l => l | _ => [] end) rs.
(** How the end of a batch (state, error, results of the workers) has to look
    when Insert ends in [s1] with [r1].  A panic of Insert is either met before
    the batch starts its workers, or swallowed by the pool. *)
Definition ends_like (io : bool) (s1 : st) (r1 : out object) (s' : st) (r : out unit) (rs : list (out (list object))) : Prop :=
  match r1 with
  | Val o' => s' = s1 /\ r = Val tt /\ completed rs = [o']
  | Err e => s' = s1 /\ r = Err e
  | Pan p => (s' = s1 /\ r = Pan p) \/ wal_flush io s1 = (s', r)
  end.

Lemma completed_one rs i (r : out (list object)) : rs !! i = Some r -> (forall j r', j <> i -> rs !! j = Some r' -> r' = Val []) ->
  completed rs = match r with Val l => l | _ => [] end.
Proof.
  unfold completed. revert i. induction rs as [|r0 rs IH]; intros i Hi Ho; [done|]. cbn [flat_map]. destruct i as [|i].
  - injection Hi as ->. assert (E : flat_map (fun r => match r with Val l => l | _ => [] end) rs = ([] : list object)); [|rewrite E; by rewrite app_nil_r].
    clear IH. assert (H : forall j r', rs !! j = Some r' -> r' = Val []) by (intros j r' Hj; by apply (Ho (S j))). clear Ho.
    induction rs as [|r1 rs IH]; [done|]. cbn [flat_map]. rewrite (H 0 r1 eq_refl). cbn [app]. apply IH. intros j r' Hj. by apply (H (S j)).
  - rewrite (Ho 0 r0) by done. cbn [app]. apply (IH i); [done|]. intros j r' Hj Hr. apply (Ho (S j)); [lia|done].
Qed.

(** The work of the one busy goroutine against Insert. *)
Lemma one_insert C tid io level o o' s s1 r1 :
  batch_prepare C s [o] = Val [o'] -> exec (insert_one C tid level o') s = Some (s1, r1) ->
  exec (CollModel.insert C tid io level o) s =
    match r1 with
    | Val o'' => Some (fst (wal_flush io s1), match snd (wal_flush io s1) with Val _ => Val o'' | Err e => Err e | Pan p => Pan p end)
    | Err e => Some (s1, Err e)
    | Pan p => Some (s1, Pan p)
    end.
Proof.
  intros Hp Hx. unfold batch_prepare in Hp. destruct (closed s) eqn:Ecl; [done|]. unfold CollModel.insert, check_open. rewrite exec_bind, exec_act, Ecl. cbv beta iota.
  destruct (validate_objects C 0 [o]) as [[]| |] eqn:Ev; [|done..]. cbn [mbind out_bind] in Hp. rewrite exec_bind, exec_lift. cbv beta iota.
  rewrite exec_bind, exec_lift, Hp. cbv beta iota. rewrite exec_bind, Hx. destruct r1 as [o''|e|p]; [|done..]. unfold flush. rewrite exec_bind, exec_act.
  destruct (wal_flush io s1) as [s2 [[]|e|p]]; done.
Qed.
Lemma prepare_refused C tid io level o s :
  (forall os, batch_prepare C s [o] <> Val os) ->
  exec (CollModel.insert C tid io level o) s = Some (s, match batch_prepare C s [o] with Val _ => Err ECollectionClosed | Err e => Err e | Pan p => Pan p end).
Proof.
  intros Hn. unfold batch_prepare in *. unfold CollModel.insert, check_open. rewrite exec_bind, exec_act. destruct (closed s) eqn:Ecl; [done|]. cbv beta iota.
  rewrite exec_bind, exec_lift. destruct (validate_objects C 0 [o]) as [[]| |] eqn:Ev; [|done..]. cbn [mbind out_bind] in *.
  rewrite exec_bind, exec_lift. destruct (embed_objects C [o]) as [os| |]; [by destruct (Hn os)|done..].
Qed.

Lemma worker_exec C tid level o s s1 r :
  exec (worker C tid [(o, level)]) s = Some (s1, r) ->
  exists r1, exec (insert_one C tid level o) s = Some (s1, r1) /\ r = match r1 with Val o' => Val [o'] | Err e => Err e | Pan p => Pan p end.
Proof.
  cbn [worker]. rewrite exec_bind. destruct (exec (insert_one _ _ _ _) s) as [[s2 [o'|e|p]]|]; [|by intros [= <- <-]; eexists..|done].
  rewrite exec_bind. cbn. intros [= <- <-]. by eexists.
Qed.
Lemma ends_of_run C io tid level o o' s s1 s' r rs i r1 :
  batch_prepare C s [o] = Val [o'] -> exec (insert_one C tid level o') s = Some (s1, r1) ->
  rs !! i = Some (match r1 with Val o' => Val [o'] | Err e => Err e | Pan p => Pan p end) ->
  (forall j r', j <> i -> rs !! j = Some r' -> r' = Val []) ->
  (group_wait rs (Val tt) /\ wal_flush io s1 = (s', r) \/ (exists e, group_wait rs (Err e) /\ s' = s1 /\ r = Err e)) ->
  exists s2 r2, exec (CollModel.insert C tid io level o) s = Some (s2, r2) /\ ends_like io s2 r2 s' r rs.
Proof.
  intros Hp Hx Hi Ho Hend. pose proof (one_insert C tid io level o o' s s1 r1 Hp Hx) as Hins.
  pose proof (completed_one rs i _ Hi Ho) as Hco.
  destruct Hend as [[Hw Hfl]|(e & Hw & -> & ->)].
  - destruct r1 as [o''|e|p].
    + rewrite Hfl in Hins. cbn [fst snd] in Hins. eexists _, _. split; [exact Hins|]. destruct r as [[]|e|p]; cbn; [by split_and!|done|by left].
    + destruct (Hw e). by eapply elem_of_list_lookup_2.
    + eexists _, _. split; [exact Hins|]. by right.
  - apply elem_of_list_lookup in Hw as [j Hj]. destruct (decide (j = i)) as [->|Hne]; [|discriminate (Ho j _ Hne Hj)].
    rewrite Hi in Hj. injection Hj as Hj. destruct r1 as [o''|e1|p]; [done| |done]. injection Hj as ->. eexists _, _. split; [exact Hins|]. done.
Qed.

Lemma chan_eta s : chan s = [] -> set_chan [] s = s.
Proof. destruct s. cbn. by intros ->. Qed.
Lemma flush_chan io a b (z : out unit) : chan a = [] -> wal_flush io a = (b, z) -> set_chan [] b = b.
Proof. intros Ha Hf. apply chan_eta. unfold wal_flush in Hf. repeat case_match; injection Hf as <- <-; done. Qed.
Lemma mstep_inv {S A} (s : S) (ts : list (prog S A)) m : mstep (s, ts) m ->
  exists i f s' p', ts !! i = Some (Step f) /\ f s = Some (s', p') /\ m = (s', <[i := p']> ts).
Proof. intros H. inversion H; subst. by do 4 eexists. Qed.

(** In every state between two calls (no channel of an InsertBatch2 exists),
    for every interleaving of the goroutines. *)
Theorem C89_batch_of_one : forall C s io level o s' r rs,
  0 < cp_workers C -> chan s = [] ->
  call_run C s (CBatch io [(o, level)]) s' (RBatch r rs) \/ call_run C s (CBatch2 io [(o, level)]) s' (RBatch r rs) ->
  exists tid s1 r1, exec (CollModel.insert C tid io level o) s = Some (s1, r1) /\ ends_like io s1 r1 s' r rs.
Proof.
  intros C s io level o s' r rs Hw Hch Hc.
  assert (Href : forall z, batch_prepare C s [o] = z -> (forall os, z <> Val os) -> s' = s -> r = (_ ← z; Val tt) -> rs = [] ->
    exists tid s1 r1, exec (CollModel.insert C tid io level o) s = Some (s1, r1) /\ ends_like io s1 r1 s' r rs).
  { intros z Hz Hn -> -> ->. exists 0. eexists _, _. split; [apply prepare_refused; by rewrite Hz|]. rewrite Hz. destruct z as [os|e|p]; [by destruct (Hn os)|done|by left]. }
  assert (Hlen : forall os, batch_prepare C s [o] = Val os -> exists o', os = [o']).
  { intros os Hp. unfold batch_prepare in Hp. destruct (closed s); [done|]. destruct (validate_objects C 0 [o]) as [[]| |]; [|done..]. cbn [mbind out_bind] in Hp.
    apply embed_length in Hp. destruct os as [|o' [|? ?]]; try done. by exists o'. }
  destruct Hc as [Hc|Hc].
  - inversion Hc as [|? ? z Hz Hn|? ? os s1 r1 rs1 Hp Hb| | | | | | | |]; subst; [by eapply Href|].
    cbn [list_fmap fmap fst] in Hp. destruct (Hlen _ Hp) as [o' ->]. change (zip [o'] [(o, level)].*2) with [(o', level)] in Hb.
    set (i := cp_workers C - 1). 
    assert (Hsolo : forall s1 rs1, rtc mstep (s, batch_threads C [(o', level)]) (s1, Done <$> rs1) ->
      exists q, exec (worker C (S i) [(o', level)]) s = Some (s1, q) /\ rs1 !! i = Some q /\ forall j r', j <> i -> rs1 !! j = Some r' -> r' = Val []).
    { intros s1 rs1 Hr. eapply (solo_run (fun _ => True) (fun q => q = Done (Val [])) []) in Hr; [exact Hr|by intros q f -> [=]|by intros ? [= ->]|done|..]; try done.
      - cbn [snd]. unfold batch_threads. rewrite list_lookup_fmap, lookup_seq_lt by lia. unfold fmap, option_fmap, option_map. rewrite Nat.add_0_l, chunk_one by lia. unfold i. by rewrite Nat.eqb_refl.
      - apply steps_top.
      - intros j q Hj. cbn [snd]. unfold batch_threads. rewrite list_lookup_fmap. intros Hq. apply fmap_Some in Hq as (j' & Hj' & ->).
        apply lookup_seq in Hj' as [-> Hlt]. rewrite Nat.add_0_l, chunk_one by lia. destruct (Nat.eqb_spec j (cp_workers C - 1)); [done|]. done. }
    inversion Hb as [s1 rs1 s2 r1 Hr Hg Hf|s1 rs1 e Hr Hg]; subst; destruct (Hsolo _ _ Hr) as (q & Hq & Hi & Ho);
      apply worker_exec in Hq as (r1 & Hq & ->); exists (S i); eapply ends_of_run; try done; [by left|]. right. by eexists.
  - inversion Hc as [| | |? ? z Hz Hn|? ? os sf r1 rs1 Hp Hb| | | | | |]; subst; [by eapply Href|].
    cbn [list_fmap fmap fst] in Hp. destruct (Hlen _ Hp) as [o' ->]. change (zip [o'] [(o, level)].*2) with [(o', level)] in Hb.
    set (s0 := set_chan [(o', level)] s) in Hb.
    assert (Es : set_chan [] s0 = s) by (unfold s0; destruct s; cbn in *; by subst).
    set (cont := fun tid => o'' ← insert_one C tid level o'; done ← worker2 C 0 tid; mret (o'' :: done)).
    set (idle := fun q => q = Done (Val []) \/ exists tid, q = worker2 C 1 tid).
    assert (Hsolo : forall s1 rs1, rtc mstep (s0, batch2_threads C [(o', level)]) (s1, Done <$> rs1) ->
      exists i q, exec (cont (S i)) s = Some (s1, q) /\ rs1 !! i = Some q /\ forall j r', j <> i -> rs1 !! j = Some r' -> r' = Val []).
    { intros s1 rs1 Hr. apply rtc_inv in Hr as [E|(m1 & Hs & Hr1)].
      { injection E as E1 E2. exfalso. assert (H : batch2_threads C [(o', level)] !! 0 = Some (worker2 C 1 1)).
        { unfold batch2_threads. rewrite list_lookup_fmap, lookup_seq_lt by lia. done. }
        rewrite E2, list_lookup_fmap in H. by destruct (rs1 !! 0). }
      apply mstep_inv in Hs as (i & f & s2 & p' & Hi & Hf & ->).
      assert (Hi2 := Hi). unfold batch2_threads in Hi. rewrite list_lookup_fmap in Hi. apply fmap_Some in Hi as (j & Hj & E). apply lookup_seq in Hj as [-> Hlt].
      cbn in E. injection E as ->. unfold s0 in Hf. cbn in Hf. injection Hf as <- <-. exists i.
      eapply (solo_run (fun a => chan a = []) idle []) in Hr1.
      - destruct Hr1 as (q & Hq & Hi & Ho). exists q. split; [|split; [exact Hi|exact Ho]]. rewrite <- Es. exact Hq.
      - intros q f [->|[tid ->]] [= <-] a Ha. cbn. by rewrite Ha.
      - intros q [[= ->]|[tid [=]]]. done.
      - by left.
      - cbn [snd]. apply list_lookup_insert. by eapply lookup_lt_Some.
      - change (steps (fun a b => chan a = [] -> chan b = []) (cont (S i))). unfold cont. apply steps_bind; [apply insert_one_chan|intros o''].
        apply steps_bind; [|intros ?; apply steps_ret]. cbn [worker2]. apply steps_bind; [apply steps_act; intros a; destruct (chan a) as [|[? ?] ?] eqn:Ea; [done|intros Ha; by rewrite Ha in Ea]|].
        intros [[o1 l1]|]; [|apply steps_ret]. apply steps_bind; [apply insert_one_chan|intros ?; apply steps_done].
      - done.
      - intros j q Hj Hq. cbn [snd] in Hq. rewrite list_lookup_insert_ne in Hq by done. unfold batch2_threads in Hq. rewrite list_lookup_fmap in Hq.
        apply fmap_Some in Hq as (j' & Hj' & ->). right. by eexists.
      - done. }
    assert (Hcont : forall tid s1 q, exec (cont tid) s = Some (s1, q) ->
      exists r1, exec (insert_one C tid level o') s = Some (s1, r1) /\ q = match r1 with Val o' => Val [o'] | Err e => Err e | Pan p => Pan p end /\ chan s1 = []).
    { intros tid s1 q Hq. unfold cont in Hq. rewrite exec_bind in Hq. destruct (exec (insert_one _ _ _ _) s) as [[s2 r2]|] eqn:E; [|done].
      assert (Hc2 : chan s2 = []).
      { refine (steps_exec (fun a b => chan a = [] -> chan b = []) _ _ _ _ _ _ (insert_one_chan C tid level o') E Hch); [done|]. intros a b c H1 H2 H3. by apply H2, H1. }
      destruct r2 as [o2|e|p]; [|injection Hq as <- <-; by eexists..]. cbn [worker2] in Hq. rewrite exec_bind, exec_bind, exec_act, Hc2 in Hq. cbn in Hq.
      injection Hq as <- <-. by eexists. }
    clearbody s0. clear Es. inversion Hb as [st1 rs1 s2 r1 Hr Hg Hf|st1 rs1 e Hr Hg]; subst; destruct (Hsolo _ _ Hr) as (i & q & Hq & Hi & Ho);
      apply Hcont in Hq as (r1 & Hq & -> & Hc1); exists (S i); eapply ends_of_run; try done.
    + left. split; [done|]. by rewrite (flush_chan _ _ _ _ Hc1 Hf).
    + right. eexists. split_and!; [done| |done]. by apply chan_eta.
Qed.
Print Assumptions C89_batch_of_one.

(** *** Cases *)
(** Five objects, one of them deleted, ef = 4: searches with k = 1, 3 and 9, before and
    after the nearest object is deleted. *)
Definition meta_script : list sev :=
  [ SCall (CInsert true 0 (ob1 0)); SCall (CInsert true 1 (ob1 1065353216)); SCall (CInsert true 0 (ob1 1073741824));
    SCall (CInsert true 2 (ob1 1077936128)); SCall (CDelete true 1); SCall (CInsert true 0 (ob1 1082130432)) ].
Definition idsb (s : st) : bool := forallb (fun '(i, _) => (i <? 2 ^ 64)%N) (map_to_list (nodes s)).
Lemma idsb_ok s : idsb s = true -> ids_u64 s.
Proof.
  intros H i [v Hv]. unfold idsb in H. rewrite forallb_forall in H. apply elem_of_map_to_list, elem_of_list_In in Hv. apply H in Hv. by apply N.ltb_lt.
Qed.
Example C87_C88_case : exists h s s1,
  hist C11_C empty_st h s /\ ids_u64 s /\ hit_ids C11_C (ob1 1073741824) 1 s = Some [2]%N /\ hit_ids C11_C (ob1 1073741824) 3 s = Some [2; 3; 4]%N /\
  hit_ids C11_C (ob1 1073741824) 9 s = Some [2; 3; 4]%N /\
  exec (delete_obj C11_C true 2) s = Some (s1, Val tt) /\ hit_ids C11_C (ob1 1073741824) 2 s1 = Some [3; 4]%N.
Proof.
  destruct (script_witness C11_C meta_script (fun h s => idsb s && bool_decide (hit_ids C11_C (ob1 1073741824) 1 s = Some [2]%N) &&
      bool_decide (hit_ids C11_C (ob1 1073741824) 3 s = Some [2; 3; 4]%N) && bool_decide (hit_ids C11_C (ob1 1073741824) 9 s = Some [2; 3; 4]%N) &&
      match exec (delete_obj C11_C true 2) s with
      | Some (s1, Val tt) => bool_decide (hit_ids C11_C (ob1 1073741824) 2 s1 = Some [3; 4]%N)
      | _ => false
      end)) as (h & s & Hh & H); [vm_compute; reflexivity|].
  apply andb_true_iff in H as [H H5]. apply andb_true_iff in H as [H H4]. apply andb_true_iff in H as [H H3]. apply andb_true_iff in H as [H1 H2].
  destruct (exec (delete_obj C11_C true 2) s) as [[s1 [[]| |]]|] eqn:E; [|done..]. apply bool_decide_eq_true_1 in H2, H3, H4, H5.
  exists h, s, s1. split_and!; try done. by apply idsb_ok.
Qed.
(** Both kinds of batches on two workers, in the middle of a history. *)
Example C89_case : exists h s s1 s2 rs1 rs2,
  hist C11_C empty_st h s /\ chan s = [] /\ 0 < cp_workers C11_C /\
  call_run C11_C s (CBatch true [(ob1 1084227584, 1)]) s1 (RBatch (Val tt) rs1) /\ o_id <$> completed rs1 = [5]%N /\
  call_run C11_C s (CBatch2 true [(ob1 1084227584, 1)]) s2 (RBatch (Val tt) rs2) /\ o_id <$> completed rs2 = [5]%N.
Proof.
  destruct (script_witness C11_C meta_script (fun h s => bool_decide (chan s = []) &&
      match call_exec C11_C (CBatch true [(ob1 1084227584, 1)]) [] 200 s with
      | Some (_, RBatch (Val tt) rs) => bool_decide (o_id <$> completed rs = [5]%N)
      | _ => false
      end &&
      match call_exec C11_C (CBatch2 true [(ob1 1084227584, 1)]) [1; 0; 1; 1] 200 s with
      | Some (_, RBatch (Val tt) rs) => bool_decide (o_id <$> completed rs = [5]%N)
      | _ => false
      end)) as (h & s & Hh & H); [vm_compute; reflexivity|].
  apply andb_true_iff in H as [H H3]. apply andb_true_iff in H as [H1 H2].
  destruct (call_exec C11_C (CBatch _ _) _ 200 s) as [[s1 r]|] eqn:E1; [|done]. destruct r as [|[[]| |] rs1| | | | ]; try done.
  destruct (call_exec C11_C (CBatch2 _ _) _ 200 s) as [[s2 r]|] eqn:E2; [|done]. destruct r as [|[[]| |] rs2| | | | ]; try done.
  apply bool_decide_eq_true_1 in H1, H2, H3. apply call_exec_run in E1, E2.
  exists h, s, s1, s2, rs1, rs2. split_and!; try done. cbn. lia.
Qed.

(** Any number of goroutines use one database and its collections as their
    callers should: nothing panics, nothing blocks for ever (C107). *)
From stdpp Require Import relations.
From Verif Require Import GoBase FloatModel HeapModel ProgModel StateModel WalModel HnswModel StoreModel CollModel CallModel LinModel EarlyModel DBModel DBConModel DBConSpec
  ProofBase CodecProofs CodecSpec LogProofs FloatProofs HeapProofs WpProofs HnswProofs IndexProofs StepProofs SeqLog IndexHist SimProofs
  StoreProofs CallProofs HistProofs WalProofs HistRun StoreView PropStore PropColl RestoreProofs ParLog ParHist AlignProofs CollWf BatchProofs PropRestore PropBatch
  LinProofs LinTrace LinRun LinSafe EarlyTrace PropSafe DBProofs PropDB DBConProofs DBConTrace DBConAtomic DBConRun PropDBCon DBConSafe.
Open Scope nat_scope.
Local Arguments id_key _ : simpl never.
Local Arguments le_put _ _ : simpl never.

(** ** C107 Concurrent use of a database neither panics nor deadlocks *)
Section safe.
  Context (env_embed : string -> jval -> embedder) (J : json) (maxv : N) (workers fuel : nat).
  Notation params c := (cparams_of env_embed J maxv workers fuel c).
  Notation cd_step := (cd_step env_embed J maxv workers fuel).
  Notation cd_run := (cd_run env_embed J maxv workers fuel).
  Notation d_polite := (d_polite env_embed J maxv workers fuel).
  Notation d_busy := (d_busy env_embed J maxv workers fuel).
  Notation d_good := (d_good env_embed J maxv workers fuel).

  (** A collection is used as in C106: it has a past as there ([D] is the
      database before the goroutines begin, which may have the collection
      already), and so are the calls made on it. *)
  Definition before (D : db) (h : nat) : st := match db_handles D !! h with Some x => hd_st x | None => empty_st end.
  Definition coll_use (D : db) (vs : list dvis) (h : nat) (c : config) : Prop :=
    exists C n B h1 s1 h2, params c = Some C /\ batch_use C n B h1 s1 h2 (before D h) /\
      calls_ok C n (acked_ids (h1 ++ h2) <> []) (seen_in h vs) /\ hist_inserts (h1 ++ h2) + asked (seen_in h vs) <= B.
  (** A configuration that a collection can be used with, if it is accepted. *)
  Definition conf_ok (c : config) : Prop :=
    validate c = Val tt -> cf_index c = "hnsw"%string -> exists C n B, params c = Some C /\ batch_use C n B [] empty_st [] empty_st.
  Record db_use (D : db) (k : nat) (vs : list dvis) (m : cdb) : Prop := MkDUse {
    du_open : db_closed D = false;
    du_map : forall name h, db_colls D !! name = Some h -> is_Some (db_handles D !! h);
    du_run : cd_run (cd_start D k) vs m;
    du_colls : forall h x, db_handles (cd_db m) !! h = Some x -> coll_use D vs h (hd_cfg x);
    du_create : forall i c, DvCall i (DCreate c) ∈ vs -> conf_ok c;
    du_config : forall i h, DvCall i (DConfig h) ∈ vs -> is_Some (db_handles (cd_db m) !! h)
  }.
  (** No batch has left workers behind (see C100 and the last theorem). *)
  Definition none_left (m : cdb) : Prop := forall h ts ws, cd_side m !! h = Some (ts, ws) -> ws = [].

  Lemma use_jinv D k vs m : db_use D k vs m -> jinv m /\ link m /\ pointed (cd_db m).
  Proof.
    intros [H1 H2 H3 _ _ _]. assert (HJ : jinv (cd_start D k)) by (by apply jinv_start). assert (Hp : pointed (cd_db (cd_start D k))) by exact H2.
    split_and!; [by eapply jinv_run|eapply link_run; [exact H3|done|done|apply link_start]|by eapply pointed_run].
  Qed.
  Lemma use_coll D k vs m h x ts ws : db_use D k vs m -> none_left m -> db_handles (cd_db m) !! h = Some x -> cd_side m !! h = Some (ts, ws) ->
    exists C n B h1 s1 h2, params (hd_cfg x) = Some C /\ concurrent_use C n B h1 s1 h2 (before D h) k (seen_in h vs) (hd_st x, ts).
  Proof.
    intros HU Hno Hx Hd. pose proof (Hno _ _ _ Hd) as ->. destruct (du_colls _ _ _ _ HU _ _ Hx) as (C & n & B & h1 & s1 & h2 & HC & Hb & Hok & Hn).
    destruct (proj_start _ _ _ _ _ _ _ _ _ (du_run _ _ _ _ HU)) as (_ & _ & _ & _ & Hall). destruct (Hall _ _ Hx) as (x0 & ts0 & ws0 & Hx0 & _ & Hd0 & Hr).
    rewrite Hd in Hd0. injection Hd0 as <- <-. specialize (Hr C HC). apply erun_con in Hr as [_ Hr]; [|done]. cbn [fst] in Hr.
    assert (Eb : hd_st x0 = before D h).
    { unfold before. destruct Hx0 as [-> |[Hle ->]]; [done|]. by rewrite (lookup_ge_None_2 _ _ Hle). }
    rewrite Eb in Hr. by exists C, n, B, h1, s1, h2.
  Qed.
  Lemma seen_ret h i r vs : DvOn h (VRet i r) ∈ vs \/ DvShut h (VRet i r) ∈ vs -> VRet i r ∈ seen_in h vs.
  Proof.
    intros H. unfold seen_in. apply elem_of_list_bind.
    destruct H as [H|H]; (eexists; split; [|exact H]); cbn; rewrite Nat.eqb_refl; by left.
  Qed.

  (** No call panics: neither of the database nor on one of its collections. *)
  Theorem C107_database_use_never_panics : forall D k vs m,
    db_use D k vs m -> none_left m ->
    (forall i c q, DvRet i c q ∈ vs -> dreply_no_pan q) /\
    (forall h i r, DvOn h (VRet i r) ∈ vs \/ DvShut h (VRet i r) ∈ vs -> reply_no_pan r).
  Proof.
    intros D k vs m HU Hno. split.
    - eapply answers_run; [apply (du_run _ _ _ _ HU)|]. intros i g [-> _]%lookup_replicate. done.
    - intros h i r Hr%seen_ret. destruct (proj_start _ _ _ _ _ _ _ _ _ (du_run _ _ _ _ HU)) as (_ & _ & _ & Hs & Hall).
      destruct (db_handles (cd_db m) !! h) as [x|] eqn:Hx.
      + destruct (Hall _ _ Hx) as (x0 & ts & ws & _ & _ & Hd & _).
        destruct (use_coll _ _ _ _ _ _ _ _ HU Hno Hx Hd) as (C & n & B & h1 & s1 & h2 & _ & HC). by eapply C106_concurrent_use_never_panics.
      + rewrite Hs in Hr by (by apply lookup_ge_None_1). by apply elem_of_nil in Hr.
  Qed.

  Lemma use_moves D k vs m : db_use D k vs m -> none_left m -> Forall (eq GIdle) (cd_gs m) \/ d_good m.
  Proof.
    intros HU Hno. destruct (use_jinv _ _ _ _ HU) as (HJ & HL & Hp). apply some_moves; try done.
    - intros i h Hi. apply lookup_lt_is_Some. apply (du_config _ _ _ _ HU i h). eapply called_run; [apply (du_run _ _ _ _ HU)| |exact Hi|done].
      intros j g [-> _]%lookup_replicate. done.
    - intros h x ts ws Hx Hd. destruct (use_coll _ _ _ _ _ _ _ _ HU Hno Hx Hd) as (C & n & B & h1 & s1 & h2 & HC & Hc). exists C. split; [done|].
      by destruct (C106_no_deadlock _ _ _ _ _ _ _ _ _ _ Hc) as [? _].
  Qed.

  (** Wherever the goroutines have got to: as long as one of them is in a call
      of the database or of a collection, one of them can take a step, also
      when waiting writers keep new readers out of db.mu and of every c.mu; and
      they cannot go on for ever without making new calls. *)
  Theorem C107_no_deadlock : forall D k vs m,
    db_use D k vs m -> none_left m ->
    (Forall (eq GIdle) (cd_gs m) \/ exists m', d_polite m m') /\
    ~ exists f : nat -> cdb, f 0 = m /\ forall i, d_busy (f i) (f (S i)).
  Proof.
    intros D k vs m HU Hno. split.
    - destruct (use_moves _ _ _ _ HU Hno) as [?|(m' & Hm & _)]; [by left|right; by exists m'].
    - intros (f & _ & Hinf).
      assert (Hacc : forall x, Acc (flip d_busy) x -> forall i, x <> f i).
      { intros x Ha. induction Ha as [x _ IH]. intros i ->. by apply (IH (f (S i)) (Hinf i) (S i)). }
      by apply (Hacc (f 0) (d_busy_acc _ _ _ _ _ _) 0).
  Qed.

  (** ** All calls can be brought to their end *)
  Lemma create_new c b D D' r h x : do_create c b D = (D', r) -> db_handles D' !! h = Some x -> db_handles D !! h = None ->
    x = Handle c empty_st /\ validate c = Val tt /\ cf_index c = "hnsw"%string.
  Proof.
    unfold do_create. destruct b; [intros [= <- <-]; congruence|]. unfold create_collection. destruct (db_closed D); [intros [= <- <-]; congruence|].
    destruct (validate c) as [[]|e|p] eqn:Ev; [|intros [= <- <-]; congruence..].
    destruct (db_colls D !! cf_name c); [intros [= <- <-]; congruence|].
    destruct (meta_create c D) as [D1 r1] eqn:E1. destruct (meta_create_keeps _ _ _ _ E1) as (H1 & H2 & H3).
    destruct r1 as [i|e|p]; [|intros [= <- <-]; congruence..].
    rewrite (meta_create_files _ _ _ _ E1). unfold new_collection. change (open_counter (d_cfile empty_disk)) with (Val 0%N : out N). cbn [mbind out_bind].
    destruct (String.eqb (cf_index c) "hnsw") eqn:Eh; [|intros [= <- <-]; congruence]. rewrite reopen_empty. cbn [mbind out_bind]. intros [= <- <-]. cbn [db_handles].
    rewrite H1. intros Hx Hn. apply lookup_ge_None_1 in Hn. rewrite lookup_app_r in Hx by done. apply list_lookup_singleton_Some in Hx as [_ <-].
    split_and!; [done|done|by apply String.eqb_eq].
  Qed.
  Lemma step_handle m vs m' h x' : cd_step m vs m' -> length (cd_side m) = length (db_handles (cd_db m)) -> db_handles (cd_db m') !! h = Some x' ->
    (exists x, db_handles (cd_db m) !! h = Some x /\ hd_cfg x' = hd_cfg x) \/
    (db_handles (cd_db m) !! h = None /\ exists i c, cd_gs m !! i = Some (GLock (DCreate c)) /\ hd_cfg x' = c /\ validate c = Val tt /\ cf_index c = "hnsw"%string).
  Proof.
    intros Hs Hl Hx'. destruct (db_handles (cd_db m) !! h) as [x|] eqn:Hx.
    - left. exists x. split; [done|]. assert (is_Some (cd_side m !! h)) as [[ts ws] Hd] by (apply lookup_lt_is_Some; rewrite Hl; by eapply lookup_lt_Some).
      destruct (proj_step _ _ _ _ _ _ _ _ Hs _ _ _ _ Hx Hd) as (x2 & _ & _ & Hx2 & _ & E & _). rewrite Hx' in Hx2. by injection Hx2 as ->.
    - right. split; [done|]. inversion Hs as [D sd meta gs j u v D' meta' u' Hj Ho|D sd meta gs k y C ts1 ws1 v s' ts' ws' dvs gs' Hy Hd HC He Hev]; subst; cbn [cd_db cd_side cd_gs] in *.
      + destruct Ho as [| |c D1 r Hc|n D1 r Hc| | | | | | | | | | | | | |]; cbn [db_handles] in Hx'; try congruence.
        * destruct (create_new _ _ _ _ _ _ _ Hc Hx' Hx) as (-> & H1 & H2). by exists j, c.
        * destruct (do_delete_keeps _ _ _ _ _ Hc) as [E _]. congruence.
      + exfalso. apply lookup_ge_None_1 in Hx. apply lookup_lt_Some in Hx'. cbn [use db_handles] in Hx'. rewrite insert_length in Hx'. lia.
  Qed.
  Lemma step_calls m vs m' h i c : cd_step m vs m' -> no_new vs -> VCall i c ∈ seen_in h vs -> c = CClose.
  Proof.
    intros Hs [_ Hn] Hi. unfold seen_in in Hi. apply elem_of_list_bind in Hi as (v & Hv & Hin).
    destruct v as [j c'|j c' q|h' w|h' w]; cbn in Hv; try (by apply elem_of_nil in Hv); (destruct (Nat.eqb_spec h' h) as [->|]; [|by apply elem_of_nil in Hv]);
      apply elem_of_list_singleton in Hv; subst w; [by destruct (Hn h i c)|].
    inversion Hs as [D sd meta gs j u v D' meta' u' Hj Ho|D sd meta gs k y C ts1 ws1 v s' ts' ws' dvs gs' Hy Hd HC He Hev]; subst.
    - destruct Ho; try (by apply elem_of_nil in Hin); by apply elem_of_list_singleton in Hin.
    - inversion Hev; subst; try (by apply elem_of_nil in Hin); apply elem_of_list_singleton in Hin; by try injection Hin.
  Qed.
  Lemma calls_ok_more C n fed vs vs' : calls_ok C n fed vs -> (forall i c, VCall i c ∈ vs' -> c = CClose) -> calls_ok C n fed (vs ++ vs').
  Proof.
    intros Hok Hc v1 i c v2 E. apply app_eq_inv in E as [(l & -> & E2)|(l & -> & E2)].
    - destruct l as [|w l]; cbn in E2.
      + assert (c = CClose) as -> by (apply (Hc i c); rewrite <- E2; by left). by split.
      + injection E2 as <- ->. by apply (Hok v1 i c l).
    - assert (c = CClose) as ->; [|by split]. apply (Hc i c). rewrite E2. apply elem_of_app. right. by left.
  Qed.
  Lemma asked_close vs : (forall i c, VCall i c ∈ vs -> c = CClose) -> asked vs = 0.
  Proof.
    unfold asked. induction vs as [|v vs IH]; intros H; [done|]. destruct v as [i c|i r]; cbn.
    - rewrite (H i c) by (by left). cbn. apply IH. intros j c' Hj. apply (H j). by right.
    - apply IH. intros j c' Hj. apply (H j). by right.
  Qed.
  Lemma use_step D k vs m vs' m' : db_use D k vs m -> cd_step m vs' m' -> no_new vs' -> db_use D k (vs ++ vs') m'.
  Proof.
    intros HU Hs Hn. destruct (use_jinv _ _ _ _ HU) as (HJ & HL & Hp). pose proof HU as [H1 H2 H3 H4 H5 H6].
    assert (Hmore : forall h, is_Some (db_handles (cd_db m) !! h) -> is_Some (db_handles (cd_db m') !! h)).
    { intros h [x Hx]. assert (is_Some (cd_side m !! h)) as [[ts ws] Hd] by (apply lookup_lt_is_Some; rewrite (j_len _ HJ); by eapply lookup_lt_Some).
      destruct (proj_step _ _ _ _ _ _ _ _ Hs _ _ _ _ Hx Hd) as (x2 & _ & _ & Hx2 & _). by eexists. }
    split; [done|done|by eapply CdSnoc| | |].
    - intros h x' Hx'. unfold coll_use. rewrite seen_in_app.
      assert (Hc : forall i c, VCall i c ∈ seen_in h vs' -> c = CClose) by (intros i c; by eapply step_calls).
      destruct (step_handle _ _ _ _ _ Hs (j_len _ HJ) Hx') as [(x & Hx & ->)|(Hx & i & c & Hi & -> & Hv & Hh)].
      + destruct (H4 _ _ Hx) as (C & n & B & h1 & s1 & h2 & HC & Hb & Hok & Hroom). exists C, n, B, h1, s1, h2. split_and!; [done|done|by apply calls_ok_more|].
        rewrite asked_app, (asked_close _ Hc). lia.
      + destruct (proj_start _ _ _ _ _ _ _ _ _ H3) as (_ & _ & Hle & Hs0 & _). apply lookup_ge_None_1 in Hx.
        assert (conf_ok c) as (C & n & B & HC & Hb); [|done|done|].
        { eapply (H5 i). eapply called_run; [exact H3| |exact Hi|done]. intros j g [-> _]%lookup_replicate. done. }
        exists C, n, B, [], empty_st, []. unfold before. rewrite (lookup_ge_None_2 (db_handles D) h) by lia. rewrite Hs0 by done. cbn [app].
        split_and!; [done|done|apply (calls_ok_more _ _ _ []); [by intros [] ? ? ?|done]|]. rewrite (asked_close _ Hc). cbn. lia.
    - intros i c [Hi|Hi]%elem_of_app; [by eapply H5|]. by destruct (proj1 Hn i (DCreate c)).
    - intros i h [Hi|Hi]%elem_of_app; [by eapply Hmore, H6|]. by destruct (proj1 Hn i (DConfig h)).
  Qed.

  (** From everywhere all the calls that have been made can be brought to their
      end, by steps in which nobody overtakes a waiting writer. *)
  Theorem C107_every_call_can_return : forall D k vs m,
    db_use D k vs m -> none_left m ->
    exists vs' m', cd_run m vs' m' /\ no_new vs' /\ Forall (eq GIdle) (cd_gs m') /\ rtc d_polite m m' /\ none_left m' /\ db_use D k (vs ++ vs') m'.
  Proof.
    intros D k vs m. revert vs. induction (d_busy_acc env_embed J maxv workers fuel m) as [m _ IH]. intros vs HU Hno.
    destruct (use_moves _ _ _ _ HU Hno) as [Hid|(m1 & Hp & Hcl)].
    - exists [], m. rewrite app_nil_r. split_and!; [constructor|apply no_new_nil|done|done|done|done].
    - destruct (proj1 Hp) as (v1 & Hs & Hn). pose proof (use_step _ _ _ _ _ _ HU Hs Hn) as HU1.
      assert (Hno1 : none_left m1) by (intros h ts ws Hd; destruct (Hcl _ _ _ Hd) as [?|[ts0 Hd0]]; [done|by eapply Hno]).
      destruct (IH m1 (proj1 Hp) _ HU1 Hno1) as (v2 & m' & Hr & Hn2 & Hid & Hrt & Hno2 & HU2). exists (v1 ++ v2), m'. split_and!; [|split|done|by eapply rtc_l|done|by rewrite app_assoc].
      + eapply cd_run_app; [|exact Hr]. rewrite <- (app_nil_l v1). eapply CdSnoc; [constructor|done].
      + intros i c [Hi|Hi]%elem_of_app; [by eapply (proj1 Hn)|by eapply (proj1 Hn2)].
      + intros h i c [Hi|Hi]%elem_of_app; [by eapply (proj2 Hn)|by eapply (proj2 Hn2)].
  Qed.

  (** No workers are left behind if the objects of the batches can be stored
      and nobody cancels a batch. *)
  Theorem C107_nothing_left_behind : forall D k vs m,
    db_use D k vs m ->
    (forall h x C i c, db_handles (cd_db m) !! h = Some x -> params (hd_cfg x) = Some C -> VCall i c ∈ seen_in h vs -> batch_stores C c) ->
    (forall h i rs, VRet i (RBatch (Err ECanceled) rs) ∉ seen_in h vs) ->
    (forall h ts ws, cd_side m !! h = Some (ts, ws) -> Forall (fun t => ~ cancelled t) ts) ->
    none_left m.
  Proof.
    intros D k vs m HU Hst Hv Hb h ts ws Hd. destruct (use_jinv _ _ _ _ HU) as (HJ & _ & _).
    assert (is_Some (db_handles (cd_db m) !! h)) as [x Hx] by (apply lookup_lt_is_Some; rewrite <- (j_len _ HJ); by eapply lookup_lt_Some).
    destruct (du_colls _ _ _ _ HU _ _ Hx) as (C & n & B & h1 & s1 & h2 & HC & Hbu & Hok & Hn).
    destruct (proj_start _ _ _ _ _ _ _ _ _ (du_run _ _ _ _ HU)) as (_ & _ & _ & _ & Hall). destruct (Hall _ _ Hx) as (x0 & ts0 & ws0 & Hx0 & _ & Hd0 & Hr).
    rewrite Hd in Hd0. injection Hd0 as <- <-. specialize (Hr C HC).
    assert (Eb : hd_st x0 = before D h).
    { unfold before. destruct Hx0 as [-> |[Hle ->]]; [done|]. by rewrite (lookup_ge_None_2 _ _ Hle). }
    rewrite Eb in Hr. destruct (C106_nothing_left_behind _ _ _ _ _ _ _ _ _ _ _ _ Hbu Hr Hok Hn) as [-> _]; try done.
    - intros i c Hi. by eapply Hst.
    - by eapply Hb.
  Qed.
End safe.
Print Assumptions C107_database_use_never_panics.
Print Assumptions C107_no_deadlock.
Print Assumptions C107_every_call_can_return.
Print Assumptions C107_nothing_left_behind.

(** ** A case *)
(** Goroutine 0 closes the database and waits for collection 0, which
    goroutine 1 is inserting into; goroutine 2 looks a collection up and
    goroutine 3 creates one: both wait for db.mu. *)
Definition C107_moves : list dmove :=
  making ++ [ DmOn 0 (MGo 99 1 (CInsert true 0 pt) 0); DmOn 0 (MGo 6 1 (CInsert true 1 pt) 0); DmOwn 3 0 DClose; DmShut 0 0; DmOwn 1 2 (DGet "x"); DmOwn 1 3 (DCreate (ok_cfg "z" [])) ].
Definition C107_trace : list dvis :=
  made ++ [ DvOn 0 (VCall 1 (CInsert true 0 pt)); DvOn 0 (VRet 1 (RIns (Val pt))); DvOn 0 (VCall 1 (CInsert true 1 pt));
    DvCall 0 DClose; DvShut 0 (VCall 0 CClose); DvCall 2 (DGet "x"); DvCall 3 (DCreate (ok_cfg "z" [])) ].
Definition C107_state (m : cdb) : bool :=
  match cd_gs m, cd_side m with
  | [GShut 0 [1]; GUse 0; GCall (DGet _); GCall (DCreate _)], [([TCall CClose; TX _ (XIns _); TIdle; TIdle], []); ([TIdle; TIdle; TIdle; TIdle], [])] => true
  | _, _ => false
  end.
Lemma C107_conf name maps : cparams_of no_embed ex_json 65536 2 50 (ok_cfg name maps) = Some (CParams (HParams 2 2 4 4 true Euclidean) maps None ex_json 65536 2 50).
Proof. reflexivity. Qed.
Example C107_case : exists m, db_use no_embed ex_json 65536 2 50 fresh_db 4 C107_trace m /\ none_left m /\ C107_state m = true /\
  (forall h x C i c, db_handles (cd_db m) !! h = Some x -> cparams_of no_embed ex_json 65536 2 50 (hd_cfg x) = Some C -> VCall i c ∈ seen_in h C107_trace -> batch_stores C c) /\
  (forall h i rs, VRet i (RBatch (Err ECanceled) rs) ∉ seen_in h C107_trace) /\
  (forall h ts ws, cd_side m !! h = Some (ts, ws) -> Forall (fun t => ~ cancelled t) ts).
Proof.
  destruct (ran (fun m => (C107_state m, hd_cfg <$> db_handles (cd_db m))) C107_moves (cd_start fresh_db 4) C107_trace (true, [cx; cy])) as (m & Hr & _ & Hf); [vm_compute; reflexivity|].
  injection Hf as Hst Hc. exists m.
  assert (Hcfg : forall h x, db_handles (cd_db m) !! h = Some x -> exists n, hd_cfg x = ok_cfg n []).
  { intros h x Hx. assert (hd_cfg x ∈ [cx; cy]) as Hin by (rewrite <- Hc; apply elem_of_list_fmap; exists x; split; [done|by eapply elem_of_list_lookup_2]).
    apply elem_of_cons in Hin as [->|Hin]; [by eexists|]. apply elem_of_list_singleton in Hin as ->. by eexists. }
  assert (Hseen : forall h, seen_in h C107_trace = match h with 0 => [VCall 1 (CInsert true 0 pt); VRet 1 (RIns (Val pt)); VCall 1 (CInsert true 1 pt); VCall 0 CClose] | _ => [] end) by (by intros [|h]).
  assert (Hno : none_left m /\ forall h ts ws, cd_side m !! h = Some (ts, ws) -> Forall (fun t => ~ cancelled t) ts).
  { unfold C107_state in Hst. unfold none_left. clear -Hst. repeat (case_match; try discriminate Hst). clear.
    split; intros [|[|h]] ts ws Hd; try discriminate Hd; injection Hd as <- <-; try done.
    - repeat constructor; by intros (? & [?|(? & ?)]).
    - repeat constructor; by intros (? & [?|(? & ?)]). }
  destruct Hno as [Hno Hca]. split_and!; [|done|done| | |done].
  - split.
    + done.
    + intros name h Hn. cbn in Hn. by rewrite lookup_empty in Hn.
    + exact Hr.
    + intros h x Hx. destruct (Hcfg _ _ Hx) as [n ->]. exists C11_C, 1, 50, [], empty_st, []. split_and!; [done|apply C106_past| |].
      * rewrite Hseen. apply calls_okb_ok; [done|]. destruct h; vm_compute; reflexivity.
      * rewrite Hseen. destruct h; vm_compute; lia.
    + intros i c Hi Hv Hh. assert (exists n, c = ok_cfg n []) as [n ->].
      { unfold C107_trace, made in Hi. cbn [app] in Hi. repeat (apply elem_of_cons in Hi as [Hi|Hi]; [first [discriminate Hi|injection Hi as _ ->; by eexists]|]). by apply elem_of_nil in Hi. }
      exists C11_C, 1, 50. split; [done|apply C106_past].
    + intros i h. unfold C107_trace, made. cbn [app]. intros Hi. exfalso. revert Hi. no_in.
  - intros h x C i c _ _ Hi. rewrite Hseen in Hi. destruct h; [|by apply elem_of_nil in Hi].
    repeat (apply elem_of_cons in Hi as [Hi|Hi]; [first [discriminate Hi|injection Hi as -> ->; exact I]|]). by apply elem_of_nil in Hi.
  - intros h i rs. rewrite Hseen. destruct h; no_in.
Qed.

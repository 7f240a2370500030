(** Invariants of a database used by several goroutines. *)
From stdpp Require Import relations.
From Verif Require Import GoBase FloatModel HeapModel ProgModel StateModel WalModel HnswModel StoreModel CollModel CallModel LinModel EarlyModel DBModel DBConModel
  ProofBase WpProofs StepProofs StoreProofs LinProofs LinTrace EarlyTrace EarlyClose.
Open Scope nat_scope.

Lemma dholds_x_dholds g : dholds_x g -> dholds g.
Proof. by destruct g. Qed.

(** ** What the calls under db.mu do to the rest *)
Lemma meta_create_keeps c D D' r : meta_create c D = (D', r) ->
  db_handles D' = db_handles D /\ db_colls D' = db_colls D /\ db_closed D' = db_closed D.
Proof. unfold meta_create. repeat case_match; by intros [= <- <-]. Qed.
Lemma meta_create_files c D D' i : meta_create c D = (D', Val i) -> db_files D' !! cf_name c = Some (FDir empty_disk).
Proof.
  unfold meta_create. destruct (mkdir (cf_name c) (db_files D)) as [fs| | ] eqn:E; repeat case_match; intros [= <- <-].
  all: cbn [db_files]; revert E; unfold mkdir; repeat case_match; intros [= <-]; apply lookup_insert.
Qed.
Lemma reopen_empty : reopen empty_disk = Val empty_st.
Proof. reflexivity. Qed.

(** A call under db.mu leaves the handles alone, or adds a new, empty one. *)
Inductive grows (D D' : db) : Prop :=
| GrowsNot : db_handles D' = db_handles D -> grows D D'
| GrowsNew c : db_handles D' = db_handles D ++ [Handle c empty_st] -> grows D D'.
Lemma create_grows c D D' r : create_collection c D = (D', r) -> grows D D' /\ db_closed D' = db_closed D.
Proof.
  unfold create_collection. destruct (db_closed D) eqn:Ec; [intros [= <- <-]; split; [by apply GrowsNot|done]|].
  destruct (validate c); try (intros [= <- <-]; split; [by apply GrowsNot|done]).
  destruct (db_colls D !! cf_name c); [intros [= <- <-]; split; [by apply GrowsNot|done]|].
  destruct (meta_create c D) as [D1 r1] eqn:E1. destruct (meta_create_keeps _ _ _ _ E1) as (H1 & H2 & H3).
  destruct r1 as [i|e|p]; try (intros [= <- <-]; split; [by apply GrowsNot|congruence]).
  rewrite (meta_create_files _ _ _ _ E1). unfold new_collection.
  change (open_counter (d_cfile empty_disk)) with (Val 0%N : out N). cbn [mbind out_bind].
  destruct (String.eqb (cf_index c) "hnsw"); [|intros [= <- <-]; split; [by apply GrowsNot|congruence]].
  rewrite reopen_empty. cbn [mbind out_bind]. intros [= <- <-]. cbn [db_handles db_closed]. split; [|congruence].
  apply (GrowsNew _ _ c). cbn [db_handles]. congruence.
Qed.
Lemma do_create_grows c b D D' r : do_create c b D = (D', r) -> grows D D' /\ db_closed D' = db_closed D.
Proof. unfold do_create. destruct b; [intros [= <- <-]; split; [by apply GrowsNot|done]|apply create_grows]. Qed.
Lemma do_create_closed c b D D' r : do_create c b D = (D', r) -> db_closed D = true -> D' = D /\ r = Err EDatabaseClosed.
Proof. unfold do_create, create_shut, create_collection. destruct b; intros H Hc; rewrite Hc in H; by injection H as <- <-. Qed.
Lemma do_delete_keeps n b D D' r : do_delete n b D = (D', r) -> db_handles D' = db_handles D /\ db_closed D' = db_closed D.
Proof. unfold do_delete, delete_collection. repeat case_match; intros [= <- <-]; cbn; split; congruence. Qed.
Lemma do_delete_closed n b D D' r : do_delete n b D = (D', r) -> db_closed D = true -> D' = D /\ r = Err EDatabaseClosed.
Proof. unfold do_delete, delete_shut, delete_collection. destruct b; intros H Hc; rewrite Hc in H; by injection H as <- <-. Qed.

(** The handles of the map, and those that are closed. *)
Definition vals (D : db) : list nat := (map_to_list (db_colls D)).*2.
Definition shut (D : db) (h : nat) : Prop := exists x, db_handles D !! h = Some x /\ closed (hd_st x) = true.
Definition all_shut (D : db) : Prop := forall h, h ∈ vals D -> shut D h.

Section inv.
  Context (env_embed : string -> jval -> embedder) (J : json) (maxv : N) (workers fuel : nat).
  Notation params c := (cparams_of env_embed J maxv workers fuel c).
  Notation own_step := (own_step).
  Notation cd_step := (cd_step env_embed J maxv workers fuel).
  Notation cd_run := (cd_run env_embed J maxv workers fuel).

  (** A goroutine that is in Close. *)
  Definition gok (D : db) (sd : list (list client * list group)) (i : nat) (g : gor) : Prop :=
    match g with
    | GLoop todo => forall h, h ∈ vals D -> h ∈ todo \/ shut D h
    | GShut h todo =>
        (forall h', h' ∈ vals D -> h' ∈ h :: todo \/ shut D h') /\
        exists x ts ws t, db_handles D !! h = Some x /\ sd !! h = Some (ts, ws) /\ ts !! i = Some t /\ closer (hd_st x) t
    | GEnd DClose (QUnit (Val _)) | GRet DClose (QUnit (Val _)) => db_closed D = true
    | GShare c => c <> DClose
    | GFound c (inl _) => c <> DClose
    | GFound c (inr _) => exists n, c = DRest n
    | _ => True
    end.
  Record jinv (m : cdb) : Prop := JInv {
    j_len : length (cd_side m) = length (db_handles (cd_db m));
    j_coll : forall h x ts ws, db_handles (cd_db m) !! h = Some x -> cd_side m !! h = Some (ts, ws) -> kinv (hd_st x, ts, ws);
    j_excl : forall i j a b, cd_gs m !! i = Some a -> cd_gs m !! j = Some b -> dholds_x a -> dholds b -> i = j;
    j_gs : forall i g, cd_gs m !! i = Some g -> gok (cd_db m) (cd_side m) i g;
    j_closed : db_closed (cd_db m) = true -> all_shut (cd_db m)
  }.

  Lemma jinv_start D n : db_closed D = false -> jinv (cd_start D n).
  Proof.
    intros Hc. split; cbn [cd_start cd_side cd_db cd_gs].
    - by rewrite replicate_length.
    - intros h x ts ws _ Hh. apply lookup_replicate in Hh as [E _]. unfold unused in E. injection E as -> ->. apply kinv_start.
    - intros i j a b Ha. apply lookup_replicate in Ha as [-> _]. done.
    - intros i g Hg. apply lookup_replicate in Hg as [-> _]. done.
    - congruence.
  Qed.

  Lemma excl_put (gs : list gor) i g g' :
    (forall i j a b, gs !! i = Some a -> gs !! j = Some b -> dholds_x a -> dholds b -> i = j) ->
    gs !! i = Some g ->
    (dholds g' -> dholds g \/ Forall (fun u => ~ dholds_x u) gs) ->
    (dholds_x g' -> dholds_x g \/ Forall (fun u => ~ dholds u) gs) ->
    forall k j a b, <[i := g']> gs !! k = Some a -> <[i := g']> gs !! j = Some b -> dholds_x a -> dholds b -> k = j.
  Proof.
    intros H1 Hi Hh Hx k j a b Hk Hj Ha Hb.
    destruct (decide (k = i)) as [->|Hki], (decide (j = i)) as [->|Hji]; [done|..].
    - rewrite list_lookup_insert in Hk by (by eapply lookup_lt_Some). injection Hk as <-.
      rewrite list_lookup_insert_ne in Hj by done. destruct (Hx Ha) as [Hx'|Hno]; [by eapply H1|].
      rewrite Forall_lookup in Hno. by destruct (Hno j b).
    - rewrite list_lookup_insert in Hj by (by eapply lookup_lt_Some). injection Hj as <-.
      rewrite list_lookup_insert_ne in Hk by done. destruct (Hh Hb) as [Hh'|Hno]; [by eapply H1|].
      rewrite Forall_lookup in Hno. by destruct (Hno k a).
    - rewrite list_lookup_insert_ne in Hk, Hj by done. by eapply H1.
  Qed.

  Lemma grows_lookup D D' h x : grows D D' -> db_handles D !! h = Some x -> db_handles D' !! h = Some x.
  Proof. intros [->|c ->] Hh; [done|]. rewrite lookup_app_l; [done|]. by eapply lookup_lt_Some. Qed.
  Lemma grows_shut D D' h : grows D D' -> shut D h -> shut D' h.
  Proof. intros Hg (x & Hx & Hc). exists x. split; [by eapply grows_lookup|done]. Qed.
  Lemma sd_lookup (sd : list (list client * list group)) l h y : sd !! h = Some y -> (sd ++ l) !! h = Some y.
  Proof. intros H. rewrite lookup_app_l; [done|]. by eapply lookup_lt_Some. Qed.

  (** What a step at the database does. *)
  Lemma own_grows D meta gs i g vs D' meta' g' : own_step D meta gs i g vs D' meta' g' ->
    grows D D' /\ (db_closed D = true -> db_closed D' = true /\ D' = D) /\
    (db_colls D' = db_colls D \/ exists c, g = GLock c).
  Proof.
    intros Hs. inversion Hs as [| |c D1 r Hc|n D1 r Hc| |? ? ? ? ?| | | | | | | | | | | | ]; subst; try (split; [by apply GrowsNot|split; [done|by left]]).
    - split; [by eapply do_create_grows|]. split; [|right; by eexists]. intros H. destruct (do_create_closed _ _ _ _ _ Hc H) as [-> _]. done.
    - destruct (do_delete_keeps _ _ _ _ _ Hc) as [H1 H2]. split; [by apply GrowsNot|]. split; [|right; by eexists].
      intros H. destruct (do_delete_closed _ _ _ _ _ Hc H) as [-> _]. done.
    - split; [by apply GrowsNot|]. split; [|by left]. intros H. split; [done|]. destruct D; cbn in *; congruence.
  Qed.
  Lemma own_holds D meta gs i g vs D' meta' g' : own_step D meta gs i g vs D' meta' g' ->
    (dholds g' -> dholds g \/ Forall (fun u => ~ dholds_x u) gs) /\
    (dholds_x g' -> dholds_x g \/ Forall (fun u => ~ dholds u) gs).
  Proof.
    intros Hs. inversion Hs as [|? ? Hf| | | | | | |? ? Hf| | | | | | | | | ]; subst; (split; [|cbn; tauto]); cbn; try tauto.
    intros _. right. eapply Forall_impl; [exact Hf|]. intros u Hu Hux. by apply Hu, dholds_x_dholds.
  Qed.

  Lemma jinv_own D sd meta gs i g vs D' meta' g' :
    jinv (CDB D sd meta gs) -> gs !! i = Some g -> own_step D meta gs i g vs D' meta' g' ->
    jinv (CDB D' (sd ++ replicate (length (db_handles D') - length sd) (unused (length gs))) meta' (<[i := g']> gs)).
  Proof.
    intros [H1 H2 H3 H4 H5] Hi Hs. cbn [cd_db cd_side cd_gs] in *.
    destruct (own_grows _ _ _ _ _ _ _ _ _ Hs) as (Hg & Hc & Hv). destruct (own_holds _ _ _ _ _ _ _ _ _ Hs) as [Hh Hx].
    assert (Hsh : forall h, shut D h -> shut D' h) by (intros h; by apply grows_shut).
    split; cbn [cd_db cd_side cd_gs].
    - rewrite app_length, replicate_length, H1. destruct Hg as [E|c E]; rewrite E; rewrite ?app_length; lia.
    - intros h x ts ws Hl Hd. destruct (decide (h < length sd)) as [Hlt|Hge].
      + rewrite lookup_app_l in Hd by done. eapply H2; [|done]. destruct Hg as [E|c E]; rewrite E in Hl; [done|].
        rewrite lookup_app_l in Hl; [done|]. by rewrite <- H1.
      + rewrite lookup_app_r in Hd by lia. apply lookup_replicate in Hd as [E _]. unfold unused in E. injection E as -> ->. apply kinv_start.
    - by eapply excl_put.
    - intros j u Hj. destruct (decide (j = i)) as [->|Hne].
      + rewrite list_lookup_insert in Hj by (by eapply lookup_lt_Some). injection Hj as <-. pose proof (H4 _ _ Hi) as Hok.
        inversion Hs as [| |c D1 r Hcr|n D1 r Hcr|todo Ht|h x todo Hl Hcl| |c q| | | | | | | | | | ]; subst; cbn [gok] in *; try done.
        * intros h Hin. left. by rewrite Ht.
        * intros h' Hin. destruct (Hok _ Hin) as [Hin'|]; [|by right]. apply elem_of_cons in Hin' as [->|]; [|by left]. right. by exists x.
        * by destruct c.
        * by eexists.
        * by destruct c.
      + rewrite list_lookup_insert_ne in Hj by done. pose proof (H4 _ _ Hj) as Hok.
        assert (Hvals : dholds_x u -> vals D' = vals D).
        { intros Hux. destruct Hv as [Hv|[c ->]]; [unfold vals; by rewrite Hv|]. exfalso. apply Hne. eapply (H3 j i); [done|done|done|done]. }
        destruct u as [| | | |todo|h todo|[] [| []| | ]| |? []| |[] [|[]| | ]]; cbn [gok] in *; try done; try (by apply Hc).
        * intros h Hin. rewrite Hvals in Hin by done. destruct (Hok _ Hin); [by left|right; by apply Hsh].
        * destruct Hok as [Ho (x & ts & ws & t & E1 & E2 & E3 & E4)]. split.
          -- intros h' Hin. rewrite Hvals in Hin by done. destruct (Ho _ Hin); [by left|right; by apply Hsh].
          -- exists x, ts, ws, t. split; [by eapply grows_lookup|]. split; [by apply sd_lookup|done].
    - intros Hcl. destruct (db_closed D) eqn:Ec.
      + destruct (Hc eq_refl) as [_ ->]. by apply H5.
      + pose proof (H4 _ _ Hi) as Hok. inversion Hs as [| |c D1 r Hcr|n D1 r Hcr|todo Ht|h x todo Hl Hcl'| |c q| | | | | | | | | | ]; subst; cbn [db_closed] in *; try congruence.
        * destruct (do_create_grows _ _ _ _ _ Hcr) as [_ E]. congruence.
        * destruct (do_delete_keeps _ _ _ _ _ Hcr) as [_ E]. congruence.
        * intros h Hin. cbn [gok] in Hok. destruct (Hok _ Hin) as [Hn|Hn]; [by apply elem_of_nil in Hn|]. by apply Hsh.
  Qed.

  Lemma use_handles h x s D h' : db_handles D !! h = Some x ->
    db_handles (use h x s D) !! h' = if decide (h' = h) then Some (Handle (hd_cfg x) s) else db_handles D !! h'.
  Proof.
    intros Hx. cbn [use db_handles]. destruct (decide (h' = h)) as [->|Hne]; [|by rewrite list_lookup_insert_ne].
    rewrite list_lookup_insert; [done|by eapply lookup_lt_Some].
  Qed.
  Lemma use_shut h x s D h' : db_handles D !! h = Some x -> still (hd_st x) s -> shut D h' -> shut (use h x s D) h'.
  Proof.
    intros Hx Hst (y & Hy & Hc). unfold shut. rewrite (use_handles _ _ _ _ _ Hx). destruct (decide (h' = h)) as [->|Hne]; [|by exists y].
    rewrite Hx in Hy. injection Hy as ->. eexists. split; [done|]. cbn [hd_st]. by apply Hst.
  Qed.

  (** Only the goroutine that acts changes, and how. *)
  Lemma on_ev_other h s vs gs dvs gs' : on_ev h s vs gs dvs gs' ->
    gs' = gs /\ vs = [] \/ exists i g g' v, gs !! i = Some g /\ gs' = <[i := g']> gs /\ vs = [v] /\ (match v with VCall j _ | VRet j _ => j = i end) /\
      (dholds g' -> dholds g) /\ (dholds_x g' -> dholds_x g).
  Proof.
    intros H. inversion H as [|? i c Hi|? i r Hi|? i todo Hi Hc|? i todo Hi|? i todo e Hi]; subst; [by left|right; exists i; by repeat (eexists; repeat split)..].
  Qed.

  Lemma jinv_on D sd meta gs h x C ts ws vs s' ts' ws' dvs gs' :
    jinv (CDB D sd meta gs) -> db_handles D !! h = Some x -> sd !! h = Some (ts, ws) ->
    estep C (hd_st x, ts, ws) vs (s', ts', ws') -> on_ev h (hd_st x) vs gs dvs gs' ->
    jinv (CDB (use h x s' D) (<[h := (ts', ws')]> sd) meta gs') /\ still (hd_st x) s'.
  Proof.
    intros [H1 H2 H3 H4 H5] Hx Hd He Ho. cbn [cd_db cd_side cd_gs] in *.
    pose proof (H2 _ _ _ _ Hx Hd) as HK. destruct (kinv_step C _ _ _ He HK) as [HK' Hst]. cbn [fst snd] in Hst.
    assert (Hsh : forall h', shut D h' -> shut (use h x s' D) h') by (intros h'; by apply use_shut).
    split; [|done]. split; cbn [cd_db cd_side cd_gs].
    - rewrite insert_length. cbn [use db_handles]. by rewrite insert_length.
    - intros h' y ts1 ws1. rewrite (use_handles _ _ _ _ _ Hx). destruct (decide (h' = h)) as [->|Hne].
      + intros [= <-]. rewrite list_lookup_insert by (by eapply lookup_lt_Some). by intros [= <- <-].
      + rewrite list_lookup_insert_ne by done. apply H2.
    - destruct (on_ev_other _ _ _ _ _ _ Ho) as [[-> _]|(i & g & g' & v & Hi & -> & _ & _ & Hh & Hxx)]; [done|].
      eapply excl_put; [done|done|intros; left; by apply Hh|intros; left; by apply Hxx].
    - (* the goroutines in Close *)
      assert (Hkeep : forall j u, gs !! j = Some u -> no_return j vs -> gok D sd j u -> gok (use h x s' D) (<[h := (ts', ws')]> sd) j u).
      { intros j u Hj Hno Hok. destruct u as [| | | |todo|k todo|[] [| []| | ]| |? []| |[] [|[]| | ]]; cbn [gok] in *; try done.
        - intros h' Hin. destruct (Hok _ Hin); [by left|right; by apply Hsh].
        - destruct Hok as [Hok (y & ts1 & ws1 & t & E1 & E2 & E3 & E4)]. split; [intros h' Hin; destruct (Hok _ Hin); [by left|right; by apply Hsh]|].
          rewrite (use_handles _ _ _ _ _ Hx). destruct (decide (k = h)) as [->|Hne].
          + rewrite Hx in E1. injection E1 as <-. rewrite Hd in E2. injection E2 as <- <-.
            destruct (follow_step C closer close_answer j closer_still
              ltac:(intros gs0 s0 ts0 t0 vs0 s1 t1; apply (closer_self C)) _ _ _ He) as [[_ [_ (t' & Ht & Hct)]]|(r & -> & _)].
            * split; [done|]. by exists t.
            * cbn [fst snd] in *. eexists _, ts', ws', t'. split; [done|]. split; [apply list_lookup_insert; by eapply lookup_lt_Some|]. done.
            * exfalso. apply (Hno r). by left.
          + rewrite list_lookup_insert_ne by done. by exists y, ts1, ws1, t. }
      intros j u Hj. destruct (on_ev_other _ _ _ _ _ _ Ho) as [[-> ->]|(i & g & g' & v & Hi & Egs & -> & Hv & _)].
      { apply Hkeep; [done| |by apply H4]. intros r Hr. by apply elem_of_nil in Hr. }
      destruct (decide (j = i)) as [->|Hne].
      + pose proof (H4 _ _ Hi) as Hok.
        inversion Ho as [|? k c Hk|? k r Hk|? k todo Hk Hc|? k todo Hk|? k todo e Hk]; subst;
          match goal with H : <[_ := _]> gs = <[_ := _]> gs |- _ => rewrite <- H in Hj end; cbn in Hv; subst k.
        * rewrite list_lookup_insert in Hj by (by eapply lookup_lt_Some). by injection Hj as <-.
        * rewrite list_lookup_insert in Hj by (by eapply lookup_lt_Some). by injection Hj as <-.
        * rewrite list_lookup_insert in Hj by (by eapply lookup_lt_Some). injection Hj as <-. rewrite Hi in Hk. injection Hk as ->. cbn [gok] in *. split.
          { intros h' Hin. destruct (Hok _ Hin); [by left|right; by apply Hsh]. }
          eexists _, ts', ws', (TCall CClose). rewrite (use_handles _ _ _ _ _ Hx). rewrite decide_True by done. split; [done|].
          split; [apply list_lookup_insert; by eapply lookup_lt_Some|]. split; [|by left].
          inversion He as [s1 ts1 gs1 w s2 ts2 Hcs| | | | ]; subst. inversion Hcs as [? ? k1 u1 ? ? u1' Hk1 Hcl]; subst.
          inversion Hcl; subst. apply list_lookup_insert. by eapply lookup_lt_Some.
        * rewrite list_lookup_insert in Hj by (by eapply lookup_lt_Some). injection Hj as <-. rewrite Hi in Hk. injection Hk as ->. cbn [gok] in *.
          destruct Hok as [Hok (y & ts1 & ws1 & t & E1 & E2 & E3 & E4)]. rewrite Hx in E1. injection E1 as <-. rewrite Hd in E2. injection E2 as <- <-.
          assert (closed (hd_st x) = true) as Hcl.
          { destruct (follow_step C closer close_answer i closer_still
              ltac:(intros gs0 s0 ts0 t0 vs0 s1 t1; apply (closer_self C)) _ _ _ He) as [[Hno _]|(r & E & HQ & _)].
            - split; [done|]. by exists t.
            - exfalso. apply (Hno (RUnit (Val tt))). by left.
            - injection E as <-. by destruct HQ as [[_ H]|[=]]. }
          intros h' Hin. destruct (Hok _ Hin) as [Hin'|]; [|right; by apply Hsh]. apply elem_of_cons in Hin' as [->|]; [|by left].
          right. apply Hsh. by exists x.
        * rewrite list_lookup_insert in Hj by (by eapply lookup_lt_Some). by injection Hj as <-.
      + apply Hkeep; [|intros r Hr%elem_of_list_singleton; subst v; by apply Hne|].
        * rewrite Egs, list_lookup_insert_ne in Hj by done. done.
        * apply H4. rewrite Egs, list_lookup_insert_ne in Hj by done. done.
    - intros Hc h' Hin. apply Hsh. by apply H5.
  Qed.

  Lemma close_answers D sd meta gs h x C ts ws i todo r s' ts' ws' :
    jinv (CDB D sd meta gs) -> db_handles D !! h = Some x -> sd !! h = Some (ts, ws) -> gs !! i = Some (GShut h todo) ->
    estep C (hd_st x, ts, ws) [VRet i r] (s', ts', ws') -> close_answer (hd_st x) r.
  Proof.
    intros HJ Hx Hd Hi He. pose proof (j_gs _ HJ _ _ Hi) as [_ (y & ts1 & ws1 & t & E1 & E2 & E3 & E4)]. cbn [cd_db cd_side] in *.
    rewrite Hx in E1. injection E1 as <-. rewrite Hd in E2. injection E2 as <- <-. pose proof (j_coll _ HJ _ _ _ _ Hx Hd) as HK.
    destruct (follow_step C closer close_answer i closer_still
              ltac:(intros gs0 s0 ts0 t0 vs0 s1 t1; apply (closer_self C)) _ _ _ He) as [[Hno _]|(r' & E & HQ & _)].
    - split; [done|]. by exists t.
    - exfalso. apply (Hno r). by left.
    - by injection E as <-.
  Qed.

  Lemma jinv_step m vs m' : cd_step m vs m' -> jinv m -> jinv m'.
  Proof.
    intros Hs HJ. inversion Hs as [D sd meta gs i g v D' meta' g' Hi Ho|D sd meta gs h x C ts ws v s' ts' ws' dvs gs' Hx Hd HC He Hev]; subst.
    - by eapply jinv_own.
    - by eapply jinv_on.
  Qed.
  Lemma jinv_run m vs m' : cd_run m vs m' -> jinv m -> jinv m'.
  Proof. induction 1 as [|m v1 m1 v2 m2 _ IH Hs]; [done|]. intros HJ. eapply jinv_step; [exact Hs|by apply IH]. Qed.
End inv.

(** C103 to C105: a database and its collections used by any number of
    goroutines at once. *)
From stdpp Require Import relations.
From Verif Require Import GoBase FloatModel HeapModel ProgModel StateModel WalModel HnswModel StoreModel CollModel CallModel LinModel EarlyModel DBModel DBConModel DBConSpec
  ProofBase WpProofs StepProofs StoreProofs LinProofs LinTrace LinRun EarlyTrace EarlyClose DBConProofs DBConTrace DBConAtomic DBConRun PropStore PropDB.
Open Scope nat_scope.

(** ** Effects, calls and returns *)
(** The calls of the database that have returned, but for GET
    /v1/collection/{name}, which has no effect. *)
Definition done_call (c : dcall) (q : dreply) : option (dcall * dreply) := match c with DRest _ => None | _ => Some (c, q) end.
Definition ret_of (v : dvis) : option (dcall * dreply) := match v with DvRet _ c q => done_call c q | _ => None end.
Definition have_of (g : ogor) : option (dcall * dreply) := match g with OHave c q => done_call c q | _ => None end.
Lemma omap_put {A B} (f : A -> option B) (l : list A) i g g' : l !! i = Some g ->
  option_list (f g') ++ omap f l ≡ₚ option_list (f g) ++ omap f (<[i := g']> l).
Proof.
  revert i. induction l as [|x l IH]; intros [|i] H; try done.
  - cbn in H. injection H as ->. cbn. destruct (f g), (f g'); cbn; try done. apply perm_swap.
  - cbn in H. specialize (IH i H). cbn. destruct (f x) as [y|]; [|exact IH].
    rewrite <- !Permutation_middle. by constructor.
Qed.
Section effects.
  Context (env_embed : string -> jval -> embedder) (J : json) (maxv : N) (workers fuel : nat).
  Notation ad_step := (ad_step env_embed J maxv workers fuel).
  Notation ad_run := (ad_run env_embed J maxv workers fuel).

  Lemma effect_ret D b c D' b' q : deffect D b c D' b' q -> done_call c q = Some (c, q).
  Proof. intros H. by inversion H. Qed.
  Lemma o_ev_facts h vs os dvs os' : o_ev h vs os dvs os' -> omap ret_of dvs = [] /\ omap have_of os' ≡ₚ omap have_of os /\
    (forall i c, os' !! i = Some (OWant c) -> os !! i = Some (OWant c)).
  Proof.
    intros H. inversion H as [|? i c Hi|? i r Hi| | ]; subst; split; try done; (split; [try done|try done]).
    - pose proof (omap_put have_of os i OIdle (OUse h) Hi) as E. cbn in E. by rewrite E.
    - intros j c1. destruct (decide (j = i)) as [->|]; [rewrite list_lookup_insert by (by eapply lookup_lt_Some); done|by rewrite list_lookup_insert_ne].
    - pose proof (omap_put have_of os i (OUse h) OIdle Hi) as E. cbn in E. by rewrite E.
    - intros j c1. destruct (decide (j = i)) as [->|]; [rewrite list_lookup_insert by (by eapply lookup_lt_Some); done|by rewrite list_lookup_insert_ne].
  Qed.
  (** Every effect belongs to a call; it has been returned or is about to be. *)
  Lemma ad_effects D sd b n vs es m : ad_run (D, sd, b, replicate n OIdle) vs es m ->
    es ≡ₚ omap ret_of vs ++ omap have_of m.2 /\
    (forall i c, m.2 !! i = Some (OWant c) -> DvCall i c ∈ vs) /\ (forall c q, (c, q) ∈ es -> exists i, DvCall i c ∈ vs).
  Proof.
    intros Hr. remember (D, sd, b, replicate n OIdle) as m0 eqn:E0. induction Hr as [m|m v1 e1 m1 v2 e2 m2 Hr IH Hs]; subst m.
    - cbn [snd omap]. split; [|split].
      + cbn. clear. induction n as [|n IH]; [done|]. done.
      + intros i c Hi. by apply lookup_replicate in Hi as [? _].
      + intros c q Hin. by apply elem_of_nil in Hin.
    - destruct (IH eq_refl) as (H1 & H2 & H3). clear IH.
      assert (Hw : forall (os : list ogor) i g, (forall c, g <> OWant c) -> forall j c, <[i := g]> os !! j = Some (OWant c) -> os !! j = Some (OWant c)).
      { intros os i g Hg j c Hj. destruct (decide (j = i)) as [->|Hne]; [|by rewrite list_lookup_insert_ne in Hj].
        destruct (decide (i < length os)) as [Hlt|Hge]; [rewrite list_lookup_insert in Hj by done; injection Hj as ->; by destruct (Hg c)|].
        by rewrite list_insert_ge in Hj by lia. }
      inversion Hs as [D1 sd1 b1 os i c Hi|D1 sd1 b1 os i c D' b' q Hi He|D1 sd1 b1 os i k h Hi Hg|D1 sd1 b1 os i k e Hi Hg|D1 sd1 b1 os i k h x a Hi Hx Ha|D1 sd1 b1 os i c q Hi
        |D1 sd1 b1 os h x C ts ws w s' ts' ws' dvs os' Hx Hd HC He Hev]; subst; cbn [snd] in *; rewrite ?app_nil_r, ?omap_app.
      + split; [|split].
        * cbn. rewrite app_nil_r, H1. pose proof (omap_put have_of os i OIdle (OWant c) Hi) as E. cbn in E. by rewrite E.
        * intros j c1 Hj. destruct (decide (j = i)) as [->|Hne].
          -- rewrite list_lookup_insert in Hj by (by eapply lookup_lt_Some). injection Hj as ->. set_solver.
          -- rewrite list_lookup_insert_ne in Hj by done. apply elem_of_app. left. by apply H2.
        * intros c1 q1 Hin. destruct (H3 _ _ Hin) as [j Hj]. exists j. set_solver.
      + split; [|split].
        * pose proof (omap_put have_of os i (OWant c) (OHave c q) Hi) as E. cbn in E. rewrite (effect_ret _ _ _ _ _ _ He) in E. cbn in E.
          rewrite <- E, H1. cbn. rewrite ?app_nil_r, <- (Permutation_middle (omap ret_of v1) _ (c, q)). symmetry. apply Permutation_cons_append.
        * intros j c1 Hj. apply H2. revert Hj. apply Hw. done.
        * intros c1 q1 [Hin|Hin]%elem_of_app; [by apply (H3 c1 q1)|]. apply elem_of_list_singleton in Hin. injection Hin as -> ->. exists i. by apply H2.
      + split; [|split; [|done]].
        * rewrite H1. pose proof (omap_put have_of os i (OWant (DRest k)) (OGot (DRest k) h) Hi) as E. cbn in E. by rewrite E.
        * intros j c1 Hj. apply H2. revert Hj. apply Hw. done.
      + split; [|split; [|done]].
        * rewrite H1. pose proof (omap_put have_of os i (OWant (DRest k)) (OHave (DRest k) (QRest (err_response e))) Hi) as E. cbn in E. by rewrite E.
        * intros j c1 Hj. apply H2. revert Hj. apply Hw. done.
      + split; [|split; [|done]].
        * rewrite H1. pose proof (omap_put have_of os i (OGot (DRest k) h) (OHave (DRest k) (QRest a)) Hi) as E. cbn in E. by rewrite E.
        * intros j c1 Hj. apply H2. revert Hj. apply Hw. done.
      + split; [|split].
        * rewrite H1, <- app_assoc. f_equiv. pose proof (omap_put have_of os i (OHave c q) OIdle Hi) as E. cbn in E |- *. rewrite E. destruct (done_call c q); done.
        * intros j c1 Hj. apply elem_of_app. left. apply H2. revert Hj. apply Hw. done.
        * intros c1 q1 Hin. destruct (H3 _ _ Hin) as [j Hj]. exists j. set_solver.
      + destruct (o_ev_facts _ _ _ _ _ Hev) as (E1 & E2 & E3). split; [|split].
        * by rewrite E1, E2, app_nil_r.
        * intros j c1 Hj. apply elem_of_app. left. by apply H2, E3.
        * intros c1 q1 Hin. destruct (H3 _ _ Hin) as [j Hj]. exists j. set_solver.
  Qed.
End effects.

Lemma deleted_or n (e : list (dcall * dreply)) : (DDelete n, QUnit (Val tt)) ∈ e \/ (forall u, (DDelete n, QUnit (Val u)) ∉ e).
Proof.
  induction e as [|a e [IH|IH]]; [right; intros u Hin; by apply elem_of_nil in Hin|left; by right|].
  assert (a = (DDelete n, QUnit (Val tt)) \/ a <> (DDelete n, QUnit (Val tt))) as [->|Hne].
  { destruct a as [[|n'| | | | ] [|[[]| | ]| | ]]; try (by right). destruct (decide (n' = n)) as [->|]; [by left|right; congruence]. }
  - left. left.
  - right. intros [] [Hin|Hin]%elem_of_cons; [by destruct Hne|by apply (IH tt)].
Qed.

(** The database of the concrete runs: four goroutines, no embedder. *)
Notation xrun := (cd_run no_embed ex_json 65536 2 50).
Notation xexec := (d_exec no_embed ex_json 65536 2 50).
Definition cx : config := ok_cfg "x" [].
Definition cy : config := ok_cfg "y" [].
Definition pt : object := Object 0 ∅ (Some [1065353216%N]).
Definition making : list dmove := [ DmOwn 5 0 (DCreate cx); DmOwn 5 0 (DCreate cy) ].

Section props.
  Context (env_embed : string -> jval -> embedder) (J : json) (maxv : N) (workers fuel : nat).
  Notation params c := (cparams_of env_embed J maxv workers fuel c).
  Notation cd_run := (cd_run env_embed J maxv workers fuel).
  Notation ad_run := (ad_run env_embed J maxv workers fuel).

  (** ** C103 Concurrent calls of a database happen one at a time *)
  (** What happens in one collection is a run of that collection alone
      (EarlyModel, LinModel), whatever happens to the others and to the
      database: what C61 to C64 and C100 to C102 say of such runs is true of
      every collection of a database.  Those that are created start empty. *)
  Theorem C103_each_collection : forall D n vs m h x C, cd_run (cd_start D n) vs m ->
    db_handles (cd_db m) !! h = Some x -> params (hd_cfg x) = Some C ->
    exists s ts ws, (match db_handles D !! h with Some x0 => hd_cfg x0 = hd_cfg x /\ hd_st x0 = s | None => s = empty_st end) /\
      erun C (s, replicate n TIdle, []) (seen_in h vs) (hd_st x, ts, ws).
  Proof.
    intros D n vs m h x C Hr Hx HC. destruct (proj_start _ _ _ _ _ _ _ _ _ Hr) as (_ & _ & _ & _ & H). destruct (H h x Hx) as (x0 & ts & ws & H0 & Hcfg & _ & He).
    exists (hd_st x0), ts, ws. split; [|by apply He]. destruct H0 as [->|[Hge Hst]]; [done|]. by rewrite lookup_ge_None_2.
  Qed.

  (** Partial: every call has its effect, the one it has in DBModel, at one
      moment between the call and its return, and the effect of a Close that
      returns nil includes the Close of every collection; but Close closes the
      collections before that moment, one after the other, and GET
      /v1/collection/{name} has two moments. *)
  Theorem C103_calls_one_at_a_time_partial : forall D n vs m, db_closed D = false -> cd_run (cd_start D n) vs m ->
    exists es b os, ad_run (D, replicate (length (db_handles D)) (unused n), false, replicate n OIdle) vs es (cd_db m, cd_side m, b, os) /\
      (forall i, cd_gs m !! i = Some GIdle -> os !! i = Some OIdle) /\
      db_colls (cd_db m) = named (db_colls D) es.
  Proof.
    intros D n vs m Hc Hr. destruct (sim_run _ _ _ _ _ _ _ _ Hr (jinv_start D n Hc) false (mrel_start n)) as (es & b & Ha & _).
    exists es, b, (abs <$> cd_gs m). cbn [cd_start cd_db cd_side cd_gs] in Ha. rewrite fmap_replicate in Ha. split; [done|]. split.
    - intros i Hi. by rewrite list_lookup_fmap, Hi.
    - by apply ad_colls in Ha.
  Qed.

  (** One name, one collection: two creates of a name only both succeed if
      the name is deleted in between. *)
  Theorem C103_names_unique : forall D n vs m v1 i c1 h1 v2 j c2 h2 v3, db_closed D = false -> cd_run (cd_start D n) vs m ->
    vs = v1 ++ DvRet i (DCreate c1) (QColl (Val h1)) :: v2 ++ DvRet j (DCreate c2) (QColl (Val h2)) :: v3 -> cf_name c1 = cf_name c2 ->
    exists k, DvCall k (DDelete (cf_name c1)) ∈ vs.
  Proof.
    intros D n vs m v1 i c1 h1 v2 j c2 h2 v3 Hc Hr Ev En. destruct (C103_calls_one_at_a_time_partial D n vs m Hc Hr) as (es & b & os & Ha & _ & _).
    destruct (ad_effects _ _ _ _ _ _ _ _ _ _ _ _ Ha) as (HP & _ & Hcall).
    assert (forall e1 a ka e2 b' kb e3, es = e1 ++ (DCreate a, QColl (Val ka)) :: e2 ++ (DCreate b', QColl (Val kb)) :: e3 ->
      cf_name a = cf_name c1 -> cf_name b' = cf_name c1 -> exists k, DvCall k (DDelete (cf_name c1)) ∈ vs) as Hmain.
    { intros e1 a ka e2 b' kb e3 Ees Ea Eb.
      assert (~ (forall u, (DDelete (cf_name c1), QUnit (Val u)) ∉ e2)) as Hdel.
      { intros Hno. destruct (ad_prefix _ _ _ _ _ _ _ _ _ (e1 ++ (DCreate a, QColl (Val ka)) :: e2) (DCreate b') (QColl (Val kb)) e3 Ha) as (D2 & b2 & D3 & b3 & Hd & He).
        { rewrite Ees, <- app_assoc. done. }
        inversion He as [? ? ? Hcr| | | | | | | ]; subst. destruct (create_colls _ _ _ _ Hcr) as [_ Hfree].
        assert (is_Some (db_colls D2 !! cf_name c1)) as [y Hy].
        { rewrite Hd. unfold named. rewrite foldl_app. cbn [foldl]. apply named_keeps; [|done]. cbn [named_step]. rewrite Ea, lookup_insert. by eexists. }
        specialize (Hfree kb eq_refl). rewrite Eb in Hfree. congruence. }
      destruct (deleted_or (cf_name c1) e2) as [Hin|Hnin].
      - apply (Hcall (DDelete (cf_name c1)) (QUnit (Val tt))). rewrite Ees. set_solver.
      - by destruct Hdel. }
    assert (Hperm : exists l, es ≡ₚ (DCreate c1, QColl (Val h1)) :: (DCreate c2, QColl (Val h2)) :: l).
    { eexists. rewrite HP, Ev, !omap_app. cbn. rewrite omap_app. cbn. rewrite <- (app_assoc _ (_ :: _)). cbn.
      rewrite <- Permutation_middle. constructor. rewrite <- !app_assoc. cbn. rewrite app_assoc, <- Permutation_middle. done. }
    destruct Hperm as [l Hl].
    assert ((DCreate c1, QColl (Val h1)) ∈ es) as H1 by (rewrite Hl; left).
    apply elem_of_list_split in H1 as (e1 & e2 & Ees). rewrite Ees in Hl. rewrite <- Permutation_middle in Hl. apply Permutation_cons_inv in Hl.
    assert ((DCreate c2, QColl (Val h2)) ∈ e1 ++ e2) as H2 by (rewrite Hl; left).
    apply elem_of_app in H2 as [H2|H2]; apply elem_of_list_split in H2 as (f1 & f2 & ->).
    - eapply (Hmain f1 c2 h2 f2 c1 h1 e2); [by rewrite Ees, <- app_assoc|done|done].
    - eapply (Hmain e1 c1 h1 f1 c2 h2 f2); [done|done|done].
  Qed.

  (** ** C104 After Close has returned, nothing changes the data directory *)
  Theorem C104_data_directory_is_final : forall D n v1 i m1 v2 m2, db_closed D = false ->
    cd_run (cd_start D n) (v1 ++ [DvRet i DClose (QUnit (Val tt))]) m1 -> cd_run m1 v2 m2 ->
    db_disk (cd_db m2) = db_disk (cd_db m1).
  Proof.
    intros D n v1 i m1 v2 m2 Hc H1 H2. destruct (cd_run_split _ _ _ _ _ _ _ _ _ _ _ H1 eq_refl) as (ma & mb & R1 & S1 & R2).
    assert (jinv ma) as Ha by (eapply jinv_run; [exact R1|by apply jinv_start]). destruct (close_returns _ _ _ _ _ _ _ _ S1 Ha) as [Hb Hcb].
    destruct (dstill_run _ _ _ _ _ _ _ _ R2 Hb Hcb) as (Hc1 & _ & _). assert (jinv m1) as HJ1 by (by eapply jinv_run).
    by destruct (dstill_run _ _ _ _ _ _ _ _ H2 HJ1 Hc1) as (_ & _ & ?).
  Qed.
  (** The database itself, and every collection it had. *)
  Theorem C104_later_calls_refused : forall D n v1 i m1 v2 m2, db_closed D = false ->
    cd_run (cd_start D n) (v1 ++ [DvRet i DClose (QUnit (Val tt))]) m1 -> cd_run m1 v2 m2 ->
    (forall v3 j c v4 c' q v5, v2 = v3 ++ DvCall j c :: v4 ++ DvRet j c' q :: v5 -> no_dret j v4 ->
       c' = c /\ db_refused ((map_to_list (db_colls (cd_db m1))).*2) c q) /\
    (forall name h v3 j c v4 r v5, db_colls (cd_db m1) !! name = Some h ->
       seen_in h v2 = v3 ++ VCall j c :: v4 ++ VRet j r :: v5 -> no_return j v4 -> refused c r).
  Proof.
    intros D n v1 i m1 v2 m2 Hc H1 H2. destruct (cd_run_split _ _ _ _ _ _ _ _ _ _ _ H1 eq_refl) as (ma & mb & R1 & S1 & R2).
    assert (jinv ma) as Ha by (eapply jinv_run; [exact R1|by apply jinv_start]). destruct (close_returns _ _ _ _ _ _ _ _ S1 Ha) as [Hb Hcb].
    destruct (dstill_run _ _ _ _ _ _ _ _ R2 Hb Hcb) as (Hc1 & _ & _). assert (jinv m1) as HJ1 by (by eapply jinv_run). split.
    - intros v3 j c v4 c' q v5 -> Hno. assert (exists mx, cd_run m1 (v3 ++ DvCall j c :: v4 ++ [DvRet j c' q]) mx) as [mx Hx].
      { replace (v3 ++ DvCall j c :: v4 ++ DvRet j c' q :: v5) with ((v3 ++ DvCall j c :: v4 ++ [DvRet j c' q]) ++ v5) in H2.
        - destruct (cd_run_cut _ _ _ _ _ _ _ _ _ H2) as (mx & Hx & _). by exists mx.
        - rewrite <- app_assoc. cbn. by rewrite <- app_assoc. }
      by eapply dcall_refused.
    - intros name h v3 j c v4 r v5 Hn Es Hno.
      assert (h ∈ vals (cd_db m1)) as Hin. { unfold vals. apply elem_of_list_fmap. exists (name, h). split; [done|by apply elem_of_map_to_list]. }
      by eapply coll_refused.
  Qed.

  (** Partial: Close returns nil, if nobody else closes a collection. *)
  Theorem C104_close_succeeds_partial : forall D n vs m i q, db_closed D = false -> cd_run (cd_start D n) vs m ->
    no_user_close vs -> DvRet i DClose q ∈ vs -> q = QUnit (Val tt).
  Proof.
    intros D n vs m i q Hc Hr Hno Hin. apply elem_of_list_split in Hin as (v1 & v2 & ->).
    destruct (cd_run_split _ _ _ _ _ _ _ _ _ _ _ Hr eq_refl) as (ma & mb & R1 & S1 & _).
    assert (ninv ma) as [_ HN].
    { eapply ninv_run; [exact R1|by apply jinv_start| |apply ninv_start]. intros h k Hin. apply (Hno h k). set_solver. }
    inversion S1 as [D1 sd meta gs j g w D' meta' g' Hi Ho|? ? ? ? ? ? ? ? ? ? ? ? ? ? ? ? ? ? ? Hev]; subst; [|by inversion Hev].
    inversion Ho; subst. exact (HN _ _ Hi).
  Qed.

  (** ** C105 GET /v1/collection/{name} answers what is true at a moment of the call *)
  (** Partial: or 500 and "collection closed", if the collection that had the
      name at a moment of the call was closed later in the call. *)
  Theorem C105_rest_get_partial : forall D n v1 i name v2 q m, db_closed D = false -> pointed D ->
    cd_run (cd_start D n) (v1 ++ DvCall i (DRest name) :: v2 ++ [DvRet i (DRest name) q]) m -> no_dret i v2 ->
    exists va vb m0 ma a, v2 = va ++ vb /\ q = QRest a /\
      cd_run (cd_start D n) (v1 ++ [DvCall i (DRest name)]) m0 /\ cd_run m0 va ma /\ cd_run ma (vb ++ [DvRet i (DRest name) q]) m /\
      (rest_get name (cd_db ma) = Some a \/
       exists h vc vd mb x, a = (500%N, PError ECollectionClosed) /\ get_collection name (cd_db ma) = Val h /\
         vb = vc ++ vd /\ cd_run ma vc mb /\ cd_run mb (vd ++ [DvRet i (DRest name) q]) m /\ db_handles (cd_db mb) !! h = Some x /\ closed (hd_st x) = true).
  Proof.
    intros D n v1 i name v2 q m Hc HP Hr Hno.
    destruct (cd_run_split _ _ _ _ _ _ _ _ _ _ _ Hr eq_refl) as (mx & m0 & R1 & S1 & R2).
    assert (Hr0 : cd_run (cd_start D n) (v1 ++ [DvCall i (DRest name)]) m0) by (by eapply CdSnoc).
    destruct (cd_run_split _ _ _ _ _ _ _ _ _ _ _ R2 eq_refl) as (m2 & m3 & Hv2 & S2 & R3).
    assert (jinv m0) as HJ0 by (eapply jinv_run; [exact Hr0|by apply jinv_start]).
    assert (pointed (cd_db m0)) as HP0 by (eapply pointed_run; [exact Hr0|done]).
    assert (exists g, cd_gs m0 !! i = Some g /\ resting env_embed J maxv workers fuel m0 name [] m0 g) as H0.
    { inversion S1 as [D1 sd meta gs j g w D' meta' g' Hi Ho|? ? ? ? ? ? ? ? ? ? ? ? ? ? ? ? ? ? ? Hev]; subst; [|by inversion Hev].
      inversion Ho; subst. cbn [cd_gs]. eexists. split; [apply list_lookup_insert; by eapply lookup_lt_Some|done]. }
    pose proof (resting_run _ _ _ _ _ m0 name v2 m2 i HJ0 HP0 H0 Hv2 Hno) as Hg.
    destruct (resting_step _ _ _ _ _ m0 name v2 m2 _ m3 i Hv2 S2 HJ0 HP0 Hg) as [[Hn _]|(a & Eq & Hans)].
    { exfalso. apply (Hn (DRest name) q). left. }
    injection Eq as ->. destruct Hans as (va & vb & ma & -> & A1 & A2 & A3).
    assert (Hfin : forall mz w, cd_run mz w m2 -> cd_run mz (w ++ [DvRet i (DRest name) (QRest a)]) m).
    { intros mz w Hw. eapply cd_run_app; [exact Hw|]. rewrite <- (app_nil_r [_]). eapply cd_run_app; [by apply cd_step_run|exact R3]. }
    exists va, vb, m0, ma, a. split; [done|]. split; [done|]. split; [done|]. split; [done|]. split; [by apply Hfin|].
    destruct A3 as [A3|(h & vc & vd & mb & B1 & B2 & B3 & B4 & B5 & x & B6 & B7)]; [by left|right].
    exists h, vc, vd, mb, x. split; [done|]. split; [done|]. split; [done|]. split; [done|]. split; [by apply Hfin|done].
  Qed.
End props.
Print Assumptions C103_each_collection.
Print Assumptions C103_calls_one_at_a_time_partial.
Print Assumptions C103_names_unique.
Print Assumptions C104_data_directory_is_final.
Print Assumptions C104_later_calls_refused.
Print Assumptions C104_close_succeeds_partial.
Print Assumptions C105_rest_get_partial.

(** ** Runs *)
(** For C103 and C104: two collections are created; Close closes the first;
    goroutine 1 is refused there, and then inserts an object into the second,
    which Close has not come to. *)
Definition made : list dvis :=
  [ DvCall 0 (DCreate cx); DvRet 0 (DCreate cx) (QColl (Val 0)); DvCall 0 (DCreate cy); DvRet 0 (DCreate cy) (QColl (Val 1)) ].
Definition halfway : list dmove :=
  making ++ [ DmOwn 3 0 DClose; DmShut 0 0; DmOn 0 (MGo 5 0 CClose 0); DmOn 0 (MGo 9 1 (CGet [0%N]) 0); DmOn 1 (MGo 99 1 (CInsert true 0 pt) 0);
    DmShut 1 0; DmOn 1 (MGo 5 0 CClose 0); DmOwn 3 0 DClose ].
Definition halfway_trace : list dvis :=
  made ++ [ DvCall 0 DClose; DvShut 0 (VCall 0 CClose); DvShut 0 (VRet 0 (RUnit (Val tt)));
    DvOn 0 (VCall 1 (CGet [0%N])); DvOn 0 (VRet 1 (RGet (Err ECollectionClosed)));
    DvOn 1 (VCall 1 (CInsert true 0 pt)); DvOn 1 (VRet 1 (RIns (Val pt)));
    DvShut 1 (VCall 0 CClose); DvShut 1 (VRet 0 (RUnit (Val tt))) ].
Lemma ran {A} (f : cdb -> A) mvs m0 vs a : (fun p => (p.1, f p.2)) <$> xexec mvs m0 = Some (vs, a) -> exists m, xrun m0 vs m /\ xexec mvs m0 = Some (vs, m) /\ f m = a.
Proof.
  destruct (xexec mvs m0) as [[vs' m]|] eqn:E; cbn; [|done]. intros H. apply (inj Some) in H. apply pair_equal_spec in H as [-> Hf].
  exists m. split; [by eapply d_exec_run|done].
Qed.
Ltac no_in := let H := fresh in intros H; repeat (apply elem_of_cons in H as [H|H]; [discriminate H|]); by apply elem_of_nil in H.
Lemma halfway_ran : exists m, xrun (cd_start fresh_db 4) (halfway_trace ++ [DvRet 0 DClose (QUnit (Val tt))]) m /\
  xexec halfway (cd_start fresh_db 4) = Some (halfway_trace ++ [DvRet 0 DClose (QUnit (Val tt))], m) /\
  (db_colls (cd_db m) !! "x"%string, db_colls (cd_db m) !! "y"%string, hd_cfg <$> db_handles (cd_db m) !! 1) = (Some 0, Some 1, Some cy).
Proof. apply (ran (fun m => (db_colls (cd_db m) !! "x"%string, db_colls (cd_db m) !! "y"%string, hd_cfg <$> db_handles (cd_db m) !! 1))). vm_compute. reflexivity. Qed.
Lemma halfway_no_user_close : no_user_close (halfway_trace ++ [DvRet 0 DClose (QUnit (Val tt))]).
Proof. intros h i. unfold halfway_trace, made. cbn [app]. no_in. Qed.

(** The full claim: a Close that returns nil closes all collections at one
    moment.  Goroutine [j] has seen one collection closed, before it makes a
    call on another one that succeeds. *)
Theorem C103_close_is_one_step_refuted : exists v1 v2 v3 m h1 h2 j o,
  xrun (cd_start fresh_db 4) (v1 ++ DvCall 0 DClose ::
    (v2 ++ [DvOn h1 (VRet j (RGet (Err ECollectionClosed))); DvOn h2 (VCall j (CInsert true 0 o)); DvOn h2 (VRet j (RIns (Val o)))] ++ v3) ++
    [DvRet 0 DClose (QUnit (Val tt))]) m /\
  (forall i, DvCall i DClose ∉ v1) /\ no_user_close (v1 ++ v2 ++ v3) /\
  db_colls (cd_db m) !! "x"%string = Some h1 /\ db_colls (cd_db m) !! "y"%string = Some h2.
Proof.
  destruct halfway_ran as (m & Hr & _ & Hf). injection Hf as H1 H2 H3.
  exists made, [DvShut 0 (VCall 0 CClose); DvShut 0 (VRet 0 (RUnit (Val tt))); DvOn 0 (VCall 1 (CGet [0%N]))],
    [DvShut 1 (VCall 0 CClose); DvShut 1 (VRet 0 (RUnit (Val tt)))], m, 0, 1, 1, pt.
  split; [exact Hr|]. split; [intros i; unfold made; no_in|]. split; [intros h i; unfold made; cbn [app]; no_in|done].
Qed.
Print Assumptions C103_close_is_one_step_refuted.

(** Goroutines 0 and 2 want to create the same collection; 1 deletes it, and 2
    tries again. *)
Definition contend : list dmove :=
  [ DmOwn 1 0 (DCreate cx); DmOwn 1 2 (DCreate cx); DmOwn 4 0 DClose; DmOwn 4 2 DClose; DmOwn 1 2 (DCreate cx); DmOwn 5 1 (DDelete "x"); DmOwn 4 2 DClose ].
Definition contend_trace : list dvis :=
  [ DvCall 0 (DCreate cx); DvCall 2 (DCreate cx) ] ++ DvRet 0 (DCreate cx) (QColl (Val 0)) ::
  [ DvRet 2 (DCreate cx) (QColl (Err ECollectionExists)); DvCall 2 (DCreate cx); DvCall 1 (DDelete "x"); DvRet 1 (DDelete "x") (QUnit (Val tt)) ] ++
  DvRet 2 (DCreate cx) (QColl (Val 1)) :: [].
Example C103_case : exists m m' x C v1 v2 v3,
  db_closed fresh_db = false /\ xrun (cd_start fresh_db 4) (halfway_trace ++ [DvRet 0 DClose (QUnit (Val tt))]) m /\
  db_handles (cd_db m) !! 1 = Some x /\ cparams_of no_embed ex_json 65536 2 50 (hd_cfg x) = Some C /\
  seen_in 1 (halfway_trace ++ [DvRet 0 DClose (QUnit (Val tt))]) =
    [VCall 1 (CInsert true 0 pt); VRet 1 (RIns (Val pt)); VCall 0 CClose; VRet 0 (RUnit (Val tt))] /\
  xrun (cd_start fresh_db 4) contend_trace m' /\
  contend_trace = v1 ++ DvRet 0 (DCreate cx) (QColl (Val 0)) :: v2 ++ DvRet 2 (DCreate cx) (QColl (Val 1)) :: v3.
Proof.
  destruct halfway_ran as (m & Hr & _ & Hf). injection Hf as H1 H2 H3.
  destruct (db_handles (cd_db m) !! 1) as [x|] eqn:Ex; [|done]. cbn in H3. injection H3 as H3.
  assert (exists m', xrun (cd_start fresh_db 4) contend_trace m') as [m' Hr'].
  { destruct (ran (fun _ => tt) contend (cd_start fresh_db 4) contend_trace tt) as (m' & ? & _); [vm_compute; reflexivity|by exists m']. }
  eexists m, m', x, _, _, _, _. split; [done|]. split; [exact Hr|]. split; [exact Ex|]. split; [rewrite H3; reflexivity|]. split; [reflexivity|].
  split; [exact Hr'|]. unfold contend_trace. reflexivity.
Qed.

(** After Close has returned: each of the calls, and a search. *)
Definition afterwards : list dmove :=
  [ DmOwn 5 1 (DCreate (ok_cfg "z" [])); DmOwn 5 2 (DDelete "x"); DmOwn 5 3 (DGet "x"); DmOwn 4 1 (DConfig 0); DmOwn 5 2 (DRest "x"); DmOwn 8 0 DClose;
    DmOn 0 (MGo 9 1 (CInsert true 0 pt) 0); DmOn 1 (MGo 9 2 (CGet [0%N]) 0) ].
Definition afterwards_trace : list dvis :=
  [ DvCall 1 (DCreate (ok_cfg "z" [])); DvRet 1 (DCreate (ok_cfg "z" [])) (QColl (Err EDatabaseClosed)); DvCall 2 (DDelete "x"); DvRet 2 (DDelete "x") (QUnit (Err EDatabaseClosed));
    DvCall 3 (DGet "x"); DvRet 3 (DGet "x") (QColl (Err EDatabaseClosed)); DvCall 1 (DConfig 0); DvRet 1 (DConfig 0) (QConf (Err ECollectionClosed)) ] ++
  DvCall 2 (DRest "x") :: [] ++ DvRet 2 (DRest "x") (QRest (500%N, PError EDatabaseClosed)) :: 
  [ DvCall 0 DClose; DvRet 0 DClose (QUnit (Val tt));
    DvOn 0 (VCall 1 (CInsert true 0 pt)); DvOn 0 (VRet 1 (RIns (Err ECollectionClosed))); DvOn 1 (VCall 2 (CGet [0%N])); DvOn 1 (VRet 2 (RGet (Err ECollectionClosed))) ].
Example C104_case : exists m1 m2 v3 v4 v5,
  db_closed fresh_db = false /\ xrun (cd_start fresh_db 4) (halfway_trace ++ [DvRet 0 DClose (QUnit (Val tt))]) m1 /\
  no_user_close (halfway_trace ++ [DvRet 0 DClose (QUnit (Val tt))]) /\ xrun m1 afterwards_trace m2 /\
  afterwards_trace = v3 ++ DvCall 2 (DRest "x") :: v4 ++ DvRet 2 (DRest "x") (QRest (500%N, PError EDatabaseClosed)) :: v5 /\ no_dret 2 v4 /\
  db_colls (cd_db m1) !! "y"%string = Some 1 /\ seen_in 1 afterwards_trace = [] ++ VCall 2 (CGet [0%N]) :: [] ++ VRet 2 (RGet (Err ECollectionClosed)) :: [] /\ no_return 2 [].
Proof.
  destruct halfway_ran as (m & Hr & He & Hf). injection Hf as H1 H2 H3.
  assert (fst <$> xexec (halfway ++ afterwards) (cd_start fresh_db 4) = Some ((halfway_trace ++ [DvRet 0 DClose (QUnit (Val tt))]) ++ afterwards_trace)) as H by (vm_compute; reflexivity).
  rewrite d_exec_app, He in H. destruct (xexec afterwards m) as [[vs m2]|] eqn:E; [|discriminate H]. apply d_exec_run in E.
  cbn [fmap option_fmap option_map fst] in H. apply (inj Some), app_inv_head in H. subst vs.
  eexists m, m2, _, [], _. split; [done|]. split; [exact Hr|]. split; [exact halfway_no_user_close|]. split; [exact E|].
  split; [reflexivity|]. split; [intros c q Hin; by apply elem_of_nil in Hin|]. split; [done|]. split; [reflexivity|]. intros r Hin. by apply elem_of_nil in Hin.
Qed.

(** The full claim: Close returns nil.  Goroutine 0 has asked whether the
    first collection is closed and is about to close it when goroutine 1 does.
    Close fails: the database is not closed, nor is the second collection,
    but the metadata are, so that nothing can be created any more. *)
Definition race : list dmove :=
  making ++ [ DmOwn 3 0 DClose; DmShut 0 0; DmOn 0 (MGo 5 1 CClose 0); DmOn 0 (MGo 5 0 CClose 0); DmOwn 2 0 DClose;
    DmOn 1 (MGo 99 1 (CInsert true 0 pt) 0); DmOwn 5 0 (DCreate (ok_cfg "z" [])) ].
Theorem C104_close_succeeds_refuted : exists vs m x,
  xrun (cd_start fresh_db 4) vs m /\ DvRet 0 DClose (QUnit (Err EFileClosed)) ∈ vs /\
  db_closed (cd_db m) = false /\ db_handles (cd_db m) !! 1 = Some x /\ closed (hd_st x) = false /\
  (exists v1 v2, vs = v1 ++ DvRet 0 DClose (QUnit (Err EFileClosed)) :: v2 /\ DvOn 1 (VRet 1 (RIns (Val pt))) ∈ v2 /\
    DvRet 0 (DCreate (ok_cfg "z" [])) (QColl (Err EIO)) ∈ v2) /\
  documented (ok_cfg "z" []) /\ plain (ok_cfg "z" []) /\ db_colls (cd_db m) !! "z"%string = None.
Proof.
  destruct (ran (fun m => (db_closed (cd_db m), closed <$> (hd_st <$> db_handles (cd_db m) !! 1), db_colls (cd_db m) !! "z"%string)) race (cd_start fresh_db 4)
    (made ++ [ DvCall 0 DClose; DvShut 0 (VCall 0 CClose); DvOn 0 (VCall 1 CClose); DvOn 0 (VRet 1 (RUnit (Val tt))); DvShut 0 (VRet 0 (RUnit (Err EFileClosed))) ] ++
     DvRet 0 DClose (QUnit (Err EFileClosed)) ::
     [ DvOn 1 (VCall 1 (CInsert true 0 pt)); DvOn 1 (VRet 1 (RIns (Val pt))); DvCall 0 (DCreate (ok_cfg "z" [])); DvRet 0 (DCreate (ok_cfg "z" [])) (QColl (Err EIO)) ])
    (false, Some false, None)) as (m & Hr & _ & Hf); [vm_compute; reflexivity|].
  injection Hf as H1 H2 H3. destruct (db_handles (cd_db m) !! 1) as [x|] eqn:Ex; [|done]. cbn in H2. injection H2 as H2.
  eexists _, m, x. split; [exact Hr|]. split; [set_solver|]. split; [done|]. split; [done|]. split; [done|].
  split; [|split; [by apply ok_documented|split; [|done]]].
  - eexists _, _. split; [rewrite app_assoc; reflexivity|]. split; set_solver.
  - apply ok_plain; [cbn; intuition discriminate|done..].
Qed.
Print Assumptions C104_close_succeeds_refuted.

(** The full claim of C105: the answer is the one of a moment of the call.
    Goroutine 1 has found the collection; goroutine 0 deletes it and then
    closes it; goroutine 1 answers 500.  At no moment was there a closed
    collection of that name. *)
Definition not_answer (m : cdb) : bool :=
  match rest_get "x" (cd_db m) with Some (500%N, PError ECollectionClosed) => false | _ => true end.
Definition never (m : cdb) : Prop := rest_get "x" (cd_db m) <> Some (500%N, PError ECollectionClosed).
Lemma never_spec m : not_answer m = true -> never m.
Proof. unfold not_answer, never. intros H E. by rewrite E in H. Qed.
Definition calm_own (n i : nat) (c : dcall) (m : cdb) : bool :=
  not_answer m && forallb (fun k => match d_own (S k) i c m with Some (_, m1) => not_answer m1 | None => true end) (seq 0 n).
Lemma calm_path n i c m vs m' : calm_own n i c m = true -> d_own n i c m = Some (vs, m') -> cd_path no_embed ex_json 65536 2 50 never m vs m'.
Proof.
  intros [H1 H2]%andb_true_iff. apply d_own_path; [by apply never_spec|]. intros k v m1 Hk E. rewrite forallb_forall in H2.
  specialize (H2 k). rewrite E in H2. apply never_spec, H2, in_seq. lia.
Qed.
Definition after (l : list dmove) (m : cdb) : cdb := match xexec l m with Some (_, m') => m' | None => m end.
Definition r0 : cdb := Eval vm_compute in after making (cd_start fresh_db 4).
Definition r1 : cdb := Eval vm_compute in after [ DmOwn 4 1 (DRest "x") ] r0.
Definition r2 : cdb := Eval vm_compute in after [ DmOwn 5 0 (DDelete "x") ] r1.
Definition r3 : cdb := Eval vm_compute in after [ DmOn 0 (MGo 5 0 CClose 0) ] r2.
Definition r4 : cdb := Eval vm_compute in after [ DmOwn 2 1 DClose ] r3.
Theorem C105_rest_get_refuted : exists v1 v2 m0 m a,
  xrun (cd_start fresh_db 4) v1 m0 /\
  cd_path no_embed ex_json 65536 2 50 (fun m => rest_get "x" (cd_db m) <> Some a) m0 (DvCall 1 (DRest "x") :: v2 ++ [DvRet 1 (DRest "x") (QRest a)]) m.
Proof.
  exists made, [DvCall 0 (DDelete "x"); DvRet 0 (DDelete "x") (QUnit (Val tt)); DvOn 0 (VCall 0 CClose); DvOn 0 (VRet 0 (RUnit (Val tt)))],
    r0, r4, (500%N, PError ECollectionClosed). split.
  - destruct (ran (fun m => m) making (cd_start fresh_db 4) made r0) as (m & Hr & _ & <-); [vm_compute; reflexivity|exact Hr].
  - change (cd_path no_embed ex_json 65536 2 50 never r0 ([DvCall 1 (DRest "x")] ++ [DvCall 0 (DDelete "x"); DvRet 0 (DDelete "x") (QUnit (Val tt))] ++
      [DvOn 0 (VCall 0 CClose); DvOn 0 (VRet 0 (RUnit (Val tt)))] ++ [DvRet 1 (DRest "x") (QRest (500%N, PError ECollectionClosed))]) r4).
    eapply cd_path_app; [apply (calm_path 4 1 (DRest "x") r0 _ r1); vm_compute; reflexivity|].
    eapply cd_path_app; [apply (calm_path 5 0 (DDelete "x") r1 _ r2); vm_compute; reflexivity|].
    eapply cd_path_app; [|apply (calm_path 2 1 DClose r3 _ r4); vm_compute; reflexivity].
    eapply (d_on_path _ _ _ _ _ never 0 (MGo 5 0 CClose 0)); [|vm_compute; reflexivity].
    intros x s sd gs. unfold never, rest_get. replace (get_collection "x" (cd_db (CDB (use 0 x s (cd_db r2)) sd (cd_meta r2) gs))) with (@Err nat (EValidation ECollectionMissing)); [done|].
    symmetry. vm_compute. reflexivity.
Qed.
Print Assumptions C105_rest_get_refuted.

(** A request that finds the collection and answers with its configuration
    after the collection has been deleted. *)
Example C105_case : exists m v2 q,
  db_closed fresh_db = false /\ pointed fresh_db /\
  xrun (cd_start fresh_db 4) (made ++ DvCall 1 (DRest "x") :: v2 ++ [DvRet 1 (DRest "x") q]) m /\ no_dret 1 v2 /\
  DvRet 0 (DDelete "x") (QUnit (Val tt)) ∈ v2 /\ q = QRest (200%N, PConfig cx).
Proof.
  destruct (ran (fun _ => tt) (making ++ [ DmOwn 4 1 (DRest "x"); DmOwn 5 0 (DDelete "x"); DmOwn 2 1 DClose ]) (cd_start fresh_db 4)
    (made ++ DvCall 1 (DRest "x") :: [DvCall 0 (DDelete "x"); DvRet 0 (DDelete "x") (QUnit (Val tt))] ++ [DvRet 1 (DRest "x") (QRest (200%N, PConfig cx))]) tt)
    as (m & Hr & _); [vm_compute; reflexivity|].
  eexists m, _, _. split; [done|]. split; [intros n h Hn; cbn in Hn; by rewrite lookup_empty in Hn|]. split; [exact Hr|].
  split; [intros c q; no_in|]. split; [right; left|done].
Qed.

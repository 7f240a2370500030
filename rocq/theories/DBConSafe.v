(** Many goroutines using one database: somebody can always go on, and the
    calls come to an end. *)
From stdpp Require Import relations.
From Verif Require Import GoBase FloatModel HeapModel ProgModel StateModel WalModel HnswModel StoreModel CollModel CallModel LinModel EarlyModel DBModel DBConModel DBConSpec
  ProofBase WpProofs IndexProofs StepProofs StoreProofs LinProofs LinTrace LinSafe EarlyTrace EarlyClose DBProofs DBConProofs DBConTrace DBConAtomic.
Open Scope nat_scope.

(** ** What the callers do *)
(** No new call, of the database or of a collection. *)
Definition no_new (vs : list dvis) : Prop := (forall i c, DvCall i c ∉ vs) /\ (forall h i c, DvOn h (VCall i c) ∉ vs).
(** Waiting for Lock of db.mu, and going ahead of those who do. *)
Definition wants_db (g : gor) : Prop := match g with GCall (DCreate _) | GCall (DDelete _) | GCall DClose => True | _ => False end.
Definition d_overtakes (gs gs' : list gor) : Prop :=
  (exists j g, gs !! j = Some g /\ wants_db g) /\ exists i c, gs !! i = Some (GCall c) /\ gs' !! i = Some (GShare c).
(** What a call of the database answers is not a panic. *)
Definition dreply_no_pan (q : dreply) : Prop :=
  match q with QColl (Pan _) | QUnit (Pan _) | QConf (Pan _) => False | _ => True end.

(** ** Runs without workers left behind *)
Lemma estep_groups C m vs m' : estep C m vs m' -> length m.2 <= length m'.2.
Proof. intros H. inversion H; subst; cbn; rewrite ?insert_length, ?app_length; cbn; lia. Qed.
Lemma erun_con C m vs m' : erun C m vs m' -> m'.2 = [] -> m.2 = [] /\ con_run C m.1 vs m'.1.
Proof.
  induction 1 as [m|m v1 m1 v2 m2 Hr IH Hs]; intros E; [split; [done|constructor]|].
  pose proof (estep_groups _ _ _ _ Hs) as Hl. rewrite E in Hl. cbn in Hl. destruct (IH ltac:(destruct (m1.2); [done|cbn in Hl; lia])) as [E0 Hc]. split; [done|].
  assert (E1 : m1.2 = []) by (destruct (m1.2); [done|cbn in Hl; lia]).
  inversion Hs; subst; cbn [fst snd] in *; subst; try done. by eapply ConSnoc.
Qed.

(** What a step in a collection does to its goroutines. *)
Lemma estep_slots C s ts ws vs s' ts' ws' : estep C (s, ts, ws) vs (s', ts', ws') ->
  (vs = [] /\ (ts' = ts \/ exists i t t', ts !! i = Some t /\ t <> TIdle /\ t' <> TIdle /\ ts' = <[i := t']> ts)) \/
  (exists i c, vs = [VCall i c] /\ ts !! i = Some TIdle /\ ts' = <[i := TCall c]> ts) \/
  (exists i r, vs = [VRet i r] /\ ts !! i = Some (TRet r) /\ ts' = <[i := TIdle]> ts).
Proof.
  intros H. inversion H as [? ? ? ? ? ? Hc| | | |]; subst.
  - inversion Hc as [? ? i t ? ? t' Hi Ht]; subst. inversion Ht; subst.
    all: try (left; split; [done|]; right; eexists i, _, _; split; [exact Hi|]; split; [|split; [|reflexivity]]; done).
    + right; left. eexists i, _. by split_and!.
    + right; right. eexists i, _. by split_and!.
  - left. split; [done|]. right. eexists i, _, _. split; [eassumption|]. split; [|split; [|reflexivity]]; done.
  - left. split; [done|]. right. eexists i, _, _. split; [eassumption|]. split; [|split; [|reflexivity]]; done.
  - left. split; [done|]. right. eexists i, _, _. split; [eassumption|]. split; [|split; [|reflexivity]]; done.
  - left. split; [done|]. by left.
Qed.

(** ** Who is where *)
Definition in_of (g : gor) : option nat := match g with GUse h | GShut h _ => Some h | _ => None end.
Definition refs (g : gor) : list nat :=
  match g with
  | GUse h => [h]
  | GLoop todo => todo
  | GShut h todo => h :: todo
  | GFound (DRest _) (inr h) | GConf (DRest _) h => [h]
  | _ => []
  end.
Definition shape (g : gor) : Prop :=
  match g with
  | GLock (DCreate _) | GLock (DDelete _) | GLock DClose => True
  | GLock _ => False
  | GShare (DGet _) | GShare (DRest _) => True
  | GShare _ => False
  | GFound (DRest _) (inr _) => True
  | GFound _ (inr _) => False
  | GConf (DRest _) _ => True
  | GConf (DConfig h) h' => h = h'
  | GConf _ _ => False
  | _ => True
  end.

Section safe.
  Context (env_embed : string -> jval -> embedder) (J : json) (maxv : N) (workers fuel : nat).
  Notation params c := (cparams_of env_embed J maxv workers fuel c).
  Notation cd_step := (cd_step env_embed J maxv workers fuel).
  Notation cd_run := (cd_run env_embed J maxv workers fuel).

  Record link (m : cdb) : Prop := MkLink {
    k_ts : forall h ts ws, cd_side m !! h = Some (ts, ws) -> length ts = length (cd_gs m);
    k_in : forall h ts ws i g t, cd_side m !! h = Some (ts, ws) -> cd_gs m !! i = Some g -> ts !! i = Some t -> (t <> TIdle <-> in_of g = Some h);
    k_ok : forall i g, cd_gs m !! i = Some g -> shape g /\ Forall (fun h => h < length (db_handles (cd_db m))) (refs g)
  }.
  Lemma link_start D n : link (cd_start D n).
  Proof.
    split; cbn [cd_start cd_side cd_db cd_gs].
    - intros h ts ws [E _]%lookup_replicate. injection E as -> _. by rewrite !replicate_length.
    - intros h ts ws i g t [E _]%lookup_replicate [-> _]%lookup_replicate. injection E as -> _. intros [-> _]%lookup_replicate. split; [done|by intros [=]].
    - intros i g [-> _]%lookup_replicate. split; [done|constructor].
  Qed.

  Lemma own_len D meta gs i g vs D' meta' g' : own_step D meta gs i g vs D' meta' g' -> length (db_handles D) <= length (db_handles D').
  Proof. intros Ho. destruct (own_grows _ _ _ _ _ _ _ _ _ Ho) as ([E|c E] & _); rewrite E; rewrite ?app_length; lia. Qed.
  Lemma own_in D meta gs i g vs D' meta' g' : own_step D meta gs i g vs D' meta' g' -> in_of g = None /\ in_of g' = None.
  Proof. intros Ho. by inversion Ho. Qed.
  Lemma own_refs D meta gs i g vs D' meta' g' : own_step D meta gs i g vs D' meta' g' -> pointed D -> shape g ->
    Forall (fun h => h < length (db_handles D)) (refs g) -> shape g' /\ Forall (fun h => h < length (db_handles D)) (refs g').
  Proof.
    intros Ho Hp Hs Hr. destruct Ho as [|c Hc| | |todo Ht| | | |c Hc| |n h Hg| | |c h| | | |]; try (by split; [|constructor]).
    - split; [done|]. cbn. rewrite Forall_forall. intros h Hh. rewrite Ht in Hh. apply elem_of_list_fmap in Hh as ([n h'] & -> & Hh).
      apply elem_of_map_to_list in Hh. apply lookup_lt_is_Some. by apply (Hp n).
    - split; [done|]. cbn in *. by inversion Hr.
    - split; [done|]. cbn. constructor; [|constructor]. unfold get_collection in Hg. destruct (db_closed D); [done|].
      destruct (db_colls D !! n) as [h0|] eqn:E; [|done]. injection Hg as ->. apply lookup_lt_is_Some. by apply (Hp n).
    - destruct c; try done; split; done.
  Qed.
  Lemma link_step m vs m' : cd_step m vs m' -> length (cd_side m) = length (db_handles (cd_db m)) -> pointed (cd_db m) -> link m -> link m'.
  Proof.
    intros Hs Hl Hp [H1 H2 H3]. inversion Hs as [D sd meta gs i g v D' meta' g' Hi Ho|D sd meta gs k y C ts1 ws1 v s' ts' ws' dvs gs' Hy Hd HC He Hev]; subst; cbn [cd_db cd_side cd_gs] in *.
    - pose proof (own_len _ _ _ _ _ _ _ _ _ Ho) as Hle. destruct (own_in _ _ _ _ _ _ _ _ _ Ho) as [I1 I2]. pose proof (lookup_lt_Some _ _ _ Hi) as Hlt.
      split; cbn [cd_db cd_side cd_gs].
      + intros h ts ws Hh. rewrite insert_length. apply lookup_app_Some in Hh as [Hh|[_ [Hh _]%lookup_replicate]]; [by eapply H1|].
        unfold unused in Hh. injection Hh as -> _. by rewrite replicate_length.
      + intros h ts ws j u t Hh Hj Ht. assert (exists u0, gs !! j = Some u0 /\ in_of u = in_of u0) as (u0 & Hj0 & E).
        { destruct (decide (j = i)) as [->|Hne]; [|rewrite list_lookup_insert_ne in Hj by done; by exists u].
          rewrite list_lookup_insert in Hj by done. injection Hj as <-. exists g. by rewrite I1. }
        rewrite E. apply lookup_app_Some in Hh as [Hh|[Hge [Hh _]%lookup_replicate]]; [by eapply H2|].
        unfold unused in Hh. injection Hh as -> _. apply lookup_replicate in Ht as [-> _]. split; [done|]. intros Hin.
        destruct (H3 _ _ Hj0) as [_ Hr]. destruct u0; try done; cbn in Hin; injection Hin as ->; cbn in Hr; apply Forall_cons in Hr as [Hr _]; lia.
      + intros j u Hj. assert (shape u /\ Forall (fun h => h < length (db_handles D)) (refs u)) as [A B].
        { destruct (decide (j = i)) as [->|Hne]; [|rewrite list_lookup_insert_ne in Hj by done; by eapply H3].
          rewrite list_lookup_insert in Hj by done. injection Hj as <-. destruct (H3 _ _ Hi) as [A B]. by eapply own_refs. }
        split; [done|]. eapply Forall_impl; [exact B|]. cbn. intros; lia.
    - assert (Hk : k < length sd) by (by eapply lookup_lt_Some).
      assert (Hlen : length gs' = length gs) by (by eapply on_len).
      assert (Hlt' : length ts' = length ts1).
      { destruct (estep_slots _ _ _ _ _ _ _ _ He) as [[_ [->|(? & ? & ? & ? & ? & ? & ->)]]|[(? & ? & ? & ? & ->)|(? & ? & ? & ? & ->)]]; by rewrite ?insert_length. }
      split; cbn [cd_db cd_side cd_gs].
      + intros h ts ws Hh. rewrite Hlen. destruct (decide (h = k)) as [->|Hne]; [|rewrite list_lookup_insert_ne in Hh by done; by eapply H1].
        rewrite list_lookup_insert in Hh by done. injection Hh as <- <-. rewrite Hlt'. by eapply H1.
      + intros h ts ws j u t Hh Hj Ht. destruct (decide (h = k)) as [->|Hne].
        * rewrite list_lookup_insert in Hh by done. injection Hh as <- <-.
          destruct (estep_slots _ _ _ _ _ _ _ _ He) as [[-> Hsl]|[(i & c & -> & Hti & ->)|(i & r & -> & Hti & ->)]].
          -- inversion Hev; subst. assert (exists t0, ts1 !! j = Some t0 /\ (t <> TIdle <-> t0 <> TIdle)) as (t0 & Ht0 & E).
             { destruct Hsl as [->|(i & t1 & t2 & Hi & N1 & N2 & ->)]; [by exists t|].
               destruct (decide (j = i)) as [->|Hne]; [|rewrite list_lookup_insert_ne in Ht by done; by exists t].
               rewrite list_lookup_insert in Ht by (by eapply lookup_lt_Some). injection Ht as <-. by exists t1. }
             rewrite E. by eapply H2.
          -- destruct (decide (j = i)) as [->|Hne].
             ++ rewrite list_lookup_insert in Ht by (by eapply lookup_lt_Some). injection Ht as <-.
                inversion Hev as [|? ? ? Hg| |? ? ? Hg| |]; subst; rewrite list_lookup_insert in Hj by (by eapply lookup_lt_Some); by injection Hj as <-.
             ++ rewrite list_lookup_insert_ne in Ht by done. inversion Hev; subst; rewrite list_lookup_insert_ne in Hj by done; by eapply H2.
          -- destruct (decide (j = i)) as [->|Hne].
             ++ rewrite list_lookup_insert in Ht by (by eapply lookup_lt_Some). injection Ht as <-.
                inversion Hev as [| |? ? ? Hg| |? ? ? Hg|? ? ? ? Hg]; subst; rewrite list_lookup_insert in Hj by (by eapply lookup_lt_Some); by injection Hj as <-.
             ++ rewrite list_lookup_insert_ne in Ht by done. inversion Hev; subst; rewrite list_lookup_insert_ne in Hj by done; by eapply H2.
        * rewrite list_lookup_insert_ne in Hh by done.
          inversion Hev as [|gs0 i c Hg|gs0 i r Hg|gs0 i todo Hg|gs0 i todo Hg|gs0 i todo e Hg]; subst; [by eapply H2|..].
          all: destruct (decide (j = i)) as [->|Hnj]; [|rewrite list_lookup_insert_ne in Hj by done; by eapply H2].
          all: rewrite list_lookup_insert in Hj by (by eapply lookup_lt_Some); injection Hj as <-; rewrite (H2 _ _ _ _ _ _ Hh Hg Ht); cbn; split; [done || (intros [=]; congruence)|intros [=]; congruence].
      + intros j u Hj. cbn [use db_handles]. rewrite insert_length.
        inversion Hev as [|gs0 i c Hg|gs0 i r Hg|gs0 i todo Hg|gs0 i todo Hg|gs0 i todo e Hg]; subst; [by eapply H3|..].
        all: destruct (decide (j = i)) as [->|Hnj]; [|rewrite list_lookup_insert_ne in Hj by done; by eapply H3].
        all: rewrite list_lookup_insert in Hj by (by eapply lookup_lt_Some); injection Hj as <-; destruct (H3 _ _ Hg) as [_ Hr]; (split; [done|]); cbn in *.
        -- constructor; [lia|constructor].
        -- constructor.
        -- done.
        -- by inversion Hr.
        -- constructor.
  Qed.
  Lemma link_run m vs m' : cd_run m vs m' -> jinv m -> pointed (cd_db m) -> link m -> link m'.
  Proof.
    induction 1 as [m|m v1 m1 v2 m2 Hr IH Hs]; intros HJ Hp HL; [done|]. eapply link_step; [exact Hs| | |by apply IH].
    - apply j_len. by eapply jinv_run.
    - by eapply pointed_run.
  Qed.
  (** ** Whose call it is *)
  Definition call_of (g : gor) : option dcall :=
    match g with
    | GCall c | GLock c | GEnd c _ | GShare c | GFound c _ | GConf c _ | GRet c _ => Some c
    | GLoop _ | GShut _ _ => Some DClose
    | GIdle | GUse _ => None
    end.
  Lemma on_call_of h s vs gs dvs gs' i g' c : on_ev h s vs gs dvs gs' -> gs' !! i = Some g' -> call_of g' = Some c ->
    exists g, gs !! i = Some g /\ call_of g = Some c.
  Proof.
    intros Hev Hi Hc. inversion Hev as [|gs0 j c0 Hg|gs0 j r Hg|gs0 j todo Hg|gs0 j todo Hg|gs0 j todo e Hg]; subst; [by exists g'|..].
    all: (destruct (decide (i = j)) as [->|Hne]; [|rewrite list_lookup_insert_ne in Hi by done; by exists g']);
      rewrite list_lookup_insert in Hi by (by eapply lookup_lt_Some); injection Hi as <-; first [done|by (eexists; split; [exact Hg|])].
  Qed.
  Lemma called_run m vs m' : cd_run m vs m' -> (forall i g, cd_gs m !! i = Some g -> call_of g = None) ->
    forall i g c, cd_gs m' !! i = Some g -> call_of g = Some c -> DvCall i c ∈ vs.
  Proof.
    induction 1 as [m|m v1 m1 v2 m2 Hr IH Hs]; intros H0 i g c Hi Hc; [by rewrite (H0 _ _ Hi) in Hc|]. specialize (IH H0). apply elem_of_app.
    inversion Hs as [D sd meta gs j u v D' meta' u' Hj Ho|D sd meta gs k y C ts1 ws1 v s' ts' ws' dvs gs' Hy Hd HC He Hev]; subst; cbn [cd_db cd_side cd_gs] in *.
    - destruct (decide (i = j)) as [->|Hne]; [|rewrite list_lookup_insert_ne in Hi by done; left; by eapply IH].
      rewrite list_lookup_insert in Hi by (by eapply lookup_lt_Some). injection Hi as ->.
      destruct Ho; cbn in Hc; try discriminate Hc; try (left; eapply IH; [exact Hj|exact Hc]). injection Hc as ->. right. by left.
    - destruct (on_call_of _ _ _ _ _ _ _ _ _ Hev Hi Hc) as (g0 & Hg0 & Hc0). left. by eapply IH.
  Qed.

  (** ** No call of the database panics *)
  Lemma create_no_pan c b D D' r : do_create c b D = (D', r) -> dreply_no_pan (QColl r).
  Proof.
    unfold do_create. destruct b; [intros [= <- <-]; by destruct (create_shut_err c D) as [e ->]|].
    unfold create_collection. destruct (db_closed D); [by intros [= <- <-]|].
    destruct (validate c) as [|e|p] eqn:Ev; [|by intros [= <- <-]|by apply validate_no_pan in Ev].
    destruct (db_colls D !! cf_name c); [by intros [= <- <-]|].
    destruct (meta_create c D) as [D1 r1] eqn:E1. destruct r1 as [i|e|p]; [|by intros [= <- <-]|].
    - rewrite (meta_create_files _ _ _ _ E1). unfold new_collection.
      change (open_counter (d_cfile empty_disk)) with (Val 0%N : out N). cbn [mbind out_bind].
      destruct (String.eqb (cf_index c) "hnsw"); [|by intros [= <- <-]]. rewrite reopen_empty. cbn [mbind out_bind]. by intros [= <- <-].
    - exfalso. revert E1. unfold meta_create, mkdir. repeat case_match; done.
  Qed.
  Definition answer_of (g : gor) : option dreply :=
    match g with GEnd _ q | GFound _ (inl q) | GRet _ q => Some q | _ => None end.
  Lemma own_answer D meta gs i g vs D' meta' g' q : own_step D meta gs i g vs D' meta' g' -> answer_of g' = Some q ->
    answer_of g = Some q \/ dreply_no_pan q.
  Proof.
    intros Ho Hq. destruct Ho; cbn in Hq; try discriminate Hq; try (by left); try (injection Hq as <-; right).
    - by eapply create_no_pan.
    - destruct (do_delete n meta D) as [D1 r1] eqn:E. injection H as <- <-. revert E. unfold do_delete, delete_shut, delete_collection. repeat case_match; by intros [= <- <-].
    - done.
    - unfold get_collection. by repeat case_match.
    - done.
    - unfold get_config. by repeat case_match.
    - done.
  Qed.
  Lemma answers_run m vs m' : cd_run m vs m' -> (forall i g, cd_gs m !! i = Some g -> answer_of g = None) ->
    (forall i g q, cd_gs m' !! i = Some g -> answer_of g = Some q -> dreply_no_pan q) /\ forall i c q, DvRet i c q ∈ vs -> dreply_no_pan q.
  Proof.
    induction 1 as [m|m v1 m1 v2 m2 Hr IH Hs]; intros H0.
    { split; [intros i g q Hi Hq; by rewrite (H0 _ _ Hi) in Hq|intros i c q Hq; by apply elem_of_nil in Hq]. }
    destruct (IH H0) as [I1 I2]. inversion Hs as [D sd meta gs j u v D' meta' u' Hj Ho|D sd meta gs k y C ts1 ws1 v s' ts' ws' dvs gs' Hy Hd HC He Hev]; subst; cbn [cd_db cd_side cd_gs] in *.
    - split.
      + intros i g q Hi Hq. destruct (decide (i = j)) as [->|Hne]; [|rewrite list_lookup_insert_ne in Hi by done; by eapply I1].
        rewrite list_lookup_insert in Hi by (by eapply lookup_lt_Some). injection Hi as ->.
        destruct (own_answer _ _ _ _ _ _ _ _ _ _ Ho Hq) as [Hu|?]; [by eapply I1|done].
      + intros i c q [Hq|Hq]%elem_of_app; [by eapply I2|]. destruct Ho; try (by apply elem_of_nil in Hq); apply elem_of_list_singleton in Hq; [done|].
        injection Hq as -> -> ->. by eapply I1.
    - split.
      + intros i g q Hi Hq. inversion Hev as [|gs0 l c0 Hg|gs0 l r Hg|gs0 l todo Hg|gs0 l todo Hg|gs0 l todo e Hg]; subst; [by eapply I1|..].
        all: (destruct (decide (i = l)) as [->|Hne]; [|rewrite list_lookup_insert_ne in Hi by done; exact (I1 _ _ _ Hi Hq)]);
          rewrite list_lookup_insert in Hi by (by eapply lookup_lt_Some); injection Hi as <-; cbn in Hq; try done. by injection Hq as <-.
      + intros i c q [Hq|Hq]%elem_of_app; [by eapply I2|]. inversion Hev; subst; try (by apply elem_of_nil in Hq); by apply elem_of_list_singleton in Hq.
  Qed.

  (** ** Calls come to an end *)
  Definition d_busy (m m' : cdb) : Prop := exists vs, cd_step m vs m' /\ no_new vs.
  Definition group_less (g g' : group) : Prop := lstep g.2 g'.2.
  Definition eless (x x' : list client * list group) : Prop := exists C s s', estep C (s, x.1, x.2) [] (s', x'.1, x'.2).
  Lemma group_acc g : Acc (flip group_less) g.
  Proof. destruct g as [q ws]. revert q. induction (lstep_acc ws) as [ws _ IH]. intros q. constructor. intros [q' ws'] H. by apply IH. Qed.
  Lemma eless_acc x : Acc (flip eless) x.
  Proof.
    destruct x as [ts ws]. revert ws. induction (upd_acc tless tless_acc ts) as [ts _ IHt]. intros ws.
    induction (upd_acc group_less group_acc ws) as [ws _ IHw]. constructor. intros [ts' ws'] (C & s & s' & He). cbn [fst snd] in He.
    inversion He as [? ? ? ? ? ? Hc|? ? ? i ids Hi|? ? ? i o k Hi|? ? ? i c two io ws0 e Hi|? ? ? j q ws0 s1 ws1 Hj Hm]; subst.
    - inversion Hc as [? ? i t ? ? t' Hi Ht]; subst. apply IHt. exists i, t, t'. split; [done|]. split; [|done]. left. by eexists _, _, _, _, _, _.
    - apply IHt. eexists i, _, _. split; [exact Hi|]. split; [|reflexivity]. right; left. by eexists _, _.
    - apply IHt. eexists i, _, _. split; [exact Hi|]. split; [|reflexivity]. right; left. by eexists _, _.
    - apply IHt. eexists i, _, _. split; [exact Hi|]. split; [|reflexivity]. right; right. by eexists _, _, _, _, _.
    - apply IHw. eexists j, _, _. split; [exact Hj|]. split; [|reflexivity]. unfold group_less. cbn [snd].
      inversion Hm as [s0 ts0 i f s2 p' Hi Hf]; subst. exists i, (Step f), p'. split_and!; try done. by eexists f, _, _.
  Qed.
  Definition gless (g g' : gor) : Prop :=
    (exists D meta gs i vs D' meta', own_step D meta gs i g vs D' meta' g' /\ no_new vs) \/
    (exists h, g = GUse h /\ g' = GIdle) \/
    (exists h todo, g = GLoop (h :: todo) /\ g' = GShut h todo) \/
    (exists h todo, g = GShut h todo /\ (g' = GLoop todo \/ exists q, g' = GEnd DClose q)).
  Lemma gless_acc g : Acc (flip gless) g.
  Proof.
    assert (H0 : Acc (flip gless) GIdle).
    { constructor. intros g' [(D & meta & gs & i & vs & D' & meta' & H & Hn)|[(? & [=] & _)|[(? & ? & [=] & _)|(? & ? & [=] & _)]]].
      inversion H; subst. exfalso. eapply (proj1 Hn). by left. }
    assert (HR : forall c q, Acc (flip gless) (GRet c q)).
    { intros c q. constructor. intros g' [(D & meta & gs & i & vs & D' & meta' & H & Hn)|[(? & [=] & _)|[(? & ? & [=] & _)|(? & ? & [=] & _)]]].
      inversion H; subst. apply H0. }
    assert (HE : forall c q, Acc (flip gless) (GEnd c q)).
    { intros c q. constructor. intros g' [(D & meta & gs & i & vs & D' & meta' & H & Hn)|[(? & [=] & _)|[(? & ? & [=] & _)|(? & ? & [=] & _)]]].
      inversion H; subst. apply HR. }
    assert (HC : forall c h, Acc (flip gless) (GConf c h)).
    { intros c q. constructor. intros g' [(D & meta & gs & i & vs & D' & meta' & H & Hn)|[(? & [=] & _)|[(? & ? & [=] & _)|(? & ? & [=] & _)]]].
      inversion H; subst; apply HR. }
    assert (HF : forall c r, Acc (flip gless) (GFound c r)).
    { intros c q. constructor. intros g' [(D & meta & gs & i & vs & D' & meta' & H & Hn)|[(? & [=] & _)|[(? & ? & [=] & _)|(? & ? & [=] & _)]]].
      inversion H; subst; [apply HR|apply HC]. }
    assert (HS : forall c, Acc (flip gless) (GShare c)).
    { intros c. constructor. intros g' [(D & meta & gs & i & vs & D' & meta' & H & Hn)|[(? & [=] & _)|[(? & ? & [=] & _)|(? & ? & [=] & _)]]].
      inversion H; subst; apply HF. }
    assert (HL : forall todo, Acc (flip gless) (GLoop todo) /\ forall h, Acc (flip gless) (GShut h todo)).
    { induction todo as [|h todo [IH1 IH2]].
      - assert (Acc (flip gless) (GLoop [])) as A.
        { constructor. intros g' [(D & meta & gs & i & vs & D' & meta' & H & Hn)|[(? & [=] & _)|[(? & ? & [=] & _)|(? & ? & [=] & _)]]].
          inversion H; subst; apply HE. }
        split; [exact A|]. intros h. constructor.
        intros g' [(D & meta & gs & i & vs & D' & meta' & H & Hn)|[(? & [=] & _)|[(? & ? & [=] & _)|(h' & todo & E & [->|(q & ->)])]]]; [by inversion H| |apply HE].
        injection E as -> <-. exact A.
      - assert (Acc (flip gless) (GLoop (h :: todo))) as A.
        { constructor. intros g' [(D & meta & gs & i & vs & D' & meta' & H & Hn)|[(? & [=] & _)|[(h' & todo' & E & ->)|(? & ? & [=] & _)]]].
          - inversion H; subst. apply IH1.
          - injection E as -> ->. apply IH2. }
        split; [exact A|]. intros h'. constructor.
        intros g' [(D & meta & gs & i & vs & D' & meta' & H & Hn)|[(? & [=] & _)|[(? & ? & [=] & _)|(h2 & todo2 & E & [->|(q & ->)])]]]; [by inversion H| |apply HE].
        injection E as -> <-. exact A. }
    assert (HK : forall c, Acc (flip gless) (GLock c)).
    { intros c. constructor. intros g' [(D & meta & gs & i & vs & D' & meta' & H & Hn)|[(? & [=] & _)|[(? & ? & [=] & _)|(? & ? & [=] & _)]]].
      inversion H; subst; first [apply HE|apply HL]. }
    destruct g as [|h|c|c|todo|h todo|c q|c|c r|c h|c q]; [apply H0| | |apply HK|apply HL|apply HL|apply HE|apply HS|apply HF|apply HC|apply HR].
    - constructor. intros g' [(D & meta & gs & i & vs & D' & meta' & H & Hn)|[(? & _ & ->)|[(? & ? & [=] & _)|(? & ? & [=] & _)]]]; [by inversion H|apply H0].
    - constructor. intros g' [(D & meta & gs & i & vs & D' & meta' & H & Hn)|[(? & [=] & _)|[(? & ? & [=] & _)|(? & ? & [=] & _)]]].
      inversion H; subst; first [apply HK|apply HS|apply HC].
  Qed.
  Lemma d_busy_acc m : Acc (flip d_busy) m.
  Proof.
    destruct m as [D sd meta gs]. revert D sd meta. induction (upd_acc gless gless_acc gs) as [gs _ IHg]. intros D sd meta.
    revert D meta. induction (upd_acc eless eless_acc sd) as [sd _ IHs]. intros D meta. constructor. intros m' (vs & Hs & Hn).
    inversion Hs as [? ? ? ? i g v D' meta' g' Hi Ho|? ? ? ? k y C ts1 ws1 v s' ts' ws' dvs gs' Hy Hd HC He Hev]; subst.
    - apply IHg. exists i, g, g'. split; [done|]. split; [|done]. left. by eexists _, _, _, _, _, _, _.
    - inversion Hev as [|gs0 l c0 Hg|gs0 l r Hg|gs0 l todo Hg|gs0 l todo Hg|gs0 l todo e Hg]; subst.
      + apply IHs. eexists k, _, _. split; [exact Hd|]. split; [|reflexivity]. by eexists C, _, _.
      + exfalso. eapply (proj2 Hn). by left.
      + apply IHg. eexists l, _, _. split; [exact Hg|]. split; [|reflexivity]. right; left. by eexists.
      + apply IHg. eexists l, _, _. split; [exact Hg|]. split; [|reflexivity]. right; right; left. by eexists _, _.
      + apply IHg. eexists l, _, _. split; [exact Hg|]. split; [|reflexivity]. right; right; right. eexists _, _. split; [done|by left].
      + apply IHg. eexists l, _, _. split; [exact Hg|]. split; [|reflexivity]. right; right; right. eexists _, _. split; [done|right; by eexists].
  Qed.
  (** ** Somebody can go on *)
  (** A step in which no reader gets ahead of a waiting writer, at db.mu or at
      the c.mu of a collection. *)
  Definition d_polite (m m' : cdb) : Prop :=
    d_busy m m' /\ ~ d_overtakes (cd_gs m) (cd_gs m') /\
    forall h x C ts ws ts' ws', db_handles (cd_db m) !! h = Some x -> params (hd_cfg x) = Some C ->
      cd_side m !! h = Some (ts, ws) -> cd_side m' !! h = Some (ts', ws') -> ~ overtakes C ts ts'.
  (** It leaves no workers behind. *)
  Definition d_clean (m m' : cdb) : Prop :=
    forall h ts ws, cd_side m' !! h = Some (ts, ws) -> ws = [] \/ exists ts0, cd_side m !! h = Some (ts0, ws).
  Definition d_good (m : cdb) : Prop := exists m', d_polite m m' /\ d_clean m m'.

  Lemma overtakes_self C ts : ~ overtakes C ts ts.
  Proof. intros (_ & i & c & b & H1 & H2). congruence. Qed.
  Lemma own_moves m i g vs D' meta' g' : cd_gs m !! i = Some g -> own_step (cd_db m) (cd_meta m) (cd_gs m) i g vs D' meta' g' -> no_new vs ->
    (forall c, g = GCall c -> g' = GShare c -> forall j u, cd_gs m !! j = Some u -> ~ wants_db u) -> d_good m.
  Proof.
    destruct m as [D sd meta gs]. cbn [cd_db cd_meta cd_gs]. intros Hi Ho Hn Hw. eexists. split; [split; [eexists; split; [by eapply CdOwn|done]|split]|]; cbn [cd_db cd_side cd_gs].
    - intros ((j & u & Hj & Hu) & k & c & Hk & Hk'). destruct (decide (k = i)) as [->|Hne]; [|rewrite list_lookup_insert_ne in Hk' by done; congruence].
      rewrite list_lookup_insert in Hk' by (by eapply lookup_lt_Some). injection Hk' as ->. rewrite Hi in Hk. injection Hk as ->. by eapply (Hw c).
    - intros h x C ts ws ts' ws' Hx HC Hd Hd'. rewrite (sd_lookup _ _ _ _ Hd) in Hd'. injection Hd' as -> ->. apply overtakes_self.
    - intros h ts ws Hh. apply lookup_app_Some in Hh as [Hh|[_ [E _]%lookup_replicate]]; [right; by eexists|]. left. unfold unused in E. by injection E.
  Qed.
  Lemma on_moves m h x C ts ws s' ts' vs dvs gs' : db_handles (cd_db m) !! h = Some x -> cd_side m !! h = Some (ts, ws) -> params (hd_cfg x) = Some C ->
    con_step C (hd_st x, ts) vs (s', ts') -> ~ overtakes C ts ts' -> on_ev h (hd_st x) vs (cd_gs m) dvs gs' -> no_new dvs -> d_good m.
  Proof.
    destruct m as [D sd meta gs]. cbn [cd_db cd_side cd_gs]. intros Hx Hd HC Hs Ho Hev Hn. eexists. split; [split; [eexists; split; [eapply CdOn; [done|done|done|by apply EsClient|done]|done]|split]|]; cbn [cd_db cd_side cd_gs].
    - intros (_ & k & c & Hk & Hk'). inversion Hev as [|gs0 l c0 Hg|gs0 l r Hg|gs0 l todo Hg|gs0 l todo Hg|gs0 l todo e Hg]; subst; [congruence|..].
      all: (destruct (decide (k = l)) as [->|Hne]; [congruence|]); rewrite list_lookup_insert_ne in Hk' by done; congruence.
    - intros h' x' C' ts1 ws1 ts1' ws1' Hx' HC' Hd1 Hd1'. destruct (decide (h' = h)) as [->|Hne].
      + rewrite list_lookup_insert in Hd1' by (by eapply lookup_lt_Some). rewrite Hd in Hd1. rewrite Hx in Hx'. injection Hx' as <-. rewrite HC in HC'. injection HC' as <-.
        injection Hd1 as <- <-. injection Hd1' as <- <-. done.
      + rewrite list_lookup_insert_ne in Hd1' by done. rewrite Hd1 in Hd1'. injection Hd1' as <- <-. apply overtakes_self.
    - intros h' ts1 ws1 Hh. cbn [cd_side] in *. right. destruct (decide (h' = h)) as [->|Hne]; [|rewrite list_lookup_insert_ne in Hh by done; by eexists].
      rewrite list_lookup_insert in Hh by (by eapply lookup_lt_Some). injection Hh as <- <-. by eexists.
  Qed.

  (** A collection somebody is in. *)
  Lemma in_moves m h x C ts ws i g : jinv m -> link m -> db_handles (cd_db m) !! h = Some x -> cd_side m !! h = Some (ts, ws) -> params (hd_cfg x) = Some C ->
    at_rest ts \/ (exists m', polite_step C (hd_st x, ts) m') -> cd_gs m !! i = Some g -> in_of g = Some h -> d_good m.
  Proof.
    intros HJ [L1 L2 L3] Hx Hd HC Hp Hi Hin. destruct Hp as [Hr|([s' ts'] & (vs & Hs & Hc) & Ho)].
    { exfalso. assert (is_Some (ts !! i)) as [t Ht] by (apply lookup_lt_is_Some; rewrite (L1 _ _ _ Hd); by eapply lookup_lt_Some).
      pose proof (Forall_lookup_1 _ _ _ _ Hr Ht) as <-. by apply (proj2 (L2 _ _ _ _ _ _ Hd Hi Ht)). }
    cbn [snd] in Ho. destruct (estep_slots C _ _ _ _ _ _ _ (EsClient C _ _ ws _ _ _ Hs)) as [[-> _]|[(j & c & -> & _)|(j & r & -> & Htj & E)]]; [|done|].
    - eapply on_moves; [exact Hx|exact Hd|exact HC|exact Hs|exact Ho|apply OnNone|]. split; intros; by apply not_elem_of_nil.
    - assert (is_Some (cd_gs m !! j)) as [u Hu] by (apply lookup_lt_is_Some; rewrite <- (L1 _ _ _ Hd); by eapply lookup_lt_Some).
      assert (Huin : in_of u = Some h) by (apply (L2 _ _ _ _ _ _ Hd Hu Htj); done).
      destruct u as [|h'| | | |h' todo| | | | |]; try done; cbn in Huin; injection Huin as ->.
      + eapply on_moves; [exact Hx|exact Hd|exact HC|exact Hs|exact Ho|by apply OnRet|]. split; intros; by rewrite elem_of_list_singleton.
      + destruct m as [D sd meta gs]. cbn [cd_db cd_side cd_gs] in *.
        destruct (close_answers D sd meta gs h x C ts ws j todo r s' ts' ws HJ Hx Hd Hu (EsClient C _ _ ws _ _ _ Hs)) as [[-> _]| ->].
        * eapply on_moves; [exact Hx|exact Hd|exact HC|exact Hs|exact Ho|by eapply OnDone|]. split; intros; by rewrite elem_of_list_singleton.
        * eapply on_moves; [exact Hx|exact Hd|exact HC|exact Hs|exact Ho|by eapply OnFail|]. split; intros; by rewrite elem_of_list_singleton.
  Qed.

  Lemma no_new_nil : no_new [].
  Proof. split; intros; by apply not_elem_of_nil. Qed.
  Section progress.
    Context (m : cdb) (HJ : jinv m) (HL : link m) (Hp : pointed (cd_db m)).
    Context (Hconf : forall i h, cd_gs m !! i = Some (GConf (DConfig h) h) -> h < length (db_handles (cd_db m))).
    Context (Hcoll : forall h x ts ws, db_handles (cd_db m) !! h = Some x -> cd_side m !! h = Some (ts, ws) ->
      exists C, params (hd_cfg x) = Some C /\ (at_rest ts \/ exists m', polite_step C (hd_st x, ts) m')).

    Lemma has_coll h : h < length (db_handles (cd_db m)) -> exists x ts ws C, db_handles (cd_db m) !! h = Some x /\ cd_side m !! h = Some (ts, ws) /\
      params (hd_cfg x) = Some C /\ (at_rest ts \/ exists m', polite_step C (hd_st x, ts) m').
    Proof using HJ Hcoll.
      intros Hh. destruct (lookup_lt_is_Some_2 _ _ Hh) as [x Hx].
      assert (is_Some (cd_side m !! h)) as [[ts ws] Hd] by (apply lookup_lt_is_Some; by rewrite (j_len _ HJ)).
      destruct (Hcoll _ _ _ _ Hx Hd) as (C & HC & H). by exists x, ts, ws, C.
    Qed.
    (** One who is neither idle nor waiting for db.mu. *)
    Lemma active_moves i g : cd_gs m !! i = Some g -> g <> GIdle -> (forall c, g <> GCall c) -> d_good m.
    Proof using HJ HL Hp Hconf Hcoll.
      intros Hi Hni Hnc. destruct (k_ok _ HL _ _ Hi) as [Hs Hr].
      destruct g as [|h|c|c|todo|h todo|c q|c|c r|c h|c q]; try done; try (exfalso; by eapply Hnc).
      - cbn in Hr. apply Forall_cons in Hr as [Hr _]. destruct (has_coll _ Hr) as (x & ts & ws & C & Hx & Hd & HC & Hm). by eapply (in_moves m h x C ts ws i).
      - destruct c as [c|n|n| |h|n]; try done.
        + destruct (do_create c (cd_meta m) (cd_db m)) as [D' r] eqn:E. eapply own_moves; [exact Hi|by apply OwnCreate|apply no_new_nil|done].
        + destruct (do_delete n (cd_meta m) (cd_db m)) as [D' r] eqn:E. eapply own_moves; [exact Hi|by apply OwnDelete|apply no_new_nil|done].
        + eapply own_moves; [exact Hi|by apply OwnClose|apply no_new_nil|done].
      - destruct todo as [|h todo]; [eapply own_moves; [exact Hi|apply OwnClosed|apply no_new_nil|done]|].
        cbn in Hr. apply Forall_cons in Hr as [Hr _]. destruct (has_coll _ Hr) as (x & ts & ws & C & Hx & Hd & HC & Hm).
        destruct (closed (hd_st x)) eqn:Ec; [eapply own_moves; [exact Hi|by eapply OwnSkip|apply no_new_nil|done]|].
        assert (is_Some (ts !! i)) as [t Ht] by (apply lookup_lt_is_Some; rewrite (k_ts _ HL _ _ _ Hd); by eapply lookup_lt_Some).
        assert (t = TIdle) as ->.
        { pose proof (k_in _ HL _ _ _ _ _ _ Hd Hi Ht) as [H _]. destruct t; try done; by discriminate H. }
        eapply on_moves; [exact Hx|exact Hd|exact HC|by eapply ConStep, ClCall| |by eapply OnShut|].
        + intros (_ & j & c & b & Hj & Hj'). destruct (decide (j = i)) as [->|Hne]; [congruence|]. rewrite list_lookup_insert_ne in Hj' by done. congruence.
        + split; intros; by rewrite elem_of_list_singleton.
      - cbn in Hr. apply Forall_cons in Hr as [Hr _]. destruct (has_coll _ Hr) as (x & ts & ws & C & Hx & Hd & HC & Hm). by eapply (in_moves m h x C ts ws i).
      - eapply own_moves; [exact Hi|apply OwnUnlock|apply no_new_nil|done].
      - destruct c as [c|n|n| |h|n]; try done.
        + eapply own_moves; [exact Hi|apply OwnGet|apply no_new_nil|done].
        + destruct (get_collection n (cd_db m)) as [h|e|p] eqn:E; [| |exfalso; revert E; unfold get_collection; by repeat case_match].
          * eapply own_moves; [exact Hi|by apply OwnRest|apply no_new_nil|done].
          * eapply own_moves; [exact Hi|by apply OwnRestErr|apply no_new_nil|done].
      - destruct r as [q|h]; [eapply own_moves; [exact Hi|apply OwnRUnlock|apply no_new_nil|done]|eapply own_moves; [exact Hi|apply OwnRUnlockGo|apply no_new_nil|done]].
      - destruct c as [c|n|n| |h'|n]; try done.
        + cbn in Hs. subst h'. destruct (has_coll _ (Hconf _ _ Hi)) as (x & ts & ws & C & Hx & _). eapply own_moves; [exact Hi|by eapply OwnConf|apply no_new_nil|done].
        + cbn in Hr. apply Forall_cons in Hr as [Hr _]. destruct (has_coll _ Hr) as (x & ts & ws & C & Hx & _).
          assert (exists a, conf_response (get_config x) = Some a) as [a Ha] by (unfold get_config; destruct (closed (hd_st x)); by eexists).
          eapply own_moves; [exact Hi|by eapply OwnConfRest|apply no_new_nil|done].
      - eapply own_moves; [exact Hi|apply OwnRet| |done]. split; intros; by rewrite elem_of_list_singleton.
    Qed.
    Lemma dholder_dec (gs : list gor) : (exists i g, gs !! i = Some g /\ dholds g) \/ Forall (fun g => ~ dholds g) gs.
    Proof using.
      clear. induction gs as [|t gs [(i & u & Hi & Hu)|IH]]; [by right|left; by exists (S i), u|].
      destruct t; try (right; constructor; [by intros []|done]); left; by eexists 0, _.
    Qed.
    Lemma wants_db_dec (gs : list gor) : (exists i g, gs !! i = Some g /\ wants_db g) \/ forall i g, gs !! i = Some g -> ~ wants_db g.
    Proof using.
      clear. induction gs as [|t gs [(i & u & Hi & Hu)|IH]]; [by right|left; by exists (S i), u|].
      assert (wants_db t \/ ~ wants_db t) as [Ht|Ht] by (destruct t as [| |[]| | | | | | | |]; cbn; tauto).
      - left. by exists 0, t.
      - right. intros [|i] u Hi; [by injection Hi as <-|]. by eapply IH.
    Qed.
    Lemma didle_dec (gs : list gor) : Forall (eq GIdle) gs \/ exists i g, gs !! i = Some g /\ g <> GIdle.
    Proof using.
      clear. induction gs as [|t gs [IH|(i & u & Hi & Hu)]]; [left; constructor| |right; by exists (S i), u].
      destruct t; try (right; by eexists 0, _). left. by constructor.
    Qed.
    Lemma some_moves : Forall (eq GIdle) (cd_gs m) \/ d_good m.
    Proof using HJ HL Hp Hconf Hcoll.
      destruct (didle_dec (cd_gs m)) as [?|(i & g & Hi & Hg)]; [by left|right].
      destruct (dholder_dec (cd_gs m)) as [(j & u & Hj & Hu)|Hfree].
      { eapply (active_moves j u); [done|by destruct u|by destruct u]. }
      assert (Hfx : Forall (fun g => ~ dholds_x g) (cd_gs m)) by (eapply Forall_impl; [exact Hfree|]; intros u Hu Hx; by apply Hu, dholds_x_dholds).
      destruct (wants_db_dec (cd_gs m)) as [(j & u & Hj & Hu)|Hnw].
      { destruct u as [| |c| | | | | | | |]; try done. eapply own_moves; [exact Hj|apply OwnLock; [by destruct c|done]|apply no_new_nil|done]. }
      assert ((exists c, g = GCall c) \/ forall c, g <> GCall c) as [[c ->]|Hnc] by (destruct g; eauto); [|by eapply active_moves].
      pose proof (Hnw _ _ Hi) as Hwi. destruct c as [c|n|n| |h|n]; try (by destruct Hwi).
      - eapply own_moves; [exact Hi|by apply OwnRLock|apply no_new_nil|]. intros c _ _. apply Hnw.
      - eapply own_moves; [exact Hi|apply OwnConfig|apply no_new_nil|done].
      - eapply own_moves; [exact Hi|by apply OwnRLock|apply no_new_nil|]. intros c _ _. apply Hnw.
    Qed.
  End progress.
End safe.

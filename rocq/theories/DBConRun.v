(** Executing concurrent runs of a database: used to exhibit concrete ones. *)
From stdpp Require Import relations.
From Verif Require Import GoBase FloatModel HeapModel ProgModel StateModel WalModel HnswModel StoreModel CollModel CallModel LinModel EarlyModel DBModel DBConModel DBConSpec
  ProofBase WpProofs StepProofs StoreProofs LinProofs LinTrace LinRun EarlyTrace EarlyClose DBConProofs DBConTrace.
Open Scope nat_scope.

Section run.
  Context (env_embed : string -> jval -> embedder) (J : json) (maxv : N) (workers fuel : nat).
  Notation params c := (cparams_of env_embed J maxv workers fuel c).
  Notation cd_step := (cd_step env_embed J maxv workers fuel).
  Notation cd_run := (cd_run env_embed J maxv workers fuel).

  Definition dfree (gs : list gor) : bool :=
    forallb (fun g => match g with GLock _ | GLoop _ | GShut _ _ | GEnd _ _ | GShare _ | GFound _ _ => false | _ => true end) gs.
  Definition dfree_x (gs : list gor) : bool :=
    forallb (fun g => match g with GLock _ | GLoop _ | GShut _ _ | GEnd _ _ => false | _ => true end) gs.
  Lemma dfree_spec gs : dfree gs = true -> Forall (fun g => ~ dholds g) gs.
  Proof.
    unfold dfree. rewrite forallb_forall. intros H. apply Forall_forall. intros t Ht. specialize (H t (proj1 (elem_of_list_In _ _) Ht)).
    destruct t; cbn in *; by try intros [].
  Qed.
  Lemma dfree_x_spec gs : dfree_x gs = true -> Forall (fun g => ~ dholds_x g) gs.
  Proof.
    unfold dfree_x. rewrite forallb_forall. intros H. apply Forall_forall. intros t Ht. specialize (H t (proj1 (elem_of_list_In _ _) Ht)).
    destruct t; cbn in *; by try intros [].
  Qed.

  (** [c]: the call an idle goroutine makes. *)
  Definition own_exec (D : db) (meta : bool) (gs : list gor) (i : nat) (g : gor) (c : dcall) : option (list dvis * db * bool * gor) :=
    match g with
    | GIdle => Some ([DvCall i c], D, meta, GCall c)
    | GCall c =>
        match c with
        | DCreate _ | DDelete _ | DClose => if dfree gs then Some ([], D, meta, GLock c) else None
        | DGet _ | DRest _ => if dfree_x gs then Some ([], D, meta, GShare c) else None
        | DConfig h => Some ([], D, meta, GConf c h)
        end
    | GLock (DCreate c) => let '(D', r) := do_create c meta D in Some ([], D', meta, GEnd (DCreate c) (QColl r))
    | GLock (DDelete n) => let '(D', r) := do_delete n meta D in Some ([], D', meta, GEnd (DDelete n) (QUnit r))
    | GLock DClose => Some ([], D, true, GLoop ((map_to_list (db_colls D)).*2))
    | GLoop [] => Some ([], DB (db_rows D) (db_next D) (db_files D) (db_colls D) (db_handles D) true, meta, GEnd DClose (QUnit (Val tt)))
    | GLoop (h :: todo) =>
        match db_handles D !! h with
        | Some x => if closed (hd_st x) then Some ([], D, meta, GLoop todo) else None
        | None => None
        end
    | GEnd c q => Some ([], D, meta, GRet c q)
    | GShare (DGet n) => Some ([], D, meta, GFound (DGet n) (inl (QColl (get_collection n D))))
    | GShare (DRest n) =>
        match get_collection n D with
        | Val h => Some ([], D, meta, GFound (DRest n) (inr h))
        | Err e => Some ([], D, meta, GFound (DRest n) (inl (QRest (err_response e))))
        | Pan _ => None
        end
    | GFound c (inl q) => Some ([], D, meta, GRet c q)
    | GFound c (inr h) => Some ([], D, meta, GConf c h)
    | GConf (DConfig h') h =>
        match db_handles D !! h with
        | Some x => if h' =? h then Some ([], D, meta, GRet (DConfig h) (QConf (get_config x))) else None
        | None => None
        end
    | GConf (DRest n) h =>
        match db_handles D !! h with
        | Some x => match conf_response (get_config x) with Some a => Some ([], D, meta, GRet (DRest n) (QRest a)) | None => None end
        | None => None
        end
    | GRet c q => Some ([DvRet i c q], D, meta, GIdle)
    | _ => None
    end.
  Lemma own_exec_step D meta gs i g c vs D' meta' g' : own_exec D meta gs i g c = Some (vs, D', meta', g') -> own_step D meta gs i g vs D' meta' g'.
  Proof.
    destruct g as [| |c1|c1|[|h todo]| |c1 q|c1|c1 [q|h]|c1 h|c1 q]; cbn [own_exec]; try done.
    - intros [= <- <- <- <-]. constructor.
    - destruct c1.
      1,2,4: destruct (dfree gs) eqn:Ef; [|done]; intros [= <- <- <- <-]; apply OwnLock; [done|by apply dfree_spec].
      1,3: destruct (dfree_x gs) eqn:Ef; [|done]; intros [= <- <- <- <-]; apply OwnRLock; [done|by apply dfree_x_spec].
      intros [= <- <- <- <-]. constructor.
    - destruct c1 as [c1|n| | | | ]; try done.
      + destruct (do_create c1 meta D) as [D1 r] eqn:E. intros [= <- <- <- <-]. by constructor.
      + destruct (do_delete n meta D) as [D1 r] eqn:E. intros [= <- <- <- <-]. by constructor.
      + intros [= <- <- <- <-]. by constructor.
    - intros [= <- <- <- <-]. constructor.
    - destruct (db_handles D !! h) as [x|] eqn:E; [|done]. destruct (closed (hd_st x)) eqn:Ec; [|done]. intros [= <- <- <- <-]. by econstructor.
    - intros [= <- <- <- <-]. constructor.
    - destruct c1; try done.
      + intros [= <- <- <- <-]. constructor.
      + destruct (get_collection n D) eqn:E; [| |done]; intros [= <- <- <- <-]; by constructor.
    - intros [= <- <- <- <-]. constructor.
    - intros [= <- <- <- <-]. constructor.
    - destruct c1; try done; (destruct (db_handles D !! h) as [x|] eqn:E; [|done]).
      + destruct (Nat.eqb_spec h0 h); [|done]. intros [= <- <- <- <-]. subst. by constructor.
      + destruct (conf_response (get_config x)) eqn:Ea; [|done]. intros [= <- <- <- <-]. by econstructor.
    - intros [= <- <- <- <-]. constructor.
  Qed.

  (** What calls and returns in collection [h] mean for the goroutines; not the
      calls of Close. *)
  Definition ev_exec (h : nat) (v : vis) (gs : list gor) : option (dvis * list gor) :=
    match v with
    | VCall i c => match gs !! i with Some GIdle => Some (DvOn h v, <[i := GUse h]> gs) | _ => None end
    | VRet i r =>
        match gs !! i with
        | Some (GUse k) => if k =? h then Some (DvOn h v, <[i := GIdle]> gs) else None
        | Some (GShut k todo) =>
            if k =? h then
              match r with
              | RUnit (Val _) => Some (DvShut h v, <[i := GLoop todo]> gs)
              | RUnit (Err e) => Some (DvShut h v, <[i := GEnd DClose (QUnit (Err e))]> gs)
              | _ => None
              end
            else None
        | _ => None
        end
    end.
  Lemma ev_exec_on h s v gs d gs' : ev_exec h v gs = Some (d, gs') -> on_ev h s [v] gs [d] gs'.
  Proof.
    destruct v as [i c|i r]; cbn [ev_exec]; destruct (gs !! i) as [g|] eqn:E; try done; destruct g as [|k| | | |k todo| | | | | ]; try done.
    - intros [= <- <-]. by constructor.
    - destruct (Nat.eqb_spec k h) as [->|]; [|done]. intros [= <- <-]. by constructor.
    - destruct (Nat.eqb_spec k h) as [->|]; [|done]. destruct r as [|? ?|[[]|e|]| | | ]; try done; intros [= <- <-]; by econstructor.
  Qed.
  Fixpoint evs_exec (h : nat) (vs : list vis) (gs : list gor) : option (list dvis * list gor) :=
    match vs with
    | [] => Some ([], gs)
    | v :: vs' =>
        match ev_exec h v gs with
        | Some (d, gs1) => match evs_exec h vs' gs1 with Some (ds, gs2) => Some (d :: ds, gs2) | None => None end
        | None => None
        end
    end.
  Lemma evs_exec_app h a b gs d gs' : evs_exec h (a ++ b) gs = Some (d, gs') ->
    exists d1 d2 gs1, evs_exec h a gs = Some (d1, gs1) /\ evs_exec h b gs1 = Some (d2, gs') /\ d = d1 ++ d2.
  Proof.
    revert gs d. induction a as [|v a IH]; intros gs d; cbn [app evs_exec]; [intros H; by exists [], d, gs|].
    destruct (ev_exec h v gs) as [[d0 g0]|]; [|done]. destruct (evs_exec h (a ++ b) g0) as [[ds g1]|] eqn:E; [|done]. intros [= <- <-].
    destruct (IH _ _ E) as (d1 & d2 & gs1 & E1 & E2 & ->). exists (d0 :: d1), d2, gs1. by rewrite E1.
  Qed.
  Lemma estep_short C m v m' : estep C m v m' -> v = [] \/ exists e, v = [e].
  Proof.
    intros H. inversion H as [? ? ? ? ? ? Hc| | | | ]; subst; try (by left). inversion Hc as [? ? ? ? ? ? ? ? Hcl]; subst.
    inversion Hcl; subst; try (by left); right; by eexists.
  Qed.
  Lemma use_use h x s1 s2 D : use h (Handle (hd_cfg x) s1) s2 (use h x s1 D) = use h x s2 D.
  Proof. unfold use. cbn. by rewrite list_insert_insert. Qed.
  Lemma use_same h x D : db_handles D !! h = Some x -> use h x (hd_st x) D = D.
  Proof. intros H. unfold use. destruct D, x. cbn in *. by rewrite list_insert_id. Qed.
  (** A run whose states all satisfy [P]. *)
  Inductive cd_path (P : cdb -> Prop) : cdb -> list dvis -> cdb -> Prop :=
  | PathNil m : P m -> cd_path P m [] m
  | PathSnoc m v1 m1 v2 m2 : cd_path P m v1 m1 -> cd_step m1 v2 m2 -> P m2 -> cd_path P m (v1 ++ v2) m2.
  Lemma cd_path_run P m vs m' : cd_path P m vs m' -> cd_run m vs m'.
  Proof. induction 1; [constructor|by econstructor]. Qed.
  Lemma cd_path_app P m v1 m1 v2 m2 : cd_path P m v1 m1 -> cd_path P m1 v2 m2 -> cd_path P m (v1 ++ v2) m2.
  Proof.
    intros H1 H2. induction H2 as [|m1 w1 m3 w2 m4 _ IH Hs HP]; [by rewrite app_nil_r|]. rewrite app_assoc. econstructor; [by apply IH|done|done].
  Qed.
  Lemma lift_path (P : cdb -> Prop) C m vs m' D sd meta gs h x ds gs' :
    erun C m vs m' -> db_handles D !! h = Some x -> params (hd_cfg x) = Some C -> m = (hd_st x, m.1.2, m.2) -> sd !! h = Some (m.1.2, m.2) ->
    evs_exec h vs gs = Some (ds, gs') -> (forall s sd gs, P (CDB (use h x s D) sd meta gs)) ->
    cd_path P (CDB D sd meta gs) ds (CDB (use h x m'.1.1 D) (<[h := (m'.1.2, m'.2)]> sd) meta gs').
  Proof.
    intros Hr Hx HC. revert ds gs'. induction Hr as [m|m v1 m1 v2 m2 Hr IH Hs]; intros ds gs' Em Hd He HP.
    - injection He as <- <-. assert (hd_st x = m.1.1) as <- by (by rewrite Em). rewrite use_same, list_insert_id by done. constructor.
      pose proof (HP (hd_st x) sd gs) as H0. by rewrite use_same in H0.
    - destruct (evs_exec_app _ _ _ _ _ _ He) as (d1 & d2 & gs1 & E1 & E2 & ->). eapply PathSnoc; [by apply IH| |apply HP].
      rewrite <- (use_use h x m1.1.1 m2.1.1 D), <- (list_insert_insert sd h (m2.1.2, m2.2) (m1.1.2, m1.2)).
      destruct m1 as [[s1 ts1] ws1], m2 as [[s2 ts2] ws2]. cbn [fst snd] in *.
      eapply CdOn; [rewrite (use_handles _ _ _ _ _ Hx), decide_True by done; reflexivity|apply list_lookup_insert; by eapply lookup_lt_Some|exact HC|exact Hs|].
      destruct (estep_short _ _ _ _ Hs) as [->|[e ->]]; cbn [evs_exec] in E2.
      + injection E2 as <- <-. constructor.
      + destruct (ev_exec h e gs1) as [[d0 g0]|] eqn:E; [|done]. injection E2 as <- <-. by apply ev_exec_on.
  Qed.

  Lemma lift_run C m vs m' D sd meta gs h x ds gs' :
    erun C m vs m' -> db_handles D !! h = Some x -> params (hd_cfg x) = Some C -> m = (hd_st x, m.1.2, m.2) -> sd !! h = Some (m.1.2, m.2) ->
    evs_exec h vs gs = Some (ds, gs') ->
    cd_run (CDB D sd meta gs) ds (CDB (use h x m'.1.1 D) (<[h := (m'.1.2, m'.2)]> sd) meta gs').
  Proof. intros H1 H2 H3 H4 H5 H6. eapply (cd_path_run (fun _ => True)), lift_path; done. Qed.

  Inductive dmove :=
  | DmOwn (n : nat) (i : nat) (c : dcall)  (* goroutine [i] moves [n] times *)
  | DmOn (h : nat) (mv : emove)            (* a move in collection [h] *)
  | DmShut (h : nat) (i : nat).            (* Close calls Close on [h] *)
  Fixpoint d_own (n : nat) (i : nat) (c : dcall) (m : cdb) : option (list dvis * cdb) :=
    match n with
    | O => Some ([], m)
    | S n' =>
        match cd_gs m !! i with
        | Some g =>
            match own_exec (cd_db m) (cd_meta m) (cd_gs m) i g c with
            | Some (vs, D', meta', g') =>
                match d_own n' i c (CDB D' (cd_side m ++ replicate (length (db_handles D') - length (cd_side m)) (unused (length (cd_gs m)))) meta' (<[i := g']> (cd_gs m))) with
                | Some (vs', m') => Some (vs ++ vs', m')
                | None => None
                end
            | None => None
            end
        | None => None
        end
    end.
  Definition d_move (mv : dmove) (m : cdb) : option (list dvis * cdb) :=
    match mv with
    | DmOwn n i c => d_own n i c m
    | DmOn h mv =>
        match db_handles (cd_db m) !! h, cd_side m !! h with
        | Some x, Some (ts, ws) =>
            match params (hd_cfg x) with
            | Some C =>
                match e_move C mv (hd_st x, ts, ws) with
                | Some (vs, (s', ts', ws')) =>
                    match evs_exec h vs (cd_gs m) with
                    | Some (ds, gs') => Some (ds, CDB (use h x s' (cd_db m)) (<[h := (ts', ws')]> (cd_side m)) (cd_meta m) gs')
                    | None => None
                    end
                | None => None
                end
            | None => None
            end
        | _, _ => None
        end
    | DmShut h i =>
        match db_handles (cd_db m) !! h, cd_side m !! h, cd_gs m !! i with
        | Some x, Some (ts, ws), Some (GLoop (k :: todo)) =>
            match params (hd_cfg x), ts !! i with
            | Some C, Some TIdle =>
                if (k =? h) && negb (closed (hd_st x)) then
                  Some ([DvShut h (VCall i CClose)],
                    CDB (use h x (hd_st x) (cd_db m)) (<[h := (<[i := TCall CClose]> ts, ws)]> (cd_side m)) (cd_meta m) (<[i := GShut h todo]> (cd_gs m)))
                else None
            | _, _ => None
            end
        | _, _, _ => None
        end
    end.
  Fixpoint d_exec (mvs : list dmove) (m : cdb) : option (list dvis * cdb) :=
    match mvs with
    | [] => Some ([], m)
    | mv :: mvs' =>
        match d_move mv m with
        | Some (vs, m') => match d_exec mvs' m' with Some (vs', m'') => Some (vs ++ vs', m'') | None => None end
        | None => None
        end
    end.
  Lemma d_exec_app a b m : d_exec (a ++ b) m =
    match d_exec a m with
    | Some (v1, m1) => match d_exec b m1 with Some (v2, m2) => Some (v1 ++ v2, m2) | None => None end
    | None => None
    end.
  Proof.
    revert m. induction a as [|mv a IH]; intros m; cbn [app d_exec]; [by destruct (d_exec b m) as [[]|]|].
    destruct (d_move mv m) as [[v1 m1]|]; [|done]. rewrite IH. destruct (d_exec a m1) as [[v2 m2]|]; [|done].
    destruct (d_exec b m2) as [[v3 m3]|]; [|done]. by rewrite app_assoc.
  Qed.
  Lemma d_own_run n i c m vs m' : d_own n i c m = Some (vs, m') -> cd_run m vs m'.
  Proof.
    revert m vs. induction n as [|n IH]; intros m vs; cbn [d_own]; [intros [= <- <-]; constructor|].
    destruct (cd_gs m !! i) as [g|] eqn:Ei; [|done]. destruct (own_exec _ _ _ _ _ _) as [[[[v1 D'] meta'] g']|] eqn:E; [|done].
    destruct (d_own n i c _) as [[v2 m2]|] eqn:E2; [|done]. intros [= <- <-]. eapply cd_run_app; [|by apply IH]. apply cd_step_run.
    destruct m as [D sd meta gs]. cbn [cd_db cd_side cd_meta cd_gs] in *. eapply CdOwn; [done|by eapply own_exec_step].
  Qed.
  (** The same, when each state on the way satisfies [P]. *)
  Lemma d_own_path (P : cdb -> Prop) n i c m vs m' : P m -> (forall k v m1, k < n -> d_own (S k) i c m = Some (v, m1) -> P m1) -> d_own n i c m = Some (vs, m') -> cd_path P m vs m'.
  Proof.
    revert m vs. induction n as [|n IH]; intros m vs HP Hall; cbn [d_own]; [intros [= <- <-]; by constructor|].
    destruct (cd_gs m !! i) as [g|] eqn:Ei; [|done]. destruct (own_exec _ _ _ _ _ _) as [[[[v1 D'] meta'] g']|] eqn:E; [|done].
    destruct (d_own n i c _) as [[v2 m2]|] eqn:E2; [|done]. intros [= <- <-]. destruct m as [D sd meta gs]. cbn [cd_db cd_side cd_meta cd_gs] in *. eapply cd_path_app.
    - apply (PathSnoc P (CDB D sd meta gs) [] (CDB D sd meta gs) v1); [by constructor| |].
      + eapply CdOwn; [exact Ei|by eapply own_exec_step].
      + eapply (Hall 0); [lia|]. cbn [d_own cd_db cd_side cd_meta cd_gs]. rewrite Ei, E. done.
    - apply IH; [| |exact E2].
      + eapply (Hall 0); [lia|]. cbn [d_own cd_db cd_side cd_meta cd_gs]. rewrite Ei, E. done.
      + intros k v m1 Hk H. apply (Hall (S k) (v1 ++ v) m1); [lia|]. cbn [d_own cd_db cd_side cd_meta cd_gs] in H |- *. rewrite Ei, E. cbn [d_own cd_db cd_side cd_meta cd_gs]. by rewrite H.
  Qed.
  Lemma d_move_run mv m vs m' : d_move mv m = Some (vs, m') -> cd_run m vs m'.
  Proof.
    destruct mv as [n i c|h mv|h i]; cbn [d_move].
    - apply d_own_run.
    - destruct (db_handles (cd_db m) !! h) as [x|] eqn:Ex; [|done]. destruct (cd_side m !! h) as [[ts ws]|] eqn:Ed; [|done].
      destruct (params (hd_cfg x)) as [C|] eqn:EC; [|done]. destruct (e_move C mv _) as [[v1 [[s' ts'] ws']]|] eqn:Ee; [|done].
      destruct (evs_exec h v1 (cd_gs m)) as [[ds gs']|] eqn:Ev; [|done]. intros [= <- <-]. apply e_move_run in Ee.
      destruct m as [D sd meta gs]. cbn [cd_db cd_side cd_meta cd_gs] in *.
      by apply (lift_run C (hd_st x, ts, ws) v1 (s', ts', ws') D sd meta gs h x ds gs').
    - destruct (db_handles (cd_db m) !! h) as [x|] eqn:Ex; [|done]. destruct (cd_side m !! h) as [[ts ws]|] eqn:Ed; [|done].
      destruct (cd_gs m !! i) as [g|] eqn:Eg; [|done]. destruct g as [| | | |[|k todo]| | | | | | ]; try done.
      destruct (params (hd_cfg x)) as [C|] eqn:EC; [|done]. destruct (ts !! i) as [[]|] eqn:Et; try done.
      destruct (Nat.eqb_spec k h) as [->|]; [|done]. destruct (closed (hd_st x)) eqn:Ec; [done|]. intros [= <- <-]. apply cd_step_run.
      destruct m as [D sd meta gs]. cbn [cd_db cd_side cd_meta cd_gs] in *.
      eapply CdOn; [done|done|done| |by apply OnShut]. apply EsClient. econstructor; [done|constructor].
  Qed.
  Lemma d_on_path (P : cdb -> Prop) h mv m vs m' : (forall x s sd gs, P (CDB (use h x s (cd_db m)) sd (cd_meta m) gs)) ->
    d_move (DmOn h mv) m = Some (vs, m') -> cd_path P m vs m'.
  Proof.
    intros HP. cbn [d_move].
    destruct (db_handles (cd_db m) !! h) as [x|] eqn:Ex; [|done]. destruct (cd_side m !! h) as [[ts ws]|] eqn:Ed; [|done].
    destruct (params (hd_cfg x)) as [C|] eqn:EC; [|done]. destruct (e_move C mv _) as [[v1 [[s' ts'] ws']]|] eqn:Ee; [|done].
    destruct (evs_exec h v1 (cd_gs m)) as [[ds gs']|] eqn:Ev; [|done]. intros [= <- <-]. apply e_move_run in Ee.
    destruct m as [D sd meta gs]. cbn [cd_db cd_side cd_meta cd_gs] in *.
    by apply (lift_path P C (hd_st x, ts, ws) v1 (s', ts', ws') D sd meta gs h x ds gs').
  Qed.
  Lemma d_exec_run mvs m vs m' : d_exec mvs m = Some (vs, m') -> cd_run m vs m'.
  Proof.
    revert m vs m'. induction mvs as [|mv mvs IH]; intros m vs m'; cbn [d_exec]; [intros [= <- <-]; constructor|].
    destruct (d_move mv m) as [[v1 m1]|] eqn:E1; [|done]. destruct (d_exec mvs m1) as [[v2 m2]|] eqn:E2; [|done].
    intros [= <- <-]. eapply cd_run_app; [by eapply d_move_run|by apply IH].
  Qed.
End run.

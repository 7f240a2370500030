(** Executing concurrent runs: used to exhibit concrete ones. *)
From stdpp Require Import relations.
From Verif Require Import GoBase FloatModel HeapModel ProgModel StateModel WalModel HnswModel StoreModel CollModel CallModel LinModel
  ProofBase WpProofs HistRun.
Open Scope nat_scope.

Section run.
  Context (C : cparams).

  (** [k]: which worker of a batch moves. *)
  Definition x_exec (k : nat) (s : st) (b : xbody) : option (st * xbody) :=
    match b with
    | XIns (Step f) => match f s with Some (s', p) => Some (s', XIns p) | None => None end
    | XUnit (Step f) => match f s with Some (s', p) => Some (s', XUnit p) | None => None end
    | XDel (Step f) => match f s with Some (s', p) => Some (s', XDel p) | None => None end
    | XBatch two io ol =>
        match batch_prepare C s (ol.*1) with
        | Val os => Some (if two then (set_chan (zip os (ol.*2)) s, XWork true io (batch2_threads C (zip os (ol.*2))))
                          else (s, XWork false io (batch_threads C (zip os (ol.*2)))))
        | r => Some (s, XEnd (RBatch (_ ← r; Val tt) []))
        end
    | XWork two io ts =>
        match dones ts with
        | Some rs =>
            match first_err rs with
            | Some e => Some (drop_chan two s, XEnd (RBatch (Err e) rs))
            | None => let '(s', r) := wal_flush io s in Some (drop_chan two s', XEnd (RBatch r rs))
            end
        | None => match sched_step (s, ts) k with Some (s', ts') => Some (s', XWork two io ts') | None => None end
        end
    | _ => None
    end.
  Lemma x_exec_step k s b s' b' : x_exec k s b = Some (s', b') -> xstep C s b s' b'.
  Proof.
    destruct b as [[?|f]|[?|f]|[?|f]|two io ol|two io ts|r]; cbn [x_exec]; try done.
    1-3: destruct (f s) as [[s1 p]|] eqn:E; [|done]; intros [= <- <-]; by constructor.
    - destruct (batch_prepare C s ol.*1) as [os|e|z] eqn:E.
      + intros H. destruct two; injection H as <- <-; by constructor.
      + intros [= <- <-]. by eapply (XSRefused C two io ol s (Err e)).
      + intros [= <- <-]. by eapply (XSRefused C two io ol s (Pan z)).
    - destruct (dones ts) as [rs|] eqn:E.
      + apply dones_eq in E as ->. destruct (first_err rs) as [e|] eqn:Ee.
        * intros [= <- <-]. apply XSFail. by apply first_err_some.
        * destruct (wal_flush io s) as [s1 r] eqn:Ew. intros [= <- <-]. apply XSFlush; [|done]. intros e. by apply first_err_none.
      + destruct (sched_step (s, ts) k) as [[s1 ts1]|] eqn:Es; [|done]. intros [= <- <-]. constructor.
        unfold sched_step in Es. cbn [fst snd] in Es. destruct (ts !! k) as [[r|f]|] eqn:Ei; [done| |done].
        destruct (f s) as [[s2 p']|] eqn:Ef; [|done]. injection Es as <- <-. by econstructor.
  Qed.

  Definition free (ts : list client) : bool := forallb (fun t => match t with TX _ _ | TR _ _ => false | _ => true end) ts.
  Definition free_x (ts : list client) : bool := forallb (fun t => match t with TX _ _ => false | _ => true end) ts.
  Lemma free_spec ts : free ts = true -> Forall (fun t => ~ holds t) ts.
  Proof.
    unfold free. rewrite forallb_forall. intros H. apply Forall_forall. intros t Ht. specialize (H t (proj1 (elem_of_list_In _ _) Ht)).
    destruct t; cbn in *; by try intros [].
  Qed.
  Lemma free_x_spec ts : free_x ts = true -> Forall (fun t => ~ holds_x t) ts.
  Proof.
    unfold free_x. rewrite forallb_forall. intros H. apply Forall_forall. intros t Ht. specialize (H t (proj1 (elem_of_list_In _ _) Ht)).
    destruct t; cbn in *; by try intros [].
  Qed.

  (** [c]: the call an idle goroutine makes. *)
  Definition cl_exec (s : st) (ts : list client) (i : nat) (t : client) (c : call) (k : nat) : option (list vis * st * client) :=
    match t with
    | TIdle => Some ([VCall i c], s, TCall c)
    | TCall c =>
        match c with
        | CSize => match exec get_size s with Some (_, r) => Some ([], s, TRet (RSize r)) | None => None end
        | CDelete io id =>
            match objs s !! id_key id with
            | None => Some ([], s, TRet (RUnit (Val tt)))
            | Some ob => Some ([], s, if closed s then TRet (RUnit (Err EFileClosed)) else TLook io id ob)
            end
        | _ =>
            match xstart C c with
            | Some b => if free ts then Some ([], s, TX c b) else None
            | None => match rstart C c with Some b => if free_x ts then Some ([], s, TR c b) else None | None => None end
            end
        end
    | TLook io id ob =>
        match vecs s !! id_key id with
        | None => Some ([], s, TRet (RUnit (Val tt)))
        | Some vb =>
            if closed s then Some ([], s, TRet (RUnit (Err EFileClosed)))
            else match de_props (cp_json C) ob, de_vec vb with Val _, Val _ => Some ([], s, TWait io id) | _, _ => None end
        end
    | TWait io id => if free ts then Some ([], s, TX (CDelete io id) (XDel (delete_rest io id))) else None
    | TX c b =>
        match xreply b with
        | Some r => Some ([], s, TRet r)
        | None => match x_exec k s b with Some (s', b') => Some ([], s', TX c b') | None => None end
        end
    | TR c b =>
        match yreply b with
        | Some r => Some ([], s, TRet r)
        | None =>
            match b with
            | YGet (Step f) => match f s with Some (s', p) => Some ([], s', TR c (YGet p)) | None => None end
            | YSearch (Step f) => match f s with Some (s', p) => Some ([], s', TR c (YSearch p)) | None => None end
            | _ => None
            end
        end
    | TRet r => Some ([VRet i r], s, TIdle)
    end.
  Lemma cl_exec_step s ts i t c k vs s' t' : cl_exec s ts i t c k = Some (vs, s', t') -> cl_step C s ts i t vs s' t'.
  Proof.
    destruct t as [|c0|io id ob|io id|c0 b|c0 b|r]; cbn [cl_exec].
    - intros [= <- <- <-]. constructor.
    - assert (forall b, xstart C c0 = Some b -> (if free ts then Some ([], s, TX c0 b) else None) = Some (vs, s', t') -> cl_step C s ts i (TCall c0) vs s' t') as Hx.
      { intros b Hb H. destruct (free ts) eqn:E; [|done]. injection H as <- <- <-. constructor; [done|by apply free_spec]. }
      assert (forall b, rstart C c0 = Some b -> (if free_x ts then Some ([], s, TR c0 b) else None) = Some (vs, s', t') -> cl_step C s ts i (TCall c0) vs s' t') as Hy.
      { intros b Hb H. destruct (free_x ts) eqn:E; [|done]. injection H as <- <- <-. constructor; [done|by apply free_x_spec]. }
      destruct c0; try (by eapply Hx); try (by eapply Hy).
      + destruct (objs s !! id_key id) as [ob|] eqn:E; [destruct (closed s) eqn:Ec|]; intros [= <- <- <-].
        * by eapply ClLookClosed.
        * by constructor.
        * by constructor.
      + unfold get_size. rewrite exec_act. intros [= <- <- <-]. constructor. unfold get_size. by rewrite exec_act.
    - destruct (vecs s !! id_key id) as [vb|] eqn:E; [|intros [= <- <- <-]; by constructor].
      destruct (closed s) eqn:Ec; [intros [= <- <- <-]; by eapply ClLook2Closed|].
      destruct (de_props _ _) eqn:E1; try done. destruct (de_vec vb) eqn:E2; try done. intros [= <- <- <-]. by eapply ClLook2.
    - destruct (free ts) eqn:E; [|done]. intros [= <- <- <-]. constructor. by apply free_spec.
    - destruct (xreply b) eqn:E; [intros [= <- <- <-]; by constructor|].
      destruct (x_exec k s b) as [[s1 b1]|] eqn:Ex; [|done]. intros [= <- <- <-]. constructor. by eapply x_exec_step.
    - destruct (yreply b) eqn:E; [intros [= <- <- <-]; by constructor|].
      destruct b as [[?|f]|[?|f]]; try done; (destruct (f s) as [[s1 p]|] eqn:Ef; [|done]); intros [= <- <- <-]; by repeat constructor.
    - intros [= <- <- <-]. constructor.
  Qed.

  (** Goroutine [i] takes a step, then goes on for up to [n] more until it is
      idle or blocked. *)
  Fixpoint go (n : nat) (i : nat) (c : call) (k : nat) (m : st * list client) : option (list vis * (st * list client)) :=
    match m.2 !! i with
    | None => None
    | Some t =>
        match cl_exec m.1 m.2 i t c k with
        | None => Some ([], m)
        | Some (vs, s', t') =>
            let m' := (s', <[i := t']> m.2) in
            match n, t' with
            | O, _ | _, TIdle => Some (vs, m')
            | S n', _ => match go n' i c k m' with Some (vs', m'') => Some (vs ++ vs', m'') | None => None end
            end
        end
    end.
  Fixpoint con_exec (sch : list (nat * nat * call * nat)) (m : st * list client) : option (list vis * (st * list client)) :=
    match sch with
    | [] => Some ([], m)
    | (n, i, c, k) :: sch' =>
        match go n i c k m with
        | Some (vs, m') => match con_exec sch' m' with Some (vs', m'') => Some (vs ++ vs', m'') | None => None end
        | None => None
        end
    end.
  Lemma con_run_app m vs m1 vs' m2 : con_run C m vs m1 -> con_run C m1 vs' m2 -> con_run C m (vs ++ vs') m2.
  Proof. intros H1. induction 1 as [|m1 v1 m3 v2 m4 _ IH Hs]; [by rewrite app_nil_r|]. rewrite app_assoc. by eapply ConSnoc; [apply IH|]. Qed.
  Lemma go_run n i c k m vs m' : go n i c k m = Some (vs, m') -> con_run C m vs m'.
  Proof.
    revert m vs m'. induction n as [|n IH]; intros m vs m'; cbn [go]; (destruct (m.2 !! i) as [t|] eqn:Ei; [|done]);
      (destruct (cl_exec m.1 m.2 i t c k) as [[[v1 s1] t1]|] eqn:E; [|intros [= <- <-]; constructor]);
      (assert (con_run C m v1 (s1, <[i := t1]> m.2)) as Hr;
        [apply (ConSnoc C m [] m v1); [constructor|]; destruct m as [s ts]; econstructor; [exact Ei|]; by eapply cl_exec_step|]).
    - by destruct t1; intros [= <- <-].
    - destruct t1; try (by intros [= <- <-]).
      all: destruct (go n i c k _) as [[v2 m2]|] eqn:E2; [|done]; intros [= <- <-]; eapply con_run_app; [exact Hr|]; by apply IH.
  Qed.
  Lemma con_exec_run sch m vs m' : con_exec sch m = Some (vs, m') -> con_run C m vs m'.
  Proof.
    revert m vs m'. induction sch as [|[[[n i] c] k] sch IH]; intros m vs m'; cbn [con_exec]; [intros [= <- <-]; constructor|].
    destruct (go n i c k m) as [[v1 m1]|] eqn:E1; [|done]. destruct (con_exec sch m1) as [[v2 m2]|] eqn:E2; [|done].
    intros [= <- <-]. eapply con_run_app; [by eapply go_run|by apply IH].
  Qed.
End run.

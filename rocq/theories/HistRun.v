(** Executing histories: used to exhibit concrete ones. *)
From stdpp Require Import relations.
From Verif Require Import GoBase FloatModel HeapModel ProgModel StateModel WalModel HnswModel StoreModel CollModel CallModel
  ProofBase WpProofs.
Open Scope nat_scope.

Lemma run_sched_reach {S A} (m m' : machine S A) sch : run_sched m sch = Some m' -> rtc mstep m m'.
Proof.
  revert m. induction sch as [|i sch IH]; intros m H; cbn [run_sched] in H.
  - by apply (inj Some) in H as <-.
  - destruct (sched_step m i) as [m1|] eqn:E; [|done]. eapply rtc_l; [|by apply IH].
    unfold sched_step in E. destruct m as [s ts]. cbn [fst snd] in *.
    destruct (ts !! i) as [[r|f]|] eqn:Ei; [done| |done]. destruct (f s) as [[s' p']|] eqn:Ef; [|done].
    apply (inj Some) in E as <-. by econstructor.
Qed.

(** Round robin until nothing moves; [n] rounds over the threads [is]. *)
Fixpoint run_round {S A} (m : machine S A) (is : list nat) : machine S A :=
  match is with
  | [] => m
  | i :: is' => match sched_step m i with Some m' => run_round m' is' | None => run_round m is' end
  end.
Fixpoint run_rounds {S A} (n : nat) (m : machine S A) (is : list nat) : machine S A :=
  match n with
  | O => m
  | S n' => run_rounds n' (run_round m is) is
  end.
Lemma run_round_reach {S A} (m : machine S A) is : rtc mstep m (run_round m is).
Proof.
  revert m. induction is as [|i is IH]; intros m; cbn [run_round]; [done|].
  destruct (sched_step m i) as [m1|] eqn:E; [|apply IH]. etrans; [|apply IH].
  apply (run_sched_reach m m1 [i]). cbn. by rewrite E.
Qed.
Lemma run_rounds_reach {S A} n (m : machine S A) is : rtc mstep m (run_rounds n m is).
Proof. revert m. induction n as [|n IH]; intros m; cbn [run_rounds]; [done|]. etrans; [apply run_round_reach|apply IH]. Qed.

Fixpoint dones {S A} (ts : list (prog S A)) : option (list (out A)) :=
  match ts with
  | [] => Some []
  | Done r :: ts' => match dones ts' with Some rs => Some (r :: rs) | None => None end
  | Step _ :: _ => None
  end.
Lemma dones_eq {S A} (ts : list (prog S A)) rs : dones ts = Some rs -> ts = Done <$> rs.
Proof.
  revert rs. induction ts as [|[r|f] ts IH]; intros rs H; cbn [dones] in H; [by apply (inj Some) in H as <-| |done].
  destruct (dones ts) as [rs'|]; [|done]. apply (inj Some) in H as <-. cbn. f_equal. by apply IH.
Qed.

Fixpoint first_err {A} (rs : list (out A)) : option err_t :=
  match rs with
  | [] => None
  | Err e :: _ => Some e
  | _ :: rs' => first_err rs'
  end.
Lemma first_err_some {A} (rs : list (out A)) e : first_err rs = Some e -> Err e ∈ rs.
Proof. induction rs as [|[a|x|z] rs IH]; cbn; intros H; [done| |injection H as ->|]; set_solver. Qed.
Lemma first_err_none {A} (rs : list (out A)) e : first_err rs = None -> Err e ∉ rs.
Proof. induction rs as [|[a|x|z] rs IH]; cbn; intros H; [set_solver| |done|]; rewrite elem_of_cons; intros [?|?]; try done; by apply IH. Qed.

Section run.
  Context (C : cparams).

  (** Schedule of a batch: first [sch], then [rounds] rounds over all workers. *)
  Definition batch_exec (io : bool) (ts : list (prog st (list object))) (sch : list nat) (rounds : nat) (s : st) :
      option (st * reply) :=
    match run_sched (s, ts) sch with
    | None => None
    | Some m =>
        let '(s1, ts1) := run_rounds rounds m (seq 0 (length ts)) in
        match dones ts1 with
        | None => None
        | Some rs =>
            match first_err rs with
            | Some e => Some (s1, RBatch (Err e) rs)
            | None => let '(s2, r) := wal_flush io s1 in Some (s2, RBatch r rs)
            end
        end
    end.
  Lemma batch_exec_run io ts sch rounds s s' r :
    batch_exec io ts sch rounds s = Some (s', r) -> exists r0 rs, r = RBatch r0 rs /\ batch_run io ts s s' r0 rs.
  Proof.
    unfold batch_exec. destruct (run_sched (s, ts) sch) as [m|] eqn:E1; [|done].
    destruct (run_rounds rounds m _) as [s1 ts1] eqn:E2. destruct (dones ts1) as [rs|] eqn:E3; [|done].
    apply dones_eq in E3 as ->.
    assert (Hr : rtc mstep (s, ts) (s1, Done <$> rs)).
    { etrans; [by eapply run_sched_reach|]. rewrite <- E2. apply run_rounds_reach. }
    destruct (first_err rs) as [e|] eqn:E4.
    - intros [<- <-]%Some_pair_inj. exists (Err e), rs. split; [done|]. econstructor 2; [exact Hr|]. by apply first_err_some.
    - destruct (wal_flush io s1) as [s2 r2] eqn:E5. intros [<- <-]%Some_pair_inj. exists r2, rs. split; [done|].
      econstructor 1; [exact Hr| |exact E5]. intros e. by apply first_err_none.
  Qed.

  Definition call_exec (c : call) (sch : list nat) (rounds : nat) (s : st) : option (st * reply) :=
    let seqrun {A} (R : out A -> reply) (p : prog st A) :=
      match exec p s with Some (s', r) => Some (s', R r) | None => None end in
    match c with
    | CInsert io level o => seqrun RIns (CollModel.insert C 0 io level o)
    | CBatch io ol =>
        match batch_prepare C s (ol.*1) with
        | Val os => batch_exec io (batch_threads C (zip os (ol.*2))) sch rounds s
        | Err e => Some (s, RBatch (Err e) [])
        | Pan p => Some (s, RBatch (Pan p) [])
        end
    | CBatch2 io ol =>
        match batch_prepare C s (ol.*1) with
        | Val os =>
            match batch_exec io (batch2_threads C (zip os (ol.*2))) sch rounds (set_chan (zip os (ol.*2)) s) with
            | Some (s', r) => Some (set_chan [] s', r)
            | None => None
            end
        | Err e => Some (s, RBatch (Err e) [])
        | Pan p => Some (s, RBatch (Pan p) [])
        end
    | CDelete io id => seqrun RUnit (delete_found (get_object (cp_json C) s id) io id)
    | CGet ids => seqrun RGet (CollModel.get C ids)
    | CSearch o k => seqrun RSearch (semantic_search C 0 o k)
    | CSize => seqrun RSize get_size
    | CUpdate o => seqrun RUnit (CollModel.update o)
    | CClose => seqrun RUnit CollModel.close
    end.
  Lemma call_exec_run c sch rounds s s' r : call_exec c sch rounds s = Some (s', r) -> call_run C s c s' r.
  Proof.
    unfold call_exec. destruct c as [io level o|io ol|io ol|io id|ids|o k| |o| ].
    2:{ destruct (batch_prepare C s ol.*1) as [os|e|z] eqn:E.
        - intros H. destruct (batch_exec_run _ _ _ _ _ _ _ H) as (r0 & rs & -> & Hb). by eapply RunBatch.
        - intros [<- <-]%Some_pair_inj. by apply (RunBatchRefused C s io ol (Err e)).
        - intros [<- <-]%Some_pair_inj. by apply (RunBatchRefused C s io ol (Pan z)). }
    2:{ destruct (batch_prepare C s ol.*1) as [os|e|z] eqn:E.
        - destruct (batch_exec _ _ _ _ _) as [[s1 r1]|] eqn:Eb; [|done]. intros [<- <-]%Some_pair_inj.
          destruct (batch_exec_run _ _ _ _ _ _ _ Eb) as (r0 & rs & -> & Hb). by eapply RunBatch2.
        - intros [<- <-]%Some_pair_inj. by apply (RunBatch2Refused C s io ol (Err e)).
        - intros [<- <-]%Some_pair_inj. by apply (RunBatch2Refused C s io ol (Pan z)). }
    all: match goal with |- context [exec ?p ?s0] => destruct (exec p s0) as [[s1 r1]|] eqn:E; [|done] end;
         intros [<- <-]%Some_pair_inj; try by constructor.
    eapply RunDelete; [apply LookNow|done].
  Qed.

  (** Cutting a call after a number of steps. *)
  Definition cut_exec (c : call) (sch : list nat) (s : st) : option st :=
    match c with
    | CInsert io level o => fst <$> run_sched (s, [CollModel.insert C 0 io level o]) sch
    | CDelete io id => fst <$> run_sched (s, [delete_found (get_object (cp_json C) s id) io id]) sch
    | CBatch io ol =>
        match batch_prepare C s (ol.*1) with
        | Val os => fst <$> run_sched (s, batch_threads C (zip os (ol.*2))) sch
        | _ => None
        end
    | _ => None
    end.
  Lemma cut_exec_cut c sch s s' : cut_exec c sch s = Some s' -> call_cut C s c s'.
  Proof.
    unfold cut_exec. destruct c as [io level o|io ol|io ol|io id|ids|o k| |o| ]; try done.
    - destruct (run_sched _ _) as [[s1 ts]|] eqn:E; [|done]. intros <-%(inj Some). eapply CutInsert. by eapply run_sched_reach.
    - destruct (batch_prepare C s ol.*1) as [os|e|z] eqn:Ep; [|done..].
      destruct (run_sched _ _) as [[s1 ts]|] eqn:E; [|done]. intros <-%(inj Some). eapply CutBatch; [exact Ep|]. by eapply run_sched_reach.
    - destruct (run_sched _ _) as [[s1 ts]|] eqn:E; [|done]. intros <-%(inj Some). eapply CutDelete; [apply LookNow|]. by eapply run_sched_reach.
  Qed.

  (** A script of events. *)
  Inductive sev :=
  | SCall (c : call)
  | SBatch (c : call) (sch : list nat) (rounds : nat)
  | SRestart
  | SCrash (c : call) (sch : list nat) (n : nat).

  Definition sev_exec (e : sev) (s : st) : option (event * st) :=
    match e with
    | SCall c => match call_exec c [] 0 s with Some (s', r) => Some (EvCall c r, s') | None => None end
    | SBatch c sch rounds => match call_exec c sch rounds s with Some (s', r) => Some (EvCall c r, s') | None => None end
    | SRestart => match reopen (disk_of s) with Val s' => Some (EvRestart, s') | _ => None end
    | SCrash c sch n =>
        match cut_exec c sch s with
        | Some s1 => match reopen (disk_of (wal_flush_torn n s1)) with Val s' => Some (EvCrash c n, s') | _ => None end
        | None => None
        end
    end.
  Fixpoint script_exec (l : list sev) (s : st) : option (list event * st) :=
    match l with
    | [] => Some ([], s)
    | e :: l' =>
        match sev_exec e s with
        | Some (ev, s1) => match script_exec l' s1 with Some (h, s2) => Some (ev :: h, s2) | None => None end
        | None => None
        end
    end.
  Lemma sev_exec_step e s ev s' : sev_exec e s = Some (ev, s') -> ev_step C s ev s'.
  Proof.
    destruct e as [c|c sch rounds| |c sch n]; cbn [sev_exec].
    - destruct (call_exec c [] 0 s) as [[s1 r]|] eqn:E; [|done]. intros [<- <-]%Some_pair_inj. constructor. by eapply call_exec_run.
    - destruct (call_exec c sch rounds s) as [[s1 r]|] eqn:E; [|done]. intros [<- <-]%Some_pair_inj. constructor. by eapply call_exec_run.
    - destruct (reopen (disk_of s)) as [s1|e|z] eqn:E; [|done..]. intros [<- <-]%Some_pair_inj. by constructor.
    - destruct (cut_exec c sch s) as [s1|] eqn:E; [|done].
      destruct (reopen _) as [s2|e|z] eqn:E2; [|done..]. intros [<- <-]%Some_pair_inj. econstructor; [by eapply cut_exec_cut|done].
  Qed.
  Lemma hist_cons s ev s1 h s2 : ev_step C s ev s1 -> hist C s1 h s2 -> hist C s (ev :: h) s2.
  Proof.
    intros Hs Hh. induction Hh as [|h e s3 s4 Hh IH Hs'].
    - change [ev] with ([] ++ [ev]). econstructor; [constructor|done].
    - change (ev :: h ++ [e]) with ((ev :: h) ++ [e]). by econstructor.
  Qed.
  Lemma script_hist l s h s' : script_exec l s = Some (h, s') -> hist C s h s'.
  Proof.
    revert s h. induction l as [|e l IH]; intros s h H; cbn [script_exec] in H.
    - apply Some_pair_inj in H as [<- <-]. constructor.
    - destruct (sev_exec e s) as [[ev s1]|] eqn:E; [|done]. destruct (script_exec l s1) as [[h1 s2]|] eqn:E2; [|done].
      apply Some_pair_inj in H as [<- <-]. eapply hist_cons; [by eapply sev_exec_step|by apply IH].
  Qed.

  (** Any property checked on the outcome of a script holds of some history. *)
  Definition script_check (l : list sev) (P : list event -> st -> bool) : bool :=
    match script_exec l empty_st with Some (h, s) => P h s | None => false end.
  Lemma script_witness l P : script_check l P = true -> exists h s, hist C empty_st h s /\ P h s = true.
  Proof.
    unfold script_check. destruct (script_exec l empty_st) as [[h s]|] eqn:E; [|done]. intros HP. exists h, s.
    split; [by eapply script_hist|done].
  Qed.
End run.

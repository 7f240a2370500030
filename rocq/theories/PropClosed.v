(** C102: what is true once Close has returned, although other goroutines and
    workers that outlived their batch go on. *)
From stdpp Require Import relations.
From Verif Require Import GoBase FloatModel HeapModel ProgModel StateModel WalModel HnswModel StoreModel CollModel CallModel LinModel EarlyModel
  ProofBase WpProofs StepProofs LinProofs LinTrace EarlyTrace EarlyClose LinRun PropStore PropEarly.
Open Scope nat_scope.

(** ** C102 After Close has returned the files of the collection do not change *)
(** [s] is any state; Close is one of the calls of the run, it returned nil;
    then anything happens. *)
Theorem C102_files_are_final : forall C s n v1 i v2 m1 v3 m2,
  erun C (s, replicate n TIdle, []) (v1 ++ VCall i CClose :: v2 ++ [VRet i (RUnit (Val tt))]) m1 -> no_return i v2 ->
  erun C m1 v3 m2 -> disk_of m2.1.1 = disk_of m1.1.1.
Proof.
  intros C s n v1 i v2 m1 v3 m2 Hr Hno Hr2. destruct (closed_after C _ _ _ _ _ _ Hr Hno) as [HK Hc].
  destruct (kinv_run C _ _ _ Hr2 HK) as [_ H]. by apply H.
Qed.
Print Assumptions C102_files_are_final.

(** What a later call is told.  Delete does not look at the closed flag: it
    reports success for an object that is not there (C39). *)
Definition refusal (c : call) (r : reply) : Prop :=
  match c with
  | CInsert _ _ _ => r = RIns (Err ECollectionClosed)
  | CBatch _ _ | CBatch2 _ _ => r = RBatch (Err ECollectionClosed) []
  | CGet _ => r = RGet (Err ECollectionClosed)
  | CSearch _ _ => r = RSearch (Err ECollectionClosed)
  | CSize => r = RSize (Err ECollectionClosed)
  | CUpdate _ => r = RUnit (Err ECollectionClosed)
  | CClose => r = RUnit (Err EFileClosed)
  | CDelete _ _ => r = RUnit (Val tt) \/ r = RUnit (Err EFileClosed)
  end.
Theorem C102_later_calls_refused : forall C s n v1 i v2 m1 v3 j c v4 r v5 m2,
  erun C (s, replicate n TIdle, []) (v1 ++ VCall i CClose :: v2 ++ [VRet i (RUnit (Val tt))]) m1 -> no_return i v2 ->
  erun C m1 (v3 ++ VCall j c :: v4 ++ VRet j r :: v5) m2 -> no_return j v4 -> refusal c r.
Proof.
  intros C s n v1 i v2 m1 v3 j c v4 r v5 m2 Hr Hno Hr2 Hno2. destruct (closed_after C _ _ _ _ _ _ Hr Hno) as [HK Hc].
  assert (exists ma mb, erun C m1 v3 ma /\ erun C ma (VCall j c :: v4 ++ [VRet j r]) mb) as (ma & mb & R1 & R2).
  { destruct (erun_split C _ _ _ _ _ _ Hr2 eq_refl) as (x1 & x2 & A1 & A2 & A3).
    destruct (erun_split C _ _ _ _ _ _ A3 eq_refl) as (x3 & x4 & B1 & B2 & B3).
    exists x1, x4. split; [done|]. change (VCall j c :: v4 ++ [VRet j r]) with (([VCall j c] ++ v4) ++ [VRet j r]).
    eapply ERunSnoc; [|exact B2]. eapply erun_app; [|exact B1]. by apply estep_erun. }
  destruct (kinv_run C _ _ _ R1 HK) as [HKa Ha]. destruct (Ha Hc) as [Hca _].
  destruct (follow_call C (EarlyClose.late c) (fun _ => refused c) j (late_still c)) with (m := ma) (c := c) (v := v4) (r := r) (m' := mb) as (x & _ & Hq & _); try done.
  - intros gs s0 ts t vs s' t'. apply late_self.
  - split; [done|by left].
Qed.
Print Assumptions C102_later_calls_refused.

(** A run for the theorems: object 0 is inserted; a batch fails and leaves a
    worker that has an id; a Delete has found object 0 and waits for c.mu while
    Close runs.  Then the worker goes on, the Delete goes on, and a Get is made. *)
Definition closing_moves : list emove :=
  [ MGo 200 0 (CInsert true 0 good) 0;
    MGo 2 1 (CBatch true [(bad, 0); (good, 0)]) 0; MGo 1 1 CSize 0; MGo 0 1 CSize 1; MEarly 1 EJSON; MGo 5 1 CSize 0;
    MGo 2 0 (CDelete true 0) 0; MGo 5 2 CClose 0 ].
Definition closed_moves : list emove := [ MGroup 200 0 1; MGo 9 0 CSize 0; MGo 9 2 (CGet [0%N]) 0 ].
Definition closing_calls : list vis :=
  [ VCall 0 (CInsert true 0 good); VRet 0 (RIns (Val (numbered_ob 0)));
    VCall 1 (CBatch true [(bad, 0); (good, 0)]); VRet 1 (RBatch (Err EJSON) []); VCall 0 (CDelete true 0) ].
Definition closed_trace : list vis :=
  [ VRet 0 (RUnit (Err EFileClosed)); VCall 2 (CGet [0%N]); VRet 2 (RGet (Err ECollectionClosed)) ].
Example C102_case : exists m1 m2 q p w,
  erun ex_C_a (empty_st, replicate 3 TIdle, []) (closing_calls ++ VCall 2 CClose :: [] ++ [VRet 2 (RUnit (Val tt))]) m1 /\ no_return 2 [] /\
  erun ex_C_a m1 ([VRet 0 (RUnit (Err EFileClosed))] ++ VCall 2 (CGet [0%N]) :: [] ++ VRet 2 (RGet (Err ECollectionClosed)) :: []) m2 /\
  m1.2 = [(q, [p; Step w])] /\ m2.2 = [(q, [p; Done (Err EFileClosed)])].
Proof.
  assert (match e_exec ex_C_a closing_moves (empty_st, replicate 3 TIdle, []) with
    | Some (vs, m1) => match e_exec ex_C_a closed_moves m1 with
      | Some (vs', m2) => Some (vs, vs', match m1.2, m2.2 with [(q, [Done (Err EJSON); Step _])], [(q', [Done (Err EJSON); Done (Err EFileClosed)])] => (length q, length q') | _, _ => (1, 1) end)
      | None => None end
    | None => None end = Some (closing_calls ++ VCall 2 CClose :: [] ++ [VRet 2 (RUnit (Val tt))], closed_trace, (0, 0))) as H.
  { vm_compute. reflexivity. }
  destruct (e_exec ex_C_a closing_moves _) as [[vs m1]|] eqn:E1; [|discriminate H]. apply e_exec_run in E1.
  destruct (e_exec ex_C_a closed_moves m1) as [[vs' m2]|] eqn:E2; [|discriminate H]. apply e_exec_run in E2.
  apply (inj Some) in H. apply pair_equal_spec in H as [H H3]. apply pair_equal_spec in H as [-> ->].
  assert (exists w, m1.2 = [([], [Done (Err EJSON); Step w])] /\ m2.2 = [([], [Done (Err EJSON); Done (Err EFileClosed)])]) as (w & H1 & H2).
  { clear E1 E2. destruct m1.2 as [|[q [|p [|w [|? ?]]]] [|? ?]]; try discriminate H3; destruct p as [[|e|]|]; try discriminate H3; destruct e; try discriminate H3; destruct w as [|w]; try discriminate H3.
    destruct m2.2 as [|[q' [|p' [|w' [|? ?]]]] [|? ?]]; try discriminate H3; destruct p' as [[|e|]|]; try discriminate H3; destruct e; try discriminate H3; destruct w' as [[|e|]|]; try discriminate H3; destruct e; try discriminate H3.
    destruct q; [|discriminate H3]. destruct q'; [|discriminate H3]. by exists w. }
  exists m1, m2, [], (Done (Err EJSON)), w. split; [exact E1|]. split; [intros r Hin; by apply elem_of_nil in Hin|]. by split.
Qed.

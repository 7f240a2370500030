(** Programs made of atomic steps on a shared state: the common form of all
    code that may run under goroutines.  [Step f] is one atomic action; [f s =
    None] means the action is blocked in state [s] (a mutex is held). *)
From Verif Require Import GoBase.

Inductive prog (S A : Type) : Type :=
| Done (r : out A)
| Step (f : S -> option (S * prog S A)).
Arguments Done {S A} _.
Arguments Step {S A} _.

Section prog.
  Context {S : Type}.

  Fixpoint pbind {A B} (p : prog S A) (k : A -> prog S B) : prog S B :=
    match p with
    | Done (Val a) => k a
    | Done (Err e) => Done (Err e)
    | Done (Pan x) => Done (Pan x)
    | Step f => Step (fun s =>
        match f s with
        | Some (s', p') => Some (s', pbind p' k)
        | None => None
        end)
    end.

  Global Instance prog_ret : MRet (prog S) := fun A a => Done (Val a).
  Global Instance prog_bind : MBind (prog S) := fun A B k p => pbind p k.

  (** A pure computation that may panic or fail. *)
  Definition lift {A} (o : out A) : prog S A := Done o.
  (** One atomic step that never blocks. *)
  Definition act {A} (f : S -> S * out A) : prog S A :=
    Step (fun s => let '(s', r) := f s in Some (s', Done r)).
  (** One atomic step that may block. *)
  Definition act_lock {A} (f : S -> option (S * out A)) : prog S A :=
    Step (fun s => match f s with Some (s', r) => Some (s', Done r) | None => None end).

  (** Running a program alone to its end; None = blocked for ever. *)
  Fixpoint exec {A} (p : prog S A) (s : S) : option (S * out A) :=
    match p with
    | Done r => Some (s, r)
    | Step f => match f s with Some (s', p') => exec p' s' | None => None end
    end.

  (** Any number of goroutines: one step of thread [i]. *)
  Definition machine (A : Type) : Type := S * list (prog S A).

  Inductive mstep {A} : machine A -> machine A -> Prop :=
  | MStep s ts i f s' p' :
      ts !! i = Some (Step f) -> f s = Some (s', p') ->
      mstep (s, ts) (s', <[i := p']> ts).

  (** Executable version: run a given schedule (list of thread numbers). *)
  Definition sched_step {A} (m : machine A) (i : nat) : option (machine A) :=
    match snd m !! i with
    | Some (Step f) =>
        match f (fst m) with
        | Some (s', p') => Some (s', <[i := p']> (snd m))
        | None => None
        end
    | _ => None
    end.
  Fixpoint run_sched {A} (m : machine A) (sch : list nat) : option (machine A) :=
    match sch with
    | [] => Some m
    | i :: sch' => match sched_step m i with Some m' => run_sched m' sch' | None => None end
    end.

  (** All threads have finished, with these results. *)
  Definition finished {A} (ts : list (prog S A)) (rs : list (out A)) : Prop := ts = Done <$> rs.
End prog.
Arguments machine : clear implicits.

(** The names of collections as paths of the file system.

    DBModel keeps the directories of the collections in a map by name, which is
    right for ordinary file names (C99).  Here the data directory is a part of a
    whole tree of files, names go through the kernel's path resolution, and
    nothing is assumed about them.  What is inside the files does not matter:
    stores, counter and log may write anything below the directory they are
    given. *)
From stdpp Require Import gmap strings list.
From Coq Require Import Ascii.
From Verif Require Import GoBase.
Open Scope nat_scope.

(** A path from the root, component by component; no symbolic links. *)
Notation path := (list string).
Inductive node := NDir | NFile (content : bytes).
Notation tree := (gmap path node).

(** The components of a name, as the kernel reads them. *)
Fixpoint components (s : string) : list string :=
  match s with
  | EmptyString => [EmptyString]
  | String c s' =>
      if decide (c = "/"%char) then EmptyString :: components s'
      else match components s' with
           | [] => [String c EmptyString]
           | w :: ws => String c w :: ws
           end
  end.

(** Path resolution: every component is looked up in a directory; "" (two
    slashes) and "." stay, ".." goes up. *)
Definition stays (c : string) : bool := bool_decide (c = ""%string) || bool_decide (c = "."%string).
Fixpoint walk (t : tree) (cur : path) (cs : list string) : option path :=
  match t !! cur with
  | Some NDir =>
      match cs with
      | [] => Some cur
      | c :: cs' =>
          if stays c then walk t cur cs'
          else if bool_decide (c = ".."%string) then walk t (removelast cur) cs'
          else walk t (cur ++ [c]) cs'
      end
  | _ => None
  end.

(** os.MkdirAll: missing directories are made on the way. *)
Fixpoint walk_make (t : tree) (cur : path) (cs : list string) : option (tree * path) :=
  match t !! cur with
  | Some (NFile _) => None
  | n =>
      let t1 := match n with None => <[cur := NDir]> t | _ => t end in
      match cs with
      | [] => Some (t1, cur)
      | c :: cs' =>
          if stays c then walk_make t1 cur cs'
          else if bool_decide (c = ".."%string) then walk_make t1 (removelast cur) cs'
          else walk_make t1 (cur ++ [c]) cs'
      end
  end.

(** os.Mkdir: trailing slashes are ignored; a last component that stays or
    goes up names a directory that exists. *)
Definition mkdir_at (t : tree) (base : path) (name : string) : option tree :=
  let cs := base.filter (fun c => c <> ""%string) (components name) in
  match last cs with
  | None => None
  | Some c =>
      if stays c || bool_decide (c = ".."%string) then None
      else
        match walk t base (removelast cs) with
        | None => None
        | Some p => match t !! (p ++ [c]) with Some _ => None | None => Some (<[p ++ [c] := NDir]> t) end
        end
  end.

(** os.RemoveAll: refuses a path that ends in "/."; a path that leads nowhere
    is not an error; otherwise everything below goes. *)
Definition remove_at (t : tree) (base : path) (name : string) : option tree :=
  if bool_decide (last (components name) = Some "."%string) then None
  else
    match walk t base (components name) with
    | None => Some t
    | Some p => Some (base.filter (fun x => ~ p `prefix_of` x.1) t)
    end.

(** The database as far as files go: the tree, the names of the rows
    (metadata.db) and the names in db.collections. *)
Record fsdb := FsDb { f_tree : tree; f_rows : list string; f_open : gset string }.

Section fs.
  Context (data : path).  (* the data directory, filesPath of db.Open *)

  (** sqlite's own files: the database and what it keeps beside it *)
  Definition meta_names : list string := ["metadata.db"; "metadata.db-journal"; "metadata.db-wal"; "metadata.db-shm"]%string.
  Definition is_meta (q : path) : Prop := exists n, n ∈ meta_names /\ q = data ++ [n].
  Definition meta_write (t t' : tree) : Prop := forall q, ~ is_meta q -> t' !! q = t !! q.

  (** Something writes below the directory [p], which stays. *)
  Definition writes_in (p : path) (t t' : tree) : Prop :=
    t' !! p = t !! p /\ forall q, ~ p `prefix_of` q -> t' !! q = t !! q.

  (** collection.go:38-93 newCollection: bitcask.Open and wal.Open make missing
      directories (store.go:24,29, wal.go:27), then everything is written below
      filesPath/name (collection.go:47).  If it fails it may have got that far. *)
  Definition opened (t : tree) (name : string) (t' : tree) : Prop :=
    exists t1 p, walk_make t data (components name) = Some (t1, p) /\ writes_in p t1 t'.

  Inductive opens (t : tree) : list string -> tree -> Prop :=
  | OpensNil : opens t [] t
  | OpensSnoc ns n t1 t2 : opens t ns t1 -> opened t1 n t2 -> opens t (ns ++ [n]) t2.

  (** What a process may do with the database. *)
  Inductive fev := FCreate (n : string) | FDelete (n : string) | FUse (n : string) | FOpen.
  Inductive fstep (s : fsdb) : fev -> fsdb -> Prop :=
  (* db.go:45-54, meta_manager.go:66-78: refused before anything is written *)
  | FCreateRefused n : fstep s (FCreate n) s
  (* meta_manager.go:66-85: the row is saved, os.Mkdir fails *)
  | FCreateNoDir n t1 :
      n <> ""%string -> n ∉ f_open s -> n ∉ f_rows s -> meta_write (f_tree s) t1 -> mkdir_at t1 data n = None ->
      fstep s (FCreate n) (FsDb t1 (f_rows s ++ [n]) (f_open s))
  (* db.go:55-61: the collection is opened, or that fails *)
  | FCreateOk n t1 t2 t3 :
      n <> ""%string -> n ∉ f_open s -> n ∉ f_rows s -> meta_write (f_tree s) t1 -> mkdir_at t1 data n = Some t2 -> opened t2 n t3 ->
      fstep s (FCreate n) (FsDb t3 (f_rows s ++ [n]) ({[n]} ∪ f_open s))
  | FCreateFails n t1 t2 t3 :
      n <> ""%string -> n ∉ f_open s -> n ∉ f_rows s -> meta_write (f_tree s) t1 -> mkdir_at t1 data n = Some t2 -> t3 = t2 \/ opened t2 n t3 ->
      fstep s (FCreate n) (FsDb t3 (f_rows s ++ [n]) (f_open s))
  (* db.go:76-84, meta_manager.go:92-99 *)
  | FDeleteRefused n : n ∉ f_open s \/ n ∉ f_rows s -> fstep s (FDelete n) s
  (* meta_manager.go:92-102 *)
  | FDeleteOk n t1 t2 :
      n ∈ f_open s -> n ∈ f_rows s -> meta_write (f_tree s) t1 -> remove_at t1 data n = Some t2 ->
      fstep s (FDelete n) (FsDb t2 (base.filter (fun m => m <> n) (f_rows s)) (f_open s ∖ {[n]}))
  (* os.RemoveAll fails: db.go:81-84 *)
  | FDeleteFails n t1 :
      n ∈ f_open s -> n ∈ f_rows s -> meta_write (f_tree s) t1 -> remove_at t1 data n = None ->
      fstep s (FDelete n) (FsDb t1 (base.filter (fun m => m <> n) (f_rows s)) (f_open s))
  (* calls on the collection *)
  | FUseIt n p t1 :
      n ∈ f_open s -> walk (f_tree s) data (components n) = Some p -> writes_in p (f_tree s) t1 ->
      fstep s (FUse n) (FsDb t1 (f_rows s) (f_open s))
  (* db.go:135-172: Close and Open *)
  | FOpenAll t1 t2 :
      meta_write (f_tree s) t1 -> opens t1 (f_rows s) t2 ->
      fstep s FOpen (FsDb t2 (f_rows s) (list_to_set (f_rows s))).
  Inductive fhist (s : fsdb) : list fev -> fsdb -> Prop :=
  | FNil : fhist s [] s
  | FSnoc l e s1 s2 : fhist s l s1 -> fstep s1 e s2 -> fhist s (l ++ [e]) s2.
End fs.

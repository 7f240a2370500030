(** The DiskANN package: db/core/index/disk_ann (graph.go, dal.go,
    memory_index.go): MemoryIndex and the file format.  DiskAnn itself
    (disk_ann.go) is in DiskTopModel.v. *)
From Verif Require Import GoBase FloatModel HeapModel MMHeapModel.
From stdpp Require Import sorting.
Open Scope nat_scope.

(** graph.go:51-56 Vertex *)
Record dvertex := DVertex { dv_id : N; dv_obj : N; dv_nbrs : list N; dv_vec : fvec }.

(** memory_index.go:10-32 MemoryIndex (persistent and logical part).
    [mi_size] is only meaningful in an index read back from a file. *)
Record mindex := MIndex {
  mi_graph : gmap N dvertex; mi_s : N; mi_dim : N; mi_deg : N; mi_first : N;
  mi_once : bool; mi_ro : bool; mi_size : N
}.

(** memory_index.go:34-48 newMemoryIndex *)
Definition new_mindex (first deg dim : N) : mindex := MIndex ∅ 0 dim deg first false false 0.

(** memory_index.go:223-225 Size *)
Definition mi_count (mi : mindex) : N := u32 (N.of_nat (size (mi_graph mi))).

(** graph.go:64-68: the loop writing the vector *)
Fixpoint dput_floats (b : bytes) (off : nat) (v : fvec) : out (bytes * nat) :=
  match v with
  | [] => Val (b, off)
  | f :: v' => b ← put_u32 b off f; dput_floats b (off + 4) v'
  end.
(** graph.go:70-73: the loop writing the neighbours, 8 bytes each *)
Fixpoint dput_nbrs (b : bytes) (off : nat) (ns : list N) : out (bytes * nat) :=
  match ns with
  | [] => Val (b, off)
  | n :: ns' => b ← put_u64 b off n; dput_nbrs b (off + 8) ns'
  end.
(** graph.go:76-79: the padding, 4 bytes each *)
Fixpoint dput_pad (b : bytes) (off : nat) (k : nat) : out (bytes * nat) :=
  match k with
  | O => Val (b, off)
  | S k' => b ← put_u32 b off 0; dput_pad b (off + 4) k'
  end.
(** graph.go:58-82 serialize, at offset [off] of the page; the result is the
    page and the offset after the vertex *)
Definition ser_vertex (b : bytes) (off : nat) (v : dvertex) (deg : N) : out (bytes * nat) :=
  b ← put_u32 b off (dv_obj v);
  '(b, off) ← dput_floats b (off + 4) (dv_vec v);
  '(b, off) ← dput_nbrs b off (dv_nbrs v);
  dput_pad b off (N.to_nat deg - length (dv_nbrs v)).

(** graph.go:92-97: the loop reading the vector *)
Fixpoint dget_floats (b : bytes) (off : nat) (n : nat) : out (fvec * nat) :=
  match n with
  | O => Val ([], off)
  | S n' =>
      f ← get_u32 b off;
      '(v, off') ← dget_floats b (off + 4) n';
      Val (f :: v, off')
  end.
(** graph.go:102-112: reads 8 bytes but advances by 4 *)
Fixpoint dget_nbrs (b : bytes) (off : nat) (k : nat) : out (list N * nat) :=
  match k with
  | O => Val ([], off)
  | S k' =>
      n ← get_u64 b off;
      if (n =? 0)%N then Val ([], off + 4 + k' * 4)
      else '(ns, off') ← dget_nbrs b (off + 4) k'; Val (n :: ns, off')
  end.
(** graph.go:84-115 deserialize *)
Definition de_vertex (b : bytes) (off : nat) (id : N) (dim deg : N) : out (dvertex * nat) :=
  obj ← get_u32 b off;
  '(v, off) ← dget_floats b (off + 4) (N.to_nat dim);
  '(ns, off) ← dget_nbrs b off (N.to_nat deg);
  Val (DVertex id obj ns v, off).

(** graph.go:24-34 serializeVertices; g.vertices[id] exists for ids taken from
    the map *)
Fixpoint ser_vertices (b : bytes) (off : nat) (g : gmap N dvertex) (ids : list N) (deg : N) : out bytes :=
  match ids with
  | [] => Val b
  | id :: rest =>
      v ← or_pan PNil (g !! id);
      '(b, off) ← ser_vertex b off v deg;
      ser_vertices b off g rest deg
  end.
(** graph.go:36-49 deserializeVertices: ids are consecutive from [id] *)
Fixpoint de_vertices (b : bytes) (off : nat) (g : gmap N dvertex) (n : nat) (id dim deg : N)
    : out (gmap N dvertex) :=
  match n with
  | O => Val g
  | S n' =>
      '(v, off) ← de_vertex b off id dim deg;
      de_vertices b off (<[id := v]> g) n' (u64 (id + 1)) dim deg
  end.

Definition page_size : nat := 4096.

(** memory_index.go:243-262 serializeMetadata *)
Definition ser_meta (b : bytes) (mi : mindex) : out bytes :=
  b ← put_u32 b 0 (mi_dim mi);
  b ← put_u32 b 4 (mi_deg mi);
  b ← put_u64 b 8 (mi_first mi);
  b ← put_u32 b 16 (mi_count mi);
  put_u64 b 20 (mi_s mi).

(** memory_index.go:264-283 deserializeMetadata: dim, maxDegree, firstId, size, s *)
Definition de_meta (b : bytes) : out (N * N * N * N * N) :=
  dim ← get_u32 b 0;
  deg ← get_u32 b 4;
  first ← get_u64 b 8;
  sz ← get_u32 b 16;
  s ← get_u64 b 20;
  Val (dim, deg, first, sz, s).

(** dal.go:114 and 161: pageSize / (4 * (1 + dim + maxDegree)) in uint32
    arithmetic; a zero divisor panics *)
Definition per_page (dim deg : N) : out N :=
  let d := u32 (4 * u32 (1 + dim + deg)) in
  if (d =? 0)%N then Pan PDiv else Val (N.of_nat page_size / d)%N.

(** dal.go:106-112: the ids in increasing order *)
Definition sorted_ids (g : gmap N dvertex) : list N := merge_sort N.le (elements (dom g)).

(** dal.go:120-144: the vertex pages, [k] per page; [n] bounds the number of
    pages *)
Fixpoint ser_pages (n : nat) (k : nat) (g : gmap N dvertex) (ids : list N) (deg : N) : out (list bytes) :=
  match ids with
  | [] => Val []
  | _ =>
      match n with
      | O => Pan PFuel
      | S n' =>
          p ← ser_vertices (zero_bytes page_size) 0 g (take k ids) deg;
          ps ← ser_pages n' k g (drop k ids) deg;
          Val (p :: ps)
      end
  end.

(** dal.go:92-147 writeIndex: the pages of a new file.  Dividing by zero
    vertices per page panics. *)
Definition write_index (mi : mindex) : out (list bytes) :=
  m ← ser_meta (zero_bytes page_size) mi;
  k ← per_page (mi_dim mi) (mi_deg mi);
  if (k =? 0)%N then Pan PDiv
  else
    let ids := sorted_ids (mi_graph mi) in
    ps ← ser_pages (length ids) (N.to_nat k) (mi_graph mi) ids (mi_deg mi);
    Val (m :: ps).

(** dal.go:46-59 readPage: reading past the end of the file fails *)
Definition read_page (f : list bytes) (i : nat) : out bytes :=
  match f !! i with Some p => Val p | None => Err EIO end.

(** dal.go:165-184: the loop over the vertex pages; [todo] vertices remain *)
Fixpoint de_pages (n : nat) (f : list bytes) (i : nat) (k todo : nat) (id dim deg : N)
    (g : gmap N dvertex) : out (gmap N dvertex) :=
  match todo with
  | O => Val g
  | _ =>
      match n with
      | O => Pan PFuel
      | S n' =>
          p ← read_page f i;
          let m := Nat.min k todo in
          g' ← de_vertices p 0 g m id dim deg;
          de_pages n' f (S i) k (todo - m) (u64 (id + N.of_nat m)) dim deg g'
      end
  end.

(** dal.go:149-187 readIndex: no distance function, no deleted set *)
Definition read_index (f : list bytes) : out mindex :=
  p ← read_page f 0;
  '(dim, deg, first, sz, s) ← de_meta p;
  k ← per_page dim deg;
  if (k =? 0)%N then Pan PDiv
  else
    g ← de_pages (N.to_nat sz) f 1 (N.to_nat k) (N.to_nat sz) first dim deg ∅;
    Val (MIndex g s dim deg first false false sz).

Section mem.
  Context (dist : fvec -> fvec -> out fl) (deleted : gset N).

  (** memory_index.go:90-92: shrink the result set to listSize from above;
      [n] bounds the loop *)
  Fixpoint shrink (n : nat) (h : list elem) (listSize : nat) : out (list elem) :=
    if listSize <? length h then
      match n with
      | O => Pan PFuel
      | S n' => '(_, h') ← mm_pop_max min_less h; shrink n' h' listSize
      end
    else Val h.

  (** memory_index.go:80-93: push the neighbours of the vertex at hand *)
  Fixpoint push_nbrs (g : gmap N dvertex) (q : fvec) (ns : list N) (h : list elem) (listSize : nat)
      : out (list elem) :=
    match ns with
    | [] => Val h
    | n :: rest =>
        v ← or_pan PNil (g !! n);
        d ← dist (dv_vec v) q;
        let h1 := mm_push min_less h (Elem n d) in
        h2 ← shrink (length h1) h1 listSize;
        push_nbrs g q rest h2 listSize
    end.

  (** memory_index.go:64-94: the main loop; visited is keyed by uint32(id) *)
  Fixpoint msearch_loop (fuel : nat) (g : gmap N dvertex) (q : fvec) (listSize : nat)
      (h : list elem) (visited : gset N) (acc : list elem) : out (list elem) :=
    match h with
    | [] => Val acc
    | _ =>
        match fuel with
        | O => Pan PFuel
        | S fuel' =>
            '(m, h') ← mm_pop min_less h;
            if bool_decide (u32 (e_id m) ∈ visited) then
              msearch_loop fuel' g q listSize h' visited acc
            else
              let visited' := {[u32 (e_id m)]} ∪ visited in
              v ← or_pan PNil (g !! e_id m);
              let acc' := if bool_decide (dv_obj v ∈ deleted) then acc else acc ++ [m] in
              h'' ← push_nbrs g q (dv_nbrs v) h' listSize;
              msearch_loop fuel' g q listSize h'' visited' acc'
        end
    end.

  (** memory_index.go:51-62: the visited, non-deleted candidates in visiting
      order (the second result of search) *)
  Definition mvisit (fuel : nat) (mi : mindex) (q : fvec) (listSize : nat) : out (list elem) :=
    sv ← or_pan PNil (mi_graph mi !! mi_s mi);
    d ← dist (dv_vec sv) q;
    msearch_loop fuel (mi_graph mi) q listSize (new_mm_heap [Elem (mi_s mi) d]) ∅ [].

  (** memory_index.go:100-103: pop at most k *)
  Fixpoint pop_k (k : nat) (h : list elem) : out (list elem) :=
    match k, h with
    | O, _ => Val []
    | _, [] => Val []
    | S k', _ => '(e, h') ← heap_pop min_less h; r ← pop_k k' h'; Val (e :: r)
    end.
  (** memory_index.go:51-109 search with onlySearch = true *)
  Definition msearch (fuel : nat) (mi : mindex) (q : fvec) (k : nat) (listSize : nat) : out (list elem) :=
    cs ← mvisit fuel mi q listSize;
    pop_k k (heap_init min_less cs).

  (** memory_index.go:182-190: distances of the present neighbours *)
  Fixpoint nbr_elems (g : gmap N dvertex) (base : fvec) (ns : list N) : out (list elem) :=
    match ns with
    | [] => Val []
    | n :: rest =>
        v ← or_pan PNil (g !! n);
        d ← dist base (dv_vec v);
        es ← nbr_elems g base rest;
        Val (Elem n d :: es)
    end.
  (** memory_index.go:160-166: the same with the arguments swapped *)
  Fixpoint nbr_elems_rev (g : gmap N dvertex) (base : fvec) (ns : list N) : out (list elem) :=
    match ns with
    | [] => Val []
    | n :: rest =>
        v ← or_pan PNil (g !! n);
        d ← dist (dv_vec v) base;
        es ← nbr_elems_rev g base rest;
        Val (Elem n d :: es)
    end.

  (** memory_index.go:207-214: mark the candidates [min] makes redundant *)
  Fixpoint mark (g : gmap N dvertex) (thr : fl) (m : N) (cs : list elem) (del : gset N) : out (gset N) :=
    match cs with
    | [] => Val del
    | c :: rest =>
        mv ← or_pan PNil (g !! m);
        cv ← or_pan PNil (g !! e_id c);
        d ← dist (dv_vec mv) (dv_vec cv);
        mark g thr m rest (if fleb (fmul thr d) (e_dist c) then {[dv_id cv]} ∪ del else del)
    end.

  (** memory_index.go:195-215: [nv] is len(v.neighbors), which the loop never
      changes; [n] bounds the loop *)
  Fixpoint prune_loop (n : nat) (g : gmap N dvertex) (thr : fl) (nv : nat) (deg : N)
      (h : list elem) (del : gset N) (acc : list N) : out (list N) :=
    match h with
    | [] => Val acc
    | _ =>
        match n with
        | O => Pan PFuel
        | S n' =>
            '(m, h') ← heap_pop min_less h;
            if bool_decide (e_id m ∈ del) then prune_loop n' g thr nv deg h' del acc
            else
              let acc' := acc ++ [e_id m] in
              if (N.of_nat nv =? deg)%N then Val acc'
              else
                del' ← mark g thr (e_id m) h' del;
                prune_loop n' g thr nv deg h' del' acc'
        end
    end.

  (** memory_index.go:178-218 robustPrune *)
  Definition robust_prune (mi : mindex) (v : dvertex) (cands : list elem) (thr : fl) : out (list N) :=
    es ← nbr_elems (mi_graph mi) (dv_vec v) (dv_nbrs v);
    let cs := cands ++ es in
    prune_loop (length cs) (mi_graph mi) thr (length (dv_nbrs v)) (mi_deg mi)
      (new_min_heap cs) {[dv_id v]} [].

  Definition set_graph (g : gmap N dvertex) (mi : mindex) : mindex :=
    MIndex g (mi_s mi) (mi_dim mi) (mi_deg mi) (mi_first mi) (mi_once mi) (mi_ro mi) (mi_size mi).

  (** memory_index.go:151-168: the back links *)
  Fixpoint link_back (mi : mindex) (id : N) (thr : fl) (ns : list N) : out mindex :=
    match ns with
    | [] => Val mi
    | n :: rest =>
        nb ← or_pan PNil (mi_graph mi !! n);
        let nb1 := DVertex (dv_id nb) (dv_obj nb) (dv_nbrs nb ++ [id]) (dv_vec nb) in
        let mi1 := set_graph (<[n := nb1]> (mi_graph mi)) mi in
        if (mi_deg mi <? N.of_nat (length (dv_nbrs nb1)))%N then
          ds ← nbr_elems_rev (mi_graph mi1) (dv_vec nb1) (dv_nbrs nb1);
          ns' ← robust_prune mi1 nb1 ds thr;
          link_back (set_graph (<[n := DVertex (dv_id nb) (dv_obj nb) ns' (dv_vec nb)]> (mi_graph mi1)) mi1)
            id thr rest
        else link_back mi1 id thr rest
    end.

  (** memory_index.go:111-171 insert; objId stays 0 (line 125 is commented
      out) *)
  Definition minsert (fuel : nat) (mi : mindex) (v : fvec) (listSize : nat) (thr : fl) (id : N)
      : out mindex :=
    if mi_ro mi then Err EReadOnly
    else if negb (N.of_nat (length v) =? mi_dim mi)%N then Err EDimensions
    else
      let s := if mi_once mi then mi_s mi
               else if (mi_s mi =? 0)%N then id else mi_s mi in
      let first := negb (mi_once mi) && (mi_count mi =? 0)%N in
      let mi1 := MIndex (<[id := DVertex id 0 [] v]> (mi_graph mi)) s (mi_dim mi) (mi_deg mi)
                   (mi_first mi) true (mi_ro mi) (mi_size mi) in
      if first then Val mi1
      else
        vis ← mvisit fuel mi1 v listSize;
        ns ← robust_prune mi1 (DVertex id 0 [] v) vis thr;
        let mi2 := set_graph (<[id := DVertex id 0 ns v]> (mi_graph mi1)) mi1 in
        link_back mi2 id thr ns.
End mem.

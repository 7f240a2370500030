(** Who shares a collection's configuration: the caller's memory as far as
    CreateCollection and GetConfig let it overlap with the collection's. *)
From Verif Require Import GoBase CollModel.
Open Scope nat_scope.

(** A []string: nil, or the first [n] elements of array [a] *)
Definition slice : Type := option (nat * nat).
(** entities/collection/collection.go Collection: the name and the mappings; the
    other fields are strings, or read once when the collection is created *)
Record acfg := ACfg { ac_name : string; ac_maps : slice }.
(** The arrays, the structs, which struct is c.config of each collection, and the
    structs of which the caller has a pointer. *)
Record amem := AMem { am_arr : list (list string); am_cfg : list acfg; am_colls : list nat; am_known : list nat }.
Definition amem0 : amem := AMem [] [] [] [].

(** What a caller can do: make an array or a struct; CreateCollection with the
    struct at [p]; GetConfig of collection [c]; write an element of an array; set
    the Mappings of a struct it has a pointer of. *)
Inductive aev :=
  | AArr (xs : list string)
  | ANew (f : acfg)
  | ACreate (p : nat)
  | AGet (c : nat)
  | ASetElem (a i : nat) (x : string)
  | ASetMaps (p : nat) (s : slice).

(** db/collection.go:44 config: *cfg copies the struct, not the array behind
    Mappings; collection.go:96-102 GetConfig returns &c.config *)
Definition astep (m : amem) (e : aev) : amem :=
  match e with
  | AArr xs => AMem (am_arr m ++ [xs]) (am_cfg m) (am_colls m) (am_known m)
  | ANew f => AMem (am_arr m) (am_cfg m ++ [f]) (am_colls m) (length (am_cfg m) :: am_known m)
  | ACreate p =>
      match am_cfg m !! p with
      | Some f => if decide (p ∈ am_known m) then AMem (am_arr m) (am_cfg m ++ [f]) (am_colls m ++ [length (am_cfg m)]) (am_known m) else m
      | None => m
      end
  | AGet c => match am_colls m !! c with Some p => AMem (am_arr m) (am_cfg m) (am_colls m) (p :: am_known m) | None => m end
  | ASetElem a i x => AMem (alter (fun l => <[i := x]> l) a (am_arr m)) (am_cfg m) (am_colls m) (am_known m)
  | ASetMaps p s => if decide (p ∈ am_known m) then AMem (am_arr m) (alter (fun f => ACfg (ac_name f) s) p (am_cfg m)) (am_colls m) (am_known m) else m
  end.
Definition arun (m : amem) (evs : list aev) : amem := foldl astep m evs.

(** The strings of a slice; of a struct's Mappings; c.config.Mappings of a
    collection, as validateObjectsMappings reads it (collection.go:137-151) *)
Definition strings (m : amem) (s : slice) : option (list string) :=
  match s with None => Some [] | Some (a, n) => take n <$> am_arr m !! a end.
Definition maps_at (m : amem) (p : nat) : option (list string) := f ← am_cfg m !! p; strings m (ac_maps f).
Definition maps_of (m : amem) (c : nat) : option (list string) := p ← am_colls m !! c; maps_at m p.
(** A collection's parameters with these mappings. *)
Definition with_maps (C : cparams) (ms : list string) : cparams :=
  CParams (cp_h C) ms (cp_embed C) (cp_json C) (cp_maxval C) (cp_workers C) (cp_fuel C).

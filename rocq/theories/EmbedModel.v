(** The text2vec embedder: db/embeddings/text2vec-huggingface.go and
    FlatProperties of entities/objstore/object.go. *)
From Verif Require Import GoBase FloatModel StateModel StoreModel CollModel.
Open Scope nat_scope.

(** What client.Do yields (lines 100-112): an error, or a response with a status
    and a body that decodes to rows of numbers or does not.  Decoding into er
    replaces its length, so [rows] may be shorter or longer than asked for.
    Simplification: a row that is null is an empty row. *)
Inductive reply := NoReply | Reply (status : N) (body : option (list fvec)).

Section embed.
  (** fmt's %v of a property's value: a string is printed as it is, the rest by
      [other] *)
  Context (other : jval -> string).
  Definition fmt_v (v : jval) : string := match v with JStr s => s | _ => other v end.

  (** object.go:93-106 FlatProperties, the properties in the order in which
      range delivers them; nil values are left out *)
  Fixpoint flat_properties (l : list (string * jval)) : string :=
    match l with
    | [] => ""
    | (k, JNull) :: l' => flat_properties l'
    | (k, v) :: l' => (k ++ ": " ++ fmt_v v ++ ",") ++ flat_properties l'
    end%string.

  (** [t] may be the text of [o]: range delivers the properties in any order *)
  Definition may_be_text (o : object) (t : string) : Prop :=
    exists l, l ≡ₚ map_to_list (o_props o) /\ t = flat_properties l.

  (** text2vec-huggingface.go:77-116 Embed with the order [order o] of the
      properties of each object, as the [embedder] of a collection *)
  Definition text2vec (order : object -> list (string * jval)) (server : list string -> reply) : embedder :=
    fun os =>
      match server ((fun o => flat_properties (order o)) <$> os) with
      | Reply status (Some rows) => if (status =? 200)%N then Some rows else None
      | _ => None
      end.
End embed.

(** What is claimed of a database used by several goroutines. *)
From stdpp Require Import relations.
From Verif Require Import GoBase FloatModel HeapModel ProgModel StateModel WalModel HnswModel StoreModel CollModel CallModel LinModel EarlyModel DBModel DBConModel.
Open Scope nat_scope.

(** The calls and returns in collection [h]. *)
Definition in_coll (h : nat) (v : dvis) : list vis :=
  match v with
  | DvOn k w | DvShut k w => if k =? h then [w] else []
  | _ => []
  end.
Definition seen_in (h : nat) (vs : list dvis) : list vis := vs ≫= in_coll h.

(** Goroutine [i] does not return from a call of the database. *)
Definition no_dret (i : nat) (vs : list dvis) : Prop := forall c q, DvRet i c q ∉ vs.
(** Nobody but Close of the database closes a collection. *)
Definition no_user_close (vs : list dvis) : Prop := forall h i, DvOn h (VCall i CClose) ∉ vs.

(** How a call of the database ends once the database is closed; [open] are
    the collections it had then. *)
Definition db_refused (open : list nat) (c : dcall) (q : dreply) : Prop :=
  match c with
  | DCreate _ | DGet _ => q = QColl (Err EDatabaseClosed)
  | DDelete _ => q = QUnit (Err EDatabaseClosed)
  | DClose => q = QUnit (Val tt)
  | DConfig h => h ∈ open -> q = QConf (Err ECollectionClosed)
  | DRest _ => q = QRest (500%N, PError EDatabaseClosed)
  end.

(** ** The calls of the database made one at a time *)
(** What a goroutine is doing: the effect of its call is still to come, or has
    happened.  GET /v1/collection/{name} has two moments. *)
Inductive ogor :=
| OIdle
| OUse (h : nat)
| OWant (c : dcall)
| OGot (c : dcall) (h : nat)
| OHave (c : dcall) (q : dreply).

(** The effect of a call, as in DBModel.  [shut]: an earlier Close has failed
    and left the metadata closed; then nothing can be created or deleted. *)
Inductive deffect (D : db) : bool -> dcall -> db -> bool -> dreply -> Prop :=
| DfCreate c D' r : create_collection c D = (D', r) -> deffect D false (DCreate c) D' false (QColl r)
| DfCreateShut c e : deffect D true (DCreate c) D true (QColl (Err e))
| DfDelete n D' r : delete_collection n D = (D', r) -> deffect D false (DDelete n) D' false (QUnit r)
| DfDeleteShut n e : deffect D true (DDelete n) D true (QUnit (Err e))
| DfGet n b : deffect D b (DGet n) D b (QColl (get_collection n D))
| DfClose D' b : db_close D = (D', Val tt) -> deffect D b DClose D' true (QUnit (Val tt))
| DfCloseFail b : deffect D b DClose D true (QUnit (Err EFileClosed))
| DfConfig h x b : db_handles D !! h = Some x -> deffect D b (DConfig h) D b (QConf (get_config x)).

Section atomic.
  Context (env_embed : string -> jval -> embedder) (J : json) (maxv : N) (workers fuel : nat).
  Notation params c := (cparams_of env_embed J maxv workers fuel c).

  Notation asys := (db * list (list client * list group) * bool * list ogor)%type.

  Inductive o_ev (h : nat) : list vis -> list ogor -> list dvis -> list ogor -> Prop :=
  | OeNone os : o_ev h [] os [] os
  | OeCall os i c : os !! i = Some OIdle -> o_ev h [VCall i c] os [DvOn h (VCall i c)] (<[i := OUse h]> os)
  | OeRet os i r : os !! i = Some (OUse h) -> o_ev h [VRet i r] os [DvOn h (VRet i r)] (<[i := OIdle]> os)
  (* Close of the database, before its effect *)
  | OeShut os i : os !! i = Some (OWant DClose) -> o_ev h [VCall i CClose] os [DvShut h (VCall i CClose)] os
  | OeDone os i r : os !! i = Some (OWant DClose) -> o_ev h [VRet i r] os [DvShut h (VRet i r)] os.

  (** One step; what is noted is the calls in the order of their effects. *)
  Inductive ad_step : asys -> list dvis -> list (dcall * dreply) -> asys -> Prop :=
  | AdCall D sd b os i c : os !! i = Some OIdle ->
      ad_step (D, sd, b, os) [DvCall i c] [] (D, sd, b, <[i := OWant c]> os)
  | AdEffect D sd b os i c D' b' q : os !! i = Some (OWant c) -> deffect D b c D' b' q ->
      ad_step (D, sd, b, os) [] [(c, q)]
        (D', sd ++ replicate (length (db_handles D') - length sd) (unused (length os)), b', <[i := OHave c q]> os)
  | AdRest1 D sd b os i n h : os !! i = Some (OWant (DRest n)) -> get_collection n D = Val h ->
      ad_step (D, sd, b, os) [] [] (D, sd, b, <[i := OGot (DRest n) h]> os)
  | AdRest1Err D sd b os i n e : os !! i = Some (OWant (DRest n)) -> get_collection n D = Err e ->
      ad_step (D, sd, b, os) [] [] (D, sd, b, <[i := OHave (DRest n) (QRest (err_response e))]> os)
  | AdRest2 D sd b os i n h x a : os !! i = Some (OGot (DRest n) h) -> db_handles D !! h = Some x ->
      conf_response (get_config x) = Some a ->
      ad_step (D, sd, b, os) [] [] (D, sd, b, <[i := OHave (DRest n) (QRest a)]> os)
  | AdRet D sd b os i c q : os !! i = Some (OHave c q) ->
      ad_step (D, sd, b, os) [DvRet i c q] [] (D, sd, b, <[i := OIdle]> os)
  | AdOn D sd b os h x C ts ws vs s' ts' ws' dvs os' :
      db_handles D !! h = Some x -> sd !! h = Some (ts, ws) -> params (hd_cfg x) = Some C ->
      estep C (hd_st x, ts, ws) vs (s', ts', ws') -> o_ev h vs os dvs os' ->
      ad_step (D, sd, b, os) dvs [] (use h x s' D, <[h := (ts', ws')]> sd, b, os').
  Inductive ad_run : asys -> list dvis -> list (dcall * dreply) -> asys -> Prop :=
  | AdNil m : ad_run m [] [] m
  | AdSnoc m v1 e1 m1 v2 e2 m2 : ad_run m v1 e1 m1 -> ad_step m1 v2 e2 m2 -> ad_run m (v1 ++ v2) (e1 ++ e2) m2.
End atomic.

(** The names in use after these effects: those created and not deleted. *)
Definition named_step (m : gmap string nat) (e : dcall * dreply) : gmap string nat :=
  match e with
  | (DCreate c, QColl (Val h)) => <[cf_name c := h]> m
  | (DDelete n, QUnit (Val _)) => delete n m
  | _ => m
  end.
Definition named (m : gmap string nat) (es : list (dcall * dreply)) : gmap string nat := foldl named_step m es.

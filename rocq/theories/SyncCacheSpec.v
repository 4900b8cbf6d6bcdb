(** What a cache has to keep for an archive, for SyncCache.v: where in the archive a location is, and what the entry of the cache promises.
    Only the records of the model are used here. *)
From Verif Require Import Base SyncCache.
Local Open Scope N_scope.

(** The archive: everything the encoder generates, in order. *)
Definition stream (tree : list region) : list N := concat (map r_data tree).

(** [n] bytes of it, from byte [p] on. *)
Definition sub (tree : list region) (p n : N) : list N := takeN n (dropN p (stream tree)).

(** The region [i] starts there. *)
Definition base (tree : list region) (i : nat) : N := len (concat (map r_data (firstn i tree))).

(** The location [l] is in the region [r], at byte [p] of the archive. *)
Definition here (tree : list region) (p : N) (l : loc) (r : region) : Prop :=
  exists i, nth_error tree i = Some r /\ r_key r = l_key l /\ p = base tree i + l_off l.

(** The origin [o] lists what the archive consists of from byte [p] on: no gap, no region is left early, or overrun. With [tables], the name tables are those
    of the archive, too. *)
Inductive describes (tree : list region) (tables : bool) : N -> origin -> Prop :=
| describes_nil p : describes tree tables p []
| describes_cons p l o r : here tree p l r -> (tables = true -> l_table l = r_table r) -> 0 < l_size l -> l_off l + l_size l <= len (r_data r) ->
    describes tree tables (p + l_size l) o -> describes tree tables p (l :: o).

(** The number of bytes an origin tells about *)
Definition covers (o : origin) : N := fold_right N.add 0 (map l_size o).

(** Where things are is told by the location: no two regions have the same key; and the encoder never generates nothing. *)
Definition tree_ok (tree : list region) : Prop := NoDup (map r_key tree) /\ Forall (fun r => r_data r <> []) tree.

(** An answer [o], [id] to the question [l] is truthful: if [l] is in the archive and the origin describes what follows there then the
    bytes described have the id [id]. Nothing is promised if the archive isn't as the origin says. *)
Definition truthful (digest : list N -> list N) (tree : list region) (l : loc) (o : origin) (id : list N) : Prop :=
  Forall (fun x => 0 < l_size x) o /\
  forall p r, here tree p l r -> l_off l < len (r_data r) -> l_table l = r_table r -> describes tree false p o -> digest (sub tree p (covers o)) = id.

(** The origin is one piece inside of a block, without its beginning and its end. *)
Definition inside_block (tree : list region) (o : origin) : Prop :=
  exists h r, o = [h] /\ In r tree /\ r_key r = l_key h /\ r_payload r = false /\ 0 < l_off h /\ l_off h + l_size h < len (r_data r).

(** A listing of the pieces *)
Definition listing (digest : list N -> list N) (ps : list (list N)) : list (list N * N) := map (fun p => (digest p, len p)) ps.

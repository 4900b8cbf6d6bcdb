(** What a cache is for, and the processes that use it. *)
From Verif Require Import Base ChunkId Posix Location LocationSpec LocationHeap Origin OriginSpec Cache.
Local Open Scope N_scope.

(** What may be put: at least one location, each as the constructor makes them, of known size, its path a C string; and less than 2^64
    bytes in all; an id of 32 bytes. *)
Definition putable (ls : list loc) (id : list N) : Prop :=
  ls <> [] /\ Forall (fun l => proper l /\ typed l /\ size l < UINT64_MAX /\ ~ In 0 (path_text (path l))) ls /\
  len (concat (map sources ls)) < UINT64_MAX /\ id_ok id = true.

(** The two forms of an entry: a file, or (for one location) a symbolic link. A location's text has its size, its stamp and its
    feature flags: the parts 1 + 2 + 4. *)
Definition entry_file (ls : list loc) (id : list N) : list N := id ++ concat (map (fun l => location_format l 7 ++ [0]) ls).
Definition entry_link (l : loc) (id : list N) : list N := chunk_id_format id ++ [58] ++ location_format l 7.

(** The name of the entry for a key: <root>/<4 digits>/<64 digits>.cachi *)
Definition entry_name (root key : list N) : list N :=
  root ++ [47] ++ firstn 4 (chunk_id_format key) ++ [47] ++ chunk_id_format key ++ [46; 99; 97; 99; 104; 105].

(** Every entry is that of a genuine pair of locations and id, of a pair whose first location has this key. *)
Definition intact_cache (digest : list N -> list N) (genuine : list loc -> list N -> Prop) (root : list N) (w : Posix.world) : Prop :=
  forall key, id_ok key = true ->
    let good ls id := genuine ls id /\ putable ls id /\ exists first rest, ls = first :: rest /\ digest (location_message first false) = key in
    name_at w (entry_name root key) = None
    \/ (exists l id, name_at w (entry_name root key) = Some (NLink (entry_link l id)) /\ good [l] id)
    \/ exists ls id, file_at w (entry_name root key) = Some (entry_file ls id) /\ good ls id.
Definition files_exist (w : Posix.world) : Prop := forall q i, name_at w q = Some (NFile i) -> (i < length (w_inodes w))%nat.

(** ** Processes: any program that looks up, puts and removes, each step depending on the results of the previous ones; it ends with
    the results of its lookups. *)
Definition answer : Type := res (list N * origin) * heap.
Inductive client :=
| CDone
| CGet (c : cache) (l : loc) (h : heap) (k : cache * answer -> client)
| CPut (c : cache) (ls : list loc) (id : list N) (k : cache * res N -> client)
| CRemove (c : cache) (l : loc) (k : cache * res unit -> client).

Fixpoint client_prog (digest : list N -> list N) (fuel : nat) (c : client) : prog (list (loc * answer)) :=
  match c with
  | CDone => Ret []
  | CGet c l h k => do r <- cache_get digest fuel c l h ;;
                    do log <- client_prog digest fuel (k r) ;;
                    Ret ((l, snd r) :: log)
  | CPut c ls id k => do r <- cache_put digest fuel c ls id ;; client_prog digest fuel (k r)
  | CRemove c l k => do r <- cache_remove digest c l ;; client_prog digest fuel (k r)
  end.

(** The texts cached in memory are those of the locations (see C30). *)
Definition texts_ok (h : heap) : Prop := forall o t w, In o h -> formatted o = Some (t, w) -> t = location_format (val o) w.
(** The cache object is one for this directory, or one without a path. *)
Definition on_root (root : list N) (c : cache) : Prop := c_path c = None \/ c_path c = Some root.

(** Only genuine pairs are put; and the cache object and the memory that an operation returns may be used on. *)
Fixpoint honest (genuine : list loc -> list N -> Prop) (root : list N) (c : client) : Prop :=
  match c with
  | CDone => True
  | CGet c l h k => on_root root c /\ texts_ok h /\ forall c' a h', on_root root c' -> texts_ok h' -> honest genuine root (k (c', (a, h')))
  | CPut c ls id k => on_root root c /\ genuine ls id /\ putable ls id /\ forall c' r, on_root root c' -> honest genuine root (k (c', r))
  | CRemove c l k => on_root root c /\ forall c' r, on_root root c' -> honest genuine root (k (c', r))
  end.

(** What a lookup may answer: an id that was put for locations of which the first is at the same place, of the same file version and
    feature flags (the parts 2 + 4); and the locations put with it, apart from their roots. *)
Definition answered (genuine : list loc -> list N -> Prop) (e : loc * answer) : Prop :=
  let '(l, (r, h)) := e in
  match r with
  | Ok (id, o) =>
      exists first rest, genuine (first :: rest) id /\ agree 6 l first /\
      exists ls, map (value h) (items o) = map Some ls /\
                 concat (map sources ls) = concat (map (fun x => sources (rerooted None x)) (first :: rest)) /\
                 n_bytes o = len (concat (map sources ls))
  | Err _ => True
  | Abort => mtime l = UINT64_MAX      (* the assertion at the start *)
  | UB => False
  end.

(** ** One process alone, when no system call fails *)
(** The entry of the location [l] is there, and is that of the locations [ls] and the id. *)
Definition entry_at (digest : list N -> list N) (root : list N) (w : Posix.world) (l : loc) (ls : list loc) (id : list N) : Prop :=
  let name := entry_name root (digest (location_message l false)) in
  file_at w name = Some (entry_file ls id) \/ exists x, ls = [x] /\ name_at w name = Some (NLink (entry_link x id)).

(** The directory is there or may be made, and so is the subdirectory for [l]; there are no temporary files (".#...") in it. *)
Definition ready (digest : list N -> list N) (root : list N) (w : Posix.world) (l : loc) : Prop :=
  let sub := root ++ [47] ++ firstn 4 (chunk_id_format (digest (location_message l false))) in
  (name_at w root = None \/ name_at w root = Some NDir) /\ (name_at w sub = None \/ name_at w sub = Some NDir) /\
  forall s, name_at w (sub ++ [47; 46; 35] ++ s) = None.

(** The version of each file is known, and there is something in them. *)
Definition dated (ls : list loc) : Prop := Forall (fun l => mtime l < UINT64_MAX) ls /\ concat (map sources ls) <> [].

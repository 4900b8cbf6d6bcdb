(** The notions in which C35 is stated: the places a chunk is looked for in, and what it is for such a place to have a chunk or not. *)
From Verif Require Import Base ChunkId Posix ChunkFile Location Cache Queue Store StoreSpec SyncGet.
Local Open Scope N_scope.

(** Where a chunk may come from, in the order in which the places are to be asked. *)
Inductive source :=
| FromSeed (s : seed)
| FromStore (st : store)
| FromRemote (r : remote).

Definition opt {A} (o : option A) : list A := match o with Some a => [a] | None => [] end.
Definition local_sources (s : sync) : list source :=
  map FromSeed (sy_seeds s) ++ map FromStore (opt (sy_wstore s)) ++ map FromStore (opt (sy_cache_store s)) ++ map FromStore (sy_rstores s).
Definition sources (s : sync) : list source :=
  local_sources s ++ map FromRemote (opt (sy_remote_wstore s)) ++ map FromRemote (sy_remote_rstores s).

(** ** Seeds *)

(** The name of the entry for [id] in a seed's cache, and the text it holds: the target of a link (which ends at a NUL), or the contents of a
    file without NUL bytes. *)
Definition entry_name (root id : list N) : list N := chunk_name (root ++ [47]) id UNCOMPRESSED.
Definition noted (w : Posix.world) (root id text : list N) : Prop :=
  ~ In 0 text /\
  ((exists t, name_at w (entry_name root id) = Some (NLink t) /\ (t = text \/ exists rest, t = text ++ 0 :: rest)) \/
   file_at w (entry_name root id) = Some text).

(** The entry can be read: its text has no NUL (no link has), and at most 1 MiB. *)
Definition legible (w : Posix.world) (root id text : list N) : Prop :=
  ~ In 0 text /\ len text <= 1048576 /\
  (name_at w (entry_name root id) = Some (NLink text) \/ file_at w (entry_name root id) = Some text).

(** The data in a walk before anything goes wrong or the end is reached. *)
Fixpoint data_of (evs : list walk_event) : list N :=
  match evs with
  | WData b :: evs => b ++ data_of evs
  | WNoData :: evs => data_of evs
  | _ => []
  end.

(** The seed's tree still has, at the place that the entry for [id] names, the chunk [p] with that digest. *)
Definition seed_offers (digest : dtype -> list N -> list N) (w : Posix.world) (s : seed) (id p : list N) : Prop :=
  exists root text l rest,
    sd_cache s = Some root /\ sd_chunks s = true /\ noted w root id text /\ location_parse text = Ok l /\
    Location.size l = len p /\ data_of (sd_walk s l) = p ++ rest /\ digest (sd_digest s) p = id /\
    CHUNK_LIMIT_MIN <= len p <= CHUNK_LIMIT_MAX.

(** What ends a walk; [None] if it does not end. *)
Fixpoint end_of (evs : list walk_event) : option walk_event :=
  match evs with
  | [] => None
  | WData _ :: evs | WNoData :: evs => end_of evs
  | e :: _ => Some e
  end.

(** A seed that has no entry for [id], one without a size (as hard link seeds have), or one that names a place at which the tree was changed: there is
    no such file, less data, or data with another digest. *)
Definition seed_misses (digest : dtype -> list N -> list N) (w : Posix.world) (s : seed) (id : list N) : Prop :=
  exists root, sd_cache s = Some root /\ sd_chunks s = true /\
  (name_at w (entry_name root id) = None \/
   exists text l, legible w root id text /\ location_parse text = Ok l /\
     (Location.size l = UINT64_MAX \/
      Location.size l <= sd_size_max s /\
      ((exists rest, sd_walk s l = WFail ENXIO :: rest) \/
       (len (data_of (sd_walk s l)) < Location.size l /\ end_of (sd_walk s l) = Some WFinished) \/
       (exists p rest, data_of (sd_walk s l) = p ++ rest /\ len p = Location.size l /\ digest (sd_digest s) p <> id /\
                       CHUNK_LIMIT_MIN <= len p <= CHUNK_LIMIT_MAX)))).

(** ** Stores: nothing under the two names of the chunk. A cache store has no directory before the first chunk is put. *)
Definition store_misses (w : Posix.world) (st : store) (id : list N) : Prop :=
  match st_root st with
  | None => st_is_cache st = true
  | Some root => forall c, name_at w (chunk_name root id c) = None
  end.

(** ** Remotes: the remote's directory of received chunks, and the mark in it by which a chunk is known to be missing at the other end: a link. *)
Definition cache_dir (r : remote) : list N := q_path (rm_queue r) ++ [47].
Definition remote_misses (w : Posix.world) (r : remote) (id : list N) (desired : chunk_compression) : Prop :=
  let first := match desired with UNCOMPRESSED => UNCOMPRESSED | _ => COMPRESSED end in
  let second := match desired with UNCOMPRESSED => COMPRESSED | _ => UNCOMPRESSED end in
  (exists t, name_at w (chunk_name (cache_dir r) id first) = Some (NLink t)) \/
  (name_at w (chunk_name (cache_dir r) id first) = None /\ exists t, name_at w (chunk_name (cache_dir r) id second) = Some (NLink t)).

Definition marked (w : Posix.world) (r : remote) (id : list N) : Prop := exists c t, name_at w (chunk_name (cache_dir r) id c) = Some (NLink t).

(** The directories of the queue of requests are there once something was queued, and a chunk's link with low priority leads somewhere. *)
Definition coherent (w : Posix.world) (q : queue) (id : list N) : Prop :=
  (forall d, d = s_chunks \/ d = s_high ->
     name_at w (in_cache (q_path q) d) = Some NDir \/ (name_at w (in_cache (q_path q) d) = None /\ end_high q = 0)) /\
  (forall x, name_at w (chunk_link q id) = Some (NLink (s_low ++ 47 :: x)) -> name_at w (in_cache (q_path q) (s_low ++ 47 :: x)) <> None).

(** The link farm of the queue of requests is as ca_remote_enqueue_request left it: the directories are there once something was queued, and
    each chunk's link leads to the one in the queue. *)
Definition orderly (w : Posix.world) (q : queue) (id : list N) : Prop :=
  (name_at w (q_path q) = None \/ name_at w (q_path q) = Some NDir) /\
  (q_open q = true -> name_at w (q_path q) = Some NDir) /\
  (forall d, d = s_chunks \/ d = s_high ->
     name_at w (in_cache (q_path q) d) = Some NDir \/ (name_at w (in_cache (q_path q) d) = None /\ end_high q = 0)) /\
  match name_at w (chunk_link q id) with
  | None => name_at w (in_cache (q_path q) (queue_pos true (end_high q))) = None
  | Some (NLink t) =>
    (exists n, n < two64 /\ t = queue_pos true n) \/
    (exists n m, n < two64 /\ t = queue_pos false n /\ name_at w (in_cache (q_path q) t) = Some (NLink m) /\
                 name_at w (in_cache (q_path q) (queue_pos true (end_high q))) = None)
  | Some _ => False
  end.

(** A request for [id] is in the queue, with high priority. *)
Definition queued (w : Posix.world) (q : queue) (id : list N) : Prop :=
  exists n, name_at w (chunk_link q id) = Some (NLink (queue_pos true n)) /\ name_at w (in_cache (q_path q) (queue_pos true n)) = Some (NLink (chunk_id_format id)).

(** ** All of them. [w] is the file system before the request, [w'] afterwards: a request creates at most the remote's cache directory before
    it looks for a chunk there. If [faults] are considered, a seed may be passed over because of a system call that failed (with ESTALE). *)
Definition misses (faults : bool) (digest : dtype -> list N -> list N) (w w' : Posix.world) (id : list N) (x : source) : Prop :=
  match x with
  | FromSeed s => faults = false -> forall p, ~ seed_offers digest w s id p
  | FromStore st => store_misses w st id
  | FromRemote r => marked w' r id
  end.

(** What is delivered, [b] in the form [e], stands for the chunk [p]. *)
Definition stands (codecs : ctype -> option codec) (e : chunk_compression) (b p : list N) : Prop :=
  match e with
  | UNCOMPRESSED => b = p
  | COMPRESSED => exists ct cd, detect_compression b = Ok ct /\ codecs ct = Some cd /\ inflates cd (dec_new cd) b p
  | AS_IS => False
  end.

(** The digests by which a place may name chunks. *)
Definition names_by (x : source) (t : dtype) : Prop :=
  match x with
  | FromSeed s => t = sd_digest s
  | FromStore st => st_digest st = None \/ st_digest st = Some t
  | FromRemote r => rm_digest r = None \/ rm_digest r = Some t
  end.

(** What is delivered is of the form desired, and stands for a chunk of the size that chunks may have, whose digest, of the sort by which the place
    names chunks, is the id asked for. *)
Definition delivers (codecs : ctype -> option codec) (digest : dtype -> list N -> list N) (id : list N) (desired : chunk_compression)
  (x : source) (p b : list N) (e : chunk_compression) : Prop :=
  (desired <> AS_IS -> e = desired) /\ stands codecs e b p /\ (exists t, digest t p = id /\ names_by x t) /\ CHUNK_LIMIT_MIN <= len p <= CHUNK_LIMIT_MAX.

(** Handles as they can be: of stores see StoreSpec.handle; the digest object of a remote, if there is one, has the type configured, if one is
    (caremote.c:2066, 2074, ca_remote_set_digest_type). *)
Definition remote_handle (r : remote) : Prop := forall t, rm_digest r = Some t -> rm_validate r = None \/ rm_validate r = Some t.
Definition usable (codecs : ctype -> option codec) (digest : dtype -> list N -> list N) (vtd : list N) (fuel : nat) (s : sync) : Prop :=
  (forall st, In (FromStore st) (sources s) -> handle codecs digest vtd fuel st) /\
  (forall r, In (FromRemote r) (sources s) -> remote_handle r).

(** What the place that serves a request has: a seed has the very chunk, a store or a remote's cache has something under its name. *)
Definition has_it (digest : dtype -> list N -> list N) (w w' : Posix.world) (id p : list N) (x : source) : Prop :=
  match x with
  | FromSeed s => seed_offers digest w s id p
  | FromStore st => exists root c i, st_root st = Some root /\ name_at w (chunk_name root id c) = Some (NFile i)
  | FromRemote r => exists c i, name_at w' (chunk_name (cache_dir r) id c) = Some (NFile i)
  end.

(** The first in a list for which something holds; the ones before it all miss. *)
Definition first_of {A} (miss has : A -> Prop) (l : list A) : Prop := exists pre x post, l = pre ++ x :: post /\ Forall miss pre /\ has x.

(** ** What it takes for a request to be served: a place that has the chunk in good order, with room for the form desired. *)
Definition serves (codecs : ctype -> option codec) (digest : dtype -> list N -> list N) (bound : N -> N) (t : option ctype)
  (w : Posix.world) (id p : list N) (desired : chunk_compression) (x : source) : Prop :=
  CHUNK_LIMIT_MIN <= len p < CHUNK_LIMIT_MAX /\
  match x with
  | FromSeed s => seed_offers digest w s id p /\ len p <= sd_size_max s /\
      (exists root text, sd_cache s = Some root /\ legible w root id text) /\
      (desired = COMPRESSED -> exists ct cd, t = Some ct /\ codecs ct = Some cd /\ bound (len p) < CHUNK_LIMIT_MAX)
  | FromStore st => (exists root, st_root st = Some root /\ holds codecs w root id p) /\ named digest st id p /\
      (desired = COMPRESSED -> exists ct cd, st_ctype st = Some ct /\ codecs ct = Some cd /\ bound (len p) < CHUNK_LIMIT_MAX)
  | FromRemote r => rm_pull r = true /\ rm_eof r = false /\ holds codecs w (cache_dir r) id p /\
      (exists d, digest d p = id /\ (rm_digest r = None \/ rm_digest r = Some d)) /\
      name_at w (q_path (rm_queue r)) = Some NDir /\
      (desired = COMPRESSED -> exists ct cd, rm_ctype r = Some ct /\ codecs ct = Some cd /\ bound (len p) < CHUNK_LIMIT_MAX)
  end.

(** A place that is passed over. *)
Definition passed (digest : dtype -> list N -> list N) (w : Posix.world) (id : list N) (desired : chunk_compression) (x : source) : Prop :=
  match x with
  | FromSeed s => seed_misses digest w s id
  | FromStore st => store_misses w st id
  | FromRemote r => rm_pull r = true /\ rm_eof r = false /\ name_at w (q_path (rm_queue r)) = Some NDir /\ remote_misses w r id desired
  end.

(** A remote that was not asked for the chunk yet, or has not answered. *)
Definition unanswered (w : Posix.world) (id : list N) (x : source) : Prop :=
  exists r, x = FromRemote r /\ rm_pull r = true /\ rm_eof r = false /\ orderly w (rm_queue r) id /\
            forall c, name_at w (chunk_name (cache_dir r) id c) = None.

(** A place of this machine that has something under a name of the chunk. *)
Definition listed (w : Posix.world) (id : list N) (x : source) : Prop :=
  match x with
  | FromSeed s => exists root, sd_cache s = Some root /\ name_at w (entry_name root id) <> None
  | FromStore st => exists root c, st_root st = Some root /\ name_at w (chunk_name root id c) <> None
  | FromRemote r => False
  end.

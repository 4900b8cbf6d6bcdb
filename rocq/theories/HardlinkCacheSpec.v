(** What has happened to a seed's cache. *)
From Verif Require Import Base ArchiveBase ChunkId Location LocationSpec HardlinkCache.
Local Open Scope N_scope.

Inductive event :=
| Finished (mode : N) (digest : res (list N)) (path : list N) (trouble : option errno)    (* the encoder has finished a file *)
| Chunked (id : list N) (l : loc) (trouble : option errno).                               (* the chunker has finished a chunk *)
(** Digests are 32 bytes, and chunks have a known size. *)
Definition event_ok (x : event) : Prop :=
  match x with
  | Finished _ digest _ _ => forall v, digest = Ok v -> id_ok v = true
  | Chunked id l _ => id_ok id = true /\ proper l /\ typed l /\ size l <> UINT64_MAX
  end.
Definition happens (enabled : bool) (c : cache) (x : event) : cache :=
  match (match x with Finished mode digest p t => cache_hardlink enabled mode digest p t c | Chunked id l t => write_cache_entry id l t c end) with
  | Ok c1 => c1 | _ => c end.
(** A cache, from an empty one on; failing events change nothing. *)
Definition cached (enabled : bool) (h : list event) : cache := fold_left (happens enabled) h [].

(** The event tells that the file with the digest [v] is at [p]. *)
Definition tells (v p : list N) (x : event) : Prop := exists mode t, x = Finished mode (Ok v) p t /\ S_ISREG mode = true.
(** The event has to do with [v]. *)
Definition about (v : list N) (x : event) : Prop := (exists p, tells v p x) \/ exists l t, x = Chunked v l t.

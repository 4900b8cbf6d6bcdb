(** The notions in which C37 is stated: reading a blob through its index, and what it is for the reading to be right. *)
From Verif Require Import Base Chunker ChunkId Posix ChunkFile Store StoreSpec IndexSpec SyncGet SyncGetSpec SyncWrite.
Local Open Scope N_scope.

(** The entries of the index of a blob that is cut into the chunks [cs]. *)
Definition listing (digest : list N -> list N) (cs : list (list N)) : list (list N * N) := map (fun c => (digest c, len c)) cs.

(** What a decoder asks for, and how it goes. System calls may return anything. *)
Inductive ask := ARequest (ready : bool) | ASeek (offset : N) | ASkip (size : N).
Inductive asked (codecs : ctype -> option codec) (digest : dtype -> list N -> list N) (fuel : nat) : ask -> reader -> reader -> res fed -> Prop :=
| asked_request ready rd rd' r : may (decoder_request codecs digest fuel ready rd) (rd', r) -> asked codecs digest fuel (ARequest ready) rd rd' r
| asked_seek o rd rd' r : decoder_seek o rd = (rd', r) -> asked codecs digest fuel (ASeek o) rd rd' r
| asked_skip n rd rd' r : n < 2 ^ 64 -> decoder_skip n rd = (rd', r) -> asked codecs digest fuel (ASkip n) rd rd' r.
Inductive session (codecs : ctype -> option codec) (digest : dtype -> list N -> list N) (fuel : nat) : reader -> list (ask * res fed) -> Prop :=
| session_end rd : session codecs digest fuel rd []
| session_next rd a rd' r tr : asked codecs digest fuel a rd rd' r -> session codecs digest fuel rd' tr -> session codecs digest fuel rd ((a, r) :: tr).

(** [x] is what the blob [concat cs] has at [pos] up to the end of a chunk; or it is the end, likewise, of something else that has the size and
    the digest of that chunk. *)
Definition piece (digest : dtype -> list N -> list N) (d : dtype) (cs : list (list N)) (pos : N) (x : list N) : Prop :=
  exists pre c post skip p t, cs = pre ++ c :: post /\ pos = len (concat pre) + skip /\ skip < len c /\
    x = dropN skip p /\ len p = len c /\ digest t p = digest d c.

(** A session is right if everything handed to the decoder is what the blob has at the position: that reached by the last seek, what was handed
    out since and what was skipped. The end is only announced at or behind the end, seeks only succeed to within the blob. Nothing is said about what
    happens after an error. *)
Fixpoint right (digest : dtype -> list N -> list N) (d : dtype) (cs : list (list N)) (pos : N) (tr : list (ask * res fed)) : Prop :=
  match tr with
  | [] => True
  | (ARequest _, Ok (FData x)) :: tr => piece digest d cs pos x /\ right digest d cs (pos + len x) tr
  | (ARequest _, Ok FEof) :: tr => len (concat cs) <= pos /\ right digest d cs pos tr
  | (ASeek o, Ok _) :: tr => o < len (concat cs) /\ right digest d cs o tr
  | (ASkip n, Ok _) :: tr => right digest d cs (pos + n) tr
  | (ARequest _, Ok _) :: tr => right digest d cs pos tr
  | (_, _) :: tr => True
  end.

(** ** Writing *)

(** No two of the chunks have the same digest, and the store has nothing else under the name of one of them. *)
Definition unclashed (digest : list N -> list N) (cs : list (list N)) (m : list N -> option (list N)) : Prop :=
  (forall a b, In a cs -> In b cs -> digest a = digest b -> a = b) /\ (forall c p, In c cs -> m (digest c) = Some p -> p = c).

(** The chunks [cs] were added to the contents [m] of a store. *)
Definition added (digest : list N -> list N) (cs : list (list N)) (m m' : list N -> option (list N)) : Prop :=
  (forall c, In c cs -> m' (digest c) = Some c) /\ (forall id, (forall c, In c cs -> digest c <> id) -> m' id = m id).

(** The store at [root] can be written to: no chunk of any name is in the way of being stored. *)
Definition tidy (w : Posix.world) (root : list N) : Prop := forall id, id_ok id = true -> unobstructed w root id.

(** What is taken for granted of the compression libraries, and the notions in which the store's properties are stated. *)
From Verif Require Import Base ChunkId Posix ChunkFile Store.
Local Open Scope N_scope.

(** [decodes cd s z p]: from state [s] on, if the decoder is fed the byte string [z] in any portions and given any room for
    output, each call makes progress, the outputs put together are [p], and the end of the stream is reported in the
    call which takes the last byte of [z] (liblzma and zlib: the stream ends with a trailer which is read after all
    output is delivered; libzstd: holds back one input byte until all output is delivered). *)
Definition decodes (cd : codec) (s : dec_st cd) (z p : list N) : Prop :=
  exists D : dec_st cd -> list N -> list N -> Prop,
    (forall s z p, D s z p ->
       z <> [] /\
       forall inp rest room, z = inp ++ rest -> inp <> [] -> 0 < room ->
       exists s' n out e p',
         dec_step cd s inp room = Some (s', n, out, e) /\ n <= len inp /\ len out <= room /\ p = out ++ p' /\
         (if e : bool then n = len z /\ p' = []
          else D s' (dropN n z) p' /\ (0 < n \/ out <> [])))
    /\ D s z p.

(** [z] is a complete compressed stream which holds [p]. *)
Definition packed (cd : codec) (z p : list N) : Prop := decodes cd (dec_new cd) z p.

(** A library that works: [E s d o fin] relates the encoder's states to the input [d] taken and the output [o] delivered so far; [fin] is
    what input is left once finishing was asked for. Each call makes progress; at the end the output is a stream
    that holds the input, carries the library's signature, and wasn't ever longer than [bound] says. *)
Definition codec_ok (bound : N -> N) (t : ctype) (cd : codec) : Prop :=
  exists E : enc_st cd -> list N -> list N -> option (list N) -> Prop,
    (forall s d o fin, E s d o fin ->
       forall (finish : bool) inp room,
       0 < room -> (finish = false -> inp <> []) -> (forall l, fin = Some l -> finish = true /\ inp = l) ->
       exists s' n out e,
         enc_step cd s finish inp room = Some (s', n, out, e) /\ n <= len inp /\ len out <= room /\
         len (o ++ out) <= bound (len (d ++ takeN n inp)) /\
         (if e : bool then finish = true /\ n = len inp /\
                    packed cd (o ++ out) (d ++ inp) /\ detect_compression (o ++ out) = Ok t
          else E s' (d ++ takeN n inp) (o ++ out) (if finish then Some (dropN n inp) else None) /\
               (0 < n \/ out <> [])))
    /\ E (enc_new cd) [] [] None.

Definition codecs_ok (bound : N -> N) (codecs : ctype -> option codec) : Prop :=
  (forall a b, a <= b -> bound a <= bound b) /\
  forall t cd, codecs t = Some cd -> codec_ok bound t cd.

(** A byte string as it is kept in a file or a buffer, and the chunk it stands for. *)
Definition represents (codecs : ctype -> option codec) (c : chunk_compression) (content p : list N) : Prop :=
  match c with
  | UNCOMPRESSED => content = p
  | COMPRESSED => exists t cd, detect_compression content = Ok t /\ codecs t = Some cd /\ packed cd content p
  | AS_IS => False
  end.

(** [p] has the name [id] for this store: by the digest configured, or by any, if none is. *)
Definition named (digest : dtype -> list N -> list N) (st : store) (id p : list N) : Prop :=
  exists t, digest t p = id /\ (st_digest st = None \/ st_digest st = Some t).

(** The file names a chunk may be found under. *)
Definition chunk_name (root id : list N) (c : chunk_compression) : list N :=
  chunk_id_format_path root id (match c with UNCOMPRESSED => [] | _ => cacnk end).

(** A file system in which no name occurs twice and each file has its contents. *)
Definition world_ok (w : world) : Prop :=
  NoDup (map fst (w_names w)) /\
  (forall p i, name_at w p = Some (NFile i) -> (i < length (w_inodes w))%nat) /\
  (forall fd i pos, nth_error (w_fds w) fd = Some (i, pos) -> (i < length (w_inodes w))%nat).

(** Total correctness: however the system calls turn out, [p] started in [w] comes to an end, with a result that satisfies [Q]. *)
Fixpoint ends (faults : bool) {A} (w : world) (p : prog A) (Q : world -> A -> Prop) : Prop :=
  match p with
  | Ret a => Q w a
  | Hang => False
  | Sys c k => (exists w' r, sys faults w c w' r) /\
               forall w' r, sys faults w c w' r -> ends faults w' (k r) Q
  end.

(** The bound on loop rounds is beyond what any chunk needs. *)
Definition enough (fuel : nat) : Prop := 2 * CHUNK_LIMIT_MAX + 2 < N.of_nat fuel.

(** The store's directory [root] holds the chunk [p] under the name [id], in one or both of the forms, and nothing else under
    these names. *)
Definition holds (codecs : ctype -> option codec) (w : world) (root id p : list N) : Prop :=
  (exists c content, file_at w (chunk_name root id c) = Some content) /\
  (forall c, c = UNCOMPRESSED \/ c = COMPRESSED ->
     name_at w (chunk_name root id c) = None \/
     exists content, file_at w (chunk_name root id c) = Some content /\
                     represents codecs c content p /\ len content < CHUNK_LIMIT_MAX).

(** [may p a]: [p] can end with [a] if every system call may return anything at all; this covers whatever other processes do to the
    file system in between. *)
Inductive may {A} : prog A -> A -> Prop :=
| may_ret a : may (Ret a) a
| may_sys c k r a : may (k r) a -> may (Sys c k) a.


(** The library's calls, one after the other, turn the input into the output and report the end of the stream when there is no input
    left. *)
Inductive inflates (cd : codec) : dec_st cd -> list N -> list N -> Prop :=
| inf_end s inp room s' n out : dec_step cd s inp room = Some (s', n, out, true) -> len inp <= n ->
    inflates cd s inp out
| inf_step s inp room s' n out rest : dec_step cd s inp room = Some (s', n, out, false) ->
    inflates cd s' (dropN n inp) rest -> inflates cd s inp (out ++ rest).

(** ** Clients of a store

    What a process does with a store directory: any program that puts, looks up, marks as missing or removes chunks, each step
    depending on the results of the previous ones. *)
Inductive client :=
| CDone
| CPut (st : store) (id : list N) (effective : chunk_compression) (data : list N) (k : store * res unit -> client)
| CGet (st : store) (id : list N) (desired : chunk_compression) (k : res (store * list N * chunk_compression) -> client)
| CHas (st : store) (id : list N) (k : res bool -> client)
| CMissing (id : list N) (k : res unit -> client)
| CRemove (id : list N) (k : res unit -> client).

Fixpoint client_prog (codecs : ctype -> option codec) (digest : dtype -> list N -> list N) (vtd : list N) (fuel : nat)
  (root : list N) (c : client) : prog unit :=
  let go := client_prog codecs digest vtd fuel root in
  match c with
  | CDone => Ret tt
  | CPut st id effective data k => pbind (store_put codecs vtd fuel st id effective data) (fun r => go (k r))
  | CGet st id desired k => pbind (store_get codecs digest fuel st id desired) (fun r => go (k r))
  | CHas st id k => pbind (store_has st id) (fun r => go (k r))
  | CMissing id k => pbind (chunk_file_mark_missing root id) (fun r => go (k r))
  | CRemove id k => pbind (chunk_file_remove root id) (fun r => go (k r))
  end.

(** What is put is in the form it is said to be in, and is a chunk the id may stand for. *)
Fixpoint honest (codecs : ctype -> option codec) (root : list N) (genuine : list N -> list N -> Prop) (c : client) : Prop :=
  match c with
  | CDone => True
  | CPut st id effective data k =>
    (st_root st = Some root /\ id_ok id = true /\ len data < CHUNK_LIMIT_MAX /\
     exists p, represents codecs effective data p /\ genuine id p) /\ forall r, honest codecs root genuine (k r)
  | CGet st id desired k => forall r, honest codecs root genuine (k r)
  | CHas st id k => forall r, honest codecs root genuine (k r)
  | CMissing id k | CRemove id k => id_ok id = true /\ forall r, honest codecs root genuine (k r)
  end.

(** Under each of the two names of each chunk is nothing, a mark that it is missing, or a complete file with that chunk. *)
Definition intact (codecs : ctype -> option codec) (genuine : list N -> list N -> Prop) (root : list N) (w : world) : Prop :=
  forall id c, id_ok id = true -> c = UNCOMPRESSED \/ c = COMPRESSED ->
  name_at w (chunk_name root id c) = None \/ (exists t, name_at w (chunk_name root id c) = Some (NLink t)) \/
  exists content p, file_at w (chunk_name root id c) = Some content /\ represents codecs c content p /\ genuine id p /\ len content < CHUNK_LIMIT_MAX.

(** ** Histories of a store

    Operations one after the other on the store in [root], by any handles, in which any system call may fail, and what they returned.
    The chunks put are of a size below the limit. *)
Inductive event :=
| EPut (id p : list N) (ok : bool)
| EHas (id : list N) (answer : option bool)
| EGet (id : list N) (answer : option (list N * chunk_compression))
| ERemove (id : list N) (ok : bool).

Definition is_ok {A} (r : res A) : bool := match r with Ok _ => true | _ => false end.

Section History.
Context (codecs : ctype -> option codec) (digest : dtype -> list N -> list N) (vtd : list N) (fuel : nat) (root : list N).

Inductive history : world -> list event -> world -> Prop :=
| h_nil w : history w [] w
| h_put w st id effective data p w1 st' r h w2 :
    st_root st = Some root -> id_ok id = true -> represents codecs effective data p -> len data < CHUNK_LIMIT_MAX ->
    CHUNK_LIMIT_MIN <= len p < CHUNK_LIMIT_MAX ->
    exec true w (store_put codecs vtd fuel st id effective data) w1 (st', r) ->
    history w1 h w2 -> history w (EPut id p (is_ok r) :: h) w2
| h_has w st id w1 r h w2 :
    st_root st = Some root -> id_ok id = true -> exec true w (store_has st id) w1 r ->
    history w1 h w2 -> history w (EHas id (match r with Ok b => Some b | _ => None end) :: h) w2
| h_get w st id desired w1 r h w2 :
    st_root st = Some root -> id_ok id = true -> exec true w (store_get codecs digest fuel st id desired) w1 r ->
    history w1 h w2 -> history w (EGet id (match r with Ok (_, b, e) => Some (b, e) | _ => None end) :: h) w2
| h_remove w id w1 r h w2 :
    id_ok id = true -> exec true w (chunk_file_remove root id) w1 r ->
    history w1 h w2 -> history w (ERemove id (is_ok r) :: h) w2.

(** The same events on a map from ids to chunks: an operation that reports success has done what it says, one that reports failure has
    either done it or done nothing; nothing is ever replaced. *)
Definition map_with (m : list N -> option (list N)) (id : list N) (x : option (list N)) : list N -> option (list N) :=
  fun i => if beq id i then x else m i.

Inductive mapped : (list N -> option (list N)) -> list event -> (list N -> option (list N)) -> Prop :=
| m_nil m : mapped m [] m
| m_put m id p ok h m2 : m id = None -> mapped (map_with m id (Some p)) h m2 -> mapped m (EPut id p ok :: h) m2
| m_put_fail m id p h m2 : mapped m h m2 -> mapped m (EPut id p false :: h) m2
| m_has m id h m2 : mapped m h m2 ->
    mapped m (EHas id (Some (match m id with Some _ => true | None => false end)) :: h) m2
| m_has_fail m id h m2 : mapped m h m2 -> mapped m (EHas id None :: h) m2
| m_get m id b e p h m2 : m id = Some p -> represents codecs e b p -> mapped m h m2 -> mapped m (EGet id (Some (b, e)) :: h) m2
| m_get_fail m id h m2 : mapped m h m2 -> mapped m (EGet id None :: h) m2
| m_remove m id ok h m2 : mapped (map_with m id None) h m2 -> mapped m (ERemove id ok :: h) m2
| m_remove_fail m id h m2 : mapped m h m2 -> mapped m (ERemove id false :: h) m2.
End History.

(** The directory holds the chunks of the map, and no others. *)
Definition store_is (codecs : ctype -> option codec) (w : world) (root : list N) (m : list N -> option (list N)) : Prop :=
  forall id, id_ok id = true ->
  match m id with
  | Some p => holds codecs w root id p
  | None => name_at w (chunk_name root id UNCOMPRESSED) = None /\ name_at w (chunk_name root id COMPRESSED) = None
  end.

(** Nothing is in the way of a chunk being stored: its subdirectory isn't there or is a directory, no temporary file is left over. *)
Definition unobstructed (w : world) (root id : list N) : Prop :=
  (name_at w (dirname (chunk_name root id UNCOMPRESSED)) = None \/ name_at w (dirname (chunk_name root id UNCOMPRESSED)) = Some NDir) /\
  forall v, name_at w (chunk_id_format_path root id (tmp_suffix v)) = None.

(** The handles a program can have: made by one of the two constructors, configured, used for gets and puts. A get that
    fails may leave the digest object with any type if none is configured (see store_validate). *)
Inductive handle (codecs : ctype -> option codec) (digest : dtype -> list N -> list N) (vtd : list N) (fuel : nat) : store -> Prop :=
| hd_new t : handle codecs digest vtd fuel (store_new t)
| hd_new_cache t : handle codecs digest vtd fuel (store_new_cache t)
| hd_path st p st' : handle codecs digest vtd fuel st -> store_set_path st p = Ok st' -> handle codecs digest vtd fuel st'
| hd_compression st c : handle codecs digest vtd fuel st -> handle codecs digest vtd fuel (store_set_compression st c)
| hd_ctype st t : handle codecs digest vtd fuel st -> handle codecs digest vtd fuel (store_set_ctype st t)
| hd_digest st t : handle codecs digest vtd fuel st -> handle codecs digest vtd fuel (store_set_digest st t)
| hd_get st id desired st' b e : handle codecs digest vtd fuel st -> may (store_get codecs digest fuel st id desired) (Ok (st', b, e)) ->
    handle codecs digest vtd fuel st'
| hd_get_failed st t : handle codecs digest vtd fuel st -> st_digest st = None -> handle codecs digest vtd fuel (store_set_validate st t)
| hd_put st id effective data st' r : handle codecs digest vtd fuel st -> may (store_put codecs vtd fuel st id effective data) (st', r) ->
    handle codecs digest vtd fuel st'.

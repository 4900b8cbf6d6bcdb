(** The remote protocol, stated independently of the engine: the frames on the wire, what a conversation of two endpoints over two
    byte streams is, and what each side has sent and received in it. *)
From Coq Require Import List NArith Bool.
From Verif Require Import Base Remote.
Import ListNotations.
Open Scope N_scope.

(** ** The messages and their representation *)

Inductive message :=
| MHello (flags : N)
| MFile (k : kind) (data : bytes)
| MEof (k : kind)
| MRequest (high : bool) (ids : list bytes)
| MChunk (compressed : bool) (id data : bytes)
| MMissing (id : bytes)
| MGoodbye
| MAbort (error : N) (reason : bytes).

Definition tag (m : message) : N :=
  match m with
  | MHello _ => 0x3c71d0948ca5fbee
  | MFile Index _ => 0xb32a91dd2b3e27f8
  | MFile Archive _ => 0x95d6428a69eddcc5
  | MEof Index => 0x4f0932f1043718f5
  | MEof Archive => 0x450bef663f24cbad
  | MRequest _ _ => 0x8ab427e0f89d9210
  | MChunk _ _ _ => 0x5213dd180a84bc8c
  | MMissing _ => 0xd010f9fac82b7b6c
  | MGoodbye => 0xad205dbf1a3686c3
  | MAbort _ _ => 0xe7d9136b7efea352
  end.

Definition flag (b : bool) : N := if b then 1 else 0.

Definition body (m : message) : bytes :=
  match m with
  | MHello flags => le64 flags
  | MFile _ data => data
  | MEof _ | MGoodbye => []
  | MRequest high ids => le64 (flag high) ++ concat ids
  | MChunk compressed id data => le64 (flag compressed) ++ id ++ data
  | MMissing id => id
  | MAbort error reason => le64 error ++ reason ++ [0]
  end.

(** A frame: its own size, the type of the message, the message. *)
Definition wire (m : message) : bytes := le64 (16 + len (body m)) ++ le64 (tag m) ++ body m.

Definition is_id (id : bytes) : Prop := len id = 32 /\ bytes_ok id = true.

(** The messages of the protocol: what a frame may contain. *)
Definition legal (m : message) : Prop :=
  16 + len (body m) <= 16777216 /\
  match m with
  | MHello flags => 0 < flags /\ flags < 2 ^ 64 - 1
  | MFile _ data => data <> [] /\ bytes_ok data = true
  | MEof _ | MGoodbye => True
  | MRequest _ ids => ids <> [] /\ Forall is_id ids
  | MChunk _ id data => is_id id /\ data <> [] /\ bytes_ok data = true
  | MMissing id => is_id id
  | MAbort error reason => error < 2 ^ 31 - 1 /\ bytes_ok reason = true /\ Forall (fun c => 32 <= c) reason
  end.

(** Does one of the two sides, with the options [mine] and [theirs], transfer the file [k] to the other, who has [theirs]?  It does
    if the other one wants to pull it, or itself wants to push it. *)
Definition sends (k : kind) (mine theirs : N) : bool :=
  match k with
  | Index => N.testbit theirs 7 || N.testbit mine 10
  | Archive => N.testbit theirs 8 || N.testbit mine 12
  end.

(** The same for chunks, and for requests for chunks, which go the other way. *)
Definition sends_chunks (mine theirs : N) : bool := N.testbit theirs 6 || N.testbit mine 9.

(** What an endpoint is prepared to be told next. *)
Definition expects (r : rem) (m : message) : Prop :=
  match m with
  | MHello _ => state r = Hello
  | MAbort _ _ => state r <> Eof
  | MGoodbye => state r = Running
  | MFile k _ | MEof k => state r = Running /\ sends k (remote r) (local r) = true /\ f_complete (get_file k r) = false
  | MRequest _ _ => state r = Running /\ sends_chunks (local r) (remote r) = true
  | MChunk _ _ _ | MMissing _ => state r = Running /\ sends_chunks (remote r) (local r) = true
  end.

(** The bytes do not yet decide what the next message is: the header is not complete, or it announces a frame of an acceptable size
    that is not complete. *)
Definition undecided (b : bytes) : Prop :=
  len b < 16 \/ (exists size rest, b = le64 size ++ rest /\ 16 <= size <= 16777216 /\ len b < size).

(** ** What is transferred *)

Inductive item :=
| IFile (k : kind) (data : bytes)
| IEof (k : kind)
| IRequest (id : bytes) (high : bool)
| IChunk (id : bytes) (compressed : bool) (data : bytes)
| IMissing (id : bytes)
| IGoodbye
| IAbort (error : N).

(** What a message transfers. *)
Definition items (m : message) : list item :=
  match m with
  | MHello _ => []
  | MFile k d => [IFile k d]
  | MEof k => [IEof k]
  | MRequest high ids => map (fun id => IRequest id high) ids
  | MChunk c id d => [IChunk id c d]
  | MMissing id => [IMissing id]
  | MGoodbye => [IGoodbye]
  | MAbort e _ => [IAbort e]
  end.

(** The calls that put something into the connection. *)
Inductive call :=
| CPutChunk (id : bytes) (compressed : bool) (data : bytes)
| CPutMissing (id : bytes)
| CPutFile (k : kind) (data : bytes)
| CPutEof (k : kind)
| CGoodbye (i : io)
| CAbort (error : N) (message : bytes).

Definition perform (c : call) (r : rem) : rem * res unit :=
  match c with
  | CPutChunk id compressed data => put_chunk r id compressed data
  | CPutMissing id => put_missing r id
  | CPutFile k data => put_file r k data
  | CPutEof k => put_eof r k
  | CGoodbye i => let '(r', x, _) := goodbye i r in (r', x)
  | CAbort error message => abort r error message
  end.

(** The arguments of a call are what their C types admit. *)
Definition call_ok (c : call) : Prop :=
  match c with
  | CPutChunk id _ data => is_id id /\ bytes_ok data = true
  | CPutMissing id => is_id id
  | CPutFile _ data => bytes_ok data = true
  | CPutEof _ | CGoodbye _ => True
  | CAbort error message => bytes_ok message = true /\ len message < 2 ^ 63
  end.

(** What a successful call sends. *)
Definition put (c : call) : item :=
  match c with
  | CPutChunk id compressed data => IChunk id compressed data
  | CPutMissing id => IMissing id
  | CPutFile k data => IFile k data
  | CPutEof k => IEof k
  | CGoodbye _ => IGoodbye
  | CAbort error _ => IAbort error
  end.

(** What a step sends: the requests it takes from the queue, the data it reads from the files. *)
Definition taken (l : list effect) : list item :=
  flat_map (fun e => match e with
                     | EDequeue _ id high => [IRequest id high]
                     | EFileRead k data => [IFile k data]
                     | EFileEof k => [IEof k]
                     | _ => []
                     end) l.

(** What a step receives: the requests it adds to the queue, the chunks it puts into the cache, the data it writes to the files, or
    has ready for ca_remote_read_index and ca_remote_read_archive; and what it returns. *)
Definition stored (l : list effect) : list item :=
  flat_map (fun e => match e with
                     | EEnqueue id high => [IRequest id high]
                     | ESave id compressed data => [IChunk id compressed data]
                     | EMissing id => [IMissing id]
                     | EFileWrite k data => [IFile k data]
                     | _ => []
                     end) l.

Definition ready (r : rem) (k : kind) : list item :=
  match read_file r k with Ok (Some data) => [IFile k data] | _ => [] end.

Definition announced (x : ret) (r : rem) : list item :=
  match x with
  | ReadIndex => ready r Index
  | ReadArchive => ready r Archive
  | ReadIndexEof => [IEof Index]
  | ReadArchiveEof => [IEof Archive]
  | Finished => match state r with Eof => [IGoodbye] | _ => [] end
  | FailPeer error => [IAbort error]
  | _ => []
  end.

Definition delivered (o : outcome) : list item := let '(r, x, l) := o in stored l ++ announced x r.

(** ** The surroundings *)

(** The contracts of write(2), read(2) and of the queue of requests. *)
Definition honoured (e : effect) : Prop :=
  match e with
  | EWrite offered n => n <= len offered
  | ERead asked data => data <> [] /\ len data <= asked
  | EFileRead _ data => data <> [] /\ len data <= 65536 /\ bytes_ok data = true
  | EDequeue only id high => is_id id /\ match only with Some p => high = p | None => True end
  | _ => True
  end.

(** The bytes a step moves into the transport and takes from it. *)
Definition outgoing (l : list effect) : bytes :=
  flat_map (fun e => match e with EWrite offered n => takeN n offered | _ => [] end) l.
Definition incoming (l : list effect) : bytes :=
  flat_map (fun e => match e with ERead _ data => data | _ => [] end) l.

(** ** Conversations *)

(** A side of a conversation: the endpoint, whether ca_remote_step has failed (it is not called again then), and what has been sent
    and received so far. *)
Record side := mkSide { endpoint : rem; failed : bool; sent : list item; got : list item }.

Definition is_failure (x : ret) : bool := match x with Fail _ | FailPeer _ => true | _ => false end.

(** One side acts, between a stream [from] the other side and a stream [to] it: it steps, or one of the calls is used.
    [fair]: which calls are used. *)
Inductive acts (fair : rem -> call -> Prop) : side -> bytes -> bytes -> side -> bytes -> bytes -> Prop :=
| acts_step s from to i r x l from' :
    failed s = false -> step i (endpoint s) = (r, x, l) -> Forall honoured l -> from = incoming l ++ from' ->
    acts fair s from to (mkSide r (is_failure x) (sent s ++ taken l) (got s ++ delivered (r, x, l))) from' (to ++ outgoing l)
| acts_call s from to c r x :
    call_ok c -> fair (endpoint s) c -> perform c (endpoint s) = (r, x) ->
    acts fair s from to (mkSide r (failed s) (sent s ++ match x with Ok _ => [put c] | _ => [] end) (got s)) from to.

(** Two sides and the two streams between them. *)
Record talk := mkTalk { one : side; two : side; one_two : bytes; two_one : bytes }.

Definition fresh (r : rem) : side := mkSide r false [] [].

Inductive conversation (fair : rem -> call -> Prop) (r1 r2 : rem) : talk -> Prop :=
| c_new : conversation fair r1 r2 (mkTalk (fresh r1) (fresh r2) [] [])
| c_one a b p q a' p' q' :
    conversation fair r1 r2 (mkTalk a b p q) -> acts fair a q p a' q' p' -> conversation fair r1 r2 (mkTalk a' b p' q')
| c_two a b p q b' p' q' :
    conversation fair r1 r2 (mkTalk a b p q) -> acts fair b p q b' p' q' -> conversation fair r1 r2 (mkTalk a b' p' q').

(** Any call at any time. *)
Definition anything (r : rem) (c : call) : Prop := True.

(** Calls that do not break the rules of the protocol: no farewell before the greeting, and the reason for an abort is printable
    and fits into a frame. *)
Definition polite (r : rem) (c : call) : Prop :=
  match c with
  | CGoodbye _ => sent_hello r = true
  | CAbort _ reason => Forall (fun c => 32 <= c) reason /\ len reason <= 16777216 - 25
  | _ => True
  end.

(** No file is transferred in both directions. *)
Definition one_way (mine theirs : N) : Prop := forall k, sends k mine theirs = true -> sends k theirs mine = false.

(** The surroundings report the error [e] themselves. *)
Definition reports (i : io) (e : errno) : Prop :=
  io_write i = WErr e \/ io_read i = GErr e \/ io_deq_end i = e \/ In (Some e) (io_enq i) \/ io_fread i = FErr e \/
  io_fwrite i = Some e \/ io_save i = Some e \/ io_missing i = Some e \/ io_open_index i = Some e \/ io_open_archive i = Some e \/
  io_install_index i = Some e \/ io_install_archive i = Some e.

(** A new endpoint. *)
Definition new (r : rem) : Prop := exists flags ip ifd ap afd c, remote_new flags ip ifd ap afd c = Ok r.

(** The data of file [k] among the items. *)
Definition content (k : kind) (l : list item) : bytes :=
  flat_map (fun x => match x, k with IFile Index d, Index | IFile Archive d, Archive => d | _, _ => [] end) l.

Definition prefix {A} (l m : list A) : Prop := exists t, m = l ++ t.

(** An endpoint, whatever the other end of the connection does. *)
Inductive reached : rem -> Prop :=
| reached_new r : new r -> reached r
| reached_step r i r' x l : reached r -> step i r = (r', x, l) -> Forall honoured l -> bytes_ok (incoming l) = true -> reached r'
| reached_call r c r' x : reached r -> call_ok c -> perform c r = (r', x) -> reached r'.

(** The options of an endpoint do not contradict each other: no index or archive is both readable and writable. *)
Definition usable (r : rem) : Prop :=
  local r <> 2 ^ 64 - 1 /\ N.testbit (local r) 2 && N.testbit (local r) 3 = false /\ N.testbit (local r) 4 && N.testbit (local r) 5 = false.

(** The index and the archive file can be opened. *)
Definition files_open (i : io) : Prop := io_open_index i = None /\ io_open_archive i = None.

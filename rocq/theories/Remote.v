(** Model of the remote protocol engine: caremote.c, with the frames of caprotocol.h.

    One endpoint is a value [rem].  What the operating system and the request queue answer during one call of ca_remote_step is
    the argument [io]: the bytes the transport hands out or takes, the chunk ids that leave the queue of requests (Queue.v models
    that queue itself), the outcome of writing to the cache and to files.  What the endpoint does to them is the list of [effect]s
    the call returns.  The theorems quantify over every [io].

    Simplifications: the buffers are lists of bytes (ReallocBuffer.v models their memory); memory is not exhausted; ca_remote_start
    runs on already connected pipes, so that it forks nothing (caremote.c:942-1071). *)
From Coq Require Import List NArith Bool Lia.
From Verif Require Import Base ArchiveBase.
Import ListNotations.
Open Scope N_scope.

(** caprotocol.h:11-21 *)
Definition P_HELLO := 0x3c71d0948ca5fbee.
Definition P_INDEX := 0xb32a91dd2b3e27f8.
Definition P_INDEX_EOF := 0x4f0932f1043718f5.
Definition P_ARCHIVE := 0x95d6428a69eddcc5.
Definition P_ARCHIVE_EOF := 0x450bef663f24cbad.
Definition P_REQUEST := 0x8ab427e0f89d9210.
Definition P_CHUNK := 0x5213dd180a84bc8c.
Definition P_MISSING := 0xd010f9fac82b7b6c.
Definition P_GOODBYE := 0xad205dbf1a3686c3.
Definition P_ABORT := 0xe7d9136b7efea352.

(** caprotocol.h:70-71 *)
Definition P_SIZE_MIN := 16.
Definition P_SIZE_MAX := 16777216.

(** caprotocol.h:78-97 *)
Definition READABLE_STORE := 0x1.
Definition WRITABLE_STORE := 0x2.
Definition READABLE_INDEX := 0x4.
Definition WRITABLE_INDEX := 0x8.
Definition READABLE_ARCHIVE := 0x10.
Definition WRITABLE_ARCHIVE := 0x20.
Definition PULL_CHUNKS := 0x40.
Definition PULL_INDEX := 0x80.
Definition PULL_ARCHIVE := 0x100.
Definition PUSH_CHUNKS := 0x200.
Definition PUSH_INDEX := 0x400.
Definition PUSH_INDEX_CHUNKS := 0x800.
Definition PUSH_ARCHIVE := 0x1000.
Definition FLAGS_MAX := 0x1fff.

(** caremote.c:24-25 *)
Definition REMOTE_BUFFER_SIZE := 1048576.
Definition REMOTE_BUFFER_LOW := 4096.
(** util.h, cachunk.h:9-10, cachunkid.h *)
Definition INT32_MAX := 2147483647.
Definition CHUNK_SIZE_LIMIT_MAX := 134217728.

(** caremote.c:27-32 CaRemoteState *)
Inductive rstate := Hello | Running | Eof.

(** The two files a connection can carry: caremote.c:79-80 index_file and archive_file. *)
Inductive kind := Index | Archive.

(** caremote.c:34-41 CaRemoteFile: is [path] set, is [temporary_path] set, is the descriptor open, is [complete] set, [buffer]. *)
Record file := mkFile { f_path : bool; f_temp : bool; f_fd : bool; f_complete : bool; f_buf : bytes }.

(** caremote.c:43-95 CaRemote: the fields the protocol engine uses.  [cached]: cache_fd >= 0. *)
Record rem := mkRem {
  local : N; remote : N; state : rstate; sent_hello : bool; sent_goodbye : bool; frame_size : N;
  inbuf : bytes; outbuf : bytes; index : file; archive : file; cached : bool; last_chunk : option bytes }.

Definition set_state r s := mkRem (local r) (remote r) s (sent_hello r) (sent_goodbye r) (frame_size r) (inbuf r) (outbuf r) (index r) (archive r) (cached r) (last_chunk r).
Definition set_remote r f := mkRem (local r) f (state r) (sent_hello r) (sent_goodbye r) (frame_size r) (inbuf r) (outbuf r) (index r) (archive r) (cached r) (last_chunk r).
Definition set_sent_hello r := mkRem (local r) (remote r) (state r) true (sent_goodbye r) (frame_size r) (inbuf r) (outbuf r) (index r) (archive r) (cached r) (last_chunk r).
Definition set_sent_goodbye r := mkRem (local r) (remote r) (state r) (sent_hello r) true (frame_size r) (inbuf r) (outbuf r) (index r) (archive r) (cached r) (last_chunk r).
Definition set_frame_size r n := mkRem (local r) (remote r) (state r) (sent_hello r) (sent_goodbye r) n (inbuf r) (outbuf r) (index r) (archive r) (cached r) (last_chunk r).
Definition set_in r b := mkRem (local r) (remote r) (state r) (sent_hello r) (sent_goodbye r) (frame_size r) b (outbuf r) (index r) (archive r) (cached r) (last_chunk r).
Definition set_out r b := mkRem (local r) (remote r) (state r) (sent_hello r) (sent_goodbye r) (frame_size r) (inbuf r) b (index r) (archive r) (cached r) (last_chunk r).
Definition set_index r f := mkRem (local r) (remote r) (state r) (sent_hello r) (sent_goodbye r) (frame_size r) (inbuf r) (outbuf r) f (archive r) (cached r) (last_chunk r).
Definition set_archive r f := mkRem (local r) (remote r) (state r) (sent_hello r) (sent_goodbye r) (frame_size r) (inbuf r) (outbuf r) (index r) f (cached r) (last_chunk r).
Definition set_last r id := mkRem (local r) (remote r) (state r) (sent_hello r) (sent_goodbye r) (frame_size r) (inbuf r) (outbuf r) (index r) (archive r) (cached r) (Some id).

Definition get_file (k : kind) (r : rem) : file := match k with Index => index r | Archive => archive r end.
Definition set_file (k : kind) (r : rem) (f : file) : rem := match k with Index => set_index r f | Archive => set_archive r f end.

Definition f_set_complete f := mkFile (f_path f) (f_temp f) (f_fd f) true (f_buf f).
Definition f_set_buf f b := mkFile (f_path f) (f_temp f) (f_fd f) (f_complete f) b.

(** caremote.c:97-123 ca_remote_new followed by 251-269 ca_remote_set_local_feature_flags: [ip], [ap]: whether
    ca_remote_set_index_path and ca_remote_set_archive_path were used, [ifd], [afd]: the same for ca_remote_set_index_fd and
    ca_remote_set_archive_fd (612-650), [c]: whether a cache is attached. *)
Definition remote_new (flags : N) (ip ifd ap afd c : bool) : res rem :=
  if flags =? UINT64_MAX then Err EINVAL
  else if negb (N.ldiff flags FLAGS_MAX =? 0) then Err EOPNOTSUPP
  else if flags =? 0 then Err EINVAL
  else Ok (mkRem flags UINT64_MAX Hello false false 0 [] [] (mkFile ip false ifd false []) (mkFile ap false afd false []) c None).

(** caremote.h:16-30: what ca_remote_step returns; [FailPeer n] is the negative of an error number [n] the other side named. *)
Inductive ret :=
  Step | Poll | Finished | ReadIndex | ReadIndexEof | ReadArchive | ReadArchiveEof | WriteIndex | WriteArchive
| Request | Chunk | Fail (e : errno) | FailPeer (n : N).

(** What a call asks of the queue of requests, of the cache, of the files and of the transport, when it succeeds: a request taken from
    the queue, with the priority it had to have, [n] bytes of [offered] written to the transport, [data] read from it, of [asked]
    bytes asked for. *)
Inductive effect :=
| EEnqueue (id : bytes) (high : bool)
| EDequeue (only : option bool) (id : bytes) (high : bool)
| ESave (id : bytes) (compressed : bool) (data : bytes)
| EMissing (id : bytes)
| EOpen (k : kind) (writing : bool)
| EFileWrite (k : kind) (data : bytes)
| EFileRead (k : kind) (data : bytes)
| EFileEof (k : kind)
| EInstall (k : kind)
| EWrite (offered : bytes) (n : N)
| ERead (asked : N) (data : bytes).

(** What they answer. *)
Inductive written := WAgain | WErr (e : errno) | WSome (n : N).
Inductive gotten := GAgain | GErr (e : errno) | GEof | GSome (data : bytes).
Inductive filed := FErr (e : errno) | FEof | FSome (data : bytes).

Record io := mkIo {
  io_write : written;                     (* write(2) to the transport *)
  io_read : gotten;                       (* read(2) from the transport *)
  io_deq : list (bytes * bool);           (* ca_remote_dequeue_request: these requests, one per call, ... *)
  io_deq_end : errno;                     (* ... and then this error, ENODATA when the queue is empty *)
  io_enq : list (option errno);           (* ca_remote_enqueue_request, one answer per call, success after the last *)
  io_fread : filed;                       (* read(2) from the index or archive file *)
  io_fwrite : option errno;               (* loop_write() to the index or archive file *)
  io_save : option errno;                 (* ca_chunk_file_save *)
  io_missing : option errno;              (* ca_chunk_file_mark_missing *)
  io_open_index : option errno;           (* open(2) of the index file and of the archive file *)
  io_open_archive : option errno;
  io_install_index : option errno;        (* rename(2) of the index file and of the archive file *)
  io_install_archive : option errno }.

Definition outcome := (rem * ret * list effect)%type.

(** "r = f(rr); if (r != CA_REMOTE_POLL) return r;" of caremote.c:1936-1980 *)
Definition or_else (o : outcome) (k : rem -> outcome) : outcome :=
  let '(r, x, e) := o in
  match x with
  | Poll => let '(r', x', e') := k r in (r', x', e ++ e')
  | _ => o
  end.

Definition has (flags f : N) : bool := negb (N.land flags f =? 0).

Definition pull (k : kind) := match k with Index => PULL_INDEX | Archive => PULL_ARCHIVE end.
Definition push (k : kind) := match k with Index => PUSH_INDEX | Archive => PUSH_ARCHIVE end.
Definition t_file (k : kind) := match k with Index => P_INDEX | Archive => P_ARCHIVE end.
Definition t_eof (k : kind) := match k with Index => P_INDEX_EOF | Archive => P_ARCHIVE_EOF end.

(** caremote.c:351-359 ca_remote_get_read_size *)
Definition read_size (r : rem) : N := N.max (frame_size r) REMOTE_BUFFER_SIZE.

(** caremote.c:360-380 ca_remote_get_io_events: whether to wait for input, and whether for room for output *)
Definition io_events (r : rem) : bool * bool := (len (inbuf r) <? read_size r, negb (len (outbuf r) =? 0)).

(** caremote.c:887-922 ca_remote_file_open *)
Definition file_open (r : rem) (k : kind) (writing : bool) (answer : option errno) : rem * option errno * list effect :=
  let f := get_file k r in
  match state r with
  | Running =>
    if f_fd f then (r, None, [])
    else if negb (f_path f) then (r, None, [])
    else
      let f1 := if writing then mkFile (f_path f) true (f_fd f) (f_complete f) (f_buf f) else f in
      match answer with
      | Some e => (set_file k r f1, Some e, [EOpen k writing])
      | None => (set_file k r (mkFile (f_path f1) (f_temp f1) true (f_complete f1) (f_buf f1)), None, [EOpen k writing])
      end
  | _ => (r, None, [])
  end.

(** caremote.c:1073-1106: the part of ca_remote_start that opens one file *)
Definition start_file (r : rem) (k : kind) (answer : option errno) : rem * option errno * list effect :=
  if has (remote r) (pull k) || has (local r) (push k) then file_open r k false answer
  else if has (remote r) (push k) || has (local r) (pull k) then file_open r k true answer
  else (r, None, []).

(** caremote.c:924-1109 ca_remote_start on connected pipes *)
Definition start (i : io) (r : rem) : outcome :=
  if local r =? UINT64_MAX then (r, Fail EUNATCH, [])
  else if has (local r) READABLE_INDEX && has (local r) WRITABLE_INDEX then (r, Fail EINVAL, [])
  else if has (local r) READABLE_ARCHIVE && has (local r) WRITABLE_ARCHIVE then (r, Fail EINVAL, [])
  else
    match start_file r Index (io_open_index i) with
    | (r1, Some e, l) => (r1, Fail e, l)
    | (r1, None, l) =>
      match start_file r1 Archive (io_open_archive i) with
      | (r2, Some e, l') => (r2, Fail e, l ++ l')
      | (r2, None, l') => (r2, Poll, l ++ l')
      end
    end.

(** caremote.c:1111-1137 ca_remote_read.  Simplified: the buffer is not extended and shortened again around read(2). *)
Definition rread (i : io) (r : rem) : outcome :=
  let rsize := read_size r in
  if rsize <=? len (inbuf r) then (r, Poll, [])
  else match io_read i with
       | GAgain => (r, Poll, [])
       | GErr e => (r, Fail e, [])
       | GEof => (r, Fail EPIPE, [])
       | GSome data => (set_in r (inbuf r ++ data), Step, [ERead (rsize - len (inbuf r)) data])
       end.

(** caremote.c:1139-1156 ca_remote_write *)
Definition rwrite (i : io) (r : rem) : outcome :=
  if len (outbuf r) =? 0 then (r, Poll, [])
  else match io_write i with
       | WAgain => (r, Poll, [])
       | WErr e => (r, Fail e, [])
       | WSome n =>
         let r1 := set_out r (dropN n (outbuf r)) in
         if sent_goodbye r1 && (len (outbuf r1) =? 0) then (r1, Finished, [EWrite (outbuf r) n]) else (r1, Step, [EWrite (outbuf r) n])
       end.

(** caremote.c:1158-1176 operations_and_services_compatible *)
Definition compatible (operations services : N) : bool :=
  if has operations PULL_CHUNKS && negb (has services READABLE_STORE) then false
  else if has operations PULL_INDEX && negb (has services READABLE_INDEX) then false
  else if has operations PULL_ARCHIVE && negb (has services READABLE_ARCHIVE) then false
  else if has operations PUSH_CHUNKS && negb (has services WRITABLE_STORE) then false
  else if has operations PUSH_INDEX && negb (has services WRITABLE_INDEX) then false
  else if has operations PUSH_ARCHIVE && negb (has services WRITABLE_ARCHIVE) then false
  else true.

(** caremote.c:1178-1206 ca_remote_process_hello *)
Definition process_hello (r : rem) (flags : N) : outcome :=
  if negb (N.ldiff flags FLAGS_MAX =? 0) then (r, Fail EPROTONOSUPPORT, [])
  else if has flags PUSH_INDEX_CHUNKS
          && negb (N.land flags (N.lor PUSH_INDEX PUSH_CHUNKS) =? N.lor PUSH_INDEX PUSH_CHUNKS) then (r, Fail EBADE, [])
  else if negb (compatible flags (local r)) then (r, Fail EBADE, [])
  else if negb (compatible (local r) flags) then (r, Fail EBADE, [])
  else if N.land (N.lor flags (local r))
            (N.lor PULL_INDEX (N.lor PULL_CHUNKS (N.lor PULL_ARCHIVE (N.lor PUSH_CHUNKS (N.lor PUSH_INDEX PUSH_ARCHIVE))))) =? 0
       then (r, Fail EBADE, [])
  else (set_state (set_remote r flags) Running, Step, []).

(** caremote.c:1208-1230 ca_remote_file_process, with its two callers 1244-1255, 1270-1281 *)
Definition process_file (i : io) (r : rem) (k : kind) (data : bytes) : outcome :=
  let f := get_file k r in
  let ok := match k with Index => ReadIndex | Archive => ReadArchive end in
  if f_complete f then (r, Fail EBADMSG, [])
  else if f_fd f then
    match io_fwrite i with
    | Some e => (r, Fail e, [])
    | None => (r, ok, [EFileWrite k data])
    end
  else (set_file k r (f_set_buf f (f_buf f ++ data)), ok, []).

(** caremote.c:1232-1242 ca_remote_file_process_eof, with its two callers 1257-1268, 1283-1294 *)
Definition process_eof (r : rem) (k : kind) : outcome :=
  let f := get_file k r in
  if f_complete f then (r, Fail EBADMSG, [])
  else (set_file k r (f_set_complete f), match k with Index => ReadIndexEof | Archive => ReadArchiveEof end, []).

(** caremote.c:1303-1307: the loop of ca_remote_process_request.  [fuel] is at least the number of ids. *)
Fixpoint enqueue_all (fuel : nat) (answers : list (option errno)) (p : bytes) (high : bool) : option errno * list effect :=
  match fuel with
  | O => (None, [])
  | S fuel =>
    if len p =? 0 then (None, [])
    else
      match answers with
      | Some e :: _ => (Some e, [])
      | _ => let '(x, l) := enqueue_all fuel (tl answers) (dropN 32 p) high in (x, EEnqueue (takeN 32 p) high :: l)
      end
  end.

(** caremote.c:1296-1312 ca_remote_process_request *)
Definition process_request (i : io) (r : rem) (frame : bytes) : outcome :=
  let ids := dropN 24 frame in
  let '(x, l) := enqueue_all (length ids) (io_enq i) ids (has (rd64 (dropN 16 frame)) 1) in
  match x with
  | Some e => (r, Fail e, l)
  | None => (r, Request, l)
  end.

(** caremote.c:1314-1343 ca_remote_process_chunk *)
Definition process_chunk (i : io) (r : rem) (frame : bytes) : outcome :=
  if negb (cached r) then (r, Fail ENOTTY, [])
  else
    let id := takeN 32 (dropN 24 frame) in
    let r1 := set_last r id in
    let l := [ESave id (has (rd64 (dropN 16 frame)) 1) (dropN 56 frame)] in
    match io_save i with
    | None => (r1, Chunk, l)
    | Some EEXIST => (r1, Step, l)
    | Some e => (r1, Fail e, l)
    end.

(** caremote.c:1345-1361 ca_remote_process_missing *)
Definition process_missing (i : io) (r : rem) (frame : bytes) : outcome :=
  if negb (cached r) then (r, Fail ENOTTY, [])
  else
    let l := [EMissing (takeN 32 (dropN 16 frame))] in
    match io_missing i with
    | None => (r, Chunk, l)
    | Some EEXIST => (r, Step, l)
    | Some e => (r, Fail e, l)
    end.

(** caremote.c:1363-1379 ca_remote_file_install *)
Definition file_install (r : rem) (k : kind) (answer : option errno) : rem * option errno * list effect :=
  let f := get_file k r in
  if negb (f_complete f) then (r, None, [])
  else if negb (f_temp f) then (r, None, [])
  else if negb (f_path f) then (r, None, [])
  else match answer with
       | Some e => (r, Some e, [])
       | None => (set_file k r (mkFile (f_path f) false (f_fd f) (f_complete f) (f_buf f)), None, [EInstall k])
       end.

(** caremote.c:1386-1392 and 2546-2552: both files are installed *)
Definition install_both (i : io) (r : rem) : rem * option errno * list effect :=
  match file_install r Index (io_install_index i) with
  | (r1, Some e, l) => (r1, Some e, l)
  | (r1, None, l) =>
    let '(r2, x, l') := file_install r1 Archive (io_install_archive i) in (r2, x, l ++ l')
  end.

(** caremote.c:1381-1398 ca_remote_process_goodbye *)
Definition process_goodbye (i : io) (r : rem) : outcome :=
  match install_both i r with
  | (r1, Some e, l) => (r1, Fail e, l)
  | (r1, None, l) => (set_state r1 Eof, Finished, l)
  end.

(** caremote.c:1400-1408 ca_remote_process_abort.  Simplified: the conversion to int is exact, the error is below INT32_MAX. *)
Definition process_abort (r : rem) (frame : bytes) : outcome :=
  let e := rd64 (dropN 16 frame) in
  if negb (e =? 0) then (r, FailPeer e, []) else (r, Fail ECONNABORTED, []).

(** caremote.c:1410-1548 validate_hello ... validate_abort: [size] is the size the header of [frame] carries. *)
Definition valid_hello (size : N) (frame : bytes) : bool :=
  (size =? 24) && negb (rd64 (dropN 16 frame) =? UINT64_MAX) && negb (rd64 (dropN 16 frame) =? 0).
Definition valid_file (size : N) : bool := negb (size <? 16 + 1).
Definition valid_file_eof (size : N) : bool := size =? 16.
Definition valid_request (size : N) (frame : bytes) : bool :=
  negb (size <? 24 + 32) && ((size - 24) mod 32 =? 0) && (N.ldiff (rd64 (dropN 16 frame)) 1 =? 0).
Definition valid_chunk (size : N) (frame : bytes) : bool :=
  negb (size <? 56 + 1) && (N.ldiff (rd64 (dropN 16 frame)) 1 =? 0).
Definition valid_missing (size : N) : bool := size =? 48.
Definition valid_goodbye (size : N) : bool := size =? 16.
Definition valid_abort (size : N) (frame : bytes) : bool :=
  negb (size <? 24 + 1)
  && negb (INT32_MAX <=? rd64 (dropN 16 frame))
  && (let n := size - 24 in
      let reason := dropN 24 frame in
      forallb (fun c => negb (c <? 32)) (takeN (n - 1) reason) && (nth (N.to_nat (n - 1)) reason 0 =? 0)).

(** caremote.c:1582-1740: the switch of ca_remote_process_message on a complete frame. *)
Definition dispatch (i : io) (r : rem) (size : N) (frame : bytes) : outcome :=
  let type := rd64 (dropN 8 frame) in
  let bad := (r, Fail EBADMSG, []) in
  let running := match state r with Running => true | _ => false end in
  let fresh := match state r with Hello => true | _ => false end in
  if type =? P_HELLO then
    if negb fresh then bad else if negb (valid_hello size frame) then bad
    else process_hello r (rd64 (dropN 16 frame))
  else if type =? P_INDEX then
    if negb running then bad
    else if negb (has (local r) PULL_INDEX) && negb (has (remote r) PUSH_INDEX) then bad
    else if negb (valid_file size) then bad
    else process_file i r Index (dropN 16 frame)
  else if type =? P_INDEX_EOF then
    if negb running then bad
    else if negb (has (local r) PULL_INDEX) && negb (has (remote r) PUSH_INDEX) then bad
    else if negb (valid_file_eof size) then bad
    else process_eof r Index
  else if type =? P_ARCHIVE then
    if negb running then bad
    else if negb (has (local r) PULL_ARCHIVE) && negb (has (remote r) PUSH_ARCHIVE) then bad
    else if negb (valid_file size) then bad
    else process_file i r Archive (dropN 16 frame)
  else if type =? P_ARCHIVE_EOF then
    if negb running then bad
    else if negb (has (local r) PULL_ARCHIVE) && negb (has (remote r) PUSH_ARCHIVE) then bad
    else if negb (valid_file_eof size) then bad
    else process_eof r Archive
  else if type =? P_REQUEST then
    if negb running then bad
    else if negb (has (local r) PUSH_CHUNKS) && negb (has (remote r) PULL_CHUNKS) then bad
    else if negb (valid_request size frame) then bad
    else process_request i r frame
  else if type =? P_CHUNK then
    if negb running then bad
    else if negb (has (local r) PULL_CHUNKS) && negb (has (remote r) PUSH_CHUNKS) then bad
    else if negb (valid_chunk size frame) then bad
    else process_chunk i r frame
  else if type =? P_MISSING then
    if negb running then bad
    else if negb (has (local r) PULL_CHUNKS) && negb (has (remote r) PUSH_CHUNKS) then bad
    else if negb (valid_missing size) then bad
    else process_missing i r frame
  else if type =? P_GOODBYE then
    if negb running then bad else if negb (valid_goodbye size) then bad
    else process_goodbye i r
  else if type =? P_ABORT then
    if negb (valid_abort size frame) then bad
    else process_abort r frame
  else bad.

(** caremote.c:1550-1755 ca_remote_process_message.  The frame is handed on as the bytes its header delimits: the code reads no
    byte beyond them. *)
Definition process_message (i : io) (r : rem) : outcome :=
  match state r with
  | Eof => (r, Poll, [])
  | _ =>
    if len (inbuf r) <? 16 then (r, Poll, [])
    else
      let size := rd64 (inbuf r) in
      if size <? P_SIZE_MIN then (r, Fail EBADMSG, [])
      else if P_SIZE_MAX <? size then (r, Fail EBADMSG, [])
      else if len (inbuf r) <? size then (set_frame_size r size, Poll, [])
      else
        let '(r1, x, l) := dispatch i r size (takeN size (inbuf r)) in
        match x with
        | Fail _ | FailPeer _ => (r1, x, l)
        | _ => (set_frame_size (set_in r1 (dropN size (inbuf r1))) 0, x, l)
        end
  end.

(** realloc-buffer.c realloc_buffer_extend on the output buffer, and the bytes then written there *)
Definition append_out (r : rem) (b : bytes) : rem := set_out r (outbuf r ++ b).

(** caremote.c:1758-1776 ca_remote_send_hello *)
Definition send_hello (r : rem) : outcome :=
  if sent_hello r then (r, Poll, [])
  else (set_sent_hello (append_out r (le64 24 ++ le64 P_HELLO ++ le64 (local r))), Step, []).

(** caremote.c:1778-1839 ca_remote_send_file, with its two callers 1841-1869 *)
Definition send_file (i : io) (r : rem) (k : kind) : outcome :=
  if negb (has (remote r) (pull k)) && negb (has (local r) (push k)) then (r, Poll, [])
  else
    match state r with
    | Running =>
      let f := get_file k r in
      if f_complete f then (r, Poll, [])
      else if REMOTE_BUFFER_LOW <? len (outbuf r) then (r, Poll, [])
      else if negb (f_fd f) then (r, match k with Index => WriteIndex | Archive => WriteArchive end, [])
      else
        match io_fread i with
        | FErr e => (r, Fail e, [])
        | FEof => (set_file k (append_out r (le64 16 ++ le64 (t_eof k))) (f_set_complete f), Step, [EFileEof k])
        | FSome data => (append_out r (le64 (16 + len data) ++ le64 (t_file k) ++ data), Step, [EFileRead k data])
        end
    | _ => (r, Poll, [])
    end.

(** byteswap helpers write_le64/read_le64 on a place inside the output buffer *)
Definition patch64 (off v : N) (b : bytes) : bytes := takeN off b ++ le64 v ++ dropN (off + 8) b.

(** caremote.c:1888-1931: the loop of ca_remote_send_request.  [answers]: what leaves the queue, one by one; [only]: only_high_priority, None for -1;
    [at_]: header_offset. *)
Fixpoint request_loop (answers : list (bytes * bool)) (last : errno) (only : option bool) (at_ : option N) (out : bytes)
  : bytes * option errno * option N * list effect :=
  match answers with
  | [] => (out, match last with ENODATA => None | e => Some e end, at_, [])
  | (id, high) :: answers =>
    let '(off, out1) :=
      match at_ with
      | Some off => (off, let b := out ++ id in patch64 off (rd64 (dropN off b) + 32) b)
      | None => (len out, out ++ le64 (24 + 32) ++ le64 P_REQUEST ++ le64 (if high : bool then 1 else 0) ++ id)
      end in
    if BUFFER_SIZE <=? rd64 (dropN off out1) then (out1, None, Some off, [EDequeue only id high])
    else
      let '(out2, x, a, l) := request_loop answers last (Some high) (Some off) out1 in
      (out2, x, a, EDequeue only id high :: l)
  end.

(** caremote.c:1871-1934 ca_remote_send_request *)
Definition send_request (i : io) (r : rem) : outcome :=
  if negb (has (remote r) PUSH_INDEX_CHUNKS) && negb (has (local r) PULL_CHUNKS) then (r, Poll, [])
  else
    match state r with
    | Running =>
      if REMOTE_BUFFER_LOW <? len (outbuf r) then (r, Poll, [])
      else
        let '(out, x, a, l) := request_loop (io_deq i) (io_deq_end i) None None (outbuf r) in
        match x, a with
        | Some e, _ => (set_out r out, Fail e, l)
        | None, Some _ => (set_out r out, Step, l)
        | None, None => (set_out r out, Poll, l)
        end
    | _ => (r, Poll, [])
    end.

(** caremote.c:1936-1980 ca_remote_step *)
Definition step (i : io) (r : rem) : outcome :=
  match state r with
  | Eof => (r, Fail EPIPE, [])
  | _ =>
    let r := set_index r (f_set_buf (index r) []) in
    let r := set_archive r (f_set_buf (archive r) []) in
    or_else (start i r) (fun r =>
    or_else (rwrite i r) (fun r =>
    or_else (send_hello r) (fun r =>
    or_else (process_message i r) (fun r =>
    or_else (send_request i r) (fun r =>
    or_else (send_file i r Index) (fun r =>
    or_else (send_file i r Archive) (fun r =>
    rread i r)))))))
  end.

(** caremote.c:2204-2223 ca_remote_can_put_chunk *)
Definition can_put_chunk (r : rem) : res bool :=
  match state r with
  | Eof => Err EPIPE
  | s =>
    if negb (has (remote r) PULL_CHUNKS) && negb (has (local r) PUSH_CHUNKS) then Ok false
    else match s with
         | Running => if REMOTE_BUFFER_LOW <? len (outbuf r) then Ok false else Ok true
         | _ => Ok false
         end
  end.

(** caremote.c:2225-2277 ca_remote_put_chunk; the comparison at 2260 cannot hold for a size within the limit. *)
Definition put_chunk (r : rem) (id : bytes) (compressed : bool) (data : bytes) : rem * res unit :=
  if len data <? 1 then (r, Err EINVAL)
  else if CHUNK_SIZE_LIMIT_MAX <? len data then (r, Err EINVAL)
  else if negb (has (remote r) PULL_CHUNKS) && negb (has (local r) PUSH_CHUNKS) then (r, Err ENOTTY)
  else
    match can_put_chunk r with
    | Ok true =>
      let msz := 56 + len data in
      if P_SIZE_MAX <? msz then (r, Err EFBIG)
      else (append_out r (le64 msz ++ le64 P_CHUNK ++ le64 (if compressed then 1 else 0) ++ id ++ data), Ok tt)
    | Ok false => (r, Err EAGAIN)
    | Err e => (r, Err e)
    | Abort => (r, Abort)
    | UB => (r, UB)
    end.

(** caremote.c:2279-2308 ca_remote_put_missing *)
Definition put_missing (r : rem) (id : bytes) : rem * res unit :=
  if negb (has (remote r) PULL_CHUNKS) && negb (has (local r) PUSH_CHUNKS) then (r, Err ENOTTY)
  else
    match can_put_chunk r with
    | Ok true => (append_out r (le64 48 ++ le64 P_MISSING ++ id), Ok tt)
    | Ok false => (r, Err EAGAIN)
    | Err e => (r, Err e)
    | Abort => (r, Abort)
    | UB => (r, UB)
    end.

(** caremote.c:2310-2339 ca_remote_file_can_put through ca_remote_can_put_index, 2467-2478 ca_remote_can_put_archive *)
Definition can_put_file (r : rem) (k : kind) : res bool :=
  if negb (has (remote r) (pull k)) && negb (has (local r) (push k)) then Ok false
  else
    match state r with
    | Eof => Err EPIPE
    | s =>
      if f_complete (get_file k r) then Err EBUSY
      else match s with
           | Running => if REMOTE_BUFFER_LOW <? len (outbuf r) then Ok false else Ok true
           | _ => Ok false
           end
    end.

(** caremote.c:2341-2387 ca_remote_file_put through ca_remote_put_index, 2480-2501 ca_remote_put_archive; the size addition at
    2348 wraps only for a block within 16 bytes of the address space. *)
Definition put_file (r : rem) (k : kind) (data : bytes) : rem * res unit :=
  if len data =? 0 then (r, Err EINVAL)
  else if negb (has (remote r) (pull k)) && negb (has (local r) (push k)) then (r, Err ENOTTY)
  else
    match can_put_file r k with
    | Ok true =>
      let msz := 16 + len data in
      if P_SIZE_MAX <? msz then (r, Err EFBIG)
      else (append_out r (le64 msz ++ le64 (t_file k) ++ data), Ok tt)
    | Ok false => (r, Err EAGAIN)
    | Err e => (r, Err e)
    | Abort => (r, Abort)
    | UB => (r, UB)
    end.

(** caremote.c:2389-2424 ca_remote_file_put_eof through ca_remote_put_index_eof, 2503-2520 ca_remote_put_archive_eof *)
Definition put_eof (r : rem) (k : kind) : rem * res unit :=
  if negb (has (remote r) (pull k)) && negb (has (local r) (push k)) then (r, Err ENOTTY)
  else
    match can_put_file r k with
    | Ok true => (set_file k (append_out r (le64 16 ++ le64 (t_eof k))) (f_set_complete (get_file k r)), Ok tt)
    | Ok false => (r, Err EAGAIN)
    | Err e => (r, Err e)
    | Abort => (r, Abort)
    | UB => (r, UB)
    end.

(** caremote.c:2426-2465 ca_remote_file_read through ca_remote_read_index, 2522-2535 ca_remote_read_archive: [Ok None] is the
    end of the file. *)
Definition read_file (r : rem) (k : kind) : res (option bytes) :=
  if negb (has (remote r) (push k)) && negb (has (local r) (pull k)) then Err ENOTTY
  else
    let f := get_file k r in
    if f_fd f then Err ENOTTY
    else if len (f_buf f) =? 0 then (if f_complete f then Ok None else Err EAGAIN)
    else Ok (Some (f_buf f)).

(** caremote.c:2537-2566 ca_remote_goodbye *)
Definition goodbye (i : io) (r : rem) : rem * res unit * list effect :=
  match state r with
  | Eof => (r, Err EPIPE, [])
  | _ =>
    if sent_goodbye r then (r, Err EALREADY, [])
    else
      match install_both i r with
      | (r1, Some e, l) => (r1, Err e, l)
      | (r1, None, l) => (set_sent_goodbye (append_out r1 (le64 16 ++ le64 P_GOODBYE)), Ok tt, l)
      end
  end.

(** caremote.c:2568-2599 ca_remote_abort, for an error that is not negative; [message] without its terminating zero *)
Definition abort (r : rem) (error : N) (message : bytes) : rem * res unit :=
  if INT32_MAX <=? error then (r, Err EINVAL)
  else
    match state r with
    | Eof => (r, Err EPIPE)
    | _ =>
      if sent_goodbye r then (r, Err EALREADY)
      else (set_sent_goodbye (append_out r (le64 (24 + len message + 1) ++ le64 P_ABORT ++ le64 error ++ message ++ [0])), Ok tt)
    end.

(** caremote.c:2670-2677 ca_remote_has_unwritten *)
Definition has_unwritten (r : rem) : res bool :=
  match state r with
  | Eof => Err EPIPE
  | _ => Ok (negb (len (outbuf r) =? 0))
  end.

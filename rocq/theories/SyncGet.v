(** Model of the way a chunk is looked for: src/casync.c ca_sync_get, ca_sync_get_local, ca_sync_has_local, with the three kinds of
    places it is looked for in: seeds (src/caseed.c), stores (Store.v) and remotes (src/caremote.c).

    Seeds walk their file tree with an encoder that can be sent to a location; what it does then is an oracle (a list of events, or it
    goes on for ever behind the end of the list), as the tree may be changed by others at any time. The origin that may be returned along with a
    chunk, request counters and NULL arguments are left out; allocation does not fail. *)
From Verif Require Import Base Locator ChunkId Posix ChunkFile Location LocationHeap Origin Cache Queue Store.
Local Open Scope N_scope.

(** What ca_encoder_seek_location, and then each ca_encoder_step followed by ca_encoder_get_data, may come to: the step fails; the end
    is reached; there is no data (ENODATA) or getting it fails; or a piece of data. *)
Inductive walk_event :=
| WFail (e : errno)
| WFinished
| WNoData
| WDataFail (e : errno)
| WData (b : list N).

(** caseed.c:26-55 CaSeed: the cache directory once it is open, cache_chunks, chunker.chunk_size_max, the digest that the feature flags
    select, and the encoder. *)
Record seed := mkSeed { sd_cache : option (list N); sd_chunks : bool; sd_size_max : N; sd_digest : dtype; sd_walk : loc -> list walk_event }.

(** caseed.c:567-570: "xxxx/xxxx..." in the cache directory *)
Definition seed_entry (root id : list N) : list N := in_cache root (chunk_id_format_path [] id []).

(** realloc-buffer.c:257-270 realloc_buffer_read_full *)
Fixpoint read_full (fuel : nat) (fd : nat) (buf : list N) (limit : N) : prog (res (list N)) :=
  match fuel with
  | O => Hang
  | S fuel =>
    if limit <? len buf then Ret (Err E2BIG)
    else try b <- sys_read fd BUFFER_SIZE ;;
         match b with
         | [] => Ret (Ok buf)
         | _ => read_full fuel fd (buf ++ b) limit
         end
  end.

(** caseed.c:572-598: the text of the entry, from the link or from the file *)
Definition seed_target (fuel : nat) (p : list N) : prog (res (list N)) :=
  do r <- readlink_malloc fuel p 256 ;;
  match r with
  | Err EINVAL =>
    Sys (SOpen p) (fun r =>
      match r with
      | RFd fd =>
        try b <- read_full fuel fd [] 1048576 ;;
        if existsb (N.eqb 0) b then Ret (Err EINVAL) else Ret (Ok b)
      | RFail e => Ret (Err e)
      | _ => Ret UB
      end)
  | Ok t => Ret (Ok (cstring t))
  | r => Ret r
  end.

(** caseed.c:634-700: the loop that collects [size] bytes; [got] is what is there already. *)
Fixpoint seed_collect (evs : list walk_event) (size : N) (got : list N) : prog (res (list N)) :=
  match evs with
  | [] => Hang
  | WFail e :: _ => Ret (Err e)
  | WFinished :: _ => Ret (Err ESTALE)
  | WNoData :: evs => seed_collect evs size got
  | WDataFail e :: _ => Ret (Err e)
  | WData q :: evs =>
    let got := got ++ takeN (size - len got) q in
    if size <=? len got then Ret (Ok got) else seed_collect evs size got
  end.

(** caseed.c:612-616: the first event is the result of seeking *)
Definition seed_walk (evs : list walk_event) (size : N) : prog (res (list N)) :=
  match evs with
  | WFail ENXIO :: _ => Ret (Err ESTALE)
  | _ => seed_collect evs size []
  end.

(** caseed.c:537-728 ca_seed_get *)
Definition seed_get (digest : dtype -> list N -> list N) (fuel : nat) (s : seed) (id : list N) : prog (res (list N)) :=
  match sd_cache s with
  | None => Ret (Err EUNATCH)
  | Some root =>
    if negb (sd_chunks s) then Ret (Err ENOMEDIUM)
    else
      try target <- seed_target fuel (seed_entry root id) ;;
      match location_parse target with
      | Ok l =>
        if Location.size l =? UINT64_MAX then Ret (Err ENOENT)
        else if sd_size_max s <? Location.size l then Ret (Err EINVAL)
        else
          try p <- seed_walk (sd_walk s l) (Location.size l) ;;
          match chunk_id_make (digest (sd_digest s)) p with
          | Ok actual => Ret (if chunk_id_equal id actual then Ok p else Err ESTALE)
          | Err e => Ret (Err e)
          | Abort => Ret Abort
          | UB => Ret UB
          end
      | Err e => Ret (Err e)
      | Abort => Ret Abort
      | UB => Ret UB
      end
  end.

(** caseed.c:732-759 ca_seed_has *)
Definition seed_has (s : seed) (id : list N) : prog (res bool) :=
  match sd_cache s with
  | None => Ret (Err EUNATCH)
  | Some root =>
    if negb (sd_chunks s) then Ret (Err ENOMEDIUM)
    else Sys (SAccess (seed_entry root id)) (fun r =>
           match r with
           | RNum _ => Ret (Ok true)
           | RFail ENOENT => Ret (Ok false)
           | RFail e => Ret (Err e)
           | _ => Ret UB
           end)
  end.

(** caremote.c:48-127 CaRemote: the cache directory with its queue (Queue.v), whether CA_PROTOCOL_PULL_CHUNKS is set locally, whether the
    state is CA_REMOTE_EOF, the digest configured, the one that worked last, and the compression. *)
Record remote := mkRemote { rm_queue : queue; rm_pull : bool; rm_eof : bool; rm_digest : option dtype; rm_validate : option dtype; rm_ctype : option ctype }.

Definition rm_with (r : remote) (q : queue) : remote := mkRemote q (rm_pull r) (rm_eof r) (rm_digest r) (rm_validate r) (rm_ctype r).

(** caremote.c:2023-2106 ca_remote_validate_chunk, after decompression; the type of the digest object that is left is not kept track of. *)
Definition remote_validate (digest : dtype -> list N -> list N) (r : remote) (id v : list N) : res unit :=
  let vt := match rm_validate r with
            | Some t => t
            | None => match rm_digest r with Some t => t | None => SHA512_256 end
            end in
  let! a := chunk_id_make (digest vt) v in
  if chunk_id_equal id a then Ok tt
  else match rm_digest r with
       | Some _ => Err EBADMSG
       | None =>
         let! x := try_digests digest all_dtypes vt id v in
         match x with
         | Some _ => Ok tt
         | None => Err EBADMSG
         end
       end.

(** caremote.c:2108-2172 ca_remote_request *)
Definition remote_request (codecs : ctype -> option codec) (digest : dtype -> list N -> list N) (fuel : nat)
  (r : remote) (id : list N) (high : bool) (desired : chunk_compression) : prog (remote * res (list N * chunk_compression)) :=
  if negb (rm_pull r) then Ret (r, Err ENOTTY)
  else if rm_eof r then Ret (r, Err EPIPE)
  else
    do x <- init_cache (rm_queue r) ;;
    let '(q, o) := x in
    let r := rm_with r q in
    match o with
    | Ok _ =>
      do o <- chunk_file_load codecs fuel (q_path q ++ [47]) id desired (rm_ctype r) [] ;;
      match o with
      | Err ENOENT =>
        do x <- enqueue_request fuel q id high true ;;
        let '(q, o) := x in
        let r := rm_with r q in
        match o with
        | Ok true => Ret (r, Err EAGAIN)
        | Ok false => Ret (r, Err EALREADY)
        | Err e => Ret (r, Err e)
        | Abort => Ret (r, Abort)
        | UB => Ret (r, UB)
        end
      | Err EADDRNOTAVAIL => Ret (r, Err ENOENT)
      | Ok (buf, effective) =>
        if (len buf <? CHUNK_LIMIT_MIN) || (CHUNK_LIMIT_MAX <? len buf) then Ret (r, Err EINVAL)
        else
          do v <- (if compression_eqb effective COMPRESSED then plift (decompress codecs fuel buf []) else Ret (Ok buf)) ;;
          match v with
          | Ok v =>
            match remote_validate digest r id v with
            | Ok _ => Ret (r, Ok (buf, effective))
            | Err e => Ret (r, Err e)
            | Abort => Ret (r, Abort)
            | UB => Ret (r, UB)
            end
          | Err e => Ret (r, Err e)
          | Abort => Ret (r, Abort)
          | UB => Ret (r, UB)
          end
      | Err e => Ret (r, Err e)
      | Abort => Ret (r, Abort)
      | UB => Ret (r, UB)
      end
    | Err e => Ret (r, Err e)
    | Abort => Ret (r, Abort)
    | UB => Ret (r, UB)
    end.

(** casync.c:59-80, 118 CaSync: seeds, wstore, cache_store, rstores, remote_wstore, remote_rstores, compression_type. *)
Record sync := mkSync { sy_seeds : list seed; sy_wstore : option store; sy_cache_store : option store; sy_rstores : list store;
                        sy_remote_wstore : option remote; sy_remote_rstores : list remote; sy_ctype : option ctype }.

Section Get.
Context (codecs : ctype -> option codec) (digest : dtype -> list N -> list N) (fuel : nat).

(** casync.c:3260-3302: the seeds. [None] is none of them has it: go on. *)
Fixpoint get_seeds (t : option ctype) (ss : list seed) (id : list N) (desired : chunk_compression)
  : prog (option (res (list N * chunk_compression))) :=
  match ss with
  | [] => Ret None
  | s :: ss =>
    do r <- seed_get digest fuel s id ;;
    match r with
    | Err ESTALE | Err ENOLINK | Err ENOENT => get_seeds t ss id desired
    | Err e => Ret (Some (Err e))
    | Abort => Ret (Some Abort)
    | UB => Ret (Some UB)
    | Ok p =>
      if compression_eqb desired COMPRESSED then
        do z <- plift (compress codecs fuel t p []) ;;
        Ret (Some (match z with Ok b => Ok (b, COMPRESSED) | Err e => Err e | Abort => Abort | UB => UB end))
      else Ret (Some (Ok (p, UNCOMPRESSED)))
    end
  end.

(** casync.c:3304-3314, 3316-3326, 3328-3337: a list of stores, in order. What ca_store_get changes in the handle (counters, the digest that
    worked) is left out. *)
Fixpoint get_stores (sts : list store) (id : list N) (desired : chunk_compression) : prog (option (res (list N * chunk_compression))) :=
  match sts with
  | [] => Ret None
  | st :: sts =>
    do r <- store_get codecs digest fuel st id desired ;;
    match r with
    | Ok (_, b, e) => Ret (Some (Ok (b, e)))
    | Err ENOENT => get_stores sts id desired
    | Err e => Ret (Some (Err e))
    | Abort => Ret (Some Abort)
    | UB => Ret (Some UB)
    end
  end.

Definition maybe {A} (o : option A) : list A := match o with Some a => [a] | None => [] end.

(** casync.c:3239-3340 ca_sync_get_local *)
Definition get_local (s : sync) (id : list N) (desired : chunk_compression) : prog (res (list N * chunk_compression)) :=
  do r <- get_seeds (sy_ctype s) (sy_seeds s) id desired ;;
  match r with
  | Some r => Ret r
  | None =>
    do r <- get_stores (maybe (sy_wstore s)) id desired ;;
    match r with
    | Some r => Ret r
    | None =>
      do r <- get_stores (maybe (sy_cache_store s)) id desired ;;
      match r with
      | Some r => Ret r
      | None =>
        do r <- get_stores (sy_rstores s) id desired ;;
        match r with
        | Some r => Ret r
        | None => Ret (Err ENOENT)
        end
      end
    end
  end.

(** casync.c:3366-3375, 3377-3386: a list of remotes, in order, with their new states *)
Fixpoint get_remotes (rs : list remote) (id : list N) (desired : chunk_compression)
  : prog (list remote * option (res (list N * chunk_compression))) :=
  match rs with
  | [] => Ret ([], None)
  | r :: rs =>
    do x <- remote_request codecs digest fuel r id true desired ;;
    let '(r, o) := x in
    match o with
    | Err ENOENT =>
      do x <- get_remotes rs id desired ;;
      let '(rs, o) := x in Ret (r :: rs, o)
    | _ => Ret (r :: rs, Some o)
    end
  end.

Definition with_wremote (s : sync) (r : list remote) : sync :=
  mkSync (sy_seeds s) (sy_wstore s) (sy_cache_store s) (sy_rstores s) (match r with r :: _ => Some r | [] => None end) (sy_remote_rstores s) (sy_ctype s).
Definition with_rremotes (s : sync) (rs : list remote) : sync :=
  mkSync (sy_seeds s) (sy_wstore s) (sy_cache_store s) (sy_rstores s) (sy_remote_wstore s) rs (sy_ctype s).

(** casync.c:3342-3389 ca_sync_get *)
Definition sync_get (s : sync) (id : list N) (desired : chunk_compression) : prog (sync * res (list N * chunk_compression)) :=
  do r <- get_local s id desired ;;
  match r with
  | Err ENOENT =>
    do x <- get_remotes (maybe (sy_remote_wstore s)) id desired ;;
    let '(rw, o) := x in
    let s := with_wremote s rw in
    match o with
    | Some r => Ret (s, r)
    | None =>
      do x <- get_remotes (sy_remote_rstores s) id desired ;;
      let '(rs, o) := x in
      let s := with_rremotes s rs in
      match o with
      | Some r => Ret (s, r)
      | None => Ret (s, Err ENOENT)
      end
    end
  | _ => Ret (s, r)
  end.

(** casync.c:3401-3405 *)
Fixpoint has_seeds (ss : list seed) (id : list N) : prog (res bool) :=
  match ss with
  | [] => Ret (Ok false)
  | s :: ss => do r <- seed_has s id ;; match r with Ok false => has_seeds ss id | _ => Ret r end
  end.

(** casync.c:3407-3411, 3413-3417, 3419-3423 *)
Fixpoint has_stores (sts : list store) (id : list N) : prog (res bool) :=
  match sts with
  | [] => Ret (Ok false)
  | st :: sts => do r <- store_has st id ;; match r with Ok false => has_stores sts id | _ => Ret r end
  end.

(** casync.c:3391-3426 ca_sync_has_local *)
Definition has_local (s : sync) (id : list N) : prog (res bool) :=
  do r <- has_seeds (sy_seeds s) id ;;
  match r with
  | Ok false =>
    do r <- has_stores (maybe (sy_wstore s)) id ;;
    match r with
    | Ok false =>
      do r <- has_stores (maybe (sy_cache_store s)) id ;;
      match r with
      | Ok false => has_stores (sy_rstores s) id
      | _ => Ret r
      end
    | _ => Ret r
    end
  | _ => Ret r
  end.
End Get.

(** Model of the way a stream is stored as chunks and put together again: src/casync.c ca_sync_start (the index),
    ca_sync_write_one_chunk, ca_sync_write_chunks, ca_sync_write_final_chunk; ca_sync_process_decoder_request, _seek and _skip with
    an index.

    The stores are those of Store.v (a program of system calls), the index that of Index.v (which has its own piece of the file system),
    the chunker that of Chunker.v, looking for chunks that of SyncGet.v. No cache (CaCache, see SyncCache.v), therefore no origins; counters
    and time stamps are left out; allocation does not fail. *)
From Verif Require Import Base Chunker ChunkId FeatureFlags Posix ChunkFile Store SyncGet.
From Verif Require Index.
Local Open Scope N_scope.

(** ** Writing *)

(** casync.c:59-140 CaSync, what writing uses: wstore, cache_store, index, the digest type that feature_flags select, and the chunker with the
    buffer. *)
Record writer := mkWriter { wr_wstore : option store; wr_cache_store : option store; wr_index : option Index.idx; wr_digest : dtype; wr_cfg : cfg; wr_split : split }.

Definition with_wstore (wr : writer) (o : option store) : writer := mkWriter o (wr_cache_store wr) (wr_index wr) (wr_digest wr) (wr_cfg wr) (wr_split wr).
Definition with_cache_store (wr : writer) (o : option store) : writer := mkWriter (wr_wstore wr) o (wr_index wr) (wr_digest wr) (wr_cfg wr) (wr_split wr).
Definition with_index (wr : writer) (o : option Index.idx) : writer := mkWriter (wr_wstore wr) (wr_cache_store wr) o (wr_digest wr) (wr_cfg wr) (wr_split wr).
Definition with_split (wr : writer) (s : split) : writer := mkWriter (wr_wstore wr) (wr_cache_store wr) (wr_index wr) (wr_digest wr) (wr_cfg wr) s.

(** casync.c:1548-1579: the part of ca_sync_start that sets up the index; make_mode is left out. *)
Definition start_index (flags : N) (c : cfg) : Index.op unit :=
  Index.bindM (Index.index_set_feature_flags flags) (fun _ =>
  Index.bindM (Index.index_set_chunk_size_min (c_min c)) (fun _ =>
  Index.bindM (Index.index_set_chunk_size_avg (c_avg c)) (fun _ =>
  Index.bindM (Index.index_set_chunk_size_max (c_max c)) (fun _ =>
  Index.index_open)))).

(** An operation on the index, if there is one. *)
Definition on_index {A} (wr : writer) (m : Index.op A) : writer * res unit :=
  match wr_index wr with
  | None => (wr, Ok tt)
  | Some x =>
    let (r, x') := m x in
    (with_index wr (Some x'), match r with Ok _ => Ok tt | Err e => Err e | Abort => Abort | UB => UB end)
  end.

(** casync.c:1643-1646, 1692-1694, 1771-1772: there is something to write to *)
Definition has_target (wr : writer) : bool :=
  match wr_wstore wr, wr_cache_store wr, wr_index wr with None, None, None => false | _, _, _ => true end.

Section Write.
Context (codecs : ctype -> option codec) (digest : dtype -> list N -> list N) (vtd : list N) (fuel : nat).

(** casync.c:1656-1662, 1664-1668: a chunk that is in the store already is fine. *)
Definition put_in (o : option store) (id p : list N) : prog (option store * res unit) :=
  match o with
  | None => Ret (None, Ok tt)
  | Some st =>
    do x <- store_put codecs vtd fuel st id UNCOMPRESSED p ;;
    let '(st, r) := x in
    Ret (Some st, match r with Err EEXIST => Ok tt | _ => r end)
  end.

(** casync.c:1638-1690 ca_sync_write_one_chunk *)
Definition write_one_chunk (wr : writer) (p : list N) : prog (writer * res unit) :=
  match chunk_id_make (digest (wr_digest wr)) p with
  | Ok id =>
    do x <- put_in (wr_wstore wr) id p ;;
    let '(o, r) := x in
    let wr := with_wstore wr o in
    match r with
    | Ok _ =>
      do x <- put_in (wr_cache_store wr) id p ;;
      let '(o, r) := x in
      let wr := with_cache_store wr o in
      match r with
      | Ok _ => Ret (on_index wr (Index.index_write_chunk id (len p)))
      | _ => Ret (wr, r)
      end
    | _ => Ret (wr, r)
    end
  | Err e => Ret (wr, Err e)
  | Abort => Ret (wr, Abort)
  | UB => Ret (wr, UB)
  end.

(** casync.c:1713-1761 the loop of ca_sync_write_chunks. [n] bounds the number of borders; each border consumes at least one byte. *)
Fixpoint write_loop (n : nat) (wr : writer) (p : list N) : prog (writer * res unit) :=
  if len p =? 0 then Ret (wr, Ok tt)
  else
    match n with
    | O => Hang
    | S n =>
      let buf := sp_buf (wr_split wr) in
      match ca_chunker_scan (wr_cfg wr) (sp_ck (wr_split wr)) p with
      | Ok (None, ck) => Ret (with_split wr (mkSplit ck (buf ++ p)), Ok tt)
      | Ok (Some k, ck) =>
        let chunk := if len buf =? 0 then takeN k p else buf ++ takeN k p in
        do x <- write_one_chunk (with_split wr (mkSplit ck (if len buf =? 0 then [] else chunk))) chunk ;;
        let '(wr, r) := x in
        match r with
        | Ok _ => write_loop n (with_split wr (mkSplit ck [])) (dropN k p)
        | _ => Ret (wr, r)
        end
      | Err e => Ret (wr, Err e)
      | Abort => Ret (wr, Abort)
      | UB => Ret (wr, UB)
      end
    end.

(** casync.c:1692-1764 ca_sync_write_chunks *)
Definition sync_write_chunks (wr : writer) (p : list N) : prog (writer * res unit) :=
  if has_target wr then write_loop (S (length p)) wr p else Ret (wr, Ok tt).

(** casync.c:1766-1790 ca_sync_write_final_chunk *)
Definition sync_write_final (wr : writer) : prog (writer * res unit) :=
  if has_target wr then
    do x <- (if len (sp_buf (wr_split wr)) =? 0 then Ret (wr, Ok tt) else write_one_chunk wr (sp_buf (wr_split wr))) ;;
    let '(wr, r) := x in
    match r with
    | Ok _ =>
      match on_index wr Index.index_write_eof with
      | (wr, Ok _) => Ret (on_index wr Index.index_install)
      | x => Ret x
      end
    | _ => Ret (wr, r)
    end
  else Ret (wr, Ok tt).

(** casync.c:2262-2274, 2072-2076 (ca_sync_step_encode without a cache): the encoder hands out the stream in pieces, then it has finished. *)
Fixpoint write_stream (wr : writer) (ps : list (list N)) : prog (writer * res unit) :=
  match ps with
  | [] => sync_write_final wr
  | p :: ps =>
    do x <- sync_write_chunks wr p ;;
    let '(wr, r) := x in
    match r with
    | Ok _ => write_stream wr ps
    | _ => Ret (wr, r)
    end
  end.
End Write.

(** ** Reading *)

(** casync.c:59-140 CaSync, what reading uses: the index, the places chunks are looked for in, next_chunk and next_chunk_size while
    next_chunk_valid, chunk_skip. *)
Record reader := mkReader { rd_index : Index.idx; rd_sync : sync; rd_next : option (list N * N); rd_skip : N }.

(** What a step on behalf of the decoder comes to: CA_SYNC_POLL, CA_SYNC_STEP without anything for the decoder, CA_SYNC_STEP with data or the end
    of the stream handed to the decoder. *)
Inductive fed := FPoll | FNothing | FData (p : list N) | FEof.

(** casync.c:2334-2376 the loop that looks for the chunk that the stream goes on with; [Ok None] is it was found. [n] bounds the number of rounds:
    all but the first read 40 bytes of the index. *)
Fixpoint next_loop (n : nat) (rd : reader) : reader * res (option fed) :=
  match n with
  | O => (rd, Abort)
  | S n =>
    let read (rd : reader) :=
      match Index.index_read_chunk (rd_index rd) with
      | (Err EAGAIN, x) => (mkReader x (rd_sync rd) None (rd_skip rd), Ok (Some FPoll))
      | (Ok None, x) => (mkReader x (rd_sync rd) None (rd_skip rd), Ok (Some FEof))
      | (Ok (Some (id, _, size)), x) =>
        if size =? UINT64_MAX then (mkReader x (rd_sync rd) None (rd_skip rd), Err ESPIPE)
        else next_loop n (mkReader x (rd_sync rd) (Some (id, size)) (rd_skip rd))
      | (Err e, x) => (mkReader x (rd_sync rd) None (rd_skip rd), Err e)
      | (Abort, x) => (mkReader x (rd_sync rd) None (rd_skip rd), Abort)
      | (UB, x) => (mkReader x (rd_sync rd) None (rd_skip rd), UB)
      end in
    match rd_next rd with
    | Some (id, size) =>
      if rd_skip rd <? size then (rd, Ok None)
      else read (mkReader (rd_index rd) (rd_sync rd) None (rd_skip rd - size))
    | None => read rd
    end
  end.

Definition rounds (x : Index.idx) : nat := (2 + length (Index.x_data x) + length (match Index.x_final x with Some d => d | None => [] end))%nat.

Section Read.
Context (codecs : ctype -> option codec) (digest : dtype -> list N -> list N) (fuel : nat).

(** casync.c:2321-2418 ca_sync_process_decoder_request with an index; [ready] is ca_sync_seed_ready(). That the decoder takes the data or the end
    (ca_decoder_put_data, ca_decoder_put_eof) is left out: it does when it has asked for it. *)
Definition decoder_request (ready : bool) (rd : reader) : prog (reader * res fed) :=
  match next_loop (rounds (rd_index rd)) rd with
  | (rd, Ok None) =>
    match rd_next rd with
    | None => Ret (rd, UB)
    | Some (id, size) =>
      if negb ready then Ret (rd, Ok FPoll)
      else
        do x <- sync_get codecs digest fuel (rd_sync rd) id UNCOMPRESSED ;;
        let '(sy, r) := x in
        let rd := mkReader (rd_index rd) sy (rd_next rd) (rd_skip rd) in
        match r with
        | Err EAGAIN => Ret (rd, Ok FNothing)
        | Err EALREADY => Ret (rd, Ok FPoll)
        | Err e => Ret (rd, Err e)
        | Abort => Ret (rd, Abort)
        | UB => Ret (rd, UB)
        | Ok (p, _) =>
          if negb (size =? UINT64_MAX) && negb (size =? len p) then Ret (rd, Err EBADMSG)
          else
            let rd := mkReader (rd_index rd) sy None (rd_skip rd) in
            if 0 <? rd_skip rd then
              if len p <=? rd_skip rd then Ret (rd, Err EINVAL)
              else Ret (mkReader (rd_index rd) sy None 0, Ok (FData (dropN (rd_skip rd) p)))
            else Ret (rd, Ok (FData p))
        end
    end
  | (rd, Ok (Some f)) => Ret (rd, Ok f)
  | (rd, Err e) => Ret (rd, Err e)
  | (rd, Abort) => Ret (rd, Abort)
  | (rd, UB) => Ret (rd, UB)
  end.

(** casync.c:2498-2523 ca_sync_process_decoder_seek with an index *)
Definition decoder_seek (offset : N) (rd : reader) : reader * res fed :=
  match Index.index_seek offset (rd_index rd) with
  | (Ok skip, x) => (mkReader x (rd_sync rd) None skip, Ok FNothing)
  | (Err e, x) => (mkReader x (rd_sync rd) None 0, Err e)
  | (Abort, x) => (mkReader x (rd_sync rd) None 0, Abort)
  | (UB, x) => (mkReader x (rd_sync rd) None 0, UB)
  end.

(** casync.c:2538-2554 ca_sync_process_decoder_skip with an index *)
Definition decoder_skip (size : N) (rd : reader) : reader * res fed :=
  if (rd_skip rd + size) mod two64 <? rd_skip rd then (rd, Err EOVERFLOW)
  else (mkReader (rd_index rd) (rd_sync rd) (rd_next rd) ((rd_skip rd + size) mod two64), Ok FNothing).

(** A decoder that asks for data until the end and keeps it all (casync.c:2621-2680 ca_sync_step_decode, of a blob; nothing is
    waited for). *)
Fixpoint read_all (n : nat) (rd : reader) (got : list N) : prog (res (list N)) :=
  match n with
  | O => Hang
  | S n =>
    do x <- decoder_request true rd ;;
    let '(rd, r) := x in
    match r with
    | Ok FEof => Ret (Ok got)
    | Ok (FData p) => read_all n rd (got ++ p)
    | Ok FNothing => read_all n rd got
    | Ok FPoll => Hang
    | Err e => Ret (Err e)
    | Abort => Ret Abort
    | UB => Ret UB
    end
  end.
End Read.

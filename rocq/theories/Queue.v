(** Model of the queue of requests in src/caremote.c: a farm of symbolic links in the directory of the remote's cache.

    Names are relative to that directory: [in_cache root p] is the name of [p] in it (Cache.v). The directory is the one set with
    ca_remote_set_cache_path (a random name in $TMPDIR or /var/tmp otherwise, caremote.c:686-696; the model takes the name as given);
    ca_remote_set_cache_fd is not modelled. Allocation does not fail. *)
From Verif Require Import Base Locator Number ChunkId Posix ChunkFile Cache.
Local Open Scope N_scope.

(** caremote.c:64-72 of CaRemote: cache_path, whether cache_fd is open, and the counters of the two queues. *)
Record queue := mkQueue { q_path : list N; q_open : bool; start_high : N; end_high : N; start_low : N; end_low : N }.
Definition queue_new (root : list N) : queue := mkQueue root false 0 0 0 0.

(** "chunks", "high-priority", "low-priority" *)
Definition s_chunks : list N := [99; 104; 117; 110; 107; 115].
Definition s_high : list N := [104; 105; 103; 104; 45; 112; 114; 105; 111; 114; 105; 116; 121].
Definition s_low : list N := [108; 111; 119; 45; 112; 114; 105; 111; 114; 105; 116; 121].
Definition queue_name (high : bool) : list N := if high then s_high else s_low.

(** asprintf("%s%lu", queue_name, position) *)
Definition queue_pos (high : bool) (n : N) : list N := queue_name high ++ 47 :: dec n.

Definition opened (q : queue) : queue := mkQueue (q_path q) true (start_high q) (end_high q) (start_low q) (end_low q).
(** queue_end_high++, queue_end_low++, queue_start_high++, queue_start_low++ on uint64_t *)
Definition end_next (high : bool) (q : queue) : queue :=
  if high then mkQueue (q_path q) (q_open q) (start_high q) ((end_high q + 1) mod two64) (start_low q) (end_low q)
  else mkQueue (q_path q) (q_open q) (start_high q) (end_high q) (start_low q) ((end_low q + 1) mod two64).
Definition start_next (high : bool) (q : queue) : queue :=
  if high then mkQueue (q_path q) (q_open q) ((start_high q + 1) mod two64) (end_high q) (start_low q) (end_low q)
  else mkQueue (q_path q) (q_open q) (start_high q) (end_high q) ((start_low q + 1) mod two64) (end_low q).

(** caremote.c:677-705 ca_remote_init_cache, with a path set *)
Definition init_cache (q : queue) : prog (queue * res unit) :=
  if q_open q then Ret (q, Ok tt)
  else Sys (SMkdir (q_path q)) (fun _ => Sys (SOpenDir (q_path q)) (fun r =>
         match r with
         | RNum _ => Ret (opened q, Ok tt)
         | RFail e => Ret (q, Err e)
         | _ => Ret (q, UB)
         end)).

(** caremote.c:738: "chunks/" and the id *)
Definition chunk_link (q : queue) (id : list N) : list N := in_cache (q_path q) (s_chunks ++ 47 :: chunk_id_format id).

(** caremote.c:782-814: the two symbolic links, and the counter. mkdirat("high-priority/") makes the directory "high-priority". *)
Definition add_request (q : queue) (id : list N) (high : bool) : prog (queue * res bool) :=
  let position := if high then end_high q else end_low q in
  let qpos := queue_pos high position in
  let links :=
    Sys (SSymlink qpos (chunk_link q id)) (fun r =>
      match r with
      | RNum _ =>
        Sys (SSymlink (chunk_id_format id) (in_cache (q_path q) qpos)) (fun r =>
          match r with
          | RNum _ => Ret (end_next high q, Ok true)
          | RFail e => Ret (q, Err e)
          | _ => Ret (q, UB)
          end)
      | RFail e => Ret (q, Err e)
      | _ => Ret (q, UB)
      end) in
  if position =? 0 then
    Sys (SMkdir (in_cache (q_path q) s_chunks)) (fun _ => Sys (SMkdir (in_cache (q_path q) (queue_name high))) (fun _ => links))
  else links.

(** caremote.c:737-780, when the cache is there. The result is true for 1 (queued), false for 0 (nothing to do). *)
Definition enqueue_open (fuel : nat) (q : queue) (id : list N) (high requeue : bool) : prog (queue * res bool) :=
  let f := chunk_link q id in
  do r <- readlink_malloc fuel f 256 ;;
  match r with
  | Ok qpos =>
    match startswith qpos (queue_name high ++ [47]) with
    | Some _ => Ret (q, Ok false)
    | None =>
      if negb high then Ret (q, Ok false)
      else
        match startswith qpos (s_low ++ [47]) with
        | None => Ret (q, Err EBADMSG)
        | Some p =>
          match safe_atou64 p with
          | Ok old =>
            if (old <? start_low q) && negb requeue then Ret (q, Ok false)
            else
              Sys (SUnlink f) (fun r =>
                match r with
                | RNum _ =>
                  Sys (SUnlink (in_cache (q_path q) qpos)) (fun r =>
                    match r with
                    | RNum _ => add_request q id high
                    | RFail e => Ret (q, Err e)
                    | _ => Ret (q, UB)
                    end)
                | RFail e => Ret (q, Err e)
                | _ => Ret (q, UB)
                end)
          | Err e => Ret (q, Err e)
          | Abort => Ret (q, Abort)
          | UB => Ret (q, UB)
          end
        end
    end
  | Err ENOENT => add_request q id high
  | Err e => Ret (q, Err e)
  | Abort => Ret (q, Abort)
  | UB => Ret (q, UB)
  end.

(** caremote.c:707-819 ca_remote_enqueue_request; called by ca_remote_request_async (2174-2187) and ca_remote_request (2143) with
    please_requeue, and for an incoming request (1295-1312) without. *)
Definition enqueue_request (fuel : nat) (q : queue) (id : list N) (high requeue : bool) : prog (queue * res bool) :=
  do x <- init_cache q ;;
  let '(q, r) := x in
  match r with
  | Ok _ => enqueue_open fuel q id high requeue
  | Err e => Ret (q, Err e)
  | Abort => Ret (q, Abort)
  | UB => Ret (q, UB)
  end.

(** caremote.c:836-847: which queue is looked at; [only] is [None] for only_high_priority -1, [Some true] for 1, [Some false] for 0. *)
Definition pick (q : queue) (only : option bool) : option (bool * N) :=
  if (start_high q <? end_high q) && negb (match only with Some false => true | _ => false end) then Some (true, start_high q)
  else if (start_low q <? end_low q) && negb (match only with Some true => true | _ => false end) then Some (false, start_low q)
  else None.

(** caremote.c:833-884: the loop of ca_remote_dequeue_request *)
Fixpoint dequeue_loop (fuel : nat) (q : queue) (only : option bool) : prog (queue * res (list N * bool)) :=
  match fuel with
  | O => Hang
  | S fuel' =>
    match pick q only with
    | None => Ret (q, Err ENODATA)
    | Some (high, position) =>
      do r <- readlink_malloc fuel (in_cache (q_path q) (queue_pos high position)) 256 ;;
      match r with
      | Ok ids =>
        match chunk_id_parse ids with
        | None => Ret (q, Err EBADMSG)
        | Some id => Ret (start_next high q, Ok (id, high))
        end
      | Err ENOENT => dequeue_loop fuel' (start_next high q) only
      | Err e => Ret (q, Err e)
      | Abort => Ret (q, Abort)
      | UB => Ret (q, UB)
      end
    end
  end.

(** caremote.c:821-885 ca_remote_dequeue_request; ca_remote_next_request (2189-2202) calls it with -1. *)
Definition dequeue_request (fuel : nat) (q : queue) (only : option bool) : prog (queue * res (list N * bool)) :=
  if q_open q then dequeue_loop fuel q only else Ret (q, Err ENODATA).

(** caremote.c:2599-2613 ca_remote_has_pending_requests *)
Definition has_pending_requests (q : queue) : bool :=
  q_open q && ((start_high q <? end_high q) || (start_low q <? end_low q)).

(** caremote.c:2775-2788: the rest of ca_remote_forget_chunk. [held] is whether qpos was set: free() of a pointer that was not is undefined. *)
Definition forget_file (q : queue) (id : list N) (held : bool) : prog (res unit) :=
  do r <- chunk_file_remove (q_path q ++ [47]) id ;;
  if held then
    match r with
    | Err ENOENT | Ok _ => Ret (Ok tt)
    | r => Ret r
    end
  else Ret UB.

(** caremote.c:2725-2788 ca_remote_forget_chunk *)
Definition forget_chunk (fuel : nat) (q : queue) (id : list N) : prog (res unit) :=
  if negb (q_open q) then Ret (Ok tt)
  else
    let f := chunk_link q id in
    do r <- readlink_malloc fuel f 256 ;;
    match r with
    | Ok qpos =>
      match (match startswith qpos (s_low ++ [47]) with Some p => Some p | None => startswith qpos (s_high ++ [47]) end) with
      | None => Ret (Err EBADMSG)
      | Some p =>
        match safe_atou64 p with
        | Ok _ =>
          Sys (SUnlink f) (fun r =>
            match r with
            | RNum _ =>
              Sys (SUnlink (in_cache (q_path q) qpos)) (fun r =>
                match r with
                | RNum _ => forget_file q id true
                | RFail e => Ret (Err e)
                | _ => Ret UB
                end)
            | RFail e => Ret (Err e)
            | _ => Ret UB
            end)
        | Err e => Ret (Err e)
        | Abort => Ret Abort
        | UB => Ret UB
        end
      end
    | Err ENOENT => forget_file q id false
    | Err e => Ret (Err e)
    | Abort => Ret Abort
    | UB => Ret UB
    end.

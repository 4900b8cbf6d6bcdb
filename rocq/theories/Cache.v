(** Model of src/cacache.c: the cache that maps locations to chunk ids.

    The names of the cache are relative to its directory: [in_cache root p] is the name of [p] in it. The digest is an oracle.
    Buffers (src/realloc-buffer.c, ReallocBuffer.v) are byte lists; allocation does not fail; NULL arguments are not modelled. Loops
    take a bound on the number of rounds, [Hang] is what is left when it is used up. *)
From Verif Require Import Base Locator ChunkId Posix ChunkFile Location LocationHeap Origin.
Local Open Scope N_scope.

(** cacache.c:15-22 CaCache: the path set, and whether fd is open. (ca_cache_set_fd is not modelled.) *)
Record cache := mkCache { c_path : option (list N); c_open : bool }.

(** cacache.c:30-42 ca_cache_new; cacache.c:101-118 ca_cache_set_path *)
Definition cache_new : cache := mkCache None false.
Definition cache_set_path (c : cache) (p : list N) : res unit * cache :=
  if c_open c then (Err EBUSY, c)
  else match c_path c with Some _ => (Err EBUSY, c) | None => (Ok tt, mkCache (Some p) false) end.

(** cacache.c:120-143 ca_cache_open; the FS_NODUMP_FL attribute is left out. Result: the directory. *)
Definition cache_open (c : cache) : prog (cache * res (list N)) :=
  match c_path c with
  | None => Ret (c, Err EUNATCH)
  | Some root =>
    if c_open c then Ret (c, Ok root)
    else Sys (SMkdir root) (fun _ => Sys (SOpenDir root) (fun r =>
           match r with
           | RNum _ => Ret (mkCache (Some root) true, Ok root)
           | RFail e => Ret (c, Err e)
           | _ => Ret (c, UB)
           end))
  end.

Definition in_cache (root p : list N) : list N := root ++ 47 :: p.

(** ".cachi" *)
Definition cachi : list N := [46; 99; 97; 99; 104; 105].

(** cacache.c:171-175, 324-328, 428-432: the key (calocation.c:607-641 ca_location_id_make), and the name of the file. *)
Definition cache_key (digest : list N -> list N) (l : loc) : list N := digest (location_message l false).
Definition cache_path (root key : list N) : list N := in_cache root (chunk_id_format_path [] key cachi).
(** cacache.c:330, 437: the first four digits *)
Definition cache_four (root key : list N) : list N := in_cache root (takeN 4 (chunk_id_format_path [] key cachi)).

(** util.c:841-872 readlinkat_malloc; [l] is the size of the buffer. *)
Fixpoint readlink_malloc (fuel : nat) (p : list N) (l : N) : prog (res (list N)) :=
  match fuel with
  | O => Hang
  | S fuel =>
    Sys (SReadlink p (l - 1)) (fun r =>
      match r with
      | RData b => if len b <? l - 1 then Ret (Ok b) else readlink_malloc fuel p (l * 2)
      | RFail e => Ret (Err e)
      | _ => Ret UB
      end)
  end.

(** realloc-buffer.c:272-292 realloc_buffer_read_target for a target below BUFFER_SIZE: the buffer, and whether the target is reached. *)
Fixpoint read_target (fuel : nat) (fd : nat) (buf : list N) (target : N) : prog (res (list N * bool)) :=
  match fuel with
  | O => Hang
  | S fuel =>
    if target <=? len buf then Ret (Ok (buf, true))
    else try b <- sys_read fd BUFFER_SIZE ;;
         match b with
         | [] => Ret (Ok (buf, false))
         | _ => read_target fuel fd (buf ++ b) target
         end
  end.

(** strlen(3), strndupa(3): a string ends at its first NUL. *)
Definition cstring (s : list N) : list N := match cut 0 s with Some (a, _) => a | None => s end.

(** cacache.c:177-222: the id an entry begins with, what is in the buffer after it, and the descriptor if the entry is a file. *)
Definition get_head (fuel : nat) (p : list N) : prog (res (list N * list N * option nat)) :=
  do r <- readlink_malloc fuel p 256 ;;
  match r with
  | Err EINVAL =>
    Sys (SOpen p) (fun r =>
      match r with
      | RFd fd =>
        try x <- read_target fuel fd [] 32 ;;
        let '(buf, reached) := x in
        if reached : bool then Ret (Ok (takeN 32 buf, dropN 32 buf, Some fd)) else Ret (Err EINVAL)
      | RFail e => Ret (Err e)
      | _ => Ret UB
      end)
  | Err e => Ret (Err e)
  | Ok dest =>
    let buf := cstring dest ++ [0] in
    if len buf <? 65 then Ret (Err EINVAL)
    else if negb (at_ buf 64 =? 58) then Ret (Err EINVAL)
    else match chunk_id_parse (cstring (takeN 64 buf)) with
         | None => Ret (Err EINVAL)
         | Some id => Ret (Ok (id, dropN 65 buf, None))
         end
  | Abort => Ret Abort
  | UB => Ret UB
  end.

(** cacache.c:254-270: one item is parsed, checked, put into the origin, and released. *)
Definition get_item (text : list N) (o : origin) : M (res N * origin) :=
  match location_parse text with
  | Ok l =>
      let* item := alloc l in
      if size l =? UINT64_MAX then let* _ := unref item in mret (Err EINVAL, o)
      else if mtime l =? UINT64_MAX then let* _ := unref item in mret (Err EINVAL, o)
      else
        let* ' (r, o) := put o item in
        let* _ := unref item in
        mret (r, o)
  | Err e => mret (Err e, o)
  | _ => fun _ => None
  end.

(** The error returned; the origin is released (cacache.c:147 _cleanup_). *)
Definition give_up {A} (o : origin) (e : errno) (h : heap) : prog (res A * heap) :=
  match flush o h with Some (_, h) => Ret (Err e, h) | None => Ret (UB, h) end.

(** cacache.c:228-271: the items. *)
Fixpoint get_items (fuel : nat) (fd : option nat) (buf : list N) (o : origin) (h : heap) : prog (res origin * heap) :=
  match fuel with
  | O => Hang
  | S fuel =>
    match cut 0 buf with
    | Some (text, rest) =>
      match get_item text o h with
      | None => Ret (UB, h)
      | Some ((Ok _, o), h) => get_items fuel fd rest o h
      | Some ((Err e, o), h) => give_up o e h
      | Some (_, h) => Ret (UB, h)
      end
    | None =>
      let stop := match buf with [] => Ret (Ok o, h) | _ => give_up o EINVAL h end in
      match fd with
      | None => stop
      | Some f => Sys (SRead f BUFFER_SIZE) (fun r =>
                    match r with
                    | RData [] => stop
                    | RData b => get_items fuel fd (buf ++ b) o h
                    | RFail e => give_up o e h
                    | _ => Ret (UB, h)
                    end)
      end
    end
  end.

(** cacache.c:145-290 ca_cache_get: the id and the origin (ret_chunk_id, ret_origin). *)
Definition cache_get (digest : list N -> list N) (fuel : nat) (c : cache) (l : loc) (h : heap) : prog (cache * (res (list N * origin) * heap)) :=
  if mtime l =? UINT64_MAX then Ret (c, (Abort, h)) else
  do (c, r) <- cache_open c ;;
  match r with
  | Ok root =>
    do r <- get_head fuel (cache_path root (cache_key digest l)) ;;
    match r with
    | Ok (id, buf, fd) =>
      do (r, h) <- get_items fuel fd buf origin_new h ;;
      match r with
      | Ok o =>
        do x <- (if n_bytes o =? 0 then give_up o EINVAL h
                 else match items o with
                      | [] => Ret (UB, h)
                      | p :: _ => match rd p h with
                                  | None => Ret (UB, h)
                                  | Some (first, _) => if location_equal l (val first) (N.lor WITH_MTIME WITH_FEATURE_FLAGS) then Ret (Ok (id, o), h)
                                                       else give_up o EINVAL h
                                  end
                      end) ;;
        Ret (c, x)
      | Err e => Ret (c, (Err e, h))
      | Abort => Ret (c, (Abort, h))
      | UB => Ret (c, (UB, h))
      end
    | Err e => Ret (c, (Err e, h))
    | Abort => Ret (c, (Abort, h))
    | UB => Ret (c, (UB, h))
    end
  | Err e => Ret (c, (Err e, h))
  | Abort => Ret (c, (Abort, h))
  | UB => Ret (c, (UB, h))
  end.

(** util.c:463-501 tempfn_random, for the path of a cache entry (whose last component is a valid file name); util.c:407-411 hexchar *)
Fixpoint nibbles (n : nat) (u : N) : list N := match n with O => [] | S n => encode_char (N.land u 15) :: nibbles n (N.shiftr u 4) end.
Definition temp_path (p : list N) (u : N) : list N := dirname p ++ 47 :: 46 :: 35 :: basename p ++ nibbles 16 u.

(** realloc-buffer.c:339-366 realloc_buffer_write, realloc-buffer.c:368-379 realloc_buffer_write_maybe: the buffer afterwards *)
Fixpoint buffer_write (fuel : nat) (fd : nat) (buf : list N) : prog (res unit) :=
  match fuel with
  | O => Hang
  | S fuel =>
    match buf with
    | [] => Ret (Ok tt)
    | _ => Sys (SWrite fd buf) (fun r =>
             match r with
             | RNum n => if len buf <? n then Ret (Err EINVAL) else buffer_write fuel fd (dropN n buf)
             | RFail e => Ret (Err e)
             | _ => Ret UB
             end)
    end
  end.
Definition buffer_write_maybe (fuel : nat) (fd : nat) (buf : list N) : prog (res (list N)) :=
  if len buf <? BUFFER_SIZE then Ret (Ok buf) else try _ <- buffer_write fuel fd buf ;; Ret (Ok []).

(** calocation.h:92 ca_location_format *)
Definition format (l : loc) : list N := location_format l (N.lor WITH_SIZE (N.lor WITH_MTIME WITH_FEATURE_FLAGS)).

(** cacache.c:376-393: the loop over the items. *)
Fixpoint put_items (fuel : nat) (fd : nat) (buf : list N) (ls : list loc) : prog (res (list N)) :=
  match ls with
  | [] => Ret (Ok buf)
  | l :: ls => try buf <- buffer_write_maybe fuel fd buf ;; put_items fuel fd (buf ++ format l ++ [0]) ls
  end.

(** cacache.c:365-405: writing the entry as a file. If that fails the temporary file is not removed: unlink_and_freep
    (util.h:752-764) calls unlink() on the name relative to the working directory of the process, not to the cache; the model takes
    these to be different directories. *)
Definition put_file (fuel : nat) (p id : list N) (ls : list loc) : prog (res N) :=
  Sys SRandom (fun r =>
    match r with
    | RNum u =>
      let temp := temp_path p u in
      Sys (SCreat temp) (fun r =>
        match r with
        | RFd fd =>
          try buf <- put_items fuel fd id ls ;;
          try _ <- buffer_write fuel fd buf ;;
          Sys (SRename temp p) (fun r => match r with RNum _ => Ret (Ok 1) | RFail e => Ret (Err e) | _ => Ret UB end)
        | RFail e => Ret (Err e)
        | _ => Ret UB
        end)
    | RFail e => Ret (Err e)
    | _ => Ret UB
    end).

(** cacache.c:292-405 ca_cache_put; the origin is given by the values of its items. *)
Definition cache_put (digest : list N -> list N) (fuel : nat) (c : cache) (ls : list loc) (id : list N) : prog (cache * res N) :=
  match ls with
  | [] => Ret (c, Err EINVAL)
  | first :: rest =>
    do (c, r) <- cache_open c ;;
    match r with
    | Ok root =>
      let key := cache_key digest first in
      let p := cache_path root key in
      Sys (SMkdir (cache_four root key)) (fun _ =>
        do r <- match rest with
                | [] =>
                  Sys (SSymlink (chunk_id_format id ++ 58 :: format first) p) (fun r =>
                    match r with
                    | RNum _ => Ret (Ok 1)
                    | RFail EEXIST => Ret (Ok 0)
                    | RFail ENAMETOOLONG => put_file fuel p id ls
                    | RFail e => Ret (Err e)
                    | _ => Ret UB
                    end)
                | _ =>
                  Sys (SAccess p) (fun r =>
                    match r with
                    | RNum _ => Ret (Ok 0)
                    | RFail _ => put_file fuel p id ls
                    | _ => Ret UB
                    end)
                end ;;
        Ret (c, r))
    | Err e => Ret (c, Err e)
    | Abort => Ret (c, Abort)
    | UB => Ret (c, UB)
    end
  end.

(** cacache.c:407-441 ca_cache_remove *)
Definition cache_remove (digest : list N -> list N) (c : cache) (l : loc) : prog (cache * res unit) :=
  do (c, r) <- cache_open c ;;
  match r with
  | Ok root =>
    let key := cache_key digest l in
    Sys (SUnlink (cache_path root key)) (fun r =>
      match r with
      | RNum _ => Sys (SRmdir (cache_four root key)) (fun _ => Ret (c, Ok tt))
      | RFail e => Ret (c, Err e)
      | _ => Ret (c, UB)
      end)
  | Err e => Ret (c, Err e)
  | Abort => Ret (c, Abort)
  | UB => Ret (c, UB)
  end.

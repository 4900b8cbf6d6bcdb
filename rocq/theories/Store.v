(** Model of src/castore.c. A store is a value that its functions take and return; the digest algorithms are an oracle. *)
From Verif Require Import Base ChunkId Posix ChunkFile.
Local Open Scope N_scope.

(** cadigest.h:11-18 CaDigestType; CA_DIGEST_DEFAULT is SHA512/256. [None] is _CA_DIGEST_TYPE_INVALID. *)
Inductive dtype := SHA256 | SHA512_256.

Definition dtype_eqb (a b : dtype) : bool :=
  match a, b with SHA256, SHA256 | SHA512_256, SHA512_256 => true | _, _ => false end.

(** castore.c:21-35 struct CaStore, without the buffers. *)
Record store := {
  st_root : option (list N);
  st_is_cache : bool;
  st_mkdir_done : bool;
  st_digest : option dtype;            (* digest_type *)
  st_validate : option dtype;          (* type of validate_digest, None if not allocated *)
  st_compression : chunk_compression;
  st_ctype : option ctype;             (* compression_type *)
  st_requests : N;
  st_request_bytes : N
}.

(** castore.c:46-59 ca_store_new; [t] is CA_COMPRESSION_DEFAULT. *)
Definition store_new (t : option ctype) : store :=
  {| st_root := None; st_is_cache := false; st_mkdir_done := false; st_digest := None; st_validate := None;
     st_compression := COMPRESSED; st_ctype := t; st_requests := 0; st_request_bytes := 0 |}.

(** castore.c:61-73 ca_store_new_cache: the digest type is left at 0, which is SHA256. *)
Definition store_new_cache (t : option ctype) : store :=
  {| st_root := None; st_is_cache := true; st_mkdir_done := false; st_digest := Some SHA256; st_validate := None;
     st_compression := AS_IS; st_ctype := t; st_requests := 0; st_request_bytes := 0 |}.

(** castore.c:91-108 ca_store_set_path *)
Definition store_set_path (st : store) (p : list N) : res store :=
  match st_root st with
  | Some _ => Err EBUSY
  | None =>
    Ok {| st_root := Some (if last p 0 =? 47 then p else p ++ [47]); st_is_cache := st_is_cache st;
          st_mkdir_done := st_mkdir_done st; st_digest := st_digest st; st_validate := st_validate st;
          st_compression := st_compression st; st_ctype := st_ctype st;
          st_requests := st_requests st; st_request_bytes := st_request_bytes st |}
  end.

(** castore.c:110-120 ca_store_set_compression *)
Definition store_set_compression (st : store) (c : chunk_compression) : store :=
  {| st_root := st_root st; st_is_cache := st_is_cache st;
     st_mkdir_done := st_mkdir_done st; st_digest := st_digest st; st_validate := st_validate st;
     st_compression := c; st_ctype := st_ctype st;
     st_requests := st_requests st; st_request_bytes := st_request_bytes st |}.

(** castore.c:122-132 ca_store_set_compression_type *)
Definition store_set_ctype (st : store) (t : ctype) : store :=
  {| st_root := st_root st; st_is_cache := st_is_cache st;
     st_mkdir_done := st_mkdir_done st; st_digest := st_digest st; st_validate := st_validate st;
     st_compression := st_compression st; st_ctype := Some t;
     st_requests := st_requests st; st_request_bytes := st_request_bytes st |}.

(** castore.c:303-324 ca_store_set_digest_type *)
Definition store_set_digest (st : store) (t : option dtype) : store :=
  {| st_root := st_root st; st_is_cache := st_is_cache st;
     st_mkdir_done := st_mkdir_done st; st_digest := t;
     st_validate := match t, st_validate st with Some t, Some _ => Some t | _, v => v end;
     st_compression := st_compression st; st_ctype := st_ctype st;
     st_requests := st_requests st; st_request_bytes := st_request_bytes st |}.

Definition store_set_validate (st : store) (t : dtype) : store :=
  {| st_root := st_root st; st_is_cache := st_is_cache st;
     st_mkdir_done := st_mkdir_done st; st_digest := st_digest st; st_validate := Some t;
     st_compression := st_compression st; st_ctype := st_ctype st;
     st_requests := st_requests st; st_request_bytes := st_request_bytes st |}.

Definition store_count (st : store) (data : list N) : store :=
  {| st_root := st_root st; st_is_cache := st_is_cache st;
     st_mkdir_done := st_mkdir_done st; st_digest := st_digest st; st_validate := st_validate st;
     st_compression := st_compression st; st_ctype := st_ctype st;
     st_requests := (st_requests st + 1) mod two64;
     st_request_bytes := (st_request_bytes st + len data) mod two64 |}.

Definition all_dtypes : list dtype := [SHA256; SHA512_256].

(** castore.c:197-214 trying the other digest types in turn; on success the digest object keeps the type that fits. *)
Fixpoint try_digests (digest : dtype -> list N -> list N) (ts : list dtype) (old : dtype) (id v : list N)
  : res (option dtype) :=
  match ts with
  | [] => Ok None
  | t :: ts =>
    if dtype_eqb t old then try_digests digest ts old id v
    else let! a := chunk_id_make (digest t) v in
         if chunk_id_equal id a then Ok (Some t) else try_digests digest ts old id v
  end.

(** castore.c:174-218 the digest check of ca_store_get on the uncompressed data [v]. Result: the store (with the digest object's
    type), or why the data isn't delivered. On failure the digest object is left with some type, which doesn't
    matter as the next check starts over with that and then tries the others. *)
Definition store_validate (digest : dtype -> list N -> list N) (st : store) (id v : list N) : res store :=
  let vt := match st_validate st with
            | Some t => t
            | None => match st_digest st with Some t => t | None => SHA512_256 end
            end in
  let! a := chunk_id_make (digest vt) v in
  if chunk_id_equal id a then Ok (store_set_validate st vt)
  else match st_digest st with
       | Some _ => Err EBADMSG
       | None =>
         let! x := try_digests digest all_dtypes vt id v in
         match x with
         | Some t => Ok (store_set_validate st t)
         | None => Err EBADMSG
         end
       end.

(** castore.c:134-230 ca_store_get. *)
Definition store_get (codecs : ctype -> option codec) (digest : dtype -> list N -> list N) (fuel : nat)
  (st : store) (id : list N) (desired : chunk_compression) : prog (res (store * list N * chunk_compression)) :=
  match st_root st with
  | None => Ret (Err (if st_is_cache st then ENOENT else EUNATCH))
  | Some root =>
    try x <- chunk_file_load codecs fuel root id desired (st_ctype st) [] ;;
    let '(buf, effective) := x in
    try v <- (if compression_eqb effective COMPRESSED then plift (decompress codecs fuel buf [])
              else Ret (Ok buf)) ;;
    match store_validate digest st id v with
    | Ok st => Ret (Ok (store_count st buf, buf, effective))
    | Err e => Ret (Err e)
    | Abort => Ret Abort
    | UB => Ret UB
    end
  end.

(** castore.c:232-240 ca_store_has *)
Definition store_has (st : store) (id : list N) : prog (res bool) :=
  match st_root st with
  | None => Ret (Err (if st_is_cache st then ENOENT else EUNATCH))
  | Some root => chunk_file_test root id
  end.

Definition store_mkdir_done (st : store) : store :=
  {| st_root := st_root st; st_is_cache := st_is_cache st;
     st_mkdir_done := true; st_digest := st_digest st; st_validate := st_validate st;
     st_compression := st_compression st; st_ctype := st_ctype st;
     st_requests := st_requests st; st_request_bytes := st_request_bytes st |}.

Definition store_set_root (st : store) (root : list N) : store :=
  {| st_root := Some root; st_is_cache := st_is_cache st;
     st_mkdir_done := st_mkdir_done st; st_digest := st_digest st; st_validate := st_validate st;
     st_compression := st_compression st; st_ctype := st_ctype st;
     st_requests := st_requests st; st_request_bytes := st_request_bytes st |}.

(** castore.c:242-281 ca_store_put. [vtd] is the directory for temporary files (var_tmp_dir(), an oracle); the name of a cache's
    directory is "<dir>/<hex>.castr/". The store itself is returned too, as it may have got a root. *)
Definition store_put (codecs : ctype -> option codec) (vtd : list N) (fuel : nat)
  (st0 : store) (id : list N) (effective : chunk_compression) (data : list N) : prog (store * res unit) :=
  do st <- match st_root st0 with
           | Some _ => Ret (Ok st0)
           | None =>
             if negb (st_is_cache st0) then Ret (Err EUNATCH)
             else Sys SRandom (fun r =>
                    match r with
                    | RNum v => Ret (Ok (store_set_root st0 (vtd ++ [47] ++ hex v ++ [46; 99; 97; 115; 116; 114; 47])))
                    | RFail e => Ret (Err e)
                    | _ => Ret UB
                    end)
           end ;;
  match st with
  | Ok st =>
    match st_root st with
    | None => Ret (st, UB)
    | Some root =>
      do x <- (if st_mkdir_done st then Ret (Ok st)
               else Sys (SMkdir root) (fun r =>
                      match r with
                      | RNum _ | RFail EEXIST => Ret (Ok (store_mkdir_done st))
                      | RFail e => Ret (Err e)
                      | _ => Ret UB
                      end)) ;;
      match x with
      | Ok st =>
        do r <- chunk_file_save codecs fuel root id effective (st_compression st) (st_ctype st) data ;;
        Ret (st, r)
      | Err e => Ret (st, Err e)
      | Abort => Ret (st, Abort)
      | UB => Ret (st, UB)
      end
    end
  | Err e => Ret (st0, Err e)
  | Abort => Ret (st0, Abort)
  | UB => Ret (st0, UB)
  end.

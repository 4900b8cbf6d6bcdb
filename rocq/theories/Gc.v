(** Garbage collection: gc.c, the iteration over a store in castore.c, dirent-util.c.
    Simplifications: running out of memory and messages are not modelled. Indexes are local files; their contents are given. *)
From Verif Require Import Base ChunkId Index Posix ChunkFile.
Local Open Scope N_scope.

(** set_contains() with the chunk ids compared by value: gc.c:20-58, chunk hash and compare functions *)
Definition used_contains (used : list (list N)) (id : list N) : bool := existsb (chunk_id_equal id) used.

(** gc.c:71-86 gc_add_chunk_id: adding an id that is there already leaves the set as it is. *)
Definition gc_add_chunk_id (used : list (list N)) (id : list N) : list (list N) :=
  if used_contains used id then used else used ++ [id].

(** gc.c:103-119, the loop of ca_chunk_collection_add_index. An error while reading is an assertion failure: gc.c:108-110. [fuel]
    bounds the number of rounds; None: more would be needed. *)
Fixpoint add_index_loop (fuel : nat) (s : idx) (used : list (list N)) : option (res (list (list N))) :=
  match fuel with
  | O => None
  | S fuel =>
    match index_read_chunk s with
    | (Ok None, _) => Some (Ok used)
    | (Ok (Some (id, _, _)), s') => add_index_loop fuel s' (gc_add_chunk_id used id)
    | (Err _, _) => Some Abort
    | (Abort, _) => Some Abort
    | (UB, _) => Some UB
    end
  end.

(** gc.c:88-122 ca_chunk_collection_add_index. [file]: what is at the path, if something is. *)
Definition add_index (fuel : nat) (file : option (list N)) (used : list (list N)) : option (res (list (list N))) :=
  match index_open (index_new CA_INDEX_READ file 0) with
  | (Ok tt, s) => add_index_loop fuel s used
  | (Err e, _) => Some (Err e)
  | (Abort, _) => Some Abort
  | (UB, _) => Some UB
  end.

(** casync-tool.c:3942-3948: all the indexes that are given *)
Fixpoint add_indexes (fuel : nat) (files : list (option (list N))) (used : list (list N)) : option (res (list (list N))) :=
  match files with
  | [] => Some (Ok used)
  | f :: files =>
    match add_index fuel f used with
    | Some (Ok used) => add_indexes fuel files used
    | r => r
    end
  end.

(** ".cacnk" *)
Definition CACNK : list N := [46; 99; 97; 99; 110; 107].

(** util.c endswith *)
Definition endswith (s suffix : list N) : bool :=
  (len suffix <=? len s) && beq (dropN (len s - len suffix) s) suffix.

(** dirent-util.c:27-41 dirent_is_file_with_suffix *)
Definition is_chunk_file (e : list N * node) : bool :=
  match snd e with
  | NDir => false
  | _ => negb (str_at (fst e) 0 =? 46) && endswith (fst e) CACNK
  end.

(** strchr(chunk, '.'): what is before the first dot, gc.c:145-150 *)
Fixpoint before_dot (s : list N) : list N :=
  match s with
  | [] => []
  | c :: s => if c =? 46 then [] else c :: before_dot s
  end.

(** A name in a directory. *)
Definition join (d n : list N) : list N := match d with [] => n | _ => d ++ 47 :: n end.

(** The directory that an entry of the root directory stands for: openat follows "." and ".." too (castore.c:385-396 does not leave
    them out). The root directory is named with a final slash. *)
Definition entry_dir (root sub : list N) : list N :=
  if beq sub [46] then dirname root else if beq sub [46; 46] then dirname (dirname root) else root ++ sub.

(** gc.c:134-178, the part of the loop for the files of one subdirectory; castore.c:398-413 *)
Fixpoint gc_files (dry : bool) (used : list (list N)) (root sub : list N) (l : list (list N * node)) (k : prog (res unit)) : prog (res unit) :=
  match l with
  | [] => k
  | e :: l =>
    if negb (is_chunk_file e) then gc_files dry used root sub l k
    else match chunk_id_parse (before_dot (fst e)) with
    | None => gc_files dry used root sub l k
    | Some id =>
      if used_contains used id then gc_files dry used root sub l k
      else if dry then gc_files dry used root sub l k
      else Sys (SUnlink (join (entry_dir root sub) (fst e))) (fun r =>
             match r with
             | RFail _ => gc_files dry used root sub l k
             | _ => Sys (SRmdir (root ++ sub)) (fun _ => gc_files dry used root sub l k)
             end)
    end
  end.

(** castore.c:377-420 ca_store_iterator_next, inlined in the loop of ca_gc_cleanup_unused; opening "." and ".." is taken not to fail. *)
Fixpoint gc_subdirs (dry : bool) (used : list (list N)) (root : list N) (l : list (list N * node)) : prog (res unit) :=
  match l with
  | [] => Ret (Ok tt)
  | (sub, _) :: l =>
    let list_it := Sys (SList (entry_dir root sub)) (fun r =>
      match r with
      | RNames fs => gc_files dry used root sub fs (gc_subdirs dry used root l)
      | RFail e => Ret (Err e)
      | _ => Ret UB
      end) in
    if beq sub [46] || beq sub [46; 46] then list_it
    else Sys (SOpenDir (root ++ sub)) (fun r =>
           match r with
           | RFail EISDIR => gc_subdirs dry used root l
           | RFail e => Ret (Err e)
           | _ => list_it
           end)
  end.

(** gc.c:124-190 ca_gc_cleanup_unused *)
Definition gc_cleanup_unused (dry : bool) (used : list (list N)) (root : list N) : prog (res unit) :=
  Sys (SOpenDir root) (fun r =>
    match r with
    | RFail e => Ret (Err e)
    | _ => Sys (SList (dirname root)) (fun r =>
             match r with
             | RNames l => gc_subdirs dry used root l
             | RFail e => Ret (Err e)
             | _ => Ret UB
             end)
    end).

(** casync-tool.c:3913-3965 verb_gc, from where the store is known. *)
Definition gc (fuel : nat) (dry : bool) (files : list (option (list N))) (root : list N) : prog (res unit) :=
  match add_indexes fuel files [] with
  | None => Hang
  | Some (Ok used) => gc_cleanup_unused dry used root
  | Some (Err e) => Ret (Err e)
  | Some Abort => Ret Abort
  | Some UB => Ret UB
  end.

(** The cache of a seed: under the ID of a chunk, or the hardlink digest of a file, the text of the location where it is. src/caseed.c *)
From Verif Require Import Base ArchiveBase ChunkId Location Fs.
Local Open Scope N_scope.

(** The cache's directory: names and what the symbolic links (or files) hold. *)
Definition cache := list (list N * list N).
(** caseed.c:274-275, 442-443, 786-787: the first four digits, a slash, and all of them *)
Definition entry_name (id : list N) : list N := let v := chunk_id_format id in firstn 4 v ++ 47 :: v.

(** symlinkat; [trouble]: an error other than EEXIST *)
Definition store (c : cache) (id text : list N) (trouble : option errno) : res cache :=
  match get (entry_name id) c with
  | Some _ => Ok c
  | None => match trouble with Some e => Err e | None => Ok (put (entry_name id) text c) end
  end.

(** caseed.c:405-462 ca_seed_cache_hardlink: [mode], [digest], [path] are what the encoder says about the file it has just finished. *)
Definition cache_hardlink (enabled : bool) (mode : N) (digest : res (list N)) (p : list N) (trouble : option errno) (c : cache) : res cache :=
  if negb enabled then Ok c
  else if negb (S_ISREG mode) then Ok c
  else
  let! v := digest in
  let! l := location_new (Some p) DES_ENTRY 0 UINT64_MAX in
  store c v (location_format l (WITH_SIZE + WITH_MTIME + WITH_FEATURE_FLAGS)) trouble.

(** caseed.c:250-318 ca_seed_write_cache_entry: [id] is the chunk's ID, [l] its location, the size having been set (ca_location_patch_size). If the
    text is too long for a symbolic link it goes to a file, and is read from that just the same, but not by [get_hardlink_target], which fails then. *)
Definition write_cache_entry (id : list N) (l : loc) (trouble : option errno) (c : cache) : res cache :=
  store c id (location_format l WITH_ALL) trouble.

(** caseed.c:761-808 ca_seed_get_hardlink_target *)
Definition get_hardlink_target (enabled : bool) (id : list N) (c : cache) : res (option (list N)) :=
  if negb enabled then Err ENOMEDIUM
  else match get (entry_name id) c with
  | None => Err ENOENT
  | Some text =>
      let! l := location_parse text in
      if negb (designator l =? DES_ENTRY) || negb (offset l =? 0) || negb (size l =? UINT64_MAX) then Err ENOENT
      else Ok (path l)
  end.

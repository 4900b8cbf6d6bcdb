(** Model of src/caindex.c: the chunk index file.

    A CaIndex is a record together with the piece of the OS it talks to: the contents of the file its
    fd refers to, the file offset of the fd, the contents of the file at i->path, and the size up to
    which the disk takes writes (so that writes may fail, leaving a partial write behind).  Every
    operation returns the outcome and the state left behind, also when it fails.
    Not modelled: ca_index_set_fd and ca_index_set_make_mode, memory allocation, file permissions,
    other processes that modify the same files, transient read errors. *)
From Verif Require Import Base Chunker FeatureFlags.
Local Open Scope N_scope.

(** caformat.h: CA_FORMAT_INDEX, CA_FORMAT_TABLE, CA_FORMAT_TABLE_TAIL_MARKER. *)
Definition CA_FORMAT_INDEX : N := 0x96824d9c7b129ff9.
Definition CA_FORMAT_TABLE : N := 0xe75b9e112f17417d.
Definition CA_FORMAT_TABLE_TAIL_MARKER : N := 0x4b4f050e5549ecd1.

(** caindex.c 16-22: the modes. *)
Inductive ix_mode := CA_INDEX_WRITE | CA_INDEX_READ | CA_INDEX_INCREMENTAL_WRITE | CA_INDEX_INCREMENTAL_READ.

(** struct CaIndex, caindex.c 24-51, and the files.  file_size is not cached: in read mode it is the
    length of the file, which does not change. *)
Record idx := Idx {
  x_mode : ix_mode;
  x_flags : N;                  (* feature_flags *)
  x_min : N; x_avg : N; x_max : N;
  x_start : N;                  (* start_offset *)
  x_cooked : N;                 (* cooked_offset *)
  x_raw : N;                    (* raw_offset *)
  x_item : N;                   (* item_position *)
  x_prev : N;                   (* previous_chunk_offset *)
  x_eof : bool;                 (* wrote_eof *)
  x_blob : N;                   (* blob_size *)
  x_open : bool;                (* fd >= 0 *)
  x_temp : bool;                (* temporary_path set *)
  x_data : list N;              (* contents of the file behind fd *)
  x_fpos : N;                   (* file offset of fd *)
  x_final : option (list N);    (* the file at path *)
  x_limit : N                   (* writes beyond this size fail *)
}.

Definition upd_flags f (s : idx) := match s with Idx m _ a b c d e g h i j k l n o p q r => Idx m f a b c d e g h i j k l n o p q r end.
Definition upd_sizes mi av ma (s : idx) := match s with Idx m f _ _ _ d e g h i j k l n o p q r => Idx m f mi av ma d e g h i j k l n o p q r end.
Definition upd_offs start cooked (s : idx) := match s with Idx m f a b c _ _ g h i j k l n o p q r => Idx m f a b c start cooked g h i j k l n o p q r end.
Definition upd_raw v (s : idx) := match s with Idx m f a b c d e _ h i j k l n o p q r => Idx m f a b c d e v h i j k l n o p q r end.
Definition upd_item v (s : idx) := match s with Idx m f a b c d e g _ i j k l n o p q r => Idx m f a b c d e g v i j k l n o p q r end.
Definition upd_prev v (s : idx) := match s with Idx m f a b c d e g h _ j k l n o p q r => Idx m f a b c d e g h v j k l n o p q r end.
Definition upd_eof v (s : idx) := match s with Idx m f a b c d e g h i _ k l n o p q r => Idx m f a b c d e g h i v k l n o p q r end.
Definition upd_blob v (s : idx) := match s with Idx m f a b c d e g h i j _ l n o p q r => Idx m f a b c d e g h i j v l n o p q r end.
Definition upd_open op tmp (s : idx) := match s with Idx m f a b c d e g h i j k _ _ o p q r => Idx m f a b c d e g h i j k op tmp o p q r end.
Definition upd_file data fpos (s : idx) := match s with Idx m f a b c d e g h i j k l n _ _ q r => Idx m f a b c d e g h i j k l n data fpos q r end.
Definition upd_final v (s : idx) := match s with Idx m f a b c d e g h i j k l n o p _ r => Idx m f a b c d e g h i j k l n o p v r end.
Definition upd_limit v (s : idx) := match s with Idx m f a b c d e g h i j k l n o p q _ => Idx m f a b c d e g h i j k l n o p q v end.

(** An operation: outcome and state left behind. *)
Definition op (A : Type) := idx -> res A * idx.
Definition ret {A} (a : A) : op A := fun s => (Ok a, s).
Definition fail {A} (e : errno) : op A := fun s => (Err e, s).
Definition abort {A} : op A := fun s => (Abort, s).
Definition bindM {A B} (m : op A) (f : A -> op B) : op B := fun s =>
  match m s with
  | (Ok a, s') => f a s'
  | (Err e, s') => (Err e, s')
  | (Abort, s') => (Abort, s')
  | (UB, s') => (UB, s')
  end.
Definition getS : op idx := fun s => (Ok s, s).
Definition modS (f : idx -> idx) : op unit := fun s => (Ok tt, f s).
Notation "'do!' x '<-' a 'in' b" := (bindM a (fun x => b)) (at level 200, x pattern, a at level 100, b at level 200).
Notation "'guard!' c 'else' e 'in' b" := (bindM (if c then ret tt else fail e) (fun _ => b)) (at level 200, c at level 100, e at level 100, b at level 200).

Definition is_read_mode (m : ix_mode) : bool := match m with CA_INDEX_READ | CA_INDEX_INCREMENTAL_READ => true | _ => false end.
Definition is_write_mode (m : ix_mode) : bool := match m with CA_INDEX_WRITE | CA_INDEX_INCREMENTAL_WRITE => true | _ => false end.
Definition is_mode_read (m : ix_mode) : bool := match m with CA_INDEX_READ => true | _ => false end.
Definition is_mode_iread (m : ix_mode) : bool := match m with CA_INDEX_INCREMENTAL_READ => true | _ => false end.
Definition is_mode_iwrite (m : ix_mode) : bool := match m with CA_INDEX_INCREMENTAL_WRITE => true | _ => false end.

(** ca_index_new_write / _read / _incremental_write / _incremental_read followed by ca_index_set_path,
    caindex.c 59-130 and 172-186; [final] is what is at the path, [limit] the disk space. *)
Definition index_new (m : ix_mode) (final : option (list N)) (limit : N) : idx :=
  Idx m (if is_read_mode m then UINT64_MAX else 0) 0 0 0 0 0 0 0 0 false UINT64_MAX false false [] 0 final limit.

(** pwrite() of [d] at [off] into a file with contents [f]: holes read as zeroes. *)
Definition file_pwrite (f d : list N) (off : N) : list N :=
  takeN off (f ++ repeat 0 (N.to_nat (off - len f))) ++ d ++ dropN (off + len d) f.
(** read() of up to [n] bytes at [off]. *)
Definition file_pread (f : list N) (off n : N) : list N := takeN n (dropN off f).

(** loop_write(i->fd, ...), util.c 25-46: writes at the file offset; stops with ENOSPC at the limit. *)
Definition loop_write (d : list N) : op unit := fun s =>
  let room := x_limit s - x_fpos s in
  let w := takeN room d in
  let s' := upd_file (file_pwrite (x_data s) w (x_fpos s)) (x_fpos s + len w) s in
  if len d <=? room then (Ok tt, s') else (Err ENOSPC, s').

(** loop_read(i->fd, ..., n), util.c 240-265: advances the file offset by what is read. *)
Definition loop_read (n : N) : op (list N) := fun s =>
  let d := file_pread (x_data s) (x_fpos s) n in
  (Ok d, upd_file (x_data s) (x_fpos s + len d) s).

(** ca_index_open_fd, caindex.c 188-241. *)
Definition index_open_fd : op unit :=
  do! s <- getS in
  if x_open s then ret tt
  else if is_mode_read (x_mode s) then
    match x_final s with
    | None => fail ENOENT
    | Some d => modS (fun s => upd_file d 0 (upd_open true false s))
    end
  else modS (fun s => upd_file [] 0 (upd_open true true s)).

(** The 64 bytes written by ca_index_write_head, caindex.c 245-253 and 273-277. *)
Definition head_bytes (flags mi av ma : N) : list N :=
  le64 48 ++ le64 CA_FORMAT_INDEX ++ le64 flags ++ le64 mi ++ le64 av ++ le64 ma
  ++ le64 UINT64_MAX ++ le64 CA_FORMAT_TABLE.

(** ca_index_write_head, caindex.c 243-290. *)
Definition index_write_head : op unit :=
  do! s <- getS in
  if negb (is_write_mode (x_mode s)) then ret tt
  else if negb (x_start s =? 0) then ret tt
  else
  guard! negb (x_flags s =? UINT64_MAX) else EINVAL in
  guard! negb ((x_min s =? 0) || (x_avg s =? 0) || (x_max s =? 0)) else EUNATCH in
  guard! (x_min s <=? x_avg s) && (x_avg s <=? x_max s) else EINVAL in
  if negb (x_cooked s =? 0) then abort
  else
  do! _ <- loop_write (head_bytes (x_flags s) (x_min s) (x_avg s) (x_max s)) in
  modS (upd_offs 64 64).

(** ca_index_enough_data, caindex.c 292-312. *)
Definition index_enough_data (n : N) : op bool :=
  do! s <- getS in
  if is_mode_read (x_mode s) then ret true
  else if negb (is_mode_iread (x_mode s)) then fail ENOTTY
  else if x_eof s then ret true
  else
  let e := (x_cooked s + n) mod two64 in
  if e <? x_cooked s then fail E2BIG
  else ret (negb (x_raw s <? e)).

(** ca_index_read_head, caindex.c 314-382. *)
Definition index_read_head : op unit :=
  do! s <- getS in
  if negb (is_read_mode (x_mode s)) then ret tt
  else if negb (x_start s =? 0) then ret tt
  else if negb (x_cooked s =? 0) then abort
  else
  do! r <- index_enough_data 64 in
  if negb r then fail EAGAIN
  else
  do! h <- loop_read 64 in
  guard! len h =? 64 else EPIPE in
  let fld k := rd64 (dropN (8 * k) h) in
  guard! (fld 0 =? 48) && (fld 1 =? CA_FORMAT_INDEX) else EBADMSG in
  match feature_flags_are_normalized (fld 2) with
  | Err e => fail e
  | Abort => abort
  | UB => fun s => (UB, s)
  | Ok false => fail EINVAL
  | Ok true =>
    guard! negb ((fld 3 <? LIMIT_MIN) || (LIMIT_MAX <? fld 3)) else EBADMSG in
    guard! negb ((fld 4 <? LIMIT_MIN) || (LIMIT_MAX <? fld 4)) else EBADMSG in
    guard! negb ((fld 5 <? LIMIT_MIN) || (LIMIT_MAX <? fld 5)) else EBADMSG in
    guard! (fld 3 <=? fld 4) && (fld 4 <=? fld 5) else EBADMSG in
    guard! (fld 6 =? UINT64_MAX) && (fld 7 =? CA_FORMAT_TABLE) else EBADMSG in
    modS (fun s => upd_sizes (fld 3) (fld 4) (fld 5) (upd_flags (fld 2) (upd_offs 64 64 s)))
  end.

(** ca_index_open, caindex.c 384-403. *)
Definition index_open : op unit :=
  do! _ <- index_open_fd in
  do! _ <- (fun s => match index_read_head s with
                     | (Err EAGAIN, s') => (Ok tt, s')
                     | r => r
                     end) in
  index_write_head.

(** ca_index_install, caindex.c 405-423; rename() is atomic and replaces what is at path. *)
Definition index_install : op bool :=
  do! s <- getS in
  guard! negb (is_mode_read (x_mode s)) else ENOTTY in
  guard! x_eof s else EBUSY in
  if negb (x_temp s) then ret false
  else
  do! _ <- modS (fun s => upd_final (Some (x_data s)) (upd_open (x_open s) false s)) in
  ret true.

(** ca_index_write_chunk, caindex.c 425-469; [id] is 32 bytes. *)
Definition index_write_chunk (id : list N) (size : N) : op unit :=
  do! s <- getS in
  guard! negb (size =? 0) else EINVAL in
  guard! is_write_mode (x_mode s) else ENOTTY in
  guard! negb (x_eof s) else EBUSY in
  do! _ <- index_open in
  do! s <- getS in
  guard! negb (x_max s <? size) else EINVAL in
  let e := (x_prev s + size) mod two64 in
  guard! negb (e <? x_prev s) else E2BIG in
  do! _ <- loop_write (le64 e ++ id) in
  modS (fun s => upd_item (x_item s + 1) (upd_offs (x_start s) (x_cooked s + 40) (upd_prev e s))).

(** CaFormatTableTail, caformat.h 435-441. *)
Definition tail_bytes (size : N) : list N :=
  le64 0 ++ le64 0 ++ le64 48 ++ le64 size ++ le64 CA_FORMAT_TABLE_TAIL_MARKER.

(** ca_index_write_eof, caindex.c 471-503. *)
Definition index_write_eof : op unit :=
  do! s <- getS in
  guard! is_write_mode (x_mode s) else ENOTTY in
  guard! negb (x_eof s) else EBUSY in
  do! _ <- index_open in
  do! s <- getS in
  do! _ <- loop_write (tail_bytes (16 + x_item s * 40 + 40)) in
  modS (fun s => upd_eof true (upd_offs (x_start s) (x_cooked s + 40) s)).

(** What ca_index_read_chunk hands out: None at the end of the index (return value 0), else
    (id, end offset, size). *)
Definition index_read_chunk : op (option (list N * N * N)) :=
  do! _ <- index_open in
  do! s <- getS in
  guard! is_read_mode (x_mode s) else ENOTTY in
  do! r <- index_enough_data 41 in
  if negb r then fail EAGAIN
  else
  do! b <- loop_read 40 in
  guard! len b =? 40 else EPIPE in
  let fld k := rd64 (dropN (8 * k) b) in
  do! s <- getS in
  if (fld 4 =? CA_FORMAT_TABLE_TAIL_MARKER) && (fld 0 =? 0) && (fld 1 =? 0) && (fld 2 =? 48)
     && (fld 3 =? x_cooked s - x_start s + 16 + 40)
  then
    do! f <- loop_read 1 in
    guard! len f =? 0 else EBADMSG in
    ret None
  else
  guard! (x_prev s =? UINT64_MAX) || (x_prev s <? fld 0) else EBADMSG in
  guard! (x_prev s =? UINT64_MAX) || (fld 0 - x_prev s <=? x_max s) else EBADMSG in
  let sz := if x_prev s =? UINT64_MAX then UINT64_MAX else fld 0 - x_prev s in
  do! _ <- modS (fun s => upd_offs (x_start s) (x_cooked s + 40) (upd_item (x_item s + 1) (upd_prev (fld 0) s))) in
  ret (Some (dropN 8 b, fld 0, sz)).

(** ca_index_set_position, caindex.c 594-620; lseek() refuses offsets that are negative as off_t. *)
Definition index_set_position (pos : N) : op unit :=
  do! s <- getS in
  guard! is_read_mode (x_mode s) else ENOTTY in
  guard! negb (x_start s =? 0) else ENODATA in
  let p := (pos * 40) mod two64 in
  guard! negb (p <? pos) else EINVAL in
  let q := (x_start s + p) mod two64 in
  guard! negb (q <? p) else EINVAL in
  guard! q <? 9223372036854775808 else EINVAL in
  modS (fun s => upd_file (x_data s) q (upd_prev (if pos =? 0 then 0 else UINT64_MAX) (upd_item pos (upd_offs (x_start s) q s)))).

(** ca_index_get_position, caindex.c 622-633. *)
Definition index_get_position : op N :=
  do! s <- getS in
  guard! negb (x_start s =? 0) else ENODATA in ret (x_item s).

(** CA_INDEX_METADATA_SIZE, caindex.c 53-57. *)
Definition metadata_size (s : idx) : N := x_start s + 40.

(** ca_index_get_available_chunks, caindex.c 654-700. *)
Definition index_get_available_chunks : op N :=
  do! _ <- index_read_head in
  do! s <- getS in
  guard! negb (x_start s =? 0) else ENODATA in
  guard! is_read_mode (x_mode s) else ENOTTY in
  let available := if is_mode_read (x_mode s) then len (x_data s) else x_raw s in
  if available <? metadata_size s then
    if is_mode_read (x_mode s) || x_eof s then fail EBADMSG else ret 0
  else
  let n := available - metadata_size s in
  if (is_mode_read (x_mode s) || x_eof s) && negb (n mod 40 =? 0) then fail EBADMSG
  else ret (n / 40).

(** ca_index_incremental_write, caindex.c 702-737; the write may be cut short by the limit. *)
Definition index_incremental_write (d : list N) : op unit :=
  do! s <- getS in
  guard! negb (len d =? 0) else EINVAL in
  guard! is_mode_iread (x_mode s) else ENOTTY in
  guard! negb (x_eof s) else EBUSY in
  do! _ <- index_open in
  do! s <- getS in
  let n := (x_raw s + len d) mod two64 in
  guard! negb (n <? x_raw s) else EFBIG in
  let w := takeN (x_limit s - x_raw s) d in
  do! _ <- modS (fun s => upd_file (file_pwrite (x_data s) w (x_raw s)) (x_fpos s) s) in
  guard! len w =? len d else EIO in
  modS (upd_raw n).

(** ca_index_incremental_eof, caindex.c 739-756. *)
Definition index_incremental_eof : op unit :=
  do! s <- getS in
  guard! is_mode_iread (x_mode s) else ENOTTY in
  guard! negb (x_eof s) else EBUSY in
  do! _ <- index_open in
  modS (upd_eof true).

(** ca_index_incremental_read, caindex.c 758-795: the next piece of what was written (at most BUFFER_SIZE
    bytes), None at the end. *)
Definition BUFFER_SIZE : N := 65536.
Definition index_incremental_read : op (option (list N)) :=
  do! s <- getS in
  guard! is_mode_iwrite (x_mode s) else ENOTTY in
  do! _ <- index_open in
  do! s <- getS in
  if x_cooked s <=? x_raw s then (if x_eof s then ret None else fail EAGAIN)
  else
  let m := N.min BUFFER_SIZE (x_cooked s - x_raw s) in
  let d := file_pread (x_data s) (x_raw s) m in
  do! _ <- modS (fun s => upd_raw (x_raw s + len d) s) in
  ret (Some d).

(** ca_index_set_chunk_size_min / _avg / _max, caindex.c 797-837. *)
Definition index_set_chunk_size (which : N) (v : N) : op unit :=
  do! s <- getS in
  guard! negb (v <? LIMIT_MIN) else EINVAL in
  guard! negb (LIMIT_MAX <? v) else EINVAL in
  guard! is_write_mode (x_mode s) else EROFS in
  modS (fun s => match which with
                 | 0 => upd_sizes v (x_avg s) (x_max s) s
                 | 1 => upd_sizes (x_min s) v (x_max s) s
                 | _ => upd_sizes (x_min s) (x_avg s) v s
                 end).
Definition index_set_chunk_size_min := index_set_chunk_size 0.
Definition index_set_chunk_size_avg := index_set_chunk_size 1.
Definition index_set_chunk_size_max := index_set_chunk_size 2.

(** ca_index_get_chunk_size_min / _avg / _max, caindex.c 839-873. *)
Definition index_get_chunk_size (f : idx -> N) : op N :=
  do! s <- getS in guard! negb (f s =? 0) else ENODATA in ret (f s).

(** ca_index_get_index_size, caindex.c 875-924. *)
Definition index_get_index_size : op N :=
  do! _ <- index_open in
  do! _ <- index_read_head in
  do! s <- getS in
  do! size <- match x_mode s with
              | CA_INDEX_READ => ret (len (x_data s))
              | CA_INDEX_INCREMENTAL_READ => if negb (x_eof s) then fail EAGAIN else ret (x_raw s)
              | _ => fail ENOTTY
              end in
  guard! negb (size <? metadata_size s) else EBADMSG in
  guard! (size - metadata_size s) mod 40 =? 0 else EBADMSG in
  ret size.

(** ca_index_get_total_chunks, caindex.c 926-941. *)
Definition index_get_total_chunks : op N :=
  do! size <- index_get_index_size in
  do! s <- getS in
  ret ((size - metadata_size s) / 40).

(** ca_index_read_tail, caindex.c 943-987. *)
Definition index_read_tail : op unit :=
  do! size <- index_get_index_size in
  do! s <- getS in
  do! b <- (if size =? metadata_size s then
              let t := file_pread (x_data s) (size - 40) 40 in
              guard! len t =? 40 else EBADMSG in ret (repeat 0 40 ++ t)
            else
              let t := file_pread (x_data s) (size - 80) 80 in
              guard! len t =? 80 else EBADMSG in ret t) in
  let tl k := rd64 (dropN (40 + 8 * k) b) in
  guard! tl 4 =? CA_FORMAT_TABLE_TAIL_MARKER else EBADMSG in
  guard! tl 2 =? 48 else EBADMSG in
  guard! (tl 3 + 48) mod two64 =? size else EBADMSG in
  modS (upd_blob (rd64 b)).

(** ca_index_get_blob_size, caindex.c 989-1005. *)
Definition index_get_blob_size : op N :=
  do! s <- getS in
  do! _ <- (if x_blob s =? UINT64_MAX then index_read_tail else ret tt) in
  do! s <- getS in ret (x_blob s).

(** The end offset that ca_index_read_chunk stores in *ret_offset_end, caindex.c 557-558 and 579-580. *)
Definition read_chunk_end : op N :=
  do! r <- index_read_chunk in
  ret (match r with Some (_, e, _) => e | None => UINT64_MAX end).

(** The bisection loop, caindex.c 1041-1098.  [fuel] bounds the number of rounds; that n_chunks rounds
    suffice is a theorem.  Returns the bytes to skip in the chunk positioned at. *)
Fixpoint seek_loop (fuel : nat) (offset left right : N) : op N :=
  match fuel with
  | O => abort   (* out of fuel *)
  | S fuel =>
    let p := left + (right - left) / 2 in
    do! _ <- index_set_position p in
    do! first <- read_chunk_end in
    if offset <? first then
      if p =? 0 then do! _ <- index_set_position 0 in ret offset
      else if p =? right then fail EBADMSG
      else seek_loop fuel offset left p
    else
    do! second <- read_chunk_end in
    if second <=? offset then seek_loop fuel offset (p + 1) right
    else
    do! _ <- index_set_position (p + 1) in
    do! _ <- modS (upd_prev first) in
    ret (offset - first)
  end.

(** ca_index_seek, caindex.c 1007-1099. *)
Definition index_seek (offset : N) : op N :=
  do! size <- index_get_blob_size in
  guard! negb (size <=? offset) else ENXIO in
  do! n <- index_get_total_chunks in
  guard! negb (n =? 0) else ENXIO in
  do! s <- getS in
  if (n =? 1) || (offset <? x_min s) then
    do! _ <- index_set_position 0 in ret offset
  else seek_loop (N.to_nat n) offset 0 (n - 2).

(** ca_index_set_feature_flags, caindex.c 1101-1111; get at 1113-1124. *)
Definition index_set_feature_flags (flags : N) : op unit :=
  do! s <- getS in
  guard! is_write_mode (x_mode s) else ENOTTY in
  guard! negb (0 <? x_start s) else EBUSY in
  match feature_flags_normalize flags with
  | Ok f => modS (upd_flags f)
  | Err e => fail e
  | Abort => abort
  | UB => fun s => (UB, s)
  end.
Definition index_get_feature_flags : op N :=
  do! s <- getS in guard! negb (x_flags s =? UINT64_MAX) else ENODATA in ret (x_flags s).

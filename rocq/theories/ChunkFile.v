(** Model of src/compressor.c and src/cachunk.c. The compression libraries are given by [codec] records: what one call
    of the library's encoder or decoder does. Buffers are byte lists (src/realloc-buffer.c has a model of its own,
    ReallocBuffer.v); running out of memory is not modelled. Loops take a bound on the number of rounds, [Hang] is
    what is left when it is used up. *)
From Verif Require Import Base ChunkId Posix.
Local Open Scope N_scope.

(** def.h:8, cachunk.h:11-12 *)
Definition BUFFER_SIZE : N := 65536.
Definition CHUNK_LIMIT_MAX : N := 134217728.
Definition CHUNK_LIMIT_MIN : N := 1.

(** cachunk.h:14-19 CaChunkCompression. *)
Inductive chunk_compression := UNCOMPRESSED | COMPRESSED | AS_IS.

(** cacompression.h:6-22 CaCompressionType; -1, the default if no library is compiled in, is [None] where an
    [option ctype] is used. *)
Inductive ctype := XZ | GZIP | ZSTD.

(** One call of lzma_code, inflate/deflate or ZSTD_decompressStream/compressStream/endStream: new state, number of input
    bytes consumed, output produced, end of stream seen; [None] if the library reports an error. The encoder's
    bool is "finish" (LZMA_FINISH, Z_FINISH). The number is the room in the output buffer. *)
Record codec := {
  enc_st : Type;
  enc_new : enc_st;
  enc_step : enc_st -> bool -> list N -> N -> option (enc_st * N * list N * bool);
  dec_st : Type;
  dec_new : dec_st;
  dec_step : dec_st -> list N -> N -> option (dec_st * N * list N * bool)
}.

Definition compression_eqb (a b : chunk_compression) : bool :=
  match a, b with
  | UNCOMPRESSED, UNCOMPRESSED | COMPRESSED, COMPRESSED | AS_IS, AS_IS => true
  | _, _ => false
  end.

Definition starts_with (sig b : list N) : bool := beq (takeN (len sig) b) sig.

(** compressor.c:12-23 *)
Definition xz_signature : list N := [253; 55; 122; 88; 90; 0].
Definition gzip_signature : list N := [31; 139].
Definition zstd_signature : list N := [40; 181; 47; 253].

(** compressor.c:12-41 detect_compression. memcmp only after the size test, which [starts_with] includes. *)
Definition detect_compression (b : list N) : res ctype :=
  if (6 <=? len b) && starts_with xz_signature b then Ok XZ
  else if (2 <=? len b) && starts_with gzip_signature b then Ok GZIP
  else if (4 <=? len b) && starts_with zstd_signature b then Ok ZSTD
  else if len b <? 6 then Err EAGAIN
  else Err EBADMSG.

(** compressor.h:58-62 *)
Inductive cret := CEof | CMore | CGood.

(** compressor.c:257-371 compressor_decode; the three libraries are handled alike: assert that there is input, one library
    call, at the end of the stream there must be no input left. The context is the state and the input left
    (compressor.c:212-255 compressor_input sets the input). Result: state, input left, output, return value. *)
Definition compressor_decode (cd : codec) (s : dec_st cd) (inp : list N) (sz : N)
  : res (dec_st cd * list N * list N * cret) :=
  match inp with
  | [] => Abort
  | _ =>
    match dec_step cd s inp sz with
    | None => Err EIO
    | Some (s', n, out, true) =>
      if n <? len inp then Err EBADMSG else Ok (s', dropN n inp, out, CEof)
    | Some (s', n, out, false) =>
      Ok (s', dropN n inp, out, if n <? len inp then CMore else CGood)
    end
  end.

(** compressor.c:373-473 compressor_encode. For xz and gzip, input left at the end of the stream is a failed assertion; for zstd
    input left means more to come, whatever else. *)
Definition compressor_encode (cd : codec) (s : enc_st cd) (finalize : bool) (inp : list N) (sz : N)
  : res (enc_st cd * list N * list N * cret) :=
  match enc_step cd s finalize inp sz with
  | None => Err EIO
  | Some (s', n, out, true) => if n <? len inp then Abort else Ok (s', dropN n inp, out, CEof)
  | Some (s', n, out, false) => Ok (s', dropN n inp, out, if n <? len inp then CMore else CGood)
  end.

(** compressor.c:57-112, 114-169 compressor_start_decode/compressor_start_encode: -EINVAL if the type is negative, -ENOSYS if
    the library isn't compiled in. *)
Definition start_codec (codecs : ctype -> option codec) (t : option ctype) : res codec :=
  match t with
  | None => Err EINVAL
  | Some t => match codecs t with None => Err ENOSYS | Some cd => Ok cd end
  end.

(** A value that is computed by a bounded loop. *)
Definition plift {A} (x : option (res A)) : prog (res A) :=
  match x with None => Hang | Some r => Ret r end.

(** util.c:25-46 loop_write *)
Fixpoint loop_write (fuel : nat) (fd : nat) (p : list N) : prog (res unit) :=
  match fuel with
  | O => Hang
  | S fuel =>
    match p with
    | [] => Ret (Ok tt)
    | _ => Sys (SWrite fd p) (fun r =>
             match r with
             | RNum w => if w <=? len p then loop_write fuel fd (dropN w p) else Ret Abort
             | RFail e => Ret (Err e)
             | _ => Ret UB
             end)
    end
  end.

(** read() with error propagation. *)
Definition sys_read (fd : nat) (n : N) : prog (res (list N)) :=
  Sys (SRead fd n) (fun r => match r with RData b => Ret (Ok b) | RFail e => Ret (Err e) | _ => Ret UB end).

(** cachunk.c:15-51 ca_load_fd; [buf] is what is in the buffer, [count] the bytes read so far. *)
Fixpoint load_fd (fuel : nat) (fd : nat) (buf : list N) (count : N) : prog (res (list N)) :=
  match fuel with
  | O => Hang
  | S fuel =>
    if CHUNK_LIMIT_MAX <=? count then Ret (Err EBADMSG)
    else
      try b <- sys_read fd BUFFER_SIZE ;;
      match b with
      | [] => if count <? CHUNK_LIMIT_MIN then Ret (Err EBADMSG) else Ret (Ok buf)
      | _ => load_fd fuel fd (buf ++ b) (count + len b)
      end
  end.

(** cachunk.c:67-84 reading the beginning of the file until the compression is known. Result: bytes read, type. *)
Fixpoint load_detect (fuel : nat) (fd : nat) (have : list N) : prog (res (list N * ctype)) :=
  match fuel with
  | O => Hang
  | S fuel =>
    if BUFFER_SIZE <=? len have then Ret Abort
    else
      try b <- sys_read fd (BUFFER_SIZE - len have) ;;
      match b with
      | [] => Ret (Err EPIPE)
      | _ =>
        match detect_compression (have ++ b) with
        | Ok t => Ret (Ok (have ++ b, t))
        | Err EAGAIN => load_detect fuel fd (have ++ b)
        | Err e => Ret (Err e)
        | Abort => Ret Abort
        | UB => Ret UB
        end
      end
  end.

(** cachunk.c:96-120 the inner loop of ca_load_and_decompress_fd. Result: state, buffer, dcount, got_decoder_eof. *)
Fixpoint decode_input (cd : codec) (fuel : nat) (s : dec_st cd) (inp buf : list N) (dcount : N)
  : option (res (dec_st cd * list N * N * bool)) :=
  match fuel with
  | O => None
  | S fuel =>
    match compressor_decode cd s inp BUFFER_SIZE with
    | Ok (s', inp', out, r) =>
      let dcount := dcount + len out in
      if CHUNK_LIMIT_MAX <=? dcount then Some (Err EBADMSG)
      else match r with
           | CMore => decode_input cd fuel s' inp' (buf ++ out) dcount
           | CEof => Some (Ok (s', buf ++ out, dcount, true))
           | CGood => Some (Ok (s', buf ++ out, dcount, false))
           end
    | Err e => Some (Err e)
    | Abort => Some Abort
    | UB => Some UB
    end
  end.

(** cachunk.c:90-141 the outer loop of ca_load_and_decompress_fd. (Lines 92-94, "if (r < 0) return 0", is unreachable as
    compressor_input cannot fail for a compiled-in library.) *)
Fixpoint decompress_fd_loop (cd : codec) (fuel : nat) (fd : nat) (s : dec_st cd) (inp buf : list N) (ccount dcount : N)
  : prog (res (list N)) :=
  match fuel with
  | O => Hang
  | S fuel =>
    try x <- plift (decode_input cd (S fuel) s inp buf dcount) ;;
    let '(s', buf, dcount, eof) := x in
    try b <- sys_read fd BUFFER_SIZE ;;
    match b with
    | [] => if negb eof then Ret (Err EPIPE)
            else if (ccount <? CHUNK_LIMIT_MIN) || (dcount <? CHUNK_LIMIT_MIN) then Ret (Err EBADMSG)
            else Ret (Ok buf)
    | _ => if eof then Ret (Err EBADMSG)
           else
             let ccount := ccount + len b in
             if CHUNK_LIMIT_MAX <=? ccount then Ret (Err EBADMSG)
             else decompress_fd_loop cd fuel fd s' b buf ccount dcount
    end
  end.

(** cachunk.c:53-142 ca_load_and_decompress_fd *)
Definition load_and_decompress_fd (codecs : ctype -> option codec) (fuel : nat) (fd : nat) (buf : list N)
  : prog (res (list N)) :=
  try x <- load_detect fuel fd [] ;;
  let '(have, t) := x in
  match start_codec codecs (Some t) with
  | Ok cd => decompress_fd_loop cd fuel fd (dec_new cd) have buf (len have) 0
  | Err e => Ret (Err e)
  | Abort => Ret Abort
  | UB => Ret UB
  end.

(** cachunk.c:181-204 the inner loop of ca_load_and_compress_fd. Result: state, buffer, ccount, got_encoder_eof. *)
Fixpoint encode_input (cd : codec) (fuel : nat) (s : enc_st cd) (eof : bool) (inp buf : list N) (ccount : N)
  : option (res (enc_st cd * list N * N * bool)) :=
  match fuel with
  | O => None
  | S fuel =>
    match compressor_encode cd s eof inp BUFFER_SIZE with
    | Ok (s', inp', out, r) =>
      let ccount := ccount + len out in
      if CHUNK_LIMIT_MAX <=? ccount then Some (Err EBADMSG)
      else match r with
           | CMore => encode_input cd fuel s' eof inp' (buf ++ out) ccount
           | CEof => Some (Ok (s', buf ++ out, ccount, true))
           | CGood => Some (Ok (s', buf ++ out, ccount, false))
           end
    | Err e => Some (Err e)
    | Abort => Some Abort
    | UB => Some UB
    end
  end.

(** cachunk.c:162-212 the outer loop of ca_load_and_compress_fd *)
Fixpoint compress_fd_loop (cd : codec) (fuel : nat) (fd : nat) (s : enc_st cd) (buf : list N) (ccount dcount : N)
  : prog (res (list N)) :=
  match fuel with
  | O => Hang
  | S fuel =>
    try b <- sys_read fd BUFFER_SIZE ;;
    let eof := len b <? BUFFER_SIZE in
    let dcount := dcount + len b in
    if CHUNK_LIMIT_MAX <=? dcount then Ret (Err EBADMSG)
    else
      try x <- plift (encode_input cd (S fuel) s eof b buf ccount) ;;
      let '(s', buf, ccount, done) := x in
      if done then
        if (ccount <? CHUNK_LIMIT_MIN) || (dcount <? CHUNK_LIMIT_MIN) then Ret (Err EBADMSG)
        else Ret (Ok buf)
      else compress_fd_loop cd fuel fd s' buf ccount dcount
  end.

(** cachunk.c:144-213 ca_load_and_compress_fd *)
Definition load_and_compress_fd (codecs : ctype -> option codec) (fuel : nat) (fd : nat) (t : option ctype)
  (buf : list N) : prog (res (list N)) :=
  match start_codec codecs t with
  | Ok cd => compress_fd_loop cd fuel fd (enc_new cd) buf 0 0
  | Err e => Ret (Err e)
  | Abort => Ret Abort
  | UB => Ret UB
  end.

(** cachunk.c:254-279 the loop of ca_save_and_compress_fd *)
Fixpoint save_compress_loop (cd : codec) (fuel : nat) (fd : nat) (s : enc_st cd) (inp : list N) (ccount : N)
  : prog (res unit) :=
  match fuel with
  | O => Hang
  | S fuel =>
    match compressor_encode cd s true inp BUFFER_SIZE with
    | Ok (s', inp', out, r) =>
      try _ <- loop_write (S fuel) fd out ;;
      let ccount := ccount + len out in
      if CHUNK_LIMIT_MAX <=? ccount then Ret (Err EINVAL)
      else match r with
           | CEof => if ccount <? CHUNK_LIMIT_MIN then Ret (Err EINVAL) else Ret (Ok tt)
           | _ => save_compress_loop cd fuel fd s' inp' ccount
           end
    | Err e => Ret (Err e)
    | Abort => Ret Abort
    | UB => Ret UB
    end
  end.

(** The size tests at the start of ca_save_and_compress_fd, ca_save_and_decompress_fd, ca_compress and ca_decompress. *)
Definition bad_size (data : list N) : bool := (len data <? CHUNK_LIMIT_MIN) || (CHUNK_LIMIT_MAX <? len data).

(** cachunk.c:228-280 ca_save_and_compress_fd *)
Definition save_and_compress_fd (codecs : ctype -> option codec) (fuel : nat) (fd : nat) (t : option ctype)
  (data : list N) : prog (res unit) :=
  if bad_size data then Ret (Err EINVAL)
  else match start_codec codecs t with
       | Ok cd => save_compress_loop cd fuel fd (enc_new cd) data 0
       | Err e => Ret (Err e)
       | Abort => Ret Abort
       | UB => Ret UB
       end.

(** cachunk.c:311-336 the loop of ca_save_and_decompress_fd *)
Fixpoint save_decompress_loop (cd : codec) (fuel : nat) (fd : nat) (s : dec_st cd) (inp : list N) (dcount : N)
  : prog (res unit) :=
  match fuel with
  | O => Hang
  | S fuel =>
    match compressor_decode cd s inp BUFFER_SIZE with
    | Ok (s', inp', out, r) =>
      try _ <- loop_write (S fuel) fd out ;;
      let dcount := dcount + len out in
      if CHUNK_LIMIT_MAX <=? dcount then Ret (Err EINVAL)
      else match r with
           | CEof => if dcount <? CHUNK_LIMIT_MIN then Ret (Err EINVAL) else Ret (Ok tt)
           | _ => save_decompress_loop cd fuel fd s' inp' dcount
           end
    | Err e => Ret (Err e)
    | Abort => Ret Abort
    | UB => Ret UB
    end
  end.

(** cachunk.c:297-301, 404-408: the type of compressed data, "not enough data" being a bad message. *)
Definition detect_all (data : list N) : res ctype :=
  match detect_compression data with Err EAGAIN => Err EBADMSG | r => r end.

(** cachunk.c:282-337 ca_save_and_decompress_fd *)
Definition save_and_decompress_fd (codecs : ctype -> option codec) (fuel : nat) (fd : nat) (data : list N)
  : prog (res unit) :=
  if bad_size data then Ret (Err EINVAL)
  else match (let! t := detect_all data in start_codec codecs (Some t)) with
       | Ok cd => save_decompress_loop cd fuel fd (dec_new cd) data 0
       | Err e => Ret (Err e)
       | Abort => Ret Abort
       | UB => Ret UB
       end.

(** cachunk.c:361-386 the loop of ca_compress *)
Fixpoint compress_loop (cd : codec) (fuel : nat) (s : enc_st cd) (inp buf : list N) (ccount : N)
  : option (res (list N)) :=
  match fuel with
  | O => None
  | S fuel =>
    match compressor_encode cd s true inp BUFFER_SIZE with
    | Ok (s', inp', out, r) =>
      let ccount := ccount + len out in
      if CHUNK_LIMIT_MAX <=? ccount then Some (Err EINVAL)
      else match r with
           | CEof => if ccount <? CHUNK_LIMIT_MIN then Some (Err EINVAL) else Some (Ok (buf ++ out))
           | _ => compress_loop cd fuel s' inp' (buf ++ out) ccount
           end
    | Err e => Some (Err e)
    | Abort => Some Abort
    | UB => Some UB
    end
  end.

(** cachunk.c:339-387 ca_compress *)
Definition compress (codecs : ctype -> option codec) (fuel : nat) (t : option ctype) (data buf : list N)
  : option (res (list N)) :=
  if bad_size data then Some (Err EINVAL)
  else match start_codec codecs t with
       | Ok cd => compress_loop cd fuel (enc_new cd) data buf 0
       | Err e => Some (Err e)
       | Abort => Some Abort
       | UB => Some UB
       end.

(** cachunk.c:418-443 the loop of ca_decompress *)
Fixpoint decompress_loop (cd : codec) (fuel : nat) (s : dec_st cd) (inp buf : list N) (dcount : N)
  : option (res (list N)) :=
  match fuel with
  | O => None
  | S fuel =>
    match compressor_decode cd s inp BUFFER_SIZE with
    | Ok (s', inp', out, r) =>
      let dcount := dcount + len out in
      if CHUNK_LIMIT_MAX <=? dcount then Some (Err EINVAL)
      else match r with
           | CEof => if dcount <? CHUNK_LIMIT_MIN then Some (Err EINVAL) else Some (Ok (buf ++ out))
           | _ => decompress_loop cd fuel s' inp' (buf ++ out) dcount
           end
    | Err e => Some (Err e)
    | Abort => Some Abort
    | UB => Some UB
    end
  end.

(** cachunk.c:389-444 ca_decompress *)
Definition decompress (codecs : ctype -> option codec) (fuel : nat) (data buf : list N) : option (res (list N)) :=
  if bad_size data then Some (Err EINVAL)
  else match (let! t := detect_all data in start_codec codecs (Some t)) with
       | Ok cd => decompress_loop cd fuel (dec_new cd) data buf 0
       | Err e => Some (Err e)
       | Abort => Some Abort
       | UB => Some UB
       end.

(** cautil.c:242-258 ca_compressed_chunk_suffix, without the environment variable: ".cacnk". *)
Definition cacnk : list N := [46; 99; 97; 99; 110; 107].

(** cachunk.c:446-490 ca_chunk_file_open for reading *)
Definition chunk_file_open (prefix id suffix : list N) : prog (res nat) :=
  Sys (SOpen (chunk_id_format_path prefix id suffix)) (fun r =>
    match r with RFd fd => Ret (Ok fd) | RFail e => Ret (Err e) | _ => Ret UB end).

(** cachunk.c:462-472, 706-716: mkdirat() of the directory the chunk goes to. Result: whether it was made. *)
Definition make_subdir (path : list N) : prog (res bool) :=
  Sys (SMkdir (dirname path)) (fun r =>
    match r with
    | RNum _ => Ret (Ok true)
    | RFail EEXIST => Ret (Ok false)
    | RFail e => Ret (Err e)
    | _ => Ret UB
    end).

(** cachunk.c:475-486, 718-729: undo of [make_subdir]; the result of rmdir is ignored. *)
Definition drop_subdir {A} (made : bool) (path : list N) (r : res A) : prog (res A) :=
  if made then Sys (SRmdir (dirname path)) (fun _ => Ret r) else Ret r.

(** cachunk.c:446-490 ca_chunk_file_open with O_WRONLY|O_CREAT|O_EXCL *)
Definition chunk_file_create (prefix id suffix : list N) : prog (res nat) :=
  let path := chunk_id_format_path prefix id suffix in
  try made <- make_subdir path ;;
  Sys (SCreat path) (fun r =>
    match r with
    | RFd fd => Ret (Ok fd)
    | RFail e => drop_subdir made path (Err e)
    | _ => Ret UB
    end).

(** cachunk.c:492-506 ca_chunk_file_access *)
Definition chunk_file_access (prefix id suffix : list N) : prog (res bool) :=
  Sys (SAccess (chunk_id_format_path prefix id suffix)) (fun r =>
    match r with
    | RNum _ => Ret (Ok true)
    | RFail ENOENT => Ret (Ok false)
    | RFail e => Ret (Err e)
    | _ => Ret UB
    end).

(** cachunk.c:508-528 ca_chunk_file_unlink *)
Definition chunk_file_unlink (prefix id suffix : list N) : prog (res unit) :=
  let path := chunk_id_format_path prefix id suffix in
  Sys (SUnlink path) (fun r =>
    match r with
    | RNum _ => Sys (SRmdir (dirname path)) (fun _ => Ret (Ok tt))
    | RFail e => Ret (Err e)
    | _ => Ret UB
    end).

(** util.h:773-774 ERRNO_IS_UNSUPPORTED *)
Definition errno_is_unsupported (e : errno) : bool :=
  match e with ENOTTY | ENOSYS | EBADF | EOPNOTSUPP | EINVAL => true | _ => false end.

(** util.c:1255-1289 rename_noreplace, both paths relative to the same directory *)
Definition rename_noreplace (p q : list N) : prog (res unit) :=
  Sys (SRenameNoreplace p q) (fun r =>
    match r with
    | RNum _ => Ret (Ok tt)
    | RFail e =>
      if negb (errno_is_unsupported e) then Ret (Err e)
      else
        Sys (SLink p q) (fun r =>
          match r with
          | RNum _ =>
            Sys (SUnlink p) (fun r =>
              match r with
              | RNum _ => Ret (Ok tt)
              | RFail e => Sys (SUnlink q) (fun _ => Ret (Err e))
              | _ => Ret UB
              end)
          | RFail e =>
            if negb (errno_is_unsupported e) then Ret (Err e)
            else
              Sys (SAccess q) (fun r =>
                match r with
                | RNum _ => Ret (Err EEXIST)
                | RFail ENOENT =>
                  Sys (SRename p q) (fun r =>
                    match r with RNum _ => Ret (Ok tt) | RFail e => Ret (Err e) | _ => Ret UB end)
                | RFail e => Ret (Err e)
                | _ => Ret UB
                end)
          | _ => Ret UB
          end)
    | _ => Ret UB
    end).

(** cachunk.c:549-617 ca_chunk_file_load *)
Definition chunk_file_load (codecs : ctype -> option codec) (fuel : nat) (prefix id : list N)
  (desired : chunk_compression) (t : option ctype) (buf : list N) : prog (res (list N * chunk_compression)) :=
  let first := if compression_eqb desired UNCOMPRESSED then UNCOMPRESSED else COMPRESSED in
  let second := if compression_eqb desired UNCOMPRESSED then COMPRESSED else UNCOMPRESSED in
  let suffix c := if compression_eqb c UNCOMPRESSED then [] else cacnk in
  let go (fd : nat) (fc : chunk_compression) : prog (res (list N * chunk_compression)) :=
    try b <- match desired, fc with
             | UNCOMPRESSED, COMPRESSED => load_and_decompress_fd codecs fuel fd buf
             | COMPRESSED, UNCOMPRESSED => load_and_compress_fd codecs fuel fd t buf
             | _, _ => load_fd fuel fd buf 0
             end ;;
    Ret (Ok (b, if compression_eqb desired AS_IS then fc else desired)) in
  do r <- chunk_file_open prefix id (suffix first) ;;
  match r with
  | Ok fd => go fd first
  | Err ELOOP => Ret (Err EADDRNOTAVAIL)
  | Err ENOENT =>
    do r <- chunk_file_open prefix id (suffix second) ;;
    match r with
    | Ok fd => go fd second
    | Err ELOOP => Ret (Err EADDRNOTAVAIL)
    | Err e => Ret (Err e)
    | Abort => Ret Abort
    | UB => Ret UB
    end
  | Err e => Ret (Err e)
  | Abort => Ret Abort
  | UB => Ret UB
  end.

(** cachunk.c:735-748 ca_chunk_file_test *)
Definition chunk_file_test (prefix id : list N) : prog (res bool) :=
  do r <- chunk_file_access prefix id cacnk ;;
  match r with
  | Ok false => chunk_file_access prefix id []
  | _ => Ret r
  end.

(** Lower case hexadecimal without leading zeros, as printf's %x. *)
Fixpoint hex_loop (fuel : nat) (v : N) (acc : list N) : list N :=
  match fuel with
  | O => acc
  | S fuel =>
    let acc := encode_char (N.land v 15) :: acc in
    if N.shiftr v 4 =? 0 then acc else hex_loop fuel (N.shiftr v 4) acc
  end.
Definition hex (v : N) : list N := hex_loop 16 v [].

(** cachunk.c:657 ".%x.tmp" *)
Definition tmp_suffix (v : N) : list N := [46] ++ hex v ++ [46; 116; 109; 112].

(** cachunk.c:619-688 ca_chunk_file_save *)
Definition chunk_file_save (codecs : ctype -> option codec) (fuel : nat) (prefix id : list N)
  (effective desired : chunk_compression) (t : option ctype) (data : list N) : prog (res unit) :=
  if compression_eqb effective AS_IS then Ret (Err EINVAL)
  else match data with
  | [] => Ret (Err EINVAL)
  | _ =>
    try there <- chunk_file_test prefix id ;;
    if there : bool then Ret (Err EEXIST)
    else
      Sys SRandom (fun r =>
        match r with
        | RNum v =>
          let suffix := tmp_suffix v in
          try fd <- chunk_file_create prefix id suffix ;;
          let desired := if compression_eqb desired AS_IS then effective else desired in
          let fail (r : res unit) : prog (res unit) :=
            do _ <- chunk_file_unlink prefix id suffix ;; Ret r in
          do r <- (if compression_eqb desired effective then loop_write fuel fd data
                   else if compression_eqb desired COMPRESSED then save_and_compress_fd codecs fuel fd t data
                   else save_and_decompress_fd codecs fuel fd data) ;;
          match r with
          | Ok _ =>
            do r <- rename_noreplace (chunk_id_format_path prefix id suffix)
                      (chunk_id_format_path prefix id (if compression_eqb desired COMPRESSED then cacnk else [])) ;;
            match r with
            | Err e => fail (Err e)
            | _ => Ret r
            end
          | Err e => fail (Err e)
          | _ => Ret r
          end
        | RFail e => Ret (Err e)
        | _ => Ret UB
        end)
  end.

Definition dev_null : list N := [47; 100; 101; 118; 47; 110; 117; 108; 108].
(** cachunk.c:690-733 ca_chunk_file_mark_missing *)
Definition chunk_file_mark_missing (prefix id : list N) : prog (res unit) :=
  try there <- chunk_file_test prefix id ;;
  if there : bool then Ret (Err EEXIST)
  else
    let path := chunk_id_format_path prefix id [] in
    try made <- make_subdir path ;;
    Sys (SSymlink dev_null path) (fun r =>
      match r with
      | RNum _ => Ret (Ok tt)
      | RFail e => drop_subdir made path (Err e)
      | _ => Ret UB
      end).

(** cachunk.c:750-763 ca_chunk_file_remove *)
Definition chunk_file_remove (prefix id : list N) : prog (res unit) :=
  do r <- chunk_file_unlink prefix id [] ;;
  match r with
  | Err ENOENT | Ok _ => chunk_file_unlink prefix id cacnk
  | Err _ => Ret (Err EINVAL)
  | r => Ret r
  end.

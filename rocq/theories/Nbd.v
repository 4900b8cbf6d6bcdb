(** Serving a blob as a block device: src/canbd.c, and the loops of verb_mkdev in src/casync-tool.c, with the decoding side of ca_sync_step
    (src/casync.c) for a blob. *)
From Verif Require Import Base ArchiveBase Decoder Seek.
Local Open Scope N_scope.

(** Big endian numbers, linux/nbd.h *)
Definition be_enc (k : nat) (n : N) : list N := rev (le_enc k n).
Definition be_dec (l : list N) : N := le_dec (rev l).
Definition NBD_REQUEST_MAGIC := 0x25609513.
Definition NBD_REPLY_MAGIC := 0x67446698.
Definition NBD_CMD_READ := 0.
Definition REQUEST_SIZE := 28.

(** ** canbd.c *)
(** CaBlockDevice (canbd.c:24-41): size, whether it is attached, last_request (bytes; none if its magic is 0), and what has been written to the socket. *)
Record nbd := mkNbd { n_size : N; n_open : bool; n_last : list N; n_out : list N }.
Definition nbd_new : nbd := mkNbd 0 false (repeat 0 28) [].
Definition last_magic (d : nbd) : N := be_dec (takeN 4 (n_last d)).

(** canbd.c:87-100 ca_block_device_set_size *)
Definition set_size (d : nbd) (size : N) : res nbd :=
  if size =? 0 then Err EINVAL
  else if negb (N.land size 511 =? 0) then Err EINVAL
  else if n_open d then Err EBUSY
  else Ok (mkNbd size (n_open d) (n_last d) (n_out d)).
(** canbd.c:273-418 ca_block_device_open, as far as the fields here go *)
Definition nbd_open (d : nbd) : res nbd :=
  if n_open d then Err EBUSY else if n_size d =? 0 then Err EUNATCH else Ok (mkNbd (n_size d) true (n_last d) (n_out d)).

(** canbd.c:420-454 ca_block_device_step when read() returns the bytes [p]; whether there is a request *)
Definition nbd_step (d : nbd) (p : list N) : res (bool * nbd) :=
  if negb (last_magic d =? 0) then Ok (true, d)
  else
  let d' := mkNbd (n_size d) (n_open d) (p ++ dropN (len p) (n_last d)) (n_out d) in
  if negb (len p =? REQUEST_SIZE) then Err EBADMSG
  else if negb (be_dec (takeN 4 p) =? NBD_REQUEST_MAGIC) then Err EBADMSG
  else if negb (be_dec (takeN 4 (dropN 4 p)) =? NBD_CMD_READ) then Err EBADMSG
  else if be_dec (takeN 4 (dropN 24 p)) =? 0 then Err EBADMSG
  else Ok (true, d').
(** canbd.c:456-480 *)
Definition request_offset (d : nbd) : res N := if last_magic d =? 0 then Err ENODATA else Ok (be_dec (takeN 8 (dropN 16 (n_last d)))).
Definition request_size (d : nbd) : res N := if last_magic d =? 0 then Err ENODATA else Ok (be_dec (takeN 4 (dropN 24 (n_last d)))).
(** canbd.c:482-516 ca_block_device_put_data; the socket takes everything *)
Definition put_data (d : nbd) (offset : N) (data : list N) : res nbd :=
  if len data =? 0 then Err EINVAL
  else if last_magic d =? 0 then Err EBADR
  else if negb (offset =? be_dec (takeN 8 (dropN 16 (n_last d)))) then Err EBADR
  else if negb (len data =? be_dec (takeN 4 (dropN 24 (n_last d)))) then Err EBADR
  else Ok (mkNbd (n_size d) (n_open d) (repeat 0 28)
             (n_out d ++ (be_enc 4 NBD_REPLY_MAGIC ++ be_enc 4 0 ++ takeN 8 (dropN 8 (n_last d))) ++ data)).

(** ** casync.c, decoding a blob *)
Section Mkdev.
Variables (env : denv) (hash : list N -> N) (b : list N).   (* b: the blob *)

(** CaSync: the decoder, where in the blob it is read (from a file or by index and chunks, which C37 is about), archive_eof; and
    what happens when the blob is read next: an error, nothing yet (0), or so many bytes at most. When the list is used up there is always everything. *)
Record csync := mkSync { y_dec : sdec; y_pos : N; y_eof : bool; y_next : list (res N) }.
Inductive yret := Y_FINISHED | Y_STEP | Y_PAYLOAD | Y_POLL | Y_FOUND | Y_NOT_FOUND | Y_OTHER.

(** casync.c:2321-2454 ca_sync_process_decoder_request *)
Definition sync_request (y : csync) (s : sdec) : res (yret * csync) :=
  let '(h, rest) := match y_next y with [] => (Ok (len b), []) | h :: rest => (h, rest) end in
  match h with
  | Ok k =>
      if len b <=? y_pos y then Ok (Y_STEP, mkSync (sput_eof s) (y_pos y) (y_eof y) rest)
      else if k =? 0 then Ok (Y_POLL, mkSync s (y_pos y) (y_eof y) rest)
      else
      let p := takeN k (dropN (y_pos y) b) in
      let! s := sput s p in Ok (Y_STEP, mkSync s (y_pos y + len p) (y_eof y) rest)
  | Err e => Err e | Abort => Abort | UB => UB
  end.

(** casync.c:2619-2683 ca_sync_step_decode; 2507-2540 ca_sync_process_decoder_seek; 2498-2505 ca_sync_reset_seek *)
Definition sync_step (y : csync) : res (yret * csync) :=
  if y_eof y then Err EPIPE
  else
  let! (r, s) := sstep env hash (y_dec y) in
  match r with
  | SR R_FINISHED => Ok (Y_FINISHED, mkSync s (y_pos y) true (y_next y))
  | SR R_STEP => Ok (Y_STEP, mkSync s (y_pos y) (y_eof y) (y_next y))
  | SR R_PAYLOAD => Ok (Y_PAYLOAD, mkSync s (y_pos y) (y_eof y) (y_next y))
  | SR R_REQUEST => sync_request y s
  | SR _ => Ok (Y_OTHER, mkSync s (y_pos y) (y_eof y) (y_next y))
  | R_SEEK => let! off := get_seek_offset s in Ok (Y_STEP, mkSync s off false (y_next y))
  | R_FOUND => Ok (Y_FOUND, mkSync s (y_pos y) (y_eof y) (y_next y))
  | R_NOT_FOUND => Ok (Y_NOT_FOUND, mkSync s (y_pos y) (y_eof y) (y_next y))
  end.

(** casync.c:3936-3965 ca_sync_seek_offset, with 3900-3934 ca_sync_acquire_archive_size *)
Definition sync_seek (y : csync) (offset : N) : res csync :=
  if offset =? UINT64_MAX then Err EINVAL
  else
  let! s := seek_offset (set_archive_size (y_dec y) (len b)) offset in Ok (mkSync s (y_pos y) false (y_next y)).

(** cadecoder.c:4522-4554 ca_decoder_get_payload *)
Definition payload_of (s : sdec) : res (list N) :=
  let d := s_d s in
  match s_st s, d_state d with
  | SNone, D_IN_PAYLOAD =>
      if len (d_buf d) =? 0 then Err ENODATA
      else if d_step d =? 0 then Err ENODATA
      else if len (d_buf d) <? d_step d then Abort
      else Ok (takeN (d_step d) (d_buf d))
  | _, _ => Err ENODATA
  end.

(** ** casync-tool.c *)
(** casync-tool.c:3228-3330, the inner loop of verb_mkdev: the request's offset and size are [off] and [n]; [buf] is buffer. Each round consumes some of [fuel]. *)
Fixpoint answer (fuel : nat) (d : nbd) (y : csync) (off n : N) (buf : list N) : res (nbd * csync) :=
  match fuel with
  | O => UB
  | S fuel =>
      let! (r, y) := sync_step y in
      match r with
      | Y_FINISHED =>
          if negb (len buf <? n) then Abort
          else let! d := put_data d off (buf ++ repeat 0 (N.to_nat (n - len buf))) in Ok (d, y)
      | Y_PAYLOAD =>
          let! p := payload_of (y_dec y) in
          if (len buf =? 0) && (n <=? len p) then let! d := put_data d off (takeN (N.min (len p) n) p) in Ok (d, y)
          else
          let buf := buf ++ p in
          if n <=? len buf then let! d := put_data d off (takeN n buf) in Ok (d, y)
          else answer fuel d y off n buf
      | Y_STEP | Y_POLL | Y_FOUND | Y_NOT_FOUND => answer fuel d y off n buf
      | Y_OTHER => Abort
      end
  end.
(** The outer loop: the requests come in one after the other, each read() returns one of [ps]. What has been written to the socket so far is part of the
    result in any case. *)
Fixpoint serve (fuel : nat) (d : nbd) (y : csync) (ps : list (list N)) : res unit * list N :=
  match ps with
  | [] => (Ok tt, n_out d)
  | p :: ps =>
      match (let! (_, d) := nbd_step d p in
             let! off := request_offset d in
             let! n := request_size d in
             let! y := sync_seek y off in
             answer fuel d y off n []) with
      | Ok (d, y) => serve fuel d y ps
      | Err e => (Err e, n_out d)
      | Abort => (Abort, n_out d)
      | UB => (UB, n_out d)
      end
  end.
(** What is in front of it: the size of the device. (size + 511) & ~511 in 64 bits *)
Definition device_size : N := N.land ((len b + 511) mod two64) (two64 - 512).
Definition mkdev (fuel : nat) (mode : N) (next : list (res N)) (ps : list (list N)) : res unit * list N :=
  match (let! s := sdec_new mode in
         let! d := set_size nbd_new device_size in
         let! d := nbd_open d in Ok (mkSync (set_archive_size s (len b)) 0 false next, d)) with
  | Ok (y, d) => serve fuel d y ps
  | Err e => (Err e, [])
  | Abort => (Abort, [])
  | UB => (UB, [])
  end.
End Mkdev.

(** Cloning file contents from the seeds: src/reflink.c, ca_location_open of src/calocation.c, ca_decoder_node_reflink of src/cadecoder.c. *)
From Coq Require Import ZArith.
From Verif Require Import Base Location.
Local Open Scope N_scope.

(** ** Files, and what others do to them. Environment, not code from /repo. *)
Inductive fkind := FReg | FDir | FOther.
(** [f_stamp]: the later of mtime and ctime in ns; [f_gen]: what FS_IOC_GETVERSION says, if the file system knows it. *)
Record rfile := mkRfile { f_kind : fkind; f_data : list N; f_inode : N; f_stamp : N; f_gen : option Z }.
(** [w_at root path]: the file there is at that place, or the error open() gives; [w_files]: all files, also those that are open but have no name any
    more; [w_dst]: the file being extracted, which has but a temporary name; nobody else writes to it;
    [w_refuses]: the error FICLONERANGE gives always, where it isn't supported. *)
Record rworld := mkRworld { w_at : option N -> list N -> res N; w_files : N -> rfile; w_dst : rfile; w_refuses : option errno }.
(** Just before a system call, others may have changed the seeds ([t_change]), and the call may fail ([t_fail]). When the list is used up nothing happens
    any more. *)
Record trouble := mkTrouble { t_change : option ((option N -> list N -> res N) * (N -> rfile)); t_fail : option errno }.
Definition rstate := (rworld * list trouble)%type.
Definition changed (w : rworld) (t : trouble) : rworld :=
  match t_change t with Some (at_, files) => mkRworld at_ files (w_dst w) (w_refuses w) | None => w end.
Definition syscall {A} (f : rworld -> res A * rworld) (s : rstate) : res A * rstate :=
  match s with
  | (w, []) => let (r, w) := f w in (r, (w, []))
  | (w, t :: ts) =>
      let w := changed w t in
      match t_fail t with Some e => (Err e, (w, ts)) | None => let (r, w) := f w in (r, (w, ts)) end
  end.
Definition rbind {A B} (x : res A * rstate) (f : A -> rstate -> res B * rstate) : res B * rstate :=
  match x with (Ok a, s) => f a s | (Err e, s) => (Err e, s) | (Abort, s) => (Abort, s) | (UB, s) => (UB, s) end.

(** open(), fstat(), ioctl(FS_IOC_GETVERSION) of a seed's file. A file descriptor is the number of the file. *)
Definition sys_open (root : option N) (path : list N) (s : rstate) : res N * rstate := syscall (fun w => (w_at w root path, w)) s.
Inductive which := Src (i : N) | Dst.
Definition file_of (w : rworld) (x : which) : rfile := match x with Src i => w_files w i | Dst => w_dst w end.
Definition sys_fstat (x : which) (s : rstate) : res rfile * rstate := syscall (fun w => (Ok (file_of w x), w)) s.
Definition sys_version (i : N) (s : rstate) : res Z * rstate :=
  syscall (fun w => (match f_gen (w_files w i) with Some v => Ok v | None => Err ENOTTY end, w)) s.
(** pread(): linux transfers MAX_RW_COUNT bytes at most. *)
Definition MAX_RW_COUNT := 0x7ffff000.
Definition OFF_MAX := 9223372036854775807.   (* off_t *)
Definition sys_pread (x : which) (n off : N) (s : rstate) : res (list N) * rstate :=
  syscall (fun w => (if OFF_MAX <? off then Err EINVAL else Ok (takeN (N.min n MAX_RW_COUNT) (dropN off (f_data (file_of w x)))), w)) s.
(** ioctl(FICLONERANGE): a length of 0 stands for the rest of the source. It may always fail (offsets not aligned to the file system's blocks, for
    example), which [t_fail] stands for. *)
Definition put_at (data : list N) (pos : N) (p : list N) : list N :=
  takeN pos data ++ repeat 0 (N.to_nat (pos - len data)) ++ p ++ dropN (pos + len p) data.
Definition sys_clone (i : N) (soff n doff : N) (s : rstate) : res unit * rstate :=
  syscall (fun w =>
    let src := f_data (w_files w i) in
    let d := w_dst w in
    let n := if n =? 0 then len src - soff else n in
    match w_refuses w with
    | Some e => (Err e, w)
    | None =>
    if len src <? soff + n then (Err EINVAL, w)
    else if n =? 0 then (Ok tt, w)
    else (Ok tt, mkRworld (w_at w) (w_files w) (mkRfile (f_kind d) (put_at (f_data d) doff (takeN n (dropN soff src))) (f_inode d) (f_stamp d) (f_gen d)) None)
    end) s.

(** ** reflink.c *)
Definition FS_BLOCK_SIZE := 4096.

(** reflink.c:17-44 pread_try_harder: once more with a file descriptor opened for reading *)
Definition pread_try_harder (x : which) (n off : N) (s : rstate) : res (list N) * rstate :=
  match sys_pread x n off s with
  | (Err e, s) =>
      match syscall (fun w => (Ok tt, w)) s with
      | (Ok _, s) => match sys_pread x n off s with (Err _, s) => (Err e, s) | r => r end
      | (_, s) => (Err e, s)
      end
  | r => r
  end.

(** reflink.c:47-69 validate (VALIDATE is 1) *)
Definition validate (i : N) (soff doff n : N) (s : rstate) : res unit * rstate :=
  let (x, s) := pread_try_harder (Src i) n soff s in
  let (y, s) := pread_try_harder Dst n doff s in
  match x, y with
  | Ok a, Ok b => if negb (len a =? n) then (Abort, s) else if negb (len b =? n) then (Abort, s) else if beq a b then (Ok tt, s) else (Abort, s)
  | _, _ => (Abort, s)
  end.

(** reflink.c:71-152 reflink_fd: the number of bytes cloned *)
Definition reflink_fd (i : N) (soff doff size : N) (s : rstate) : res N * rstate :=
  if negb (soff mod FS_BLOCK_SIZE =? doff mod FS_BLOCK_SIZE) then (Err EBADR, s)
  else if (soff + size) mod two64 <? soff then (Err ERANGE, s)
  else if (doff + size) mod two64 <? doff then (Err ERANGE, s)
  else
  let add := FS_BLOCK_SIZE - soff mod FS_BLOCK_SIZE in
  if (0 <? soff mod FS_BLOCK_SIZE) && (size <=? add) then (Err EBADR, s)
  else
  let '(soff, doff, size) := if 0 <? soff mod FS_BLOCK_SIZE then (soff + add, doff + add, size - add) else (soff, doff, size) in
  rbind (sys_fstat (Src i) s) (fun a s =>
  rbind (sys_fstat Dst s) (fun b s =>
  match f_kind a, f_kind b with
  | FDir, _ | _, FDir => (Err EISDIR, s)
  | FReg, FReg =>
      let eof := (len (f_data a) <=? soff + size) && (len (f_data b) <=? doff + size) in
      let down := size / FS_BLOCK_SIZE * FS_BLOCK_SIZE in
      let n := if eof then size else down in
      if negb eof && (down =? 0) then (Err EBADR, s)
      else
      rbind (validate i soff doff n s) (fun _ s =>
      rbind (sys_clone i soff (if eof then 0 else n) doff s) (fun _ s =>
      rbind (validate i soff doff n s) (fun _ s => (Ok n, s))))
  | _, _ => (Err ENOTTY, s)
  end)).

(** ** calocation.c:536-600 ca_location_open. Whether the root is open, and its path, are in [w_at]; roots are not invalidated. *)
Definition location_open (l : loc) (s : rstate) : res N * rstate :=
  if designator l =? DES_VOID then (Err ENOTTY, s)
  else match root l with
  | None => (Err EUNATCH, s)
  | Some _ =>
      rbind (sys_open (root l) (strempty (path l)) s) (fun i s =>
      if mtime l =? UINT64_MAX then (Ok i, s)
      else
      rbind (sys_fstat (Src i) s) (fun st s =>
      if negb (f_inode st =? inode l) then (Err ESTALE, s)
      else if negb (mtime l =? f_stamp st) then (Err ESTALE, s)
      else if generation_valid l then
        match sys_version i s with
        | (Ok v, s) => if Z.eqb v (generation l) then (Ok i, s) else (Err ESTALE, s)
        | (_, s) => (Err ESTALE, s)
        end
      else (Ok i, s)))
  end.

(** util.h:773-774 ERRNO_IS_UNSUPPORTED *)
Definition errno_is_unsupported (e : errno) : bool := match e with ENOTTY | ENOSYS | EBADF | EOPNOTSUPP | EINVAL => true | _ => false end.

(** cadecoder.c:3267-3326 ca_decoder_node_reflink for an open regular file, with reflinks switched on; [ls]: payload_origin, [off]: offset,
    [n]: d->n_reflink_bytes *)
Fixpoint node_reflink (ls : list loc) (off n : N) (s : rstate) : res N * rstate :=
  match ls with
  | [] => (Ok n, s)
  | l :: ls =>
      let next n s := node_reflink ls ((off + size l) mod two64) n s in
      if designator l =? DES_PAYLOAD then
        match location_open l s with
        | (Err ENOENT, s) => next n s
        | (Err e, s) => (Err e, s)
        | (Ok i, s) =>
            match reflink_fd i (offset l) off (size l) s with
            | (Ok k, s) => next ((n + k) mod two64) s
            | (Err EBADR, s) => next n s
            | (Err EXDEV, s) => next n s
            | (Err e, s) => if errno_is_unsupported e then (Ok n, s) else (Err e, s)
            | (Abort, s) => (Abort, s)
            | (UB, s) => (UB, s)
            end
        | (Abort, s) => (Abort, s)
        | (UB, s) => (UB, s)
        end
      else next n s
  end.

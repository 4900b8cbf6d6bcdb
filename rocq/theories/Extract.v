(** Extraction: what src/cadecoder.c does with the file system while it decodes, and src/rm-rf.c.

    The target is a directory (ca_decoder_set_base_fd); extraction after a seek (ca_decoder_set_boundary_fd), to a file or block device, reflinks and
    hard links to seeds (ca_decoder_try_hardlink; they are off by default) are not modelled here (but in Reflink.v and Hardlink.v). Of the meta data, permissions, owners, extended attributes, file
    capabilities and times are modelled, SELinux labels as in a build without SELinux; ACLs, chattr(1) and FAT attributes, subvolumes
    and quota project ids are as if the feature flag mask excluded them. *)
From Verif Require Import Base FeatureFlags ArchiveBase Decoder Encoder Fs.
Local Open Scope N_scope.

(** What the caller sets (--delete, --undo-immutable, --uid-shift, --uid-range), the users and groups the system knows, and a bound for the depth of the
    directories to be removed (the C code recurses without one). *)
Record xcfg := mkXcfg {
  c_delete : bool; c_undo : bool; c_shift : N; c_range : N;
  c_users : list N -> option N; c_groups : list N -> option N; c_depth : nat }.

(** ** rm-rf.c *)
Section Remove.
Variable undo : bool.   (* REMOVE_UNDO_IMMUTABLE *)

(** rm-rf.c:18-61 unlinkat_immutable. With AT_REMOVEDIR the file is opened with O_DIRECTORY. *)
Definition unlink_call (rmdir : bool) (d : N) (name : list N) : call := if rmdir then CRmdir d name else CUnlink d name.
Definition unlinkat_immutable (d : N) (name : list N) (rmdir : bool) : prog unit :=
  pbind (sys (unlink_call rmdir d name)) (fun r =>
  match r with
  | Ok _ => Ret (Ok tt)
  | Err EPERM =>
      if negb undo then Ret (Err EPERM)
      else pbind (sysnum (if rmdir then COpenDir d name else COpen d name)) (fun r =>
        match r with
        | Err ELOOP => Ret (Err (if rmdir then ENOTDIR else EPERM))
        | Ok i =>
            do! x <- (if rmdir then Ret (Ok RDone) else sys (CStat i)) ;;
            match (if rmdir then None else match x with RStat nd => match i_body nd with BDir _ => Some EISDIR | BReg _ => None | _ => Some EPERM end | _ => None end) with
            | Some e => Ret (Err e)
            | None =>
                do! c <- sysnum (CDropImm i) ;;
                if c =? 0 then Ret (Err EPERM)
                else do! _ <- sys (unlink_call rmdir d name) ;; Ret (Ok tt)
            end
        | Err e => Ret (Err e)
        | Abort => Ret Abort | UB => Ret UB
        end)
  | Err e => Ret (Err e)
  | Abort => Ret Abort | UB => Ret UB
  end).

(** ret = r, if there was no error before; [ignore]: ENOENT doesn't count *)
Definition first_error (ignore : bool) (ret : res unit) (r : res unit) : res unit :=
  match ret with
  | Ok _ => match r with Err ENOENT => if ignore then ret else r | _ => r end
  | _ => ret
  end.
(** Go on despite of an error. *)
Definition noting {A} (ignore : bool) (ret : res unit) (p : prog A) (k : res unit -> option A -> prog (res unit)) : prog (res unit) :=
  pbind p (fun r => match r with
                    | Ok x => k ret (Some x)
                    | Err e => k (first_error ignore ret (Err e)) None
                    | Abort => Ret Abort | UB => Ret UB
                    end).

(** rm-rf.c:63-167 rm_rf_children with REMOVE_PHYSICAL. [ret] is the first error so far. All is on one device. *)
Fixpoint rm_rf_children (depth : nat) (i : N) : prog unit :=
  match depth with
  | O => Ret UB
  | S depth =>
      do! _ <- sys (CStat i) ;;
      pbind (sys (CReaddir i)) (fun r =>
        match r with
        | Ok (RNames l) =>
            pbind ((fix entries (l : list (list N * bool)) (ret : res unit) : prog (res unit) :=
              match l with
              | [] => Ret (Ok ret)
              | (name, false) :: l =>
                  noting true ret (unlinkat_immutable i name false) (fun ret _ => entries l ret)
              | (name, true) :: l =>
                  noting true ret (sys (CStatAt i name)) (fun ret x =>
                    match x with
                    | None => entries l ret
                    | Some _ =>
                        noting true ret (sysnum (COpenDir i name)) (fun ret j =>
                          match j with
                          | None => entries l ret
                          | Some j =>
                              noting false ret (rm_rf_children depth j) (fun ret _ =>
                              noting true ret (unlinkat_immutable i name true) (fun ret _ => entries l ret))
                          end)
                    end)
              end) l (Ok tt)) (fun r => match r with Ok ret => Ret ret | Err e => Ret (Err e) | Abort => Ret Abort | UB => Ret UB end)
        | Ok _ => Ret UB
        | Err ENOENT => Ret (Ok tt)
        | Err e => Ret (Err e)
        | Abort => Ret Abort | UB => Ret UB
        end)
  end.

(** rm-rf.c:169-223 rm_rf_at with REMOVE_ROOT|REMOVE_PHYSICAL *)
Definition rm_rf_at (depth : nat) (d : N) (name : list N) : prog unit :=
  if beq name [47] then Ret (Err EPERM)
  else pbind (sysnum (COpenDir d name)) (fun r =>
    match r with
    | Err ENOTDIR | Err ELOOP =>
        pbind (unlinkat_immutable d name false) (fun r => match r with Err ENOENT => Ret (Ok tt) | r => Ret r end)
    | Ok i =>
        pbind (rm_rf_children depth i) (fun r =>
        match r with
        | Abort => Ret Abort | UB => Ret UB
        | _ => pbind (unlinkat_immutable d name true) (fun k => Ret (first_error true r k))
        end)
    | Err e => Ret (Err e)
    | Abort => Ret Abort | UB => Ret UB
    end).
End Remove.

(** ** util.c *)
(** util.c:463-501 tempfn_random for a name without slashes; FILENAME_MAX is 4096. *)
Definition hexchar (x : N) : N := if x <? 10 then 48 + x else 87 + x.
Fixpoint hex_digits (n : nat) (u : N) : list N := match n with O => [] | S n => hexchar (u mod 16) :: hex_digits n (u / 16) end.
Definition temp_name (name : list N) (u : N) : list N := [46; 35] ++ name ++ hex_digits 16 u.
Definition tempfn_random (name : list N) : prog (list N) :=
  if (len name =? 0) || dot_or_dot_dot name || (4096 <? len name) || negb (forallb (fun b => negb (b =? 47)) name) then Ret (Err EINVAL)
  else do! u <- sysnum CRandom ;; Ret (Ok (temp_name name u)).

(** bsearch() of glibc *)
Fixpoint bsearch (fuel : nat) (key : list N) (l : list (list N)) (lo hi : nat) : bool :=
  match fuel with
  | O => false
  | S fuel =>
      if (hi <=? lo)%nat then false
      else
      let idx := Nat.div2 (lo + hi) in
      match strcmp key (nth idx l []) with
      | Lt => bsearch fuel key l lo idx
      | Gt => bsearch fuel key l (S idx) hi
      | Eq => true
      end
  end.
(** cadecoder.c:3335-3345 safe_bsearch with comparison_fn_strcmpp *)
Definition safe_bsearch (key : list N) (l : list (list N)) : bool := bsearch (S (length l)) key l 0 (length l).

(** ** cadecoder.c *)
(** The fields of CaDecoderNode (cadecoder.c:70-125) for extraction: fd, temporary_name, dirents. *)
Record xnode := mkXnode { x_fd : option N; x_tmp : option (list N); x_dirents : list (list N) }.
Definition xnode0 : xnode := mkXnode None None [].

Section Extract.
Variables (cfg : xcfg) (replay : N).   (* replay: d->replay_feature_flags *)

(** cadecoder.c:2750-2774 mkdir_or_mksubvol, without subvolumes *)
Definition mkdir_or_mksubvol (d : N) (name : list N) : prog unit := do! _ <- sys (CMkdir d name 0x1C0) ;; Ret (Ok tt).

(** The device node, FIFO or socket that an entry stands for. *)
Definition body_of (e : dentry) : body :=
  let mode := m_mode (dt_meta e) in
  match dt_dev e with
  | Some (x, y) => BDev (S_ISBLK mode) x y
  | None => if S_ISFIFO mode then BFifo else BSock
  end.

(** cadecoder.c:2776-2926 ca_decoder_realize_child for a child without fd in the directory [d] *)
Definition realize_child (d : N) (name : list N) (e : dentry) (x : xnode) : prog xnode :=
  let mode := m_mode (dt_meta e) in
  if S_ISDIR mode then
    pbind (mkdir_or_mksubvol d name) (fun r =>
    match r with
    | Ok _ | Err EEXIST =>
        pbind (sysnum (COpenDir d name)) (fun r =>
        match r with
        | Ok i => Ret (Ok (mkXnode (Some i) (x_tmp x) (x_dirents x)))
        | Err ENOTDIR | Err ELOOP =>
            do! t <- tempfn_random name ;;
            do! _ <- mkdir_or_mksubvol d t ;;
            pbind (sysnum (COpenDir d t)) (fun r =>
            match r with
            | Ok i => Ret (Ok (mkXnode (Some i) (Some t) (x_dirents x)))
            | Err e => pbind (sys (CRmdir d t)) (fun _ => Ret (Err e))
            | Abort => Ret Abort | UB => Ret UB
            end)
        | Err e => Ret (Err e)
        | Abort => Ret Abort | UB => Ret UB
        end)
    | Err e => Ret (Err e)
    | Abort => Ret Abort | UB => Ret UB
    end)
  else if S_ISREG mode then
    do! t <- tempfn_random name ;;
    do! i <- sysnum (CCreate d t (N.lor 0x180 mode)) ;;
    Ret (Ok (mkXnode (Some i) (Some t) (x_dirents x)))
  else if S_ISLNK mode then
    if negb (has replay WITH_SYMLINKS) then Ret (Ok x)
    else
    do! t <- tempfn_random name ;;
    match dt_symlink e with
    | None => Ret UB
    | Some target => do! _ <- sys (CSymlink target d t) ;; Ret (Ok (mkXnode None (Some t) (x_dirents x)))
    end
  else if S_ISFIFO mode then
    if negb (has replay WITH_FIFOS) then Ret (Ok x)
    else do! t <- tempfn_random name ;; do! _ <- sys (CMknod d t BFifo mode) ;; Ret (Ok (mkXnode None (Some t) (x_dirents x)))
  else if S_ISBLK mode || S_ISCHR mode then
    if negb (has replay WITH_DEVICE_NODES) then Ret (Ok x)
    else do! t <- tempfn_random name ;; do! _ <- sys (CMknod d t (body_of e) mode) ;; Ret (Ok (mkXnode None (Some t) (x_dirents x)))
  else if S_ISSOCK mode then
    if negb (has replay WITH_SOCKETS) then Ret (Ok x)
    else do! t <- tempfn_random name ;; do! _ <- sys (CMknod d t BSock mode) ;; Ret (Ok (mkXnode None (Some t) (x_dirents x)))
  else Ret Abort.

(** cadecoder.c:2928-2952 ca_decoder_shift_uid and _gid *)
Definition shift_uid (uid : N) : N :=
  if negb (uid_is_valid uid) then UID_INVALID
  else
  let result := if negb (c_range cfg =? 0) then uid mod c_range cfg else uid in
  if (c_shift cfg + result) mod two32 <? c_shift cfg then UID_INVALID
  else (result + c_shift cfg) mod two32.
(** cadecoder.c:2954-3002 name_to_uid, 3004-3052 name_to_gid. A name in an archive doesn't start with a digit (validate_user_group_name), so that
    parse_uid fails; the answers of the system do not change, so that caching the last makes no difference. *)
Definition name_to_id (known : list N -> option N) (name : list N) : res N := match known name with Some u => Ok u | None => Err ESRCH end.
(** cadecoder.c:3623-3643: the owner a file shall get *)
Definition owner_of (known : list N -> option N) (name : option (list N)) (id : N) : res N :=
  match (if has replay WITH_USER_NAMES then name else None) with
  | Some n => name_to_id known n
  | None => let u := shift_uid (id mod two32) in if uid_is_valid u then Ok u else Err EINVAL
  end.

(** cadecoder.c:3347-3418 ca_decoder_node_delete for an open directory. dirents_invalid is set by seeking only. *)
Fixpoint delete_others (i : N) (dirents : list (list N)) (l : list (list N * bool)) : prog unit :=
  match l with
  | [] => Ret (Ok tt)
  | (name, _) :: l =>
      if safe_bsearch name dirents then delete_others i dirents l
      else do! _ <- rm_rf_at (c_undo cfg) (c_depth cfg) i name ;; delete_others i dirents l
  end.
Definition node_delete (i : N) (dirents : list (list N)) : prog unit :=
  if negb (c_delete cfg) then Ret (Ok tt)
  else do! r <- sys (CReaddir i) ;;
       match r with RNames l => delete_others i dirents l | _ => Ret UB end.

(** cadecoder.c:3420-3446 drop_immutable: whether something was changed. *)
Definition drop_immutable (d : N) (name : list N) : prog bool :=
  pbind (sysnum (COpen d name)) (fun r =>
  match r with
  | Err ELOOP => Ret (Ok false)
  | Ok i =>
      do! st <- sys (CStat i) ;;
      match st with
      | RStat nd => match i_body nd with
                    | BDir _ | BReg _ => do! c <- sysnum (CDropImm i) ;; Ret (Ok (negb (c =? 0)))
                    | _ => Ret (Ok false)
                    end
      | _ => Ret UB
      end
  | Err e => Ret (Err e)
  | Abort => Ret Abort | UB => Ret UB
  end).
(** A call that is tried again once if the immutable flag could be dropped (cadecoder.c:3456-3466, 3478-3488). The outer error means that
    install_file returns it at once. *)
Definition retrying (c : call) (d : N) (name : list N) : prog (res unit) :=
  pbind (sys c) (fun r =>
  match r with
  | Ok _ => Ret (Ok (Ok tt))
  | Err EPERM =>
      if negb (c_undo cfg) then Ret (Ok (Err EPERM))
      else do! dropped <- drop_immutable d name ;;
           if dropped : bool then pbind (sys c) (fun r => Ret (Ok (match r with Ok _ => Ok tt | Err e => Err e | Abort => Abort | UB => UB end)))
           else Ret (Ok (Err EPERM))
  | Err e => Ret (Ok (Err e))
  | Abort => Ret Abort | UB => Ret UB
  end).
(** cadecoder.c:3448-3505 ca_decoder_install_file *)
Definition install_file (d : N) (tmp name : list N) : prog unit :=
  do! r <- retrying (CRename d tmp name) d name ;;
  match r with
  | Err ENOTDIR | Err EISDIR =>
      do! r <- retrying (CExchange d tmp name) d name ;;
      match r with
      | Ok _ => rm_rf_at (c_undo cfg) (c_depth cfg) d tmp
      | _ => pbind (rm_rf_at (c_undo cfg) (c_depth cfg) d name) (fun r =>
             match r with
             | UB => Ret UB | Abort => Ret Abort
             | _ => do! _ <- sys (CRename d tmp name) ;; Ret (Ok tt)
             end)
      end
  | r => Ret r
  end.

(** A call on the child: through its fd if there is one, otherwise by name in the directory. *)
Definition on_child (dirfd : option N) (x : xnode) (name : list N) (byfd : N -> call) (byname : N -> list N -> call) : prog ret :=
  match x_fd x, dirfd with
  | Some i, _ => sys (byfd i)
  | None, Some d => sys (byname d name)
  | None, None => Ret Abort
  end.
Definition stat_child (dirfd : option N) (x : xnode) (name : list N) : prog inode :=
  do! r <- on_child dirfd x name CStat CStatAt ;; match r with RStat nd => Ret (Ok nd) | _ => Ret UB end.

(** st_mode & S_IFMT *)
Definition type_of (nd : inode) : N :=
  match i_body nd with
  | BReg _ => S_IFREG | BDir _ => S_IFDIR | BLnk _ => S_IFLNK | BDev true _ _ => S_IFBLK | BDev false _ _ => S_IFCHR
  | BFifo => S_IFIFO | BSock => S_IFSOCK end.

(** cadecoder.c:3585-3613: what is there is what was made. *)
Definition check_kind (dirfd : option N) (name : list N) (e : dentry) (nd : inode) : prog unit :=
  if negb (N.land (m_mode (dt_meta e)) S_IFMT =? type_of nd) then Ret (Err EEXIST)
  else match i_body nd with
  | BDev _ x y => if match dt_dev e with Some (a, b) => (a =? x) && (b =? y) | None => false end then Ret (Ok tt) else Ret (Err EEXIST)
  | BLnk _ =>
      match dirfd, dt_symlink e with
      | None, _ => Ret (Err EINVAL)
      | Some d, Some target =>
          do! r <- sys (CReadlink d name (len target + 1)) ;;
          match r with RBytes t => if beq t target then Ret (Ok tt) else Ret (Err EEXIST) | _ => Ret UB end
      | Some _, None => Ret UB
      end
  | _ => Ret (Ok tt)
  end.

(** cadecoder.c:3620-3672; the stat data afterwards. *)
Definition restore_owner (dirfd : option N) (x : xnode) (name : list N) (m : meta) (nd : inode) : prog inode :=
  if negb (has replay (bor [WITH_32BIT_UIDS; WITH_16BIT_UIDS; WITH_USER_NAMES])) then Ret (Ok nd)
  else match owner_of (c_users cfg) (m_user m) (m_uid m) with
  | Ok uid =>
      match owner_of (c_groups cfg) (m_group m) (m_gid m) with
      | Ok gid =>
          if (a_uid (i_attrs nd) =? uid) && (a_gid (i_attrs nd) =? gid) then Ret (Ok nd)
          else do! _ <- on_child dirfd x name (fun i => CChown i uid gid) (fun d n => CChownAt d n uid gid) ;;
               stat_child dirfd x name
      | Err e => Ret (Err e) | Abort => Ret Abort | UB => Ret UB
      end
  | Err e => Ret (Err e) | Abort => Ret Abort | UB => Ret UB
  end.

(** cadecoder.c:3674-3720 *)
Definition read_only_mode (st_mode : N) (dir : bool) (mode : N) : N :=
  let new := N.lor (N.land st_mode 0x124) 0x100 in
  let new := if dir then N.lor new 0x40 else new in
  if has mode 0x92 then bor [new; 0x80; (if has new 0x20 then 0x10 else 0); (if has new 0x4 then 0x2 else 0)]
  else N.ldiff new 0x124.
Definition restore_perm (dirfd : option N) (x : xnode) (name : list N) (m : meta) (nd : inode) : prog unit :=
  let p := a_perm (i_attrs nd) in
  let chmod q := do! _ <- on_child dirfd x name (fun i => CChmod i q) (fun d n => CChmodAt d n q) ;; Ret (Ok tt) in
  if has replay WITH_READ_ONLY then
    if negb (has p 0x100) || (is_dir nd && negb (has p 0x40)) || negb (Bool.eqb (has (m_mode m) 0x92) (has p 0x80))
    then chmod (read_only_mode p (is_dir nd) (m_mode m)) else Ret (Ok tt)
  else if has replay (bor [WITH_PERMISSIONS; WITH_ACL]) then
    if N.land p 0xFFF =? N.land (m_mode m) 0xFFF then Ret (Ok tt) else chmod (N.land (m_mode m) 0xFFF)
  else Ret (Ok tt).

(** cadecoder.c:3774-3852. flistxattr is repeated with a larger buffer until it fits. *)
Definition in_xattrs (name : list N) (l : list (list N * list N)) : bool := existsb (fun x => beq (fst x) name) l.
Fixpoint remove_xattrs (i : N) (keep : list (list N * list N)) (l : list (list N)) : prog unit :=
  match l with
  | [] => Ret (Ok tt)
  | n :: l => if negb (xattr_name_store n) || in_xattrs n keep then remove_xattrs i keep l
              else do! _ <- sys (CRemoveXattr i n) ;; remove_xattrs i keep l
  end.
Fixpoint set_xattrs (i : N) (l : list (list N * list N)) : prog unit :=
  match l with [] => Ret (Ok tt) | (n, v) :: l => do! _ <- sys (CSetXattr i n v) ;; set_xattrs i l end.
Definition restore_xattrs (x : xnode) (m : meta) (nd : inode) : prog unit :=
  match x_fd x with
  | Some i =>
      if has replay WITH_XATTRS && negb (is_lnk nd) then
        pbind (sys (CListXattr i)) (fun r =>
        match r with
        | Ok (RXattrs l) => do! _ <- remove_xattrs i (m_xattrs m) l ;; set_xattrs i (m_xattrs m)
        | Err EOPNOTSUPP | Err EBADF => set_xattrs i (m_xattrs m)
        | Err e => Ret (Err e)
        | Ok _ => Ret UB
        | Abort => Ret Abort | UB => Ret UB
        end)
      else Ret (Ok tt)
  | None => Ret (Ok tt)
  end.
(** cadecoder.c:3854-3876 *)
Definition restore_fcaps (x : xnode) (m : meta) (nd : inode) : prog unit :=
  match x_fd x, i_body nd with
  | Some i, BReg _ =>
      if has replay WITH_FCAPS then
        match m_fcaps m with
        | Some v => do! _ <- sys (CSetXattr i SECURITY_CAPABILITY v) ;; Ret (Ok tt)
        | None =>
            pbind (sys (CGetXattr i SECURITY_CAPABILITY)) (fun r =>
            match r with
            | Err EOPNOTSUPP | Err ENODATA => Ret (Ok tt)
            | Err e => Ret (Err e)
            | Ok _ => do! _ <- sys (CRemoveXattr i SECURITY_CAPABILITY) ;; Ret (Ok tt)
            | Abort => Ret Abort | UB => Ret UB
            end)
        end
      else Ret (Ok tt)
  | _, _ => Ret (Ok tt)
  end.

Definition WITH_TIMES := bor [WITH_SEC_TIME; WITH_USEC_TIME; WITH_NSEC_TIME; WITH_2SEC_TIME].

(** cadecoder.c:3507-4043 ca_decoder_finalize_child for a node of a directory tree. [dirfd] is the parent's fd, if there is a parent. *)
Definition finalize_child (dirfd : option N) (x : xnode) (own : list N) (e : dentry) : prog unit :=
  let m := dt_meta e in
  let mode := m_mode m in
  match dirfd, x_fd x with
  | None, None => Ret (Ok tt)
  | _, _ =>
  if S_ISLNK mode && negb (has replay WITH_SYMLINKS) then Ret (Ok tt)
  else if S_ISFIFO mode && negb (has replay WITH_FIFOS) then Ret (Ok tt)
  else if S_ISSOCK mode && negb (has replay WITH_SOCKETS) then Ret (Ok tt)
  else if (S_ISBLK mode || S_ISCHR mode) && negb (has replay WITH_DEVICE_NODES) then Ret (Ok tt)
  else
  let name := opt_or (x_tmp x) own in
  do! nd <- stat_child dirfd x name ;;
  do! _ <- check_kind dirfd name e nd ;;
  do! _ <- match i_body nd, x_fd x with BDir _, Some i => node_delete i (x_dirents x) | _, _ => Ret (Ok tt) end ;;
  do! nd <- restore_owner dirfd x name m nd ;;
  do! _ <- restore_perm dirfd x name m nd ;;
  do! _ <- restore_xattrs x m nd ;;
  do! _ <- restore_fcaps x m nd ;;
  if has replay WITH_SELINUX && some (m_selinux m) then Ret (Err EOPNOTSUPP)
  else
  do! _ <- (if has replay WITH_TIMES
            then do! _ <- on_child dirfd x name (fun i => CUtime i (m_mtime m)) (fun d n => CUtimeAt d n (m_mtime m)) ;; Ret (Ok tt)
            else Ret (Ok tt)) ;;
  do! _ <- match x_tmp x, dirfd with
           | Some t, Some d => install_file d t own
           | Some _, None => Ret Abort
           | None, _ => Ret (Ok tt)
           end ;;
  if has replay WITH_TIMES then
    do! nd <- stat_child dirfd x own ;;
    match time_granularity_nsec replay with
    | Ok g => if a_mtime (i_attrs nd) / g =? m_mtime m / g then Ret (Ok tt) else Ret (Err EOPNOTSUPP)
    | Err e => Ret (Err e) | Abort => Ret Abort | UB => Ret UB
    end
  else Ret (Ok tt)
  end.
End Extract.

(** util.c:25-46 loop_write; loop_write_with_holes does the same (see C49 and Holes.v) *)
Fixpoint write_all (fuel : nat) (i : N) (p : list N) : prog unit :=
  match p, fuel with
  | [], _ => Ret (Ok tt)
  | _, O => Ret UB
  | _, S fuel => do! w <- sysnum (CWrite i p) ;; if len p <? w then Ret Abort else write_all fuel i (dropN w p)
  end.

(** ** The extracting decoder *)
(** [x_nodes] goes along with the nodes of [x_dec]. *)
Record xdec := mkXdec { x_dec : dec; x_nodes : list xnode }.

(** cadecoder.c:4390-4412, in ca_decoder_advance_buffer: the payload the step before has shown is written. *)
Definition write_payload (x : xdec) : prog unit :=
  let d := x_dec x in
  match d_state d, x_nodes x with
  | D_IN_PAYLOAD, n :: _ =>
      match x_fd n with
      | Some i => let p := takeN (d_step d) (d_buf d) in write_all (length p) i p
      | None => Ret (Ok tt)
      end
  | _, _ => Ret (Ok tt)
  end.

(** The nodes after a step of the decoder: a child entered, its name noted in the directory's list (2573-2594, 2513-2526); a child left. *)
Definition xtrack (cfg : xcfg) (xs : list xnode) (d d' : dec) : list xnode :=
  if len (d_nodes d) <? len (d_nodes d') then
    match xs, d_nodes d' with
    | x :: xs, n :: _ => xnode0 :: mkXnode (x_fd x) (x_tmp x) (if c_delete cfg then x_dirents x ++ [dn_name n] else x_dirents x) :: xs
    | _, _ => xs
    end
  else if len (d_nodes d') <? len (d_nodes d) then tl xs
  else xs.

(** cadecoder.c:697-713: d->replay_feature_flags *)
Definition replay_of (env : denv) (d : dec) : N := match determine_replay_feature_flags (d_ff d) (de_mask env) with Ok r => r | _ => 0 end.

(** cadecoder.c:4445-4463 ca_decoder_step with 4056-4383 ca_decoder_step_node. The decoder proper is [decoder_step] of Decoder.v. *)
Definition xstep (env : denv) (cfg : xcfg) (x : xdec) : prog (dret * xdec) :=
  let d := x_dec x in
  do! _ <- write_payload x ;;
  do! xs <- match d_state d, d_nodes d, x_nodes x with
            | D_ENTRY, n :: _, c :: p :: up =>
                match x_fd c, x_fd p, dn_entry n with
                | None, Some dirfd, Some e => do! c <- realize_child (replay_of env d) dirfd (dn_name n) e c ;; Ret (Ok (c :: p :: up))
                | _, _, _ => Ret (Ok (x_nodes x))
                end
            | D_FINALIZE, n :: _, c :: up =>
                match dn_entry n with
                | Some e => do! _ <- finalize_child cfg (replay_of env d) (match up with p :: _ => x_fd p | [] => None end) c (dn_name n) e ;; Ret (Ok (x_nodes x))
                | None => Ret (Ok (x_nodes x))
                end
            | _, _, _ => Ret (Ok (x_nodes x))
            end ;;
  match decoder_step env d with
  | Ok (r, d') => Ret (Ok (r, mkXdec d' (xtrack cfg xs d d')))
  | Err e => Ret (Err e) | Abort => Ret Abort | UB => Ret UB
  end.

(** cadecoder.c:465-505 ca_decoder_set_base_fd with a directory *)
Definition xdec_new (mode base : N) : res xdec :=
  let! d := decoder_new mode in Ok (mkXdec d [mkXnode (Some base) None []]).
Definition xput (x : xdec) (p : list N) : res xdec := let! d := decoder_put_data (x_dec x) p in Ok (mkXdec d (x_nodes x)).
Definition xput_eof (x : xdec) : xdec := mkXdec (decoder_put_eof (x_dec x)) (x_nodes x).

(** The file system as the extracting decoder sees it: inodes, directories, open files, and the system calls that src/cadecoder.c and src/rm-rf.c
    use for it. This is environment, not code from /repo; it is part of what the theorems about extraction take for granted.

    An open file is its inode's number. Inodes are never reused, as long as something refers to them. Link counts, access and change times are not
    modelled; there is one file system (no mounts below the target); the process may do anything that the immutable flag doesn't forbid;
    any call may also fail with any error, see [result_of]. *)
From Coq Require Import Permutation.
From Verif Require Import Base.
Local Open Scope N_scope.

(** Permission bits, owner, modification time in ns, extended attributes, FS_IMMUTABLE_FL. *)
Record attrs := mkAttrs { a_perm : N; a_uid : N; a_gid : N; a_mtime : N; a_xattrs : list (list N * list N); a_imm : bool }.
Inductive body :=
| BReg (data : list N)
| BDir (ents : list (list N * N))     (* names and inode numbers; no name occurs twice *)
| BLnk (target : list N)
| BDev (block : bool) (major minor : N)
| BFifo | BSock.
Record inode := mkInode { i_attrs : attrs; i_body : body }.
(** [f_next]: an inode number that isn't used yet, like all above it. *)
Record fs := mkFs { f_ino : N -> option inode; f_next : N }.

Record fenv := mkFenv {
  fe_umask : N; fe_uid : N; fe_gid : N;                    (* of the process *)
  fe_now : fs -> N;                                        (* the time *)
  fe_order : list (list N * bool) -> list (list N * bool); (* the order in which readdir() delivers *)
  fe_exchange : bool;                                      (* whether RENAME_EXCHANGE is supported *)
  fe_random : fs -> N;                                     (* 64 random bits *)
  fe_walk : fs -> N -> list N -> option (N * list N);      (* where a path leads that isn't a plain name: a directory and a name in it *)
  fe_follow : fs -> N -> list N -> option N                (* where a symbolic link leads, relative to a directory *)
}.

Fixpoint get {A} (name : list N) (l : list (list N * A)) : option A :=
  match l with [] => None | (n, x) :: l => if beq n name then Some x else get name l end.
Fixpoint del {A} (name : list N) (l : list (list N * A)) : list (list N * A) :=
  match l with [] => [] | (n, x) :: l => if beq n name then del name l else (n, x) :: del name l end.
Definition put {A} (name : list N) (x : A) (l : list (list N * A)) : list (list N * A) := (name, x) :: del name l.

(** A name that stands for an entry of the directory it is looked up in. *)
Definition plain (name : list N) : bool :=
  negb (len name =? 0) && forallb (fun b => negb ((b =? 0) || (b =? 47))) name && negb (beq name [46]) && negb (beq name [46; 46]).
Definition NAME_MAX := 255.

Definition set_ino (w : fs) (i : N) (nd : inode) : fs := mkFs (fun j => if j =? i then Some nd else f_ino w j) (f_next w).
Definition add_ino (w : fs) (nd : inode) : fs := mkFs (fun j => if j =? f_next w then Some nd else f_ino w j) (f_next w + 1).
Definition set_attrs (nd : inode) (a : attrs) : inode := mkInode a (i_body nd).
Definition with_mtime (a : attrs) (t : N) : attrs := mkAttrs (a_perm a) (a_uid a) (a_gid a) t (a_xattrs a) (a_imm a).

Inductive call :=
| CMkdir (d : N) (name : list N) (perm : N)             (* mkdirat *)
| COpenDir (d : N) (name : list N)                      (* openat O_RDONLY|O_DIRECTORY|O_NOFOLLOW *)
| COpen (d : N) (name : list N)                         (* openat O_RDONLY|O_NOFOLLOW|O_NONBLOCK *)
| CCreate (d : N) (name : list N) (perm : N)            (* openat O_WRONLY|O_CREAT|O_EXCL|O_NOFOLLOW *)
| CSymlink (target : list N) (d : N) (name : list N)    (* symlinkat *)
| CMknod (d : N) (name : list N) (b : body) (perm : N)  (* mkfifoat, mknodat *)
| CWrite (i : N) (p : list N)                           (* write, at the end of the file *)
| CStat (i : N)                                         (* fstat *)
| CStatAt (d : N) (name : list N)                       (* fstatat AT_SYMLINK_NOFOLLOW *)
| CReadlink (d : N) (name : list N) (n : N)             (* readlinkat *)
| CReaddir (i : N)                                      (* readdir until the end: the names, and whether they are directories *)
| CChown (i : N) (uid gid : N)                          (* fchown *)
| CChownAt (d : N) (name : list N) (uid gid : N)        (* fchownat AT_SYMLINK_NOFOLLOW *)
| CChmod (i : N) (perm : N)                             (* fchmod *)
| CChmodAt (d : N) (name : list N) (perm : N)           (* fchmodat, follows symbolic links *)
| CListXattr (i : N)                                    (* flistxattr *)
| CSetXattr (i : N) (name value : list N)               (* fsetxattr *)
| CRemoveXattr (i : N) (name : list N)                  (* fremovexattr *)
| CGetXattr (i : N) (name : list N)                     (* fgetxattr *)
| CUtime (i : N) (t : N)                                (* futimens *)
| CUtimeAt (d : N) (name : list N) (t : N)              (* utimensat AT_SYMLINK_NOFOLLOW *)
| CRename (d : N) (a b : list N)                        (* renameat within a directory *)
| CExchange (d : N) (a b : list N)                      (* renameat2 RENAME_EXCHANGE *)
| CUnlink (d : N) (name : list N)                       (* unlinkat *)
| CRmdir (d : N) (name : list N)                        (* unlinkat AT_REMOVEDIR *)
| CDropImm (i : N)                                      (* mask_attr_fd(fd, 0, FS_IMMUTABLE_FL): whether it was set *)
| CRandom.                                              (* random_u64() *)

Inductive ret := RDone | RNum (n : N) | RStat (nd : inode) | RNames (l : list (list N * bool)) | RXattrs (l : list (list N)) | RBytes (b : list N) | RFail (e : errno).

Section Do.
Variable env : fenv.

Definition where_ (w : fs) (d : N) (name : list N) : option (N * list N) := if plain name then Some (d, name) else fe_walk env w d name.

(** A directory with its entries. *)
Definition dir_at (w : fs) (d : N) : option (inode * list (list N * N)) :=
  match f_ino w d with Some nd => match i_body nd with BDir ents => Some (nd, ents) | _ => None end | None => None end.
Definition is_dir_at (w : fs) (i : N) : bool := match dir_at w i with Some _ => true | None => false end.
Definition imm_at (w : fs) (i : N) : bool := match f_ino w i with Some nd => a_imm (i_attrs nd) | None => false end.
(** The directory [d] gets other entries. *)
Definition set_ents (w : fs) (d : N) (nd : inode) (ents : list (list N * N)) : fs :=
  set_ino w d (mkInode (with_mtime (i_attrs nd) (fe_now env w)) (BDir ents)).

(** A call on a name in a directory. *)
Definition on_dir (w : fs) (d : N) (name : list N) (k : N -> inode -> list (list N * N) -> list N -> ret * fs) : ret * fs :=
  match where_ w d name with
  | None => (RFail ENOENT, w)
  | Some (d, name) =>
      match dir_at w d with
      | None => (RFail ENOTDIR, w)
      | Some (nd, ents) => k d nd ents name
      end
  end.
Definition on_name (w : fs) (d : N) (name : list N) (k : N -> inode -> list (list N * N) -> list N -> N -> inode -> ret * fs) : ret * fs :=
  on_dir w d name (fun d nd ents name =>
    match get name ents with
    | None => (RFail ENOENT, w)
    | Some i => match f_ino w i with None => (RFail EIO, w) | Some x => k d nd ents name i x end
    end).
(** A new file. *)
Definition make (w : fs) (d : N) (name : list N) (b : body) (perm : N) : ret * fs :=
  on_dir w d name (fun d nd ents name =>
    if NAME_MAX <? len name then (RFail ENAMETOOLONG, w)
    else match get name ents with
         | Some _ => (RFail EEXIST, w)
         | None =>
             if a_imm (i_attrs nd) then (RFail EPERM, w)
             else
             let i := f_next w in
             let w1 := add_ino w (mkInode (mkAttrs perm (fe_uid env) (fe_gid env) (fe_now env w) [] false) b) in
             (RNum i, set_ents w1 d nd (put name i ents))
         end).
(** A change of an inode. *)
Definition on_ino (w : fs) (i : N) (k : inode -> ret * fs) : ret * fs :=
  match f_ino w i with None => (RFail EBADF, w) | Some nd => if a_imm (i_attrs nd) then (RFail EPERM, w) else k nd end.
Definition change (w : fs) (i : N) (f : inode -> attrs) : ret * fs := on_ino w i (fun nd => (RDone, set_ino w i (set_attrs nd (f nd)))).

Definition umasked (perm : N) : N := N.ldiff (N.land perm 0xFFF) (fe_umask env).
Definition S_ISUID := 0x800.
Definition S_ISGID := 0x400.
(** Changing the owner of anything but a directory takes setuid, setgid (if it has execute permission for the group) and capabilities away. *)
Definition SECURITY_CAPABILITY : list N :=
  [115; 101; 99; 117; 114; 105; 116; 121; 46; 99; 97; 112; 97; 98; 105; 108; 105; 116; 121].
Definition chowned (uid gid : N) (nd : inode) : attrs :=
  let a := i_attrs nd in
  match i_body nd with
  | BDir _ => mkAttrs (a_perm a) uid gid (a_mtime a) (a_xattrs a) (a_imm a)
  | _ => mkAttrs (N.ldiff (a_perm a) (if N.testbit (a_perm a) 3 then N.lor S_ISUID S_ISGID else S_ISUID)) uid gid (a_mtime a)
           (del SECURITY_CAPABILITY (a_xattrs a)) (a_imm a)
  end.
Definition chmoded (perm : N) (nd : inode) : attrs :=
  let a := i_attrs nd in mkAttrs (N.land perm 0xFFF) (a_uid a) (a_gid a) (a_mtime a) (a_xattrs a) (a_imm a).
Definition timed (t : N) (nd : inode) : attrs := with_mtime (i_attrs nd) t.
Definition xattred (f : list (list N * list N) -> list (list N * list N)) (nd : inode) : attrs :=
  let a := i_attrs nd in mkAttrs (a_perm a) (a_uid a) (a_gid a) (a_mtime a) (f (a_xattrs a)) (a_imm a).

Definition is_dir (nd : inode) : bool := match i_body nd with BDir _ => true | _ => false end.
Definition is_lnk (nd : inode) : bool := match i_body nd with BLnk _ => true | _ => false end.

(** Two names in a directory for a rename; both may be subject to the immutable flag. *)
Definition rename_to (w : fs) (d : N) (nd : inode) (ents : list (list N * N)) (a b : list N) (i : N) (x : inode) : ret * fs :=
  if a_imm (i_attrs nd) || a_imm (i_attrs x) then (RFail EPERM, w)
  else if NAME_MAX <? len b then (RFail ENAMETOOLONG, w)
  else match get b ents with
       | None => (RDone, set_ents w d nd (put b i (del a ents)))
       | Some j =>
           match f_ino w j with
           | None => (RFail EIO, w)
           | Some y =>
               if j =? i then (RDone, w)
               else if a_imm (i_attrs y) then (RFail EPERM, w)
               else match i_body x, i_body y with
                    | BDir _, BDir [] => (RDone, set_ents w d nd (put b i (del a ents)))
                    | BDir _, BDir _ => (RFail ENOTEMPTY, w)
                    | BDir _, _ => (RFail ENOTDIR, w)
                    | _, BDir _ => (RFail EISDIR, w)
                    | _, _ => (RDone, set_ents w d nd (put b i (del a ents)))
                    end
           end
       end.

Definition fs_do (w : fs) (c : call) : ret * fs :=
  match c with
  | CMkdir d name perm => make w d name (BDir []) (umasked perm)
  | CCreate d name perm => make w d name (BReg []) (umasked perm)
  | CSymlink target d name => make w d name (BLnk target) 0x1FF
  | CMknod d name b perm => make w d name b (umasked perm)
  | COpenDir d name => on_name w d name (fun _ _ _ _ i x =>
      match i_body x with BDir _ => (RNum i, w) | BLnk _ => (RFail ELOOP, w) | _ => (RFail ENOTDIR, w) end)
  | COpen d name => on_name w d name (fun _ _ _ _ i x => match i_body x with BLnk _ => (RFail ELOOP, w) | BSock => (RFail ENXIO, w) | _ => (RNum i, w) end)
  | CWrite i p => on_ino w i (fun nd => match i_body nd with
                                        | BReg data => (RNum (len p), set_ino w i (mkInode (with_mtime (i_attrs nd) (fe_now env w)) (BReg (data ++ p))))
                                        | _ => (RFail EINVAL, w) end)
  | CStat i => match f_ino w i with Some nd => (RStat nd, w) | None => (RFail EBADF, w) end
  | CStatAt d name => on_name w d name (fun _ _ _ _ i x => (RStat x, w))
  | CReadlink d name n => on_name w d name (fun _ _ _ _ i x => match i_body x with BLnk t => (RBytes (takeN n t), w) | _ => (RFail EINVAL, w) end)
  | CReaddir i => match dir_at w i with
                  | Some (_, ents) => (RNames (fe_order env (map (fun e => (fst e, is_dir_at w (snd e))) ents)), w)
                  | None => (RFail ENOTDIR, w) end
  | CChown i uid gid => change w i (chowned uid gid)
  | CChownAt d name uid gid => on_name w d name (fun _ _ _ _ i _ => change w i (chowned uid gid))
  | CChmod i perm => change w i (chmoded perm)
  | CChmodAt d name perm => on_name w d name (fun d _ _ _ i x =>
      match i_body x with
      | BLnk t => match fe_follow env w d t with Some j => change w j (chmoded perm) | None => (RFail ENOENT, w) end
      | _ => change w i (chmoded perm)
      end)
  | CListXattr i => match f_ino w i with Some nd => (RXattrs (map fst (a_xattrs (i_attrs nd))), w) | None => (RFail EBADF, w) end
  | CSetXattr i name value => change w i (xattred (put name value))
  | CRemoveXattr i name => on_ino w i (fun nd => match get name (a_xattrs (i_attrs nd)) with
                                                 | Some _ => change w i (xattred (del name)) | None => (RFail ENODATA, w) end)
  | CGetXattr i name => match f_ino w i with
                        | Some nd => match get name (a_xattrs (i_attrs nd)) with Some v => (RBytes v, w) | None => (RFail ENODATA, w) end
                        | None => (RFail EBADF, w) end
  | CUtime i t => change w i (timed t)
  | CUtimeAt d name t => on_name w d name (fun _ _ _ _ i _ => change w i (timed t))
  | CRename d a b =>
      on_name w d a (fun d nd ents a i x =>
        match where_ w d b with
        | Some (d', b) => if negb (d' =? d) then (RFail EXDEV, w) else rename_to w d nd ents a b i x
        | None => (RFail ENOENT, w)
        end)
  | CExchange d a b =>
      if negb (fe_exchange env) then (RFail EINVAL, w)
      else
      on_name w d a (fun d nd ents a i x =>
        match where_ w d b with
        | Some (d', b) =>
            if negb (d' =? d) then (RFail EXDEV, w)
            else match get b ents with
                 | None => (RFail ENOENT, w)
                 | Some j =>
                     if a_imm (i_attrs nd) || a_imm (i_attrs x) || imm_at w j then (RFail EPERM, w)
                     else (RDone, set_ents w d nd (put b i (put a j ents)))
                 end
        | None => (RFail ENOENT, w)
        end)
  | CUnlink d name => on_name w d name (fun d nd ents name i x =>
      if is_dir x then (RFail EISDIR, w)
      else if a_imm (i_attrs nd) || a_imm (i_attrs x) then (RFail EPERM, w)
      else (RDone, set_ents w d nd (del name ents)))
  | CRmdir d name => on_name w d name (fun d nd ents name i x =>
      match i_body x with
      | BDir [] => if a_imm (i_attrs nd) || a_imm (i_attrs x) then (RFail EPERM, w) else (RDone, set_ents w d nd (del name ents))
      | BDir _ => (RFail ENOTEMPTY, w)
      | _ => (RFail ENOTDIR, w)
      end)
  | CDropImm i => match f_ino w i with
                  | Some nd => let a := i_attrs nd in
                      if a_imm a then (RNum 1, set_ino w i (set_attrs nd (mkAttrs (a_perm a) (a_uid a) (a_gid a) (a_mtime a) (a_xattrs a) false)))
                      else (RNum 0, w)
                  | None => (RFail EBADF, w) end
  | CRandom => (RNum (fe_random env w), w)
  end.

(** What the kernel may do instead: fail, or write less. *)
Inductive trouble := TNone | TFail (e : errno) | TShort (n : N).
Definition result_of (t : trouble) (w : fs) (c : call) : ret * fs :=
  match t, c with
  | TFail e, _ => (RFail e, w)
  | TShort n, CWrite i p => fs_do w (CWrite i (takeN (N.max 1 n) p))
  | _, _ => fs_do w c
  end.

(** ** Programs *)
Inductive prog (A : Type) := Ret (r : res A) | Sys (c : call) (k : ret -> prog A).
Arguments Ret {A}. Arguments Sys {A}.
Fixpoint pbind {A B} (p : prog A) (f : res A -> prog B) : prog B :=
  match p with Ret r => f r | Sys c k => Sys c (fun x => pbind (k x) f) end.

(** Execution in which nothing goes wrong. *)
Fixpoint run {A} (p : prog A) (w : fs) : res A * fs :=
  match p with Ret r => (r, w) | Sys c k => let (x, w) := fs_do w c in run (k x) w end.

(** Execution with any kind of trouble, up to any moment: the states the file system is in after each call, and the result if there is one. *)
Inductive passes {A} : prog A -> fs -> list fs -> option (res A) -> Prop :=
| passes_stop p w : passes p w [] None
| passes_ret r w : passes (Ret r) w [] (Some r)
| passes_call c k t w x w1 l o : result_of t w c = (x, w1) -> passes (k x) w1 l o -> passes (Sys c k) w (w1 :: l) o.
End Do.
Arguments Ret {A}. Arguments Sys {A}.

Notation "'do!' x <- a ;; b" := (pbind a (fun y => match y with Ok x => b | Err e => Ret (Err e) | Abort => Ret Abort | UB => Ret UB end))
  (at level 200, x pattern, a at level 100, b at level 200, only parsing).
Definition sys (c : call) : prog ret := Sys c (fun x => Ret (match x with RFail e => Err e | x => Ok x end)).
Definition sysnum (c : call) : prog N := Sys c (fun x => Ret (match x with RFail e => Err e | RNum n => Ok n | _ => UB end)).

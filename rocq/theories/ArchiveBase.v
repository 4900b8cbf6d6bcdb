(** Common ground of the archive encoder and decoder models: the record types and size limits of
    src/caformat.h, C strings, file modes, and the tree an archive stands for. *)
From Verif Require Import Base FeatureFlags.
Local Open Scope N_scope.

(** caformat.h:50-75, object types. *)
Definition F_ENTRY              := 0x1396fabcea5bbb51.
Definition F_USER               := 0xf453131aaeeaccb3.
Definition F_GROUP              := 0x25eb6ac969396a52.
Definition F_XATTR              := 0xb8157091f80bc486.
Definition F_ACL_USER           := 0x297dc88b2ef12faf.
Definition F_ACL_GROUP          := 0x36f2acb56cb3dd0b.
Definition F_ACL_GROUP_OBJ      := 0x23047110441f38f3.
Definition F_ACL_DEFAULT        := 0xfe3eeda6823c8cd0.
Definition F_ACL_DEFAULT_USER   := 0xbdf03df9bd010a91.
Definition F_ACL_DEFAULT_GROUP  := 0xa0cb1168782d1f51.
Definition F_FCAPS              := 0xf7267db0afed0629.
Definition F_QUOTA_PROJID       := 0x161baf2d8772a72b.
Definition F_SELINUX            := 0x46faf0602fd26c59.
Definition F_SYMLINK            := 0x664a6fb6830e0d6c.
Definition F_DEVICE             := 0xac3dace369dfe643.
Definition F_PAYLOAD            := 0x8b9e1d93d6dcffc9.
Definition F_FILENAME           := 0x6dbb6ebcb3161f0b.
Definition F_GOODBYE            := 0xdfd35c5e8327c403.
Definition F_GOODBYE_TAIL_MARKER := 0x57446fa533702943.

(** caformat.h:253-405, sizes: CaFormatHeader is 16 bytes, and all limits count the header. *)
Definition HDR := 16.
Definition ENTRY_SIZE := 64.
Definition USER_SIZE_MAX := HDR + 256.
Definition GROUP_SIZE_MAX := HDR + 256.
Definition XATTR_SIZE_MAX := HDR + 255 + 1 + 65536.
Definition FCAPS_SIZE_MAX := HDR + 65536.
Definition ACL_HDR := 32.                         (* offsetof(CaFormatACLUser, name) *)
Definition ACL_SIZE_MAX := ACL_HDR + 256.
Definition ACL_GROUP_OBJ_SIZE := 24.
Definition ACL_DEFAULT_SIZE := 48.
Definition SELINUX_SIZE_MAX := HDR + 4096.
Definition QUOTA_PROJID_SIZE := 24.
Definition SYMLINK_SIZE_MAX := HDR + 4096.
Definition DEVICE_SIZE := 32.
Definition GOODBYE_ITEM := 24.
Definition GOODBYE_TAIL := 24.

(** def.h:6-8 *)
Definition NODES_MAX := 64.
Definition BUFFER_SIZE := 65536.

(** <sys/stat.h> on Linux *)
Definition S_IFMT := 0xF000.
Definition S_IFSOCK := 0xC000.
Definition S_IFLNK := 0xA000.
Definition S_IFREG := 0x8000.
Definition S_IFBLK := 0x6000.
Definition S_IFDIR := 0x4000.
Definition S_IFCHR := 0x2000.
Definition S_IFIFO := 0x1000.
Definition is_type (m t : N) : bool := N.land m S_IFMT =? t.
Definition S_ISREG m := is_type m S_IFREG.
Definition S_ISDIR m := is_type m S_IFDIR.
Definition S_ISLNK m := is_type m S_IFLNK.
Definition S_ISBLK m := is_type m S_IFBLK.
Definition S_ISCHR m := is_type m S_IFCHR.
Definition S_ISFIFO m := is_type m S_IFIFO.
Definition S_ISSOCK m := is_type m S_IFSOCK.

(** A C string is the list of its bytes without the final NUL. *)
Definition no_nul (s : list N) : bool := forallb (fun b => negb (b =? 0)) s.

(** strcmp(): bytes compare as unsigned char, the shorter string is less. *)
Fixpoint strcmp (a b : list N) : comparison :=
  match a, b with
  | [], [] => Eq
  | [], _ :: _ => Lt
  | _ :: _, [] => Gt
  | x :: a, y :: b => match x ?= y with Eq => strcmp a b | c => c end
  end.

(** memchr(l, 0, ...): the bytes before the first NUL and those behind it. *)
Fixpoint split_nul (l : list N) : option (list N * list N) :=
  match l with
  | [] => None
  | b :: l => if b =? 0 then Some ([], l)
              else match split_nul l with Some (s, r) => Some (b :: s, r) | None => None end
  end.

Fixpoint prefixb (p l : list N) : bool :=
  match p, l with
  | [], _ => true
  | x :: p, y :: l => (x =? y) && prefixb p l
  | _ :: _, [] => false
  end.

(** util.h:355 dot_or_dot_dot *)
Definition dot_or_dot_dot (s : list N) : bool := beq s [46] || beq s [46; 46].

(** strchr(s, '.'): the part before the first dot and the part behind. *)
Fixpoint split_dot (l : list N) : option (list N * list N) :=
  match l with
  | [] => None
  | b :: l => if b =? 46 then Some ([], l)
              else match split_dot l with Some (s, r) => Some (b :: s, r) | None => None end
  end.

(** cautil.c:204-227 ca_xattr_name_is_valid *)
Definition xattr_name_is_valid (s : list N) : bool :=
  if len s =? 0 then false
  else match split_dot s with
       | None => false
       | Some (a, b) =>
           if len a =? 0 then false
           else if len b =? 0 then false
           else negb (255 <? len s)
       end.

(** util.c:1054-1065 uid_is_valid; gid_is_valid (util.h:402-404) is the same. *)
Definition uid_is_valid (u : N) : bool := negb (u =? UINT32_MAX) && negb (u =? UINT16_MAX).
Definition UID_INVALID := UINT32_MAX.

(** An ACL entry as both sides store it (caencoder.c:65-73, cadecoder.c:62-68). *)
Record acl_ent := mkAclEnt { ae_id : N; ae_name : option (list N); ae_perm : N }.

(** The meta data of one file as it passes through an archive. UINT64_MAX in a permission field
    means there is none. *)
Record meta := mkMeta {
  m_mode : N; m_flags : N; m_uid : N; m_gid : N; m_mtime : N;
  m_user : option (list N); m_group : option (list N);
  m_xattrs : list (list N * list N);
  m_acl_user : list acl_ent; m_acl_group : list acl_ent;
  m_acl_group_obj : N;
  m_acl_default_user_obj : N; m_acl_default_group_obj : N; m_acl_default_other : N; m_acl_default_mask : N;
  m_acl_default_user : list acl_ent; m_acl_default_group : list acl_ent;
  m_selinux : option (list N); m_fcaps : option (list N); m_projid : option N
}.

(** What an archive stands for: meta data and contents of each file, directories with their entries
    in archive order. *)
Inductive tree :=
| TReg (m : meta) (data : list N)
| TDir (m : meta) (ents : list (list N * tree))
| TLnk (m : meta) (target : list N)
| TDev (m : meta) (major minor : N)
| TOther (m : meta).          (* FIFO and socket: nothing but meta data *)

(** [compare_acl_entry] (caencoder.c:1294-1322), [compare_format_acl_user] (cadecoder.c:1285-1318) and
    [compare_format_acl_group] (1320-1352) all do this comparison. *)
Definition acl_cmp (a b : acl_ent) : comparison :=
  match ae_id a ?= ae_id b with
  | Eq =>
      match ae_name a, ae_name b with
      | None, Some _ => Lt
      | Some _, None => Gt
      | None, None => ae_perm a ?= ae_perm b
      | Some x, Some y => match strcmp x y with Eq => ae_perm a ?= ae_perm b | c => c end
      end
  | c => c
  end.

Definition some {A} (o : option A) : bool := match o with Some _ => true | None => false end.
Definition nonempty {A} (l : list A) : bool := match l with [] => false | _ => true end.

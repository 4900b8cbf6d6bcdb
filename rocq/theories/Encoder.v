(** Model of the archive encoder, src/caencoder.c: ca_encoder_step and ca_encoder_get_data, running over a file tree as
    the kernel presents it. Not modelled: seeking, the digests, the covering feature flags, block devices as roots (only
    regular files), failing system calls other than short reads, and callers that ask for no data (which lets the encoder
    skip payload). Offsets are unbounded, i.e. archives are shorter than 2^64 - 1 bytes. *)
From Verif Require Import Base FeatureFlags ArchiveBase Bst.
Local Open Scope N_scope.

(** What acl_get_entry(3) and friends return for one entry of an ACL. *)
Inductive acl_tag := T_USER_OBJ | T_USER | T_GROUP_OBJ | T_GROUP | T_MASK | T_OTHER.
Record raw_acl := mkRawAcl { ra_tag : acl_tag; ra_qual : N; ra_r : bool; ra_w : bool; ra_x : bool }.

(** What fstat(2) and the other calls of the ca_encoder_node_read_*() functions return for one file. *)
Record fstat := mkFstat {
  st_mode : N; st_uid : N; st_gid : N; st_sec : Z; st_nsec : Z;
  fs_virtual : bool;                      (* on one of the API file systems of caencoder.c:1856-1875 *)
  fs_mount_id : option N;                 (* None if it isn't opened *)
  fs_chattr : N; fs_fat : N; fs_subvol : bool; fs_subvol_ro : bool;
  fs_selinux : option (list N);
  fs_xattrs : list (list N * list N);     (* flistxattr/fgetxattr, in the order of the kernel *)
  fs_acl : list raw_acl; fs_default_acl : list raw_acl;   (* empty if there is none *)
  fs_projid : N
}.

(** A file tree. A regular file has the size fstat() told and the bytes pread() finds. Directory entries are in the order
    readdir() returns them, without "." and "..". *)
Inductive fnode :=
| FReg (s : fstat) (size : N) (data : list N)
| FDir (s : fstat) (ents : list (list N * fnode))
| FLnk (s : fstat) (target : list N)
| FDev (s : fstat) (major minor : N)
| FOther (s : fstat).

Definition f_stat (f : fnode) : fstat :=
  match f with FReg s _ _ | FDir s _ | FLnk s _ | FDev s _ _ | FOther s => s end.
Definition f_mode (f : fnode) : N := st_mode (f_stat f).
Definition f_size (f : fnode) : N := match f with FReg _ n _ => n | _ => 0 end.
Definition f_data (f : fnode) : list N := match f with FReg _ _ d => d | _ => [] end.
Definition f_ents (f : fnode) : list (list N * fnode) := match f with FDir _ l => l | _ => [] end.
Definition f_target (f : fnode) : list N := match f with FLnk _ t => t | _ => [] end.
Definition f_dev (f : fnode) : N * N := match f with FDev _ x y => (x, y) | _ => (0, 0) end.

(** Everything the encoder is configured with or asks the system for. *)
Record eenv := mkEenv {
  ev_ff : N;                                       (* feature flags, as ca_encoder_set_feature_flags stored them *)
  ev_gran : N;                                     (* time granularity, ditto *)
  ev_shift : N; ev_range : N;                      (* uid shift and range *)
  ev_pw : N -> option (list N);                    (* getpwuid_r *)
  ev_gr : N -> option (list N);                    (* getgrgid_r *)
  ev_hash : list N -> N;                           (* siphash24 with CA_FORMAT_GOODBYE_HASH_KEY *)
  ev_excl : list (list N) -> list N -> bool -> bool;  (* .caexclude: directory path, entry name, is a directory *)
  ev_qsort : forall A : Type, (A -> A -> comparison) -> list A -> list A   (* libc's qsort *)
}.

Section Encoder.
Variable ev : eenv.
Let ff := ev_ff ev.

Definition UIDS := N.lor WITH_16BIT_UIDS WITH_32BIT_UIDS.

(** caencoder.c:1153-1171 ca_encoder_shift_uid; ca_encoder_shift_gid (1173-1176) is the same. *)
Definition shift_uid (uid : N) : N :=
  if negb (uid_is_valid uid) then UID_INVALID
  else if uid <? ev_shift ev then UID_INVALID
  else let r := uid - ev_shift ev in
       if negb (ev_range ev =? 0) then r mod ev_range ev else r.

(** printf("%u") *)
Fixpoint dec_digits (fuel : nat) (n : N) : list N :=
  match fuel with
  | O => []
  | S f => (if n / 10 =? 0 then [] else dec_digits f (n / 10)) ++ [48 + n mod 10]
  end.
Definition fmt_uid (n : N) : list N := dec_digits 10 n.

(** caencoder.c:1178-1230 uid_to_name, and 1232-1292 gid_to_name, which doesn't check for validity. *)
Definition id_to_name (lookup : N -> option (list N)) (check : bool) (uid : N) : res (option (list N)) :=
  if check && negb (uid_is_valid uid) then Err EINVAL
  else if uid =? 0 then Ok None
  else match lookup uid with
       | Some n => Ok (Some n)
       | None =>
           if has ff UIDS then Ok None
           else let s := shift_uid uid in
                if negb (uid_is_valid s) then Err EINVAL
                else Ok (Some (fmt_uid s))
       end.
Definition uid_to_name := id_to_name (ev_pw ev) true.
Definition gid_to_name := id_to_name (ev_gr ev) false.

(** caencoder.c:1324-1354 acl_entry_permissions *)
Definition raw_perm (r : raw_acl) : N :=
  (if ra_r r then 4 else 0) + (if ra_w r then 2 else 0) + (if ra_x r then 1 else 0).

Record acl_acc := mkAclAcc {
  aa_users : list acl_ent; aa_groups : list acl_ent;
  aa_user_obj : N; aa_group_obj : N; aa_other : N; aa_mask : N }.
Definition acl_acc0 := mkAclAcc [] [] UINT64_MAX UINT64_MAX UINT64_MAX UINT64_MAX.

(** caencoder.c:1395-1479, one entry of ca_encoder_node_process_acl. *)
Definition acl_id (to_name : N -> res (option (list N))) (r : raw_acl) : res acl_ent :=
  if negb (uid_is_valid (ra_qual r)) then Err EINVAL
  else let s := shift_uid (ra_qual r) in
  if negb (uid_is_valid s) then Err EINVAL
  else if has ff WITH_16BIT_UIDS && (UINT16_MAX <? s) then Err EPROTONOSUPPORT
  else let! name := (if has ff WITH_USER_NAMES then to_name (ra_qual r) else Ok None) in
       Ok (mkAclEnt (if has ff UIDS then s else 0) name (raw_perm r)).
Definition process_acl_entry (a : acl_acc) (r : raw_acl) : res acl_acc :=
  match ra_tag r with
  | T_USER_OBJ => Ok (mkAclAcc (aa_users a) (aa_groups a) (raw_perm r) (aa_group_obj a) (aa_other a) (aa_mask a))
  | T_GROUP_OBJ => Ok (mkAclAcc (aa_users a) (aa_groups a) (aa_user_obj a) (raw_perm r) (aa_other a) (aa_mask a))
  | T_OTHER => Ok (mkAclAcc (aa_users a) (aa_groups a) (aa_user_obj a) (aa_group_obj a) (raw_perm r) (aa_mask a))
  | T_MASK => Ok (mkAclAcc (aa_users a) (aa_groups a) (aa_user_obj a) (aa_group_obj a) (aa_other a) (raw_perm r))
  | T_USER =>
      let! e := acl_id uid_to_name r in
      Ok (mkAclAcc (aa_users a ++ [e]) (aa_groups a) (aa_user_obj a) (aa_group_obj a) (aa_other a) (aa_mask a))
  | T_GROUP =>
      let! e := acl_id gid_to_name r in
      Ok (mkAclAcc (aa_users a) (aa_groups a ++ [e]) (aa_user_obj a) (aa_group_obj a) (aa_other a) (aa_mask a))
  end.
Fixpoint process_acl_entries (a : acl_acc) (l : list raw_acl) : res acl_acc :=
  match l with
  | [] => Ok a
  | r :: l => let! a := process_acl_entry a r in process_acl_entries a l
  end.
(** caencoder.c:1356-1519 ca_encoder_node_process_acl, without the type dependent assignments at its end. *)
Definition process_acl (l : list raw_acl) : res acl_acc :=
  let! a := process_acl_entries acl_acc0 l in
  Ok (mkAclAcc (ev_qsort ev _ acl_cmp (aa_users a)) (ev_qsort ev _ acl_cmp (aa_groups a))
        (aa_user_obj a) (aa_group_obj a) (aa_other a) (aa_mask a)).

(** cautil.c:229-240 ca_xattr_name_store *)
Definition str_user_ : list N := [117; 115; 101; 114; 46].
Definition str_trusted_ : list N := [116; 114; 117; 115; 116; 101; 100; 46].
Definition str_security_capability : list N :=
  [115; 101; 99; 117; 114; 105; 116; 121; 46; 99; 97; 112; 97; 98; 105; 108; 105; 116; 121].
Definition xattr_name_store (n : list N) : bool :=
  if negb (xattr_name_is_valid n) then false
  else prefixb str_user_ n || prefixb str_trusted_ n.

(** caencoder.c:838-848 compare_xattr *)
Definition xattr_cmp (a b : list N * list N) : comparison := strcmp (fst a) (fst b).

(** caencoder.c:850-1088 ca_encoder_node_read_xattrs: the xattrs and the file capabilities. *)
Definition read_xattrs (s : fstat) : list (list N * list N) * option (list N) :=
  if negb (has ff (N.lor WITH_XATTRS WITH_FCAPS)) then ([], None)
  else if S_ISLNK (st_mode s) then ([], None)
  else
    (ev_qsort ev _ xattr_cmp (filter (fun x => xattr_name_store (fst x)) (fs_xattrs s)),
     if S_ISREG (st_mode s)
     then option_map snd (find (fun x => beq (fst x) str_security_capability) (fs_xattrs s))
     else None).

(** caencoder.c:2411-2430 ca_encoder_fixup_mode *)
Definition fixup_mode (mode : N) : N :=
  if S_ISLNK mode then N.lor S_IFLNK 0x1FF
  else if has ff (N.lor WITH_PERMISSIONS WITH_ACL) then N.land mode (N.lor S_IFMT 0xFFF)
  else if has ff WITH_READ_ONLY then
    N.lor (N.land mode S_IFMT)
      (if has mode 0x92 then (if S_ISDIR mode then 0x1FF else 0x1B6) else (if S_ISDIR mode then 0x16D else 0x124))
  else N.lor (N.land mode S_IFMT) (if S_ISDIR mode then 0x1FF else 0x1B6).

(** caencoder.c:1843-1879 ca_encoder_node_shall_enumerate *)
Definition shall_enumerate (f : fnode) : bool :=
  if negb (S_ISDIR (f_mode f)) && negb (S_ISREG (f_mode f)) then false else negb (fs_virtual (f_stat f)).

(** The per-encoder cache of the last user and group name, caencoder.c:181-186. *)
Record ecache := mkEcache { ec_uid : N; ec_uname : option (list N); ec_gid : N; ec_gname : option (list N) }.
Definition ecache0 := mkEcache UID_INVALID None UID_INVALID None.

(** caencoder.c:1594-1633 ca_encoder_node_read_user_group_names *)
Definition read_names (c : ecache) (s : fstat) : res ecache :=
  if negb (has ff WITH_USER_NAMES) then Ok c
  else if st_mode s =? 0 then Err EINVAL
  else
    let! c := (match ec_uname c with
               | Some _ => if ec_uid c =? st_uid s then Ok c
                           else let! n := uid_to_name (st_uid s) in Ok (mkEcache (st_uid s) n (ec_gid c) (ec_gname c))
               | None => let! n := uid_to_name (st_uid s) in Ok (mkEcache (st_uid s) n (ec_gid c) (ec_gname c))
               end) in
    match ec_gname c with
    | Some _ => if ec_gid c =? st_gid s then Ok c
                else let! n := gid_to_name (st_gid s) in Ok (mkEcache (ec_uid c) (ec_uname c) (st_gid s) n)
    | None => let! n := gid_to_name (st_gid s) in Ok (mkEcache (ec_uid c) (ec_uname c) (st_gid s) n)
    end.

(** caencoder.c:2558-2629: the numeric fields of the ENTRY record. *)
Definition entry_ids (s : fstat) : res (N * N) :=
  if has ff UIDS then
    let u := shift_uid (st_uid s) in
    if negb (uid_is_valid u) then Err EINVAL
    else let g := shift_uid (st_gid s) in
    if negb (uid_is_valid g) then Err EINVAL
    else if has ff WITH_16BIT_UIDS && ((UINT16_MAX <? u) || (UINT16_MAX <? g)) then Err EPROTONOSUPPORT
    else Ok (u, g)
  else Ok (0, 0).
Definition type_stored (mode : N) : bool :=
  if negb (has ff WITH_SYMLINKS) && S_ISLNK mode then false
  else if negb (has ff WITH_DEVICE_NODES) && (S_ISBLK mode || S_ISCHR mode) then false
  else if negb (has ff WITH_FIFOS) && S_ISFIFO mode then false
  else negb (negb (has ff WITH_SOCKETS) && S_ISSOCK mode).
Definition entry_flags (s : fstat) : N :=
  let dr := S_ISDIR (st_mode s) || S_ISREG (st_mode s) in
  N.lor
    (N.lor (if dr && has ff WITH_CHATTR then N.land (feature_flags_from_chattr (fs_chattr s)) ff else 0)
           (if dr && has ff WITH_FAT_ATTRS then N.land (feature_flags_from_fat_attrs (fs_fat s)) ff else 0))
    (if S_ISDIR (st_mode s) && has ff WITH_SUBVOLUME
     then N.land (N.lor (if fs_subvol s then WITH_SUBVOLUME else 0) (if fs_subvol_ro s then WITH_SUBVOLUME_RO else 0)) ff
     else 0).

(** caencoder.c:2509-2641, what ca_encoder_get_entry_data has gathered before it starts writing, with the reading of the
    ACLs (ca_encoder_node_read_acl, 1521-1592). *)
Definition entry_meta (c : ecache) (s : fstat) : res (meta * ecache) :=
  let sel := if has ff WITH_SELINUX then fs_selinux s else None in
  let '(xattrs, fcaps) := read_xattrs s in
  let! acl := (if has ff WITH_ACL && negb (S_ISLNK (st_mode s)) then process_acl (fs_acl s) else Ok acl_acc0) in
  let! dacl := (if has ff WITH_ACL && S_ISDIR (st_mode s) then process_acl (fs_default_acl s) else Ok acl_acc0) in
  let! c := read_names c s in
  let projid := if (S_ISDIR (st_mode s) || S_ISREG (st_mode s)) && has ff WITH_QUOTA_PROJID then fs_projid s else 0 in
  let! (uid, gid) := entry_ids s in
  if negb (type_stored (st_mode s)) then Err EPROTONOSUPPORT
  else Ok (mkMeta (fixup_mode (st_mode s)) (entry_flags s) uid gid
             (encoder_fixup_mtime (ev_gran ev) (timespec_to_nsec (st_sec s) (st_nsec s)))
             (if st_uid s =? ec_uid c then ec_uname c else None)
             (if st_gid s =? ec_gid c then ec_gname c else None)
             (if has ff WITH_XATTRS then xattrs else [])
             (aa_users acl) (aa_groups acl)
             (if negb (aa_group_obj acl =? UINT64_MAX) && negb (aa_mask acl =? UINT64_MAX)
              then aa_group_obj acl else UINT64_MAX)
             (aa_user_obj dacl) (aa_group_obj dacl) (aa_other dacl) (aa_mask dacl)
             (aa_users dacl) (aa_groups dacl)
             sel (if has ff WITH_FCAPS then fcaps else None) (if projid =? 0 then None else Some projid), c).

(** An object: header and body. *)
Definition obj (t : N) (b : list N) : list N := le64 (HDR + len b) ++ le64 t ++ b.
Definition opt_obj {A} (o : option A) (f : A -> list N) : list N := match o with Some a => f a | None => [] end.

(** caencoder.c:2451-2507 ca_encoder_format_acl_{user,group}_append. *)
Definition ser_acl (t : N) (a : acl_ent) : list N :=
  obj t (le64 (if has ff UIDS then ae_id a else 0) ++ le64 (ae_perm a) ++
         match ae_name a with Some n => n ++ [0] | None => [] end).

(** caencoder.c:2687-2812: the ENTRY record and everything up to what depends on the file type. *)
Definition ser_meta (m : meta) : list N :=
  obj F_ENTRY (le64 ff ++ le64 (m_mode m) ++ le64 (m_flags m) ++ le64 (m_uid m) ++ le64 (m_gid m) ++ le64 (m_mtime m)) ++
  opt_obj (m_user m) (fun n => obj F_USER (n ++ [0])) ++
  opt_obj (m_group m) (fun n => obj F_GROUP (n ++ [0])) ++
  concat (map (fun x => obj F_XATTR (fst x ++ [0] ++ snd x)) (m_xattrs m)) ++
  concat (map (ser_acl F_ACL_USER) (m_acl_user m)) ++
  concat (map (ser_acl F_ACL_GROUP) (m_acl_group m)) ++
  (if negb (m_acl_group_obj m =? UINT64_MAX) then obj F_ACL_GROUP_OBJ (le64 (m_acl_group_obj m)) else []) ++
  (if negb (m_acl_default_user_obj m =? UINT64_MAX) || negb (m_acl_default_group_obj m =? UINT64_MAX) ||
      negb (m_acl_default_other m =? UINT64_MAX) || negb (m_acl_default_mask m =? UINT64_MAX)
   then obj F_ACL_DEFAULT (le64 (m_acl_default_user_obj m) ++ le64 (m_acl_default_group_obj m) ++
                           le64 (m_acl_default_other m) ++ le64 (m_acl_default_mask m)) else []) ++
  concat (map (ser_acl F_ACL_DEFAULT_USER) (m_acl_default_user m)) ++
  concat (map (ser_acl F_ACL_DEFAULT_GROUP) (m_acl_default_group m)) ++
  opt_obj (m_selinux m) (fun s => obj F_SELINUX (s ++ [0])) ++
  opt_obj (m_fcaps m) (fun s => obj F_FCAPS s) ++
  opt_obj (m_projid m) (fun p => obj F_QUOTA_PROJID (le64 p)).

(** caencoder.c:2784-2812: PAYLOAD header, SYMLINK or DEVICE. *)
Definition ser_tail (f : fnode) : list N :=
  let mode := f_mode f in
  if S_ISREG mode then le64 (HDR + (if shall_enumerate f then f_size f else 0)) ++ le64 F_PAYLOAD
  else if S_ISLNK mode then obj F_SYMLINK (f_target f ++ [0])
  else if S_ISBLK mode || S_ISCHR mode then obj F_DEVICE (le64 (fst (f_dev f)) ++ le64 (snd (f_dev f)))
  else [].

(** caencoder.c:2509-2816 ca_encoder_get_entry_data *)
Definition get_entry_data (c : ecache) (f : fnode) : res (list N * ecache) :=
  let! (m, c) := entry_meta c (f_stat f) in
  Ok (ser_meta m ++ ser_tail f, c).

(** caencoder.c:2372-2393 ca_encoder_get_filename_data *)
Definition get_filename_data (name : list N) : list N := obj F_FILENAME (name ++ [0]).

Definition name_item_cmp (a b : name_item) : comparison :=
  match ni_hash a ?= ni_hash b with Eq => ni_start a ?= ni_start b | c => c end.

(** caencoder.c:2818-2893 ca_encoder_get_goodbye_data, for a GOODBYE object that starts at [start]. *)
Definition ser_goodbye_item (start : N) (i : name_item) : list N :=
  le64 (start - ni_start i) ++ le64 (ni_end i - ni_start i) ++ le64 (ni_hash i).
Definition goodbye_item_ok (start : N) (i : name_item) : bool :=
  (ni_start i <? start) && (ni_end i <=? start) && (ni_start i <? ni_end i).
Definition get_goodbye_data (start entry_offset : N) (items : list name_item) : res (list N) :=
  let size := HDR + GOODBYE_ITEM * len items + GOODBYE_TAIL in
  let! bst := name_table_make_bst (ev_qsort ev _ name_item_cmp) items in
  if negb (forallb (goodbye_item_ok start) bst) then Abort
  else if negb (entry_offset <? start) then Abort
  else Ok (le64 size ++ le64 F_GOODBYE ++ concat (map (ser_goodbye_item start) bst) ++
           le64 (start - entry_offset) ++ le64 size ++ le64 F_GOODBYE_TAIL_MARKER).

(** caencoder.c:483-520: the entries of a directory, sorted. *)
Definition dirent_cmp (a b : list N * fnode) : comparison := strcmp (fst a) (fst b).
Definition read_dirents (f : fnode) : list (list N * fnode) :=
  ev_qsort ev _ dirent_cmp (filter (fun e => negb (dot_or_dot_dot (fst e))) (f_ents f)).

Definition FS_NODUMP_FL := 0x40.

(** caencoder.c:1775-1841 ca_encoder_shall_store_child_node for the entry [name] of the directory [path]. The chattr flags are
    read only if the feature flags ask for it (caencoder.c:625-651), and only of regular files and directories. *)
Definition shall_store (path : list (list N)) (dir : fnode) (name : list N) (child : fnode) : bool :=
  let m := f_mode child in
  if negb (has ff WITH_SYMLINKS) && S_ISLNK m then false
  else if negb (has ff WITH_DEVICE_NODES) && (S_ISBLK m || S_ISCHR m) then false
  else if negb (has ff WITH_FIFOS) && S_ISFIFO m then false
  else if negb (has ff WITH_SOCKETS) && S_ISSOCK m then false
  else if has ff EXCLUDE_NODUMP && (S_ISDIR m || S_ISREG m) && has (fs_chattr (f_stat child)) FS_NODUMP_FL then false
  else if has ff EXCLUDE_SUBMOUNTS &&
          match fs_mount_id (f_stat child), fs_mount_id (f_stat dir) with
          | Some a, Some b => negb (a =? b) | _, _ => false end then false
  else negb (ev_excl ev path name (S_ISDIR m)).

(** * The streaming machine *)

(** caencoder.c:147-158 *)
Inductive estate :=
  E_INIT | E_ENTERED | E_ENTRY | E_IN_PAYLOAD | E_FIRST_DIRENT | E_NEXT_DIRENT | E_FILENAME | E_GOODBYE | E_FINALIZE | E_EOF.

(** caencoder.c:75-145 CaEncoderNode. [en_dirents] are the directory entries from the current one on. *)
Record enode := mkEnode {
  en_file : fnode;
  en_dirents : option (list (list N * fnode));
  en_table : option (N * list name_item)       (* name table: entry offset, items *)
}.

(** caencoder.c:160-199 CaEncoder; nodes from the current one upwards. [e_child] is the node behind the current one, if
    it's opened. *)
Record enc := mkEnc {
  e_state : estate; e_nodes : list enode; e_child : option fnode; e_buf : list N;
  e_aoff : N; e_poff : N; e_cache : ecache }.

Inductive eret := ER_NEXT_FILE | ER_DONE_FILE | ER_DATA | ER_PAYLOAD | ER_FINISHED.

(** ca_encoder_new and ca_encoder_set_base_fd (caencoder.c:201-300, 366-430) for a directory or a regular file. *)
Definition encoder_new (root : fnode) : res enc :=
  if negb (S_ISREG (f_mode root)) && negb (S_ISDIR (f_mode root)) then Err ENOTTY
  else Ok (mkEnc E_INIT [mkEnode root None None] None [] 0 0 ecache0).

Definition eenter (e : enc) (s : estate) : enc :=
  mkEnc s (e_nodes e) (e_child e) (e_buf e) (e_aoff e) 0 (e_cache e).
Definition eset (e : enc) (ns : list enode) (c : option fnode) : enc :=
  mkEnc (e_state e) ns c (e_buf e) (e_aoff e) (e_poff e) (e_cache e).

(** CA_ENCODER_IS_NAKED, caencoder.c: the root is a regular file. *)
Definition e_naked (e : enc) : bool :=
  match e_nodes e with [n] => S_ISREG (f_mode (en_file n)) | _ => false end.

(** The path of the directory [ns] is the current node of. *)
Definition ename (n : enode) : list N := match en_dirents n with Some ((x, _) :: _) => x | _ => [] end.
Definition epath (up : list enode) : list (list N) := rev (map ename up).

(** caencoder.c:2074-2098, state ENTERED, with ca_encoder_initialize_name_table (1934-1967). *)
Definition estep_entered (e : enc) (n : enode) (up : list enode) : res (eret * enc) :=
  let table := if negb (S_ISDIR (f_mode (en_file n))) then en_table n
               else match up with
                    | p :: _ => match en_table p with None => en_table n | Some _ => Some (e_aoff e, []) end
                    | [] => Some (e_aoff e, [])
                    end in
  Ok (ER_NEXT_FILE, eenter (eset e (mkEnode (en_file n) (en_dirents n) table :: up) (e_child e)) E_ENTRY).

(** caencoder.c:2132-2158 *)
Definition estep_payload (e : enc) (n : enode) : res (eret * enc) :=
  if negb (S_ISREG (f_mode (en_file n))) then Abort
  else if f_size (en_file n) <=? e_poff e then
    if e_naked e then Ok (ER_FINISHED, eenter (eenter e E_FINALIZE) E_EOF)
    else Ok (ER_DONE_FILE, eenter e E_FINALIZE)
  else Ok (ER_PAYLOAD, e).

(** The for(;;) of caencoder.c:2178-2198: skip entries that shall not be stored. *)
Fixpoint next_child (path : list (list N)) (dir : fnode) (l : list (list N * fnode)) : list (list N * fnode) :=
  match l with
  | [] => []
  | (name, c) :: l' => if shall_store path dir name c then l else next_child path dir l'
  end.

(** caencoder.c:2171-2209, state FIRST_DIRENT, with ca_encoder_open_child (1680-1744) and
    ca_encoder_add_name_table_item (1969-2003). *)
Definition estep_dirent (e : enc) (n : enode) (up : list enode) : res (eret * enc) :=
  if negb (S_ISDIR (f_mode (en_file n))) then Abort
  else
  let l := match en_dirents n with Some l => l | None => read_dirents (en_file n) end in
  (* opening any child, stored or not, needs a free node *)
  if nonempty l && (NODES_MAX <=? len (e_nodes e)) then Err E2BIG
  else
  match next_child (epath up) (en_file n) l with
  | [] => Ok (ER_DATA, eenter (eset e (mkEnode (en_file n) (Some []) (en_table n) :: up) None) E_GOODBYE)
  | (name, c) :: l' =>
      let! table := (match en_table n with
                     | None => Ok None
                     | Some (eo, items) =>
                         if match items with [] => false | _ => ni_end (last items (mkNameItem 0 0 0)) =? UINT64_MAX end
                         then Abort
                         else Ok (Some (eo, items ++ [mkNameItem (ev_hash ev name) (e_aoff e) UINT64_MAX]))
                     end) in
      Ok (ER_DATA, eenter (eset e (mkEnode (en_file n) (Some ((name, c) :: l')) table :: up) (Some c)) E_FILENAME)
  end.

(** caencoder.c:2005-2045 ca_encoder_update_name_table_end_offset *)
Definition update_end (items : list name_item) (off : N) : res (list name_item) :=
  match rev items with
  | [] => Ok []
  | i :: r => if (ni_start i =? UINT64_MAX) || negb (ni_end i =? UINT64_MAX) || negb (ni_start i <=? off) then Abort
              else Ok (rev r ++ [mkNameItem (ni_hash i) (ni_start i) off])
  end.

(** caencoder.c:2161-2169, state NEXT_DIRENT. *)
Definition estep_next_dirent (e : enc) (n : enode) (up : list enode) : res (eret * enc) :=
  let! table := (match en_table n with
                 | None => Ok None
                 | Some (eo, items) => let! items := update_end items (e_aoff e) in Ok (Some (eo, items))
                 end) in
  let l := match en_dirents n with Some l => Some (tl l) | None => None end in
  estep_dirent e (mkEnode (en_file n) l table) up.

(** caencoder.c:2047-2247 ca_encoder_step_node *)
Definition estep_node (e : enc) (n : enode) (up : list enode) : res (eret * enc) :=
  match e_state e with
  | E_INIT =>
      if e_naked e then estep_payload (eenter e E_IN_PAYLOAD) n
      else estep_entered (eenter e E_ENTERED) n up
  | E_ENTERED => estep_entered e n up
  | E_ENTRY =>
      if shall_enumerate (en_file n) then
        if S_ISREG (f_mode (en_file n)) then estep_payload (eenter e E_IN_PAYLOAD) n
        else if S_ISDIR (f_mode (en_file n)) then estep_dirent (eenter e E_FIRST_DIRENT) n up
        else Ok (ER_DONE_FILE, eenter e E_FINALIZE)
      else if S_ISDIR (f_mode (en_file n)) then Ok (ER_DATA, eenter e E_GOODBYE)
      else Ok (ER_DONE_FILE, eenter e E_FINALIZE)
  | E_IN_PAYLOAD => estep_payload e n
  | E_NEXT_DIRENT => estep_next_dirent e n up
  | E_FIRST_DIRENT => estep_dirent e n up
  | E_FILENAME =>
      match e_child e with
      | None => Err EINVAL
      | Some c =>
          if f_mode c =? 0 then Err EINVAL
          else estep_entered (eenter (eset e (mkEnode c None None :: n :: up) None) E_ENTERED) (mkEnode c None None) (n :: up)
      end
  | E_GOODBYE => Ok (ER_DONE_FILE, eenter e E_FINALIZE)
  | E_FINALIZE =>
      match up with
      | p :: up' => estep_next_dirent (eenter (eset e up (e_child e)) E_NEXT_DIRENT) p up'
      | [] => Ok (ER_FINISHED, eenter e E_EOF)
      end
  | E_EOF => Abort
  end.

(** caencoder.c:2249-2269 ca_encoder_advance_buffer *)
Definition eadvance (e : enc) : enc :=
  mkEnc (e_state e) (e_nodes e) (e_child e) [] (e_aoff e + len (e_buf e)) (e_poff e + len (e_buf e)) (e_cache e).

(** caencoder.c:2271-2287 ca_encoder_step *)
Definition encoder_step (e : enc) : res (eret * enc) :=
  match e_state e with
  | E_EOF => Ok (ER_FINISHED, e)
  | _ =>
      let e := eadvance e in
      match e_nodes e with
      | [] => Err EUNATCH
      | n :: up => estep_node e n up
      end
  end.

Definition ewith (e : enc) (b : list N) (c : ecache) : enc :=
  mkEnc (e_state e) (e_nodes e) (e_child e) b (e_aoff e) (e_poff e) c.

(** caencoder.c:2289-2334 ca_encoder_get_payload_data; [None] at the end of the file. *)
Definition get_payload_data (e : enc) (n : enode) (suggested : N) : res (option (list N)) :=
  let size := f_size (en_file n) in
  if size <=? e_poff e then Ok None
  else
  let k := N.min BUFFER_SIZE (size - e_poff e) in
  let k := if negb (suggested =? UINT64_MAX) && (suggested <? k) then suggested else k in
  let m := takeN k (dropN (e_poff e) (f_data (en_file n))) in       (* pread() *)
  if negb (len m =? k) then Err EIO else Ok (Some m).

(** caencoder.c:2911-3026 ca_encoder_get_data with a non-NULL ret; [None] if the C function returns 0. *)
Definition encoder_get_data (e : enc) (suggested : N) : res (option (list N) * enc) :=
  if 0 <? len (e_buf e) then Ok (Some (e_buf e), e)
  else
  match e_nodes e with
  | [] => Err EUNATCH
  | n :: _ =>
      match e_state e with
      | E_ENTRY =>
          let! (b, c) := get_entry_data (e_cache e) (en_file n) in
          let b := dropN (e_poff e) b in Ok (Some b, ewith e b c)
      | E_IN_PAYLOAD =>
          if negb (S_ISREG (f_mode (en_file n))) then Abort
          else
          let! o := get_payload_data e n suggested in
          match o with
          | None => Ok (None, e)
          | Some b => Ok (Some b, ewith e b (e_cache e))
          end
      | E_FILENAME =>
          match en_dirents n with
          | Some ((name, _) :: _) => let b := dropN (e_poff e) (get_filename_data name) in Ok (Some b, ewith e b (e_cache e))
          | _ => Err EUNATCH
          end
      | E_GOODBYE =>
          match en_table n with
          | None => Err ENOLINK
          | Some (eo, items) =>
              if e_aoff e <? e_poff e then Err EINVAL
              else
              let! b := get_goodbye_data (e_aoff e - e_poff e) eo items in
              let b := dropN (e_poff e) b in Ok (Some b, ewith e b (e_cache e))
          end
      | _ => Err ENODATA
      end
  end.
End Encoder.

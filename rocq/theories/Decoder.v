(** Model of the archive decoder, src/cadecoder.c, in streaming mode: ca_decoder_put_data, ca_decoder_put_eof,
    ca_decoder_step and the getters. Not modelled here: seeking (see Seek.v), skipping of payload nobody wants (the decoder has
    d->payload set, which is the default), digests, origins, and the calls that create and adjust the files on disk (the
    model exposes what they are called with: the path, the meta data and the payload). *)
From Verif Require Import Base FeatureFlags ArchiveBase.
Local Open Scope N_scope.

Record denv := mkDenv {
  de_expected : N;   (* d->expected_feature_flags, UINT64_MAX if there is no expectation *)
  de_mask : N        (* the user's feature flag mask *)
}.

(** cadecoder.c:715-733 validate_filename; the argument is the field with its NUL. *)
Definition validate_filename (s : list N) : bool :=
  if len s <? 2 then false
  else if negb (last s 1 =? 0) then false
  else if negb (forallb (fun b => negb ((b =? 0) || (b =? 47))) (removelast s)) then false
  else negb (dot_or_dot_dot (removelast s)).

(** cadecoder.c:735-789 validate_mode *)
Definition validate_mode (ff m flags : N) : bool :=
  if negb (N.ldiff m (N.lor S_IFMT 0xFFF) =? 0) then false
  else if negb (if S_ISREG m then true
                else if S_ISDIR m then true
                else if S_ISSOCK m then has ff WITH_SOCKETS
                else if S_ISFIFO m then has ff WITH_FIFOS
                else if S_ISBLK m then has ff WITH_DEVICE_NODES
                else if S_ISCHR m then has ff WITH_DEVICE_NODES
                else if S_ISLNK m then has ff WITH_SYMLINKS
                else false) then false
  else if negb (S_ISDIR m) && has flags WITH_SUBVOLUME then false
  else if S_ISLNK m then N.land m 0xFFF =? 0x1FF
  else if has ff (N.lor WITH_PERMISSIONS WITH_ACL) then true
  else if N.land m 0xFFF =? (if S_ISDIR m then 0x1FF else 0x1B6) then true
  else has ff WITH_READ_ONLY && (N.land m 0xFFF =? (if S_ISDIR m then 0x16D else 0x124)).

(** cadecoder.c:791-803 validate_uid_gid *)
Definition validate_uid_gid (ff u : N) : bool :=
  if has ff WITH_16BIT_UIDS then u <? UINT16_MAX
  else if has ff WITH_32BIT_UIDS then (u <? UINT32_MAX) && negb (u =? UINT16_MAX)
  else u =? 0.

(** cadecoder.c:805-809 validate_entry_flags *)
Definition validate_entry_flags (ff f : N) : bool :=
  N.ldiff f (N.land ff (bor [WITH_FAT_ATTRS; WITH_CHATTR; WITH_SUBVOLUME; WITH_SUBVOLUME_RO])) =? 0.

(** cadecoder.c:811-819 *)
Definition validate_major (m : N) : bool := m <? 4096.
Definition validate_minor (m : N) : bool := m <? 1048576.

Definition is_alpha_ (b : N) : bool :=
  ((97 <=? b) && (b <=? 122)) || ((65 <=? b) && (b <=? 90)) || (b =? 95).
Definition is_name_char (b : N) : bool :=
  is_alpha_ b || ((48 <=? b) && (b <=? 57)) || (b =? 45).

Definition root_name : list N := [114; 111; 111; 116].

(** cadecoder.c:845-878 validate_user_group_name; the argument is the field with its NUL. *)
Definition validate_user_group_name (s : list N) : bool :=
  if len s <? 2 then false
  else if negb (last s 1 =? 0) then false
  else if negb (is_alpha_ (hd 0 s)) then false
  else if negb (forallb is_name_char (tl (removelast s))) then false
  else if 256 <? len s then false
  else if beq s (root_name ++ [0]) then false
  else negb (beq s [48; 0]).

(** cadecoder.c:880-896 validate_symlink_target *)
Definition validate_symlink_target (s : list N) : bool :=
  if len s <? 2 then false
  else if negb (last s 1 =? 0) then false
  else if negb (no_nul (removelast s)) then false
  else negb (4096 <? len s).

(** cadecoder.c:898-924 validate_feature_flags: the verdict, and d->feature_flags afterwards. *)
Definition validate_feature_flags (env : denv) (ff flags : N) : bool * N :=
  if flags =? UINT64_MAX then (false, ff)
  else if negb (de_expected env =? UINT64_MAX) && negb (flags =? de_expected env) then (false, ff)
  else if match feature_flags_are_normalized flags with
          | Ok b => negb b | Err e => negb (errno_eqb e EOPNOTSUPP) | _ => true end then (false, ff)
  else if ff =? UINT64_MAX then
    (match determine_replay_feature_flags flags (de_mask env) with Ok _ => true | _ => false end, flags)
  else (ff =? flags, ff).

(** cadecoder.c:1024-1026 validate_acl_permissions *)
Definition validate_acl_permissions (p : N) : bool := N.ldiff p 7 =? 0.

(** The le64 field at byte offset [o]. *)
Definition fld (o : N) (p : list N) : N := rd64 (dropN o p).

(** CaFormatEntry without its header, caformat.h:258-266. *)
Record pentry := mkPentry { pe_ff : N; pe_mode : N; pe_flags : N; pe_uid : N; pe_gid : N; pe_mtime : N }.

(** cadecoder.c:926-951 validate_format_entry, for an object whose type and size the caller has checked. *)
Definition validate_format_entry (env : denv) (ff : N) (p : list N) : option pentry * N :=
  let e := mkPentry (fld 16 p) (fld 24 p) (fld 32 p) (fld 40 p) (fld 48 p) (fld 56 p) in
  let '(ok, ff) := validate_feature_flags env ff (pe_ff e) in
  if negb ok then (None, ff)
  else if negb (validate_mode ff (pe_mode e) (pe_flags e)) then (None, ff)
  else if negb (validate_entry_flags ff (pe_flags e)) then (None, ff)
  else if negb (validate_uid_gid ff (pe_uid e)) then (None, ff)
  else if negb (validate_uid_gid ff (pe_gid e)) then (None, ff)
  else if negb (validate_nsec ff (pe_mtime e)) then (None, ff)
  else (Some e, ff).

(** What lies behind the first [h] bytes of the object of size [l] at [p]. *)
Definition body (h l : N) (p : list N) : list N := takeN (l - h) (dropN h p).

(** cadecoder.c:953-993 validate_format_user, validate_format_group: the name. *)
Definition validate_format_ugname (ff l : N) (p : list N) : option (list N) :=
  if l <? HDR + 1 then None
  else if negb (has ff WITH_USER_NAMES) then None
  else if negb (validate_user_group_name (body HDR l p)) then None
  else Some (removelast (body HDR l p)).

(** cadecoder.c:995-1022 validate_format_xattr: name and value. *)
Definition validate_format_xattr (ff l : N) (p : list N) : option (list N * list N) :=
  if l <? HDR + 4 then None
  else if negb (has ff WITH_XATTRS) then None
  else match split_nul (takeN (N.min 256 (l - HDR)) (body HDR l p)) with
       | None => None
       | Some (name, _) =>
           if negb (xattr_name_is_valid name) then None
           else Some (name, dropN (len name + 1) (body HDR l p))
       end.

(** cadecoder.c:1028-1084 validate_format_acl_user, validate_format_acl_group. *)
Definition validate_format_acl_ug (ff l : N) (p : list N) : option acl_ent :=
  if l <? ACL_HDR then None
  else if negb (has ff WITH_ACL) then None
  else if (ACL_HDR <? l) && negb (has ff WITH_USER_NAMES) then None
  else if (ACL_HDR <? l) && negb (validate_user_group_name (body ACL_HDR l p)) then None
  else if negb (validate_uid_gid ff (fld 16 p)) then None
  else if negb (validate_acl_permissions (fld 24 p)) then None
  else Some (mkAclEnt (fld 16 p) (if ACL_HDR <? l then Some (removelast (body ACL_HDR l p)) else None) (fld 24 p)).

(** cadecoder.c:1086-1102 validate_format_acl_group_obj *)
Definition validate_format_acl_group_obj (ff l : N) (p : list N) : option N :=
  if negb (l =? ACL_GROUP_OBJ_SIZE) then None
  else if negb (has ff WITH_ACL) then None
  else if negb (validate_acl_permissions (fld 16 p)) then None
  else Some (fld 16 p).

(** cadecoder.c:1104-1130 validate_format_acl_default: user, group, other, mask. *)
Definition validate_format_acl_default (ff l : N) (p : list N) : option (N * N * N * N) :=
  if negb (l =? ACL_DEFAULT_SIZE) then None
  else if negb (has ff WITH_ACL) then None
  else if negb (validate_acl_permissions (fld 16 p)) then None
  else if negb (validate_acl_permissions (fld 24 p)) then None
  else if negb (validate_acl_permissions (fld 32 p)) then None
  else if negb (fld 40 p =? UINT64_MAX) && negb (validate_acl_permissions (fld 40 p)) then None
  else Some (fld 16 p, fld 24 p, fld 32 p, fld 40 p).

(** cadecoder.c:1132-1152 validate_format_selinux *)
Definition validate_format_selinux (ff l : N) (p : list N) : option (list N) :=
  if l <? HDR + 2 then None
  else if negb (has ff WITH_SELINUX) then None
  else if negb (last (body HDR l p) 1 =? 0) then None
  else if negb (no_nul (removelast (body HDR l p))) then None
  else Some (removelast (body HDR l p)).

(** cadecoder.c:1167-1183 validate_format_quota_projid *)
Definition validate_format_quota_projid (l : N) (p : list N) : option N :=
  if negb (l =? QUOTA_PROJID_SIZE) then None
  else if fld 16 p =? 0 then None
  else if UINT32_MAX <? fld 16 p then None
  else Some (fld 16 p).

(** cadecoder.c:1185-1203 validate_format_symlink *)
Definition validate_format_symlink (ff l : N) (p : list N) : option (list N) :=
  if l <? HDR + 1 then None
  else if negb (has ff WITH_SYMLINKS) then None
  else if negb (validate_symlink_target (body HDR l p)) then None
  else Some (removelast (body HDR l p)).

(** cadecoder.c:1205-1223 validate_format_device *)
Definition validate_format_device (ff l : N) (p : list N) : option (N * N) :=
  if negb (l =? DEVICE_SIZE) then None
  else if negb (has ff WITH_DEVICE_NODES) then None
  else if negb (validate_major (fld 16 p)) then None
  else if negb (validate_minor (fld 24 p)) then None
  else Some (fld 16 p, fld 24 p).

(** cadecoder.c:1236-1248 validate_format_filename *)
Definition validate_format_filename (l : N) (p : list N) : option (list N) :=
  if l <? HDR + 1 then None
  else if negb (validate_filename (body HDR l p)) then None
  else Some (removelast (body HDR l p)).

(** cadecoder.c:1254-1283 validate_format_goodbye: the tail's entry offset. *)
Definition validate_format_goodbye (l : N) (p : list N) : option N :=
  if l <? HDR + GOODBYE_TAIL then None
  else if negb ((l - HDR - GOODBYE_TAIL) mod GOODBYE_ITEM =? 0) then None
  else if negb (fld (l - GOODBYE_TAIL + 16) p =? F_GOODBYE_TAIL_MARKER) then None
  else if negb (fld (l - GOODBYE_TAIL + 8) p =? l) then None
  else if fld (l - GOODBYE_TAIL) p <? l then None
  else if fld (l - GOODBYE_TAIL) p =? UINT64_MAX then None
  else Some (fld (l - GOODBYE_TAIL) p).

(** CaFormatGoodbyeItem, caformat.h:394-398. *)
Record gitem := mkGitem { gi_off : N; gi_size : N; gi_hash : N }.
(** The items of the GOODBYE object at [p], as cadecoder.c:1395-1408 format_goodbye_items counts them. *)
Definition goodbye_item_at (p : list N) (i : nat) : gitem :=
  let o := HDR + GOODBYE_ITEM * N.of_nat i in mkGitem (fld o p) (fld (o + 8) p) (fld (o + 16) p).
Definition goodbye_items (l : N) (p : list N) : list gitem :=
  map (goodbye_item_at p) (seq 0 (N.to_nat ((l - HDR - GOODBYE_TAIL) / GOODBYE_ITEM))).

(** The local variables of ca_decoder_parse_entry and the lists it collects in the node (cadecoder.c:1693-1712).
    Lists are in reverse order. *)
Record pacc := mkPacc {
  pa_entry : option pentry; pa_user : option (list N); pa_group : option (list N);
  pa_xattrs : list (list N * list N);
  pa_acl_user : list acl_ent; pa_acl_group : list acl_ent;
  pa_acl_group_obj : option N; pa_acl_default : option (N * N * N * N);
  pa_acl_default_user : list acl_ent; pa_acl_default_group : list acl_ent;
  pa_have_acl : bool;
  pa_selinux : option (list N); pa_fcaps : option (list N); pa_projid : option N
}.
Definition pacc0 := mkPacc None None None [] [] [] None None [] [] false None None None.

(** The object that ends the list. *)
Inductive pend :=
| PSymlink (target : list N) | PDevice (major minor : N) | PPayload (size : N) | PFilename | PGoodbye.

Inductive pstep :=
| PReq                          (* CA_DECODER_REQUEST *)
| PErr (e : errno)
| PCont (acc : pacc) (l : N)    (* object of size l taken *)
| PDone (acc : pacc) (consumed : N) (w : pend).


Definition xattr_ordered (name : list N) (prev : list (list N * list N)) : bool :=
  match prev with [] => true | (n, _) :: _ => match strcmp name n with Gt => true | _ => false end end.
Definition acl_ordered (a : acl_ent) (prev : list acl_ent) : bool :=
  match prev with [] => true | b :: _ => match acl_cmp a b with Gt => true | _ => false end end.

(** The records that may not precede most others: cadecoder.c, e.g. 1784-1789. *)
Definition tail_seen (a : pacc) : bool := some (pa_selinux a) || some (pa_fcaps a) || some (pa_projid a).

(** cadecoder.c:1726-2271, the loop body of ca_decoder_parse_entry, for the object at [p]. *)
Definition parse_obj (env : denv) (ff : N) (a : pacc) (p : list N) : pstep * N :=
  if len p <? HDR then (PReq, ff)
  else
  let l := fld 0 p in
  let t := fld 8 p in
  let complete := l <=? len p in
  let bad := (PErr EBADMSG, ff) in
  let req := (PReq, ff) in
  if l <? HDR then bad
  else if l =? UINT64_MAX then bad
  else if t =? F_ENTRY then
    if some (pa_entry a) then bad
    else if negb (l =? ENTRY_SIZE) then bad
    else if negb complete then req
    else match validate_format_entry env ff p with
         | (None, ff) => (PErr EBADMSG, ff)
         | (Some e, ff) =>
             if negb (N.ldiff (pe_ff e) FEATURE_FLAGS_MAX =? 0) then (PErr EPROTONOSUPPORT, ff)
             else (PCont (mkPacc (Some e) (pa_user a) (pa_group a) (pa_xattrs a) (pa_acl_user a) (pa_acl_group a)
                            (pa_acl_group_obj a) (pa_acl_default a) (pa_acl_default_user a) (pa_acl_default_group a)
                            (pa_have_acl a) (pa_selinux a) (pa_fcaps a) (pa_projid a)) l, ff)
         end
  else match pa_entry a with None => bad | Some e =>
  (* from here on the C code has "if (!entry) return -EBADMSG" first; where other checks precede it
     (ACL_USER, ACL_GROUP) they return the same error *)
  if t =? F_USER then
    if some (pa_user a) || some (pa_group a) || nonempty (pa_xattrs a) || pa_have_acl a || tail_seen a then bad
    else if USER_SIZE_MAX <? l then bad
    else if negb complete then req
    else match validate_format_ugname ff l p with
         | None => bad
         | Some n =>
             if has ff (N.lor WITH_16BIT_UIDS WITH_32BIT_UIDS) && (pe_uid e =? 0) && beq n root_name then bad
             else (PCont (mkPacc (Some e) (Some n) (pa_group a) (pa_xattrs a) (pa_acl_user a) (pa_acl_group a)
                            (pa_acl_group_obj a) (pa_acl_default a) (pa_acl_default_user a) (pa_acl_default_group a)
                            (pa_have_acl a) (pa_selinux a) (pa_fcaps a) (pa_projid a)) l, ff)
         end
  else if t =? F_GROUP then
    if some (pa_group a) || nonempty (pa_xattrs a) || pa_have_acl a || tail_seen a then bad
    else if GROUP_SIZE_MAX <? l then bad
    else if negb complete then req
    else match validate_format_ugname ff l p with
         | None => bad
         | Some n =>
             if has ff (N.lor WITH_16BIT_UIDS WITH_32BIT_UIDS) && (pe_gid e =? 0) && beq n root_name then bad
             else (PCont (mkPacc (Some e) (pa_user a) (Some n) (pa_xattrs a) (pa_acl_user a) (pa_acl_group a)
                            (pa_acl_group_obj a) (pa_acl_default a) (pa_acl_default_user a) (pa_acl_default_group a)
                            (pa_have_acl a) (pa_selinux a) (pa_fcaps a) (pa_projid a)) l, ff)
         end
  else if t =? F_XATTR then
    if tail_seen a || pa_have_acl a then bad
    else if XATTR_SIZE_MAX <? l then bad
    else if negb complete then req
    else match validate_format_xattr ff l p with
         | None => bad
         | Some (n, v) =>
             if negb (xattr_ordered n (pa_xattrs a)) then bad
             else (PCont (mkPacc (Some e) (pa_user a) (pa_group a) ((n, v) :: pa_xattrs a) (pa_acl_user a) (pa_acl_group a)
                            (pa_acl_group_obj a) (pa_acl_default a) (pa_acl_default_user a) (pa_acl_default_group a)
                            (pa_have_acl a) (pa_selinux a) (pa_fcaps a) (pa_projid a)) l, ff)
         end
  else if (t =? F_ACL_USER) || (t =? F_ACL_DEFAULT_USER) then
    if (t =? F_ACL_USER) && (nonempty (pa_acl_group a) || some (pa_acl_group_obj a) || some (pa_acl_default a)
                             || nonempty (pa_acl_default_user a)) then bad
    else if nonempty (pa_acl_default_group a) || tail_seen a then bad
    else if ACL_SIZE_MAX <? l then bad
    else if negb complete then req
    else match validate_format_acl_ug ff l p with
         | None => bad
         | Some u =>
             if t =? F_ACL_USER then
               if negb (acl_ordered u (pa_acl_user a)) then bad
               else (PCont (mkPacc (Some e) (pa_user a) (pa_group a) (pa_xattrs a) (u :: pa_acl_user a) (pa_acl_group a)
                              (pa_acl_group_obj a) (pa_acl_default a) (pa_acl_default_user a) (pa_acl_default_group a)
                              true (pa_selinux a) (pa_fcaps a) (pa_projid a)) l, ff)
             else
               if negb (acl_ordered u (pa_acl_default_user a)) then bad
               else (PCont (mkPacc (Some e) (pa_user a) (pa_group a) (pa_xattrs a) (pa_acl_user a) (pa_acl_group a)
                              (pa_acl_group_obj a) (pa_acl_default a) (u :: pa_acl_default_user a) (pa_acl_default_group a)
                              true (pa_selinux a) (pa_fcaps a) (pa_projid a)) l, ff)
         end
  else if (t =? F_ACL_GROUP) || (t =? F_ACL_DEFAULT_GROUP) then
    if (t =? F_ACL_GROUP) && (some (pa_acl_group_obj a) || some (pa_acl_default a)
                              || nonempty (pa_acl_default_user a) || nonempty (pa_acl_default_group a)) then bad
    else if tail_seen a then bad
    else if ACL_SIZE_MAX <? l then bad
    else if negb complete then req
    else match validate_format_acl_ug ff l p with
         | None => bad
         | Some u =>
             if t =? F_ACL_GROUP then
               if negb (acl_ordered u (pa_acl_group a)) then bad
               else (PCont (mkPacc (Some e) (pa_user a) (pa_group a) (pa_xattrs a) (pa_acl_user a) (u :: pa_acl_group a)
                              (pa_acl_group_obj a) (pa_acl_default a) (pa_acl_default_user a) (pa_acl_default_group a)
                              true (pa_selinux a) (pa_fcaps a) (pa_projid a)) l, ff)
             else
               if negb (acl_ordered u (pa_acl_default_group a)) then bad
               else (PCont (mkPacc (Some e) (pa_user a) (pa_group a) (pa_xattrs a) (pa_acl_user a) (pa_acl_group a)
                              (pa_acl_group_obj a) (pa_acl_default a) (pa_acl_default_user a) (u :: pa_acl_default_group a)
                              true (pa_selinux a) (pa_fcaps a) (pa_projid a)) l, ff)
         end
  else if t =? F_ACL_GROUP_OBJ then
    if some (pa_acl_group_obj a) || some (pa_acl_default a) || nonempty (pa_acl_default_user a)
       || nonempty (pa_acl_default_group a) || tail_seen a then bad
    else if negb (l =? ACL_GROUP_OBJ_SIZE) then bad
    else if negb complete then req
    else match validate_format_acl_group_obj ff l p with
         | None => bad
         | Some g =>
             (PCont (mkPacc (Some e) (pa_user a) (pa_group a) (pa_xattrs a) (pa_acl_user a) (pa_acl_group a)
                       (Some g) (pa_acl_default a) (pa_acl_default_user a) (pa_acl_default_group a)
                       true (pa_selinux a) (pa_fcaps a) (pa_projid a)) l, ff)
         end
  else if t =? F_ACL_DEFAULT then
    if some (pa_acl_default a) || nonempty (pa_acl_default_user a)
       || nonempty (pa_acl_default_group a) || tail_seen a then bad
    else if negb (l =? ACL_DEFAULT_SIZE) then bad
    else if negb complete then req
    else match validate_format_acl_default ff l p with
         | None => bad
         | Some g =>
             (PCont (mkPacc (Some e) (pa_user a) (pa_group a) (pa_xattrs a) (pa_acl_user a) (pa_acl_group a)
                       (pa_acl_group_obj a) (Some g) (pa_acl_default_user a) (pa_acl_default_group a)
                       true (pa_selinux a) (pa_fcaps a) (pa_projid a)) l, ff)
         end
  else if t =? F_SELINUX then
    if tail_seen a then bad
    else if SELINUX_SIZE_MAX <? l then bad
    else if negb complete then req
    else match validate_format_selinux ff l p with
         | None => bad
         | Some s =>
             (PCont (mkPacc (Some e) (pa_user a) (pa_group a) (pa_xattrs a) (pa_acl_user a) (pa_acl_group a)
                       (pa_acl_group_obj a) (pa_acl_default a) (pa_acl_default_user a) (pa_acl_default_group a)
                       (pa_have_acl a) (Some s) (pa_fcaps a) (pa_projid a)) l, ff)
         end
  else if t =? F_FCAPS then
    if some (pa_fcaps a) || some (pa_projid a) then bad
    else if FCAPS_SIZE_MAX <? l then bad
    else if negb complete then req
    else (* cadecoder.c:1154-1165 validate_format_fcaps only checks size and type *)
         (PCont (mkPacc (Some e) (pa_user a) (pa_group a) (pa_xattrs a) (pa_acl_user a) (pa_acl_group a)
                   (pa_acl_group_obj a) (pa_acl_default a) (pa_acl_default_user a) (pa_acl_default_group a)
                   (pa_have_acl a) (pa_selinux a) (Some (body HDR l p)) (pa_projid a)) l, ff)
  else if t =? F_QUOTA_PROJID then
    if some (pa_projid a) then bad
    else if negb (l =? QUOTA_PROJID_SIZE) then bad
    else if negb complete then req
    else match validate_format_quota_projid l p with
         | None => bad
         | Some q =>
             (PCont (mkPacc (Some e) (pa_user a) (pa_group a) (pa_xattrs a) (pa_acl_user a) (pa_acl_group a)
                       (pa_acl_group_obj a) (pa_acl_default a) (pa_acl_default_user a) (pa_acl_default_group a)
                       (pa_have_acl a) (pa_selinux a) (pa_fcaps a) (Some q)) l, ff)
         end
  else if t =? F_SYMLINK then
    if negb (S_ISLNK (pe_mode e)) then bad
    else if SYMLINK_SIZE_MAX <? l then bad
    else if negb complete then req
    else match validate_format_symlink ff l p with
         | None => bad
         | Some s => (PDone a l (PSymlink s), ff)
         end
  else if t =? F_DEVICE then
    if negb (S_ISCHR (pe_mode e)) && negb (S_ISBLK (pe_mode e)) then bad
    else if negb (l =? DEVICE_SIZE) then bad
    else if negb complete then req
    else match validate_format_device ff l p with
         | None => bad
         | Some (x, y) => (PDone a l (PDevice x y), ff)
         end
  else if t =? F_PAYLOAD then
    if negb (S_ISREG (pe_mode e)) then bad
    else (PDone a HDR (PPayload (l - HDR)), ff)   (* cadecoder.c:1225-1234: nothing else to validate *)
  else if t =? F_FILENAME then
    if l <? HDR + 1 then bad
    else if negb complete then req
    else match validate_format_filename l p with
         | None => bad
         | Some _ => (PDone a 0 PFilename, ff)
         end
  else if t =? F_GOODBYE then
    if l <? HDR + GOODBYE_TAIL then bad
    else if negb complete then req
    else match validate_format_goodbye l p with
         | None => bad
         | Some _ => (PDone a 0 PGoodbye, ff)
         end
  else bad
  end.

(** What a node knows about its file after ca_decoder_parse_entry (cadecoder.c:2342-2410). The device number is kept as
    the pair that makedev() packs. *)
Record dentry := mkDentry {
  dt_meta : meta; dt_symlink : option (list N); dt_dev : option (N * N); dt_size : option N
}.

(** cadecoder.c:2279-2340, the consistency checks behind the loop. *)
Definition parse_checks (at_root : bool) (ff : N) (a : pacc) (e : pentry) (w : pend) : bool :=
  let mode := pe_mode e in
  let payload := match w with PPayload _ => true | _ => false end in
  let dirish := match w with PFilename | PGoodbye => true | _ => false end in
  let symlink := match w with PSymlink _ => true | _ => false end in
  let device := match w with PDevice _ _ => true | _ => false end in
  if some (pa_user a) && negb (has ff WITH_USER_NAMES) then false
  else if some (pa_group a) && negb (has ff WITH_USER_NAMES) then false
  else if has ff WITH_USER_NAMES && negb (has ff (N.lor WITH_16BIT_UIDS WITH_32BIT_UIDS)) &&
          (negb (some (pa_user a)) || negb (some (pa_group a))) then false
  else if S_ISREG mode && negb payload then false
  else if S_ISDIR mode && negb dirish then false
  else if S_ISLNK mode && negb symlink then false
  else if (S_ISBLK mode || S_ISCHR mode) && negb device then false
  else if negb (S_ISREG mode) && some (pa_fcaps a) then false
  else if negb (S_ISREG mode || S_ISDIR mode) && some (pa_projid a) then false
  else if negb (pe_flags e =? 0) && negb (S_ISREG mode) && negb (S_ISDIR mode) then false
  else if at_root && negb (S_ISDIR mode) then false
  else if S_ISLNK mode && (nonempty (pa_xattrs a) || pa_have_acl a) then false
  else if (nonempty (pa_acl_user a) || nonempty (pa_acl_group a)) && negb (some (pa_acl_group_obj a)) then false
  else if (nonempty (pa_acl_default_user a) || nonempty (pa_acl_default_group a)) &&
          match pa_acl_default a with None => true | Some (_, _, _, m) => m =? UINT64_MAX end then false
  else negb ((nonempty (pa_acl_default_user a) || nonempty (pa_acl_default_group a) || some (pa_acl_default a))
             && negb (S_ISDIR mode)).

Definition opt_or {A} (o : option A) (d : A) : A := match o with Some x => x | None => d end.

(** cadecoder.c:2350-2405, the node afterwards. *)
Definition parse_dentry (a : pacc) (e : pentry) (w : pend) : dentry :=
  let '(du, dg, d_o, dm) := opt_or (pa_acl_default a) (UINT64_MAX, UINT64_MAX, UINT64_MAX, UINT64_MAX) in
  mkDentry
    (mkMeta (pe_mode e) (pe_flags e) (pe_uid e) (pe_gid e) (pe_mtime e) (pa_user a) (pa_group a)
       (rev (pa_xattrs a)) (rev (pa_acl_user a)) (rev (pa_acl_group a))
       (opt_or (pa_acl_group_obj a) UINT64_MAX) du dg d_o dm
       (rev (pa_acl_default_user a)) (rev (pa_acl_default_group a))
       (pa_selinux a) (pa_fcaps a) (pa_projid a))
    (match w with PSymlink s => Some s | _ => None end)
    (match w with PDevice x y => Some (x, y) | _ => None end)
    (match w with PPayload s => Some s | _ => None end).

Inductive presult :=
| RReq | RErr (e : errno)
| ROk (d : dentry) (offset : N).     (* offset: what the next step skips *)

(** The loop of cadecoder.c:1726-2277. Each round takes at least 16 bytes, so that [S (length p)] rounds are enough;
    running out is an [EUNATCH] that the C code doesn't return here (proved unreachable). *)
Fixpoint parse_loop (fuel : nat) (env : denv) (at_root : bool) (ff : N) (a : pacc) (p : list N) (offset : N)
  : presult * N :=
  match fuel with
  | O => (RErr EUNATCH, ff)
  | S fuel =>
      match parse_obj env ff a p with
      | (PReq, ff) => (RReq, ff)
      | (PErr e, ff) => (RErr e, ff)
      | (PCont a l, ff) => parse_loop fuel env at_root ff a (dropN l p) (offset + l)
      | (PDone a c w, ff) =>
          match pa_entry a with
          | None => (RErr EBADMSG, ff)
          | Some e =>
              if parse_checks at_root ff a e w then (ROk (parse_dentry a e w) (offset + c), ff)
              else (RErr EBADMSG, ff)
          end
      end
  end.

(** cadecoder.c:1692-2441 ca_decoder_parse_entry: the result, and d->feature_flags afterwards. *)
Definition parse_entry (env : denv) (at_root : bool) (ff : N) (p : list N) : presult * N :=
  parse_loop (S (length p)) env at_root ff pacc0 p 0.

(** cadecoder.c:2455-2670 ca_decoder_parse_filename in state IN_DIRECTORY. *)
Inductive fresult :=
| FReq | FErr (e : errno)
| FName (name : list N) (l : N)
| FGoodbye (entry_offset : N) (l : N).
Definition parse_filename (p : list N) : fresult :=
  if len p <? HDR then FReq
  else
  let l := fld 0 p in
  let t := fld 8 p in
  if l <? HDR then FErr EBADMSG
  else if l =? UINT64_MAX then FErr EBADMSG
  else if t =? F_FILENAME then
    if l <? HDR + 1 then FErr EBADMSG
    else if negb (l <=? len p) then FReq
    else match validate_format_filename l p with
         | None => FErr EBADMSG
         | Some n => FName n l
         end
  else if t =? F_GOODBYE then
    if l <? HDR + GOODBYE_TAIL then FErr EBADMSG
    else if negb (l <=? len p) then FReq
    else match validate_format_goodbye l p with
         | None => FErr EBADMSG
         | Some o => FGoodbye o l
         end
  else FErr EBADMSG.

(** cadecoder.c:115-124, the states outside of seeking. *)
Inductive dstate :=
  D_INIT | D_ENTERED | D_ENTRY | D_IN_PAYLOAD | D_IN_DIRECTORY | D_GOODBYE | D_FINALIZE | D_EOF.

(** cadecoder.c:70-110 CaDecoderNode, as far as it matters here. *)
Record dnode := mkDnode {
  dn_name : list N;            (* unused in the root node *)
  dn_entry_offset : N;
  dn_entry : option dentry;
  dn_mode : N                  (* only relevant if there is no entry; (mode_t) -1 if not known *)
}.
Definition MODE_NONE := UINT32_MAX.

(** cadecoder.c:148-228 CaDecoder; nodes from the current one upwards to the root. *)
Record dec := mkDec {
  d_state : dstate; d_ff : N; d_nodes : list dnode; d_buf : list N; d_eof : bool;
  d_aoff : N;      (* archive_offset *)
  d_poff : N;      (* payload_offset *)
  d_step : N;      (* step_size *)
  d_bound : N      (* boundary_node_idx *)
}.

(** Return values of ca_decoder_step (cadecoder.h). *)
Inductive dret := R_REQUEST | R_STEP | R_NEXT_FILE | R_DONE_FILE | R_PAYLOAD | R_FINISHED.

(** cadecoder.c:554-585 ca_decoder_set_base_mode after ca_decoder_new; also what ca_decoder_set_base_fd (465-505) and
    ca_decoder_set_boundary_fd (507-552) do with the root node. *)
Definition decoder_new (mode : N) : res dec :=
  if negb (S_ISREG mode) && negb (S_ISDIR mode) && negb (S_ISBLK mode) then Err ENOTTY
  else Ok (mkDec D_INIT UINT64_MAX [mkDnode [] (if S_ISDIR mode then 0 else UINT64_MAX) None mode]
             [] false 0 0 0 0).

(** cadecoder.c:4473-4509 ca_decoder_put_data *)
Definition decoder_put_data (d : dec) (p : list N) : res dec :=
  if len p =? 0 then Ok d
  else if d_eof d then Err EBUSY
  else Ok (mkDec (d_state d) (d_ff d) (d_nodes d) (d_buf d ++ p) (d_eof d) (d_aoff d) (d_poff d) (d_step d)
             (d_bound d)).

(** cadecoder.c:4511-4517 ca_decoder_put_eof *)
Definition decoder_put_eof (d : dec) : dec :=
  mkDec (d_state d) (d_ff d) (d_nodes d) (d_buf d) true (d_aoff d) (d_poff d) (d_step d) (d_bound d).

Definition add64 (a b : N) : N := (a + b) mod two64.
Definition sub64 (a b : N) : N := (a + (two64 - b)) mod two64.

(** cadecoder.c:4385-4443 ca_decoder_advance_buffer *)
Definition advance_buffer (d : dec) : res dec :=
  if d_step d =? 0 then Ok d
  else if len (d_buf d) <? d_step d then Abort
  else Ok (mkDec (d_state d) (d_ff d) (d_nodes d) (dropN (d_step d) (d_buf d)) (d_eof d)
             (add64 (d_aoff d) (d_step d))
             (match d_state d with D_IN_PAYLOAD => d_poff d + d_step d | _ => d_poff d end) 0 (d_bound d)).

(** cadecoder.c:657-663 ca_decoder_enter_state, followed by an assignment of step_size. *)
Definition enter (d : dec) (s : dstate) (step : N) : dec :=
  mkDec s (d_ff d) (d_nodes d) (d_buf d) (d_eof d) (d_aoff d) 0 step (d_bound d).
Definition set_nodes (d : dec) (ns : list dnode) : dec :=
  mkDec (d_state d) (d_ff d) ns (d_buf d) (d_eof d) (d_aoff d) (d_poff d) (d_step d) (d_bound d).
Definition set_ff (d : dec) (ff : N) : dec :=
  mkDec (d_state d) ff (d_nodes d) (d_buf d) (d_eof d) (d_aoff d) (d_poff d) (d_step d) (d_bound d).

Definition at_root (d : dec) : bool := len (d_nodes d) =? 1.

(** cadecoder.c:253-261 CA_DECODER_IS_NAKED. In state IN_PAYLOAD and INIT the children are gone whenever the root is the
    current node and has no entry, so that n_nodes is the number of nodes on the stack. *)
Definition is_naked (d : dec) : bool :=
  match d_nodes d with
  | [n] => negb (some (dn_entry n)) && (S_ISREG (dn_mode n) || S_ISBLK (dn_mode n))
  | _ => false
  end.

(** cadecoder.c:263-270 ca_decoder_node_mode *)
Definition node_mode (n : dnode) : N :=
  match dn_entry n with Some e => m_mode (dt_meta e) | None => dn_mode n end.

(** cadecoder.c:2443-2670 within IN_DIRECTORY: ca_decoder_parse_filename on the decoder. *)
Definition step_filename (d : dec) (n : dnode) : res (dret * dec) :=
  match parse_filename (d_buf d) with
  | FReq => Ok (R_REQUEST, d)
  | FErr e => Err e
  | FName name l =>
      if NODES_MAX <=? len (d_nodes d) then Err EFBIG
      else Ok (R_STEP, enter (set_nodes d (mkDnode name (add64 (d_aoff d) l) None MODE_NONE :: d_nodes d)) D_ENTERED l)
  | FGoodbye o l =>
      if negb (dn_entry_offset n =? UINT64_MAX) && negb (d_aoff d =? UINT64_MAX) &&
         negb (o =? sub64 (d_aoff d) (dn_entry_offset n)) then Err EBADMSG
      else Ok (R_STEP, enter d D_GOODBYE l)
  end.

(** cadecoder.c:4128-4181, state IN_PAYLOAD. FINALIZE of a naked root (the recursive call at 4171) ends the
    decoding. *)
Definition step_payload (d : dec) (n : dnode) : res (dret * dec) :=
  if node_mode n =? MODE_NONE then Err EUNATCH
  else if negb (S_ISREG (node_mode n) || S_ISBLK (node_mode n)) then Abort
  else
  let size := match dn_entry n with Some e => dt_size e | None => None end in
  if match size with Some s => s <? d_poff d | None => false end then Abort
  else if match size with Some s => d_poff d =? s | None => false end then
    Ok (R_DONE_FILE, enter d D_FINALIZE 0)
  else if 0 <? len (d_buf d) then
    Ok (R_PAYLOAD, mkDec (d_state d) (d_ff d) (d_nodes d) (d_buf d) (d_eof d) (d_aoff d) (d_poff d)
                     (match size with None => len (d_buf d) | Some s => N.min (len (d_buf d)) (s - d_poff d) end)
                     (d_bound d))
  else if d_eof d then
    match size with
    | Some _ => Err EPIPE
    | None => if negb (at_root d) then Err EPIPE
              else if is_naked d then Ok (R_FINISHED, enter d D_EOF 0)
              else Ok (R_DONE_FILE, enter d D_FINALIZE 0)
    end
  else Ok (R_REQUEST, d).

(** ca_decoder_parse_entry on the decoder, with ca_decoder_node_flush_entry (cadecoder.c:337-368) first. *)
Definition step_entry (env : denv) (d : dec) (n : dnode) (up : list dnode) : res (dret * dec) :=
  match parse_entry env (at_root d) (d_ff d) (d_buf d) with
  | (RReq, ff) =>
      Ok (R_REQUEST, set_nodes (set_ff d ff) (mkDnode (dn_name n) (dn_entry_offset n) None MODE_NONE :: up))
  | (RErr e, _) => Err e
  | (ROk e off, ff) =>
      Ok (R_NEXT_FILE,
          enter (set_nodes (set_ff d ff) (mkDnode (dn_name n) (dn_entry_offset n) (Some e) MODE_NONE :: up)) D_ENTRY off)
  end.

(** cadecoder.c:4056-4383 ca_decoder_step_node *)
Definition step_node (env : denv) (d : dec) (n : dnode) (up : list dnode) : res (dret * dec) :=
  match d_state d with
  | D_INIT =>
      if is_naked d then step_payload (enter d D_IN_PAYLOAD 0) n
      else step_entry env d n up
  | D_ENTERED => step_entry env d n up
  | D_ENTRY =>
      let mode := node_mode n in
      if mode =? MODE_NONE then Err EUNATCH
      else if S_ISREG mode then step_payload (enter d D_IN_PAYLOAD 0) n
      else if S_ISDIR mode then step_filename (enter d D_IN_DIRECTORY 0) n
      else Ok (R_DONE_FILE, enter d D_FINALIZE 0)
  | D_IN_PAYLOAD => step_payload d n
  | D_IN_DIRECTORY =>
      if node_mode n =? MODE_NONE then Err EUNATCH
      else if negb (S_ISDIR (node_mode n)) then Abort
      else step_filename d n
  | D_GOODBYE =>
      if node_mode n =? MODE_NONE then Err EUNATCH
      else if negb (S_ISDIR (node_mode n)) then Abort
      else Ok (R_DONE_FILE, enter d D_FINALIZE 0)
  | D_FINALIZE =>
      (* cadecoder.c:666-675 ca_decoder_leave_child *)
      if len up <=? d_bound d then Ok (R_FINISHED, enter d D_EOF 0)
      else Ok (R_STEP, enter (set_nodes d up) D_IN_DIRECTORY 0)
  | D_EOF => Abort
  end.

(** cadecoder.c:4445-4463 ca_decoder_step *)
Definition decoder_step (env : denv) (d : dec) : res (dret * dec) :=
  match d_state d with
  | D_EOF => Ok (R_FINISHED, d)
  | _ =>
      match d_nodes d with
      | [] => Err EUNATCH
      | _ :: _ =>
          let! d := advance_buffer d in
          match d_nodes d with
          | [] => Err EUNATCH
          | n :: up => step_node env d n up
          end
      end
  end.

(** cadecoder.c:4558- ca_decoder_current_path, as the list of its components. *)
Definition current_path (d : dec) : list (list N) := rev (map dn_name (removelast (d_nodes d))).

(** cadecoder.c:4519-4556 ca_decoder_get_payload *)
Definition get_payload (d : dec) : res (list N) :=
  match d_nodes d with
  | [] => Err EUNATCH
  | n :: _ =>
      if node_mode n =? MODE_NONE then Err EUNATCH
      else if negb (S_ISREG (node_mode n)) && negb (S_ISBLK (node_mode n)) then Err ENOTTY
      else match d_state d with
           | D_IN_PAYLOAD =>
               if (len (d_buf d) =? 0) || (d_step d =? 0) then Err ENODATA
               else if len (d_buf d) <? d_step d then Abort
               else Ok (takeN (d_step d) (d_buf d))
           | _ => Err ENODATA
           end
  end.

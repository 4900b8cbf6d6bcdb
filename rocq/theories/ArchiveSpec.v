(** What of a file tree an archive is to contain, and which file trees can be stored. *)
From Coq Require Import Sorted.
From Verif Require Import Base FeatureFlags FeatureFlagsSpec ArchiveBase DecoderSpec Encoder.
Local Open Scope N_scope.

Section Spec.
Variable ev : eenv.
Let ff := ev_ff ev.

(** ** Which entries of a directory are kept *)
Definition type_kept (mode : N) : Prop :=
  (S_ISLNK mode = true -> has ff WITH_SYMLINKS = true) /\
  (S_ISBLK mode = true \/ S_ISCHR mode = true -> has ff WITH_DEVICE_NODES = true) /\
  (S_ISFIFO mode = true -> has ff WITH_FIFOS = true) /\
  (S_ISSOCK mode = true -> has ff WITH_SOCKETS = true).
(** chattr +d *)
Definition nodump (f : fnode) : Prop :=
  (S_ISDIR (f_mode f) = true \/ S_ISREG (f_mode f) = true) /\ N.testbit (fs_chattr (f_stat f)) 6 = true.
Definition other_mount (a b : fnode) : Prop :=
  exists x y, fs_mount_id (f_stat a) = Some x /\ fs_mount_id (f_stat b) = Some y /\ x <> y.
Definition is_kept (path : list (list N)) (dir : fnode) (e : list N * fnode) : Prop :=
  fst e <> [46] /\ fst e <> [46; 46] /\ type_kept (f_mode (snd e)) /\
  ~ (has ff EXCLUDE_NODUMP = true /\ nodump (snd e)) /\
  ~ (has ff EXCLUDE_SUBMOUNTS = true /\ other_mount (snd e) dir) /\
  ev_excl ev path (fst e) (S_ISDIR (f_mode (snd e))) = false.

(** ** Meta data *)
(** Ids are shifted into the range of the archive. *)
Definition shifted (id : N) : N := if ev_range ev =? 0 then id - ev_shift ev else (id - ev_shift ev) mod ev_range ev.
Definition stored_id (id : N) : N := if has ff UIDS then shifted id else 0.
(** The superuser has no name in archives. *)
Definition stored_name (lookup : N -> option (list N)) (id : N) : option (list N) :=
  if has ff WITH_USER_NAMES && negb (id =? 0) then lookup id else None.

Definition stored_perms (mode : N) : N :=
  if S_ISLNK mode then 0x1FF
  else if has ff WITH_PERMISSIONS || has ff WITH_ACL then N.land mode 0xFFF
  else if has ff WITH_READ_ONLY && (N.land mode 0x92 =? 0) (* nobody may write *) then (if S_ISDIR mode then 0x16D else 0x124)
  else (if S_ISDIR mode then 0x1FF else 0x1B6).

(** Nanoseconds since 1970. *)
Definition nanoseconds (s : fstat) : Z := (st_sec s * 1000000000 + st_nsec s)%Z.
(** The latest multiple of the granule that isn't later. *)
Definition stored_time (s : fstat) (t : N) : Prop :=
  match m_granule (meaning_of ff) with
  | None => t = 0
  | Some g => t mod g = 0 /\ (Z.of_N t <= nanoseconds s < Z.of_N t + Z.of_N g)%Z
  end.

(** Bit of the archive format, and bit of the attribute that ioctl() returns. *)
Definition chattr_bits : list (N * N) :=
  [(16, 5); (17, 7); (18, 2); (19, 23); (20, 6); (21, 16); (22, 4); (23, 3); (24, 10); (25, 29)].
Definition fat_bits : list (N * N) := [(13, 1); (14, 2); (15, 5)].
Definition has_attribute (s : fstat) (k : N) : Prop :=
  (S_ISDIR (st_mode s) = true \/ S_ISREG (st_mode s) = true) /\
    (exists j, (In (k, j) chattr_bits /\ N.testbit (fs_chattr s) j = true) \/ (In (k, j) fat_bits /\ N.testbit (fs_fat s) j = true)) \/
  S_ISDIR (st_mode s) = true /\ (k = 26 /\ fs_subvol s = true \/ k = 27 /\ fs_subvol_ro s = true).

(** user.* and trusted.*, at most 255 bytes *)
Definition xattr_kept (n : list N) : Prop :=
  (exists x, x <> [] /\ (n = str_user_ ++ x \/ n = str_trusted_ ++ x)) /\ len n <= 255.

(** One entry of an ACL that names a user or a group. *)
Definition perm_bits (r : raw_acl) : N := (if ra_r r then 4 else 0) + (if ra_w r then 2 else 0) + (if ra_x r then 1 else 0).
Definition acl_stored (lookup : N -> option (list N)) (r : raw_acl) : acl_ent :=
  mkAclEnt (stored_id (ra_qual r)) (stored_name lookup (ra_qual r)) (perm_bits r).
Definition named (tag : acl_tag) (lookup : N -> option (list N)) (acl : list raw_acl) (l : list acl_ent) : Prop :=
  ascending (fun a b => acl_cmp a b = Lt) l /\
  forall e, In e l <-> exists r, In r acl /\ ra_tag r = tag /\ e = acl_stored lookup r.
(** The permissions of the entry with this tag. *)
Definition unnamed (tag : acl_tag) (acl : list raw_acl) (p : N) : Prop :=
  (exists r, In r acl /\ ra_tag r = tag /\ p = perm_bits r) \/ (~ (exists r, In r acl /\ ra_tag r = tag) /\ p = UINT64_MAX).

Definition the_acl (s : fstat) : list raw_acl := if has ff WITH_ACL && negb (S_ISLNK (st_mode s)) then fs_acl s else [].
Definition the_default_acl (s : fstat) : list raw_acl := if has ff WITH_ACL && S_ISDIR (st_mode s) then fs_default_acl s else [].

Record meta_stored (s : fstat) (m : meta) : Prop := mkMetaStored {
  ms_mode : m_mode m = N.land (st_mode s) S_IFMT + stored_perms (st_mode s);
  ms_flags : forall k, N.testbit (m_flags m) k = true <-> N.testbit ff k = true /\ has_attribute s k;
  ms_uid : m_uid m = stored_id (st_uid s); ms_gid : m_gid m = stored_id (st_gid s);
  ms_time : stored_time s (m_mtime m);
  ms_user : m_user m = stored_name (ev_pw ev) (st_uid s); ms_group : m_group m = stored_name (ev_gr ev) (st_gid s);
  ms_xattrs_sorted : ascending (fun x y => str_lt (fst x) (fst y)) (m_xattrs m);
  ms_xattrs : forall x, In x (m_xattrs m) <->
    has ff WITH_XATTRS = true /\ S_ISLNK (st_mode s) = false /\ In x (fs_xattrs s) /\ xattr_kept (fst x);
  ms_acl_user : named T_USER (ev_pw ev) (the_acl s) (m_acl_user m);
  ms_acl_group : named T_GROUP (ev_gr ev) (the_acl s) (m_acl_group m);
  (* without a mask, the mode has the permissions of the group *)
  ms_acl_group_obj : (exists r, In r (the_acl s) /\ ra_tag r = T_MASK) /\ unnamed T_GROUP_OBJ (the_acl s) (m_acl_group_obj m) \/
    ~ (exists r, In r (the_acl s) /\ ra_tag r = T_MASK) /\ m_acl_group_obj m = UINT64_MAX;
  ms_acl_duo : unnamed T_USER_OBJ (the_default_acl s) (m_acl_default_user_obj m);
  ms_acl_dgo : unnamed T_GROUP_OBJ (the_default_acl s) (m_acl_default_group_obj m);
  ms_acl_do : unnamed T_OTHER (the_default_acl s) (m_acl_default_other m);
  ms_acl_dm : unnamed T_MASK (the_default_acl s) (m_acl_default_mask m);
  ms_acl_du : named T_USER (ev_pw ev) (the_default_acl s) (m_acl_default_user m);
  ms_acl_dg : named T_GROUP (ev_gr ev) (the_default_acl s) (m_acl_default_group m);
  ms_selinux : m_selinux m = if has ff WITH_SELINUX then fs_selinux s else None;
  ms_fcaps : forall v, m_fcaps m = Some v <->
    has ff WITH_FCAPS = true /\ S_ISREG (st_mode s) = true /\ In (str_security_capability, v) (fs_xattrs s);
  ms_projid : forall p, m_projid m = Some p <->
    has ff WITH_QUOTA_PROJID = true /\ (S_ISREG (st_mode s) = true \/ S_ISDIR (st_mode s) = true) /\ p = fs_projid s /\ p <> 0
}.

(** ** The tree *)
Inductive stores : list (list N) -> fnode -> tree -> Prop :=
| stores_reg path s size data m : meta_stored s m ->
    stores path (FReg s size data) (TReg m (if fs_virtual s then [] else takeN size data))
| stores_lnk path s t m : meta_stored s m -> stores path (FLnk s t) (TLnk m t)
| stores_dev path s x y m : meta_stored s m -> stores path (FDev s x y) (TDev m x y)
| stores_other path s m : meta_stored s m -> stores path (FOther s) (TOther m)
| stores_virtual path s ents m : fs_virtual s = true -> meta_stored s m -> stores path (FDir s ents) (TDir m [])
| stores_dir path s ents m kept l : fs_virtual s = false -> meta_stored s m ->
    (* the entries kept, in the order of their names *)
    (forall e, In e kept <-> In e ents /\ is_kept path (FDir s ents) e) -> ascending (fun x y => str_lt (fst x) (fst y)) kept ->
    Forall2 (fun x y => fst x = fst y /\ stores (path ++ [fst x]) (snd x) (snd y)) kept l ->
    stores path (FDir s ents) (TDir m l).

(** ** What can be stored *)
Definition named_once (tag : acl_tag) (lookup : N -> option (list N)) (acl : list raw_acl) : Prop :=
  NoDup (map (acl_stored lookup) (filter (fun r => match ra_tag r, tag with T_USER, T_USER | T_GROUP, T_GROUP => true | _, _ => false end) acl)).
Definition has_tag (tag : acl_tag) (acl : list raw_acl) : Prop := exists r, In r acl /\ ra_tag r = tag.
Definition once (tag : acl_tag) (acl : list raw_acl) : Prop :=
  forall r r', In r acl -> In r' acl -> ra_tag r = tag -> ra_tag r' = tag -> r = r'.

(** A name lookup as the archive format needs it: a name the decoder takes and, if numbers aren't stored, a name for
    everybody but the superuser. *)
Definition name_ok (lookup : N -> option (list N)) (id : N) : Prop :=
  has ff WITH_USER_NAMES = true -> id <> 0 ->
  (forall n, lookup id = Some n -> is_user_name n) /\ (has ff UIDS = false -> lookup id <> None).

(** A valid ACL: acl_valid(3), and what it takes to tell entries apart in the archive. *)
Record acl_ok (acl : list raw_acl) : Prop := mkAclOk {
  ao_user_obj : once T_USER_OBJ acl; ao_group_obj : once T_GROUP_OBJ acl; ao_other : once T_OTHER acl; ao_mask : once T_MASK acl;
  ao_complete : acl <> [] -> has_tag T_USER_OBJ acl /\ has_tag T_GROUP_OBJ acl /\ has_tag T_OTHER acl;
  ao_masked : has_tag T_USER acl \/ has_tag T_GROUP acl -> has_tag T_MASK acl;
  ao_users : named_once T_USER (ev_pw ev) acl; ao_groups : named_once T_GROUP (ev_gr ev) acl;
  ao_user_names : forall r, In r acl -> ra_tag r = T_USER -> ra_qual r < two32 /\ name_ok (ev_pw ev) (ra_qual r);
  ao_group_names : forall r, In r acl -> ra_tag r = T_GROUP -> ra_qual r < two32 /\ name_ok (ev_gr ev) (ra_qual r)
}.

Record stat_ok (s : fstat) : Prop := mkStatOk {
  so_mode : st_mode s < 65536; so_uid : st_uid s < two32; so_gid : st_gid s < two32;
  so_time : (0 <= nanoseconds s < 18446744073709551615)%Z; so_nsec : (0 <= st_nsec s < 1000000000)%Z;
  (* with microsecond time stamps only whole milliseconds work *)
  so_usec : has ff WITH_USEC_TIME = true -> (nanoseconds s / 1000 mod 1000 = 0)%Z;
  so_user : name_ok (ev_pw ev) (st_uid s); so_group : name_ok (ev_gr ev) (st_gid s);
  (* if only names are stored, files of the superuser don't work *)
  so_root : has ff WITH_USER_NAMES = true -> has ff UIDS = false -> st_uid s <> 0 /\ st_gid s <> 0;
  so_xattrs : NoDup (map fst (fs_xattrs s)) /\ Forall (fun x => ~ In 0 (fst x) /\ len (snd x) <= 65536) (fs_xattrs s);
  so_selinux : forall l, fs_selinux s = Some l -> l <> [] /\ ~ In 0 l /\ len l <= 4095;
  so_acl : acl_ok (fs_acl s); so_default_acl : acl_ok (fs_default_acl s);
  so_projid : fs_projid s < two32
}.

(** The kept part of a tree, as a Linux kernel may present it, and within the limits of the format. *)
Inductive storable : list (list N) -> fnode -> Prop :=
| storable_reg path s size data : stat_ok s -> S_ISREG (st_mode s) = true -> storable path (FReg s size data)
| storable_lnk path s t : stat_ok s -> S_ISLNK (st_mode s) = true -> t <> [] -> ~ In 0 t -> len t <= 4095 -> storable path (FLnk s t)
| storable_dev path s x y : stat_ok s -> (S_ISBLK (st_mode s) || S_ISCHR (st_mode s))%bool = true -> x < 4096 -> y < 1048576 ->
    storable path (FDev s x y)
| storable_other path s : stat_ok s -> (S_ISFIFO (st_mode s) || S_ISSOCK (st_mode s))%bool = true -> storable path (FOther s)
| storable_dir path s ents : stat_ok s -> S_ISDIR (st_mode s) = true -> NoDup (map fst ents) ->
    (forall e, In e ents -> is_kept path (FDir s ents) e -> is_component (fst e) /\ storable (path ++ [fst e]) (snd e)) ->
    storable path (FDir s ents).
End Spec.

(** An encoder configured with feature flags, by ca_encoder_set_feature_flags. *)
Definition configured (ev : eenv) : Prop := exists flags, encoder_set_feature_flags flags = Ok (ev_ff ev, ev_gran ev).

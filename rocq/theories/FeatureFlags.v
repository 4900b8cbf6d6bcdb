(** Model of src/caformat-util.c (feature flags), of the flag constants in src/caformat.h 81-274,
    and of the time stamp helpers in src/time-util.h, src/caencoder.c and src/cadecoder.c.
    A uint64_t flag word is an [N]; [&], [|] and [& ~] are N.land, N.lor and N.ldiff. *)
From Verif Require Import Base.
From Coq Require Import String Ascii.
Import List.
Local Open Scope N_scope.

(** caformat.h 81-130: the single-bit flags. *)
Definition WITH_16BIT_UIDS := 0x1.
Definition WITH_32BIT_UIDS := 0x2.
Definition WITH_USER_NAMES := 0x4.
Definition WITH_SEC_TIME := 0x8.
Definition WITH_USEC_TIME := 0x10.
Definition WITH_NSEC_TIME := 0x20.
Definition WITH_2SEC_TIME := 0x40.
Definition WITH_READ_ONLY := 0x80.
Definition WITH_PERMISSIONS := 0x100.
Definition WITH_SYMLINKS := 0x200.
Definition WITH_DEVICE_NODES := 0x400.
Definition WITH_FIFOS := 0x800.
Definition WITH_SOCKETS := 0x1000.
Definition WITH_FLAG_HIDDEN := 0x2000.
Definition WITH_FLAG_SYSTEM := 0x4000.
Definition WITH_FLAG_ARCHIVE := 0x8000.
Definition WITH_FLAG_APPEND := 0x10000.
Definition WITH_FLAG_NOATIME := 0x20000.
Definition WITH_FLAG_COMPR := 0x40000.
Definition WITH_FLAG_NOCOW := 0x80000.
Definition WITH_FLAG_NODUMP := 0x100000.
Definition WITH_FLAG_DIRSYNC := 0x200000.
Definition WITH_FLAG_IMMUTABLE := 0x400000.
Definition WITH_FLAG_SYNC := 0x800000.
Definition WITH_FLAG_NOCOMP := 0x1000000.
Definition WITH_FLAG_PROJINHERIT := 0x2000000.
Definition WITH_SUBVOLUME := 0x4000000.
Definition WITH_SUBVOLUME_RO := 0x8000000.
Definition WITH_XATTRS := 0x10000000.
Definition WITH_ACL := 0x20000000.
Definition WITH_SELINUX := 0x40000000.
Definition WITH_FCAPS := 0x80000000.
Definition WITH_QUOTA_PROJID := 0x100000000.
Definition EXCLUDE_FILE := 0x1000000000000000.
Definition SHA512_256 := 0x2000000000000000.
Definition EXCLUDE_SUBMOUNTS := 0x4000000000000000.
Definition EXCLUDE_NODUMP := 0x8000000000000000.

Definition bor (l : list N) : N := fold_right N.lor 0 l.

(** caformat.h 131-274: the composite masks. *)
Definition WITH_CHATTR := bor [WITH_FLAG_APPEND; WITH_FLAG_NOATIME; WITH_FLAG_COMPR; WITH_FLAG_NOCOW;
  WITH_FLAG_NODUMP; WITH_FLAG_DIRSYNC; WITH_FLAG_IMMUTABLE; WITH_FLAG_SYNC; WITH_FLAG_NOCOMP;
  WITH_FLAG_PROJINHERIT].
Definition WITH_FAT_ATTRS := bor [WITH_FLAG_HIDDEN; WITH_FLAG_SYSTEM; WITH_FLAG_ARCHIVE].
Definition WITH_BEST := bor [WITH_32BIT_UIDS; WITH_USER_NAMES; WITH_NSEC_TIME; WITH_SYMLINKS;
  WITH_DEVICE_NODES; WITH_FIFOS; WITH_SOCKETS; WITH_FLAG_HIDDEN; WITH_FLAG_SYSTEM; WITH_FLAG_ARCHIVE;
  WITH_FLAG_APPEND; WITH_FLAG_NOATIME; WITH_FLAG_COMPR; WITH_FLAG_NOCOW; WITH_FLAG_NODUMP;
  WITH_FLAG_DIRSYNC; WITH_FLAG_IMMUTABLE; WITH_FLAG_SYNC; WITH_FLAG_NOCOMP; WITH_FLAG_PROJINHERIT;
  WITH_SUBVOLUME; WITH_SUBVOLUME_RO; WITH_XATTRS; WITH_ACL; WITH_SELINUX; WITH_FCAPS; WITH_QUOTA_PROJID].
Definition WITH_UNIX := bor [WITH_16BIT_UIDS; WITH_PERMISSIONS; WITH_SEC_TIME; WITH_SYMLINKS;
  WITH_DEVICE_NODES; WITH_FIFOS; WITH_SOCKETS].
Definition WITH_FAT := bor [WITH_2SEC_TIME; WITH_READ_ONLY; WITH_FLAG_HIDDEN; WITH_FLAG_SYSTEM; WITH_FLAG_ARCHIVE].
Definition WITH_PRIVILEGED := bor [WITH_16BIT_UIDS; WITH_32BIT_UIDS; WITH_USER_NAMES; WITH_DEVICE_NODES;
  WITH_FLAG_SYSTEM; WITH_FLAG_APPEND; WITH_FLAG_IMMUTABLE; WITH_SUBVOLUME; WITH_SUBVOLUME_RO; WITH_ACL;
  WITH_SELINUX; WITH_FCAPS; WITH_QUOTA_PROJID].
Definition WITH_FUSE := bor [WITH_16BIT_UIDS; WITH_32BIT_UIDS; WITH_SEC_TIME; WITH_USEC_TIME;
  WITH_NSEC_TIME; WITH_2SEC_TIME; WITH_READ_ONLY; WITH_PERMISSIONS; WITH_SYMLINKS; WITH_DEVICE_NODES;
  WITH_FIFOS; WITH_SOCKETS; WITH_FAT_ATTRS; WITH_CHATTR; WITH_XATTRS].
Definition WITH_MASK := bor [WITH_16BIT_UIDS; WITH_32BIT_UIDS; WITH_USER_NAMES; WITH_SEC_TIME; WITH_USEC_TIME;
  WITH_NSEC_TIME; WITH_2SEC_TIME; WITH_READ_ONLY; WITH_PERMISSIONS; WITH_SYMLINKS; WITH_DEVICE_NODES;
  WITH_FIFOS; WITH_SOCKETS; WITH_FLAG_HIDDEN; WITH_FLAG_SYSTEM; WITH_FLAG_ARCHIVE; WITH_FLAG_APPEND;
  WITH_FLAG_NOATIME; WITH_FLAG_COMPR; WITH_FLAG_NOCOW; WITH_FLAG_NODUMP; WITH_FLAG_DIRSYNC;
  WITH_FLAG_IMMUTABLE; WITH_FLAG_SYNC; WITH_FLAG_NOCOMP; WITH_FLAG_PROJINHERIT; WITH_SUBVOLUME;
  WITH_SUBVOLUME_RO; WITH_XATTRS; WITH_ACL; WITH_SELINUX; WITH_FCAPS; WITH_QUOTA_PROJID].
Definition FEATURE_FLAGS_MAX := bor [WITH_MASK; EXCLUDE_NODUMP; EXCLUDE_SUBMOUNTS; EXCLUDE_FILE; SHA512_256].
Definition FORMAT_DEFAULT := bor [N.ldiff WITH_BEST WITH_FLAG_NODUMP; EXCLUDE_NODUMP; EXCLUDE_FILE; SHA512_256].

(** C's [if (flags & mask)]. *)
Definition has (flags mask : N) : bool := negb (N.land flags mask =? 0).

(** caformat-util.c 76-123: the table of names.  Strings are Coq [string]s here. *)
Definition with_feature_map : list (string * N) := [
  ("16bit-uids"%string, WITH_16BIT_UIDS); ("32bit-uids"%string, WITH_32BIT_UIDS);
  ("user-names"%string, WITH_USER_NAMES); ("sec-time"%string, WITH_SEC_TIME);
  ("usec-time"%string, WITH_USEC_TIME); ("nsec-time"%string, WITH_NSEC_TIME);
  ("2sec-time"%string, WITH_2SEC_TIME); ("read-only"%string, WITH_READ_ONLY);
  ("permissions"%string, WITH_PERMISSIONS); ("symlinks"%string, WITH_SYMLINKS);
  ("device-nodes"%string, WITH_DEVICE_NODES); ("fifos"%string, WITH_FIFOS);
  ("sockets"%string, WITH_SOCKETS); ("flag-hidden"%string, WITH_FLAG_HIDDEN);
  ("flag-system"%string, WITH_FLAG_SYSTEM); ("flag-archive"%string, WITH_FLAG_ARCHIVE);
  ("flag-append"%string, WITH_FLAG_APPEND); ("flag-noatime"%string, WITH_FLAG_NOATIME);
  ("flag-compr"%string, WITH_FLAG_COMPR); ("flag-nocow"%string, WITH_FLAG_NOCOW);
  ("flag-nodump"%string, WITH_FLAG_NODUMP); ("flag-dirsync"%string, WITH_FLAG_DIRSYNC);
  ("flag-immutable"%string, WITH_FLAG_IMMUTABLE); ("flag-sync"%string, WITH_FLAG_SYNC);
  ("flag-nocomp"%string, WITH_FLAG_NOCOMP); ("flag-projinherit"%string, WITH_FLAG_PROJINHERIT);
  ("subvolume"%string, WITH_SUBVOLUME); ("subvolume-ro"%string, WITH_SUBVOLUME_RO);
  ("xattrs"%string, WITH_XATTRS); ("acl"%string, WITH_ACL); ("selinux"%string, WITH_SELINUX);
  ("fcaps"%string, WITH_FCAPS); ("quota-projid"%string, WITH_QUOTA_PROJID);
  ("best"%string, WITH_BEST); ("unix"%string, WITH_UNIX); ("fat"%string, WITH_FAT);
  ("chattr"%string, WITH_CHATTR); ("fat-attrs"%string, WITH_FAT_ATTRS);
  ("privileged"%string, WITH_PRIVILEGED); ("fuse"%string, WITH_FUSE); ("all"%string, WITH_MASK)].

(** ca_with_feature_flags_parse_one, caformat-util.c 125-135. *)
Fixpoint parse_in (map : list (string * N)) (name : string) : res N :=
  match map with
  | [] => Err ENXIO
  | (n, f) :: map => if String.eqb n name then Ok f else parse_in map name
  end.
Definition with_feature_flags_parse_one (name : string) : res N := parse_in with_feature_map name.

(** The loop of ca_with_feature_flags_format, caformat-util.c 148-166: [s] is the string built so
    far (None is C's NULL; allocation failure is not modelled). *)
Fixpoint format_loop (map : list (string * N)) (features : N) (s : option string) : res (option string) :=
  match map with
  | [] => if features =? 0 then Ok s else Abort   (* 168: assert(features == 0) *)
  | (n, f) :: map =>
      if features =? 0 then Ok s
      else if negb (N.land features f =? f) then format_loop map features s
      else format_loop map (N.ldiff features f)
             (Some (match s with Some s => s ++ " " ++ n | None => n end)%string)
  end.

(** ca_with_feature_flags_format, caformat-util.c 137-172. *)
Definition with_feature_flags_format (features : N) : res (option string) :=
  if negb (N.ldiff features FEATURE_FLAGS_MAX =? 0) then Err EINVAL
  else format_loop with_feature_map (N.land features WITH_MASK) None.

(** ca_feature_flags_normalize, caformat-util.c 172-211. *)
Definition feature_flags_normalize (flags : N) : res N :=
  if flags =? UINT64_MAX then Err EINVAL
  else if negb (N.ldiff flags FEATURE_FLAGS_MAX =? 0) then Err EOPNOTSUPP
  else
  let flags := if has flags WITH_ACL &&
                  (N.land flags (bor [WITH_16BIT_UIDS; WITH_32BIT_UIDS; WITH_USER_NAMES]) =? 0)
               then N.lor flags (bor [WITH_32BIT_UIDS; WITH_USER_NAMES]) else flags in
  let flags := if has flags WITH_32BIT_UIDS then N.ldiff flags WITH_16BIT_UIDS else flags in
  let flags := if has flags WITH_NSEC_TIME
               then N.ldiff flags (bor [WITH_USEC_TIME; WITH_SEC_TIME; WITH_2SEC_TIME]) else flags in
  let flags := if has flags WITH_USEC_TIME
               then N.ldiff flags (bor [WITH_SEC_TIME; WITH_2SEC_TIME]) else flags in
  let flags := if has flags WITH_SEC_TIME then N.ldiff flags WITH_2SEC_TIME else flags in
  let flags := if has flags WITH_ACL
               then N.ldiff flags (bor [WITH_PERMISSIONS; WITH_READ_ONLY]) else flags in
  let flags := if has flags WITH_PERMISSIONS then N.ldiff flags WITH_READ_ONLY else flags in
  let flags := if has flags EXCLUDE_NODUMP then N.ldiff flags WITH_FLAG_NODUMP else flags in
  let flags := if has flags WITH_SUBVOLUME_RO then N.lor flags WITH_SUBVOLUME else flags in
  Ok flags.

(** ca_feature_flags_are_normalized, caformat-util.c 213-257. *)
Definition feature_flags_are_normalized (flags : N) : res bool :=
  if flags =? UINT64_MAX then Err EINVAL
  else if negb (N.ldiff flags FEATURE_FLAGS_MAX =? 0) then Err EOPNOTSUPP
  else if has flags WITH_NSEC_TIME && has flags (bor [WITH_USEC_TIME; WITH_SEC_TIME; WITH_2SEC_TIME]) then Ok false
  else if has flags WITH_USEC_TIME && has flags (bor [WITH_SEC_TIME; WITH_2SEC_TIME]) then Ok false
  else if has flags WITH_SEC_TIME && has flags WITH_2SEC_TIME then Ok false
  else if N.land flags (bor [WITH_16BIT_UIDS; WITH_32BIT_UIDS]) =? bor [WITH_16BIT_UIDS; WITH_32BIT_UIDS] then Ok false
  else if has flags WITH_PERMISSIONS && has flags WITH_READ_ONLY then Ok false
  else if has flags WITH_ACL && has flags (bor [WITH_PERMISSIONS; WITH_READ_ONLY]) then Ok false
  else if has flags WITH_ACL &&
          (N.land flags (bor [WITH_16BIT_UIDS; WITH_32BIT_UIDS; WITH_USER_NAMES]) =? 0) then Ok false
  else if has flags EXCLUDE_NODUMP && has flags WITH_FLAG_NODUMP then Ok false
  else if has flags WITH_SUBVOLUME_RO && negb (has flags WITH_SUBVOLUME) then Ok false
  else Ok true.

(** ca_feature_flags_normalize_mask, caformat-util.c 259-285. *)
Definition feature_flags_normalize_mask (mask : N) : N :=
  if mask =? UINT64_MAX then UINT64_MAX
  else
  let mask := N.land mask FEATURE_FLAGS_MAX in
  let u := bor [WITH_16BIT_UIDS; WITH_32BIT_UIDS] in
  let t := bor [WITH_SEC_TIME; WITH_USEC_TIME; WITH_NSEC_TIME; WITH_2SEC_TIME] in
  let mask := if has mask u then N.lor mask u else mask in
  let mask := if has mask t then N.lor mask t else mask in
  let mask := if has mask WITH_PERMISSIONS then N.lor mask WITH_READ_ONLY else mask in
  let mask := if has mask WITH_ACL then N.lor mask (bor [WITH_PERMISSIONS; WITH_READ_ONLY]) else mask in
  let mask := if has mask WITH_SUBVOLUME_RO then N.lor mask WITH_SUBVOLUME else mask in
  mask.

(** ca_decoder_determine_replay_feature_flags, cadecoder.c 697-713, with the mask as
    ca_decoder_set_feature_flags_mask (cadecoder.c 447-452) stores it. *)
Definition determine_replay_feature_flags (stream_flags user_mask : N) : res N :=
  feature_flags_normalize
    (N.land (feature_flags_normalize_mask stream_flags) (feature_flags_normalize_mask user_mask)).

(** ca_feature_flags_time_granularity_nsec, caformat-util.c 287-308. *)
Definition time_granularity_nsec (flags : N) : res N :=
  if negb (N.ldiff flags FEATURE_FLAGS_MAX =? 0) then Err EOPNOTSUPP
  else if has flags WITH_NSEC_TIME then Ok 1
  else if has flags WITH_USEC_TIME then Ok 1000
  else if has flags WITH_SEC_TIME then Ok 1000000000
  else if has flags WITH_2SEC_TIME then Ok 2000000000
  else Err ENODATA.

(** ca_encoder_set_feature_flags, caencoder.c 325-344: the flags and the granularity stored. *)
Definition encoder_set_feature_flags (flags : N) : res (N * N) :=
  let! flags := feature_flags_normalize flags in
  match time_granularity_nsec flags with
  | Ok g => Ok (flags, g)
  | Err ENODATA => Ok (flags, UINT64_MAX)
  | Err e => Err e
  | Abort => Abort
  | UB => UB
  end.

(** timespec_to_nsec, time-util.h 22-29; tv_sec and tv_nsec are signed 64 bit. *)
Definition u64 (z : Z) : N := Z.to_N (z mod 18446744073709551616)%Z.
Definition timespec_to_nsec (tv_sec tv_nsec : Z) : N :=
  if ((tv_sec =? -1) && (tv_nsec =? -1))%Z then UINT64_MAX
  else ((u64 tv_sec * 1000000000) mod two64 + u64 tv_nsec) mod two64.

(** nsec_to_timespec, time-util.h 31-45. *)
Definition nsec_to_timespec (u : N) : Z * Z :=
  if u =? UINT64_MAX then (-1, -1)%Z
  else (Z.of_N (u / 1000000000), Z.of_N (u mod 1000000000)).

(** ca_encoder_fixup_mtime, caencoder.c 2395-2409, with [mtime] the result of timespec_to_nsec. *)
Definition encoder_fixup_mtime (granularity mtime : N) : N :=
  if granularity =? UINT64_MAX then 0 else (mtime / granularity) * granularity.

(** validate_nsec, cadecoder.c 823-843. *)
Definition validate_nsec (flags t : N) : bool :=
  if t =? UINT64_MAX then false
  else if has flags WITH_NSEC_TIME then true
  else if has flags WITH_USEC_TIME then t mod 1000000 =? 0
  else if has flags WITH_SEC_TIME then t mod 1000000000 =? 0
  else if has flags WITH_2SEC_TIME then t mod 2000000000 =? 0
  else t =? 0.

(** caformat-util.c 310-325 with the FS_*_FL values of linux/fs.h. *)
Definition chattr_map : list (N * N) := [
  (WITH_FLAG_APPEND, 0x20); (WITH_FLAG_NOATIME, 0x80); (WITH_FLAG_COMPR, 0x4); (WITH_FLAG_NOCOW, 0x800000);
  (WITH_FLAG_NODUMP, 0x40); (WITH_FLAG_DIRSYNC, 0x10000); (WITH_FLAG_IMMUTABLE, 0x10); (WITH_FLAG_SYNC, 0x8);
  (WITH_FLAG_NOCOMP, 0x400); (WITH_FLAG_PROJINHERIT, 0x20000000)].
(** caformat-util.c 350-357 with the ATTR_* values of linux/msdos_fs.h. *)
Definition fat_attrs_map : list (N * N) := [
  (WITH_FLAG_HIDDEN, 2); (WITH_FLAG_SYSTEM, 4); (WITH_FLAG_ARCHIVE, 32)].

(** The loops at caformat-util.c 331-333/363-365 (from) and 342-345/374-377 (to). *)
Definition map_from (map : list (N * N)) (attrs : N) : N :=
  fold_left (fun f e => if has attrs (snd e) then N.lor f (fst e) else f) map 0.
Definition map_to (map : list (N * N)) (flags : N) : N :=
  fold_left (fun f e => if has flags (fst e) then N.lor f (snd e) else f) map 0.
(** ca_feature_flags_{from,to}_{chattr,fat_attrs}, caformat-util.c 327-379. *)
Definition feature_flags_from_chattr (attrs : N) : N := map_from chattr_map attrs.
Definition feature_flags_to_chattr (flags : N) : N := map_to chattr_map flags.
Definition feature_flags_from_fat_attrs (attrs : N) : N := map_from fat_attrs_map attrs.
Definition feature_flags_to_fat_attrs (flags : N) : N := map_to fat_attrs_map flags.

(** CaDigestType (cadigest.h) and caformat-util.c 521-542. *)
Inductive digest_type := CA_DIGEST_SHA256 | CA_DIGEST_SHA512_256.
Definition feature_flags_from_digest_type (t : digest_type) : N :=
  match t with CA_DIGEST_SHA256 => 0 | CA_DIGEST_SHA512_256 => SHA512_256 end.
Definition feature_flags_to_digest_type (flags : N) : digest_type :=
  if has flags SHA512_256 then CA_DIGEST_SHA512_256 else CA_DIGEST_SHA256.

(** What a directory contains after an archive was extracted to it. *)
From Verif Require Import Base FeatureFlags ArchiveBase Decoder DecoderSpec Fs Extract ExtractSpec.
Local Open Scope N_scope.

(** Errors that don't tell anything about the file system: too many open files, no space, I/O error and the like. The others, which tell whether
    something exists, what type it has, whether it is immutable or what is supported, are given if it is so. *)
Definition plain_trouble (t : trouble) : Prop :=
  match t with TFail e => ~ In e [EEXIST; ENOENT; ENOTDIR; EISDIR; ELOOP; EPERM; EOPNOTSUPP; ENODATA; EBADF] | _ => True end.

(** A program that runs to its end. *)
Inductive works (fe : fenv) {A} : prog A -> fs -> fs -> res A -> Prop :=
| works_ret r w : works fe (Ret r) w w r
| works_call c k t w x w1 w2 r : plain_trouble t -> result_of fe t w c = (x, w1) -> works fe (k x) w1 w2 r -> works fe (Sys c k) w w2 r.

(** A successful extraction of the input, fed in any pieces: what was observed, and the file system at the end. *)
Inductive extracts (env : denv) (fe : fenv) (cfg : xcfg) : xdec -> fs -> list N -> list obs -> fs -> Prop :=
| extracts_put x p x' w i ob w' : xput x p = Ok x' -> extracts env fe cfg x' w i ob w' -> extracts env fe cfg x w (p ++ i) ob w'
| extracts_eof x w ob w' : extracts env fe cfg (xput_eof x) w [] ob w' -> extracts env fe cfg x w [] ob w'
| extracts_step x w w1 i r x' ob w' : works fe (xstep env cfg x) w w1 (Ok (r, x')) -> r <> R_FINISHED ->
    extracts env fe cfg x' w1 i ob w' -> extracts env fe cfg x w i (observe r (x_dec x') ++ ob) w'
| extracts_done x w w1 i x' : works fe (xstep env cfg x) w w1 (Ok (R_FINISHED, x')) -> extracts env fe cfg x w i [] w1.

Section Holds.
Variables (flags : N) (cfg : xcfg).   (* what is to be restored *)

(** By name if there is one, otherwise by number: reduced to the range, and shifted. *)
Definition owner_is (known : list N -> option N) (name : option (list N)) (id got : N) : Prop :=
  match (if has flags WITH_USER_NAMES then name else None) with
  | Some n => known n = Some got
  | None => got = c_shift cfg + (if c_range cfg =? 0 then id else id mod c_range cfg)
  end.
Definition attrs_ok (m : meta) (a : attrs) : Prop :=
  (has flags (bor [WITH_16BIT_UIDS; WITH_32BIT_UIDS; WITH_USER_NAMES]) = true ->
     owner_is (c_users cfg) (m_user m) (m_uid m) (a_uid a) /\ owner_is (c_groups cfg) (m_group m) (m_gid m) (a_gid a)) /\
  (has flags WITH_PERMISSIONS = true -> N.land (a_perm a) 0xFFF = N.land (m_mode m) 0xFFF) /\
  (has flags (bor [WITH_2SEC_TIME; WITH_SEC_TIME; WITH_USEC_TIME; WITH_NSEC_TIME]) = true -> a_mtime a = m_mtime m).

Definition storable_name (n : list N) : Prop :=
  is_xattr_name n /\ exists s, n = [117; 115; 101; 114; 46] ++ s \/ n = [116; 114; 117; 115; 116; 101; 100; 46] ++ s.
Definition xattrs_ok (m : meta) (a : attrs) : Prop :=
  has flags WITH_XATTRS = true -> forall n v, storable_name n -> (In (n, v) (a_xattrs a) <-> In (n, v) (m_xattrs m)).
Definition fcaps_ok (m : meta) (a : attrs) : Prop :=
  has flags WITH_FCAPS = true -> forall v, In (SECURITY_CAPABILITY, v) (a_xattrs a) <-> m_fcaps m = Some v.

(** The types of files that are restored. *)
Definition restored (t : tree) : Prop :=
  match t with
  | TReg _ _ | TDir _ _ => True
  | TLnk _ _ => has flags WITH_SYMLINKS = true
  | TDev _ _ _ => has flags WITH_DEVICE_NODES = true
  | TOther m => if S_ISFIFO (m_mode m) then has flags WITH_FIFOS = true else has flags WITH_SOCKETS = true
  end.

(** The inode [i] is the root of the tree. *)
Inductive holds (w : fs) : N -> tree -> Prop :=
| holds_reg i m data a : f_ino w i = Some (mkInode a (BReg data)) -> attrs_ok m a -> xattrs_ok m a -> fcaps_ok m a -> holds w i (TReg m data)
| holds_dir i m ents a es : f_ino w i = Some (mkInode a (BDir es)) -> attrs_ok m a -> xattrs_ok m a ->
    NoDup (map fst es) ->
    (forall n j, In (n, j) es -> exists t, In (n, t) ents /\ restored t) ->
    holds_all w es ents -> holds w i (TDir m ents)
| holds_lnk i m target a : f_ino w i = Some (mkInode a (BLnk target)) -> attrs_ok m a -> holds w i (TLnk m target)
| holds_dev i m x y a : f_ino w i = Some (mkInode a (BDev (S_ISBLK (m_mode m)) x y)) -> attrs_ok m a -> holds w i (TDev m x y)
| holds_other i m a : f_ino w i = Some (mkInode a (if S_ISFIFO (m_mode m) then BFifo else BSock)) -> attrs_ok m a -> holds w i (TOther m)
with holds_all (w : fs) : list (list N * N) -> list (list N * tree) -> Prop :=
| holds_none es : holds_all w es []
| holds_skipped es n t ents : ~ restored t -> holds_all w es ents -> holds_all w es ((n, t) :: ents)
| holds_next es n t j ents : In (n, j) es -> holds w j t -> holds_all w es ents -> holds_all w es ((n, t) :: ents).
End Holds.

(** The flags an archive was made with, from its first record. *)
Definition archive_flags (i : list N) : N := rd64 (dropN 16 i).

(** Names in all directories are in order. *)
Fixpoint ordered (t : tree) : Prop :=
  match t with
  | TDir m ents => ascending (fun a b => str_lt (fst a) (fst b)) ents /\ (fix all l := match l with [] => True | (n, c) :: l => ordered c /\ all l end) ents
  | _ => True
  end.

(** Meta data that Extract.v doesn't model. *)
Definition unmodelled : N := bor [WITH_ACL; WITH_SELINUX; WITH_CHATTR; WITH_FAT_ATTRS; WITH_SUBVOLUME; WITH_SUBVOLUME_RO; WITH_QUOTA_PROJID].
(** A directory without entries. *)
Definition empty_directory (w : fs) (i : N) : Prop := exists a, f_ino w i = Some (mkInode a (BDir [])).

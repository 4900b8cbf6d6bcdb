(** What users of hard links to seeds rely on. *)
From Verif Require Import Base FeatureFlags ArchiveBase Decoder DecoderSpec Fs Extract ExtractSpec.
Local Open Scope N_scope.

(** [d] is a directory in which the names lead where [f] says. *)
Definition lists (w : fs) (d : N) (f : list N -> option N) : Prop :=
  exists a ents, f_ino w d = Some (mkInode a (BDir ents)) /\ forall n, get n ents = f n.
Definition upd (f : list N -> option N) (n : list N) (v : option N) : list N -> option N := fun m => if beq m n then v else f m.

(** The path leads to the inode [i]. *)
Definition leads (fe : fenv) (w : fs) (root : N) (path : list N) (i : N) : Prop :=
  exists d n f, where_ fe w root path = Some (d, n) /\ lists w d f /\ f n = Some i.

(** All files are as before, except that with --undo-immutable the immutable flag may be gone. *)
Definition unharmed (undo : bool) (w w1 : fs) : Prop :=
  forall i a b, f_ino w i = Some (mkInode a b) -> (forall ents, b <> BDir ents) ->
  exists a', f_ino w1 i = Some (mkInode a' b) /\
    (a' = a \/ (undo = true /\ a' = mkAttrs (a_perm a) (a_uid a) (a_gid a) (a_mtime a) (a_xattrs a) false)).

(** The file is one that the archive's entry [m], with a payload of [size] bytes, could be of, as far as the flags [ff] say that it is recorded:
    the size, the permissions or the writability, the owner's number, the time of the last modification. *)
Definition as_recorded (ff : N) (m : meta) (size : N) (nd : inode) : Prop :=
  let a := i_attrs nd in
  (exists data, i_body nd = BReg data /\ len data = size) /\
  (has ff WITH_PERMISSIONS = true -> forall k, k < 12 -> N.testbit (a_perm a) k = N.testbit (m_mode m) k) /\
  (has ff WITH_READ_ONLY = true -> N.testbit (a_perm a) 7 = N.testbit (m_mode m) 7) /\
  (has ff WITH_16BIT_UIDS = true \/ has ff WITH_32BIT_UIDS = true -> a_uid a = m_uid m /\ a_gid a = m_gid m) /\
  (has ff WITH_2SEC_TIME = true -> a_mtime a / 2000000000 = m_mtime m / 2000000000) /\
  (has ff WITH_SEC_TIME = true -> a_mtime a / 1000000000 = m_mtime m / 1000000000) /\
  (has ff WITH_USEC_TIME = true -> a_mtime a / 1000 = m_mtime m / 1000) /\
  (has ff WITH_NSEC_TIME = true -> a_mtime a = m_mtime m).

(** The decoder has just finished the contents of a regular file, the entry [e] of the archive, which shall become [name] in the directory [dir]
    and still is the temporary file [tmp] there; no directory is in the way. *)
Definition finishing (x : xdec) (w : fs) (dir : N) (f : list N -> option N) (name tmp : list N) (e : dentry) : Prop :=
  (exists n ns c p up, d_nodes (x_dec x) = n :: ns /\ x_nodes x = c :: p :: up /\ dn_name n = name /\ dn_entry n = Some e /\ x_tmp c = Some tmp /\ x_fd p = Some dir) /\
  dt_size e <> None /\ is_component name /\ is_component tmp /\ temporary tmp /\ tmp <> name /\
  lists w dir f /\ (forall i, f name = Some i -> exists a b, f_ino w i = Some (mkInode a b) /\ forall es, b <> BDir es).

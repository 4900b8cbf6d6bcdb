(** When an origin tells the truth about a file, for C53. *)
From Coq Require Import ZArith.
From Verif Require Import Base Location Reflink.
Local Open Scope N_scope.

(** The file at the place of the location [l] is the one described by [l] (same inode, time stamp and generation, as far as [l] has them), and has at
    [offset l] the same [size l] bytes as the extracted file has at [off]. 2 GiB - 4096 is what one pread() can return. *)
Definition described (w : rworld) (l : loc) (off i : N) : Prop :=
  let f := w_files w i in
  f_kind f = FReg /\
  (mtime l = UINT64_MAX \/ f_inode f = inode l /\ f_stamp f = mtime l /\ (generation_valid l = true -> f_gen f = Some (generation l))) /\
  size l <= 0x7ffff000 /\ len (f_data f) <= OFF_MAX /\
  takeN (size l) (dropN (offset l) (f_data f)) = takeN (size l) (dropN off (f_data (w_dst w))) /\
  offset l + size l <= len (f_data f) /\ off + size l <= len (f_data (w_dst w)).
(** The locations [ls] are, one after the other from [off] on, where the extracted file's bytes come from; the file may also be gone. 112: payload. *)
Fixpoint truthful (w : rworld) (ls : list loc) (off : N) : Prop :=
  match ls with
  | [] => True
  | l :: ls =>
      (designator l = 112 -> root l <> None /\
         (w_at w (root l) (strempty (path l)) = Err ENOENT \/ exists i, w_at w (root l) (strempty (path l)) = Ok i /\ described w l off i)) /\
      off + size l <= len (f_data (w_dst w)) /\ truthful w ls (off + size l)
  end.
(** Cloning works, or fails the way it does where it isn't supported or the files are on different file systems. *)
Definition refusal_known (w : rworld) : Prop := forall e, w_refuses w = Some e -> e = EXDEV \/ In e [ENOTTY; ENOSYS; EBADF; EOPNOTSUPP; EINVAL].

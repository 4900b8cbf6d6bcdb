(** What users of extraction rely on. *)
From Coq Require Import Permutation.
From Verif Require Import Base FeatureFlags ArchiveBase Decoder DecoderSpec Fs Extract.
Local Open Scope N_scope.

(** The directory [d] has an entry [name] for the inode [i]. *)
Definition entry (w : fs) (d : N) (name : list N) (i : N) : Prop :=
  exists a ents, f_ino w d = Some (mkInode a (BDir ents)) /\ In (name, i) ents.
Definition directory (w : fs) (i : N) : Prop := exists a ents, f_ino w i = Some (mkInode a (BDir ents)).

(** The directories of the tree below [b]. *)
Inductive inside (w : fs) (b : N) : N -> Prop :=
| inside_base : inside w b b
| inside_sub d name i : inside w b d -> entry w d name i -> directory w i -> inside w b i.

(** What has an entry in a directory of the tree. *)
Definition linked (w : fs) (b i : N) : Prop := exists d name, inside w b d /\ entry w d name i.

(** A file system as the kernel leaves it: the entries of directories are proper file names, numbers that will be given to new inodes aren't
    in use. *)
Definition sound_fs (w : fs) : Prop :=
  (forall d name i, entry w d name i -> is_component name /\ i < f_next w) /\
  (forall i, f_next w <= i -> f_ino w i = None).
(** Reading a directory gives its entries. *)
Definition sound_env (fe : fenv) : Prop := forall l, Permutation (fe_order fe l) l.

Definition without_imm (nd : inode) : inode :=
  let a := i_attrs nd in mkInode (mkAttrs (a_perm a) (a_uid a) (a_gid a) (a_mtime a) (a_xattrs a) false) (i_body nd).

(** Extraction: the caller feeds anything, steps, announces the end of the input, as it likes, until it stops, or is stopped in the middle of
    something, or an error occurs. The states of the file system, from the first call on. *)
Inductive history (env : denv) (fe : fenv) (cfg : xcfg) : xdec -> fs -> list fs -> Prop :=
| history_end x w : history env fe cfg x w []
| history_stopped x w l : passes fe (xstep env cfg x) w l None -> history env fe cfg x w l
| history_failed x w l e : passes fe (xstep env cfg x) w l (Some (Err e)) -> history env fe cfg x w l
| history_step x w l r x' l' : passes fe (xstep env cfg x) w l (Some (Ok (r, x'))) -> history env fe cfg x' (last l w) l' ->
    history env fe cfg x w (l ++ l')
| history_put x p x' w l : xput x p = Ok x' -> history env fe cfg x' w l -> history env fe cfg x w l
| history_eof x w l : history env fe cfg (xput_eof x) w l -> history env fe cfg x w l.

(** Names that start as those of temporary files. *)
Definition temporary (name : list N) : Prop := exists s, name = 46 :: 35 :: s.
(** A file that isn't a directory, under a name that isn't a temporary one: [nd] is what is there. *)
Definition visible (w : fs) (i : N) (nd : inode) : Prop :=
  f_ino w i = Some nd /\ ~ directory w i /\ exists d name, entry w d name i /\ ~ temporary name.

(** The operating system as casync's store code sees it: a file system with directories, symbolic links, files (inodes
    with contents) and open file descriptions, the system calls used by src/cachunk.c, src/castore.c and src/gc.c,
    and programs as trees of system calls. This is environment, not code from /repo; it is part of what the
    theorems about the store take for granted.

    Simplifications: paths are byte strings, two names are the same file name iff the strings are equal; the
    directories above a store are not modelled; permissions are not modelled (a call may fail with any other error);
    reading a regular file delivers as many bytes as there are up to the count asked for. *)
From Coq Require Import Permutation.
From Verif Require Import Base.
Local Open Scope N_scope.

Notation path := (list N) (only parsing).

Inductive node :=
| NDir
| NLink (target : list N)   (* a symbolic link *)
| NFile (ino : nat).

Record world := {
  w_names : list (list N * node);     (* names; no name occurs twice *)
  w_inodes : list (list N);           (* contents of the files *)
  w_fds : list (nat * N)              (* open file descriptions: inode and position *)
}.

Fixpoint assoc {A} (l : list (list N * A)) (p : list N) : option A :=
  match l with
  | [] => None
  | (q, x) :: l => if beq q p then Some x else assoc l p
  end.

Fixpoint remove {A} (l : list (list N * A)) (p : list N) : list (list N * A) :=
  match l with
  | [] => []
  | (q, x) :: l => if beq q p then remove l p else (q, x) :: remove l p
  end.

Definition name_at (w : world) (p : list N) : option node := assoc (w_names w) p.

(** The content of the file that a name stands for. *)
Definition file_at (w : world) (p : list N) : option (list N) :=
  match name_at w p with
  | Some (NFile i) => nth_error (w_inodes w) i
  | _ => None
  end.

Definition put_name (w : world) (p : list N) (n : node) : world :=
  {| w_names := (p, n) :: remove (w_names w) p; w_inodes := w_inodes w; w_fds := w_fds w |}.

Definition del_name (w : world) (p : list N) : world :=
  {| w_names := remove (w_names w) p; w_inodes := w_inodes w; w_fds := w_fds w |}.

Fixpoint replace_nth {A} (l : list A) (i : nat) (x : A) : list A :=
  match l, i with
  | [], _ => []
  | _ :: l, O => x :: l
  | y :: l, S i => y :: replace_nth l i x
  end.

(** A new open file description. *)
Definition add_fd (w : world) (i : nat) : world :=
  {| w_names := w_names w; w_inodes := w_inodes w; w_fds := w_fds w ++ [(i, 0)] |}.

(** A new, empty file. *)
Definition add_file (w : world) (p : list N) : world :=
  {| w_names := (p, NFile (length (w_inodes w))) :: w_names w;
     w_inodes := w_inodes w ++ [[]];
     w_fds := w_fds w |}.

Definition set_pos (w : world) (fd : nat) (i : nat) (pos : N) : world :=
  {| w_names := w_names w; w_inodes := w_inodes w; w_fds := replace_nth (w_fds w) fd (i, pos) |}.

Definition set_content (w : world) (i : nat) (c : list N) : world :=
  {| w_names := w_names w; w_inodes := replace_nth (w_inodes w) i c; w_fds := w_fds w |}.

(** What is before the last '/' (47) of a path. *)
Fixpoint drop_last_component (r : list N) : list N :=
  match r with
  | [] => []
  | c :: r => if c =? 47 then r else drop_last_component r
  end.
Definition dirname (p : list N) : list N := rev (drop_last_component (rev p)).

(** What is after the last '/' (47) of a path. *)
Fixpoint until_slash (r : list N) : list N :=
  match r with
  | [] => []
  | c :: r => if c =? 47 then [] else c :: until_slash r
  end.
Definition basename (p : list N) : list N := rev (until_slash (rev p)).

Definition in_dir (d : list N) (e : list N * node) : bool := beq (dirname (fst e)) d.

(** What readdir returns for a directory, in some order: "." and "..", and the names in it with their types (d_type; file systems that
    don't tell the type are not modelled). The whole directory is read in one go. *)
Definition dir_entries (w : world) (d : list N) : list (list N * node) :=
  ([46], NDir) :: ([46; 46], NDir) ::
  map (fun e => (basename (fst e), snd e))
      (filter (fun e => in_dir d e && negb (len (basename (fst e)) =? 0)) (w_names w)).

Inductive sysc :=
| SMkdir (p : list N)                    (* mkdirat *)
| SRmdir (p : list N)                    (* unlinkat AT_REMOVEDIR *)
| SUnlink (p : list N)                   (* unlinkat *)
| SOpen (p : list N)                     (* openat O_RDONLY|O_NOFOLLOW *)
| SCreat (p : list N)                    (* openat O_WRONLY|O_CREAT|O_EXCL *)
| SRead (fd : nat) (n : N)
| SWrite (fd : nat) (data : list N)
| SAccess (p : list N)                   (* faccessat F_OK, AT_SYMLINK_NOFOLLOW *)
| SRenameNoreplace (p q : list N)        (* renameat2 RENAME_NOREPLACE *)
| SLink (p q : list N)                   (* linkat *)
| SRename (p q : list N)                 (* renameat *)
| SSymlink (target p : list N)           (* symlinkat *)
| SReadlink (p : list N) (n : N)         (* readlinkat; at most n bytes *)
| SOpenDir (p : list N)                  (* openat O_DIRECTORY *)
| SList (d : list N)                     (* readdir until the end, on an open directory *)
| SRandom.                               (* 64 random bits *)

Inductive sysret :=
| RNum (n : N)
| RFd (fd : nat)
| RData (b : list N)
| RNames (l : list (list N * node))
| RFail (e : errno).

(** Errors that say something about the file system are returned only when it is so; any other error may come at any
    time, if [faults] are considered. *)
Definition fault (e : errno) : bool :=
  match e with ENOENT | EEXIST | ELOOP | ENOTEMPTY => false | _ => true end.

Inductive sys (faults : bool) : world -> sysc -> world -> sysret -> Prop :=
| s_fault w c e : faults = true -> fault e = true -> sys faults w c w (RFail e)
| s_mkdir w p : name_at w p = None -> sys faults w (SMkdir p) (put_name w p NDir) (RNum 0)
| s_mkdir_exist w p n : name_at w p = Some n -> sys faults w (SMkdir p) w (RFail EEXIST)
| s_rmdir w p : name_at w p = Some NDir -> existsb (in_dir p) (w_names w) = false ->
    sys faults w (SRmdir p) (del_name w p) (RNum 0)
| s_rmdir_notempty w p : name_at w p = Some NDir -> existsb (in_dir p) (w_names w) = true ->
    sys faults w (SRmdir p) w (RFail ENOTEMPTY)
| s_rmdir_noent w p : name_at w p = None -> sys faults w (SRmdir p) w (RFail ENOENT)
| s_rmdir_notdir w p n : name_at w p = Some n -> n <> NDir -> sys faults w (SRmdir p) w (RFail ENOTDIR)
| s_unlink w p n : name_at w p = Some n -> n <> NDir -> sys faults w (SUnlink p) (del_name w p) (RNum 0)
| s_unlink_noent w p : name_at w p = None -> sys faults w (SUnlink p) w (RFail ENOENT)
| s_unlink_dir w p : name_at w p = Some NDir -> sys faults w (SUnlink p) w (RFail EISDIR)
| s_open w p i : name_at w p = Some (NFile i) ->
    sys faults w (SOpen p) (add_fd w i) (RFd (length (w_fds w)))
| s_open_noent w p : name_at w p = None -> sys faults w (SOpen p) w (RFail ENOENT)
| s_open_link w p t : name_at w p = Some (NLink t) -> sys faults w (SOpen p) w (RFail ELOOP)
| s_open_dir w p : name_at w p = Some NDir -> sys faults w (SOpen p) w (RFail EISDIR)
| s_creat w p : name_at w p = None -> name_at w (dirname p) = Some NDir ->
    sys faults w (SCreat p) (add_fd (add_file w p) (length (w_inodes w))) (RFd (length (w_fds w)))
| s_creat_exist w p n : name_at w p = Some n -> sys faults w (SCreat p) w (RFail EEXIST)
| s_creat_noent w p : name_at w p = None -> name_at w (dirname p) <> Some NDir ->
    sys faults w (SCreat p) w (RFail ENOENT)
| s_read w fd n i pos c : nth_error (w_fds w) fd = Some (i, pos) -> nth_error (w_inodes w) i = Some c ->
    sys faults w (SRead fd n) (set_pos w fd i (pos + len (takeN n (dropN pos c)))) (RData (takeN n (dropN pos c)))
| s_write w fd data i pos c k : nth_error (w_fds w) fd = Some (i, pos) -> nth_error (w_inodes w) i = Some c ->
    k <= len data -> 0 < k \/ faults = true ->
    sys faults w (SWrite fd data)
      (set_pos (set_content w i (takeN pos c ++ takeN k data ++ dropN (pos + k) c)) fd i (pos + k)) (RNum k)
| s_access w p n : name_at w p = Some n -> sys faults w (SAccess p) w (RNum 0)
| s_access_noent w p : name_at w p = None -> sys faults w (SAccess p) w (RFail ENOENT)
| s_rename w p q n : name_at w p = Some n -> name_at w q = None ->
    sys faults w (SRenameNoreplace p q) (put_name (del_name w p) q n) (RNum 0)
| s_rename_exist w p q n m : name_at w p = Some n -> name_at w q = Some m ->
    sys faults w (SRenameNoreplace p q) w (RFail EEXIST)
| s_rename_noent w p q : name_at w p = None -> sys faults w (SRenameNoreplace p q) w (RFail ENOENT)
| s_link w p q i : name_at w p = Some (NFile i) -> name_at w q = None ->
    sys faults w (SLink p q) (put_name w q (NFile i)) (RNum 0)
| s_link_exist w p q n m : name_at w p = Some n -> name_at w q = Some m -> sys faults w (SLink p q) w (RFail EEXIST)
| s_link_noent w p q : name_at w p = None -> sys faults w (SLink p q) w (RFail ENOENT)
| s_link_special w p q n : name_at w p = Some n -> (forall i, n <> NFile i) -> name_at w q = None ->
    sys faults w (SLink p q) w (RFail EPERM)
| s_renameat w p q n : name_at w p = Some n -> name_at w q <> Some NDir ->
    sys faults w (SRename p q) (put_name (del_name w p) q n) (RNum 0)
| s_renameat_noent w p q : name_at w p = None -> sys faults w (SRename p q) w (RFail ENOENT)
| s_symlink w t p : name_at w p = None -> name_at w (dirname p) = Some NDir ->
    sys faults w (SSymlink t p) (put_name w p (NLink t)) (RNum 0)
| s_symlink_exist w t p n : name_at w p = Some n -> sys faults w (SSymlink t p) w (RFail EEXIST)
| s_symlink_noent w t p : name_at w p = None -> name_at w (dirname p) <> Some NDir ->
    sys faults w (SSymlink t p) w (RFail ENOENT)
| s_readlink w p n t : name_at w p = Some (NLink t) -> sys faults w (SReadlink p n) w (RData (takeN n t))
| s_readlink_noent w p n : name_at w p = None -> sys faults w (SReadlink p n) w (RFail ENOENT)
| s_readlink_other w p n m : name_at w p = Some m -> (forall t, m <> NLink t) -> sys faults w (SReadlink p n) w (RFail EINVAL)
| s_opendir w p : name_at w p = Some NDir -> sys faults w (SOpenDir p) w (RNum 0)
| s_opendir_noent w p : name_at w p = None -> sys faults w (SOpenDir p) w (RFail ENOENT)
| s_opendir_notdir w p n : name_at w p = Some n -> n <> NDir -> sys faults w (SOpenDir p) w (RFail ENOTDIR)
| s_list w d l : Permutation l (dir_entries w d) -> sys faults w (SList d) w (RNames l)
| s_random w v : v < two64 -> sys faults w SRandom w (RNum v).

(** Programs: a program ends with a result, goes on for ever ([Hang]: the bound on the number of rounds of a loop, which
    each theorem is free to choose, is used up), or makes a system call and goes on depending on its result. *)
Inductive prog (A : Type) :=
| Ret (a : A)
| Hang
| Sys (c : sysc) (k : sysret -> prog A).
Arguments Ret {A} a.
Arguments Hang {A}.
Arguments Sys {A} c k.

Fixpoint pbind {A B} (p : prog A) (f : A -> prog B) : prog B :=
  match p with
  | Ret a => f a
  | Hang => Hang
  | Sys c k => Sys c (fun r => pbind (k r) f)
  end.

Notation "'do' x '<-' a ';;' b" := (pbind a (fun x => b))
  (at level 200, x pattern, a at level 100, b at level 200).

(** Propagation of errors: if (r < 0) return r; *)
Definition ptry {A B} (p : prog (res A)) (f : A -> prog (res B)) : prog (res B) :=
  pbind p (fun r => match r with
                    | Ok a => f a
                    | Err e => Ret (Err e)
                    | Abort => Ret Abort
                    | UB => Ret UB
                    end).
Notation "'try' x '<-' a ';;' b" := (ptry a (fun x => b))
  (at level 200, x pattern, a at level 100, b at level 200).

(** One program running alone. *)
Inductive exec (faults : bool) {A : Type} : world -> prog A -> world -> A -> Prop :=
| ex_ret w a : exec faults w (Ret a) w a
| ex_sys w c k w1 r w2 a : sys faults w c w1 r -> exec faults w1 (k r) w2 a -> exec faults w (Sys c k) w2 a.

(** Any number of processes, system calls interleaved in any way, and stopping anywhere (a crash or kill of some or
    all processes is a state from which nothing further happens). *)
Inductive pstep {A : Type} : world * list (prog A) -> world * list (prog A) -> Prop :=
| ps_step w w' c k r ps qs : sys true w c w' r ->
    pstep (w, ps ++ Sys c k :: qs) (w', ps ++ k r :: qs).

Inductive psteps {A : Type} : world * list (prog A) -> world * list (prog A) -> Prop :=
| pss_refl s : psteps s s
| pss_step s1 s2 s3 : psteps s1 s2 -> pstep s2 s3 -> psteps s1 s3.

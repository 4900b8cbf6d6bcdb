(** What the user of an encoder sees: specification of runs, and which trees count as the same. *)
From Coq Require Import Sorted Permutation.
From Verif Require Import Base FeatureFlags ArchiveBase Bst Encoder.
Local Open Scope N_scope.

Inductive eoutcome := EFinished | EFailed (e : errno) | ECrashed.

(** The data of one step, taken with one or several calls to ca_encoder_get_data with whatever size suggestions. Every
    call returns the data of this step, or the first part of it, so that the result of the last one counts. *)
Inductive efetch (ev : eenv) : enc -> list N -> enc -> Prop :=
| efetch_first e s b e' : 0 < s -> encoder_get_data ev e s = Ok (Some b, e') -> efetch ev e b e'
| efetch_again e b e1 s b' e2 : efetch ev e b e1 -> encoder_get_data ev e1 s = Ok (Some b', e2) -> efetch ev e b' e2.

Definition has_data (x : eret) : bool :=
  match x with ER_NEXT_FILE | ER_DATA | ER_PAYLOAD => true | ER_DONE_FILE | ER_FINISHED => false end.

(** All ways to run an encoder to the end; the bytes are those fetched, in order. *)
Inductive eruns (ev : eenv) : enc -> list N -> eoutcome -> Prop :=
| eruns_finished e e' : encoder_step ev e = Ok (ER_FINISHED, e') -> eruns ev e [] EFinished
| eruns_failed e er : encoder_step ev e = Err er -> eruns ev e [] (EFailed er)
| eruns_crashed e : (encoder_step ev e = Abort \/ encoder_step ev e = UB) -> eruns ev e [] ECrashed
| eruns_quiet e x e' o r : encoder_step ev e = Ok (x, e') -> has_data x = false -> x <> ER_FINISHED ->
    eruns ev e' o r -> eruns ev e o r
| eruns_data e x e' b e2 o r : encoder_step ev e = Ok (x, e') -> has_data x = true ->
    efetch ev e' b e2 -> eruns ev e2 o r -> eruns ev e (b ++ o) r
| eruns_data_failed e x e' s er : encoder_step ev e = Ok (x, e') -> has_data x = true ->
    0 < s -> encoder_get_data ev e' s = Err er -> eruns ev e [] (EFailed er)
| eruns_data_none e x e' s e2 o r : encoder_step ev e = Ok (x, e') -> has_data x = true ->
    encoder_get_data ev e' s = Ok (None, e2) -> eruns ev e2 o r -> eruns ev e o r
| eruns_data_crashed e x e' s : encoder_step ev e = Ok (x, e') -> has_data x = true -> 0 < s ->
    (encoder_get_data ev e' s = Abort \/ encoder_get_data ev e' s = UB) -> eruns ev e [] ECrashed.

(** What qsort() guarantees for a comparison function that orders the elements: the same elements, ascending. *)
Definition orders {A} (cmp : A -> A -> comparison) : Prop :=
  (forall x, cmp x x = Eq) /\ (forall x y, cmp y x = CompOpp (cmp x y)) /\
  (forall x y z, cmp x y <> Gt -> cmp y z <> Gt -> cmp x z <> Gt).
Definition qsort_ok (qs : forall A : Type, (A -> A -> comparison) -> list A -> list A) : Prop :=
  forall A (cmp : A -> A -> comparison) l, orders cmp ->
    Permutation l (qs A cmp l) /\ StronglySorted (fun x y => cmp x y <> Gt) (qs A cmp l).

(** Two machines alike, but for their sorting routine. *)
Record same_env (a b : eenv) : Prop := mkSameEnv {
  se_ff : ev_ff a = ev_ff b; se_gran : ev_gran a = ev_gran b; se_shift : ev_shift a = ev_shift b; se_range : ev_range a = ev_range b;
  se_pw : ev_pw a = ev_pw b; se_gr : ev_gr a = ev_gr b; se_hash : ev_hash a = ev_hash b; se_excl : ev_excl a = ev_excl b;
  se_qsort_a : qsort_ok (ev_qsort a); se_qsort_b : qsort_ok (ev_qsort b) }.

(** The same file as another, apart from the order in which its extended attributes are listed. *)
Record same_stat (a b : fstat) : Prop := mkSameStat {
  ss_mode : st_mode a = st_mode b; ss_uid : st_uid a = st_uid b; ss_gid : st_gid a = st_gid b;
  ss_sec : st_sec a = st_sec b; ss_nsec : st_nsec a = st_nsec b; ss_virtual : fs_virtual a = fs_virtual b;
  ss_mount_id : fs_mount_id a = fs_mount_id b; ss_chattr : fs_chattr a = fs_chattr b; ss_fat : fs_fat a = fs_fat b;
  ss_subvol : fs_subvol a = fs_subvol b; ss_subvol_ro : fs_subvol_ro a = fs_subvol_ro b; ss_selinux : fs_selinux a = fs_selinux b;
  ss_xattrs : Permutation (fs_xattrs a) (fs_xattrs b); ss_acl : fs_acl a = fs_acl b; ss_dacl : fs_default_acl a = fs_default_acl b;
  ss_projid : fs_projid a = fs_projid b }.

(** The same tree as another, apart from the order in which directory entries are listed, on each level. *)
Inductive same_tree : fnode -> fnode -> Prop :=
| same_reg s s' size data : same_stat s s' -> same_tree (FReg s size data) (FReg s' size data)
| same_dir s s' ents mid ents' : same_stat s s' -> Permutation ents mid ->
    Forall2 (fun x y => fst x = fst y /\ same_tree (snd x) (snd y)) mid ents' ->
    same_tree (FDir s ents) (FDir s' ents')
| same_lnk s s' t : same_stat s s' -> same_tree (FLnk s t) (FLnk s' t)
| same_dev s s' x y : same_stat s s' -> same_tree (FDev s x y) (FDev s' x y)
| same_other s s' : same_stat s s' -> same_tree (FOther s) (FOther s').

(** In a file system no directory contains a name twice, and no file has an extended attribute twice. *)
Inductive distinct_names : fnode -> Prop :=
| dn_dir s ents : NoDup (map fst (fs_xattrs s)) -> NoDup (map fst ents) -> Forall (fun x => distinct_names (snd x)) ents ->
    distinct_names (FDir s ents)
| dn_reg s size data : NoDup (map fst (fs_xattrs s)) -> distinct_names (FReg s size data)
| dn_lnk s t : NoDup (map fst (fs_xattrs s)) -> distinct_names (FLnk s t)
| dn_dev s x y : NoDup (map fst (fs_xattrs s)) -> distinct_names (FDev s x y)
| dn_other s : NoDup (map fst (fs_xattrs s)) -> distinct_names (FOther s).

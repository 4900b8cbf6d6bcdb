(** Notions in which the properties of garbage collection are stated. *)
From Verif Require Import Base ChunkId Index IndexSpec Posix ChunkFile Store StoreSpec.
Local Open Scope N_scope.

Definition no_slash (l : list N) : Prop := ~ In 47 l.

(** A complete, well-formed index file. *)
Definition good_index (file : option (list N)) : Prop :=
  exists f mi av ma l, params_ok f mi av ma /\ chunks_ok ma l /\ file = Some (index_image f mi av ma l).

(** One of the indexes lists the chunk. *)
Definition referenced (files : list (option (list N))) (id : list N) : Prop :=
  exists f mi av ma l, params_ok f mi av ma /\ chunks_ok ma l /\ In (Some (index_image f mi av ma l)) files /\ In id (map fst l).

(** Files have bytes in them and aren't longer than a terabyte. *)
Definition files_ok (files : list (option (list N))) : Prop :=
  forall data, In (Some data) files -> bytes_ok data = true /\ len data < 2 ^ 40.

(** A path whose last component ends with .cacnk, the text before the first dot being the 64 digits of the id of a chunk which is not in use. *)
Definition doomed (used : list N -> Prop) (q : list N) : Prop :=
  exists d n id, (q = n \/ q = d ++ 47 :: n) /\ no_slash n /\ (exists pre, n = pre ++ [46; 99; 97; 99; 110; 107]) /\
    (exists suf, n = chunk_id_format id ++ 46 :: suf) /\ id_ok id = true /\ ~ used id.

(** The names are C strings. *)
Definition c_names (w : world) : Prop := forall p n, In (p, n) (w_names w) -> cstr_ok p = true.

(** A path of something in the store's directory; the latter's name ends with a slash. *)
Definition in_root (root q : list N) : Prop := exists sub, no_slash sub /\ q = root ++ sub.

(** A store's directory as it is left by those who write to it: it is there, is not the file system's root, has only directories in it; and
    nothing has the name . or .. *)
Definition tidy (w : world) (root : list N) : Prop :=
  (exists d, d <> [] /\ root = d ++ [47]) /\ name_at w root = Some NDir /\
  NoDup (map fst (w_names w)) /\
  (forall p n, In (p, n) (w_names w) -> basename p <> [46] /\ basename p <> [46; 46]) /\
  (forall p n, In (p, n) (w_names w) -> dirname p = dirname root -> basename p <> [] -> n = NDir).

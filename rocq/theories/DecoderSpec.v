(** What the user of a decoder sees: specification of runs and of the trees they stand for. *)
From Coq Require Import Sorted.
From Verif Require Import Base FeatureFlags ArchiveBase Decoder.
Local Open Scope N_scope.

(** An observation: a file starts (its path and everything known about it), a byte of its contents, the file is
    complete. *)
Inductive obs :=
| OFile (path : list (list N)) (e : dentry)
| OByte (b : N)
| ODone (path : list (list N)).

(** What is seen after ca_decoder_step has returned [r], through the getters. *)
Definition observe (r : dret) (d : dec) : list obs :=
  match r with
  | R_NEXT_FILE => match d_nodes d with
                   | n :: _ => match dn_entry n with Some e => [OFile (current_path d) e] | None => [] end
                   | [] => []
                   end
  | R_PAYLOAD => match get_payload d with Ok b => map OByte b | _ => [] end
  | R_DONE_FILE => [ODone (current_path d)]
  | R_REQUEST | R_STEP | R_FINISHED => []
  end.

(** How a run ends. *)
Inductive outcome :=
| Finished (rest : list N)     (* success; these bytes of the input were not needed *)
| Failed (e : errno)
| Starved                      (* all input is there and end of file was announced, but the decoder wants more *)
| Crashed.                     (* failed assertion or undefined behaviour *)

(** All ways to use a decoder on the input [i]: the caller may feed any piece of the input at any time, steps at any
    time, and announces the end of file when it has fed everything (or not at all, if it isn't needed). *)
Inductive drun (env : denv) : dec -> list N -> list obs -> outcome -> Prop :=
| drun_put d p i d' o r :
    decoder_put_data d p = Ok d' -> drun env d' i o r -> drun env d (p ++ i) o r
| drun_eof d o r :
    drun env (decoder_put_eof d) [] o r -> drun env d [] o r
| drun_step d i x d' o r :
    decoder_step env d = Ok (x, d') -> x <> R_FINISHED ->
    drun env d' i o r -> drun env d i (observe x d' ++ o) r
| drun_finished d i d' :
    decoder_step env d = Ok (R_FINISHED, d') -> drun env d i [] (Finished (d_buf d' ++ i))
| drun_failed d i e :
    decoder_step env d = Err e -> drun env d i [] (Failed e)
| drun_starved d d' :
    d_eof d = true -> decoder_step env d = Ok (R_REQUEST, d') -> drun env d [] [] Starved
| drun_crashed d i :
    (decoder_step env d = Abort \/ decoder_step env d = UB) -> drun env d i [] Crashed.

(** The observations a tree gives rise to. *)
Fixpoint tree_obs (path : list (list N)) (t : tree) : list obs :=
  match t with
  | TReg m data => OFile path (mkDentry m None None (Some (len data))) :: map OByte data ++ [ODone path]
  | TDir m ents =>
      OFile path (mkDentry m None None None) ::
      concat (map (fun e => tree_obs (path ++ [fst e]) (snd e)) ents) ++ [ODone path]
  | TLnk m target => [OFile path (mkDentry m (Some target) None None); ODone path]
  | TDev m x y => [OFile path (mkDentry m None (Some (x, y)) None); ODone path]
  | TOther m => [OFile path (mkDentry m None None None); ODone path]
  end.

(** A file name that denotes an entry of the directory it is used in, and nothing else. *)
Definition is_component (s : list N) : Prop :=
  s <> [] /\ ~ In 0 s /\ ~ In 47 s /\ s <> [46] /\ s <> [46; 46].

(** Names of users and groups as the decoder takes them: a letter or underscore first, then letters, digits, underscores
    and dashes, at most 255 bytes; never the name of the superuser. *)
Definition letter_ (b : N) : Prop := 97 <= b <= 122 \/ 65 <= b <= 90 \/ b = 95.
Definition is_user_name (s : list N) : Prop :=
  s <> [] /\ letter_ (hd 0 s) /\ Forall (fun b => letter_ b \/ 48 <= b <= 57 \/ b = 45) (tl s) /\ len s <= 255 /\
  s <> [114; 111; 111; 116].

(** prefix.name, both parts non-empty, no NUL, at most 255 bytes *)
Definition is_xattr_name (s : list N) : Prop :=
  (exists a b, s = a ++ [46] ++ b /\ a <> [] /\ b <> [] /\ ~ In 46 a) /\ ~ In 0 s /\ len s <= 255.

Definition ascending {A} (lt : A -> A -> Prop) (l : list A) : Prop := StronglySorted lt l.
Definition str_lt (a b : list N) : Prop := strcmp a b = Lt.

Definition is_id (u : N) : Prop := u < UINT32_MAX /\ u <> UINT16_MAX.
Definition is_perm (p : N) : Prop := p <= 7.
Definition is_perm_opt (p : N) : Prop := p <= 7 \/ p = UINT64_MAX.
Definition is_acl_ent (a : acl_ent) : Prop :=
  is_id (ae_id a) /\ is_perm (ae_perm a) /\ (forall n, ae_name a = Some n -> is_user_name n).
Definition is_acl_list (l : list acl_ent) : Prop :=
  Forall is_acl_ent l /\ ascending (fun a b => acl_cmp a b = Lt) l.

(** Meta data that makes sense by itself. *)
Record valid_meta (m : meta) : Prop := mkValidMeta {
  vm_mode : m_mode m < 65536;
  vm_uid : is_id (m_uid m); vm_gid : is_id (m_gid m);
  vm_user : forall n, m_user m = Some n -> is_user_name n;
  vm_group : forall n, m_group m = Some n -> is_user_name n;
  vm_xattr_names : Forall (fun x => is_xattr_name (fst x)) (m_xattrs m);
  vm_xattr_order : ascending (fun x y => str_lt (fst x) (fst y)) (m_xattrs m);
  vm_acl_user : is_acl_list (m_acl_user m); vm_acl_group : is_acl_list (m_acl_group m);
  vm_acl_group_obj : is_perm_opt (m_acl_group_obj m);
  vm_acl_du : is_perm_opt (m_acl_default_user_obj m); vm_acl_dg : is_perm_opt (m_acl_default_group_obj m);
  vm_acl_do : is_perm_opt (m_acl_default_other m); vm_acl_dm : is_perm_opt (m_acl_default_mask m);
  vm_acl_duser : is_acl_list (m_acl_default_user m); vm_acl_dgroup : is_acl_list (m_acl_default_group m);
  vm_acl_masked : m_acl_user m <> [] \/ m_acl_group m <> [] -> m_acl_group_obj m <> UINT64_MAX;
  vm_acl_default_masked :
    m_acl_default_user m <> [] \/ m_acl_default_group m <> [] -> m_acl_default_mask m <> UINT64_MAX;
  vm_acl_default_dir :
    S_ISDIR (m_mode m) = false ->
    m_acl_default_user m = [] /\ m_acl_default_group m = [] /\ m_acl_default_user_obj m = UINT64_MAX /\
    m_acl_default_group_obj m = UINT64_MAX /\ m_acl_default_other m = UINT64_MAX /\ m_acl_default_mask m = UINT64_MAX;
  vm_selinux : forall s, m_selinux m = Some s -> s <> [] /\ ~ In 0 s;
  vm_fcaps : S_ISREG (m_mode m) = false -> m_fcaps m = None;
  vm_projid : forall q, m_projid m = Some q ->
    0 < q <= UINT32_MAX /\ (S_ISREG (m_mode m) || S_ISDIR (m_mode m))%bool = true;
  vm_symlink : S_ISLNK (m_mode m) = true ->
    m_mode m = S_IFLNK + 0x1FF /\ m_xattrs m = [] /\ m_acl_user m = [] /\ m_acl_group m = [] /\
    m_acl_group_obj m = UINT64_MAX;
  vm_flags : m_flags m <> 0 -> (S_ISREG (m_mode m) || S_ISDIR (m_mode m))%bool = true
}.

(** A tree that can exist in a file system, apart from names occurring twice. *)
Fixpoint valid_tree (t : tree) : Prop :=
  match t with
  | TReg m data => valid_meta m /\ S_ISREG (m_mode m) = true
  | TDir m ents => valid_meta m /\ S_ISDIR (m_mode m) = true /\
      (fix all l := match l with [] => True | (n, c) :: l => is_component n /\ valid_tree c /\ all l end) ents
  | TLnk m target => valid_meta m /\ S_ISLNK (m_mode m) = true /\ target <> [] /\ ~ In 0 target /\ len target <= 4095
  | TDev m x y => valid_meta m /\ (S_ISBLK (m_mode m) || S_ISCHR (m_mode m))%bool = true /\ x < 4096 /\ y < 1048576
  | TOther m => valid_meta m /\ (S_ISFIFO (m_mode m) || S_ISSOCK (m_mode m))%bool = true
  end.

(** Using a decoder for a while: what was observed so far, and the input that's still to be fed. *)
Inductive duse (env : denv) : dec -> list N -> list obs -> dec -> list N -> Prop :=
| duse_refl d i : duse env d i [] d i
| duse_put d p i d' o d2 i2 :
    decoder_put_data d p = Ok d' -> duse env d' i o d2 i2 -> duse env d (p ++ i) o d2 i2
| duse_eof d o d2 i2 :
    duse env (decoder_put_eof d) [] o d2 i2 -> duse env d [] o d2 i2
| duse_step d i x d' o d2 i2 :
    decoder_step env d = Ok (x, d') -> x <> R_FINISHED ->
    duse env d' i o d2 i2 -> duse env d i (observe x d' ++ o) d2 i2.

(** The paths seen. *)
Definition obs_path (x : obs) : option (list (list N)) :=
  match x with OFile p _ | ODone p => Some p | OByte _ => None end.

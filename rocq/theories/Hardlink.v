(** Hard links to seeds instead of extracted files: ca_decoder_try_hardlink, and the cache in which a seed's files are found.

    The file system is that of Fs.v, and linkat. *)
From Verif Require Import Base FeatureFlags ArchiveBase Decoder Encoder Fs Extract.
Local Open Scope N_scope.

(** ** linkat, and programs that use it *)
Section LinkDo.
Variable env : fenv.
(** linkat(root, path, d, name, 0): the last symbolic link of [path] isn't followed, directories can't be linked. *)
Definition link_do (w : fs) (root : N) (path : list N) (d : N) (name : list N) : ret * fs :=
  if len path =? 0 then (RFail ENOENT, w)
  else on_name env w root path (fun _ _ _ _ i x =>
    on_dir env w d name (fun d nd ents name =>
      match get name ents with
      | Some _ => (RFail EEXIST, w)
      | None =>
          if NAME_MAX <? len name then (RFail ENAMETOOLONG, w)
          else if is_dir x then (RFail EPERM, w)
          else if a_imm (i_attrs nd) || a_imm (i_attrs x) then (RFail EPERM, w)
          else (RDone, set_ents env w d nd (put name i ents))
      end)).
End LinkDo.

Inductive hprog (A : Type) := HRet (r : res A) | HSys (c : call) (k : ret -> hprog A) | HLink (root : N) (path : list N) (d : N) (name : list N) (k : ret -> hprog A).
Arguments HRet {A}. Arguments HSys {A}. Arguments HLink {A}.
Fixpoint lift {A} (p : prog A) : hprog A := match p with Ret r => HRet r | Sys c k => HSys c (fun x => lift (k x)) end.
Fixpoint hbind {A B} (p : hprog A) (f : res A -> hprog B) : hprog B :=
  match p with HRet r => f r | HSys c k => HSys c (fun x => hbind (k x) f) | HLink r q d n k => HLink r q d n (fun x => hbind (k x) f) end.
Definition hlink (root : N) (path : list N) (d : N) (name : list N) : hprog ret :=
  HLink root path d name (fun x => HRet (match x with RFail e => Err e | x => Ok x end)).
Notation "'doh!' x <- a ;; b" := (hbind a (fun y => match y with Ok x => b | Err e => HRet (Err e) | Abort => HRet Abort | UB => HRet UB end))
  (at level 200, x pattern, a at level 100, b at level 200, only parsing).

(** Execution with any kind of trouble, as [passes] in Fs.v; the kernel doesn't claim that a directory is in the way of a renaming, or is renamed,
    if it isn't so (it does that by itself in [fs_do]). *)
Definition fair (t : trouble) (c : call) : Prop := match t, c with TFail e, CRename _ _ _ => e <> ENOTDIR /\ e <> EISDIR | _, _ => True end.
Inductive hpasses (env : fenv) {A} : hprog A -> fs -> list fs -> option (res A) -> Prop :=
| hpasses_stop p w : hpasses env p w [] None
| hpasses_ret r w : hpasses env (HRet r) w [] (Some r)
| hpasses_call c k t w x w1 l o : fair t c -> result_of env t w c = (x, w1) -> hpasses env (k x) w1 l o -> hpasses env (HSys c k) w (w1 :: l) o
| hpasses_link r q d n k t w x w1 l o : (match t with TFail e => (RFail e, w) | _ => link_do env w r q d n end) = (x, w1) ->
    hpasses env (k x) w1 l o -> hpasses env (HLink r q d n k) w (w1 :: l) o.

(** ** cadecoder.c *)
(** cadecoder.c:5486-5496 ca_decoder_mode_mask *)
Definition mode_mask (ff : N) : N := if has ff WITH_PERMISSIONS then 0xFFF else if has ff WITH_READ_ONLY then 0x80 else 0.

(** cadecoder.c:5541-5566: what is compared. [e] is the entry, n->size the payload's size. *)
Definition superficial (ff : N) (e : dentry) (st : inode) : res bool :=
  let a := i_attrs st in
  let m := dt_meta e in
  match i_body st with
  | BReg data =>
      if negb (len data =? opt_or (dt_size e) UINT64_MAX) then Ok false
      else if negb (N.land (N.lxor (a_perm a) (m_mode m)) (mode_mask ff) =? 0) then Ok false
      else if has ff (bor [WITH_16BIT_UIDS; WITH_32BIT_UIDS]) && (negb (a_uid a =? m_uid m) || negb (a_gid a =? m_gid m)) then Ok false
      else if has ff (bor [WITH_SEC_TIME; WITH_USEC_TIME; WITH_NSEC_TIME; WITH_2SEC_TIME]) then
        let! g := time_granularity_nsec ff in Ok (a_mtime a / g =? m_mtime m / g)
      else Ok true
  | _ => Ok false
  end.

(** IN_SET(errno, EXDEV, EMLINK, EPERM); EMLINK isn't modelled, as the link counts *)
Definition no_link (e : errno) : bool := match e with EXDEV | EPERM => true | _ => false end.

(** cadecoder.c:5498-5615 ca_decoder_try_hardlink. [enabled]: d->hardlink; [root]: root->fd. Without an entry there is no tree, and then no parent
    either. The result tells whether there is a link now; then the child isn't finalized ([hardlinked], see [hxstep]). *)
Definition try_hardlink (cfg : xcfg) (enabled : bool) (root : N) (path : list N) (x : xdec) : hprog (bool * xdec) :=
  let d := x_dec x in
  match d_state d with
  | D_FINALIZE =>
      if negb enabled then HRet (Ok (false, x))
      else match d_nodes d, x_nodes x with
      | n :: _, c :: p :: up =>
          match x_fd p with
          | None => HRet (Ok (false, x))
          | Some dir =>
              match dn_entry n with
              | None => HRet (Err EUNATCH)
              | Some e =>
                  if negb (S_ISREG (m_mode (dt_meta e))) then HRet (Err ENOTTY)
                  else
                  HSys (if len path =? 0 then CStat root else CStatAt root path) (fun st =>
                  match st with
                  | RFail ENOENT => HRet (Ok (false, x))
                  | RFail e => HRet (Err e)
                  | RStat st =>
                      match superficial (d_ff d) e st with
                      | Ok true =>
                          let fini :=
                            match x_tmp c with
                            | None => HRet Abort
                            | Some t => doh! _ <- lift (sys (CUnlink dir t)) ;; HRet (Ok (true, mkXdec d (mkXnode None None (x_dirents c) :: p :: up)))
                            end in
                          hbind (hlink root path dir (dn_name n)) (fun r =>
                          match r with
                          | Ok _ => fini
                          | Err EEXIST =>
                              doh! t <- lift (tempfn_random (dn_name n)) ;;
                              hbind (hlink root path dir t) (fun r =>
                              match r with
                              | Ok _ =>
                                  hbind (lift (install_file cfg dir t (dn_name n))) (fun r =>
                                  match r with
                                  | Ok _ => fini
                                  | Err e => hbind (lift (sys (CUnlink dir t))) (fun _ => HRet (Err e))
                                  | Abort => HRet Abort | UB => HRet UB
                                  end)
                              | Err e => if no_link e then HRet (Ok (false, x)) else HRet (Err e)
                              | Abort => HRet Abort | UB => HRet UB
                              end)
                          | Err e => if no_link e then HRet (Ok (false, x)) else HRet (Err e)
                          | Abort => HRet Abort | UB => HRet UB
                          end)
                      | Ok false => HRet (Ok (false, x))
                      | Err e => HRet (Err e) | Abort => HRet Abort | UB => HRet UB
                      end
                  | _ => HRet UB
                  end)
              end
          end
      | _, _ => HRet (Err EUNATCH)
      end
  | _ => HRet (Err EBUSY)
  end.

(** ca_decoder_finalize_child (3516-3518) doesn't touch a child that was replaced by a link. *)
Definition hxstep (env : denv) (cfg : xcfg) (hardlinked : bool) (x : xdec) : hprog (dret * xdec) :=
  let d := x_dec x in
  match d_state d, hardlinked with
  | D_FINALIZE, true =>
      match decoder_step env d with
      | Ok (r, d') => HRet (Ok (r, mkXdec d' (xtrack cfg (x_nodes x) d d')))
      | Err e => HRet (Err e) | Abort => HRet Abort | UB => HRet UB
      end
  | _, _ => lift (xstep env cfg x)
  end.

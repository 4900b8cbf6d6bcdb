(** Histories of calls to an index writer. *)
From Verif Require Import Base Chunker FeatureFlags Index IndexSpec.
Local Open Scope N_scope.

(** A call to the API of a writer; WSpace is not a call but the disk getting fuller or emptier. *)
Definition discard {A} (m : op A) : op (list N) := do! _ <- m in ret [].
Definition wstep (o : wop) : op (list N) :=
  match o with
  | WSetFlags f => discard (index_set_feature_flags f)
  | WSetMin v => discard (index_set_chunk_size_min v)
  | WSetAvg v => discard (index_set_chunk_size_avg v)
  | WSetMax v => discard (index_set_chunk_size_max v)
  | WChunk id sz => discard (index_write_chunk id sz)
  | WEof => discard index_write_eof
  | WInstall => discard index_install
  | WPull => do! r <- index_incremental_read in ret (match r with Some d => d | None => [] end)
  | WSpace n => discard (modS (upd_limit n))
  end.
Fixpoint wrun (h : list wop) (s : idx) : list (wop * res (list N)) * idx :=
  match h with
  | [] => ([], s)
  | o :: h => let (r, s1) := wstep o s in let (tr, s2) := wrun h s1 in ((o, r) :: tr, s2)
  end.


(** Calls of the receiving side (ca_index_new_incremental_read). *)
Definition istep (o : iop) : op (option ientry) :=
  match o with
  | IPush d => do! _ <- index_incremental_write d in ret None
  | IEof => do! _ <- index_incremental_eof in ret None
  | IRead => index_read_chunk
  end.
Fixpoint irun (h : list iop) (s : idx) : list (iop * res (option ientry)) * idx :=
  match h with
  | [] => ([], s)
  | o :: h => let (r, s1) := istep o s in let (tr, s2) := irun h s1 in ((o, r) :: tr, s2)
  end.
(** Never reads while between 41 and 63 bytes have arrived. *)
Fixpoint no_early_read (got : N) (h : list iop) : Prop :=
  match h with
  | [] => True
  | IPush d :: h => no_early_read (got + len d) h
  | IEof :: h => no_early_read got h
  | IRead :: h => (got < 41 \/ 64 <= got) /\ no_early_read got h
  end.
(** What the pieces of a history amount to, and whether the end is announced exactly when all has arrived. *)
Fixpoint pushes (h : list iop) : list N :=
  match h with [] => [] | IPush d :: h => d ++ pushes h | _ :: h => pushes h end.
Fixpoint eof_last (h : list iop) : Prop :=
  match h with
  | [] => True
  | IEof :: h => Forall (fun o => o = IRead) h
  | _ :: h => eof_last h
  end.

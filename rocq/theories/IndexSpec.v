(** The documented layout of an index file (caformat.h 60-75 and 421-446), independent of the code. *)
From Verif Require Import Base FeatureFlags.
Local Open Scope N_scope.

(** A chunk: its 32 byte id and its size. *)
Notation chunk := (list N * N)%type (only parsing).

(** The table entries: for each chunk the offset of its end in the blob, and its id. *)
Fixpoint image_entries (off : N) (l : list chunk) : list N :=
  match l with
  | [] => []
  | (id, sz) :: l => le64 (off + sz) ++ id ++ image_entries (off + sz) l
  end.

Definition index_image (flags mi av ma : N) (l : list chunk) : list N :=
  (* INDEX record *)
  le64 48 ++ le64 0x96824d9c7b129ff9 ++ le64 flags ++ le64 mi ++ le64 av ++ le64 ma
  (* TABLE record *)
  ++ le64 0xffffffffffffffff ++ le64 0xe75b9e112f17417d
  ++ image_entries 0 l
  (* tail *)
  ++ le64 0 ++ le64 0 ++ le64 48 ++ le64 (16 + 40 * (len l + 1)) ++ le64 0x4b4f050e5549ecd1.

Definition blob_size_of (l : list chunk) : N := fold_right (fun c n => snd c + n) 0 l.

(** An index that makes sense: normalised flags, sizes in the limits and ordered; chunks neither empty nor
    longer than the maximum; the blob shorter than 2^64 - 1. *)
Definition params_ok (flags mi av ma : N) : Prop :=
  feature_flags_are_normalized flags = Ok true /\ 1 <= mi /\ mi <= av /\ av <= ma /\ ma <= 128 * 1024 * 1024.
Definition chunk_ok (ma : N) (c : chunk) : Prop :=
  length (fst c) = 32%nat /\ bytes_ok (fst c) = true /\ 0 < snd c <= ma.
Definition chunks_ok (ma : N) (l : list chunk) : Prop :=
  Forall (chunk_ok ma) l /\ blob_size_of l < UINT64_MAX.

(** What reading the index in order shall deliver: id, end offset, size. *)
Fixpoint entries_of (off : N) (l : list chunk) : list (list N * N * N) :=
  match l with
  | [] => []
  | (id, sz) :: l => (id, off + sz, sz) :: entries_of (off + sz) l
  end.

(** A trace of a writer, from outside: which calls were made and how they went. *)
Inductive wop :=
| WSetFlags (f : N) | WSetMin (v : N) | WSetAvg (v : N) | WSetMax (v : N)
| WChunk (id : list N) (sz : N) | WEof | WInstall | WPull | WSpace (n : N).

(** The chunks whose writing succeeded, in order. *)
Fixpoint trace_chunks (tr : list (wop * res (list N))) : list chunk :=
  match tr with
  | [] => []
  | (WChunk id sz, Ok _) :: tr => (id, sz) :: trace_chunks tr
  | _ :: tr => trace_chunks tr
  end.
(** Whether a call to install succeeded. *)
Fixpoint trace_installed (tr : list (wop * res (list N))) : bool :=
  match tr with
  | [] => false
  | (WInstall, Ok _) :: tr => true
  | _ :: tr => trace_installed tr
  end.
Fixpoint trace_eof (tr : list (wop * res (list N))) : bool :=
  match tr with
  | [] => false
  | (WEof, Ok _) :: tr => true
  | _ :: tr => trace_eof tr
  end.
(** The bytes that were handed out for transfer. *)
Fixpoint trace_pulled (tr : list (wop * res (list N))) : list N :=
  match tr with
  | [] => []
  | (WPull, Ok d) :: tr => d ++ trace_pulled tr
  | _ :: tr => trace_pulled tr
  end.
Definition out_of_space (tr : list (wop * res (list N))) : Prop := exists o, In (o, Err ENOSPC) tr.
(** Arguments the API can be called with: ids are 32 bytes. *)
Definition wop_ok (o : wop) : Prop :=
  match o with WChunk id _ => length id = 32%nat /\ bytes_ok id = true | _ => True end.

(** The receiving side of a transfer: pieces arrive, the end is announced, entries are read. *)
Inductive iop := IPush (d : list N) | IEof | IRead.
Definition ientry := (list N * N * N)%type.
Fixpoint itrace_pushed (tr : list (iop * res (option ientry))) : list N :=
  match tr with [] => [] | (IPush d, Ok _) :: tr => d ++ itrace_pushed tr | _ :: tr => itrace_pushed tr end.
Fixpoint itrace_read (tr : list (iop * res (option ientry))) : list ientry :=
  match tr with [] => [] | (IRead, Ok (Some e)) :: tr => e :: itrace_read tr | _ :: tr => itrace_read tr end.

(** What a user of the remote's queue of chunk requests relies on: two first-in first-out queues, one of high and one of low priority. *)
From Verif Require Import Base ChunkId Posix ChunkFile Cache Queue.
Local Open Scope N_scope.

(** The chunks waiting to be asked for, first the one to be asked for next; and all chunks that were queued ever (and not forgotten), each
    with the priority it was queued at last. *)
Record fifo := mkFifo { waiting_high : list (list N); waiting_low : list (list N); known : list (list N * bool) }.
Definition nothing : fifo := mkFifo [] [] [].

Definition without (id : list N) (l : list (list N)) : list (list N) := filter (fun x => negb (beq x id)) l.
Definition forgotten (id : list N) (l : list (list N * bool)) : list (list N * bool) := filter (fun x => negb (beq (fst x) id)) l.

Definition join (s : fifo) (id : list N) (high : bool) : fifo :=
  if high then mkFifo (waiting_high s ++ [id]) (waiting_low s) ((id, true) :: known s)
  else mkFifo (waiting_high s) (waiting_low s ++ [id]) ((id, false) :: known s).
Definition leave (s : fifo) (id : list N) : fifo :=
  mkFifo (without id (waiting_high s)) (without id (waiting_low s)) (forgotten id (known s)).

(** A chunk that was never asked for joins the queue. One that was asked for already is not queued again, except that a low priority
    request may be raised: while it is waiting it moves to the end of the high priority queue, and when it was sent already it is sent
    again with high priority, if the caller wants that. *)
Definition ask (s : fifo) (id : list N) (high again : bool) : fifo * bool :=
  match assoc (known s) id with
  | None => (join s id high, true)
  | Some true => (s, false)
  | Some false =>
    if high && (again || existsb (beq id) (waiting_low s)) then (join (leave s id) id true, true) else (s, false)
  end.

(** The chunk to ask for next: the first one of high priority, else the first one of low priority; or only among those of one priority. *)
Definition next (s : fifo) (only : option bool) : fifo * option (list N * bool) :=
  match waiting_high s, waiting_low s, only with
  | id :: h, l, (None | Some true) => (mkFifo h l (known s), Some (id, true))
  | [], id :: l, None => (mkFifo [] l (known s), Some (id, false))
  | h, id :: l, Some false => (mkFifo h l (known s), Some (id, false))
  | _, _, _ => (s, None)
  end.

Inductive op :=
| Ask (id : list N) (high again : bool)
| Next (only : option bool)
| Forget (id : list N).
Inductive answer :=
| Asked (queued : bool)
| Got (id : list N) (high : bool)
| Nothing
| Forgot
| Failed.

(** What the two queues answer. A chunk may be forgotten only if it was asked for. *)
Definition expect (s : fifo) (o : op) : fifo * answer :=
  match o with
  | Ask id high again => let '(s, r) := ask s id high again in (s, Asked r)
  | Next only => let '(s, r) := next s only in (s, match r with Some (id, high) => Got id high | None => Nothing end)
  | Forget id => (leave s id, Forgot)
  end.

(** What the program answers. *)
Definition op_prog (fuel : nat) (q : queue) (o : op) : prog (queue * answer) :=
  match o with
  | Ask id high again => do x <- enqueue_request fuel q id high again ;;
      Ret (fst x, match snd x with Ok b => Asked b | _ => Failed end)
  | Next only => do x <- dequeue_request fuel q only ;;
      Ret (fst x, match snd x with Ok (id, high) => Got id high | Err ENODATA => Nothing | _ => Failed end)
  | Forget id => do r <- forget_chunk fuel q id ;;
      Ret (q, match r with Ok _ => Forgot | _ => Failed end)
  end.

(** A name in the cache that has to do with the queue, and the names of cached chunks. *)
Definition of_queue (root p : list N) : Prop :=
  p = root \/ exists d, In d [s_chunks; s_high; s_low] /\ (p = root ++ 47 :: d \/ exists x, p = root ++ 47 :: d ++ 47 :: x).
Definition chunk_name (root p : list N) : Prop := exists id s, id_ok id = true /\ (s = [] \/ s = cacnk) /\ p = chunk_id_format_path (root ++ [47]) id s.

(** What happens to the file system between two operations: anything but to the names of the queue (chunks are saved, loaded, removed). *)
Definition elsewhere (root : list N) (w w' : world) : Prop :=
  (forall p, of_queue root p -> name_at w' p = name_at w p) /\
  (forall p, chunk_name root p -> name_at w p <> Some NDir -> name_at w' p <> Some NDir).

Inductive run (faults : bool) (fuel : nat) : world -> queue -> list (op * answer) -> world -> queue -> Prop :=
| r_end w q : run faults fuel w q [] w q
| r_op w q o w1 q1 a h w2 q2 : exec faults w (op_prog fuel q o) w1 (q1, a) -> run faults fuel w1 q1 h w2 q2 ->
    run faults fuel w q ((o, a) :: h) w2 q2
| r_else w q w1 h w2 q2 : elsewhere (q_path q) w w1 -> run faults fuel w1 q h w2 q2 -> run faults fuel w q h w2 q2.

(** The history is one the two queues could have had. *)
Fixpoint served (s : fifo) (h : list (op * answer)) : Prop :=
  match h with
  | [] => True
  | (o, a) :: h => a = snd (expect s o) /\ served (fst (expect s o)) h
  end.
Fixpoint after (s : fifo) (h : list op) : fifo :=
  match h with [] => s | o :: h => after (fst (expect s o)) h end.

(** Chunk ids are chunk ids, and a chunk is forgotten only after it was asked for. *)
Fixpoint sensible (s : fifo) (h : list op) : Prop :=
  match h with
  | [] => True
  | o :: h => (match o with
               | Ask id _ _ => id_ok id = true
               | Next _ => True
               | Forget id => id_ok id = true /\ assoc (known s) id <> None
               end) /\ sensible (fst (expect s o)) h
  end.

(** A new or empty directory. *)
Definition unused (root : list N) (w : world) : Prop :=
  (name_at w root = None \/ name_at w root = Some NDir) /\
  (forall p, of_queue root p -> p <> root -> name_at w p = None) /\
  (forall p, chunk_name root p -> name_at w p <> Some NDir).

(** How often a chunk was handed out, and how often a request for it was accepted. *)
Definition is_got (id : list N) (e : op * answer) : bool := match snd e with Got x _ => beq x id | _ => false end.
Definition is_queued (id : list N) (e : op * answer) : bool :=
  match e with (Ask x _ _, Asked true) => beq x id | _ => false end.
Definition times (f : op * answer -> bool) (h : list (op * answer)) : nat := length (filter f h).

(** Model of src/realloc-buffer.c and realloc-buffer.h: the growing byte buffer used all over the code.

    Simplifications: memory blocks are byte lists of exactly the size requested from the allocator; the
    bytes of fresh memory are given by an oracle; a null ReallocBuffer pointer and a negative fd (both
    -EINVAL) are not modelled.  size_t arithmetic is modulo 2^64. *)
From Verif Require Import Base.
Local Open Scope N_scope.

(** realloc-buffer.h:10-15. [rb_data = None] is a null pointer. *)
Record rbuf := mkRB { rb_data : option (list N); rb_alloc : N; rb_start : N; rb_end : N }.

(** realloc-buffer.c:11 and def.h:8. *)
Definition REALLOC_BUFFER_MAX : N := 1073741824.
Definition BUFFER_SIZE : N := 65536.

(** The environment of one allocation: does it succeed, what is in fresh memory, the page size. *)
Record env := mkEnv { env_ok : bool; env_junk : nat -> N; env_page : N }.
Definition fresh (j : nat -> N) (n : N) : list N := map j (seq 0 (N.to_nat n)).

Definition addw (a b : N) : N := (a + b) mod two64.

(** A buffer as calloc()/={} makes it. *)
Definition rb_init : rbuf := mkRB None 0 0 0.

(** realloc-buffer.h:17-27 and 46-52: the assertions of both accessors. *)
Definition rb_sane (b : rbuf) : bool :=
  (rb_start b <=? rb_end b) && (rb_end b <=? rb_alloc b) &&
  (match rb_data b with Some _ => true | None => rb_alloc b =? 0 end).
Definition rb_size (b : rbuf) : res N := if rb_sane b then Ok (rb_end b - rb_start b) else Abort.

Definition rb_mem (b : rbuf) : list N := match rb_data b with Some d => d | None => [] end.

(** Reading [n] bytes at offset [off] of the allocated block; outside of it is undefined behaviour. *)
Definition peek (b : rbuf) (off n : N) : res (list N) :=
  if n =? 0 then Ok [] else
  if off + n <=? len (rb_mem b) then Ok (takeN n (dropN off (rb_mem b))) else UB.
(** Writing there. *)
Definition poke (b : rbuf) (off : N) (bs : list N) : res rbuf :=
  if len bs =? 0 then Ok b else
  if off + len bs <=? len (rb_mem b) then
    Ok (mkRB (Some (takeN off (rb_mem b) ++ bs ++ dropN (off + len bs) (rb_mem b))) (rb_alloc b) (rb_start b) (rb_end b))
  else UB.

(** util.h:536-538. *)
Definition ALIGN_TO (l ali : N) : N := N.ldiff (addw l (ali - 1)) (ali - 1).

(** realloc(): the old contents as far as they fit, then junk. *)
Definition realloc_mem (e : env) (old : list N) (n : N) : list N :=
  takeN n old ++ dropN (len (takeN n old)) (fresh (env_junk e) n).

(** realloc_buffer_acquire (realloc-buffer.c:13-69).  The result is the offset of the returned pointer in the block, or
    [None] for NULL. *)
Definition rb_acquire (e : env) (b : rbuf) (size : N) : res (option N * rbuf) :=
  if size =? 0 then Ok (Some 0, mkRB (rb_data b) (rb_alloc b) 0 0) else
  if REALLOC_BUFFER_MAX <? size then Ok (None, b) else
  let ne := addw (rb_start b) size in
  if ne <? rb_start b then Ok (None, b) else
  if ne <=? rb_alloc b then Ok (Some (rb_start b), mkRB (rb_data b) (rb_alloc b) (rb_start b) ne) else
  let na := (rb_alloc b * 2) mod two64 in
  if na <? rb_alloc b then Ok (None, b) else
  let na := if REALLOC_BUFFER_MAX <? na then REALLOC_BUFFER_MAX else na in
  let ns := ALIGN_TO (N.max na size) (env_page e) in
  if rb_start b =? 0 then
    if negb (env_ok e) then Ok (None, b) else
    Ok (Some 0, mkRB (Some (realloc_mem e (rb_mem b) ns)) ns 0 size)
  else
    if negb (env_ok e) then Ok (None, b) else
    let! sz := rb_size b in
    let! live := peek b (rb_start b) sz in
    let! b' := poke (mkRB (Some (fresh (env_junk e) ns)) ns 0 size) 0 live in
    Ok (Some 0, b').

(** realloc_buffer_acquire0 (realloc-buffer.c:71-111). *)
Definition rb_acquire0 (e : env) (b : rbuf) (size : N) : res (option N * rbuf) :=
  if size =? 0 then Ok (Some 0, mkRB (rb_data b) (rb_alloc b) 0 0) else
  if REALLOC_BUFFER_MAX <? size then Ok (None, b) else
  if size <? rb_alloc b then
    let! b' := poke b 0 (repeat 0 (N.to_nat size)) in
    Ok (Some 0, mkRB (rb_data b') (rb_alloc b') 0 size)
  else
  let na := (rb_alloc b * 2) mod two64 in
  if na <? rb_alloc b then Ok (None, b) else
  let na := if REALLOC_BUFFER_MAX <? na then REALLOC_BUFFER_MAX else na in
  let ns := ALIGN_TO (N.max na size) (env_page e) in
  if negb (env_ok e) then Ok (None, b) else
  Ok (Some 0, mkRB (Some (repeat 0 (N.to_nat ns))) ns 0 size).

(** realloc_buffer_extend (realloc-buffer.c:113-131). *)
Definition rb_extend (e : env) (b : rbuf) (add : N) : res (option N * rbuf) :=
  let! old := rb_size b in
  let new := addw old add in
  if new <? old then Ok (None, b) else
  let! (p, b') := rb_acquire e b new in
  Ok (match p with None => None | Some p => Some (p + old) end, b').

(** realloc_buffer_extend0 (realloc-buffer.c:133-142). *)
Definition rb_extend0 (e : env) (b : rbuf) (add : N) : res (option N * rbuf) :=
  let! (p, b') := rb_extend e b add in
  match p with
  | None => Ok (None, b')
  | Some p => let! b'' := poke b' p (repeat 0 (N.to_nat add)) in Ok (Some p, b'')
  end.

(** realloc_buffer_append (realloc-buffer.c:144-156). *)
Definition rb_append (e : env) (b : rbuf) (bs : list N) : res (option N * rbuf) :=
  let! (p, b') := rb_extend e b (len bs) in
  match p with
  | None => Ok (None, b')
  | Some p => let! b'' := poke b' p bs in Ok (Some p, b'')
  end.

(** realloc_buffer_free (realloc-buffer.c:158-164), realloc_buffer_empty (realloc-buffer.h:66-68). *)
Definition rb_free (b : rbuf) : rbuf := mkRB None 0 0 0.
Definition rb_empty (b : rbuf) : rbuf := mkRB (rb_data b) (rb_alloc b) 0 0.

(** Results of the int functions. *)
Notation ires := (res (option errno * rbuf)) (only parsing).

(** realloc_buffer_advance (realloc-buffer.c:166-189). *)
Definition rb_advance (b : rbuf) (sz : N) : ires :=
  if sz =? 0 then Ok (None, b) else
  let ns := addw (rb_start b) sz in
  if ns <? rb_start b then Ok (Some EINVAL, b) else
  if rb_end b <? ns then Ok (Some EINVAL, b) else
  if ns =? rb_end b then Ok (None, rb_empty b)
  else Ok (None, mkRB (rb_data b) (rb_alloc b) ns (rb_end b)).

(** realloc_buffer_shorten (realloc-buffer.c:191-208). *)
Definition rb_shorten (b : rbuf) (sz : N) : ires :=
  let! size := rb_size b in
  if size <? sz then Ok (Some EINVAL, b) else
  if sz =? 0 then Ok (None, b) else
  let b' := mkRB (rb_data b) (rb_alloc b) (rb_start b) (rb_end b - sz) in
  if rb_end b' =? rb_start b' then Ok (None, rb_empty b') else Ok (None, b').

(** realloc_buffer_truncate (realloc-buffer.c:210-224). *)
Definition rb_truncate (b : rbuf) (sz : N) : ires :=
  if sz =? 0 then Ok (None, rb_empty b) else
  let! size := rb_size b in
  if size <? sz then Ok (Some EINVAL, b) else
  Ok (None, mkRB (rb_data b) (rb_alloc b) (rb_start b) (addw (rb_start b) sz)).

(** One read() system call: data or an error.  The kernel never delivers more than asked for. *)
Inductive sysread := RData (d : list N) | RErr (e : errno).

(** realloc_buffer_read_size (realloc-buffer.c:226-251).  [add = None] is (size_t) -1.  Returns the error or whether
    something was read. *)
Definition rb_read_size (e : env) (b : rbuf) (r : sysread) (add : option N) : res ((errno + bool) * rbuf) :=
  let add := match add with None => BUFFER_SIZE | Some a => if a <? BUFFER_SIZE then BUFFER_SIZE else a end in
  let! (p, b') := rb_extend e b add in
  match p with
  | None => Ok (inl ENOMEM, b')
  | Some p =>
      match r with
      | RErr err => let! (_, b'') := rb_shorten b' add in Ok (inl err, b'')
      | RData d =>
          let d := takeN add d in
          let! b'' := poke b' p d in
          let! (_, b''') := rb_shorten b'' (add - len d) in
          Ok (inr (0 <? len d), b''')
      end
  end.

(** realloc_buffer_read_full (realloc-buffer.c:253-267).  The system calls' outcomes are given by a list; after its end
    read() returns 0 (end of file).  [limit = None] is (size_t) -1. *)
Fixpoint rb_read_full (b : rbuf) (script : list (env * sysread)) (e0 : env) (limit : option N) : res (option errno * rbuf) :=
  let! size := rb_size b in
  if match limit with None => false | Some l => l <? size end then Ok (Some E2BIG, b) else
  match script with
  | [] => let! (r, b') := rb_read_size e0 b (RData []) None in
          Ok (match r with inl e => Some e | inr _ => None end, b')
  | (e, s) :: script =>
      let! (r, b') := rb_read_size e b s None in
      match r with
      | inl err => Ok (Some err, b')
      | inr false => Ok (None, b')
      | inr true => rb_read_full b' script e0 limit
      end
  end.

(** realloc_buffer_read_target (realloc-buffer.c:269-290): an error or whether the target was reached. *)
Fixpoint rb_read_target (b : rbuf) (script : list (env * sysread)) (e0 : env) (target : N) : res ((errno + bool) * rbuf) :=
  let! c := rb_size b in
  if target <=? c then Ok (inr true, b) else
  match script with
  | [] => rb_read_size e0 b (RData []) (Some (target - c))
  | (e, s) :: script =>
      let! (r, b') := rb_read_size e b s (Some (target - c)) in
      match r with
      | inl err => Ok (inl err, b')
      | inr false => Ok (inr false, b')
      | inr true => rb_read_target b' script e0 target
      end
  end.

(** realloc_buffer_steal (realloc-buffer.c:292-312): the memory block returned (of which the first size bytes are
    meant), NULL if there was no memory. *)
Definition rb_steal (e : env) (b : rbuf) : res (option (list N) * rbuf) :=
  if rb_start b =? 0 then Ok (rb_data b, mkRB None 0 0 0) else
  let! sz := rb_size b in
  let! live := peek b (rb_start b) sz in
  if negb (env_ok e) then Ok (None, b) else
  Ok (Some live, mkRB None 0 0 0).

(** realloc_buffer_donate (realloc-buffer.c:314-335): [true] for a non-NULL result. *)
Definition rb_donate (e : env) (b : rbuf) (p : list N) : res (bool * rbuf) :=
  let! sz := rb_size b in
  if 0 <? sz then
    let! (r, b') := rb_append e b p in
    Ok (match r with None => false | Some _ => true end, b')
  else Ok (true, mkRB (Some p) (len p) 0 (len p)).

(** One write() system call: how much the kernel takes, or an error. *)
Inductive syswrite := WTake (n : N) | WErr (e : errno).

(** realloc_buffer_write (realloc-buffer.c:337-364).  Returns the error or whether something was written, and the
    bytes that went to the file.  After the end of the script write() fails with EIO. *)
Fixpoint rb_write (b : rbuf) (script : list syswrite) (done : N) : res ((errno + bool) * list N * rbuf) :=
  let! l := rb_size b in
  if l =? 0 then Ok (inr (0 <? done), [], b) else
  match script with
  | [] => Ok (inl EIO, [], b)
  | WErr e :: _ => Ok (inl e, [], b)
  | WTake n :: script =>
      let n := N.min n l in
      let! out := peek b (rb_start b) n in
      let! (r, b') := rb_advance b n in
      match r with
      | Some e => Ok (inl e, out, b')
      | None => let! (r, rest, b'') := rb_write b' script (addw done n) in Ok (r, out ++ rest, b'')
      end
  end.

(** realloc_buffer_write_maybe (realloc-buffer.c:366-377). *)
Definition rb_write_maybe (b : rbuf) (script : list syswrite) : res ((errno + bool) * list N * rbuf) :=
  let! l := rb_size b in
  if l <? BUFFER_SIZE then Ok (inr false, [], b) else rb_write b script 0.

(** realloc_buffer_printf (realloc-buffer.c:379-415).  [s] is the formatted text (vsnprintf() is assumed not to fail; it
    writes at most m-1 bytes and a NUL).  One environment per round; the loop ends since a buffer of more than
    1 GiB is refused, [fuel] rounds are allowed for. *)
Fixpoint rb_printf_loop (fuel : nat) (es : nat -> env) (b : rbuf) (s : list N) (m : N) : res (option errno * rbuf) :=
  match fuel with
  | O => UB
  | S fuel =>
    let! (p, b') := rb_extend (es fuel) b m in
    match p with
    | None => Ok (Some ENOMEM, b')
    | Some p =>
        let! b'' := poke b' p (takeN (m - 1) s ++ [0]) in
        if len s <? m then let! (_, b3) := rb_shorten b'' (m - len s) in Ok (None, b3)
        else
          let! (_, b3) := rb_shorten b'' m in
          rb_printf_loop fuel es b3 s (2 * m)
    end
  end.
Definition rb_printf (es : nat -> env) (b : rbuf) (s : list N) : res (option errno * rbuf) :=
  rb_printf_loop 64 es b s 256.

(** realloc_buffer_memchr (realloc-buffer.c:417-445). *)
Fixpoint find_byte (c : N) (l : list N) : option N :=
  match l with
  | [] => None
  | x :: l => if x =? c then Some 0 else option_map N.succ (find_byte c l)
  end.
Definition rb_memchr (b : rbuf) (c : N) : res (errno + N) :=
  let! l := rb_size b in
  if l =? 0 then Ok (inl ENXIO) else
  let! d := peek b (rb_start b) l in
  match find_byte c d with
  | None => Ok (inl ENXIO)
  | Some d => if 2147483647 <? d then Ok (inl EOVERFLOW) else Ok (inr d)
  end.

(** What the user of the API sees: realloc_buffer_size() bytes at realloc_buffer_data() (realloc-buffer.h:17-52). *)
Definition rb_view (b : rbuf) : res (list N) := let! n := rb_size b in peek b (rb_start b) n.
(** realloc_buffer_data_offset (realloc-buffer.h:29-44): the bytes from there to the end of the live range, or NULL. *)
Definition rb_view_from (b : rbuf) (off : N) : res (option (list N)) :=
  if negb ((rb_start b <=? rb_end b) && (rb_end b <=? rb_alloc b)) then Abort else
  let p := addw (rb_start b) off in
  if p <? rb_start b then Ok None else
  if rb_end b <? p then Ok None else
  let! d := peek b p (rb_end b - p) in Ok (Some d).

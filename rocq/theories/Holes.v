(** Writing files with holes: util.c:25-46 loop_write, 83-138 write_zeroes, 140-159 memeqzero, 170-238 loop_write_with_holes. *)
From Verif Require Import Base.
Local Open Scope N_scope.

(** ** The file written to. Environment, not code from /repo. *)
(** An open file: contents, position; whether it can be seeked (a pipe can't: [s_data] is then what was written to it, and the position is
    its end) and whether the file system knows FALLOC_FL_PUNCH_HOLE; and what the kernel does in the calls to come: a write takes [n] bytes at most,
    but at least one (writes are not interrupted half way, 0 is not returned for a nonempty write); any call may fail.
    When the list is used up everything goes well. *)
Inductive happens := HShort (n : N) | HFail (e : errno).
Record sink := mkSink { s_data : list N; s_pos : N; s_seek : bool; s_punch : bool; s_next : list happens }.

Definition zeroes (n : N) : list N := repeat 0 (N.to_nat n).
(** [p] written at [pos]; a gap in front of it reads as zeroes. *)
Definition put_at (data : list N) (pos : N) (p : list N) : list N :=
  takeN pos data ++ zeroes (pos - len data) ++ p ++ dropN (pos + len p) data.

Definition pop (s : sink) : option happens * sink :=
  match s_next s with
  | [] => (None, s)
  | h :: l => (Some h, mkSink (s_data s) (s_pos s) (s_seek s) (s_punch s) l)
  end.
Definition moved (s : sink) (data : list N) (pos : N) : sink := mkSink data pos (s_seek s) (s_punch s) (s_next s).

(** write(2) *)
Definition sys_write (s : sink) (p : list N) : res N * sink :=
  match pop s with
  | (Some (HFail e), s) => (Err e, s)
  | (h, s) =>
      let k := match h with Some (HShort n) => N.min (len p) (N.max 1 n) | _ => len p end in
      (Ok k, moved s (put_at (s_data s) (s_pos s) (takeN k p)) (s_pos s + k))
  end.
(** lseek(fd, 0, SEEK_CUR) *)
Definition sys_tell (s : sink) : res N * sink :=
  if s_seek s then (Ok (s_pos s), s) else (Err ESPIPE, s).
(** lseek(fd, 0, SEEK_END); it may fail *)
Definition sys_seek_end (s : sink) : res N * sink :=
  match pop s with
  | (Some (HFail e), s) => (Err e, s)
  | (_, s) => (Ok (len (s_data s)), moved s (s_data s) (len (s_data s)))
  end.
(** lseek(fd, p, SEEK_SET) *)
Definition sys_seek (s : sink) (p : N) : res unit * sink :=
  match pop s with
  | (Some (HFail e), s) => (Err e, s)
  | (_, s) => (Ok tt, moved s (s_data s) p)
  end.
(** fallocate(FALLOC_FL_PUNCH_HOLE|FALLOC_FL_KEEP_SIZE): the range reads as zeroes, the size stays. *)
Definition sys_punch (s : sink) (p l : N) : res unit * sink :=
  if negb (s_punch s) then (Err EOPNOTSUPP, s)
  else match pop s with
  | (Some (HFail e), s) => (Err e, s)
  | (_, s) => (Ok tt, moved s (takeN (len (s_data s)) (put_at (s_data s) p (zeroes l))) (s_pos s))
  end.
(** ftruncate *)
Definition sys_truncate (s : sink) (n : N) : res unit * sink :=
  match pop s with
  | (Some (HFail e), s) => (Err e, s)
  | (_, s) => (Ok tt, moved s (takeN n (s_data s) ++ zeroes (n - len (s_data s))) (s_pos s))
  end.

(** ** util.c *)
(** util.c:25-46 loop_write. Each round takes a byte at least. *)
Fixpoint loop_write_n (fuel : nat) (s : sink) (p : list N) : res unit * sink :=
  match p, fuel with
  | [], _ => (Ok tt, s)
  | _, O => (UB, s)
  | _, S fuel =>
      match sys_write s p with
      | (Ok w, s) => if len p <? w then (Abort, s) else loop_write_n fuel s (dropN w p)
      | (Err e, s) => (Err e, s)
      | (Abort, s) => (Abort, s)
      | (UB, s) => (UB, s)
      end
  end.
Definition loop_write (s : sink) (p : list N) : res unit * sink := loop_write_n (length p) s p.

(** util.c:120-137, the fallback of write_zeroes. *)
Fixpoint write_zeroes_n (fuel : nat) (s : sink) (l : N) : res bool * sink :=
  if l =? 0 then (Ok false, s)
  else match fuel with
  | O => (UB, s)
  | S fuel =>
      match sys_write s (zeroes (N.min l 4096)) with
      | (Ok w, s) => if l <? w then (Abort, s) else write_zeroes_n fuel s (l - w)
      | (Err e, s) => (Err e, s)
      | (Abort, s) => (Abort, s)
      | (UB, s) => (UB, s)
      end
  end.

Definition OFF_MAX := 9223372036854775807.   (* off_t *)

(** util.c:83-138 write_zeroes: whether a hole was made. *)
Definition write_zeroes (s : sink) (l : N) : res bool * sink :=
  if l =? 0 then (Ok false, s)
  else
  let fallback s := write_zeroes_n (N.to_nat l) s l in
  match sys_tell s with
  | (Ok p, s) =>
      if OFF_MAX <? p + l then (Err EOVERFLOW, s)
      else
      match sys_seek_end s with
      | (Ok e, s) =>
          let rest s :=
            let last s := match sys_seek s (p + l) with (Ok _, s) => (Ok true, s) | (Err x, s) => (Err x, s)
                          | (Abort, s) => (Abort, s) | (UB, s) => (UB, s) end in
            if e <? p + l then
              match sys_truncate s (p + l) with (Ok _, s) => last s | (Err x, s) => (Err x, s)
              | (Abort, s) => (Abort, s) | (UB, s) => (UB, s) end
            else last s in
          if p <? e then
            match sys_punch s p l with
            | (Ok _, s) => rest s
            | (_, s) => match sys_seek s p with (Ok _, s) => fallback s | (Err x, s) => (Err x, s)
                        | (Abort, s) => (Abort, s) | (UB, s) => (UB, s) end
            end
          else rest s
      | (Err x, s) => (Err x, s)
      | (Abort, s) => (Abort, s)
      | (UB, s) => (UB, s)
      end
  | (_, s) => fallback s
  end.

(** memcmp(a, b, n) == 0 *)
Definition memcmp_eq (a b : list N) (n : N) : bool := beq (takeN n a) (takeN n b).
(** util.c:140-159 memeqzero: the first 16 bytes are looked at, the rest is compared with the whole, shifted. *)
Fixpoint memeqzero_n (i : nat) (data p : list N) : bool :=
  match i, p with
  | _, [] => true
  | O, _ => memcmp_eq data p (len p)
  | S i, b :: p => if negb (b =? 0) then false else memeqzero_n i data p
  end.
Definition memeqzero (data : list N) : bool := memeqzero_n 16 data data.

Definition HOLE_MIN := 4096.

(** util.c:170-238 loop_write_with_holes. The pointers are offsets: [q], [start] and [zero] (zero_start). The result is n_punched. *)
Definition lift {A B} (x : res A * sink) (f : A -> sink -> res B * sink) : res B * sink :=
  match x with (Ok a, s) => f a s | (Err e, s) => (Err e, s) | (Abort, s) => (Abort, s) | (UB, s) => (UB, s) end.
Definition slice (p : list N) (a b : N) : list N := takeN (b - a) (dropN a p).

Definition holes_end (s : sink) (p : list N) (q start : N) (zero : option N) (punched : N) : res N * sink :=
  match zero with
  | Some z =>
      if HOLE_MIN <=? q - z then
        lift (loop_write s (slice p start z)) (fun _ s =>
        lift (write_zeroes s (q - z)) (fun r s => (Ok (if r : bool then punched + (q - z) else punched), s)))
      else lift (loop_write s (slice p start q)) (fun _ s => (Ok punched, s))
  | None => lift (loop_write s (slice p start q)) (fun _ s => (Ok punched, s))
  end.

Fixpoint holes_loop (fuel : nat) (s : sink) (p : list N) (q start : N) (zero : option N) (punched : N) : res N * sink :=
  if len p <=? q then holes_end s p q start zero punched
  else match fuel with
  | O => (UB, s)
  | S fuel =>
      let left := N.min HOLE_MIN (len p - q) in
      if memeqzero (slice p q (q + left)) then
        holes_loop fuel s p (q + left) start (match zero with Some z => Some z | None => Some q end) punched
      else
      match zero with
      | Some z =>
          if HOLE_MIN <=? q - z then
            lift (loop_write s (slice p start z)) (fun _ s =>
            lift (write_zeroes s (q - z)) (fun r s =>
              if r : bool then holes_loop fuel s p (q + left) q None (punched + (q - z))
              else lift (loop_write s (slice p q (len p))) (fun _ s => (Ok punched, s))))
          else holes_loop fuel s p (q + left) start None punched
      | None => holes_loop fuel s p (q + left) start None punched
      end
  end.
Definition loop_write_with_holes (s : sink) (p : list N) : res N * sink :=
  holes_loop (length p) s p 0 0 None 0.

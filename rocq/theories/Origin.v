(** Model of src/caorigin.c. The items first, others[0], others[1], ... are one list of pointers; n_items is its length and the
    array's capacity is left out. Allocation does not fail and the pointers to origins are not NULL. *)
From Verif Require Import Base Locator ParseSize Number Location LocationHeap.
Local Open Scope N_scope.

(** caorigin.h:11-17 CaOrigin *)
Record origin := mkOrigin { items : list ptr; n_bytes : N }.

(** caorigin.c:11-24 ca_origin_new *)
Definition origin_new : origin := mkOrigin [] 0.

Fixpoint each (f : ptr -> M unit) (ps : list ptr) : M unit :=
  match ps with [] => mret tt | p :: ps => let* _ := f p in each f ps end.

(** caorigin.c:26-37 ca_origin_flush; caorigin.c:39-47 ca_origin_unref frees the origin itself as well. *)
Definition flush (o : origin) : M origin := let* _ := each unref (items o) in mret origin_new.

Fixpoint split_last (ps : list ptr) : option (list ptr * ptr) :=
  match ps with
  | [] => None
  | p :: ps => match split_last ps with Some (a, b) => Some (p :: a, b) | None => Some ([], p) end
  end.

(** caorigin.c:49-90 ca_origin_put *)
Definition put (o : origin) (q : ptr) : M (res N * origin) :=
  let* l := rd q in
  if size (val l) =? UINT64_MAX then mret (Err EINVAL, o)
  else match split_last (items o) with
  | None =>
      let* _ := massert (n_bytes o =? 0) in
      let* _ := ref q in
      mret (Ok 0, mkOrigin [q] (size (val l)))
  | Some (ps, p) =>
      let* ' (r, p) := merge p q in
      match r with
      | Err e => mret (Err e, mkOrigin (ps ++ [p]) (n_bytes o))
      | Ok 0 =>
          let* _ := ref q in
          let* l := rd q in
          mret (Ok 0, mkOrigin (ps ++ [p; q]) ((n_bytes o + size (val l)) mod two64))
      | Ok _ => let* l := rd q in mret (Ok 0, mkOrigin (ps ++ [p]) ((n_bytes o + size (val l)) mod two64))
      | _ => fun _ => None
      end
  end.

(** caorigin.c:131-165: the loop of ca_origin_concat over the other's items. *)
Fixpoint concat_loop (ls : list ptr) (o : origin) (n : N) : M (res N * origin) :=
  match ls with
  | [] => mret (Ok 1, o)
  | l :: ls =>
      let* x := rd l in
      let* _ := massert (negb (size (val x) =? UINT64_MAX)) in
      if n =? UINT64_MAX then
        let* ' (r, o) := put o l in
        match r with Ok _ => concat_loop ls o n | r => mret (r, o) end
      else
        let* _ := ref l in
        let* ' (r, l) := if n <? size (val x) then patch_size l n else mret (Ok 0, l) in
        match r with
        | Ok _ =>
            let* x := rd l in
            let n := (n + two64 - size (val x)) mod two64 in
            let* ' (r, o) := put o l in
            let* _ := unref l in
            match r with
            | Ok _ => if n =? 0 then mret (Ok 1, o) else concat_loop ls o n
            | r => mret (r, o)
            end
        | r => let* _ := unref l in mret (r, o)
        end
  end.

(** caorigin.c:103-176 ca_origin_concat; [None] for [other]: other == origin. *)
Definition origin_concat (o : origin) (other : option origin) (n : N) : M (res N * origin) :=
  let other' := match other with Some x => x | None => o end in
  if n =? 0 then mret (Ok 0, o)
  else if negb (n =? UINT64_MAX) && (n_bytes other' <? n) then mret (Err ESPIPE, o)
  else if (n =? UINT64_MAX) && match items other' with [] => true | _ => false end then mret (Ok 0, o)
  else
    let ls := items other' in
    let* _ := match other with None => each ref ls | Some _ => mret tt end in
    let* ' (r, o) := concat_loop ls o n in
    let* _ := match other with None => each unref ls | Some _ => mret tt end in
    mret (match r with Ok _ => Ok (if len ls =? 0 then 0 else 1) | r => r end, o).

(** caorigin.c:189-197: the sizes of the items dropped, each of which is released. *)
Fixpoint drop_items (ps : list ptr) (bytes : N) : M N :=
  match ps with
  | [] => mret bytes
  | p :: ps => let* x := rd p in let* _ := unref p in drop_items ps ((bytes + size (val x)) mod two64)
  end.

(** caorigin.c:178-208 ca_origin_advance_items *)
Definition advance_items (o : origin) (k : nat) : M (res N * origin) :=
  match k with
  | O => mret (Ok 0, o)
  | _ =>
      if Nat.ltb (length (items o)) k then mret (Err ESPIPE, o)
      else if Nat.eqb k (length (items o)) then let* o := flush o in mret (Ok 0, o)
      else
        let* b := drop_items (firstn k (items o)) 0 in
        let* _ := massert (b <? n_bytes o) in
        mret (Ok 0, mkOrigin (skipn k (items o)) (n_bytes o - b))
  end.

(** caorigin.c:223-235: how many items are passed over, and the bytes left. *)
Fixpoint pass_items (ps : list ptr) (n : N) : M (nat * N) :=
  match ps with
  | [] => mret (O, n)
  | p :: ps =>
      let* x := rd p in
      let* _ := massert (negb (size (val x) =? UINT64_MAX)) in
      if n <? size (val x) then mret (O, n)
      else let* ' (k, n) := pass_items ps (n - size (val x)) in mret (S k, n)
  end.

(** caorigin.c:210-251 ca_origin_advance_bytes *)
Definition advance_bytes (o : origin) (n : N) : M (res N * origin) :=
  if n =? 0 then mret (Ok 0, o)
  else if n_bytes o <? n then mret (Err ESPIPE, o)
  else if n =? n_bytes o then let* o := flush o in mret (Ok 0, o)
  else
    let* ' (i, n) := pass_items (items o) n in
    let* ' (r, o) := advance_items o i in
    match r with
    | Ok _ =>
        let* _ := massert (n <? n_bytes o) in
        match items o with
        | [] => fun _ => None
        | p :: ps =>
            let* x := rd p in
            let* _ := massert (n <? size (val x)) in
            let* ' (r, p) := advance p n in
            match r with
            | Ok _ => mret (Ok 0, mkOrigin (p :: ps) (n_bytes o - n))
            | r => mret (r, mkOrigin (p :: ps) (n_bytes o))
            end
        end
    | r => mret (r, o)
    end.

(** caorigin.c:277-321 ca_origin_put_void *)
Definition put_void (o : origin) (n : N) : M (res N * origin) :=
  if n =? 0 then mret (Ok 0, o)
  else
    let fresh : M (res N * origin) :=
      match location_new None DES_VOID 0 n with
      | Ok l => let* v := alloc l in
                let* ' (r, o) := put o v in
                let* _ := unref v in
                mret (r, o)
      | Err e => mret (Err e, o)
      | _ => fun _ => None
      end in
    match split_last (items o) with
    | None => fresh
    | Some (ps, p) =>
        let* x := rd p in
        if designator (val x) =? DES_VOID then
          let* ' (r, p) := patch_size p ((size (val x) + n) mod two64) in
          match r with
          | Ok _ => mret (Ok 0, mkOrigin (ps ++ [p]) ((n_bytes o + n) mod two64))
          | r => mret (r, mkOrigin (ps ++ [p]) (n_bytes o))
          end
        else fresh
    end.

(** caorigin.c:323-345 ca_origin_extract_bytes: [None] is NULL; the origin made is released again on failure. *)
Definition extract_bytes (o : origin) (n : N) : M (res (option origin)) :=
  if n =? 0 then mret (Ok None)
  else
    let* ' (r, t) := origin_concat origin_new (Some o) n in
    match r with
    | Ok _ => mret (Ok (Some t))
    | Err e => let* _ := flush t in mret (Err e)
    | _ => fun _ => None
    end.

(** Model of src/calocation.c: reference counts, the cached text, and the operations that replace a location by a changed
    copy unless the caller is its only owner. *)
From Verif Require Import Base Locator ParseSize Number Location.
Local Open Scope N_scope.

(** calocation.h:50-79 CaLocation: reference count, value, formatted/formatted_with. A count does not reach 2^32. *)
Record obj := mkObj { n_ref : N; val : loc; formatted : option (list N * N) }.
(** The objects in the order of their allocation; a freed one has the count 0. *)
Definition heap : Type := list obj.
Definition ptr : Type := nat.

(** Programs on the heap. [None]: memory was used after it was freed, or an assertion failed. *)
Definition M (A : Type) : Type := heap -> option (A * heap).
Definition mret {A} (a : A) : M A := fun h => Some (a, h).
Definition mbind {A B} (m : M A) (k : A -> M B) : M B := fun h => match m h with Some (a, h) => k a h | None => None end.
Notation "'let*' x := m 'in' k" := (mbind m (fun x => k)) (at level 200, x name, right associativity).
Notation "'let*' ' p := m 'in' k" := (mbind m (fun p => k)) (at level 200, p pattern, right associativity).
Definition massert (b : bool) : M unit := fun h => if b then Some (tt, h) else None.

Fixpoint set_nth {A} (l : list A) (i : nat) (x : A) : list A :=
  match l, i with
  | [], _ => []
  | _ :: l, O => x :: l
  | y :: l, S i => y :: set_nth l i x
  end.

Definition rd (p : ptr) : M obj := fun h =>
  match nth_error h p with Some o => if n_ref o =? 0 then None else Some (o, h) | None => None end.
Definition wr (p : ptr) (o : obj) : M unit := fun h => Some (tt, set_nth h p o).
Definition alloc (l : loc) : M ptr := fun h => Some (length h, h ++ [mkObj 1 l None]).

(** calocation.c:91-99 ca_location_ref, calocation.c:74-89 ca_location_unref *)
Definition ref (p : ptr) : M unit := let* o := rd p in wr p (mkObj (n_ref o + 1) (val o) (formatted o)).
Definition unref (p : ptr) : M unit := let* o := rd p in wr p (mkObj (n_ref o - 1) (val o) (formatted o)).

(** calocation.c:101-130 ca_location_copy *)
Definition copy (p : ptr) : M (res ptr) :=
  let* o := rd p in
  match location_copy (val o) with
  | Ok l => let* n := alloc l in mret (Ok n)
  | Err e => mret (Err e)
  | Abort => mret Abort | UB => mret UB
  end.

(** calocation.c:391-403, 418-426, 449-461, 514-526: the only owner changes the object itself, and drops the cached text
    ([clear]); the others get a copy in exchange for their reference. *)
Definition own (clear : bool) (p : ptr) : M (res ptr) :=
  let* o := rd p in
  if n_ref o =? 1 then
    if clear then let* _ := wr p (mkObj (n_ref o) (val o) None) in mret (Ok p) else mret (Ok p)
  else
    let* r := copy p in
    match r with
    | Ok n => let* _ := unref p in mret (Ok n)
    | r => mret r
    end.

Definition update (p : ptr) (f : loc -> loc) : M unit := let* o := rd p in wr p (mkObj (n_ref o) (f (val o)) (formatted o)).

Definition set_size (s : N) (l : loc) : loc :=
  mkLoc (designator l) (path l) (offset l) s (root l) (mtime l) (inode l) (generation l) (generation_valid l) (feature_flags l) (archive_offset l) (name_table l).
Definition set_root (r : option N) (l : loc) : loc :=
  mkLoc (designator l) (path l) (offset l) (size l) r (mtime l) (inode l) (generation l) (generation_valid l) (feature_flags l) (archive_offset l) (name_table l).

(** calocation.c:463-470 *)
Definition advanced (n : N) (l : loc) : loc :=
  mkLoc (designator l) (path l) (if designator l =? DES_VOID then offset l else (offset l + n) mod two64)
        (if size l =? UINT64_MAX then size l else size l - n) (root l) (mtime l) (inode l) (generation l) (generation_valid l) (feature_flags l)
        (if archive_offset l =? UINT64_MAX then archive_offset l else (archive_offset l + n) mod two64) (name_table l).

(** What the operations return, and the pointer the caller's variable holds afterwards. *)
Definition result : Type := res N * ptr.

Definition owning (clear : bool) (p : ptr) (code : N) (f : loc -> loc) : M result :=
  let* r := own clear p in
  match r with
  | Ok n => let* _ := update n f in mret (Ok code, n)
  | Err e => mret (Err e, p)
  | _ => fun _ => None
  end.

(** calocation.c:380-407 ca_location_patch_size *)
Definition patch_size (p : ptr) (s : N) : M result :=
  let* o := rd p in
  if size (val o) =? s then mret (Ok 0, p) else owning true p 1 (set_size s).

(** util.h: comparison of pointers to CaFileRoot *)
Definition root_eqb (a b : option N) : bool :=
  match a, b with Some x, Some y => x =? y | None, None => true | _, _ => false end.
(** util.h streq_ptr *)
Definition streq_ptr (a b : option (list N)) : bool :=
  match a, b with Some x, Some y => beq x y | None, None => true | _, _ => false end.

(** calocation.c:409-433 ca_location_patch_root. The cached text stays. *)
Definition patch_root (p : ptr) (r : option N) : M result :=
  let* o := rd p in
  if root_eqb (root (val o)) r then mret (Ok 0, p) else owning false p 0 (set_root r).

(** calocation.c:435-473 ca_location_advance *)
Definition advance (p : ptr) (n : N) : M result :=
  if n =? 0 then mret (Ok 0, p)
  else
    let* o := rd p in
    if negb (size (val o) =? UINT64_MAX) && (size (val o) <? n) then mret (Err ESPIPE, p)
    else owning true p 1 (advanced n).

(** calocation.c:486-512: the conditions. *)
Definition mergeable (a b : loc) : bool :=
  root_eqb (root a) (root b) && streq_ptr (path a) (path b) && (designator a =? designator b)
  && ((designator a =? DES_VOID) || ((offset a + size a) mod two64 =? offset b))
  && (mtime a =? mtime b)
  && ((mtime a =? UINT64_MAX)
      || ((inode a =? inode b) && Bool.eqb (generation_valid a) (generation_valid b)
          && (negb (generation_valid a) || (generation a =? generation b)%Z))).

(** calocation.c:475-530 ca_location_merge: b->size is read after *a was replaced. *)
Definition merge (p q : ptr) : M result :=
  let* a := rd p in
  let* b := rd q in
  if size (val a) =? UINT64_MAX then mret (Err EINVAL, p)
  else if size (val b) =? UINT64_MAX then mret (Err EINVAL, p)
  else if negb (mergeable (val a) (val b)) then mret (Ok 0, p)
  else
    let* r := own true p in
    match r with
    | Ok n => let* b := rd q in
              let* _ := update n (fun l => set_size ((size l + size (val b)) mod two64) l) in
              mret (Ok 1, n)
    | Err e => mret (Err e, p)
    | _ => fun _ => None
    end.

(** calocation.c:132-218 ca_location_format_full: the cached text if it has the same parts. *)
Definition format_full (p : ptr) (w : N) : M (list N) :=
  let* o := rd p in
  match formatted o with
  | Some (t, w') => if w' =? w then mret t
                    else let t := location_format (val o) w in let* _ := wr p (mkObj (n_ref o) (val o) (Some (t, w))) in mret t
  | None => let t := location_format (val o) w in let* _ := wr p (mkObj (n_ref o) (val o) (Some (t, w))) in mret t
  end.

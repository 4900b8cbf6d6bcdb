(** Model of src/canametable.c (text form, comparison) and src/calocation.c (values: construction, text form, comparison).
    Sharing and reference counts are in LocationHeap.v. Allocation does not fail. A C string is the list of its bytes
    without the terminating NUL; a NULL pointer to a string is [None]. *)
From Verif Require Import Base Locator ParseSize Number.
Local Open Scope N_scope.

(** canametable.h:13-35: a name table with its chain of parents, the table itself first; NULL is []. Reference counts and
    capacities are left out: tables reachable from a location are not written to. *)
Record nitem := mkItem { i_hash : N; i_start : N; i_end : N }.
Definition ntable : Type := list (N * list nitem).     (* entry_offset, items *)

(** util.h:419 HEXDIGITS *)
Definition hexdigit (c : N) : bool := digit c || ((65 <=? c) && (c <=? 70)) || ((97 <=? c) && (c <=? 102)).

(** canametable.c:106-133 ca_name_table_format_realloc_buffer, for a table that is not NULL: O<entry> then
    H<hash>S<start>X<end> per item, for the table and every parent. *)
Definition item_format (i : nitem) : list N := 72 :: hex (i_hash i) ++ 83 :: hex (i_start i) ++ 88 :: hex (i_end i).
Definition table_format (t : N * list nitem) : list N := 79 :: hex (fst t) ++ concat (map item_format (snd t)).
Definition name_table_format (t : ntable) : list N := concat (map table_format t).

(** canametable.c:171-174, 180-183, 189-192: the number at [x], read off a copy of the leading hexadecimal digits. *)
Definition parse_hex (x : list N) : res (N * list N) :=
  let z := strspn hexdigit x in
  let! v := safe_atox64 (takeN z x) in
  Ok (v, dropN z x).

(** canametable.c:155-202 parse_one *)
Definition parse_one (x : list N) : res (nitem * list N) :=
  if negb (at_ x 0 =? 72) then Err EINVAL else
  let! (hash, x) := parse_hex (dropN 1 x) in
  if negb (at_ x 0 =? 83) then Err EINVAL else
  let! (start, x) := parse_hex (dropN 1 x) in
  if negb (at_ x 0 =? 88) then Err EINVAL else
  let! (end_, x) := parse_hex (dropN 1 x) in
  Ok (mkItem hash start end_, x).

(** canametable.c:204-268 ca_name_table_parse: the chain and where *text points to afterwards. Every round takes at least one
    byte; exhausted [fuel] is an [Abort] (proved unreachable). *)
Fixpoint parse_table (fuel : nat) (x : list N) : res (ntable * list N) :=
  match fuel with
  | O => Abort
  | S fuel =>
      if negb (at_ x 0 =? 79) then Err EINVAL else
      let! (eo, x) := parse_hex (dropN 1 x) in
      parse_items fuel eo [] x
  end
with parse_items (fuel : nat) (eo : N) (items : list nitem) (x : list N) : res (ntable * list N) :=
  match fuel with
  | O => Abort
  | S fuel =>
      if at_ x 0 =? 79 then
        let! (parent, x) := parse_table fuel x in
        Ok ((eo, items) :: parent, x)
      else if at_ x 0 =? 0 then Ok ([(eo, items)], x)
      else
        let! (item, x) := parse_one x in
        parse_items fuel eo (items ++ [item]) x
  end.
Definition name_table_parse (x : list N) : res (ntable * list N) := parse_table (2 * length x + 2) x.

(** canametable.c:392-427 ca_name_table_equal *)
Definition item_eqb (x y : nitem) : bool := (i_hash x =? i_hash y) && (i_start x =? i_start y) && (i_end x =? i_end y).
Fixpoint items_eqb (a b : list nitem) : bool :=
  match a, b with
  | [], [] => true
  | x :: a, y :: b => item_eqb x y && items_eqb a b
  | _, _ => false
  end.
Fixpoint name_table_equal (a b : ntable) : bool :=
  match a, b with
  | [], [] => true
  | (eo, xs) :: a, (eo', ys) :: b => (eo =? eo') && (len xs =? len ys) && items_eqb xs ys && name_table_equal a b
  | _, _ => false
  end.

(** calocation.h:20-36 *)
Definition DES_ENTRY := 101.     (* 'e' *)
Definition DES_PAYLOAD := 112.   (* 'p' *)
Definition DES_FILENAME := 110.  (* 'n' *)
Definition DES_GOODBYE := 103.   (* 'g' *)
Definition DES_VOID := 118.      (* 'v' *)
Definition designator_valid (d : N) : bool := existsb (N.eqb d) [DES_ENTRY; DES_PAYLOAD; DES_FILENAME; DES_GOODBYE; DES_VOID].

(** calocation.h:38-46 CaLocationWith: a bit mask. *)
Definition WITH_SIZE := 1.
Definition WITH_MTIME := 2.
Definition WITH_FEATURE_FLAGS := 4.
Definition WITH_ARCHIVE_OFFSET := 8.
Definition WITH_NAME_TABLE := 16.
Definition WITH_ALL := 31.
Definition has (with_ flag : N) : bool := negb (N.land with_ flag =? 0).

(** calocation.h:50-79 CaLocation without reference count and cached text. [root] is the identity of the CaFileRoot object
    pointed to. [generation] is a signed int. *)
Record loc := mkLoc {
  designator : N;
  path : option (list N);
  offset : N;
  size : N;
  root : option N;
  mtime : N;
  inode : N;
  generation : Z;
  generation_valid : bool;
  feature_flags : N;
  archive_offset : N;
  name_table : ntable }.

(** util.h isempty, strempty *)
Definition strempty (p : option (list N)) : list N := match p with Some s => s | None => [] end.
Definition isempty (p : option (list N)) : bool := match p with Some (_ :: _) => false | _ => true end.
Definition nonempty (p : option (list N)) : option (list N) := if isempty p then None else p.

(** calocation.c:13-30 ca_location_alloc and calocation.c:32-72 ca_location_new *)
Definition location_new (p : option (list N)) (d o s : N) : res loc :=
  if negb (designator_valid d) then Err EINVAL
  else if negb (isempty p) && (at_ (strempty p) 0 =? 47) then Err EINVAL
  else if o =? UINT64_MAX then Err EINVAL
  else if s =? 0 then Err EINVAL
  else if (d =? DES_VOID) && match p with Some _ => true | None => false end then Err EINVAL
  else if negb (s =? UINT64_MAX) && ((o + s) mod two64 <? o) then Err EINVAL
  else Ok (mkLoc d (nonempty p) (if d =? DES_VOID then 0 else o) s None UINT64_MAX 0 0%Z false UINT64_MAX UINT64_MAX []).

(** calocation.c:101-130 ca_location_copy *)
Definition location_copy (l : loc) : res loc :=
  let! c := location_new (path l) (designator l) (offset l) (size l) in
  Ok (mkLoc (designator c) (path c) (offset c) (size c) (root l) (mtime l) (inode l) (generation l) (generation_valid l)
            (feature_flags l) (archive_offset l) (name_table l)).

(** (unsigned) of an int, and (int) of an unsigned, with 32 bits in two's complement. *)
Definition unsigned_of (g : Z) : N := Z.to_N (g mod 4294967296)%Z.
Definition int_of (u : N) : Z := if u <? 2147483648 then Z.of_N u else (Z.of_N u - 4294967296)%Z.

(** calocation.c:162-209 ca_location_format_full, the text as it is computed if no text is cached. *)
Definition location_format (l : loc) (w : N) : list N :=
  strempty (path l) ++ 43 :: designator l :: dec (offset l)
  ++ (if has w WITH_SIZE && negb (size l =? UINT64_MAX) then 58 :: dec (size l) else [])
  ++ (if has w WITH_MTIME && negb (mtime l =? UINT64_MAX) then
        64 :: dec (inode l) ++ 46 :: dec (mtime l)
        ++ (if generation_valid l then 46 :: dec (unsigned_of (generation l)) else [])
      else [])
  ++ (if has w WITH_FEATURE_FLAGS && negb (feature_flags l =? UINT64_MAX) then 37 :: hex (feature_flags l) else [])
  ++ (if has w WITH_ARCHIVE_OFFSET && negb (archive_offset l =? UINT64_MAX) then 35 :: dec (archive_offset l) else [])
  ++ (match name_table l with
      | [] => []
      | _ => if has w WITH_NAME_TABLE then 36 :: name_table_format (name_table l) else []
      end).

(** strchr(3): what precedes and what follows the first occurrence; strrchr(3): the last occurrence. *)
Fixpoint cut (c : N) (s : list N) : option (list N * list N) :=
  match s with
  | [] => None
  | d :: s => if d =? c then Some ([], s)
              else match cut c s with Some (a, b) => Some (d :: a, b) | None => None end
  end.
Fixpoint rcut (c : N) (s : list N) : option (list N * list N) :=
  match s with
  | [] => None
  | d :: s => match rcut c s with
              | Some (a, b) => Some (d :: a, b)
              | None => if d =? c then Some ([], s) else None
              end
  end.

(** calocation.c:274-315: the text behind '@'. *)
Definition parse_stamp (q : list N) : res (N * N * Z * bool) :=
  match cut 46 q with
  | None => Err EINVAL
  | Some (w, z) =>
      let! inode := safe_atou64 w in
      let! (z, generation, valid) :=
        match cut 46 z with
        | Some (z, k) => let! g := safe_atou k in Ok (z, int_of g, true)
        | None => Ok (z, 0%Z, false)
        end in
      let! mtime := safe_atou64 z in
      if mtime =? UINT64_MAX then Err EINVAL else Ok (inode, mtime, generation, valid)
  end.

(** An optional suffix of [u], introduced by [c]: its value, and [u] without it. *)
Definition suffix {A} (c : N) (u : list N) (none : A) (parse : list N -> res A) : res (A * list N) :=
  match cut c u with
  | None => Ok (none, u)
  | Some (u, q) => let! a := parse q in Ok (a, u)
  end.

Definition not_max (r : res N) : res N := let! v := r in if v =? UINT64_MAX then Err EINVAL else Ok v.

(** calocation.c:220-378 ca_location_parse. [u] is the text behind the '+' and the designator (u + 2 in the code). *)
Definition location_parse (text : list N) : res loc :=
  match rcut 43 text with
  | None => Err EINVAL
  | Some (n, plus) =>
      if negb (len n =? 0) && (at_ text 0 =? 47) then Err EINVAL
      else match plus with
      | [] => Err EINVAL             (* u[1] is the NUL, no designator *)
      | d :: u =>
          if negb (designator_valid d) then Err EINVAL
          else
            let! (nt, u) := suffix 36 u [] (fun q => let! (nt, _) := name_table_parse q in Ok nt) in
            let! (archive_offset, u) := suffix 35 u UINT64_MAX (fun q => not_max (safe_atou64 q)) in
            let! (features, u) := suffix 37 u UINT64_MAX (fun q => not_max (safe_atox64 q)) in
            let! (inode, mtime, generation, valid, u) := suffix 64 u (0, UINT64_MAX, 0%Z, false) parse_stamp in
            let! (size, u) := suffix 58 u UINT64_MAX
                                (fun q => let! s := safe_atou64 q in if (s =? 0) || (s =? UINT64_MAX) then Err EINVAL else Ok s) in
            let! offset := not_max (safe_atou64 u) in
            if negb (size =? UINT64_MAX) && ((offset + size) mod two64 <? offset) then Err EINVAL
            else
              let n := nonempty (Some n) in
              if (d =? DES_VOID) && negb (isempty n) then Err EINVAL
              else Ok (mkLoc d n (if d =? DES_VOID then 0 else offset) size None mtime inode generation valid
                             features archive_offset nt)
      end
  end.

(** calocation.c:643-689 ca_location_equal, for locations that are not NULL. *)
Definition location_equal (a b : loc) (w : N) : bool :=
  if negb (designator a =? designator b) then false
  else if negb (offset a =? offset b) then false
  else if negb (beq (strempty (path a)) (strempty (path b))) then false
  else if has w WITH_SIZE && negb (size a =? size b) then false
  else if has w WITH_MTIME &&
          (negb (mtime a =? mtime b)
           || (negb (mtime a =? UINT64_MAX)
               && (negb (inode a =? inode b) || negb (Bool.eqb (generation_valid a) (generation_valid b))
                   || (generation_valid a && negb (generation a =? generation b)%Z)))) then false
  else if has w WITH_FEATURE_FLAGS && negb (feature_flags a =? feature_flags b) then false
  else if has w WITH_NAME_TABLE && negb (name_table_equal (name_table a) (name_table b)) then false
  else true.

(** calocation.c:607-641 ca_location_id_make: the bytes handed to the digest. *)
Definition location_message (l : loc) (include_size : bool) : list N :=
  strempty (path l) ++ [designator l] ++ le64 (offset l)
  ++ (if include_size && negb (size l =? UINT64_MAX) then le64 (size l) else [])
  ++ (if negb (mtime l =? UINT64_MAX) then
        le64 (mtime l) ++ le64 (inode l) ++ (if generation_valid l then le32 (unsigned_of (generation l)) else [])
      else [])
  ++ (if negb (feature_flags l =? UINT64_MAX) then le64 (feature_flags l) else []).

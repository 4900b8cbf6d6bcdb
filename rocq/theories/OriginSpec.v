(** What an origin is: for every byte of a stream, where it comes from. And a client that uses locations and origins. *)
From Verif Require Import Base Location LocationSpec LocationHeap Origin.
Local Open Scope N_scope.

(** Where one byte comes from: nowhere known, or a position in an object: root, path, kind of object, and the inode's time
    stamp, number and generation if they are known. *)
Definition object : Type := option N * option (list N) * N * option (N * N * option Z).
Inductive source := Void | At (o : object) (pos : N).

Definition object_of (l : loc) : object :=
  (root l, path l, designator l,
   if mtime l =? UINT64_MAX then None else Some (mtime l, inode l, if generation_valid l then Some (generation l) else None)).
Definition positions (from n : N) : list N := map (fun k => from + N.of_nat k) (seq 0 (N.to_nat n)).
(** The bytes a location of known size describes. *)
Definition sources (l : loc) : list source :=
  if designator l =? 118 then repeat Void (N.to_nat (size l)) else map (At (object_of l)) (positions (offset l) (size l)).

(** Where a location of known size, proper, can be in an origin. *)
Definition sized (l : loc) : Prop := proper l /\ size l < UINT64_MAX.

(** The location of what follows the first [n] bytes. *)
Definition moved (n : N) (l : loc) : loc :=
  let known v := if v =? UINT64_MAX then v else v + n in
  mkLoc (designator l) (path l) (if designator l =? 118 then 0 else offset l + n) (if size l =? UINT64_MAX then size l else size l - n)
        (root l) (mtime l) (inode l) (generation l) (generation_valid l) (feature_flags l) (known (archive_offset l)) (name_table l).

(** The same place, of another size; in another tree. *)
Definition resized (s : N) (l : loc) : loc :=
  mkLoc (designator l) (path l) (offset l) s (root l) (mtime l) (inode l) (generation l) (generation_valid l) (feature_flags l) (archive_offset l) (name_table l).
Definition rerooted (r : option N) (l : loc) : loc :=
  mkLoc (designator l) (path l) (offset l) (size l) r (mtime l) (inode l) (generation l) (generation_valid l) (feature_flags l) (archive_offset l) (name_table l).

(** * The client: it holds locations and origins under numbers *)
Inductive op :=
| Make (l : loc)                    (* a new location; its number is the next one *)
| Share (i : nat)                   (* ca_location_ref: one more number for it *)
| Drop (i : nat)                    (* ca_location_unref *)
| Resize (i : nat) (s : N)          (* ca_location_patch_size *)
| Reroot (i : nat) (r : option N)   (* ca_location_patch_root *)
| Advance (i : nat) (n : N)         (* ca_location_advance *)
| Merge (i j : nat)                 (* ca_location_merge *)
| Show (i : nat) (w : N)            (* ca_location_format_full *)
| ONew                              (* ca_origin_new *)
| ODrop (a : nat)                   (* ca_origin_unref *)
| OFlush (a : nat)
| OPut (a i : nat)
| OPutVoid (a : nat) (n : N)
| OConcat (a b : nat) (n : N)
| OAdvance (a : nat) (n : N)        (* ca_origin_advance_bytes *)
| OExtract (a : nat) (n : N)        (* the new origin's number is the next one, unless NULL is returned *)
| OBytes (a : nat).                 (* ca_origin_bytes *)
Inductive answer := Done | Code (r : res N) | Text (t : list N).

(** ** The abstract client: locations are values, an origin is a list of sources; nothing is shared *)
Record world := mkWorld { locs : list (option loc); origs : list (option (list source)) }.
Definition lget {A} (l : list (option A)) (i : nat) : option A := match nth_error l i with Some x => x | None => None end.
Definition with_loc (w : world) (i : nat) (l : option loc) : world := mkWorld (set_nth (locs w) i l) (origs w).
Definition with_orig (w : world) (a : nat) (o : option (list source)) : world := mkWorld (locs w) (set_nth (origs w) a o).

Inductive step : world -> op -> world -> answer -> Prop :=
| s_make w l : proper l -> step w (Make l) (mkWorld (locs w ++ [Some l]) (origs w)) Done
| s_share w i l : lget (locs w) i = Some l -> step w (Share i) (mkWorld (locs w ++ [Some l]) (origs w)) Done
| s_drop w i l : lget (locs w) i = Some l -> step w (Drop i) (with_loc w i None) Done
| s_resize w i l s : lget (locs w) i = Some l -> proper (resized s l) ->
    step w (Resize i s) (with_loc w i (Some (resized s l))) (Code (Ok (if size l =? s then 0 else 1)))
| s_reroot w i l r : lget (locs w) i = Some l -> step w (Reroot i r) (with_loc w i (Some (rerooted r l))) (Code (Ok 0))
| s_advance0 w i l : lget (locs w) i = Some l -> step w (Advance i 0) w (Code (Ok 0))
| s_advance w i l n : lget (locs w) i = Some l -> n <> 0 -> proper (moved n l) -> archive_offset (moved n l) <= UINT64_MAX ->
    (size l = UINT64_MAX \/ n < size l) -> step w (Advance i n) (with_loc w i (Some (moved n l))) (Code (Ok 1))
| s_advance_far w i l n : lget (locs w) i = Some l -> size l <> UINT64_MAX -> size l < n -> step w (Advance i n) w (Code (Err ESPIPE))
| s_merge w i j a b m : lget (locs w) i = Some a -> lget (locs w) j = Some b -> i <> j ->
    size a < UINT64_MAX -> size b < UINT64_MAX -> m = resized (size a + size b) a -> proper m -> size m < UINT64_MAX ->
    (* the bytes of [b] are those that follow the bytes of [a] in the same object *)
    root a = root b -> path a = path b -> designator a = designator b -> snd (object_of a) = snd (object_of b) ->
    (designator a = 118 \/ offset a + size a = offset b) ->
    step w (Merge i j) (with_loc w i (Some m)) (Code (Ok 1))
| s_merge_no w i j a b : lget (locs w) i = Some a -> lget (locs w) j = Some b -> i <> j ->
    size a < UINT64_MAX -> size b < UINT64_MAX ->
    ~ (root a = root b /\ path a = path b /\ designator a = designator b /\ snd (object_of a) = snd (object_of b) /\
       (designator a = 118 \/ offset a + size a = offset b)) ->
    step w (Merge i j) w (Code (Ok 0))
| s_show w i l f : lget (locs w) i = Some l -> step w (Show i f) w (Text (location_format l f))
| s_onew w : step w ONew (mkWorld (locs w) (origs w ++ [Some []])) Done
| s_odrop w a x : lget (origs w) a = Some x -> step w (ODrop a) (with_orig w a None) Done
| s_oflush w a x : lget (origs w) a = Some x -> step w (OFlush a) (with_orig w a (Some [])) Done
| s_oput w a i x l : lget (origs w) a = Some x -> lget (locs w) i = Some l -> size l < UINT64_MAX -> len x + size l < UINT64_MAX ->
    step w (OPut a i) (with_orig w a (Some (x ++ sources l))) (Code (Ok 0))
| s_oput_unknown w a i x l : lget (origs w) a = Some x -> lget (locs w) i = Some l -> size l = UINT64_MAX -> step w (OPut a i) w (Code (Err EINVAL))
| s_ovoid w a x n : lget (origs w) a = Some x -> len x + n < UINT64_MAX ->
    step w (OPutVoid a n) (with_orig w a (Some (x ++ repeat Void (N.to_nat n)))) (Code (Ok 0))
| s_oconcat w a b x y n : lget (origs w) a = Some x -> lget (origs w) b = Some y -> n <= len y -> len x + n < UINT64_MAX ->
    step w (OConcat a b n) (with_orig w a (Some (x ++ takeN n y))) (Code (Ok (if n =? 0 then 0 else 1)))
| s_oconcat_all w a b x y : lget (origs w) a = Some x -> lget (origs w) b = Some y -> len x + len y < UINT64_MAX ->
    step w (OConcat a b UINT64_MAX) (with_orig w a (Some (x ++ y))) (Code (Ok (if len y =? 0 then 0 else 1)))
| s_oconcat_far w a b x y n : lget (origs w) a = Some x -> lget (origs w) b = Some y -> len y < n -> n < UINT64_MAX ->
    step w (OConcat a b n) w (Code (Err ESPIPE))
| s_oadvance w a x n : lget (origs w) a = Some x -> n <= len x -> step w (OAdvance a n) (with_orig w a (Some (dropN n x))) (Code (Ok 0))
| s_oadvance_far w a x n : lget (origs w) a = Some x -> len x < n -> step w (OAdvance a n) w (Code (Err ESPIPE))
| s_oextract w a x n : lget (origs w) a = Some x -> n <> 0 -> n <= len x \/ n = UINT64_MAX ->
    step w (OExtract a n) (mkWorld (locs w) (origs w ++ [Some (takeN n x)])) (Code (Ok 0))
| s_oextract_none w a x : lget (origs w) a = Some x -> step w (OExtract a 0) w (Code (Ok 0))
| s_oextract_far w a x n : lget (origs w) a = Some x -> len x < n -> n < UINT64_MAX -> step w (OExtract a n) w (Code (Err ESPIPE))
| s_obytes w a x : lget (origs w) a = Some x -> step w (OBytes a) w (Code (Ok (len x))).

Inductive steps : world -> list op -> world -> list answer -> Prop :=
| steps_nil w : steps w [] w []
| steps_cons w o ops w1 a w2 answers : step w o w1 a -> steps w1 ops w2 answers -> steps w (o :: ops) w2 (a :: answers).

(** ** The client of the code: locations are pointers, origins are structures with pointers *)
Record client := mkClient { mem : heap; ptrs : list (option ptr); orgs : list (option origin) }.

Definition on_ptr (c : client) (i : nat) (f : ptr -> M result) : option (client * answer) :=
  match lget (ptrs c) i with
  | None => None
  | Some p => match f p (mem c) with
              | Some ((r, p), h) => Some (mkClient h (set_nth (ptrs c) i (Some p)) (orgs c), Code r)
              | None => None
              end
  end.
Definition on_orig (c : client) (a : nat) (f : origin -> M (res N * origin)) : option (client * answer) :=
  match lget (orgs c) a with
  | None => None
  | Some o => match f o (mem c) with
              | Some ((r, o), h) => Some (mkClient h (ptrs c) (set_nth (orgs c) a (Some o)), Code r)
              | None => None
              end
  end.

Definition run1 (c : client) (x : op) : option (client * answer) :=
  match x with
  | Make l => match alloc l (mem c) with Some (p, h) => Some (mkClient h (ptrs c ++ [Some p]) (orgs c), Done) | None => None end
  | Share i => match lget (ptrs c) i with
               | None => None
               | Some p => match ref p (mem c) with Some (_, h) => Some (mkClient h (ptrs c ++ [Some p]) (orgs c), Done) | None => None end
               end
  | Drop i => match lget (ptrs c) i with
              | None => None
              | Some p => match unref p (mem c) with Some (_, h) => Some (mkClient h (set_nth (ptrs c) i None) (orgs c), Done) | None => None end
              end
  | Resize i s => on_ptr c i (fun p => patch_size p s)
  | Reroot i r => on_ptr c i (fun p => patch_root p r)
  | Advance i n => on_ptr c i (fun p => advance p n)
  | Merge i j => match lget (ptrs c) j with None => None | Some q => on_ptr c i (fun p => merge p q) end
  | Show i w => match lget (ptrs c) i with
                | None => None
                | Some p => match format_full p w (mem c) with Some (t, h) => Some (mkClient h (ptrs c) (orgs c), Text t) | None => None end
                end
  | ONew => Some (mkClient (mem c) (ptrs c) (orgs c ++ [Some origin_new]), Done)
  | ODrop a => match lget (orgs c) a with
               | None => None
               | Some o => match flush o (mem c) with Some (_, h) => Some (mkClient h (ptrs c) (set_nth (orgs c) a None), Done) | None => None end
               end
  | OFlush a => match lget (orgs c) a with
                | None => None
                | Some o => match flush o (mem c) with Some (o, h) => Some (mkClient h (ptrs c) (set_nth (orgs c) a (Some o)), Done) | None => None end
                end
  | OPut a i => match lget (ptrs c) i with None => None | Some q => on_orig c a (fun o => put o q) end
  | OPutVoid a n => on_orig c a (fun o => put_void o n)
  | OConcat a b n => match lget (orgs c) b with
                     | None => None
                     | Some y => on_orig c a (fun o => origin_concat o (if Nat.eqb a b then None else Some y) n)
                     end
  | OAdvance a n => on_orig c a (fun o => advance_bytes o n)
  | OExtract a n => match lget (orgs c) a with
                    | None => None
                    | Some o => match extract_bytes o n (mem c) with
                                | Some (Ok (Some t), h) => Some (mkClient h (ptrs c) (orgs c ++ [Some t]), Code (Ok 0))
                                | Some (Ok None, h) => Some (mkClient h (ptrs c) (orgs c), Code (Ok 0))
                                | Some (Err e, h) => Some (mkClient h (ptrs c) (orgs c), Code (Err e))
                                | _ => None
                                end
                    end
  | OBytes a => match lget (orgs c) a with None => None | Some o => Some (c, Code (Ok (n_bytes o))) end
  end.

Fixpoint run (c : client) (ops : list op) : option (client * list answer) :=
  match ops with
  | [] => Some (c, [])
  | x :: ops => match run1 c x with
                | Some (c, a) => match run c ops with Some (c, answers) => Some (c, a :: answers) | None => None end
                | None => None
                end
  end.

(** ** What the client sees of the code's state: the values of its locations, and the locations ca_origin_get() returns *)
Definition value (h : heap) (p : ptr) : option loc :=
  match nth_error h p with Some o => if n_ref o =? 0 then None else Some (val o) | None => None end.
Definition shows (c : client) (w : world) : Prop :=
  map (fun x => match x with Some p => value (mem c) p | None => None end) (ptrs c) = locs w
  /\ Forall2 (fun x y => match x, y with
                         | None, None => True
                         | Some o, Some s => exists ls, map (value (mem c)) (items o) = map Some ls /\ concat (map sources ls) = s /\ n_bytes o = len s
                         | _, _ => False
                         end) (orgs c) (origs w).
(** Every object in memory that is not freed is referred to. *)
Definition no_leak (c : client) : Prop :=
  forall p, value (mem c) p <> None -> In (Some p) (ptrs c) \/ exists o, In (Some o) (orgs c) /\ In p (items o).

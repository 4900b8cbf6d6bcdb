(** Model of the way the cache saves reading and cutting files again: src/casync.c ca_sync_step_encode with its cache states,
    ca_sync_write_one_cached_chunk, and again ca_sync_write_one_chunk and ca_sync_write_chunks, now with the origins of the data.

    Left out or simplified:
    - The encoder is an oracle: a list of regions, each the payload of a file or a block (entry, filename or goodbye record) with its location. The archive
      that the encoder makes of a tree is the subject of Encoder.v.
    - A location (calocation.h:38-69, Location.v) is reduced to [l_key], which stands for path, designator, mtime, inode, generation and feature flags,
      to [l_table], which stands for the name table, and to offset and size. Sizes do not overflow.
    - The cache is an oracle, too, which may answer differently each time (other processes use it, too; see Cache.v for the cache itself): what
      is put into it is recorded. Removing an entry is not recorded.
    - The index and the stores are lists, writing to them does not fail (see SyncWrite.v); the final chunk and the end are as there.
    - DONE_FILE steps, counters and digests of the archive are left out; [quick] is whether no digest has to be made. *)
From Verif Require Import Base Chunker.
Local Open Scope N_scope.

(** ** Locations and origins *)
Record loc := mkLoc { l_key : N; l_table : N; l_off : N; l_size : N }.
Definition origin := list loc.

(** calocation.c:643-689 ca_location_equal with CA_LOCATION_WITH_MTIME and CA_LOCATION_WITH_FEATURE_FLAGS *)
Definition loc_equal (a b : loc) : bool := (l_key a =? l_key b) && (l_off a =? l_off b).

(** calocation.c ca_location_advance, of a location whose size is not set ([l_size] isn't looked at), or at least [n] *)
Definition loc_advance (n : N) (l : loc) : loc := mkLoc (l_key l) (l_table l) (l_off l + n) (l_size l - n).
Definition loc_resize (n : N) (l : loc) : loc := mkLoc (l_key l) (l_table l) (l_off l) n.

(** caorigin.c ca_origin_bytes *)
Definition origin_bytes (o : origin) : N := fold_right (fun l n => l_size l + n) 0 o.

(** caorigin.c:49-88 ca_origin_put; calocation.c ca_location_merge *)
Fixpoint origin_put (o : origin) (l : loc) : origin :=
  match o with
  | [] => [l]
  | [a] => if (l_key a =? l_key l) && (l_off a + l_size a =? l_off l) then [mkLoc (l_key a) (l_table a) (l_off a) (l_size a + l_size l)] else [a; l]
  | a :: o => a :: origin_put o l
  end.

(** caorigin.c ca_origin_extract_bytes, ca_origin_concat: the first [n] bytes *)
Fixpoint origin_concat (t o : origin) (n : N) : origin :=
  match o with
  | [] => t
  | l :: o =>
    let l := if n <? l_size l then loc_resize n l else l in
    let n := n - l_size l in
    if n =? 0 then origin_put t l else origin_concat (origin_put t l) o n
  end.
Definition origin_extract (o : origin) (n : N) : res origin :=
  if n =? 0 then Ok [] else if origin_bytes o <? n then Err ESPIPE else Ok (origin_concat [] o n).

(** caorigin.c ca_origin_advance_bytes *)
Fixpoint origin_drop (o : origin) (n : N) : origin :=
  match o with
  | [] => []
  | l :: o => if n <? l_size l then loc_advance n l :: o else origin_drop o (n - l_size l)
  end.
Definition origin_advance (o : origin) (n : N) : res origin :=
  if n =? 0 then Ok o else if origin_bytes o <? n then Err ESPIPE else if n =? origin_bytes o then Ok [] else Ok (origin_drop o n).

(** ** The encoder *)
Record region := mkRegion { r_key : N; r_table : N; r_payload : bool; r_data : list N }.

(** caencoder.c: before the first step; at a region, from an offset on, with [got] bytes generated, which are only skipped if [skipped]; at the end. *)
Inductive enc := ENew | EAt (i : nat) (off got : N) (skipped : bool) | EEnd.
Inductive estep := EData | EFinished.

(** What ca_cache_get finds: an origin and the id of a chunk, nothing (ENOENT), or it fails. *)
Inductive answer := Hit (o : origin) (id : list N) | Miss | Broken (e : errno).

Section Cache.
Context (digest : list N -> list N) (c : cfg) (quick : bool) (tree : list region).

Definition enter (i : nat) : enc * estep :=
  match nth_error tree i with Some _ => (EAt i 0 0 false, EData) | None => (EEnd, EFinished) end.

(** caencoder.c:2272-2288 ca_encoder_step *)
Definition encoder_step (e : enc) : enc * estep :=
  match e with
  | ENew => enter 0
  | EEnd => (EEnd, EFinished)
  | EAt i off got _ =>
    match nth_error tree i with
    | None => (EEnd, EFinished)
    | Some r => if r_payload r && (off + got <? len (r_data r)) then (EAt i (off + got) 0 false, EData) else enter (S i)
    end
  end.

(** caencoder.c:3488-3582 ca_encoder_current_location (with no size) *)
Definition encoder_location (e : enc) : option loc :=
  match e with
  | EAt i off _ _ => match nth_error tree i with Some r => Some (mkLoc (r_key r) (r_table r) off UINT64_MAX) | None => None end
  | _ => None
  end.

(** caencoder.c:2907-3030 ca_encoder_get_data, 2290-2374: [suggested] is [None] for UINT64_MAX, [want] is whether the data itself is asked for. *)
Definition encoder_data (e : enc) (suggested : option N) (want : bool) : enc * res (list N) :=
  match e with
  | EAt i off got skipped =>
    match nth_error tree i with
    | None => (e, Err EUNATCH)
    | Some r =>
      if skipped && want then (e, Err EKEYREVOKED)
      else if 0 <? got then (e, Ok (takeN got (dropN off (r_data r))))
      else if r_payload r then
        let rest := len (r_data r) - off in
        let k := if negb want && quick then rest else N.min 65536 rest in
        let k := match suggested with Some n => N.min n k | None => k end in
        (EAt i off k (negb want && quick), Ok (takeN k (dropN off (r_data r))))
      else (EAt i off (len (r_data r) - off) false, Ok (dropN off (r_data r)))
    end
  | _ => (e, Err EUNATCH)
  end.

Fixpoint find_region (key : N) (i : nat) (rs : list region) : option nat :=
  match rs with
  | [] => None
  | r :: rs => if r_key r =? key then Some i else find_region key (S i) rs
  end.

(** caencoder.c:3720-3889 ca_encoder_seek_location *)
Definition encoder_seek (l : loc) : res enc :=
  match find_region (l_key l) 0 tree with
  | Some i => match nth_error tree i with
              | Some r => if l_off l <? len (r_data r) then Ok (EAt i (l_off l) 0 false) else Err ENXIO
              | None => Err ENXIO
              end
  | None => Err ENXIO
  end.

(** ** The state of CaSync *)
Inductive cstate := COff | CIdle | CCheck | CVerify | CSucceeded | CFailed.

(** casync.c:84-96: current_cache_start_location, current_cache_origin, current_cache_chunk_id, current_cache_chunk_size *)
Record item := mkItem { i_start : loc; i_origin : origin; i_id : list N; i_size : N }.

(** casync.c:52-99. [s_index], [s_stored] and [s_puts] are what was written to the index, to the store and to the cache. *)
Record sync := mkSt {
  s_enc : enc; s_ck : chunker; s_buf : list N; s_borig : origin; s_state : cstate; s_item : option item;
  s_index : list (list N * N); s_stored : list (list N); s_puts : list (origin * list N) }.

Definition set_enc (s : sync) (e : enc) : sync := mkSt e (s_ck s) (s_buf s) (s_borig s) (s_state s) (s_item s) (s_index s) (s_stored s) (s_puts s).
Definition set_state (s : sync) (t : cstate) : sync := mkSt (s_enc s) (s_ck s) (s_buf s) (s_borig s) t (s_item s) (s_index s) (s_stored s) (s_puts s).
Definition set_item (s : sync) (i : option item) : sync := mkSt (s_enc s) (s_ck s) (s_buf s) (s_borig s) (s_state s) i (s_index s) (s_stored s) (s_puts s).
Definition set_buffer (s : sync) (k : chunker) (b : list N) (o : origin) : sync := mkSt (s_enc s) k b o (s_state s) (s_item s) (s_index s) (s_stored s) (s_puts s).

(** casync.c:1528-1531, 1612 ca_sync_start *)
Definition sync_start (use_cache : bool) : sync := mkSt ENew chunker_init [] [] (if use_cache then CCheck else COff) None [] [] [].

(** casync.c:1638-1690 ca_sync_write_one_chunk; [cached] is ca_sync_use_cache(). A cache is there if it is used. *)
Definition write_one_chunk (cached : bool) (s : sync) (p : list N) (o : origin) : sync :=
  mkSt (s_enc s) (s_ck s) (s_buf s) (s_borig s) (if cached then CCheck else s_state s) (s_item s) (s_index s ++ [(digest p, len p)]) (s_stored s ++ [p])
       (if cached then s_puts s ++ [(o, digest p)] else s_puts s).

(** casync.c:1793-1811 ca_sync_write_one_cached_chunk *)
Definition write_one_cached_chunk (s : sync) (it : item) : sync :=
  mkSt (s_enc s) (s_ck s) (s_buf s) (s_borig s) (s_state s) (s_item s) (s_index s ++ [(i_id it, i_size it)]) (s_stored s) (s_puts s).

(** casync.c:1713-1761 *)
Fixpoint write_loop (n : nat) (cached : bool) (s : sync) (p : list N) : sync * res unit :=
  if len p =? 0 then (s, Ok tt)
  else
    match n with
    | O => (s, Abort)
    | S n =>
      match ca_chunker_scan c (s_ck s) p with
      | Ok (None, ck) => (set_buffer s ck (s_buf s ++ p) (s_borig s), Ok tt)
      | Ok (Some k, ck) =>
        let chunk := s_buf s ++ takeN k p in
        let taken :=
          if cached then
            if len chunk =? origin_bytes (s_borig s) then Ok (s_borig s, [])
            else let! a := origin_extract (s_borig s) (len chunk) in let! b := origin_advance (s_borig s) (len chunk) in Ok (a, b)
          else Ok ([], []) in
        match taken with
        | Ok (o, rest) => write_loop n cached (set_buffer (write_one_chunk cached (set_buffer s ck chunk rest) chunk o) ck [] rest) (dropN k p)
        | Err e => (s, Err e)
        | Abort => (s, Abort)
        | UB => (s, UB)
        end
      | Err e => (s, Err e)
      | Abort => (s, Abort)
      | UB => (s, UB)
      end
    end.

(** casync.c:1692-1764 ca_sync_write_chunks *)
Definition write_chunks (cached : bool) (s : sync) (p : list N) (l : loc) : sync * res unit :=
  write_loop (S (length p)) cached (if cached then set_buffer s (s_ck s) (s_buf s) (origin_put (s_borig s) l) else s) p.

(** casync.c:1766-1790 ca_sync_write_final_chunk *)
Definition write_final (cached : bool) (s : sync) : sync :=
  if len (s_buf s) =? 0 then s else write_one_chunk cached s (s_buf s) (s_borig s).

(** ** The cache *)
Context (ask : loc -> answer).

(** casync.c:1838-1862 ca_sync_cache_get; cacache.c: the checks at the end of ca_cache_get *)
Definition cache_get (l : loc) : res (option item) :=
  match ask l with
  | Broken e => Err e
  | Miss => Ok None
  | Hit o id =>
    if origin_bytes o =? 0 then Err EINVAL
    else match o with
         | [] => Err EINVAL
         | h :: _ => if loc_equal l h then Ok (Some (mkItem l o id (origin_bytes o))) else Err EINVAL
         end
  end.

Inductive outcome := More | Finished | Failed (e : errno) | Died.
Definition failed {A} (r : res A) : outcome := match r with Err e => Failed e | _ => Died end.

(** casync.c:2234-2276: the data is fetched, cut and written; [extra] is what was dealt with already, [l] the location, if it is known. *)
Definition take_data (s : sync) (l : option loc) (extra : N) : sync * outcome :=
  let cached := match s_state s with COff => false | _ => true end in
  let (e, r) := encoder_data (s_enc s) None true in
  let s := set_enc s e in
  match r with
  | Ok p =>
    let p := dropN extra p in
    match (match l with Some l => Some l | None => encoder_location (s_enc s) end) with
    | None => (s, Failed EUNATCH)
    | Some l => let (s, r) := write_chunks cached s p (loc_resize (len p) l) in (s, match r with Ok _ => More | _ => failed r end)
    end
  | _ => (s, failed r)
  end.

(** casync.c:2173-2230 the loop over the items that end within the data; [left] is data_size, [it] the current item, [l] the location. What is
    returned: done, or the location and the extra offset to go on with. [n] bounds the rounds: each takes at least one byte. *)
Fixpoint verify_loop (n : nat) (s : sync) (it : item) (left : N) (l : loc) : sync * (outcome + loc * N) :=
  match n with
  | O => (s, inl Died)
  | S n =>
    match i_origin it with
    | [] => (s, inl Died)
    | h :: more =>
      if left <=? l_size h then
        match origin_advance (i_origin it) left with
        | Ok o => (set_item s (Some (mkItem (i_start it) o (i_id it) (i_size it))), inl More)
        | r => (s, inl (failed r))
        end
      else
        match more with
        | _ :: _ => (set_state (set_item s (Some it)) CFailed, inl More)
        | [] =>
          let s := set_item (write_one_cached_chunk s it) None in
          let sz := l_size h in
          let l := loc_advance sz l in
          match cache_get l with
          | Ok None => (set_state s CIdle, inr (l, sz))
          | Ok (Some it) => verify_loop n (set_item s (Some it)) it (left - sz) l
          | r => (s, inl (failed r))
          end
        end
    end
  end.

(** casync.c:2135-2230: the encoder has data, there is an item to verify *)
Definition verify_data (s : sync) (it : item) (l : loc) : sync * outcome :=
  if 0 <? len (s_buf s) then (s, Died)
  else
    match i_origin it with
    | [] => (s, Died)
    | h :: _ =>
      if negb (loc_equal l h) then (set_state s CFailed, More)
      else if l_size h =? 0 then (s, Died)
      else
        let (e, r) := encoder_data (s_enc s) (Some (l_size h)) false in
        let s := set_enc s e in
        match r with
        | Ok p =>
          match verify_loop (S (length p)) s it (len p) l with
          | (s, inl o) => (s, o)
          | (s, inr (l, extra)) => take_data s (Some l) extra
          end
        | _ => (s, failed r)
        end
    end.

(** casync.c:2093-2282: CA_ENCODER_DATA, CA_ENCODER_PAYLOAD, CA_ENCODER_NEXT_FILE *)
Definition on_data (s : sync) : sync * outcome :=
  match s_state s with
  | COff | CIdle => take_data s None 0
  | CCheck =>
    if (0 <? len (s_buf s)) || (0 <? origin_bytes (s_borig s)) then (s, Died)
    else
      match encoder_location (s_enc s) with
      | None => (s, Failed EUNATCH)
      | Some l =>
        match cache_get l with
        | Ok None => take_data (set_state s CIdle) (Some l) 0
        | Ok (Some it) => verify_data (set_state (set_item s (Some it)) CVerify) it l
        | r => (s, failed r)
        end
      end
  | CVerify =>
    match s_item s, encoder_location (s_enc s) with
    | Some it, Some l => verify_data s it l
    | None, _ => (s, Died)
    | _, None => (s, Failed EUNATCH)
    end
  | _ => (s, Died)
  end.

(** casync.c:2052-2091: a step of the encoder, CA_ENCODER_FINISHED *)
Definition next_step (s : sync) : sync * outcome :=
  let (e, t) := encoder_step (s_enc s) in
  let s := set_enc s e in
  match t with
  | EData => on_data s
  | EFinished =>
    match s_state s with
    | CVerify => (set_state s CFailed, More)
    | COff | CCheck | CIdle => (write_final (match s_state s with COff => false | _ => true end) s, Finished)
    | _ => (s, Died)
    end
  end.

(** casync.c:1879-2295 ca_sync_step_encode *)
Definition step_encode (s : sync) : sync * outcome :=
  match s_state s with
  | COff | CIdle => next_step s
  | CCheck =>
    if len (s_buf s) =? 0 then next_step s
    else match s_borig s with
         | [] => (s, Died)
         | l :: _ =>
           match cache_get l with
           | Ok None => next_step (set_state s CIdle)
           | Ok (Some it) => (set_state (set_item s (Some it)) CVerify, More)
           | r => (s, failed r)
           end
         end
  | CVerify =>
    match s_item s with
    | None => (s, Died)
    | Some it =>
      if origin_bytes (i_origin it) =? 0 then (set_state s CSucceeded, More)
      else if len (s_buf s) =? 0 then next_step s
      else match i_origin it, s_borig s with
           | a :: _, b :: _ =>
             if loc_equal a b then
               if (l_size a =? 0) || (l_size b =? 0) then (s, Died)
               else
                 let sz := N.min (l_size a) (l_size b) in
                 match origin_advance (i_origin it) sz, origin_advance (s_borig s) sz with
                 | Ok o, Ok bo =>
                   if len (s_buf s) <? sz then (s, Failed EINVAL)
                   else (set_item (set_buffer s (s_ck s) (dropN sz (s_buf s)) bo) (Some (mkItem (i_start it) o (i_id it) (i_size it))), More)
                 | Ok _, r => (s, failed r)
                 | r, _ => (s, failed r)
                 end
             else (set_state s CFailed, More)
           | _, _ => (s, Died)
           end
    end
  | CSucceeded =>
    match s_item s with
    | None => (s, Died)
    | Some it => (set_state (set_item (write_one_cached_chunk s it) None) CCheck, More)
    end
  | CFailed =>
    match s_item s with
    | None => (s, Died)
    | Some it =>
      match encoder_seek (i_start it) with
      | Ok e => on_data (set_buffer (set_state (set_item (set_enc s e) None) CIdle) chunker_init [] [])
      | r => (s, failed r)
      end
    end
  end.
End Cache.

(** A run: the cache answers differently in each step. *)
Fixpoint run (digest : list N -> list N) (c : cfg) (quick : bool) (tree : list region) (asks : list (loc -> answer)) (s : sync) : sync * outcome :=
  match asks with
  | [] => (s, More)
  | ask :: asks =>
    match step_encode digest c quick tree ask s with
    | (s, More) => run digest c quick tree asks s
    | r => r
    end
  end.

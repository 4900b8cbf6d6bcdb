(** Seeking in an archive: cadecoder.c. The decoder of Decoder.v, with what the C code keeps for seeking beside it. *)
From Verif Require Import Base FeatureFlags ArchiveBase Bst Decoder.
Local Open Scope N_scope.

(** The fields of CaDecoderNode (cadecoder.c:70-110) that only seeking reads: end_offset, goodbye_offset, the items of the
    GOODBYE object, payload_offset. UINT64_MAX if not known. The fields only extraction reads (fd, dirents, ...) are left out. *)
Record ext := mkExt { x_end : N; x_gboff : N; x_gb : option (list gitem); x_pay : N }.
Definition ext0 : ext := mkExt UINT64_MAX UINT64_MAX None UINT64_MAX.

(** The states of seeking, cadecoder.c:126-157: PREPARING_SEEK_TO_x and SEEKING_TO_x. *)
Inductive seekto := KOffset | KFilename | KSibling | KEntry | KPayload | KGoodbye | KTail.
Inductive sstate :=
| SNone                  (* the state is that of Decoder.v *)
| SEntered               (* ENTERED_FOR_SEEK *)
| SPrep (k : seekto) | SSeek (k : seekto)
| SNowhere.

(** CaDecoder with its nodes: [s_x] goes along with the nodes of [s_d], [s_down] are the nodes below the current one that are
    still remembered, the upper ones first. The seek_... fields: [s_sub] is the part of seek_path that seek_subpath points to.
    While [s_st] is not SNone the state in [s_d] is D_ENTERED and doesn't mean anything. *)
Record sdec := mkSdec {
  s_d : dec; s_st : sstate; s_x : list ext; s_down : list (dnode * ext);
  s_sub : option (list N); s_sib : bool; s_idx : N; s_off : N; s_end : N; s_pay : N }.

(** Return values of ca_decoder_step (cadecoder.h). *)
Inductive sret := SR (r : dret) | R_FOUND | R_NOT_FOUND | R_SEEK.

Definition with_d (s : sdec) (d : dec) : sdec :=
  mkSdec d (s_st s) (s_x s) (s_down s) (s_sub s) (s_sib s) (s_idx s) (s_off s) (s_end s) (s_pay s).
Definition with_x (s : sdec) (x : list ext) : sdec :=
  mkSdec (s_d s) (s_st s) x (s_down s) (s_sub s) (s_sib s) (s_idx s) (s_off s) (s_end s) (s_pay s).
Definition with_idx (s : sdec) (i : N) : sdec :=
  mkSdec (s_d s) (s_st s) (s_x s) (s_down s) (s_sub s) (s_sib s) i (s_off s) (s_end s) (s_pay s).
Definition with_sub (s : sdec) (p : list N) : sdec :=
  mkSdec (s_d s) (s_st s) (s_x s) (s_down s) (Some p) (s_sib s) (s_idx s) (s_off s) (s_end s) (s_pay s).

Definition set_bound (d : dec) (b : N) : dec :=
  mkDec (d_state d) (d_ff d) (d_nodes d) (d_buf d) (d_eof d) (d_aoff d) (d_poff d) (d_step d) b.

(** cadecoder.c:657-663 ca_decoder_enter_state with a state of seeking, followed by an assignment of step_size. *)
Definition senter (s : sdec) (st : sstate) (step : N) : sdec :=
  mkSdec (enter (s_d s) D_ENTERED step) st (s_x s) (s_down s) (s_sub s) (s_sib s) (s_idx s) (s_off s) (s_end s) (s_pay s).
(** The same with a state of Decoder.v. *)
Definition senter_d (s : sdec) (st : dstate) (step : N) : sdec :=
  mkSdec (enter (s_d s) st step) SNone (s_x s) (s_down s) (s_sub s) (s_sib s) (s_idx s) (s_off s) (s_end s) (s_pay s).

(** cadecoder.c:2443-2453 ca_decoder_reset_seek *)
Definition reset_seek (s : sdec) : sdec :=
  mkSdec (s_d s) (s_st s) (s_x s) (s_down s) None false 0 UINT64_MAX UINT64_MAX UINT64_MAX.

(** ** Paths *)
(** p + strspn(p, "/") *)
Fixpoint skip_slashes (p : list N) : list N :=
  match p with c :: q => if c =? 47 then skip_slashes q else p | [] => [] end.
(** p up to strcspn(p, "/"), and the rest *)
Fixpoint to_slash (p : list N) : list N * list N :=
  match p with
  | [] => ([], [])
  | c :: q => if c =? 47 then ([], p) else let (a, b) := to_slash q in (c :: a, b)
  end.
(** cadecoder.c:1429-1460 path_get_component: the component if there is one, and the new *p. *)
Definition get_component (p : list N) : option (list N) * list N :=
  let q := skip_slashes p in
  let (c, r) := to_slash q in
  match c with [] => (None, q) | _ => (Some c, skip_slashes r) end.
(** cadecoder.c:1468-1502 path_match_component *)
Inductive pmatch := MATCH_NO | MATCH_FINAL | MATCH_MORE.
Definition match_component (p component : list N) : pmatch :=
  let p := skip_slashes p in
  if negb (beq (takeN (len component) p) component) then MATCH_NO
  else match dropN (len component) p with
       | [] => MATCH_FINAL
       | c :: q => if negb (c =? 47) then MATCH_NO
                   else match skip_slashes (c :: q) with [] => MATCH_FINAL | _ => MATCH_MORE end
       end.

Section Seek.
Variable env : denv.
(** siphash24() with CA_FORMAT_GOODBYE_HASH_KEY, as for the encoder *)
Variable hash : list N -> N.

Definition prep (s : sdec) (k : seekto) (off end_ : N) : sdec :=
  let s := senter s (SPrep k) 0 in
  mkSdec (s_d s) (s_st s) (s_x s) (s_down s) (s_sub s) (s_sib s) (s_idx s) off end_ (s_pay s).
Definition nowhere (s : sdec) : sdec := senter s SNowhere 0.

(** CaDecoderNode.size: only set by the entry, UINT64_MAX otherwise. *)
Definition node_size (n : dnode) : N := match dn_entry n with Some e => opt_or (dt_size e) UINT64_MAX | None => UINT64_MAX end.

(** cadecoder.c:1504-1674 ca_decoder_do_seek for the current node: whether there is something to seek to (it returns 1 or 0). *)
Definition do_seek (s : sdec) : res (bool * sdec) :=
  match d_nodes (s_d s), s_x s with
  | n :: up, x :: xs =>
    match s_sub s with
    | None => Err EUNATCH
    | Some p =>
      if dn_entry_offset n =? UINT64_MAX then Err EUNATCH
      else
      let mode := node_mode n in
      match fst (get_component p) with
      | None =>
          if s_sib s then
            if x_end x =? UINT64_MAX then Err EUNATCH
            else if len up <=? d_bound (s_d s) then Ok (false, nowhere s)   (* 666-675 ca_decoder_leave_child *)
            else Ok (true, prep (mkSdec (set_nodes (s_d s) up) (s_st s) xs ((n, x) :: s_down s) (s_sub s) (s_sib s) (s_idx s)
                                   (s_off s) (s_end s) (s_pay s)) KSibling (x_end x) UINT64_MAX)
          else if negb (s_pay s =? UINT64_MAX) then
            if x_pay x =? UINT64_MAX then Err EUNATCH
            else if mode =? MODE_NONE then Err EUNATCH
            else if negb (S_ISREG mode) then Ok (false, nowhere s)
            else if node_size n <? s_pay s then Ok (false, nowhere s)
            else Ok (true, prep s KPayload (add64 (x_pay x) (s_pay s)) (x_end x))
          else Ok (true, prep s KEntry (dn_entry_offset n) (x_end x))
      | Some child =>
          if mode =? MODE_NONE then Err EUNATCH
          else if negb (S_ISDIR mode) then Ok (false, nowhere s)
          else
          match x_gb x with
          | Some table =>
              if x_gboff x =? UINT64_MAX then Err EUNATCH
              else
              let! item := goodbye_search gi_hash table (hash child) (s_idx s) in
              match item with
              | None => Ok (false, nowhere s)
              | Some i =>
                  if gi_off i <? gi_size i then Err EBADMSG
                  else if x_gboff x <? gi_off i then Err EBADMSG
                  else if x_gboff x - gi_off i <? dn_entry_offset n then Err EBADMSG
                  else Ok (true, prep s KFilename (x_gboff x - gi_off i) (add64 (x_gboff x - gi_off i) (gi_size i)))
              end
          | None =>
              if negb (x_gboff x =? UINT64_MAX) then Ok (true, prep s KGoodbye (x_gboff x) UINT64_MAX)
              else if negb (x_end x =? UINT64_MAX) then
                if x_end x <? GOODBYE_TAIL then Err EBADMSG
                else Ok (true, prep s KTail (x_end x - GOODBYE_TAIL) (x_end x))
              else Err ESPIPE
          end
      end
    end
  | _, _ => Err EINVAL
  end.

(** What follows do_seek in a step. *)
Definition seek_on (s : sdec) : res (sret * sdec) :=
  let! (b, s) := do_seek s in Ok (if b : bool then SR R_STEP else R_NOT_FOUND, s).

(** cadecoder.c:4045-4054 ca_decoder_apply_seek_offset, after ca_decoder_enter_state *)
Definition apply_seek (s : sdec) (k : seekto) : sdec :=
  let d := s_d s in
  mkSdec (mkDec D_ENTERED (d_ff d) (d_nodes d) [] false (s_off s) 0 0 (d_bound d)) (SSeek k)
    (s_x s) (s_down s) (s_sub s) (s_sib s) (s_idx s) (s_off s) (s_end s) (s_pay s).

(** cadecoder.c:594-628 ca_decoder_init_child, ca_decoder_enter_child: a child of the current node, entered. *)
Definition push_child (s : sdec) (name : list N) (l end_ : N) : sdec :=
  mkSdec (set_nodes (s_d s) (mkDnode name (add64 (d_aoff (s_d s)) l) None MODE_NONE :: d_nodes (s_d s))) (s_st s)
    (mkExt end_ UINT64_MAX None UINT64_MAX :: s_x s) [] (s_sub s) (s_sib s) (s_idx s) (s_off s) (s_end s) (s_pay s).

(** CA_FORMAT_xxx type of the object in the buffer, if its header is there. *)
Definition type_is (buf : list N) (t : N) : bool := (HDR <=? len buf) && (fld 8 buf =? t).

(** cadecoder.c:2455-2679 ca_decoder_parse_filename in the states SEEKING_TO_FILENAME, SEEKING_TO_NEXT_SIBLING and
    SEEKING_TO_GOODBYE. An object these states do not expect is an error as soon as its header is there. *)
Definition seeking_filename (s : sdec) (k : seekto) (n : dnode) (x : ext) (xs : list ext) : res (sret * sdec) :=
  let d := s_d s in
  if match k with KGoodbye => type_is (d_buf d) F_FILENAME | KFilename => type_is (d_buf d) F_GOODBYE | _ => false end
  then Err EBADMSG
  else
  match parse_filename (d_buf d) with
  | FReq => Ok (SR R_REQUEST, s)
  | FErr e => Err e
  | FName name l =>
      match k with
      | KFilename =>
          match s_sub s with
          | None => Abort
          | Some sub =>
              match match_component sub name with
              | MATCH_NO => seek_on (with_idx s (s_idx s + 1))
              | m =>
                  let end_ := s_end s in
                  let s := with_idx s 0 in
                  if match m with MATCH_MORE => true | _ => s_sib s || negb (s_pay s =? UINT64_MAX) end then
                    let s := with_sub s (snd (get_component sub)) in
                    if NODES_MAX <=? len (d_nodes d) then Err EFBIG
                    else Ok (SR R_STEP, senter (push_child s name l end_) SEntered l)
                  else
                    let s := with_d (reset_seek s) (set_bound d (len (d_nodes d))) in
                    if NODES_MAX <=? len (d_nodes d) then Err EFBIG
                    else Ok (R_FOUND, senter_d (push_child s name l end_) D_ENTERED l)
              end
          end
      | _ =>
          if NODES_MAX <=? len (d_nodes d) then Err EFBIG
          else Ok (R_FOUND, senter_d (push_child (reset_seek s) name l UINT64_MAX) D_ENTERED l)
      end
  | FGoodbye o l =>
      if negb (dn_entry_offset n =? UINT64_MAX) && negb (d_aoff d =? UINT64_MAX) && negb (o =? sub64 (d_aoff d) (dn_entry_offset n))
      then Err EBADMSG
      else
      let s := with_x s (mkExt (x_end x) (x_gboff x) (Some (goodbye_items l (d_buf d))) (x_pay x) :: xs) in
      match k with
      | KGoodbye => seek_on s
      | _ => Ok (SR R_STEP, senter_d s D_GOODBYE l)
      end
  end.

(** cadecoder.c:2681-2730 ca_decoder_parse_goodbye_tail; 64 is sizeof(CaFormatEntry) *)
Definition seeking_tail (s : sdec) (n : dnode) (x : ext) (xs : list ext) : res (sret * sdec) :=
  let d := s_d s in
  let p := d_buf d in
  if d_aoff d =? UINT64_MAX then Err ESPIPE
  else if len p <? GOODBYE_TAIL then Ok (SR R_REQUEST, s)
  else if negb (fld 16 p =? F_GOODBYE_TAIL_MARKER) then Err EBADMSG
  else
  let l := fld 8 p in
  let here := add64 (d_aoff d) GOODBYE_TAIL in
  if l <? HDR + GOODBYE_TAIL then Err EBADMSG
  else if negb ((l - HDR - GOODBYE_TAIL) mod GOODBYE_ITEM =? 0) then Err EBADMSG
  else if here <? l then Err EBADMSG
  else
  let q := fld 0 p in
  if q <? ENTRY_SIZE then Err EBADMSG
  else if here - l <? q then Err EBADMSG
  else if at_root d && negb (here =? add64 l q) then Err EBADMSG
  else seek_on (with_x s (mkExt (x_end x) (here - l) (x_gb x) (x_pay x) :: xs)).

(** ca_decoder_parse_entry in state ENTERED_FOR_SEEK, as [step_entry] in Decoder.v and cadecoder.c:2408-2421. *)
Definition seek_entry (s : sdec) (n : dnode) (up : list dnode) (x : ext) (xs : list ext) : res (sret * sdec) :=
  let d := s_d s in
  match parse_entry env (at_root d) (d_ff d) (d_buf d) with
  | (RReq, ff) =>
      Ok (SR R_REQUEST, with_d s (set_nodes (set_ff d ff) (mkDnode (dn_name n) (dn_entry_offset n) None MODE_NONE :: up)))
  | (RErr e, _) => Err e
  | (ROk e off, ff) =>
      let s := with_d s (set_nodes (set_ff d ff) (mkDnode (dn_name n) (dn_entry_offset n) (Some e) MODE_NONE :: up)) in
      let s := if S_ISREG (m_mode (dt_meta e)) then with_x s (mkExt (x_end x) (x_gboff x) (x_gb x) (add64 (d_aoff d) off) :: xs) else s in
      seek_on s
  end.

(** SEEKING_TO_OFFSET and SEEKING_TO_PAYLOAD, cadecoder.c:4251-4263 and 4287-4302: reading goes on at offset [off] of the
    payload. *)
Definition seeking_payload (s : sdec) (n : dnode) (off : N) : res (sret * sdec) :=
  let d := s_d s in
  let d := mkDec D_IN_PAYLOAD (d_ff d) (d_nodes d) (d_buf d) (d_eof d) (d_aoff d) off 0 (d_bound d) in
  let s := reset_seek (mkSdec d SNone (s_x s) (s_down s) (s_sub s) (s_sib s) (s_idx s) (s_off s) (s_end s) (s_pay s)) in
  let! (r, d) := step_payload d n in Ok (SR r, with_d s d).

(** Steps in the states of Decoder.v: what ca_decoder_step does to the fields in [s_x] and [s_down] besides.
    A child entered (2573-2594); ca_decoder_leave_child; the GOODBYE object kept (2649-2652; goodbye_offset is not set);
    payload_offset (2405-2406). *)
Definition track (s : sdec) (r : dret) (d' : dec) : sdec :=
  let d := s_d s in
  let s' := with_d s d' in
  if len (d_nodes d) <? len (d_nodes d') then
    mkSdec d' SNone (ext0 :: s_x s) [] (s_sub s) (s_sib s) (s_idx s) (s_off s) (s_end s) (s_pay s)
  else if len (d_nodes d') <? len (d_nodes d) then
    match d_nodes d, s_x s with
    | n :: _, x :: xs => mkSdec d' SNone xs ((n, x) :: s_down s) (s_sub s) (s_sib s) (s_idx s) (s_off s) (s_end s) (s_pay s)
    | _, _ => s'
    end
  else
  match s_x s, r, d_state d' with
  | x :: xs, R_STEP, D_GOODBYE => with_x s' (mkExt (x_end x) (x_gboff x) (Some (goodbye_items (d_step d') (d_buf d'))) (x_pay x) :: xs)
  | x :: xs, R_NEXT_FILE, _ =>
      match d_nodes d' with
      | n :: _ => if S_ISREG (node_mode n) then with_x s' (mkExt (x_end x) (x_gboff x) (x_gb x) (add64 (d_aoff d') (d_step d')) :: xs) else s'
      | [] => s'
      end
  | _, _, _ => s'
  end.

(** cadecoder.c:4445-4463 ca_decoder_step with 4056-4383 ca_decoder_step_node *)
Definition sstep (s : sdec) : res (sret * sdec) :=
  match s_st s with
  | SNone => let! (r, d) := decoder_step env (s_d s) in Ok (SR r, track s r d)
  | st =>
      match d_nodes (s_d s), s_x s with
      | n :: up, x :: xs =>
          let! d := advance_buffer (s_d s) in
          let s := with_d s d in
          let mode := node_mode n in
          match st with
          | SNone => Abort
          | SEntered => seek_entry s n up x xs
          | SNowhere => Ok (R_NOT_FOUND, s)
          | SPrep KOffset =>
              if negb (is_naked d) then Abort
              else if mode =? MODE_NONE then Err EUNATCH
              else if negb (S_ISREG mode || S_ISBLK mode) then Abort
              else Ok (R_SEEK, apply_seek s KOffset)
          | SPrep KPayload =>
              if mode =? MODE_NONE then Err EUNATCH
              else if negb (S_ISREG mode) then Abort
              else Ok (R_SEEK, apply_seek s KPayload)
          | SPrep KEntry => Ok (R_SEEK, apply_seek s KEntry)
          | SPrep k =>
              if mode =? MODE_NONE then Err EUNATCH
              else if negb (S_ISDIR mode) then Abort
              else Ok (R_SEEK, apply_seek s k)
          | SSeek KOffset => if negb (is_naked d) then Abort else seeking_payload s n (s_off s)
          | SSeek KPayload => seeking_payload s n (s_pay s)
          | SSeek KEntry =>
              (* 4088-4100 *)
              let s := reset_seek s in
              Ok (R_FOUND, senter_d (with_d s (set_bound d (len up))) D_ENTERED 0)
          | SSeek KTail =>
              if mode =? MODE_NONE then Err EUNATCH
              else if negb (S_ISDIR mode) then Abort
              else seeking_tail s n x xs
          | SSeek k =>
              if mode =? MODE_NONE then Err EUNATCH
              else if negb (S_ISDIR mode) then Abort
              else seeking_filename s k n x xs
          end
      | _, _ => Err EUNATCH
      end
  end.

(** ca_decoder_put_data and ca_decoder_put_eof *)
Definition sput (s : sdec) (p : list N) : res sdec := let! d := decoder_put_data (s_d s) p in Ok (with_d s d).
Definition sput_eof (s : sdec) : sdec := with_d s (decoder_put_eof (s_d s)).

(** cadecoder.c:5081-5117: how far down the nodes remembered lead to [p]; [st] is the stack of nodes, the current one first. *)
Fixpoint walk (p : list N) (st rest : list (dnode * ext)) : list N * list (dnode * ext) :=
  match get_component p, rest with
  | (Some c, q), (ch, x) :: rest =>
      if negb (beq c (dn_name ch)) then (p, st)
      else if x_end x =? UINT64_MAX then (p, st)
      else walk q ((ch, x) :: st) rest
  | _, _ => (p, st)
  end.

(** cadecoder.c:5064-5140 ca_decoder_seek_path_internal. In case of an error after the walk the current node has changed in C
    already; the model doesn't say anything about the decoder after an error. *)
Definition seek_path_internal (s : sdec) (path : list N) (next_sibling : bool) (offset : N) : res sdec :=
  match rev (combine (d_nodes (s_d s)) (s_x s)) ++ s_down s with
  | [] => Err EUNATCH
  | (n0, x0) :: rest =>
      if x_end x0 =? UINT64_MAX then Err ESPIPE
      else if node_mode n0 =? MODE_NONE then Err ENODATA
      else if negb (S_ISDIR (node_mode n0)) then Err ESPIPE
      else
      let (p, st) := walk (skip_slashes path) [(n0, x0)] rest in
      let! (_, s) := do_seek (mkSdec (set_nodes (s_d s) (map fst st)) (s_st s) (map snd st) [] (Some p) next_sibling 0
                                UINT64_MAX UINT64_MAX offset) in
      Ok s
  end.
(** cadecoder.c:5142-5176 *)
Definition seek_path (s : sdec) (path : list N) : res sdec := seek_path_internal s path false UINT64_MAX.
Definition seek_path_offset (s : sdec) (path : list N) (offset : N) : res sdec :=
  if offset =? UINT64_MAX then Err EINVAL else seek_path_internal s path false offset.
Definition path_string (p : list (list N)) : list N :=
  match p with [] => [] | c :: p => c ++ concat (map (fun x => 47 :: x) p) end.
Definition seek_next_sibling (s : sdec) : res sdec :=
  if forallb (fun n => some (dn_entry n)) (removelast (d_nodes (s_d s)))          (* 4576: assert(node->entry) *)
  then seek_path_internal s (path_string (current_path (s_d s))) true UINT64_MAX
  else Abort.

(** cadecoder.c:5030-5062 ca_decoder_seek_offset. The root is the only node if it is naked. *)
Definition seek_offset (s : sdec) (offset : N) : res sdec :=
  if offset =? UINT64_MAX then Err EINVAL
  else match d_nodes (s_d s), s_x s with
       | [_], x :: _ =>
           if negb (is_naked (s_d s)) then Err EISDIR
           else if x_end x =? UINT64_MAX then Err ESPIPE
           else if x_end x <? offset then Ok (nowhere s)
           else if offset =? x_end x then Ok (senter_d s D_EOF 0)
           else Ok (prep (reset_seek s) KOffset offset UINT64_MAX)
       | [], _ => Err EUNATCH
       | _, _ => Err EISDIR
       end.

(** cadecoder.c:5178-5206 ca_decoder_get_seek_offset *)
Definition get_seek_offset (s : sdec) : res N :=
  match s_st s with
  | SSeek _ => if s_off s =? UINT64_MAX then Err ENODATA else Ok (s_off s)
  | _ => Err ENODATA
  end.

(** cadecoder.c:554-585 ca_decoder_set_base_mode after ca_decoder_new *)
Definition sdec_new (mode : N) : res sdec :=
  let! d := decoder_new mode in
  Ok (mkSdec d SNone [mkExt UINT64_MAX UINT64_MAX None (if S_ISREG mode || S_ISBLK mode then 0 else UINT64_MAX)] [] None false 0
        UINT64_MAX UINT64_MAX UINT64_MAX).

(** cadecoder.c:5224-5235 ca_decoder_set_archive_size. The root is the last of the nodes. *)
Definition set_root_end (x : ext) (size : N) : ext := mkExt size (x_gboff x) (x_gb x) (x_pay x).
Definition set_archive_size (s : sdec) (size : N) : sdec :=
  with_x s (match rev (s_x s) with [] => [] | x :: r => rev r ++ [set_root_end x size] end).
End Seek.

(** The digests an encoder and a decoder calculate while they run: cadigest.c, caencoder.c, cadecoder.c. Seeking is left out
    (it invalidates them), and the decoder's caller wants the payload, so that nothing is skipped (cadecoder.c:4178-4184). *)
From Verif Require Import Base FeatureFlags ArchiveBase Decoder Encoder.
Local Open Scope N_scope.

(** cadigest.c:8-16 CaDigest: what was written to it since the last reset. After SHA256_Final() or SHA512_Final() OpenSSL
    doesn't say what is in there, until it is initialized again: [None]. *)
Record digest := mkDigest { dg_type : digest_type; dg_data : option (list N) }.
(** cadigest.c:18-50 ca_digest_reset; the pointer may be NULL *)
Definition digest_reset (d : option digest) : option digest :=
  match d with None => None | Some d => Some (mkDigest (dg_type d) (Some [])) end.
(** cadigest.c:194-206 ca_digest_ensure_allocated, with 52-73 ca_digest_new *)
Definition digest_allocated (d : option digest) (t : digest_type) : digest :=
  match d with Some d => d | None => mkDigest t (Some []) end.
(** caencoder.c:2891-2905 ca_encoder_write_digest, cadecoder.c:1676-1690 ca_decoder_write_digest, with cadigest.c:79-100 *)
Definition digest_write (d : option digest) (t : digest_type) (p : list N) : option digest :=
  let d := digest_allocated d t in
  Some (match dg_data d with Some b => mkDigest (dg_type d) (Some (b ++ p)) | None => d end).

(** The fields of CaEncoder (caencoder.c:194-203) and CaDecoder (cadecoder.c:228-237) *)
Record digs := mkDigs {
  g_want_a : bool; g_want_p : bool; g_want_h : bool;          (* want_xxx_digest *)
  g_bad_p : bool; g_bad_h : bool;                             (* xxx_digest_invalid *)
  g_a : option digest; g_p : option digest; g_h : option digest }.
(** ca_{encoder,decoder}_enable_{archive,payload,hardlink}_digest on a new one: caencoder.c:3926-3948, cadecoder.c:5355-5377 *)
Definition digs_new (a p h : bool) : digs := mkDigs a p h false false None None None.

Definition set_a (g : digs) (d : option digest) : digs := mkDigs (g_want_a g) (g_want_p g) (g_want_h g) (g_bad_p g) (g_bad_h g) d (g_p g) (g_h g).
Definition set_p (g : digs) (bad : bool) (d : option digest) : digs := mkDigs (g_want_a g) (g_want_p g) (g_want_h g) bad (g_bad_h g) (g_a g) d (g_h g).
Definition set_h (g : digs) (bad : bool) (d : option digest) : digs := mkDigs (g_want_a g) (g_want_p g) (g_want_h g) (g_bad_p g) bad (g_a g) (g_p g) d.

Section Digest.
(** The digest algorithms. *)
Variable H : digest_type -> list N -> list N.

(** cadigest.c:102-125 ca_digest_read: the digest, and what the context is then. What reading it a second time gives isn't
    specified. *)
Definition digest_read (d : digest) : res (list N * digest) :=
  match dg_data d with
  | Some b => Ok (H (dg_type d) b, mkDigest (dg_type d) None)
  | None => UB
  end.

(** ** The decoder *)
Definition d_type (d : dec) : digest_type := feature_flags_to_digest_type (d_ff d).

(** A step of the decoder, with what it does to the digests: it is the bytes the next step drops from the buffer that are
    written. *)
Definition note (g : digs) (r : dret) (d : dec) : digs :=
  let b := takeN (d_step d) (d_buf d) in
  match r with
  | R_NEXT_FILE =>                                               (* cadecoder.c:2428-2438 *)
      let g := set_a g (digest_write (g_a g) (d_type d) b) in
      let g := if g_want_p g then set_p g false (digest_reset (g_p g)) else g in
      if g_want_h g then set_h g false (digest_write (digest_reset (g_h g)) (d_type d) b) else g
  | R_STEP =>
      match d_state d with
      | D_ENTERED => if g_want_a g then set_a g (digest_write (g_a g) (d_type d) b) else g   (* 2617-2622 *)
      | D_GOODBYE => set_a g (digest_write (g_a g) (d_type d) b)                              (* 2671 *)
      | _ => g
      end
  | R_PAYLOAD =>                                                 (* 4146-4151 *)
      let g := if g_want_a g then set_a g (digest_write (g_a g) (d_type d) b) else g in
      let g := if g_want_p g && negb (g_bad_p g) then set_p g (g_bad_p g) (digest_write (g_p g) (d_type d) b) else g in
      if g_want_h g && negb (g_bad_h g) then set_h g (g_bad_h g) (digest_write (g_h g) (d_type d) b) else g
  | R_DONE_FILE | R_REQUEST | R_FINISHED => g
  end.
Definition gdec : Type := dec * digs.
Definition gd_step (env : denv) (s : gdec) : res (dret * gdec) :=
  let! (r, d) := decoder_step env (fst s) in Ok (r, (d, note (snd s) r d)).

(** cadecoder.c:5379-5404 ca_decoder_get_archive_digest *)
Definition gd_archive (s : gdec) : res (list N * gdec) :=
  let (d, g) := s in
  if negb (g_want_a g) then Err ENOMEDIUM
  else match d_state d with
       | D_EOF => let! (v, c) := digest_read (digest_allocated (g_a g) (d_type d)) in Ok (v, (d, set_a g (Some c)))
       | _ => Err EBUSY
       end.
(** cadecoder.c:5406-5444 ca_decoder_get_payload_digest *)
Definition gd_payload (s : gdec) : res (list N * gdec) :=
  let (d, g) := s in
  if negb (g_want_p g) then Err ENOMEDIUM
  else match d_state d with
       | D_FINALIZE =>
           if g_bad_p g then Err ESTALE
           else match d_nodes d with
                | [] => Err EUNATCH
                | n :: _ =>
                    if node_mode n =? MODE_NONE then Err ENODATA
                    else if negb (S_ISREG (node_mode n)) && negb (S_ISBLK (node_mode n)) then Err ENOTTY
                    else let! (v, c) := digest_read (digest_allocated (g_p g) (d_type d)) in Ok (v, (d, set_p g (g_bad_p g) (Some c)))
                end
       | _ => Err EBUSY
       end.
(** cadecoder.c:5446-5484 ca_decoder_get_hardlink_digest *)
Definition gd_hardlink (s : gdec) : res (list N * gdec) :=
  let (d, g) := s in
  if negb (g_want_h g) then Err ENOMEDIUM
  else match d_state d with
       | D_FINALIZE =>
           if g_bad_h g then Err ESTALE
           else match d_nodes d with
                | [] => Err EUNATCH
                | n :: _ =>
                    if node_mode n =? MODE_NONE then Err ENODATA
                    else if S_ISDIR (node_mode n) then Err EISDIR
                    else let! (v, c) := digest_read (digest_allocated (g_h g) (d_type d)) in Ok (v, (d, set_h g (g_bad_h g) (Some c)))
                end
       | _ => Err EBUSY
       end.

(** ** The encoder *)
Definition e_type (ev : eenv) : digest_type := feature_flags_to_digest_type (ev_ff ev).
Definition genc : Type := enc * digs.

(** A step of the encoder: caencoder.c:2074-2082 in state ENTERED. *)
Definition ge_step (ev : eenv) (s : genc) : res (eret * genc) :=
  let! (r, e) := encoder_step ev (fst s) in
  let g := snd s in
  Ok (r, (e, match r with
             | ER_NEXT_FILE =>
                 let g := if g_want_p g then set_p g false (digest_reset (g_p g)) else g in
                 if g_want_h g then set_h g false (digest_reset (g_h g)) else g
             | _ => g
             end)).
(** caencoder.c:2911-3026 ca_encoder_get_data with a ret that isn't NULL *)
Definition ge_get_data (ev : eenv) (s : genc) (suggested : N) : res (option (list N) * genc) :=
  let (e, g) := s in
  let! (o, e') := encoder_get_data ev e suggested in
  if 0 <? len (e_buf e) then Ok (o, (e', g))
  else match o with
       | None => Ok (o, (e', g))
       | Some b =>
           let really_h := g_want_h g && negb (g_bad_h g) && match e_state e with E_ENTRY | E_IN_PAYLOAD => true | _ => false end in
           let really_p := g_want_p g && negb (g_bad_p g) && match e_state e with E_IN_PAYLOAD => true | _ => false end in
           let g := if g_want_a g then set_a g (digest_write (g_a g) (e_type ev) b) else g in
           let g := if really_h then set_h g (g_bad_h g) (digest_write (g_h g) (e_type ev) b) else g in
           let g := if really_p then set_p g (g_bad_p g) (digest_write (g_p g) (e_type ev) b) else g in
           Ok (o, (e', g))
       end.

(** caencoder.c:3950-3976 ca_encoder_get_archive_digest *)
Definition ge_archive (ev : eenv) (s : genc) : res (list N * genc) :=
  let (e, g) := s in
  if negb (g_want_a g) then Err ENOMEDIUM
  else match e_state e with
       | E_EOF => let! (v, c) := digest_read (digest_allocated (g_a g) (e_type ev)) in Ok (v, (e, set_a g (Some c)))
       | _ => Err EBUSY
       end.
(** caencoder.c:3978-4013 ca_encoder_get_payload_digest *)
Definition ge_payload (ev : eenv) (s : genc) : res (list N * genc) :=
  let (e, g) := s in
  if negb (g_want_p g) then Err ENOMEDIUM
  else match e_state e with
       | E_FINALIZE =>
           if g_bad_p g then Err ESTALE
           else match e_nodes e with
                | [] => Err EUNATCH
                | n :: _ =>
                    if negb (S_ISREG (f_mode (en_file n))) && negb (S_ISBLK (f_mode (en_file n))) then Err ENOTTY
                    else let! (v, c) := digest_read (digest_allocated (g_p g) (e_type ev)) in Ok (v, (e, set_p g (g_bad_p g) (Some c)))
                end
       | _ => Err EBUSY
       end.
(** caencoder.c:4015-4051 ca_encoder_get_hardlink_digest *)
Definition ge_hardlink (ev : eenv) (s : genc) : res (list N * genc) :=
  let (e, g) := s in
  if negb (g_want_h g) then Err ENOMEDIUM
  else match e_state e with
       | E_FINALIZE =>
           if g_bad_h g then Err ESTALE
           else match e_nodes e with
                | [] => Err EUNATCH
                | n :: _ =>
                    if S_ISDIR (f_mode (en_file n)) then Err EISDIR
                    else let! (v, c) := digest_read (digest_allocated (g_h g) (e_type ev)) in Ok (v, (e, set_h g (g_bad_h g) (Some c)))
                end
       | _ => Err EBUSY
       end.
End Digest.

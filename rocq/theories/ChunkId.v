(** Model of src/cachunkid.c, src/cachunkid.h. A chunk id is a list of 32 bytes; a C string is the list of its
    bytes without the terminating NUL (so that no byte of it is 0). *)
From Verif Require Import Base.
Local Open Scope N_scope.

(** cachunkid.c:10-13 encode_char: '0' = 48, 'a' = 97. *)
Definition encode_char (x : N) : N :=
  let x := N.land x 15 in (if x <? 10 then 48 else 97 - 10) + x.

(** cachunkid.c:15-22 decode_char; [None] is -EINVAL. *)
Definition decode_char (x : N) : option N :=
  if (48 <=? x) && (x <=? 57) then Some (x - 48)
  else if (97 <=? x) && (x <=? 102) then Some (x - 97 + 10)
  else None.

(** cachunkid.c:51-64 ca_chunk_id_format. *)
Definition chunk_id_format (id : list N) : list N :=
  flat_map (fun b => [encode_char (N.shiftr b 4); encode_char (N.land b 15)]) id.

(** The i-th char of a C string, reading its NUL terminator at the end. Reads beyond the terminator don't occur, as
    parsing stops at the first char that isn't a digit. *)
Definition str_at (v : list N) (i : nat) : N := nth i v 0.

(** cachunkid.c:31-42 the loop of ca_chunk_id_parse for [k] bytes left at position [i]. *)
Fixpoint parse_loop (v : list N) (i k : nat) : option (list N) :=
  match k with
  | O => Some []
  | S k =>
    match decode_char (str_at v (2 * i)) with
    | None => None
    | Some x =>
      match decode_char (str_at v (2 * i + 1)) with
      | None => None
      | Some y =>
        match parse_loop v (S i) k with
        | None => None
        | Some l => Some (N.lor (N.shiftl x 4 mod 256) y :: l)
        end
      end
    end
  end.

(** cachunkid.c:24-49 ca_chunk_id_parse; the final test that the terminator is at position 64. *)
Definition chunk_id_parse (v : list N) : option (list N) :=
  match parse_loop v 0 32 with
  | Some id => if str_at v 64 =? 0 then Some id else None
  | None => None
  end.

(** cachunkid.c:88-113 ca_chunk_id_format_path. NULL prefix or suffix is the empty string. *)
Definition chunk_id_format_path (prefix id suffix : list N) : list N :=
  prefix ++ firstn 4 (chunk_id_format id) ++ [47] ++ chunk_id_format id ++ suffix.

(** cachunkid.h:25-34 ca_chunk_id_equal. *)
Definition chunk_id_equal (a b : list N) : bool := beq a b.

(** cachunkid.h:36-47 ca_chunk_id_is_null: the loop looks at u64[0] in each of its 4 rounds. *)
Definition chunk_id_is_null (id : list N) : bool :=
  forallb (fun _ => rd64 id =? 0) (seq 0 4).

(** cachunkid.c:66-86 ca_chunk_id_make; the digest is an oracle. *)
Definition chunk_id_make (digest : list N -> list N) (data : list N) : res (list N) :=
  if len data <? 1 then Err EINVAL
  else if 134217728 <? len data then Err EINVAL
  else Ok (digest data).

(** Well formed ids: 32 bytes. *)
Definition id_ok (id : list N) : bool := (len id =? 32) && bytes_ok id.

(** A C string: bytes 1..255. *)
Definition cstr_ok (s : list N) : bool := forallb (fun b => (0 <? b) && (b <? 256)) s.

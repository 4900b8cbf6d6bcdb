(** Model of the UID shift on extraction: src/cadecoder.c:2928-2951 and its callers. The encoder's half
    (src/caencoder.c:1153-1176) is [shift_uid] and [entry_ids] in Encoder.v. *)
From Verif Require Import Base ArchiveBase.
Local Open Scope N_scope.

Section Shift.
(** d->uid_shift, d->uid_range: two uid_t, i.e. 32 bit. *)
Variables shift range : N.

(** cadecoder.c:2928-2947 ca_decoder_shift_uid; ca_decoder_shift_gid (2949-2951) is the same. The addition is one of 32 bit
    unsigned numbers. *)
Definition decoder_shift_uid (uid : N) : N :=
  if negb (uid_is_valid uid) then UID_INVALID
  else
    let result := if negb (range =? 0) then uid mod range else uid in
    if (shift + result) mod two32 <? shift then UID_INVALID
    else (result + shift) mod two32.

(** The owner a file is given on extraction if its ENTRY (or ACL) record has no name: cadecoder.c:3625-3631 and 3637-3643 in
    ca_decoder_finalize_child, and 3106-3112, 3136-3142 for ACL entries. [field] is the le64 in the record; the
    cast to uid_t drops the upper half. *)
Definition extract_id (field : N) : res N :=
  let u := decoder_shift_uid (field mod two32) in
  if negb (uid_is_valid u) then Err EINVAL else Ok u.
End Shift.

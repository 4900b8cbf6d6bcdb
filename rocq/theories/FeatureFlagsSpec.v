(** Specification of feature flag sets, independent of the code: which bits exist, and what a set of
    bits means for what gets stored.  Bit numbers are those of the documented format
    (src/caformat.h 83-130). *)
From Verif Require Import Base.
Local Open Scope N_scope.

(** The bits defined by the format: 0..32 and 60..63. *)
Definition known_bit (k : N) : bool := (k <=? 32) || ((60 <=? k) && (k <=? 63)).
Definition only_known_bits (f : N) : Prop := forall k, N.testbit f k = true -> known_bit k = true.

(** What a set of flags says about each kind of meta data. *)
Record meaning := Meaning {
  m_id_bits : N;            (* numeric owner: 0 (not stored), 16 or 32 bits *)
  m_names : bool;           (* owner by name *)
  m_granule : option N;     (* time stamps: granule in ns, or none stored *)
  m_perm : N;               (* 0 none, 1 read-only bit, 2 permission bits, 3 ACL *)
  m_nodump : bool;          (* the nodump attribute is stored on a file which is not excluded for it *)
  m_subvolume : bool; m_subvolume_ro : bool;
  m_other : N -> bool       (* all other bits mean what they mean *)
}.

Definition other_bit (k : N) : bool :=
  known_bit k && negb (existsb (N.eqb k) [0; 1; 2; 3; 4; 5; 6; 7; 8; 20; 26; 27; 29]).

Definition meaning_of (f : N) : meaning :=
  let b := N.testbit f in
  (* ACL entries need to name their subject; if neither numbers nor names were asked for, both are stored *)
  let acl_needs_ids := b 29 && negb (b 0 || b 1 || b 2) in
  Meaning
    (if b 1 || acl_needs_ids then 32 else if b 0 then 16 else 0)
    (b 2 || acl_needs_ids)
    (if b 5 then Some 1 else if b 4 then Some 1000 else if b 3 then Some 1000000000
     else if b 6 then Some 2000000000 else None)
    (if b 29 then 3 else if b 8 then 2 else if b 7 then 1 else 0)
    (b 20 && negb (b 63))
    (b 26 || b 27) (b 27)
    (fun k => other_bit k && b k).

(** Equality of meanings (pointwise for the other bits). *)
Definition same_meaning (x y : meaning) : Prop :=
  m_id_bits x = m_id_bits y /\ m_names x = m_names y /\ m_granule x = m_granule y /\
  m_perm x = m_perm y /\ m_nodump x = m_nodump y /\ m_subvolume x = m_subvolume y /\
  m_subvolume_ro x = m_subvolume_ro y /\ forall k, m_other x k = m_other y k.

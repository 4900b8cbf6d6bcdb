(** What a location is, what of it a text keeps, and which locations there are. *)
From Verif Require Import Base Locator Number Location.
Local Open Scope N_scope.

(** The designators: entry, payload, file name, goodbye, void. *)
Definition kind (d : N) : Prop := d = 101 \/ d = 112 \/ d = 110 \/ d = 103 \/ d = 118.
(** A path relative to the top of the tree. *)
Definition relative (p : list N) : Prop := p <> [] /\ (forall q, p <> 47 :: q).
Definition u64 (n : N) : Prop := n <= UINT64_MAX.

(** A location as the constructor makes it: [size] is UINT64_MAX if it is not known, and so are the others. *)
Record proper (l : loc) : Prop := mkProper {
  p_kind : kind (designator l);
  p_path : forall p, path l = Some p -> relative p;
  p_void : designator l = 118 -> path l = None /\ offset l = 0;
  p_offset : offset l < UINT64_MAX;
  p_size : size l <> 0 /\ (size l = UINT64_MAX \/ offset l + size l <= UINT64_MAX) }.

(** All fields have the width they have in C. *)
Definition ntable_ok (t : ntable) : Prop :=
  Forall (fun e => u64 (fst e) /\ Forall (fun i => u64 (i_hash i) /\ u64 (i_start i) /\ u64 (i_end i)) (snd e)) t.
Record typed (l : loc) : Prop := mkTyped {
  t_offset : u64 (offset l); t_size : u64 (size l); t_mtime : u64 (mtime l); t_inode : u64 (inode l);
  t_generation : (-2147483648 <= generation l < 2147483648)%Z;
  t_flags : u64 (feature_flags l); t_archive : u64 (archive_offset l); t_table : ntable_ok (name_table l) }.

(** The parts of a location that can be asked for are the bits of a mask. *)
Definition asks_size (w : N) : bool := N.testbit w 0.
Definition asks_stamp (w : N) : bool := N.testbit w 1.
Definition asks_features (w : N) : bool := N.testbit w 2.
Definition asks_archive_offset (w : N) : bool := N.testbit w 3.
Definition asks_table (w : N) : bool := N.testbit w 4.

(** What a text with the parts [w] tells about a location: the fields not asked for, and those not known, are unknown. *)
Definition kept (w : N) (l : loc) : loc :=
  let known b v := if (b : bool) then v else UINT64_MAX in
  let stamp := asks_stamp w && negb (mtime l =? UINT64_MAX) in
  mkLoc (designator l) (path l) (offset l) (known (asks_size w) (size l)) None
        (known stamp (mtime l)) (if stamp then inode l else 0)
        (if stamp && generation_valid l then generation l else 0%Z) (stamp && generation_valid l)
        (known (asks_features w) (feature_flags l))
        (known (asks_archive_offset w) (archive_offset l))
        (if asks_table w then name_table l else []).

(** The top of the tree has no path, or the empty one. *)
Definition path_text (p : option (list N)) : list N := match p with Some s => s | None => [] end.
(** Two locations agree in the parts [w]. *)
Definition agree (w : N) (a b : loc) : Prop :=
  designator a = designator b /\ path_text (path a) = path_text (path b) /\ offset a = offset b
  /\ (asks_size w = true -> size a = size b)
  /\ (asks_stamp w = true -> mtime a = mtime b /\
        (mtime a <> UINT64_MAX -> inode a = inode b /\ generation_valid a = generation_valid b /\
           (generation_valid a = true -> generation a = generation b)))
  /\ (asks_features w = true -> feature_flags a = feature_flags b)
  /\ (asks_table w = true -> name_table a = name_table b).

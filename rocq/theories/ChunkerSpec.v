(** What the chunker is supposed to compute, without windows, rings, skipping or buffers:
    a byte at a time, looking at the bytes [cur] since the last cut.
    Only the hash function's ingredients ([tab], [rol32]) and the configuration record are shared
    with the model. *)
From Verif Require Import Base Chunker.
Local Open Scope N_scope.

(** The buzhash of a string, from scratch: byte i (counted from the end) rotated left by i. *)
Fixpoint buz (l : list N) : N :=
  match l with
  | [] => 0
  | b :: l => N.lxor (rol32 (tab b) (len l)) (buz l)
  end.

(** The last 48 bytes of a string. *)
Definition last48 (l : list N) : list N := skipn (length l - 48) l.

(** Is there a cut behind [cur], the bytes since the previous cut? *)
Definition cut_here (c : cfg) (cur : list N) : bool :=
  if is_fixed c then len cur =? c_avg c
  else (N.max (c_min c) 48 <=? len cur)
       && ((c_max c <=? len cur) || (buz (last48 cur) mod c_disc c =? c_disc c - 1)).

(** Chunks cut from [l] given [cur] pending, and what is pending afterwards. *)
Fixpoint spec_split (c : cfg) (cur l : list N) : list (list N) * list N :=
  match l with
  | [] => ([], cur)
  | b :: l =>
    if cut_here c (cur ++ [b]) then let (cs, r) := spec_split c [] l in ((cur ++ [b]) :: cs, r)
    else spec_split c (cur ++ [b]) l
  end.

(** All chunks of a stream; the rest is the last chunk. *)
Definition spec_chunks (c : cfg) (l : list N) : list (list N) :=
  let (cs, r) := spec_split c [] l in
  cs ++ match r with [] => [] | _ => [r] end.

(** The configurations [ca_chunker_set_size] can produce (C06). *)
Definition cfg_ok (c : cfg) : bool :=
  (1 <=? c_min c) && (c_min c <=? c_avg c) && (c_avg c <=? c_max c) && (c_max c <=? 134217728)
  && (1 <=? c_disc c).

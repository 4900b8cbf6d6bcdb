(** siphash24.c: the hash of names in goodbye tables, and of keys in hash tables.
    A state is [struct siphash] (siphash24.h:10-17). The buffer passed to siphash24_compress() is a list of bytes; a pointer into
    it is what is left of the list, [end] is the number of bytes up to it. Reading or pointing outside of the buffer is undefined
    behaviour in the model. The DEBUG output is left out. *)
From Verif Require Import Base.
Local Open Scope N_scope.

(** siphash24.h:10-17 *)
Record siphash := mkSip { v0 : N; v1 : N; v2 : N; v3 : N; padding : N; inlen : N }.

(** uint64_t arithmetic: the sum, and the shift to the left. *)
Definition add64 (a b : N) : N := (a + b) mod two64.
Definition shl64 (a k : N) : N := N.shiftl a k mod two64.

(** siphash24.c:27-31 rotate_left *)
Definition rotate_left (x b : N) : N := N.lor (shl64 x b) (N.shiftr x (64 - b)).

(** siphash24.c:33-50 sipround *)
Definition sipround (s : siphash) : siphash :=
  let '(mkSip a b c d p i) := s in
  let a := add64 a b in
  let b := rotate_left b 13 in
  let b := N.lxor b a in
  let a := rotate_left a 32 in
  let c := add64 c d in
  let d := rotate_left d 16 in
  let d := N.lxor d c in
  let a := add64 a d in
  let d := rotate_left d 21 in
  let d := N.lxor d a in
  let c := add64 c b in
  let b := rotate_left b 17 in
  let b := N.lxor b c in
  let c := rotate_left c 32 in
  mkSip a b c d p i.

(** util.h:122-127 read_le64: eight bytes from the pointer on. *)
Definition read_le64 (p : list N) : res N := if len p <? 8 then UB else Ok (le_dec (takeN 8 p)).

(** siphash24.c:52-73 siphash24_init; [k] is an array of 16 bytes. *)
Definition siphash24_init (k : list N) : res siphash :=
  let! k0 := read_le64 k in
  let! k1 := read_le64 (dropN 8 k) in
  Ok (mkSip (N.lxor 8317987319222330741 k0)      (* 0x736f6d6570736575 *)
            (N.lxor 7237128888997146477 k1)      (* 0x646f72616e646f6d *)
            (N.lxor 7816392313619706465 k0)      (* 0x6c7967656e657261 *)
            (N.lxor 8387220255154660723 k1)      (* 0x7465646279746573 *)
            0 0).

Definition set_padding (s : siphash) (p : N) : siphash := mkSip (v0 s) (v1 s) (v2 s) (v3 s) p (inlen s).
Definition set_inlen (s : siphash) (i : N) : siphash := mkSip (v0 s) (v1 s) (v2 s) (v3 s) (padding s) i.

(** siphash24.c:90-92: the loop that fills the padding up. *)
Fixpoint fill (inp : list N) (left : N) (p : N) : list N * N * N :=
  match inp with
  | b :: inp' => if left <? 8 then fill inp' (left + 1) (N.lor p (shl64 b (left * 8))) else (inp, left, p)
  | [] => ([], left, p)
  end.

(** siphash24.c:106-109, 127-130: one word of input. *)
Definition absorb (s : siphash) (m : N) : siphash :=
  let s := mkSip (v0 s) (v1 s) (v2 s) (N.lxor (v3 s) m) (padding s) (inlen s) in
  let s := sipround s in
  let s := sipround s in
  mkSip (N.lxor (v0 s) m) (v1 s) (v2 s) (v3 s) (padding s) (inlen s).

(** siphash24.c:116-131: the loop over whole words; [n] is [end - in], 0 if [in] is beyond [end]. The fuel suffices, see the proofs. *)
Fixpoint bulk (fuel : nat) (inp : list N) (n : N) (s : siphash) : res (list N * siphash) :=
  if n =? 0 then Ok (inp, s) else
  match fuel with
  | O => UB
  | S fuel =>
      let! m := read_le64 inp in
      bulk fuel (dropN 8 inp) (n - 8) (absorb s m)
  end.

(** siphash24.c:134-157: case k and the ones below it. *)
Fixpoint tail (k : nat) (inp : list N) (p : N) : res N :=
  match k with
  | O => Ok p
  | S k =>
      match nth_error inp k with
      | None => UB
      | Some b => tail k inp (N.lor p (shl64 b (8 * N.of_nat k)))
      end
  end.

(** siphash24.c:75-158 siphash24_compress *)
Definition siphash24_compress (inp : list N) (s : siphash) : res siphash :=
  let left := N.land (inlen s) 7 in
  let n := len inp in
  let s := set_inlen s (add64 (inlen s) n) in
  let! (inp, s) :=
    if 0 <? left then
      let '(inp', left', p) := fill inp left (padding s) in
      let s := set_padding s p in
      if ((len inp' =? 0) && (left' <? 8))%bool then Ok (None, s)
      else Ok (Some inp', set_padding (absorb s p) 0)
    else Ok (Some inp, s) in
  match inp with
  | None => Ok s
  | Some inp =>
      let k := inlen s mod 8 in
      if len inp <? k then UB else
      let! (inp, s) := bulk (length inp) inp (len inp - k) s in
      let! p := tail (N.to_nat (N.land (inlen s) 7)) inp (padding s) in
      Ok (set_padding s p)
  end.

(** siphash24.c:160-190 siphash24_finalize *)
Definition siphash24_finalize (s : siphash) : N :=
  let b := N.lor (padding s) (shl64 (inlen s) 56) in
  let s := absorb s b in
  let s := mkSip (v0 s) (v1 s) (N.lxor (v2 s) 255) (v3 s) (padding s) (inlen s) in
  let s := sipround (sipround (sipround (sipround s))) in
  N.lxor (N.lxor (N.lxor (v0 s) (v1 s)) (v2 s)) (v3 s).

(** siphash24.c:192-201 siphash24 *)
Definition siphash24 (inp k : list N) : res N :=
  let! s := siphash24_init k in
  let! s := siphash24_compress inp s in
  Ok (siphash24_finalize s).

(** A caller that feeds the input piece by piece. *)
Fixpoint compress_all (pieces : list (list N)) (s : siphash) : res siphash :=
  match pieces with
  | [] => Ok s
  | p :: ps => let! s := siphash24_compress p s in compress_all ps s
  end.

(** caformat.h:412-418 CA_FORMAT_GOODBYE_HASH_KEY *)
Definition GOODBYE_HASH_KEY : list N := [179; 132; 29; 15; 43; 68; 116; 133; 193; 46; 194; 209; 48; 237; 54; 39].

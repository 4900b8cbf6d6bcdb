(** SipHash-2-4 as its authors define it (Aumasson, Bernstein: SipHash, a fast short-input PRF, section 2): independent of the code. *)
From Verif Require Import Base.
Local Open Scope N_scope.

(** Words of 64 bits: addition modulo 2^64, and rotation to the left. *)
Definition wadd (a b : N) : N := (a + b) mod 2 ^ 64.
Definition wrot (r x : N) : N := (x mod 2 ^ (64 - r)) * 2 ^ r + x / 2 ^ (64 - r).

Definition words := (N * N * N * N)%type.

(** SipRound: figure 2.1, two halves next to each other. *)
Definition sip_round (v : words) : words :=
  let '(a, b, c, d) := v in
  let '(a, c) := (wadd a b, wadd c d) in
  let '(b, d) := (wrot 13 b, wrot 16 d) in
  let '(b, d) := (N.lxor b a, N.lxor d c) in
  let a := wrot 32 a in
  let '(c, a) := (wadd c b, wadd a d) in
  let '(b, d) := (wrot 17 b, wrot 21 d) in
  let '(b, d) := (N.lxor b c, N.lxor d a) in
  let c := wrot 32 c in
  (a, b, c, d).

(** The message, filled up with zeros and its length modulo 256, as words. *)
Definition padded (m : list N) : list N := m ++ repeat 0 (7 - Nat.modulo (length m) 8) ++ [len m mod 256].
Inductive words_of : list N -> list N -> Prop :=
| wo_nil : words_of [] []
| wo_cons a0 a1 a2 a3 a4 a5 a6 a7 l ws : words_of l ws ->
    words_of (a0 :: a1 :: a2 :: a3 :: a4 :: a5 :: a6 :: a7 :: l)
      (a0 + 2^8 * a1 + 2^16 * a2 + 2^24 * a3 + 2^32 * a4 + 2^40 * a5 + 2^48 * a6 + 2^56 * a7 :: ws).

(** Compression of one word with two rounds. *)
Definition sip_word (v : words) (m : N) : words :=
  let '(a, b, c, d) := v in
  let '(a, b, c, d) := sip_round (sip_round (a, b, c, N.lxor d m)) in
  (N.lxor a m, b, c, d).

(** Finalization with four. *)
Definition sip_final (v : words) : N :=
  let '(a, b, c, d) := v in
  let '(a, b, c, d) := sip_round (sip_round (sip_round (sip_round (a, b, N.lxor c 255, d)))) in
  N.lxor a (N.lxor b (N.lxor c d)).

Definition sip_start (k0 k1 : N) : words :=
  (N.lxor k0 0x736f6d6570736575, N.lxor k1 0x646f72616e646f6d, N.lxor k0 0x6c7967656e657261, N.lxor k1 0x7465646279746573).

(** [h] is the hash of the message [m] under the 16 bytes [key]. *)
Definition siphash_2_4 (key m : list N) (h : N) : Prop :=
  exists k0 k1 ws, words_of key [k0; k1] /\ words_of (padded m) ws /\ h = sip_final (fold_left sip_word ws (sip_start k0 k1)).

(** What a block device that stands for a blob has to answer, for C54. *)
From Verif Require Import Base.
Local Open Scope N_scope.

(** Number [n] as [k] bytes, most significant first. *)
Fixpoint big_endian (k : nat) (n : N) : list N := match k with O => [] | S k => big_endian k (n / 256) ++ [n mod 256] end.

(** A read request of the kernel's nbd driver: a handle of 8 bytes, offset and number of bytes; and its bytes on the socket. *)
Record request := mkRequest { r_handle : list N; r_from : N; r_len : N }.
Definition request_bytes (r : request) : list N :=
  big_endian 4 0x25609513 ++ big_endian 4 0 ++ r_handle r ++ big_endian 8 (r_from r) ++ big_endian 4 (r_len r).

(** A device of 512 byte sectors that is as large as the blob, rounded up to whole sectors. *)
Definition device_bytes (b : list N) : N := (len b + 511) / 512 * 512.
(** A request within the device: whole sectors, and at least one. *)
Definition valid_request (b : list N) (r : request) : Prop :=
  len (r_handle r) = 8 /\ r_len r < 2 ^ 32 /\ 0 < r_len r /\ r_from r mod 512 = 0 /\ r_from r + r_len r <= device_bytes b.

(** The byte at a position of the device: that of the blob, and zeroes behind it. *)
Definition device_byte (b : list N) (pos : N) : N := nth (N.to_nat pos) b 0.
Definition device_read (b : list N) (from n : N) : list N := map (fun k => device_byte b (from + N.of_nat k)) (seq 0 (N.to_nat n)).
(** The right answer: header with the handle and no error, and the data. *)
Definition reply (b : list N) (r : request) : list N :=
  big_endian 4 0x67446698 ++ big_endian 4 0 ++ r_handle r ++ device_read b (r_from r) (r_len r).

(** Specification of the buffer (C17): what each call does to a plain byte string.  Refers to the model
    only for the types of its oracles (memory, system calls). *)
From Verif Require Import Base ReallocBuffer.
Local Open Scope N_scope.

(** Calls of the API. *)
Inductive rb_op :=
| OAcquire (e : env) (n : N)
| OAcquire0 (e : env) (n : N)
| OExtend (e : env) (n : N)
| OExtend0 (e : env) (n : N)
| OAppend (e : env) (bs : list N)
| OFree | OEmpty
| OAdvance (n : N)
| OShorten (n : N)
| OTruncate (n : N)
| ORead (e : env) (r : sysread) (add : option N)
| OReadFull (script : list (env * sysread)) (e0 : env) (limit : option N)
| OReadTarget (script : list (env * sysread)) (e0 : env) (target : N)
| OSteal (e : env)
| ODonate (e : env) (p : list N)
| OWrite (script : list syswrite)
| OWriteMaybe (script : list syswrite)
| OPrintf (es : nat -> env) (s : list N)
| OMemchr (c : N)
| OFrom (off : N).

(** What the caller sees of a call. *)
Inductive rb_out :=
| RNull                      (* NULL *)
| RPtr                       (* a pointer into the buffer *)
| RInt (z : N)               (* an int >= 0 *)
| RError (e : errno)         (* a negative errno *)
| RBlock (m : list N)        (* a memory block handed over to the caller *)
| RWrote (out : list N) (r : rb_out). (* bytes that reached the file, and the int returned *)

(** The model's step. *)
Definition ptr (r : option N) : rb_out := match r with None => RNull | Some _ => RPtr end.
Definition int0 (r : option errno) : rb_out := match r with None => RInt 0 | Some e => RError e end.
Definition intb (r : errno + bool) : rb_out := match r with inl e => RError e | inr b => RInt (if b then 1 else 0) end.

Definition rb_step (b : rbuf) (o : rb_op) : res (rb_out * rbuf) :=
  match o with
  | OAcquire e n => let! (r, b) := rb_acquire e b n in Ok (ptr r, b)
  | OAcquire0 e n => let! (r, b) := rb_acquire0 e b n in Ok (ptr r, b)
  | OExtend e n => let! (r, b) := rb_extend e b n in Ok (ptr r, b)
  | OExtend0 e n => let! (r, b) := rb_extend0 e b n in Ok (ptr r, b)
  | OAppend e bs => let! (r, b) := rb_append e b bs in Ok (ptr r, b)
  | OFree => Ok (RNull, rb_free b)
  | OEmpty => Ok (RNull, rb_empty b)
  | OAdvance n => let! (r, b) := rb_advance b n in Ok (int0 r, b)
  | OShorten n => let! (r, b) := rb_shorten b n in Ok (int0 r, b)
  | OTruncate n => let! (r, b) := rb_truncate b n in Ok (int0 r, b)
  | ORead e r add => let! (r, b) := rb_read_size e b r add in Ok (intb r, b)
  | OReadFull s e l => let! (r, b) := rb_read_full b s e l in Ok (int0 r, b)
  | OReadTarget s e t => let! (r, b) := rb_read_target b s e t in Ok (intb r, b)
  | OSteal e => let! (r, b) := rb_steal e b in Ok (match r with None => RNull | Some m => RBlock m end, b)
  | ODonate e p => let! (r, b) := rb_donate e b p in Ok (if r then RPtr else RNull, b)
  | OWrite s => let! (r, out, b) := rb_write b s 0 in Ok (RWrote out (intb r), b)
  | OWriteMaybe s => let! (r, out, b) := rb_write_maybe b s in Ok (RWrote out (intb r), b)
  | OPrintf es s => let! (r, b) := rb_printf es b s in Ok (int0 r, b)
  | OMemchr c => let! r := rb_memchr b c in Ok (match r with inl e => RError e | inr d => RInt d end, b)
  | OFrom off => let! r := rb_view_from b off in Ok (match r with None => RNull | Some m => RBlock m end, b)
  end.

(** A system with pages of 2^k <= 1 GiB; arguments are size_t values; a block donated to the buffer is a real one. *)
Definition good_env (e : env) : Prop := exists k, k <= 30 /\ env_page e = 2 ^ k.
Definition op_ok (o : rb_op) : Prop :=
  match o with
  | OAcquire e n | OAcquire0 e n | OExtend e n | OExtend0 e n => good_env e /\ n < two64
  | OAppend e bs | ODonate e bs => good_env e /\ len bs < 2 ^ 63
  | OFree | OEmpty | OWrite _ | OWriteMaybe _ | OMemchr _ => True
  | OAdvance n | OShorten n | OTruncate n | OFrom n => n < two64
  | ORead e _ add => good_env e /\ match add with Some a => a < two64 | None => True end
  | OReadFull s e _ => good_env e /\ Forall (fun x => good_env (fst x)) s
  | OReadTarget s e t => good_env e /\ Forall (fun x => good_env (fst x)) s /\ t < two64
  | OSteal e => good_env e
  | OPrintf es s => (forall i, good_env (es i)) /\ len s < 2 ^ 31
  end.

(** A call for a buffer of [n] bytes may only fail for one of these reasons. *)
Definition no_memory (e : env) (n : N) : Prop := 1073741824 < n \/ env_ok e = false.

(** read() delivers what there is, or at least as much as was asked for (64 KiB or more). *)
Definition got (r : sysread) (d : list N) : Prop :=
  exists d0, r = RData d0 /\ exists rest, d0 = d ++ rest /\ (rest = [] \/ 65536 <= len d).

(** A number of successful read()s: [s] splits into the calls made, which delivered [ds], and the rest. *)
Definition got_all (s : list (env * sysread)) (ds : list (list N)) (rest : list (env * sysread)) : Prop :=
  exists pre, s = pre ++ rest /\ Forall2 (fun x d => got (snd x) d /\ d <> []) pre ds.
Definition at_eof (rest : list (env * sysread)) : Prop :=
  rest = [] \/ exists e rest', rest = (e, RData []) :: rest'.

(** [fifo o q r q']: call [o] on a buffer holding [q] may return [r] and leave [q']. *)
Definition fifo (o : rb_op) (q : list N) (r : rb_out) (q' : list N) : Prop :=
  match o with
  | OAcquire e n =>   (* resized, keeping what fits; new bytes are unspecified *)
      (r = RNull /\ q' = q /\ no_memory e n) \/
      (r = RPtr /\ len q' = n /\ ((exists j, q' = q ++ j) \/ (exists j, q = q' ++ j)))
  | OAcquire0 e n => (r = RNull /\ q' = q /\ no_memory e n) \/ (r = RPtr /\ q' = repeat 0 (N.to_nat n))
  | OExtend e n => (r = RNull /\ q' = q /\ no_memory e (len q + n)) \/ (r = RPtr /\ exists j, len j = n /\ q' = q ++ j)
  | OExtend0 e n => (r = RNull /\ q' = q /\ no_memory e (len q + n)) \/ (r = RPtr /\ q' = q ++ repeat 0 (N.to_nat n))
  | OAppend e bs => (r = RNull /\ q' = q /\ no_memory e (len q + len bs)) \/ (r = RPtr /\ q' = q ++ bs)
  | OFree | OEmpty => q' = []
  | OAdvance n => (n <= len q /\ r = RInt 0 /\ q = takeN n q ++ q') \/ (len q < n /\ r = RError EINVAL /\ q' = q)
  | OShorten n => (n <= len q /\ r = RInt 0 /\ exists t, len t = n /\ q = q' ++ t) \/ (len q < n /\ r = RError EINVAL /\ q' = q)
  | OTruncate n => (n <= len q /\ r = RInt 0 /\ q' = takeN n q) \/ (len q < n /\ r = RError EINVAL /\ q' = q)
  | ORead e s add =>
      (exists d, got s d /\ q' = q ++ d /\ r = RInt (if 0 <? len d then 1 else 0)) \/
      (q' = q /\ exists err, r = RError err /\
        (s = RErr err \/ (err = ENOMEM /\ no_memory e (len q + N.max 65536 (match add with Some a => a | None => 0 end)))))
  | OReadFull s e0 limit =>
      exists ds rest, got_all s ds rest /\ q' = q ++ concat ds /\
      ((r = RInt 0 /\ at_eof rest) \/
       (r = RError E2BIG /\ exists l, limit = Some l /\ l < len q') \/
       (exists e err rest', r = RError err /\ rest = (e, RErr err) :: rest') \/
       (r = RError ENOMEM /\ exists e, In e (e0 :: map fst s) /\ no_memory e (len q' + 65536)))
  | OReadTarget s e0 target =>
      exists ds rest, got_all s ds rest /\ q' = q ++ concat ds /\
      ((r = RInt 1 /\ target <= len q') \/
       (r = RInt 0 /\ len q' < target /\ at_eof rest) \/
       (exists e err rest', r = RError err /\ rest = (e, RErr err) :: rest') \/
       (r = RError ENOMEM /\ exists e, In e (e0 :: map fst s) /\ no_memory e (len q' + N.max 65536 (target - len q'))))
  | OSteal e =>
      (r = RNull /\ q' = q /\ (q = [] \/ env_ok e = false)) \/
      (exists m rest, r = RBlock m /\ m = q ++ rest /\ q' = [])
  | ODonate e p => (r = RNull /\ q' = q /\ no_memory e (len q + len p)) \/ (r = RPtr /\ q' = q ++ p)
  | OWrite s =>
      exists out z, r = RWrote out z /\ q = out ++ q' /\
      ((q' = [] /\ z = RInt (if 0 <? len q then 1 else 0)) \/ (exists err, z = RError err /\ (In (WErr err) s \/ err = EIO)))
  | OWriteMaybe s =>
      (len q < 65536 /\ q' = q /\ r = RWrote [] (RInt 0)) \/
      (65536 <= len q /\ exists out z, r = RWrote out z /\ q = out ++ q' /\
        ((q' = [] /\ z = RInt 1) \/ (exists err, z = RError err /\ (In (WErr err) s \/ err = EIO))))
  | OPrintf es s =>
      (r = RInt 0 /\ q' = q ++ s) \/
      (r = RError ENOMEM /\ q' = q /\ exists i, no_memory (es i) (len q + N.max 256 (2 * len s)))
  | OMemchr c => q' = q /\
      ((exists a t, q = a ++ c :: t /\ ~ In c a /\ (r = RInt (len a) /\ len a < 2 ^ 31 \/ r = RError EOVERFLOW /\ 2 ^ 31 <= len a)) \/
       (~ In c q /\ r = RError ENXIO))
  | OFrom off => q' = q /\ ((off <= len q /\ r = RBlock (dropN off q)) \/ (len q < off /\ r = RNull))
  end.

(** A history of calls on a fresh buffer. *)
Inductive rb_history : list (rb_op * rb_out) -> rbuf -> Prop :=
| RH_nil : rb_history [] rb_init
| RH_step h b o r b' : rb_history h b -> op_ok o -> rb_step b o = Ok (r, b') -> rb_history (h ++ [(o, r)]) b'.
Inductive fifo_history : list (rb_op * rb_out) -> list N -> Prop :=
| FH_nil : fifo_history [] []
| FH_step h q o r q' : fifo_history h q -> fifo o q r q' -> fifo_history (h ++ [(o, r)]) q'.

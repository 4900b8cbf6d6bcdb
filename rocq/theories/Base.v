(** Common ground of the model: byte strings, fixed-width little endian integers,
    error values.  Nothing in here is specific to one C file. *)
From Coq Require Export List NArith ZArith Lia Bool Arith.
From Coq Require Export ZifyBool ZifyNat ZifyN.
Export ListNotations.

Ltac Zify.zify_post_hook ::= Z.div_mod_to_equations.

Global Arguments N.add : simpl never.
Global Arguments N.sub : simpl never.
Global Arguments N.mul : simpl never.
Global Arguments N.div : simpl never.
Global Arguments N.modulo : simpl never.
Global Arguments N.eqb : simpl never.
Global Arguments N.leb : simpl never.
Global Arguments N.ltb : simpl never.
Global Arguments N.min : simpl never.
Global Arguments N.max : simpl never.
Global Arguments N.of_nat : simpl never.
Global Arguments N.to_nat : simpl never.

(** Bytes are [N] values; [bytes_ok] says that each is below 256 (a C uint8_t). *)
Notation byte := N (only parsing).
Notation bytes := (list N) (only parsing).

Definition byte_ok (b : N) : bool := (b <? 256)%N.
Definition bytes_ok (l : list N) : bool := forallb byte_ok l.

Definition two16 : N := 65536%N.
Definition two32 : N := 4294967296%N.
Definition two64 : N := 18446744073709551616%N.
Definition UINT16_MAX : N := 65535%N.
Definition UINT32_MAX : N := 4294967295%N.
Definition UINT64_MAX : N := 18446744073709551615%N.
Definition UINT64_MAX_Z : Z := 18446744073709551615%Z.

(** Errors, as the negated errno values the C functions return. *)
Inductive errno :=
  EINVAL | ERANGE | EBUSY | EBADMSG | ENOENT | EEXIST | EOVERFLOW | E2BIG | ENODATA
| EOPNOTSUPP | ENOMEDIUM | EAGAIN | EPIPE | ENOTTY | EADDRNOTAVAIL | ELOOP | EIO | EDOM
| ENXIO | EUNATCH | ENOMEM | EPROTO | ECONNRESET | ENOTDIR | EFBIG | ENOTUNIQ | ESPIPE
| EROFS | ESTALE | EISDIR | EPROTOTYPE | EPROTONOSUPPORT | EPERM | EACCES | ENOTEMPTY | ENOEXEC | EXDEV
| EALREADY | ENAMETOOLONG | ENOLINK | EBADF | EMFILE | ENOBUFS | EMSGSIZE | ESRCH | ECHILD | EADDRINUSE | ELNRNG | ENOSPC
| ENOSYS | ESHUTDOWN | EBADFD | EBADE | EBADR | EINTR | ENOTBLK | ECONNABORTED | EKEYREVOKED.

Definition errno_eqb (a b : errno) : bool :=
  match a, b with
  | EINVAL, EINVAL | ERANGE, ERANGE | EBUSY, EBUSY | EBADMSG, EBADMSG | ENOENT, ENOENT
  | EEXIST, EEXIST | EOVERFLOW, EOVERFLOW | E2BIG, E2BIG | ENODATA, ENODATA
  | EOPNOTSUPP, EOPNOTSUPP | ENOMEDIUM, ENOMEDIUM | EAGAIN, EAGAIN | EPIPE, EPIPE
  | ENOTTY, ENOTTY | EADDRNOTAVAIL, EADDRNOTAVAIL | ELOOP, ELOOP | EIO, EIO | EDOM, EDOM
  | ENXIO, ENXIO | EUNATCH, EUNATCH | ENOMEM, ENOMEM | EPROTO, EPROTO
  | ECONNRESET, ECONNRESET | ENOTDIR, ENOTDIR | EFBIG, EFBIG | ENOTUNIQ, ENOTUNIQ
  | ESPIPE, ESPIPE | EROFS, EROFS | ESTALE, ESTALE | EISDIR, EISDIR
  | EPROTOTYPE, EPROTOTYPE | EPROTONOSUPPORT, EPROTONOSUPPORT | EPERM, EPERM
  | EACCES, EACCES | ENOTEMPTY, ENOTEMPTY | ENOEXEC, ENOEXEC | EXDEV, EXDEV
  | EALREADY, EALREADY | ENAMETOOLONG, ENAMETOOLONG | ENOLINK, ENOLINK | EBADF, EBADF | EMFILE, EMFILE
  | ENOBUFS, ENOBUFS | EMSGSIZE, EMSGSIZE | ESRCH, ESRCH | ECHILD, ECHILD
  | EADDRINUSE, EADDRINUSE | ELNRNG, ELNRNG | ENOSPC, ENOSPC | ENOSYS, ENOSYS
  | ESHUTDOWN, ESHUTDOWN | EBADFD, EBADFD | EBADE, EBADE | EBADR, EBADR | EINTR, EINTR
  | ENOTBLK, ENOTBLK | ECONNABORTED, ECONNABORTED | EKEYREVOKED, EKEYREVOKED => true
  | _, _ => false
  end.

Lemma errno_eqb_eq a b : errno_eqb a b = true <-> a = b.
Proof. split; [destruct a; destruct b; cbn; congruence | intros ->; destruct b; reflexivity]. Qed.

(** Outcome of a modelled C function: a value, an error code, a failed assert() (the process
    aborts), or undefined behaviour. *)
Inductive res (A : Type) :=
| Ok (a : A)
| Err (e : errno)
| Abort
| UB.
Arguments Ok {A} a.
Arguments Err {A} e.
Arguments Abort {A}.
Arguments UB {A}.

Definition bind {A B} (x : res A) (f : A -> res B) : res B :=
  match x with Ok a => f a | Err e => Err e | Abort => Abort | UB => UB end.
Notation "'let!' x ':=' a 'in' b" := (bind a (fun x => b))
  (at level 200, x pattern, a at level 100, b at level 200).

Definition is_ok {A} (x : res A) : bool := match x with Ok _ => true | _ => false end.

(** Little endian encoding of [n] with [k] bytes (the code's htole16/32/64, le*toh and memcpy). *)
Fixpoint le_enc (k : nat) (n : N) : list N :=
  match k with
  | O => []
  | S k => (n mod 256)%N :: le_enc k (n / 256)%N
  end.

Fixpoint le_dec (l : list N) : N :=
  match l with
  | [] => 0%N
  | b :: l => (b + 256 * le_dec l)%N
  end.

Definition le64 (n : N) : list N := le_enc 8 n.
Definition le32 (n : N) : list N := le_enc 4 n.

Definition rd64 (l : list N) : N := le_dec (firstn 8 l).
Definition rd32 (l : list N) : N := le_dec (firstn 4 l).

Definition len {A} (l : list A) : N := N.of_nat (length l).

Definition takeN {A} (n : N) (l : list A) : list A := firstn (N.to_nat n) l.
Definition dropN {A} (n : N) (l : list A) : list A := skipn (N.to_nat n) l.

Lemma len_app {A} (a b : list A) : len (a ++ b) = (len a + len b)%N.
Proof. unfold len. rewrite app_length. lia. Qed.
Lemma len_nil {A} : len (@nil A) = 0%N. Proof. reflexivity. Qed.
Lemma len_cons {A} (x : A) l : len (x :: l) = (1 + len l)%N.
Proof. unfold len. cbn [length]. lia. Qed.
Lemma len_takeN {A} n (l : list A) : len (takeN n l) = N.min n (len l).
Proof. unfold len, takeN. rewrite firstn_length. lia. Qed.
Lemma len_dropN {A} n (l : list A) : len (dropN n l) = (len l - n)%N.
Proof. unfold len, dropN. rewrite skipn_length. lia. Qed.
Lemma takeN_dropN {A} n (l : list A) : takeN n l ++ dropN n l = l.
Proof. apply firstn_skipn. Qed.
Lemma takeN_app_exact {A} n (a b : list A) : len a = n -> takeN n (a ++ b) = a.
Proof. unfold len, takeN; intros <-. rewrite Nat2N.id, firstn_app, Nat.sub_diag, firstn_O, app_nil_r.
  apply firstn_all. Qed.
Lemma dropN_app_exact {A} n (a b : list A) : len a = n -> dropN n (a ++ b) = b.
Proof. unfold len, dropN; intros <-. rewrite Nat2N.id, skipn_app, Nat.sub_diag, skipn_all. reflexivity. Qed.
Lemma takeN_all {A} n (l : list A) : (len l <= n)%N -> takeN n l = l.
Proof. unfold len, takeN; intros H. apply firstn_all2. lia. Qed.
Lemma dropN_all {A} n (l : list A) : (len l <= n)%N -> dropN n l = [].
Proof. unfold len, dropN; intros H. apply skipn_all2. lia. Qed.
Lemma takeN_0 {A} (l : list A) : takeN 0 l = []. Proof. reflexivity. Qed.
Lemma dropN_0 {A} (l : list A) : dropN 0 l = l. Proof. reflexivity. Qed.
Lemma takeN_app_le {A} n (a b : list A) : (n <= len a)%N -> takeN n (a ++ b) = takeN n a.
Proof. unfold len, takeN; intros H. rewrite firstn_app.
  replace (N.to_nat n - length a)%nat with 0%nat by lia. rewrite firstn_O, app_nil_r. reflexivity. Qed.
Lemma takeN_app_ge {A} n (a b : list A) : (len a <= n)%N -> takeN n (a ++ b) = a ++ takeN (n - len a) b.
Proof. unfold len, takeN; intros H. rewrite firstn_app.
  rewrite (firstn_all2 a) by lia. f_equal. f_equal. lia. Qed.
Lemma dropN_app_le {A} n (a b : list A) : (n <= len a)%N -> dropN n (a ++ b) = dropN n a ++ b.
Proof. unfold len, dropN; intros H. rewrite skipn_app.
  replace (N.to_nat n - length a)%nat with 0%nat by lia. reflexivity. Qed.
Lemma dropN_app_ge {A} n (a b : list A) : (len a <= n)%N -> dropN n (a ++ b) = dropN (n - len a) b.
Proof. unfold len, dropN; intros H. rewrite skipn_app.
  rewrite (skipn_all2 a) by lia. cbn [app]. f_equal. lia. Qed.
Lemma dropN_dropN {A} n m (l : list A) : dropN n (dropN m l) = dropN (n + m) l.
Proof. unfold dropN. rewrite N2Nat.inj_add. generalize (N.to_nat n), (N.to_nat m). clear.
  intros n m; revert l n; induction m as [|m IH]; intros l n.
  - rewrite Nat.add_0_r. reflexivity.
  - rewrite Nat.add_succ_r. destruct l; [rewrite !skipn_nil; reflexivity|]. cbn [skipn]. apply IH. Qed.
Lemma takeN_takeN {A} n m (l : list A) : takeN n (takeN m l) = takeN (N.min n m) l.
Proof. unfold takeN. rewrite firstn_firstn. f_equal. lia. Qed.
Lemma len_zero_nil {A} (l : list A) : len l = 0%N -> l = [].
Proof. destruct l; [reflexivity|]. rewrite len_cons. lia. Qed.

Lemma le_enc_length k n : length (le_enc k n) = k.
Proof. revert n; induction k as [|k IH]; intros n; cbn [le_enc length]; [|rewrite IH]; reflexivity. Qed.

Lemma le_enc_ok k n : bytes_ok (le_enc k n) = true.
Proof. revert n; induction k as [|k IH]; intros n; cbn [le_enc bytes_ok forallb]; [reflexivity|].
  fold (bytes_ok (le_enc k (n/256))). rewrite IH, andb_true_r. unfold byte_ok.
  apply N.ltb_lt. apply N.mod_lt. lia. Qed.

Lemma le_dec_enc k n : (n < 256 ^ N.of_nat k)%N -> le_dec (le_enc k n) = n.
Proof.
  revert n; induction k as [|k IH]; intros n Hn; cbn [le_enc le_dec].
  - cbn in Hn. lia.
  - rewrite IH.
    + pose proof (N.div_mod n 256). lia.
    + rewrite Nat2N.inj_succ, N.pow_succ_r' in Hn. apply N.div_lt_upper_bound; lia.
Qed.

Lemma le_dec_lt l : bytes_ok l = true -> (le_dec l < 256 ^ N.of_nat (length l))%N.
Proof.
  induction l as [|b l IH]; cbn [bytes_ok forallb le_dec length]; [intros; cbn; lia|].
  rewrite andb_true_iff; intros [Hb Hl]. specialize (IH Hl). apply N.ltb_lt in Hb.
  rewrite Nat2N.inj_succ, N.pow_succ_r'. lia.
Qed.

Lemma le_enc_dec l : bytes_ok l = true -> le_enc (length l) (le_dec l) = l.
Proof.
  induction l as [|b l IH]; cbn [bytes_ok forallb le_dec le_enc length]; [reflexivity|].
  rewrite andb_true_iff; intros [Hb Hl]. apply N.ltb_lt in Hb. f_equal.
  - rewrite N.mul_comm, N.mod_add by lia. apply N.mod_small, Hb.
  - rewrite N.mul_comm, N.div_add by lia. rewrite N.div_small by exact Hb.
    rewrite N.add_0_l. apply IH, Hl.
Qed.

Lemma le_enc_inj k a b : (a < 256 ^ N.of_nat k)%N -> (b < 256 ^ N.of_nat k)%N ->
  le_enc k a = le_enc k b -> a = b.
Proof. intros Ha Hb H. rewrite <- (le_dec_enc k a Ha), <- (le_dec_enc k b Hb), H. reflexivity. Qed.

Lemma len_le64 n : len (le64 n) = 8%N.
Proof. unfold len, le64. rewrite le_enc_length. reflexivity. Qed.
Lemma len_le32 n : len (le32 n) = 4%N.
Proof. unfold len, le32. rewrite le_enc_length. reflexivity. Qed.

Lemma pow256_8 : (256 ^ N.of_nat 8 = two64)%N. Proof. reflexivity. Qed.
Lemma pow256_4 : (256 ^ N.of_nat 4 = two32)%N. Proof. reflexivity. Qed.

Lemma firstn_app_len {A} k (a b : list A) : length a = k -> firstn k (a ++ b) = a.
Proof. intros <-. rewrite firstn_app, Nat.sub_diag, firstn_O, app_nil_r. apply firstn_all. Qed.
Lemma skipn_app_len {A} k (a b : list A) : length a = k -> skipn k (a ++ b) = b.
Proof. intros <-. rewrite skipn_app, Nat.sub_diag, skipn_all. reflexivity. Qed.

Lemma rd64_le64 n rest : (n < two64)%N -> rd64 (le64 n ++ rest) = n.
Proof. intros H. unfold rd64, le64. rewrite firstn_app_len by apply le_enc_length.
  apply le_dec_enc. rewrite pow256_8. exact H. Qed.
Lemma rd32_le32 n rest : (n < two32)%N -> rd32 (le32 n ++ rest) = n.
Proof. intros H. unfold rd32, le32. rewrite firstn_app_len by apply le_enc_length.
  apply le_dec_enc. rewrite pow256_4. exact H. Qed.

Lemma bytes_ok_app a b : bytes_ok (a ++ b) = bytes_ok a && bytes_ok b.
Proof. apply forallb_app. Qed.

Lemma bytes_ok_firstn k l : bytes_ok l = true -> bytes_ok (firstn k l) = true.
Proof. intros H. rewrite <- (firstn_skipn k l), bytes_ok_app in H. apply andb_true_iff in H. apply H. Qed.
Lemma bytes_ok_skipn k l : bytes_ok l = true -> bytes_ok (skipn k l) = true.
Proof. intros H. rewrite <- (firstn_skipn k l), bytes_ok_app in H. apply andb_true_iff in H. apply H. Qed.

Lemma rd64_lt l : bytes_ok l = true -> (rd64 l < two64)%N.
Proof. intros H. unfold rd64. pose proof (le_dec_lt (firstn 8 l) (bytes_ok_firstn 8 l H)) as Hl.
  eapply N.lt_le_trans; [exact Hl|]. rewrite <- pow256_8. apply N.pow_le_mono_r; [lia|].
  pose proof (firstn_le_length 8 l). lia. Qed.

(** Byte string equality (memcmp()==0 / streq). *)
Fixpoint beq (a b : list N) : bool :=
  match a, b with
  | [], [] => true
  | x :: a, y :: b => (x =? y)%N && beq a b
  | _, _ => false
  end.
Lemma beq_eq a b : beq a b = true <-> a = b.
Proof. revert b; induction a as [|x a IH]; intros [|y b]; cbn [beq]; split; intros H; try congruence; try reflexivity.
  - apply andb_true_iff in H as [H1 H2]. apply N.eqb_eq in H1. apply IH in H2. congruence.
  - injection H as -> ->. rewrite N.eqb_refl. apply IH. reflexivity. Qed.
Lemma beq_refl a : beq a a = true. Proof. apply beq_eq; reflexivity. Qed.
Lemma beq_neq a b : beq a b = false <-> a <> b.
Proof. split; intros H.
  - intros E. apply beq_eq in E. congruence.
  - destruct (beq a b) eqn:E; [apply beq_eq in E; contradiction|reflexivity]. Qed.

Lemma app_inj_len {A} (a a' b b' : list A) : length a = length a' -> a ++ b = a' ++ b' -> a = a' /\ b = b'.
Proof. revert a'; induction a as [|x a IH]; intros [|x' a']; cbn; intros Hl He; try discriminate; [auto|].
  injection He as -> He. destruct (IH a' ltac:(lia) He) as [-> ->]. auto. Qed.

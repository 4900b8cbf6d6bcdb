(** Frames: representation of messages, unique decoding, and what ca_remote_process_message makes of the buffered bytes. *)
From Coq Require Import List NArith Bool Lia.
From Verif Require Import Base Remote RemoteSpec.
Import ListNotations.
Open Scope N_scope.

(** ** Bytes *)

Lemma bytes_ok_takeN n b : bytes_ok b = true -> bytes_ok (takeN n b) = true.
Proof. unfold takeN. apply bytes_ok_firstn. Qed.
Lemma bytes_ok_dropN n b : bytes_ok b = true -> bytes_ok (dropN n b) = true.
Proof. unfold dropN. apply bytes_ok_skipn. Qed.

Lemma bytes_ok_le64 n : bytes_ok (le64 n) = true.
Proof. exact (le_enc_ok 8 n). Qed.

Lemma split64 b : bytes_ok b = true -> 8 <= len b -> b = le64 (rd64 b) ++ dropN 8 b.
Proof.
  intros H L. unfold le64, rd64, dropN. change (N.to_nat 8) with 8%nat.
  rewrite <- (firstn_skipn 8 b) at 1. f_equal.
  assert (E : length (firstn 8 b) = 8%nat) by (rewrite firstn_length; unfold len in L; lia).
  rewrite <- (le_enc_dec (firstn 8 b)) at 1; [ | apply bytes_ok_firstn; exact H ].
  rewrite E. reflexivity.
Qed.

Lemma rd64_takeN n b : 8 <= n -> rd64 (takeN n b) = rd64 b.
Proof. intros H. unfold rd64, takeN. rewrite firstn_firstn. f_equal. f_equal. lia. Qed.

Local Opaque le64 rd64.

Lemma le64_inj a b x y : a < two64 -> b < two64 -> le64 a ++ x = le64 b ++ y -> a = b /\ x = y.
Proof.
  intros A B H.
  assert (E : a = b) by (rewrite <- (rd64_le64 a x A), H; apply rd64_le64; exact B).
  subst. split; [reflexivity|]. apply app_inv_head in H. exact H.
Qed.

Lemma app_inj_N {A} (a a' b b' : list A) : len a = len a' -> a ++ b = a' ++ b' -> a = a' /\ b = b'.
Proof. intros H. apply app_inj_len. unfold len in H. lia. Qed.

Lemma has_bit f n : has f (2 ^ n) = N.testbit f n.
Proof.
  unfold has. destruct (N.testbit f n) eqn:E.
  - destruct (N.land f (2 ^ n) =? 0) eqn:Z; [|reflexivity]. apply N.eqb_eq in Z.
    assert (T : N.testbit (N.land f (2 ^ n)) n = true) by (rewrite N.land_spec, E, N.pow2_bits_true; reflexivity).
    rewrite Z in T. rewrite N.bits_0 in T. discriminate.
  - destruct (N.land f (2 ^ n) =? 0) eqn:Z; [reflexivity|]. apply N.eqb_neq in Z. exfalso. apply Z.
    apply N.bits_inj. intros m. rewrite N.land_spec, N.pow2_bits_eqb, N.bits_0.
    destruct (n =? m) eqn:M; [apply N.eqb_eq in M; subst; rewrite E; reflexivity | apply andb_false_r].
Qed.

Lemma ldiff_1 f : N.ldiff f 1 = 0 <-> f = 0 \/ f = 1.
Proof.
  split.
  - intros H. destruct f as [|[p|p|]]; auto; simpl in H; try discriminate.
  - intros [-> | ->]; reflexivity.
Qed.

Lemma has_1 b : has (flag b) 1 = b.
Proof. destruct b; reflexivity. Qed.

(** ** Representation *)

(** The shape of a message that fixes its representation; a legal message has it. *)
Definition framed (m : message) : Prop :=
  16 + len (body m) < two64 /\
  match m with
  | MHello flags => flags < two64
  | MRequest _ ids => Forall is_id ids
  | MChunk _ id _ => is_id id
  | MAbort error _ => error < two64
  | _ => True
  end.

Lemma legal_framed m : legal m -> framed m.
Proof.
  intros [S H]. split; [unfold two64; lia|].
  destruct m; auto; try (unfold two64; change (2 ^ 64) with 18446744073709551616 in *; change (2 ^ 31) with 2147483648 in *; lia);
    tauto.
Qed.

Lemma len_wire m : len (wire m) = 16 + len (body m).
Proof. unfold wire. rewrite !len_app, !len_le64. lia. Qed.

Lemma tag_lt m : tag m < two64.
Proof. unfold two64. destruct m as [?|[] ?|[]|? ?|? ? ?|?| |? ?]; simpl tag; lia. Qed.

Lemma flag_lt b : flag b < two64.
Proof. destruct b; unfold two64; simpl; lia. Qed.
Lemma flag_inj a b : flag a = flag b -> a = b.
Proof. destruct a, b; simpl; congruence. Qed.

Lemma concat_inj ids ids' : Forall is_id ids -> Forall is_id ids' -> concat ids = concat ids' -> ids = ids'.
Proof.
  revert ids'. induction ids as [|a ids IH]; intros [|b ids'] H H'; simpl; intros E; auto.
  - inversion H' as [|x l [X _] _]; subst. apply (f_equal len) in E. rewrite len_app, X in E. change (@len N []) with 0 in E. lia.
  - inversion H as [|x l [X _] _]; subst. apply (f_equal len) in E. rewrite len_app, X in E. change (@len N []) with 0 in E. lia.
  - inversion H as [|x l [X _] Hl]; subst. inversion H' as [|x' l' [X' _] Hl']; subst.
    apply app_inj_N in E; [|congruence]. destruct E as [-> E]. f_equal. apply IH; auto.
Qed.

Lemma wire_unique m m' x y : framed m -> framed m' -> wire m ++ x = wire m' ++ y -> m = m' /\ x = y.
Proof.
  intros [S F] [S' F'] E. unfold wire in E. rewrite <- !app_assoc in E.
  apply le64_inj in E; auto. destruct E as [L E].
  apply le64_inj in E; try apply tag_lt. destruct E as [T E].
  apply app_inj_N in E; [|lia]. destruct E as [B ->]. split; [|reflexivity].
  destruct m as [fl|[] d|[]|hi ids|co id d|id| |er re], m' as [fl'|[] d'|[]|hi' ids'|co' id' d'|id'| |er' re'];
    simpl in T; try discriminate T; try reflexivity; simpl in B.
  - rewrite <- (app_nil_r (le64 fl)), <- (app_nil_r (le64 fl')) in B. apply le64_inj in B; auto. destruct B; congruence.
  - congruence.
  - congruence.
  - apply le64_inj in B; try apply flag_lt. destruct B as [A B]. apply flag_inj in A. f_equal; auto. apply concat_inj; auto.
  - apply le64_inj in B; try apply flag_lt. destruct B as [A B]. apply flag_inj in A.
    destruct F as [F _], F' as [F' _]. apply app_inj_N in B; [|congruence]. destruct B; congruence.
  - congruence.
  - apply le64_inj in B; auto. destruct B as [A B]. apply app_inj_tail in B. destruct B; congruence.
Qed.

Lemma wire_not_nil m x : wire m ++ x <> [].
Proof. intros H. apply (f_equal len) in H. rewrite len_app, len_wire in H. change (@len N []) with 0 in H. lia. Qed.

(** Messages recovered from the front of a stream of frames are the ones at its front. *)
Lemma stream_prefix R : forall S rest, Forall framed R -> Forall framed S ->
  flat_map wire R ++ rest = flat_map wire S -> exists T, S = R ++ T /\ rest = flat_map wire T.
Proof.
  induction R as [|m R IH]; intros S rest HR HS E; simpl in E.
  - exists S. auto.
  - inversion HR; subst. destruct S as [|m' S]; simpl in E.
    + rewrite <- app_assoc in E. apply wire_not_nil in E. contradiction.
    + inversion HS; subst. rewrite <- app_assoc in E. apply wire_unique in E; auto. destruct E as [-> E].
      destruct (IH _ _ H2 H4 E) as (T & -> & ->). exists T. auto.
Qed.

(** ** Taking a frame apart *)

Lemma header b : bytes_ok b = true -> 16 <= len b -> b = le64 (rd64 b) ++ le64 (rd64 (dropN 8 b)) ++ dropN 16 b.
Proof.
  intros H L. rewrite (split64 b) at 1 by (auto; lia). f_equal.
  rewrite (split64 (dropN 8 b)) at 1; [|apply bytes_ok_dropN; exact H | rewrite len_dropN; lia].
  f_equal. rewrite dropN_dropN. reflexivity.
Qed.

(** The ids in a request. *)
Lemma ids_exist n : forall b, bytes_ok b = true -> len b = 32 * N.of_nat n -> exists ids, b = concat ids /\ Forall is_id ids /\ length ids = n.
Proof.
  induction n as [|n IH]; intros b H L.
  - exists []. rewrite (len_zero_nil b) by lia. auto.
  - destruct (IH (dropN 32 b)) as (ids & E & F & G).
    + apply bytes_ok_dropN; exact H.
    + rewrite len_dropN. lia.
    + exists (takeN 32 b :: ids). simpl. rewrite <- E, takeN_dropN, G. repeat split; auto.
      constructor; auto. split; [rewrite len_takeN; lia | apply bytes_ok_takeN; exact H].
Qed.

Lemma len_concat ids : Forall is_id ids -> len (concat ids) = 32 * len ids.
Proof. induction 1 as [|id ids [H _] _ IH]; simpl; [reflexivity|]. rewrite len_app, len_cons, H, IH. lia. Qed.

(** What ca_remote_process_request does with the ids of a message. *)
Fixpoint queue_ids (answers : list (option errno)) (ids : list bytes) (high : bool) : option errno * list effect :=
  match ids with
  | [] => (None, [])
  | id :: ids =>
    match answers with
    | Some e :: _ => (Some e, [])
    | _ => let '(x, l) := queue_ids (tl answers) ids high in (x, EEnqueue id high :: l)
    end
  end.

Lemma enqueue_all_ids ids : forall fuel answers high, Forall is_id ids -> (length ids <= fuel)%nat ->
  enqueue_all fuel answers (concat ids) high = queue_ids answers ids high.
Proof.
  induction ids as [|id ids IH]; intros fuel answers high H L; destruct fuel as [|fuel]; simpl in L; try lia; try reflexivity.
  inversion H as [|x l [X _] Hl]; subst.
  cbn [enqueue_all concat queue_ids].
  destruct (len (id ++ concat ids) =? 0) eqn:Z; [rewrite len_app, X in Z; apply N.eqb_eq in Z; lia|].
  rewrite takeN_app_exact, dropN_app_exact by exact X. rewrite IH by (auto; lia). reflexivity.
Qed.

(** What a message does to the endpoint: the same as the engine, on messages instead of bytes. *)
Definition handle (i : io) (r : rem) (m : message) : outcome :=
  match m with
  | MHello flags => process_hello r flags
  | MFile k data => process_file i r k data
  | MEof k => process_eof r k
  | MRequest high ids =>
    let '(x, l) := queue_ids (io_enq i) ids high in
    match x with Some e => (r, Fail e, l) | None => (r, Request, l) end
  | MChunk compressed id data =>
    if negb (cached r) then (r, Fail ENOTTY, [])
    else match io_save i with
         | None => (set_last r id, Chunk, [ESave id compressed data])
         | Some EEXIST => (set_last r id, Step, [ESave id compressed data])
         | Some e => (set_last r id, Fail e, [ESave id compressed data])
         end
  | MMissing id =>
    if negb (cached r) then (r, Fail ENOTTY, [])
    else match io_missing i with
         | None => (r, Chunk, [EMissing id])
         | Some EEXIST => (r, Step, [EMissing id])
         | Some e => (r, Fail e, [EMissing id])
         end
  | MGoodbye => process_goodbye i r
  | MAbort error _ => if negb (error =? 0) then (r, FailPeer error, []) else (r, Fail ECONNABORTED, [])
  end.

Definition refused (r : rem) : outcome := (r, Fail EBADMSG, []).

Lemma body_of m rest : wire m ++ rest = le64 (16 + len (body m)) ++ le64 (tag m) ++ body m ++ rest.
Proof. unfold wire. rewrite <- !app_assoc. reflexivity. Qed.

Lemma drop16_wire m : dropN 16 (wire m) = body m.
Proof. unfold wire. rewrite app_assoc. apply dropN_app_exact. rewrite len_app, !len_le64. reflexivity. Qed.
Lemma drop8_wire m : dropN 8 (wire m) = le64 (tag m) ++ body m.
Proof. unfold wire. apply dropN_app_exact. apply len_le64. Qed.
Lemma type_wire m : rd64 (dropN 8 (wire m)) = tag m.
Proof. rewrite drop8_wire. apply rd64_le64, tag_lt. Qed.

Lemma bits (r : rem) :
  has (local r) PULL_INDEX = N.testbit (local r) 7 /\ has (remote r) PUSH_INDEX = N.testbit (remote r) 10 /\
  has (local r) PULL_ARCHIVE = N.testbit (local r) 8 /\ has (remote r) PUSH_ARCHIVE = N.testbit (remote r) 12 /\
  has (local r) PUSH_CHUNKS = N.testbit (local r) 9 /\ has (remote r) PULL_CHUNKS = N.testbit (remote r) 6 /\
  has (local r) PULL_CHUNKS = N.testbit (local r) 6 /\ has (remote r) PUSH_CHUNKS = N.testbit (remote r) 9.
Proof.
  repeat split.
  - exact (has_bit (local r) 7).
  - exact (has_bit (remote r) 10).
  - exact (has_bit (local r) 8).
  - exact (has_bit (remote r) 12).
  - exact (has_bit (local r) 9).
  - exact (has_bit (remote r) 6).
  - exact (has_bit (local r) 6).
  - exact (has_bit (remote r) 9).
Qed.

Lemma forallb_ge l : forallb (fun c => negb (c <? 32)) l = true <-> Forall (fun c => 32 <= c) l.
Proof.
  induction l as [|c l IH]; simpl; [split; auto|]. rewrite andb_true_iff, IH. split.
  - intros [H K]. constructor; auto. apply negb_true_iff in H. apply N.ltb_ge in H. exact H.
  - intros H. inversion H; subst. split; auto. apply negb_true_iff, N.ltb_ge. assumption.
Qed.

(** A legal message the endpoint expects is dispatched to its handler. *)
Lemma dispatch_legal i r m : legal m -> expects r m -> dispatch i r (len (wire m)) (wire m) = handle i r m.
Proof.
  intros [S H] X. destruct (bits r) as (B1 & B2 & B3 & B4 & B5 & B6 & B7 & B8).
  assert (D24 : forall n a b, body m = le64 n ++ a ++ b -> len a = 32 -> takeN 32 (dropN 24 (wire m)) = a /\ dropN 56 (wire m) = b).
  { intros n a b E L. change 24 with (8 + 16). rewrite <- dropN_dropN, drop16_wire, E.
    rewrite (dropN_app_exact 8) by apply len_le64. split; [apply takeN_app_exact; exact L|].
    change 56 with (40 + 16). rewrite <- dropN_dropN, drop16_wire, E. rewrite app_assoc. apply dropN_app_exact.
    rewrite len_app, len_le64, L. reflexivity. }
  unfold dispatch. rewrite type_wire, len_wire. rewrite drop16_wire.
  rewrite B1, B2, B3, B4, B5, B6, B7, B8.
  destruct m as [fl|k d|k|hi ids|co id d|id| |er re]; simpl in X.
  - change (tag (MHello fl)) with P_HELLO. rewrite N.eqb_refl. rewrite X. simpl negb.
    unfold valid_hello. rewrite drop16_wire. simpl body. rewrite len_le64. simpl (_ =? 24).
    rewrite <- (app_nil_r (le64 fl)). rewrite rd64_le64 by (unfold two64; change (2 ^ 64) with 18446744073709551616 in H; lia).
    replace (fl =? UINT64_MAX) with false; [replace (fl =? 0) with false; [reflexivity|] |];
      symmetry; apply N.eqb_neq; unfold UINT64_MAX; change (2 ^ 64) with 18446744073709551616 in H; lia.
  - destruct X as (X1 & X2 & X3). rewrite X1. destruct H as [H _].
    assert (V : valid_file (16 + len d) = true).
    { unfold valid_file. apply negb_true_iff, N.ltb_ge. destruct d; [contradiction|]. rewrite len_cons. lia. }
    destruct k; simpl sends in X2; simpl tag; simpl body; unfold sends in X2; rewrite orb_true_iff in X2.
    + change (_ =? P_HELLO) with false. change (_ =? P_INDEX) with true. cbv iota. simpl negb at 1.
      rewrite V. destruct X2 as [-> | ->]; simpl; rewrite ?andb_false_r; reflexivity.
    + change (_ =? P_HELLO) with false. change (_ =? P_INDEX) with false. change (_ =? P_INDEX_EOF) with false.
      change (_ =? P_ARCHIVE) with true. cbv iota. simpl negb at 1.
      rewrite V. destruct X2 as [-> | ->]; simpl; rewrite ?andb_false_r; reflexivity.
  - destruct X as (X1 & X2 & X3). rewrite X1.
    destruct k; unfold sends in X2; rewrite orb_true_iff in X2; simpl tag; simpl body; change (@len N []) with 0; simpl (16 + 0);
      change (valid_file_eof 16) with true.
    + change (_ =? P_HELLO) with false. change (_ =? P_INDEX) with false. change (_ =? P_INDEX_EOF) with true. cbv iota.
      destruct X2 as [-> | ->]; simpl; rewrite ?andb_false_r; reflexivity.
    + change (_ =? P_HELLO) with false. change (_ =? P_INDEX) with false. change (_ =? P_INDEX_EOF) with false.
      change (_ =? P_ARCHIVE) with false. change (_ =? P_ARCHIVE_EOF) with true. cbv iota.
      destruct X2 as [-> | ->]; simpl; rewrite ?andb_false_r; reflexivity.
  - destruct X as (X1 & X2). rewrite X1. destruct H as [H F]. unfold sends_chunks in X2; rewrite orb_true_iff in X2.
    simpl tag. repeat change (0x8ab427e0f89d9210 =? ?x) with false at 1.
    change (_ =? P_HELLO) with false. change (_ =? P_INDEX) with false. change (_ =? P_INDEX_EOF) with false.
    change (_ =? P_ARCHIVE) with false. change (_ =? P_ARCHIVE_EOF) with false. change (_ =? P_REQUEST) with true. cbv iota.
    assert (G : negb (N.testbit (local r) 9) && negb (N.testbit (remote r) 6) = false)
      by (destruct X2 as [-> | ->]; simpl; rewrite ?andb_false_r; reflexivity).
    rewrite G. simpl negb at 1. unfold valid_request, process_request. rewrite drop16_wire.
    assert (E24 : dropN 24 (wire (MRequest hi ids)) = concat ids).
    { change 24 with (8 + 16). rewrite <- dropN_dropN, drop16_wire. apply dropN_app_exact. apply len_le64. }
    rewrite E24. cbn [body]. rewrite rd64_le64 by apply flag_lt. rewrite len_app, len_le64, (len_concat _ F). rewrite has_1.
    assert (P : 1 <= len ids) by (destruct ids; [contradiction|rewrite len_cons; lia]).
    replace (16 + (8 + 32 * len ids) - 24) with (len ids * 32) by lia. rewrite N.mod_mul by lia.
    replace (16 + (8 + 32 * len ids) <? 24 + 32) with false by (symmetry; apply N.ltb_ge; lia).
    replace (N.ldiff (flag hi) 1 =? 0) with true by (destruct hi; reflexivity).
    cbn [negb andb N.eqb]. cbn [handle]. rewrite enqueue_all_ids; [reflexivity | exact F |].
    pose proof (len_concat _ F) as L. unfold len in L. lia.
  - destruct X as (X1 & X2). rewrite X1. destruct H as (F & H & _). unfold sends_chunks in X2; rewrite orb_true_iff in X2.
    simpl tag.
    change (_ =? P_HELLO) with false. change (_ =? P_INDEX) with false. change (_ =? P_INDEX_EOF) with false.
    change (_ =? P_ARCHIVE) with false. change (_ =? P_ARCHIVE_EOF) with false. change (_ =? P_REQUEST) with false.
    change (_ =? P_CHUNK) with true. cbv iota.
    assert (G : negb (N.testbit (local r) 6) && negb (N.testbit (remote r) 9) = false)
      by (destruct X2 as [-> | ->]; simpl; rewrite ?andb_false_r; reflexivity).
    rewrite G. simpl negb at 1. unfold valid_chunk, process_chunk.
    destruct (D24 (flag co) id d) as [E1 E2]; [reflexivity | apply F |]. rewrite E1, E2.
    rewrite drop16_wire. cbn [body]. rewrite rd64_le64 by apply flag_lt. rewrite has_1.
    replace (N.ldiff (flag co) 1 =? 0) with true by (destruct co; reflexivity).
    rewrite !len_app, len_le64. destruct F as [F _]. rewrite F.
    replace (16 + (8 + (32 + len d)) <? 56 + 1) with false
      by (symmetry; apply N.ltb_ge; destruct d; [contradiction|rewrite len_cons; lia]).
    reflexivity.
  - destruct X as (X1 & X2). rewrite X1. unfold sends_chunks in X2; rewrite orb_true_iff in X2.
    simpl tag.
    change (_ =? P_HELLO) with false. change (_ =? P_INDEX) with false. change (_ =? P_INDEX_EOF) with false.
    change (_ =? P_ARCHIVE) with false. change (_ =? P_ARCHIVE_EOF) with false. change (_ =? P_REQUEST) with false.
    change (_ =? P_CHUNK) with false. change (_ =? P_MISSING) with true. cbv iota.
    assert (G : negb (N.testbit (local r) 6) && negb (N.testbit (remote r) 9) = false)
      by (destruct X2 as [-> | ->]; simpl; rewrite ?andb_false_r; reflexivity).
    rewrite G. simpl negb at 1. unfold valid_missing, process_missing. rewrite drop16_wire. cbn [body].
    destruct H as [H _]. rewrite H. simpl (_ =? 48). rewrite takeN_all by lia. reflexivity.
  - rewrite X. reflexivity.
  - simpl tag.
    change (_ =? P_HELLO) with false. change (_ =? P_INDEX) with false. change (_ =? P_INDEX_EOF) with false.
    change (_ =? P_ARCHIVE) with false. change (_ =? P_ARCHIVE_EOF) with false. change (_ =? P_REQUEST) with false.
    change (_ =? P_CHUNK) with false. change (_ =? P_MISSING) with false. change (_ =? P_GOODBYE) with false.
    change (_ =? P_ABORT) with true. cbv iota.
    unfold valid_abort, process_abort. 
    assert (E24 : dropN 24 (wire (MAbort er re)) = re ++ [0]).
    { change 24 with (8 + 16). rewrite <- dropN_dropN, drop16_wire. apply dropN_app_exact. apply len_le64. }
    rewrite E24, drop16_wire. cbn [body].
    change (2 ^ 31) with 2147483648 in H. destruct H as (H & _ & F).
    rewrite rd64_le64 by (unfold two64; lia).
    rewrite !len_app, len_le64. change (len [0]) with 1.
    replace (16 + (8 + (len re + 1)) <? 24 + 1) with false by (symmetry; apply N.ltb_ge; lia).
    replace (INT32_MAX <=? er) with false by (symmetry; apply N.leb_gt; unfold INT32_MAX; lia).
    replace (16 + (8 + (len re + 1)) - 24 - 1) with (len re) by lia.
    rewrite takeN_app_exact by reflexivity. rewrite (proj2 (forallb_ge re) F).
    unfold len. rewrite Nnat.Nat2N.id. rewrite app_nth2 by lia. rewrite PeanoNat.Nat.sub_diag. reflexivity.
Qed.

Lemma nth_0_skipn n : forall l : bytes, nth 0 (skipn n l) 0 = nth n l 0.
Proof. induction n as [|n IH]; intros [|x l]; simpl; auto. Qed.

Lemma as_wire fr m : bytes_ok fr = true -> 16 <= len fr -> rd64 fr = len fr ->
  rd64 (dropN 8 fr) = tag m -> dropN 16 fr = body m -> fr = wire m.
Proof.
  intros B L S T E. rewrite (header fr B L). unfold wire. rewrite S, T, E.
  replace (len fr) with (16 + len (body m)); [reflexivity|]. rewrite <- E, len_dropN. lia.
Qed.

(** A complete frame is refused, or it is the representation of a legal message that is expected. *)
Lemma dispatch_cases i r fr : state r <> Eof -> bytes_ok fr = true -> rd64 fr = len fr -> 16 <= len fr <= P_SIZE_MAX ->
  dispatch i r (len fr) fr = refused r \/ exists m, fr = wire m /\ legal m /\ expects r m.
Proof.
  intros NE B S L. unfold P_SIZE_MAX in L.
  destruct (bits r) as (B1 & B2 & B3 & B4 & B5 & B6 & B7 & B8).
  set (b := dropN 16 fr).
  assert (Lb : len fr = 16 + len b) by (unfold b; rewrite len_dropN; lia).
  assert (Bb : bytes_ok b = true) by (apply bytes_ok_dropN; exact B).
  assert (W : forall m, rd64 (dropN 8 fr) = tag m -> b = body m -> fr = wire m) by (intros; apply as_wire; auto; lia).
  assert (Lm : forall m, b = body m -> 16 + len (body m) <= 16777216) by (intros m <-; lia).
  assert (S8 : 8 <= len b -> b = le64 (rd64 b) ++ dropN 8 b) by (intros; apply split64; auto).
  assert (R8 : rd64 b < two64) by (apply rd64_lt; exact Bb).
  assert (F8 : N.ldiff (rd64 b) 1 = 0 -> exists h, rd64 b = flag h).
  { intros F. apply ldiff_1 in F. destruct F as [F|F]; [exists false | exists true]; exact F. }
  unfold dispatch. fold b. rewrite B1, B2, B3, B4, B5, B6, B7, B8.
  destruct (rd64 (dropN 8 fr) =? P_HELLO) eqn:T0.
  { apply N.eqb_eq in T0. destruct (state r) eqn:ST; try (left; reflexivity). simpl negb.
    unfold valid_hello. fold b. destruct (len fr =? 24) eqn:V1; [|left; reflexivity].
    destruct (rd64 b =? UINT64_MAX) eqn:V2; [left; reflexivity|].
    destruct (rd64 b =? 0) eqn:V3; [left; reflexivity|]. right.
    apply N.eqb_eq in V1. apply N.eqb_neq in V2, V3.
    assert (Eb : b = le64 (rd64 b)).
    { rewrite S8 at 1 by lia. rewrite (dropN_all 8 b) by lia. apply app_nil_r. }
    exists (MHello (rd64 b)). split; [apply W; auto|]. split; [split; [apply Lm; exact Eb|] | exact ST].
    unfold UINT64_MAX in V2. unfold two64 in R8. change (2 ^ 64) with 18446744073709551616. lia. }
  destruct (rd64 (dropN 8 fr) =? P_INDEX) eqn:T1.
  { apply N.eqb_eq in T1. destruct (state r) eqn:ST; try (left; reflexivity). simpl negb at 1.
    destruct (negb (N.testbit (local r) 7) && negb (N.testbit (remote r) 10)) eqn:G; [left; reflexivity|].
    destruct (valid_file (len fr)) eqn:V; [|left; reflexivity]. simpl negb.
    unfold process_file. destruct (f_complete (get_file Index r)) eqn:C; [left; reflexivity|]. right.
    unfold valid_file in V. apply negb_true_iff, N.ltb_ge in V.
    exists (MFile Index b). split; [apply W; auto|]. split; [split; [apply Lm; reflexivity|split; [|exact Bb]] |].
    - intros Z. rewrite Z in Lb. change (@len N []) with 0 in Lb. lia.
    - split; [exact ST|]. split; [|exact C]. unfold sends. destruct (N.testbit (local r) 7), (N.testbit (remote r) 10); auto. }
  destruct (rd64 (dropN 8 fr) =? P_INDEX_EOF) eqn:T2.
  { apply N.eqb_eq in T2. destruct (state r) eqn:ST; try (left; reflexivity). simpl negb at 1.
    destruct (negb (N.testbit (local r) 7) && negb (N.testbit (remote r) 10)) eqn:G; [left; reflexivity|].
    unfold valid_file_eof. destruct (len fr =? 16) eqn:V; [|left; reflexivity]. simpl negb.
    unfold process_eof. destruct (f_complete (get_file Index r)) eqn:C; [left; reflexivity|]. right.
    apply N.eqb_eq in V. assert (Z : b = []) by (apply len_zero_nil; lia).
    exists (MEof Index). split; [apply W; auto|]. split; [split; [apply Lm; exact Z|exact I] |].
    split; [exact ST|]. split; [|exact C]. unfold sends. destruct (N.testbit (local r) 7), (N.testbit (remote r) 10); auto. }
  destruct (rd64 (dropN 8 fr) =? P_ARCHIVE) eqn:T3.
  { apply N.eqb_eq in T3. destruct (state r) eqn:ST; try (left; reflexivity). simpl negb at 1.
    destruct (negb (N.testbit (local r) 8) && negb (N.testbit (remote r) 12)) eqn:G; [left; reflexivity|].
    destruct (valid_file (len fr)) eqn:V; [|left; reflexivity]. simpl negb.
    unfold process_file. destruct (f_complete (get_file Archive r)) eqn:C; [left; reflexivity|]. right.
    unfold valid_file in V. apply negb_true_iff, N.ltb_ge in V.
    exists (MFile Archive b). split; [apply W; auto|]. split; [split; [apply Lm; reflexivity|split; [|exact Bb]] |].
    - intros Z. rewrite Z in Lb. change (@len N []) with 0 in Lb. lia.
    - split; [exact ST|]. split; [|exact C]. unfold sends. destruct (N.testbit (local r) 8), (N.testbit (remote r) 12); auto. }
  destruct (rd64 (dropN 8 fr) =? P_ARCHIVE_EOF) eqn:T4.
  { apply N.eqb_eq in T4. destruct (state r) eqn:ST; try (left; reflexivity). simpl negb at 1.
    destruct (negb (N.testbit (local r) 8) && negb (N.testbit (remote r) 12)) eqn:G; [left; reflexivity|].
    unfold valid_file_eof. destruct (len fr =? 16) eqn:V; [|left; reflexivity]. simpl negb.
    unfold process_eof. destruct (f_complete (get_file Archive r)) eqn:C; [left; reflexivity|]. right.
    apply N.eqb_eq in V. assert (Z : b = []) by (apply len_zero_nil; lia).
    exists (MEof Archive). split; [apply W; auto|]. split; [split; [apply Lm; exact Z|exact I] |].
    split; [exact ST|]. split; [|exact C]. unfold sends. destruct (N.testbit (local r) 8), (N.testbit (remote r) 12); auto. }
  destruct (rd64 (dropN 8 fr) =? P_REQUEST) eqn:T5.
  { apply N.eqb_eq in T5. destruct (state r) eqn:ST; try (left; reflexivity). simpl negb at 1.
    destruct (negb (N.testbit (local r) 9) && negb (N.testbit (remote r) 6)) eqn:G; [left; reflexivity|].
    unfold valid_request. fold b. destruct (len fr <? 24 + 32) eqn:V1; [left; reflexivity|].
    destruct ((len fr - 24) mod 32 =? 0) eqn:V2; [|left; reflexivity].
    destruct (N.ldiff (rd64 b) 1 =? 0) eqn:V3; [|left; reflexivity]. right.
    apply N.ltb_ge in V1. apply N.eqb_eq in V2, V3. destruct (F8 V3) as [h Eh].
    destruct (ids_exist (N.to_nat ((len fr - 24) / 32)) (dropN 8 b)) as (ids & E & F & G').
    { apply bytes_ok_dropN; exact Bb. }
    { rewrite len_dropN, Nnat.N2Nat.id. pose proof (N.div_mod (len fr - 24) 32). lia. }
    assert (Eb : b = body (MRequest h ids)).
    { simpl. rewrite <- Eh, <- E. apply S8. lia. }
    exists (MRequest h ids). split; [apply W; auto|]. split; [split; [apply Lm; exact Eb|split; [|exact F]] |].
    - intros ->. simpl in E. apply (f_equal len) in E. rewrite len_dropN in E. change (@len N []) with 0 in E. lia.
    - split; [exact ST|]. unfold sends_chunks. destruct (N.testbit (local r) 9), (N.testbit (remote r) 6); auto. }
  destruct (rd64 (dropN 8 fr) =? P_CHUNK) eqn:T6.
  { apply N.eqb_eq in T6. destruct (state r) eqn:ST; try (left; reflexivity). simpl negb at 1.
    destruct (negb (N.testbit (local r) 6) && negb (N.testbit (remote r) 9)) eqn:G; [left; reflexivity|].
    unfold valid_chunk. fold b. destruct (len fr <? 56 + 1) eqn:V1; [left; reflexivity|].
    destruct (N.ldiff (rd64 b) 1 =? 0) eqn:V3; [|left; reflexivity]. right.
    apply N.ltb_ge in V1. apply N.eqb_eq in V3. destruct (F8 V3) as [h Eh].
    assert (Eb : b = body (MChunk h (takeN 32 (dropN 8 b)) (dropN 32 (dropN 8 b)))).
    { simpl. rewrite <- Eh, takeN_dropN. apply S8. lia. }
    exists (MChunk h (takeN 32 (dropN 8 b)) (dropN 32 (dropN 8 b))).
    split; [apply W; auto|]. split; [split; [apply Lm; exact Eb|split; [|split]] |].
    - split; [rewrite len_takeN, len_dropN; lia | apply bytes_ok_takeN, bytes_ok_dropN; exact Bb].
    - intros Z. apply (f_equal len) in Z. rewrite !len_dropN in Z. change (@len N []) with 0 in Z. lia.
    - apply bytes_ok_dropN, bytes_ok_dropN; exact Bb.
    - split; [exact ST|]. unfold sends_chunks. destruct (N.testbit (local r) 6), (N.testbit (remote r) 9); auto. }
  destruct (rd64 (dropN 8 fr) =? P_MISSING) eqn:T7.
  { apply N.eqb_eq in T7. destruct (state r) eqn:ST; try (left; reflexivity). simpl negb at 1.
    destruct (negb (N.testbit (local r) 6) && negb (N.testbit (remote r) 9)) eqn:G; [left; reflexivity|].
    unfold valid_missing. destruct (len fr =? 48) eqn:V1; [|left; reflexivity]. right. apply N.eqb_eq in V1.
    exists (MMissing b). split; [apply W; auto|]. split; [split; [apply Lm; reflexivity|split; [lia|exact Bb]] |].
    split; [exact ST|]. unfold sends_chunks. destruct (N.testbit (local r) 6), (N.testbit (remote r) 9); auto. }
  destruct (rd64 (dropN 8 fr) =? P_GOODBYE) eqn:T8.
  { apply N.eqb_eq in T8. destruct (state r) eqn:ST; try (left; reflexivity). simpl negb at 1.
    unfold valid_goodbye. destruct (len fr =? 16) eqn:V1; [|left; reflexivity]. right. apply N.eqb_eq in V1.
    assert (Z : b = []) by (apply len_zero_nil; lia).
    exists MGoodbye. split; [apply W; auto|]. split; [split; [apply Lm; exact Z|exact I] | exact ST]. }
  destruct (rd64 (dropN 8 fr) =? P_ABORT) eqn:T9; [|left; reflexivity].
  apply N.eqb_eq in T9. unfold valid_abort. fold b.
  destruct (len fr <? 24 + 1) eqn:V1; [left; reflexivity|].
  destruct (INT32_MAX <=? rd64 b) eqn:V2; [left; reflexivity|].
  replace (dropN 24 fr) with (dropN 8 b) by (unfold b; rewrite dropN_dropN; reflexivity).
  destruct (forallb (fun c => negb (c <? 32)) (takeN (len fr - 24 - 1) (dropN 8 b))) eqn:V3; [|left; reflexivity].
  destruct (nth (N.to_nat (len fr - 24 - 1)) (dropN 8 b) 0 =? 0) eqn:V4; [|left; reflexivity]. right.
  apply N.ltb_ge in V1. apply N.leb_gt in V2. apply forallb_ge in V3. apply N.eqb_eq in V4.
  set (n := len fr - 24 - 1) in *. unfold INT32_MAX in V2.
  assert (Er : dropN 8 b = takeN n (dropN 8 b) ++ [0]).
  { rewrite <- (takeN_dropN n (dropN 8 b)) at 1. f_equal.
    assert (Ld : len (dropN n (dropN 8 b)) = 1) by (rewrite !len_dropN; unfold n; lia).
    assert (X : nth 0 (dropN n (dropN 8 b)) 0 = 0).
    { unfold dropN at 1. rewrite nth_0_skipn. exact V4. }
    destruct (dropN n (dropN 8 b)) as [|x [|y l]]; try (unfold len in Ld; simpl in Ld; lia). simpl in X. subst x. reflexivity. }
  assert (Eb : b = body (MAbort (rd64 b) (takeN n (dropN 8 b)))).
  { simpl. rewrite <- Er. apply S8. lia. }
  exists (MAbort (rd64 b) (takeN n (dropN 8 b))). split; [apply W; auto|]. split; [|exact NE].
  split; [apply Lm; exact Eb|]. split; [change (2 ^ 31) with 2147483648; lia|]. split; [|exact V3].
  apply bytes_ok_takeN, bytes_ok_dropN. exact Bb.
Qed.

(** What one call of ca_remote_step does: the cases. *)
From Coq Require Import List NArith Bool Lia.
From Verif Require Import Base ArchiveBase Remote RemoteSpec RemoteProofs1.
Import ListNotations.
Open Scope N_scope.

Local Opaque le64 rd64.

(** ** Requests *)

Definition dequeued (l : list effect) : list bytes := flat_map (fun e => match e with EDequeue _ id _ => [id] | _ => [] end) l.

Definition deqs (high : bool) (l : list effect) : Prop := Forall (fun e => exists only id, e = EDequeue only id high) l.

Lemma wire_request high ids : wire (MRequest high ids) = le64 (24 + len (concat ids)) ++ le64 P_REQUEST ++ le64 (flag high) ++ concat ids.
Proof. unfold wire. cbn [body]. rewrite len_app, len_le64. f_equal. f_equal. lia. Qed.

Lemma patch_request pre high ids id : Forall is_id ids -> is_id id -> 24 + 32 * len ids < two64 ->
  (let b := (pre ++ wire (MRequest high ids)) ++ id in patch64 (len pre) (rd64 (dropN (len pre) b) + 32) b)
  = pre ++ wire (MRequest high (ids ++ [id])).
Proof.
  intros F [L _] B. cbv zeta. unfold patch64. rewrite !wire_request. rewrite (len_concat _ F).
  rewrite <- !app_assoc. rewrite (dropN_app_exact (len pre)) by reflexivity. rewrite rd64_le64 by exact B.
  rewrite takeN_app_exact by reflexivity. f_equal.
  rewrite dropN_app_ge by lia. replace (len pre + 8 - len pre) with 8 by lia.
  rewrite dropN_app_exact by apply len_le64.
  rewrite concat_app, len_app, (len_concat _ F). cbn [concat]. rewrite app_nil_r, L.
  replace (24 + 32 * len ids + 32) with (24 + (32 * len ids + 32)) by lia. reflexivity.
Qed.

Lemma rd_request pre high ids : Forall is_id ids -> 24 + 32 * len ids < two64 ->
  rd64 (dropN (len pre) (pre ++ wire (MRequest high ids))) = 24 + 32 * len ids.
Proof.
  intros F B. rewrite dropN_app_exact by reflexivity. rewrite wire_request, (len_concat _ F). apply rd64_le64. exact B.
Qed.

Lemma request_more answers : forall last high pre ids out x a l,
  request_loop answers last (Some high) (Some (len pre)) (pre ++ wire (MRequest high ids)) = (out, x, a, l) -> Forall honoured l ->
  Forall is_id ids -> ids <> [] -> 24 + 32 * len ids < BUFFER_SIZE ->
  out = pre ++ wire (MRequest high (ids ++ dequeued l)) /\ a = Some (len pre) /\ Forall is_id (dequeued l) /\ deqs high l /\
  24 + 32 * len (ids ++ dequeued l) < BUFFER_SIZE + 32.
Proof.
  induction answers as [|[id h] answers IH]; intros last high pre ids out x a l E H F NE B; cbn [request_loop] in E.
  - inversion E; subst. cbn. rewrite app_nil_r. repeat split; auto; try constructor. unfold BUFFER_SIZE in *. lia.
  - cbv zeta in E.
    destruct (BUFFER_SIZE <=? rd64 (dropN (len pre) (patch64 (len pre) (rd64 (dropN (len pre) ((pre ++ wire (MRequest high ids)) ++ id)) + 32)
      ((pre ++ wire (MRequest high ids)) ++ id)))) eqn:C.
    + inversion E; subst; clear E. inversion H as [|e l' Hd _]; subst. destruct Hd as [Hid Hh]. subst h.
      pose proof (patch_request pre high ids id F Hid) as P. cbv zeta in P. rewrite P by (unfold BUFFER_SIZE, two64 in *; lia).
      cbn. repeat split; auto.
      * constructor; [eauto|constructor].
      * rewrite len_app. change (len [id]) with 1. unfold BUFFER_SIZE in *. lia.
    + destruct (request_loop answers last (Some h) (Some (len pre)) _) as [[[out2 x2] a2] l2] eqn:R in E.
      inversion E; subst; clear E. inversion H as [|e l' Hd Hl]; subst. destruct Hd as [Hid Hh]. subst h.
      pose proof (patch_request pre high ids id F Hid) as P. cbv zeta in P. rewrite P in C, R by (unfold BUFFER_SIZE, two64 in *; lia).
      assert (F' : Forall is_id (ids ++ [id])) by (apply Forall_app; split; auto).
      assert (L' : len (ids ++ [id]) = len ids + 1) by (rewrite len_app; reflexivity).
      rewrite rd_request in C by (auto; rewrite L'; unfold BUFFER_SIZE, two64 in *; lia). apply N.leb_gt in C.
      destruct (IH _ _ _ _ _ _ _ _ R Hl F') as (A1 & A2 & A3 & A4 & A5); auto.
      { intros Z. apply app_eq_nil in Z. destruct Z. discriminate. }
      cbn [dequeued flat_map]. rewrite <- app_assoc in A1, A5. simpl app in *. repeat split; auto.
      constructor; eauto.
Qed.

Lemma request_loop_spec answers last out0 out x a l :
  request_loop answers last None None out0 = (out, x, a, l) -> Forall honoured l ->
  (l = [] /\ out = out0 /\ a = None) \/
  (exists high, l <> [] /\ out = out0 ++ wire (MRequest high (dequeued l)) /\ a <> None /\ Forall is_id (dequeued l) /\ dequeued l <> [] /\
     deqs high l /\ 24 + 32 * len (dequeued l) < BUFFER_SIZE + 32).
Proof.
  intros E H. destruct answers as [|[id high] answers]; cbn [request_loop] in E.
  - inversion E; subst. left. auto.
  - right. exists high.
    assert (W : is_id id -> out0 ++ le64 (24 + 32) ++ le64 P_REQUEST ++ le64 (if high then 1 else 0) ++ id
                = out0 ++ wire (MRequest high [id])).
    { intros [L _]. rewrite wire_request. cbn [concat]. rewrite app_nil_r, L. reflexivity. }
    destruct (BUFFER_SIZE <=? _) eqn:C in E.
    + inversion E; subst; clear E. inversion H as [|e l' Hd _]; subst. destruct Hd as [Hid _].
      rewrite (W Hid). cbn. repeat split; auto; try congruence.
      constructor; [eauto|constructor].
    + destruct (request_loop answers last (Some high) (Some (len out0)) _) as [[[out2 x2] a2] l2] eqn:R in E.
      inversion E; subst; clear E. inversion H as [|e l' Hd Hl]; subst. destruct Hd as [Hid _].
      rewrite (W Hid) in R.
      assert (F' : Forall is_id [id]) by (constructor; auto).
      destruct (request_more _ _ _ _ _ _ _ _ _ R Hl F') as (A1 & A2 & A3 & A4 & A5); [congruence | unfold BUFFER_SIZE; reflexivity|].
      simpl app in *. cbn [dequeued flat_map]. simpl app. repeat split; auto; try congruence.
      constructor; eauto.
Qed.

(** ** A step *)

(** Everything but what ca_remote_start changes: the files may have been opened, their buffers are empty. *)
Record kept (r r1 : rem) : Prop := {
  k_local : local r1 = local r; k_remote : remote r1 = remote r; k_state : state r1 = state r;
  k_hello : sent_hello r1 = sent_hello r; k_goodbye : sent_goodbye r1 = sent_goodbye r; k_size : frame_size r1 = frame_size r;
  k_in : inbuf r1 = inbuf r; k_out : outbuf r1 = outbuf r; k_cached : cached r1 = cached r;
  k_complete : forall k, f_complete (get_file k r1) = f_complete (get_file k r);
  k_buf : forall k, f_buf (get_file k r1) = [] }.

Definition opens (l : list effect) : Prop := Forall (fun e => exists k w, e = EOpen k w) l.

Definition advance (r : rem) (n : N) : rem := set_frame_size (set_in r (dropN n (inbuf r))) 0.

Definition resized (r r1 : rem) : Prop := r1 = r \/ exists n, r1 = set_frame_size r n /\ n <= P_SIZE_MAX.

Inductive did (i : io) (r : rem) : rem -> ret -> list effect -> Prop :=
| d_write n x : outbuf r <> [] -> x = Step \/ x = Finished -> did i r (set_out r (dropN n (outbuf r))) x [EWrite (outbuf r) n]
| d_write_fail e : outbuf r <> [] -> io_write i = WErr e -> did i r r (Fail e) []
| d_hello : sent_hello r = false -> did i r (set_sent_hello (append_out r (wire (MHello (local r))))) Step []
| d_message m rest r1 x l :
    sent_hello r = true -> inbuf r = wire m ++ rest -> legal m -> expects r m -> handle i r m = (r1, x, l) ->
    did i r (if is_failure x then r1 else advance r1 (len (wire m))) x l
| d_refused : sent_hello r = true -> ~ undecided (inbuf r) ->
    ~ (exists m rest, inbuf r = wire m ++ rest /\ legal m /\ expects r m) ->
    did i r r (Fail EBADMSG) []
| d_request r1 high x l :
    sent_hello r = true -> undecided (inbuf r) -> state r = Running -> N.testbit (remote r) 11 || N.testbit (local r) 6 = true ->
    resized r r1 -> len (outbuf r) <= REMOTE_BUFFER_LOW ->
    dequeued l <> [] -> Forall is_id (dequeued l) -> deqs high l -> 24 + 32 * len (dequeued l) < BUFFER_SIZE + 32 ->
    x = Step \/ x = Fail (io_deq_end i) ->
    did i r (append_out r1 (wire (MRequest high (dequeued l)))) x l
| d_request_fail r1 :
    undecided (inbuf r) -> resized r r1 -> did i r r1 (Fail (io_deq_end i)) []
| d_file r1 k data :
    sent_hello r = true -> undecided (inbuf r) -> state r = Running -> sends k (local r) (remote r) = true -> resized r r1 ->
    len (outbuf r) <= REMOTE_BUFFER_LOW -> f_complete (get_file k r) = false ->
    did i r (append_out r1 (wire (MFile k data))) Step [EFileRead k data]
| d_file_eof r1 k :
    sent_hello r = true -> undecided (inbuf r) -> state r = Running -> sends k (local r) (remote r) = true -> resized r r1 ->
    len (outbuf r) <= REMOTE_BUFFER_LOW -> f_complete (get_file k r) = false ->
    did i r (set_file k (append_out r1 (wire (MEof k))) (f_set_complete (get_file k r))) Step [EFileEof k]
| d_file_ask r1 k :
    sent_hello r = true -> undecided (inbuf r) -> state r = Running -> sends k (local r) (remote r) = true -> resized r r1 ->
    f_complete (get_file k r) = false -> f_fd (get_file k r) = false ->
    did i r r1 (match k with Index => WriteIndex | Archive => WriteArchive end) []
| d_file_fail r1 e : undecided (inbuf r) -> io_fread i = FErr e -> resized r r1 -> did i r r1 (Fail e) []
| d_read r1 data :
    sent_hello r = true -> undecided (inbuf r) -> resized r r1 -> len (inbuf r) < read_size r1 ->
    did i r (set_in r1 (inbuf r ++ data)) Step [ERead (read_size r1 - len (inbuf r)) data]
| d_read_fail r1 e : undecided (inbuf r) -> resized r r1 -> io_read i = GErr e \/ (io_read i = GEof /\ e = EPIPE) -> did i r r1 (Fail e) []
| d_poll r1 : sent_hello r = true -> undecided (inbuf r) -> resized r r1 -> len (inbuf r) < read_size r1 -> io_read i = GAgain -> did i r r1 Poll [].

Lemma file_open_error r k w a r1 x l : file_open r k w a = (r1, x, l) -> x = None \/ x = a.
Proof.
  unfold file_open. destruct (state r); try (intros E; inversion E; auto; fail).
  destruct (f_fd _); [intros E; inversion E; auto|]. destruct (negb _); [intros E; inversion E; auto|].
  destruct a; intros E; inversion E; auto.
Qed.

Lemma start_file_error r k a r1 x l : start_file r k a = (r1, x, l) -> x = None \/ x = a.
Proof.
  unfold start_file. destruct (_ || _); [apply file_open_error|]. destruct (_ || _); [apply file_open_error|]. intros E; inversion E; auto.
Qed.

Lemma file_open_kept r k w a r1 x l : file_open r k w a = (r1, x, l) -> (forall k, f_buf (get_file k r) = []) -> kept r r1 /\ opens l.
Proof.
  intros E B. unfold file_open in E.
  assert (K : kept r r) by (constructor; auto).
  destruct (state r) eqn:S; try (inversion E; subst; split; [exact K|constructor]).
  destruct (f_fd (get_file k r)); [inversion E; subst; split; [exact K|constructor]|].
  destruct (f_path (get_file k r)); [|inversion E; subst; split; [exact K|constructor]].
  simpl negb in E. cbv iota in E.
  pose proof (B Index) as BI. pose proof (B Archive) as BA. simpl in BI, BA.
  assert (O : opens [EOpen k w]) by (constructor; [eauto|constructor]).
  destruct a; inversion E; subst; (split; [|exact O]); clear E;
    destruct k; constructor; simpl; try reflexivity; intros k'; destruct k', w; simpl; auto.
Qed.

Lemma kept_trans a b c : kept a b -> kept b c -> kept a c.
Proof. intros [] []. constructor; try congruence; intros k; congruence. Qed.

Lemma start_file_kept r k a r1 x l : start_file r k a = (r1, x, l) -> (forall k, f_buf (get_file k r) = []) -> kept r r1 /\ opens l.
Proof.
  intros E B. unfold start_file in E.
  destruct (has (remote r) (pull k) || has (local r) (push k)); [eapply file_open_kept; eauto|].
  destruct (has (remote r) (push k) || has (local r) (pull k)); [eapply file_open_kept; eauto|].
  inversion E; subst. split; [constructor; auto|constructor].
Qed.

Definition at_odds (r : rem) : Prop :=
  local r = UINT64_MAX \/ (N.testbit (local r) 2 = true /\ N.testbit (local r) 3 = true) \/ (N.testbit (local r) 4 = true /\ N.testbit (local r) 5 = true).

Definition start_error (i : io) (r : rem) (e : errno) : Prop :=
  (at_odds r /\ (e = EUNATCH \/ e = EINVAL)) \/ io_open_index i = Some e \/ io_open_archive i = Some e.

Lemma start_kept i r r1 x l : start i r = (r1, x, l) -> (forall k, f_buf (get_file k r) = []) ->
  kept r r1 /\ opens l /\ (x = Poll \/ exists e, x = Fail e /\ start_error i r e).
Proof.
  intros E B. unfold start in E.
  assert (K : kept r r) by (constructor; auto).
  change READABLE_INDEX with (2 ^ 2) in E. change WRITABLE_INDEX with (2 ^ 3) in E. change READABLE_ARCHIVE with (2 ^ 4) in E.
  change WRITABLE_ARCHIVE with (2 ^ 5) in E. rewrite !has_bit in E.
  unfold start_error, at_odds. destruct (local r =? UINT64_MAX) eqn:T1;
    [apply N.eqb_eq in T1; inversion E; subst; split; [exact K|split; [constructor|eauto 9]]|].
  destruct (N.testbit (local r) 2 && N.testbit (local r) 3) eqn:T2;
    [apply andb_true_iff in T2; inversion E; subst; split; [exact K|split; [constructor|eauto 9]]|].
  destruct (N.testbit (local r) 4 && N.testbit (local r) 5) eqn:T3;
    [apply andb_true_iff in T3; inversion E; subst; split; [exact K|split; [constructor|eauto 9]]|].
  destruct (start_file r Index (io_open_index i)) as [[ra xa] la] eqn:SI.
  destruct (start_file_kept _ _ _ _ _ _ SI B) as [K1 O1].
  pose proof (start_file_error _ _ _ _ _ _ SI) as EI.
  destruct xa; [inversion E; subst; destruct EI as [EI|EI]; [discriminate|]; split; [exact K1|split; [exact O1|eauto 8]]|].
  destruct (start_file ra Archive (io_open_archive i)) as [[rb xb] lb] eqn:SA.
  destruct (start_file_kept _ _ _ _ _ _ SA (k_buf _ _ K1)) as [K2 O2].
  pose proof (start_file_error _ _ _ _ _ _ SA) as EA.
  destruct xb; inversion E; subst; (split; [eapply kept_trans; eassumption|split; [apply Forall_app; auto|]]); [|auto].
  destruct EA as [EA|EA]; [discriminate|]. eauto 8.
Qed.

Lemma undecided_size b : 16 <= len b -> 16 <= rd64 b <= P_SIZE_MAX -> len b < rd64 b -> bytes_ok b = true -> undecided b.
Proof.
  intros L S U B. right. exists (rd64 b), (dropN 8 b). split; [apply split64; [exact B|lia]|]. unfold P_SIZE_MAX in S. lia.
Qed.

Lemma undecided_wire m rest : legal m -> undecided (wire m ++ rest) -> False.
Proof.
  intros [Sz _] [H|(size & rest' & E & [H1 H2] & H3)].
  - rewrite len_app, len_wire in H. lia.
  - unfold wire in E. rewrite <- !app_assoc in E. apply le64_inj in E; try (unfold two64; lia).
    destruct E as [E _]. rewrite len_app, len_wire in H3. lia.
Qed.

(** Surroundings in which everything succeeds: no legal message that is expected is refused in them. *)
Definition good_io : io := mkIo WAgain GAgain [] ENODATA [] FEof None None None None None None None.

Lemma queue_ids_good ids high : fst (queue_ids [] ids high) = None.
Proof. induction ids as [|id ids IH]; simpl; auto. destruct (queue_ids [] ids high). exact IH. Qed.

Lemma process_hello_ret r fl r1 x l : process_hello r fl = (r1, x, l) ->
  (x = Step /\ l = [] /\ r1 = set_state (set_remote r fl) Running) \/ ((x = Fail EPROTONOSUPPORT \/ x = Fail EBADE) /\ l = [] /\ r1 = r).
Proof.
  unfold process_hello. intros E.
  destruct (negb _) in E; [inversion E; auto|]. destruct (_ && _) in E; [inversion E; auto|].
  destruct (negb _) in E; [inversion E; auto|]. destruct (negb _) in E; [inversion E; auto|].
  destruct (_ =? 0) in E; inversion E; auto.
Qed.

Lemma handle_good r m : expects r m -> handle good_io r m <> refused r.
Proof.
  intros X E. destruct m as [fl|k d|k|hi ids|co id d|id| |er re]; simpl in E, X.
  - unfold refused in E. apply process_hello_ret in E. destruct E as [(E & _)|([E|E] & _)]; discriminate.
  - unfold process_file in E. destruct X as (_ & _ & C). rewrite C in E. unfold refused in E.
    destruct (f_fd (get_file k r)), k; simpl in E; inversion E.
  - unfold process_eof in E. destruct X as (_ & _ & C). rewrite C in E. unfold refused in E. destruct k; inversion E.
  - pose proof (queue_ids_good ids hi) as Q. destruct (queue_ids [] ids hi) as [x l]. simpl in Q. subst x. inversion E.
  - destruct (cached r); inversion E.
  - destruct (cached r); inversion E.
  - unfold process_goodbye in E. destruct (install_both good_io r) as [[ra [e|]] la] eqn:F; [|inversion E].
    unfold install_both, file_install in F. simpl in F.
    destruct (negb (f_complete (index r))), (negb (f_temp (index r))), (negb (f_path (index r))); simpl in F;
    destruct (negb (f_complete (archive r))), (negb (f_temp (archive r))), (negb (f_path (archive r))); simpl in F; inversion F.
  - destruct (negb (er =? 0)); inversion E.
Qed.

(** ca_remote_process_message *)
Lemma process_message_cases i r : state r <> Eof -> bytes_ok (inbuf r) = true ->
  (undecided (inbuf r) /\ exists r1, process_message i r = (r1, Poll, []) /\
     (r1 = r \/ exists n, r1 = set_frame_size r n /\ n <= P_SIZE_MAX) /\ len (inbuf r) < read_size r1) \/
  (~ undecided (inbuf r) /\ ~ (exists m rest, inbuf r = wire m ++ rest /\ legal m /\ expects r m) /\ process_message i r = refused r) \/
  (exists m rest r1 x l, inbuf r = wire m ++ rest /\ legal m /\ expects r m /\ handle i r m = (r1, x, l) /\
     process_message i r = (if is_failure x then r1 else advance r1 (len (wire m)), x, l)).
Proof.
  intros NE B.
  assert (E : process_message i r =
    if len (inbuf r) <? 16 then (r, Poll, [])
    else
      let size := rd64 (inbuf r) in
      if size <? P_SIZE_MIN then (r, Fail EBADMSG, [])
      else if P_SIZE_MAX <? size then (r, Fail EBADMSG, [])
      else if len (inbuf r) <? size then (set_frame_size r size, Poll, [])
      else
        let '(r1, x, l) := dispatch i r size (takeN size (inbuf r)) in
        match x with
        | Fail _ | FailPeer _ => (r1, x, l)
        | _ => (set_frame_size (set_in r1 (dropN size (inbuf r1))) 0, x, l)
        end) by (unfold process_message; destruct (state r); try reflexivity; contradiction).
  cbv zeta in E. set (b := inbuf r) in *. set (size := rd64 b) in *.
  assert (NW : forall m rest, b = wire m ++ rest -> legal m -> size = len (wire m)).
  { intros m rest Eb [Sz _]. unfold size. rewrite Eb. unfold wire at 1. rewrite <- !app_assoc. rewrite rd64_le64 by (unfold two64; lia).
    rewrite len_wire. reflexivity. }
  destruct (len b <? 16) eqn:L.
  { apply N.ltb_lt in L. left. split; [left; exact L|]. exists r. split; [exact E|]. split; [auto|]. unfold read_size, REMOTE_BUFFER_SIZE. fold b. lia. }
  apply N.ltb_ge in L.
  assert (ND : size < 16 \/ P_SIZE_MAX < size -> ~ undecided b).
  { intros Z [U|(s & rest & Eb & U1 & U2)]; [lia|]. unfold size in Z. rewrite Eb, rd64_le64 in Z by (unfold two64; lia). unfold P_SIZE_MAX in Z. lia. }
  destruct (size <? P_SIZE_MIN) eqn:L1.
  { apply N.ltb_lt in L1. unfold P_SIZE_MIN in L1. right; left. split; [apply ND; auto|]. split; [|exact E].
    intros (m & rest & Eb & Lm & _). pose proof (NW _ _ Eb Lm). rewrite len_wire in H. lia. }
  destruct (P_SIZE_MAX <? size) eqn:L2.
  { apply N.ltb_lt in L2. right; left. split; [apply ND; auto|]. split; [|exact E].
    intros (m & rest & Eb & Lm & _). pose proof (NW _ _ Eb Lm). rewrite len_wire in H. destruct Lm as [Lm _]. unfold P_SIZE_MAX in *. lia. }
  apply N.ltb_ge in L1, L2. unfold P_SIZE_MIN in L1.
  destruct (len b <? size) eqn:L3.
  { apply N.ltb_lt in L3. left. split; [apply undecided_size; auto|]. exists (set_frame_size r size). split; [exact E|].
    split; [right; eauto|]. unfold read_size. simpl. fold b. lia. }
  apply N.ltb_ge in L3. right.
  assert (Lf : len (takeN size b) = size) by (rewrite len_takeN; lia).
  assert (ND' : ~ undecided b).
  { intros [U|(s & rest & Eb & U1 & U2)]; [lia|]. unfold size in L3. rewrite Eb in L3 at 1. rewrite rd64_le64 in L3 by (unfold two64; lia). lia. }
  destruct (dispatch_cases good_io r (takeN size b)) as [D|(m & W & Lm & X)]; auto.
  { apply bytes_ok_takeN; exact B. }
  { rewrite Lf. apply rd64_takeN. lia. }
  { lia. }
  - left. split; [exact ND'|].
    assert (N : ~ (exists m rest, b = wire m ++ rest /\ legal m /\ expects r m)).
    { intros (m & rest & Eb & Lm & X). pose proof (NW _ _ Eb Lm) as Sm.
      assert (T : takeN size b = wire m) by (rewrite Eb; apply takeN_app_exact; auto).
      rewrite T, (dispatch_legal good_io r m Lm X) in D. exact (handle_good r m X D). }
    split; [exact N|].
    destruct (dispatch_cases i r (takeN size b)) as [D'|(m & W & Lm & X)]; auto.
    { apply bytes_ok_takeN; exact B. }
    { rewrite Lf. apply rd64_takeN. lia. }
    { lia. }
    + rewrite Lf in D'. rewrite D' in E. exact E.
    + exfalso. apply N. exists m, (dropN size b). rewrite <- W. rewrite takeN_dropN. auto.
  - right. pose proof (takeN_dropN size b) as Eb. rewrite W in Eb. symmetry in Eb.
    pose proof (NW _ _ Eb Lm) as Sm.
    destruct (handle i r m) as [[r1 x] l] eqn:H.
    exists m, (dropN size b), r1, x, l. split; [exact Eb|]. split; [exact Lm|]. split; [exact X|]. split; [exact H|].
    rewrite E, W, Sm, (dispatch_legal i r m Lm X), H. unfold advance. destruct x; reflexivity.
Qed.

Lemma is_fail_bool r x : is_failure x = true -> forall (k : rem -> outcome) l, or_else (r, x, l) k = (r, x, l).
Proof. destruct x; simpl; intros H; try discriminate; reflexivity. Qed.

Lemma or_else_end r x l k : x <> Poll -> or_else (r, x, l) k = (r, x, l).
Proof. destruct x; simpl; intros H; try reflexivity. contradiction. Qed.

Lemma or_else_poll r k : or_else (r, Poll, []) k = k r.
Proof. simpl. destruct (k r) as [[ra xa] la]. reflexivity. Qed.

Lemma bit_gates k r : sends k (local r) (remote r) = has (remote r) (pull k) || has (local r) (push k).
Proof.
  destruct k; simpl; symmetry.
  - change PULL_INDEX with (2 ^ 7). change PUSH_INDEX with (2 ^ 10). rewrite !has_bit. reflexivity.
  - change PULL_ARCHIVE with (2 ^ 8). change PUSH_ARCHIVE with (2 ^ 12). rewrite !has_bit. reflexivity.
Qed.

Lemma wire_file k data : wire (MFile k data) = le64 (16 + len data) ++ le64 (t_file k) ++ data.
Proof. destruct k; reflexivity. Qed.
Lemma wire_eof k : wire (MEof k) = le64 16 ++ le64 (t_eof k).
Proof. destruct k; reflexivity. Qed.
Lemma wire_hello f : wire (MHello f) = le64 24 ++ le64 P_HELLO ++ le64 f.
Proof. unfold wire. cbn [body]. rewrite len_le64. reflexivity. Qed.

Lemma send_file_cases i r k :
  (state r = Running /\ sends k (local r) (remote r) = true /\ f_complete (get_file k r) = false /\ len (outbuf r) <= REMOTE_BUFFER_LOW /\
    ((f_fd (get_file k r) = false /\ send_file i r k = (r, match k with Index => WriteIndex | Archive => WriteArchive end, [])) \/
     (exists e, io_fread i = FErr e /\ send_file i r k = (r, Fail e, [])) \/
     send_file i r k = (set_file k (append_out r (wire (MEof k))) (f_set_complete (get_file k r)), Step, [EFileEof k]) \/
     exists data, send_file i r k = (append_out r (wire (MFile k data)), Step, [EFileRead k data]))) \/
  send_file i r k = (r, Poll, []).
Proof.
  unfold send_file.
  destruct (negb (has (remote r) (pull k)) && negb (has (local r) (push k))) eqn:G; [right; reflexivity|].
  assert (S : sends k (local r) (remote r) = true).
  { rewrite bit_gates. destruct (has (remote r) (pull k)), (has (local r) (push k)); auto. }
  destruct (state r); auto.
  destruct (f_complete (get_file k r)) eqn:C; auto.
  destruct (REMOTE_BUFFER_LOW <? len (outbuf r)) eqn:L; auto. apply N.ltb_ge in L.
  left. repeat (split; [auto; fail|]).
  destruct (f_fd (get_file k r)); simpl negb; cbv iota; auto.
  right. destruct (io_fread i) as [e| |data].
  - left. eauto.
  - right; left. rewrite wire_eof. reflexivity.
  - right; right. exists data. rewrite wire_file. reflexivity.
Qed.

Lemma resize_state (r r1 : rem) : resized r r1 ->
  state r1 = state r /\ local r1 = local r /\ remote r1 = remote r /\ outbuf r1 = outbuf r /\ inbuf r1 = inbuf r /\ sent_hello r1 = sent_hello r /\
  forall k, get_file k r1 = get_file k r.
Proof. intros [-> |(n & -> & _)]; simpl; repeat split; auto; intros []; reflexivity. Qed.

(** The stages of ca_remote_step after writing. *)
Lemma handle_not_poll i r m r1 x l : handle i r m = (r1, x, l) -> x <> Poll.
Proof.
  intros E Z. subst x. destruct m as [fl|k d|k|hi ids|co id d|id| |er re]; simpl in E.
  - apply process_hello_ret in E. destruct E as [(E & _)|([E|E] & _)]; discriminate.
  - unfold process_file in E. destruct (f_complete _); [discriminate|]. destruct (f_fd _); [destruct (io_fwrite i)|]; destruct k; discriminate.
  - unfold process_eof in E. destruct (f_complete _); [discriminate|]. destruct k; discriminate.
  - destruct (queue_ids (io_enq i) ids hi) as [[e|] l']; discriminate.
  - destruct (negb (cached r)); [discriminate|]. destruct (io_save i) as [[]|]; discriminate.
  - destruct (negb (cached r)); [discriminate|]. destruct (io_missing i) as [[]|]; discriminate.
  - unfold process_goodbye in E. destruct (install_both i r) as [[ra [e|]] la]; discriminate.
  - destruct (negb (er =? 0)); discriminate.
Qed.

Lemma after_write i r r' x l : state r <> Eof -> bytes_ok (inbuf r) = true -> Forall honoured l ->
  or_else (send_hello r) (fun r =>
    or_else (process_message i r) (fun r => or_else (send_request i r) (fun r => or_else (send_file i r Index) (fun r =>
    or_else (send_file i r Archive) (fun r => rread i r))))) = (r', x, l) -> did i r r' x l.
Proof.
  intros NE B H E. unfold send_hello in E. destruct (sent_hello r) eqn:SH.
  2:{ rewrite or_else_end in E by discriminate. inversion E; subst. rewrite <- wire_hello. apply d_hello. exact SH. }
  rewrite or_else_poll in E. rename E into E1.
  destruct (process_message_cases i r NE B) as [(U & r1 & P & RS & RM)|[(NU & NM & P)|(m & rest & r1 & x1 & l1 & Eb & Lm & X & Hm & P)]].
  2:{ rewrite P in E1. unfold refused in E1. rewrite or_else_end in E1 by discriminate. inversion E1; subst. apply d_refused; auto. }
  2:{ rewrite P in E1. rewrite or_else_end in E1 by (eapply handle_not_poll; eauto). inversion E1; subst. eapply d_message; eauto. }
  rewrite P, or_else_poll in E1.
  assert (RS' : resized r r1) by exact RS.
  clear P RS. destruct (resize_state r r1 RS') as (Q1 & Q2 & Q3 & Q4 & Q5 & Q6 & Q7).
  rename E1 into E2.
  (* requests *)
  assert (SR : send_request i r1 = (r1, Poll, []) \/ (or_else (send_request i r1) (fun r => or_else (send_file i r Index) (fun r =>
    or_else (send_file i r Archive) (fun r => rread i r))) = (r', x, l) -> did i r r' x l)).
  { unfold send_request.
    destruct (negb (has (remote r1) PUSH_INDEX_CHUNKS) && negb (has (local r1) PULL_CHUNKS)) eqn:G; [left; reflexivity|].
    destruct (state r1) eqn:SR; try (left; reflexivity).
    destruct (REMOTE_BUFFER_LOW <? len (outbuf r1)) eqn:L; [left; reflexivity|]. apply N.ltb_ge in L.
    destruct (request_loop (io_deq i) (io_deq_end i) None None (outbuf r1)) as [[[o xo] ao] lo] eqn:RL.
    assert (HX : xo = None \/ xo = Some (io_deq_end i)).
    { clear - RL. revert RL. generalize (@None bool), (@None N), (outbuf r1). revert o xo ao lo.
      induction (io_deq i) as [|[id h] d IH]; intros o xo ao lo only a out0 RL; cbn [request_loop] in RL.
      - inversion RL; subst. destruct (io_deq_end i); auto.
      - destruct (match a with Some off => _ | None => _ end) as [off out1] in RL.
        destruct (BUFFER_SIZE <=? rd64 (dropN off out1)) in RL; [inversion RL; auto|].
        destruct (request_loop d (io_deq_end i) (Some h) (Some off) out1) as [[[o2 x2] a2] l2] eqn:R2. inversion RL; subst. eapply IH; eauto. }
    assert (HL : forall y, xo = Some y -> or_else (set_out r1 o, Fail y, lo) (fun r => or_else (send_file i r Index) (fun r =>
               or_else (send_file i r Archive) (fun r => rread i r))) = (set_out r1 o, Fail y, lo)) by (intros; apply or_else_end; discriminate).
    assert (SO : set_out r1 (outbuf r1) = r1) by (destruct r1; reflexivity).
    destruct ao as [off|].
    - right. intros EE.
      assert (EE' : exists xx, (xx = Step \/ xx = Fail (io_deq_end i)) /\ (r', x, l) = (set_out r1 o, xx, lo)).
      { destruct HX as [-> | ->]; rewrite or_else_end in EE by discriminate; eauto. }
      destruct EE' as (xx & Hxx & EE'). inversion EE'; subst; clear EE EE'.
      destruct (request_loop_spec _ _ _ _ _ _ _ RL H) as [(_ & _ & Z)|(high & A1 & A2 & A3 & A4 & A5 & A6 & A7)]; [discriminate|].
      rewrite A2. eapply d_request; eauto; try congruence.
      + rewrite <- Q2, <- Q3. change PUSH_INDEX_CHUNKS with (2 ^ 11) in G. change PULL_CHUNKS with (2 ^ 6) in G. rewrite !has_bit in G.
        destruct (N.testbit (remote r1) 11), (N.testbit (local r1) 6); auto.
    - assert (Z : lo = [] /\ o = outbuf r1).
      { clear - RL. destruct (io_deq i) as [|[id h] d]; cbn [request_loop] in RL; [inversion RL; auto|].
        exfalso. destruct (BUFFER_SIZE <=? _) in RL; [discriminate|].
        destruct (request_loop d (io_deq_end i) (Some h) _ _) as [[[o2 x2] a2] l2] eqn:R2 in RL. inversion RL; subst. clear RL.
        match type of R2 with request_loop _ _ _ (Some ?off) ?out1 = _ => revert R2; generalize (Some h), off, out1 end.
        revert o xo l2. clear id h.
        induction d as [|[id h] d IH]; intros o xo l2 only off out1 R2; cbn [request_loop] in R2; [discriminate|].
        cbv zeta in R2. destruct (BUFFER_SIZE <=? _) in R2; [discriminate|].
        destruct (request_loop d _ (Some h) _ _) as [[[o3 x3] a3] l3] eqn:R3 in R2. inversion R2; subst. eapply IH; eauto. }
      destruct Z as [-> ->]. rewrite SO.
      destruct HX as [-> | ->]; [left; reflexivity|].
      right. intros EE. rewrite or_else_end in EE by discriminate. inversion EE; subst. apply d_request_fail; auto. }
  destruct SR as [SR|SR]; [|apply SR; exact E2].
  rewrite SR, or_else_poll in E2. clear SR.
  (* files *)
  assert (SF : forall k (next : rem -> outcome),
    (forall xx ll, next r1 = (r', xx, ll) -> Forall honoured ll -> did i r r' xx ll) ->
    forall xx ll, or_else (send_file i r1 k) next = (r', xx, ll) -> Forall honoured ll -> did i r r' xx ll).
  { intros k next HN xx ll EE HH. destruct (send_file_cases i r1 k) as [(C1 & C2 & C3 & C4 & [(C5 & C6)|[(e & C5 & C6)|[C6|(data & C6)]]])|C6]; rewrite C6 in EE.
    - rewrite or_else_end in EE by (destruct k; discriminate). inversion EE; subst. eapply d_file_ask; eauto; try congruence; rewrite <- ?Q2, <- ?Q3, <- ?Q7; auto.
    - rewrite or_else_end in EE by discriminate. inversion EE; subst. eapply d_file_fail; eauto.
    - rewrite or_else_end in EE by discriminate. inversion EE; subst. rewrite Q7. eapply d_file_eof; eauto; try congruence; rewrite <- ?Q2, <- ?Q3, <- ?Q4, <- ?Q7; auto.
    - rewrite or_else_end in EE by discriminate. inversion EE; subst. eapply d_file; eauto; try congruence; rewrite <- ?Q2, <- ?Q3, <- ?Q4, <- ?Q7; auto.
    - rewrite or_else_poll in EE. apply HN; auto. }
  revert E2 H. apply (SF Index). intros xx ll. apply (SF Archive). clear xx ll. intros xx ll EE HH.
  unfold rread in EE.
  destruct (read_size r1 <=? len (inbuf r1)) eqn:RL; [apply N.leb_le in RL; rewrite Q5 in RL; lia|].
  destruct (io_read i) as [|e| |data] eqn:IR; inversion EE; subst.
  - apply d_poll; auto.
  - eapply d_read_fail; eauto.
  - eapply d_read_fail; eauto.
  - rewrite Q5. apply d_read; auto.
Qed.

(** ca_remote_step: what it can have done. *)
Lemma step_did i r r' x l : state r <> Eof -> bytes_ok (inbuf r) = true -> step i r = (r', x, l) -> Forall honoured l ->
  exists r1 l1 l2, kept r r1 /\ opens l1 /\ l = l1 ++ l2 /\
    ((exists e, x = Fail e /\ l2 = [] /\ r' = r1 /\ start_error i r e) \/ did i r1 r' x l2).
Proof.
  intros NE B E H.
  set (r0 := set_archive (set_index r (f_set_buf (index r) [])) (f_set_buf (archive r) [])).
  assert (K0 : kept r r0) by (constructor; try reflexivity; intros []; reflexivity).
  assert (E' : or_else (start i r0) (fun r => or_else (rwrite i r) (fun r => or_else (send_hello r) (fun r =>
    or_else (process_message i r) (fun r => or_else (send_request i r) (fun r => or_else (send_file i r Index) (fun r =>
    or_else (send_file i r Archive) (fun r => rread i r))))))) = (r', x, l)).
  { unfold step in E. destruct (state r); try contradiction; exact E. }
  clear E. destruct (start i r0) as [[r1 x1] l1] eqn:S.
  destruct (start_kept _ _ _ _ _ S (k_buf _ _ K0)) as (K1 & O1 & P1). change (start_error i r0) with (start_error i r) in P1.
  pose proof (kept_trans _ _ _ K0 K1) as K. clear K0 K1 S r0.
  destruct P1 as [-> |(e & -> & SE)].
  2:{ rewrite or_else_end in E' by discriminate. inversion E'; subst. exists r', l, []. rewrite app_nil_r. split; [exact K|]. split; [exact O1|]. split; [reflexivity|]. left. eauto. }
  cbn [or_else] in E'.
  destruct (or_else (rwrite i r1) _) as [[r2 x2] l2] eqn:E2 in E'. inversion E'; subst; clear E'.
  exists r1, l1, l2. split; [exact K|]. split; [exact O1|]. split; [reflexivity|]. right.
  apply Forall_app in H. destruct H as [_ H].
  assert (NE1 : state r1 <> Eof) by (rewrite (k_state _ _ K); exact NE).
  assert (B1 : bytes_ok (inbuf r1) = true) by (rewrite (k_in _ _ K); exact B).
  clear K O1 NE B r l1. rename r1 into r.
  (* writing *)
  unfold rwrite in E2.
  destruct (len (outbuf r) =? 0) eqn:L0.
  2:{ apply N.eqb_neq in L0. assert (NN : outbuf r <> []) by (intros Z; rewrite Z in L0; apply L0; reflexivity).
      destruct (io_write i) as [|e|n] eqn:W.
      - rewrite or_else_poll in E2. apply after_write; auto.
      - rewrite or_else_end in E2 by discriminate. inversion E2; subst. apply d_write_fail; [exact NN|exact W].
      - cbv zeta in E2. destruct (sent_goodbye (set_out r (dropN n (outbuf r))) && _) in E2;
          rewrite or_else_end in E2 by discriminate; inversion E2; subst; apply d_write; auto. }
  rewrite or_else_poll in E2. apply after_write; auto.
Qed.

(** C33: the remote protocol.  However the transport fragments the byte streams, each side recovers the sequence of messages the other
    one sent; a malformed, oversized or unexpected frame is refused and has no effect. *)
From Coq Require Import List NArith Bool Lia.
From Verif Require Import Base Remote RemoteSpec RemoteScript RemoteProofs1 RemoteProofs2 RemoteProofs3 RemoteProofs5 RemoteProofs6.
Import ListNotations.
Open Scope N_scope.

(** ** What arrives is what was sent *)

(** At every moment of every conversation - any options, any calls, any behaviour of the transport, the files, the queue and the cache -
    what one side has received is a beginning of what the other side has sent: nothing is lost, invented, repeated, reordered or
    changed on the way. *)
Theorem remote_in_order : forall r1 r2 t, new r1 -> new r2 -> conversation anything r1 r2 t ->
  prefix (got (two t)) (sent (one t)) /\ prefix (got (one t)) (sent (two t)).
Proof.
  intros r1 r2 t N1 N2 C. destruct (talking _ _ _ _ N1 N2 C) as (S1 & R1 & S2 & R2 & D1 & D2).
  split; [apply (dir_prefix _ _ _ _ _ D1)|apply (dir_prefix _ _ _ _ _ D2)].
Qed.
Print Assumptions remote_in_order.

(** Once nothing is under way any more it is all of it. *)
Theorem remote_complete : forall r1 r2 t, new r1 -> new r2 -> conversation anything r1 r2 t ->
  outbuf (endpoint (one t)) = [] -> one_two t = [] -> inbuf (endpoint (two t)) = [] -> got (two t) = sent (one t).
Proof.
  intros r1 r2 t N1 N2 C Z1 Z2 Z3. destruct (talking _ _ _ _ N1 N2 C) as (S1 & R1 & S2 & R2 & D1 & D2).
  apply (dir_prefix _ _ _ _ _ D1); assumption.
Qed.
Print Assumptions remote_complete.

(** The part of an index or archive received is a beginning of what was sent, and all of it once its end was received. *)
Theorem remote_file_whole : forall r1 r2 t k, new r1 -> new r2 -> conversation anything r1 r2 t ->
  prefix (content k (got (two t))) (content k (sent (one t))) /\
  (In (IEof k) (got (two t)) -> content k (got (two t)) = content k (sent (one t))).
Proof.
  intros r1 r2 t k N1 N2 C. apply whole_file; [apply (remote_in_order _ _ _ N1 N2 C)|].
  intros P Q E. destruct (sealed_talk _ _ _ _ N1 N2 C) as [S _]. apply (S k P Q E).
Qed.
Print Assumptions remote_file_whole.

(** ** Which frames are accepted *)

(** What a step with nothing to write makes of the input.  While the input does not decide what the next message is, nothing is
    consumed and nothing delivered.  If it begins with the representation of a legal message that is expected, exactly this message is
    delivered and its bytes are consumed - or its delivery fails for a reason other than its form.  In all other cases the step
    fails with EBADMSG, and nothing is consumed, delivered, sent or taken. *)
Theorem remote_frame : forall i r r' x l, reached r -> state r <> Eof -> sent_hello r = true -> outbuf r = [] -> usable r -> files_open i ->
  step i r = (r', x, l) -> Forall honoured l ->
  (undecided (inbuf r) -> inbuf r' = inbuf r ++ incoming l /\ delivered (r', x, l) = []) /\
  (forall m rest, inbuf r = wire m ++ rest -> legal m -> expects r m ->
     (is_failure x = false /\ inbuf r' = rest /\ incoming l = [] /\ delivered (r', x, l) = items m) \/
     (is_failure x = true /\ (x = Fail EBADMSG -> reports i EBADMSG) /\ inbuf r' = inbuf r /\ incoming l = [] /\
      prefix (delivered (r', x, l)) (items m))) /\
  (~ undecided (inbuf r) -> ~ (exists m rest, inbuf r = wire m ++ rest /\ legal m /\ expects r m) ->
     x = Fail EBADMSG /\ inbuf r' = inbuf r /\ outgoing l = [] /\ incoming l = [] /\ taken l = [] /\ delivered (r', x, l) = []).
Proof. intros i r r' x l R. intros. apply step_ready; auto. apply (reached_bounded _ R). Qed.
Print Assumptions remote_frame.

(** A frame that claims to be shorter than its header or longer than 16 MiB is refused as soon as its header is there. *)
Theorem remote_bad_size : forall i r r' x l size rest, reached r -> state r <> Eof -> sent_hello r = true -> outbuf r = [] -> usable r ->
  files_open i -> step i r = (r', x, l) -> Forall honoured l ->
  inbuf r = le64 size ++ rest -> size < 2 ^ 64 -> 16 <= len (inbuf r) -> size < 16 \/ 16777216 < size -> x = Fail EBADMSG.
Proof.
  intros i r r' x l size rest R NE SH OB U F E H I S64 L S. change (2 ^ 64) with two64 in S64.
  assert (MX : forall n, n <= 16777216 -> n < two64) by (unfold two64; lia).
  destruct (remote_frame i r r' x l R NE SH OB U F E H) as (_ & _ & T). apply T.
  - intros [Z|(size' & rest' & Z1 & Z2 & Z3)]; [lia|]. rewrite I in Z1. apply le64_inj in Z1; [lia|exact S64|apply MX; lia].
  - intros (m & rest' & Z1 & [Z2 _] & _). rewrite I in Z1. unfold wire in Z1. rewrite <- app_assoc in Z1.
    apply le64_inj in Z1; [lia|exact S64|apply MX; exact Z2].
Qed.
Print Assumptions remote_bad_size.

(** The error number of an abort reaches the other side's caller. *)
Theorem remote_abort : forall i r r' x l error reason rest, reached r -> state r <> Eof -> sent_hello r = true -> outbuf r = [] -> usable r ->
  files_open i -> step i r = (r', x, l) -> Forall honoured l ->
  inbuf r = wire (MAbort error reason) ++ rest -> legal (MAbort error reason) -> 0 < error -> x = FailPeer error.
Proof.
  intros i r r' x l error reason rest R NE SH OB (U1 & U2 & U3) (F1 & F2) E H I L P.
  destruct (reached_bounded _ R) as (B & _).
  destruct (step_did i r r' x l NE B E H) as (r1 & l1 & l2 & K & OP & -> & D).
  pose proof (k_in _ _ K) as KI. pose proof (k_out _ _ K) as KO. pose proof (k_hello _ _ K) as KH.
  assert (UW : ~ undecided (inbuf r1)) by (rewrite KI, I; intros Z; eapply undecided_wire; eauto).
  destruct D as [(e & -> & -> & -> & SE)|D].
  { exfalso. unfold start_error, at_odds in SE. change UINT64_MAX with (2 ^ 64 - 1) in SE.
    destruct SE as [[[Z|[[Z Z2]|[Z Z2]]] _]|[Z|Z]]; [contradiction|rewrite Z, Z2 in U2; discriminate|rewrite Z, Z2 in U3; discriminate|congruence|congruence]. }
  destruct D as [dn dx D1 D2|de D1 D2|D1|dm drest dr dx dl D1 D2 D3 D4 D5|D1 D2 D3|dr dhi dx dl D1 D2 D3 D4 D5 D6 D7 D8 D9 D10 D11|dr D1 D2|dr dk dd D1 D2 D3 D4 D5 D6 D7
    |dr dk D1 D2 D3 D4 D5 D6 D7|dr dk D1 D2 D3 D4 D5 D6 D7|dr de D1 D2 D3|dr dd D1 D2 D3 D4|dr de D1 D2 D3|dr D1 D2 D3 D4 D5]; try contradiction; try congruence.
  - rewrite KI, I in D2. apply wire_unique in D2; auto using legal_framed. destruct D2 as [<- _]. simpl in D5.
    destruct (error =? 0) eqn:Z; [apply N.eqb_eq in Z; lia|]. inversion D5. reflexivity.
  - exfalso. apply D3. exists (MAbort error reason), rest. rewrite KI. split; [exact I|]. split; [exact L|].
    simpl. rewrite (k_state _ _ K). exact NE.
Qed.
Print Assumptions remote_abort.

(** ** Two sides that keep to the rules *)

(** They never refuse each other's messages: if the options do not transfer a file in both directions, no farewell is said before the
    greeting, and reasons of aborts are printable and fit into a frame, then ca_remote_step does not fail with EBADMSG, unless a
    file, the queue or the cache reports that error. *)
Theorem remote_no_refusal_partial : forall r1 r2 t i r l, new r1 -> new r2 -> one_way (local r1) (local r2) -> conversation polite r1 r2 t ->
  step i (endpoint (one t)) = (r, Fail EBADMSG, l) -> Forall honoured l -> reports i EBADMSG.
Proof.
  intros r1 r2 t i r l N1 N2 W C E H. destruct (proper_talk _ _ _ N1 N2 W C) as (S1 & R1 & S2 & R2 & P).
  exact (proper_accepts _ _ _ _ _ _ _ _ _ _ (one_way_sym _ _ W) P E H).
Qed.
Print Assumptions remote_no_refusal_partial.

(** ** Room for input *)

(** Whatever the other end sends, the input buffer holds at most 16 MiB. *)
Theorem remote_input_bounded : forall r, reached r -> len (inbuf r) <= 16777216.
Proof. intros r R. apply (reached_bounded r R). Qed.
Print Assumptions remote_input_bounded.

(** When a step has nothing to do, the caller is told to wait for input, and there is room for it: the connection cannot get stuck
    with a message in the buffer or with a full buffer. *)
Theorem remote_waits_for_input : forall i r r' l, reached r -> step i r = (r', Poll, l) -> Forall honoured l ->
  undecided (inbuf r') /\ fst (io_events r') = true /\ io_read i = GAgain.
Proof. intros i r r' l R E H. destruct (step_poll i r r' l (proj1 (reached_bounded _ R)) E H) as (_ & A & B & C). auto. Qed.
Print Assumptions remote_waits_for_input.

(** ** A conversation *)

Definition from_ok (x : res rem) : rem := match x with Ok r => r | _ => mkRem 0 0 Eof false false 0 [] [] (mkFile false false false false []) (mkFile false false false false []) false None end.

(** One side wants an index and chunks, the other one has them. *)
Definition client := from_ok (remote_new 0xc0 false false false false true).
Definition server := from_ok (remote_new 0x5 false false false false true).
Definition sample_id : bytes := map N.of_nat (seq 1 32).

Lemma client_new : new client.
Proof. exists 0xc0, false, false, false, false, true. reflexivity. Qed.
Lemma server_new : new server.
Proof. exists 0x5, false, false, false, false, true. reflexivity. Qed.

(** The greetings, fragmented. *)
Definition greet : list (bool * act) :=
  [(true, waits); (true, writes 5); (false, waits); (false, writes 24); (false, takes 5); (true, writes 19); (true, takes 24); (true, waits);
   (false, takes 3); (false, takes 16); (false, waits)].

Definition transfer : list (bool * act) :=
  greet ++
  [(true, asks [(sample_id, true)]); (true, writes 30); (false, waits); (false, ACall (CPutFile Index [104; 101; 108])); (false, writes 1);
   (true, writes 26); (false, writes 18); (true, takes 100); (true, waits);
   (false, ACall (CPutFile Index [108; 111])); (false, ACall (CPutEof Index)); (false, takes 30); (false, takes 100); (false, waits);
   (false, ACall (CPutChunk sample_id true [1; 2; 3]));
   (false, writes 90); (true, takes 50); (true, waits); (true, waits); (true, takes 1000); (false, writes 3); (true, takes 1000); (true, waits);
   (true, ACall (CGoodbye calm_io)); (true, writes 16); (false, takes 100); (false, waits)].

Definition summary (o : option talk) :=
  match o with
  | Some t => Some (sent (one t), got (two t), sent (two t), got (one t), failed (one t) || failed (two t), one_two t, two_one t)
  | None => None
  end.

Example conversation_example :
  summary (play_all politeb (mkTalk (fresh client) (fresh server) [] []) transfer) =
  Some ([IRequest sample_id true; IGoodbye], [IRequest sample_id true; IGoodbye],
        [IFile Index [104; 101; 108]; IFile Index [108; 111]; IEof Index; IChunk sample_id true [1; 2; 3]],
        [IFile Index [104; 101; 108]; IFile Index [108; 111]; IEof Index; IChunk sample_id true [1; 2; 3]], false, [], []).
Proof. vm_compute. reflexivity. Qed.

(** So the theorems apply to a conversation that transfers something. *)
Example conversation_exists : exists t, conversation polite client server t /\ new client /\ new server /\ one_way (local client) (local server) /\
  got (two t) = [IRequest sample_id true; IGoodbye] /\ content Index (got (one t)) = [104; 101; 108; 108; 111].
Proof.
  pose proof conversation_example as S.
  destruct (play_all politeb (mkTalk (fresh client) (fresh server) [] []) transfer) as [t|] eqn:E; [|discriminate]. exists t.
  split; [eapply (played polite politeb); [apply politeb_ok|apply c_new|exact E]|].
  split; [apply client_new|]. split; [apply server_new|]. split; [intros []; vm_compute; auto; discriminate|].
  unfold summary in S. injection S as S1 S2 S3 S4 S5 S6 S7. rewrite S2, S4. vm_compute. auto.
Qed.

(** An endpoint that has sent its greeting and has then been sent the header of a frame of 1 TiB: the hypotheses of [remote_frame] and
    [remote_bad_size] hold. *)
Definition huge : bytes := le64 (2 ^ 40) ++ le64 0x5213dd180a84bc8c.

Example bad_size_example : exists r, reached r /\ state r <> Eof /\ sent_hello r = true /\ outbuf r = [] /\ usable r /\ files_open calm_io /\
  inbuf r = huge /\ step calm_io r = (r, Fail EBADMSG, []).
Proof.
  pose (a := fst (fst (step calm_io client))).
  pose (i1 := mkIo (WSome 24) GAgain [] ENODATA [] FEof None None None None None None None).
  pose (b := fst (fst (step i1 a))).
  pose (i2 := mkIo WAgain (GSome huge) [] ENODATA [] FEof None None None None None None None).
  exists (fst (fst (step i2 b))).
  assert (R1 : reached a).
  { apply (reached_step client calm_io _ Step []); [constructor; apply client_new|vm_compute; reflexivity|constructor|reflexivity]. }
  assert (R2 : reached b).
  { apply (reached_step a i1 _ Step [EWrite (wire (MHello 0xc0)) 24] R1); [vm_compute; reflexivity|constructor; [vm_compute; discriminate|constructor]|reflexivity]. }
  split.
  { apply (reached_step b i2 _ Step [ERead 1048576 huge] R2); [vm_compute; reflexivity| |reflexivity].
    constructor; [split; [discriminate|vm_compute; discriminate]|constructor]. }
  split; [vm_compute; discriminate|]. split; [reflexivity|]. split; [reflexivity|].
  split; [split; [vm_compute; discriminate|split; reflexivity]|]. split; [split; reflexivity|]. split; vm_compute; reflexivity.
Qed.

(** ** What is not true *)

(** [remote_no_refusal_partial] is false without its hypotheses.  The reason of an abort is not checked by the side that sends it: one
    with a line break, or of 16 MiB, is refused as a malformed frame, and the error it was to explain is lost. *)
Definition rude : list (bool * act) := greet ++ [(false, ACall (CAbort 5 [10])); (false, writes 26); (true, takes 100)].

Theorem remote_abort_reason_refuted : ~ (forall r1 r2 t i r l, new r1 -> new r2 -> one_way (local r1) (local r2) -> conversation anything r1 r2 t ->
  failed (one t) = false -> step i (endpoint (one t)) = (r, Fail EBADMSG, l) -> Forall honoured l -> reports i EBADMSG).
Proof.
  intros H.
  destruct (play_all (fun _ _ => true) (mkTalk (fresh client) (fresh server) [] []) rude) as [t|] eqn:E; [|vm_compute in E; discriminate].
  assert (C : conversation anything client server t) by (eapply (played anything (fun _ _ => true)); [unfold anything; auto|apply c_new|exact E]).
  specialize (H client server t calm_io). vm_compute in E. injection E as <-.
  assert (R : reports calm_io EBADMSG).
  { eapply H; [apply client_new|apply server_new|intros []; vm_compute; auto; discriminate|exact C|reflexivity|vm_compute; reflexivity|constructor]. }
  unfold reports, calm_io in R; simpl in R. repeat (destruct R as [R|R]; try discriminate; try contradiction).
Qed.
Print Assumptions remote_abort_reason_refuted.

(** Nor is a farewell before the greeting. *)
Definition early : list (bool * act) := [(false, ACall (CGoodbye calm_io)); (false, writes 16); (true, waits); (true, writes 24); (true, takes 100)].

Theorem remote_early_goodbye_refuted : ~ (forall r1 r2 t i r l, new r1 -> new r2 -> one_way (local r1) (local r2) ->
  conversation (fun r c => match c with CAbort _ _ => False | _ => True end) r1 r2 t ->
  failed (one t) = false -> step i (endpoint (one t)) = (r, Fail EBADMSG, l) -> Forall honoured l -> reports i EBADMSG).
Proof.
  intros H.
  destruct (play_all (fun _ c => match c with CAbort _ _ => false | _ => true end) (mkTalk (fresh client) (fresh server) [] []) early) as [t|] eqn:E; [|vm_compute in E; discriminate].
  assert (C : conversation (fun r c => match c with CAbort _ _ => False | _ => True end) client server t).
  { eapply (played _ (fun _ c => match c with CAbort _ _ => false | _ => true end)); [intros r []; auto; discriminate|apply c_new|exact E]. }
  specialize (H client server t calm_io). vm_compute in E. injection E as <-.
  assert (R : reports calm_io EBADMSG).
  { eapply H; [apply client_new|apply server_new|intros []; vm_compute; auto; discriminate|exact C|reflexivity|vm_compute; reflexivity|constructor]. }
  unfold reports, calm_io in R; simpl in R. repeat (destruct R as [R|R]; try discriminate; try contradiction).
Qed.
Print Assumptions remote_early_goodbye_refuted.

(** Two sides that both provide an index and both want the other's: a side that has sent the end of its own index refuses the other
    one's, because both directions share one mark. *)
Definition peer1 := from_ok (remote_new 0x84 false false false false true).
Lemma peer1_new : new peer1.
Proof. exists 0x84, false, false, false, false, true. reflexivity. Qed.

Definition mutual : list (bool * act) :=
  greet ++ [(true, ACall (CPutEof Index)); (false, ACall (CPutFile Index [1])); (true, writes 16); (false, writes 17); (true, takes 100)].

Theorem remote_mutual_refuted : ~ (forall r1 r2 t i r l, new r1 -> new r2 -> conversation polite r1 r2 t ->
  failed (one t) = false -> step i (endpoint (one t)) = (r, Fail EBADMSG, l) -> Forall honoured l -> reports i EBADMSG).
Proof.
  intros H.
  destruct (play_all politeb (mkTalk (fresh peer1) (fresh peer1) [] []) mutual) as [t|] eqn:E; [|vm_compute in E; discriminate].
  assert (C : conversation polite peer1 peer1 t) by (eapply (played polite politeb); [apply politeb_ok|apply c_new|exact E]).
  specialize (H peer1 peer1 t calm_io). vm_compute in E. injection E as <-.
  assert (R : reports calm_io EBADMSG).
  { eapply H; [apply peer1_new|apply peer1_new|exact C|reflexivity|vm_compute; reflexivity|constructor]. }
  unfold reports, calm_io in R; simpl in R. repeat (destruct R as [R|R]; try discriminate; try contradiction).
Qed.
Print Assumptions remote_mutual_refuted.

(** A successful ca_remote_put_chunk does not mean the chunk will be delivered: what is put after the farewell is dropped, although
    the other side goes on stepping until it has finished. *)
Definition after_goodbye : list (bool * act) :=
  greet ++ [(false, ACall (CGoodbye calm_io)); (false, ACall (CPutFile Index [7])); (false, writes 33); (true, takes 100); (true, waits)].

Theorem remote_after_goodbye_refuted : ~ (forall r1 r2 t, new r1 -> new r2 -> conversation polite r1 r2 t ->
  outbuf (endpoint (two t)) = [] -> two_one t = [] -> failed (one t) = false ->
  (forall i r x l, step i (endpoint (one t)) = (r, x, l) -> is_failure x = true) -> got (one t) = sent (two t)).
Proof.
  intros H.
  destruct (play_all politeb (mkTalk (fresh client) (fresh server) [] []) after_goodbye) as [t|] eqn:E; [|vm_compute in E; discriminate].
  assert (C : conversation polite client server t) by (eapply (played polite politeb); [apply politeb_ok|apply c_new|exact E]).
  specialize (H client server t client_new server_new C). vm_compute in E. injection E as <-.
  assert (Z : [IGoodbye] = [IGoodbye; IFile Index [7]]).
  { apply H; try reflexivity. intros i r x l S. unfold step in S. simpl in S. inversion S. reflexivity. }
  discriminate.
Qed.
Print Assumptions remote_after_goodbye_refuted.

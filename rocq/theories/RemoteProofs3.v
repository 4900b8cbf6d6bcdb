(** What a step and a call send and receive, and the invariant of a conversation. *)
From Coq Require Import List NArith Bool Lia.
From Verif Require Import Base ArchiveBase Remote RemoteSpec RemoteProofs1 RemoteProofs2.
Import ListNotations.
Open Scope N_scope.

Local Opaque le64 rd64.

(** Frames of bytes. *)
Definition clean (m : message) : Prop := framed m /\ bytes_ok (wire m) = true.

Lemma clean_framed M : Forall clean M -> Forall framed M.
Proof. induction 1 as [|m M [H _]]; constructor; auto. Qed.
Lemma clean_bytes M : Forall clean M -> bytes_ok (flat_map wire M) = true.
Proof. induction 1 as [|m M [_ H] _ IH]; simpl; auto. rewrite bytes_ok_app, H. exact IH. Qed.

Lemma bytes_ok_wire m : bytes_ok (body m) = true -> bytes_ok (wire m) = true.
Proof. intros H. unfold wire. rewrite !bytes_ok_app, !bytes_ok_le64, H. reflexivity. Qed.

Lemma bytes_ok_concat ids : Forall is_id ids -> bytes_ok (concat ids) = true.
Proof. induction 1 as [|id ids [_ H] _ IH]; simpl; auto. rewrite bytes_ok_app, H. exact IH. Qed.

(** ** What handling a message leaves alone *)

Lemma queue_ids_effects ids : forall a high x l, queue_ids a ids high = (x, l) ->
  prefix (stored l) (map (fun id => IRequest id high) ids) /\ (x = None -> stored l = map (fun id => IRequest id high) ids) /\
  taken l = [] /\ outgoing l = [] /\ incoming l = [].
Proof.
  induction ids as [|id ids IH]; intros a high x l E; simpl in E.
  - inversion E; subst. simpl. repeat split; auto. exists []. reflexivity.
  - assert (G : forall a', (let '(x, l) := queue_ids a' ids high in (x, EEnqueue id high :: l)) = (x, l) ->
      prefix (stored l) (map (fun id => IRequest id high) (id :: ids)) /\ (x = None -> stored l = map (fun id => IRequest id high) (id :: ids)) /\
      taken l = [] /\ outgoing l = [] /\ incoming l = []).
    { intros a' E'. destruct (queue_ids a' ids high) as [y m] eqn:Q. inversion E'; subst. destruct (IH _ _ _ _ Q) as ((t & P) & N & T & O & J).
      simpl. repeat split; auto.
      - exists t. rewrite P. reflexivity.
      - intros Z. rewrite (N Z). reflexivity. }
    destruct a as [|[e|] a]; [apply (G []); exact E | | apply (G a); exact E].
    inversion E; subst. simpl. repeat split; auto; [|discriminate]. exists (map (fun id => IRequest id high) (id :: ids)). reflexivity.
Qed.

(** The parts of an endpoint handling a message does not touch. *)
Definition aside (r r1 : rem) : Prop :=
  local r1 = local r /\ inbuf r1 = inbuf r /\ outbuf r1 = outbuf r /\ sent_hello r1 = sent_hello r /\ sent_goodbye r1 = sent_goodbye r.

Lemma aside_refl r : aside r r.
Proof. repeat split. Qed.

Lemma aside_file k r f : aside r (set_file k r f).
Proof. destruct k; repeat split. Qed.

Definition calm (l : list effect) : Prop := stored l = [] /\ taken l = [] /\ outgoing l = [] /\ incoming l = [].

Lemma calm_app l l' : calm l -> calm l' -> calm (l ++ l').
Proof.
  intros (A & B & C & D) (A' & B' & C' & D'). unfold calm, stored, taken, outgoing, incoming in *.
  rewrite !flat_map_app, A, B, C, D, A', B', C', D'. auto.
Qed.

Definition still (r r1 : rem) : Prop :=
  aside r r1 /\ state r1 = state r /\ remote r1 = remote r /\ (forall k, f_complete (get_file k r1) = f_complete (get_file k r)).

Lemma file_install_still r k a r1 x l : file_install r k a = (r1, x, l) -> still r r1 /\ calm l.
Proof.
  unfold file_install. intros E.
  assert (R : still r r /\ calm []) by (repeat split).
  destruct (f_complete (get_file k r)) eqn:C; simpl in E; [|inversion E; subst; exact R].
  destruct (f_temp (get_file k r)); simpl in E; [|inversion E; subst; exact R].
  destruct (f_path (get_file k r)); simpl in E; [|inversion E; subst; exact R].
  destruct a; inversion E; subst; [exact R|]. split; [|repeat split].
  split; [apply aside_file|]. destruct k; repeat split; intros []; simpl; auto.
Qed.

Lemma still_trans a b c : still a b -> still b c -> still a c.
Proof.
  intros ((A1 & A2 & A3 & A4 & A5) & A6 & A7 & A8) ((B1 & B2 & B3 & B4 & B5) & B6 & B7 & B8).
  repeat split; try congruence; intros k; rewrite B8; apply A8.
Qed.

Lemma install_both_still i r r1 x l : install_both i r = (r1, x, l) -> still r r1 /\ calm l.
Proof.
  unfold install_both. intros E. destruct (file_install r Index (io_install_index i)) as [[ra xa] la] eqn:F1.
  apply file_install_still in F1. destruct F1 as [S1 C1]. destruct xa; [inversion E; subst; auto|].
  destruct (file_install ra Archive (io_install_archive i)) as [[rb xb] lb] eqn:F2. apply file_install_still in F2. destruct F2 as [S2 C2].
  inversion E; subst. split; [eapply still_trans; eassumption|apply calm_app; assumption].
Qed.

Lemma handle_aside i r m r1 x l : handle i r m = (r1, x, l) ->
  aside r r1 /\ taken l = [] /\ outgoing l = [] /\ incoming l = [].
Proof.
  intros E. destruct m as [fl|k d|k|hi ids|co id d|id| |er re]; simpl in E.
  - apply process_hello_ret in E. destruct E as [(_ & -> & ->)|(_ & -> & ->)]; repeat split.
  - unfold process_file in E. destruct (f_complete _); [inversion E; subst; repeat split|].
    destruct (f_fd _); [destruct (io_fwrite i)|]; inversion E; subst; (split; [|repeat split]); try apply aside_refl; apply aside_file.
  - unfold process_eof in E. destruct (f_complete _); inversion E; subst; (split; [|repeat split]); try apply aside_refl; apply aside_file.
  - destruct (queue_ids (io_enq i) ids hi) as [xx ll] eqn:Q. destruct (queue_ids_effects _ _ _ _ _ Q) as (_ & _ & A1 & A2 & A3).
    destruct xx; inversion E; subst; repeat split; auto.
  - destruct (negb (cached r)); [inversion E; subst; repeat split|]. destruct (io_save i) as [[]|]; inversion E; subst; repeat split.
  - destruct (negb (cached r)); [inversion E; subst; repeat split|]. destruct (io_missing i) as [[]|]; inversion E; subst; repeat split.
  - unfold process_goodbye in E. destruct (install_both i r) as [[ra xa] la] eqn:F. apply install_both_still in F.
    destruct F as ((A & _) & (_ & A1 & A2 & A3)). destruct xa; inversion E; subst; repeat split; auto; apply A.
  - destruct (negb (er =? 0)); inversion E; subst; repeat split.
Qed.

(** ** What handling a message delivers *)

Lemma handle_delivers i r m r1 x l n : expects r m -> legal m -> (forall k, f_buf (get_file k r) = []) -> handle i r m = (r1, x, l) ->
  let r' := if is_failure x then r1 else advance r1 n in
  prefix (delivered (r', x, l)) (items m) /\ (is_failure x = false -> delivered (r', x, l) = items m).
Proof.
  intros X Lm B E. cbv zeta.
  assert (PN : forall t : list item, prefix [] t) by (intros t; exists t; reflexivity).
  assert (PR : forall t : list item, prefix t t) by (intros t; exists []; rewrite app_nil_r; reflexivity).
  destruct m as [fl|k d|k|hi ids|co id d|id| |er re]; simpl in E, X; cbn [items].
  - apply process_hello_ret in E. destruct E as [(-> & -> & ->)|([-> | ->] & -> & ->)]; simpl; split; auto.
  - destruct X as (X1 & X2 & X3). unfold process_file in E. rewrite X3 in E.
    destruct (f_fd (get_file k r)) eqn:FD.
    + destruct (io_fwrite i); inversion E; subst; simpl; [split; [auto|discriminate]|]. rename r1 into r.
      assert (Z : forall r', get_file k r' = get_file k r -> read_file r' k = Err ENOTTY).
      { intros r' G. unfold read_file. rewrite G, FD. destruct (_ && _); reflexivity. }
      destruct k; simpl; unfold ready; rewrite Z by reflexivity; simpl; split; auto.
    + inversion E; subst; clear E. rewrite B. simpl app at 1.
      assert (Z : ready (advance (set_file k r (f_set_buf (get_file k r) d)) n) k = [IFile k d]).
      { unfold ready, read_file.
        assert (G : negb (has (remote r) (push k)) && negb (has (local r) (pull k)) = false).
        { destruct k; simpl in *; rewrite orb_true_iff in X2.
          - change PUSH_INDEX with (2 ^ 10). change PULL_INDEX with (2 ^ 7). rewrite !has_bit. destruct X2 as [-> | ->]; simpl; rewrite ?andb_false_r; reflexivity.
          - change PUSH_ARCHIVE with (2 ^ 12). change PULL_ARCHIVE with (2 ^ 8). rewrite !has_bit. destruct X2 as [-> | ->]; simpl; rewrite ?andb_false_r; reflexivity. }
        assert (ND : len d <> 0) by (destruct Lm as (_ & ND & _); intros Z; apply ND; apply len_zero_nil; exact Z).
        destruct k; simpl in *; rewrite G, FD; apply N.eqb_neq in ND; rewrite ND; reflexivity. }
      destruct k; cbn [is_failure]; unfold delivered; cbn [stored flat_map app announced]; rewrite Z; split; auto.
  - destruct X as (X1 & X2 & X3). unfold process_eof in E. rewrite X3 in E. inversion E; subst. destruct k; simpl; split; auto.
  - destruct (queue_ids (io_enq i) ids hi) as [xx ll] eqn:Q. destruct (queue_ids_effects _ _ _ _ _ Q) as (P & A & _).
    destruct xx; inversion E; subst; simpl; rewrite app_nil_r; split; auto. discriminate.
  - destruct (negb (cached r)); [inversion E; subst; simpl; split; auto; discriminate|].
    destruct (io_save i) as [[]|]; inversion E; subst; simpl; split; auto; discriminate.
  - destruct (negb (cached r)); [inversion E; subst; simpl; split; auto; discriminate|].
    destruct (io_missing i) as [[]|]; inversion E; subst; simpl; split; auto; discriminate.
  - unfold process_goodbye in E. destruct (install_both i r) as [[ra xa] la] eqn:F. apply install_both_still in F.
    destruct F as ((A & _) & (A0 & _)). destruct xa; inversion E; subst; unfold delivered; rewrite A0; simpl; split; auto; discriminate.
  - destruct (negb (er =? 0)); inversion E; subst; simpl; split; auto; discriminate.
Qed.

(** ** A step *)

Lemma opens_quiet l : opens l -> stored l = [] /\ taken l = [] /\ outgoing l = [] /\ incoming l = [].
Proof. induction 1 as [|e l (k & w & ->) _ IH]; simpl; auto. Qed.

Lemma app4 (l1 l2 : list effect) : opens l1 ->
  stored (l1 ++ l2) = stored l2 /\ taken (l1 ++ l2) = taken l2 /\ outgoing (l1 ++ l2) = outgoing l2 /\ incoming (l1 ++ l2) = incoming l2.
Proof.
  intros O. destruct (opens_quiet _ O) as (A & B & C & D). unfold stored, taken, outgoing, incoming in *.
  rewrite !flat_map_app, A, B, C, D. auto.
Qed.

Lemma deqs_maps high l : deqs high l ->
  stored l = [] /\ taken l = map (fun id => IRequest id high) (dequeued l) /\ outgoing l = [] /\ incoming l = [].
Proof.
  induction 1 as [|e l (only & id & ->) _ (A & B & C & D)]; simpl; auto. repeat split; auto. unfold dequeued in *. simpl. rewrite <- B. reflexivity.
Qed.

Lemma fail_announced e r : announced (Fail e) r = [].
Proof. reflexivity. Qed.

(** Whatever [did] describes: what is sent. *)
Lemma did_sends i r r' x l : did i r r' x l -> Forall honoured l -> local r < two64 ->
  exists M, outgoing l ++ outbuf r' = outbuf r ++ flat_map wire M /\ Forall clean M /\ taken l = flat_map items M /\ local r' = local r.
Proof.
  intros D H LL.
  assert (Q : forall r1, resized r r1 -> outbuf r1 = outbuf r /\ local r1 = local r).
  { intros r1 Z. destruct (resize_state _ _ Z) as (_ & ? & _ & ? & _); auto. }
  assert (N : forall r1, outbuf r1 = outbuf r -> local r1 = local r ->
     exists M, outbuf r1 = outbuf r ++ flat_map wire M /\ Forall clean M /\ [] = flat_map items M /\ local r1 = local r).
  { intros r1 Z Z'. exists []. simpl. rewrite app_nil_r. auto. }
  assert (N' : forall r1, resized r r1 -> exists M, outbuf r1 = outbuf r ++ flat_map wire M /\ Forall clean M /\ [] = flat_map items M /\ local r1 = local r)
    by (intros r1 Z; destruct (Q _ Z); auto).
  destruct D; simpl outgoing; simpl taken; simpl app; auto.
  - (* write *) exists []. simpl. rewrite !app_nil_r, takeN_dropN. auto.
  - (* hello *) exists [MHello (local r)]. simpl. rewrite app_nil_r. split; [reflexivity|]. split; [|auto].
    constructor; [|constructor]. split; [split; [reflexivity|exact LL]|]. apply bytes_ok_wire, bytes_ok_le64.
  - (* message *)
    destruct (handle_aside _ _ _ _ _ _ H4) as ((A1 & A2 & A3 & A4 & A5) & B1 & B2 & B3). rewrite B1, B2. simpl.
    destruct (is_failure x); auto.
  - (* request *)
    destruct (deqs_maps _ _ H8) as (_ & T & O & _). rewrite T, O. destruct (Q _ H4) as [Q1 Q2].
    exists [MRequest high (dequeued l)]. cbn [outbuf append_out set_out flat_map items]. rewrite Q1, !app_nil_r. simpl app.
    split; [reflexivity|]. split; [|split; [reflexivity|exact Q2]].
    constructor; [|constructor]. split; [split; [|exact H7]|].
    + cbn [body]. rewrite len_app, len_le64, (len_concat _ H7). unfold BUFFER_SIZE, two64 in *. lia.
    + apply bytes_ok_wire. cbn [body]. rewrite bytes_ok_app, bytes_ok_le64. apply bytes_ok_concat. exact H7.
  - (* file *)
    destruct (Q _ H4) as [Q1 Q2]. exists [MFile k data]. cbn [outbuf append_out set_out flat_map items]. rewrite Q1, !app_nil_r.
    split; [reflexivity|]. split; [|split; [reflexivity|exact Q2]].
    inversion H as [|e l' Hd _]; subst. destruct Hd as (_ & L & Bd).
    constructor; [|constructor]. split; [split; [|exact I]|].
    + cbn [body]. unfold two64. lia.
    + apply bytes_ok_wire. exact Bd.
  - (* eof *)
    destruct (Q _ H4) as [Q1 Q2]. exists [MEof k]. cbn [flat_map items]. rewrite !app_nil_r.
    split; [|split; [|split]].
    + destruct k; simpl; rewrite Q1; reflexivity.
    + constructor; [|constructor]. split; [split; [reflexivity|exact I]|]. destruct k; reflexivity.
    + reflexivity.
    + destruct k; exact Q2.
  - exact (N' _ H2).
Qed.

(** ... and what is received. *)
Lemma did_receives i r r' x l : did i r r' x l -> (forall k, f_buf (get_file k r) = []) -> state r <> Eof ->
  (inbuf r' = inbuf r ++ incoming l /\ delivered (r', x, l) = []) \/
  (exists m, legal m /\ expects r m /\ inbuf r = wire m ++ inbuf r' /\ incoming l = [] /\ delivered (r', x, l) = items m /\ is_failure x = false) \/
  (exists m rest, legal m /\ inbuf r = wire m ++ rest /\ inbuf r' = inbuf r /\ incoming l = [] /\ prefix (delivered (r', x, l)) (items m) /\ is_failure x = true).
Proof.
  intros D B NE.
  assert (Q : forall r1, resized r r1 -> inbuf r1 = inbuf r /\ state r1 = state r).
  { intros r1 Z. destruct (resize_state _ _ Z) as (? & _ & _ & _ & ? & _); auto. }
  assert (Q' : forall r1, resized r r1 -> inbuf r1 = inbuf r ++ []) by (intros r1 Z; rewrite app_nil_r; apply Q; exact Z).
  destruct D; try (left; simpl; split; auto; rewrite ?app_nil_r; auto; fail).
  - left. simpl. rewrite app_nil_r. split; auto. destruct H0 as [-> | ->]; auto. simpl. destruct (state r); auto. contradiction.
  - (* message *)
    right. destruct (handle_aside _ _ _ _ _ _ H3) as ((A1 & A2 & A3 & A4 & A5) & B1 & B2 & B3).
    destruct (handle_delivers _ _ _ _ _ _ (len (wire m)) H2 H1 B H3) as [P1 P2].
    destruct (is_failure x) eqn:F.
    + right. exists m, rest. split; [exact H1|]. split; [exact H0|]. split; [exact A2|]. split; [exact B3|]. split; [exact P1|reflexivity].
    + left. exists m. split; [exact H1|]. split; [exact H2|]. split; [|split; [exact B3|split; [apply P2; reflexivity|reflexivity]]].
      simpl. rewrite A2, H0, dropN_app_exact by reflexivity. reflexivity.
  - (* request *)
    left. destruct (deqs_maps _ _ H7) as (S & _ & _ & J). rewrite J, app_nil_r. unfold delivered. rewrite S. simpl.
    split; [apply Q; auto|]. destruct H9 as [-> | ->]; reflexivity.
  - left. simpl. rewrite app_nil_r. split; [|reflexivity]. destruct k; simpl; apply Q; auto.
  - left. simpl. rewrite app_nil_r. split; [apply Q; auto|]. destruct k; reflexivity.
Qed.

(** ** A call *)

Lemma call_sends c r r' x : call_ok c -> perform c r = (r', x) ->
  exists M, outbuf r' = outbuf r ++ flat_map wire M /\ Forall clean M /\ match x with Ok _ => [put c] | _ => [] end = flat_map items M /\
    inbuf r' = inbuf r /\ local r' = local r.
Proof.
  intros OK E.
  assert (N : forall r2 y, (r2, y) = (r', x) -> outbuf r2 = outbuf r -> inbuf r2 = inbuf r -> local r2 = local r -> (forall u, y <> Ok u) ->
    exists M, outbuf r' = outbuf r ++ flat_map wire M /\ Forall clean M /\ match x with Ok _ => [put c] | _ => [] end = flat_map items M /\
      inbuf r' = inbuf r /\ local r' = local r).
  { intros r2 y Z Z1 Z2 Z3 Z4. inversion Z; subst. exists []. simpl. rewrite app_nil_r. repeat split; auto.
    destruct x; auto. exfalso. eapply Z4; reflexivity. }
  destruct c as [id co d|id|k d|k|i|er msg]; simpl in E, OK.
  - unfold put_chunk in E. destruct OK as [[Li Bi] Bd].
    destruct (len d <? 1); [eapply N; [exact E|..]; auto; discriminate|].
    destruct (CHUNK_SIZE_LIMIT_MAX <? len d); [eapply N; [exact E|..]; auto; discriminate|].
    destruct (_ && _); [eapply N; [exact E|..]; auto; discriminate|].
    destruct (can_put_chunk r) as [[]| | |]; try (eapply N; [exact E|..]; auto; discriminate).
    destruct (P_SIZE_MAX <? 56 + len d) eqn:S; [eapply N; [exact E|..]; auto; discriminate|]. apply N.ltb_ge in S.
    inversion E; subst. exists [MChunk co id d]. cbn [flat_map items]. rewrite !app_nil_r.
    assert (W : wire (MChunk co id d) = le64 (56 + len d) ++ le64 P_CHUNK ++ le64 (if co then 1 else 0) ++ id ++ d).
    { unfold wire. cbn [body]. rewrite !len_app, len_le64, Li. replace (16 + (8 + (32 + len d))) with (56 + len d) by lia. reflexivity. }
    split; [rewrite W; reflexivity|]. split; [|auto].
    constructor; [|constructor]. split; [split; [|split; auto]|].
    + cbn [body]. rewrite !len_app, len_le64, Li. unfold P_SIZE_MAX, two64 in *. lia.
    + apply bytes_ok_wire. cbn [body]. rewrite !bytes_ok_app, bytes_ok_le64, Bi, Bd. reflexivity.
  - unfold put_missing in E. destruct OK as [Li Bi].
    destruct (_ && _); [eapply N; [exact E|..]; auto; discriminate|].
    destruct (can_put_chunk r) as [[]| | |]; try (eapply N; [exact E|..]; auto; discriminate).
    inversion E; subst. exists [MMissing id]. cbn [flat_map items]. rewrite !app_nil_r.
    assert (W : wire (MMissing id) = le64 48 ++ le64 P_MISSING ++ id).
    { unfold wire. cbn [body]. rewrite Li. reflexivity. }
    split; [rewrite W; reflexivity|]. split; [|auto].
    constructor; [|constructor]. split; [split; [|exact I]|].
    + cbn [body]. rewrite Li. reflexivity.
    + apply bytes_ok_wire. exact Bi.
  - unfold put_file in E. destruct (len d =? 0); [eapply N; [exact E|..]; auto; discriminate|].
    destruct (_ && _); [eapply N; [exact E|..]; auto; discriminate|].
    destruct (can_put_file r k) as [[]| | |]; try (eapply N; [exact E|..]; auto; discriminate).
    destruct (P_SIZE_MAX <? 16 + len d) eqn:S; [eapply N; [exact E|..]; auto; discriminate|]. apply N.ltb_ge in S.
    inversion E; subst. exists [MFile k d]. cbn [flat_map items]. rewrite !app_nil_r.
    split; [rewrite wire_file; reflexivity|]. split; [|auto].
    constructor; [|constructor]. split; [split; [|exact I]|].
    + cbn [body]. unfold P_SIZE_MAX, two64 in *. lia.
    + apply bytes_ok_wire. exact OK.
  - unfold put_eof in E.
    destruct (_ && _); [eapply N; [exact E|..]; auto; discriminate|].
    destruct (can_put_file r k) as [[]| | |]; try (eapply N; [exact E|..]; auto; discriminate).
    inversion E; subst. exists [MEof k]. cbn [flat_map items]. rewrite !app_nil_r.
    split; [rewrite wire_eof; destruct k; reflexivity|]. split; [|destruct k; auto].
    constructor; [|constructor]. split; [split; [reflexivity|exact I]|]. destruct k; reflexivity.
  - destruct (goodbye i r) as [[r2 y] l] eqn:G. inversion E; subst. unfold goodbye in G.
    destruct (state r) eqn:S; try (inversion G; subst; eapply N; auto; discriminate);
    (destruct (sent_goodbye r); [inversion G; subst; eapply N; auto; discriminate|];
     destruct (install_both i r) as [[ra xa] la] eqn:F; apply install_both_still in F; destruct F as (((A1 & A2 & A3 & _) & _) & _);
     destruct xa; inversion G; subst;
     [eapply N; auto; discriminate|
      exists [MGoodbye]; cbn [flat_map items]; rewrite !app_nil_r; cbn [append_out outbuf set_sent_goodbye set_out]; rewrite A3; split; [reflexivity|]; split; [|auto];
      constructor; [|constructor]; split; [split; [reflexivity|exact I]|reflexivity]]).
  - unfold abort in E. destruct OK as [Bm Lm].
    destruct (INT32_MAX <=? er) eqn:S; [eapply N; [exact E|..]; auto; discriminate|]. apply N.leb_gt in S.
    destruct (state r) eqn:ST; try (inversion E; subst; eapply N; auto; discriminate);
    (destruct (sent_goodbye r); [inversion E; subst; eapply N; auto; discriminate|];
     inversion E; subst; exists [MAbort er msg]; cbn [flat_map items]; rewrite !app_nil_r; split;
     [unfold wire; cbn [body]; rewrite !len_app, len_le64; change (len [0]) with 1;
      replace (16 + (8 + (len msg + 1))) with (24 + len msg + 1) by lia; reflexivity|]; split; [|auto];
     constructor; [|constructor]; change (2 ^ 63) with 9223372036854775808 in Lm; split;
     [split; [cbn [body]; rewrite !len_app, len_le64; change (len [0]) with 1; unfold two64; lia|unfold two64, INT32_MAX in *; lia]|];
     apply bytes_ok_wire; cbn [body]; rewrite !bytes_ok_app, bytes_ok_le64, Bm; reflexivity).
Qed.

(** ** The invariant of one direction of a conversation *)

Record dir (a b : side) (pipe : bytes) (S R : list message) : Prop := {
  v_local : local (endpoint a) < two64;
  v_clean : Forall clean S;
  v_sent : sent a = flat_map items S;
  v_legal : Forall legal R;
  v_stream : flat_map wire R ++ inbuf (endpoint b) ++ pipe ++ outbuf (endpoint a) = flat_map wire S;
  v_got : exists part, got b = flat_map items R ++ part /\
    (part <> [] -> failed b = true /\ exists m rest, legal m /\ inbuf (endpoint b) = wire m ++ rest /\ prefix part (items m)) }.

Lemma kept_same r r1 : kept r r1 -> inbuf r1 = inbuf r /\ outbuf r1 = outbuf r /\ local r1 = local r.
Proof. intros []. auto. Qed.

Lemma step_eof i r : state r = Eof -> step i r = (r, Fail EPIPE, []).
Proof. intros H. unfold step. rewrite H. reflexivity. Qed.

Lemma eof_dec (s : rstate) : s = Eof \/ s <> Eof.
Proof. destruct s; [right; discriminate|right; discriminate|left; reflexivity]. Qed.

Lemma step_sends i r r' x l : bytes_ok (inbuf r) = true -> step i r = (r', x, l) -> Forall honoured l -> local r < two64 ->
  exists M, outgoing l ++ outbuf r' = outbuf r ++ flat_map wire M /\ Forall clean M /\ taken l = flat_map items M /\ local r' = local r.
Proof.
  intros B E H LL. destruct (eof_dec (state r)) as [Z|NE].
  - rewrite step_eof in E by exact Z. inversion E; subst. exists []. simpl. rewrite app_nil_r. auto.
  - destruct (step_did i r r' x l NE B E H) as (r1 & l1 & l2 & K & O & -> & D).
    destruct (kept_same _ _ K) as (K1 & K2 & K3). destruct (app4 l1 l2 O) as (_ & A2 & A3 & _).
    rewrite A2, A3. destruct D as [(e & -> & -> & -> & _)|D].
    + exists []. simpl. rewrite app_nil_r. auto.
    + apply Forall_app in H. destruct (did_sends _ _ _ _ _ D (proj2 H)) as (M & D1 & D2 & D3 & D4); [congruence|].
      exists M. rewrite K2 in D1. repeat split; auto; congruence.
Qed.

Lemma step_receives i r r' x l : bytes_ok (inbuf r) = true -> step i r = (r', x, l) -> Forall honoured l ->
  (inbuf r' = inbuf r ++ incoming l /\ delivered (r', x, l) = []) \/
  (exists m, legal m /\ inbuf r = wire m ++ inbuf r' /\ incoming l = [] /\ delivered (r', x, l) = items m /\ is_failure x = false) \/
  (exists m rest, legal m /\ inbuf r = wire m ++ rest /\ inbuf r' = inbuf r /\ incoming l = [] /\ prefix (delivered (r', x, l)) (items m) /\ is_failure x = true).
Proof.
  intros B E H. destruct (eof_dec (state r)) as [Z|NE].
  - rewrite step_eof in E by exact Z. inversion E; subst. left. simpl. rewrite app_nil_r. auto.
  - destruct (step_did i r r' x l NE B E H) as (r1 & l1 & l2 & K & O & -> & D).
    destruct (kept_same _ _ K) as (K1 & K2 & K3). destruct (app4 l1 l2 O) as (A1 & _ & _ & A4).
    assert (DE : delivered (r', x, l1 ++ l2) = delivered (r', x, l2)) by (unfold delivered; rewrite A1; reflexivity).
    rewrite DE, A4. destruct D as [(e & -> & -> & -> & _)|D].
    + left. simpl. rewrite app_nil_r. auto.
    + rewrite <- K1. destruct (did_receives _ _ _ _ _ D (k_buf _ _ K)) as [C|[(m & C1 & C2 & C3)|C]].
      { rewrite (k_state _ _ K). exact NE. }
      * left; exact C.
      * right; left. exists m. auto.
      * right; right. exact C.
Qed.

Lemma dir_bytes a b pipe S R : dir a b pipe S R -> bytes_ok (inbuf (endpoint b)) = true /\ bytes_ok pipe = true.
Proof.
  intros []. apply clean_bytes in v_clean0. rewrite <- v_stream0, !bytes_ok_app, !andb_true_iff in v_clean0. tauto.
Qed.

Lemma dir_sender fair a b from to a' from' to' S R : dir a b to S R -> bytes_ok (inbuf (endpoint a)) = true -> acts fair a from to a' from' to' ->
  exists S', dir a' b to' (S ++ S') R.
Proof.
  intros D B A. inversion A; subst.
  - destruct (step_sends _ _ _ _ _ B H0 H1 (v_local _ _ _ _ _ D)) as (M & M1 & M2 & M3 & M4). destruct D. exists M. constructor; simpl; auto.
    + rewrite M4. exact v_local0.
    + apply Forall_app; auto.
    + rewrite v_sent0, M3, flat_map_app. reflexivity.
    + rewrite flat_map_app, <- v_stream0, <- !app_assoc, M1. reflexivity.
  - destruct (call_sends _ _ _ _ H H1) as (M & M1 & M2 & M3 & M4 & M5). destruct D. exists M. constructor; simpl; auto.
    + rewrite M5. exact v_local0.
    + apply Forall_app; auto.
    + rewrite v_sent0, M3, flat_map_app. reflexivity.
    + rewrite flat_map_app, <- v_stream0, M1, <- !app_assoc. reflexivity.
Qed.

Lemma part_nil {A} (l : list A) : {l = []} + {l <> []}.
Proof. destruct l; [left; reflexivity|right; discriminate]. Qed.

Lemma dir_receiver fair a b from to b' from' to' S R : dir a b from S R -> acts fair b from to b' from' to' ->
  exists R', dir a b' from' S (R ++ R').
Proof.
  intros D A. destruct (dir_bytes _ _ _ _ _ D) as [B _]. inversion A; subst.
  - assert (G : got b = flat_map items R).
    { destruct D. destruct v_got0 as (part & G & P). destruct (part_nil part) as [-> |NN]; [rewrite app_nil_r in G; exact G|].
      destruct (P NN) as [F _]. congruence. }
    destruct (step_receives _ _ _ _ _ B H0 H1) as [(C1 & C2)|[(m & C1 & C2 & C3 & C4 & C5)|(m & rest & C1 & C2 & C3 & C4 & C5 & C6)]]; destruct D.
    + exists []. rewrite app_nil_r. constructor; simpl; auto.
      * rewrite C1, <- v_stream0, <- !app_assoc. reflexivity.
      * exists []. unfold delivered in C2. rewrite C2, app_nil_r. split; [rewrite app_nil_r; exact G|]. intros Z. exfalso. apply Z. reflexivity.
    + exists [m]. constructor; simpl; auto.
      * apply Forall_app; auto.
      * rewrite flat_map_app. simpl. rewrite app_nil_r, <- v_stream0, C2, C3. simpl. rewrite <- !app_assoc. reflexivity.
      * exists []. unfold delivered in C4. rewrite C4, flat_map_app. simpl. rewrite !app_nil_r. split; [rewrite G; reflexivity|]. intros Z. exfalso. apply Z. reflexivity.
    + exists []. rewrite app_nil_r. constructor; simpl; auto.
      * rewrite C3, <- v_stream0, C4. reflexivity.
      * exists (delivered (r, x, l)). split; [rewrite G; reflexivity|]. intros _. split; [exact C6|]. exists m, rest. rewrite C3. auto.
  - destruct (call_sends _ _ _ _ H H1) as (M & M1 & M2 & M3 & M4 & M5). destruct D. exists []. rewrite app_nil_r. constructor; simpl; auto; rewrite M4; auto.
Qed.

(** Both directions. *)
Lemma new_state r : new r -> local r < two64 /\ inbuf r = [] /\ outbuf r = [] /\ state r = Hello /\ sent_hello r = false /\ sent_goodbye r = false /\
  local r <> 0 /\ local r <> UINT64_MAX /\ N.ldiff (local r) FLAGS_MAX = 0 /\ frame_size r = 0 /\ forall k, f_complete (get_file k r) = false.
Proof.
  intros (flags & ip & ifd & ap & afd & c & E). unfold remote_new in E.
  destruct (flags =? UINT64_MAX) eqn:E1; [discriminate|]. destruct (negb (N.ldiff flags FLAGS_MAX =? 0)) eqn:E2; [discriminate|].
  destruct (flags =? 0) eqn:E3; [discriminate|]. inversion E; subst. simpl.
  apply negb_false_iff, N.eqb_eq in E2. apply N.eqb_neq in E1, E3.
  assert (L : flags < two64).
  { assert (F : flags = N.land flags FLAGS_MAX) by (rewrite <- (N.lor_ldiff_and flags FLAGS_MAX) at 1; rewrite E2; reflexivity).
    rewrite F. change FLAGS_MAX with (N.ones 13). rewrite N.land_ones.
    apply N.lt_trans with (2 ^ 13); [apply N.mod_lt; discriminate|reflexivity]. }
  repeat split; auto. intros []; reflexivity.
Qed.

Definition both (t : talk) (S1 R1 S2 R2 : list message) : Prop :=
  dir (one t) (two t) (one_two t) S1 R1 /\ dir (two t) (one t) (two_one t) S2 R2.

Lemma talking fair r1 r2 t : new r1 -> new r2 -> conversation fair r1 r2 t -> exists S1 R1 S2 R2, both t S1 R1 S2 R2.
Proof.
  intros N1 N2 C. destruct (new_state _ N1) as (A1 & A2 & A3 & _). destruct (new_state _ N2) as (B1 & B2 & B3 & _).
  induction C as [|a b p q a' p' q' C (S1 & R1 & S2 & R2 & D1 & D2) A|a b p q b' p' q' C (S1 & R1 & S2 & R2 & D1 & D2) A]; simpl in *.
  - exists [], [], [], []. split; constructor; simpl; auto; rewrite ?A2, ?A3, ?B2, ?B3; auto; exists []; split; auto; intros Z; exfalso; apply Z; reflexivity.
  - destruct (dir_sender _ _ _ _ _ _ _ _ _ _ D1 (proj1 (dir_bytes _ _ _ _ _ D2)) A) as (S' & D1').
    destruct (dir_receiver _ _ _ _ _ _ _ _ _ _ D2 A) as (R' & D2'). exists (S1 ++ S'), R1, S2, (R2 ++ R'). split; auto.
  - destruct (dir_sender _ _ _ _ _ _ _ _ _ _ D2 (proj1 (dir_bytes _ _ _ _ _ D1)) A) as (S' & D2').
    destruct (dir_receiver _ _ _ _ _ _ _ _ _ _ D1 A) as (R' & D1'). exists S1, (R1 ++ R'), (S2 ++ S'), R2. split; auto.
Qed.

(** What follows: what is received is what was sent, up to what is still under way. *)
Lemma dir_prefix a b pipe S R : dir a b pipe S R ->
  prefix (got b) (sent a) /\
  (inbuf (endpoint b) = [] -> pipe = [] -> outbuf (endpoint a) = [] -> got b = sent a).
Proof.
  intros []. destruct (stream_prefix R S _ (Forall_impl _ legal_framed v_legal0) (clean_framed _ v_clean0) v_stream0) as (T & -> & E).
  destruct v_got0 as (part & G & P). rewrite v_sent0, G, flat_map_app.
  destruct (part_nil part) as [-> |NN].
  - split; [exists (flat_map items T); rewrite app_nil_r; reflexivity|].
    intros Z1 Z2 Z3. rewrite Z1, Z2, Z3 in E. simpl in E.
    destruct T as [|m T]; [reflexivity|]. simpl in E. symmetry in E. apply wire_not_nil in E. contradiction.
  - destruct (P NN) as (_ & m & rest & Lm & I & (t & Pt)).
    rewrite I in E. destruct T as [|m' T]; simpl in E; rewrite <- ?app_assoc in E; [apply wire_not_nil in E; contradiction|].
    apply Forall_app in v_clean0. destruct v_clean0 as [_ CT]. inversion CT as [|? ? [Cm _] _]; subst.
    apply wire_unique in E; [|apply legal_framed; exact Lm|exact Cm]. destruct E as [<- E].
    split.
    + exists (t ++ flat_map items T). simpl. rewrite Pt, <- !app_assoc. reflexivity.
    + intros Z. rewrite Z in I. symmetry in I. apply wire_not_nil in I. contradiction.
Qed.

(** Endpoints that keep to the rules do not refuse each other's messages. *)
From Coq Require Import List NArith Bool Lia.
From Verif Require Import Base ArchiveBase Remote RemoteSpec RemoteProofs1 RemoteProofs2 RemoteProofs3.
Import ListNotations.
Open Scope N_scope.

Local Opaque le64 rd64.

(** ** The order of the messages one side sends *)

Definition is_end (m : message) : Prop := match m with MAbort _ _ | MGoodbye => True | _ => False end.

(** May a side with the options [mine] send [m] to a side with the options [theirs], after [P]? *)
Definition may_send (mine theirs : N) (P : list message) (m : message) : Prop :=
  match m with
  | MHello f => P = [] /\ f = mine
  | MAbort _ _ => True
  | MGoodbye => P <> []
  | MFile k _ | MEof k => P <> [] /\ sends k mine theirs = true /\ ~ In (MEof k) P
  | MRequest _ _ => P <> [] /\ sends_chunks theirs mine = true
  | MChunk _ _ _ | MMissing _ => P <> [] /\ sends_chunks mine theirs = true
  end.

Definition ordered (mine theirs : N) (S : list message) : Prop :=
  forall P m Q, S = P ++ m :: Q -> (forall e, In e P -> ~ is_end e) -> legal m /\ may_send mine theirs P m.

Lemma ordered_nil mine theirs : ordered mine theirs [].
Proof. intros P m Q E. destruct P; discriminate. Qed.

Lemma ordered_snoc mine theirs S m : ordered mine theirs S -> legal m -> ((forall e, In e S -> ~ is_end e) -> may_send mine theirs S m) ->
  ordered mine theirs (S ++ [m]).
Proof.
  intros O L H P m' Q E NE. destruct (@exists_last _ (m' :: Q)) as (Q' & z & EQ); [discriminate|].
  rewrite EQ, app_assoc in E. apply app_inj_tail in E. destruct E as [E <-].
  destruct Q' as [|q Q'].
  - simpl in EQ. inversion EQ; subst. rewrite app_nil_r in *. split; [exact L|]. apply H. exact NE.
  - simpl in EQ. inversion EQ; subst. eapply O; eauto.
Qed.

(** ** An endpoint and what it has sent and received *)

Record role (r : rem) (mine theirs : N) (S R : list message) : Prop := {
  o_local : local r = mine;
  o_flags : 0 < mine < 2 ^ 64 - 1;
  o_ordered : ordered mine theirs S;
  o_fresh : sent_hello r = false -> S = [] \/ exists e, In e S /\ is_end e;
  o_greeted : sent_hello r = true -> S <> [];
  o_hello : state r = Hello -> R = [];
  o_running : state r = Running -> R <> [] /\ remote r = theirs /\ sent_hello r = true /\ ~ In MGoodbye R;
  o_pushing : state r = Running -> N.testbit theirs 11 = true -> N.testbit theirs 9 = true;
  o_eof : state r = Eof -> remote r = theirs;
  o_abort : forall e w, ~ In (MAbort e w) R;
  o_sending : forall k, sends k mine theirs = true -> f_complete (get_file k r) = false -> ~ In (MEof k) S;
  o_receiving : forall k, sends k mine theirs = false -> f_complete (get_file k r) = true -> In (MEof k) R }.

Lemma may_expect r mine theirs S R m : role r mine theirs S R -> one_way theirs mine -> state r <> Eof ->
  may_send theirs mine R m -> expects r m.
Proof.
  intros O W NE M. destruct O.
  assert (RUN : R <> [] -> state r = Running).
  { intros Z. destruct (state r); auto; [exfalso; apply Z; auto|contradiction]. }
  assert (CF : forall k, sends k theirs mine = true -> ~ In (MEof k) R -> f_complete (get_file k r) = false).
  { intros k Z1 Z2. destruct (f_complete (get_file k r)) eqn:F; auto. exfalso. apply Z2. apply o_receiving0; auto. }
  destruct m as [fl|k d|k|hi ids|co id d|id| |er re]; simpl in M |- *.
  - destruct M as [-> _]. destruct (state r) eqn:ST; auto; [|contradiction]. destruct (o_running0 eq_refl) as [Z _]. contradiction.
  - destruct M as (M1 & M2 & M3). specialize (RUN M1). destruct (o_running0 RUN) as (_ & Z & _). rewrite Z, o_local0. auto.
  - destruct M as (M1 & M2 & M3). specialize (RUN M1). destruct (o_running0 RUN) as (_ & Z & _). rewrite Z, o_local0. auto.
  - destruct M as (M1 & M2). specialize (RUN M1). destruct (o_running0 RUN) as (_ & Z & _). rewrite Z, o_local0. auto.
  - destruct M as (M1 & M2). specialize (RUN M1). destruct (o_running0 RUN) as (_ & Z & _). rewrite Z, o_local0. auto.
  - destruct M as (M1 & M2). specialize (RUN M1). destruct (o_running0 RUN) as (_ & Z & _). rewrite Z, o_local0. auto.
  - auto.
  - exact NE.
Qed.

(** Only these fields matter. *)
Definition alike (r r1 : rem) : Prop :=
  local r1 = local r /\ remote r1 = remote r /\ state r1 = state r /\ sent_hello r1 = sent_hello r /\
  forall k, f_complete (get_file k r1) = f_complete (get_file k r).

Lemma role_alike r r1 mine theirs S R : alike r r1 -> role r mine theirs S R -> role r1 mine theirs S R.
Proof.
  intros (A1 & A2 & A3 & A4 & A5) []. constructor; rewrite ?A1, ?A2, ?A3, ?A4; auto; intros k; rewrite A5; auto.
Qed.

Lemma alike_refl r : alike r r.
Proof. repeat split. Qed.

Lemma resized_alike r r1 : resized r r1 -> alike r r1.
Proof. intros H. destruct (resize_state _ _ H) as (A & B & C & D & E & F & G). repeat split; auto. intros k. rewrite G. reflexivity. Qed.

Lemma kept_alike r r1 : kept r r1 -> alike r r1.
Proof. intros []. repeat split; auto. Qed.

Lemma alike_trans a b c : alike a b -> alike b c -> alike a c.
Proof. intros (A1 & A2 & A3 & A4 & A5) (B1 & B2 & B3 & B4 & B5). repeat split; try congruence; intros k; rewrite B5; apply A5. Qed.

(** Sending one more message. *)
Lemma role_send r r1 mine theirs S R m : role r mine theirs S R -> alike r r1 -> legal m ->
  ((forall e, In e S -> ~ is_end e) -> may_send mine theirs S m) -> (forall k, m <> MEof k) ->
  (sent_hello r = false -> is_end m) ->
  role r1 mine theirs (S ++ [m]) R.
Proof.
  intros O A L M NE HE. apply (role_alike r); [exact A|]. clear A. destruct O. constructor; auto.
  - apply ordered_snoc; auto.
  - intros Z. right. exists m. split; [apply in_or_app; right; left; reflexivity|auto].
  - intros _ Z. destruct S; discriminate.
  - intros k Z1 Z2 Z3. apply in_app_or in Z3. destruct Z3 as [Z3|[Z3|[]]]; [eapply o_sending0; eauto|]. eapply NE; eauto.
Qed.

Lemma role_send_eof r r1 mine theirs S R k : role r mine theirs S R ->
  local r1 = local r -> remote r1 = remote r -> state r1 = state r -> sent_hello r1 = sent_hello r ->
  f_complete (get_file k r1) = true -> (forall k', k' <> k -> f_complete (get_file k' r1) = f_complete (get_file k' r)) ->
  state r = Running -> sends k mine theirs = true -> f_complete (get_file k r) = false ->
  role r1 mine theirs (S ++ [MEof k]) R.
Proof.
  intros O A1 A2 A3 A4 A5 A6 RUN SE CF. destruct O. destruct (o_running0 RUN) as (NR & RT & SH & NG).
  constructor; rewrite ?A1, ?A2, ?A3, ?A4; auto.
  - apply ordered_snoc; auto.
    + split; [change (16 + 0 <= 16777216); lia|exact I].
    + intros _. simpl. split; [apply o_greeted0; exact SH|]. split; [exact SE|]. apply o_sending0; auto.
  - intros Z. congruence.
  - intros _ Z. destruct S; discriminate.
  - intros k' Z1 Z2 Z3.
    assert (KK : k' <> k) by (intros ->; congruence).
    rewrite (A6 _ KK) in Z2. apply in_app_or in Z3. destruct Z3 as [Z3|[Z3|[]]]; [eapply o_sending0; eauto|]. congruence.
  - intros k' Z1 Z2. assert (KK : k' <> k) by (intros ->; congruence). rewrite (A6 _ KK) in Z2. auto.
Qed.

Lemma hello_pushing r fl r1 x l : process_hello r fl = (r1, x, l) -> is_failure x = false -> N.testbit fl 11 = true -> N.testbit fl 9 = true.
Proof.
  intros E F T. unfold process_hello in E. destruct (negb _); [inversion E; subst; discriminate|].
  destruct (has fl PUSH_INDEX_CHUNKS && _) eqn:C; [inversion E; subst; discriminate|].
  change PUSH_INDEX_CHUNKS with (2 ^ 11) in C. rewrite has_bit, T, andb_true_l in C. apply negb_false_iff, N.eqb_eq in C.
  assert (Z : N.testbit (N.land fl (N.lor PUSH_INDEX PUSH_CHUNKS)) 9 = true) by (rewrite C; reflexivity).
  rewrite N.land_spec in Z. apply andb_true_iff in Z. apply Z.
Qed.

(** Handling a message. *)
Lemma handle_role i r mine theirs S R m r1 x l n : role r mine theirs S R -> sent_hello r = true -> expects r m ->
  may_send theirs mine R m -> one_way theirs mine -> handle i r m = (r1, x, l) ->
  role (if is_failure x then r1 else advance r1 n) mine theirs S (if is_failure x then R else R ++ [m]).
Proof.
  intros O SH X M W E.
  assert (AA : forall r2, alike r r2 -> role r2 mine theirs S R) by (intros; eapply role_alike; eauto).
  assert (AM : forall r2, alike r r2 -> (forall e w, m <> MAbort e w) -> m <> MGoodbye -> state r = Running -> role r2 mine theirs S (R ++ [m])).
  { intros r2 A NA NG RUN. apply (role_alike r); [exact A|]. destruct O. constructor; auto.
    - intros; congruence.
    - intros _. destruct (o_running0 RUN) as (Z1 & Z2 & Z3 & Z4). repeat split; auto.
      + intros Z. destruct R; discriminate.
      + intros Z. apply in_app_or in Z. destruct Z as [Z|[Z|[]]]; auto.
    - intros e w Z. apply in_app_or in Z. destruct Z as [Z|[Z|[]]]; [eapply o_abort0; eauto|]. eapply NA; eauto.
    - intros k Z1 Z2. apply in_or_app. left. auto. }
  assert (AL : forall r2, alike r r2 -> alike r (advance r2 n)).
  { intros r2 (B1 & B2 & B3 & B4 & B5). unfold advance. repeat split; auto; intros []; simpl; auto; apply (B5 Index) || apply (B5 Archive). }
  destruct m as [fl|k d|k|hi ids|co id d|id| |er re]; simpl in E, X, M.
  - (* hello *)
    pose proof (hello_pushing _ _ _ _ _ E) as HP.
    apply process_hello_ret in E. destruct E as [(-> & -> & ->)|([-> | ->] & -> & ->)]; simpl; try (apply AA; apply alike_refl).
    destruct M as [-> ->]. destruct O. constructor; simpl; auto.
    + discriminate.
    + intros _. repeat split; auto; [discriminate|]. intros [Z|[]]; discriminate.
    + intros e w [Z|[]]; discriminate.
    + intros k Z1 Z2. simpl. right. specialize (o_receiving0 k Z1). assert (In (MEof k) (@nil message)) by (apply o_receiving0; destruct k; exact Z2). contradiction.
  - (* file *)
    destruct X as (X1 & X2 & X3). unfold process_file in E. rewrite X3 in E.
    destruct (f_fd _); [destruct (io_fwrite i)|].
    + inversion E; subst. simpl. apply AA, alike_refl.
    + inversion E; subst. destruct k; simpl; apply AM; try discriminate; auto; apply AL, alike_refl.
    + inversion E; subst. destruct k; simpl; apply AM; try discriminate; auto; apply AL; repeat split; auto; intros []; reflexivity.
  - (* end of file *)
    destruct X as (X1 & X2 & X3). unfold process_eof in E. rewrite X3 in E. inversion E; subst.
    assert (NS : sends k (local r) theirs = false).
    { destruct O. destruct (o_running0 X1) as (_ & Z & _). rewrite Z, o_local0 in X2. apply W in X2. rewrite o_local0. exact X2. }
    assert (R' : role r mine theirs S (R ++ [MEof k])) by (apply AM; try discriminate; auto; apply alike_refl).
    assert (G : role (advance (set_file k r (f_set_complete (get_file k r))) n) mine theirs S (R ++ [MEof k])).
    { destruct R'. constructor; try (destruct k; simpl; auto; fail).
      - intros k' Z1 Z2. assert (KK : k' <> k) by (intros ->; rewrite o_local0 in NS; congruence).
        apply o_sending0; auto. destruct k, k'; simpl in *; auto; contradiction.
      - intros k' Z1 Z2. destruct k, k'; simpl in Z2; try (apply o_receiving0; simpl; auto; fail); apply in_or_app; right; left; reflexivity. }
    destruct k; exact G.
  - destruct X as (X1 & X2). destruct (queue_ids (io_enq i) ids hi) as [[e|] ll]; inversion E; subst; simpl; [apply AA, alike_refl|].
    apply AM; try discriminate; auto. apply AL, alike_refl.
  - destruct X as (X1 & X2). destruct (negb (cached r)); [inversion E; subst; simpl; apply AA, alike_refl|].
    assert (L1 : alike r (set_last r id)) by (repeat split; intros []; reflexivity).
    assert (G : role (advance (set_last r id) n) mine theirs S (R ++ [MChunk co id d])) by (apply AM; try discriminate; auto).
    destruct (io_save i) as [[]|]; inversion E; subst; simpl; try (apply AA; exact L1); exact G.
  - destruct X as (X1 & X2). destruct (negb (cached r)); [inversion E; subst; simpl; apply AA, alike_refl|].
    assert (G : role (advance r n) mine theirs S (R ++ [MMissing id])) by (apply AM; try discriminate; auto; apply AL, alike_refl).
    destruct (io_missing i) as [[]|]; inversion E; subst; simpl; try (apply AA, alike_refl); exact G.
  - (* goodbye *)
    unfold process_goodbye in E. destruct (install_both i r) as [[ra xa] la] eqn:F. apply install_both_still in F.
    destruct F as (((A1 & _ & _ & A2 & _) & A3 & A4 & A5) & _).
    assert (A : alike r ra) by (repeat split; auto).
    destruct xa; inversion E; subst; simpl; [apply AA; exact A|].
    pose proof (AA _ A) as O'. clear O. destruct O'. rewrite A3 in *. destruct (o_running0 X) as (Z1 & Z2 & Z3 & Z4).
    constructor; simpl; auto; try discriminate.
    + intros e w Z. apply in_app_or in Z. destruct Z as [Z|[Z|[]]]; [eapply o_abort0; eauto|discriminate].
    + intros k Y1 Y2. apply in_or_app. left. apply (o_receiving0 k Y1). destruct k; exact Y2.
  - destruct (negb (er =? 0)); inversion E; subst; simpl; apply AA, alike_refl.
Qed.

Lemma len_nil_bound : forall k, 16 + len (body (MEof k)) <= 16777216.
Proof. intros k. change (16 + 0 <= 16777216). lia. Qed.

(** A step. *)
Lemma role_did i r r' x l mine theirs S R : role r mine theirs S R -> one_way theirs mine -> did i r r' x l -> Forall honoured l ->
  state r <> Eof -> (forall m rest, inbuf r = wire m ++ rest -> legal m -> may_send theirs mine R m) ->
  exists M Q, outgoing l ++ outbuf r' = outbuf r ++ flat_map wire M /\ Forall framed M /\
    inbuf r ++ incoming l = flat_map wire Q ++ inbuf r' /\ Forall framed Q /\ role r' mine theirs (S ++ M) (R ++ Q).
Proof.
  intros O W D H NE MS.
  assert (NONE : forall r1, alike r r1 -> outbuf r1 = outbuf r -> inbuf r1 = inbuf r ->
    exists M Q, outgoing [] ++ outbuf r1 = outbuf r ++ flat_map wire M /\ Forall framed M /\
      inbuf r ++ incoming [] = flat_map wire Q ++ inbuf r1 /\ Forall framed Q /\ role r1 mine theirs (S ++ M) (R ++ Q)).
  { intros r1 A B C. exists [], []. simpl. rewrite !app_nil_r. assert (role r1 mine theirs S R) by (eapply role_alike; eauto). repeat apply conj; auto. }
  assert (RS : forall r1, resized r r1 -> alike r r1 /\ outbuf r1 = outbuf r /\ inbuf r1 = inbuf r).
  { intros r1 Z. split; [apply resized_alike; exact Z|]. destruct Z as [-> |(n & -> & _)]; auto. }
  assert (ONE : forall r1 m, role r1 mine theirs (S ++ [m]) R -> legal m -> outbuf r1 = outbuf r ++ wire m -> inbuf r1 = inbuf r -> forall l, outgoing l = [] -> incoming l = [] ->
    exists M Q, outgoing l ++ outbuf r1 = outbuf r ++ flat_map wire M /\ Forall framed M /\
      inbuf r ++ incoming l = flat_map wire Q ++ inbuf r1 /\ Forall framed Q /\ role r1 mine theirs (S ++ M) (R ++ Q)).
  { intros r1 m Z1 Z2 Z3 Z4 l0 Z5 Z6. exists [m], []. rewrite Z5, Z6. simpl. rewrite !app_nil_r, Z3, Z4. repeat apply conj; auto. constructor; auto. apply legal_framed; exact Z2. }
  destruct D as [n x H1 H2|e H1 HW|H1|m rest r1 x l SH I L X E|H1 H2 H3|r1 hi x l H1 H2 H3 H4 H5 H6 H7 H8 H9 H10 H11|r1 H0 H1|r1 k d H1 H2 H3 H4 H5 H6 H7
    |r1 k H1 H2 H3 H4 H5 H6 H7|r1 k H1 H2 H3 H4 H5 H6 H7|r1 e H0 H1 H2|r1 d H1 H2 H3 H4|r1 e H0 H1 H2|r1 H1 H2 H3 H4 H5].
  - (* write *)
    exists [], []. simpl. rewrite !app_nil_r, takeN_dropN. repeat apply conj; auto. apply (role_alike r); auto. repeat split; intros []; reflexivity.
  - apply NONE; auto using alike_refl.
  - (* hello *)
    assert (LM : legal (MHello (local r))).
    { destruct O. rewrite o_local0. split; [simpl; rewrite len_le64; lia|]. exact o_flags0. }
    apply (ONE _ (MHello (local r))); auto.
    destruct O. constructor; auto.
    + apply ordered_snoc; auto. intros Z. destruct (o_fresh0 H1) as [-> |(e & Y1 & Y2)]; [|exfalso; eapply Z; eauto]. simpl. rewrite o_local0. auto.
    + discriminate.
    + intros _ Z. destruct S; discriminate.
    + intros Z. destruct (o_running0 Z) as (_ & _ & Y & _). congruence.
    + intros k Z1 Z2 Z3. apply in_app_or in Z3. destruct Z3 as [Z3|[Z3|[]]]; [|discriminate]. revert Z3. apply o_sending0; auto; destruct k; exact Z2.
  - (* a message *)
    pose proof (MS _ _ I L) as MM. pose proof (handle_role i r mine theirs S R m r1 x l (len (wire m)) O SH X MM W E) as G.
    destruct (handle_aside _ _ _ _ _ _ E) as ((A1 & A2 & A3 & _) & _ & A4 & A5). rewrite A4, A5, app_nil_r.
    destruct (is_failure x).
    + exists [], []. simpl. rewrite !app_nil_r. repeat apply conj; auto; congruence.
    + exists [], [m]. simpl. rewrite !app_nil_r. repeat apply conj; auto.
      * rewrite A2, I, dropN_app_exact by reflexivity. reflexivity.
      * constructor; auto. apply legal_framed; exact L.
  - apply NONE; auto using alike_refl.
  - (* request *)
    destruct (RS _ H5) as (Z1 & Z2 & Z3). destruct (deqs_maps _ _ H9) as (Y1 & Y2 & Y3 & Y4).
    assert (LM : legal (MRequest hi (dequeued l))).
    { split; [|auto]. simpl. rewrite len_app, len_le64, len_concat by exact H8. change BUFFER_SIZE with 65536 in H10. clear -H10. lia. }
    apply (ONE _ (MRequest hi (dequeued l))); auto; try (simpl; rewrite Z2; reflexivity).
    apply (role_send r); auto; try discriminate.
    + intros _. simpl. destruct O. destruct (o_running0 H3) as (_ & T & _ & _). split; [apply o_greeted0; exact H1|].
      rewrite T, o_local0 in H4. unfold sends_chunks. apply orb_true_iff in H4. destruct H4 as [H4|H4]; [|rewrite H4; reflexivity].
      rewrite (o_pushing0 H3 H4). apply orb_true_r.
    + intros; congruence.
  - destruct (RS _ H1) as (Z1 & Z2 & Z3). apply NONE; auto.
  - (* file *)
    destruct (RS _ H5) as (Z1 & Z2 & Z3). destruct (Forall_inv H) as (Y1 & Y2 & Y3).
    assert (LM : legal (MFile k d)) by (split; [simpl; clear -Y2; lia|auto]).
    apply (ONE _ (MFile k d)); auto; try (simpl; rewrite Z2; reflexivity).
    apply (role_send r); auto; try discriminate.
    + intros _. simpl. destruct O. destruct (o_running0 H3) as (_ & T & _ & _). rewrite T, o_local0 in H4.
      split; [apply o_greeted0; exact H1|]. split; [exact H4|]. apply o_sending0; auto.
    + intros; congruence.
  - (* end of file *)
    destruct (RS _ H5) as (Z1 & Z2 & Z3).
    assert (LM : legal (MEof k)) by (split; [apply len_nil_bound|exact I]).
    destruct Z1 as (B1 & B2 & B3 & B4 & B5).
    assert (T : sends k mine theirs = true). { destruct O. destruct (o_running0 H3) as (_ & T & _ & _). rewrite T, o_local0 in H4. exact H4. }
    apply (ONE _ (MEof k)); auto; try (destruct k; simpl; rewrite ?Z2; auto; fail).
    apply (role_send_eof r); auto; try (destruct k; simpl; auto; fail).
    intros [] Y; destruct k; try contradiction; [apply (B5 Index)|apply (B5 Archive)].
  - destruct (RS _ H5) as (Z1 & Z2 & Z3). apply NONE; auto.
  - destruct (RS _ H2) as (Z1 & Z2 & Z3). apply NONE; auto.
  - (* read *)
    destruct (RS _ H3) as (Z1 & Z2 & Z3). exists [], []. simpl. rewrite !app_nil_r. repeat apply conj; auto.
    apply (role_alike r); auto.
  - destruct (RS _ H1) as (Z1 & Z2 & Z3). apply NONE; auto.
  - destruct (RS _ H3) as (Z1 & Z2 & Z3). apply NONE; auto.
Qed.

Lemma running_role r mine theirs S R : role r mine theirs S R -> state r = Running -> remote r = theirs /\ local r = mine /\ S <> [] /\ sent_hello r = true.
Proof. intros [] Z. destruct (o_running0 Z) as (_ & A & B & _). auto. Qed.

Lemma negb_gate a b : negb a && negb b = false -> a || b = true.
Proof. destruct a, b; simpl; auto. Qed.

(** A call. *)
Lemma role_call c r r' x mine theirs S R : role r mine theirs S R -> call_ok c -> polite r c -> perform c r = (r', x) ->
  exists M, outbuf r' = outbuf r ++ flat_map wire M /\ Forall framed M /\ inbuf r' = inbuf r /\ role r' mine theirs (S ++ M) R.
Proof.
  intros O OK PO E.
  assert (NO : forall r2 y, (r2, y) = (r', x) -> outbuf r2 = outbuf r -> inbuf r2 = inbuf r -> alike r r2 ->
    exists M, outbuf r' = outbuf r ++ flat_map wire M /\ Forall framed M /\ inbuf r' = inbuf r /\ role r' mine theirs (S ++ M) R).
  { intros r2 y Z Z1 Z2 Z3. inversion Z; subst. exists []. simpl. rewrite !app_nil_r. repeat apply conj; auto. eapply role_alike; eauto. }
  assert (ONE : forall r2 m, r2 = r' -> role r2 mine theirs (S ++ [m]) R -> legal m -> outbuf r2 = outbuf r ++ wire m -> inbuf r2 = inbuf r ->
    exists M, outbuf r' = outbuf r ++ flat_map wire M /\ Forall framed M /\ inbuf r' = inbuf r /\ role r' mine theirs (S ++ M) R).
  { intros r2 m -> Z1 Z2 Z3 Z4. exists [m]. simpl. rewrite !app_nil_r. repeat apply conj; auto. constructor; auto. apply legal_framed; exact Z2. }
  pose proof (alike_refl r) as AR.
  destruct c as [id co d|id|k d|k|i|er msg]; simpl in E, OK, PO.
  - unfold put_chunk in E. destruct OK as [[Li Bi] Bd].
    destruct (len d <? 1) eqn:L1; [eapply NO; [exact E|..]; auto|]. apply N.ltb_ge in L1.
    destruct (CHUNK_SIZE_LIMIT_MAX <? len d) eqn:L2; [eapply NO; [exact E|..]; auto|]. apply N.ltb_ge in L2.
    destruct (_ && _) eqn:G; [eapply NO; [exact E|..]; auto|]. apply negb_gate in G.
    destruct (can_put_chunk r) as [[]| | |] eqn:CP; try (eapply NO; [exact E|..]; auto; fail).
    assert (RUN : state r = Running) by (unfold can_put_chunk in CP; destruct (state r); auto; try discriminate; destruct (_ && _); discriminate).
    destruct (P_SIZE_MAX <? 56 + len d) eqn:SZ; [eapply NO; [exact E|..]; auto|]. apply N.ltb_ge in SZ.
    destruct (running_role _ _ _ _ _ O RUN) as (T & L & NS & SH).
    inversion E; subst.
    assert (LM : legal (MChunk co id d)).
    { split; [cbn [body]; rewrite !len_app, len_le64, Li; unfold P_SIZE_MAX in SZ; clear -SZ; lia|]. repeat split; auto. intros ->. change (@len N []) with 0 in L1. lia. }
    eapply (ONE _ (MChunk co id d)); [reflexivity| |exact LM| |reflexivity].
    + apply (role_send r); auto; try discriminate; [|intros; congruence].
      intros _. simpl. split; [exact NS|]. unfold sends_chunks. change PULL_CHUNKS with (2 ^ 6) in G. change PUSH_CHUNKS with (2 ^ 9) in G. rewrite !has_bit in G. exact G.
    + simpl. f_equal. unfold wire. cbn [body]. rewrite !len_app, len_le64, Li. replace (16 + (8 + (32 + len d))) with (56 + len d) by lia. reflexivity.
  - unfold put_missing in E.
    destruct (_ && _) eqn:G; [eapply NO; [exact E|..]; auto|]. apply negb_gate in G.
    destruct (can_put_chunk r) as [[]| | |] eqn:CP; try (eapply NO; [exact E|..]; auto; fail).
    assert (RUN : state r = Running) by (unfold can_put_chunk in CP; destruct (state r); auto; try discriminate; destruct (_ && _); discriminate).
    destruct (running_role _ _ _ _ _ O RUN) as (T & L & NS & SH).
    inversion E; subst.
    assert (LM : legal (MMissing id)) by (split; [simpl; destruct OK as [-> _]; lia|exact OK]).
    eapply (ONE _ (MMissing id)); [reflexivity| |exact LM| |reflexivity].
    + apply (role_send r); auto; try discriminate; [|intros; congruence].
      intros _. simpl. split; [exact NS|]. unfold sends_chunks. change PULL_CHUNKS with (2 ^ 6) in G. change PUSH_CHUNKS with (2 ^ 9) in G. rewrite !has_bit in G. exact G.
    + simpl. f_equal. unfold wire. cbn [body]. destruct OK as [-> _]. reflexivity.
  - unfold put_file in E. destruct (len d =? 0) eqn:L1; [eapply NO; [exact E|..]; auto|]. apply N.eqb_neq in L1.
    destruct (_ && _) eqn:G; [eapply NO; [exact E|..]; auto|]. apply negb_gate in G.
    destruct (can_put_file r k) as [[]| | |] eqn:CP; try (eapply NO; [exact E|..]; auto; fail).
    destruct (P_SIZE_MAX <? 16 + len d) eqn:SZ; [eapply NO; [exact E|..]; auto|]. apply N.ltb_ge in SZ.
    assert (RUN : state r = Running /\ f_complete (get_file k r) = false).
    { unfold can_put_file in CP. destruct (_ && _); [discriminate|]. destruct (state r); try discriminate; destruct (f_complete _); try discriminate; auto. }
    destruct RUN as [RUN CF]. destruct (running_role _ _ _ _ _ O RUN) as (T & L & NS & SH).
    inversion E; subst. rewrite <- bit_gates in G.
    assert (LM : legal (MFile k d)).
    { split; [simpl; exact SZ|]. split; [|exact OK]. intros ->. apply L1. reflexivity. }
    eapply (ONE _ (MFile k d)); [reflexivity| |exact LM| |reflexivity].
    + apply (role_send r); auto; try discriminate; [|intros; congruence].
      intros _. simpl. split; [exact NS|]. split; [exact G|]. destruct O. apply o_sending0; auto.
    + rewrite wire_file. reflexivity.
  - unfold put_eof in E.
    destruct (_ && _) eqn:G; [eapply NO; [exact E|..]; auto|]. apply negb_gate in G.
    destruct (can_put_file r k) as [[]| | |] eqn:CP; try (eapply NO; [exact E|..]; auto; fail).
    assert (RUN : state r = Running /\ f_complete (get_file k r) = false).
    { unfold can_put_file in CP. destruct (_ && _); [discriminate|]. destruct (state r); try discriminate; destruct (f_complete _); try discriminate; auto. }
    destruct RUN as [RUN CF]. destruct (running_role _ _ _ _ _ O RUN) as (T & L & NS & SH).
    inversion E; subst. rewrite <- bit_gates in G.
    assert (LM : legal (MEof k)) by (split; [apply len_nil_bound|exact I]).
    eapply (ONE _ (MEof k)); [reflexivity| |exact LM| |destruct k; reflexivity].
    + apply (role_send_eof r); auto; try (destruct k; simpl; auto; fail).
      intros [] Y; destruct k; try contradiction; reflexivity.
    + rewrite wire_eof. destruct k; reflexivity.
  - destruct (goodbye i r) as [[r2 y] l] eqn:G. inversion E; subst. unfold goodbye in G.
    assert (Z : state r = Eof \/ state r <> Eof) by apply eof_dec. destruct Z as [Z|Z].
    { rewrite Z in G. inversion G; subst. eapply NO; auto. }
    destruct (sent_goodbye r) eqn:SG.
    { destruct (state r); try contradiction; inversion G; subst; eapply NO; auto. }
    destruct (install_both i r) as [[ra xa] la] eqn:F. apply install_both_still in F.
    destruct F as (((A1 & A2 & A3 & A4 & A5) & A6 & A7 & A8) & _).
    assert (AL : alike r ra) by (repeat apply conj; auto).
    destruct xa as [e|].
    { destruct (state r); try contradiction; inversion G; subst; (eapply NO; [reflexivity|..]; auto). }
    assert (G' : r' = set_sent_goodbye (append_out ra (le64 16 ++ le64 P_GOODBYE))) by (destruct (state r); try contradiction; inversion G; reflexivity).
    clear G. eapply (ONE _ MGoodbye); [symmetry; exact G'| | | |].
    + apply (role_send r); auto; try discriminate.
      * split; [change (16 + 0 <= 16777216); lia|exact I].
      * intros _. simpl. destruct O. apply o_greeted0. exact PO.
    + split; [change (16 + 0 <= 16777216); lia|exact I].
    + simpl. rewrite A3. reflexivity.
    + simpl. exact A2.
  - unfold abort in E. destruct OK as [Bm Lm]. destruct PO as [P1 P2].
    destruct (INT32_MAX <=? er) eqn:SZ; [eapply NO; [exact E|..]; auto|]. apply N.leb_gt in SZ.
    assert (Z : state r = Eof \/ state r <> Eof) by apply eof_dec. destruct Z as [Z|Z].
    { rewrite Z in E. inversion E; subst. eapply NO; auto. }
    destruct (sent_goodbye r) eqn:SG.
    { destruct (state r); try contradiction; inversion E; subst; eapply NO; auto. }
    assert (G' : r' = set_sent_goodbye (append_out r (le64 (24 + len msg + 1) ++ le64 P_ABORT ++ le64 er ++ msg ++ [0])))
      by (destruct (state r); try contradiction; inversion E; reflexivity).
    assert (LM : legal (MAbort er msg)).
    { split; [cbn [body]; rewrite !len_app, len_le64; change (len [0]) with 1; clear -P2; lia|]. unfold INT32_MAX in SZ. repeat split; auto. }
    clear E. eapply (ONE _ (MAbort er msg)); [symmetry; exact G'| |exact LM| |reflexivity].
    + apply (role_send r); auto; try discriminate; [intros _; exact I|intros _; exact I].
    + simpl. f_equal. unfold wire. cbn [body]. rewrite !len_app, len_le64. change (len [0]) with 1.
      replace (16 + (8 + (len msg + 1))) with (24 + len msg + 1) by lia. reflexivity.
Qed.

(** Conversations of two endpoints that keep to the rules. *)
From Coq Require Import List NArith Bool Lia.
From Verif Require Import Base ArchiveBase Remote RemoteSpec RemoteProofs1 RemoteProofs2 RemoteProofs3 RemoteProofs4.
Import ListNotations.
Open Scope N_scope.

Local Opaque le64 rd64.

Lemma role_step i r r' x l mine theirs S R : role r mine theirs S R -> one_way theirs mine -> bytes_ok (inbuf r) = true ->
  step i r = (r', x, l) -> Forall honoured l ->
  (forall m rest, state r <> Eof -> inbuf r = wire m ++ rest -> legal m -> may_send theirs mine R m) ->
  exists M Q, outgoing l ++ outbuf r' = outbuf r ++ flat_map wire M /\ Forall framed M /\
    inbuf r ++ incoming l = flat_map wire Q ++ inbuf r' /\ Forall framed Q /\ role r' mine theirs (S ++ M) (R ++ Q).
Proof.
  intros O W B E H MS. destruct (eof_dec (state r)) as [Z|NE].
  - rewrite step_eof in E by exact Z. inversion E; subst. exists [], []. simpl. rewrite !app_nil_r. repeat apply conj; auto.
  - destruct (step_did i r r' x l NE B E H) as (r1 & l1 & l2 & K & OP & -> & D).
    destruct (kept_same _ _ K) as (K1 & K2 & K3). destruct (app4 l1 l2 OP) as (_ & _ & A3 & A4).
    assert (O1 : role r1 mine theirs S R) by (apply (role_alike r); auto using kept_alike).
    rewrite A3, A4, <- K1, <- K2. destruct D as [(e & -> & -> & -> & _)|D].
    + exists [], []. simpl. rewrite !app_nil_r. repeat apply conj; auto.
    + apply Forall_app in H. apply (role_did i r1 r' x l2); auto; try apply H.
      * rewrite (k_state _ _ K). exact NE.
      * intros m rest. rewrite K1. apply MS; auto.
Qed.

Lemma wires_unique M : forall M', Forall framed M -> Forall framed M' -> flat_map wire M = flat_map wire M' -> M = M'.
Proof.
  induction M as [|m M IH]; intros M' F F' E.
  - destruct M' as [|m' M']; auto. simpl in E. symmetry in E. apply wire_not_nil in E. contradiction.
  - destruct M' as [|m' M']; [simpl in E; apply wire_not_nil in E; contradiction|]. simpl in E.
    inversion F; inversion F'; subst. apply wire_unique in E; auto. destruct E as [-> E]. f_equal. apply IH; auto.
Qed.

(** The next message in the input is the next message the other side sent. *)
Lemma next_message a b pipe S R mine theirs : dir a b pipe S R -> ordered mine theirs S -> (forall e, In e R -> ~ is_end e) ->
  ~ undecided (inbuf (endpoint b)) ->
  exists m rest, inbuf (endpoint b) = wire m ++ rest /\ legal m /\ may_send mine theirs R m.
Proof.
  intros [] O NE NU.
  destruct (stream_prefix R S _ (Forall_impl _ legal_framed v_legal) (clean_framed _ v_clean) v_stream) as (T & -> & E).
  destruct T as [|m T].
  { exfalso. simpl in E. apply app_eq_nil in E. destruct E as [E _]. apply NU. left. rewrite E. reflexivity. }
  destruct (O R m T eq_refl NE) as [L M]. simpl in E.
  assert (LL : len (wire m) <= len (inbuf (endpoint b))).
  { destruct (N.le_gt_cases (len (wire m)) (len (inbuf (endpoint b)))) as [Z|Z]; auto. exfalso. apply NU.
    destruct (N.lt_ge_cases (len (inbuf (endpoint b))) 16) as [Z2|Z2]; [left; exact Z2|]. right.
    assert (Z3 : inbuf (endpoint b) = takeN (len (inbuf (endpoint b))) (wire m)).
    { assert (Y : takeN (len (inbuf (endpoint b))) (inbuf (endpoint b) ++ pipe ++ outbuf (endpoint a)) = inbuf (endpoint b)) by (apply takeN_app_exact; reflexivity).
      rewrite E, takeN_app_le in Y by lia. symmetry. exact Y. }
    exists (16 + len (body m)), (dropN 8 (inbuf (endpoint b))). rewrite len_wire in Z. destruct L as [L _].
    split; [|split; [|exact Z]; lia].
    rewrite <- (takeN_dropN 8 (inbuf (endpoint b))) at 1. f_equal. rewrite Z3, takeN_takeN.
    rewrite N.min_l by lia. unfold wire. rewrite takeN_app_exact by apply len_le64. reflexivity. }
  exists m, (dropN (len (wire m)) (inbuf (endpoint b))). split; [|auto].
  rewrite <- (takeN_dropN (len (wire m)) (inbuf (endpoint b))) at 1. f_equal.
  assert (Z : takeN (len (wire m)) (inbuf (endpoint b) ++ pipe ++ outbuf (endpoint a)) = wire m) by (rewrite E, takeN_app_exact; reflexivity).
  rewrite takeN_app_le in Z by lia. exact Z.
Qed.

Lemma no_end r mine theirs S R : role r mine theirs S R -> state r <> Eof -> forall e, In e R -> ~ is_end e.
Proof.
  intros [] NE e I Z. destruct e; simpl in Z; try contradiction.
  - destruct (state r) eqn:ST; try contradiction.
    + rewrite (o_hello eq_refl) in I. contradiction.
    + destruct (o_running eq_refl) as (_ & _ & _ & Y). contradiction.
  - eapply o_abort; eauto.
Qed.

Definition proper (t : talk) (f1 f2 : N) (S1 R1 S2 R2 : list message) : Prop :=
  both t S1 R1 S2 R2 /\ role (endpoint (one t)) f1 f2 S1 R2 /\ role (endpoint (two t)) f2 f1 S2 R1.

Definition turn (t : talk) : talk := mkTalk (two t) (one t) (two_one t) (one_two t).

Lemma proper_turn t f1 f2 S1 R1 S2 R2 : proper t f1 f2 S1 R1 S2 R2 <-> proper (turn t) f2 f1 S2 R2 S1 R1.
Proof. unfold proper, both, turn; simpl. tauto. Qed.

Lemma proper_acts a b p q a' p' q' f1 f2 S1 R1 S2 R2 : one_way f2 f1 ->
  proper (mkTalk a b p q) f1 f2 S1 R1 S2 R2 -> acts polite a q p a' q' p' ->
  exists S' R', proper (mkTalk a' b p' q') f1 f2 (S1 ++ S') R1 S2 (R2 ++ R').
Proof.
  intros W ((D1 & D2) & O1 & O2) A. simpl in *.
  assert (B : bytes_ok (inbuf (endpoint a)) = true) by apply (dir_bytes _ _ _ _ _ D2).
  destruct (dir_sender _ _ _ _ _ _ _ _ _ _ D1 B A) as (S' & D1').
  destruct (dir_receiver _ _ _ _ _ _ _ _ _ _ D2 A) as (R' & D2').
  exists S', R'. split; [split; assumption|]. split; [|exact O2]. simpl.
  assert (CS : Forall framed S').
  { pose proof (clean_framed _ (v_clean _ _ _ _ _ D1')) as Z. apply Forall_app in Z. apply Z. }
  assert (CR : Forall framed R').
  { pose proof (v_legal _ _ _ _ _ D2') as Z. apply Forall_app in Z. eapply Forall_impl; [apply legal_framed|apply Z]. }
  pose proof (v_stream _ _ _ _ _ D1) as V1. pose proof (v_stream _ _ _ _ _ D1') as V1'.
  pose proof (v_stream _ _ _ _ _ D2) as V2. pose proof (v_stream _ _ _ _ _ D2') as V2'.
  inversion A; subst; simpl in *.
  - assert (MS : forall m rest, state (endpoint a) <> Eof -> inbuf (endpoint a) = wire m ++ rest -> legal m -> may_send f2 f1 R2 m).
    { intros m rest NE I L. destruct (next_message _ _ _ _ _ _ _ D2 (o_ordered _ _ _ _ _ O2) (no_end _ _ _ _ _ O1 NE)) as (m' & rest' & I' & L' & M').
      - rewrite I. intros Z. eapply undecided_wire; eauto.
      - rewrite I in I'. apply wire_unique in I'; auto using legal_framed. destruct I' as [-> _]. exact M'. }
    destruct (role_step _ _ _ _ _ _ _ _ _ O1 W B H0 H1 MS) as (M & Q & E1 & E2 & E3 & E4 & E5).
    assert (ES : S' = M).
    { apply wires_unique; auto. rewrite flat_map_app, <- V1, <- !app_assoc in V1'.
      apply app_inv_head in V1'. apply app_inv_head in V1'. rewrite <- ?app_assoc in V1'. apply app_inv_head in V1'.
      rewrite E1 in V1'. apply app_inv_head in V1'. symmetry. exact V1'. }
    assert (ER : R' = Q).
    { apply wires_unique; auto. rewrite <- V2, flat_map_app, <- !app_assoc in V2'. apply app_inv_head in V2'.
      rewrite !app_assoc in V2'. rewrite E3 in V2'. rewrite <- !app_assoc in V2'. eapply app_inv_tail. exact V2'. }
    subst. exact E5.
  - destruct (role_call _ _ _ _ _ _ _ _ O1 H H0 H1) as (M & E1 & E2 & E3 & E4).
    assert (ES : S' = M).
    { apply wires_unique; auto. rewrite flat_map_app, <- V1, <- !app_assoc in V1'.
      apply app_inv_head in V1'. apply app_inv_head in V1'. apply app_inv_head in V1'.
      rewrite E1 in V1'. apply app_inv_head in V1'. symmetry. exact V1'. }
    assert (ER : R' = []).
    { apply wires_unique; auto. rewrite <- V2, flat_map_app, <- !app_assoc in V2'. apply app_inv_head in V2'.
      rewrite E3 in V2'. change (flat_map wire []) with (@nil N). eapply app_inv_tail. exact V2'. }
    subst. rewrite app_nil_r. exact E4.
Qed.

Lemma one_way_sym a b : one_way a b -> one_way b a.
Proof. intros W k H. destruct (sends k a b) eqn:Z; auto. apply W in Z. congruence. Qed.

Lemma new_role r theirs : new r -> role r (local r) theirs [] [].
Proof.
  intros N. destruct (new_state _ N) as (A1 & A2 & A3 & A4 & A5 & A6 & A7 & A8 & A9 & A10 & A11).
  constructor; auto.
  - unfold two64 in A1. change (2 ^ 64 - 1) with 18446744073709551615. change UINT64_MAX with 18446744073709551615 in A8. lia.
  - apply ordered_nil.
  - intros Z. congruence.
  - intros Z. congruence.
  - intros Z. congruence.
  - intros Z. congruence.
  - intros k _ Z. rewrite A11 in Z. discriminate.
Qed.

Theorem proper_talk r1 r2 t : new r1 -> new r2 -> one_way (local r1) (local r2) -> conversation polite r1 r2 t ->
  exists S1 R1 S2 R2, proper t (local r1) (local r2) S1 R1 S2 R2.
Proof.
  intros N1 N2 W C. destruct (new_state _ N1) as (A1 & A2 & A3 & _). destruct (new_state _ N2) as (B1 & B2 & B3 & _).
  induction C as [|a b p q a' p' q' C (S1 & R1 & S2 & R2 & P) A|a b p q b' p' q' C (S1 & R1 & S2 & R2 & P) A]; simpl in *.
  - exists [], [], [], []. split; [|split; apply new_role; assumption].
    split; constructor; simpl; auto; rewrite ?A2, ?A3, ?B2, ?B3; auto; exists []; split; auto; intros Z; exfalso; apply Z; reflexivity.
  - destruct (proper_acts _ _ _ _ _ _ _ _ _ _ _ _ _ (one_way_sym _ _ W) P A) as (S' & R' & P'). eauto 6.
  - apply proper_turn in P. unfold turn in P; simpl in P.
    destruct (proper_acts _ _ _ _ _ _ _ _ _ _ _ _ _ W P A) as (S' & R' & P').
    apply proper_turn in P'. unfold turn in P'; simpl in P'. eauto 6.
Qed.

(** Refusals, whole files, bounds. *)
From Coq Require Import List NArith Bool Lia.
From Verif Require Import Base ArchiveBase Remote RemoteSpec RemoteProofs1 RemoteProofs2 RemoteProofs3 RemoteProofs4 RemoteProofs5.
Import ListNotations.
Open Scope N_scope.

Local Opaque le64 rd64.

(** ** Refusals *)

Lemma queue_ids_error ids : forall a high e l, queue_ids a ids high = (Some e, l) -> In (Some e) a.
Proof.
  induction ids as [|id ids IH]; intros a high e l E; simpl in E; [discriminate|].
  destruct a as [|[e'|] a].
  - simpl in E. destruct (queue_ids [] ids high) as [x m] eqn:Q. injection E as -> _. apply IH in Q. contradiction.
  - inversion E; subst. left; reflexivity.
  - simpl in E. destruct (queue_ids a ids high) as [x m] eqn:Q. injection E as -> _. apply IH in Q. right; exact Q.
Qed.

Lemma file_install_error r k a r1 e l : file_install r k a = (r1, Some e, l) -> a = Some e.
Proof. unfold file_install. intros E. destruct (negb _); [discriminate|]. destruct (negb _); [discriminate|]. destruct (negb _); [discriminate|]. destruct a; inversion E; subst; auto. Qed.

Lemma install_both_error i r r1 e l : install_both i r = (r1, Some e, l) -> io_install_index i = Some e \/ io_install_archive i = Some e.
Proof.
  unfold install_both. intros E. destruct (file_install r Index (io_install_index i)) as [[ra xa] la] eqn:F1. destruct xa.
  - inversion E; subst. apply file_install_error in F1. auto.
  - destruct (file_install ra Archive (io_install_archive i)) as [[rb xb] lb] eqn:F2. inversion E; subst. apply file_install_error in F2. auto.
Qed.

Lemma handle_bad i r m r1 l : expects r m -> handle i r m = (r1, Fail EBADMSG, l) -> reports i EBADMSG.
Proof.
  intros X E. unfold reports. destruct m as [fl|k d|k|hi ids|co id d|id| |er re]; simpl in E, X.
  - apply process_hello_ret in E. destruct E as [(E & _)|([E|E] & _)]; discriminate.
  - destruct X as (_ & _ & X). unfold process_file in E. rewrite X in E. destruct (f_fd _); [destruct (io_fwrite i) eqn:F|]; inversion E; subst; try tauto; destruct k; discriminate.
  - destruct X as (_ & _ & X). unfold process_eof in E. rewrite X in E. destruct k; inversion E.
  - destruct (queue_ids (io_enq i) ids hi) as [[e|] ll] eqn:Q; inversion E; subst. apply queue_ids_error in Q. tauto.
  - destruct (negb (cached r)); [inversion E|]. destruct (io_save i) as [[]|] eqn:F; inversion E; subst; tauto.
  - destruct (negb (cached r)); [inversion E|]. destruct (io_missing i) as [[]|] eqn:F; inversion E; subst; tauto.
  - unfold process_goodbye in E. destruct (install_both i r) as [[ra [e|]] la] eqn:F; inversion E; subst. apply install_both_error in F. tauto.
  - destruct (negb (er =? 0)); inversion E.
Qed.

Lemma step_bad i r r' l : bytes_ok (inbuf r) = true -> step i r = (r', Fail EBADMSG, l) -> Forall honoured l ->
  reports i EBADMSG \/ (state r <> Eof /\ ~ undecided (inbuf r) /\ sent_hello r = true /\
    forall m rest, inbuf r = wire m ++ rest -> legal m -> ~ expects r m).
Proof.
  intros B E H. destruct (eof_dec (state r)) as [Z|NE].
  { rewrite step_eof in E by exact Z. discriminate. }
  destruct (step_did i r r' _ l NE B E H) as (r1 & l1 & l2 & K & OP & -> & D).
  assert (XE : forall m, expects r m -> expects r1 m).
  { intros m. destruct K. destruct m; simpl; rewrite ?k_state, ?k_local, ?k_remote, ?k_complete; auto. }
  destruct D as [(e & E1 & -> & -> & SE)|D].
  - left. inversion E1; subst. unfold reports. destruct SE as [[_ [Z|Z]]|[Z|Z]]; try discriminate; tauto.
  - rewrite <- (k_in _ _ K) in *. unfold reports. remember (Fail EBADMSG) as x eqn:EX.
    destruct D as [dn dx D1 D2|de D1 D2|D1|dm drest dr dx dl D1 D2 D3 D4 D5|D1 D2 D3|dr dhi dx dl D1 D2 D3 D4 D5 D6 D7 D8 D9 D10 D11|dr D1 D2|dr dk dd D1 D2 D3 D4 D5 D6 D7|dr dk D1 D2 D3 D4 D5 D6 D7|dr dk D1 D2 D3 D4 D5 D6 D7
      |dr de D1 D2 D3|dr dd D1 D2 D3 D4|dr de D1 D2 D3|dr D1 D2 D3 D4 D5]; try discriminate; try (inversion EX; subst; tauto).
    + destruct D2; congruence.
    + left. subst. eapply handle_bad; eauto.
    + right. rewrite <- (k_hello _ _ K). repeat apply conj; auto. intros m rest I L X. apply D3. exists m, rest. auto.
    + subst. destruct D11 as [Z|Z]; inversion Z. tauto.
    + destruct dk; discriminate.
    + inversion EX; subst. destruct D3 as [Z|[_ Z]]; [tauto|discriminate].
Qed.

(** Two endpoints that keep to the rules do not refuse each other's messages. *)
Lemma proper_accepts t f1 f2 S1 R1 S2 R2 i r l : one_way f2 f1 -> proper t f1 f2 S1 R1 S2 R2 ->
  step i (endpoint (one t)) = (r, Fail EBADMSG, l) -> Forall honoured l -> reports i EBADMSG.
Proof.
  intros W ((D1 & D2) & O1 & O2) E H.
  assert (B : bytes_ok (inbuf (endpoint (one t))) = true) by apply (dir_bytes _ _ _ _ _ D2).
  destruct (step_bad _ _ _ _ B E H) as [Z|(NE & NU & SH & X)]; auto. exfalso.
  destruct (next_message _ _ _ _ _ _ _ D2 (o_ordered _ _ _ _ _ O2) (no_end _ _ _ _ _ O1 NE) NU) as (m & rest & I & L & M).
  eapply X; eauto. eapply may_expect; eauto.
Qed.

(** ** A step with nothing to write *)

Lemma step_ready i r r' x l : state r <> Eof -> bytes_ok (inbuf r) = true -> sent_hello r = true -> outbuf r = [] -> usable r -> files_open i ->
  step i r = (r', x, l) -> Forall honoured l ->
  (undecided (inbuf r) -> inbuf r' = inbuf r ++ incoming l /\ delivered (r', x, l) = []) /\
  (forall m rest, inbuf r = wire m ++ rest -> legal m -> expects r m ->
     (is_failure x = false /\ inbuf r' = rest /\ incoming l = [] /\ delivered (r', x, l) = items m) \/
     (is_failure x = true /\ (x = Fail EBADMSG -> reports i EBADMSG) /\ inbuf r' = inbuf r /\ incoming l = [] /\ prefix (delivered (r', x, l)) (items m))) /\
  (~ undecided (inbuf r) -> ~ (exists m rest, inbuf r = wire m ++ rest /\ legal m /\ expects r m) ->
     x = Fail EBADMSG /\ inbuf r' = inbuf r /\ outgoing l = [] /\ incoming l = [] /\ taken l = [] /\ delivered (r', x, l) = []).
Proof.
  intros NE B SH OB (U1 & U2 & U3) (F1 & F2) E H.
  pose proof (step_receives _ _ _ _ _ B E H) as RC.
  pose proof (step_bad i r r' l B) as BAD.
  destruct (step_did i r r' x l NE B E H) as (r1 & l1 & l2 & K & OP & -> & D).
  destruct (app4 l1 l2 OP) as (A1 & A2 & A3 & A4).
  assert (XE : forall m, expects r1 m <-> expects r m).
  { intros m. destruct K. destruct m; simpl; rewrite ?k_state, ?k_local, ?k_remote, ?k_complete; tauto. }
  destruct D as [(e & -> & -> & -> & SE)|D].
  { exfalso. unfold start_error, at_odds in SE. change UINT64_MAX with (2 ^ 64 - 1) in SE.
    destruct SE as [[[Z|[[Z Z2]|[Z Z2]]] _]|[Z|Z]]; [contradiction|rewrite Z, Z2 in U2; discriminate|rewrite Z, Z2 in U3; discriminate|congruence|congruence]. }
  pose proof (k_in _ _ K) as KI. pose proof (k_out _ _ K) as KO. pose proof (k_hello _ _ K) as KH.
  assert (CASES : (undecided (inbuf r) /\ forall m, delivered (r', x, l1 ++ l2) <> items m \/ True) \/
    (exists m rest, inbuf r = wire m ++ rest /\ legal m /\ expects r m) \/
    (~ undecided (inbuf r) /\ ~ (exists m rest, inbuf r = wire m ++ rest /\ legal m /\ expects r m) /\ x = Fail EBADMSG /\ l2 = [] /\ r' = r1)).
  { clear BAD E H RC.
    destruct D as [dn dx D1 D2|de D1 D2|D1|dm drest dr dx dl D1 D2 D3 D4 D5|D1 D2 D3|dr dhi dx dl D1 D2 D3 D4 D5 D6 D7 D8 D9 D10 D11|dr D1 D2|dr dk dd D1 D2 D3 D4 D5 D6 D7|dr dk D1 D2 D3 D4 D5 D6 D7|dr dk D1 D2 D3 D4 D5 D6 D7
      |dr de D1 D2 D3|dr dd D1 D2 D3 D4|dr de D1 D2 D3|dr D1 D2 D3 D4 D5]; try (left; rewrite <- KI; split; [assumption|auto]; fail).
    - rewrite KO in D1. contradiction.
    - rewrite KO in D1. contradiction.
    - congruence.
    - right; left. exists dm, drest. rewrite <- KI. split; [assumption|]. split; [assumption|]. apply XE. assumption.
    - right; right. rewrite <- KI. split; [assumption|]. split; [|auto]. intros (m & rest & I & L & X). apply D3. exists m, rest. rewrite XE. auto. }
  assert (UW : forall m rest, undecided (inbuf r) -> inbuf r = wire m ++ rest -> legal m -> False).
  { intros m rest U I L. rewrite I in U. eapply undecided_wire; eauto. }
  split; [|split].
  - intros U. destruct RC as [RC|[(m & C1 & C2 & _)|(m & rest & C1 & C2 & _)]]; [exact RC|exfalso; eauto|exfalso; eauto].
  - intros m rest I L X. destruct RC as [(C1 & C2)|[(m' & C1 & C2 & C3 & C4 & C5)|(m' & rest' & C1 & C2 & C3 & C4 & C5 & C6)]].
    + (* nothing was consumed: the message was handled and failed, or it was empty *)
      destruct D as [dn dx D1 D2|de D1 D2|D1|dm drest dr dx dl D1 D2 D3 D4 D5|D1 D2 D3|dr dhi dx dl D1 D2 D3 D4 D5 D6 D7 D8 D9 D10 D11|dr D1 D2|dr dk dd D1 D2 D3 D4 D5 D6 D7|dr dk D1 D2 D3 D4 D5 D6 D7|dr dk D1 D2 D3 D4 D5 D6 D7
      |dr de D1 D2 D3|dr dd D1 D2 D3 D4|dr de D1 D2 D3|dr D1 D2 D3 D4 D5]; try (exfalso; rewrite KI in *; eapply UW; eauto; fail).
      * rewrite KO in D1. contradiction.
      * rewrite KO in D1. contradiction.
      * congruence.
      * rewrite KI in D2. rewrite I in D2. apply wire_unique in D2; auto using legal_framed. destruct D2 as [<- <-].
        destruct (handle_aside _ _ _ _ _ _ D5) as ((_ & A6 & _) & _ & _ & A7).
        destruct (is_failure dx) eqn:FF.
        -- right. repeat apply conj; auto.
           ++ intros ->. destruct (BAD E H) as [Z|(_ & _ & _ & Z)]; auto. exfalso. eapply Z; eauto.
           ++ rewrite A6. exact KI.
           ++ rewrite A4. exact A7.
           ++ rewrite C2. exists (items m). reflexivity.
        -- exfalso. rewrite A4, A7, app_nil_r in C1. unfold advance in C1. simpl in C1. rewrite A6, KI in C1.
           apply (f_equal len) in C1. rewrite len_dropN in C1. rewrite I, len_app, len_wire in C1. lia.
      * exfalso. apply D3. exists m, rest. rewrite KI, XE. auto.
    + left. rewrite I in C2. apply wire_unique in C2; auto using legal_framed. destruct C2 as [<- <-]. auto.
    + right. rewrite I in C2. apply wire_unique in C2; auto using legal_framed. destruct C2 as [<- <-]. repeat apply conj; auto.
      intros ->. destruct (BAD E H) as [Z|(_ & _ & _ & Z)]; auto. exfalso. eapply Z; eauto.
  - intros NU NM. destruct CASES as [[U _]|[M|(_ & _ & -> & -> & ->)]]; [contradiction|contradiction|].
    rewrite A2, A3, A4. unfold delivered. rewrite A1. simpl. repeat apply conj; auto.
Qed.

(** ** Whole files *)

Definition sealed (s : side) : Prop := forall k P Q, sent s = P ++ IEof k :: Q -> f_complete (get_file k (endpoint s)) = true /\ content k Q = [].

Lemma content_app k a b : content k (a ++ b) = content k a ++ content k b.
Proof. unfold content. apply flat_map_app. Qed.

(** A file that is complete stays so, and nothing more of it is sent. *)
Definition seals (r r' : rem) (l : list item) : Prop :=
  (forall k, f_complete (get_file k r) = true -> f_complete (get_file k r') = true) /\
  ((forall k, content k l = [] /\ ~ In (IEof k) l) \/
   (exists k d, l = [IFile k d] /\ f_complete (get_file k r) = false) \/
   (exists k, l = [IEof k] /\ f_complete (get_file k r) = false /\ f_complete (get_file k r') = true)).

Lemma split_tail {A} (x : A) l : ~ In x l -> forall P S Q, S ++ l = P ++ x :: Q -> exists Q', Q = Q' ++ l /\ S = P ++ x :: Q'.
Proof.
  intros N. induction P as [|p P IH]; intros S Q E; destruct S as [|s S]; simpl in E.
  - exfalso. apply N. rewrite E. left; reflexivity.
  - inversion E; subst. exists S. auto.
  - exfalso. apply N. rewrite E. right. apply in_or_app. right. left. reflexivity.
  - inversion E; subst. destruct (IH _ _ H1) as (Q' & -> & ->). exists Q'. auto.
Qed.

Lemma seal s r l f g : sealed s -> seals (endpoint s) r l -> sealed (mkSide r f (sent s ++ l) g).
Proof.
  intros I (M & C) k P Q E. simpl in *.
  destruct C as [C|[(k' & d & -> & C)|(k' & -> & C & C')]].
  - destruct (C k) as [C1 C2]. destruct (split_tail _ _ C2 _ _ _ E) as (Q' & -> & Z).
    destruct (I _ _ _ Z) as [I1 I2]. split; [auto|]. rewrite content_app, I2, C1. reflexivity.
  - destruct (split_tail (IEof k) [IFile k' d]) with (P := P) (S := sent s) (Q := Q) as (Q' & -> & Z); auto.
    { intros [Z|[]]; discriminate. }
    destruct (I _ _ _ Z) as [I1 I2]. split; [auto|]. rewrite content_app, I2. destruct k, k'; simpl; auto; congruence.
  - assert (KD : k = k' \/ k <> k') by (destruct k, k'; auto; right; discriminate). destruct KD as [-> |KD].
    + assert (Z : Q = []).
      { destruct (@exists_last _ (IEof k' :: Q)) as (Q' & z & EQ); [discriminate|]. rewrite EQ, app_assoc in E. apply app_inj_tail in E. destruct E as [E <-].
        destruct Q' as [|q Q']; simpl in EQ; inversion EQ; subst; auto. exfalso.
        destruct (I k' _ _ E) as [I1 _]. congruence. }
      subst. auto.
    + destruct (split_tail (IEof k) [IEof k']) with (P := P) (S := sent s) (Q := Q) as (Q' & -> & Z); auto.
      { intros [Z|[]]; congruence. }
      destruct (I _ _ _ Z) as [I1 I2]. split; [auto|]. rewrite content_app, I2. destruct k; reflexivity.
Qed.

Lemma seals_none r r' : (forall k, f_complete (get_file k r) = true -> f_complete (get_file k r') = true) -> seals r r' [].
Proof. intros H. split; [exact H|]. left. intros []; auto. Qed.

Lemma handle_complete i r m r1 x l n : handle i r m = (r1, x, l) -> forall k, f_complete (get_file k r) = true ->
  f_complete (get_file k (if is_failure x then r1 else advance r1 n)) = true.
Proof.
  intros E k F. assert (G : f_complete (get_file k r1) = true).
  { destruct m as [fl|k' d|k'|hi ids|co id d|id| |er re]; simpl in E.
    - apply process_hello_ret in E. destruct E as [(_ & _ & Z)|(_ & _ & Z)]; rewrite Z; destruct k; exact F.
    - unfold process_file in E. destruct (f_complete (get_file k' r)); [inversion E; subst; exact F|].
      destruct (f_fd _); [destruct (io_fwrite i)|]; inversion E; subst; auto; destruct k, k'; exact F.
    - unfold process_eof in E. destruct (f_complete (get_file k' r)); inversion E; subst; auto; destruct k, k'; auto; exact F.
    - destruct (queue_ids (io_enq i) ids hi) as [[e|] ll]; inversion E; subst; exact F.
    - destruct (negb (cached r)); [inversion E; subst; exact F|]. destruct (io_save i) as [[]|]; inversion E; subst; destruct k; exact F.
    - destruct (negb (cached r)); [inversion E; subst; exact F|]. destruct (io_missing i) as [[]|]; inversion E; subst; destruct k; exact F.
    - unfold process_goodbye in E. destruct (install_both i r) as [[ra xa] la] eqn:Q. apply install_both_still in Q.
      destruct Q as ((_ & _ & _ & A5) & _). destruct xa; inversion E; subst; rewrite <- (A5 k) in F; destruct k; exact F.
    - destruct (negb (er =? 0)); inversion E; subst; exact F. }
  destruct (is_failure x); auto; destruct k; exact G.
Qed.

Lemma did_seals i r r' x l : did i r r' x l -> seals r r' (taken l).
Proof.
  intros D.
  assert (RS : forall r1, resized r r1 -> forall k, f_complete (get_file k r1) = f_complete (get_file k r)).
  { intros r1 Z k. destruct Z as [-> |(n & -> & _)]; destruct k; reflexivity. }
  assert (RA : forall r1 b, resized r r1 -> forall k, f_complete (get_file k (append_out r1 b)) = f_complete (get_file k r)).
  { intros r1 b Z k. rewrite <- (RS _ Z k). destruct k; reflexivity. }
  destruct D as [dn dx D1 D2|de D1 D2|D1|dm drest dr dx dl D1 D2 D3 D4 D5|D1 D2 D3|dr dhi dx dl D1 D2 D3 D4 D5 D6 D7 D8 D9 D10 D11|dr D1 D2|dr dk dd D1 D2 D3 D4 D5 D6 D7|dr dk D1 D2 D3 D4 D5 D6 D7|dr dk D1 D2 D3 D4 D5 D6 D7
      |dr de D1 D2 D3|dr dd D1 D2 D3 D4|dr de D1 D2 D3|dr D1 D2 D3 D4 D5].
  - apply seals_none. intros k Z. destruct k; exact Z.
  - apply seals_none. auto.
  - apply seals_none. intros k Z. destruct k; exact Z.
  - destruct (handle_aside _ _ _ _ _ _ D5) as (_ & -> & _). apply seals_none. eapply handle_complete; eauto.
  - apply seals_none. auto.
  - destruct (deqs_maps _ _ D9) as (_ & -> & _). split.
    + intros k Z. rewrite RA by assumption. exact Z.
    + left. intros k. split; [|intros Z; apply in_map_iff in Z; destruct Z as (y & Z & _); discriminate].
      generalize (dequeued dl). intros ids. induction ids as [|id ids IH]; auto.
  - apply seals_none. intros k Z. rewrite RS by assumption. exact Z.
  - split; [intros k' Z; rewrite RA by assumption; exact Z|]. right; left. exists dk, dd. auto.
  - split.
    + intros k' Z. pose proof (RS _ D5 k') as Y. rewrite Z in Y. destruct dk, k'; auto.
    + right; right. exists dk. split; [reflexivity|]. split; [exact D7|]. destruct dk; reflexivity.
  - apply seals_none. intros k' Z. rewrite RS by assumption. exact Z.
  - apply seals_none. intros k' Z. rewrite RS by assumption. exact Z.
  - split; [|left; intros []; auto]. intros k Z. rewrite <- (RS _ D3 k) in Z. destruct k; exact Z.
  - apply seals_none. intros k' Z. rewrite RS by assumption. exact Z.
  - apply seals_none. intros k' Z. rewrite RS by assumption. exact Z.
Qed.

Lemma step_seals i r r' x l : bytes_ok (inbuf r) = true -> step i r = (r', x, l) -> Forall honoured l -> seals r r' (taken l).
Proof.
  intros B E H. destruct (eof_dec (state r)) as [Z|NE].
  { rewrite step_eof in E by exact Z. inversion E; subst. apply seals_none. auto. }
  destruct (step_did i r r' _ l NE B E H) as (r1 & l1 & l2 & K & OP & -> & D). destruct (app4 l1 l2 OP) as (_ & -> & _).
  pose proof (k_complete _ _ K) as KC.
  destruct D as [(e & _ & -> & -> & _)|D].
  - apply seals_none. intros k Z. rewrite KC. exact Z.
  - apply did_seals in D. destruct D as [D1 D2]. split.
    + intros k Z. apply D1. rewrite KC. exact Z.
    + destruct D2 as [D2|[(k & d & D2 & D3)|(k & D2 & D3 & D4)]]; [left; exact D2|right; left; exists k, d; rewrite <- KC; auto|right; right; exists k; rewrite <- KC; auto].
Qed.

Lemma call_seals c r r' x : perform c r = (r', x) -> seals r r' match x with Ok _ => [put c] | _ => [] end.
Proof.
  intros E.
  assert (SAME : forall r2 y, (r2, y) = (r', x) -> (forall k, f_complete (get_file k r) = true -> f_complete (get_file k r2) = true) ->
    (forall k d, put c <> IFile k d) -> (forall k, put c <> IEof k) -> seals r r' match x with Ok _ => [put c] | _ => [] end).
  { intros r2 y Z Z1 Z2 Z3. inversion Z; subst. split; auto. left. intros k. destruct x; auto. split.
    - simpl. destruct (put c) as [[] ?|[]| | | | |]; destruct k; auto; exfalso; eapply Z2; eauto.
    - intros [Y|[]]. eapply Z3; eauto. }
  assert (SELF : forall r2 (y : res unit), (r2, y) = (r', x) -> r2 = r -> (forall u, y <> Ok u) -> seals r r' match x with Ok _ => [put c] | _ => [] end).
  { intros r2 y Z Z1 Z2. inversion Z; subst. destruct x; try (apply seals_none; auto). exfalso. eapply Z2; reflexivity. }
  destruct c as [id co d|id|k d|k|i|er msg]; simpl in E.
  - unfold put_chunk in E. repeat (destruct (_ : bool) in E; [eapply SAME; [exact E|..]; auto; discriminate|]).
    destruct (can_put_chunk r) as [[]| | |]; try (eapply SAME; [exact E|..]; auto; discriminate).
    destruct (P_SIZE_MAX <? _); (eapply SAME; [exact E|..]; auto; try discriminate); intros []; auto.
  - unfold put_missing in E. repeat (destruct (_ : bool) in E; [eapply SAME; [exact E|..]; auto; discriminate|]).
    destruct (can_put_chunk r) as [[]| | |]; (eapply SAME; [exact E|..]; auto; try discriminate); intros []; auto.
  - unfold put_file in E. destruct (len d =? 0); [eapply SELF; [exact E|..]; auto; discriminate|]. destruct (_ && _); [eapply SELF; [exact E|..]; auto; discriminate|].
    destruct (can_put_file r k) as [[]| | |] eqn:CP; try (eapply SELF; [exact E|..]; auto; discriminate).
    destruct (P_SIZE_MAX <? _); [eapply SELF; [exact E|..]; auto; discriminate|]. inversion E; subst. split; [intros []; auto|].
    right; left. exists k, d. split; [reflexivity|]. unfold can_put_file in CP. destruct (_ && _) in CP; [discriminate|].
    destruct (state r); try discriminate; destruct (f_complete _); try discriminate; auto.
  - unfold put_eof in E. destruct (_ && _); [eapply SELF; [exact E|..]; auto; discriminate|].
    destruct (can_put_file r k) as [[]| | |] eqn:CP; try (eapply SELF; [exact E|..]; auto; discriminate).
    inversion E; subst. split; [intros k' Z; destruct k, k'; auto|]. right; right. exists k. split; [reflexivity|]. split; [|destruct k; reflexivity].
    unfold can_put_file in CP. destruct (_ && _) in CP; [discriminate|]. destruct (state r); try discriminate; destruct (f_complete _); try discriminate; auto.
  - destruct (goodbye i r) as [[r2 y] l] eqn:G. inversion E; subst. unfold goodbye in G.
    assert (Q : forall k, f_complete (get_file k r) = true -> f_complete (get_file k r') = true).
    { intros k Z. destruct (state r); try (inversion G; subst; exact Z); (destruct (sent_goodbye r); [inversion G; subst; exact Z|]);
      destruct (install_both i r) as [[ra xa] la] eqn:F; apply install_both_still in F; destruct F as ((_ & _ & _ & A) & _); rewrite <- A in Z;
      destruct xa; inversion G; subst; destruct k; exact Z. }
    eapply SAME; [reflexivity|exact Q|discriminate|discriminate].
  - unfold abort in E. destruct (INT32_MAX <=? er); [eapply SAME; [exact E|..]; auto; discriminate|].
    destruct (state r); try (eapply SAME; [exact E|..]; auto; discriminate); (destruct (sent_goodbye r); (eapply SAME; [exact E|..]; auto; try discriminate); intros []; auto).
Qed.

Lemma sealed_talk fair r1 r2 t : new r1 -> new r2 -> conversation fair r1 r2 t -> sealed (one t) /\ sealed (two t).
Proof.
  intros N1 N2 C.
  assert (ACT : forall a b p q a' p' q', conversation fair r1 r2 (mkTalk a b p q) \/ conversation fair r1 r2 (mkTalk b a q p) -> sealed a -> acts fair a q p a' q' p' -> sealed a').
  { intros a b p q a' p' q' T S A.
    assert (B : bytes_ok (inbuf (endpoint a)) = true).
    { destruct T as [T|T]; destruct (talking _ _ _ _ N1 N2 T) as (S1 & R1 & S2 & R2 & D1 & D2); simpl in *; [apply (dir_bytes _ _ _ _ _ D2)|apply (dir_bytes _ _ _ _ _ D1)]. }
    inversion A; subst; apply seal; auto; [eapply step_seals; eauto|eapply call_seals; eauto]. }
  induction C as [|a b p q a' p' q' C (I1 & I2) A|a b p q b' p' q' C (I1 & I2) A]; simpl in *.
  - split; intros k P Q E; destruct P; discriminate.
  - split; auto. eapply ACT; [left; exact C|exact I1|exact A].
  - split; auto. eapply ACT; [right; exact C|exact I2|exact A].
Qed.

Lemma whole_file k got sent : prefix got sent -> (forall P Q, sent = P ++ IEof k :: Q -> content k Q = []) ->
  prefix (content k got) (content k sent) /\ (In (IEof k) got -> content k got = content k sent).
Proof.
  intros (T & ->) H. split; [exists (content k T); apply content_app|].
  intros I. apply in_split in I. destruct I as (P & Q & ->). specialize (H P (Q ++ T)). rewrite <- app_assoc in H.
  specialize (H eq_refl). rewrite content_app in H. apply app_eq_nil in H. destruct H as [_ H]. rewrite !content_app, H. rewrite app_nil_r. reflexivity.
Qed.

(** ** Bounds *)

Lemma handle_size i r m r1 x l : handle i r m = (r1, x, l) -> frame_size r1 = frame_size r.
Proof.
  intros E. destruct m as [fl|k' d|k'|hi ids|co id d|id| |er re]; simpl in E.
  - apply process_hello_ret in E. destruct E as [(_ & _ & Z)|(_ & _ & Z)]; rewrite Z; reflexivity.
  - unfold process_file in E. destruct (f_complete (get_file k' r)); [inversion E; subst; auto|].
    destruct (f_fd _); [destruct (io_fwrite i)|]; inversion E; subst; auto; destruct k'; auto.
  - unfold process_eof in E. destruct (f_complete (get_file k' r)); inversion E; subst; auto; destruct k'; auto.
  - destruct (queue_ids (io_enq i) ids hi) as [[e|] ll]; inversion E; subst; auto.
  - destruct (negb (cached r)); [inversion E; subst; auto|]. destruct (io_save i) as [[]|]; inversion E; subst; auto.
  - destruct (negb (cached r)); [inversion E; subst; auto|]. destruct (io_missing i) as [[]|]; inversion E; subst; auto.
  - unfold process_goodbye in E. destruct (install_both i r) as [[ra xa] la] eqn:Q.
    assert (A : frame_size ra = frame_size r).
    { unfold install_both in Q. assert (FI : forall r k a r1 x l, file_install r k a = (r1, x, l) -> frame_size r1 = frame_size r).
      { clear. intros r k a r1 x l E. unfold file_install in E. destruct (negb _); [inversion E; auto|]. destruct (negb _); [inversion E; auto|].
        destruct (negb _); [inversion E; auto|]. destruct a; inversion E; auto. destruct k; reflexivity. }
      destruct (file_install r Index _) as [[rb xb] lb] eqn:F1. apply FI in F1. destruct xb; [inversion Q; subst; auto|].
      destruct (file_install rb Archive _) as [[rc xc] lc] eqn:F2. apply FI in F2. inversion Q; subst. congruence. }
    destruct xa; inversion E; subst; auto.
  - destruct (negb (er =? 0)); inversion E; subst; auto.
Qed.

Definition bounded (r : rem) : Prop := bytes_ok (inbuf r) = true /\ len (inbuf r) <= 16777216 /\ frame_size r <= 16777216.

Lemma read_bound f a b : f <= 16777216 -> a < N.max f REMOTE_BUFFER_SIZE -> b <= N.max f REMOTE_BUFFER_SIZE - a -> a + b <= 16777216.
Proof. unfold REMOTE_BUFFER_SIZE. lia. Qed.

Lemma did_bounded i r r' x l : did i r r' x l -> Forall honoured l -> bytes_ok (incoming l) = true -> bounded r -> bounded r'.
Proof.
  intros D H BI (B1 & B2 & B3).
  assert (RS : forall r1, resized r r1 -> inbuf r1 = inbuf r /\ frame_size r1 <= 16777216).
  { intros r1 [-> |(n & -> & Z)]; auto. }
  assert (RB : forall r1, resized r r1 -> bounded r1).
  { intros r1 Z. destruct (RS _ Z) as [Z1 Z2]. unfold bounded. rewrite Z1. auto. }
  destruct D as [dn dx D1 D2|de D1 D2|D1|dm drest dr dx dl D1 D2 D3 D4 D5|D1 D2 D3|dr dhi dx dl D1 D2 D3 D4 D5 D6 D7 D8 D9 D10 D11|dr D1 D2|dr dk dd D1 D2 D3 D4 D5 D6 D7|dr dk D1 D2 D3 D4 D5 D6 D7|dr dk D1 D2 D3 D4 D5 D6 D7
      |dr de D1 D2 D3|dr dd D1 D2 D3 D4|dr de D1 D2 D3|dr D1 D2 D3 D4 D5]; try (apply RB; assumption); try (destruct (RB _ D5) as (Z1 & Z2 & Z3); split; [exact Z1|split; [exact Z2|exact Z3]]; fail).
  - split; auto.
  - split; auto.
  - split; auto.
  - destruct (handle_aside _ _ _ _ _ _ D5) as ((_ & A & _) & _). apply handle_size in D5. destruct (is_failure dx).
    + unfold bounded. rewrite A, D5. auto.
    + unfold bounded, advance. simpl. rewrite A. split; [apply bytes_ok_dropN; exact B1|]. rewrite len_dropN. lia.
  - split; auto.
  - destruct (RB _ D5) as (Z1 & Z2 & Z3). destruct dk; split; auto.
  - simpl in BI. rewrite app_nil_r in BI. destruct (RS _ D3) as [Z1 Z2]. split; [|split; [|exact Z2]]; simpl.
    + rewrite bytes_ok_app, B1, BI. reflexivity.
    + destruct (Forall_inv H) as [_ Z]. rewrite len_app. unfold read_size in D4, Z. apply (read_bound (frame_size dr)); assumption.
Qed.

Lemma reached_bounded r : reached r -> bounded r.
Proof.
  induction 1 as [r H|r i r' x l R IH E H B|r c r' x R IH H E].
  - destruct (new_state _ H) as (A1 & A2 & A3 & A4 & A5 & A6 & A7 & A8 & A9 & A10 & _). unfold bounded. rewrite A2, A10. split; [reflexivity|]. change (@len N []) with 0. split; lia.
  - destruct (eof_dec (state r)) as [Z|NE].
    { rewrite step_eof in E by exact Z. inversion E; subst. exact IH. }
    destruct (step_did i r r' _ l NE (proj1 IH) E H) as (r1 & l1 & l2 & K & OP & -> & D). destruct (app4 l1 l2 OP) as (_ & _ & _ & A).
    rewrite A in B. apply Forall_app in H.
    assert (B1 : bounded r1) by (unfold bounded; rewrite (k_in _ _ K), (k_size _ _ K); exact IH).
    destruct D as [(e & _ & -> & -> & _)|D]; [exact B1|]. eapply did_bounded; eauto; apply H.
  - destruct (call_sends _ _ _ _ H E) as (M & _ & _ & _ & I & _). unfold bounded. rewrite I.
    assert (F : frame_size r' = frame_size r); [|rewrite F; exact IH].
    destruct c as [id co d|id|k d|k|i|er msg]; simpl in E.
    + unfold put_chunk in E. destruct (len d <? 1); [inversion E; subst; auto|]. destruct (CHUNK_SIZE_LIMIT_MAX <? len d); [inversion E; subst; auto|]. destruct (_ && _); [inversion E; subst; auto|]. destruct (can_put_chunk r) as [[]| | |]; try (inversion E; subst; auto; fail).
      destruct (P_SIZE_MAX <? _); inversion E; subst; auto.
    + unfold put_missing in E. destruct (_ && _); [inversion E; subst; auto|]. destruct (can_put_chunk r) as [[]| | |]; inversion E; subst; auto.
    + unfold put_file in E. destruct (len d =? 0); [inversion E; subst; auto|]. destruct (_ && _); [inversion E; subst; auto|].
      destruct (can_put_file r k) as [[]| | |]; try (inversion E; subst; auto; fail). destruct (P_SIZE_MAX <? _); inversion E; subst; auto.
    + unfold put_eof in E. destruct (_ && _); [inversion E; subst; auto|]. destruct (can_put_file r k) as [[]| | |]; inversion E; subst; auto. destruct k; auto.
    + destruct (goodbye i r) as [[r2 y] l] eqn:G. inversion E; subst. unfold goodbye in G.
      assert (FI : forall r k a r1 x l, file_install r k a = (r1, x, l) -> frame_size r1 = frame_size r).
      { clear. intros r k a r1 x l E. unfold file_install in E. destruct (negb _); [inversion E; auto|]. destruct (negb _); [inversion E; auto|].
        destruct (negb _); [inversion E; auto|]. destruct a; inversion E; auto. destruct k; reflexivity. }
      destruct (state r); try (inversion G; subst; auto; fail); (destruct (sent_goodbye r); [inversion G; subst; auto|]);
      unfold install_both in G; destruct (file_install r Index _) as [[rb xb] lb] eqn:F1; apply FI in F1; (destruct xb; [inversion G; subst; auto|]);
      destruct (file_install rb Archive _) as [[rc xc] lc] eqn:F2; apply FI in F2; destruct xc; inversion G; subst; simpl; congruence.
    + unfold abort in E. destruct (INT32_MAX <=? er); [inversion E; subst; auto|]. destruct (state r); try (inversion E; subst; auto; fail); destruct (sent_goodbye r); inversion E; subst; auto.
Qed.

(** A step that returns [Poll] leaves room for input and waits for it. *)
Lemma step_poll i r r' l : bytes_ok (inbuf r) = true -> step i r = (r', Poll, l) -> Forall honoured l ->
  sent_hello r' = true /\ undecided (inbuf r') /\ fst (io_events r') = true /\ io_read i = GAgain.
Proof.
  intros B E H. destruct (eof_dec (state r)) as [Z|NE].
  { rewrite step_eof in E by exact Z. discriminate. }
  destruct (step_did i r r' _ l NE B E H) as (r1 & l1 & l2 & K & OP & -> & D).
  destruct D as [(e & Z & _)|D]; [discriminate|]. remember Poll as x eqn:EX. destruct D as [dn dx D1 D2|de D1 D2|D1|dm drest dr dx dl D1 D2 D3 D4 D5|D1 D2 D3|dr dhi dx dl D1 D2 D3 D4 D5 D6 D7 D8 D9 D10 D11|dr D1 D2|dr dk dd D1 D2 D3 D4 D5 D6 D7|dr dk D1 D2 D3 D4 D5 D6 D7|dr dk D1 D2 D3 D4 D5 D6 D7
      |dr de D1 D2 D3|dr dd D1 D2 D3 D4|dr de D1 D2 D3|dr D1 D2 D3 D4 D5]; try discriminate.
  - destruct D2; congruence.
  - exfalso. subst. eapply handle_not_poll; eauto.
  - subst. destruct D11; discriminate.
  - destruct dk; discriminate.
  - assert (II : inbuf dr = inbuf r1) by (destruct D3 as [-> |(n & -> & _)]; reflexivity).
    assert (HH : sent_hello dr = sent_hello r1) by (destruct D3 as [-> |(n & -> & _)]; reflexivity).
    rewrite II, HH. repeat apply conj; auto. unfold io_events. simpl. rewrite II. apply N.ltb_lt. exact D4.
Qed.

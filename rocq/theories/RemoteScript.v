(** Conversations computed from a script, for the examples. *)
From Coq Require Import List NArith Bool Lia.
From Verif Require Import Base Remote RemoteSpec.
Import ListNotations.
Open Scope N_scope.

(** A step with the surroundings a function of the bytes that are waiting, or a call. *)
Inductive act := AStep (surroundings : bytes -> io) | ACall (c : call).

Definition honouredb (e : effect) : bool :=
  match e with
  | EWrite offered n => n <=? len offered
  | ERead asked data => negb (len data =? 0) && (len data <=? asked)
  | EFileRead _ data => negb (len data =? 0) && (len data <=? 65536) && bytes_ok data
  | EDequeue only id high => (len id =? 32) && bytes_ok id && match only with Some p => Bool.eqb high p | None => true end
  | _ => true
  end.

Lemma honouredb_ok e : honouredb e = true -> honoured e.
Proof.
  destruct e; simpl; auto; rewrite ?andb_true_iff, ?negb_true_iff, ?N.leb_le, ?N.eqb_eq, ?N.eqb_neq.
  - intros [[A B] C]. split; [split; auto|]. destruct only; auto. apply Bool.eqb_prop. exact C.
  - intros [[A B] C]. repeat split; auto. intros ->. apply A. reflexivity.
  - auto.
  - intros [A B]. split; auto. intros ->. apply A. reflexivity.
Qed.

Definition call_okb (c : call) : bool :=
  match c with
  | CPutChunk id _ data => (len id =? 32) && bytes_ok id && bytes_ok data
  | CPutMissing id => (len id =? 32) && bytes_ok id
  | CPutFile _ data => bytes_ok data
  | CPutEof _ | CGoodbye _ => true
  | CAbort _ message => bytes_ok message && (len message <? 2 ^ 63)
  end.

Lemma call_okb_ok c : call_okb c = true -> call_ok c.
Proof. destruct c; cbn [call_okb call_ok]; rewrite ?andb_true_iff, ?N.eqb_eq, ?N.ltb_lt; unfold is_id; tauto. Qed.

Definition politeb (r : rem) (c : call) : bool :=
  match c with
  | CGoodbye _ => sent_hello r
  | CAbort _ reason => forallb (fun c => 32 <=? c) reason && (len reason <=? 16777216 - 25)
  | _ => true
  end.

Lemma politeb_ok r c : politeb r c = true -> polite r c.
Proof.
  destruct c; cbn [politeb polite]; auto. rewrite andb_true_iff, forallb_forall, N.leb_le. intros [A B]. split; auto.
  apply Forall_forall. intros x I. apply N.leb_le. auto.
Qed.

Fixpoint drop_prefix (p l : bytes) : option bytes :=
  match p, l with
  | [], _ => Some l
  | a :: p, b :: l => if a =? b then drop_prefix p l else None
  | _ :: _, [] => None
  end.

Lemma drop_prefix_ok p : forall l r, drop_prefix p l = Some r -> l = p ++ r.
Proof.
  induction p as [|a p IH]; intros l r E; simpl in E; [inversion E; auto|].
  destruct l as [|b l]; [discriminate|]. destruct (a =? b) eqn:Z; [|discriminate]. apply N.eqb_eq in Z. subst. simpl. f_equal. auto.
Qed.

Definition play (fairb : rem -> call -> bool) (s : side) (from to : bytes) (a : act) : option (side * bytes * bytes) :=
  match a with
  | AStep f =>
    let '(r, x, l) := step (f from) (endpoint s) in
    if failed s then None
    else if negb (forallb honouredb l) then None
    else match drop_prefix (incoming l) from with
         | None => None
         | Some from' => Some (mkSide r (is_failure x) (sent s ++ taken l) (got s ++ delivered (r, x, l)), from', to ++ outgoing l)
         end
  | ACall c =>
    let '(r, x) := perform c (endpoint s) in
    if call_okb c && fairb (endpoint s) c
    then Some (mkSide r (failed s) (sent s ++ match x with Ok _ => [put c] | _ => [] end) (got s), from, to)
    else None
  end.

Definition play_on (fairb : rem -> call -> bool) (t : talk) (w : bool * act) : option talk :=
  if fst w then
    match play fairb (one t) (two_one t) (one_two t) (snd w) with
    | Some (s, from, to) => Some (mkTalk s (two t) to from)
    | None => None
    end
  else
    match play fairb (two t) (one_two t) (two_one t) (snd w) with
    | Some (s, from, to) => Some (mkTalk (one t) s from to)
    | None => None
    end.

Fixpoint play_all (fairb : rem -> call -> bool) (t : talk) (w : list (bool * act)) : option talk :=
  match w with
  | [] => Some t
  | a :: w => match play_on fairb t a with Some t => play_all fairb t w | None => None end
  end.

Lemma play_ok (fair : rem -> call -> Prop) fairb s from to a s' from' to' : (forall r c, fairb r c = true -> fair r c) ->
  play fairb s from to a = Some (s', from', to') -> acts fair s from to s' from' to'.
Proof.
  intros F E. destruct a as [f|c]; simpl in E.
  - destruct (step (f from) (endpoint s)) as [[r x] l] eqn:S.
    destruct (failed s) eqn:FA; [discriminate|]. destruct (negb (forallb honouredb l)) eqn:H; [discriminate|].
    destruct (drop_prefix (incoming l) from) as [g|] eqn:D; [|discriminate]. inversion E; subst.
    apply (acts_step fair s from to (f from) r x l); auto.
    + apply negb_false_iff in H. rewrite forallb_forall in H. apply Forall_forall. intros e I. apply honouredb_ok; auto.
    + apply drop_prefix_ok; exact D.
  - destruct (perform c (endpoint s)) as [r x] eqn:S. destruct (call_okb c && fairb (endpoint s) c) eqn:C; [|discriminate].
    apply andb_true_iff in C. destruct C as [C1 C2]. inversion E; subst. apply acts_call; auto using call_okb_ok.
Qed.

Theorem played (fair : rem -> call -> Prop) fairb r1 r2 w : (forall r c, fairb r c = true -> fair r c) -> forall t t',
  conversation fair r1 r2 t -> play_all fairb t w = Some t' -> conversation fair r1 r2 t'.
Proof.
  intros F. induction w as [|[b a] w IH]; intros t t' C E; simpl in E; [inversion E; subst; exact C|].
  unfold play_on in E. destruct b; simpl in E.
  - destruct (play fairb (one t) (two_one t) (one_two t) a) as [[[s from] to]|] eqn:P; [|discriminate].
    apply (IH _ _) in E; auto. destruct t as [u v p q]. eapply c_one; [exact C|]. eapply play_ok; eauto.
  - destruct (play fairb (two t) (one_two t) (two_one t) a) as [[[s from] to]|] eqn:P; [|discriminate].
    apply (IH _ _) in E; auto. destruct t as [u v p q]. eapply c_two; [exact C|]. eapply play_ok; eauto.
Qed.

(** ** Actions *)
Definition calm_io : io := mkIo WAgain GAgain [] ENODATA [] FEof None None None None None None None.
(** A step that can read n bytes, one that can write n bytes, one that can do neither, one with requests waiting. *)
Definition takes (n : N) : act :=
  AStep (fun from => mkIo WAgain (match takeN n from with [] => GAgain | d => GSome d end) [] ENODATA [] FEof None None None None None None None).
Definition writes (n : N) : act := AStep (fun _ => mkIo (WSome n) GAgain [] ENODATA [] FEof None None None None None None None).
Definition waits : act := AStep (fun _ => calm_io).
Definition asks (l : list (bytes * bool)) : act := AStep (fun _ => mkIo WAgain GAgain l ENODATA [] FEof None None None None None None None).

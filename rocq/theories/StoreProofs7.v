(** Any number of processes working on one store directory: ownership of temporary files. *)
From Verif Require Import Base ChunkId ChunkIdProofs Posix PosixProofs ChunkFile Store StoreSpec StoreProofs1 StoreProofs2 StoreProofs3 StoreProofs4 StoreProofs5.
Local Open Scope N_scope.
Local Opaque BUFFER_SIZE CHUNK_LIMIT_MAX CHUNK_LIMIT_MIN.

(** What a process has in hand: nothing, a temporary file it is writing (name, descriptor, content so far), or one which it has linked
    to the final name. And the descriptors it reads from. *)
Inductive own := Idle | Owns (T : list N) (fd : nat) (c : list N) | Linked (T : list N).
Record ghost := { g_own : own; g_rd : list nat }.

Definition owned (g : ghost) : option (list N) :=
  match g_own g with Idle => None | Owns T _ _ => Some T | Linked T => Some T end.

Definition with_own (g : ghost) (o : own) : ghost := {| g_own := o; g_rd := g_rd g |}.
Definition with_rd (g : ghost) (fd : nat) : ghost := {| g_own := g_own g; g_rd := fd :: g_rd g |}.

Section Conc.
Context (codecs : ctype -> option codec) (genuine : list N -> list N -> Prop) (root : list N).

Definition final (q : list N) : Prop := exists id c, id_ok id = true /\ (c = UNCOMPRESSED \/ c = COMPRESSED) /\ q = chunk_name root id c.
Definition temp (q : list N) : Prop := exists id v, id_ok id = true /\ q = chunk_id_format_path root id (tmp_suffix v).
Definition complete (q content : list N) : Prop :=
  exists id c p, id_ok id = true /\ (c = UNCOMPRESSED \/ c = COMPRESSED) /\ q = chunk_name root id c /\
    represents codecs c content p /\ genuine id p /\ len content < CHUNK_LIMIT_MAX.

Lemma temp_not_final q : temp q -> ~ final q.
Proof.
  intros (id & v & Hid & ->) (id' & c & Hid' & _ & E). unfold chunk_name in E. apply path_inj in E; [|assumption..]. destruct E as [_ E].
  destruct (tmp_not_final v). destruct c; congruence.
Qed.

(** [safe Q g p]: with [g] in hand, [p] makes only calls that keep the store intact. *)
Fixpoint safe {A} (Q : ghost -> A -> Prop) (g : ghost) (p : prog A) {struct p} : Prop :=
  match p with
  | Ret a => Q g a
  | Hang => True
  | Sys c k =>
    (forall e, safe Q g (k (RFail e))) /\
    match c with
    | SMkdir q => ~ final q /\ ~ temp q /\ forall n, safe Q g (k (RNum n))
    | SRmdir q => ~ temp q /\ forall n, safe Q g (k (RNum n))
    | SAccess _ | SRandom | SOpenDir _ => forall n, safe Q g (k (RNum n))
    | SList _ => forall l, safe Q g (k (RNames l))
    | SUnlink q => (final q /\ forall n, safe Q g (k (RNum n))) \/ (owned g = Some q /\ forall n, safe Q (with_own g Idle) (k (RNum n)))
    | SOpen q => forall fd, safe Q (with_rd g fd) (k (RFd fd))
    | SCreat q => temp q /\ forall fd, safe Q (with_own g (Owns q fd [])) (k (RFd fd))
    | SRead fd n => In fd (g_rd g) /\ forall b, safe Q g (k (RData b))
    | SWrite fd d => exists T c, g_own g = Owns T fd c /\ forall n, n <= len d -> safe Q (with_own g (Owns T fd (c ++ takeN n d))) (k (RNum n))
    | SRenameNoreplace p q | SRename p q => exists fd c, g_own g = Owns p fd c /\ complete q c /\ forall n, safe Q (with_own g Idle) (k (RNum n))
    | SLink p q => exists fd c, g_own g = Owns p fd c /\ complete q c /\ forall n, safe Q (with_own g (Linked p)) (k (RNum n))
    | SReadlink _ _ => forall b, safe Q g (k (RData b))
    | SSymlink _ q => final q /\ forall n, safe Q g (k (RNum n))
    end
  end.

Ltac safe_cases IH H2 :=
  match type of H2 with
  | _ \/ _ => destruct H2 as [[Ha Hc]|[Ha Hc]]; [left|right]; (split; [exact Ha|intros; apply IH; auto])
  | _ /\ _ /\ _ => destruct H2 as (Ha & Hb & Hc); split; [exact Ha|]; split; [exact Hb|]; intros; apply IH; auto
  | _ /\ _ => destruct H2 as [Ha Hc]; split; [exact Ha|]; intros; apply IH; auto
  | exists T c, _ /\ _ /\ _ => destruct H2 as (T & c0 & Ha & Hb & Hc); exists T, c0; split; [exact Ha|]; split; [exact Hb|]; intros; apply IH; auto
  | exists T c, _ /\ _ => destruct H2 as (T & c0 & Ha & Hc); exists T, c0; split; [exact Ha|]; intros; apply IH; auto
  | _ => intros; apply IH; auto
  end.

Lemma safe_mono {A} (Q R : ghost -> A -> Prop) p : forall g, (forall g a, Q g a -> R g a) -> safe Q g p -> safe R g p.
Proof.
  induction p as [a| |c k IH]; intros g HQ H; [apply HQ; exact H|exact I|]. cbn [safe] in *. destruct H as [H1 H2].
  split; [intros e; apply IH; auto|]. destruct c; safe_cases IH H2.
Qed.

Lemma safe_bind {A B} (p : prog A) (f : A -> prog B) Q : forall g, safe (fun g a => safe Q g (f a)) g p -> safe Q g (pbind p f).
Proof.
  induction p as [a| |c k IH]; intros g H; [exact H|exact I|]. cbn [safe pbind] in *. destruct H as [H1 H2].
  split; [intros e; apply IH; auto|]. destruct c; safe_cases IH H2.
Qed.

(** ** The invariant *)

Definition owner_ok (w : world) (g : ghost) : Prop :=
  (forall fd, In fd (g_rd g) -> (fd < length (w_fds w))%nat) /\
  match g_own g with
  | Idle => True
  | Owns T fd c =>
    ~ In fd (g_rd g) /\ temp T /\
    exists i, name_at w T = Some (NFile i) /\ nth_error (w_fds w) fd = Some (i, len c) /\ nth_error (w_inodes w) i = Some c /\
              forall q, name_at w q = Some (NFile i) -> q = T
  | Linked T => temp T /\ name_at w T <> None
  end.

Definition pair_ok (a b : ghost) : Prop :=
  (forall T, owned a = Some T -> owned b <> Some T) /\
  (forall T fd c, g_own a = Owns T fd c -> ~ In fd (g_rd b)) /\
  (forall T fd c, g_own b = Owns T fd c -> ~ In fd (g_rd a)).

Lemma pair_sym a b : pair_ok a b -> pair_ok b a.
Proof. intros (H1 & H2 & H3). split; [|split]; auto. intros T Hb Ha. exact (H1 T Ha Hb). Qed.

(** What the others may rely on. *)
Definition keeps (w w' : world) (g : ghost) : Prop :=
  (length (w_fds w) <= length (w_fds w'))%nat /\
  match g_own g with
  | Idle => True
  | Owns T fd c =>
    name_at w' T = name_at w T /\ nth_error (w_fds w') fd = nth_error (w_fds w) fd /\
    forall i, name_at w T = Some (NFile i) -> nth_error (w_inodes w') i = nth_error (w_inodes w) i /\
              forall q, name_at w' q = Some (NFile i) -> name_at w q = Some (NFile i)
  | Linked T => name_at w' T = name_at w T
  end.

Lemma keeps_ok w w' g : keeps w w' g -> owner_ok w g -> owner_ok w' g.
Proof.
  intros [H0 H] [H1 H2]. split; [intros fd Hin; specialize (H1 fd Hin); lia|]. destruct (g_own g) as [|T fd c|T]; [exact I| |].
  - destruct H as (A & B & C). destruct H2 as (D & E & i & F & G & J & K). split; [exact D|]. split; [exact E|]. exists i.
    destruct (C i F) as [C1 C2]. rewrite A, B, C1. repeat (split; [assumption|]). auto.
  - destruct H2 as [H2 H3]. split; [exact H2|]. congruence.
Qed.

(** Names stand for existing files. *)
Definition sound (w : world) : Prop := forall q i, name_at w q = Some (NFile i) -> (i < length (w_inodes w))%nat.

(** One step of one process: the store stays intact, its own state is right again, and the others' isn't touched. *)
Definition step_ok (w w' : world) (g g' : ghost) : Prop :=
  sound w' /\ intact codecs genuine root w' /\ owner_ok w' g' /\
  forall h, owner_ok w h -> pair_ok g h -> keeps w w' h /\ pair_ok g' h.

Lemma keeps_refl w g : keeps w w g.
Proof. split; [lia|]. destruct (g_own g); auto. Qed.

Lemma step_same w g : sound w -> intact codecs genuine root w -> owner_ok w g -> step_ok w w g g.
Proof. intros H1 H2 H3. split; [exact H1|]. split; [exact H2|]. split; [exact H3|]. intros h _ Hp. split; [apply keeps_refl|exact Hp]. Qed.

(** Adding or removing a name which is nobody's temporary file. *)
Lemma intact_name w q : intact codecs genuine root w -> final q -> name_at w q = None \/ (exists t, name_at w q = Some (NLink t)) \/ exists content, file_at w q = Some content /\ complete q content.
Proof.
  intros H (id & c & Hid & Hc & ->). destruct (H id c Hid Hc) as [E|[E|(content & p & Hf & Hr & Hg & Hl)]]; auto.
  right. right. exists content. split; [exact Hf|]. exists id, c, p. auto 6.
Qed.

Lemma intact_build w : (forall q, final q -> name_at w q = None \/ (exists t, name_at w q = Some (NLink t)) \/ exists content, file_at w q = Some content /\ complete q content) ->
  intact codecs genuine root w.
Proof.
  intros H id c Hid Hc. destruct (H (chunk_name root id c)) as [E|[E|(content & Hf & id' & c' & p & Hid' & Hc' & Eq & Hr & Hg & Hl)]]; auto.
  - exists id, c. auto.
  - right. right. exists content, p. unfold chunk_name in Eq. apply path_inj in Eq; [|assumption..]. destruct Eq as [-> Es].
    assert (c = c') as <- by (destruct Hc as [->| ->], Hc' as [->| ->]; congruence || discriminate). auto.
Qed.

Lemma nth_error_replace_len {A} (l : list A) i x j : nth_error (replace_nth l i x) j = nth_error l j \/ j = i.
Proof. destruct (Nat.eq_dec i j) as [->|H]; [right; reflexivity|left; apply nth_replace_other; exact H]. Qed.

(** A step that only changes names: what is needed of the names. *)
Lemma step_names w w' g g' :
  sound w -> intact codecs genuine root w -> owner_ok w g ->
  w_inodes w' = w_inodes w -> w_fds w' = w_fds w -> g_rd g' = g_rd g ->
  (forall q, final q -> name_at w' q = name_at w q \/ name_at w' q = None \/ (exists t, name_at w' q = Some (NLink t)) \/
             exists T fd c i, g_own g = Owns T fd c /\ complete q c /\ name_at w T = Some (NFile i) /\ name_at w' q = Some (NFile i)) ->
  (forall q, ~ final q -> temp q -> name_at w' q = name_at w q \/ owned g = Some q) ->
  (forall q i, name_at w' q = Some (NFile i) -> name_at w q = Some (NFile i) \/ exists T, owned g = Some T /\ name_at w T = Some (NFile i)) ->
  (g_own g' = g_own g /\ (forall T, owned g = Some T -> name_at w' T = name_at w T) /\
     (forall q i, name_at w' q = Some (NFile i) -> name_at w q = Some (NFile i))
   \/ g_own g' = Idle \/ (exists T fd c, g_own g = Owns T fd c /\ g_own g' = Linked T /\ name_at w' T <> None)) ->
  step_ok w w' g g'.
Proof.
  intros Hs Hi Ho Ei Ef Er Hfin Htmp Hnew Hown.
  assert (forall q c, name_at w' q = name_at w q -> file_at w q = Some c -> file_at w' q = Some c) as Hfile.
  { intros q c E. unfold file_at. rewrite E, Ei. auto. }
  split; [|split; [|split]].
  - intros q i Hq. rewrite Ei. destruct (Hnew q i Hq) as [H|(T & _ & H)]; exact (Hs _ _ H).
  - apply intact_build. intros q Hq. destruct (Hfin q Hq) as [E|[E|[E|(T & fd & c & i & E1 & E2 & E3 & E4)]]]; auto.
    + destruct (intact_name w q Hi Hq) as [H|[[t H]|(x & H & H')]]; [left; congruence|right; left; exists t; congruence|]. right. right. exists x. split; [apply Hfile; assumption|exact H'].
    + right. right. exists c. split; [|exact E2]. destruct Ho as [_ Ho]. rewrite E1 in Ho. destruct Ho as (_ & _ & i' & H1 & _ & H2 & _).
      unfold file_at. rewrite E4, Ei. replace i with i' by congruence. exact H2.
  - destruct Ho as [Ho1 Ho2]. split; [rewrite Er, Ef; exact Ho1|].
    destruct Hown as [(E & HT & Hn)|[E|(T & fd & c & E1 & E2 & E3)]].
    + rewrite E. unfold owned in HT. destruct (g_own g) as [|T fd c|T]; [exact I| |].
      * specialize (HT T eq_refl). destruct Ho2 as (A & B & i & C & D & F & G). rewrite Er. split; [exact A|]. split; [exact B|]. exists i.
        rewrite HT, Ef, Ei. split; [exact C|]. split; [exact D|]. split; [exact F|]. intros q Hq. apply G. apply Hn. exact Hq.
      * specialize (HT T eq_refl). destruct Ho2. split; [assumption|]. congruence.
    + rewrite E. exact I.
    + rewrite E2. rewrite E1 in Ho2. destruct Ho2 as (_ & B & _). split; [exact B|exact E3].
  - intros h Hh Hp. split.
    + split; [rewrite Ef; lia|]. destruct Hp as (Hp & _). destruct Hh as [_ Hh]. unfold owned in Hp at 2. destruct (g_own h) as [|T fd c|T]; [exact I| |].
      * destruct Hh as (_ & HtT & i & C & D & F & G).
        assert (name_at w' T = name_at w T) as E. { destruct (Htmp T) as [E|E]; [apply temp_not_final; exact HtT|exact HtT|exact E|]. exfalso. exact (Hp T E eq_refl). }
        split; [exact E|]. split; [rewrite Ef; reflexivity|]. intros i' Hi'. rewrite Ei. split; [reflexivity|]. intros q Hq.
        destruct (Hnew q i' Hq) as [H|(T' & H1 & H2)]; [exact H|]. exfalso. assert (i' = i) by congruence. subst i'.
        assert (T' = T) by (apply G; exact H2). subst T'. exact (Hp T H1 eq_refl).
      * destruct Hh as [HtT _]. destruct (Htmp T) as [E|E]; [apply temp_not_final; exact HtT|exact HtT|exact E|]. exfalso. exact (Hp T E eq_refl).
    + destruct Hp as (P1 & P2 & P3). split; [|split].
      * intros T HT. apply P1. destruct Hown as [(E & _)|[E|(T' & fd & c & E1 & E2 & _)]]; unfold owned in *; [rewrite E in HT; exact HT|rewrite E in HT; discriminate|].
        rewrite E2 in HT. rewrite E1. exact HT.
      * intros T fd c HT. destruct Hown as [(E & _)|[E|(T' & fd' & c' & E1 & E2 & _)]]; [|congruence..]. eapply P2. rewrite <- E. exact HT.
      * rewrite Er. exact P3.
Qed.

Lemma owned_temp w g T : owner_ok w g -> owned g = Some T -> temp T.
Proof.
  intros [_ Ho] HT. unfold owned in HT. destruct (g_own g) as [|T' fd c|T']; try discriminate; injection HT as ->; [destruct Ho as (_ & Ho & _)|destruct Ho as [Ho _]]; exact Ho.
Qed.

Lemma complete_final q c : complete q c -> final q.
Proof. intros (id & f & p & H1 & H2 & H3 & _). exists id, f. auto. Qed.

Lemma sys_rmdir2 f w p w' r : sys f w (SRmdir p) w' r -> (w' = w /\ exists e, r = RFail e) \/ (w' = del_name w p /\ r = RNum 0 /\ name_at w p = Some NDir).
Proof. intros H; inversion H; subst; eauto. Qed.

Lemma step_rename w g p q fd c nd : sound w -> intact codecs genuine root w -> owner_ok w g ->
  g_own g = Owns p fd c -> complete q c -> name_at w p = Some nd -> step_ok w (put_name (del_name w p) q nd) g (with_own g Idle).
Proof.
  intros Hs Hi Ho Eg Hc Ep. assert (final q) as Hfq by (eapply complete_final; eauto).
  assert (owned g = Some p) as Eo by (unfold owned; rewrite Eg; reflexivity).
  assert (temp p) as Htp by (eapply owned_temp; eauto).
  pose proof Ho as Ho'. destruct Ho' as [_ Ho2]. rewrite Eg in Ho2. destruct Ho2 as (_ & _ & i & Ei & _). assert (nd = NFile i) as -> by congruence.
  apply step_names; try assumption; try reflexivity.
  - intros x Hx. destruct (list_eq_dec N.eq_dec q x) as [->|Hne].
    + right. right. right. exists p, fd, c, i. rewrite name_put_same. auto.
    + left. rewrite name_put_other by exact Hne. apply name_del_other. intros ->. exact (temp_not_final _ Htp Hx).
  - intros x Hnf Hx. destruct (list_eq_dec N.eq_dec p x) as [->|Hne]; [right; exact Eo|left].
    rewrite name_put_other by (intros ->; contradiction). apply name_del_other. exact Hne.
  - intros x j. rewrite name_put. destruct (beq q x); [intros E; injection E as <-; right; exists p; auto|]. rewrite name_del. destruct (beq p x); [discriminate|auto].
  - right. left. reflexivity.
Qed.

(** Each call of a safe program is such a step. *)
Lemma step_preserves {Ty} (Q : ghost -> Ty -> Prop) w c (k : sysret -> prog Ty) g w' r :
  sound w -> intact codecs genuine root w -> owner_ok w g -> safe Q g (Sys c k) -> sys true w c w' r ->
  exists g', step_ok w w' g g' /\ safe Q g' (k r).
Proof.
  intros Hs Hi Ho Hsafe Hsys. cbn [safe] in Hsafe. destruct Hsafe as [Hfail Hsafe].
  assert (forall e, w' = w -> r = RFail e -> exists g', step_ok w w' g g' /\ safe Q g' (k r)) as Hf.
  { intros e -> ->. exists g. split; [apply step_same; assumption|apply Hfail]. }
  assert (forall n, (forall m, safe Q g (k (RNum m))) -> w' = w -> r = RNum n -> exists g', step_ok w w' g g' /\ safe Q g' (k r)) as Hn0.
  { intros n H -> ->. exists g. split; [apply step_same; assumption|apply H]. }
  destruct c as [q|q|q|q|q|fd n|fd d|q|p q|p q|p q|tgt q|q n|q|q|].
  - (* mkdir *)
    destruct Hsafe as (H1 & H2 & H3). destruct (sys_mkdir _ _ _ _ _ Hsys) as [(_ & -> & e & -> & _)|Hr]; [apply (Hf e); reflexivity|].
    destruct (name_at w q) eqn:En; destruct Hr as [-> ->]; [eapply Hf; reflexivity|]. exists g. split; [|apply H3].
    apply step_names; try assumption; try reflexivity.
    + intros x Hx. left. apply name_put_other. intros ->. contradiction.
    + intros x _ Hx. left. apply name_put_other. intros ->. contradiction.
    + intros x i. rewrite name_put. destruct (beq q x); [discriminate|auto].
    + left. split; [reflexivity|]. split.
      * intros T HT. apply name_put_other. intros ->. destruct Ho as [_ Ho]. unfold owned in HT. destruct (g_own g) as [|T' fd c|T']; try discriminate; injection HT as ->.
        -- destruct Ho as (_ & Ho & _). contradiction.
        -- destruct Ho as [Ho _]. contradiction.
      * intros x i. rewrite name_put. destruct (beq q x); [discriminate|auto].
  - (* rmdir *)
    destruct Hsafe as [Hq Hsafe]. destruct (sys_rmdir2 _ _ _ _ _ Hsys) as [(-> & e & ->)|(-> & -> & Hd)]; [apply (Hf e); reflexivity|].
    exists g. split; [|apply Hsafe].
    apply step_names; try assumption; try reflexivity.
    + intros x Hx. destruct (list_eq_dec N.eq_dec q x) as [->|Hne]; [right; left; rewrite name_del, beq_refl; reflexivity|left; apply name_del_other; exact Hne].
    + intros x Hnf Hx. left. apply name_del_other. intros ->. contradiction.
    + intros x i. rewrite name_del. destruct (beq q x); [discriminate|auto].
    + left. split; [reflexivity|]. split; [|intros x i; rewrite name_del; destruct (beq q x); [discriminate|auto]].
      intros T HT. apply name_del_other. intros ->. apply Hq. eapply owned_temp; eauto.
  - (* unlink *)
    destruct (sys_unlink _ _ _ _ _ Hsys) as [(_ & -> & e & -> & _)|Hr]; [apply (Hf e); reflexivity|].
    assert ((exists e, w' = w /\ r = RFail e) \/ (w' = del_name w q /\ r = RNum 0)) as [(e & -> & ->)|[-> ->]].
    { destruct (name_at w q) as [[| |]|]; destruct Hr as [-> ->]; eauto. }
    { apply (Hf e); reflexivity. }
    destruct Hsafe as [[Hq Hsafe]|[Hq Hsafe]].
    + exists g. split; [|apply Hsafe]. apply step_names; try assumption; try reflexivity.
      * intros x Hx. destruct (list_eq_dec N.eq_dec q x) as [->|Hne]; [right; left; rewrite name_del, beq_refl; reflexivity|left; apply name_del_other; exact Hne].
      * intros x Hnf Hx. left. apply name_del_other. intros ->. contradiction.
      * intros x i. rewrite name_del. destruct (beq q x); [discriminate|auto].
      * left. split; [reflexivity|]. split; [|intros x i; rewrite name_del; destruct (beq q x); [discriminate|auto]].
        intros T HT. apply name_del_other. intros ->. apply (temp_not_final T); [eapply owned_temp; eauto|exact Hq].
    + exists (with_own g Idle). split; [|apply Hsafe]. apply step_names; try assumption; try reflexivity.
      * intros x Hx. left. apply name_del_other. intros ->. apply (temp_not_final x); [eapply owned_temp; eauto|exact Hx].
      * intros x Hnf Hx. destruct (list_eq_dec N.eq_dec q x) as [->|Hne]; [right; exact Hq|left; apply name_del_other; exact Hne].
      * intros x i. rewrite name_del. destruct (beq q x); [discriminate|auto].
      * right. left. reflexivity.
  - (* open *)
    destruct (sys_open _ _ _ _ _ Hsys) as [(_ & -> & e & -> & _)|Hr]; [apply (Hf e); reflexivity|].
    destruct (name_at w q) as [[| |i]|] eqn:En; destruct Hr as [-> ->]; try (eapply Hf; reflexivity).
    exists (with_rd g (length (w_fds w))). split; [|apply Hsafe]. split; [exact Hs|]. split; [exact Hi|]. split.
    + destruct Ho as [Ho1 Ho2]. split.
      * cbn. rewrite app_length. cbn. intros fd [<-|Hin]; [lia|]. specialize (Ho1 _ Hin). lia.
      * cbn. destruct (g_own g) as [|T fd c|T]; [exact I| |exact Ho2]. destruct Ho2 as (A & B & i' & C & D & E & F).
        assert (fd < length (w_fds w))%nat by (apply nth_error_Some; congruence).
        split; [intros [Hx|Hx]; [lia|contradiction]|]. split; [exact B|]. exists i'. split; [exact C|]. split; [rewrite nth_error_app1 by lia; exact D|]. auto.
    + intros h Hh Hp. split.
      * split; [cbn; rewrite app_length; lia|]. destruct Hh as [_ Hh]. destruct (g_own h) as [|T fd c|T]; [exact I| |reflexivity].
        destruct Hh as (_ & _ & i' & C & D & _). assert (fd < length (w_fds w))%nat by (apply nth_error_Some; congruence).
        split; [reflexivity|]. split; [cbn; rewrite nth_error_app1 by lia; reflexivity|]. auto.
      * destruct Hp as (P1 & P2 & P3). split; [exact P1|]. split; [exact P2|]. intros T fd c HT. cbn. intros [Hx|Hx]; [|exact (P3 T fd c HT Hx)].
        destruct Hh as [_ Hh]. rewrite HT in Hh. destruct Hh as (_ & _ & i' & _ & D & _). assert (fd < length (w_fds w))%nat by (apply nth_error_Some; congruence). lia.
  - (* creat *)
    destruct Hsafe as [Hq Hsafe]. destruct (sys_creat _ _ _ _ _ Hsys) as [(_ & -> & e & -> & _)|Hr]; [apply (Hf e); reflexivity|].
    destruct (name_at w q) eqn:En; [destruct Hr as [-> ->]; eapply Hf; reflexivity|].
    destruct Hr as [(-> & -> & _)|(-> & -> & _)]; [eapply Hf; reflexivity|].
    exists (with_own g (Owns q (length (w_fds w)) [])). split; [|apply Hsafe].
    set (n := length (w_inodes w)).
    assert (forall x, name_at (add_fd (add_file w q) n) x = if beq q x then Some (NFile n) else name_at w x) as Hna by reflexivity.
    split; [|split; [|split]].
    + intros x i. rewrite Hna. cbn. rewrite app_length. cbn. destruct (beq q x).
      * intros E. injection E as <-. unfold n. lia.
      * intros E. specialize (Hs _ _ E). lia.
    + apply intact_build. intros x Hx. assert (beq q x = false) as Eb. { apply beq_neq. intros ->. apply (temp_not_final x Hq Hx). }
      rewrite Hna, Eb. destruct (intact_name w x Hi Hx) as [H|[H|(y & H & H')]]; [auto|auto|]. right. right. exists y. split; [|exact H'].
      unfold file_at in *. rewrite Hna, Eb. destruct (name_at w x) as [[| |i]|]; try discriminate. cbn. rewrite nth_error_app1; [exact H|]. apply nth_error_Some. congruence.
    + destruct Ho as [Ho1 _]. split.
      * cbn. rewrite app_length. cbn. intros fd Hin. specialize (Ho1 _ Hin). lia.
      * cbn [with_own g_own g_rd w_fds add_fd w_inodes add_file]. split; [intros Hin; specialize (Ho1 _ Hin); lia|]. split; [exact Hq|]. exists n. split; [rewrite Hna, beq_refl; reflexivity|].
        split; [rewrite nth_error_app2, Nat.sub_diag by lia; reflexivity|]. split; [unfold n; rewrite nth_error_app2, Nat.sub_diag by lia; reflexivity|].
        intros x. rewrite Hna. destruct (beq q x) eqn:Eb; [apply beq_eq in Eb; congruence|]. intros E. specialize (Hs _ _ E). unfold n in Hs. lia.
    + intros h Hh Hp. assert (forall T, owned h = Some T -> T <> q) as Hne.
      { intros T HT ->. destruct Hh as [_ Hh]. unfold owned in HT. destruct (g_own h); try discriminate; injection HT as ->.
        - destruct Hh as (_ & _ & i & Hx & _). congruence.
        - destruct Hh as [_ Hx]. congruence. }
      split.
      * split; [cbn; rewrite app_length; lia|]. unfold owned in Hne. destruct Hh as [_ Hh]. destruct (g_own h) as [|T fd c|T]; [exact I| |].
        -- specialize (Hne T eq_refl). destruct Hh as (_ & _ & i' & C & D & E & F). assert (fd < length (w_fds w))%nat by (apply nth_error_Some; congruence).
           assert (beq q T = false) as Eb by (apply beq_neq; congruence).
           split; [rewrite Hna, Eb; reflexivity|]. split; [cbn; rewrite nth_error_app1 by lia; reflexivity|]. intros i Hi'.
           specialize (Hs _ _ Hi'). split; [cbn; rewrite nth_error_app1 by lia; reflexivity|]. intros x. rewrite Hna.
           destruct (beq q x); [|auto]. intros Ex. injection Ex as Ex. unfold n in Ex. lia.
        -- specialize (Hne T eq_refl). assert (beq q T = false) as Eb by (apply beq_neq; congruence). rewrite Hna, Eb. reflexivity.
      * destruct Hp as (P1 & P2 & P3). split; [|split].
        -- intros T HT HT2. cbn in HT. injection HT as <-. exact (Hne _ HT2 eq_refl).
        -- intros T fd c HT Hin. cbn in HT. injection HT as _ <- _. destruct Hh as [Hh _]. specialize (Hh _ Hin). lia.
        -- exact P3.
  - (* read *)
    destruct Hsafe as [Hin Hsafe]. assert ((exists e, w' = w /\ r = RFail e) \/ exists i pos b, w' = set_pos w fd i pos /\ r = RData b) as [(e & -> & ->)|(i & pos & b & -> & ->)].
    { inversion Hsys; subst; eauto 7. }
    { apply (Hf e); reflexivity. }
    exists g. split; [|apply Hsafe]. split; [exact Hs|]. split; [exact Hi|]. split.
    + destruct Ho as [Ho1 Ho2]. split; [cbn; rewrite length_replace; exact Ho1|]. destruct (g_own g) as [|T fd' c|T]; [exact I| |exact Ho2].
      destruct Ho2 as (A & B & i' & C & D & E & F). split; [exact A|]. split; [exact B|]. exists i'. cbn. rewrite nth_replace_other by congruence. auto.
    + intros h Hh Hp. split; [|exact Hp]. split; [cbn; rewrite length_replace; lia|]. destruct (g_own h) as [|T fd' c|T] eqn:Eh; [exact I| |reflexivity].
      destruct Hp as (_ & _ & P3). specialize (P3 _ _ _ Eh). split; [reflexivity|]. split; [cbn; apply nth_replace_other; congruence|]. auto.
  - (* write *)
    destruct Hsafe as (T & c & Eg & Hsafe). pose proof Ho as Ho'. destruct Ho' as [Ho1 Ho2]. rewrite Eg in Ho2. destruct Ho2 as (A & B & i & C & D & E & F).
    destruct (sys_write_end _ _ _ _ _ _ i c Hsys (conj D E)) as [(_ & -> & e & -> & _)|(m & Hm & _ & -> & ->)]; [apply (Hf e); reflexivity|].
    exists (with_own g (Owns T fd (c ++ takeN m d))). split; [|apply Hsafe; exact Hm].
    assert (forall h, owner_ok w h -> pair_ok g h -> forall T' fd' c', g_own h = Owns T' fd' c' ->
       exists i', name_at w T' = Some (NFile i') /\ i' <> i /\ fd' <> fd) as Hother.
    { intros h [_ Hh] (P1 & _) T' fd' c' Eh. rewrite Eh in Hh. destruct Hh as (_ & _ & i' & C' & D' & _). exists i'. split; [exact C'|].
      assert (i' <> i) as Hne. { intros ->. apply F in C'. subst T'. apply (P1 T); unfold owned; [rewrite Eg|rewrite Eh]; reflexivity. }
      split; [exact Hne|]. intros ->. congruence. }
    split; [|split; [|split]].
    + intros q i'. cbn. rewrite length_replace. apply Hs.
    + apply intact_build. intros q Hq. destruct (intact_name w q Hi Hq) as [H|[H|(y & H & H')]]; [auto|auto|]. right. right. exists y. split; [|exact H'].
      unfold file_at in *. unfold wrote. rewrite name_set_pos, name_set_content. destruct (name_at w q) as [[| |i']|] eqn:Eq; try discriminate. cbn.
      rewrite nth_replace_other; [exact H|]. intros ->. apply F in Eq. subst q. exact (temp_not_final _ B Hq).
    + split; [cbn; rewrite length_replace; exact Ho1|]. cbn. split; [exact A|]. split; [exact B|]. exists i. split; [exact C|].
      destruct (wrote_writing w fd i c (c ++ takeN m d) (conj D E)) as [X Y]. split; [exact X|]. split; [exact Y|exact F].
    + intros h Hh Hp. split.
      * split; [cbn; rewrite length_replace; lia|]. destruct (g_own h) as [|T' fd' c'|T'] eqn:Eh; [exact I| |reflexivity].
        destruct (Hother h Hh Hp _ _ _ Eh) as (i' & C' & N1 & N2). split; [reflexivity|]. split; [cbn; apply nth_replace_other; congruence|].
        intros i2 E2. split; [cbn; apply nth_replace_other; congruence|]. auto.
      * destruct Hp as (P1 & P2 & P3). split; [|split].
        -- intros T' HT. apply P1. unfold owned. rewrite Eg. exact HT.
        -- intros T' fd' c' HT. cbn in HT. injection HT as <- <- _. eapply P2. exact Eg.
        -- exact P3.
  - (* access *)
    destruct (sys_access _ _ _ _ _ Hsys) as [(_ & -> & e & -> & _)|Hr]; [apply (Hf e); reflexivity|].
    destruct (name_at w q); destruct Hr as [-> ->]; [|eapply Hf; reflexivity]. eapply Hn0; [exact Hsafe|reflexivity..].
  - (* renameat2 *)
    destruct Hsafe as (fd & c & Eg & Hc & Hsafe). destruct (sys_rename_noreplace _ _ _ _ _ _ Hsys) as [(_ & -> & e & -> & _)|Hr]; [apply (Hf e); reflexivity|].
    destruct (name_at w p) as [nd|] eqn:Ep; [|destruct Hr as [-> ->]; eapply Hf; reflexivity].
    destruct (name_at w q) eqn:Eq; destruct Hr as [-> ->]; [eapply Hf; reflexivity|].
    exists (with_own g Idle). split; [|apply Hsafe]. eapply step_rename; eauto.
  - (* link *)
    destruct Hsafe as (fd & c & Eg & Hc & Hsafe). destruct (sys_link _ _ _ _ _ _ Hsys) as [(_ & -> & e & -> & _)|Hr]; [apply (Hf e); reflexivity|].
    destruct (name_at w p) as [nd|] eqn:Ep; [|destruct Hr as [-> ->]; eapply Hf; reflexivity].
    destruct (name_at w q) eqn:Eq; [destruct Hr as [-> ->]; eapply Hf; reflexivity|].
    destruct nd as [| |i]; destruct Hr as [-> ->]; try (eapply Hf; reflexivity).
    exists (with_own g (Linked p)). split; [|apply Hsafe].
    assert (final q) as Hfq by (eapply complete_final; eauto).
    apply step_names; try assumption; try reflexivity.
    + intros x Hx. destruct (list_eq_dec N.eq_dec q x) as [->|Hne]; [|left; apply name_put_other; exact Hne].
      right. right. right. exists p, fd, c, i. rewrite name_put_same. auto.
    + intros x Hnf Hx. left. apply name_put_other. intros ->. contradiction.
    + intros x j. rewrite name_put. destruct (beq q x); [|auto]. intros E. injection E as <-. right. exists p. unfold owned. rewrite Eg. auto.
    + right. right. exists p, fd, c. split; [exact Eg|]. split; [reflexivity|]. rewrite name_put. destruct (beq q p); congruence.
  - (* rename *)
    destruct Hsafe as (fd & c & Eg & Hc & Hsafe). destruct (sys_renameat _ _ _ _ _ _ Hsys) as [(_ & -> & e & -> & _)|Hr]; [apply (Hf e); reflexivity|].
    destruct (name_at w p) as [nd|] eqn:Ep; [|destruct Hr as [-> ->]; eapply Hf; reflexivity].
    destruct Hr as (-> & -> & _). exists (with_own g Idle). split; [|apply Hsafe]. eapply step_rename; eauto.
  - (* symlink *)
    destruct Hsafe as [Hq Hsafe]. destruct (sys_symlink _ _ _ _ _ _ Hsys) as [(_ & -> & e & -> & _)|Hr]; [apply (Hf e); reflexivity|].
    destruct (name_at w q) eqn:En; [destruct Hr as [-> ->]; eapply Hf; reflexivity|].
    destruct Hr as [[-> ->]|[-> ->]]; [eapply Hf; reflexivity|]. exists g. split; [|apply Hsafe].
    apply step_names; try assumption; try reflexivity.
    + intros x Hx. destruct (list_eq_dec N.eq_dec q x) as [->|Hne]; [right; right; left; exists tgt; apply name_put_same|left; apply name_put_other; exact Hne].
    + intros x Hnf Hx. left. apply name_put_other. intros ->. contradiction.
    + intros x i. rewrite name_put. destruct (beq q x); [discriminate|auto].
    + left. split; [reflexivity|]. split; [|intros x i; rewrite name_put; destruct (beq q x); [discriminate|auto]].
      intros T HT. apply name_put_other. intros ->. apply (temp_not_final T); [eapply owned_temp; eauto|exact Hq].
  - (* readlink *)
    assert ((exists e, w' = w /\ r = RFail e) \/ exists b, w' = w /\ r = RData b) as [(e & -> & ->)|(b & -> & ->)] by (inversion Hsys; subst; eauto).
    { apply (Hf e); reflexivity. }
    exists g. split; [apply step_same; assumption|apply Hsafe].
  - (* opendir *)
    destruct (sys_opendir _ _ _ _ _ Hsys) as [(_ & -> & e & -> & _)|[-> [[-> _]|[e ->]]]]; [apply (Hf e); reflexivity| |apply (Hf e); reflexivity].
    eapply Hn0; [exact Hsafe|reflexivity..].
  - (* list *)
    destruct (sys_list _ _ _ _ _ Hsys) as [(_ & -> & e & -> & _)|(l & -> & -> & _)]; [apply (Hf e); reflexivity|].
    exists g. split; [apply step_same; assumption|apply Hsafe].
  - (* random *)
    destruct (sys_random _ _ _ _ Hsys) as [(_ & -> & e & -> & _)|(v & -> & -> & _)]; [apply (Hf e); reflexivity|]. eapply Hn0; [exact Hsafe|reflexivity..].
Qed.

(** ** Any number of processes *)

Definition all_ok (w : world) (gs : list ghost) (ps : list (prog unit)) : Prop :=
  sound w /\ intact codecs genuine root w /\
  Forall2 (fun g p => owner_ok w g /\ safe (fun _ _ => True) g p) gs ps /\
  ForallOrdPairs pair_ok gs.

Lemma pstep_ok w ps w' ps' gs : all_ok w gs ps -> pstep (w, ps) (w', ps') -> exists gs', all_ok w' gs' ps'.
Proof.
  intros (Hs & Hi & HF & HP) Hstep. inversion Hstep as [? ? c k r ps1 qs1 Hsys]; subst. clear Hstep.
  apply Forall2_app_inv_r in HF. destruct HF as (ga & gb & Ha & Hb & ->). inversion Hb as [|g ? gr ? [Hg Hsafe] Hr]; subst. clear Hb.
  destruct (step_preserves _ _ _ _ _ _ _ Hs Hi Hg Hsafe Hsys) as (g' & (S1 & S2 & S3 & S4) & Hsafe').
  assert (forall h, In h ga -> pair_ok h g) as HPa.
  { clear -HP. intros h Hin. induction ga as [|a ga IH]; [contradiction|]. inversion HP as [|? ? Hall Hrest]; subst.
    destruct Hin as [->|Hin]; [|auto]. rewrite Forall_forall in Hall. apply Hall. apply in_or_app. right. left. reflexivity. }
  assert (forall h, In h gr -> pair_ok g h) as HPr.
  { clear -HP. induction ga as [|a ga IH]; inversion HP as [|? ? Hall Hrest]; subst; [|auto]. intros h Hin. rewrite Forall_forall in Hall. auto. }
  assert (forall h, In h ga \/ In h gr -> owner_ok w h -> owner_ok w' h /\ pair_ok g' h) as Hoth.
  { intros h Hin Hh. destruct (S4 h Hh) as [K P].
    - destruct Hin; [apply pair_sym|]; auto.
    - split; [eapply keeps_ok; eauto|exact P]. }
  exists (ga ++ g' :: gr). split; [exact S1|]. split; [exact S2|].
  assert (forall h, In h ga -> owner_ok w h) as Oa.
  { clear -Ha. intros h Hin. induction Ha as [|x y l l' [Hx _] Hl IH]; [contradiction|]. destruct Hin as [->|Hin]; auto. }
  assert (forall h, In h gr -> owner_ok w h) as Or.
  { clear -Hr. intros h Hin. induction Hr as [|x y l l' [Hx _] Hl IH]; [contradiction|]. destruct Hin as [->|Hin]; auto. }
  split.
  - apply Forall2_app.
    + assert (forall h, In h ga -> owner_ok w' h) as Oa' by (intros h Hin; apply Hoth; auto). clear -Ha Oa'.
      induction Ha as [|x y l l' [Hx Hy] Hl IH]; constructor; [split; [apply Oa'; left; reflexivity|exact Hy]|]. apply IH. intros h Hin. apply Oa'. right. exact Hin.
    + constructor; [split; [exact S3|exact Hsafe']|]. assert (forall h, In h gr -> owner_ok w' h) as Or' by (intros h Hin; apply Hoth; auto). clear -Hr Or'.
      induction Hr as [|x y l l' [Hx Hy] Hl IH]; constructor; [split; [apply Or'; left; reflexivity|exact Hy]|]. apply IH. intros h Hin. apply Or'. right. exact Hin.
  - assert (forall h, In h ga -> pair_ok h g') as Na by (intros h Hin; apply pair_sym; apply Hoth; auto).
    assert (forall h, In h gr -> pair_ok g' h) as Nr by (intros h Hin; apply Hoth; auto).
    clear -HP Na Nr. induction ga as [|a ga IH]; cbn [app] in *; inversion HP as [|? ? Hall Hrest]; subst.
    + constructor; [apply Forall_forall; exact Nr|exact Hrest].
    + constructor.
      * rewrite Forall_forall in *. intros h Hin. apply in_app_or in Hin. destruct Hin as [Hin|[<-|Hin]].
        -- apply Hall. apply in_or_app. auto.
        -- apply Na. left. reflexivity.
        -- apply Hall. apply in_or_app. right. right. exact Hin.
      * apply IH; [exact Hrest|]. intros h Hin. apply Na. right. exact Hin.
Qed.

Lemma psteps_ok s s' : psteps s s' -> (exists gs, all_ok (fst s) gs (snd s)) -> exists gs, all_ok (fst s') gs (snd s').
Proof.
  induction 1 as [s|s1 [w2 p2] [w3 p3] H IH Hstep]; intros Hs; [exact Hs|]. destruct (IH Hs) as [gs Hgs]. eapply pstep_ok; eauto.
Qed.
End Conc.

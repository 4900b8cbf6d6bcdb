(** Any number of processes working in one directory tree in which complete files and symbolic links appear under final names, and
    files are written under temporary names: what each of them can rely on. Generic in what a complete file and a good link are; used
    for the cache (C31). Nothing here models code of /repo. *)
From Verif Require Import Base Posix PosixProofs StoreProofs2 StoreProofs4.
Local Open Scope N_scope.

(** What a process has in hand: a temporary file it is writing (name, descriptor, inode, content so far), a file it is reading
    (descriptor, inode, content, position). *)
Record ghost := mkGhost { g_own : option (list N * nat * nat * list N); g_rd : option (nat * nat * list N * N) }.
Definition with_own (g : ghost) o : ghost := mkGhost o (g_rd g).
Definition with_rd (g : ghost) r : ghost := mkGhost (g_own g) r.

Definition own_name (g : ghost) : option (list N) := match g_own g with Some (T, _, _, _) => Some T | None => None end.
Definition own_ino (g : ghost) : option nat := match g_own g with Some (_, _, i, _) => Some i | None => None end.
Definition rd_ino (g : ghost) : option nat := match g_rd g with Some (_, i, _, _) => Some i | None => None end.
Definition own_fd (g : ghost) : option nat := match g_own g with Some (_, fd, _, _) => Some fd | None => None end.
Definition rd_fd (g : ghost) : option nat := match g_rd g with Some (fd, _, _, _) => Some fd | None => None end.
Definition apart {A} (x y : option A) : Prop := forall a, x = Some a -> y <> Some a.

Section Shared.
Context (final temp : list N -> Prop) (complete linkok : list N -> list N -> Prop).
Context (temp_not_final : forall q, temp q -> ~ final q) (complete_final : forall q c, complete q c -> final q).

(** Under each final name is nothing, a good link, or a complete file. *)
Definition intact (w : world) : Prop := forall q, final q ->
  name_at w q = None \/ (exists t, name_at w q = Some (NLink t) /\ linkok q t) \/ exists c, file_at w q = Some c /\ complete q c.

(** [safe Q g p]: with [g] in hand, [p] makes only calls that keep the directory intact, and ends with a result that satisfies [Q];
    what it reads is complete. *)
Fixpoint safe {A} (Q : ghost -> A -> Prop) (g : ghost) (p : prog A) {struct p} : Prop :=
  match p with
  | Ret a => Q g a
  | Hang => True
  | Sys c k =>
    (forall e, safe Q g (k (RFail e))) /\
    match c with
    | SMkdir q => ~ final q /\ forall n, safe Q g (k (RNum n))
    | SRmdir _ | SAccess _ | SOpenDir _ => forall n, safe Q g (k (RNum n))
    | SRandom => forall n, n < two64 -> safe Q g (k (RNum n))
    | SList _ => forall l, safe Q g (k (RNames l))
    | SUnlink q => (final q /\ forall n, safe Q g (k (RNum n))) \/ (own_name g = Some q /\ forall n, safe Q (with_own g None) (k (RNum n)))
    | SOpen q => final q /\ forall fd i c, complete q c -> safe Q (with_rd g (Some (fd, i, c, 0))) (k (RFd fd))
    | SCreat q => temp q /\ forall fd i, safe Q (with_own g (Some (q, fd, i, []))) (k (RFd fd))
    | SRead fd n => exists i c pos, g_rd g = Some (fd, i, c, pos) /\
        safe Q (with_rd g (Some (fd, i, c, pos + len (takeN n (dropN pos c))))) (k (RData (takeN n (dropN pos c))))
    | SWrite fd d => exists T i c, g_own g = Some (T, fd, i, c) /\
        forall n, n <= len d -> safe Q (with_own g (Some (T, fd, i, c ++ takeN n d))) (k (RNum n))
    | SRename p q => exists fd i c, g_own g = Some (p, fd, i, c) /\ complete q c /\ forall n, safe Q (with_own g None) (k (RNum n))
    | SSymlink t q => final q /\ linkok q t /\ forall n, safe Q g (k (RNum n))
    | SReadlink q n => final q /\ forall t, linkok q t -> safe Q g (k (RData (takeN n t)))
    | SRenameNoreplace _ _ | SLink _ _ => False
    end
  end.

Ltac safe_cases IH H2 :=
  match type of H2 with
  | False => contradiction
  | _ \/ _ => destruct H2 as [[Ha Hc]|[Ha Hc]]; [left|right]; (split; [exact Ha|intros; apply IH; auto])
  | _ /\ _ /\ _ => destruct H2 as (Ha & Hb & Hc); split; [exact Ha|]; split; [exact Hb|]; intros; apply IH; auto
  | _ /\ _ => destruct H2 as [Ha Hc]; split; [exact Ha|]; intros; apply IH; auto
  | exists a b c, _ /\ _ /\ _ => destruct H2 as (a0 & b0 & c0 & Ha & Hb & Hc); exists a0, b0, c0; split; [exact Ha|]; split; [exact Hb|]; intros; apply IH; auto
  | exists a b c, _ /\ _ => destruct H2 as (a0 & b0 & c0 & Ha & Hc); exists a0, b0, c0; split; [exact Ha|]; intros; apply IH; auto
  | _ => intros; apply IH; auto
  end.

Lemma safe_mono {A} (Q R : ghost -> A -> Prop) p : forall g, (forall g a, Q g a -> R g a) -> safe Q g p -> safe R g p.
Proof.
  induction p as [a| |c k IH]; intros g HQ H; [apply HQ; exact H|exact I|]. cbn [safe] in *. destruct H as [H1 H2].
  split; [intros e; apply IH; auto|]. destruct c; safe_cases IH H2.
Qed.

Lemma safe_bind {A B} (p : prog A) (f : A -> prog B) Q : forall g, safe (fun g a => safe Q g (f a)) g p -> safe Q g (pbind p f).
Proof.
  induction p as [a| |c k IH]; intros g H; [exact H|exact I|]. cbn [safe pbind] in *. destruct H as [H1 H2].
  split; [intros e; apply IH; auto|]. destruct c; safe_cases IH H2.
Qed.

(** ** The invariant *)
Definition own_ok (w : world) (o : option (list N * nat * nat * list N)) : Prop :=
  match o with
  | None => True
  | Some (T, fd, i, c) => temp T /\ name_at w T = Some (NFile i) /\ nth_error (w_fds w) fd = Some (i, len c) /\ nth_error (w_inodes w) i = Some c /\
                          forall q, name_at w q = Some (NFile i) -> q = T
  end.
Definition rd_ok (w : world) (r : option (nat * nat * list N * N)) : Prop :=
  match r with
  | None => True
  | Some (fd, i, c, pos) => nth_error (w_fds w) fd = Some (i, pos) /\ nth_error (w_inodes w) i = Some c
  end.
Definition owner_ok (w : world) (g : ghost) : Prop :=
  own_ok w (g_own g) /\ rd_ok w (g_rd g) /\ apart (own_ino g) (rd_ino g) /\ apart (own_fd g) (rd_fd g).

Definition pair_ok (a b : ghost) : Prop :=
  apart (own_name a) (own_name b) /\ apart (own_fd a) (own_fd b) /\ apart (own_fd a) (rd_fd b) /\ apart (rd_fd a) (own_fd b) /\ apart (rd_fd a) (rd_fd b) /\
  apart (own_ino a) (own_ino b) /\ apart (own_ino a) (rd_ino b) /\ apart (rd_ino a) (own_ino b).

Lemma apart_sym {A} (x y : option A) : apart x y -> apart y x.
Proof. intros H a E F. exact (H a F E). Qed.
Lemma apart_none {A} (y : option A) : apart None y. Proof. intros a E. discriminate. Qed.
Lemma apart_none_r {A} (y : option A) : apart y None. Proof. intros a _ E. discriminate. Qed.
Lemma pair_sym a b : pair_ok a b -> pair_ok b a.
Proof. intros (H1 & H2 & H3 & H4 & H5 & H6 & H7 & H8). repeat split; apply apart_sym; assumption. Qed.

Definition keeps (w w' : world) (g : ghost) : Prop :=
  match g_own g with
  | None => True
  | Some (T, fd, i, c) => name_at w' T = name_at w T /\ nth_error (w_fds w') fd = nth_error (w_fds w) fd /\ nth_error (w_inodes w') i = nth_error (w_inodes w) i /\
                          forall q, name_at w' q = Some (NFile i) -> name_at w q = Some (NFile i)
  end /\
  match g_rd g with
  | None => True
  | Some (fd, i, c, pos) => nth_error (w_fds w') fd = nth_error (w_fds w) fd /\ nth_error (w_inodes w') i = nth_error (w_inodes w) i
  end.

Lemma keeps_ok w w' g : keeps w w' g -> owner_ok w g -> owner_ok w' g.
Proof.
  intros [H1 H2] (O1 & O2 & O3 & O4). split; [|split; [|split; assumption]].
  - destruct (g_own g) as [[[[T fd] i] c]|]; [|exact I]. cbn in *. destruct H1 as (A & B & C & D), O1 as (P & Q & R & S & U).
    rewrite A, B, C. repeat (split; [assumption|]). auto.
  - destruct (g_rd g) as [[[[fd i] c] pos]|]; [|exact I]. cbn in *. destruct H2 as (A & B), O2 as (P & Q). rewrite A, B. auto.
Qed.

Definition sound (w : world) : Prop := forall q i, name_at w q = Some (NFile i) -> (i < length (w_inodes w))%nat.

Definition step_ok (w w' : world) (g g' : ghost) : Prop :=
  sound w' /\ intact w' /\ owner_ok w' g' /\ forall h, owner_ok w h -> pair_ok g h -> keeps w w' h /\ pair_ok g' h.

Lemma keeps_refl w g : keeps w w g.
Proof. split; [destruct (g_own g) as [[[[T fd] i] c]|]|destruct (g_rd g) as [[[[fd i] c] pos]|]]; auto. Qed.

Lemma step_same w g : sound w -> intact w -> owner_ok w g -> step_ok w w g g.
Proof. intros H1 H2 H3. split; [exact H1|]. split; [exact H2|]. split; [exact H3|]. intros h _ Hp. split; [apply keeps_refl|exact Hp]. Qed.

Lemma own_temp w g T : owner_ok w g -> own_name g = Some T -> temp T.
Proof. intros (O & _) E. unfold own_name in E. destruct (g_own g) as [[[[T' fd] i] c]|]; [|discriminate]. injection E as <-. apply O. Qed.

Lemma own_file w g T : owner_ok w g -> own_name g = Some T -> exists i, name_at w T = Some (NFile i).
Proof. intros (O & _) E. unfold own_name in E. destruct (g_own g) as [[[[T' fd] i] c]|]; [|discriminate]. injection E as <-. exists i. apply O. Qed.

(** A step that changes names only: every final name is as before or gone, or is a good link, or the file that was owned; the other
    temporary names are as before; names stand for files that had a name, the owned one only if it was owned. *)
Lemma step_names w w' g o' :
  sound w -> intact w -> owner_ok w g -> w_inodes w' = w_inodes w -> w_fds w' = w_fds w ->
  (forall q, final q -> name_at w' q = name_at w q \/ name_at w' q = None \/ (exists t, name_at w' q = Some (NLink t) /\ linkok q t) \/
             exists T fd i c, g_own g = Some (T, fd, i, c) /\ complete q c /\ name_at w' q = Some (NFile i)) ->
  (forall q j, temp q -> name_at w q = Some (NFile j) -> name_at w' q = name_at w q \/ own_name g = Some q) ->
  (forall q i, name_at w' q = Some (NFile i) -> name_at w q = Some (NFile i) \/ own_ino g = Some i) ->
  o' = None \/ (o' = g_own g /\ (forall T, own_name g = Some T -> name_at w' T = name_at w T) /\
                forall q i, name_at w' q = Some (NFile i) -> name_at w q = Some (NFile i)) ->
  step_ok w w' g (with_own g o').
Proof.
  intros Hs Hi Ho Ei Ef Hfin Htmp Hnew Hown. pose proof Ho as (O1 & O2 & O3 & O4).
  split; [|split; [|split]].
  - intros q i Hq. rewrite Ei. destruct (Hnew q i Hq) as [H|H]; [exact (Hs _ _ H)|]. unfold own_ino in H.
    destruct (g_own g) as [[[[T fd] j] c]|]; [|discriminate]. injection H as ->. destruct O1 as (_ & P & _). exact (Hs _ _ P).
  - intros q Hq. destruct (Hfin q Hq) as [E|[E|[E|(T & fd & i & c & E1 & E2 & E3)]]]; auto.
    + destruct (Hi q Hq) as [H|[(t & H & H')|(x & H & H')]]; [left; congruence|right; left; exists t; split; congruence|]. right. right. exists x. split; [|exact H'].
      revert H. unfold file_at. rewrite E, Ei. auto.
    + right. right. exists c. split; [|exact E2]. rewrite E1 in O1. destruct O1 as (_ & _ & _ & P & _). unfold file_at. rewrite E3, Ei. exact P.
  - assert (rd_ok w' (g_rd g)) as R. { destruct (g_rd g) as [[[[fd i] c] pos]|]; [|exact I]. cbn in *. rewrite Ef, Ei. exact O2. }
    destruct Hown as [->|(-> & HT & Hn)].
    + split; [exact I|]. split; [exact R|]. split; apply apart_none.
    + split; [|split; [exact R|split; [exact O3|exact O4]]]. cbn [with_own g_own]. unfold own_name in HT.
      destruct (g_own g) as [[[[T fd] i] c]|]; [|exact I]. cbn in *. destruct O1 as (P1 & P2 & P3 & P4 & P5).
      rewrite (HT T eq_refl), Ef, Ei. repeat (split; [assumption|]). intros q Hq. apply P5. apply Hn. exact Hq.
  - intros h Hh Hp. split.
    + destruct Hh as (H1 & _). destruct Hp as (A1 & _ & _ & _ & _ & A6 & _). split.
      * unfold own_name, own_ino in A1, A6. destruct (g_own h) as [[[[T fd] i] c]|]; [|exact I]. cbn in H1. destruct H1 as (P1 & P2 & _).
        rewrite Ef, Ei. split; [|split; [reflexivity|split; [reflexivity|]]].
        -- destruct (Htmp T i P1 P2) as [E|E]; [exact E|]. exfalso. exact (A1 T E eq_refl).
        -- intros q Hq. destruct (Hnew q i Hq) as [H|H]; [exact H|]. exfalso. exact (A6 i H eq_refl).
      * destruct (g_rd h) as [[[[fd i] c] pos]|]; [|exact I]. rewrite Ef, Ei. auto.
    + destruct Hown as [->|(-> & _)]; [|destruct g; exact Hp]. destruct Hp as (A1 & A2 & A3 & A4 & A5 & A6 & A7 & A8).
      repeat split; try apply apart_none; assumption.
Qed.

Lemma nth_last {A} (l : list A) x : nth_error (l ++ [x]) (length l) = Some x.
Proof. rewrite nth_error_app2 by lia. rewrite Nat.sub_diag. reflexivity. Qed.
Lemma nth_more {A} (l : list A) x i y : nth_error l i = Some y -> nth_error (l ++ [x]) i = Some y.
Proof. intros H. rewrite nth_error_app1; [exact H|]. apply nth_error_Some. congruence. Qed.
Lemma nth_ge {A} (l : list A) i y : nth_error l i = Some y -> i <> length l.
Proof. intros H. assert (i < length l)%nat by (apply nth_error_Some; congruence). lia. Qed.

(** The others' part if only descriptors and one inode change. *)
Lemma keeps_of w w' h : owner_ok w h -> (forall q j, temp q -> name_at w q = Some (NFile j) -> name_at w' q = name_at w q) ->
  (forall q i, own_ino h = Some i -> name_at w' q = Some (NFile i) -> name_at w q = Some (NFile i)) ->
  (forall fd, own_fd h = Some fd \/ rd_fd h = Some fd -> nth_error (w_fds w') fd = nth_error (w_fds w) fd) ->
  (forall i, own_ino h = Some i \/ rd_ino h = Some i -> nth_error (w_inodes w') i = nth_error (w_inodes w) i) -> keeps w w' h.
Proof.
  intros (O1 & O2 & _) Hn Hi Hf Hc. unfold own_fd, rd_fd, own_ino, rd_ino in *. split.
  - destruct (g_own h) as [[[[T fd] i] c]|]; [|exact I]. destruct O1 as (P1 & P2 & _). split; [exact (Hn T i P1 P2)|]. split; [apply Hf; auto|]. split; [apply Hc; auto|]. intros q. apply Hi. reflexivity.
  - destruct (g_rd h) as [[[[fd i] c] pos]|]; [|exact I]. split; [apply Hf|apply Hc]; auto.
Qed.

Lemma owner_fd w h fd : owner_ok w h -> own_fd h = Some fd \/ rd_fd h = Some fd -> (fd < length (w_fds w))%nat.
Proof.
  intros (O1 & O2 & _) H. apply nth_error_Some. unfold own_fd, rd_fd in H. destruct H as [H|H].
  - destruct (g_own h) as [[[[T x] i] c]|]; [|discriminate]. injection H as ->. destruct O1 as (_ & _ & P & _). congruence.
  - destruct (g_rd h) as [[[[x i] c] pos]|]; [|discriminate]. injection H as ->. destruct O2 as (P & _). congruence.
Qed.
Lemma owner_ino w h i : owner_ok w h -> own_ino h = Some i \/ rd_ino h = Some i -> (i < length (w_inodes w))%nat.
Proof.
  intros (O1 & O2 & _) H. apply nth_error_Some. unfold own_ino, rd_ino in H. destruct H as [H|H].
  - destruct (g_own h) as [[[[T x] j] c]|]; [|discriminate]. injection H as ->. destruct O1 as (_ & _ & _ & P & _). congruence.
  - destruct (g_rd h) as [[[[x j] c] pos]|]; [|discriminate]. injection H as ->. destruct O2 as (_ & P). congruence.
Qed.

Lemma apart_new {A} (a : A) (y : option A) : y <> Some a -> apart (Some a) y.
Proof. intros H b E F. congruence. Qed.

Lemma step_open w g q i c : sound w -> intact w -> owner_ok w g -> final q -> name_at w q = Some (NFile i) -> file_at w q = Some c ->
  step_ok w (add_fd w i) g (with_rd g (Some (length (w_fds w), i, c, 0))).
Proof.
  intros Hs Hi Ho Hq En Hc. assert (Ec : nth_error (w_inodes w) i = Some c) by (unfold file_at in Hc; rewrite En in Hc; exact Hc).
  assert (Hnew : forall h, owner_ok w h -> own_ino h <> Some i).
  { intros h (O1 & _) E. unfold own_ino in E. destruct (g_own h) as [[[[T fd] j] x]|]; [|discriminate]. injection E as ->.
    destruct O1 as (P1 & _ & _ & _ & P5). rewrite (P5 q En) in Hq. exact (temp_not_final _ P1 Hq). }
  pose proof Ho as (O1 & O2 & O3 & O4). split; [exact Hs|]. split; [exact Hi|]. split.
  - split; [|split; [|split]].
    + cbn. destruct (g_own g) as [[[[T fd] j] x]|]; [|exact I]. cbn in *. destruct O1 as (P1 & P2 & P3 & P4 & P5). repeat (split; [assumption|]).
      split; [apply nth_more; exact P3|]. auto.
    + cbn. split; [apply nth_last|exact Ec].
    + apply apart_sym. apply apart_new. exact (Hnew g Ho).
    + apply apart_sym. apply apart_new. intros E. pose proof (owner_fd w g _ Ho (or_introl E)). lia.
  - intros h Hh Hp. split.
    + apply keeps_of; [exact Hh| | | |]; try reflexivity; auto. intros fd H. pose proof (owner_fd w h fd Hh H). cbn. apply nth_error_app1. exact H0.
    + destruct Hp as (A1 & A2 & A3 & A4 & A5 & A6 & A7 & A8). unfold pair_ok. cbn [with_rd own_name own_fd own_ino rd_fd rd_ino g_own g_rd].
      repeat split; try assumption; apply apart_new; try (apply Hnew; exact Hh); intros E; [pose proof (owner_fd w h _ Hh (or_introl E))|pose proof (owner_fd w h _ Hh (or_intror E))]; lia.
Qed.

Lemma step_creat w g q : sound w -> intact w -> owner_ok w g -> temp q -> name_at w q = None ->
  step_ok w (add_fd (add_file w q) (length (w_inodes w))) g (with_own g (Some (q, length (w_fds w), length (w_inodes w), []))).
Proof.
  intros Hs Hi Ho Hq En. pose proof Ho as (O1 & O2 & O3 & O4). set (w' := add_fd (add_file w q) (length (w_inodes w))).
  assert (Nm : forall x, name_at w' x = if beq q x then Some (NFile (length (w_inodes w))) else name_at w x) by (intros; reflexivity).
  assert (No : forall x, x <> q -> name_at w' x = name_at w x). { intros x H. rewrite Nm. destruct (beq q x) eqn:E; [apply beq_eq in E; congruence|reflexivity]. }
  split; [|split; [|split]].
  - intros x i Hx. cbn. rewrite app_length. cbn. rewrite Nm in Hx. destruct (beq q x); [injection Hx as <-; lia|]. pose proof (Hs x i Hx). lia.
  - intros x Hx. assert (x <> q) by (intros ->; exact (temp_not_final _ Hq Hx)). unfold file_at. rewrite No by assumption.
    destruct (Hi x Hx) as [E|[E|(c & E & E')]]; auto. right. right. exists c. split; [|exact E']. unfold file_at in E.
    destruct (name_at w x) as [[| |i]|]; try discriminate. cbn. apply nth_more. exact E.
  - split; [|split; [|split]].
    + cbn. split; [exact Hq|]. split; [change (name_at w' q = Some (NFile (length (w_inodes w)))); rewrite Nm, beq_refl; reflexivity|].
      split; [apply nth_last|]. split; [apply nth_last|]. intros x Hx. change (name_at w' x = Some (NFile (length (w_inodes w)))) in Hx. rewrite Nm in Hx.
      destruct (beq q x) eqn:E; [apply beq_eq in E; congruence|]. pose proof (Hs x _ Hx). lia.
    + cbn. destruct (g_rd g) as [[[[fd j] x] pos]|]; [|exact I]. cbn in *. destruct O2 as [P1 P2]. split; [apply nth_more; exact P1|apply nth_more; exact P2].
    + apply apart_new. intros E. pose proof (owner_ino w g _ Ho (or_intror E)). lia.
    + apply apart_new. intros E. pose proof (owner_fd w g _ Ho (or_intror E)). lia.
  - intros h Hh Hp. split.
    + apply keeps_of; [exact Hh| | | |].
      * intros x j _ Hx. apply No. intros ->. congruence.
      * intros x i Hi' Hx. rewrite Nm in Hx. destruct (beq q x); [|exact Hx]. injection Hx as <-. pose proof (owner_ino w h _ Hh (or_introl Hi')). lia.
      * intros fd H. pose proof (owner_fd w h fd Hh H). cbn. apply nth_error_app1. lia.
      * intros i H. pose proof (owner_ino w h i Hh H). cbn. apply nth_error_app1. lia.
    + destruct Hp as (A1 & A2 & A3 & A4 & A5 & A6 & A7 & A8). unfold pair_ok. cbn [with_own own_name own_fd own_ino rd_fd rd_ino g_own g_rd].
      repeat split; try assumption; apply apart_new; intros E.
      * destruct Hh as (H1 & _). unfold own_name in E. destruct (g_own h) as [[[[T fd] j] c]|]; [|discriminate]. injection E as ->. destruct H1 as (_ & P & _). congruence.
      * pose proof (owner_fd w h _ Hh (or_introl E)). lia.
      * pose proof (owner_fd w h _ Hh (or_intror E)). lia.
      * pose proof (owner_ino w h _ Hh (or_introl E)). lia.
      * pose proof (owner_ino w h _ Hh (or_intror E)). lia.
Qed.

Lemma step_read w g fd i c pos pos' : sound w -> intact w -> owner_ok w g -> g_rd g = Some (fd, i, c, pos) ->
  step_ok w (set_pos w fd i pos') g (with_rd g (Some (fd, i, c, pos'))).
Proof.
  intros Hs Hi Ho Er. pose proof Ho as (O1 & O2 & O3 & O4). rewrite Er in O2. destruct O2 as [P1 P2].
  assert (Hlt : (fd < length (w_fds w))%nat) by (apply nth_error_Some; congruence).
  assert (Efd : rd_fd g = Some fd) by (unfold rd_fd; rewrite Er; reflexivity).
  assert (Eio : rd_ino g = Some i) by (unfold rd_ino; rewrite Er; reflexivity).
  split; [exact Hs|]. split; [exact Hi|]. split.
  - split; [|split; [|split]].
    + cbn. rewrite Efd in O4. unfold own_fd in O4. destruct (g_own g) as [[[[T x] j] y]|]; [|exact I]. cbn in *. destruct O1 as (Q1 & Q2 & Q3 & Q4 & Q5).
      repeat (split; [assumption|]). split; [|auto]. rewrite nth_replace_other; [exact Q3|]. intros ->. exact (O4 x eq_refl eq_refl).
    + cbn. split; [apply nth_replace; exact Hlt|exact P2].
    + rewrite Eio in O3. exact O3.
    + rewrite Efd in O4. exact O4.
  - intros h Hh Hp. destruct Hp as (A1 & A2 & A3 & A4 & A5 & A6 & A7 & A8). split.
    + apply keeps_of; [exact Hh| | | |]; try reflexivity; auto. intros x H. cbn. apply nth_replace_other. intros ->.
      destruct H as [H|H]; [exact (A4 x Efd H)|exact (A5 x Efd H)].
    + unfold pair_ok. cbn [with_rd own_name own_fd own_ino rd_fd rd_ino g_own g_rd]. rewrite Efd in *. rewrite Eio in *. repeat split; assumption.
Qed.

Lemma step_write w g T fd i c d n : sound w -> intact w -> owner_ok w g -> g_own g = Some (T, fd, i, c) -> n <= len d ->
  step_ok w (set_pos (set_content w i (takeN (len c) c ++ takeN n d ++ dropN (len c + n) c)) fd i (len c + n)) g (with_own g (Some (T, fd, i, c ++ takeN n d))).
Proof.
  intros Hs Hi Ho Er Hn. pose proof Ho as (O1 & O2 & O3 & O4). rewrite Er in O1. destruct O1 as (P1 & P2 & P3 & P4 & P5).
  assert (Hlt : (fd < length (w_fds w))%nat) by (apply nth_error_Some; congruence).
  assert (Hli : (i < length (w_inodes w))%nat) by (apply nth_error_Some; congruence).
  assert (Efd : own_fd g = Some fd) by (unfold own_fd; rewrite Er; reflexivity).
  assert (Eio : own_ino g = Some i) by (unfold own_ino; rewrite Er; reflexivity).
  assert (Enm : own_name g = Some T) by (unfold own_name; rewrite Er; reflexivity).
  rewrite takeN_all by lia. rewrite dropN_all by lia. rewrite app_nil_r.
  split; [|split; [|split]].
  - intros q j H. cbn. rewrite length_replace. exact (Hs q j H).
  - intros q Hq. destruct (Hi q Hq) as [E|[E|(x & E & E')]]; auto. right. right. exists x. split; [|exact E']. unfold file_at in *.
    change (name_at (set_pos _ _ _ _) q) with (name_at w q). destruct (name_at w q) as [[| |j]|] eqn:En; try discriminate. cbn. rewrite nth_replace_other; [exact E|].
    intros ->. rewrite (P5 q En) in Hq. exact (temp_not_final _ P1 Hq).
  - split; [|split; [|split]].
    + cbn. split; [exact P1|]. split; [exact P2|]. split; [|split; [apply nth_replace; exact Hli|exact P5]].
      rewrite nth_replace by exact Hlt. rewrite len_app, len_takeN. do 2 f_equal. lia.
    + cbn. unfold rd_ok, rd_fd, rd_ino in *. destruct (g_rd g) as [[[[x j] y] pos]|]; [|exact I]. destruct O2 as [Q1 Q2]. cbn.
      rewrite !nth_replace_other; [split; assumption| |]; [intros ->; exact (O3 j Eio eq_refl)|intros ->; exact (O4 x Efd eq_refl)].
    + rewrite Eio in O3. exact O3.
    + rewrite Efd in O4. exact O4.
  - intros h Hh Hp. destruct Hp as (A1 & A2 & A3 & A4 & A5 & A6 & A7 & A8). split.
    + apply keeps_of; [exact Hh| | | |]; try reflexivity; auto.
      * intros x H. cbn. apply nth_replace_other. intros ->. destruct H as [H|H]; [exact (A2 x Efd H)|exact (A3 x Efd H)].
      * intros x H. cbn. apply nth_replace_other. intros ->. destruct H as [H|H]; [exact (A6 x Eio H)|exact (A7 x Eio H)].
    + unfold pair_ok. cbn [with_own own_name own_fd own_ino rd_fd rd_ino g_own g_rd]. rewrite Efd in *. rewrite Eio in *. rewrite Enm in *. repeat split; assumption.
Qed.

(** Each call of a safe program is such a step. *)
Lemma step_preserves {Ty} (Q : ghost -> Ty -> Prop) w c (k : sysret -> prog Ty) g w' r :
  sound w -> intact w -> owner_ok w g -> safe Q g (Sys c k) -> sys true w c w' r -> exists g', step_ok w w' g g' /\ safe Q g' (k r).
Proof.
  intros Hs Hi Ho Hsafe Hsys. cbn [safe] in Hsafe. destruct Hsafe as [Hfail Hsafe].
  assert (forall e, w' = w -> r = RFail e -> exists g', step_ok w w' g g' /\ safe Q g' (k r)) as Hf.
  { intros e -> ->. exists g. split; [apply step_same; assumption|apply Hfail]. }
  assert (Hwo : forall o, g_own g = o -> with_own g o = g) by (intros o <-; destruct g; reflexivity).
  destruct c as [q|q|q|q|q|fd n|fd d|q|p q|p q|p q|t q|q n|q|q|].
  - destruct Hsafe as [Hq Hsafe]. destruct (sys_mkdir _ _ _ _ _ Hsys) as [(_ & -> & e & -> & _)|Hr]; [apply (Hf e); reflexivity|].
    destruct (name_at w q) eqn:En; destruct Hr as [-> ->]; [eapply Hf; reflexivity|]. exists g. split; [|apply Hsafe].
    rewrite <- (Hwo (g_own g) eq_refl) at 2. apply step_names; try assumption; try reflexivity.
    + intros x Hx. left. apply name_put_other. intros ->. contradiction.
    + intros x j _ Hx. left. apply name_put_other. intros ->. congruence.
    + intros x i. rewrite name_put. destruct (beq q x); [discriminate|auto].
    + right. split; [reflexivity|]. split; [|intros x i; rewrite name_put; destruct (beq q x); [discriminate|auto]].
      intros T HT. apply name_put_other. intros ->. destruct (own_file w g T Ho HT) as [i E]. congruence.
  - (* rmdir *)
    assert ((exists e, r = RFail e) \/ exists n, r = RNum n) as Hr by (inversion Hsys; subst; eauto).
    assert (safe Q g (k r)) as Hk by (destruct Hr as [[e ->]|[n ->]]; [apply Hfail|apply Hsafe]).
    exists g. split; [|exact Hk]. destruct (sys_rmdir _ _ _ _ _ Hsys) as [->|(-> & En & Eb)]; [apply step_same; assumption|].
    rewrite <- (Hwo (g_own g) eq_refl) at 2. apply step_names; try assumption; try reflexivity.
    + intros x Hx. left. apply name_del_other. intros ->. destruct (Hi x Hx) as [E|[(t & E & _)|(c & E & _)]]; try congruence. unfold file_at in E. rewrite En in E. discriminate.
    + intros x j _ Hx. left. apply name_del_other. intros ->. congruence.
    + intros x i. rewrite name_del. destruct (beq q x); [discriminate|auto].
    + right. split; [reflexivity|]. split; [|intros x i; rewrite name_del; destruct (beq q x); [discriminate|auto]].
      intros T HT. apply name_del_other. intros ->. destruct (own_file w g T Ho HT) as [i E]. congruence.
  - (* unlink *)
    destruct (sys_unlink _ _ _ _ _ Hsys) as [(_ & -> & e & -> & _)|Hr]; [apply (Hf e); reflexivity|].
    destruct (name_at w q) as [nd|] eqn:En; [|destruct Hr as [-> ->]; eapply Hf; reflexivity].
    assert ((w' = w /\ r = RFail EISDIR) \/ (w' = del_name w q /\ r = RNum 0)) as [[-> ->]|[-> ->]] by (destruct nd; auto); [eapply Hf; reflexivity|]. clear Hr.
    destruct Hsafe as [[Hq Hsafe]|[Hq Hsafe]].
    + exists g. split; [|apply Hsafe]. rewrite <- (Hwo (g_own g) eq_refl) at 2. apply step_names; try assumption; try reflexivity.
      * intros x Hx. destruct (list_eq_dec N.eq_dec q x) as [->|Hne]; [right; left; rewrite name_del, beq_refl; reflexivity|left; apply name_del_other; exact Hne].
      * intros x j Hx _. left. apply name_del_other. intros ->. exact (temp_not_final _ Hx Hq).
      * intros x i. rewrite name_del. destruct (beq q x); [discriminate|auto].
      * right. split; [reflexivity|]. split; [|intros x i; rewrite name_del; destruct (beq q x); [discriminate|auto]].
        intros T HT. apply name_del_other. intros ->. apply (temp_not_final T); [eapply own_temp; eauto|exact Hq].
    + exists (with_own g None). split; [|apply Hsafe]. pose proof (own_temp w g q Ho Hq) as Ht. apply step_names; try assumption; try reflexivity.
      * intros x Hx. left. apply name_del_other. intros ->. exact (temp_not_final _ Ht Hx).
      * intros x j _ _. destruct (list_eq_dec N.eq_dec q x) as [->|Hne]; [right; exact Hq|left; apply name_del_other; exact Hne].
      * intros x i. rewrite name_del. destruct (beq q x); [discriminate|auto].
      * left. reflexivity.
  - (* open *)
    destruct Hsafe as [Hq Hsafe]. destruct (sys_open _ _ _ _ _ Hsys) as [(_ & -> & e & -> & _)|Hr]; [apply (Hf e); reflexivity|].
    destruct (name_at w q) as [[|t|i]|] eqn:En; destruct Hr as [-> ->]; try (eapply Hf; reflexivity).
    destruct (Hi q Hq) as [E|[(t & E & _)|(c & E & Hc)]]; [congruence..|]. exists (with_rd g (Some (length (w_fds w), i, c, 0))). split; [|apply Hsafe; exact Hc].
    eapply step_open; eauto.
  - (* creat *)
    destruct Hsafe as [Hq Hsafe]. destruct (sys_creat _ _ _ _ _ Hsys) as [(_ & -> & e & -> & _)|Hr]; [apply (Hf e); reflexivity|].
    destruct (name_at w q) as [nd|] eqn:En; [destruct Hr as [-> ->]; eapply Hf; reflexivity|].
    destruct Hr as [(-> & -> & _)|(-> & -> & _)]; [eapply Hf; reflexivity|]. eexists. split; [apply step_creat; assumption|apply Hsafe].
  - (* read *)
    destruct Hsafe as (i & c & pos & Er & Hsafe). pose proof Ho as (_ & O2 & _). rewrite Er in O2. destruct O2 as [P1 P2].
    destruct (sys_read_inv _ _ _ _ _ _ _ _ _ Hsys P1 P2) as [(_ & -> & e & -> & _)|[-> ->]]; [apply (Hf e); reflexivity|].
    eexists. split; [eapply step_read; eauto|exact Hsafe].
  - (* write *)
    destruct Hsafe as (T & i & c & Er & Hsafe). pose proof Ho as (O1 & _). rewrite Er in O1. destruct O1 as (_ & _ & P1 & P2 & _).
    destruct (sys_write_inv _ _ _ _ _ _ _ _ _ Hsys P1 P2) as [(_ & -> & e & -> & _)|(n & Hn & _ & -> & ->)]; [apply (Hf e); reflexivity|].
    eexists. split; [eapply step_write; eauto|apply Hsafe; exact Hn].
  - (* access *)
    destruct (sys_access _ _ _ _ _ Hsys) as [(_ & -> & e & -> & _)|Hr]; [apply (Hf e); reflexivity|].
    destruct (name_at w q); destruct Hr as [-> ->]; [|eapply Hf; reflexivity]. exists g. split; [apply step_same; assumption|apply Hsafe].
  - contradiction.
  - contradiction.
  - (* rename *)
    destruct Hsafe as (fd & i & c & Er & Hc & Hsafe). destruct (sys_renameat _ _ _ _ _ _ Hsys) as [(_ & -> & e & -> & _)|Hr]; [apply (Hf e); reflexivity|].
    pose proof Ho as (O1 & _). rewrite Er in O1. destruct O1 as (P1 & P2 & _). rewrite P2 in Hr. destruct Hr as (-> & -> & _).
    assert (final q) as Hq by (eapply complete_final; eauto). assert (own_name g = Some p) as En by (unfold own_name; rewrite Er; reflexivity).
    assert (p <> q) as Hpq by (intros ->; exact (temp_not_final _ P1 Hq)).
    exists (with_own g None). split; [|apply Hsafe]. apply step_names; try assumption; try reflexivity.
    + intros x Hx. destruct (list_eq_dec N.eq_dec q x) as [->|Hne].
      * right. right. right. exists p, fd, i, c. rewrite name_put_same. auto.
      * left. rewrite name_put_other by exact Hne. apply name_del_other. intros ->. exact (temp_not_final _ P1 Hx).
    + intros x j Hx _. destruct (list_eq_dec N.eq_dec p x) as [->|Hne]; [right; exact En|left].
      rewrite name_put_other by (intros ->; exact (temp_not_final _ Hx Hq)). apply name_del_other. exact Hne.
    + intros x j. rewrite name_put. destruct (beq q x); [intros E; injection E as <-; right; unfold own_ino; rewrite Er; reflexivity|]. rewrite name_del. destruct (beq p x); [discriminate|auto].
    + left. reflexivity.
  - (* symlink *)
    destruct Hsafe as (Hq & Hl & Hsafe). destruct (sys_symlink _ _ _ _ _ _ Hsys) as [(_ & -> & e & -> & _)|Hr]; [apply (Hf e); reflexivity|].
    destruct (name_at w q) eqn:En; [destruct Hr as [-> ->]; eapply Hf; reflexivity|].
    destruct Hr as [[-> ->]|[-> ->]]; [eapply Hf; reflexivity|]. exists g. split; [|apply Hsafe].
    rewrite <- (Hwo (g_own g) eq_refl) at 2. apply step_names; try assumption; try reflexivity.
    + intros x Hx. destruct (list_eq_dec N.eq_dec q x) as [->|Hne]; [right; right; left; exists t; split; [apply name_put_same|exact Hl]|left; apply name_put_other; exact Hne].
    + intros x j _ Hx. left. apply name_put_other. intros ->. congruence.
    + intros x i. rewrite name_put. destruct (beq q x); [discriminate|auto].
    + right. split; [reflexivity|]. split; [|intros x i; rewrite name_put; destruct (beq q x); [discriminate|auto]].
      intros T HT. apply name_put_other. intros ->. destruct (own_file w g T Ho HT) as [i E]. congruence.
  - (* readlink *)
    destruct Hsafe as [Hq Hsafe].
    assert ((exists e, w' = w /\ r = RFail e) \/ exists t, w' = w /\ r = RData (takeN n t) /\ name_at w q = Some (NLink t)) as [(e & -> & ->)|(t & -> & -> & E)]
      by (inversion Hsys; subst; eauto 6); [apply (Hf e); reflexivity|].
    exists g. split; [apply step_same; assumption|]. apply Hsafe. destruct (Hi q Hq) as [H|[(t' & H & H')|(c & H & _)]]; [congruence| |].
    + congruence.
    + unfold file_at in H. rewrite E in H. discriminate.
  - (* opendir *)
    destruct (sys_opendir _ _ _ _ _ Hsys) as [(_ & -> & e & -> & _)|[-> [[-> _]|[e ->]]]]; [apply (Hf e); reflexivity| |apply (Hf e); reflexivity].
    exists g. split; [apply step_same; assumption|apply Hsafe].
  - (* list *)
    destruct (sys_list _ _ _ _ _ Hsys) as [(_ & -> & e & -> & _)|(l & -> & -> & _)]; [apply (Hf e); reflexivity|].
    exists g. split; [apply step_same; assumption|apply Hsafe].
  - (* random *)
    destruct (sys_random _ _ _ _ Hsys) as [(_ & -> & e & -> & _)|(v & -> & -> & Hv)]; [apply (Hf e); reflexivity|].
    exists g. split; [apply step_same; assumption|apply Hsafe; exact Hv].
Qed.

(** ** Any number of processes *)
Definition all_ok {A} (Q : ghost -> A -> Prop) (w : world) (gs : list ghost) (ps : list (prog A)) : Prop :=
  sound w /\ intact w /\ Forall2 (fun g p => owner_ok w g /\ safe Q g p) gs ps /\ ForallOrdPairs pair_ok gs.

Lemma pstep_ok {Ty} (Q : ghost -> Ty -> Prop) w ps w' ps' gs : all_ok Q w gs ps -> pstep (w, ps) (w', ps') -> exists gs', all_ok Q w' gs' ps'.
Proof.
  intros (Hs & Hi & HF & HP) Hstep. inversion Hstep as [? ? c k r ps1 qs1 Hsys]; subst. clear Hstep.
  apply Forall2_app_inv_r in HF. destruct HF as (ga & gb & Ha & Hb & ->). inversion Hb as [|g ? gr ? [Hg Hsafe] Hr]; subst. clear Hb.
  destruct (step_preserves _ _ _ _ _ _ _ Hs Hi Hg Hsafe Hsys) as (g' & (S1 & S2 & S3 & S4) & Hsafe').
  assert (forall h, In h ga -> pair_ok h g) as HPa.
  { clear -HP. intros h Hin. induction ga as [|a ga IH]; [contradiction|]. inversion HP as [|? ? Hall Hrest]; subst.
    destruct Hin as [->|Hin]; [|auto]. rewrite Forall_forall in Hall. apply Hall. apply in_or_app. right. left. reflexivity. }
  assert (forall h, In h gr -> pair_ok g h) as HPr.
  { clear -HP. induction ga as [|a ga IH]; inversion HP as [|? ? Hall Hrest]; subst; [|auto]. intros h Hin. rewrite Forall_forall in Hall. auto. }
  assert (forall h, In h ga \/ In h gr -> owner_ok w h -> owner_ok w' h /\ pair_ok g' h) as Hoth.
  { intros h Hin Hh. destruct (S4 h Hh) as [K P].
    - destruct Hin; [apply pair_sym|]; auto.
    - split; [eapply keeps_ok; eauto|exact P]. }
  exists (ga ++ g' :: gr). split; [exact S1|]. split; [exact S2|].
  assert (forall h, In h ga -> owner_ok w h) as Oa.
  { clear -Ha. intros h Hin. induction Ha as [|x y l l' [Hx _] Hl IH]; [contradiction|]. destruct Hin as [->|Hin]; auto. }
  assert (forall h, In h gr -> owner_ok w h) as Or.
  { clear -Hr. intros h Hin. induction Hr as [|x y l l' [Hx _] Hl IH]; [contradiction|]. destruct Hin as [->|Hin]; auto. }
  split.
  - apply Forall2_app.
    + assert (forall h, In h ga -> owner_ok w' h) as Oa' by (intros h Hin; apply Hoth; auto). clear -Ha Oa'.
      induction Ha as [|x y l l' [Hx Hy] Hl IH]; constructor; [split; [apply Oa'; left; reflexivity|exact Hy]|]. apply IH. intros h Hin. apply Oa'. right. exact Hin.
    + constructor; [split; [exact S3|exact Hsafe']|]. assert (forall h, In h gr -> owner_ok w' h) as Or' by (intros h Hin; apply Hoth; auto). clear -Hr Or'.
      induction Hr as [|x y l l' [Hx Hy] Hl IH]; constructor; [split; [apply Or'; left; reflexivity|exact Hy]|]. apply IH. intros h Hin. apply Or'. right. exact Hin.
  - assert (forall h, In h ga -> pair_ok h g') as Na by (intros h Hin; apply pair_sym; apply Hoth; auto).
    assert (forall h, In h gr -> pair_ok g' h) as Nr by (intros h Hin; apply Hoth; auto).
    clear -HP Na Nr. induction ga as [|a ga IH]; cbn [app] in *; inversion HP as [|? ? Hall Hrest]; subst.
    + constructor; [apply Forall_forall; exact Nr|exact Hrest].
    + constructor.
      * rewrite Forall_forall in *. intros h Hin. apply in_app_or in Hin. destruct Hin as [Hin|[<-|Hin]].
        -- apply Hall. apply in_or_app. auto.
        -- apply Na. left. reflexivity.
        -- apply Hall. apply in_or_app. right. right. exact Hin.
      * apply IH; [exact Hrest|]. intros h Hin. apply Na. right. exact Hin.
Qed.

Lemma psteps_ok {A} (Q : ghost -> A -> Prop) s s' : psteps s s' -> (exists gs, all_ok Q (fst s) gs (snd s)) -> exists gs, all_ok Q (fst s') gs (snd s').
Proof.
  induction 1 as [s|s1 [w2 p2] [w3 p3] H IH Hstep]; intros Hs; [exact Hs|]. destruct (IH Hs) as [gs Hgs]. eapply pstep_ok; eauto.
Qed.

(** Processes that have nothing in hand yet. *)
Definition idle : ghost := mkGhost None None.
Lemma pair_idle : pair_ok idle idle.
Proof. repeat split; apply apart_none. Qed.

Theorem shared_dir {A} (Q : A -> Prop) w ps w' ps' : sound w -> intact w -> (forall p, In p ps -> safe (fun _ => Q) idle p) ->
  psteps (w, ps) (w', ps') -> intact w' /\ forall a, In (Ret a) ps' -> Q a.
Proof.
  intros Hs Hi Hp Hsteps. destruct (psteps_ok (fun _ => Q) _ _ Hsteps) as [gs (_ & Hi' & HF & _)].
  - exists (repeat idle (length ps)). cbn [fst snd]. split; [exact Hs|]. split; [exact Hi|]. split.
    + clear -Hp. induction ps as [|p ps IH]; cbn; constructor; [|apply IH; intros q Hq; apply Hp; right; exact Hq]. split; [|apply Hp; left; reflexivity].
      repeat split; apply apart_none.
    + generalize (length ps). clear. intros n. induction n as [|n IH]; cbn; constructor; [|exact IH]. apply Forall_forall. intros h Hh. apply repeat_spec in Hh. subst h. apply pair_idle.
  - cbn [fst snd] in *. split; [exact Hi'|]. intros a Hin. clear -HF Hin. induction HF as [|g p gs ps [_ H] HF IH]; [contradiction|].
    destruct Hin as [->|Hin]; [exact H|auto].
Qed.

(** One process alone. *)
Lemma sys_faults f w c w' r : sys f w c w' r -> sys true w c w' r.
Proof. intros H. destruct f; [exact H|]. inversion H; subst; try discriminate; solve [eauto using sys]. Qed.

Lemma safe_exec {A} (Q : ghost -> A -> Prop) (p : prog A) : forall f w g w' a, sound w -> intact w -> owner_ok w g -> safe Q g p -> exec f w p w' a ->
  sound w' /\ intact w' /\ exists g', owner_ok w' g' /\ Q g' a.
Proof.
  induction p as [x| |c k IH]; intros f w g w' a Hs Hi Ho Hp He; inversion He; subst.
  - split; [exact Hs|]. split; [exact Hi|]. exists g. auto.
  - assert (sys true w c w1 r) as Hsys by (match goal with H : sys f _ _ _ _ |- _ => exact (sys_faults f _ _ _ _ H) end).
    destruct (step_preserves Q w c k g w1 r Hs Hi Ho Hp Hsys) as (g' & (S1 & S2 & S3 & _) & Hk). eapply IH; eauto.
Qed.
End Shared.

(** Garbage collection: at any moment; in terms of the index files. *)
From Coq Require Import Permutation.
From Verif Require Import Base ChunkId ChunkIdProofs Posix PosixProofs ChunkFile Store StoreSpec StoreProofs1 StoreProofs4 Index IndexSpec IndexProofs IndexProofs2 Gc GcSpec GcProofs1 GcProofs2 GcProofs3 Properties_Index.
Local Open Scope N_scope.

(** A program that takes away only files [used] does not have, and directories in the root. *)
Fixpoint prunes {A} (used : list (list N)) (root : list N) (p : prog A) : Prop :=
  match p with
  | Ret _ => True
  | Hang => True
  | Sys c k =>
    match c with
    | SUnlink q => condemned used q /\ forall r, prunes used root (k r)
    | SRmdir q => in_root root q /\ forall r, prunes used root (k r)
    | SOpenDir _ => forall r, prunes used root (k r)
    | SList _ => forall r, (forall l, r = RNames l -> forall e, In e l -> no_slash (fst e)) -> prunes used root (k r)
    | _ => False
    end
  end.

Lemma gc_files_prunes used used' root dry sub l k : no_slash sub -> (forall i, In i used' -> In i used) -> (forall e, In e l -> no_slash (fst e)) ->
  prunes used' root k -> prunes used' root (gc_files dry used root sub l k).
Proof.
  intros Hsub Hu. induction l as [|e l IH]; intros Hl Hk; cbn [gc_files]; [exact Hk|].
  specialize (IH (fun x Hx => Hl x (or_intror Hx)) Hk).
  destruct (is_chunk_file e) eqn:Ec; cbn [negb]; [|exact IH]. destruct (chunk_id_parse (before_dot (fst e))) as [id|] eqn:Ei; [|exact IH].
  destruct (used_contains used id) eqn:Eu; [exact IH|]. destruct dry; [exact IH|]. cbn [prunes]. split.
  - exists (entry_dir root sub), (fst e), id. split; [reflexivity|]. split; [apply Hl; left; reflexivity|].
    split; [unfold is_chunk_file in Ec; destruct (snd e); try discriminate; apply andb_true_iff in Ec; apply Ec|].
    split; [exact Ei|]. apply contains_false in Eu. auto.
  - intros r. assert (prunes used' root (Sys (SRmdir (root ++ sub)) (fun _ => gc_files false used root sub l k))) as R.
    { cbn [prunes]. split; [exists sub; auto|intros _; exact IH]. }
    destruct r; [exact R..|exact IH].
Qed.

Lemma gc_subdirs_prunes used used' root dry l : (forall i, In i used' -> In i used) -> (forall e, In e l -> no_slash (fst e)) ->
  prunes used' root (gc_subdirs dry used root l).
Proof.
  intros Hu. induction l as [|[sub nd] l IH]; intros Hl; cbn [gc_subdirs]; [exact I|]. specialize (IH (fun x Hx => Hl x (or_intror Hx))).
  assert (prunes used' root (Sys (SList (entry_dir root sub)) (fun r => match r with
              | RNames fs => gc_files dry used root sub fs (gc_subdirs dry used root l)
              | RFail e => Ret (Err e) | _ => Ret UB end))) as Go.
  { cbn [prunes]. intros r Hr. destruct r as [n|fd|b|fs|e]; try exact I. apply gc_files_prunes; [apply (Hl (sub, nd)); left; reflexivity|exact Hu|apply Hr; reflexivity|exact IH]. }
  destruct (beq sub [46] || beq sub [46; 46]); [exact Go|]. cbn [prunes]. intros r. destruct r as [n|fd|b|fs|e]; try exact Go. destruct e; first [exact IH|exact I].
Qed.

Lemma gc_prunes used' fuel dry files root :
  (forall u, add_indexes fuel files [] = Some (Ok u) -> forall i, In i used' -> In i u) ->
  prunes used' root (gc fuel dry files root).
Proof.
  intros H. unfold gc. destruct (add_indexes fuel files []) as [[u|e| |]|] eqn:E; try exact I. specialize (H u eq_refl).
  unfold gc_cleanup_unused. cbn [prunes]. intros r. 
  assert (prunes used' root (Sys (SList (dirname root)) (fun r => match r with RNames l => gc_subdirs dry u root l | RFail e => Ret (Err e) | _ => Ret UB end))) as Go.
  { cbn [prunes]. intros r1 Hr. destruct r1 as [n|fd|b|fs|e]; try exact I. apply gc_subdirs_prunes; [exact H|apply Hr; reflexivity]. }
  destruct r as [n|fd|b|fs|e]; first [exact Go|exact I].
Qed.

Lemma sys_prunes {A} f used root w c (k : sysret -> prog A) w' r : sys f w c w' r -> prunes used root (Sys c k) ->
  pruned used (in_root root) w w' /\ prunes used root (k r).
Proof.
  intros Hs Hp. destruct c; cbn [prunes] in Hp; try contradiction.
  - destruct Hp as [Hp Hk]. split; [eapply rmdir_pruned; eauto|apply Hk].
  - destruct Hp as [Hp Hk]. split; [eapply unlink_pruned; eauto|apply Hk].
  - destruct (sys_opendir _ _ _ _ _ Hs) as [(_ & -> & e & -> & _)|[-> _]]; (split; [apply pruned_refl|apply Hp]).
  - destruct (sys_list _ _ _ _ _ Hs) as [(_ & -> & e & -> & _)|(fs & -> & -> & HP)]; (split; [apply pruned_refl|apply Hp]); [discriminate|].
    intros l Hl e. injection Hl as <-. apply (entries_no_slash _ _ _ _ HP).
Qed.

Lemma psteps_prunes {A} used root (s s' : world * list (prog A)) : psteps s s' -> Forall (prunes used root) (snd s) ->
  pruned used (in_root root) (fst s) (fst s') /\ Forall (prunes used root) (snd s').
Proof.
  induction 1 as [s|s1 s2 s3 H IH Hstep]; intros HF; [split; [apply pruned_refl|exact HF]|].
  destruct (IH HF) as [P1 F1]. inversion Hstep as [w w' c k r ps qs Hs]; subst. cbn [fst snd] in *.
  apply Forall_app in F1. destruct F1 as [Fa Fb]. inversion Fb as [|? ? Fp Fq]; subst.
  destruct (sys_prunes _ _ _ _ _ _ _ _ Hs Fp) as [P2 F2]. split; [eapply pruned_trans; eauto|].
  apply Forall_app. split; [exact Fa|]. constructor; assumption.
Qed.

(** ** What is collected *)

Lemma entries_ids l : forall off, ids_of (entries_of off l) = map fst l.
Proof. induction l as [|[id sz] l IH]; intros off; cbn; [reflexivity|]. unfold ids_of in IH. rewrite IH. reflexivity. Qed.

Lemma collected fuel files u : files_ok files -> add_indexes fuel files [] = Some (Ok u) ->
  (forall f, In f files -> good_index f) /\ forall id, In id u <-> referenced files id.
Proof.
  intros Hf H. destruct (add_indexes_ok _ _ _ _ H) as (_ & H2 & H3). split; [|intros id; split].
  - intros f Hin. destruct (H2 f Hin) as (data & es & -> & S & _). destruct (Hf data Hin) as [B L].
    apply (index_reader_exact data 0 es B L) in S. destruct S as (fl & mi & av & ma & l & P & C & -> & _).
    exists fl, mi, av, ma, l. auto.
  - intros Hid. destruct (H3 id Hid) as [[]|(data & es & Hin & S & Hi)]. destruct (Hf data Hin) as [B L].
    apply (index_reader_exact data 0 es B L) in S. destruct S as (fl & mi & av & ma & l & P & C & E & ->).
    exists fl, mi, av, ma, l. rewrite <- E. rewrite entries_ids in Hi. auto.
  - intros (fl & mi & av & ma & l & P & C & Hin & Hi). destruct (H2 _ Hin) as (data & es & E & S & Hes). injection E as <-. apply Hes.
    destruct (Hf _ Hin) as [B L].
    assert (scans (fresh_reader (index_image fl mi av ma l) 0) (entries_of 0 l)) as S'.
    { apply (index_reader_exact _ 0 _ B L). exists fl, mi, av, ma, l. auto. }
    rewrite (scans_fun _ _ S' _ S), entries_ids. exact Hi.
Qed.

Lemma collects fuel files : files_ok files -> (forall f, In f files -> good_index f) -> (forall data, In (Some data) files -> len data < 40 * N.of_nat fuel) ->
  exists u, add_indexes fuel files [] = Some (Ok u).
Proof.
  intros Hf Hg Hl. apply add_indexes_all; [|exact Hl]. intros f Hin. destruct (Hg f Hin) as (fl & mi & av & ma & l & P & C & ->).
  eexists. exists (entries_of 0 l). split; [reflexivity|]. destruct (Hf _ Hin) as [B L].
  apply (index_reader_exact _ 0 _ B L). exists fl, mi, av, ma, l. auto.
Qed.

(** ** Names *)

Lemma endswith_inv n s : endswith n s = true -> exists pre, n = pre ++ s.
Proof.
  unfold endswith. intros H. apply andb_true_iff in H. destruct H as [_ H]. apply beq_eq in H.
  exists (takeN (len n - len s) n). rewrite <- H at 2. symmetry. apply takeN_dropN.
Qed.

Lemma before_dot_inv n : In 46 n -> exists suf, n = before_dot n ++ 46 :: suf.
Proof.
  induction n as [|c n IH]; intros H; [destruct H|]. cbn [before_dot]. destruct (c =? 46) eqn:E; [apply N.eqb_eq in E; subst; exists n; reflexivity|].
  destruct H as [->|H]; [discriminate|]. destruct (IH H) as [suf Hs]. exists suf. cbn [app]. congruence.
Qed.

Lemma cstr_app a b : cstr_ok (a ++ b) = true -> cstr_ok a = true /\ cstr_ok b = true.
Proof. unfold cstr_ok. rewrite forallb_app. apply andb_true_iff. Qed.

Lemma cstr_join d n : cstr_ok (join d n) = true -> cstr_ok n = true.
Proof.
  destruct d; [auto|]. intros H. change (join (n0 :: d) n) with ((n0 :: d) ++ [47] ++ n) in H. apply cstr_app in H. destruct H as [_ H]. apply cstr_app in H. apply H.
Qed.

Lemma condemned_doomed used (R : list N -> Prop) q : (forall i, R i -> In i used) -> cstr_ok q = true -> condemned used q -> doomed R q.
Proof.
  intros Hu Hq (d & n & id & -> & Hn & He & Hp & Hi). apply cstr_join in Hq. exists d, n, id.
  destruct (endswith_inv _ _ He) as [pre Epre].
  assert (In 46 n) as H46 by (rewrite Epre; apply in_or_app; right; left; reflexivity).
  destruct (before_dot_inv n H46) as [suf Hsuf].
  assert (cstr_ok (before_dot n) = true) as Hb by (rewrite Hsuf in Hq; apply cstr_app in Hq; apply Hq).
  destruct (parse_inv _ _ Hb Hp) as [Hid Ef].
  split; [destruct d; [left; reflexivity|right; reflexivity]|]. split; [exact Hn|]. split; [exists pre; exact Epre|].
  split; [exists suf; rewrite <- Ef; exact Hsuf|]. split; [exact Hid|]. auto.
Qed.

Lemma pruned_named used V w w' q : pruned used V w w' -> c_names w -> name_at w' q <> name_at w q -> cstr_ok q = true.
Proof.
  intros (_ & _ & _ & H) Hc Hq. destruct (H q) as [E|(_ & n & Hn & _)]; [contradiction|]. unfold name_at in Hn. apply assoc_in in Hn. eapply Hc; eauto.
Qed.

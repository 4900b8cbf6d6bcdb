(** Garbage collection: what it takes away. *)
From Coq Require Import Permutation.
From Verif Require Import Base ChunkId ChunkIdProofs Posix PosixProofs ChunkFile Store StoreSpec StoreProofs1 StoreProofs4 Index IndexSpec Gc GcSpec GcProofs1.
Local Open Scope N_scope.

(** A name in some directory that ends with .cacnk, with the text before the first dot the name of a chunk that is not in [used]. *)
Definition condemned (used : list (list N)) (q : list N) : Prop :=
  exists d n id, q = join d n /\ no_slash n /\ endswith n CACNK = true /\ chunk_id_parse (before_dot n) = Some id /\ ~ In id used.

(** [w'] is [w] with some condemned files and some directories in [V], empty by then, taken away. *)
Definition pruned (used : list (list N)) (V : list N -> Prop) (w w' : world) : Prop :=
  w_inodes w' = w_inodes w /\ w_fds w' = w_fds w /\ incl (w_names w') (w_names w) /\
  forall q, name_at w' q = name_at w q \/
    (name_at w' q = None /\ exists n, name_at w q = Some n /\
       ((n <> NDir /\ condemned used q) \/ (n = NDir /\ V q /\ existsb (in_dir q) (w_names w') = false))).

Lemma pruned_refl used V w : pruned used V w w.
Proof. split; [reflexivity|]. split; [reflexivity|]. split; [apply incl_refl|]. auto. Qed.

Lemma existsb_incl {A} (f : A -> bool) a b : incl a b -> existsb f b = false -> existsb f a = false.
Proof.
  intros Hi H. destruct (existsb f a) eqn:E; [|reflexivity]. apply existsb_exists in E. destruct E as (x & Hx & Fx).
  assert (existsb f b = true) by (apply existsb_exists; eauto). congruence.
Qed.

Lemma pruned_trans used (V : list N -> Prop) a b c : pruned used V a b -> pruned used V b c -> pruned used V a c.
Proof.
  intros (A1 & A2 & A3 & A4) (B1 & B2 & B3 & B4). split; [congruence|]. split; [congruence|]. split; [eapply incl_tran; eauto|].
  intros q. destruct (A4 q) as [Ha|(Ha & n & Hn & Hd)].
  - destruct (B4 q) as [Hb|(Hb & n & Hn & Hd)]; [left; congruence|]. right. split; [exact Hb|]. exists n. split; [congruence|exact Hd].
  - destruct (B4 q) as [Hb|(Hb & m & Hm & _)]; [|congruence]. right. split; [congruence|]. exists n. split; [exact Hn|].
    destruct Hd as [Hd|(Hd & Hv & He)]; [left; exact Hd|]. right. split; [exact Hd|]. split; [exact Hv|]. eapply existsb_incl; eauto.
Qed.

Lemma pruned_weaken used (V W : list N -> Prop) a b : (forall q, V q -> W q) -> pruned used V a b -> pruned used W a b.
Proof.
  intros H (A1 & A2 & A3 & A4). split; [exact A1|]. split; [exact A2|]. split; [exact A3|]. intros q.
  destruct (A4 q) as [Ha|(Ha & n & Hn & Hd)]; [left; exact Ha|]. right. split; [exact Ha|]. exists n. split; [exact Hn|].
  destruct Hd as [Hd|(Hd & Hv & He)]; [left; exact Hd|right]. split; [exact Hd|]. split; [apply H; exact Hv|exact He].
Qed.

Lemma remove_incl {A} (l : list (list N * A)) p : incl (remove l p) l.
Proof.
  induction l as [|[q x] l IH]; cbn; [apply incl_refl|]. destruct (beq q p); [apply incl_tl; exact IH|].
  intros y [<-|Hy]; [left; reflexivity|right; apply IH; exact Hy].
Qed.

Lemma name_del w p q : name_at (del_name w p) q = if beq p q then None else name_at w q.
Proof.
  unfold name_at, del_name. cbn [w_names]. induction (w_names w) as [|[a x] l IH]; cbn [remove assoc]; [destruct (beq p q); reflexivity|].
  destruct (beq a p) eqn:E.
  - apply beq_eq in E. subst a. rewrite IH. destruct (beq p q); reflexivity.
  - cbn [assoc]. rewrite IH. destruct (beq a q) eqn:Eq; [|reflexivity]. apply beq_eq in Eq. subst a.
    destruct (beq p q) eqn:Ep; [|reflexivity]. apply beq_eq in Ep. subst p. rewrite beq_refl in E. discriminate.
Qed.

Lemma del_file_pruned used V w p n : name_at w p = Some n -> n <> NDir -> condemned used p -> pruned used V w (del_name w p).
Proof.
  intros Hn Hd Hp. split; [reflexivity|]. split; [reflexivity|]. split; [apply remove_incl|]. intros q. rewrite name_del.
  destruct (beq p q) eqn:E; [|auto]. apply beq_eq in E. subst q. right. split; [reflexivity|]. exists n. auto.
Qed.

Lemma del_dir_pruned used (V : list N -> Prop) w p : name_at w p = Some NDir -> existsb (in_dir p) (w_names w) = false -> V p -> pruned used V w (del_name w p).
Proof.
  intros Hn He Hp. split; [reflexivity|]. split; [reflexivity|]. split; [apply remove_incl|]. intros q. rewrite name_del.
  destruct (beq p q) eqn:E; [|auto]. apply beq_eq in E. subst q. right. split; [reflexivity|]. exists NDir. split; [exact Hn|]. right.
  split; [reflexivity|]. split; [exact Hp|]. eapply existsb_incl; [apply remove_incl|exact He].
Qed.

Lemma unlink_pruned f used V w p w' r : sys f w (SUnlink p) w' r -> condemned used p -> pruned used V w w'.
Proof.
  intros H Hd. destruct (sys_unlink _ _ _ _ _ H) as [(_ & -> & _)|Hr]; [apply pruned_refl|].
  inversion H; subst; try apply pruned_refl. eapply del_file_pruned; eauto.
Qed.

Lemma rmdir_pruned f used (V : list N -> Prop) w p w' r : sys f w (SRmdir p) w' r -> V p -> pruned used V w w'.
Proof.
  intros H Hv. destruct (sys_rmdir _ _ _ _ _ H) as [->|(-> & Hn & He)]; [apply pruned_refl|]. apply del_dir_pruned; assumption.
Qed.

Lemma gc_files_exec f dry used root sub l k : (forall e, In e l -> no_slash (fst e)) -> forall w w' r,
  exec f w (gc_files dry used root sub l k) w' r ->
  exists w1, pruned used (eq (root ++ sub)) w w1 /\ exec f w1 k w' r /\ (dry = true -> w1 = w).
Proof.
  intros Hl. induction l as [|e l IH]; intros w w' r H; cbn [gc_files] in H.
  - exists w. split; [apply pruned_refl|auto].
  - assert (forall e, In e l -> no_slash (fst e)) as Hl' by (intros x Hx; apply Hl; right; exact Hx). specialize (IH Hl').
    destruct (is_chunk_file e) eqn:Ec; cbn [negb] in H; [|apply IH; exact H].
    destruct (chunk_id_parse (before_dot (fst e))) as [id|] eqn:Ei; [|apply IH; exact H].
    destruct (used_contains used id) eqn:Eu; [apply IH; exact H|]. destruct dry; [apply IH; exact H|].
    apply exec_sys_inv in H. destruct H as (w1 & r1 & Hs & H).
    assert (pruned used (eq (root ++ sub)) w w1) as P1.
    { eapply unlink_pruned; [exact Hs|]. exists (entry_dir root sub), (fst e), id. split; [reflexivity|]. split; [apply Hl; left; reflexivity|].
      split; [unfold is_chunk_file in Ec; destruct (snd e); try discriminate; apply andb_true_iff in Ec; apply Ec|].
      split; [exact Ei|apply contains_false; exact Eu]. }
    assert (forall v, exec f v (gc_files false used root sub l k) w' r -> pruned used (eq (root ++ sub)) w v ->
            exists w1, pruned used (eq (root ++ sub)) w w1 /\ exec f w1 k w' r /\ (false = true -> w1 = w)) as Go.
    { intros v Hv Pv. destruct (IH _ _ _ Hv) as (w2 & P2 & H2 & _). exists w2. split; [eapply pruned_trans; eauto|]. split; [exact H2|discriminate]. }
    destruct r1 as [n|fd|b|nl|er]; [| | | |apply (Go w1); assumption];
      (apply exec_sys_inv in H; destruct H as (w2 & r2 & Hs2 & H); apply (Go w2 H);
       eapply pruned_trans; [exact P1|]; eapply rmdir_pruned; [exact Hs2|reflexivity]).
Qed.

(** Names in a directory have no slash. *)
Lemma until_slash_no_slash r : no_slash (until_slash r).
Proof.
  induction r as [|c r IH]; cbn; [intros []|]. destruct (c =? 47) eqn:E; [intros []|]. intros [H|H]; [lia|exact (IH H)].
Qed.

Lemma basename_no_slash p : no_slash (basename p).
Proof. unfold basename, no_slash. rewrite <- in_rev. apply until_slash_no_slash. Qed.

Lemma entries_no_slash w d l e : Permutation l (dir_entries w d) -> In e l -> no_slash (fst e).
Proof.
  intros HP Hin. apply (Permutation_in _ HP) in Hin. unfold dir_entries in Hin. destruct Hin as [<-|[<-|Hin]].
  - apply no_slash_lit. reflexivity.
  - apply no_slash_lit. reflexivity.
  - apply in_map_iff in Hin. destruct Hin as (x & <- & _). apply basename_no_slash.
Qed.

Lemma gc_subdirs_exec f dry used root l : (forall e, In e l -> no_slash (fst e)) -> forall w w' r,
  exec f w (gc_subdirs dry used root l) w' r -> pruned used (in_root root) w w' /\ (dry = true -> w' = w).
Proof.
  intros Hl. induction l as [|[sub nd] l IH]; intros w w' r H; cbn [gc_subdirs] in H.
  - ret H. split; [apply pruned_refl|auto].
  - assert (no_slash sub) as Hsub by (apply (Hl (sub, nd)); left; reflexivity).
    specialize (IH (fun e Hin => Hl e (or_intror Hin))).
    assert (forall w, exec f w (Sys (SList (entry_dir root sub)) (fun r => match r with
              | RNames fs => gc_files dry used root sub fs (gc_subdirs dry used root l)
              | RFail e => Ret (Err e) | _ => Ret UB end)) w' r -> pruned used (in_root root) w w' /\ (dry = true -> w' = w)) as Go.
    { clear H w. intros w H. apply exec_sys_inv in H. destruct H as (w1 & r1 & Hs & H).
      destruct (sys_list _ _ _ _ _ Hs) as [(_ & -> & e & -> & _)|(fs & -> & -> & HP)].
      - ret H. split; [apply pruned_refl|auto].
      - apply gc_files_exec in H; [|intros e; apply (entries_no_slash _ _ _ _ HP)]. destruct H as (w1 & P1 & H & Hd).
        destruct (IH _ _ _ H) as [P2 Hd2]. split; [|intros D; rewrite Hd2, Hd by exact D; reflexivity].
        eapply pruned_trans; [|exact P2]. eapply pruned_weaken; [|exact P1]. intros q <-. exists sub. auto. }
    destruct (beq sub [46] || beq sub [46; 46]); [apply Go; exact H|].
    apply exec_sys_inv in H. destruct H as (w1 & r1 & Hs & H).
    destruct (sys_opendir _ _ _ _ _ Hs) as [(_ & -> & e & -> & _)|[-> [[-> _]|[e ->]]]]; [|apply Go; exact H|].
    + destruct e; try (ret H; split; [apply pruned_refl|auto]). apply (IH _ _ _ H).
    + destruct e; try (ret H; split; [apply pruned_refl|auto]). apply (IH _ _ _ H).
Qed.

Lemma gc_cleanup_exec f dry used root w w' r : exec f w (gc_cleanup_unused dry used root) w' r ->
  pruned used (in_root root) w w' /\ (dry = true -> w' = w).
Proof.
  intros H. apply exec_sys_inv in H. destruct H as (w1 & r1 & Hs & H).
  destruct (sys_opendir _ _ _ _ _ Hs) as [(_ & -> & e & -> & _)|[-> [[-> _]|[e ->]]]]; [ret H; split; [apply pruned_refl|auto]| |ret H; split; [apply pruned_refl|auto]].
  apply exec_sys_inv in H. destruct H as (w1 & r1 & Hs1 & H).
  destruct (sys_list _ _ _ _ _ Hs1) as [(_ & -> & e & -> & _)|(fs & -> & -> & HP)]; [ret H; split; [apply pruned_refl|auto]|].
  eapply gc_subdirs_exec; [|exact H]. intros e. apply (entries_no_slash _ _ _ _ HP).
Qed.

(** ** The files of a chunk *)

Lemma before_dot_app a b : forallb (fun c => negb (c =? 46)) a = true -> before_dot (a ++ 46 :: b) = a.
Proof.
  induction a as [|c a IH]; cbn; intros H; [reflexivity|]. apply andb_true_iff in H. destruct H as [H1 H2].
  destruct (c =? 46); [discriminate|]. rewrite IH by exact H2. reflexivity.
Qed.

Lemma encode_no_dot x : encode_char x <> 46.
Proof.
  unfold encode_char. assert (N.land x 15 < 16) by (change 15 with (N.ones 4); rewrite N.land_ones; apply N.mod_lt; discriminate).
  destruct (N.land x 15 <? 10) eqn:E; lia.
Qed.

Lemma format_no_dot id : forallb (fun c => negb (c =? 46)) (chunk_id_format id) = true.
Proof.
  apply forallb_forall. intros c Hin. unfold chunk_id_format in Hin. apply in_flat_map in Hin.
  destruct Hin as (b & _ & [H|[H|[]]]); subst c; apply negb_true_iff, N.eqb_neq, encode_no_dot.
Qed.

Lemma join_last d n p q : no_slash n -> no_slash q -> join d n = p ++ 47 :: q -> n = q.
Proof.
  intros Hn Hq H. destruct d as [|c d].
  - cbn [join] in H. exfalso. apply Hn. rewrite H. apply in_or_app. right. left. reflexivity.
  - change (join (c :: d) n) with ((c :: d) ++ 47 :: n) in H.
    pose proof (f_equal dirname H) as E. rewrite (dirname_app (c :: d)), dirname_app in E by assumption.
    rewrite E in H. apply app_inv_head in H. congruence.
Qed.

Lemma format_path_eq root id s : chunk_id_format_path root id s = (root ++ firstn 4 (chunk_id_format id)) ++ 47 :: (chunk_id_format id ++ s).
Proof. unfold chunk_id_format_path. rewrite <- app_assoc. reflexivity. Qed.

Lemma doomed_chunk used root id s : id_ok id = true -> no_slash s -> condemned used (chunk_id_format_path root id s) ->
  endswith (chunk_id_format id ++ s) CACNK = true /\ chunk_id_parse (before_dot (chunk_id_format id ++ s)) <> None /\
  forall i, chunk_id_parse (before_dot (chunk_id_format id ++ s)) = Some i -> ~ In i used.
Proof.
  intros Hid Hs (d & n & i & E & Hn & He & Hp & Hu). rewrite format_path_eq in E. symmetry in E.
  apply join_last in E; [|exact Hn|apply no_slash_app; [apply format_no_slash|exact Hs]]. subst n.
  split; [exact He|]. split; [congruence|]. intros j Hj. congruence.
Qed.

Lemma doomed_compressed used root id : id_ok id = true -> condemned used (chunk_name root id COMPRESSED) -> ~ In id used.
Proof.
  intros Hid H. apply doomed_chunk in H; [|exact Hid|apply cacnk_no_slash]. destruct H as (_ & _ & H). apply H.
  unfold cacnk. rewrite before_dot_app by apply format_no_dot. apply parse_format. exact Hid.
Qed.

Lemma endswith_format id : id_ok id = true -> endswith (chunk_id_format id ++ []) CACNK = false.
Proof.
  intros Hid. rewrite app_nil_r. destruct (endswith (chunk_id_format id) CACNK) eqn:E; [|reflexivity]. exfalso.
  unfold endswith in E. apply andb_true_iff in E. destruct E as [_ E]. apply beq_eq in E.
  assert (In 46 (chunk_id_format id)) as Hin.
  { rewrite <- (takeN_dropN (len (chunk_id_format id) - len CACNK) (chunk_id_format id)). apply in_or_app. right. rewrite E. left. reflexivity. }
  pose proof (format_no_dot id) as F. rewrite forallb_forall in F. specialize (F _ Hin). discriminate.
Qed.

Lemma not_doomed_uncompressed used root id : id_ok id = true -> ~ condemned used (chunk_name root id UNCOMPRESSED).
Proof.
  intros Hid H. apply doomed_chunk in H; [|exact Hid|apply no_slash_lit; reflexivity]. destruct H as (H & _).
  rewrite endswith_format in H by exact Hid. discriminate.
Qed.

Lemma in_root_not_chunk root id s : no_slash s -> ~ in_root root (chunk_id_format_path root id s).
Proof.
  intros Hs (sub & Hn & E). unfold chunk_id_format_path in E. apply app_inv_head in E. apply Hn. rewrite <- E. apply in_or_app. right. left. reflexivity.
Qed.

Lemma pruned_keeps used root id c w w' : id_ok id = true -> pruned used (in_root root) w w' -> (c = UNCOMPRESSED \/ (c = COMPRESSED /\ In id used)) ->
  name_at w' (chunk_name root id c) = name_at w (chunk_name root id c).
Proof.
  intros Hid (_ & _ & _ & H) Hc. destruct (H (chunk_name root id c)) as [E|(_ & n & _ & [(_ & D)|(_ & D & _)])]; [exact E| |].
  - exfalso. destruct Hc as [->|[-> Hu]]; [eapply not_doomed_uncompressed; eauto|]. eapply doomed_compressed; eauto.
  - exfalso. eapply in_root_not_chunk; [|exact D]. destruct c; [apply no_slash_lit; reflexivity|apply cacnk_no_slash..].
Qed.

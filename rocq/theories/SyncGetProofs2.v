(** C35: what a seed answers. *)
From Verif Require Import Base Locator ChunkId Posix PosixProofs ChunkFile Location LocationHeap LocationProofs1 Cache Queue Store StoreSpec StoreProofs1 StoreProofs2 StoreProofs3 StoreProofs4 StoreProofs10
  CacheProofs1 CacheProofs2 CacheProofs3 QueueProofs4 SyncGet SyncGetSpec SyncGetProofs1.
Local Open Scope N_scope.

(** ** The walk *)
Lemma collect_data evs : forall size got, len got < size -> size <= len (got ++ data_of evs) ->
  seed_collect evs size got = Ret (Ok (takeN size (got ++ data_of evs))).
Proof.
  induction evs as [|ev evs IH]; intros size got Hg Hs; cbn [data_of] in *; [rewrite app_nil_r in Hs; lia|].
  destruct ev as [e| | |e|q]; try (rewrite app_nil_r in Hs; lia); cbn [seed_collect].
  - apply IH; assumption.
  - cbv zeta. rewrite len_app, len_takeN. rewrite !len_app in Hs. destruct (N.leb_spec size (len got + N.min (size - len got) (len q))) as [H|H].
    + do 2 f_equal. rewrite takeN_app_ge by lia. f_equal. rewrite takeN_app_le by lia. reflexivity.
    + rewrite (takeN_all (size - len got) q) by lia. rewrite IH.
      * rewrite app_assoc. reflexivity.
      * rewrite len_app. lia.
      * rewrite !len_app. lia.
Qed.

Lemma collect_short evs : forall size got, len (got ++ data_of evs) < size ->
  seed_collect evs size got = match end_of evs with
                              | Some WFinished => Ret (Err ESTALE)
                              | Some (WFail e) | Some (WDataFail e) => Ret (Err e)
                              | _ => Hang
                              end.
Proof.
  induction evs as [|ev evs IH]; intros size got Hs; cbn [data_of end_of] in *; [reflexivity|].
  destruct ev as [e| | |e|q]; cbn [seed_collect]; try reflexivity; [apply IH; exact Hs|].
  cbv zeta. rewrite !len_app in Hs. rewrite (takeN_all (size - len got) q) by lia. rewrite len_app. replace (size <=? len got + len q) with false by lia.
  apply IH. rewrite !len_app. lia.
Qed.

Lemma walk_exec f evs size w w' p : exec f w (seed_walk evs size) w' (Ok p) -> 0 < size -> w' = w /\ len p = size /\ exists rest, data_of evs = p ++ rest.
Proof.
  intros H Hs. assert (exec f w (seed_collect evs size []) w' (Ok p)) as H'.
  { unfold seed_walk in H. destruct evs as [|[[]| | | |] evs]; try exact H. apply exec_ret_inv in H. destruct H; discriminate. }
  destruct (N.leb_spec size (len (data_of evs))) as [Hle|Hlt].
  - rewrite collect_data in H' by (cbn [app]; try exact Hle; change (@len N []) with 0; lia). apply exec_ret_inv in H'. destruct H' as [-> E]. injection E as ->.
    split; [reflexivity|]. cbn [app]. rewrite len_takeN. split; [lia|]. exists (dropN size (data_of evs)). rewrite takeN_dropN. reflexivity.
  - rewrite collect_short in H' by exact Hlt. destruct (end_of evs) as [[e| | |e|b]|]; try (inversion H'; fail); apply exec_ret_inv in H'; destruct H'; discriminate.
Qed.

Lemma walk_zero f evs w w' p : exec f w (seed_walk evs 0) w' (Ok p) -> p = [].
Proof.
  intros H. assert (exec f w (seed_collect evs 0 []) w' (Ok p)) as H'.
  { unfold seed_walk in H. destruct evs as [|[[]| | | |] evs]; try exact H. apply exec_ret_inv in H. destruct H; discriminate. }
  clear H. induction evs as [|[e| | |e|q] evs IH]; cbn [seed_collect] in H'; try (inversion H'; fail); try (apply exec_ret_inv in H'; destruct H'; discriminate); [apply IH; exact H'|].
  cbv zeta in H'. change (0 - len (@nil N)) with 0 in H'. rewrite takeN_0 in H'. cbn [app] in H'. change (0 <=? len (@nil N)) with true in H'. cbv iota in H'.
  apply exec_ret_inv in H'. destruct H' as [_ E]. injection E as ->. reflexivity.
Qed.

(** ** The entry *)
Lemma entry_same root id : seed_entry root id = entry_name root id.
Proof. unfold seed_entry, entry_name, chunk_name, in_cache, chunk_id_format_path. cbn [app]. rewrite <- app_assoc. reflexivity. Qed.

Lemma readlink_noent f : forall fuel p l w w', exec f w (readlink_malloc fuel p l) w' (Err ENOENT) -> name_at w p = None.
Proof.
  induction fuel as [|fuel IH]; intros p l w w' H; cbn [readlink_malloc] in H; [inversion H|].
  apply exec_sys_inv in H. destruct H as (w1 & r1 & Hs & Hx).
  inversion Hs; subst; try (apply exec_ret_inv in Hx; destruct Hx as [_ E]; try discriminate E).
  - injection E as <-. discriminate.
  - destruct (_ <? _); [apply exec_ret_inv in Hx; destruct Hx; discriminate|]. apply IH in Hx. exact Hx.
  - assumption.
Qed.

Lemma readlink_calm : forall fuel p l w w' e, exec false w (readlink_malloc fuel p l) w' (Err e) -> e <> ESTALE /\ e <> ENOLINK.
Proof.
  induction fuel as [|fuel IH]; intros p l w w' e H; cbn [readlink_malloc] in H; [inversion H|].
  apply exec_sys_inv in H. destruct H as (w1 & r1 & Hs & Hx).
  inversion Hs; subst; try discriminate; try (apply exec_ret_inv in Hx; destruct Hx as [_ E]; injection E as ->; split; discriminate).
  destruct (_ <? _); [apply exec_ret_inv in Hx; destruct Hx; discriminate|]. apply IH in Hx. exact Hx.
Qed.

Lemma cstring_cut t : ~ In 0 (cstring t) /\ (t = cstring t \/ exists rest, t = cstring t ++ 0 :: rest).
Proof.
  unfold cstring. destruct (cut 0 t) as [[a b]|] eqn:E.
  - apply cut_inv in E. destruct E as [-> E]. eauto.
  - apply cut_is_none in E. auto.
Qed.

Lemma strict_read_full fuel : forall fd buf l, strict (read_full fuel fd buf l).
Proof.
  induction fuel as [|fuel IH]; intros; [exact I|]. cbn [read_full]. destruct (_ <? _); [exact I|]. apply strict_ptry; [apply strict_read|].
  intros [|x b]; [exact I|apply IH].
Qed.
Definition skipped (e : errno) : Prop := e = ESTALE \/ e = ENOLINK \/ e = ENOENT.

Lemma quiet_read_full (bad : errno -> Prop) fuel : (bad E2BIG -> False) -> forall fd buf l, quiet bad (read_full fuel fd buf l).
Proof.
  intros Hb. induction fuel as [|fuel IH]; intros; [exact I|]. cbn [read_full]. destruct (_ <? _); [cbn; intros e He H; injection H as <-; exact (Hb He)|]. apply quiet_bind; [apply quiet_read|].
  intros [|x b]; [cbn; intros e _ H; discriminate|apply IH].
Qed.
Lemma reads_read_full fuel : forall fd buf l, reads (read_full fuel fd buf l).
Proof.
  induction fuel as [|fuel IH]; intros; [exact I|]. cbn [read_full]. destruct (_ <? _); [exact I|]. apply reads_ptry; [apply reads_read|].
  intros [|x b]; [exact I|apply IH].
Qed.
Lemma read_full_exec fuel : forall fd buf l w rest w' b, reading w fd rest -> exec false w (read_full fuel fd buf l) w' (Ok b) -> b = buf ++ rest.
Proof.
  induction fuel as [|fuel IH]; intros fd buf l w rest w' b HR H; [inversion H|]. cbn [read_full] in H.
  destruct (_ <? _); [apply exec_ret_inv in H; destruct H; discriminate|].
  apply (exec_read _ _ _ _ _ _ _ HR) in H. destruct H as (w1 & _ & HR1 & H).
  destruct (takeN BUFFER_SIZE rest) as [|x y] eqn:E.
  - apply takeN_nil_inv in E; [|apply buffer_pos]. apply exec_ret_inv in H. destruct H as [_ H]. injection H as ->. rewrite E, app_nil_r. reflexivity.
  - apply (IH _ _ _ _ _ _ _ HR1) in H. rewrite H, <- app_assoc, <- E, takeN_dropN. reflexivity.
Qed.
Lemma read_full_ends fuel : forall fd buf l w rest (Q : Posix.world -> res (list N) -> Prop), reading w fd rest -> len buf + len rest <= l -> len rest + 1 < N.of_nat fuel ->
  (forall w', same_files w w' -> Q w' (Ok (buf ++ rest))) -> ends false w (read_full fuel fd buf l) Q.
Proof.
  induction fuel as [|fuel IH]; intros fd buf l w rest Q HR Hl Hf HQ; [lia|]. cbn [read_full]. replace (l <? len buf) with false by lia.
  apply (ends_read fd BUFFER_SIZE _ w rest); [exact HR|]. intros w1 Hs HR1.
  destruct (takeN BUFFER_SIZE rest) as [|x y] eqn:E.
  - apply takeN_nil_inv in E; [|apply buffer_pos]. subst rest. rewrite app_nil_r in HQ. cbn [ends]. apply HQ. exact Hs.
  - pose proof (takeN_dropN BUFFER_SIZE rest) as Ht. rewrite E in Ht.
    assert (1 <= len (x :: y)) by (rewrite len_cons; lia).
    assert (len (x :: y) + len (dropN BUFFER_SIZE rest) = len rest) as El by (rewrite <- Ht at 2; rewrite len_app; reflexivity).
    apply (IH fd (buf ++ x :: y) l w1 (dropN BUFFER_SIZE rest)); [exact HR1|rewrite len_app; lia|lia|].
    intros w2 Hs2. rewrite <- app_assoc, Ht. apply HQ. exact (same_files_trans _ _ _ Hs Hs2).
Qed.

Lemma existsb_zero b : existsb (N.eqb 0) b = false <-> ~ In 0 b.
Proof.
  rewrite <- not_true_iff_false, existsb_exists. split.
  - intros H Hin. apply H. exists 0. split; [exact Hin|reflexivity].
  - intros H (x & Hin & Hx). apply N.eqb_eq in Hx. subst x. exact (H Hin).
Qed.

Lemma target_exec f fuel root id w w' r : exec f w (seed_target fuel (seed_entry root id)) w' r ->
  same_files w w' /\
  match r with
  | Ok text => noted w root id text
  | Err e => (e = ENOENT -> name_at w (entry_name root id) = None) /\ (f = false -> e <> ESTALE /\ e <> ENOLINK)
  | _ => True
  end.
Proof.
  rewrite entry_same. set (p := entry_name root id). intros H. unfold seed_target in H. apply exec_bind in H. destruct H as (w1 & r1 & H1 & H).
  pose proof (readlink_exec _ _ _ _ _ _ _ H1) as [-> Hok].
  assert (r1 = Err ENOENT -> name_at w p = None) as Hno by (intros ->; exact (readlink_noent _ _ _ _ _ _ H1)).
  assert (f = false -> forall e, r1 = Err e -> e <> ESTALE /\ e <> ENOLINK) as Hst by (intros -> e ->; exact (readlink_calm _ _ _ _ _ _ H1)). clear H1.
  destruct r1 as [t|e| |].
  - apply exec_ret_inv in H. destruct H as [-> ->]. split; [apply same_files_refl|]. destruct (cstring_cut t) as [Hc1 Hc2]. split; [exact Hc1|].
    left. exists t. split; [apply Hok; reflexivity|exact Hc2].
  - assert (e = EINVAL \/ e <> EINVAL) as [->|He] by (destruct e; auto; right; discriminate).
    + apply exec_sys_inv in H. destruct H as (w2 & r2 & Hs & H). 
      assert (same_files w w2) as Hsm by (inversion Hs; subst; first [apply same_files_refl|apply same_add_fd]).
      destruct r2 as [k|fd|b|l|e2]; try (apply exec_ret_inv in H; destruct H as [-> ->]; split; [exact Hsm|exact I]).
      * inversion Hs; subst. apply exec_bind in H. destruct H as (w3 & r3 & H3 & H).
        pose proof (reads_exec _ (reads_read_full _ _ _ _) _ _ _ _ H3) as Hs3.
        assert (same_files w w3) as Hsm3 by (eapply same_files_trans; [exact Hsm|exact Hs3]).
        destruct r3 as [b|e| |]; try (apply exec_ret_inv in H; destruct H as [-> ->]; split; [exact Hsm3|try exact I]).
        -- assert (exec false (add_fd w i) (read_full fuel (length (w_fds w)) [] 1048576) w3 (Ok b)) as H3'.
           { destruct f; [apply strict_exec; [apply strict_read_full|exact H3]|exact H3]. }
           destruct (existsb (N.eqb 0) b) eqn:Ez; apply exec_ret_inv in H; destruct H as [-> ->]; (split; [exact Hsm3|try exact I]).
           { split; [discriminate|]. intros _. split; discriminate. }
           apply existsb_zero in Ez. split; [exact Ez|]. right. 
           match goal with Hn : name_at w p = Some (NFile i) |- _ => rename Hn into Hi end.
           unfold file_at. fold p. rewrite Hi. destruct (nth_error (w_inodes w) i) as [c|] eqn:Ec.
           ++ pose proof (read_full_exec _ _ _ _ _ _ _ _ (reading_open w i c Ec) H3') as Hb. cbn [app] in Hb. rewrite Hb. reflexivity.
           ++ exfalso. destruct fuel as [|fuel']; [inversion H3'|]. cbn [read_full] in H3'. change (1048576 <? len (@nil N)) with false in H3'. cbv iota in H3'.
              unfold ptry, sys_read in H3'. cbn [pbind] in H3'. apply exec_sys_inv in H3'. destruct H3' as (w4 & r4 & Hs4 & _).
              inversion Hs4; subst; [discriminate|]. cbn [add_fd w_fds w_inodes] in *.
              match goal with Hn : nth_error (w_fds w ++ _) (length (w_fds w)) = Some _ |- _ => rewrite nth_error_app2, Nat.sub_diag in Hn by lia; cbn in Hn; injection Hn as <- <- end. congruence.
        -- split.
           ++ intros ->. exfalso. refine (quiet_exec absent f _ (fault_absent f) (quiet_read_full absent fuel _ (length (w_fds w)) [] 1048576) _ _ _ H3 eq_refl). discriminate.
           ++ intros ->. assert (~ skipped e) as Hk.
              { refine (quiet_exec skipped false _ _ (quiet_read_full skipped fuel _ (length (w_fds w)) [] 1048576) _ _ _ H3); [discriminate|]. intros [E|[E|E]]; discriminate. }
              unfold skipped in Hk. tauto.
      * apply exec_ret_inv in H. destruct H as [-> ->]. split; [exact Hsm|]. split.
        -- intros ->. inversion Hs; subst; [discriminate|]. assumption.
        -- intros ->. inversion Hs; subst; try discriminate; split; discriminate.
    + assert (exec f w (Ret (Err e)) w' r) as H' by (destruct e; try exact H; contradiction). apply exec_ret_inv in H'. destruct H' as [-> ->].
      split; [apply same_files_refl|]. split; [intros ->; apply Hno; reflexivity|]. intros Hff. exact (Hst Hff e eq_refl).
  - apply exec_ret_inv in H. destruct H as [-> ->]. split; [apply same_files_refl|exact I].
  - apply exec_ret_inv in H. destruct H as [-> ->]. split; [apply same_files_refl|exact I].
Qed.

Lemma target_ends fuel root id w text (Q : Posix.world -> res (list N) -> Prop) : enough fuel -> legible w root id text ->
  (forall w', same_files w w' -> Q w' (Ok text)) -> ends false w (seed_target fuel (seed_entry root id)) Q.
Proof.
  intros Hf (Hz & Hl & H) HQ. unfold enough, CHUNK_LIMIT_MAX in Hf. rewrite entry_same. unfold seed_target. apply ends_bind. destruct H as [H|H].
  - apply (readlink_malloc_link _ text); [exact H| |lia|lia|lia]. cbn [ends]. rewrite cstring_no_nul by exact Hz. apply HQ. apply same_files_refl.
  - apply file_at_inv in H. destruct H as (i & Hi & Hc). apply (readlink_malloc_file _ i); [exact Hi| |lia].
    cbn [ends]. split; [eauto using sys|]. intros w1 r Hs. inversion Hs; subst; try discriminate; try congruence.
    assert (i0 = i) as -> by congruence. apply ends_bind. apply (read_full_ends fuel _ [] 1048576 _ text); [apply reading_open; exact Hc|change (@len N []) with 0; lia|lia|].
    intros w2 Hs2. cbn [app]. apply existsb_zero in Hz. rewrite Hz. cbn [ends]. apply HQ. eapply same_files_trans; [apply same_add_fd|exact Hs2].
Qed.

(** ** The seed *)
Lemma noted_same w w' root id text : same_files w w' -> noted w root id text -> noted w' root id text.
Proof. intros Hs [H1 H2]. split; [exact H1|]. rewrite (name_same _ _ _ Hs), (file_same _ _ _ Hs). exact H2. Qed.

Lemma noted_inj w root id a b : noted w root id a -> noted w root id b -> a = b.
Proof.
  intros [Ha [(t & Ht & Hta)|Hfa]] [Hb [(t' & Ht' & Htb)|Hfb]].
  - assert (t' = t) as -> by congruence. destruct Hta as [->|(ra & ->)], Htb as [Htb|(rb & Htb)]; subst; auto.
    + exfalso. apply Ha. apply in_or_app. right; left; reflexivity.
    + exfalso. apply Hb. apply in_or_app. right; left; reflexivity.
    + apply cut_unique in Htb; [|assumption|assumption]. destruct Htb; assumption.
  - apply file_at_inv in Hfb. destruct Hfb as (i & Hi & _). congruence.
  - apply file_at_inv in Hfa. destruct Hfa as (i & Hi & _). congruence.
  - congruence.
Qed.

Lemma walk_same f evs size w w' r : exec f w (seed_walk evs size) w' r -> w' = w.
Proof.
  assert (forall evs got, exec f w (seed_collect evs size got) w' r -> w' = w) as Hc.
  { induction evs0 as [|[e| | |e|q] evs0 IH]; intros got H; cbn [seed_collect] in H; try (inversion H; fail); try (apply exec_ret_inv in H; apply H); [apply (IH _ H)|].
    cbv zeta in H. destruct (_ <=? _); [apply exec_ret_inv in H; apply H|apply (IH _ H)]. }
  intros H. unfold seed_walk in H. destruct evs as [|[[]| | | |] evs]; try (apply (Hc _ _ H)). apply exec_ret_inv in H; apply H.
Qed.

Lemma seed_get_exec f digest fuel s id w w' r : exec f w (seed_get digest fuel s id) w' r ->
  same_files w w' /\
  match r with
  | Ok p => seed_offers digest w s id p
  | Err e => f = false -> forall p, seed_offers digest w s id p -> ~ skipped e
  | _ => True
  end.
Proof.
  intros H. unfold seed_get in H. destruct (sd_cache s) as [root|] eqn:Ec.
  2:{ apply exec_ret_inv in H. destruct H as [-> ->]. split; [apply same_files_refl|]. intros _ p _ [E|[E|E]]; discriminate. }
  destruct (sd_chunks s) eqn:Ech; cbn [negb] in H.
  2:{ apply exec_ret_inv in H. destruct H as [-> ->]. split; [apply same_files_refl|]. intros _ p _ [E|[E|E]]; discriminate. }
  unfold ptry in H. apply exec_bind in H. destruct H as (w1 & r1 & H1 & H). pose proof (target_exec _ _ _ _ _ _ _ H1) as [Hs Ht].
  destruct r1 as [text|e| |]; try (apply exec_ret_inv in H; destruct H as [-> ->]; split; [exact Hs|exact I]).
  2:{ apply exec_ret_inv in H. destruct H as [-> ->]. split; [exact Hs|]. destruct Ht as [Ht1 Ht2]. intros Hf p (root' & text & l & rest & E1 & _ & Hn & _) [E|[E|E]]; [destruct (Ht2 Hf); contradiction|destruct (Ht2 Hf); contradiction|].
      specialize (Ht1 E). assert (root' = root) as -> by congruence. destruct Hn as [_ [(t & Hn & _)|Hn]]; [congruence|]. apply file_at_inv in Hn. destruct Hn as (i & Hn & _). congruence. }
  assert (forall p, seed_offers digest w s id p -> exists l rest, location_parse text = Ok l /\ Location.size l = len p /\ data_of (sd_walk s l) = p ++ rest /\ digest (sd_digest s) p = id /\
    CHUNK_LIMIT_MIN <= len p <= CHUNK_LIMIT_MAX) as Hoff.
  { intros p (root' & text' & l & rest & E1 & _ & Hn & Hp & Hsz & Hd & Hdig & Hlim). assert (root' = root) as -> by congruence.
    assert (text' = text) as -> by exact (noted_inj _ _ _ _ _ Hn Ht). exists l, rest. auto. }
  destruct (location_parse text) as [l|e| |] eqn:El; try (apply exec_ret_inv in H; destruct H as [-> ->]; split; [exact Hs|try exact I]).
  2:{ intros _ p Hp. destruct (Hoff p Hp) as (l & rest & E & _). discriminate. }
  destruct (Location.size l =? UINT64_MAX) eqn:Eu.
  { apply N.eqb_eq in Eu. apply exec_ret_inv in H. destruct H as [-> ->]. split; [exact Hs|]. intros _ p Hp _. destruct (Hoff p Hp) as (l' & rest & E & Esz & _ & _ & Hlim). injection E as <-.
    rewrite Eu in Esz. unfold CHUNK_LIMIT_MAX in Hlim. rewrite <- Esz in Hlim. clear -Hlim. destruct Hlim as [_ Hlim]. apply N.leb_le in Hlim. discriminate Hlim. }
  destruct (sd_size_max s <? Location.size l) eqn:Em.
  { apply exec_ret_inv in H. destruct H as [-> ->]. split; [exact Hs|]. intros _ p _ [E|[E|E]]; discriminate. }
  apply exec_bind in H. destruct H as (w2 & r2 & H2 & H). pose proof (walk_same _ _ _ _ _ _ H2) as ->.
  assert (forall p, seed_offers digest w s id p -> r2 = Ok p /\ digest (sd_digest s) p = id /\ CHUNK_LIMIT_MIN <= len p <= CHUNK_LIMIT_MAX) as Hgot.
  { intros p Hp. destruct (Hoff p Hp) as (l' & rest & E & Esz & Hd & Hdig & Hlim). injection E as <-. split; [|auto].
    assert (0 < len p) as Hpos by (unfold CHUNK_LIMIT_MIN in Hlim; lia).
    assert (seed_walk (sd_walk s l) (Location.size l) = seed_collect (sd_walk s l) (Location.size l) []) as Ew.
    { unfold seed_walk. destruct (sd_walk s l) as [|[[]| | | |] evs]; try reflexivity. cbn [data_of] in Hd. destruct p; [change (@len N []) with 0 in Hpos; lia|discriminate]. }
    rewrite Ew, Esz, collect_data in H2.
    - apply exec_ret_inv in H2. destruct H2 as [_ ->]. cbn [app]. rewrite Hd, takeN_app_exact by reflexivity. reflexivity.
    - change (@len N []) with 0. exact Hpos.
    - cbn [app]. rewrite Hd, len_app. lia. }
  destruct r2 as [p|e| |]; try (apply exec_ret_inv in H; destruct H as [-> ->]; split; [exact Hs|try exact I]).
  2:{ intros _ p Hp. destruct (Hgot p Hp) as [E _]. discriminate. }
  destruct (chunk_id_make (digest (sd_digest s)) p) as [actual|e| |] eqn:Ek; apply exec_ret_inv in H; destruct H as [-> ->]; (split; [exact Hs|]); try exact I.
  - apply chunk_id_make_inv in Ek. destruct Ek as [-> Hlim]. unfold chunk_id_equal. destruct (beq id (digest (sd_digest s) p)) eqn:Eb.
    + apply beq_eq in Eb.
      destruct (N.eq_dec (Location.size l) 0) as [E0|E0].
      { rewrite E0 in H2. apply walk_zero in H2. subst p. unfold CHUNK_LIMIT_MIN in Hlim. change (@len N []) with 0 in Hlim. lia. }
      apply walk_exec in H2; [|lia]. destruct H2 as (_ & Hl & rest & Hd). exists root, text, l, rest. symmetry in Hl, Eb. auto 10.
    + intros _ p' Hp'. destruct (Hgot p' Hp') as [E [Hdig _]]. injection E as ->. rewrite Hdig, beq_refl in Eb. discriminate.
  - intros _ p' Hp'. destruct (Hgot p' Hp') as [E [_ Hlim]]. injection E as ->. rewrite chunk_id_make_ok in Ek by exact Hlim. discriminate.
Qed.

(** Without faults. *)
Lemma seed_get_ends digest fuel s id w p : enough fuel -> seed_offers digest w s id p -> len p <= sd_size_max s ->
  (exists root text, sd_cache s = Some root /\ legible w root id text) ->
  ends false w (seed_get digest fuel s id) (fun w' r => same_files w w' /\ r = Ok p).
Proof.
  intros Hf (root & text & l & rest & E1 & E2 & Hn & El & Esz & Hd & Hdig & Hlim) Hm (root' & text' & E1' & Hleg).
  assert (root' = root) as -> by congruence. assert (noted w root id text') as Hn'.
  { destruct Hleg as (Hz & _ & [H|H]); (split; [exact Hz|]); [left; exists text'; auto|right; exact H]. }
  assert (text' = text) as -> by exact (noted_inj _ _ _ _ _ Hn' Hn).
  unfold seed_get. rewrite E1, E2. cbn [negb]. apply ends_bind. apply (target_ends _ _ _ _ text); [exact Hf|exact Hleg|]. intros w1 Hs. rewrite El.
  assert (0 < len p) as Hpos by (unfold CHUNK_LIMIT_MIN in Hlim; lia).
  replace (Location.size l =? UINT64_MAX) with false by (symmetry; apply N.eqb_neq; rewrite Esz; unfold CHUNK_LIMIT_MAX in Hlim; change UINT64_MAX with 18446744073709551615; lia).
  replace (sd_size_max s <? Location.size l) with false by (symmetry; apply N.ltb_ge; rewrite Esz; exact Hm).
  apply ends_bind. assert (seed_walk (sd_walk s l) (Location.size l) = seed_collect (sd_walk s l) (Location.size l) []) as Ew.
  { unfold seed_walk. destruct (sd_walk s l) as [|[[]| | | |] evs]; try reflexivity. cbn [data_of] in Hd. destruct p; [change (@len N []) with 0 in Hpos; lia|discriminate]. }
  rewrite Ew, Esz, collect_data.
  - cbn [app ends]. rewrite Hd, takeN_app_exact by reflexivity. rewrite chunk_id_make_ok by exact Hlim. cbn [ends]. unfold chunk_id_equal. rewrite Hdig, beq_refl. auto.
  - change (@len N []) with 0. exact Hpos.
  - cbn [app]. rewrite Hd, len_app. lia.
Qed.

Lemma seed_misses_ends digest fuel s id w : enough fuel -> seed_misses digest w s id ->
  ends false w (seed_get digest fuel s id) (fun w' r => same_files w w' /\ exists e, r = Err e /\ skipped e).
Proof.
  intros Hf (root & E1 & E2 & H). unfold seed_get. rewrite E1, E2. cbn [negb]. apply ends_bind. destruct H as [H|(text & l & Hleg & El & H)].
  - rewrite entry_same. unfold seed_target. apply ends_bind. apply readlink_malloc_none; [exact H| |unfold enough, CHUNK_LIMIT_MAX in Hf; lia].
    cbn [ends]. split; [apply same_files_refl|]. exists ENOENT. unfold skipped. auto.
  - apply (target_ends _ _ _ _ text); [exact Hf|exact Hleg|]. intros w1 Hs. rewrite El. destruct (Location.size l =? UINT64_MAX) eqn:Eu.
    { cbn [ends]. split; [exact Hs|]. exists ENOENT. unfold skipped. auto. }
    apply N.eqb_neq in Eu. destruct H as [H|[Hm H]]; [contradiction|].
    replace (sd_size_max s <? Location.size l) with false by (symmetry; apply N.ltb_ge; exact Hm). apply ends_bind.
    destruct H as [(rest & ->)|[[Hl He]|(p & rest & Hd & Hl & Hdig & Hlim)]].
    + cbn [ends seed_walk]. split; [exact Hs|]. exists ESTALE. unfold skipped. auto.
    + assert (seed_walk (sd_walk s l) (Location.size l) = seed_collect (sd_walk s l) (Location.size l) []) as ->.
      { unfold seed_walk. destruct (sd_walk s l) as [|[[]| | | |] evs]; try reflexivity. discriminate He. }
      rewrite collect_short by exact Hl. rewrite He. cbn [ends]. split; [exact Hs|]. exists ESTALE. unfold skipped. auto.
    + assert (0 < len p) as Hpos by (unfold CHUNK_LIMIT_MIN in Hlim; lia).
      assert (seed_walk (sd_walk s l) (Location.size l) = seed_collect (sd_walk s l) (Location.size l) []) as ->.
      { unfold seed_walk. destruct (sd_walk s l) as [|[[]| | | |] evs]; try reflexivity. cbn [data_of] in Hd. destruct p; [change (@len N []) with 0 in Hpos; lia|discriminate]. }
      rewrite <- Hl, collect_data.
      * cbn [app ends]. rewrite Hd, takeN_app_exact by reflexivity. rewrite chunk_id_make_ok by exact Hlim. cbn [ends]. unfold chunk_id_equal.
        assert (beq id (digest (sd_digest s) p) = false) as -> by (apply beq_neq; congruence). split; [exact Hs|]. exists ESTALE. unfold skipped. auto.
      * change (@len N []) with 0. exact Hpos.
      * cbn [app]. rewrite Hd, len_app. lia.
Qed.

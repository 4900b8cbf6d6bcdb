(** C35: A chunk request is served from the first of seeds, writable store, cache store, further stores and remotes that has it; it is reported missing only if none has it;
    and every chunk delivered matches its id. The notions are in SyncGetSpec.v. *)
From Verif Require Import Base Locator ChunkId Posix PosixProofs ChunkFile Location LocationHeap Cache Queue Store StoreSpec StoreProofs1 StoreProofs2 StoreProofs3 StoreProofs4 StoreProofs9 StoreProofs10 StoreProofs12
  QueueProofs1 SyncGet SyncGetSpec SyncGetProofs1 SyncGetProofs2 SyncGetProofs3 SyncGetProofs4 SyncGetProofs5 SyncGetProofs6.
From Verif Require Properties_Store.
Local Open Scope N_scope.

(** ** Every chunk delivered matches its id

    Whatever the file system, other processes and the seeds' trees do ([may]): what is delivered is of the form desired, and stands for bytes whose digest is the id. *)
Theorem sync_get_genuine :
  forall codecs bound digest vtd fuel s id desired s' b e,
  codecs_ok bound codecs -> usable codecs digest vtd fuel s ->
  may (sync_get codecs digest fuel s id desired) (s', Ok (b, e)) ->
  exists x p, In x (sources s) /\ (desired <> AS_IS -> e = desired) /\ stands codecs e b p /\
    (exists t, digest t p = id /\ names_by x t) /\ CHUNK_LIMIT_MIN <= len p <= CHUNK_LIMIT_MAX.
Proof. intros codecs bound digest vtd fuel s id desired s' b e HC Hu H. exact (sync_get_may codecs bound HC digest fuel id desired vtd s s' b e Hu H). Qed.
Print Assumptions sync_get_genuine.

(** ** The order

    Of the places on this machine, the one that serves is the first that has the chunk; if the chunk is reported missing, none of them has it. This holds whatever system calls fail
    ([faults]), but that a seed may then be passed over although it has the chunk. *)
Theorem get_local_order :
  forall codecs bound digest vtd fuel faults s id desired w w' r,
  codecs_ok bound codecs -> usable codecs digest vtd fuel s ->
  exec faults w (get_local codecs digest fuel s id desired) w' r ->
  w_names w' = w_names w /\ w_inodes w' = w_inodes w /\
  match r with
  | Ok (b, e) => first_of (misses faults digest w w' id) (fun x => exists p, has_it digest w w' id p x /\ delivers codecs digest id desired x p b e) (local_sources s)
  | Err ENOENT => Forall (misses faults digest w w' id) (local_sources s)
  | _ => True
  end.
Proof.
  intros codecs bound digest vtd fuel f s id desired w w' r HC Hu H. destruct (get_local_exec codecs bound HC digest vtd fuel id desired f s w w' r Hu H) as ([E1 E2] & o & -> & Ho).
  split; [exact E1|]. split; [exact E2|]. specialize (Ho w'). destruct o as [[[b e]|er| |]|]; cbn in *; try exact I; try exact Ho. destruct er; try exact I; contradiction.
Qed.
Print Assumptions get_local_order.

(** With the remotes, whose queues of requests have to be in order, and without faults. *)
Theorem sync_get_order :
  forall codecs bound digest vtd fuel s id desired w w' s' r,
  codecs_ok bound codecs -> usable codecs digest vtd fuel s -> (forall x, In (FromRemote x) (sources s) -> coherent w (rm_queue x) id) ->
  exec false w (sync_get codecs digest fuel s id desired) w' (s', r) ->
  match r with
  | Ok (b, e) => first_of (misses false digest w w' id) (fun x => exists p, has_it digest w w' id p x /\ delivers codecs digest id desired x p b e) (sources s)
  | Err ENOENT => Forall (misses false digest w w' id) (sources s)
  | _ => True
  end.
Proof.
  intros codecs bound digest vtd fuel s id desired w w' s' r HC Hu Hco H. destruct (sync_get_exec codecs bound HC digest vtd fuel id desired s w w' s' r Hu Hco H) as (o & -> & Ho).
  destruct o as [[[b e]|er| |]|]; cbn in *; try exact I; try exact Ho. destruct er; try exact I; contradiction.
Qed.
Print Assumptions sync_get_order.

(** ** Availability *)
Lemma first_app_inv {A} (m h : A -> Prop) a b : first_of m h (a ++ b) -> first_of m h a \/ (Forall m a /\ first_of m h b).
Proof.
  intros (pre & x & post & E & Hp & Hx). revert pre E Hp. induction a as [|y a IH]; intros pre E Hp; cbn in E.
  - right. split; [constructor|]. exists pre, x, post. auto.
  - destruct pre as [|z pre]; cbn in E; injection E as -> E.
    + left. exists [], x, a. auto.
    + inversion Hp as [|u l Hz Hpre]; subst. destruct (IH pre E Hpre) as [(p1 & x1 & q1 & -> & H1 & H2)|[H1 H2]].
      * left. exists (z :: p1), x1, q1. split; [reflexivity|]. split; [constructor; assumption|exact H2].
      * right. split; [constructor; assumption|exact H2].
Qed.
Lemma first_map_inv {A B} (f : A -> B) (m h : B -> Prop) l : first_of m h (map f l) -> exists pre x post, l = pre ++ x :: post /\ Forall m (map f pre) /\ h (f x).
Proof.
  intros (pre & x & post & E & Hp & Hx). apply map_eq_app in E. destruct E as (l1 & l2 & -> & <- & E). apply map_eq_cons in E. destruct E as (y & tl & -> & <- & _). exists l1, y, tl. auto.
Qed.

Section Serve.
Context (codecs : ctype -> option codec) (bound : N -> N) (HC : codecs_ok bound codecs) (digest : dtype -> list N -> list N) (vtd : list N) (fuel : nat) (Hf : enough fuel)
  (id : list N) (desired : chunk_compression).

Lemma forall_same w w' l : same_files w w' -> Forall (passed digest w id desired) l -> Forall (passed digest w' id desired) l.
Proof. intros Hs H. rewrite Forall_forall in *. intros x Hin. eapply passed_same; [exact Hs|apply H; exact Hin]. Qed.

Lemma local_pass s w : Forall (passed digest w id desired) (local_sources s) -> ends false w (get_local codecs digest fuel s id desired) (fun w' r => same_files w w' /\ r = Err ENOENT).
Proof.
  unfold local_sources. rewrite !Forall_app. intros (H1 & H2 & H3 & H4). unfold get_local. rewrite !maybe_opt.
  apply ends_bind. eapply ends_mono; [|apply seeds_pass; [exact Hf|exact H1]]. cbv beta. intros w1 r1 [Hs1 ->].
  apply ends_bind. eapply ends_mono; [|apply stores_pass; exact (forall_same _ _ _ Hs1 H2)]. cbv beta. intros w2 r2 [Hs2 ->]. pose proof (same_files_trans _ _ _ Hs1 Hs2) as Hs12.
  apply ends_bind. eapply ends_mono; [|apply stores_pass; exact (forall_same _ _ _ Hs12 H3)]. cbv beta. intros w3 r3 [Hs3 ->]. pose proof (same_files_trans _ _ _ Hs12 Hs3) as Hs13.
  apply ends_bind. eapply ends_mono; [|apply stores_pass; exact (forall_same _ _ _ Hs13 H4)]. cbv beta. intros w4 r4 [Hs4 ->]. cbn. split; [exact (same_files_trans _ _ _ Hs13 Hs4)|reflexivity].
Qed.

Lemma local_serve s w p : usable codecs digest vtd fuel s -> first_of (passed digest w id desired) (serves codecs digest bound (sy_ctype s) w id p desired) (local_sources s) ->
  ends false w (get_local codecs digest fuel s id desired) (fun w' r => served codecs desired p r).
Proof.
  intros [Hu _]. unfold sources, local_sources in *.
  assert (forall st, (In st (opt (sy_wstore s)) \/ In st (opt (sy_cache_store s)) \/ In st (sy_rstores s)) -> handle codecs digest vtd fuel st) as Hst.
  { intros st Hst. apply Hu. rewrite !in_app_iff, !in_map_iff. destruct Hst as [?|[?|?]]; left; [right; left|right; right; left|right; right; right]; eauto. }
  intros H. unfold get_local. rewrite !maybe_opt.
  apply first_app_inv in H. destruct H as [H|[H1 H]].
  { apply first_map_inv in H. destruct H as (pre & x & post & E & Hp & Hx). rewrite ?maybe_opt, E. apply ends_bind. eapply ends_mono; [|apply (seeds_serve codecs bound HC digest fuel Hf id desired); eassumption].
    cbv beta. intros w1 r1 (_ & y & -> & Hy). exact Hy. }
  apply ends_bind. eapply ends_mono; [|apply seeds_pass; [exact Hf|exact H1]]. cbv beta. intros w1 r1 [Hs1 ->].
  apply first_app_inv in H. destruct H as [H|[H2 H]].
  { apply first_map_inv in H. destruct H as (pre & x & post & E & Hp & Hx). rewrite ?maybe_opt, E. apply ends_bind. eapply ends_mono; [|apply (stores_serve codecs bound HC digest vtd fuel Hf id desired (sy_ctype s) pre x post w1 p)].
    - cbv beta. intros w2 r2 (_ & y & -> & Hy). exact Hy.
    - apply Hst. left. rewrite E. apply in_elt.
    - exact (forall_same _ _ _ Hs1 Hp).
    - eapply serves_same; eassumption. }
  apply ends_bind. eapply ends_mono; [|apply stores_pass; exact (forall_same _ _ _ Hs1 H2)]. cbv beta. intros w2 r2 [Hs2 ->]. pose proof (same_files_trans _ _ _ Hs1 Hs2) as Hs12.
  apply first_app_inv in H. destruct H as [H|[H3 H]].
  { apply first_map_inv in H. destruct H as (pre & x & post & E & Hp & Hx). rewrite ?maybe_opt, E. apply ends_bind. eapply ends_mono; [|apply (stores_serve codecs bound HC digest vtd fuel Hf id desired (sy_ctype s) pre x post w2 p)].
    - cbv beta. intros w3 r3 (_ & y & -> & Hy). exact Hy.
    - apply Hst. right. left. rewrite E. apply in_elt.
    - exact (forall_same _ _ _ Hs12 Hp).
    - eapply serves_same; eassumption. }
  apply ends_bind. eapply ends_mono; [|apply stores_pass; exact (forall_same _ _ _ Hs12 H3)]. cbv beta. intros w3 r3 [Hs3 ->]. pose proof (same_files_trans _ _ _ Hs12 Hs3) as Hs13.
  apply first_map_inv in H. destruct H as (pre & x & post & E & Hp & Hx). rewrite ?maybe_opt, E. apply ends_bind. eapply ends_mono; [|apply (stores_serve codecs bound HC digest vtd fuel Hf id desired (sy_ctype s) pre x post w3 p)].
  - cbv beta. intros w4 r4 (_ & y & -> & Hy). exact Hy.
  - apply Hst. right. right. rewrite E. apply in_elt.
  - exact (forall_same _ _ _ Hs13 Hp).
  - eapply serves_same; eassumption.
Qed.

(** Remotes: [Q] is what comes of the first that is not passed over. *)
Lemma sync_to s w (h : source -> Prop) (Q : Posix.world -> res (list N * chunk_compression) -> Prop) : Forall (passed digest w id desired) (local_sources s) ->
  first_of (passed digest w id desired) h (map FromRemote (opt (sy_remote_wstore s)) ++ map FromRemote (sy_remote_rstores s)) ->
  (forall x w', In x (opt (sy_remote_wstore s) ++ sy_remote_rstores s) -> h (FromRemote x) -> same_files w w' ->
     ends false w' (remote_request codecs digest fuel x id true desired) (fun w' y => snd y <> Err ENOENT /\ Q w' (snd y))) ->
  ends false w (sync_get codecs digest fuel s id desired) (fun w' y => Q w' (snd y)).
Proof.
  intros Hl H Hh. unfold sync_get. rewrite maybe_opt. apply ends_bind. eapply ends_mono; [|apply local_pass; exact Hl]. cbv beta. intros w1 r1 [Hs1 ->].
  apply first_app_inv in H. destruct H as [H|[H1 H]].
  { apply first_map_inv in H. destruct H as (pre & x & post & E & Hp & Hx). rewrite ?maybe_opt, E. apply ends_bind.
    eapply ends_mono; [|apply (remotes_to codecs digest fuel id desired (fun w' _ y => Q w' y) pre x post w1 (forall_same _ _ _ Hs1 Hp))].
    - cbv beta. intros w2 [rs o] (y & r' & Ho & Hq). cbn in Ho. subst o. exact Hq.
    - intros w' Hs'. apply Hh; [rewrite E; apply in_app_iff; left; apply in_elt|exact Hx|exact (same_files_trans _ _ _ Hs1 Hs')]. }
  apply ends_bind. eapply ends_mono; [|apply remotes_pass; exact (forall_same _ _ _ Hs1 H1)]. cbv beta. intros w2 [rs o] [Hs2 Ho]. cbn in Ho. subst o. pose proof (same_files_trans _ _ _ Hs1 Hs2) as Hs12.
  apply first_map_inv in H. destruct H as (pre & x & post & E & Hp & Hx). unfold with_wremote. cbn [sy_remote_rstores]. rewrite E. apply ends_bind.
  eapply ends_mono; [|apply (remotes_to codecs digest fuel id desired (fun w' _ y => Q w' y) pre x post w2 (forall_same _ _ _ Hs12 Hp))].
  - cbv beta. intros w3 [rs3 o] (y & r' & Ho & Hq). cbn in Ho. subst o. exact Hq.
  - intros w' Hs'. apply Hh; [rewrite E; apply in_app_iff; right; apply in_elt|exact Hx|exact (same_files_trans _ _ _ Hs12 Hs')].
Qed.
End Serve.

(** The first place that is not passed over serves, if it has the chunk in good order. *)
Theorem sync_get_serves :
  forall codecs bound digest vtd fuel s id desired w p,
  codecs_ok bound codecs -> enough fuel -> usable codecs digest vtd fuel s ->
  first_of (passed digest w id desired) (serves codecs digest bound (sy_ctype s) w id p desired) (sources s) ->
  ends false w (sync_get codecs digest fuel s id desired) (fun _ y => exists b e, snd y = Ok (b, e) /\ represents codecs e b p /\ (desired <> AS_IS -> e = desired)).
Proof.
  intros codecs bound digest vtd fuel s id desired w p HC Hf Hu H. unfold sources in H. apply first_app_inv in H. destruct H as [H|[H1 H]].
  - unfold sync_get. apply ends_bind. eapply ends_mono; [|eapply (local_serve codecs bound HC digest vtd fuel Hf id desired); eassumption]. cbv beta. intros w1 r (b & e & -> & Hr). cbn. exists b, e. auto.
  - eapply (sync_to codecs digest fuel Hf id desired s w _ (fun _ y => served codecs desired p y)); [exact H1|exact H|]. cbv beta. intros x w' Hin Hx Hs.
    eapply ends_mono; [|eapply (remote_serve codecs bound digest fuel (sy_ctype s) x id p desired w' HC Hf)].
    + cbv beta. intros w2 [r2 o2] (_ & b & e & Ho & Hr). cbn in *. subst o2. split; [discriminate|]. exists b, e. auto.
    + destruct Hu as [_ Hu]. apply Hu. unfold sources. rewrite <- map_app, in_app_iff, in_map_iff. right. eauto.
    + eapply serves_same; eassumption.
Qed.
Print Assumptions sync_get_serves.

(** A chunk that no place has is reported missing. *)
Theorem sync_get_missing :
  forall codecs digest fuel s id desired w,
  enough fuel -> Forall (passed digest w id desired) (sources s) ->
  ends false w (sync_get codecs digest fuel s id desired) (fun w' y => snd y = Err ENOENT /\ w_names w' = w_names w /\ w_inodes w' = w_inodes w).
Proof.
  intros codecs digest fuel s id desired w Hf H. unfold sources in H. rewrite !Forall_app in H. destruct H as (H1 & H2 & H3). unfold sync_get. rewrite maybe_opt.
  apply ends_bind. eapply ends_mono; [|apply local_pass; [exact Hf|exact H1]]. cbv beta. intros w1 r1 [Hs1 ->].
  apply ends_bind. eapply ends_mono; [|apply remotes_pass; exact (forall_same _ _ _ _ _ _ Hs1 H2)]. cbv beta. intros w2 [rs o] [Hs2 Ho]. cbn in Ho. subst o. pose proof (same_files_trans _ _ _ Hs1 Hs2) as Hs12.
  unfold with_wremote. cbn [sy_remote_rstores].
  apply ends_bind. eapply ends_mono; [|apply remotes_pass; exact (forall_same _ _ _ _ _ _ Hs12 H3)]. cbv beta. intros w3 [rs3 o3] [Hs3 Ho]. cbn in Ho. subst o3. cbn.
  pose proof (same_files_trans _ _ _ Hs12 Hs3) as [E1 E2]. auto.
Qed.
Print Assumptions sync_get_missing.

(** A remote that has not answered yet is asked; the chunk is not reported missing, nor looked for at the next remote. *)
Theorem sync_get_asks :
  forall codecs digest fuel s id desired w,
  enough fuel -> first_of (passed digest w id desired) (unanswered w id) (sources s) ->
  ends false w (sync_get codecs digest fuel s id desired) (fun w' y =>
    exists r, In (FromRemote r) (sources s) /\
      ((snd y = Err EAGAIN /\ queued w' (rm_queue r) id) \/ (snd y = Err EALREADY /\ exists n, name_at w' (chunk_link (rm_queue r) id) = Some (NLink (queue_pos true n))))).
Proof.
  intros codecs digest fuel s id desired w Hf H. unfold sources in H. apply first_app_inv in H. destruct H as [H|[H1 H]].
  - exfalso. destruct H as (pre & x & post & E & _ & (r & -> & _)). assert (In (FromRemote r) (local_sources s)) as Hin by (rewrite E; apply in_elt).
    unfold local_sources in Hin. rewrite !in_app_iff, !in_map_iff in Hin. destruct Hin as [(? & ? & _)|[(? & ? & _)|[(? & ? & _)|(? & ? & _)]]]; discriminate.
  - eapply (sync_to codecs digest fuel Hf id desired s w _ (fun w' y => exists r, In (FromRemote r) (sources s) /\ ((y = Err EAGAIN /\ queued w' (rm_queue r) id) \/ (y = Err EALREADY /\ exists n, name_at w' (chunk_link (rm_queue r) id) = Some (NLink (queue_pos true n)))))); [exact H1|exact H|].
    cbv beta. intros x w' Hin Hx Hs. eapply ends_mono; [|eapply (remote_asks codecs digest fuel x id desired w' Hf); eapply unanswered_same; eassumption].
    cbv beta. intros w2 y Hy. split; [destruct Hy as [[-> _]|[-> _]]; discriminate|]. exists x. split; [|tauto].
    unfold sources. rewrite <- map_app, in_app_iff, in_map_iff. right. eauto.
Qed.
Print Assumptions sync_get_asks.

(** The handle of a remote that was asked knows of the request it has queued: it is the one before the end of the queue. *)
Theorem remote_request_asks :
  forall codecs digest fuel r id desired w,
  enough fuel -> unanswered w id (FromRemote r) -> end_high (rm_queue r) + 1 < 2 ^ 64 ->
  ends false w (remote_request codecs digest fuel r id true desired) (fun w' x =>
    (snd x = Err EAGAIN /\ queued w' (rm_queue r) id /\ end_high (rm_queue (fst x)) = end_high (rm_queue r) + 1) \/
    (snd x = Err EALREADY /\ exists n, name_at w' (chunk_link (rm_queue r) id) = Some (NLink (queue_pos true n)))).
Proof.
  intros codecs digest fuel r id desired w Hf Hu Hn. eapply ends_mono; [|exact (remote_asks codecs digest fuel r id desired w Hf Hu)].
  cbv beta. intros w' x [(A & B & C)|H]; [left|right; exact H]. split; [exact A|]. split; [exact B|]. rewrite C. cbn. apply N.mod_small. exact Hn.
Qed.
Print Assumptions remote_request_asks.

(** ** ca_sync_has_local *)
Lemma has_seeds_exec f : forall ss id w w' b, exec f w (has_seeds ss id) w' (Ok b) ->
  w' = w /\ if b then first_of (fun x => ~ listed w id x) (listed w id) (map FromSeed ss) else Forall (fun x => ~ listed w id x) (map FromSeed ss).
Proof.
  induction ss as [|s ss IH]; intros id w w' b H; cbn [has_seeds] in H; [apply exec_ret_inv in H; destruct H as [-> E]; injection E as ->; split; [reflexivity|constructor]|].
  apply exec_bind in H. destruct H as (w1 & r1 & H1 & H).
  assert (forall b, r1 = Ok b -> w1 = w /\ if b then listed w id (FromSeed s) else ~ listed w id (FromSeed s)) as Hs.
  { intros b1 ->. unfold seed_has in H1. destruct (sd_cache s) as [root|] eqn:Er; [|apply exec_ret_inv in H1; destruct H1 as [_ E]; discriminate].
    destruct (sd_chunks s); cbn [negb] in H1; [|apply exec_ret_inv in H1; destruct H1 as [_ E]; discriminate]. apply exec_sys_inv in H1. destruct H1 as (w2 & r2 & H2 & H1). rewrite entry_same in H2.
    inversion H2; subst; try (match goal with E : fault _ = true |- _ => idtac end; destruct e; try discriminate; apply exec_ret_inv in H1; destruct H1 as [_ E]; discriminate);
      apply exec_ret_inv in H1; destruct H1 as [-> E]; injection E as ->; (split; [reflexivity|]); cbn.
    - exists root. split; [exact Er|congruence].
    - intros (r & E & Hn). congruence. }
  destruct r1 as [[]|e| |]; try (apply exec_ret_inv in H; destruct H as [_ E]; discriminate).
  - destruct (Hs true eq_refl) as [-> Hx]. apply exec_ret_inv in H. destruct H as [-> E]. injection E as ->. split; [reflexivity|]. apply first_here. exact Hx.
  - destruct (Hs false eq_refl) as [-> Hx]. destruct (IH _ _ _ _ H) as [-> Hb]. split; [reflexivity|]. destruct b; [apply first_cons; assumption|constructor; assumption].
Qed.

Lemma has_stores_exec f : forall sts id w w' b, exec f w (has_stores sts id) w' (Ok b) ->
  w' = w /\ if b then first_of (fun x => ~ listed w id x) (listed w id) (map FromStore sts) else Forall (fun x => ~ listed w id x) (map FromStore sts).
Proof.
  induction sts as [|s ss IH]; intros id w w' b H; cbn [has_stores] in H; [apply exec_ret_inv in H; destruct H as [-> E]; injection E as ->; split; [reflexivity|constructor]|].
  apply exec_bind in H. destruct H as (w1 & r1 & H1 & H).
  assert (forall b, r1 = Ok b -> w1 = w /\ if b then listed w id (FromStore s) else ~ listed w id (FromStore s)) as Hs.
  { intros b1 ->. unfold store_has in H1. destruct (st_root s) as [root|] eqn:Er; [|apply exec_ret_inv in H1; destruct H1 as [_ E]; discriminate].
    apply test_exec in H1. destruct H1 as [-> Hp]. split; [reflexivity|]. rewrite (Hp b1 eq_refl). unfold present. cbn [listed]. rewrite Er.
    destruct (name_at w (chunk_name root id COMPRESSED)) as [n|] eqn:E1; cbn [orb].
    { exists root, COMPRESSED. split; [reflexivity|congruence]. }
    destruct (name_at w (chunk_name root id UNCOMPRESSED)) as [n|] eqn:E2; [exists root, UNCOMPRESSED; split; [reflexivity|congruence]|].
    intros (r & c & E & Hn). injection E as <-. apply Hn. destruct c; [exact E2|exact E1|exact E1]. }
  destruct r1 as [[]|e| |]; try (apply exec_ret_inv in H; destruct H as [_ E]; discriminate).
  - destruct (Hs true eq_refl) as [-> Hx]. apply exec_ret_inv in H. destruct H as [-> E]. injection E as ->. split; [reflexivity|]. apply first_here. exact Hx.
  - destruct (Hs false eq_refl) as [-> Hx]. destruct (IH _ _ _ _ H) as [-> Hb]. split; [reflexivity|]. destruct b; [apply first_cons; assumption|constructor; assumption].
Qed.

(** If ca_sync_has_local says yes or no, then that is so, whatever system calls fail. *)
Theorem has_local_right :
  forall faults s id w w' b, exec faults w (has_local s id) w' (Ok b) ->
  w' = w /\ (b = true <-> exists x, In x (local_sources s) /\ listed w id x).
Proof.
  intros f s id w w' b H. unfold has_local in H. rewrite !maybe_opt in H.
  assert (w' = w /\ if b then first_of (fun x => ~ listed w id x) (listed w id) (local_sources s) else Forall (fun x => ~ listed w id x) (local_sources s)) as [E Hx].
  { unfold local_sources. apply exec_bind in H. destruct H as (w1 & r1 & H1 & H). destruct r1 as [[]|e| |]; try (apply exec_ret_inv in H; destruct H as [_ E]; discriminate).
    { apply has_seeds_exec in H1. destruct H1 as [-> H1]. apply exec_ret_inv in H. destruct H as [-> E]. injection E as ->. split; [reflexivity|]. apply first_before. exact H1. }
    apply has_seeds_exec in H1. destruct H1 as [-> H1]. apply exec_bind in H. destruct H as (w2 & r2 & H2 & H). destruct r2 as [[]|e| |]; try (apply exec_ret_inv in H; destruct H as [_ E]; discriminate).
    { apply has_stores_exec in H2. destruct H2 as [-> H2]. apply exec_ret_inv in H. destruct H as [-> E]. injection E as ->. split; [reflexivity|]. apply first_after; [exact H1|]. apply first_before. exact H2. }
    apply has_stores_exec in H2. destruct H2 as [-> H2]. apply exec_bind in H. destruct H as (w3 & r3 & H3 & H). destruct r3 as [[]|e| |]; try (apply exec_ret_inv in H; destruct H as [_ E]; discriminate).
    { apply has_stores_exec in H3. destruct H3 as [-> H3]. apply exec_ret_inv in H. destruct H as [-> E]. injection E as ->. split; [reflexivity|]. apply first_after; [exact H1|]. apply first_after; [exact H2|]. apply first_before. exact H3. }
    apply has_stores_exec in H3. destruct H3 as [-> H3]. apply has_stores_exec in H. destruct H as [-> H4]. split; [reflexivity|].
    destruct b; [apply first_after; [exact H1|]; apply first_after; [exact H2|]; apply first_after; assumption|]. rewrite !Forall_app. auto. }
  split; [exact E|]. destruct b.
  - split; [|reflexivity]. intros _. destruct Hx as (pre & x & post & -> & _ & Hx). exists x. split; [apply in_elt|exact Hx].
  - split; [discriminate|]. intros (x & Hin & Hl). rewrite Forall_forall in Hx. destruct (Hx x Hin Hl).
Qed.
Print Assumptions has_local_right.

(** ** What is not so

    ca_sync_has_local: a cache store that has not been used yet has no directory, and the question ends there, with ENOENT, although a further store has the chunk (and ca_sync_get_local delivers it). *)
Theorem has_local_new_cache_refuted :
  forall s id w st, sy_seeds s = [] -> sy_wstore s = None -> sy_cache_store s = Some st -> st_root st = None -> st_is_cache st = true ->
  ends false w (has_local s id) (fun _ r => r = Err ENOENT).
Proof. intros s id w st H1 H2 H3 H4 H5. unfold has_local. rewrite H1, H2, H3. cbn. unfold store_has. rewrite H4, H5. reflexivity. Qed.
Print Assumptions has_local_new_cache_refuted.

(** A damaged chunk in a store is not passed over: the request fails although a further store has the chunk. *)
Theorem sync_get_damaged_refuted :
  forall codecs bound digest vtd fuel s id desired w st root p,
  codecs_ok bound codecs -> enough fuel -> usable codecs digest vtd fuel s -> sy_seeds s = [] -> sy_wstore s = Some st -> st_root st = Some root ->
  holds codecs w root id p -> ~ named digest st id p -> CHUNK_LIMIT_MIN <= len p < CHUNK_LIMIT_MAX -> desired <> COMPRESSED ->
  ends false w (sync_get codecs digest fuel s id desired) (fun _ y => snd y = Err EBADMSG).
Proof.
  intros codecs bound digest vtd fuel s id desired w st root p HC Hf [Hu _] H1 H2 H3 Hh Hn Hl Hd.
  assert (handle codecs digest vtd fuel st) as Hst. { apply Hu. unfold sources, local_sources. rewrite H2, !in_app_iff. left. right. left. left. reflexivity. }
  unfold sync_get, get_local. rewrite H1, H2. cbn [get_seeds pbind maybe get_stores]. apply ends_bind. apply ends_bind. apply ends_bind.
  eapply ends_mono; [|apply (Properties_Store.store_get_wrong_chunk codecs bound digest vtd fuel w st root id desired p HC Hf Hst H3 Hh Hn Hl); intros E; contradiction].
  cbv beta. intros w1 r ->. cbn. reflexivity.
Qed.
Print Assumptions sync_get_damaged_refuted.

(** With faults, a chunk may be reported missing although nobody asked the remote: the directory for its chunks could not be made. *)
Theorem sync_get_missing_unasked_refuted : forall codecs digest fuel id desired w q,
  q_open q = false -> name_at w (q_path q) = None ->
  let r := mkRemote q true false None None None in
  exists s', exec true w (sync_get codecs digest fuel (mkSync [] None None [] None [r] None) id desired) w (s', Err ENOENT).
Proof.
  intros codecs digest fuel id desired w q Ho Hn r. eexists. unfold sync_get, get_local. cbn [sy_seeds sy_wstore sy_cache_store sy_rstores maybe get_seeds get_stores pbind sy_remote_wstore get_remotes sy_remote_rstores with_wremote].
  unfold remote_request, init_cache. subst r. cbn [rm_pull rm_eof rm_queue negb]. rewrite Ho. cbn [pbind].
  eapply ex_sys; [apply (s_fault true w (SMkdir (q_path q)) EACCES); reflexivity|]. cbn. eapply ex_sys; [apply s_opendir_noent; exact Hn|]. cbn. apply ex_ret.
Qed.
Print Assumptions sync_get_missing_unasked_refuted.

(** ** A case: a seed, a store "w/", a cache store without directory and a store "s/" that has the chunk 10 20 30; the seed has an entry for it, "x+p0:3". *)
Definition case_id : list N := Properties_Store.ex_id.
Definition case_text : list N := [120; 43; 112; 48; 58; 51].
Definition case_w : Posix.world :=
  {| w_names := [(entry_name [99] case_id, NLink case_text); (chunk_name Properties_Store.ex_root case_id UNCOMPRESSED, NFile 0%nat)];
     w_inodes := [[10; 20; 30]]; w_fds := [] |}.
Definition case_seed (found : list N) : seed := mkSeed (Some [99]) true 1000 SHA256 (fun _ => [WNoData; WData found; WFinished]).
Definition case_st (root : list N) : store :=
  {| st_root := Some root; st_is_cache := false; st_mkdir_done := false; st_digest := None; st_validate := None;
     st_compression := COMPRESSED; st_ctype := Some GZIP; st_requests := 0; st_request_bytes := 0 |}.
Definition case_sync (found : list N) : sync :=
  mkSync [case_seed found] (Some (case_st [119; 47])) (Some (store_new_cache (Some GZIP))) [case_st Properties_Store.ex_root] None
         [mkRemote (queue_new [113]) true false None None None] (Some GZIP).

Lemma case_usable found : usable stored_codecs Properties_Store.ex_digest [] big (case_sync found).
Proof.
  split.
  - intros st H. cbn in H. destruct H as [H|[H|[H|[H|[H|[]]]]]]; try discriminate; injection H as <-.
    + apply (hd_path _ _ _ _ (store_new (Some GZIP)) [119; 47]); [constructor|reflexivity].
    + constructor.
    + apply (hd_path _ _ _ _ (store_new (Some GZIP)) Properties_Store.ex_root); [constructor|reflexivity].
  - intros r H. cbn in H. destruct H as [H|[H|[H|[H|[H|[]]]]]]; try discriminate. injection H as <-. intros t Ht. discriminate.
Qed.
Lemma case_legible : legible case_w [99] case_id case_text.
Proof. split; [intros H; cbv in H; intuition discriminate|]. split; [discriminate|]. left. reflexivity. Qed.

(** The seed's tree has other bytes now: the chunk comes from the last store. *)
Example case_store : forall desired,
  ends false case_w (sync_get stored_codecs Properties_Store.ex_digest big (case_sync [10; 20; 31; 7]) case_id desired) (fun _ y =>
    exists b e, snd y = Ok (b, e) /\ represents stored_codecs e b [10; 20; 30] /\ (desired <> AS_IS -> e = desired)).
Proof.
  intros desired. apply (sync_get_serves stored_codecs stored_bound Properties_Store.ex_digest []); [apply stored_codecs_ok|apply big_enough|apply case_usable|].
  exists [FromSeed (case_seed [10; 20; 31; 7]); FromStore (case_st [119; 47]); FromStore (store_new_cache (Some GZIP))]. eexists. eexists. split; [reflexivity|]. split.
  - constructor; [|constructor; [|constructor; [|constructor]]]; cbn.
    + exists [99]. split; [reflexivity|]. split; [reflexivity|]. right. exists case_text. eexists. split; [apply case_legible|]. split; [reflexivity|]. right. split; [discriminate|]. right. right.
      exists [10; 20; 31], [7]. split; [reflexivity|]. split; [reflexivity|]. split; [discriminate|]. split; [discriminate|]. discriminate.
    + intros c. destruct c; reflexivity.
    + reflexivity.
  - split; [split; [discriminate|reflexivity]|]. split; [|split].
    + exists Properties_Store.ex_root. split; [reflexivity|]. split; [exists UNCOMPRESSED, [10; 20; 30]; reflexivity|]. intros c [->| ->]; [right|left; reflexivity]. exists [10; 20; 30]. split; [reflexivity|]. split; [reflexivity|]. reflexivity.
    + exists SHA256. split; [reflexivity|left; reflexivity].
    + intros _. exists GZIP, stored. split; [reflexivity|]. split; reflexivity.
Qed.
(** The seed's tree has the chunk: it comes from there. *)
Example case_from_seed : first_of (passed Properties_Store.ex_digest case_w case_id UNCOMPRESSED)
  (serves stored_codecs Properties_Store.ex_digest stored_bound (Some GZIP) case_w case_id [10; 20; 30] UNCOMPRESSED) (sources (case_sync [10; 20; 30; 7])).
Proof.
  exists []. eexists. eexists. split; [reflexivity|]. split; [constructor|]. split; [split; [discriminate|reflexivity]|].
  assert (exists l, location_parse case_text = Ok l /\ Location.size l = 3) as (l & El & Es) by (eexists; split; reflexivity).
  split; [|split; [discriminate|split; [|discriminate]]].
  - exists [99], case_text, l, [7]. split; [reflexivity|]. split; [reflexivity|]. split; [split; [apply case_legible|left; exists case_text; split; [reflexivity|left; reflexivity]]|].
    split; [exact El|]. split; [exact Es|]. split; [reflexivity|]. split; [reflexivity|]. split; discriminate.
  - exists [99], case_text. split; [reflexivity|apply case_legible].
Qed.
(** Another chunk, which the remote is asked for. *)
Example case_asks : forall desired,
  ends false case_w (sync_get stored_codecs Properties_Store.ex_digest big (case_sync []) (repeat 9 32) desired) (fun w' y => snd y = Err EAGAIN \/ snd y = Err EALREADY).
Proof.
  intros desired. eapply ends_mono; [|apply (sync_get_asks stored_codecs Properties_Store.ex_digest big (case_sync []) (repeat 9 32) desired case_w big_enough)].
  - cbv beta. intros w1 y (r & _ & [[H _]|[H _]]); auto.
  - exists [FromSeed (case_seed []); FromStore (case_st [119; 47]); FromStore (store_new_cache (Some GZIP)); FromStore (case_st Properties_Store.ex_root)]. eexists. exists []. split; [reflexivity|]. split.
    + constructor; [|constructor; [|constructor; [|constructor; [|constructor]]]]; cbn; [exists [99]; split; [reflexivity|]; split; [reflexivity|]; left; reflexivity| | |]; try (intros c; destruct c; reflexivity). reflexivity.
    + eexists. split; [reflexivity|]. split; [reflexivity|]. split; [reflexivity|]. split; [|intros c; destruct c; reflexivity]. split; [left; reflexivity|]. split; [discriminate|].
      split; [intros d [->| ->]; right; split; reflexivity|]. reflexivity.
Qed.
Example case_coherent : forall x, In (FromRemote x) (sources (case_sync [])) -> coherent case_w (rm_queue x) case_id.
Proof.
  intros x H. cbn in H. destruct H as [H|[H|[H|[H|[H|[]]]]]]; try discriminate. injection H as <-. split; [intros d [->| ->]; right; split; reflexivity|]. intros y Hy. discriminate.
Qed.

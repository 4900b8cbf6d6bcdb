(** C35: what stores and remotes answer. *)
From Verif Require Import Base Locator Number NumberProofs ChunkId Posix PosixProofs ChunkFile Location LocationHeap LocationProofs1 Cache Queue Store StoreSpec StoreProofs1 StoreProofs2 StoreProofs3 StoreProofs4 StoreProofs10
  CacheProofs1 CacheProofs2 CacheProofs3 QueueProofs1 QueueProofs4 SyncGet SyncGetSpec SyncGetProofs1 SyncGetProofs2.
Local Open Scope N_scope.

(** ** A stream that decodes inflates *)
Lemma decodes_inflates cd : forall k s z p, len z + len p < k -> decodes cd s z p -> inflates cd s z p.
Proof.
  induction k as [|k IH] using N.peano_ind; intros s z p Hk H; [lia|].
  destruct (decodes_step cd s z p H) as [Hz Hs]. destruct (Hs z [] 1) as (s' & n & out & e & p' & Hd & Hn & Ho & Hp & He); [rewrite app_nil_r; reflexivity|exact Hz|lia|].
  destruct e.
  - destruct He as [-> ->]. rewrite app_nil_r in Hp. subst p. eapply inf_end; [exact Hd|lia].
  - destruct He as [He Hpr]. subst p. eapply inf_step; [exact Hd|]. apply IH; [|exact He]. rewrite len_dropN. rewrite len_app in Hk.
    destruct Hpr as [Hpr|Hpr]; [lia|]. pose proof (len_pos out Hpr). lia.
Qed.

Lemma represents_stands codecs e b p : represents codecs e b p -> stands codecs e b p.
Proof.
  destruct e; cbn; try tauto. intros (t & cd & H1 & H2 & H3). exists t, cd. split; [exact H1|]. split; [exact H2|]. eapply decodes_inflates; [|exact H3]. apply N.lt_succ_diag_r.
Qed.

Lemma compress_represents codecs bound fuel t p b : codecs_ok bound codecs -> compress codecs fuel t p [] = Some (Ok b) -> represents codecs COMPRESSED b p.
Proof.
  intros [_ HC] H. unfold compress in H. destruct (bad_size p); [discriminate|]. unfold start_codec in H. destruct t as [t|]; [|discriminate]. destruct (codecs t) as [cd|] eqn:Ec; [|discriminate].
  destruct (compress_loop_sound bound t cd fuel (enc_new cd) [] [] None p [] 0 b (codec_ok_encodes _ _ _ (HC _ _ Ec))) as (z & -> & H1 & H2); [discriminate|exact H|].
  cbn [app] in *. exists t, cd. auto.
Qed.

(** ** Stores *)
Lemma store_misses_same w w' st id : same_files w w' -> store_misses w' st id -> store_misses w st id.
Proof. intros Hs H. unfold store_misses in *. destruct (st_root st); [|exact H]. intros c. rewrite <- (name_same _ _ _ Hs). apply H. Qed.

Lemma store_get_err f codecs digest fuel w st id desired w' r : exec f w (store_get codecs digest fuel st id desired) w' r ->
  same_files w w' /\
  match r with
  | Err ENOENT => store_misses w st id
  | Ok _ => exists root c i, st_root st = Some root /\ name_at w (chunk_name root id c) = Some (NFile i)
  | _ => True
  end.
Proof.
  intros H. split; [exact (reads_exec _ (reads_get _ _ _ _ _ _) _ _ _ _ H)|]. unfold store_get, store_misses in *. destruct (st_root st) as [root|] eqn:Er.
  2:{ apply exec_ret_inv in H. destruct H as [_ ->]. destruct (st_is_cache st); [reflexivity|exact I]. }
  unfold ptry in H. apply exec_bind in H. destruct H as (w1 & r1 & H1 & H). pose proof (load_err _ _ _ _ _ _ _ _ _ _ H1) as Hl.
  destruct r1 as [[buf eff]|e| |]; try (apply exec_ret_inv in H; destruct H as [_ ->]; try exact I; destruct e; try exact I; exact Hl).
  apply exec_bind in H. destruct H as (w2 & r2 & H2 & H).
  assert (r2 <> Err ENOENT) as Hr2.
  { destruct (compression_eqb eff COMPRESSED).
    - unfold plift in H2. destruct (decompress codecs fuel buf []) as [x|] eqn:Ed; [|inversion H2]. apply exec_ret_inv in H2. destruct H2 as [_ ->].
      intros ->. exact (calm_decompress absent io_absent codecs fuel buf ENOENT Ed eq_refl).
    - apply exec_ret_inv in H2. destruct H2 as [_ ->]. discriminate. }
  destruct r2 as [v|e| |]; try (apply exec_ret_inv in H; destruct H as [_ ->]; try exact I; destruct e; try exact I; contradiction).
  assert (store_validate digest st id v <> Err ENOENT) as Hv.
  { unfold store_validate, chunk_id_make. intros Hx. destruct (len v <? 1); [discriminate|]. destruct (134217728 <? len v); [discriminate|]. cbn [bind] in Hx.
    destruct (chunk_id_equal _ _); [discriminate|]. destruct (st_digest st); [discriminate|].
    assert (forall ts old, try_digests digest ts old id v <> Err ENOENT) as Ht.
    { induction ts as [|t ts IH]; intros old; cbn [try_digests]; [discriminate|]. destruct (dtype_eqb t old); [apply IH|]. unfold chunk_id_make.
      destruct (len v <? 1); [discriminate|]. destruct (134217728 <? len v); [discriminate|]. cbn [bind]. destruct (chunk_id_equal _ _); [discriminate|apply IH]. }
    specialize (Ht all_dtypes (match st_validate st with Some t => t | None => SHA512_256 end)).
    destruct (try_digests _ _ _ _ _) as [[]|e| |]; cbn [bind] in Hx; try discriminate. injection Hx as ->. apply Ht. reflexivity. }
  destruct (store_validate digest st id v) as [st2|e| |]; apply exec_ret_inv in H; destruct H as [_ ->]; try exact I.
  - destruct Hl as (c & i & Hl). eauto.
  - destruct e; try exact I. contradiction.
Qed.

Lemma store_misses_ends codecs digest fuel st id desired w : store_misses w st id ->
  ends false w (store_get codecs digest fuel st id desired) (fun w' r => same_files w w' /\ r = Err ENOENT).
Proof.
  unfold store_misses, store_get. destruct (st_root st) as [root|]; [|intros ->; split; [apply same_files_refl|reflexivity]].
  intros H. apply ends_bind. unfold chunk_file_load. cbv zeta.
  assert (forall c, chunk_id_format_path root id (if compression_eqb c UNCOMPRESSED then [] else cacnk) = chunk_name root id c) as E by (intros c; unfold chunk_name; destruct c; reflexivity).
  apply ends_open. intros w1 r1 Hs1 Hr1. rewrite E, H in Hr1. subst r1. apply ends_open. intros w2 r2 Hs2 Hr2. rewrite E, (name_same _ _ _ Hs1), H in Hr2. subst r2.
  cbn [ends]. split; [exact (same_files_trans _ _ _ Hs1 Hs2)|reflexivity].
Qed.

(** ** Remotes *)
Definition grown (w w' : Posix.world) : Prop := forall p, name_at w' p = name_at w p \/ (name_at w p = None /\ name_at w' p = Some NDir).

Lemma grown_same w w' : same_files w w' -> grown w w'.
Proof. intros H p. left. exact (name_same _ _ _ H). Qed.
Lemma grown_refl w : grown w w. Proof. intros p. left. reflexivity. Qed.
Lemma grown_trans a b c : grown a b -> grown b c -> grown a c.
Proof. intros H1 H2 p. destruct (H1 p) as [E1|[E1 F1]], (H2 p) as [E2|[E2 F2]]; rewrite ?E1, ?F1 in *; auto; try (right; split; congruence); try (left; congruence). Qed.
Lemma grown_some w w' p n : grown w w' -> name_at w p = Some n -> name_at w' p = Some n.
Proof. intros H Hn. destruct (H p) as [E|[E _]]; congruence. Qed.
Lemma grown_mkdir w p : name_at w p = None -> grown w (put_name w p NDir).
Proof.
  intros Hn q. destruct (list_eq_dec N.eq_dec q p) as [->|Hne]; [right; split; [exact Hn|apply name_put_same]|left; apply name_put_other; congruence].
Qed.
Lemma grown_coherent w w' q id : grown w w' -> coherent w q id -> coherent w' q id.
Proof.
  intros H [H1 H2]. split.
  - intros d Hd. destruct (H1 d Hd) as [E|[E F]]; [left; eapply grown_some; eassumption|].
    destruct (H (in_cache (q_path q) d)) as [E'|[_ E']]; [right; split; congruence|left; exact E'].
  - intros x Hx. destruct (H (chunk_link q id)) as [E|[_ E]]; [|congruence]. rewrite E in Hx. specialize (H2 x Hx).
    destruct (name_at w (in_cache (q_path q) (s_low ++ 47 :: x))) as [n|] eqn:En; [|contradiction]. rewrite (grown_some _ _ _ _ H En). discriminate.
Qed.

Lemma init_exec w q w' q' o : exec false w (init_cache q) w' (q', o) ->
  grown w w' /\ q_path q' = q_path q /\ end_high q' = end_high q /\ (o = Err ENOENT -> False) /\ (o = Ok tt -> q_open q' = true).
Proof.
  intros H. unfold init_cache in H. destruct (q_open q) eqn:Eo.
  { apply exec_ret_inv in H. destruct H as [-> E]. injection E as -> ->. split; [apply grown_refl|]. repeat split; auto; discriminate. }
  apply exec_sys_inv in H. destruct H as (w1 & r1 & H1 & H). apply exec_sys_inv in H. destruct H as (w2 & r2 & H2 & H).
  assert (grown w w1 /\ name_at w1 (q_path q) <> None) as [Hg Hn].
  { inversion H1; subst; try discriminate; [split; [apply grown_mkdir; assumption|rewrite name_put_same; discriminate]|split; [apply grown_refl|congruence]]. }
  inversion H2; subst; try discriminate; try contradiction; apply exec_ret_inv in H; destruct H as [-> E]; injection E as -> ->; (split; [exact Hg|]); repeat split; auto; discriminate.
Qed.

Lemma add_request_noent w q id w' q' o : coherent w q id -> exec false w (add_request q id true) w' (q', o) -> o <> Err ENOENT.
Proof.
  intros [Hd _] H. unfold add_request in H. cbv zeta in H.
  assert (forall w1, name_at w1 (folder (q_path q) s_chunks) = Some NDir -> name_at w1 (folder (q_path q) s_high) = Some NDir ->
    exec false w1 (Sys (SSymlink (queue_pos true (end_high q)) (chunk_link q id)) (fun r =>
      match r with
      | RNum _ =>
        Sys (SSymlink (chunk_id_format id) (in_cache (q_path q) (queue_pos true (end_high q)))) (fun r =>
          match r with
          | RNum _ => Ret (end_next true q, Ok true)
          | RFail e => Ret (q, Err e)
          | _ => Ret (q, UB)
          end)
      | RFail e => Ret (q, Err e)
      | _ => Ret (q, UB)
      end)) w' (q', o) -> o <> Err ENOENT) as Hl.
  { intros w1 Hc Hh Hx. apply exec_sys_inv in Hx. destruct Hx as (w2 & r2 & H2 & Hx). change (chunk_link q id) with (mark (q_path q) id) in *.
    assert (name_at w2 (folder (q_path q) s_high) = Some NDir /\ r2 <> RFail ENOENT) as [Hh2 Hr2].
    { inversion H2; subst; try discriminate; [|split; [exact Hh|discriminate]|].
      - split; [|discriminate]. rewrite name_put_other by (apply not_eq_sym, dir_mark; intros HH; cbv in HH; intuition discriminate). exact Hh.
      - exfalso. match goal with Hx : name_at _ (dirname _) <> _ |- _ => apply Hx end. rewrite dirname_mark. exact Hc. }
    destruct r2 as [k| | | |e]; try (apply exec_ret_inv in Hx; destruct Hx as [_ E]; injection E as _ ->; congruence).
    apply exec_sys_inv in Hx. destruct Hx as (w3 & r3 & H3 & Hx). change (in_cache (q_path q) (queue_pos true (end_high q))) with (slot (q_path q) true (end_high q)) in *.
    inversion H3; subst; try discriminate; apply exec_ret_inv in Hx; destruct Hx as [_ E]; injection E as _ ->; try discriminate.
    exfalso. match goal with Hx : name_at _ (dirname _) <> _ |- _ => apply Hx end. rewrite dirname_slot. exact Hh2. }
  destruct (end_high q =? 0) eqn:E0.
  - apply exec_sys_inv in H. destruct H as (w1 & r1 & H1 & H). apply exec_sys_inv in H. destruct H as (w2 & r2 & H2 & H).
    change (queue_name true) with s_high in H2. fold (folder (q_path q) s_chunks) in H1. fold (folder (q_path q) s_high) in H2.
    pose proof (Hd s_chunks (or_introl eq_refl)) as Hdc. pose proof (Hd s_high (or_intror eq_refl)) as Hdh. fold (folder (q_path q) s_chunks) in Hdc. fold (folder (q_path q) s_high) in Hdh.
    assert (name_at w1 (folder (q_path q) s_chunks) = Some NDir /\ grown w w1) as [Hc1 Hg1].
    { inversion H1; subst; try discriminate; [split; [apply name_put_same|apply grown_mkdir; assumption]|split; [destruct Hdc as [Hdc|[Hdc _]]; congruence|apply grown_refl]]. }
    assert (name_at w2 (folder (q_path q) s_high) = Some NDir /\ grown w1 w2) as [Hh2 Hg2].
    { assert (name_at w1 (folder (q_path q) s_high) = Some NDir \/ name_at w1 (folder (q_path q) s_high) = None) as Hw1.
      { destruct (Hg1 (folder (q_path q) s_high)) as [E|[_ E]]; [|auto]. rewrite E. tauto. }
      inversion H2; subst; try discriminate; [split; [apply name_put_same|apply grown_mkdir; assumption]|split; [destruct Hw1 as [Hdc'|Hdc']; congruence|apply grown_refl]]. }
    apply (Hl w2); [eapply grown_some; eassumption|exact Hh2|exact H].
  - apply N.eqb_neq in E0. apply (Hl w); [| |exact H].
    + destruct (Hd s_chunks (or_introl eq_refl)) as [Hx|[_ Hx]]; [exact Hx|contradiction].
    + destruct (Hd s_high (or_intror eq_refl)) as [Hx|[_ Hx]]; [exact Hx|contradiction].
Qed.

Lemma atou_noent p : safe_atou64 p <> Err ENOENT.
Proof. unfold safe_atou64. destruct (safe_ato_res 0 p) as [[n H]|[H|H]]; rewrite H; discriminate. Qed.

Lemma name_del_gone w p : name_at (del_name w p) p = None.
Proof. rewrite name_del, beq_refl. reflexivity. Qed.

Lemma reads_load codecs fuel root id desired t : reads (chunk_file_load codecs fuel root id desired t []).
Proof.
  unfold chunk_file_load. assert (forall root id sfx, reads (chunk_file_open root id sfx)) as Ho. { intros ? ? s. cbn. split; [exact I|]. intros []; exact I. }
  cbv zeta. apply reads_bind; [apply Ho|]. intros [fd|e| |]; try exact I; [apply reads_load_from|].
  destruct e; try exact I. apply reads_bind; [apply Ho|]. intros [fd|e| |]; try exact I; [apply reads_load_from|]. destruct e; exact I.
Qed.

Lemma starts_cut p : forall s r, startswith s p = Some r -> s = p ++ r.
Proof.
  induction p as [|c p IH]; intros s r H; cbn in H; [injection H as ->; reflexivity|]. destruct s as [|d s]; [discriminate|]. destruct (N.eqb_spec c d) as [->|]; [|discriminate].
  cbn. f_equal. apply IH. exact H.
Qed.

Lemma enqueue_open_noent fuel w q id w' q' o : coherent w q id -> exec false w (enqueue_open fuel q id true true) w' (q', o) -> o <> Err ENOENT.
Proof.
  intros Hc H. unfold enqueue_open in H. cbv zeta in H. apply exec_bind in H. destruct H as (w1 & r1 & H1 & H).
  destruct (readlink_exec _ _ _ _ _ _ _ H1) as [-> Hr].
  destruct r1 as [qpos|e| |]; [|destruct e; try (apply exec_ret_inv in H; destruct H as [_ E]; injection E as _ ->; discriminate); eapply add_request_noent; eassumption| |];
    try (apply exec_ret_inv in H; destruct H as [_ E]; injection E as _ ->; discriminate).
  destruct (startswith qpos (queue_name true ++ [47])); [apply exec_ret_inv in H; destruct H as [_ E]; injection E as _ ->; discriminate|]. cbn [negb] in H.
  destruct (startswith qpos (s_low ++ [47])) as [p|] eqn:Es; [|apply exec_ret_inv in H; destruct H as [_ E]; injection E as _ ->; discriminate].
  apply starts_cut in Es. rewrite <- app_assoc in Es. cbn [app] in Es. subst qpos. specialize (Hr _ eq_refl). pose proof (atou_noent p) as Hp.
  destruct (safe_atou64 p) as [old|e| |]; try (apply exec_ret_inv in H; destruct H as [_ E]; injection E as _ ->; congruence). cbn [negb] in H. rewrite andb_false_r in H.
  apply exec_sys_inv in H. destruct H as (w2 & r2 & H2 & H). apply sys_unlink in H2. destruct H2 as [[Hf _]|H2]; [discriminate|]. rewrite Hr in H2. destruct H2 as [-> ->].
  apply exec_sys_inv in H. destruct H as (w3 & r3 & H3 & H). apply sys_unlink in H3. destruct H3 as [[Hf _]|H3]; [discriminate|].
  destruct Hc as [Hd Hl]. specialize (Hl _ Hr).
  assert (chunk_link q id <> in_cache (q_path q) (s_low ++ 47 :: p)) as Hne.
  { unfold chunk_link, in_cache. intros E. apply app_inv_head in E. discriminate E. }
  rewrite name_del_other in H3 by congruence.
  assert (coherent (del_name (del_name w (chunk_link q id)) (in_cache (q_path q) (s_low ++ 47 :: p))) q id) as Hc.
  { assert (forall d, d = s_chunks \/ d = s_high -> in_cache (q_path q) d <> chunk_link q id /\ in_cache (q_path q) d <> in_cache (q_path q) (s_low ++ 47 :: p)) as Hdd.
    { unfold chunk_link, in_cache. intros d Hd'; split; intros E; apply app_inv_head in E; injection E as E; destruct Hd' as [-> | ->]; discriminate E. }
    split.
    - intros d Hd'. destruct (Hdd d Hd'). rewrite !name_del_other by congruence. apply Hd. exact Hd'.
    - intros x Hx. exfalso. rewrite name_del_other in Hx by congruence. rewrite name_del_gone in Hx. discriminate. }
  destruct (name_at w (in_cache (q_path q) (s_low ++ 47 :: p))) as [[| |]|]; [| | |contradiction]; destruct H3 as [-> ->];
    try (eapply add_request_noent; eassumption); apply exec_ret_inv in H; destruct H as [_ E]; injection E as _ ->; discriminate.
Qed.

Lemma enqueue_noent fuel w q id w' q' o : coherent w q id -> exec false w (enqueue_request fuel q id true true) w' (q', o) -> o <> Err ENOENT.
Proof.
  intros Hc H. unfold enqueue_request in H. apply exec_bind in H. destruct H as (w1 & [q1 o1] & H1 & H).
  destruct (init_exec _ _ _ _ _ H1) as (Hg & Hp & He & Hn & Ho). pose proof (grown_coherent _ _ _ _ Hg Hc) as Hc1.
  assert (coherent w1 q1 id) as Hc2. { unfold coherent, chunk_link in *. rewrite Hp, He. exact Hc1. }
  destruct o1 as [[]|e| |]; [eapply enqueue_open_noent; eassumption| | |]; apply exec_ret_inv in H; destruct H as [_ E]; injection E as _ ->; try discriminate. intros E. injection E as ->. apply Hn. reflexivity.
Qed.

Lemma remote_validate_noent digest r id v : remote_validate digest r id v <> Err ENOENT.
Proof.
  unfold remote_validate, chunk_id_make. destruct (len v <? 1); [discriminate|]. destruct (134217728 <? len v); [discriminate|]. cbn [bind].
  destruct (chunk_id_equal _ _); [discriminate|]. destruct (rm_digest r); [discriminate|].
  assert (forall ts old, try_digests digest ts old id v <> Err ENOENT) as Ht.
  { induction ts as [|t ts IH]; intros old; cbn [try_digests]; [discriminate|]. destruct (dtype_eqb t old); [apply IH|]. unfold chunk_id_make.
    destruct (len v <? 1); [discriminate|]. destruct (134217728 <? len v); [discriminate|]. cbn [bind]. destruct (chunk_id_equal _ _); [discriminate|apply IH]. }
  specialize (Ht all_dtypes (match rm_validate r with Some t => t | None => SHA512_256 end)).
  destruct (try_digests _ _ _ _ _) as [[]|e| |]; cbn [bind]; try discriminate. congruence.
Qed.

Lemma remote_request_exec codecs digest fuel w r id desired w' r' o : coherent w (rm_queue r) id ->
  exec false w (remote_request codecs digest fuel r id true desired) w' (r', o) ->
  match o with
  | Err ENOENT => grown w w' /\ marked w' r id
  | Ok _ => grown w w' /\ exists c i, name_at w' (chunk_name (cache_dir r) id c) = Some (NFile i)
  | _ => True
  end.
Proof.
  intros Hc H. unfold remote_request in H. destruct (rm_pull r); cbn [negb] in H; [|apply exec_ret_inv in H; destruct H as [_ E]; injection E as _ ->; exact I].
  destruct (rm_eof r); [apply exec_ret_inv in H; destruct H as [_ E]; injection E as _ ->; exact I|].
  apply exec_bind in H. destruct H as (w1 & [q1 o1] & H1 & H). destruct (init_exec _ _ _ _ _ H1) as (Hg & Hp & He & Hn & Ho). pose proof (grown_coherent _ _ _ _ Hg Hc) as Hc1.
  assert (coherent w1 q1 id) as Hc2. { unfold coherent, chunk_link in *. rewrite Hp, He. exact Hc1. }
  destruct o1 as [[]|e| |]; try (apply exec_ret_inv in H; destruct H as [_ E]; injection E as _ ->; try exact I; destruct e; try exact I; exfalso; apply Hn; reflexivity).
  apply exec_bind in H. destruct H as (w2 & o2 & H2 & H). pose proof (load_err _ _ _ _ _ _ _ _ _ _ H2) as Hl.
  assert (same_files w1 w2) as Hs. { exact (reads_exec _ (reads_load _ _ _ _ _ _) _ _ _ _ H2). }
  fold (cache_dir (rm_with r q1)) in *. assert (cache_dir (rm_with r q1) = cache_dir r) as Ed by (unfold cache_dir; cbn; rewrite Hp; reflexivity). unfold cache_dir in Ed at 1. cbn [rm_queue rm_with] in Ed.
  rewrite Ed in Hl.
  assert (coherent w2 q1 id) as Hc3 by exact (grown_coherent _ _ _ _ (grown_same _ _ Hs) Hc2).
  destruct o2 as [[buf eff]|e| |]; try (apply exec_ret_inv in H; destruct H as [_ E]; injection E as _ ->; exact I).
  2:{ assert (e = ENOENT \/ e = EADDRNOTAVAIL \/ (e <> ENOENT /\ o = Err e)) as Hx.
      { destruct e; auto; right; right; (split; [discriminate|]); apply exec_ret_inv in H; destruct H as [_ E]; injection E as _ ->; reflexivity. }
      destruct Hx as [->|[->|[Hx ->]]].
      - apply exec_bind in H. destruct H as (w3 & [q3 o3] & H3 & H). pose proof (enqueue_noent _ _ _ _ _ _ _ Hc3 H3) as Hq.
        destruct o3 as [[]|e| |]; apply exec_ret_inv in H; destruct H as [_ E]; injection E as _ ->; try exact I. destruct e; try exact I. contradiction.
      - apply exec_ret_inv in H; destruct H as [-> E]; injection E as _ ->. split; [exact (grown_trans _ _ _ Hg (grown_same _ _ Hs))|].
        destruct (Hl eq_refl) as [[t Ht]|[_ [t Ht]]]; do 2 eexists; rewrite (name_same _ _ _ Hs); exact Ht.
      - destruct e; try exact I. contradiction. }
  destruct ((len buf <? CHUNK_LIMIT_MIN) || (CHUNK_LIMIT_MAX <? len buf)); [apply exec_ret_inv in H; destruct H as [_ E]; injection E as _ ->; exact I|].
  apply exec_bind in H. destruct H as (w3 & r3 & H3 & H).
  assert (r3 <> Err ENOENT /\ w3 = w2) as [Hr3 ->].
  { destruct (compression_eqb eff COMPRESSED).
    - unfold plift in H3. destruct (decompress codecs fuel buf []) as [x|] eqn:Edc; [|inversion H3]. apply exec_ret_inv in H3. destruct H3 as [-> ->].
      split; [|reflexivity]. intros ->. exact (calm_decompress absent io_absent codecs fuel buf ENOENT Edc eq_refl).
    - apply exec_ret_inv in H3. destruct H3 as [-> ->]. split; [discriminate|reflexivity]. }
  destruct r3 as [v|e| |]; try (apply exec_ret_inv in H; destruct H as [_ E]; injection E as _ ->; try exact I; destruct e; try exact I; congruence).
  pose proof (remote_validate_noent digest (rm_with r q1) id v) as Hv.
  destruct (remote_validate digest (rm_with r q1) id v) as [[]|e| |]; apply exec_ret_inv in H; destruct H as [-> E]; injection E as _ ->; try exact I; [|destruct e; try exact I; congruence].
  split; [exact (grown_trans _ _ _ Hg (grown_same _ _ Hs))|]. destruct Hl as (c & i & Hl). exists c, i. rewrite (name_same _ _ _ Hs). exact Hl.
Qed.

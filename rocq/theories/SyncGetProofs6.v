(** C35: requests that come to an end. *)
From Verif Require Import Base Locator Number ChunkId Posix PosixProofs ChunkFile Location LocationHeap Cache Queue Store StoreSpec StoreProofs1 StoreProofs2 StoreProofs3 StoreProofs4 StoreProofs9 StoreProofs10
  NumberProofs CacheProofs1 CacheProofs2 CacheProofs3 QueueProofs1 QueueProofs4 SyncGet SyncGetSpec SyncGetProofs1 SyncGetProofs2 SyncGetProofs3 SyncGetProofs4 SyncGetProofs5.
Local Open Scope N_scope.

Lemma same_sym w w' : same_files w w' -> same_files w' w.
Proof. intros [E1 E2]. split; congruence. Qed.
Lemma legible_same w w' root id text : same_files w w' -> legible w root id text -> legible w' root id text.
Proof. intros Hs (H1 & H2 & H3). split; [exact H1|]. split; [exact H2|]. rewrite (name_same _ _ _ Hs), (file_same _ _ _ Hs). exact H3. Qed.
Lemma seed_misses_same digest w w' s id : same_files w w' -> seed_misses digest w s id -> seed_misses digest w' s id.
Proof.
  intros Hs (root & H1 & H2 & H). exists root. split; [exact H1|]. split; [exact H2|]. rewrite (name_same _ _ _ Hs). destruct H as [H|(text & l & H3 & H4)]; [left; exact H|right].
  exists text, l. split; [exact (legible_same _ _ _ _ _ Hs H3)|exact H4].
Qed.
Lemma holds_same codecs w w' root id p : same_files w w' -> holds codecs w root id p -> holds codecs w' root id p.
Proof.
  intros Hs [(c & content & H1) H2]. split; [exists c, content; rewrite (file_same _ _ _ Hs); exact H1|]. intros c' Hc. rewrite (name_same _ _ _ Hs), (file_same _ _ _ Hs). exact (H2 c' Hc).
Qed.
Lemma store_misses_same' w w' st id : same_files w w' -> store_misses w st id -> store_misses w' st id.
Proof. intros Hs. apply store_misses_same. apply same_sym. exact Hs. Qed.
Lemma remote_misses_same w w' r id desired : same_files w w' -> remote_misses w r id desired -> remote_misses w' r id desired.
Proof. intros Hs H. unfold remote_misses in *. cbv zeta in *. rewrite !(name_same _ _ _ Hs). exact H. Qed.
Lemma orderly_same w w' q id : same_files w w' -> orderly w q id -> orderly w' q id.
Proof.
  intros Hs (H1 & H2 & H3 & H4). unfold orderly. rewrite !(name_same _ _ _ Hs). split; [exact H1|]. split; [exact H2|]. split.
  - intros d Hd. rewrite (name_same _ _ _ Hs). exact (H3 d Hd).
  - destruct (name_at w (chunk_link q id)) as [[| |]|]; try exact H4. destruct H4 as [H4|(n & m & H5 & H6 & H7 & H8)]; [left; exact H4|right].
    exists n, m. rewrite !(name_same _ _ _ Hs). auto.
Qed.

Lemma passed_same digest w w' id desired x : same_files w w' -> passed digest w id desired x -> passed digest w' id desired x.
Proof.
  intros Hs. destruct x as [s|st|r]; cbn.
  - apply seed_misses_same. exact Hs.
  - apply store_misses_same'. exact Hs.
  - intros (H1 & H2 & H3 & H4). rewrite (name_same _ _ _ Hs). split; [exact H1|]. split; [exact H2|]. split; [exact H3|]. eapply remote_misses_same; eassumption.
Qed.
Lemma serves_same codecs digest bound t w w' id p desired x : same_files w w' -> serves codecs digest bound t w id p desired x -> serves codecs digest bound t w' id p desired x.
Proof.
  intros Hs [Hl H]. split; [exact Hl|]. destruct x as [s|st|r].
  - destruct H as (H1 & H2 & (root & text & H3 & H4) & H5). split; [eapply offers_same; eassumption|]. split; [exact H2|]. split; [|exact H5]. exists root, text. split; [exact H3|eapply legible_same; eassumption].
  - destruct H as ((root & H1 & H2) & H3 & H4). split; [|auto]. exists root. split; [exact H1|eapply holds_same; eassumption].
  - destruct H as (H1 & H2 & H3 & H4 & H5 & H6). split; [exact H1|]. split; [exact H2|]. split; [eapply holds_same; eassumption|]. split; [exact H4|]. rewrite (name_same _ _ _ Hs). auto.
Qed.
Lemma unanswered_same w w' id x : same_files w w' -> unanswered w id x -> unanswered w' id x.
Proof.
  intros Hs (r & H1 & H2 & H3 & H4 & H5). exists r. split; [exact H1|]. split; [exact H2|]. split; [exact H3|]. split; [eapply orderly_same; eassumption|]. intros c. rewrite (name_same _ _ _ Hs). apply H5.
Qed.

(** ** Remotes *)
Lemma init_ends q w (Q : Posix.world -> queue * res unit -> Prop) : name_at w (q_path q) = Some NDir ->
  (forall q', q_path q' = q_path q -> end_high q' = end_high q -> q_open q' = true -> Q w (q', Ok tt)) -> ends false w (init_cache q) Q.
Proof.
  intros Hn HQ. unfold init_cache. destruct (q_open q) eqn:Eo; [cbn; apply HQ; auto|].
  cbn [ends]. split; [eauto using sys|]. intros w1 r1 H1. inversion H1; subst; try discriminate; [congruence|].
  split; [eauto using sys|]. intros w2 r2 G2. inversion G2; subst; try discriminate; try congruence. apply HQ; reflexivity.
Qed.

Lemma load_mark codecs fuel r id desired t w (Q : Posix.world -> res (list N * chunk_compression) -> Prop) : remote_misses w r id desired ->
  (forall w', same_files w w' -> Q w' (Err EADDRNOTAVAIL)) -> ends false w (chunk_file_load codecs fuel (cache_dir r) id desired t []) Q.
Proof.
  intros Hm HQ. unfold remote_misses in Hm. cbv zeta in Hm.
  assert (forall c, chunk_id_format_path (cache_dir r) id (if compression_eqb c UNCOMPRESSED then [] else cacnk) = chunk_name (cache_dir r) id c) as E by (intros c; unfold chunk_name; destruct c; reflexivity).
  unfold chunk_file_load. cbv zeta. apply ends_open. intros w1 r1 Hs1 Hr1. rewrite E in Hr1.
  destruct Hm as [[x Hx]|[Hx [y Hy]]].
  - assert (r1 = Err ELOOP) as -> by (destruct desired; cbn [compression_eqb] in Hr1; rewrite Hx in Hr1; exact Hr1). cbn. apply HQ. exact Hs1.
  - assert (r1 = Err ENOENT) as -> by (destruct desired; cbn [compression_eqb] in Hr1; rewrite Hx in Hr1; exact Hr1).
    apply ends_open. intros w2 r2 Hs2 Hr2. rewrite E, (name_same _ _ _ Hs1) in Hr2.
    assert (r2 = Err ELOOP) as -> by (destruct desired; cbn [compression_eqb] in Hr2; rewrite Hy in Hr2; exact Hr2). cbn. apply HQ. exact (same_files_trans _ _ _ Hs1 Hs2).
Qed.

Lemma remote_pass codecs digest fuel r id desired w : passed digest w id desired (FromRemote r) ->
  ends false w (remote_request codecs digest fuel r id true desired) (fun w' x => same_files w w' /\ snd x = Err ENOENT).
Proof.
  intros (H1 & H2 & H3 & H4). unfold remote_request. rewrite H1, H2. cbn [negb]. apply ends_bind. apply init_ends; [exact H3|]. intros q' Hp He Ho.
  apply ends_bind. rewrite Hp. fold (cache_dir r). eapply load_mark; [exact H4|]. intros w' Hs. cbn. auto.
Qed.

Lemma remote_serve codecs bound digest fuel t r id p desired w : codecs_ok bound codecs -> enough fuel -> remote_handle r -> serves codecs digest bound t w id p desired (FromRemote r) ->
  ends false w (remote_request codecs digest fuel r id true desired) (fun w' x => same_files w w' /\ exists b e, snd x = Ok (b, e) /\ represents codecs e b p /\ (desired <> AS_IS -> e = desired)).
Proof.
  intros HC Hf Hh (Hl & H1 & H2 & H3 & (d & H4 & H4') & H5 & H6). unfold remote_request. rewrite H1, H2. cbn [negb]. apply ends_bind. apply init_ends; [exact H5|]. intros q' Hp He Ho.
  apply ends_bind. rewrite Hp. fold (cache_dir r). eapply ends_mono; [|apply (chunk_file_load_ok codecs bound fuel w (cache_dir r) id desired (rm_ctype r) p HC Hf H3 Hl); auto].
  cbv beta. intros w' o (Hs & b & e & -> & Hr & Hb & Hx).
  assert (remote_validate digest (rm_with r q') id p = Ok tt) as Hv by (apply (remote_validate_ok digest (rm_with r q') id p d); [exact Hh|exact H4|exact H4'|lia]).
  assert (1 <= len b) as Hb1.
  { assert (b <> []) as Hb1. { destruct e; cbn in Hr; [|intros ->; destruct Hr as (ct & cd & G & _); discriminate G|contradiction]. subst b. intros ->. change (len (@nil N)) with 0 in Hl. change CHUNK_LIMIT_MIN with 1 in Hl. lia. }
    pose proof (len_pos b Hb1). lia. }
  change CHUNK_LIMIT_MIN with 1. replace (len b <? 1) with false by lia. replace (CHUNK_LIMIT_MAX <? len b) with false by lia. cbn [orb].
  destruct e; cbn [compression_eqb]; cbn in Hr.
  - subst b. cbn. rewrite Hv. cbn. split; [exact Hs|]. exists p, UNCOMPRESSED. cbn. auto.
  - pose proof Hr as (ct & cd & G1 & G2 & G3). rewrite (decompress_ok codecs fuel b p ct cd G1 G2 G3) by (unfold enough in Hf; lia).
    cbn. rewrite Hv. cbn. split; [exact Hs|]. exists b, COMPRESSED. auto.
  - contradiction.
Qed.

Lemma init_ends_new q w (Q : Posix.world -> queue * res unit -> Prop) : (name_at w (q_path q) = None \/ name_at w (q_path q) = Some NDir) -> (q_open q = true -> name_at w (q_path q) = Some NDir) ->
  (forall w' q', (w' = w \/ w' = put_name w (q_path q) NDir) -> name_at w' (q_path q) = Some NDir -> q_path q' = q_path q -> end_high q' = end_high q -> q_open q' = true -> Q w' (q', Ok tt)) -> ends false w (init_cache q) Q.
Proof.
  intros Hn Hop HQ. unfold init_cache. destruct (q_open q) eqn:Eo; [cbn; apply HQ; auto|].
  cbn [ends]. split; [destruct Hn; eauto using sys|]. intros w1 r1 H1.
  assert ((w1 = w \/ w1 = put_name w (q_path q) NDir) /\ name_at w1 (q_path q) = Some NDir) as [Hw Hd].
  { inversion H1; subst; try discriminate; [split; [auto|apply name_put_same]|split; [auto|destruct Hn; congruence]]. }
  split; [eauto using sys|]. intros w2 r2 G2. inversion G2; subst; try discriminate; try congruence. apply HQ; auto.
Qed.

Lemma add_ends q id w : (forall d, d = s_chunks \/ d = s_high ->
     name_at w (in_cache (q_path q) d) = Some NDir \/ (name_at w (in_cache (q_path q) d) = None /\ end_high q = 0)) ->
  name_at w (chunk_link q id) = None -> name_at w (in_cache (q_path q) (queue_pos true (end_high q))) = None ->
  ends false w (add_request q id true) (fun w' x => snd x = Ok true /\ queued w' q id /\ fst x = end_next true q).
Proof.
  intros Hd Hm Hsl. unfold add_request. cbv zeta.
  assert (forall w1, name_at w1 (folder (q_path q) s_chunks) = Some NDir -> name_at w1 (folder (q_path q) s_high) = Some NDir -> name_at w1 (chunk_link q id) = None ->
    name_at w1 (in_cache (q_path q) (queue_pos true (end_high q))) = None ->
    ends false w1 (Sys (SSymlink (queue_pos true (end_high q)) (chunk_link q id)) (fun r =>
      match r with
      | RNum _ =>
        Sys (SSymlink (chunk_id_format id) (in_cache (q_path q) (queue_pos true (end_high q)))) (fun r =>
          match r with
          | RNum _ => Ret (end_next true q, Ok true)
          | RFail e => Ret (q, Err e)
          | _ => Ret (q, UB)
          end)
      | RFail e => Ret (q, Err e)
      | _ => Ret (q, UB)
      end)) (fun w' x => snd x = Ok true /\ queued w' q id /\ fst x = end_next true q)) as Hl.
  { intros w1 Hc Hh Hm1 Hs1. change (chunk_link q id) with (mark (q_path q) id) in *. change (in_cache (q_path q) (queue_pos true (end_high q))) with (slot (q_path q) true (end_high q)) in *.
    assert (dirname (mark (q_path q) id) = folder (q_path q) s_chunks) as D1 by apply dirname_mark. assert (dirname (slot (q_path q) true (end_high q)) = folder (q_path q) s_high) as D2 by apply dirname_slot.
    cbn [ends]. split; [do 2 eexists; apply s_symlink; [exact Hm1|rewrite D1; exact Hc]|]. intros w2 r2 H2.
    inversion H2; subst; try discriminate; [|congruence|congruence].
    assert (name_at (put_name w1 (mark (q_path q) id) (NLink (queue_pos true (end_high q)))) (slot (q_path q) true (end_high q)) = None) as Hs2 by (rewrite name_put_other by (apply not_eq_sym, slot_mark); exact Hs1).
    assert (name_at (put_name w1 (mark (q_path q) id) (NLink (queue_pos true (end_high q)))) (folder (q_path q) s_high) = Some NDir) as Hh2.
    { rewrite name_put_other by (apply not_eq_sym, dir_mark; intros HH; cbv in HH; intuition discriminate). exact Hh. }
    split; [do 2 eexists; apply s_symlink; [exact Hs2|rewrite D2; exact Hh2]|]. intros w3 r3 G3. inversion G3; subst; try discriminate; [|congruence|congruence].
    cbn. split; [reflexivity|]. split; [|reflexivity]. exists (end_high q). change (chunk_link q id) with (mark (q_path q) id). change (in_cache (q_path q) (queue_pos true (end_high q))) with (slot (q_path q) true (end_high q)).
    split; [rewrite name_put_other by apply slot_mark; apply name_put_same|apply name_put_same]. }
  destruct (end_high q =? 0) eqn:E0.
  - pose proof (Hd s_chunks (or_introl eq_refl)) as Hdc. pose proof (Hd s_high (or_intror eq_refl)) as Hdh. fold (folder (q_path q) s_chunks) in *. fold (folder (q_path q) s_high) in *. change (queue_name true) with s_high.
    fold (folder (q_path q) s_high). cbn [ends]. split; [destruct Hdc as [?|[? _]]; eauto using sys|]. intros w1 r1 H1.
    assert (folder (q_path q) s_high <> folder (q_path q) s_chunks) as Hne by (intros E; apply dir_inj in E; discriminate).
    assert (forall d, no_slash d -> folder (q_path q) d <> mark (q_path q) id /\ folder (q_path q) d <> slot (q_path q) true (end_high q)) as Hn by (intros d Hn; split; [apply dir_mark|apply dir_slot]; exact Hn).
    assert (no_slash s_chunks) as N1 by (intros HH; cbv in HH; intuition discriminate). assert (no_slash s_high) as N2 by (intros HH; cbv in HH; intuition discriminate).
    destruct (Hn _ N1) as [A1 A2]. destruct (Hn _ N2) as [B1 B2].
    assert (name_at w1 (folder (q_path q) s_chunks) = Some NDir /\ (name_at w1 (folder (q_path q) s_high) = Some NDir \/ name_at w1 (folder (q_path q) s_high) = None) /\
            name_at w1 (chunk_link q id) = None /\ name_at w1 (in_cache (q_path q) (queue_pos true (end_high q))) = None) as (C1 & C2 & C3 & C4).
    { inversion H1; subst; try discriminate.
      - split; [apply name_put_same|]. rewrite !name_put_other by (try exact A1; try exact A2; congruence). tauto.
      - split; [destruct Hdc as [?|[? _]]; congruence|]. tauto. }
    split; [destruct C2; eauto using sys|]. intros w2 r2 G2. apply Hl.
    + inversion G2; subst; try discriminate; [rewrite name_put_other by congruence|]; exact C1.
    + inversion G2; subst; try discriminate; [apply name_put_same|]. destruct C2; congruence.
    + inversion G2; subst; try discriminate; [rewrite name_put_other by exact B1|]; exact C3.
    + inversion G2; subst; try discriminate; [rewrite name_put_other by exact B2|]; exact C4.
  - apply N.eqb_neq in E0. apply Hl; auto; [destruct (Hd s_chunks (or_introl eq_refl)) as [?|[_ ?]]|destruct (Hd s_high (or_intror eq_refl)) as [?|[_ ?]]]; try assumption; contradiction.
Qed.

Lemma starts_here p s : startswith (p ++ s) p = Some s.
Proof. induction p as [|c p IH]; cbn; [reflexivity|]. rewrite N.eqb_refl. exact IH. Qed.

Lemma queue_pos_len hi n : n < two64 -> len (queue_pos hi n) <= 80.
Proof. intros H. unfold queue_pos. rewrite len_app, len_cons. pose proof (dec_len n H). destruct hi; cbn [queue_name]; [change (len s_high) with 13|change (len s_low) with 12]; lia. Qed.

Lemma enqueue_ends fuel q id w : enough fuel -> orderly w q id -> q_open q = true -> 
  ends false w (enqueue_request fuel q id true true) (fun w' x =>
    (snd x = Ok true /\ queued w' q id /\ fst x = end_next true q) \/ (snd x = Ok false /\ exists n, name_at w' (chunk_link q id) = Some (NLink (queue_pos true n)))).
Proof.
  intros Hf (_ & _ & Hd & Ho) Hop. assert (1 <= fuel)%nat as Hf1 by (unfold enough in Hf; lia). unfold enqueue_request, init_cache. rewrite Hop. cbn [pbind].
  unfold enqueue_open. cbv zeta. apply ends_bind. destruct (name_at w (chunk_link q id)) as [[|t|]|] eqn:El; try contradiction.
  - destruct Ho as [(n & Hn & ->)|(n & m & Hn & -> & Hlow & Hs)].
    + eapply readlink_malloc_link; [exact El| |exact Hf1|lia|pose proof (queue_pos_len true n Hn); lia]. cbv beta iota. unfold queue_pos at 1. replace (queue_name true ++ 47 :: dec n) with ((queue_name true ++ [47]) ++ dec n) by (rewrite <- app_assoc; reflexivity).
      rewrite starts_here. cbn. right. split; [reflexivity|]. exists n. exact El.
    + eapply readlink_malloc_link; [exact El| |exact Hf1|lia|pose proof (queue_pos_len false n Hn); lia]. cbv beta iota.
      replace (startswith (queue_pos false n) (queue_name true ++ [47])) with (@None (list N)) by reflexivity. cbn [negb].
      replace (startswith (queue_pos false n) (s_low ++ [47])) with (Some (dec n)) by (symmetry; unfold queue_pos; change (queue_name false) with s_low; replace (s_low ++ 47 :: dec n) with ((s_low ++ [47]) ++ dec n) by (rewrite <- app_assoc; reflexivity); apply starts_here).
      rewrite safe_atou64_dec by (change UINT64_MAX with (two64 - 1); lia). rewrite andb_false_r. cbn [ends]. split; [do 2 eexists; eapply s_unlink; [exact El|discriminate]|]. intros w1 r1 H1. apply sys_unlink in H1. destruct H1 as [[Hx _]|H1]; [discriminate|].
      rewrite El in H1. destruct H1 as [-> ->]. assert (chunk_link q id <> in_cache (q_path q) (queue_pos false n)) as Hne.
      { unfold chunk_link, in_cache. intros E. apply app_inv_head in E. discriminate E. }
      cbn [ends]. split; [do 2 eexists; eapply s_unlink; [rewrite name_del_other by exact Hne; exact Hlow|discriminate]|]. intros w2 r2 H2. apply sys_unlink in H2. destruct H2 as [[Hx _]|H2]; [discriminate|].
      rewrite name_del_other in H2 by exact Hne. rewrite Hlow in H2. destruct H2 as [-> ->].
      assert (forall d, d = s_chunks \/ d = s_high -> chunk_link q id <> in_cache (q_path q) d /\ in_cache (q_path q) (queue_pos false n) <> in_cache (q_path q) d) as Hdd.
      { unfold chunk_link, in_cache. intros d Hd'; split; intros E; apply app_inv_head in E; injection E as E; destruct Hd' as [-> | ->]; discriminate E. }
      eapply ends_mono; [|apply add_ends].
      * cbv beta. intros w' x Hx. left. exact Hx.
      * intros d Hd'. destruct (Hdd d Hd'). rewrite !name_del_other by assumption. apply Hd. exact Hd'.
      * rewrite name_del_other by congruence. apply name_del_gone.
      * rewrite !name_del_other; [exact Hs| |].
        -- unfold chunk_link, in_cache. intros E. apply app_inv_head in E. discriminate E.
        -- unfold in_cache. intros E. apply app_inv_head in E. discriminate E.
  - eapply readlink_malloc_none; [exact El| |exact Hf1]. cbv beta iota. eapply ends_mono; [|apply add_ends; assumption]. cbv beta. auto.
Qed.

Lemma root_neq (root x : list N) : x <> [] -> root <> root ++ x.
Proof. intros Hx E. rewrite <- (app_nil_r root) in E at 1. apply app_inv_head in E. congruence. Qed.

Lemma remote_asks codecs digest fuel r id desired w : enough fuel -> unanswered w id (FromRemote r) ->
  ends false w (remote_request codecs digest fuel r id true desired) (fun w' x =>
    (snd x = Err EAGAIN /\ queued w' (rm_queue r) id /\ end_high (rm_queue (fst x)) = end_high (end_next true (rm_queue r))) \/ (snd x = Err EALREADY /\ exists n, name_at w' (chunk_link (rm_queue r) id) = Some (NLink (queue_pos true n)))).
Proof.
  intros Hf (r0 & E & H1 & H2 & Ho & Hn). injection E as <-. unfold remote_request. rewrite H1, H2. cbn [negb]. apply ends_bind. destruct Ho as (A & B & C & D).
  apply init_ends_new; [exact A|exact B|]. intros w1 q' Hw Hd Hp He Hop.
  assert (forall p, p <> q_path (rm_queue r) -> name_at w1 p = name_at w p) as Hnm.
  { intros p Hne. destruct Hw as [->| ->]; [reflexivity|]. apply name_put_other. congruence. }
  assert (forall x, q_path (rm_queue r) ++ 47 :: x <> q_path (rm_queue r)) as Hne by (intros x; apply not_eq_sym, root_neq; discriminate).
  assert (orderly w1 q' id) as Ho1.
  { unfold orderly, chunk_link, in_cache in *. rewrite Hp, He. split; [auto|]. split; [auto|]. split.
    - intros d Hd'. rewrite Hnm by apply Hne. apply C. exact Hd'.
    - rewrite !Hnm by apply Hne. revert D. destruct (name_at w (q_path (rm_queue r) ++ 47 :: s_chunks ++ 47 :: chunk_id_format id)) as [[|t|]|]; intros D; try exact D. destruct D as [D|(n & m & D1 & D2 & D3)]; [left; exact D|right]. exists n, m. rewrite Hnm by apply Hne. auto. }
  apply ends_bind. rewrite Hp. fold (cache_dir r). unfold chunk_file_load. cbv zeta.
  assert (forall c, chunk_id_format_path (cache_dir r) id (if compression_eqb c UNCOMPRESSED then [] else cacnk) = chunk_name (cache_dir r) id c) as E by (intros c; unfold chunk_name; destruct c; reflexivity).
  assert (forall c, name_at w1 (chunk_name (cache_dir r) id c) = None) as Hn1.
  { intros c. rewrite Hnm; [apply Hn|]. unfold chunk_name, cache_dir. rewrite chunk_file_form. apply Hne. }
  apply ends_open. intros w2 r2 Hs2 Hr2. rewrite E, Hn1 in Hr2. subst r2. apply ends_open. intros w3 r3 Hs3 Hr3. rewrite E, (name_same _ _ _ Hs2), Hn1 in Hr3. subst r3.
  cbn [ends]. apply ends_bind. eapply ends_mono; [|apply (enqueue_ends fuel q' id w3 Hf); [|exact Hop]].
  2:{ eapply orderly_same; [|exact Ho1]. exact (same_files_trans _ _ _ Hs2 Hs3). }
  cbv beta. intros w4 [q4 o4] [[Hx Hq]|[Hx Hq]]; cbn in Hx; subst o4; cbn; [left|right]; (split; [reflexivity|]); unfold queued, chunk_link in *; [destruct Hq as [Hq Hq2]|]; rewrite Hp in Hq; [|exact Hq]. split; [exact Hq|]. cbn in Hq2. subst q4. cbn. rewrite He. reflexivity.
Qed.

(** ** Lists of places *)
Section Asks.
Context (codecs : ctype -> option codec) (bound : N -> N) (HC : codecs_ok bound codecs) (digest : dtype -> list N -> list N) (vtd : list N) (fuel : nat) (Hf : enough fuel)
  (id : list N) (desired : chunk_compression) (t : option ctype).
Notation passed w := (passed digest w id desired).
Notation serves w p := (serves codecs digest bound t w id p desired).

Definition served (p : list N) (r : res (list N * chunk_compression)) : Prop := exists b e, r = Ok (b, e) /\ represents codecs e b p /\ (desired <> AS_IS -> e = desired).

Lemma seed_serve s p w : serves w p (FromSeed s) -> ends false w (seed_get digest fuel s id) (fun w' r => same_files w w' /\ r = Ok p).
Proof. intros (Hl & H1 & H2 & H3 & _). apply seed_get_ends; auto. Qed.

Lemma seeds_pass : forall ss w, Forall (passed w) (map FromSeed ss) -> ends false w (get_seeds codecs digest fuel t ss id desired) (fun w' r => same_files w w' /\ r = None).
Proof.
  induction ss as [|s ss IH]; intros w H; cbn [get_seeds]; [cbn; split; [apply same_files_refl|reflexivity]|]. inversion H as [|x l Hx Hl]; subst.
  apply ends_bind. eapply ends_mono; [|apply seed_misses_ends; [exact Hf|exact Hx]]. cbv beta. intros w1 r1 (Hs & e & -> & He).
  assert (ends false w1 (get_seeds codecs digest fuel t ss id desired) (fun w' r => same_files w w' /\ r = None)) as Hgo.
  { eapply ends_mono; [|apply IH]; [cbv beta; intros w2 r2 [Hs2 Hr2]; split; [exact (same_files_trans _ _ _ Hs Hs2)|exact Hr2]|].
    rewrite Forall_forall in *. intros x Hin. eapply passed_same; [exact Hs|apply Hl; exact Hin]. }
  destruct He as [->|[->| ->]]; exact Hgo.
Qed.

Lemma compress_serves p ct cd : t = Some ct -> codecs ct = Some cd -> bound (len p) < CHUNK_LIMIT_MAX -> CHUNK_LIMIT_MIN <= len p < CHUNK_LIMIT_MAX ->
  exists z, compress codecs fuel t p [] = Some (Ok z) /\ represents codecs COMPRESSED z p.
Proof.
  intros -> Hc Hb Hp. destruct (Properties_Store.compress_then_decompress codecs bound fuel ct cd p HC Hf Hc Hp Hb) as (z & Hz & _). exists z. split; [exact Hz|]. eapply compress_represents; eassumption.
Qed.

Lemma seeds_serve : forall pre s post w p, Forall (passed w) (map FromSeed pre) -> serves w p (FromSeed s) ->
  ends false w (get_seeds codecs digest fuel t (pre ++ s :: post) id desired) (fun w' r => same_files w w' /\ exists x, r = Some x /\ served p x).
Proof.
  induction pre as [|y pre IH]; intros s post w p H Hs; cbn [get_seeds app].
  - apply ends_bind. eapply ends_mono; [|apply seed_serve; exact Hs]. cbv beta. intros w1 r1 [Hs1 ->]. destruct Hs as (Hl & _ & _ & _ & Hct).
    destruct desired eqn:Ed; cbn [compression_eqb].
    + cbn. split; [exact Hs1|]. eexists. split; [reflexivity|]. exists p, UNCOMPRESSED. cbn. auto.
    + destruct (Hct eq_refl) as (ct & cd & Ht & Hc & Hb). destruct (compress_serves p ct cd Ht Hc Hb Hl) as (z & Hz & Hr). rewrite Hz. cbn. split; [exact Hs1|]. eexists. split; [reflexivity|].
      exists z, COMPRESSED. split; [reflexivity|]. split; [exact Hr|congruence].
    + cbn. split; [exact Hs1|]. eexists. split; [reflexivity|]. exists p, UNCOMPRESSED. rewrite Ed. split; [reflexivity|]. split; [reflexivity|congruence].
  - inversion H as [|x l Hx Hl]; subst. apply ends_bind. eapply ends_mono; [|apply seed_misses_ends; [exact Hf|exact Hx]]. cbv beta. intros w1 r1 (Hs1 & e & -> & He).
    assert (ends false w1 (get_seeds codecs digest fuel t (pre ++ s :: post) id desired) (fun w' r => same_files w w' /\ exists x, r = Some x /\ served p x)) as Hgo.
    { eapply ends_mono; [|apply IH]; [cbv beta; intros w2 r2 [Hs2 Hr2]; split; [exact (same_files_trans _ _ _ Hs1 Hs2)|exact Hr2]| |eapply serves_same; eassumption].
      rewrite Forall_forall in *. intros x Hin. eapply passed_same; [exact Hs1|apply Hl; exact Hin]. }
    destruct He as [->|[->| ->]]; exact Hgo.
Qed.

Lemma stores_pass : forall sts w, Forall (passed w) (map FromStore sts) -> ends false w (get_stores codecs digest fuel sts id desired) (fun w' r => same_files w w' /\ r = None).
Proof.
  induction sts as [|s ss IH]; intros w H; cbn [get_stores]; [cbn; split; [apply same_files_refl|reflexivity]|]. inversion H as [|x l Hx Hl]; subst.
  apply ends_bind. eapply ends_mono; [|apply store_misses_ends; exact Hx]. cbv beta. intros w1 r1 (Hs & ->).
  eapply ends_mono; [|apply IH]; [cbv beta; intros w2 r2 [Hs2 Hr2]; split; [exact (same_files_trans _ _ _ Hs Hs2)|exact Hr2]|].
  rewrite Forall_forall in *. intros x Hin. eapply passed_same; [exact Hs|apply Hl; exact Hin].
Qed.

Lemma stores_serve : forall pre s post w p, handle codecs digest vtd fuel s -> Forall (passed w) (map FromStore pre) -> serves w p (FromStore s) ->
  ends false w (get_stores codecs digest fuel (pre ++ s :: post) id desired) (fun w' r => same_files w w' /\ exists x, r = Some x /\ served p x).
Proof.
  induction pre as [|y pre IH]; intros s post w p Hh H Hs; cbn [get_stores app].
  - apply ends_bind. destruct Hs as (Hl & (root & H1 & H2) & H3 & H4).
    eapply ends_mono; [|apply (store_get_ok codecs bound digest fuel w s root id desired p HC Hf (Properties_Store.handle_ok _ _ _ _ _ Hh) H1 H2 H3 Hl); auto].
    cbv beta. intros w1 r1 (Hs1 & d & b & e & -> & Hr & He). cbn. split; [exact Hs1|]. eexists. split; [reflexivity|]. exists b, e. auto.
  - inversion H as [|x l Hx Hl]; subst. apply ends_bind. eapply ends_mono; [|apply store_misses_ends; exact Hx]. cbv beta. intros w1 r1 (Hs1 & ->).
    eapply ends_mono; [|apply IH]; [cbv beta; intros w2 r2 [Hs2 Hr2]; split; [exact (same_files_trans _ _ _ Hs1 Hs2)|exact Hr2]|exact Hh| |eapply serves_same; eassumption].
    rewrite Forall_forall in *. intros x Hin. eapply passed_same; [exact Hs1|apply Hl; exact Hin].
Qed.

Lemma remotes_pass : forall rs w, Forall (passed w) (map FromRemote rs) -> ends false w (get_remotes codecs digest fuel rs id desired) (fun w' r => same_files w w' /\ snd r = None).
Proof.
  induction rs as [|s ss IH]; intros w H; cbn [get_remotes]; [cbn; split; [apply same_files_refl|reflexivity]|]. inversion H as [|x l Hx Hl]; subst.
  apply ends_bind. eapply ends_mono; [|apply remote_pass; exact Hx]. cbv beta. intros w1 [r1 o1] (Hs & E). cbn in E. subst o1. apply ends_bind.
  eapply ends_mono; [|apply IH]; [cbv beta; intros w2 [r2 o2] [Hs2 Hr2]; cbn in *; split; [exact (same_files_trans _ _ _ Hs Hs2)|exact Hr2]|].
  rewrite Forall_forall in *. intros x Hin. eapply passed_same; [exact Hs|apply Hl; exact Hin].
Qed.

Lemma remotes_to (Q : Posix.world -> remote -> res (list N * chunk_compression) -> Prop) : forall pre s post w, Forall (passed w) (map FromRemote pre) ->
  (forall w', same_files w w' -> ends false w' (remote_request codecs digest fuel s id true desired) (fun w' x => snd x <> Err ENOENT /\ Q w' (fst x) (snd x))) ->
  ends false w (get_remotes codecs digest fuel (pre ++ s :: post) id desired) (fun w' r => exists x r', snd r = Some x /\ Q w' r' x).
Proof.
  induction pre as [|y pre IH]; intros s post w H Hs; cbn [get_remotes app].
  - apply ends_bind. eapply ends_mono; [|apply (Hs w), same_files_refl]. cbv beta. intros w1 [r1 o1] [Hne Hq]. cbn in *.
    destruct o1 as [x|e| |]; [|destruct e; try congruence| |]; cbn; eexists; exists r1; (split; [reflexivity|exact Hq]).
  - inversion H as [|x l Hx Hl]; subst. apply ends_bind. eapply ends_mono; [|apply remote_pass; exact Hx]. cbv beta. intros w1 [r1 o1] (Hs1 & E). cbn in E. subst o1. apply ends_bind.
    eapply ends_mono; [|apply IH]; [cbv beta; intros w2 [r2 o2] Hr2; cbn in *; exact Hr2| |].
    + rewrite Forall_forall in *. intros x Hin. eapply passed_same; [exact Hs1|apply Hl; exact Hin].
    + intros w' Hs'. apply Hs. exact (same_files_trans _ _ _ Hs1 Hs').
Qed.
End Asks.

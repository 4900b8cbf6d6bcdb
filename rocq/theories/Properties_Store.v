(** C24, C25, C26, C40: the chunk store. *)
From Verif Require Import Base ChunkId ChunkIdProofs Posix PosixProofs ChunkFile Store StoreSpec StoreProofs1 StoreProofs2 StoreProofs3 StoreProofs4 StoreProofs5 StoreProofs6 StoreProofs7 StoreProofs8 StoreProofs9 StoreProofs10 StoreProofs11 StoreProofs12.
Local Open Scope N_scope.

Lemma handle_ok codecs digest vtd fuel st : handle codecs digest vtd fuel st -> store_ok st.
Proof.
  intros H. induction H as [t|t|st p st' _ IH E|st c _ IH|st t _ IH|st t _ IH|st id d st' b e _ IH Hx|st t _ IH E|st id eff data st' r _ IH Hx].
  - intros t' Ht; discriminate.
  - intros t' Ht. left. reflexivity.
  - unfold store_set_path in E. destruct (st_root st); [discriminate|]. injection E as <-. exact IH.
  - exact IH.
  - exact IH.
  - intros t' Ht. cbn in Ht |- *. subst t. destruct (st_validate st); auto.
  - exact (proj1 (proj2 (store_get_sound _ _ _ _ _ _ _ _ _ IH Hx))).
  - intros t' Ht. cbn in Ht. congruence.
  - unfold store_put in Hx. apply may_bind in Hx. destruct Hx as (a & Ha & Hx).
    assert (forall st1, a = Ok st1 -> store_ok st1) as Hok.
    { intros st1 ->. destruct (st_root st); [inversion Ha; subst; exact IH|]. destruct (negb (st_is_cache st)); [inversion Ha|].
      inversion Ha as [|c k r0 x Hk]; subst. destruct r0; inversion Hk; subst; exact IH. }
    destruct a as [st1|er| |]; try (inversion Hx; subst; exact IH). specialize (Hok st1 eq_refl).
    destruct (st_root st1); [|inversion Hx; subst; exact Hok]. apply may_bind in Hx. destruct Hx as (b & Hb & Hx).
    assert (forall st2, b = Ok st2 -> store_ok st2) as Hok2.
    { intros st2 ->. destruct (st_mkdir_done st1); [inversion Hb; subst; exact Hok|]. inversion Hb as [|c k r0 x Hk]; subst.
      destruct r0 as [n|fd|d|nl|e]; [inversion Hk; subst; exact Hok|inversion Hk|inversion Hk|inversion Hk|]. destruct e; inversion Hk; subst; exact Hok. }
    destruct b as [st2|er| |]; try (inversion Hx; subst; exact Hok).
    apply may_bind in Hx. destruct Hx as (c & _ & Hx). inversion Hx; subst. apply Hok2. reflexivity.
Qed.

(** C24. Whatever is in the store's directory, whatever others do to it at the same time, and whatever goes wrong: what a get
    delivers is, after decompression if it is compressed, a byte string with the digest asked for, of a permitted size;
    and it is in the form that was desired. *)
Theorem store_get_returns_requested_partial :
  forall codecs digest vtd fuel st id desired st' b e,
  handle codecs digest vtd fuel st ->
  may (store_get codecs digest fuel st id desired) (Ok (st', b, e)) ->
  (desired <> AS_IS -> e = desired) /\
  exists p t,
    match e with
    | UNCOMPRESSED => b = p
    | COMPRESSED => exists ct cd, detect_compression b = Ok ct /\ codecs ct = Some cd /\ inflates cd (dec_new cd) b p
    | AS_IS => False
    end /\
    digest t p = id /\ (st_digest st = None \/ st_digest st = Some t) /\ CHUNK_LIMIT_MIN <= len p <= CHUNK_LIMIT_MAX.
Proof.
  intros codecs digest vtd fuel st id desired st' b e Hh H. apply handle_ok in Hh.
  destruct (store_get_sound codecs digest fuel st id desired st' b e Hh H) as (H1 & _ & H2). split; [exact H1|exact H2].
Qed.
Print Assumptions store_get_returns_requested_partial.

(** C24. A complete file with another chunk under the name asked for is reported as a bad message. *)
Theorem store_get_wrong_chunk :
  forall codecs bound digest vtd fuel w st root id desired p,
  codecs_ok bound codecs -> enough fuel -> handle codecs digest vtd fuel st -> st_root st = Some root ->
  holds codecs w root id p -> ~ named digest st id p -> CHUNK_LIMIT_MIN <= len p < CHUNK_LIMIT_MAX ->
  (desired = COMPRESSED -> exists ct cd, st_ctype st = Some ct /\ codecs ct = Some cd /\ bound (len p) < CHUNK_LIMIT_MAX) ->
  ends false w (store_get codecs digest fuel st id desired) (fun _ r => r = Err EBADMSG).
Proof.
  intros codecs bound digest vtd fuel w st root id desired p HC Hf Hh Hr Hho Hn Hp Hct. apply handle_ok in Hh.
  eapply ends_mono; [|apply (store_get_bad codecs bound digest fuel w st root id desired p HC Hf Hh Hr Hho Hn Hp)].
  - cbv beta. intros w' r [H _]. exact H.
  - intros H _. auto.
Qed.
Print Assumptions store_get_wrong_chunk.

(** C24 (finding). A compressed file that was cut off, in a store from which compressed chunks are wanted, isn't reported: the process
    is aborted by a failed assertion. This is so for every library, every chunk and every place of the cut after the
    signature. *)
Theorem store_get_truncated_aborts :
  forall codecs digest fuel w st root id z1 z2 p t cd,
  enough fuel -> st_root st = Some root ->
  file_at w (chunk_name root id COMPRESSED) = Some z1 -> detect_compression z1 = Ok t -> codecs t = Some cd ->
  packed cd (z1 ++ z2) p -> z1 <> [] -> z2 <> [] -> len p < CHUNK_LIMIT_MAX -> len z1 < CHUNK_LIMIT_MAX ->
  ends false w (store_get codecs digest fuel st id COMPRESSED) (fun _ r => r = Abort).
Proof. exact store_get_truncated. Qed.
Print Assumptions store_get_truncated_aborts.

(** Not "anything else is reported as a bad message". *)
Theorem store_get_bad_message_refuted :
  ~ (forall codecs bound digest fuel w st root id,
       codecs_ok bound codecs -> enough fuel -> handle codecs digest [] fuel st -> st_root st = Some root -> id_ok id = true ->
       (exists content, file_at w (chunk_name root id COMPRESSED) = Some content) ->
       ends false w (store_get codecs digest fuel st id COMPRESSED) (fun _ r => r = Err EBADMSG \/ exists st' b e, r = Ok (st', b, e))).
Proof.
  intros H.
  set (st := {| st_root := Some [115; 47]; st_is_cache := false; st_mkdir_done := false; st_digest := None; st_validate := None;
                st_compression := COMPRESSED; st_ctype := Some GZIP; st_requests := 0; st_request_bytes := 0 |}).
  set (id := repeat 7 32).
  set (w := {| w_names := [(chunk_name [115; 47] id COMPRESSED, NFile 0)]; w_inodes := [[31; 139; 1; 65; 1]]; w_fds := [] |}).
  assert (file_at w (chunk_name [115; 47] id COMPRESSED) = Some [31; 139; 1; 65; 1]) as Hfile.
  { unfold file_at, name_at, w. cbn [w_names assoc w_inodes]. rewrite beq_refl. reflexivity. }
  assert (handle stored_codecs (fun _ _ => []) [] big st) as Hh.
  { apply (hd_path _ _ _ _ (store_new (Some GZIP)) [115; 47]); [constructor|reflexivity]. }
  pose proof (H stored_codecs stored_bound (fun _ _ => []) big w st [115; 47] id stored_codecs_ok big_enough Hh eq_refl eq_refl (ex_intro _ _ Hfile)) as H1.
  pose proof (store_get_truncated stored_codecs (fun _ _ => []) big w st [115; 47] id [31; 139; 1; 65; 1] [66; 0] [65; 66] GZIP stored big_enough eq_refl Hfile) as H2.
  assert (ends false w (store_get stored_codecs (fun _ _ => []) big st id COMPRESSED) (fun _ r => r = Abort)) as H3.
  { apply H2; try reflexivity; try discriminate. apply stored_decodes. reflexivity. }
  destruct (ends_exists _ _ _ _ H3) as (w' & a & Hx).
  pose proof (ends_exec _ _ _ _ _ _ H1 Hx) as E1. pose proof (ends_exec _ _ _ _ _ _ H3 Hx) as E2. cbv beta in E1, E2. subst a.
  destruct E1 as [E1|(? & ? & ? & E1)]; discriminate.
Qed.
Print Assumptions store_get_bad_message_refuted.

(** C25. Any sequence of puts, lookups, gets and removals, by any handles, in which any system call may fail: the store is a map. A put
    that succeeded had not found the chunk there and the chunk is there afterwards, every chunk that a get delivers is the
    one that was put, nothing else is affected by any operation, an operation that fails has been done or not. *)
Theorem store_is_a_map :
  forall codecs bound digest vtd fuel root w h w' m,
  codecs_ok bound codecs -> enough fuel ->
  (forall id p, m id = Some p -> CHUNK_LIMIT_MIN <= len p < CHUNK_LIMIT_MAX) -> store_is codecs w root m ->
  history codecs digest vtd fuel root w h w' ->
  exists m', mapped codecs m h m' /\ store_is codecs w' root m'.
Proof.
  intros codecs bound digest vtd fuel root w h w' m HC Hf Hs Hm H. apply store_is_contains in Hm.
  destruct (history_map codecs bound HC digest vtd fuel root w h w' Hf H m Hs Hm) as (m' & H1 & H2). exists m'. split; [exact H1|apply store_is_contains; exact H2].
Qed.
Print Assumptions store_is_a_map.

Lemma unobstructed_subdir w root id : unobstructed w root id -> name_at w (subdir root id) = None \/ name_at w (subdir root id) = Some NDir.
Proof. intros [H _]. unfold chunk_name in H. rewrite dirname_path in H by (intros []). exact H. Qed.

(** C25, C40. A chunk below the limit that isn't in the store is put, in either form, through a handle with any configuration, and got
    back, in any form, through a handle with any (other) configuration that names it alike: without faults both come to
    an end, both succeed, and the chunk is what was put. *)
Theorem store_put_then_get :
  forall codecs bound digest vtd fuel w root m st1 st2 id effective data p desired,
  codecs_ok bound codecs -> enough fuel -> store_is codecs w root m -> m id = None -> id_ok id = true ->
  st_root st1 = Some root -> st_root st2 = Some root -> handle codecs digest vtd fuel st2 -> named digest st2 id p ->
  represents codecs effective data p -> CHUNK_LIMIT_MIN <= len data < CHUNK_LIMIT_MAX -> CHUNK_LIMIT_MIN <= len p < CHUNK_LIMIT_MAX ->
  unobstructed w root id ->
  (exists ct cd, st_ctype st1 = Some ct /\ codecs ct = Some cd) -> (exists ct cd, st_ctype st2 = Some ct /\ codecs ct = Some cd) ->
  bound (len p) < CHUNK_LIMIT_MAX ->
  ends false w (store_put codecs vtd fuel st1 id effective data) (fun w1 x => snd x = Ok tt /\
    ends false w1 (store_get codecs digest fuel st2 id desired) (fun _ r =>
      exists st' b e, r = Ok (st', b, e) /\ represents codecs e b p /\ (desired <> AS_IS -> e = desired))).
Proof.
  intros codecs bound digest vtd fuel w root m st1 st2 id effective data p desired HC Hf Hm Hno Hid Hr1 Hr2 Hh Hn Hrep Hld Hlp Hu Ht1 Ht2 Hb.
  apply handle_ok in Hh. apply store_is_contains in Hm.
  eapply ends_mono; [|apply (put_get codecs bound HC digest vtd fuel w root m st1 st2 id effective data p desired); try assumption; [apply unobstructed_subdir; exact Hu|exact (proj2 Hu)]].
  cbv beta. intros w1 x [H1 H2]. split; [exact H1|]. eapply ends_mono; [|exact H2]. cbv beta. intros w2 r (_ & t & b & e & -> & H3 & H4). eauto 6.
Qed.
Print Assumptions store_put_then_get.

(** C40. In whichever of the forms a chunk is there, in whichever form it is wanted: the same chunk is returned. *)
Theorem compression_is_transparent :
  forall codecs bound digest vtd fuel w st root id desired p,
  codecs_ok bound codecs -> enough fuel -> handle codecs digest vtd fuel st -> st_root st = Some root ->
  holds codecs w root id p -> named digest st id p -> CHUNK_LIMIT_MIN <= len p < CHUNK_LIMIT_MAX ->
  (desired = COMPRESSED -> exists ct cd, st_ctype st = Some ct /\ codecs ct = Some cd /\ bound (len p) < CHUNK_LIMIT_MAX) ->
  ends false w (store_get codecs digest fuel st id desired) (fun w' r =>
    w_names w' = w_names w /\ w_inodes w' = w_inodes w /\
    exists st' b e, r = Ok (st', b, e) /\ represents codecs e b p /\ (desired <> AS_IS -> e = desired)).
Proof.
  intros codecs bound digest vtd fuel w st root id desired p HC Hf Hh Hr Hho Hn Hp Hct. apply handle_ok in Hh.
  eapply ends_mono; [|apply (store_get_ok codecs bound digest fuel w st root id desired p HC Hf Hh Hr Hho Hn Hp)].
  - cbv beta. intros w' r [[H1 H2] (t & b & e & -> & H3 & H4)]. split; [exact H1|]. split; [exact H2|]. eauto 6.
  - intros H _. auto.
Qed.
Print Assumptions compression_is_transparent.

(** C40. ca_compress and ca_decompress, without a store. *)
Theorem compress_then_decompress :
  forall codecs bound fuel t cd p,
  codecs_ok bound codecs -> enough fuel -> codecs t = Some cd -> CHUNK_LIMIT_MIN <= len p < CHUNK_LIMIT_MAX -> bound (len p) < CHUNK_LIMIT_MAX ->
  exists z, compress codecs fuel (Some t) p [] = Some (Ok z) /\ decompress codecs fuel z [] = Some (Ok p).
Proof.
  intros codecs bound fuel t cd p [mono HC] Hf Hc Hp Hb. unfold enough in Hf.
  unfold compress, bad_size. replace (len p <? CHUNK_LIMIT_MIN) with false by lia. replace (CHUNK_LIMIT_MAX <? len p) with false by lia. cbn [orb start_codec]. rewrite Hc.
  destruct (compress_loop_ok bound t cd mono fuel (enc_new cd) [] [] None p [] (codec_ok_encodes _ _ _ (HC _ _ Hc))) as (z & E & Hz1 & Hz2 & Hz3);
    [discriminate|exact Hb|cbn [app]; change (len (@nil N)) with 0; lia|].
  change (len (@nil N)) with 0 in E. exists z. split; [exact E|]. cbn [app] in *.
  apply (decompress_ok codecs fuel z p t cd); [exact Hz2|exact Hc|exact Hz1|exact Hp|lia|lia].
Qed.
Print Assumptions compress_then_decompress.

(** C26, for sizes from 1 to one less than the limit (the size itself: see below). *)
Theorem chunk_of_any_size_partial :
  forall codecs bound digest vtd fuel w root m st id p,
  codecs_ok bound codecs -> enough fuel -> store_is codecs w root m -> m id = None -> id_ok id = true ->
  st_root st = Some root -> handle codecs digest vtd fuel st -> named digest st id p ->
  1 <= len p < 134217728 -> unobstructed w root id ->
  (exists ct cd, st_ctype st = Some ct /\ codecs ct = Some cd) -> bound (len p) < 134217728 ->
  ends false w (store_put codecs vtd fuel st id UNCOMPRESSED p) (fun w1 x => snd x = Ok tt /\
    ends false w1 (store_get codecs digest fuel st id UNCOMPRESSED) (fun _ r => exists st', r = Ok (st', p, UNCOMPRESSED))).
Proof.
  intros codecs bound digest vtd fuel w root m st id p HC Hf Hm Hno Hid Hr Hh Hn Hp Hu Ht Hb.
  eapply ends_mono; [|apply (store_put_then_get codecs bound digest vtd fuel w root m st st id UNCOMPRESSED p p UNCOMPRESSED); try assumption; reflexivity].
  cbv beta. intros w1 x [H1 H2]. split; [exact H1|]. eapply ends_mono; [|exact H2]. cbv beta. intros w2 r (st' & b & e & -> & H3 & H4).
  rewrite (H4 ltac:(discriminate)) in *. cbn in H3. subst b. eauto.
Qed.
Print Assumptions chunk_of_any_size_partial.

(** C26 (finding). A chunk of exactly the limit is stored, and can't be retrieved. *)
Theorem store_limit_chunk_refuted :
  forall codecs bound digest vtd fuel w root st id data,
  codecs_ok bound codecs -> enough fuel -> id_ok id = true -> st_root st = Some root -> st_compression st <> COMPRESSED -> st_mkdir_done st = true ->
  name_at w (chunk_name root id UNCOMPRESSED) = None -> name_at w (chunk_name root id COMPRESSED) = None -> unobstructed w root id ->
  len data = CHUNK_LIMIT_MAX ->
  ends false w (store_put codecs vtd fuel st id UNCOMPRESSED data) (fun w1 x => snd x = Ok tt /\
    ends false w1 (store_get codecs digest fuel st id UNCOMPRESSED) (fun _ r => r = Err EBADMSG)).
Proof.
  intros codecs bound digest vtd fuel w root st id data HC Hf Hid Hr Hc Hmk H1 H2 Hu Hl.
  apply (limit_chunk codecs bound HC digest vtd fuel w root st id data); try assumption; [|apply unobstructed_subdir; exact Hu|exact (proj2 Hu)].
  unfold present. rewrite H1, H2. reflexivity.
Qed.
Print Assumptions store_limit_chunk_refuted.

(** C25. Any number of processes which put genuine chunks, look them up, mark them as missing and remove them, in any order, at the same
    time, with faults, each of them stopped anywhere: under each name of each chunk there is nothing, the mark, or a
    complete file with that chunk. *)
Theorem store_written_atomically :
  forall codecs bound digest vtd fuel root genuine cs w w' ps,
  codecs_ok bound codecs -> world_ok w -> intact codecs genuine root w -> Forall (honest codecs root genuine) cs ->
  psteps (w, map (client_prog codecs digest vtd fuel root) cs) (w', ps) ->
  intact codecs genuine root w'.
Proof. intros codecs bound digest vtd fuel root genuine cs w w' ps HC. exact (clients_intact codecs bound HC genuine root digest vtd fuel cs w w' ps). Qed.
Print Assumptions store_written_atomically.

(** ** A case: a store directory "s/" and a codec; a chunk of three bytes. *)
Definition ex_root : list N := [115; 47].
Definition ex_digest (t : dtype) (p : list N) : list N := takeN 32 (p ++ repeat (match t with SHA256 => 1 | SHA512_256 => 2 end) 32).
Definition ex_p : list N := [10; 20; 30].
Definition ex_id : list N := ex_digest SHA256 ex_p.
Definition ex_w : world := {| w_names := []; w_inodes := []; w_fds := [] |}.
Definition ex_st : store :=
  {| st_root := Some ex_root; st_is_cache := false; st_mkdir_done := false; st_digest := None; st_validate := None;
     st_compression := COMPRESSED; st_ctype := Some GZIP; st_requests := 0; st_request_bytes := 0 |}.

Lemma ex_handle : handle stored_codecs ex_digest [] big ex_st.
Proof. apply (hd_path _ _ _ _ (store_new (Some GZIP)) ex_root); [constructor|reflexivity]. Qed.

Example c25_case : forall desired,
  ends false ex_w (store_put stored_codecs [] big ex_st ex_id UNCOMPRESSED ex_p) (fun w1 x => snd x = Ok tt /\
    ends false w1 (store_get stored_codecs ex_digest big ex_st ex_id desired) (fun _ r =>
      exists st' b e, r = Ok (st', b, e) /\ represents stored_codecs e b ex_p /\ (desired <> AS_IS -> e = desired))).
Proof.
  intros desired. apply (store_put_then_get stored_codecs stored_bound ex_digest [] big ex_w ex_root (fun _ => None) ex_st ex_st ex_id UNCOMPRESSED ex_p ex_p desired).
  - apply stored_codecs_ok.
  - apply big_enough.
  - intros id _. split; reflexivity.
  - reflexivity.
  - reflexivity.
  - reflexivity.
  - reflexivity.
  - apply ex_handle.
  - exists SHA256. split; [reflexivity|left; reflexivity].
  - reflexivity.
  - split; [discriminate|reflexivity].
  - split; [discriminate|reflexivity].
  - split; [left; reflexivity|reflexivity].
  - exists GZIP, stored. split; reflexivity.
  - exists GZIP, stored. split; reflexivity.
  - reflexivity.
Qed.

Lemma one_step {A} w w' c (k : _ -> prog A) r : sys true w c w' r -> psteps (w, [Sys c k]) (w', [k r]).
Proof. intros H. eapply pss_step; [apply pss_refl|]. exact (ps_step w w' c k r [] [] H). Qed.

(** The hypotheses of the theorems about histories and about many processes hold of the empty directory; these theorems are used on a
    put that is stopped after its first system call. *)
Example c25_crash_case :
  intact stored_codecs (fun id p => id = ex_digest SHA256 p) ex_root ex_w /\ world_ok ex_w /\
  honest stored_codecs ex_root (fun id p => id = ex_digest SHA256 p) (CPut ex_st ex_id UNCOMPRESSED ex_p (fun _ => CDone)) /\
  exists w' p, psteps (ex_w, map (client_prog stored_codecs ex_digest [] big ex_root) [CPut ex_st ex_id UNCOMPRESSED ex_p (fun _ => CDone)]) (w', [p]) /\
    name_at w' ex_root = Some NDir /\ intact stored_codecs (fun id p => id = ex_digest SHA256 p) ex_root w'.
Proof.
  assert (intact stored_codecs (fun id p => id = ex_digest SHA256 p) ex_root ex_w) as H1 by (intros id c _ _; left; reflexivity).
  assert (world_ok ex_w) as H2.
  { split; [constructor|]. split; [intros p i H; discriminate|intros [|fd] i pos H; discriminate]. }
  assert (honest stored_codecs ex_root (fun id p => id = ex_digest SHA256 p) (CPut ex_st ex_id UNCOMPRESSED ex_p (fun _ => CDone))) as H3.
  { split; [|intros; exact I]. split; [reflexivity|]. split; [reflexivity|]. split; [reflexivity|]. exists ex_p. split; reflexivity. }
  split; [exact H1|]. split; [exact H2|]. split; [exact H3|].
  cbn [map client_prog]. unfold store_put. cbn [st_root ex_st pbind st_mkdir_done].
  match goal with |- exists w' p, psteps (_, [Sys ?c ?k]) _ /\ _ => pose proof (one_step ex_w (put_name ex_w ex_root NDir) c k (RNum 0)) as H4; set (kk := k) in * end.
  specialize (H4 (s_mkdir true ex_w ex_root eq_refl)). exists (put_name ex_w ex_root NDir), (kk (RNum 0)).
  split; [exact H4|]. split; [apply name_put_same|].
  eapply (store_written_atomically stored_codecs stored_bound ex_digest [] big ex_root _ [CPut ex_st ex_id UNCOMPRESSED ex_p (fun _ => CDone)] ex_w);
    [apply stored_codecs_ok|exact H2|exact H1|constructor; [exact H3|constructor]|exact H4].
Qed.

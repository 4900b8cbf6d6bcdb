(** C37: A blob written with an index into a store is read back, whole and from any offset; whatever happens, the bytes handed out are those of the blob. The notions
    are in SyncWriteSpec.v. *)
From Verif Require Import Base Chunker ChunkerSpec ChunkerProofs ChunkId FeatureFlags Posix PosixProofs ChunkFile Store StoreSpec StoreProofs1 StoreProofs2 StoreProofs4 StoreProofs6 StoreProofs9 StoreProofs11 StoreProofs12
  Index IndexSpec IndexProofs IndexProofs2 IndexProofs3 IndexProofs4 IndexProofs5 SyncGet SyncGetSpec SyncGetProofs4 SyncWrite SyncWriteSpec SyncWriteProofs1 SyncWriteProofs2 SyncWriteProofs3 SyncWriteProofs4.
From Verif Require Import SetSize.
From Verif Require Properties_Chunker Properties_Store.
Local Open Scope N_scope.

(** ** Reading

    The index of the blob [concat cs] is read, the decoder asks for data, seeks and skips as it likes, and every system call may return anything: everything it
    is given is the right piece of the blob. *)
Theorem blob_session_right :
  forall codecs bound digest vtd fuel f mi av ma d cs s lim x tr,
  codecs_ok bound codecs ->
  usable codecs digest vtd fuel s ->
  params_ok f mi av ma -> chunks_ok ma (listing (digest d) cs) -> len cs < 2 ^ 34 ->
  index_open (index_new CA_INDEX_READ (Some (index_image f mi av ma (listing (digest d) cs))) lim) = (Ok tt, x) ->
  ((exists o r, In (ASeek o, r) tr) -> forall pre c post, cs = pre ++ c :: post -> post <> [] -> mi <= len c) ->
  session codecs digest fuel (mkReader x s None 0) tr ->
  right digest d cs 0 tr.
Proof.
  intros codecs bound digest vtd fuel f mi av ma d cs s lim x tr HC U P C B HX M H.
  assert (len (listing (digest d) cs) < 2 ^ 34) as B' by (rewrite listing_len; exact B).
  destruct (start_rinv codecs digest vtd fuel f mi av ma d cs P C B' s lim U) as (x0 & X & I & _). rewrite HX in X. injection X as <-.
  refine (session_ok codecs bound HC digest vtd fuel f mi av ma d cs P C B' tr 0 _ I _ H).
  intros Hs. apply M. apply in_map_iff in Hs. destruct Hs as ([a r] & E & Hi). cbn in E. destruct a; try discriminate E. eauto.
Qed.
Print Assumptions blob_session_right.

(** A piece of the blob is what the blob has at that place, unless there are two different strings of the same length and the same digest, which the
    reading has come upon. *)
Theorem piece_genuine :
  forall digest d cs pos x, piece digest d cs pos x ->
  x <> [] /\
  (x = takeN (len x) (dropN pos (concat cs)) \/
   exists c p t, In c cs /\ p <> c /\ len p = len c /\ digest t p = digest d c).
Proof.
  intros digest d cs pos x (pre & c & post & skip & p & t & EC & EP & L & -> & El & Ed). split.
  { intros E. assert (len (dropN skip p) = 0) as Z by (rewrite E; reflexivity). rewrite len_dropN in Z. lia. }
  destruct (beq p c) eqn:E.
  - apply beq_eq in E. subst p. left. rewrite EC, concat_app, EP. cbn [concat].
    replace (dropN (len (concat pre) + skip) (concat pre ++ c ++ concat post)) with (dropN skip c ++ concat post).
    + symmetry. apply takeN_app_exact. reflexivity.
    + rewrite dropN_app_ge by lia. replace (len (concat pre) + skip - len (concat pre)) with skip by lia. symmetry. apply dropN_app_le. lia.
  - right. exists c, p, t. split; [rewrite EC; apply in_or_app; right; left; reflexivity|]. split; [|auto]. intros ->. rewrite beq_refl in E. discriminate E.
Qed.
Print Assumptions piece_genuine.

(** If nothing fails and each chunk is found in one of the places on this machine, the blob is read to its end, from the start, after skipping [k] bytes, or from
    any offset [o]. *)
Theorem blob_read_complete :
  forall codecs bound digest vtd fuel f mi av ma d cs s w lim x n,
  codecs_ok bound codecs -> enough fuel -> usable codecs digest vtd fuel s ->
  params_ok f mi av ma -> chunks_ok ma (listing (digest d) cs) -> len cs < 2 ^ 34 ->
  index_open (index_new CA_INDEX_READ (Some (index_image f mi av ma (listing (digest d) cs))) lim) = (Ok tt, x) ->
  (forall c, In c cs -> first_of (passed digest w (digest d c) UNCOMPRESSED) (serves codecs digest bound (sy_ctype s) w (digest d c) c UNCOMPRESSED) (local_sources s)) ->
  (length cs < n)%nat ->
  let rd := mkReader x s None 0 in
  ends false w (read_all codecs digest fuel n rd []) (fun _ r => r = Ok (concat cs)) /\
  (forall k, k < 2 ^ 64 -> exists rd', decoder_skip k rd = (rd', Ok FNothing) /\
     ends false w (read_all codecs digest fuel n rd' []) (fun _ r => r = Ok (dropN k (concat cs)))) /\
  ((forall pre c post, cs = pre ++ c :: post -> post <> [] -> mi <= len c) -> forall o, o < len (concat cs) ->
     exists rd', decoder_seek o rd = (rd', Ok FNothing) /\
     ends false w (read_all codecs digest fuel n rd' []) (fun _ r => r = Ok (dropN o (concat cs)))).
Proof.
  intros codecs bound digest vtd fuel f mi av ma d cs s w lim x n HC Hf U P C B HX A L rd.
  assert (len (listing (digest d) cs) < 2 ^ 34) as B' by (rewrite listing_len; exact B).
  destruct (start_rinv codecs digest vtd fuel f mi av ma d cs P C B' s lim U) as (x0 & X & I & _ & At). rewrite HX in X. injection X as <-.
  assert (forall y : list N, dropN 0 y = y) as D0 by reflexivity.
  assert (forall rd0 pre0, index_at digest f mi av ma d cs pre0 (rd_index rd0) -> pre0 <> cs \/ pre0 = [] -> ~ at_end digest f mi av ma d cs rd0) as NE.
  { intros rd0 pre0 (_ & R & (post & EC)) Hp (_ & _ & D). destruct R as (_ & _ & _ & _ & _ & _ & R & _). rewrite R in D.
    rewrite image_len in D by apply C. rewrite listing_len in D. destruct Hp as [Hp|Hp].
    - destruct post as [|c post]; [rewrite app_nil_r in EC; congruence|]. rewrite EC, len_app, len_cons in D. lia.
    - subst pre0. change (len (@nil (list N))) with 0 in D. lia. }
  assert (forall k rd0, SyncWriteProofs1.rinv codecs digest vtd fuel f mi av ma d cs k rd0 -> ~ at_end digest f mi av ma d cs rd0 -> rd_sync rd0 = s ->
    ends false w (read_all codecs digest fuel n rd0 []) (fun _ r => r = Ok (dropN k (concat cs)))) as K.
  { intros k rd0 I0 N0 E0. eapply ends_mono; [|apply (read_all_ends codecs bound HC digest vtd fuel Hf f mi av ma d cs P C B' s n k rd0 w []); auto].
    - cbv beta. intros w' r [-> _]. reflexivity.
    - exists [], cs. split; [reflexivity|]. split; [change (len (@concat N [])) with 0; lia|exact L]. }
  split; [|split].
  - eapply ends_mono; [|apply (K 0 rd I); [apply (NE rd [] At); auto|reflexivity]]. cbv beta. intros w' r ->. rewrite D0. reflexivity.
  - intros k Hk. unfold decoder_skip, rd. cbn [rd_skip rd_index rd_sync rd_next]. rewrite N.add_0_l.
    assert (k mod two64 = k) as Ek by (apply N.mod_small; exact Hk). rewrite Ek. destruct (N.ltb_spec k 0) as [Z|Z]; [lia|]. eexists. split; [reflexivity|].
    apply K; [|exact (NE (mkReader x s None k) [] At (or_intror eq_refl))|reflexivity].
    pose proof (SyncWriteProofs1.skip_ok codecs digest vtd fuel f mi av ma d cs B' 0 rd k) as Sk. unfold decoder_skip, rd in Sk. cbn [rd_skip rd_index rd_sync rd_next] in Sk. rewrite N.add_0_l, Ek in Sk.
    destruct (N.ltb_spec k 0) as [Z'|Z']; [lia|]. exact (Sk _ _ Hk I eq_refl).
  - intros M o Ho.
    assert (min_respected mi (listing (digest d) cs)) as MR.
    { intros pre id sz post E Ne. destruct (listing_cut _ _ _ _ _ E) as (a & c & b & EC & -> & Ex & ->). injection Ex as -> ->. eapply M; [exact EC|]. intros ->. apply Ne. reflexivity. }
    destruct At as (Att & At). pose proof (IndexProofs5.seek_ok f mi av ma (listing (digest d) cs) C B' x o Att MR) as (r1 & x' & X1 & X2 & X3).
    rewrite listing_size in X3. replace (o <? len (concat cs)) with true in X3 by lia. destruct X3 as (skip & -> & X3).
    exists (mkReader x' s None skip). assert (decoder_seek o rd = (mkReader x' s None skip, Ok FNothing)) as E by (unfold decoder_seek, rd; cbn [rd_index rd_sync]; rewrite X1; reflexivity).
    split; [exact E|]. pose proof (seek_ok' codecs digest vtd fuel f mi av ma d cs C B' 0 rd o _ _ M I E) as (_ & I').
    apply K; [exact I'| |reflexivity].
    destruct X3 as (pre & id & sz & post & E1 & E2 & E3 & E4 & _). destruct (listing_cut _ _ _ _ _ E1) as (a & c & b & EC & -> & Ex & ->). rewrite listing_len, listing_size in E4.
    apply (NE _ a); [split; [exact X2|]; split; [exact E4|exists (c :: b); exact EC]|]. left. intros Z. apply (f_equal (@length _)) in EC. rewrite app_length, Z in EC. cbn in EC. clear -EC. lia.
Qed.
Print Assumptions blob_read_complete.

(** ** Writing *)

(** A writer as ca_sync_start leaves it: a store to write to, an index with the configuration. *)
Definition started (d : dtype) (st : store) (c : cfg) (x : idx) : writer := mkWriter (Some st) None (Some x) d c split_init.

Lemma chunks_bounded c ps cs : cfg_ok c = true -> (is_fixed c = true \/ 48 <= c_max c) -> chunk_stream c ps = Ok cs ->
  forall x, In x cs -> 0 < len x <= c_max c.
Proof.
  intros K F H x Hx. destruct (Properties_Chunker.chunking_lossless c ps cs K H) as [_ Hn]. rewrite Forall_forall in Hn. specialize (Hn x Hx).
  apply in_split in Hx. destruct Hx as (pre & post & E). subst cs. destruct (Properties_Chunker.chunk_sizes_bounded_partial c ps pre x post K F H) as [L _].
  split; [|exact L]. destruct x; [congruence|rewrite len_cons; lia].
Qed.

Lemma started_inv codecs digest d root st c f0 f mode fin lim m all x w :
  cfg_ok c = true -> is_write_mode mode = true -> feature_flags_normalize f0 = Ok f -> st_root st = Some root ->
  start_index f0 c (index_new mode fin lim) = (Ok tt, x) -> store_is codecs w root m -> tidy w root ->
  params_ok f (c_min c) (c_avg c) (c_max c) /\ wrote_inv codecs digest d root st c f fin lim m all [] (started d st c x) w.
Proof.
  intros K Hm Hn Hr HS Hst T. assert (params_ok f (c_min c) (c_avg c) (c_max c)) as P.
  { split; [exact (normalize_normalized f0 f Hn)|]. unfold cfg_ok in K. lia. }
  split; [exact P|]. pose proof (start_index_ok mode fin lim f0 f c Hm Hn P) as S. cbv zeta in S. rewrite HS in S. cbn [fst snd] in S.
  destruct S as [(_ & e & S)|(_ & g & G1 & G2 & G3 & G4 & G5)]; [discriminate S|].
  split; cbn; try reflexivity; try exact T.
  - exists st. auto.
  - exists x, g. auto 6.
  - exists all. reflexivity.
  - exists m. split; [apply store_is_contains; exact Hst|apply added_nil].
Qed.

(** Whatever fails: if writing a stream is reported to have succeeded, the index that is in place lists the chunks the stream is cut into, and the store has got
    these chunks and nothing else has changed. *)
Theorem blob_written :
  forall codecs bound digest vtd fuel faults d root st c f0 f mode fin lim m ps cs x w w' wr',
  codecs_ok bound codecs -> (forall p, id_ok (digest d p) = true) ->
  cfg_ok c = true -> (is_fixed c = true \/ 48 <= c_max c) -> c_max c < CHUNK_LIMIT_MAX ->
  is_write_mode mode = true -> feature_flags_normalize f0 = Ok f -> start_index f0 c (index_new mode fin lim) = (Ok tt, x) ->
  st_root st = Some root -> store_is codecs w root m -> tidy w root ->
  chunk_stream c ps = Ok cs -> unclashed (digest d) cs m ->
  exec faults w (write_stream codecs digest vtd fuel (started d st c x) ps) w' (wr', Ok tt) ->
  (exists x', wr_index wr' = Some x' /\ x_final x' = Some (index_image f (c_min c) (c_avg c) (c_max c) (listing (digest d) cs))) /\
  (exists m', store_is codecs w' root m' /\ added (digest d) cs m m').
Proof.
  intros codecs bound digest vtd fuel faults d root st c f0 f mode fin lim m ps cs x w w' wr' HC Hid K F Hmax Hm Hn HS Hr Hst T Hcs U H.
  destruct (started_inv codecs digest d root st c f0 f mode fin lim m cs x w K Hm Hn Hr HS Hst T) as [P I].
  assert (forall y, In y cs -> len y < CHUNK_LIMIT_MAX) as Hl by (intros y Hy; pose proof (chunks_bounded c ps cs K F Hcs y Hy); lia).
  unfold chunk_stream in Hcs. destruct (write_pieces c split_init ps) as [[l s]|e| |] eqn:EW; cbn in Hcs; try discriminate. injection Hcs as Hcs.
  destruct (write_stream_ok codecs bound HC digest vtd fuel d root st c f fin lim m cs Hid U faults ps [] (started d st c x) w w' wr' l s I Hl EW) as (x' & X1 & X2 & m' & M1 & M2);
    [symmetry; exact Hcs|exact H|].
  split; [exists x'; auto|]. exists m'. split; [apply store_is_contains; exact M1|exact M2].
Qed.
Print Assumptions blob_written.

(** If nothing fails and the disk has room, it does succeed. *)
Theorem blob_write_succeeds :
  forall codecs bound digest vtd fuel d root st c f0 f mode fin lim m ps cs x w,
  codecs_ok bound codecs -> enough fuel -> (forall p, id_ok (digest d p) = true) ->
  cfg_ok c = true -> (is_fixed c = true \/ 48 <= c_max c) -> c_max c < CHUNK_LIMIT_MAX -> bound (c_max c) < CHUNK_LIMIT_MAX ->
  is_write_mode mode = true -> feature_flags_normalize f0 = Ok f -> start_index f0 c (index_new mode fin lim) = (Ok tt, x) ->
  st_root st = Some root -> store_is codecs w root m -> tidy w root ->
  (st_compression st = COMPRESSED -> exists ct cd, st_ctype st = Some ct /\ codecs ct = Some cd) ->
  chunk_stream c ps = Ok cs -> unclashed (digest d) cs m -> len (concat ps) < 2 ^ 64 -> 104 + 40 * len cs <= lim ->
  ends false w (write_stream codecs digest vtd fuel (started d st c x) ps) (fun w' y => snd y = Ok tt /\
    (exists x', wr_index (fst y) = Some x' /\ x_final x' = Some (index_image f (c_min c) (c_avg c) (c_max c) (listing (digest d) cs))) /\
    (exists m', store_is codecs w' root m' /\ added (digest d) cs m m')).
Proof.
  intros codecs bound digest vtd fuel d root st c f0 f mode fin lim m ps cs x w HC Hf Hid K F Hmax Hb Hm Hn HS Hr Hst T Hct Hcs U Hlen Hlim.
  destruct (started_inv codecs digest d root st c f0 f mode fin lim m cs x w K Hm Hn Hr HS Hst T) as [P I].
  assert (forall y, In y cs -> 0 < len y <= c_max c /\ len y < CHUNK_LIMIT_MAX /\ bound (len y) < CHUNK_LIMIT_MAX) as Hl.
  { intros y Hy. pose proof (chunks_bounded c ps cs K F Hcs y Hy) as L. split; [exact L|]. split; [lia|]. destruct HC as [HC _]. pose proof (HC (len y) (c_max c) (proj2 L)). lia. }
  destruct (Properties_Chunker.chunking_lossless c ps cs K Hcs) as [EC _].
  pose proof Hcs as Hcs'. unfold chunk_stream in Hcs'. destruct (write_pieces c split_init ps) as [[l s]|e| |] eqn:EW; cbn in Hcs'; try discriminate. injection Hcs' as Hcs'.
  eapply ends_mono; [|apply ends_and; [apply (write_stream_ends codecs bound HC digest vtd fuel d root st c f fin lim m cs Hid P U Hf Hl Hct) with (cs := []) (l := l) (s := s)|intros w' r Hx; exact Hx]].
  - cbv beta. intros w' [wr' r] [E X]. cbn [fst snd] in *. subst r. split; [reflexivity|].
    exact (blob_written codecs bound digest vtd fuel false d root st c f0 f mode fin lim m ps cs x w w' wr' HC Hid K F Hmax Hm Hn HS Hr Hst T Hcs U X).
  - rewrite EC. exact Hlen.
  - exact Hlim.
  - exact I.
  - exact EW.
  - symmetry. exact Hcs'.
Qed.
Print Assumptions blob_write_succeeds.

(** ** Both: what was written is read back, whole and from any offset. *)
Theorem blob_round_trip :
  forall codecs bound digest vtd fuel d root st c f0 f mode fin lim m ps cs x w s st2 more lim2 n,
  codecs_ok bound codecs -> enough fuel -> (forall p, id_ok (digest d p) = true) ->
  cfg_ok c = true -> (is_fixed c = true \/ 48 <= c_max c) -> c_max c < CHUNK_LIMIT_MAX -> bound (c_max c) < CHUNK_LIMIT_MAX ->
  is_write_mode mode = true -> feature_flags_normalize f0 = Ok f -> start_index f0 c (index_new mode fin lim) = (Ok tt, x) ->
  st_root st = Some root -> store_is codecs w root m -> tidy w root ->
  (st_compression st = COMPRESSED -> exists ct cd, st_ctype st = Some ct /\ codecs ct = Some cd) ->
  chunk_stream c ps = Ok cs -> unclashed (digest d) cs m -> len (concat ps) < UINT64_MAX -> 104 + 40 * len cs <= lim -> len cs < 2 ^ 34 ->
  usable codecs digest vtd fuel s -> local_sources s = FromStore st2 :: more -> st_root st2 = Some root -> (st_digest st2 = None \/ st_digest st2 = Some d) ->
  (length cs < n)%nat ->
  ends false w (write_stream codecs digest vtd fuel (started d st c x) ps) (fun w' y => snd y = Ok tt /\
    exists x' data xr, wr_index (fst y) = Some x' /\ x_final x' = Some data /\ index_open (index_new CA_INDEX_READ (Some data) lim2) = (Ok tt, xr) /\
      ends false w' (read_all codecs digest fuel n (mkReader xr s None 0) []) (fun _ r => r = Ok (concat ps)) /\
      forall o, o < len (concat ps) -> exists rd', decoder_seek o (mkReader xr s None 0) = (rd', Ok FNothing) /\
        ends false w' (read_all codecs digest fuel n rd' []) (fun _ r => r = Ok (dropN o (concat ps)))).
Proof.
  intros codecs bound digest vtd fuel d root st c f0 f mode fin lim m ps cs x w s st2 more lim2 n HC Hf Hid K F Hmax Hb Hm Hn HS Hr Hst T Hct Hcs U Hlen Hlim Hcn Us Hl Hr2 Hd2 Hnn.
  assert (len (concat ps) < 2 ^ 64) as Hlen' by (unfold UINT64_MAX, two64 in Hlen; lia).
  destruct (started_inv codecs digest d root st c f0 f mode fin lim m cs x w K Hm Hn Hr HS Hst T) as [P _].
  pose proof (chunks_bounded c ps cs K F Hcs) as Hsz. destruct (Properties_Chunker.chunking_lossless c ps cs K Hcs) as [EC _].
  eapply ends_mono; [|exact (blob_write_succeeds codecs bound digest vtd fuel d root st c f0 f mode fin lim m ps cs x w HC Hf Hid K F Hmax Hb Hm Hn HS Hr Hst T Hct Hcs U Hlen' Hlim)].
  cbv beta. intros w' y (E & (x' & X1 & X2) & m' & M1 & M2). split; [exact E|].
  assert (chunks_ok (c_max c) (listing (digest d) cs)) as C.
  { split; [|rewrite listing_size, EC; exact Hlen]. apply Forall_forall. intros [id sz] Hi. unfold listing in Hi. apply in_map_iff in Hi. destruct Hi as (y0 & E0 & Hy). injection E0 as <- <-.
    specialize (Hid y0). unfold id_ok in Hid. apply andb_prop in Hid. destruct Hid as [I1 I2]. apply N.eqb_eq in I1. split; [unfold len in I1; cbn; lia|]. split; [exact I2|apply Hsz; exact Hy]. }
  assert (len (listing (digest d) cs) < 2 ^ 34) as B' by (rewrite listing_len; exact Hcn).
  destruct (start_rinv codecs digest vtd fuel f (c_min c) (c_avg c) (c_max c) d cs P C B' s lim2 Us) as (xr & Xr & _).
  exists x'. eexists. exists xr. split; [exact X1|]. split; [exact X2|]. split; [exact Xr|].
  destruct (blob_read_complete codecs bound digest vtd fuel f (c_min c) (c_avg c) (c_max c) d cs s w' lim2 xr n HC Hf Us P C Hcn Xr) as (R1 & _ & R2); [|exact Hnn|].
  - intros y0 Hy. exists [], (FromStore st2), more. split; [exact Hl|]. split; [constructor|]. pose proof (Hsz y0 Hy). split; [unfold CHUNK_LIMIT_MIN; lia|]. split.
    + exists root. split; [exact Hr2|]. specialize (M1 (digest d y0) (Hid y0)). rewrite (proj1 M2 y0 Hy) in M1. exact M1.
    + split; [|discriminate]. exists d. auto.
  - rewrite EC in *. split; [exact R1|]. apply R2. intros pre y0 post E0 Hp. subst cs.
    destruct (Properties_Chunker.chunk_sizes_bounded_partial c ps pre y0 post K F Hcs) as [_ L]. apply L. exact Hp.
Qed.
Print Assumptions blob_round_trip.

(** ** A case: a blob of 700 bytes, some chunks of which occur twice, is written to an empty store and read back. *)
Definition case_digest (t : dtype) (p : list N) : list N := takeN 32 (map (fun b => b mod 256) (len p :: p) ++ repeat (match t with SHA256 => 1 | SHA512_256 => 2 end) 32).
Lemma case_digest_ok t p : id_ok (case_digest t p) = true.
Proof.
  unfold id_ok, case_digest. rewrite len_takeN, len_app. apply andb_true_intro. split.
  - apply N.eqb_eq. assert (len (repeat (match t with SHA256 => 1 | SHA512_256 => 2 end) 32) = 32) as -> by (destruct t; reflexivity). lia.
  - apply forallb_forall. intros b Hb. assert (In b (map (fun b => b mod 256) (len p :: p) ++ repeat (match t with SHA256 => 1 | SHA512_256 => 2 end) 32)) as Hi.
    { unfold takeN in Hb. rewrite <- (firstn_skipn (N.to_nat 32)). apply in_or_app. left. exact Hb. }
    apply in_app_iff in Hi. destruct Hi as [Hi|Hi].
    + apply in_map_iff in Hi. destruct Hi as (y & <- & _). unfold byte_ok. apply N.ltb_lt. apply N.mod_lt. discriminate.
    + apply repeat_spec in Hi. subst b. destruct t; reflexivity.
Qed.

Definition case_sync : sync := mkSync [] (Some Properties_Store.ex_st) None [] None [] (Some GZIP).
Definition case_ps : list (list N) := [firstn 300 Properties_Chunker.ex_stream; []; skipn 300 Properties_Chunker.ex_stream].
Definition case_cs : list (list N) := match chunk_stream Properties_Chunker.ex_cfg case_ps with Ok l => l | _ => [] end.
Definition case_x : idx := snd (start_index 0 Properties_Chunker.ex_cfg (index_new CA_INDEX_WRITE None 10000)).
Lemma case_handle : handle stored_codecs case_digest [] big Properties_Store.ex_st.
Proof. apply (hd_path _ _ _ _ (store_new (Some GZIP)) Properties_Store.ex_root); [constructor|reflexivity]. Qed.

Example case_round_trip :
  ends false Properties_Store.ex_w (write_stream stored_codecs case_digest [] big (started SHA256 Properties_Store.ex_st Properties_Chunker.ex_cfg case_x) case_ps) (fun w' y => snd y = Ok tt /\
    exists x' data xr, wr_index (fst y) = Some x' /\ x_final x' = Some data /\ index_open (index_new CA_INDEX_READ (Some data) 0) = (Ok tt, xr) /\
      ends false w' (read_all stored_codecs case_digest big 11 (mkReader xr case_sync None 0) []) (fun _ r => r = Ok (concat case_ps)) /\
      forall o, o < len (concat case_ps) -> exists rd', decoder_seek o (mkReader xr case_sync None 0) = (rd', Ok FNothing) /\
        ends false w' (read_all stored_codecs case_digest big 11 rd' []) (fun _ r => r = Ok (dropN o (concat case_ps)))).
Proof.
  apply (blob_round_trip stored_codecs stored_bound case_digest [] big SHA256 Properties_Store.ex_root Properties_Store.ex_st Properties_Chunker.ex_cfg 0 0 CA_INDEX_WRITE None 10000
    (fun _ => None) case_ps case_cs case_x Properties_Store.ex_w case_sync Properties_Store.ex_st [] 0 11).
  - apply stored_codecs_ok.
  - apply big_enough.
  - apply case_digest_ok.
  - reflexivity.
  - right. discriminate.
  - reflexivity.
  - reflexivity.
  - reflexivity.
  - vm_compute. reflexivity.
  - unfold case_x. vm_compute. reflexivity.
  - reflexivity.
  - intros id _. split; reflexivity.
  - intros id _. split; [left; reflexivity|intros v; reflexivity].
  - intros _. exists GZIP. eexists. split; reflexivity.
  - vm_compute. reflexivity.
  - split; [|discriminate].
    assert (forallb (fun a => forallb (fun b => negb (beq (case_digest SHA256 a) (case_digest SHA256 b)) || beq a b) case_cs) case_cs = true) as H by (vm_compute; reflexivity).
    intros a b Ha Hb E. rewrite forallb_forall in H. specialize (H a Ha). rewrite forallb_forall in H. specialize (H b Hb). rewrite E, beq_refl in H. cbn in H. apply beq_eq. exact H.
  - vm_compute. reflexivity.
  - vm_compute. discriminate.
  - vm_compute. reflexivity.
  - split; [|intros r H; cbn in H; destruct H as [H|[]]; discriminate]. intros st H. cbn in H. destruct H as [H|[]]. injection H as <-. apply case_handle.
  - reflexivity.
  - reflexivity.
  - left. reflexivity.
  - vm_compute. lia.
Qed.

Definition small_x : idx := Eval vm_compute in snd (start_index 0 (mkCfg 1 2 4 1) (index_new CA_INDEX_WRITE None 10000)).

(** ** What is refuted: "every stream can be written". A configuration that is accepted (see C03) cuts a stream into chunks that the index refuses. *)
Theorem blob_write_refuted :
  exists (geo : N -> N -> N) (c : cfg) (x : idx),
  ca_chunker_set_size geo chunker_init 1 2 4 = Ok c /\ cfg_ok c = true /\
  start_index 0 c (index_new CA_INDEX_WRITE None 10000) = (Ok tt, x) /\
  forall codecs digest vtd fuel faults d st w w' wr' r, (forall p, id_ok (digest d p) = true) ->
    exec faults w (write_stream codecs digest vtd fuel (started d st c x) [repeat 0 100]) w' (wr', r) -> r <> Ok tt.
Proof.
  exists (fun _ _ => 0), (mkCfg 1 2 4 1), small_x. split; [reflexivity|]. split; [reflexivity|]. split; [vm_compute; reflexivity|].
  intros codecs digest vtd fuel faults d st w w' wr' r Hid H ->. cbn [write_stream] in H. apply exec_bind in H. destruct H as (w1 & [wr1 r1] & H1 & H).
  assert (r1 <> Ok tt) as N1.
  { clear H. intros ->. unfold sync_write_chunks, started in H1. cbn [has_target wr_wstore] in H1. set (n := length (repeat 0 100)) in H1. clearbody n. set (z := repeat 0 100) in H1. cbn [write_loop] in H1.
    replace (len z =? 0) with false in H1 by reflexivity. cbn [wr_split sp_buf sp_ck wr_cfg split_init] in H1.
    match type of H1 with context [ca_chunker_scan ?c ?k ?p] => assert (exists ck, ca_chunker_scan c k p = Ok (Some 48, ck)) as (ck & E) by (eexists; vm_compute; reflexivity); rewrite E in H1; clear E end.
    apply exec_bind in H1. destruct H1 as (w2 & [wr2 r2] & G2 & H1). destruct r2 as [[]|e| |]; try (apply exec_ret_inv in H1; destruct H1; discriminate). clear H1.
    unfold write_one_chunk in G2. cbn [wr_digest with_split] in G2. set (k := if len [] =? 0 then takeN 48 z else [] ++ takeN 48 z) in *.
    assert (len k = 48) as Lk by reflexivity. unfold chunk_id_make in G2. rewrite Lk in G2. cbn [N.ltb N.compare] in G2.
    apply exec_bind in G2. destruct G2 as (w3 & [o3 r3] & _ & G2). destruct r3 as [[]|e| |]; try (apply exec_ret_inv in G2; destruct G2; discriminate). }
  destruct r1 as [[]|e| |]; [congruence| | |]; apply exec_ret_inv in H; destruct H; discriminate.
Qed.
Print Assumptions blob_write_refuted.

(** Writing a stream: what is in the store and in the index afterwards. *)
From Verif Require Import Base Chunker ChunkerSpec ChunkerProofs ChunkId FeatureFlags Posix PosixProofs ChunkFile Store StoreSpec StoreProofs1 StoreProofs2 StoreProofs4 StoreProofs5 StoreProofs6 StoreProofs9 Index IndexSpec IndexRun IndexProofs IndexProofs2 IndexProofs3 IndexProofs4 SyncGet SyncGetSpec SyncWrite SyncWriteSpec SyncWriteProofs1 SyncWriteProofs3.
Local Open Scope N_scope.
Local Opaque BUFFER_SIZE CHUNK_LIMIT_MAX CHUNK_LIMIT_MIN.

Lemma added_nil dg m : added dg [] m m. Proof. split; [intros c []|reflexivity]. Qed.
Lemma contains_ext codecs w root m m' : (forall id, m id = m' id) -> contains codecs w root m -> contains codecs w root m'.
Proof. intros E H id I. rewrite <- E. apply H. exact I. Qed.

(** ** The index, as it is after ca_sync_start. *)
Lemma start_index_ok m fin lim f0 f c : is_write_mode m = true -> feature_flags_normalize f0 = Ok f -> params_ok f (c_min c) (c_avg c) (c_max c) ->
  let r := start_index f0 c (index_new m fin lim) in
  (lim < 64 /\ exists e, fst r = Err e) \/
  (fst r = Ok tt /\ exists g, winv fin g (snd r) /\ writable f (c_min c) (c_avg c) (c_max c) g (snd r) /\ x_limit (snd r) = lim /\ g_chunks g = [] /\ g_inst g = false).
Proof.
  intros M Hf P r. set (mi := c_min c) in *. set (av := c_avg c) in *. set (ma := c_max c) in *. set (s4 := upd_sizes mi av ma (upd_flags f (index_new m fin lim))).
  assert (E : start_index f0 c (index_new m fin lim) = index_open s4).
  { destruct P as (P1 & P2 & P3 & P4 & P5). unfold start_index. fold mi av ma.
    unfold index_set_feature_flags, index_set_chunk_size_min, index_set_chunk_size_avg, index_set_chunk_size_max, index_set_chunk_size, LIMIT_MIN, LIMIT_MAX.
    rewrite Hf. unfold bindM, getS, ret, modS, fail, index_new. cbn [x_mode x_start upd_flags upd_sizes x_min x_avg x_max]. rewrite M.
    change (0 <? 0) with false. cbn [negb]. cbn [x_mode x_start upd_flags upd_sizes x_min x_avg x_max]. rewrite M.
    replace (mi <? 1) with false by lia. replace (134217728 <? mi) with false by lia. cbn [negb x_mode x_start upd_flags upd_sizes x_min x_avg x_max]. rewrite M.
    replace (av <? 1) with false by lia. replace (134217728 <? av) with false by lia. cbn [negb x_mode x_start upd_flags upd_sizes x_min x_avg x_max]. rewrite M.
    replace (ma <? 1) with false by lia. replace (134217728 <? ma) with false by lia. cbn [negb x_mode x_start upd_flags upd_sizes x_min x_avg x_max]. reflexivity. }
  unfold r. clear r. rewrite E.
  assert (W : winv fin (Ghost None [] false false []) s4).
  { destruct P as (P1 & P2 & P3 & P4 & P5). unfold s4. apply winv_set_sizes; [apply winv_set_flags; [apply winv_new, M|exact P1]|right; lia..]. }
  assert (Wr : writable f mi av ma (Ghost None [] false false []) s4) by (unfold writable, s4, index_new; cbn; auto).
  pose proof (sizes_set_ok f mi av ma _ s4 P Wr eq_refl) as SS.
  destruct (open_winv fin _ s4 W) as [(O1 & O2)|[(O1 & _)|(O1 & O2 & O3 & O4 & g' & O5 & O6 & O7 & O8)]].
  - left. split; [exact O2|eexists; exact O1].
  - congruence.
  - right. split; [exact O1|]. exists g'. split; [exact O5|]. destruct (O8 eq_refl) as [O9 _]. destruct O6 as (G1 & G2 & G3 & G4 & _).
    split; [|split; [exact O2|split; [exact G1|exact G3]]]. split; [rewrite O3; reflexivity|]. split; [exact G2|]. rewrite O9. reflexivity.
Qed.

Section Write.
Context (codecs : ctype -> option codec) (bound : N -> N) (HC : codecs_ok bound codecs) (digest : dtype -> list N -> list N) (vtd : list N) (fuel : nat).
Context (d : dtype) (root : list N) (st0 : store) (c : cfg) (f : N) (fin : option (list N)) (lim : N) (m : list N -> option (list N)) (all : list (list N)).
Context (Hid : forall p, id_ok (digest d p) = true) (P : params_ok f (c_min c) (c_avg c) (c_max c)) (U : unclashed (digest d) all m).

(** After the chunks [cs] were written. *)
Record wrote_inv (cs : list (list N)) (wr : writer) (w : Posix.world) : Prop := {
  wi_store : exists st, wr_wstore wr = Some st /\ st_root st = Some root /\ st_compression st = st_compression st0 /\ st_ctype st = st_ctype st0;
  wi_cache : wr_cache_store wr = None;
  wi_digest : wr_digest wr = d;
  wi_cfg : wr_cfg wr = c;
  wi_index : exists x g, wr_index wr = Some x /\ winv fin g x /\ writable f (c_min c) (c_avg c) (c_max c) g x /\ x_limit x = lim /\ g_chunks g = listing (digest d) cs /\ g_inst g = false;
  wi_all : exists later, all = cs ++ later;
  wi_map : exists m', contains codecs w root m' /\ added (digest d) cs m m';
  wi_clear : tidy w root
}.

Lemma wi_split cs wr w s : wrote_inv cs wr w -> wrote_inv cs (with_split wr s) w.
Proof. intros [A1 A2 A3 A4 A5 A6 A7 A8]. split; assumption. Qed.
Lemma wi_target cs wr w : wrote_inv cs wr w -> has_target wr = true.
Proof. intros [(st & A1 & _) _ _ _ _ _ _ _]. unfold has_target. rewrite A1. reflexivity. Qed.

Lemma id_parts p : length (digest d p) = 32%nat /\ bytes_ok (digest d p) = true.
Proof. specialize (Hid p). unfold id_ok in Hid. apply andb_prop in Hid. destruct Hid as [H1 H2]. split; [|exact H2]. apply N.eqb_eq in H1. unfold len in H1. lia. Qed.

Lemma added_put cs p m' : added (digest d) cs m m' -> m' (digest d p) = None -> added (digest d) (cs ++ [p]) m (update m' (digest d p) (Some p)).
Proof.
  intros [A1 A2] N. unfold update. split.
  - intros x Hx. apply in_app_iff in Hx. destruct Hx as [Hx|[<-|[]]].
    + destruct (beq (digest d p) (digest d x)) eqn:E; [|apply A1; exact Hx]. apply beq_eq in E. rewrite E, (A1 _ Hx) in N. discriminate N.
    + rewrite beq_refl. reflexivity.
  - intros id Hx. destruct (beq (digest d p) id) eqn:E; [apply beq_eq in E; exfalso; apply (Hx p); [apply in_or_app; right; left; reflexivity|exact E]|].
    apply A2. intros x Ix. apply Hx. apply in_or_app. left. exact Ix.
Qed.

Lemma added_there cs p later m' : all = cs ++ p :: later -> added (digest d) cs m m' -> m' (digest d p) <> None -> added (digest d) (cs ++ [p]) m m'.
Proof.
  intros EA [A1 A2] N. destruct U as [U1 U2]. assert (In p all) as Ip by (rewrite EA; apply in_or_app; right; left; reflexivity).
  assert ((exists x, In x cs /\ digest d x = digest d p) \/ (forall x, In x cs -> digest d x <> digest d p)) as D.
  { clear -cs. induction cs as [|y l IH]; [right; intros x []|]. destruct (beq (digest d y) (digest d p)) eqn:E; [apply beq_eq in E; left; exists y; split; [left; reflexivity|exact E]|].
    destruct IH as [(x & I & X)|IH]; [left; exists x; split; [right; exact I|exact X]|right]. intros x [<-|I]; [intros X; rewrite X, beq_refl in E; discriminate E|apply IH; exact I]. }
  split.
  - intros x Hx. apply in_app_iff in Hx. destruct Hx as [Hx|[<-|[]]]; [apply A1; exact Hx|].
    destruct D as [(x & Ix & E)|D].
    + assert (x = p) as ->; [|apply A1; exact Ix]. apply U1; [rewrite EA; apply in_or_app; left; exact Ix|exact Ip|exact E].
    + rewrite (A2 _ D) in *. destruct (m (digest d p)) as [q|] eqn:E; [|congruence]. rewrite (U2 p q Ip E). reflexivity.
  - intros id Hx. apply A2. intros x Ix. apply Hx. apply in_or_app. left. exact Ix.
Qed.

(** One chunk. *)
Lemma one_chunk_ok fl cs p later wr w w' wr' : all = cs ++ p :: later -> len p < CHUNK_LIMIT_MAX -> wrote_inv cs wr w ->
  exec fl w (write_one_chunk codecs digest vtd fuel wr p) w' (wr', Ok tt) -> wrote_inv (cs ++ [p]) wr' w' /\ wr_split wr' = wr_split wr.
Proof.
  intros EA Hl [(st & B1 & B2 & B3 & B4) B5 B6 B7 (x & g & C1 & C2 & C3 & C4 & C5 & C6) _ (m' & M1 & M2) T] H.
  unfold write_one_chunk in H. unfold chunk_id_make in H. destruct (len p <? 1); [apply exec_ret_inv in H; destruct H; discriminate|].
  destruct (134217728 <? len p); [apply exec_ret_inv in H; destruct H; discriminate|]. rewrite B6 in H.
  apply exec_bind in H. destruct H as (w1 & [o r] & H1 & H). unfold put_in in H1. rewrite B1 in H1.
  apply exec_bind in H1. destruct H1 as (w2 & [st' r'] & G2 & H1). apply exec_ret_inv in H1. destruct H1 as [-> E]. injection E as -> ->.
  destruct (put_clear codecs bound HC fl vtd fuel w st root (digest d p) p m' w2 st' r' B2 (Hid p) Hl T M1 G2) as (S1 & S2).
  assert (st_root st' = Some root /\ st_compression st' = st_compression st0 /\ st_ctype st' = st_ctype st0) as (R1 & R2 & R3) by (destruct S1 as [-> | ->]; auto).
  assert ((r' = Ok tt \/ r' = Err EEXIST) -> (exists m2, contains codecs w2 root m2 /\ added (digest d) (cs ++ [p]) m m2) /\ tidy w2 root) as K.
  { intros [-> | ->].
    - destruct S2 as (S2 & S3 & S4). split; [|exact S4]. exists (update m' (digest d p) (Some p)). split; [exact S3|]. apply added_put; assumption.
    - destruct S2 as (S2 & S3 & S4). split; [|exact S4]. exists m'. split; [exact S3|]. eapply added_there; eassumption. }
  assert (forall w1, exec fl w1 (do x0 <- put_in codecs vtd fuel (wr_cache_store (with_wstore wr (Some st'))) (digest d p) p ;;
        (let '(o, r) := x0 in match r with Ok _ => Ret (on_index (with_cache_store (with_wstore wr (Some st')) o) (Index.index_write_chunk (digest d p) (len p))) | _ => Ret (with_cache_store (with_wstore wr (Some st')) o, r) end)) w' (wr', Ok tt) ->
     (exists m2, contains codecs w1 root m2 /\ added (digest d) (cs ++ [p]) m m2) -> tidy w1 root -> wrote_inv (cs ++ [p]) wr' w' /\ wr_split wr' = wr_split wr) as K2.
  { intros w1 X Km Kt. cbn [wr_cache_store with_wstore] in X. rewrite B5 in X. cbn [pbind put_in] in X. apply exec_ret_inv in X. destruct X as [-> X]. unfold on_index in X. cbn [wr_index with_cache_store with_wstore] in X. rewrite C1 in X.
    destruct (id_parts p) as [I1 I2]. pose proof (write_chunk_winv fin g x (digest d p) (len p) C2 I1 I2) as Wc. cbv zeta in Wc.
    destruct (Index.index_write_chunk (digest d p) (len p) x) as [r x'] eqn:EW. cbn [fst snd] in Wc.
    destruct Wc as [(Wc & _)|(g' & W1 & [(e & Wc & _)|(Wc & W2 & W3 & W4 & W5 & W6 & g1 & W7 & W8 & W9 & ->)])]; try (subst r; discriminate X).
    subst r. injection X as ->. split; [|reflexivity]. split; cbn; try assumption.
    - exists st'. auto.
    - reflexivity.
    - exists x'. eexists. split; [reflexivity|]. split; [exact W1|].
      assert (g_hdr g1 = Some (f, c_min c, c_avg c, c_max c)) as GH.
      { destruct W7 as (_ & _ & _ & _ & W7). destruct C3 as (C3 & _ & C7). destruct (g_hdr g) as [h|] eqn:EG; [rewrite (W7 ltac:(discriminate)), EG, C7; reflexivity|].
        destruct C7 as (C7 & C8 & C9). rewrite (W9 eq_refl). rewrite C7, C8, C9, C3. reflexivity. }
      split; [|split; [|split]].
      + unfold writable. cbn [g_hdr g_eof]. split; [rewrite W5; apply C3|]. split; [exact W2|]. rewrite GH. reflexivity.
      + rewrite W6. exact C4.
      + cbn [g_chunks]. rewrite C5, listing_app. reflexivity.
      + cbn [g_inst]. exact C6.
    - exists later. rewrite <- app_assoc. exact EA. }
  destruct r' as [[]|e| |].
  - destruct (K (or_introl eq_refl)) as [Km Kt]. eapply K2; [exact H|exact Km|exact Kt].
  - destruct e; try (apply exec_ret_inv in H; destruct H; discriminate). destruct (K (or_intror eq_refl)) as [Km Kt]. eapply K2; [exact H|exact Km|exact Kt].
  - apply exec_ret_inv in H; destruct H; discriminate.
  - apply exec_ret_inv in H; destruct H; discriminate.
Qed.

(** A piece of the stream. *)
Lemma write_loop_ok fl n : forall cs p later wr w w' wr' cks s', wrote_inv cs wr w -> (forall x, In x all -> len x < CHUNK_LIMIT_MAX) ->
  write_chunks n c (wr_split wr) p = Ok (cks, s') -> all = cs ++ cks ++ later ->
  exec fl w (write_loop codecs digest vtd fuel n wr p) w' (wr', Ok tt) -> wrote_inv (cs ++ cks) wr' w' /\ wr_split wr' = s'.
Proof.
  induction n as [|n IH]; intros cs p later wr w w' wr' cks s' I Hl HW EA H; cbn [write_loop write_chunks] in *.
  - destruct (len p =? 0); [|discriminate]. injection HW as <- <-. apply exec_ret_inv in H. destruct H as [-> H]. injection H as ->. rewrite app_nil_r. auto.
  - destruct (len p =? 0). { injection HW as <- <-. apply exec_ret_inv in H. destruct H as [-> H]. injection H as ->. rewrite app_nil_r. auto. }
    rewrite (wi_cfg _ _ _ I) in H. destruct (ca_chunker_scan c (sp_ck (wr_split wr)) p) as [[[k|] ck]|e| |]; cbn [bind] in HW; try discriminate.
    + destruct (write_chunks n c (mkSplit ck []) (dropN k p)) as [[cks2 s2]|e| |] eqn:EW; cbn [bind] in HW; try discriminate. injection HW as <- <-.
      assert ((if len (sp_buf (wr_split wr)) =? 0 then takeN k p else sp_buf (wr_split wr) ++ takeN k p) = sp_buf (wr_split wr) ++ takeN k p) as EB.
      { destruct (N.eqb_spec (len (sp_buf (wr_split wr))) 0) as [Z|Z]; [|reflexivity]. destruct (sp_buf (wr_split wr)); [reflexivity|unfold len in Z; cbn in Z; lia]. }
      rewrite EB in H. set (ch := sp_buf (wr_split wr) ++ takeN k p) in *.
      apply exec_bind in H. destruct H as (w1 & [wr1 r1] & H1 & H). destruct r1 as [[]|e| |]; try (apply exec_ret_inv in H; destruct H; discriminate).
      assert (all = cs ++ ch :: (cks2 ++ later)) as EA1 by (rewrite EA; reflexivity).
      destruct (one_chunk_ok fl cs ch (cks2 ++ later) _ w w1 wr1 EA1 (Hl ch ltac:(rewrite EA1; apply in_or_app; right; left; reflexivity)) (wi_split _ _ _ _ I) H1) as [I1 _].
      destruct (IH (cs ++ [ch]) (dropN k p) later (with_split wr1 (mkSplit ck [])) w1 w' wr' cks2 s2 (wi_split _ _ _ _ I1) Hl EW) as [I2 E2]; [rewrite EA1, <- !app_assoc; reflexivity|exact H|].
      split; [rewrite <- app_assoc in I2; exact I2|exact E2].
    + injection HW as <- <-. apply exec_ret_inv in H. destruct H as [-> H]. injection H as ->. rewrite app_nil_r. split; [apply wi_split; exact I|reflexivity].
Qed.

(** What the theorems say about the end. *)
Definition finished (wr : writer) (w : Posix.world) : Prop :=
  exists x, wr_index wr = Some x /\ x_final x = Some (index_image f (c_min c) (c_avg c) (c_max c) (listing (digest d) all)) /\
  exists m', contains codecs w root m' /\ added (digest d) all m m'.

Lemma write_final_ok fl cs wr w w' wr' : wrote_inv cs wr w -> (forall x, In x all -> len x < CHUNK_LIMIT_MAX) ->
  all = cs ++ write_final_chunk (wr_split wr) -> exec fl w (sync_write_final codecs digest vtd fuel wr) w' (wr', Ok tt) -> finished wr' w'.
Proof.
  intros I Hl EA H. unfold sync_write_final in H. rewrite (wi_target _ _ _ I) in H. apply exec_bind in H. destruct H as (w1 & [wr1 r1] & H1 & H).
  destruct r1 as [[]|e| |]; try (apply exec_ret_inv in H; destruct H; discriminate).
  assert (wrote_inv all wr1 w1) as I1.
  { unfold write_final_chunk in EA. destruct (len (sp_buf (wr_split wr)) =? 0).
    - apply exec_ret_inv in H1. destruct H1 as [-> H1]. injection H1 as ->. rewrite app_nil_r in EA. rewrite EA. exact I.
    - rewrite EA at 1. refine (proj1 (one_chunk_ok fl cs _ [] wr w w1 wr1 EA _ I H1)). apply Hl. rewrite EA. apply in_or_app. right. left. reflexivity. }
  destruct I1 as [_ _ _ _ (x & g & C1 & C2 & C3 & C4 & C5 & C6) _ M _]. unfold on_index at 1 in H. rewrite C1 in H.
  pose proof (write_eof_winv fin g x C2) as We. cbv zeta in We. destruct (Index.index_write_eof x) as [r x1] eqn:EE. cbn [fst snd] in We.
  destruct We as [(We & _)|(g' & W1 & [(e & We & _)|(We & W2 & g1 & W7 & W8 & W9 & ->)])]; try (subst r; apply exec_ret_inv in H; destruct H; discriminate).
  subst r. apply exec_ret_inv in H. destruct H as [-> H]. unfold on_index in H. cbn [wr_index with_index] in H.
  destruct (install_succeeds fin _ x1 W1 eq_refl) as (x2 & E2 & F2). cbn [wstep] in E2. unfold discard, bindM in E2.
  destruct (Index.index_install x1) as [r x3] eqn:EI. destruct r as [b|e| |]; try discriminate E2. injection E2 as ->. injection H as ->.
  exists x2. split; [reflexivity|]. split; [|exact M]. rewrite F2. f_equal. unfold img. cbn [g_hdr g_chunks g_eof].
  assert (g_hdr g1 = Some (f, c_min c, c_avg c, c_max c)) as GH.
  { destruct W7 as (_ & _ & _ & _ & W7). destruct C3 as (C3 & _ & C7). destruct (g_hdr g) as [h|] eqn:EG; [rewrite (W7 ltac:(discriminate)), EG, C7; reflexivity|].
    destruct C7 as (C7 & C8 & C9). rewrite (W9 eq_refl). rewrite C7, C8, C9, C3. reflexivity. }
  rewrite GH, C5, image_split. reflexivity.
Qed.

Lemma write_stream_ok fl : forall ps cs wr w w' wr' l s, wrote_inv cs wr w -> (forall x, In x all -> len x < CHUNK_LIMIT_MAX) ->
  write_pieces c (wr_split wr) ps = Ok (l, s) -> all = cs ++ l ++ write_final_chunk s ->
  exec fl w (write_stream codecs digest vtd fuel wr ps) w' (wr', Ok tt) -> finished wr' w'.
Proof.
  induction ps as [|p ps IH]; intros cs wr w w' wr' l s I Hl HW EA H; cbn [write_stream write_pieces] in *.
  - injection HW as <- <-. eapply write_final_ok; [exact I|exact Hl|exact EA|exact H].
  - apply exec_bind in H. destruct H as (w1 & [wr1 r1] & H1 & H). destruct r1 as [[]|e| |]; try (apply exec_ret_inv in H; destruct H; discriminate).
    destruct (write_chunks (S (length p)) c (wr_split wr) p) as [[l1 s1]|e| |] eqn:E1; cbn [bind] in HW; try discriminate.
    destruct (write_pieces c s1 ps) as [[l2 s2]|e| |] eqn:E2; cbn [bind] in HW; try discriminate. injection HW as <- <-.
    unfold sync_write_chunks in H1. rewrite (wi_target _ _ _ I) in H1.
    destruct (write_loop_ok fl _ cs p (l2 ++ write_final_chunk s2) wr w w1 wr1 l1 s1 I Hl E1) as [I1 S1]; [rewrite EA, <- app_assoc; reflexivity|exact H1|].
    eapply (IH (cs ++ l1)); [exact I1|exact Hl|rewrite S1; exact E2| |exact H]. rewrite EA, <- !app_assoc. reflexivity.
Qed.

(** ** Without faults: it does succeed. *)
Context (Hf : enough fuel) (Hsz : forall x, In x all -> 0 < len x <= c_max c /\ len x < CHUNK_LIMIT_MAX /\ bound (len x) < CHUNK_LIMIT_MAX)
  (Hct : st_compression st0 = COMPRESSED -> exists ct cd, st_ctype st0 = Some ct /\ codecs ct = Some cd)
  (Hlen : len (concat all) < two64) (Hlim : 104 + 40 * len all <= lim).

Lemma test_there w id : present w root id = true -> ends false w (chunk_file_test root id) (fun w' r => w' = w /\ r = Ok true).
Proof.
  intros Hp. unfold present in Hp. unfold chunk_file_test. apply ends_bind. unfold chunk_file_access. cbn [ends].
  unfold chunk_name in Hp. destruct (name_at w (chunk_id_format_path root id cacnk)) as [nd|] eqn:E1.
  - split; [eexists; eexists; eapply s_access; exact E1|]. intros w' r Hs. destruct (sys_access _ _ _ _ _ Hs) as [(Hx & _)|Hr]; [discriminate|]. rewrite E1 in Hr. destruct Hr as [-> ->]. cbn. auto.
  - split; [eexists; eexists; apply s_access_noent; exact E1|]. intros w' r Hs. destruct (sys_access _ _ _ _ _ Hs) as [(Hx & _)|Hr]; [discriminate|]. rewrite E1 in Hr. destruct Hr as [-> ->].
    destruct (name_at w (chunk_id_format_path root id [])) as [nd|] eqn:E2; [|discriminate]. cbn [ends].
    split; [eexists; eexists; eapply s_access; exact E2|]. intros w' r Hs2. destruct (sys_access _ _ _ _ _ Hs2) as [(Hx & _)|Hr]; [discriminate|]. rewrite E2 in Hr. destruct Hr as [-> ->]. cbn. auto.
Qed.

Lemma put_there w st id p : p <> [] -> st_root st = Some root -> id_ok id = true -> present w root id = true ->
  ends false w (store_put codecs vtd fuel st id UNCOMPRESSED p) (fun _ x => snd x = Err EEXIST).
Proof.
  intros Np Hr Hi Hp. unfold store_put. rewrite Hr. cbn [pbind]. rewrite Hr. apply ends_bind.
  assert (forall st1 w1, (forall q, q <> root -> name_at w1 q = name_at w q) ->
    ends false w1 (do r <- chunk_file_save codecs fuel root id UNCOMPRESSED (st_compression st1) (st_ctype st1) p ;; Ret (st1, r)) (fun _ x => snd x = Err EEXIST)) as K.
  { intros st1 w1 Hn. apply ends_bind. unfold chunk_file_save. cbn [compression_eqb]. destruct p as [|x p]; [congruence|].
    apply ends_ptry. eapply ends_mono; [|apply test_there].
    - cbv beta. intros w2 r [-> ->]. exists true. split; [reflexivity|]. reflexivity.
    - unfold present in *. rewrite !Hn; [exact Hp| |]; intros X; symmetry in X; revert X; unfold chunk_name; apply root_not_path; exact Hi. }
  destruct (st_mkdir_done st).
  - cbn [ends]. apply K; reflexivity.
  - cbn [ends]. destruct (name_at w root) as [nd|] eqn:En.
    + split; [eexists; eexists; eapply s_mkdir_exist; exact En|]. intros w' r Hs. destruct (sys_mkdir _ _ _ _ _ Hs) as [(Hx & _)|Q]; [discriminate|].
      rewrite En in Q. destruct Q as [-> ->]. cbn [ends]. apply K; reflexivity.
    + split; [eexists; eexists; apply s_mkdir; exact En|]. intros w' r Hs. destruct (sys_mkdir _ _ _ _ _ Hs) as [(Hx & _)|Q]; [discriminate|].
      rewrite En in Q. destruct Q as [-> ->]. cbn [ends]. apply K. intros q Hq. apply name_put_other. congruence.
Qed.

Lemma listing_blob cs : blob_size_of (listing (digest d) cs) = len (concat cs). Proof. apply listing_size. Qed.

Lemma one_chunk_ends cs p later wr w : all = cs ++ p :: later -> wrote_inv cs wr w ->
  ends false w (write_one_chunk codecs digest vtd fuel wr p) (fun w' x => snd x = Ok tt).
Proof.
  intros EA I. assert (In p all) as Ip by (rewrite EA; apply in_or_app; right; left; reflexivity). destruct (Hsz p Ip) as (Z1 & Z2 & Z3).
  destruct I as [(st & B1 & B2 & B3 & B4) B5 B6 B7 (x & g & C1 & C2 & C3 & C4 & C5 & C6) _ (m' & M1 & M2) T].
  assert (CHUNK_LIMIT_MAX = 134217728) as LM by reflexivity. assert (CHUNK_LIMIT_MIN = 1) as LI by reflexivity.
  unfold write_one_chunk, chunk_id_make. replace (len p <? 1) with false by (symmetry; apply N.ltb_ge; lia). replace (134217728 <? len p) with false by (symmetry; apply N.ltb_ge; lia).
  rewrite B6. apply ends_bind. unfold put_in at 1. rewrite B1.
  assert (ends false w (store_put codecs vtd fuel st (digest d p) UNCOMPRESSED p) (fun _ x => snd x = Ok tt \/ snd x = Err EEXIST)) as K.
  { assert (TT := T). fold clear in TT. rewrite clear_unfold in TT. destruct (TT _ (Hid p)) as [T1 T2]. destruct (present w root (digest d p)) eqn:EP.
    - eapply ends_mono; [|apply put_there; [intros ->; change (len (@nil N)) with 0 in Z1; lia|exact B2|apply Hid|exact EP]]. cbv beta. auto.
    - eapply ends_mono; [|apply (store_put_ends codecs bound HC vtd fuel w st root (digest d p) UNCOMPRESSED p p); try assumption].
      + cbv beta. auto.
      + apply Hid.
      + reflexivity.
      + rewrite LI, LM. lia.
      + rewrite LI, LM. lia.
      + intros _ Q. assert (st_compression st0 = COMPRESSED) as Q2 by (rewrite <- B3; unfold form in Q; destruct (st_compression st); cbn in Q; congruence).
        destruct (Hct Q2) as (ct & cd & X1 & X2). exists ct, cd. rewrite B4. auto. }
  apply ends_bind. eapply ends_mono; [|exact K]. cbv beta. intros w1 [st' r] R. cbn [snd] in R. cbn [ends].
  assert (match r with Err EEXIST => Ok tt | _ => r end = Ok tt) as -> by (destruct R as [-> | ->]; reflexivity).
  cbn [wr_cache_store with_wstore]. rewrite B5. cbn [put_in pbind ends]. unfold on_index. cbn [wr_index with_cache_store with_wstore]. rewrite C1.
  destruct (id_parts p) as [I1 I2].
  assert (len (concat all) = len (concat cs) + (len p + len (concat later))) as EL by (rewrite EA, concat_app, len_app; cbn [concat]; rewrite len_app; reflexivity).
  assert (len all = len cs + (1 + len later)) as EN by (rewrite EA, len_app, len_cons; lia).
  destruct (write_chunk_succeeds fin f (c_min c) (c_avg c) (c_max c) g x (digest d p) (len p) C2 P C3) as (x' & X1 & _).
  - split; [exact I1|]. split; [exact I2|exact Z1].
  - rewrite C5, listing_size. lia.
  - rewrite C5, listing_len, C4. lia.
  - cbn [wstep] in X1. unfold discard, bindM in X1. destruct (Index.index_write_chunk (digest d p) (len p) x) as [r1 x1].
    destruct r1 as [[]|e| |]; try discriminate X1. reflexivity.
Qed.

Lemma write_loop_ends n : forall cs p later wr w cks s', wrote_inv cs wr w -> write_chunks n c (wr_split wr) p = Ok (cks, s') -> all = cs ++ cks ++ later ->
  ends false w (write_loop codecs digest vtd fuel n wr p) (fun w' x => snd x = Ok tt).
Proof.
  induction n as [|n IH]; intros cs p later wr w cks s' I HW EA; cbn [write_loop write_chunks] in *.
  - destruct (len p =? 0); [|discriminate]. reflexivity.
  - destruct (len p =? 0); [reflexivity|].
    rewrite (wi_cfg _ _ _ I). destruct (ca_chunker_scan c (sp_ck (wr_split wr)) p) as [[[k|] ck]|e| |]; cbn [bind] in HW; try discriminate.
    + destruct (write_chunks n c (mkSplit ck []) (dropN k p)) as [[cks2 s2]|e| |] eqn:EW; cbn [bind] in HW; try discriminate. injection HW as <- <-.
      assert ((if len (sp_buf (wr_split wr)) =? 0 then takeN k p else sp_buf (wr_split wr) ++ takeN k p) = sp_buf (wr_split wr) ++ takeN k p) as EB.
      { destruct (N.eqb_spec (len (sp_buf (wr_split wr))) 0) as [Z|Z]; [|reflexivity]. destruct (sp_buf (wr_split wr)); [reflexivity|unfold len in Z; cbn in Z; lia]. }
      rewrite EB. set (ch := sp_buf (wr_split wr) ++ takeN k p) in *.
      assert (all = cs ++ ch :: (cks2 ++ later)) as EA1 by (rewrite EA; reflexivity).
      apply ends_bind. match goal with |- ends _ _ (write_one_chunk _ _ _ _ ?y _) _ => set (wr0 := y) end.
      assert (wrote_inv cs wr0 w) as I0 by (apply wi_split; exact I).
      eapply ends_mono; [|apply ends_and; [exact (one_chunk_ends cs ch (cks2 ++ later) wr0 w EA1 I0)|intros w1 x Hx; exact Hx]].
      cbv beta. intros w1 [wr1 r1] [E1 X1]. cbn [snd] in E1. subst r1.
      assert (In ch all) as Ic by (rewrite EA1; apply in_or_app; right; left; reflexivity).
      destruct (one_chunk_ok false cs ch (cks2 ++ later) wr0 w w1 wr1 EA1 (proj1 (proj2 (Hsz ch Ic))) I0 X1) as [I1 _].
      eapply (IH (cs ++ [ch])); [apply wi_split; exact I1|exact EW|]. rewrite EA1, <- !app_assoc. reflexivity.
    + reflexivity.
Qed.

Lemma write_final_ends cs wr w : wrote_inv cs wr w -> all = cs ++ write_final_chunk (wr_split wr) ->
  ends false w (sync_write_final codecs digest vtd fuel wr) (fun w' x => snd x = Ok tt).
Proof.
  intros I EA. unfold sync_write_final. rewrite (wi_target _ _ _ I). apply ends_bind.
  assert (forall x, In x all -> len x < CHUNK_LIMIT_MAX) as Hl by (intros x Ix; apply Hsz; exact Ix).
  assert (ends false w (if len (sp_buf (wr_split wr)) =? 0 then Ret (wr, Ok tt) else write_one_chunk codecs digest vtd fuel wr (sp_buf (wr_split wr))) (fun w1 x => snd x = Ok tt /\ wrote_inv all (fst x) w1)) as K.
  { unfold write_final_chunk in EA. destruct (len (sp_buf (wr_split wr)) =? 0).
    - cbn. rewrite app_nil_r in EA. rewrite EA. auto.
    - eapply ends_mono; [|apply ends_and; [exact (one_chunk_ends cs _ [] wr w EA I)|intros w1 x Hx; exact Hx]].
      cbv beta. intros w1 [wr1 r1] [E1 X1]. cbn [snd fst] in *. subst r1. split; [reflexivity|]. rewrite EA at 1. refine (proj1 (one_chunk_ok false cs _ [] wr w w1 wr1 EA _ I X1)).
      apply Hl. rewrite EA. apply in_or_app. right. left. reflexivity. }
  eapply ends_mono; [|exact K]. cbv beta. intros w1 [wr1 r1] [E1 I1]. cbn [snd fst] in *. subst r1.
  destruct I1 as [_ _ _ _ (x & g & C1 & C2 & C3 & C4 & C5 & C6) _ _ _]. unfold on_index at 1. rewrite C1.
  destruct (write_eof_succeeds fin f (c_min c) (c_avg c) (c_max c) g x C2 P C3) as (x1 & X1 & X2); [rewrite C5, listing_len, C4; exact Hlim|].
  cbn [wstep] in X1. unfold discard, bindM in X1. destruct (Index.index_write_eof x) as [r x1']. destruct r as [[]|e| |]; try discriminate X1. injection X1 as ->.
  cbn [ends]. unfold on_index. cbn [wr_index with_index].
  destruct (install_succeeds fin _ x1 X2 eq_refl) as (x2 & E2 & F2). cbn [wstep] in E2. unfold discard, bindM in E2.
  destruct (Index.index_install x1) as [r x3]. destruct r as [b|e| |]; try discriminate E2. reflexivity.
Qed.

Lemma write_stream_ends : forall ps cs wr w l s, wrote_inv cs wr w -> write_pieces c (wr_split wr) ps = Ok (l, s) -> all = cs ++ l ++ write_final_chunk s ->
  ends false w (write_stream codecs digest vtd fuel wr ps) (fun w' x => snd x = Ok tt).
Proof.
  assert (forall x, In x all -> len x < CHUNK_LIMIT_MAX) as Hl by (intros x Ix; apply Hsz; exact Ix).
  induction ps as [|p ps IH]; intros cs wr w l s I HW EA; cbn [write_stream write_pieces] in *.
  - injection HW as <- <-. eapply write_final_ends; [exact I|exact EA].
  - destruct (write_chunks (S (length p)) c (wr_split wr) p) as [[l1 s1]|e| |] eqn:E1; cbn [bind] in HW; try discriminate.
    destruct (write_pieces c s1 ps) as [[l2 s2]|e| |] eqn:E2; cbn [bind] in HW; try discriminate. injection HW as <- <-.
    assert (all = cs ++ l1 ++ l2 ++ write_final_chunk s2) as EA1 by (rewrite EA, <- app_assoc; reflexivity).
    unfold sync_write_chunks. rewrite (wi_target _ _ _ I). apply ends_bind.
    eapply ends_mono; [|apply ends_and; [exact (write_loop_ends _ cs p _ wr w l1 s1 I E1 EA1)|intros w1 x Hx; exact Hx]].
    cbv beta. intros w1 [wr1 r1] [R1 X1]. cbn [snd] in R1. subst r1.
    destruct (write_loop_ok false _ cs p (l2 ++ write_final_chunk s2) wr w w1 wr1 l1 s1 I Hl E1 EA1 X1) as [I1 S1].
    eapply (IH (cs ++ l1)); [exact I1|rewrite S1; exact E2|]. rewrite EA1, <- !app_assoc. reflexivity.
Qed.
End Write.
